From Coq Require Import QArith String Lia ZifyBool.
From Verif Require Import Base BaseFacts ChunksProofs CostPublicProofs ProximityChunk RasterStack Arr2Facts Scalars Arr2 FocalSpec RasterSpec BandsSpec Bands MapBlocks MapBlocksSpec MapBlocksProofs Blocks Normalize NormalizeSpec NormalizeProofs Ingest IngestProofs WriteOptions CreationProofs Dataset DatasetSpec.
Open Scope Z_scope.

Lemma here_iff nv x : null_value_here nv x <-> match nv with Some n => same_value x n = true | None => False end.
Proof.
  unfold null_value_here. split.
  - intros (n & -> & [[H1 H2]|H]); unfold same_value; destruct n, x; try discriminate; try reflexivity; exact H.
  - destruct nv as [n|]; [|contradiction]. intros H. exists n. split; [reflexivity|]. unfold same_value in H. destruct n, x; try (right; exact H); left; split; reflexivity.
Qed.
Lemma is_null_same n x : is_null (Some n) x = same_value x n.
Proof. unfold is_null, same_value. destruct n, x; reflexivity. Qed.
Lemma same_refl v : same_value v v = true.
Proof. unfold same_value. destruct v; try reflexivity. cbn. apply Qeq_bool_iff. reflexivity. Qed.
Lemma size3_shaped {A} nb ny nx (a : arr3 A) : 0 < nb -> 0 < ny -> shaped3 nb ny nx a -> size3 a = (nb, ny, nx).
Proof.
  intros Hb Hy [L F]. destruct a as [|band a]; [unfold len in L; cbn in L; lia|]. apply Forall_cons_iff in F as [[L2 F2] _]. destruct band as [|row band]; [unfold len in L2; cbn in L2; lia|].
  apply Forall_cons_iff in F2 as [L3 _]. unfold size3. f_equal; [f_equal|]; assumption.
Qed.
Lemma len_x_coords t ny nx : 0 <= nx -> len (x_coords_of t ny nx) = nx.
Proof. intros. unfold x_coords_of. rewrite len_map, len_zrange; lia. Qed.
Lemma len_y_coords t ny nx : 0 <= ny -> len (y_coords_of t ny nx) = ny.
Proof. intros. unfold y_coords_of. rewrite len_map, len_zrange; lia. Qed.
Lemma cols_x_coords t ny nx : 0 <= nx -> cols_of t ny nx (x_coords_of t ny nx).
Proof. intros H. split; [now apply len_x_coords|]. intros j J. unfold x_coords_of. rewrite get_map_eq, get_zrange by lia. now replace (0 + j) with j by lia. Qed.
Lemma rows_y_coords t ny nx : 0 <= ny -> rows_of t ny nx (y_coords_of t ny nx).
Proof. intros H. split; [now apply len_y_coords|]. intros i I. unfold y_coords_of. rewrite get_map_eq, get_zrange by lia. now replace (0 + i) with i by lia. Qed.

Lemma build_ok t v nb ny nx : good v nb ny nx -> exists r ys xs, build_raster t v = Ok r /\ rows_of t ny nx ys /\ cols_of t ny nx xs /\ holds v nb ys xs r.
Proof.
  intros (Hb & Hy & Hx & S). unfold build_raster. rewrite (size3_shaped nb ny nx) by assumption. cbv beta iota zeta. fold (declared v).
  set (ys := y_coords_of t ny nx). set (xs := x_coords_of t ny nx).
  assert (LY : len ys = ny) by (apply len_y_coords; lia). assert (LX : len xs = nx) by (apply len_x_coords; lia).
  assert (P : coordinates_of (Normalize.Affine xs ys) ny nx ys xs) by (repeat split; assumption).
  pose proof (data_to_ds (v_dtype v) (v_data v) None (Normalize.Affine xs ys) (declared v) false nb ny nx ys xs Hb Hy Hx S I P) as (rd & rm & E & EY & EX & EB & EB' & SD & SM & OX & OY & CELL).
  match goal with |- context [data_to_xr_raster_ds ?a ?b ?c ?d ?e ?f] => replace (data_to_xr_raster_ds a b c d e f) with (Ok (declared v, rd, rm)) by (symmetry; exact E) end. cbn [rbind]. clear E.
  assert (SET : match declared v with Some n => is_nan n = true | None => True end -> holds v nb ys xs (set_default_null (v_dtype v) (declared v, rd, rm))).
  { intros D. assert (N : null_of v = default_null (v_dtype v)) by (unfold null_of; destruct (declared v) as [[| | |]|]; (reflexivity || discriminate)).
    unfold set_default_null. set (n := default_null (v_dtype v)) in *. set (temp := map3 (is_null (Some n)) (r_data rd)). set (mask := match declared v with Some _ => _ | None => _ end).
    assert (ST : shaped3 nb ny nx temp) by now apply map3_shaped.
    assert (SK : shaped3 nb ny nx mask) by (unfold mask; destruct (declared v); [apply map3_shaped, zip3_shaped; try assumption; try lia; exact false|exact ST]).
    unfold holds. rewrite N. split; [reflexivity|]. cbn [with_data r_y r_x r_band r_data]. rewrite LY, LX. split; [exact EY|]. split; [exact EX|]. split; [exact EB|]. split; [exact EB'|]. split; [now apply where3_shaped|]. split; [exact SK|]. split; [exact OX|]. split; [exact OY|].
    intros b i j x A. destruct (CELL b i j x A) as (i' & j' & m & CY & CX & AM & MI & AD). rewrite here_iff in MI.
    assert (AT : at3 temp b i' j' (same_value x n)) by (unfold temp; rewrite <- is_null_same; now apply at3_map3).
    assert (AK : at3 mask b i' j' (missing v x || same_value x n)).
    { unfold mask, missing. destruct (declared v) as [f|].
      - replace (same_value x f) with m by (destruct m, (same_value x f); try reflexivity; [symmetry; now apply MI|now apply MI]).
        change (m || same_value x n) with ((fun p : bool * bool => fst p || snd p) (m, same_value x n)). apply at3_map3. now apply (at3_zip nb ny nx); try assumption; try lia.
      - exact AT. }
    exists i', j', (missing v x || same_value x n), (if missing v x || same_value x n then n else x). split; [exact CY|]. split; [exact CX|]. split; [exact AK|]. split; [now apply (where3_at nb ny nx)|]. split; [reflexivity|].
    split; intros ->; [reflexivity|apply same_refl]. }
  destruct (declared v) as [n|] eqn:D.
  - destruct (is_nan n) eqn:NN; [eexists _, ys, xs; split; [reflexivity|]; split; [apply rows_y_coords; lia|]; split; [apply cols_x_coords; lia|]; now apply SET|].
    eexists _, ys, xs. split; [reflexivity|]. split; [apply rows_y_coords; lia|]. split; [apply cols_x_coords; lia|]. clear SET.
    assert (N : null_of v = n) by (unfold null_of; rewrite D; destruct n; (reflexivity || discriminate)).
    unfold holds. rewrite N, LY, LX. repeat (split; [assumption || reflexivity|]). intros b i j x A. destruct (CELL b i j x A) as (i' & j' & m & CY & CX & AM & MI & AD). rewrite here_iff in MI.
    exists i', j', m, x. split; [exact CY|]. split; [exact CX|]. split; [exact AM|]. split; [exact AD|]. unfold missing. rewrite D, orb_diag. split; [destruct m, (same_value x n); try reflexivity; [symmetry; now apply MI|now apply MI]|]. split; [reflexivity|]. apply MI.
  - eexists _, ys, xs. split; [reflexivity|]. split; [apply rows_y_coords; lia|]. split; [apply cols_x_coords; lia|]. now apply SET.
Qed.

(* ---------------- the variables ---------------- *)
Lemma ndim_real shape : squeezed_ndim shape = real_dims shape.
Proof. unfold squeezed_ndim. induction shape as [|n s IH]; [reflexivity|]. cbn [filter real_dims]. destruct (n =? 1); cbn [negb]; [|rewrite len_cons]; lia. Qed.
Lemma valid_ok ignore vs : (forall v, In v vs -> 2 <= real_dims (v_shape v)) -> (ignore = true \/ forall v, In v vs -> real_dims (v_shape v) <= 3) -> valid_variables ignore vs = Ok (filter rasterlike vs).
Proof.
  induction vs as [|v vs IH]; intros H2 H3; [reflexivity|]. cbn [valid_variables filter]. rewrite ndim_real. unfold rasterlike at 1. pose proof (H2 v (or_introl eq_refl)) as A.
  assert (IH' : valid_variables ignore vs = Ok (filter rasterlike vs)) by (apply IH; [intros; apply H2; now right|destruct H3 as [H3|H3]; [now left|right; intros; apply H3; now right]]).
  destruct (3 <? real_dims (v_shape v)) eqn:E.
  - destruct H3 as [->|H3]; [|specialize (H3 v (or_introl eq_refl)); lia]. replace ((2 <=? real_dims (v_shape v)) && (real_dims (v_shape v) <=? 3)) with false by lia. exact IH'.
  - replace ((real_dims (v_shape v) =? 2) || (real_dims (v_shape v) =? 3)) with true by lia. rewrite IH'. cbn [rbind]. replace ((2 <=? real_dims (v_shape v)) && (real_dims (v_shape v) <=? 3)) with true by lia. reflexivity.
Qed.
Lemma valid_refused ignore vs : (exists v, In v vs /\ (real_dims (v_shape v) < 2 \/ ignore = false /\ 3 < real_dims (v_shape v))) -> valid_variables ignore vs = Err TypeError.
Proof.
  induction vs as [|v vs IH]; intros (w & I & H); [destruct I|]. cbn [valid_variables]. rewrite ndim_real. destruct I as [->|I].
  - destruct H as [H|[-> H]].
    + replace (3 <? real_dims (v_shape w)) with false by lia. now replace ((real_dims (v_shape w) =? 2) || (real_dims (v_shape w) =? 3)) with false by lia.
    + now replace (3 <? real_dims (v_shape w)) with true by lia.
  - rewrite IH by eauto. now destruct (3 <? real_dims (v_shape v)), ignore, ((real_dims (v_shape v) =? 2) || (real_dims (v_shape v) =? 3)).
Qed.
Lemma traverse_all {A B} (f : A -> res B) (P : A -> B -> Prop) l : (forall x, In x l -> exists y, f x = Ok y /\ P x y) -> exists l', traverse f l = Ok l' /\ Forall2 P l l'.
Proof.
  induction l as [|x l IH]; intros H; [exists []; split; [reflexivity|constructor]|]. destruct (H x (or_introl eq_refl)) as (y & E & HP). destruct IH as (l' & E' & F); [intros; apply H; now right|].
  exists (y :: l'). cbn [traverse]. rewrite E. cbn [rbind]. rewrite E'. split; [reflexivity|now constructor].
Qed.
Definition kwargs_of (k : option dict) : dict := dput "decode_coords" (VStr "all") (match k with None => [] | Some k => k end).
Theorem open_ok open_file ignore kwargs f t : open_file (kwargs_of kwargs) = Ok f -> f_affine f = Ok t ->
  (forall v, In v (f_vars f) -> 2 <= real_dims (v_shape v)) -> (ignore = true \/ forall v, In v (f_vars f) -> real_dims (v_shape v) <= 3) ->
  (exists v, In v (f_vars f) /\ rasterlike v = true) -> (forall v, In v (f_vars f) -> rasterlike v = true -> exists nb ny nx, good v nb ny nx) ->
  exists rs, fst (open_dataset open_file ignore kwargs) = Ok rs
  /\ Forall2 (fun v r => fst r = v_name v /\ forall nb ny nx, good v nb ny nx -> exists ys xs, rows_of t ny nx ys /\ cols_of t ny nx xs /\ holds v nb ys xs (snd r)) (filter rasterlike (f_vars f)) rs.
Proof.
  intros EF EA H2 H3 [v0 [I0 R0]] G. unfold open_dataset. cbn [fst]. fold (kwargs_of kwargs). rewrite EF. cbn [rbind]. unfold get_valid_variables. rewrite (valid_ok ignore (f_vars f) H2 H3). cbn [rbind].
  assert (I1 : In v0 (filter rasterlike (f_vars f))) by (apply filter_In; auto). destruct (filter rasterlike (f_vars f)) as [|w ws] eqn:EW; [destruct I1|]. cbn [rbind]. rewrite EA. cbn [rbind]. rewrite <- EW. clear I1.
  apply traverse_all. intros v I. apply filter_In in I as [I R]. destruct (G v I R) as (nb & ny & nx & GV). destruct (build_ok t v nb ny nx GV) as (r & ys & xs & E & HY & HX & HH). exists (v_name v, r). split; [now rewrite E|]. split; [reflexivity|].
  intros nb' ny' nx' GV'. cbn [snd]. destruct (build_ok t v nb' ny' nx' GV') as (r' & ys' & xs' & E' & H'). rewrite E in E'. injection E' as <-. eauto.
Qed.
Theorem open_refused open_file ignore kwargs :
  (forall e, open_file (kwargs_of kwargs) = Err e -> fst (open_dataset open_file ignore kwargs) = Err e)
  /\ (forall f, open_file (kwargs_of kwargs) = Ok f -> (exists v, In v (f_vars f) /\ (real_dims (v_shape v) < 2 \/ ignore = false /\ 3 < real_dims (v_shape v))) -> fst (open_dataset open_file ignore kwargs) = Err TypeError)
  /\ (forall f, open_file (kwargs_of kwargs) = Ok f -> ignore = true -> (forall v, In v (f_vars f) -> 3 < real_dims (v_shape v)) -> fst (open_dataset open_file ignore kwargs) = Err ValueError)
  /\ (forall f e, open_file (kwargs_of kwargs) = Ok f -> (forall v, In v (f_vars f) -> rasterlike v = true) -> f_vars f <> [] -> f_affine f = Err e -> fst (open_dataset open_file ignore kwargs) = Err e).
Proof.
  unfold open_dataset. cbn [fst]. fold (kwargs_of kwargs). repeat split.
  - now intros e ->.
  - intros f -> H. cbn [rbind]. unfold get_valid_variables. now rewrite valid_refused.
  - intros f -> -> H. cbn [rbind]. unfold get_valid_variables. rewrite valid_ok by (auto; intros v I; specialize (H v I); lia). cbn [rbind].
    replace (filter rasterlike (f_vars f)) with (@nil variable); [reflexivity|]. symmetry. destruct (filter rasterlike (f_vars f)) as [|w ws] eqn:E; [reflexivity|]. assert (I : In w (filter rasterlike (f_vars f))) by (rewrite E; now left). apply filter_In in I as [I R]. specialize (H w I). unfold rasterlike in R. lia.
  - intros f e -> H NE EA. cbn [rbind]. unfold get_valid_variables. assert (D : forall v, In v (f_vars f) -> 2 <= real_dims (v_shape v) <= 3) by (intros v I; specialize (H v I); unfold rasterlike in H; lia).
    rewrite valid_ok by (try right; intros v I; specialize (D v I); lia). cbn [rbind]. destruct (f_vars f) as [|v vs] eqn:EV; [contradiction|]. cbn [filter]. rewrite (H v) by now left. cbn [rbind]. now rewrite EA.
Qed.
(* the variable's own coordinates *)
Theorem holds_agrees t v nb ny nx ys xs r : good v nb ny nx -> rows_of t ny nx ys -> cols_of t ny nx xs -> agrees t v ny nx -> holds v nb ys xs r ->
  let '(_, rd, rm) := r in forall b i j x, at3 (v_data v) b i j x -> exists i' j' m w,
     same_coord (get (r_y rd) i') (get (v_y v) i) /\ same_coord (get (r_x rd) j') (get (v_x v) j)
     /\ at3 (r_data rm) b i' j' m /\ at3 (r_data rd) b i' j' w
     /\ m = missing v x || same_value x (null_of v) /\ (m = false -> w = x) /\ (m = true -> same_value w (null_of v) = true).
Proof.
  destruct r as [[nv rd] rm]. intros (Hb & Hy & Hx & S) (LY & RY) (LX & RX) (AY & AX & AGY & AGX) (_ & _ & _ & _ & _ & _ & _ & _ & _ & CELL) b i j x A.
  destruct (CELL b i j x A) as (i' & j' & m & w & CY & CX & REST). exists i', j', m, w. destruct (at3_range _ _ _ _ _ _ _ _ S A) as (R1 & R2 & R3). rewrite RY in CY by lia. rewrite RX in CX by lia. specialize (AGY i R2). specialize (AGX j R3).
  split; [|split; [|exact REST]].
  - unfold same_coord in *. destruct (get (r_y rd) i'); [|contradiction]. destruct (get (v_y v) i); [|contradiction]. eapply Qeq_trans; eassumption.
  - unfold same_coord in *. destruct (get (r_x rd) j'); [|contradiction]. destruct (get (v_x v) j); [|contradiction]. eapply Qeq_trans; eassumption.
Qed.
