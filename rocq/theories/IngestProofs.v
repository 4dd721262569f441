From Coq Require Import QArith String Permutation.
From Verif Require Import Base BaseFacts Scalars Arr2 Arr2Facts ChunksProofs FocalSpec BandsSpec Bands BandsProofs BlockArgs MapBlocks MapBlocksSpec MapBlocksProofs Normalize NormalizeSpec NormalizeProofs Reconcile ReconcileSpec ReconcileProofs Ingest IngestSpec.
From Coq Require Import ZifyBool.
Open Scope Z_scope.

(* ---- the null value ---- *)
Lemma existsb_nan row : existsb is_nan row = true <-> In NaN row.
Proof. rewrite existsb_exists. split; [intros (v & I & E); destruct v; try discriminate; exact I|intros I; exists NaN; auto]. Qed.
Lemma any_nan_iff b : any_nan b = true <-> some_nan b.
Proof.
  destruct b as [a|a]; cbn [any_nan some_nan]; rewrite existsb_exists.
  - split; [intros (row & I & E); exists row; split; [exact I|now apply existsb_nan]|intros (row & I & E); exists row; split; [exact I|now apply existsb_nan]].
  - split.
    + intros (band & I & E). apply existsb_exists in E as (row & I2 & E). exists band, row. split; [exact I|]. split; [exact I2|now apply existsb_nan].
    + intros (band & row & I & I2 & E). exists band. split; [exact I|]. apply existsb_exists. exists row. split; [exact I2|now apply existsb_nan].
Qed.
Lemma try_to_get_spec s data : null_of s data (try_to_get_null_value s data).
Proof.
  unfold null_of, recorded, try_to_get_null_value. pose proof (any_nan_iff data) as AN. destruct (s_fill s) as [[f|]|], (s_nodata s) as [n1|], (s_encoded s) as [n2|]; cbn [unset andb negb]; try reflexivity.
  - destruct (s_lazy s) eqn:L; cbn [negb].
    + destruct (is_float_dtype (s_dtype s)); cbn [orb]; (split; [auto|]); split; auto; try congruence; intros [K _]; discriminate.
    + split; [auto|]. split; [congruence|]. intros [_ [K|[_ K]]]; congruence.
  - destruct (is_float_dtype (s_dtype s)).
    + destruct (s_lazy s); cbn [orb]; [split; [auto|]; split; auto; intros _; discriminate|]. destruct (any_nan data) eqn:E.
      * split; [auto|]. split; [intros _; split; [reflexivity|right; split; [now apply AN|discriminate]]|intros _; discriminate].
      * split; [auto|]. split; [congruence|]. intros [_ [K|[K _]]]; [discriminate|]. apply AN in K. congruence.
    + split; [auto|]. split; [congruence|]. intros [K _]. discriminate.
Qed.
Lemma default_not_nan d : is_nan (default_null d) = false. Proof. now destruct d. Qed.
Lemma round_not_nan d v : is_nan v = false -> is_nan (round_to d v) = false.
Proof. destruct v as [q| | |]; try (intros H; exact H). cbn [round_to]. destruct (Qnum q =? 0); [reflexivity|]. destruct (ratio _ _ _). reflexivity. Qed.
Lemma reconcile_not_nan t v d : is_nan (fst (reconcile t v d)) = false.
Proof.
  unfold reconcile. destruct (is_nan v) eqn:N; [apply default_not_nan|]. destruct (can_cast t d); [exact N|].
  assert (T : forall nt nv, is_nan nv = false -> is_nan (fst (if can_cast nt d || (dtype_eqb d BOOL && (num_eqb nv (of_Z 0) || num_eqb nv (of_Z 1))) then (nv, false) else (default_null d, true))) = false).
  { intros nt nv H. destruct (can_cast nt d || _); [exact H|apply default_not_nan]. }
  destruct (is_float_dtype t).
  - destruct (integer_of v) as [z|]; [destruct (near_limit v); [|destruct (min_int_type z)]; now apply T|]. cbv zeta. apply T. destruct (dtype_eqb (min_float_type t v) t); [exact N|now apply round_not_nan].
  - destruct (integer_of v) as [z|]; [destruct (min_int_type z)|]; now apply T.
Qed.

(* ---- burning ---- *)
Lemma where3_shaped {A} nb ny nx (n : A) a m : 0 < nb -> 0 < ny -> 0 < nx -> shaped3 nb ny nx a -> shaped3 nb ny nx m -> shaped3 nb ny nx (where3 m n a).
Proof. intros Hb Hy Hx S M. rewrite (shaped3_is_tab3 false nb ny nx m M) by lia. rewrite (shaped3_is_tab3 n nb ny nx a S) by lia. rewrite where3_tab3. apply shaped3_tab3; lia. Qed.
Lemma where3_at {A} nb ny nx (n : A) a m b i j v k : 0 < nb -> 0 < ny -> 0 < nx -> shaped3 nb ny nx a -> shaped3 nb ny nx m -> at3 a b i j v -> at3 m b i j k -> at3 (where3 m n a) b i j (if k : bool then n else v).
Proof.
  intros Hb Hy Hx S M Ha Hm. destruct (at3_range _ _ _ _ _ _ _ _ S Ha) as (Rb & Ri & Rj).
  pose proof (at3_tab3 nb ny nx (val3 false m) b i j Rb Ri Rj) as T. rewrite <- (shaped3_is_tab3 false nb ny nx m M) in T by lia. rewrite (at3_fun _ _ _ _ _ _ Hm T).
  pose proof (at3_tab3 nb ny nx (val3 n a) b i j Rb Ri Rj) as T2. rewrite <- (shaped3_is_tab3 n nb ny nx a S) in T2 by lia. rewrite (at3_fun _ _ _ _ _ _ Ha T2).
  pose proof (at3_tab3 nb ny nx (fun b i j => if val3 false m b i j then n else val3 n a b i j) b i j Rb Ri Rj) as T3. cbv beta in T3.
  rewrite <- where3_tab3, <- (shaped3_is_tab3 false nb ny nx m M), <- (shaped3_is_tab3 n nb ny nx a S) in T3 by lia. exact T3.
Qed.

Lemma turn_y_moved {A} nb ys xs (a : arr3 A) i : moved ys (r_y (orient nb ys xs a)) i (turn_y ys i).
Proof. unfold orient, turn_y, moved. destruct (is_strictly_decreasing xs), (is_strictly_increasing ys); cbn [r_y]; auto. Qed.
Lemma turn_x_moved {A} nb ys xs (a : arr3 A) j : moved xs (r_x (orient nb ys xs a)) j (turn_x xs j).
Proof. unfold orient, turn_x, moved. destruct (is_strictly_decreasing xs), (is_strictly_increasing ys); cbn [r_x]; auto. Qed.

(* every value of an array of three dimensions *)
Lemma shaped3_get {A} nb ny nx (a : list (list (list A))) b i j : shaped3 nb ny nx a -> 0 <= b < nb -> 0 <= i < ny -> 0 <= j < nx -> exists v, at3 a b i j v.
Proof.
  intros (L & F) Rb Ri Rj. rewrite Forall_forall in F. destruct (get_range a b) as [band Eb]; [lia|]. destruct (F band (get_in _ _ _ Eb)) as (L2 & F2). rewrite Forall_forall in F2.
  destruct (get_range band i) as [row Er]; [lia|]. pose proof (F2 row (get_in _ _ _ Er)) as L3. destruct (get_range row j) as [v Ev]; [lia|]. exists v, band. split; [exact Eb|]. exists row. auto.
Qed.
Lemma array3_value {A} bd yd xd nb cy cx (x : xarray A) b i j : array3 bd yd xd nb cy cx x -> 0 <= b < nb -> 0 <= i < len (c_values cy) -> 0 <= j < len (c_values cx) -> exists v, value_along bd yd x b i j v.
Proof.
  intros (d0 & d1 & d2 & a & D & _ & BD & S & _) Rb Ri Rj. cbv zeta in S.
  assert (R : forall d, 0 <= along bd yd d b i j < along bd yd d nb (len (c_values cy)) (len (c_values cx))) by (intros d; unfold along; destruct (String.eqb d bd); [lia|]; destruct (String.eqb d yd); lia).
  destruct (shaped3_get _ _ _ a _ _ _ S (R d0) (R d1) (R d2)) as [v V]. exists v, d0, d1, d2, a. auto.
Qed.
Lemma value_along_fun {A} bd yd (x : xarray A) b i j v w : value_along bd yd x b i j v -> value_along bd yd x b i j w -> v = w.
Proof. intros (d0 & d1 & d2 & a & D & BD & V) (e0 & e1 & e2 & c & D' & BD' & V'). rewrite D in D'. injection D' as <- <- <-. rewrite BD in BD'. injection BD' as <-. eapply at3_fun; eassumption. Qed.
(* ---- putting it together ---- *)
Section Made.
Variables (spatial : list string -> option (string * string)) (nb : Z) (ys xs : list Q).
Hypothesis (Hb : 0 < nb) (Hy : 0 < len ys) (Hx : 0 < len xs) (SP : spatial ["band"; "y"; "x"]%string = Some ("y", "x")%string).
Lemma again {A B} (r : raster_array A) (t : list (list (list A))) (data : list (list (list B))) : shaped3 nb (len ys) (len xs) t -> r = orient nb ys xs t -> shaped3 nb (len ys) (len xs) data ->
  normalize_xarray_data spatial (of_raster (with_data r data)) = Ok (with_data r data).
Proof.
  intros St -> Sd. destruct (orient_places nb ys xs t St) as (O1 & (_ & L1 & L2) & _). destruct (orient_fixed nb ys xs t) as [F1 F2].
  change (of_raster (with_data (orient nb ys xs t) data)) with (as_xarray (with_data (orient nb ys xs t) data)).
  apply (normalize_fixed spatial nb); cbn [with_data r_y r_x r_band r_data]; try assumption; rewrite ?L1, ?L2; assumption.
Qed.
Lemma stored_ok (value null : Z -> Z -> Z -> num -> Prop) nv t D M : shaped3 nb (len ys) (len xs) t -> shaped3 nb (len ys) (len xs) D -> shaped3 nb (len ys) (len xs) M ->
  (forall b i j v, 0 <= b < nb -> 0 <= i < len ys -> 0 <= j < len xs -> value b i j v -> at3 t b i j v) ->
  let r := orient nb ys xs t in
  (forall b i j v, 0 <= b < nb -> 0 <= i < len ys -> 0 <= j < len xs -> value b i j v -> at3 (r_data r) b (turn_y ys i) (turn_x xs j) v -> exists m w, at3 M b (turn_y ys i) (turn_x xs j) m /\ at3 D b (turn_y ys i) (turn_x xs j) w
     /\ (m = true <-> null b i j v) /\ (m = false -> w = v) /\ (m = true -> exists n, nv = Some n /\ num_eqb w n = true)) ->
  stored nb ys xs value null nv (with_data r D) (with_data r M).
Proof.
  intros St SD SM V r H. destruct (orient_places nb ys xs t St) as (O1 & (_ & L1 & L2) & O3 & O4 & _). unfold stored. cbn [with_data r_y r_x r_band r_data].
  split; [exact O1|]. split; [exact O1|]. split; [reflexivity|]. split; [reflexivity|]. split; [exact SD|]. split; [exact SM|]. split; [exact O3|]. split; [exact O4|].
  intros b i j v Rb Ri Rj Hv. pose proof (orient_at nb ys xs t b i j v St (V b i j v Rb Ri Rj Hv)) as A. destruct (H b i j v Rb Ri Rj Hv A) as (m & w & H1 & H2 & H3).
  destruct (turned nb ys xs t i j Ri Rj) as [T1 T2]. exists (turn_y ys i), (turn_x xs j), m, w. split; [apply turn_y_moved|]. split; [apply turn_x_moved|]. auto.
Qed.
End Made.

(* the null value in the cells: burned if it changed *)
Lemma burned_cells nb ny nx (orig : option typed) d (a : list (list (list num))) : 0 < nb -> 0 < ny -> 0 < nx -> shaped3 nb ny nx a ->
  let mask := map3 (is_null (option_map snd orig)) a in
  let nv := reconcile_nullvalue_with_dtype orig d in
  let data := match nv with Some n => if changed orig n then where3 mask n a else a | None => a end in
  shaped3 nb ny nx mask /\ shaped3 nb ny nx data
  /\ forall b i j v, at3 a b i j v -> exists m w, at3 mask b i j m /\ at3 data b i j w
     /\ (m = true <-> null_value_here (option_map snd orig) v) /\ (m = false -> w = v) /\ (m = true -> exists n, nv = Some n /\ num_eqb w n = true).
Proof.
  intros Hb Hy Hx S mask nv data. assert (SM : shaped3 nb ny nx mask) by now apply map3_shaped.
  split; [exact SM|]. split; [unfold data; destruct nv as [n|]; [|exact S]; destruct (changed orig n); [now apply where3_shaped|exact S]|].
  intros b i j v H. assert (HM : at3 mask b i j (is_null (option_map snd orig) v)) by now apply at3_map3.
  pose proof (is_null_here (option_map snd orig) v) as IN. destruct orig as [[t o]|]; cbn [option_map snd reconcile_nullvalue_with_dtype] in *.
  - unfold data, nv. cbn [changed]. set (n := fst (reconcile t o d)). destruct (is_nan o || negb (num_eqb o n)) eqn:C.
    + eexists _, _. split; [exact HM|]. split; [exact (where3_at nb ny nx n a mask b i j v _ Hb Hy Hx S SM H HM)|]. split; [exact IN|]. cbn [is_null]. split; intros ->; [reflexivity|].
      exists n. split; [reflexivity|]. apply num_eqb_refl, reconcile_not_nan.
    + eexists _, _. split; [exact HM|]. split; [exact H|]. split; [exact IN|]. split; [reflexivity|]. intros K. exists n. split; [reflexivity|].
      apply orb_false_iff in C as [C1 C2]. apply negb_false_iff in C2. cbn [is_null] in K. rewrite C1 in K. eapply num_eqb_trans; eassumption.
  - exists false, v. split; [exact HM|]. split; [exact H|]. split; [exact IN|]. split; [reflexivity|discriminate].
Qed.
Lemma dataarray_stored spatial s (x : xarray num) bd yd xd nb cy cx : array3 bd yd xd nb cy cx x -> 0 < nb -> 0 < len (c_values cy) -> 0 < len (c_values cx) ->
  spatial (map standard (x_dims x)) = Some (standard yd, standard xd) -> spatial ["band"; "y"; "x"]%string = Some ("y", "x")%string ->
  exists orig rd rm, null_of s (x_body x) orig
  /\ dataarray_input_to_raster_ds spatial s x = Ok (reconcile_nullvalue_with_dtype orig (s_dtype s), rd, rm)
  /\ stored nb (c_values cy) (c_values cx) (value_along bd yd x) (fun _ _ _ v => null_value_here (option_map snd orig) v) (reconcile_nullvalue_with_dtype orig (s_dtype s)) rd rm.
Proof.
  intros W Hb Hy Hx S1 S2. destruct (normalize_placed spatial x bd yd xd nb cy cx W Hb Hy Hx S1) as (r & R & _ & t & St & -> & V).
  set (orig := try_to_get_null_value s (x_body x)). exists orig. destruct (orient_places nb (c_values cy) (c_values cx) t St) as (_ & (Sr & _) & _).
  destruct (burned_cells nb (len (c_values cy)) (len (c_values cx)) orig (s_dtype s) _ Hb Hy Hx Sr) as (B1 & B2 & B3).
  eexists _, _. split; [apply try_to_get_spec|]. unfold dataarray_input_to_raster_ds. fold orig. rewrite R. cbn [rbind]. unfold dataarray_to_xr_raster_ds.
  split.
  - unfold arr3, arr2 in *. rewrite (again spatial nb (c_values cy) (c_values cx) Hb Hy Hx S2 _ t _ St eq_refl B2). cbn [rbind].
    rewrite (again spatial nb (c_values cy) (c_values cx) Hb Hy Hx S2 _ t _ St eq_refl B1). cbn [rbind]. reflexivity.
  - apply (stored_ok nb (c_values cy) (c_values cx) (value_along bd yd x) _ _ t); try assumption. intros b i j v _ _ _ _ A. now apply B3.
Qed.
Lemma dataset_stored spatial s (x : xarray num) (xm : xarray bool) same lazy bd yd xd bd' yd' xd' nb cy cx :
  array3 bd yd xd nb cy cx x -> array3 bd' yd' xd' nb cy cx xm -> 0 < nb -> 0 < len (c_values cy) -> 0 < len (c_values cx) ->
  spatial (map standard (x_dims x)) = Some (standard yd, standard xd) -> spatial (map standard (x_dims xm)) = Some (standard yd', standard xd') -> spatial ["band"; "y"; "x"]%string = Some ("y", "x")%string ->
  ~ (lazy = true /\ x_dims x = ["band"; "y"; "x"]%string /\ x_dims xm = ["band"; "y"; "x"]%string /\ same = true) ->
  exists nv rd rm, dataset_to_raster_ds spatial s x xm true lazy same = Ok (Made (nv, rd, rm))
  /\ (nv = None -> False) /\ (match recorded s with Some (t, v) => nv = Some (fst (reconcile t v (s_dtype s))) | None => nv = Some (default_null (s_dtype s)) end)
  /\ stored nb (c_values cy) (c_values cx) (value_along bd yd x) (fun b i j _ => value_along bd' yd' xm b i j true) nv rd rm.
Proof.
  intros W W' Hb Hy Hx S1 S1' S2 NF. destruct (normalize_placed spatial x bd yd xd nb cy cx W Hb Hy Hx S1) as (r & R & _ & t & St & -> & V).
  destruct (normalize_placed spatial xm bd' yd' xd' nb cy cx W' Hb Hy Hx S1') as (rm & R' & _ & tm & Stm & -> & V').
  destruct (orient_places nb (c_values cy) (c_values cx) t St) as (Bd & (Sr & _) & _). destruct (orient_places nb (c_values cy) (c_values cx) tm Stm) as (Bm & (Srm & _) & _).
  assert (SE : forall a b, strings_eqb a b = true -> a = b).
  { induction a as [|p a IH]; intros [|q b] E; cbn in E; try discriminate; [reflexivity|]. apply andb_true_iff in E as [E1 E2]. apply String.eqb_eq in E1. f_equal; auto. }
  unfold dataset_to_raster_ds. rewrite andb_true_r. destruct (lazy && strings_eqb (x_dims x) standard_dims && strings_eqb (x_dims xm) standard_dims && same) eqn:E.
  { exfalso. apply NF. rewrite !andb_true_iff in E. destruct E as [[[E1 E2] E3] E4]. apply SE in E2, E3. auto. }
  cbn [negb]. rewrite R, R'. cbn [rbind]. rewrite (same_shape_ok nb (len (c_values cy)) (len (c_values cx))) by assumption. cbn [negb].
  set (found := try_to_get_null_value s (Body3 _)). pose proof (try_to_get_spec s (Body3 (r_data (orient nb (c_values cy) (c_values cx) t)))) as N. fold found in N.
  assert (NV : exists n, match found with None => Some (default_null (s_dtype s)) | Some _ => reconcile_nullvalue_with_dtype found (s_dtype s) end = Some n /\ is_nan n = false
     /\ match recorded s with Some (ty, v) => Some n = Some (fst (reconcile ty v (s_dtype s))) | None => Some n = Some (default_null (s_dtype s)) end).
  { unfold null_of in N. destruct found as [[ty v]|]; cbn [reconcile_nullvalue_with_dtype].
    - eexists. split; [reflexivity|]. split; [apply reconcile_not_nan|]. destruct (recorded s) as [[t' v']|]; [injection N as -> ->; reflexivity|]. destruct N as [[N|N] _]; [discriminate|]. injection N as -> ->. reflexivity.
    - eexists. split; [reflexivity|]. split; [apply default_not_nan|]. destruct (recorded s) as [[t' v']|]; [discriminate|reflexivity]. }
  destruct NV as (n & En & Nn & Rn). rewrite En. exists (Some n).
  assert (SD : shaped3 nb (len (c_values cy)) (len (c_values cx)) (where3 (r_data (orient nb (c_values cy) (c_values cx) tm)) n (r_data (orient nb (c_values cy) (c_values cx) t)))) by now apply where3_shaped.
  exists (with_data (orient nb (c_values cy) (c_values cx) t) (where3 (r_data (orient nb (c_values cy) (c_values cx) tm)) n (r_data (orient nb (c_values cy) (c_values cx) t)))), (with_data (orient nb (c_values cy) (c_values cx) t) (r_data (orient nb (c_values cy) (c_values cx) tm))).
  assert (EM : with_data (orient nb (c_values cy) (c_values cx) t) (r_data (orient nb (c_values cy) (c_values cx) tm)) = orient nb (c_values cy) (c_values cx) tm).
  { destruct (orient_coords nb (c_values cy) (c_values cx) t tm) as [K1 K2]. unfold with_data. rewrite Bd, K1, K2, <- Bm. now destruct (orient nb (c_values cy) (c_values cx) tm). }
  split; [|split; [discriminate|split; [exact Rn|]]].
  - unfold dataarray_to_xr_raster_ds. unfold arr3, arr2 in *. rewrite (again spatial nb (c_values cy) (c_values cx) Hb Hy Hx S2 _ t _ St eq_refl SD). cbn [rbind].
    rewrite <- EM at 1. rewrite (again spatial nb (c_values cy) (c_values cx) Hb Hy Hx S2 _ t _ St eq_refl Srm). reflexivity.
  - apply (stored_ok nb (c_values cy) (c_values cx) (value_along bd yd x) _ _ t); try assumption. intros b i j v Rb Ri Rj Hv A.
    destruct (array3_value bd' yd' xd' nb cy cx xm b i j W' Rb Ri Rj) as [k K]. pose proof (orient_at nb _ _ tm b i j k Stm (V' b i j k Rb Ri Rj K)) as T.
    exists k. eexists. split; [exact T|]. split; [now apply (where3_at nb (len (c_values cy)) (len (c_values cx)) n _ _ _ _ _ v k)|].
    split; [|split; [intros ->; reflexivity|intros ->; exists n; split; [reflexivity|now apply num_eqb_refl]]].
    split; [intros ->; exact K|]. intros K'. eapply value_along_fun; eassumption.
Qed.
Lemma dataset_not_bool spatial s x xm lazy same : dataset_to_raster_ds spatial s x xm false lazy same = Err TypeError.
Proof. unfold dataset_to_raster_ds. now rewrite andb_false_r. Qed.
(* plain arrays *)
Lemma shaped_flat nb ny nx (a : list (list (list num))) : shaped3 nb ny nx a -> some_nan (Body3 a) -> exists b i j, at3 a b i j NaN.
Proof.
  intros _ (band & row & I & I2 & I3). apply In_nth_error in I as [b B], I2 as [i I2], I3 as [j J].
  assert (G : forall {X} (l : list X) n y, nth_error l n = Some y -> get l (Z.of_nat n) = Ok y).
  { intros X l n y E. unfold get. replace (Z.of_nat n <? 0) with false by lia. rewrite Nat2Z.id, E. reflexivity. }
  exists (Z.of_nat b), (Z.of_nat i), (Z.of_nat j), band. split; [now apply G|]. exists row. split; now apply G.
Qed.
Lemma array_stored d lazy (data : list (list (list num))) nb ny nx ys xs : 0 < nb -> 0 < ny -> 0 < nx -> shaped3 nb ny nx data -> coordinates_of Default ny nx ys xs ->
  exists nv rd rm, array_input_to_raster_ds d lazy data = Ok (nv, rd, rm)
  /\ (nv = None \/ nv = Some (default_null d)) /\ (nv <> None <-> is_float_dtype d = true /\ (lazy = true \/ exists b i j, at3 data b i j NaN))
  /\ r_y rd = r_y rm /\ r_x rd = r_x rm /\ r_band rd = zrange 1 (nb + 1) /\ r_band rm = zrange 1 (nb + 1)
  /\ shaped3 nb ny nx (r_data rd) /\ shaped3 nb ny nx (r_data rm)
  /\ forall b i j v, at3 data b i j v -> exists i' j' m w, same_coord (get (r_y rd) i') (get ys i) /\ same_coord (get (r_x rd) j') (get xs j)
     /\ at3 (r_data rm) b i' j' m /\ at3 (r_data rd) b i' j' w /\ (m = true <-> nv <> None /\ v = NaN) /\ w = if m then default_null d else v.
Proof.
  intros Hb Hy Hx S C. unfold array_input_to_raster_ds. set (has_nan := if lazy then _ else _).
  assert (HN : has_nan = true <-> is_float_dtype d = true /\ (lazy = true \/ exists b i j, at3 data b i j NaN)).
  { unfold has_nan. destruct lazy; [tauto|]. rewrite andb_true_iff, any_nan_iff. split; intros [F K]; (split; [exact F|]).
    - right. now apply (shaped_flat nb ny nx).
    - destruct K as [K|(b & i & j & band & B & row & R & J)]; [discriminate|]. exists band, row. split; [exact (get_in _ _ _ B)|]. split; [exact (get_in _ _ _ R)|exact (get_in _ _ _ J)]. }
  destruct (data_to_ds d data None Default (option_map snd (if has_nan then Some (F64, NaN) else None)) false nb ny nx ys xs Hb Hy Hx S I C) as (rd & rm & E & C1 & C2 & B1 & B2 & S1 & S2 & _ & _ & V). cbv beta zeta iota in E. unfold arr3, arr2 in *. rewrite E. cbn [rbind].
  destruct has_nan; cbn [option_map snd] in *.
  - cbn [reconcile_nullvalue_with_dtype changed is_nan orb]. assert (R : fst (reconcile F64 NaN d) = default_null d) by reflexivity. rewrite R.
    eexists _, _, _. split; [reflexivity|]. split; [auto|]. split; [rewrite <- HN; split; [reflexivity|discriminate]|]. cbn [with_data r_y r_x r_band r_data]. do 4 (split; [assumption|]).
    split; [now apply where3_shaped|]. split; [exact S2|]. intros b i j v Hv. destruct (V b i j v Hv) as (i' & j' & m & K1 & K2 & K3 & K4 & K5). exists i', j', m. eexists. split; [exact K1|]. split; [exact K2|]. split; [exact K3|].
    split; [exact (where3_at nb ny nx _ _ _ _ _ _ _ _ Hb Hy Hx S1 S2 K5 K3)|]. split; [|reflexivity]. rewrite K4. unfold null_value_here. split.
    + intros (n & [= <-] & [[_ K]|K]); (split; [discriminate|]); [now destruct v|destruct v; discriminate].
    + intros [_ ->]. exists NaN. auto.
  - cbn [reconcile_nullvalue_with_dtype]. exists None, rd, rm. split; [reflexivity|]. split; [auto|]. split; [rewrite <- HN; split; [congruence|discriminate]|]. do 6 (split; [assumption|]).
    intros b i j v Hv. destruct (V b i j v Hv) as (i' & j' & m & K1 & K2 & K3 & K4 & K5). exists i', j', m, v. split; [exact K1|]. split; [exact K2|]. split; [exact K3|]. split; [exact K5|].
    assert (m = false) as -> by (destruct m; [|reflexivity]; destruct (proj1 K4 eq_refl) as (n & [=] & _)). split; [|reflexivity]. split; [discriminate|]. intros [K _]. now destruct K.
Qed.
Lemma shapes_differ {A B} nb ny nx nb' ny' nx' (a : list (list (list A))) (c : list (list (list B))) : 0 < nb -> 0 < ny -> 0 < nx -> 0 < nb' -> 0 < ny' -> 0 < nx' ->
  shaped3 nb ny nx a -> shaped3 nb' ny' nx' c -> same_shape3 a c = true -> nb = nb' /\ ny = ny' /\ nx = nx'.
Proof.
  intros H1 H2 H3 H4 H5 H6 Sa Sc E. apply lists_eqb_eq in E. rewrite (len3_shaped _ _ _ _ Sa), (len3_shaped _ _ _ _ Sc) in E.
  assert (nb = nb') as <-. { apply (f_equal len) in E. rewrite !full_len in E by lia. exact E. }
  assert (E2 : full ny nx = full ny' nx'). { apply (f_equal (fun l => get l 0)) in E. rewrite !get_full in E by lia. now injection E. }
  assert (ny = ny') as <-. { apply (f_equal len) in E2. rewrite !full_len in E2 by lia. exact E2. }
  apply (f_equal (fun l => get l 0)) in E2. rewrite !get_full in E2 by lia. injection E2 as ->. auto.
Qed.
Lemma dataset_shapes spatial s (x : xarray num) (xm : xarray bool) same lazy bd yd xd bd' yd' xd' nb cy cx nb' cy' cx' :
  array3 bd yd xd nb cy cx x -> array3 bd' yd' xd' nb' cy' cx' xm -> 0 < nb -> 0 < len (c_values cy) -> 0 < len (c_values cx) -> 0 < nb' -> 0 < len (c_values cy') -> 0 < len (c_values cx') ->
  spatial (map standard (x_dims x)) = Some (standard yd, standard xd) -> spatial (map standard (x_dims xm)) = Some (standard yd', standard xd') ->
  same = false -> ~ (nb = nb' /\ len (c_values cy) = len (c_values cy') /\ len (c_values cx) = len (c_values cx')) ->
  dataset_to_raster_ds spatial s x xm true lazy same = Err ValueError.
Proof.
  intros W W' Hb Hy Hx Hb' Hy' Hx' S1 S1' -> ND. destruct (normalize_placed spatial x bd yd xd nb cy cx W Hb Hy Hx S1) as (r & R & P & _).
  destruct (normalize_placed spatial xm bd' yd' xd' nb' cy' cx' W' Hb' Hy' Hx' S1') as (rm & R' & P' & _). destruct P as (_ & (Sr & _) & _), P' as (_ & (Sm & _) & _).
  unfold dataset_to_raster_ds. rewrite !andb_false_r. cbn [negb]. rewrite R, R'. cbn [rbind]. destruct (same_shape3 (r_data r) (r_data rm)) eqn:E; [|reflexivity].
  destruct ND. apply (shapes_differ nb _ _ nb' _ _ _ _ Hb Hy Hx Hb' Hy' Hx' Sr Sm E).
Qed.
