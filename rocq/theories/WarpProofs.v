From Coq Require Import QArith String Lia.
From Verif Require Import Base BaseFacts ChunksProofs Scalars Arr2 Arr2Facts FocalSpec FocalValues Raster RasterSpec RasterProofs CostPublicProofs Warp WarpSpec.
Open Scope Z_scope.

Section Proofs.
Context {G C : Type}.
Variable size : G -> Z * Z.
Variable sources : string -> G -> G -> Z -> Z -> list (Z * Z).
Variable resample : string -> dtype -> list (Z * Z * num) -> num.
Variable supported : string -> bool.
Variable to_crs : G -> C -> res G.
Variable zoom_to : G -> num -> res G.
Variable grid_eqb : G -> G -> bool.
Variable warp : string -> dtype -> G -> G -> option num -> num -> arr2 num -> arr2 num.
Hypothesis W : warps size sources resample warp.

Lemma val2_map2 {A B} (f : A -> B) d d' a ny nx i j : shaped2 ny nx a -> 0 <= i < ny -> 0 <= j < nx -> val2 d' (map2 f a) i j = f (val2 d a i j).
Proof.
  intros [L F] I J. unfold val2, map2. rewrite get_map_eq. destruct (get_range a i) as [row E]; [lia|]. rewrite E, get_map_eq.
  rewrite Forall_forall in F. assert (R : len row = nx) by (apply F; unfold get in E; destruct (i <? 0); [discriminate|]; destruct (nth_error a (Z.to_nat i)) eqn:N; [|discriminate]; injection E as <-; now apply nth_error_In in N).
  destruct (get_range row j) as [x E']; [lia|]. now rewrite E'.
Qed.
Lemma mask_cell data v ny nx i j : shaped2 ny nx data -> 0 <= i < ny -> 0 <= j < nx -> val2 false (mask_from_data data (Some v)) i j = same_value (val2 NaN data i j) v.
Proof.
  intros S I J. unfold mask_from_data. rewrite (val2_map2 _ NaN _ _ ny nx) by assumption. unfold same_value. destruct (val2 NaN data i j), v; reflexivity.
Qed.
Lemma same_value_self v : same_value v v = true.
Proof. unfold same_value. destruct v; try reflexivity. cbn. apply Qeq_bool_iff. reflexivity. Qed.
Lemma seen_valid r : consistent size r -> forall data mask, In (data, mask) (w_bands r) -> forall cells, seen (w_nv r) data cells = valid_cells data mask cells.
Proof.
  intros K data mask I cells. unfold consistent in K. rewrite Forall_forall in K. destruct (K _ I) as [_ M]. cbn [fst snd] in M. unfold seen, valid_cells.
  induction cells as [|[i j] cells IH]; [reflexivity|]. cbn [map filter fst snd]. rewrite M. destruct (is_value (w_nv r) (val2 NaN data i j)); cbn [negb map fst snd]; now rewrite IH.
Qed.
Theorem reproject_ok r t m s g : consistent size r -> supported m = true -> target_grid to_crs zoom_to r t s = Ok g -> grid_eqb g (w_grid r) = false ->
  exists r', reproject supported to_crs zoom_to grid_eqb warp r t m s = Ok r' /\ w_grid r' = g /\ w_dtype r' = w_dtype r /\ w_nv r' = Some (null_value_of r) /\ len (w_bands r') = len (w_bands r)
  /\ forall k data mask, get (w_bands r) k = Ok (data, mask) -> exists data' mask', get (w_bands r') k = Ok (data', mask')
     /\ shaped2 (fst (size g)) (snd (size g)) data' /\ forall i j, 0 <= i < fst (size g) -> 0 <= j < snd (size g) ->
        match valid_cells data mask (sources m (w_grid r) g i j) with
        | [] => val2 NaN data' i j = null_value_of r /\ val2 false mask' i j = true
        | l => val2 NaN data' i j = resample m (w_dtype r) l /\ val2 false mask' i j = same_value (resample m (w_dtype r) l) (null_value_of r)
        end.
Proof.
  intros K S T E. unfold reproject. rewrite S, T. cbn [rbind negb]. rewrite E. fold (null_value_of r). eexists. split; [reflexivity|]. cbn [w_grid w_dtype w_nv w_bands].
  repeat split; [apply len_map|]. intros k data mask B. rewrite get_map_eq, B. cbn [fst]. eexists _, _. split; [reflexivity|].
  assert (I : In (data, mask) (w_bands r)) by now apply get_in in B.
  pose proof K as K'. unfold consistent in K'. rewrite Forall_forall in K'. destruct (K' _ I) as [SH _]. cbn [fst] in SH. destruct (W m (w_dtype r) (w_grid r) g (w_nv r) (null_value_of r) data SH) as [SW VW]. split; [exact SW|].
  intros i j Hi Hj. rewrite (mask_cell _ _ _ _ _ _ SW Hi Hj), VW by assumption. rewrite (seen_valid r K data mask I).
  destruct (valid_cells data mask (sources m (w_grid r) g i j)); split; auto using same_value_self.
Qed.
(* a masked raster and a method that picks values: null exactly where nothing is seen *)
Theorem reproject_picks r t m s g r' k data mask data' mask' : consistent size r -> w_nv r <> None -> picks resample m -> target_grid to_crs zoom_to r t s = Ok g -> grid_eqb g (w_grid r) = false ->
  reproject supported to_crs zoom_to grid_eqb warp r t m s = Ok r' -> get (w_bands r) k = Ok (data, mask) -> get (w_bands r') k = Ok (data', mask') ->
  forall i j, 0 <= i < fst (size g) -> 0 <= j < snd (size g) -> (val2 false mask' i j = true <-> valid_cells data mask (sources m (w_grid r) g i j) = []).
Proof.
  intros K M P T E R B B' i j Hi Hj. assert (S : supported m = true) by (unfold reproject in R; destruct (supported m); [reflexivity|discriminate]).
  destruct (reproject_ok r t m s g K S T E) as (r2 & R2 & _ & _ & _ & _ & H). rewrite R in R2. injection R2 as <-. destruct (H k data mask B) as (d2 & m2 & B2 & _ & H2). rewrite B' in B2. injection B2 as <- <-. specialize (H2 i j Hi Hj).
  destruct (valid_cells data mask (sources m (w_grid r) g i j)) as [|p l] eqn:V; [tauto|]. destruct H2 as [_ ->]. split; [|discriminate]. intros N. exfalso.
  destruct (P (w_dtype r) (p :: l)) as [c IN]; [discriminate|]. rewrite <- V in IN at 2. rewrite <- (seen_valid r K data mask ltac:(now apply get_in in B)) in IN. unfold seen in IN. apply filter_In in IN as [_ IN]. cbn [snd] in IN.
  unfold null_value_of in N. destruct (w_nv r) as [v|]; [|contradiction]. unfold is_value in IN. rewrite N in IN. discriminate.
Qed.
Lemma reproject_same r t m s g : supported m = true -> target_grid to_crs zoom_to r t s = Ok g -> grid_eqb g (w_grid r) = true -> reproject supported to_crs zoom_to grid_eqb warp r t m s = Ok r.
Proof. intros S T E. unfold reproject. rewrite S, T. cbn [rbind negb]. now rewrite E. Qed.
Lemma not_positive_leb v : not_positive v = num_leb v (of_Z 0).
Proof.
  destruct v as [q| | |]; try reflexivity. unfold not_positive, num_leb, num_ltb, num_eqb, of_Z, Qlt_bool. change (inject_Z 0) with 0%Q. apply Bool.eq_iff_eq_true. rewrite Bool.orb_true_iff, Bool.negb_true_iff, Qle_bool_iff, Qeq_bool_iff. split.
  - intros H. destruct (Qle_bool 0 q) eqn:E; [|now left]. right. apply Qle_bool_iff in E. now apply Qle_antisym.
  - intros [H|H]; [|rewrite H; apply Qle_refl]. apply Qlt_le_weak, Qnot_le_lt. intros H1. apply Qle_bool_iff in H1. congruence.
Qed.
Lemma reproject_grid r c g v : num_leb v (of_Z 0) = false ->
  target_grid to_crs zoom_to r (ToCrs c) ResNone = to_crs (w_grid r) c /\ target_grid to_crs zoom_to r (ToGrid g) ResNone = Ok g
  /\ target_grid to_crs zoom_to r ToNone (ResNumber v) = zoom_to (w_grid r) v /\ target_grid to_crs zoom_to r (ToGrid g) (ResNumber v) = zoom_to g v
  /\ forall g', to_crs (w_grid r) c = Ok g' -> target_grid to_crs zoom_to r (ToCrs c) (ResNumber v) = zoom_to g' v.
Proof.
  intros P. rewrite <- not_positive_leb in P. unfold target_grid. cbn [rbind]. rewrite P. repeat split; [now destruct (to_crs (w_grid r) c)|]. intros g' ->. reflexivity.
Qed.
Lemma reproject_refused r t m s :
  (supported m = false -> reproject supported to_crs zoom_to grid_eqb warp r t m s = Err ValueError)
  /\ (supported m = true -> reproject supported to_crs zoom_to grid_eqb warp r ToNone m ResNone = Err ValueError)
  /\ (supported m = true -> forall v, num_leb v (of_Z 0) = true -> (forall c, t = ToCrs c -> exists g, to_crs (w_grid r) c = Ok g) -> reproject supported to_crs zoom_to grid_eqb warp r t m (ResNumber v) = Err ValueError)
  /\ (supported m = true -> forall c e, to_crs (w_grid r) c = Err e -> reproject supported to_crs zoom_to grid_eqb warp r (ToCrs c) m s = Err e).
Proof.
  unfold reproject, target_grid. repeat split.
  - now intros ->.
  - now intros ->.
  - intros -> v P H. rewrite <- not_positive_leb in P. cbn [negb]. destruct t as [|c|g]; cbn [rbind]; [now rewrite P| |now rewrite P]. destruct (H c eq_refl) as [g ->]. cbn [rbind]. now rewrite P.
  - intros -> c e ->. reflexivity.
Qed.
Lemma reproject_tuple r t m x y : supported m = true -> (forall c, t = ToCrs c -> exists g, to_crs (w_grid r) c = Ok g) -> reproject supported to_crs zoom_to grid_eqb warp r t m (ResTuple x y) = Err TypeError.
Proof.
  unfold reproject, target_grid. intros -> H. cbn [negb]. destruct t as [|c|g]; cbn [rbind]; [reflexivity| |reflexivity]. destruct (H c eq_refl) as [g ->]. reflexivity.
Qed.
End Proofs.
