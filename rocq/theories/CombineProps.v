(* C87: combining grids (_grids.combine_grids). *)
From Coq Require Import QArith Qabs String.
From Verif Require Import Base Grids Combine CombineSpec CombineProofs.
Open Scope Z_scope.

(* Grids that are not all the same are brought to the CRS and resolution asked for,
   or those of the first grid.  The result has square cells of that size; it starts
   at the upper left corner of the smallest box around all of them and covers the
   box up to 1/100 of a cell, with less than a cell too much. *)
Theorem C87_union : forall reproject_to first rest how crs res gs', are_all_grids_same (first :: rest) = false -> how = None \/ how = Some "union"%string ->
  let c := match crs with Some c => c | None => g_crs first end in
  let r := match res with Some r => r | None => Qabs (aa (g_affine first)) end in
  (0 < r)%Q -> Forall2 (fun g g' => reproject_to g c (Some r) = Ok g' /\ upright g') (first :: rest) gs' ->
  exists out b, combine_grids reproject_to (first :: rest) how crs res = Ok out /\ g_crs out = c /\ hull gs' b /\ covers_box r out b
  /\ forall g x y, In g gs' -> on_grid g x y -> near ((1 # 100) * r) out x y.
Proof. exact union_all. Qed.
Print Assumptions C87_union.
(* The intersection: the same for the box of the points all grids have; every point
   of the result is at most a cell away from one.  Without such points: ValueError. *)
Theorem C87_intersection : forall reproject_to first rest crs res gs', are_all_grids_same (first :: rest) = false ->
  let c := match crs with Some c => c | None => g_crs first end in
  let r := match res with Some r => r | None => Qabs (aa (g_affine first)) end in
  (0 < r)%Q -> Forall2 (fun g g' => reproject_to g c (Some r) = Ok g' /\ upright g') (first :: rest) gs' ->
  ((exists x y, forall g, In g gs' -> on_grid g x y) ->
   exists out b, combine_grids reproject_to (first :: rest) (Some "intersection"%string) crs res = Ok out /\ g_crs out = c /\ shared gs' b /\ covers_box r out b
   /\ (forall x y, (forall g, In g gs' -> on_grid g x y) -> near ((1 # 100) * r) out x y)
   /\ (forall x y, on_grid out x y -> exists x' y', (forall g, In g gs' -> on_grid g x' y') /\ (Qabs (x - x') <= r /\ Qabs (y - y') <= r)%Q))
  /\ ((forall x y, ~ (forall g, In g gs' -> on_grid g x y)) -> combine_grids reproject_to (first :: rest) (Some "intersection"%string) crs res = Err ValueError).
Proof. exact intersection_all. Qed.
Print Assumptions C87_intersection.
(* A box of whole cells is covered exactly. *)
Theorem C87_whole : forall r g b k m, (0 < r)%Q -> covers_box r g b -> 0 < k -> 0 < m -> (x1 b == x0 b + inject_Z k * r)%Q -> (y1 b == y0 b + inject_Z m * r)%Q ->
  g_nx g = k /\ g_ny g = m /\ forall x y, on_grid g x y <-> inside b x y.
Proof. exact whole_cells. Qed.
Print Assumptions C87_whole.
(* Grids that are all the same (C43): the first, reprojected if asked. *)
Theorem C87_same : forall reproject_to first rest how crs res, are_all_grids_same (first :: rest) = true -> good_how how ->
  (crs = None -> res = None -> combine_grids reproject_to (first :: rest) how crs res = Ok first)
  /\ (crs <> None \/ res <> None -> (forall r, res = Some r -> (0 < r)%Q) -> combine_grids reproject_to (first :: rest) how crs res = reproject_to first (match crs with Some c => c | None => g_crs first end) res).
Proof. exact same_ok. Qed.
Print Assumptions C87_same.
(* Refusals; no grids at all give an IndexError. *)
Theorem C87_refused : forall reproject_to grids how crs res,
  (forall h, how = Some h -> h <> "union"%string -> h <> "intersection"%string -> combine_grids reproject_to grids how crs res = Err ValueError)
  /\ (good_how how -> grids = [] -> combine_grids reproject_to grids how crs res = Err IndexError)
  /\ (forall r, grids <> [] -> res = Some r -> (r <= 0)%Q -> combine_grids reproject_to grids how crs res = Err ValueError).
Proof. exact refused. Qed.
Print Assumptions C87_refused.

(* ---- an example: in the CRS of the grids, reprojecting changes the size of the cells ---- *)
Definition zoom (g : grid) (crs : Z) (r : option Q) : res grid := match r with Some r => Ok (from_bounds (grid_bounds g) crs r) | None => Ok g end.
Definition at_ (x y : Q) (ny nx : Z) : grid := Grid 7 ny nx (Affine 1 0 x 0 (-1) y)%Q.
(* columns 0 .. 3 and rows 0 .. 2; columns 2 .. 6 and rows 1 .. 4, counted from y = 10 down *)
Definition ga : grid := at_ 0 10 3 4.
Definition gb : grid := at_ 2 9 4 5.
Example C87_example : combine_grids zoom [ga; gb] None None None = Ok (at_ 0 10 5 7) /\ combine_grids zoom [ga; gb] (Some "intersection"%string) None None = Ok (at_ 2 9 2 2)
  /\ combine_grids zoom [ga; gb] None (Some 8) (Some 2%Q) = Ok (Grid 8 3 4 (Affine 2 0 0 0 (-2) 10)%Q).
Proof. vm_compute. auto. Qed.
Lemma at_upright x y ny nx : 0 < ny -> 0 < nx -> upright (at_ x y ny nx).
Proof. intros. repeat split; try discriminate; assumption. Qed.
Example C87_hypotheses : are_all_grids_same [ga; gb] = false /\ Forall2 (fun g g' => zoom g 7 (Some 1%Q) = Ok g' /\ upright g') [ga; gb] [ga; gb] /\ exists x y, forall g, In g [ga; gb] -> on_grid g x y.
Proof.
  split; [reflexivity|]. split.
  - repeat apply Forall2_cons; try apply Forall2_nil; (split; [reflexivity|now apply at_upright]).
  - exists 2%Q, 9%Q. intros g [<-|[<-|[]]]; apply bounds_on; try (now apply at_upright); repeat split; discriminate.
Qed.

(* ---- findings ---- *)
(* Grids that only touch: their "intersection" is not empty for shapely, and the
   result is a column of cells next to the first grid. *)
Definition gc : grid := at_ 4 10 3 4.
Theorem C87_touching_refuted : ~ (forall a b, upright a -> upright b -> g_crs a = g_crs b ->
  (forall x y x' y', on_grid a x y -> on_grid b x y -> on_grid a x' y' -> on_grid b x' y' -> (x == x')%Q) ->
  combine_grids zoom [a; b] (Some "intersection"%string) None None = Err ValueError).
Proof.
  intros H. assert (E : combine_grids zoom [ga; gc] (Some "intersection"%string) None None = Err ValueError).
  { apply H; [now apply at_upright|now apply at_upright|reflexivity|]. intros x y x' y' A B A' B'.
    apply bounds_on in A as [[_ A] _]; [|now apply at_upright]. apply bounds_on in B as [[B _] _]; [|now apply at_upright].
    apply bounds_on in A' as [[_ A'] _]; [|now apply at_upright]. apply bounds_on in B' as [[B' _] _]; [|now apply at_upright].
    change (x <= 4)%Q in A. change (4 <= x)%Q in B. change (x' <= 4)%Q in A'. change (4 <= x')%Q in B'. apply Qle_antisym; [apply (Qle_trans _ 4)|apply (Qle_trans _ 4)]; assumption. }
  vm_compute in E. discriminate.
Qed.
Print Assumptions C87_touching_refuted.
(* "If None, the resolution of the first input grid is used": cells of 1 x 2 become
   cells of 1 x 1. *)
Definition tall : grid := Grid 7 3 4 (Affine 1 0 0 0 (-2) 10)%Q.
Theorem C87_resolution_refuted : ~ (forall a b out, upright a -> upright b -> g_crs a = g_crs b -> combine_grids zoom [a; b] None None None = Ok out -> (Qabs (ae (g_affine out)) == Qabs (ae (g_affine a)))%Q).
Proof.
  intros H. destruct (combine_grids zoom [tall; gb] None None None) as [out|] eqn:E; [|vm_compute in E; discriminate].
  assert (X := H tall gb out ltac:(repeat split; discriminate) ltac:(now apply at_upright) eq_refl E). vm_compute in E. injection E as <-. vm_compute in X. discriminate.
Qed.
Print Assumptions C87_resolution_refuted.
(* Up to 1/100 of a cell at the right and at the bottom is cut off. *)
Theorem C87_cut_refuted : ~ (forall a b out, upright a -> upright b -> g_crs a = g_crs b -> combine_grids zoom [a; b] None None None = Ok out -> forall x y, on_grid b x y -> on_grid out x y).
Proof.
  intros H. set (b := at_ (5 # 1000) 10 3 4). destruct (combine_grids zoom [ga; b] None None None) as [out|] eqn:E; [|vm_compute in E; discriminate].
  assert (X : on_grid out (4005 # 1000) 10).
  { apply (H ga b out); [now apply at_upright|now apply at_upright|reflexivity|exact E|]. apply bounds_on; [now apply at_upright|]. repeat split; vm_compute; discriminate. }
  vm_compute in E. injection E as <-. apply bounds_on in X; [|repeat split; vm_compute; discriminate]. destruct X as [[_ X] _]. vm_compute in X. now apply X.
Qed.
Print Assumptions C87_cut_refuted.
