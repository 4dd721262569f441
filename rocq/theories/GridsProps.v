(* C40, C43, C50 *)
From Coq Require Import QArith Qabs Reals Lra Lia.
From Flocq Require Import Core BinarySingleNaN.
From Verif Require Import Base F64 Grids GridsProofs GridsF64 GridsFloat.
Open Scope Z_scope.

(* ---- C40, exact arithmetic ---- *)
Theorem C40_index_xy t row col o : ~ (det t == 0)%Q -> o = OCenter \/ o = OUl ->
  let '(x, y) := qxy (inject_Z row) (inject_Z col) t o in qindex x y t = (row, col).
Proof. exact (index_xy t row col o). Qed.
Print Assumptions C40_index_xy.
Theorem C40_index_corner t row col o : ~ (det t == 0)%Q ->
  let '(x, y) := qxy (inject_Z row) (inject_Z col) t o in
  qindex x y t = (row + match o with OLl | OLr => 1 | _ => 0 end, col + match o with OUr | OLr => 1 | _ => 0 end).
Proof. exact (index_corner t row col o). Qed.
Print Assumptions C40_index_corner.
(* every point inside a cell is mapped to that cell, and only those points *)
Theorem C40_point_in_cell t row col u v x y : ~ (det t == 0)%Q ->
  (x == fst (point t (inject_Z row) (inject_Z col) u v))%Q -> (y == snd (point t (inject_Z row) (inject_Z col) u v))%Q ->
  (0 <= u)%Q -> (u < 1)%Q -> (0 <= v)%Q -> (v < 1)%Q -> qindex x y t = (row, col).
Proof. exact (index_point t row col u v x y). Qed.
Print Assumptions C40_point_in_cell.
Theorem C40_cell_of_point t x y row col : ~ (det t == 0)%Q -> qindex x y t = (row, col) ->
  exists u v, (0 <= u)%Q /\ (u < 1)%Q /\ (0 <= v)%Q /\ (v < 1)%Q
    /\ (x == fst (point t (inject_Z row) (inject_Z col) u v))%Q /\ (y == snd (point t (inject_Z row) (inject_Z col) u v))%Q.
Proof. exact (point_index t x y row col). Qed.
Print Assumptions C40_cell_of_point.
Definition grid30 : affine Q := (Affine 30 0 500000 0 (-30) 4000000)%Q.
Example C40_example : ~ (det grid30 == 0)%Q
  /\ (let '(x, y) := qxy 7%Q 12%Q grid30 OCenter in (Qred x, Qred y)) = (500375 # 1, 3999775 # 1)
  /\ qindex 500375%Q 3999775%Q grid30 = (7, 12) /\ qindex 500360%Q 3999790%Q grid30 = (7, 12) /\ qindex 500389%Q 3999761%Q grid30 = (7, 12)
  /\ qindex 500390%Q 3999775%Q grid30 = (7, 13).
Proof. split; [discriminate|]. vm_compute. repeat split. Qed.

(* ---- C40, binary64 ---- *)
(* an axis-parallel grid, cells between 2^-400 and 2^400, origin and cell within
   2^40 cells: index undoes xy for the centre of every cell *)
Theorem C40_binary64_centre a b c d e f row col :
  is_finite a = true -> is_finite b = true -> is_finite c = true -> is_finite d = true -> is_finite e = true -> is_finite f = true ->
  B2R b = 0%R -> B2R d = 0%R -> sized (B2R a) -> sized (B2R e) ->
  (Rabs (B2R c) <= IZR (2 ^ 40) * Rabs (B2R a))%R -> (Rabs (B2R f) <= IZR (2 ^ 40) * Rabs (B2R e))%R ->
  (Z.abs row <= 2 ^ 40)%Z -> (Z.abs col <= 2 ^ 40)%Z ->
  let t := Affine a b c d e f in
  let '(x, y) := fxy row col t OCenter in findex x y t = (row, col).
Proof. exact (centre_f64 a b c d e f row col). Qed.
Print Assumptions C40_binary64_centre.
(* and maps every point that is not within 1/64 of a cell of a border to the cell
   it is in *)
Theorem C40_binary64_point a b c d e f x y row col w v :
  is_finite a = true -> is_finite b = true -> is_finite c = true -> is_finite d = true -> is_finite e = true -> is_finite f = true ->
  is_finite x = true -> is_finite y = true ->
  B2R b = 0%R -> B2R d = 0%R -> sized (B2R a) -> sized (B2R e) ->
  (Rabs (B2R c) <= IZR (2 ^ 40) * Rabs (B2R a))%R -> (Rabs (B2R f) <= IZR (2 ^ 40) * Rabs (B2R e))%R ->
  (Z.abs row <= 2 ^ 40)%Z -> (Z.abs col <= 2 ^ 40)%Z ->
  B2R x = (B2R a * (IZR col + w) + B2R c)%R -> B2R y = (B2R e * (IZR row + v) + B2R f)%R ->
  (/ 64 <= w < 1 - / 64)%R -> (/ 64 <= v < 1 - / 64)%R ->
  findex x y (Affine a b c d e f) = (row, col).
Proof. exact (point_f64 a b c d e f x y row col w v). Qed.
Print Assumptions C40_binary64_point.
(* cells of 30 m and a point 1 m inside cell (7, 12) *)
Example C40_binary64_example : let a := f64_of_Z 30 in let c := f64_of_Z 500000 in let e := f64_of_Z (-30) in let f := f64_of_Z 4000000 in
  let x := f64_of_Z 500361 in let y := f64_of_Z 3999789 in
  (is_finite a = true /\ is_finite fzero = true /\ is_finite c = true /\ is_finite e = true /\ is_finite f = true /\ is_finite x = true /\ is_finite y = true)
  /\ (B2R fzero = 0%R /\ sized (B2R a) /\ sized (B2R e))
  /\ ((Rabs (B2R c) <= IZR (2 ^ 40) * Rabs (B2R a))%R /\ (Rabs (B2R f) <= IZR (2 ^ 40) * Rabs (B2R e))%R)
  /\ (B2R x = (B2R a * (IZR 12 + / 30) + B2R c)%R /\ B2R y = (B2R e * (IZR 7 + / 30) + B2R f)%R)
  /\ findex x y (Affine a fzero c fzero e f) = (7, 12).
Proof.
  intros a c e f x y.
  destruct (sized_of_Z 30 ltac:(discriminate) ltac:(lia)) as (Fa & Ea & Sa). destruct (sized_of_Z 500000 ltac:(discriminate) ltac:(lia)) as (Fc & Ec & _).
  destruct (sized_of_Z (-30) ltac:(discriminate) ltac:(lia)) as (Fe & Ee & Se). destruct (sized_of_Z 4000000 ltac:(discriminate) ltac:(lia)) as (Ff & Ef & _).
  destruct (sized_of_Z 500361 ltac:(discriminate) ltac:(lia)) as (Fx & Ex & _). destruct (sized_of_Z 3999789 ltac:(discriminate) ltac:(lia)) as (Fy & Ey & _).
  unfold a, c, e, f, x, y in *. split; [repeat split; assumption|]. split; [split; [reflexivity|now split]|].
  rewrite Ea, Ec, Ee, Ef, Ex, Ey, <- !abs_IZR. change (IZR (2 ^ 40)) with 1099511627776%R. cbn [Z.abs].
  repeat split; try lra; vm_compute; reflexivity.
Qed.
(* In binary64 the upper left corner of cell (2, 2) of the grid with 3 x 3 cells
   and origin (1, 1) is mapped to another row. *)
Theorem C40_binary64_corner_refuted :
  let t := Affine (f64_of_Z 3) fzero (f64_of_Z 1) fzero (f64_of_Z (-3)) (f64_of_Z 1) in
  let '(x, y) := fxy 2 2 t OUl in findex x y t <> (2, 2).
Proof. vm_compute. discriminate. Qed.
Print Assumptions C40_binary64_corner_refuted.

(* ---- C43 ---- *)
Theorem C43_grids_close a b tol : grids_close a b tol = true <->
  g_crs a = g_crs b /\ g_ny a = g_ny b /\ g_nx a = g_nx b
  /\ Forall2 (fun x y => Qabs (x - y) <= tol * pixel a)%Q (coeffs a) (coeffs b).
Proof. exact (grids_close_iff a b tol). Qed.
Print Assumptions C43_grids_close.
Theorem C43_reflexive a tol : (0 <= tol)%Q -> grids_close a a tol = true.
Proof. exact (grids_close_refl a tol). Qed.
Print Assumptions C43_reflexive.
Theorem C43_displacement a b tol row col : (0 <= tol)%Q -> grids_close a b tol = true ->
  let p := point (g_affine a) row col 0 0 in let q := point (g_affine b) row col 0 0 in
  (Qabs (fst p - fst q) <= tol * pixel a * (Qabs col + Qabs row + 1))%Q
  /\ (Qabs (snd p - snd q) <= tol * pixel a * (Qabs col + Qabs row + 1))%Q.
Proof. exact (grids_close_displacement a b tol row col). Qed.
Print Assumptions C43_displacement.
Theorem C43_all_same gs : are_all_grids_same gs = true <->
  match gs with [] => True | g :: gs => Forall (fun h => grids_close g h tolerance = true) gs end.
Proof. exact (all_same_iff gs). Qed.
Print Assumptions C43_all_same.
Definition g30 (dx a : Q) : grid := Grid 5070 20000 20000 (Affine a 0 dx 0 (-30) 0)%Q.
Example C43_example : grids_close (g30 0%Q 30%Q) (g30 (1 # 50) 30%Q) tolerance = true
  /\ grids_close (g30 0%Q 30%Q) (g30 (1 # 25) 30%Q) tolerance = false.
Proof. split; reflexivity. Qed.
(* not symmetric: the tolerance is taken from the first grid *)
Theorem C43_symmetric_refuted : exists a b, grids_close a b tolerance = true /\ grids_close b a tolerance = false.
Proof. exists (Grid 1 1 1 (Affine 1000 0 0 0 (-1000) 0)%Q), (Grid 1 1 1 (Affine 999 0 0 0 (-999) 0)%Q). split; reflexivity. Qed.
Print Assumptions C43_symmetric_refuted.
Theorem C43_transitive_refuted : exists a b c, grids_close a b tolerance = true /\ grids_close b c tolerance = true /\ grids_close a c tolerance = false.
Proof. exists (g30 0%Q 30%Q), (g30 (3 # 100) 30%Q), (g30 (6 # 100) 30%Q). repeat split; reflexivity. Qed.
Print Assumptions C43_transitive_refuted.
(* more than noise: the pixel size is compared like the origin, so the far corners
   of two accepted grids can be many pixels apart *)
Theorem C43_subpixel_refuted : exists a b, grids_close a b tolerance = true
  /\ (Qabs (fst (point (g_affine a) 0%Q (inject_Z (g_nx a)) 0%Q 0%Q) - fst (point (g_affine b) 0%Q (inject_Z (g_nx b)) 0%Q 0%Q)) > 19 * pixel a)%Q.
Proof. exists (g30 0%Q 30%Q), (g30 0%Q (3003 # 100)). split; reflexivity. Qed.
Print Assumptions C43_subpixel_refuted.

(* ---- C50 ---- *)
Theorem C50_overviews height width ms : 0 < ms -> exists n, 0 <= n
  /\ auto_overview_factors height width ms = Ok (map (fun j => 2 ^ j) (zrange 1 (n + 1)))
  /\ forall j, 1 <= j -> (j <= n <-> ms * 2 ^ j <= height /\ ms * 2 ^ j <= width).
Proof. exact (overviews height width ms). Qed.
Print Assumptions C50_overviews.
Example C50_example : auto_overview_factors 2048 5000 256 = Ok [2; 4; 8] /\ auto_overview_factors 2047 5000 256 = Ok [2; 4]
  /\ auto_overview_factors 511 5000 256 = Ok [].
Proof. repeat split. Qed.
