(* C58 *)
From Coq Require Import Reals Lra Lia.
From Flocq Require Import Core BinarySingleNaN.
From Verif Require Import Base FocalResults BandsSpec F64 Grids GridsFloat Points PointsSpec PointsProofs.
Open Scope Z_scope.

Theorem C58_to_points {A} junk xcoord ycoord t nb ny nx bcs ycs xcs (data : list (list (list A))) mask :
  plain_grid t -> centres t ny nx xcoord ycoord -> 0 <= nb -> 0 <= ny <= 2 ^ 40 -> 0 <= nx <= 2 ^ 40 ->
  cuts nb bcs -> cuts ny ycs -> cuts nx xcs -> shaped3 nb ny nx data -> shaped3 nb ny nx mask ->
  exists parts, to_points junk xcoord ycoord t nb ny nx bcs ycs xcs data mask = Ok parts
  /\ NoDup (map p_index (concat parts))
  /\ (forall p, In p (concat parts) -> exists b, p_band p = b + 1 /\ p_index p = (b * ny + p_row p) * nx + p_col p
        /\ at3 mask b (p_row p) (p_col p) false /\ at3 data b (p_row p) (p_col p) (p_value p)
        /\ (Rabs (B2R (p_x p) - (B2R (aa t) * (IZR (p_col p) + / 2) + B2R (ac t))) <= / 512 * Rabs (B2R (aa t)))%R
        /\ (Rabs (B2R (p_y p) - (B2R (ae t) * (IZR (p_row p) + / 2) + B2R (af t))) <= / 512 * Rabs (B2R (ae t)))%R)
  /\ (forall b r c, at3 mask b r c false -> exists p, In p (concat parts) /\ p_band p = b + 1 /\ p_row p = r /\ p_col p = c).
Proof. exact (to_points_spec junk xcoord ycoord t nb ny nx bcs ycs xcs data mask). Qed.
Print Assumptions C58_to_points.

(* two bands of 2 x 3 cells of 30 m in chunks of one row and of two and one columns *)
Definition t30 : affine f64 := Affine (f64_of_Z 30) fzero (f64_of_Z 500000) fzero (f64_of_Z (-30)) (f64_of_Z 4000000).
Definition x30 (c0 j : Z) : f64 := f64_of_Z (30 * (c0 + j) + 500015).
Definition y30 (r0 i : Z) : f64 := f64_of_Z (3999985 - 30 * (r0 + i)).
Definition data30 : list (list (list Z)) := [[[1; 2; 3]; [4; 5; 6]]; [[7; 8; 9]; [10; 11; 12]]].
Definition mask30 : list (list (list bool)) := [[[false; true; false]; [true; true; true]]; [[false; false; true]; [true; true; false]]].
Example C58_example : plain_grid t30 /\ centres t30 2 3 x30 y30 /\ cuts 2 [2] /\ cuts 2 [1; 1] /\ cuts 3 [2; 1]
  /\ shaped3 2 2 3 data30 /\ shaped3 2 2 3 mask30
  /\ (let* parts := to_points (0, 0, fzero, fzero) x30 y30 t30 2 2 3 [2] [1; 1] [2; 1] data30 mask30 in
      Ok (map (map (fun p => (p_index p, p_value p, p_band p, p_row p, p_col p))) parts))
     = Ok [[(0, 1, 1, 0, 0); (6, 7, 2, 0, 0); (7, 8, 2, 0, 1)]; [(2, 3, 1, 0, 2)]; []; [(11, 12, 2, 1, 2)]].
Proof.
  destruct (sized_of_Z 30 ltac:(discriminate) ltac:(lia)) as (Fa & Ea & Sa). destruct (sized_of_Z 500000 ltac:(discriminate) ltac:(lia)) as (Fc & Ec & _).
  destruct (sized_of_Z (-30) ltac:(discriminate) ltac:(lia)) as (Fe & Ee & Se). destruct (sized_of_Z 4000000 ltac:(discriminate) ltac:(lia)) as (Ff & Ef & _).
  split; [|split].
  - unfold plain_grid, t30. cbn [aa ab ac ad ae af]. repeat (apply conj; [assumption || reflexivity|]).
    rewrite Ea, Ec, Ee, Ef, <- !abs_IZR. change (IZR (2 ^ 40)) with 1099511627776%R. cbn [Z.abs]. split; lra.
  - unfold centres, t30, x30, y30. cbn [aa ab ac ad ae af]. split; intros i j Hi Hj H.
    + destruct (of_Z_val (30 * (i + j) + 500015) ltac:(lia)) as [F E]. split; [exact F|]. rewrite E, Ea, Ec, plus_IZR, mult_IZR.
      replace (_ - _)%R with 0%R by field. rewrite Rabs_R0. pose proof (Rabs_pos 30). lra.
    + destruct (of_Z_val (3999985 - 30 * (i + j)) ltac:(lia)) as [F E]. split; [exact F|]. rewrite E, Ee, Ef, minus_IZR, mult_IZR.
      replace (_ - _)%R with 0%R by field. rewrite Rabs_R0. pose proof (Rabs_pos (-30)). lra.
  - repeat split; repeat constructor; lia.
Qed.
