(* C103: dilation and erosion are the focal maximum and minimum of a rectangle *)
From Coq Require Import QArith Lia List.
From Verif Require Import Base BaseFacts Scalars NumFacts Chunks Arr2 Stats Focal FocalSpec FocalResults FocalProps Morph MorphSpec MorphProofs FocalMorphProofs.
Import ListNotations.
Open Scope Z_scope.

(* The kernel is a full rectangle.  Valid cells of a raster with a mask, any size: focal max and
   dilate give the same value.  Null cells stay null with focal; dilate fills them if it can. *)
Theorem C103_dilate : forall (other : Z -> list num -> num) (junk : Z -> Z -> arr2 num) s kr kc d nv ny nx ycs xcs ycs' xcs' data mask, allocates junk -> dims s = Some (kr, kc) -> 0 < kr -> 0 < kc -> ~ (kr = 1 /\ kc = 1) -> d <> BOOL ->
  0 < ny -> 0 < nx -> kr / 2 <= ny -> kc / 2 <= nx -> cuts ny ycs -> cuts nx xcs -> cuts ny ycs' -> cuts nx xcs' -> shaped2 ny nx data -> shaped2 ny nx mask ->
  (forall p q, valid_cell (Some mask) ny nx p q -> held_by d (val2 NaN data p q) /\ val2 NaN data p q <> MInf) ->
  exists fo fm o om, focal other junk ny nx ycs xcs (full kr (full kc true)) kr kc SMax false (Band data (Some mask)) = Ok (Band fo (Some fm))
  /\ dilate_or_erode Dilation s d nv ny nx ycs' xcs' (Band data (Some mask)) = Ok (Band o (Some om))
  /\ forall i j, 0 <= i < ny -> 0 <= j < nx -> val2 true fm i j = val2 true mask i j
     /\ (val2 true mask i j = false -> val2 true om i j = false /\ num_eqb (val2 NaN fo i j) (val2 NaN o i j) = true).
Proof. exact dilate_focal. Qed.
Print Assumptions C103_dilate.
(* odd sizes, cells that erode leaves valid: focal min gives the same value *)
Theorem C103_erode : forall (other : Z -> list num -> num) (junk : Z -> Z -> arr2 num) s kr kc d nv ny nx ycs xcs ycs' xcs' data mask, allocates junk -> dims s = Some (kr, kc) -> 0 < kr -> 0 < kc -> ~ (kr = 1 /\ kc = 1) -> kr mod 2 = 1 -> kc mod 2 = 1 -> d <> BOOL ->
  0 < ny -> 0 < nx -> kr / 2 <= ny -> kc / 2 <= nx -> cuts ny ycs -> cuts nx xcs -> cuts ny ycs' -> cuts nx xcs' -> shaped2 ny nx data -> shaped2 ny nx mask ->
  (forall p q, valid_cell (Some mask) ny nx p q -> held_by d (val2 NaN data p q) /\ val2 NaN data p q <> PInf) ->
  exists fo fm o om, focal other junk ny nx ycs xcs (full kr (full kc true)) kr kc SMin false (Band data (Some mask)) = Ok (Band fo (Some fm))
  /\ dilate_or_erode Erosion s d nv ny nx ycs' xcs' (Band data (Some mask)) = Ok (Band o (Some om))
  /\ forall i j, 0 <= i < ny -> 0 <= j < nx -> val2 true fm i j = val2 true mask i j
     /\ (val2 true om i j = false -> val2 true mask i j = false /\ num_eqb (val2 NaN fo i j) (val2 NaN o i j) = true).
Proof. exact erode_focal. Qed.
Print Assumptions C103_erode.
(* odd sizes, rasters without null value, cells finite: the same at every cell *)
Theorem C103_unmasked : forall (other : Z -> list num -> num) (junk : Z -> Z -> arr2 num) s kr kc d nv ny nx ycs xcs ycs' xcs' data op st, op = Dilation /\ st = SMax \/ op = Erosion /\ st = SMin ->
  dims s = Some (kr, kc) -> 0 < kr -> 0 < kc -> ~ (kr = 1 /\ kc = 1) -> kr mod 2 = 1 -> kc mod 2 = 1 -> d <> BOOL ->
  0 < ny -> 0 < nx -> kr / 2 <= ny -> kc / 2 <= nx -> cuts ny ycs' -> cuts nx xcs' -> shaped2 ny nx data -> all_cells finite data ->
  (forall p q, 0 <= p < ny -> 0 <= q < nx -> held_by d (val2 NaN data p q)) ->
  exists fo o, focal other junk ny nx ycs xcs (full kr (full kc true)) kr kc st false (Band data None) = Ok (Band fo None)
  /\ dilate_or_erode op s d nv ny nx ycs' xcs' (Band data None) = Ok (Band o None)
  /\ forall i j, 0 <= i < ny -> 0 <= j < nx -> num_eqb (val2 NaN fo i j) (val2 NaN o i j) = true.
Proof. exact unmasked_focal. Qed.
Print Assumptions C103_unmasked.

(* ---- examples ---- *)
Definition cells3 : list (list num) := map (map of_Z) [[5; 1; 7; 2]; [3; 9; 4; 6]; [8; 2; 1; 3]].
Definition null3 : list (list bool) := [[false; false; true; false]; [false; false; false; false]; [true; false; false; false]].
Example C103_example :
  show (focal (fun _ _ => NaN) ex_junk 3 4 [1; 2] [4] (full 3 (full 1 true)) 3 1 SMax false (Band cells3 (Some null3))) = [[5; 9; -1; 6]; [5; 9; 4; 6]; [-1; 9; 4; 6]]%Q
  /\ dilate_or_erode Dilation (SizeSeq [3; 1]) U8 (of_Z 255) 3 4 [3] [2; 2] (Band cells3 (Some null3))
     = Ok (Band (map (map of_Z) [[5; 9; 4; 6]; [5; 9; 4; 6]; [3; 9; 4; 6]]) (Some (full 3 (full 4 false)))).
Proof. vm_compute. split; reflexivity. Qed.
Example C103_hypotheses : allocates ex_junk /\ shaped2 3 4 cells3 /\ shaped2 3 4 null3 /\ cuts 3 [1; 2] /\ cuts 4 [2; 2] /\ dims (SizeSeq [3; 1]) = Some (3, 1)
  /\ (forall p q, valid_cell (Some null3) 3 4 p q -> held_by U8 (val2 NaN cells3 p q) /\ val2 NaN cells3 p q <> MInf).
Proof.
  split; [intros n m Hn Hm; split; [now apply full_len|]; apply Forall_forall; intros r I; unfold ex_junk in I; unfold full in I at 1; apply repeat_spec in I; subst r; now apply full_len|]. split; [repeat constructor|]. split; [repeat constructor|]. split; [repeat constructor; lia|]. split; [repeat constructor; lia|]. split; [reflexivity|].
  intros p q (Hp & Hq & _). assert (p = 0 \/ p = 1 \/ p = 2) as [-> |[-> | ->]] by lia; assert (q = 0 \/ q = 1 \/ q = 2 \/ q = 3) as [-> |[-> |[-> | ->]]] by lia;
    (split; [split; vm_compute; discriminate|discriminate]).
Qed.
(* even sizes without null value: the windows of focal reach up, those of dilate down *)
Theorem C103_even_refuted :
  show (focal (fun _ _ => NaN) ex_junk 3 1 [3] [1] (full 2 (full 1 true)) 2 1 SMax false (Band (map (map of_Z) [[1]; [2]; [3]]) None)) = [[1]; [2]; [3]]%Q
  /\ dilate_or_erode Dilation (SizeSeq [2; 1]) U8 (of_Z 255) 3 1 [3] [1] (Band (map (map of_Z) [[1]; [2]; [3]]) None) = Ok (Band (map (map of_Z) [[2]; [3]; [3]]) None).
Proof. vm_compute. split; reflexivity. Qed.
Print Assumptions C103_even_refuted.
(* even sizes: the windows of erode reach up, those of focal (null values or not) are not the same *)
Theorem C103_even_erode_refuted :
  let m := full 3 (full 1 false) in let d := map (map of_Z) [[3]; [2]; [1]] in
  show (focal (fun _ _ => NaN) ex_junk 3 1 [3] [1] (full 2 (full 1 true)) 2 1 SMin false (Band d (Some m))) = [[2]; [1]; [1]]%Q
  /\ dilate_or_erode Erosion (SizeSeq [2; 1]) U8 (of_Z 255) 3 1 [3] [1] (Band d (Some m)) = Ok (Band (map (map of_Z) [[255]; [2]; [1]]) (Some [[true]; [false]; [false]])).
Proof. vm_compute. split; reflexivity. Qed.
Print Assumptions C103_even_erode_refuted.
