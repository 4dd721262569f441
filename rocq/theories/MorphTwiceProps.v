(* C104: dilating or eroding twice is doing so once with a larger window *)
From Coq Require Import QArith Lia List.
From Verif Require Import Base BaseFacts Scalars NumFacts Chunks Arr2 Focal FocalSpec FocalResults Morph MorphSpec MorphProofs MorphTwiceProofs.
Import ListNotations.
Open Scope Z_scope.

(* Sizes (kr, kc), odd, and (lr, lc), one after the other, and (kr + lr - 1, kc + lc - 1) at once give
   the same null cells and equal values, with or without a mask, edges included, whatever the chunks. *)
Theorem C104_dilate : forall s1 s2 s3 kr kc lr lc d nv nv' nv'' ny nx ycs xcs ycs' xcs' ycs'' xcs'' data mask,
  dims s1 = Some (kr, kc) -> dims s2 = Some (lr, lc) -> dims s3 = Some (kr + lr - 1, kc + lc - 1) ->
  0 < kr -> 0 < kc -> ~ (kr = 1 /\ kc = 1) -> kr mod 2 = 1 -> kc mod 2 = 1 -> 0 < lr -> 0 < lc -> ~ (lr = 1 /\ lc = 1) ->
  d <> BOOL -> 0 < ny -> 0 < nx -> (kr + lr - 1) / 2 <= ny -> (kc + lc - 1) / 2 <= nx ->
  cuts ny ycs -> cuts nx xcs -> cuts ny ycs' -> cuts nx xcs' -> cuts ny ycs'' -> cuts nx xcs'' ->
  shaped2 ny nx data -> match mask with Some m => shaped2 ny nx m | None => True end ->
  (forall p q, valid_cell mask ny nx p q -> held_by d (val2 NaN data p q) /\ val2 NaN data p q <> MInf) ->
  exists o1 m1 o2 m2 o m, dilate_or_erode Dilation s1 d nv ny nx ycs xcs (Band data mask) = Ok (Band o1 m1)
  /\ dilate_or_erode Dilation s2 d nv' ny nx ycs' xcs' (Band o1 m1) = Ok (Band o2 m2)
  /\ dilate_or_erode Dilation s3 d nv'' ny nx ycs'' xcs'' (Band data mask) = Ok (Band o m)
  /\ forall i j, 0 <= i < ny -> 0 <= j < nx -> null_cell m2 i j = null_cell m i j /\ (null_cell m i j = false -> num_eqb (val2 NaN o2 i j) (val2 NaN o i j) = true).
Proof. exact dilate_twice. Qed.
Print Assumptions C104_dilate.
Theorem C104_erode : forall s1 s2 s3 kr kc lr lc d nv nv' nv'' ny nx ycs xcs ycs' xcs' ycs'' xcs'' data mask,
  dims s1 = Some (kr, kc) -> dims s2 = Some (lr, lc) -> dims s3 = Some (kr + lr - 1, kc + lc - 1) ->
  0 < kr -> 0 < kc -> ~ (kr = 1 /\ kc = 1) -> kr mod 2 = 1 -> kc mod 2 = 1 -> 0 < lr -> 0 < lc -> ~ (lr = 1 /\ lc = 1) ->
  d <> BOOL -> 0 < ny -> 0 < nx -> (kr + lr - 1) / 2 <= ny -> (kc + lc - 1) / 2 <= nx ->
  cuts ny ycs -> cuts nx xcs -> cuts ny ycs' -> cuts nx xcs' -> cuts ny ycs'' -> cuts nx xcs'' ->
  shaped2 ny nx data -> match mask with Some m => shaped2 ny nx m | None => True end ->
  (forall p q, valid_cell mask ny nx p q -> held_by d (val2 NaN data p q) /\ val2 NaN data p q <> PInf) ->
  exists o1 m1 o2 m2 o m, dilate_or_erode Erosion s1 d nv ny nx ycs xcs (Band data mask) = Ok (Band o1 m1)
  /\ dilate_or_erode Erosion s2 d nv' ny nx ycs' xcs' (Band o1 m1) = Ok (Band o2 m2)
  /\ dilate_or_erode Erosion s3 d nv'' ny nx ycs'' xcs'' (Band data mask) = Ok (Band o m)
  /\ forall i j, 0 <= i < ny -> 0 <= j < nx -> null_cell m2 i j = null_cell m i j /\ (null_cell m i j = false -> num_eqb (val2 NaN o2 i j) (val2 NaN o i j) = true).
Proof. exact erode_twice. Qed.
Print Assumptions C104_erode.

(* ---- examples: (3, 1) and (2, 3), and (4, 3) ---- *)
Definition cells5 : list (list num) := map (map of_Z) [[5; 1; 7; 2]; [3; 9; 4; 6]; [8; 2; 1; 3]; [0; 0; 0; 0]; [0; 0; 0; 1]].
Definition null5 : list (list bool) := [[false; false; true; false]; [false; true; false; false]; [true; false; false; false]; [true; true; true; true]; [true; true; true; true]].
Definition run op s nv ycs xcs b := dilate_or_erode op s U8 (of_Z nv) 5 4 ycs xcs b.
Example C104_example :
  (let* b := run Dilation (SizeSeq [3; 1]) 255 [2; 3] [4] (Band cells5 (Some null5)) in run Dilation (SizeSeq [2; 3]) 255 [5] [1; 3] b)
  = run Dilation (SizeSeq [4; 3]) 255 [5] [4] (Band cells5 (Some null5))
  /\ run Dilation (SizeSeq [4; 3]) 255 [5] [4] (Band cells5 (Some null5))
  = Ok (Band (map (map of_Z) [[5; 5; 6; 6]; [5; 5; 6; 6]; [3; 4; 6; 6]; [2; 2; 3; 3]; [255; 255; 255; 255]]) (Some (map (map (fun z => z =? 1)) [[0; 0; 0; 0]; [0; 0; 0; 0]; [0; 0; 0; 0]; [0; 0; 0; 0]; [1; 1; 1; 1]]))).
Proof. vm_compute. split; reflexivity. Qed.
Example C104_erode_example :
  (let* b := run Erosion (SizeSeq [3; 1]) 255 [2; 3] [4] (Band cells5 None) in run Erosion (SizeSeq [2; 3]) 255 [5] [1; 3] b)
  = run Erosion (SizeSeq [4; 3]) 255 [5] [4] (Band cells5 None)
  /\ run Erosion (SizeSeq [4; 3]) 255 [5] [4] (Band cells5 None) = Ok (Band (map (map of_Z) [[1; 1; 1; 2]; [1; 1; 1; 1]; [0; 0; 0; 0]; [0; 0; 0; 0]; [0; 0; 0; 0]]) None).
Proof. vm_compute. split; reflexivity. Qed.
Example C104_hypotheses : shaped2 5 4 cells5 /\ shaped2 5 4 null5 /\ cuts 5 [2; 3] /\ cuts 4 [1; 3] /\ (3 + 2 - 1) / 2 <= 5 /\ (1 + 3 - 1) / 2 <= 4
  /\ (forall p q, valid_cell (Some null5) 5 4 p q -> held_by U8 (val2 NaN cells5 p q) /\ val2 NaN cells5 p q <> MInf /\ val2 NaN cells5 p q <> PInf).
Proof.
  split; [repeat constructor|]. split; [repeat constructor|]. split; [repeat constructor; lia|]. split; [repeat constructor; lia|]. split; [vm_compute; discriminate|]. split; [vm_compute; discriminate|].
  intros p q (Hp & Hq & _). assert (p = 0 \/ p = 1 \/ p = 2 \/ p = 3 \/ p = 4) as [-> |[-> |[-> |[-> | ->]]]] by lia; assert (q = 0 \/ q = 1 \/ q = 2 \/ q = 3) as [-> |[-> |[-> | ->]]] by lia;
    (split; [split; vm_compute; discriminate|split; discriminate]).
Qed.
(* two windows of even size both reach down, and the window of 3 does not *)
Theorem C104_even_refuted :
  let b := Band (map (map of_Z) [[1]; [2]; [3]; [0]]) None in
  (let* c := dilate_or_erode Dilation (SizeSeq [2; 1]) U8 (of_Z 255) 4 1 [4] [1] b in dilate_or_erode Dilation (SizeSeq [2; 1]) U8 (of_Z 255) 4 1 [4] [1] c)
  = Ok (Band (map (map of_Z) [[3]; [3]; [3]; [0]]) None)
  /\ dilate_or_erode Dilation (SizeSeq [3; 1]) U8 (of_Z 255) 4 1 [4] [1] b = Ok (Band (map (map of_Z) [[2]; [3]; [3]; [3]]) None).
Proof. vm_compute. split; reflexivity. Qed.
Print Assumptions C104_even_refuted.
