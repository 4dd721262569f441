(* C48: dilation and erosion. *)
From Coq Require Import QArith Lia.
From Verif Require Import Base BaseFacts Scalars NumFacts Focal FocalSpec FocalResults Morph MorphSpec MorphProofs.
Open Scope Z_scope.

(* Every size, shape, chunking, mask and dtype (bool is refused, C48_errors).
   [dims s]: the rows and columns of the window.  dilate: a cell is null exactly
   when there is no valid cell in its window, and holds the greatest valid value
   in the window otherwise.  Values -inf are excluded, see the refutation. *)
Theorem C48_dilate : forall s kr kc d nv ny nx ycs xcs data mask,
  dims s = Some (kr, kc) -> 0 < kr -> 0 < kc -> ~ (kr = 1 /\ kc = 1) -> d <> BOOL ->
  0 < ny -> 0 < nx -> kr / 2 <= ny -> kc / 2 <= nx -> cuts ny ycs -> cuts nx xcs ->
  shaped2 ny nx data -> match mask with Some m => shaped2 ny nx m | None => True end ->
  (forall p q, valid_cell mask ny nx p q -> held_by d (val2 NaN data p q) /\ val2 NaN data p q <> MInf) ->
  exists out omask, dilate_or_erode Dilation s d nv ny nx ycs xcs (Band data mask) = Ok (Band out omask)
  /\ shaped2 ny nx out /\ match omask with Some m => mask <> None /\ shaped2 ny nx m | None => mask = None end
  /\ forall i j, 0 <= i < ny -> 0 <= j < nx ->
     let W p q := reaches_down kr (p - i) /\ reaches_down kc (q - j) /\ valid_cell mask ny nx p q in
     (null_cell omask i j = false <-> exists p q, W p q)
     /\ if null_cell omask i j then val2 NaN out i j = nv else greatest_in W (val2 NaN data) (val2 NaN out i j).
Proof. exact dilate_spec. Qed.
Print Assumptions C48_dilate.

(* erode: a cell of a masked raster is null exactly when its window contains a
   null cell or reaches beyond the raster; otherwise it holds the least valid
   value in the window. *)
Theorem C48_erode : forall s kr kc d nv ny nx ycs xcs data mask,
  dims s = Some (kr, kc) -> 0 < kr -> 0 < kc -> ~ (kr = 1 /\ kc = 1) -> d <> BOOL ->
  0 < ny -> 0 < nx -> kr / 2 <= ny -> kc / 2 <= nx -> cuts ny ycs -> cuts nx xcs ->
  shaped2 ny nx data -> match mask with Some m => shaped2 ny nx m | None => True end ->
  (forall p q, valid_cell mask ny nx p q -> held_by d (val2 NaN data p q) /\ val2 NaN data p q <> PInf) ->
  exists out omask, dilate_or_erode Erosion s d nv ny nx ycs xcs (Band data mask) = Ok (Band out omask)
  /\ shaped2 ny nx out /\ match omask with Some m => mask <> None /\ shaped2 ny nx m | None => mask = None end
  /\ forall i j, 0 <= i < ny -> 0 <= j < nx ->
     let W p q := reaches_up kr (p - i) /\ reaches_up kc (q - j) in
     (null_cell omask i j = false <-> mask = None \/ forall p q, W p q -> valid_cell mask ny nx p q)
     /\ if null_cell omask i j then val2 NaN out i j = nv else least_in (fun p q => W p q /\ valid_cell mask ny nx p q) (val2 NaN data) (val2 NaN out i j).
Proof. exact erode_spec. Qed.
Print Assumptions C48_erode.

(* erode <= original <= dilate, infinities included; valid cells only shrink and
   grow *)
Theorem C48_order : forall s kr kc d nv ny nx ycs xcs data mask,
  dims s = Some (kr, kc) -> 0 < kr -> 0 < kc -> ~ (kr = 1 /\ kc = 1) -> d <> BOOL ->
  0 < ny -> 0 < nx -> kr / 2 <= ny -> kc / 2 <= nx -> cuts ny ycs -> cuts nx xcs ->
  shaped2 ny nx data -> match mask with Some m => shaped2 ny nx m | None => True end ->
  (forall p q, valid_cell mask ny nx p q -> is_nan (val2 NaN data p q) = false) ->
  exists dout dmask eout emask, dilate_or_erode Dilation s d nv ny nx ycs xcs (Band data mask) = Ok (Band dout dmask)
  /\ dilate_or_erode Erosion s d nv ny nx ycs xcs (Band data mask) = Ok (Band eout emask)
  /\ forall i j, 0 <= i < ny -> 0 <= j < nx ->
     (null_cell emask i j = false -> null_cell mask i j = false /\ num_leb (val2 NaN eout i j) (val2 NaN data i j) = true)
     /\ (null_cell mask i j = false -> null_cell dmask i j = false /\ num_leb (val2 NaN data i j) (val2 NaN dout i j) = true).
Proof. exact erode_le_dilate. Qed.
Print Assumptions C48_order.

(* sizes that are refused *)
Theorem C48_errors : forall s, match dims s with Some (kr, kc) => kr <= 0 \/ kc <= 0 \/ (kr = 1 /\ kc = 1) | None => True end -> get_footprint s = Err ValueError.
Proof. exact footprint_bad. Qed.
Print Assumptions C48_errors.

(* -inf is not dilated: the result is the smallest finite number at the edge of
   the raster (or beside a null cell). *)
Theorem C48_infinity_refuted : exists v, dilate_or_erode Dilation (OneSize 3) F32 NaN 1 1 [1] [1] (Band [[MInf]] None) = Ok (Band [[v]] None) /\ num_eqb v MInf = false.
Proof. exists (of_Z (smallest F32)). split; vm_compute; reflexivity. Qed.

(* Examples *)
Definition zs := map (map of_Z).
Definition values (r : res band) := match r with Ok (Band o m) => Some (o, m) | Err _ => None end.
Definition ex_data := zs [[5; 1; 7; 2]; [3; 9; 4; 6]; [8; 2; 1; 3]].
Definition ex_mask := [[false; false; true; false]; [false; false; false; false]; [true; false; false; false]].
(* the same for all chunks; even windows reach down and right *)
Example C48_ex_dilate : let go ycs xcs := dilate_or_erode Dilation (SizeSeq [2; 3]) U8 (of_Z 255) 3 4 ycs xcs (Band ex_data (Some ex_mask)) in
  go [1; 2] [3; 1] = go [3] [4] /\
  go [3] [4] = Ok (Band (zs [[9; 9; 9; 6]; [9; 9; 9; 6]; [2; 2; 3; 3]]) (Some [[false; false; false; false]; [false; false; false; false]; [false; false; false; false]])).
Proof. split; vm_compute; reflexivity. Qed.
Example C48_ex_erode : dilate_or_erode Erosion (SizeSeq [2; 1]) U8 (of_Z 255) 3 4 [1; 2] [3; 1] (Band ex_data (Some ex_mask))
  = Ok (Band (zs [[255; 255; 255; 255]; [3; 1; 255; 2]; [255; 2; 1; 3]]) (Some [[true; true; true; true]; [false; false; true; false]; [true; false; false; false]])).
Proof. vm_compute. reflexivity. Qed.
(* a masked raster without null cells loses its border, an unmasked one does not *)
Example C48_ex_border : let m := full 3 (full 3 false) in let d := zs [[1; 2; 3]; [4; 5; 6]; [7; 8; 9]] in
  values (dilate_or_erode Erosion (OneSize 3) U8 (of_Z 0) 3 3 [3] [3] (Band d (Some m))) = Some (zs [[0; 0; 0]; [0; 1; 0]; [0; 0; 0]], Some [[true; true; true]; [true; false; true]; [true; true; true]])
  /\ values (dilate_or_erode Erosion (OneSize 3) U8 (of_Z 0) 3 3 [3] [3] (Band d None)) = Some (zs [[1; 1; 2]; [1; 1; 2]; [4; 4; 5]], None).
Proof. split; vm_compute; reflexivity. Qed.
(* the hypotheses hold for the example *)
Example C48_ex_hypotheses : dims (SizeSeq [2; 3]) = Some (2, 3) /\ cuts 3 [1; 2] /\ cuts 4 [3; 1] /\ shaped2 3 4 ex_data /\ shaped2 3 4 ex_mask
  /\ forall p q, valid_cell (Some ex_mask) 3 4 p q -> held_by U8 (val2 NaN ex_data p q) /\ val2 NaN ex_data p q <> PInf /\ val2 NaN ex_data p q <> MInf.
Proof.
  split; [reflexivity|]. split; [split; [repeat constructor; lia|reflexivity]|]. split; [split; [repeat constructor; lia|reflexivity]|].
  split; [split; [reflexivity|repeat constructor]|]. split; [split; [reflexivity|repeat constructor]|].
  intros p q (Hp & Hq & _). assert (P : p = 0 \/ p = 1 \/ p = 2) by lia. assert (Q : q = 0 \/ q = 1 \/ q = 2 \/ q = 3) by lia.
  destruct P as [->|[->| ->]], Q as [->|[->|[->| ->]]]; (split; [split; vm_compute; discriminate|split; discriminate]).
Qed.
