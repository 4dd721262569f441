(* C105: opening (erode, then dilate) and closing (dilate, then erode) *)
From Coq Require Import QArith Lia List.
From Verif Require Import Base BaseFacts Scalars NumFacts Chunks Arr2 Focal FocalSpec FocalResults Morph MorphSpec MorphProofs MorphOpenProofs.
Import ListNotations.
Open Scope Z_scope.

(* Any size, odd or even, any mask, any chunks; values are finite.
   Opening: a cell that is valid in the result is valid in the raster, and does not grow. *)
Theorem C105_opening : forall s kr kc d ny nx nv nv' ycs xcs ycs' xcs' x m,
  dims s = Some (kr, kc) -> 0 < kr -> 0 < kc -> ~ (kr = 1 /\ kc = 1) -> d <> BOOL -> 0 < ny -> 0 < nx -> kr / 2 <= ny -> kc / 2 <= nx ->
  cuts ny ycs -> cuts nx xcs -> cuts ny ycs' -> cuts nx xcs' -> shaped2 ny nx x -> match m with Some m => shaped2 ny nx m | None => True end ->
  (forall p q, valid_cell m ny nx p q -> held_by d (val2 NaN x p q) /\ val2 NaN x p q <> MInf /\ val2 NaN x p q <> PInf) ->
  exists e em o om, dilate_or_erode Erosion s d nv ny nx ycs xcs (Band x m) = Ok (Band e em) /\ dilate_or_erode Dilation s d nv' ny nx ycs' xcs' (Band e em) = Ok (Band o om)
  /\ forall i j, 0 <= i < ny -> 0 <= j < nx -> null_cell om i j = false -> null_cell m i j = false /\ num_leb (val2 NaN o i j) (val2 NaN x i j) = true.
Proof. intros. now apply (opening s kr kc d ny nx). Qed.
Print Assumptions C105_opening.

(* Closing: a valid cell stays valid and does not shrink, if the raster has no null value or the
   window of the cell lies within the raster. *)
Theorem C105_closing : forall s kr kc d ny nx nv nv' ycs xcs ycs' xcs' x m,
  dims s = Some (kr, kc) -> 0 < kr -> 0 < kc -> ~ (kr = 1 /\ kc = 1) -> d <> BOOL -> 0 < ny -> 0 < nx -> kr / 2 <= ny -> kc / 2 <= nx ->
  cuts ny ycs -> cuts nx xcs -> cuts ny ycs' -> cuts nx xcs' -> shaped2 ny nx x -> match m with Some m => shaped2 ny nx m | None => True end ->
  (forall p q, valid_cell m ny nx p q -> held_by d (val2 NaN x p q) /\ val2 NaN x p q <> MInf /\ val2 NaN x p q <> PInf) ->
  exists e em o om, dilate_or_erode Dilation s d nv ny nx ycs xcs (Band x m) = Ok (Band e em) /\ dilate_or_erode Erosion s d nv' ny nx ycs' xcs' (Band e em) = Ok (Band o om)
  /\ forall i j, 0 <= i < ny -> 0 <= j < nx -> null_cell m i j = false ->
     m = None \/ (forall p q, reaches_up kr (p - i) -> reaches_up kc (q - j) -> 0 <= p < ny /\ 0 <= q < nx) ->
     null_cell om i j = false /\ num_leb (val2 NaN x i j) (val2 NaN o i j) = true.
Proof. intros. now apply (closing s kr kc d ny nx). Qed.
Print Assumptions C105_closing.

(* Opening twice is opening once. *)
Theorem C105_opening_twice : forall s kr kc d ny nx nv nv' nv2 nv2' ycs xcs ycs' xcs' x m,
  dims s = Some (kr, kc) -> 0 < kr -> 0 < kc -> ~ (kr = 1 /\ kc = 1) -> d <> BOOL -> 0 < ny -> 0 < nx -> kr / 2 <= ny -> kc / 2 <= nx ->
  cuts ny ycs -> cuts nx xcs -> cuts ny ycs' -> cuts nx xcs' -> shaped2 ny nx x -> match m with Some m => shaped2 ny nx m | None => True end ->
  (forall p q, valid_cell m ny nx p q -> held_by d (val2 NaN x p q) /\ val2 NaN x p q <> MInf /\ val2 NaN x p q <> PInf) ->
  exists e em o om e2 em2 o2 om2, dilate_or_erode Erosion s d nv ny nx ycs xcs (Band x m) = Ok (Band e em) /\ dilate_or_erode Dilation s d nv' ny nx ycs xcs (Band e em) = Ok (Band o om)
  /\ dilate_or_erode Erosion s d nv2 ny nx ycs' xcs' (Band o om) = Ok (Band e2 em2) /\ dilate_or_erode Dilation s d nv2' ny nx ycs' xcs' (Band e2 em2) = Ok (Band o2 om2)
  /\ forall i j, 0 <= i < ny -> 0 <= j < nx -> null_cell om2 i j = null_cell om i j /\ (null_cell om i j = false -> num_eqb (val2 NaN o2 i j) (val2 NaN o i j) = true).
Proof. intros. now apply (opening_twice s kr kc d ny nx). Qed.
Print Assumptions C105_opening_twice.

(* Closing twice is closing once. *)
Theorem C105_closing_twice : forall s kr kc d ny nx nv nv' nv2 nv2' ycs xcs ycs' xcs' x m,
  dims s = Some (kr, kc) -> 0 < kr -> 0 < kc -> ~ (kr = 1 /\ kc = 1) -> d <> BOOL -> 0 < ny -> 0 < nx -> kr / 2 <= ny -> kc / 2 <= nx ->
  cuts ny ycs -> cuts nx xcs -> cuts ny ycs' -> cuts nx xcs' -> shaped2 ny nx x -> match m with Some m => shaped2 ny nx m | None => True end ->
  (forall p q, valid_cell m ny nx p q -> held_by d (val2 NaN x p q) /\ val2 NaN x p q <> MInf /\ val2 NaN x p q <> PInf) ->
  exists e em o om e2 em2 o2 om2, dilate_or_erode Dilation s d nv ny nx ycs xcs (Band x m) = Ok (Band e em) /\ dilate_or_erode Erosion s d nv' ny nx ycs xcs (Band e em) = Ok (Band o om)
  /\ dilate_or_erode Dilation s d nv2 ny nx ycs' xcs' (Band o om) = Ok (Band e2 em2) /\ dilate_or_erode Erosion s d nv2' ny nx ycs' xcs' (Band e2 em2) = Ok (Band o2 om2)
  /\ forall i j, 0 <= i < ny -> 0 <= j < nx -> null_cell om2 i j = null_cell om i j /\ (null_cell om i j = false -> num_eqb (val2 NaN o2 i j) (val2 NaN o i j) = true).
Proof. intros. now apply (closing_twice s kr kc d ny nx). Qed.
Print Assumptions C105_closing_twice.

(* ---- examples: windows of (2, 3), with and without null cells ---- *)
Definition cells : list (list num) := map (map of_Z) [[5; 1; 7; 2]; [3; 9; 4; 6]; [8; 2; 1; 3]; [6; 7; 8; 9]].
Definition nulls : list (list bool) := [[false; false; false; true]; [false; false; false; false]; [false; false; false; false]; [true; false; false; false]].
Definition erode b := dilate_or_erode Erosion (SizeSeq [2; 3]) U8 (of_Z 255) 4 4 [2; 2] [4] b.
Definition dilate b := dilate_or_erode Dilation (SizeSeq [2; 3]) U8 (of_Z 255) 4 4 [4] [1; 3] b.
Example C105_example :
  (let* b := erode (Band cells None) in dilate b) = Ok (Band (map (map of_Z) [[1; 1; 2; 2]; [2; 2; 2; 2]; [2; 2; 1; 1]; [2; 2; 1; 1]]) None)
  /\ (let* b := dilate (Band cells None) in erode b) = Ok (Band (map (map of_Z) [[9; 9; 7; 7]; [9; 9; 6; 6]; [8; 8; 6; 6]; [7; 7; 8; 9]]) None)
  /\ (let* b := erode (Band cells (Some nulls)) in dilate b) = Ok (Band (map (map of_Z) [[1; 1; 1; 255]; [1; 1; 1; 1]; [1; 1; 1; 1]; [255; 1; 1; 1]]) (Some nulls)).
Proof. vm_compute. repeat split. Qed.
Example C105_hypotheses : shaped2 4 4 cells /\ shaped2 4 4 nulls /\ cuts 4 [2; 2] /\ cuts 4 [1; 3] /\ 2 / 2 <= 4 /\ 3 / 2 <= 4
  /\ (forall p q, valid_cell (Some nulls) 4 4 p q -> held_by U8 (val2 NaN cells p q) /\ val2 NaN cells p q <> MInf /\ val2 NaN cells p q <> PInf)
  /\ (forall p q, reaches_up 2 (p - 2) -> reaches_up 3 (q - 1) -> 0 <= p < 4 /\ 0 <= q < 4).
Proof.
  split; [repeat constructor|]. split; [repeat constructor|]. split; [repeat constructor; lia|]. split; [repeat constructor; lia|]. split; [vm_compute; discriminate|]. split; [vm_compute; discriminate|]. split.
  - intros p q (Hp & Hq & _). assert (p = 0 \/ p = 1 \/ p = 2 \/ p = 3) as [-> |[-> |[-> | ->]]] by lia; assert (q = 0 \/ q = 1 \/ q = 2 \/ q = 3) as [-> |[-> |[-> | ->]]] by lia;
      (split; [split; vm_compute; discriminate|split; discriminate]).
  - intros p q P Q. unfold reaches_up in *. change (2 / 2) with 1 in P. change ((2 - 1) / 2) with 0 in P. change (3 / 2) with 1 in Q. change ((3 - 1) / 2) with 1 in Q. lia.
Qed.
(* with a null value, closing drops the cells at the edges although none is null *)
Theorem C105_closing_edge_refuted :
  let b := Band (map (map of_Z) [[1; 2; 3; 4; 5]]) (Some [[false; false; false; false; false]]) in
  (let* c := dilate_or_erode Dilation (SizeSeq [1; 3]) U8 (of_Z 255) 1 5 [1] [5] b in dilate_or_erode Erosion (SizeSeq [1; 3]) U8 (of_Z 255) 1 5 [1] [5] c)
  = Ok (Band (map (map of_Z) [[255; 2; 3; 4; 255]]) (Some [[true; false; false; false; true]])).
Proof. vm_compute. reflexivity. Qed.
Print Assumptions C105_closing_edge_refuted.
