(* C90: rasterising with any null value. *)
From Coq Require Import QArith.
From Verif Require Import Base Scalars Zonal Rasterize RasterizeSpec RasterFill RasterFillSpec RasterFillProofs.
Open Scope Z_scope.

(* A null value and field values that their dtype holds: as in C35, with the
   detour, the check of rasterio and the comparison of NumPy. *)
Theorem C90_kept : forall old ui m d q n parts matches t, 0 <= n -> kept old d (Fin q) ->
  (forall f, In f (concat parts) -> kept old d (burned ui f) /\ is_nan (burned ui f) = false /\ num_eqb (burned ui f) (Fin q) = false) ->
  (forall p f i, In p parts -> matches p = false -> In f p -> 0 <= i < n -> touches f i = false) ->
  match t with None => filter matches parts = [] | Some t => partitions t = filter matches parts end ->
  exists data, fill_chunk old ui m d (Fin q) n t = Ok data /\ len data = n /\
  forall i, 0 <= i < n -> exists v, get data i = Ok v /\ resolves m (Fin q) (touching ui (concat parts) i) v /\
    get (fill_mask m d (Fin q) t data) i = Ok (match touching ui (concat parts) i with [] => true | _ => false end).
Proof. exact fill_kept. Qed.
Print Assumptions C90_kept.

(* Integers survive in every integer dtype, also int8 on its way through int16, if
   rasterio takes 64-bit integers or they do not occur. *)
Theorem C90_integers_kept : forall old d z, is_float_dtype d = false -> (old = false \/ (d <> I64 /\ d <> U64)) -> kept old d (of_Z z).
Proof. exact kept_int. Qed.
Print Assumptions C90_integers_kept.

(* A null value that rasterio does not take for the dtype: refused when a feature
   touches the chunk. *)
Theorem C90_refused : forall old ui m d fill n t f i, In f (concat (partitions t)) -> 0 <= i < n -> touches f i = true -> can_cast (get_rio_dtype old d) fill = false ->
  fill_chunk old ui m d fill n (Some t) = Err ValueError.
Proof. exact fill_refused. Qed.
Print Assumptions C90_refused.

(* A null value that rasterio takes but that is stored as another number.  With
   first and last only the features of the first, last partition at the chunk are
   burned. *)
Theorem C90_first_last : forall old ui m d fill n, 0 <= n -> through old d fill = stored d fill -> can_cast (get_rio_dtype old d) fill = true -> num_eqb (stored d fill) fill = false ->
  forall t, (m = First \/ m = Last) ->
  (forall f, In f (concat (partitions t)) -> kept old d (burned ui f) /\ is_nan (burned ui f) = false /\ num_eqb (burned ui f) fill = false) ->
  exists data, fill_chunk old ui m d fill n (Some t) = Ok data /\ len data = n /\
  forall i, 0 <= i < n -> exists v, get data i = Ok v /\
    resolves m (stored d fill) (touching ui (match m with First => hd [] (partitions t) | _ => List.last (partitions t) [] end) i) v.
Proof. exact fill_first_last. Qed.
Print Assumptions C90_first_last.

(* Cells that this partition leaves alone are null with a float field; with an integer
   field no cell is null. *)
Theorem C90_first_last_mask : forall old ui m d fill n, 0 <= n -> through old d fill = stored d fill -> can_cast (get_rio_dtype old d) fill = true -> num_eqb (stored d fill) fill = false ->
  forall t, (m = First \/ m = Last) ->
  (forall f, In f (concat (partitions t)) -> kept old d (burned ui f) /\ is_nan (burned ui f) = false /\ num_eqb (burned ui f) fill = false) -> is_nan fill = false ->
  (forall f, In f (concat (partitions t)) -> num_eqb (burned ui f) (stored d fill) = false) ->
  forall data, fill_chunk old ui m d fill n (Some t) = Ok data -> forall i, 0 <= i < n ->
  get (fill_mask m d fill (Some t) data) i = Ok (is_float_dtype d && match touching ui (match m with First => hd [] (partitions t) | _ => List.last (partitions t) [] end) i with [] => true | _ => false end).
Proof. exact mask_first_last. Qed.
Print Assumptions C90_first_last_mask.

(* With min and max the stored null value takes part, once for each partition that
   leaves the cell alone. *)
Theorem C90_min_max : forall old ui m d fill n, 0 <= n -> through old d fill = stored d fill -> can_cast (get_rio_dtype old d) fill = true -> num_eqb (stored d fill) fill = false ->
  is_nan (stored d fill) = false -> forall t, (m = Min \/ m = Max) ->
  (forall f, In f (concat (partitions t)) -> kept old d (burned ui f) /\ is_nan (burned ui f) = false /\ num_eqb (burned ui f) fill = false) ->
  (forall f, In f (concat (partitions t)) -> num_eqb (burned ui f) (stored d fill) = false) ->
  exists data, fill_chunk old ui m d fill n (Some t) = Ok data /\ len data = n /\
  forall i, 0 <= i < n -> exists v vs, get data i = Ok v /\
    Forall2 (fun p u => resolves m (stored d fill) (touching ui p i) u) (partitions t) vs /\ least m vs v.
Proof. exact fill_min_max. Qed.
Print Assumptions C90_min_max.

(* And no cell is null, if there are several partitions or the field is an integer. *)
Theorem C90_min_max_mask : forall old ui m d fill n, 0 <= n -> through old d fill = stored d fill -> can_cast (get_rio_dtype old d) fill = true -> num_eqb (stored d fill) fill = false ->
  is_nan (stored d fill) = false -> forall t, (m = Min \/ m = Max) ->
  (forall f, In f (concat (partitions t)) -> kept old d (burned ui f) /\ is_nan (burned ui f) = false /\ num_eqb (burned ui f) fill = false) -> is_nan fill = false ->
  (1 < len (partitions t)) \/ is_float_dtype d = false ->
  forall data, fill_chunk old ui m d fill n (Some t) = Ok data -> forall i, 0 <= i < n -> get (fill_mask m d fill (Some t) data) i = Ok false.
Proof. exact mask_min_max. Qed.
Print Assumptions C90_min_max_mask.

Definition on (cells : list Z) (i : Z) : bool := existsb (Z.eqb i) cells.
Definition feat (v : Z) (cells : list Z) : feature := Feature 0 (of_Z v) (on cells).
Definition parts2 : list (list feature) := [[feat 5 [0; 1]]; [feat 3 [1; 2]]].
Definition two : steps := Two (Part [feat 5 [0; 1]]) (Part [feat 3 [1; 2]]).
(* -9999 is a float32, 1 / 10 is not *)
Example C90_kept_example :
  kept false F32 (of_Z (-9999)) /\ kept false F32 (of_Z 5) /\ kept true I8 (of_Z 5) /\
  fill_chunk false false Last F32 (of_Z (-9999)) 4 (Some two) = Ok [of_Z 5; of_Z 3; of_Z 3; of_Z (-9999)] /\
  fill_chunk true false Max I8 (of_Z 7) 4 (Some two) = Ok [of_Z 5; of_Z 5; of_Z 3; of_Z 7] /\
  fill_mask Last F32 (of_Z (-9999)) (Some two) [of_Z 5; of_Z 3; of_Z 3; of_Z (-9999)] = [false; false; false; true].
Proof. repeat split; vm_compute; reflexivity. Qed.
Definition tenth : num := Fin (1 # 10).
Definition as_stored (v : num) : bool := num_eqb v (Fin (13421773 # 134217728)).
Example C90_other_example :
  num_eqb (stored F32 tenth) tenth = false /\ as_stored (stored F32 tenth) = true /\ through false F32 tenth = stored F32 tenth /\ can_cast F32 tenth = true /\ can_cast I32 (Fin (1 # 2)) = false /\
  fill_chunk false false Last F32 tenth 4 (Some two) = Ok [stored F32 tenth; of_Z 3; of_Z 3; stored F32 tenth] /\
  fill_chunk false false First F32 tenth 4 (Some two) = Ok [of_Z 5; of_Z 5; stored F32 tenth; stored F32 tenth] /\
  fill_chunk false false Min F32 tenth 4 (Some two) = Ok [stored F32 tenth; of_Z 3; stored F32 tenth; stored F32 tenth] /\
  fill_chunk false false Max I32 (Fin (1 # 2)) 4 (Some two) = Err ValueError /\ can_cast I32 (Fin (3 # 2)) = false /\
  through true I64 (Fin (1 # 2)) = stored I64 (Fin (1 # 2)) /\ fill_chunk true false Last I64 (Fin (1 # 2)) 4 (Some two) = Ok [of_Z 0; of_Z 3; of_Z 3; of_Z 0].
Proof. repeat split; vm_compute; reflexivity. Qed.

(* Finding: a float32 field and a null value that float32 rounds, such as 0.1 or
   1e20: features of one partition are lost to the null value of another. *)
Theorem C90_features_refuted : ~ (forall m d fill n t data i v null, is_nan fill = false -> 0 <= i < n ->
  (forall f, In f (concat (partitions t)) -> kept false d (burned false f) /\ is_nan (burned false f) = false /\ num_eqb (burned false f) fill = false) ->
  fill_chunk false false m d fill n (Some t) = Ok data -> get data i = Ok v -> get (fill_mask m d fill (Some t) data) i = Ok null ->
  promised m false (partitions t) i v null).
Proof.
  intros H. specialize (H Last F32 tenth 4 two [stored F32 tenth; of_Z 3; of_Z 3; stored F32 tenth] 0 (stored F32 tenth) true eq_refl ltac:(easy)).
  assert (E : promised Last false (partitions two) 0 (stored F32 tenth) true); [|destruct E; discriminate].
  apply H; [|vm_compute; reflexivity|reflexivity|vm_compute; reflexivity].
  intros f [<-|[<-|[]]]; repeat split; vm_compute; reflexivity.
Qed.
Print Assumptions C90_features_refuted.

(* Finding: an integer field and a fraction as null value: where no feature comes
   near, the cells hold the integer part and are not null. *)
Theorem C90_untouched_refuted : ~ (forall m d fill n data i v null, is_nan fill = false -> 0 <= i < n ->
  fill_chunk false false m d fill n None = Ok data -> get data i = Ok v -> get (fill_mask m d fill None data) i = Ok null ->
  promised m false [] i v null).
Proof.
  intros H. specialize (H Last I32 (Fin (1 # 2)) 1 [of_Z 0] 0 (of_Z 0) false eq_refl ltac:(easy) eq_refl eq_refl eq_refl). discriminate H.
Qed.
Print Assumptions C90_untouched_refuted.

(* Finding: with an old GDAL or rasterio 64-bit integers go through float64, and
   values above 2 ^ 53 come out as others. *)
Theorem C90_int64_refuted : ~ (forall m d fill n t data i v, is_nan fill = false -> 0 <= i < n -> stored d fill = fill ->
  fill_chunk true false m d fill n (Some t) = Ok data -> get data i = Ok v -> resolves m fill (touching false (concat (partitions t)) i) v).
Proof.
  intros H. specialize (H Last I64 (of_Z 0) 1 (Part [feat 9007199254740993 [0]]) [of_Z 9007199254740992] 0 (of_Z 9007199254740992) eq_refl ltac:(easy) eq_refl).
  specialize (H ltac:(vm_compute; reflexivity) eq_refl). vm_compute in H. discriminate H.
Qed.
Print Assumptions C90_int64_refuted.
