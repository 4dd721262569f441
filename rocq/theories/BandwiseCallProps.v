(* C91: numpy functions and operators of Raster.bandwise. *)
From Coq Require Import QArith String Lia.
From Verif Require Import Base BaseFacts Scalars Dtypes Arr2 Raster RasterSpec UfuncCall UfuncCallSpec BandwiseCall BandwiseCallSpec BandwiseCallProofs.
From Verif Require Align UfuncCallProps.
Open Scope Z_scope.

(* One value for each band, or one for all, on either side. *)
Theorem C91_call_partial : forall dims s self e u first i d v ds kw nb ny nx, get s self = Ok e -> dims self = (ny, nx) -> 0 < ny -> 0 < nx -> wf nb (ny * nx) (e_raster e) -> 0 < nb ->
  by_band nb nx i d v -> good_types e u first d ds ->
  exists es, call_bandwise dims s self u (pair_in_order first Adapter i) false kw = Value (Fresh es, s) /\ band_outputs nb (ny * nx) e u first v ds es.
Proof. exact bandwise_ok. Qed.
Print Assumptions C91_call_partial.
(* A number gives what it gives without bandwise (with ldexp only on the right). *)
Theorem C91_plain : forall s self e u first o d x ds kw nb nc, get s self = Ok e -> wf nb nc (e_raster e) -> number_of o = Some (d, x) -> (first = true \/ u_name u <> "ldexp"%string) -> good_types e u first d ds ->
  exists es, call_ufunc s u (pair_in_order first (PRaster self) o) [] kw = Value (Fresh es, s) /\ band_outputs nb nc e u first (fun _ => x) ds es.
Proof. exact plain_ok. Qed.
Print Assumptions C91_plain.
(* A raster of one cell is a number: its cell, whether it is null or not. *)
Theorem C91_one_cell : forall dims s self other e' u first out kw d x, get s other = Ok e' -> dims other = (1, 1) -> r_dtype (e_raster e') = d -> r_data (e_raster e') = [[x]] ->
  call_bandwise dims s self u (pair_in_order first Adapter (Obj (PRaster other))) out kw = call_bandwise dims s self u (pair_in_order first Adapter (Obj (PNumber d x))) out kw.
Proof. exact one_cell_raster. Qed.
Print Assumptions C91_one_cell.
(* Refusals: operands of other kinds; functions that are not of two operands, not
   cell by cell, or have out; arrays of other shapes. *)
Theorem C91_operands : forall dims s self u inputs i out kw, len inputs = u_nin u -> In Adapter inputs -> In i inputs -> ~ looked_at i -> call_bandwise dims s self u inputs out kw = Raise XTypeError.
Proof. exact refused_untaken. Qed.
Print Assumptions C91_operands.
Theorem C91_functions : forall dims s self u inputs out kw, len inputs = u_nin u -> Forall looked_at inputs ->
  (u_nin u <> 2 -> call_bandwise dims s self u inputs out kw = Raise XValueError)
  /\ (u_nin u = 2 -> u_unsupported u = true -> call_bandwise dims s self u inputs out kw = Raise XTypeError)
  /\ (u_nin u = 2 -> u_unsupported u = false -> u_gufunc u = true -> call_bandwise dims s self u inputs out kw = Raise XNotImplementedError)
  /\ (u_nin u = 2 -> u_unsupported u = false -> u_gufunc u = false -> out = true -> call_bandwise dims s self u inputs out kw = Raise XNotImplementedError).
Proof. exact refused_kind. Qed.
Print Assumptions C91_functions.
Theorem C91_shapes : forall dims s self e u first d a kw nb ny nx, get s self = Ok e -> dims self = (ny, nx) -> wf nb (ny * nx) (e_raster e) -> u_nin u = 2 -> u_unsupported u = false -> u_gufunc u = false ->
  len (Align.nd_flat a) <> 1 -> (forall n, Align.nd_shape a = [n] -> n <> len (Align.nd_flat a) \/ n <> nb \/ nx = 1 \/ nx = n) ->
  fold_right Z.mul 1 (Align.nd_shape a) = len (Align.nd_flat a) ->
  call_bandwise dims s self u (pair_in_order first Adapter (Nd d a)) false kw = Raise XValueError.
Proof. exact refused_shape. Qed.
Print Assumptions C91_shapes.

Theorem C91_unknown : forall dims s self e u first d kw, get s self = Ok e -> u_nin u = 2 -> u_unsupported u = false -> u_gufunc u = false -> call_bandwise dims s self u (pair_in_order first Adapter (Unknown d)) false kw = Raise XValueError.
Proof. exact refused_unknown. Qed.
Print Assumptions C91_unknown.
Theorem C91_count : forall dims s self u inputs out kw, len inputs <> u_nin u -> call_bandwise dims s self u inputs out kw = Raise XTypeError.
Proof. exact refused_count. Qed.
Print Assumptions C91_count.

(* ---- examples ---- *)
Definition subtract : ufunc := UfuncCallProps.subtract.
(* two bands of one row and three columns; one band of one cell, null *)
Definition e1 : entry := Entry (Raster I16 (Some (of_Z (-1))) [map of_Z [5; -1; 7]; map of_Z [1; 2; 3]] [[false; true; false]; [false; false; false]]) (Some 3).
Definition e2 : entry := Entry (Raster I16 (Some (of_Z (-1))) [[of_Z (-1)]] [[true]]) None.
Definition store := [e1; e2].
Definition dims (id : Z) : Z * Z := if id =? 0 then (1, 3) else (1, 1).
Definition per_band (l : list Z) : input := Nd U8 (Align.NdArray [len l] (map of_Z l)).
Definition ex_result : raster := Raster I16 (Some (of_Z (- 2 ^ 15))) [map of_Z [-5; -32768; -3]; map of_Z [-19; -18; -17]] [[false; true; false]; [false; false; false]].
Example C91_example : call_bandwise dims store 0 subtract [Adapter; per_band [10; 20]] false None = Value (Fresh [Entry ex_result (Some 3)], store)
  /\ call_bandwise dims store 0 subtract [Adapter; Obj (PInt 1)] false None = call_ufunc store subtract [PRaster 0; PInt 1] [] None
  /\ call_bandwise dims store 0 subtract [per_band [10; 20; 30]; Adapter] false None = Raise XValueError
  /\ call_bandwise dims store 0 subtract [Adapter; Obj (PDataArray e2)] false None = Raise XTypeError
  /\ call_bandwise dims store 0 subtract [Adapter; Obj (PDataArray e2)] true None = Raise XTypeError
  /\ call_bandwise dims store 0 subtract [Adapter; per_band [10; 20]] true None = Raise XNotImplementedError.
Proof. vm_compute. auto 10. Qed.
Example C91_hypotheses : by_band 2 3 (per_band [10; 20]) U8 (fun b => of_Z (10 + 10 * b)) /\ good_types e1 subtract false U8 [I16] /\ wf 2 3 (e_raster e1).
Proof.
  split; [apply by_list; [reflexivity|reflexivity|discriminate|discriminate|]; intros b Hb; change (0 <= b < 2) in Hb; assert (b = 0 \/ b = 1) as [-> | ->] by lia; reflexivity|]. split.
  - repeat (split; [reflexivity|]). split; [cbn; lia|]. split; [reflexivity|]. split; [intros [(r & E)|[E|E]]; discriminate|]. right. cbn. lia.
  - split; [lia|]. split; [lia|]. split; [split; [reflexivity|repeat constructor]|]. split; [split; [reflexivity|repeat constructor]|]. discriminate.
Qed.
(* Finding: a list with one value for each band is refused if the raster has as many
   columns as bands, or one column. *)
Theorem C91_list_refuted : ~ (forall dims s self e u d l nb ny nx, get s self = Ok e -> dims self = (ny, nx) -> wf nb (ny * nx) (e_raster e) -> len l = nb -> good_types e u true d [r_dtype (e_raster e)] ->
  exists r, call_bandwise dims s self u [Adapter; Nd d (Align.NdArray [nb] l)] false None = Value r).
Proof.
  intros H. set (e := Entry (Raster I16 None [map of_Z [1; 2]; map of_Z [3; 4]] [[false; false]; [false; false]]) None).
  destruct (H (fun _ => (1, 2)) [e] 0 e subtract U8 [of_Z 1; of_Z 2] 2 1 2 eq_refl eq_refl) as (r & E).
  - split; [lia|]. split; [lia|]. split; [split; [reflexivity|repeat constructor]|]. split; [split; [reflexivity|repeat constructor]|].
    intros _ b c [Hb Hc]. assert (b = 0 \/ b = 1) as [-> | ->] by lia; assert (c = 0 \/ c = 1) as [-> | ->] by lia; reflexivity.
  - reflexivity.
  - repeat (split; [reflexivity|]). split; [cbn; lia|]. split; [reflexivity|]. split; [intros [(r & E)|[E|E]]; discriminate|]. right. cbn. lia.
  - vm_compute in E. discriminate.
Qed.
Print Assumptions C91_list_refuted.
(* Finding: a raster of one cell is taken as operand, but its null mask is lost. *)
Theorem C91_raster_refuted : ~ (forall dims s self other u es b c nb nc, call_bandwise dims s self u [Adapter; Obj (PRaster other)] false None = Value (Fresh es, s) -> in_raster nb nc b c ->
  obj_null s 0 0 (PRaster other) = true -> Forall (fun e => wf nb nc (e_raster e) -> null (e_raster e) b c = true) es).
Proof.
  intros H. set (r := Raster I16 (Some (of_Z (- 2 ^ 15))) [map of_Z [6; -32768; 8]; map of_Z [2; 3; 4]] [[false; true; false]; [false; false; false]]).
  specialize (H dims store 0 1 subtract [Entry r (Some 3)] 0 0 2 3 ltac:(vm_compute; reflexivity) ltac:(split; lia) eq_refl). inversion H as [|? ? K _]. cbn [e_raster] in K.
  assert (W : wf 2 3 r); [|specialize (K W); discriminate K].
  split; [lia|]. split; [lia|]. split; [split; [reflexivity|repeat constructor]|]. split; [split; [reflexivity|repeat constructor]|]. discriminate.
Qed.
Print Assumptions C91_raster_refuted.
