(* Cell-wise view of a raster. *)
From Coq Require Import QArith.
From Verif Require Import Base Scalars Raster FocalSpec.
Open Scope Z_scope.

(* value and nullness of cell c of band b *)
Definition value (r : raster) (b c : Z) : num := val2 NaN (r_data r) b c.
Definition null (r : raster) (b c : Z) : bool := val2 false (r_mask r) b c.
Definition in_raster (nb nc b c : Z) : Prop := 0 <= b < nb /\ 0 <= c < nc.
(* nb bands of nc cells; without a null value there are no null cells *)
Definition wf (nb nc : Z) (r : raster) : Prop :=
  0 < nb /\ 0 <= nc /\ shaped2 nb nc (r_data r) /\ shaped2 nb nc (r_mask r)
  /\ (r_nv r = None -> forall b c, in_raster nb nc b c -> null r b c = false).
(* every null cell holds the null value; a bool raster's null value is True *)
Definition burned (nb nc : Z) (r : raster) : Prop :=
  (forall b c, in_raster nb nc b c -> null r b c = true -> r_nv r = Some (value r b c))
  /\ (r_dtype r = BOOL -> r_nv r = None \/ r_nv r = Some (of_Z 1)).
(* equal as values: NaN equals NaN *)
Definition same_value (a b : num) : bool :=
  match a, b with NaN, NaN => true | _, _ => num_eqb a b end.
(* the null value a raster has, or would be given *)
Definition null_value_of (r : raster) : num := match r_nv r with Some v => v | None => default_null (r_dtype r) end.

(* would a value x count as null in r? *)
Definition hits (r : raster) (x : num) : bool := match r_nv r with Some v => same_value x v | None => false end.

(* remap_range: the first mapping whose interval contains v *)
Definition contains (inc : inclusivity) (lo hi v : num) : bool :=
  (match inc with ILeft | IBoth => num_leb lo v | _ => num_ltb lo v end)
  && (match inc with IRight | IBoth => num_leb v hi | _ => num_ltb v hi end).
Definition first_mapping (inc : inclusivity) (ms : list (scalar * scalar * option scalar)) (v : num) : option (option scalar) :=
  option_map snd (find (fun '(lo, hi, _) => contains inc (scalar_num lo) (scalar_num hi) v) ms).

(* where: what a branch offers at a cell *)
Definition branch_null (x : branch) (b c : Z) : bool :=
  match x with BRaster r => null r b c | BScalar _ => false | BNone => true end.
Definition branch_value (x : branch) (b c : Z) : num :=
  match x with BRaster r => value r b c | BScalar s => scalar_num s | BNone => NaN end.
Definition cond_true (r : raster) (b c : Z) : bool :=
  match r_dtype r with BOOL => negb (num_eqb (value r b c) (of_Z 0)) | _ => num_ltb (of_Z 0) (value r b c) end.
Definition branch_ok (nb nc : Z) (x : branch) : Prop := match x with BRaster r => wf nb nc r | _ => True end.

(* reclassify: v is a key of the mapping with target o *)
Definition maps_to (remapping : list (num * option scalar)) (v : num) (o : option scalar) : Prop :=
  exists k, In (k, o) remapping /\ num_eqb k v = true.
Definition distinct_keys (remapping : list (num * option scalar)) : Prop :=
  ForallOrdPairs (fun p q => num_eqb (fst p) (fst q) = false) remapping.

(* the bands of several rasters, in order *)
Definition all_bands (rs : list raster) : list (raster * Z) :=
  concat (map (fun r => map (pair r) (zrange 0 (len (r_data r)))) rs).
