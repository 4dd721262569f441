(* C32, C33: statistics computed over an arbitrary tree of partitions. *)
From Coq Require Import QArith Reals.
From Verif Require Import Base Scalars Stats StatsSpec StatsProofs F64 Zonal ZonalSpec ZonalProofs ZonalStats.
Open Scope Z_scope.

(* C33: the chunked minimum / maximum over any blocks (empty ones and ones with
   only NaN included) and any reduction tree *)
Theorem C33_nanmin : forall t, least_of (leaves t) (dask_nanmin t).
Proof. exact nanmin_spec. Qed.
Print Assumptions C33_nanmin.
Theorem C33_nanmax : forall t, greatest_of (leaves t) (dask_nanmax t).
Proof. exact nanmax_spec. Qed.
Print Assumptions C33_nanmax.
(* C33: Raster.min and Raster.max use the unmasked cells *)
Theorem C33_raster_min : forall t, least_of (map fst (filter (fun p => negb (snd p)) (leaves t))) (raster_min t).
Proof. exact raster_min_spec. Qed.
Print Assumptions C33_raster_min.
Theorem C33_raster_max : forall t, greatest_of (map fst (filter (fun p => negb (snd p)) (leaves t))) (raster_max t).
Proof. exact raster_max_spec. Qed.
Print Assumptions C33_raster_max.
Example C33_blocks : dask_nanmin (Node [Node [Leaf []; Leaf [NaN; NaN]]; Node [Leaf [of_Z 4; NaN; of_Z 3]; Leaf []; Leaf [of_Z 7]]]) = [of_Z 3]
  /\ dask_nanmax (Node [Leaf [NaN]; Leaf []]) = [NaN] /\ dask_nanmin (Node [Leaf []; Node [Leaf []]]) = [].
Proof. vm_compute. auto. Qed.
Example C33_raster : raster_max (Node [Leaf [(of_Z 9, true); (of_Z 4, false)]; Leaf [(of_Z 8, true)]]) = [of_Z 4].
Proof. vm_compute. reflexivity. Qed.

(* C32: rows are all cells, split over partitions ts; zone_valid are the valid
   values of zone z.  A zone is reported exactly when it has a cell. *)
Theorem C32_mode : forall zn dn ts z, let rows := flat_map leaves ts in
  zonal_mode zn dn ts z = None /\ zone_cells zn rows z = [] \/
  exists m, zonal_mode zn dn ts z = Some m /\ zone_cells zn rows z <> [] /\
    (zone_valid zn dn rows z = [] /\ m = NaN \/ is_mode (zone_valid zn dn rows z) m).
Proof. exact mode_zonal. Qed.
Print Assumptions C32_mode.
(* asm and entropy with real numbers are those of C31_asm and C31_entropy *)
Theorem C32_asm : forall zn dn ts z, let rows := flat_map leaves ts in let x := zone_valid zn dn rows z in
  zone_cells zn rows z <> [] -> (x = [] /\ zonal_counts 0%R frac_R asm_term zn dn ts z = Some None) \/
  (x <> [] /\ zonal_counts 0%R frac_R asm_term zn dn ts z = Some (Some (asmR x))).
Proof. exact asm_zonal. Qed.
Print Assumptions C32_asm.
Theorem C32_entropy : forall zn dn ts z, let rows := flat_map leaves ts in let x := zone_valid zn dn rows z in
  zone_cells zn rows z <> [] -> (x = [] /\ zonal_counts 0%R frac_R entropy_term zn dn ts z = Some None) \/
  (x <> [] /\ zonal_counts 0%R frac_R entropy_term zn dn ts z = Some (Some (entropyR x))).
Proof. exact entropy_zonal. Qed.
Print Assumptions C32_entropy.
(* asm and entropy in any arithmetic, in particular binary64, do not depend on
   the partitioning: the counts are added up in the order of the values *)
Theorem C32_asm_entropy_any_arithmetic : forall S (zero : S) frac term zn dn ts zn' dn' ts' z z',
  zone_cells zn (flat_map leaves ts) z <> [] -> zone_cells zn' (flat_map leaves ts') z' <> [] ->
  same_values (zone_valid zn dn (flat_map leaves ts) z) (zone_valid zn' dn' (flat_map leaves ts') z') ->
  zonal_counts zero frac term zn dn ts z = zonal_counts zero frac term zn' dn' ts' z'.
Proof. exact @counts_zonal_same. Qed.
Print Assumptions C32_asm_entropy_any_arithmetic.
Theorem C32_nunique : forall zn dn ts z, let rows := flat_map leaves ts in
  zonal_nunique zn dn ts z = if len (zone_cells zn rows z) =? 0 then None else Some (nan_unique_count (zone_valid zn dn rows z)).
Proof. exact nunique_zonal. Qed.
Print Assumptions C32_nunique.
Theorem C32_count : forall zn dn ts z, let rows := flat_map leaves ts in
  zonal_count zn dn ts z = if len (zone_cells zn rows z) =? 0 then None else Some (len (zone_valid zn dn rows z)).
Proof. exact count_zonal. Qed.
Print Assumptions C32_count.
Theorem C32_size : forall zn dn ts z, let rows := flat_map leaves ts in
  zonal_size zn dn ts z = if len (zone_cells zn rows z) =? 0 then None else Some (len (zone_cells zn rows z)).
Proof. exact size_zonal. Qed.
Print Assumptions C32_size.
Theorem C32_min : forall zn dn ts z, let rows := flat_map leaves ts in let x := zone_valid zn dn rows z in
  zonal_min zn dn ts z = None /\ zone_cells zn rows z = [] \/
  exists m, zonal_min zn dn ts z = Some m /\ zone_cells zn rows z <> [] /\
  (x = [] /\ m = NaN \/ In m x /\ forall v, In v x -> num_leb m v = true).
Proof. exact min_zonal. Qed.
Print Assumptions C32_min.
Theorem C32_max : forall zn dn ts z, let rows := flat_map leaves ts in let x := zone_valid zn dn rows z in
  zonal_max zn dn ts z = None /\ zone_cells zn rows z = [] \/
  exists m, zonal_max zn dn ts z = Some m /\ zone_cells zn rows z <> [] /\
  (x = [] /\ m = NaN \/ In m x /\ forall v, In v x -> num_leb v m = true).
Proof. exact max_zonal. Qed.
Print Assumptions C32_max.
(* sum, prod, mean, var with real numbers; inj gives the real value of a cell *)
Theorem C32_sum : forall inj zn dn ts z, let rows := flat_map leaves ts in
  zonal_total inj 0%R Rplus zn dn ts z = if len (zone_cells zn rows z) =? 0 then None else Some (Rsum inj (zone_valid zn dn rows z)).
Proof. exact sum_zonal. Qed.
Print Assumptions C32_sum.
Theorem C32_prod : forall inj zn dn ts z, let rows := flat_map leaves ts in
  zonal_total inj 1%R Rmult zn dn ts z = if len (zone_cells zn rows z) =? 0 then None else Some (Rprod inj (zone_valid zn dn rows z)).
Proof. exact prod_zonal. Qed.
Print Assumptions C32_prod.
Theorem C32_mean : forall inj zn dn ts z, let rows := flat_map leaves ts in let x := zone_valid zn dn rows z in
  zonal_mean inj 0%R Rplus Rdiv IZR zn dn ts z =
  if len (zone_cells zn rows z) =? 0 then None else Some (if len x =? 0 then None else Some (Rsum inj x / IZR (len x))%R).
Proof. exact mean_zonal. Qed.
Print Assumptions C32_mean.
Theorem C32_var : forall inj zn dn ts z, let rows := flat_map leaves ts in let x := zone_valid zn dn rows z in
  zonal_var inj 0%R Rplus Rdiv IZR Rmult Rminus zn dn ts z =
  if len (zone_cells zn rows z) =? 0 then None
  else Some (if len x <=? 1 then None else Some (Rsum (fun v => (inj v - Rsum inj x / IZR (len x)) ^ 2) x / IZR (len x - 1))%R).
Proof. exact var_zonal. Qed.
Print Assumptions C32_var.

(* In binary64 the sum does depend on the partitioning: finding. *)
Definition inj64 (v : num) : f64 :=
  match v with
  | Fin q => fdiv (f64_of_Z (Qnum q)) (f64_of_Z (Z.pos (Qden q)))
  | PInf => finf | MInf => fopp finf | NaN => fnan
  end.
Definition sum64 := zonal_total inj64 fzero fadd.
Definition ex_big : row := (of_Z 1, of_Z (2 ^ 53)).
Definition ex_one : row := (of_Z 1, of_Z 1).
Definition opt_feqb (a b : option f64) : bool := match a, b with Some x, Some y => feqb x y | None, None => true | _, _ => false end.
Theorem C32_sum_binary64_refuted : exists ts ts' z,
  flat_map leaves ts = flat_map leaves ts' /\ opt_feqb (sum64 None None ts z) (sum64 None None ts' z) = false.
Proof.
  exists [Leaf [ex_big; ex_one; ex_one]], [Leaf [ex_big]; Leaf [ex_one; ex_one]], (of_Z 1). split; [reflexivity|]. vm_compute. reflexivity.
Qed.
Print Assumptions C32_sum_binary64_refuted.

Definition ex_parts : list (tree (list row)) :=
  [Node [Leaf [(of_Z 1, of_Z 5); (of_Z 0, of_Z 6); (of_Z 1, of_Z (-9))]; Leaf []];
   Leaf [(of_Z 1, of_Z 6); (of_Z 2, of_Z (-9))];
   Node [Leaf [(of_Z 2, NaN); (of_Z 1, of_Z 6)]; Leaf [(of_Z 1, of_Z 5); (of_Z 0, of_Z 1)]]].
Definition ex_zn : option num := Some (of_Z 0).
Definition ex_dn : option num := Some (of_Z (-9)).
Example C32_ex_valid : zone_valid ex_zn ex_dn (flat_map leaves ex_parts) (of_Z 1) = map of_Z [5; 6; 6; 5].
Proof. vm_compute. reflexivity. Qed.
Example C32_ex : zonal_mode ex_zn ex_dn ex_parts (of_Z 1) = Some (of_Z 5) /\ zonal_mode ex_zn ex_dn ex_parts (of_Z 2) = Some NaN
  /\ zonal_mode ex_zn ex_dn ex_parts (of_Z 0) = None /\ zonal_nunique ex_zn ex_dn ex_parts (of_Z 1) = Some 2
  /\ zonal_count ex_zn ex_dn ex_parts (of_Z 1) = Some 4 /\ zonal_size ex_zn ex_dn ex_parts (of_Z 1) = Some 5
  /\ zonal_max ex_zn ex_dn ex_parts (of_Z 1) = Some (of_Z 6) /\ zonal_min ex_zn ex_dn ex_parts (of_Z 2) = Some NaN.
Proof. vm_compute. auto 10. Qed.
(* counts 2 and 2 of four: the sum of squared counts *)
Example C32_ex_counts : zonal_counts 0 (fun n => n) (fun n acc c => acc + c * c + 100 * n) ex_zn ex_dn ex_parts (of_Z 1) = Some (Some 808).
Proof. vm_compute. reflexivity. Qed.
Example C32_ex_mean : zonal_mean (fun v => match v with Fin q => Qnum q | _ => 0 end) 0 Z.add Z.div (fun n => n) ex_zn ex_dn ex_parts (of_Z 1) = Some (Some 5)
  /\ zonal_var (fun v => match v with Fin q => Qnum q | _ => 0 end) 0 Z.add Z.div (fun n => n) Z.mul Z.sub ex_zn ex_dn ex_parts (of_Z 2) = Some None.
Proof. vm_compute. auto. Qed.
