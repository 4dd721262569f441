(* Cost distance: properties C04 to C09.  The statements are over [problem]s
   (CostSpec.v); [represents g p] says that the flat arguments g of the core
   encode the problem p, and [cell p r c] is the flat position of (r, c). *)
From Verif Require Import Base Heap F64 CostDist CostSpec DijkstraProofs CostProofs
  CostPublicProofs.
From Flocq Require Import Core BinarySingleNaN.
Open Scope Z_scope.

(* C04 *)
Theorem C04_min_over_paths :
  forall (C : Type) (barrier : C -> bool) (csum : C -> C -> f64)
         (g : args) (p : problem),
    represents g p -> csum_ok barrier csum -> steps_ok barrier csum p ->
    exists s, core barrier csum g = Ok s /\ forall r c, in_grid p r c ->
      exists d, get (dist s) (cell p r c) = Ok d
        /\ is_cost_distance barrier csum p r c d.
Proof. exact @core_min. Qed.
Print Assumptions C04_min_over_paths.

(* float64 costs satisfy the premise on sums; flat surfaces with an ordinary
   resolution satisfy the premise on steps. *)
Theorem C04_float64_sums : csum_ok f64_barrier fadd.
Proof. exact f64_csum_ok. Qed.
Print Assumptions C04_float64_sums.

Theorem C04_flat_steps : forall p, p_elev p = None ->
  usable_scale (p_yscale p) (p_xscale p) = true -> steps_ok f64_barrier fadd p.
Proof. exact steps_ok_flat. Qed.
Print Assumptions C04_flat_steps.

(* C05 (and C04, C09 for the public function) *)
Theorem C05_public_outputs :
  forall costs nrows ncols sources snull elevation resolution connectivity,
  0 <= nrows -> 0 <= ncols -> well_formed costs (nrows * ncols) ->
  len sources = nrows * ncols ->
  (forall e, elevation = Some e -> well_formed e (nrows * ncols)) ->
  fleb (fabs (fst resolution)) fzero = false ->
  fleb (fabs (snd resolution)) fzero = false ->
  connectivity = 4 \/ connectivity = 8 ->
  let p := public_problem costs nrows ncols sources snull elevation resolution
             (connectivity =? 8) in
  steps_ok f64_barrier fadd p ->
  exists cd tr al mask,
    cost_distance_analysis costs nrows ncols sources snull elevation resolution connectivity
      = Ok ((cd, match r_null costs with Some nv => nv | None => default_null_f64 end),
            (tr, -1), (al, snull), mask)
    /\ len cd = nrows * ncols /\ len tr = nrows * ncols /\ len al = nrows * ncols
    /\ len mask = nrows * ncols
    /\ forall r c, in_grid p r c -> exists b d t a,
         get mask (cell p r c) = Ok b /\ get cd (cell p r c) = Ok d
         /\ get tr (cell p r c) = Ok t /\ get al (cell p r c) = Ok a
         /\ public_cell p (at_rc false (r_mask costs) ncols r c)
              (match r_null costs with Some nv => nv | None => default_null_f64 end)
              snull r c b d t a.
Proof. exact public_spec. Qed.
Print Assumptions C05_public_outputs.

Theorem C05_bad_connectivity :
  forall costs nrows ncols sources snull elevation resolution k,
  len sources = len (normalize_raster_data costs fminus1) ->
  k <> 4 -> k <> 8 ->
  cost_distance_analysis costs nrows ncols sources snull elevation resolution k
    = Err ValueError.
Proof. exact public_bad_connectivity. Qed.
Print Assumptions C05_bad_connectivity.

Theorem C05_unreached_core :
  forall (C : Type) (barrier : C -> bool) (csum : C -> C -> f64)
         (g : args) (p : problem) (s : state),
    represents g p -> csum_ok barrier csum -> steps_ok barrier csum p ->
    core barrier csum g = Ok s ->
    forall r c, in_grid p r c ->
      (get (dist s) (cell p r c) = Ok finf
         <-> forall sr sc acc, path barrier csum p sr sc r c acc -> acc = finf)
      /\ (get (dist s) (cell p r c) = Ok finf ->
          get (tb s) (cell p r c) = Ok (-2)
          /\ get (alloc s) (cell p r c) = Ok (a_snull g))
      /\ (forall d, get (dist s) (cell p r c) = Ok d -> d <> finf ->
          is_finite d = true /\ get (tb s) (cell p r c) <> Ok (-2)).
Proof. exact @core_unreached. Qed.
Print Assumptions C05_unreached_core.

(* C06 *)
Theorem C06_traceback_walk :
  forall (C : Type) (barrier : C -> bool) (csum : C -> C -> f64)
         (g : args) (p : problem) (s : state) (t a : Z -> Z -> Z),
    represents g p -> csum_ok barrier csum -> steps_ok barrier csum p ->
    core barrier csum g = Ok s ->
    surface p (tb s) t -> surface p (alloc s) a ->
    forall r c d, in_grid p r c -> get (dist s) (cell p r c) = Ok d -> d <> finf ->
      exists l, good_walk barrier csum p t a r c d l.
Proof. exact @core_traceback. Qed.
Print Assumptions C06_traceback_walk.

(* C07 *)
Theorem C07_cap_never_hit :
  forall (C : Type) (barrier : C -> bool) (csum : C -> C -> f64)
         (g : args) (p : problem),
    represents g p -> csum_ok barrier csum -> steps_ok barrier csum p ->
    exists s, core barrier csum g = Ok s /\ hcount (hp s) = 0
      /\ forall n, p_nrows p * p_ncols p <= n -> core_with barrier csum n g = Ok s.
Proof. exact @core_cap. Qed.
Print Assumptions C07_cap_never_hit.

(* C08 *)
Theorem C08_codes_are_neighbours :
  forall (C : Type) (barrier : C -> bool) (csum : C -> C -> f64)
         (g : args) (p : problem) (s : state),
    represents g p -> csum_ok barrier csum -> steps_ok barrier csum p ->
    core barrier csum g = Ok s ->
    forall r c, in_grid p r c -> exists code, get (tb s) (cell p r c) = Ok code
      /\ ((code = -1 /\ p_source p r c <> None)
          \/ (code = -2 /\ p_source p r c = None /\ get (dist s) (cell p r c) = Ok finf)
          \/ (p_source p r c = None /\ (p_diag p = false -> orthogonal code)
              /\ exists dr dc, points_to code = Some (dr, dc)
                   /\ legal barrier p (r + dr) (c + dc) r c)).
Proof. exact @core_codes. Qed.
Print Assumptions C08_codes_are_neighbours.

(* C09 *)
Theorem C09_sources_keep_label :
  forall (C : Type) (barrier : C -> bool) (csum : C -> C -> f64)
         (g : args) (p : problem) (s : state),
    represents g p -> csum_ok barrier csum -> steps_ok barrier csum p ->
    core barrier csum g = Ok s ->
    forall r c lbl, in_grid p r c -> p_source p r c = Some lbl ->
      get (dist s) (cell p r c) = Ok fzero /\ get (tb s) (cell p r c) = Ok (-1)
      /\ get (alloc s) (cell p r c) = Ok lbl.
Proof. exact @core_sources. Qed.
Print Assumptions C09_sources_keep_label.

Theorem C09_index_sources : forall nrows ncols idxs,
  0 <= nrows -> 0 <= ncols -> NoDup idxs ->
  (forall r c, In (r, c) idxs -> 0 <= r < nrows /\ 0 <= c < ncols) ->
  exists srcs, sources_of_indices nrows ncols idxs = Ok srcs
    /\ len srcs = nrows * ncols
    /\ (forall k r c, nth_error idxs k = Some (r, c) ->
          get srcs (r * ncols + c) = Ok (Z.of_nat k))
    /\ (forall r c, 0 <= r < nrows -> 0 <= c < ncols -> ~ In (r, c) idxs ->
          get srcs (r * ncols + c) = Ok (-1)).
Proof. exact index_sources. Qed.
Print Assumptions C09_index_sources.

Theorem C09_index_sources_rejected : forall nrows ncols idxs,
  (~ NoDup idxs \/ exists r c, In (r, c) idxs /\ ~ (0 <= r < nrows /\ 0 <= c < ncols)) ->
  sources_of_indices nrows ncols idxs = Err ValueError.
Proof. exact index_sources_rejected. Qed.
Print Assumptions C09_index_sources_rejected.

(* ---------------- examples ---------------- *)

(* A 3 x 3 surface with a null cell and a barrier, sources at two corners:
       1  5  1
       1  N  1
       9  1 -3      (N: null)                                              *)
Definition ex_costs : raster1 :=
  mkRaster1 (map f64_of_Z [1; 5; 1; 1; 7; 1; 9; 1; -3])
            [false; false; false; false; true; false; false; false; false]
            (Some (f64_of_Z 7)).
Definition ex_sources : list Z := [4; 0; 0; 0; 0; 0; 0; 6; 0].
Definition ex_res : f64 * f64 := (f64_of_Z 2, f64_of_Z (-2)).

Definition ex_run (k : Z) : res (list SpecFloat.spec_float * list Z * list Z * list bool) :=
  match cost_distance_analysis ex_costs 3 3 ex_sources 0 None ex_res k with
  | Ok ((cd, _), (tr, _), (al, _), m) => Ok (map B2SF cd, tr, al, m)
  | Err e => Err e
  end.

Definition ex_dists (l : list Z) : list SpecFloat.spec_float :=
  map (fun x => B2SF (f64_of x (-1))) l.

Example C04_example_4 : ex_run 4 =
  Ok (ex_dists [0; 12; 24; 4; 14; 28; 20; 0; 14],
      [0; 5; 5; 7; -1; 7; 1; 0; -1], [4; 4; 4; 4; 0; 4; 6; 6; 0],
      [false; false; false; false; true; false; false; false; true]).
Proof. vm_compute. reflexivity. Qed.

Example C04_example_hypotheses :
  let p := public_problem ex_costs 3 3 ex_sources 0 None ex_res true in
  well_formed ex_costs (3 * 3) /\ len ex_sources = 3 * 3
  /\ steps_ok f64_barrier fadd p /\ in_grid p 1 2
  /\ exists g, represents g p.
Proof.
  cbv zeta. split; [|split; [|split; [|split]]].
  - split; [reflexivity|]. split; [reflexivity|]. split; [discriminate|].
    intros nv [= <-]. vm_compute. discriminate.
  - reflexivity.
  - apply steps_ok_flat; [reflexivity|]. vm_compute. reflexivity.
  - unfold in_grid. cbn. lia.
  - eexists. apply (public_represents ex_costs 3 3 ex_sources 0 None ex_res true); try lia.
    + split; [reflexivity|]. split; [reflexivity|]. split; [discriminate|].
      intros nv [= <-]. vm_compute. discriminate.
    + reflexivity.
    + discriminate.
Qed.

Example C09_index_example :
  sources_of_indices 2 3 [(1, 2); (0, 1)] = Ok [-1; 1; -1; -1; -1; 0].
Proof. reflexivity. Qed.

(* ---------------- findings ---------------- *)

(* The docstring says "Values less than 0 are treated as null values" and that
   null cost cells are null in all outputs.  A source on a negative cost cell
   that is not masked is not null in the outputs. *)
Definition negative_is_null : Prop :=
  forall costs nrows ncols sources snull resolution connectivity cd tr al mask i d,
    well_formed costs (nrows * ncols) -> len sources = nrows * ncols ->
    cost_distance_analysis costs nrows ncols sources snull None resolution connectivity
      = Ok (cd, tr, al, mask) ->
    get (r_data costs) i = Ok d -> fltb d fzero = true -> get mask i = Ok true.

Theorem C05_negative_source_refuted : ~ negative_is_null.
Proof.
  intros H.
  pose (costs := mkRaster1 [f64_of_Z (-3)] [false] None).
  destruct (cost_distance_analysis costs 1 1 [5] 0 None (f64_of_Z 1, f64_of_Z 1) 8)
    as [(((cd & tr) & al) & mask)|e] eqn:E.
  - assert (M : match cost_distance_analysis costs 1 1 [5] 0 None (f64_of_Z 1, f64_of_Z 1) 8
                with Ok (_, _, _, m) => m | Err _ => [] end = [false])
      by (vm_compute; reflexivity).
    rewrite E in M. subst mask.
    specialize (H costs 1 1 [5] 0 (f64_of_Z 1, f64_of_Z 1) 8 cd tr al [false] 0 (f64_of_Z (-3))).
    assert (W : well_formed costs (1 * 1)).
    { split; [reflexivity|]. split; [reflexivity|]. split; [|discriminate].
      intros _ i Hi. assert (i = 0) as -> by lia. reflexivity. }
    specialize (H W eq_refl E eq_refl).
    assert (L : fltb (f64_of_Z (-3)) fzero = true) by (vm_compute; reflexivity).
    specialize (H L). discriminate H.
  - assert (M : match cost_distance_analysis costs 1 1 [5] 0 None (f64_of_Z 1, f64_of_Z 1) 8
                with Ok _ => true | Err _ => false end = true)
      by (vm_compute; reflexivity).
    rewrite E in M. discriminate M.
Qed.
Print Assumptions C05_negative_source_refuted.
