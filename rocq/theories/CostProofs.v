(* Cost distance: from the abstract search of DijkstraProofs.v to grids. *)
From Verif Require Import BaseFacts Heap HeapProofs F64 F64Facts CostDist CostSpec
  DijkstraProofs.
From Flocq Require Import Core BinarySingleNaN.
From Coq Require Import ZifyBool ZifyNat.
Open Scope Z_scope.

Section Cost.
Context {C : Type} (barrier : C -> bool) (csum : C -> C -> f64).
Notation path := (path barrier csum).
Notation legal := (legal barrier).
Notation passable := (passable barrier).
Notation step_cost := (step_cost csum).
Notation walk_cost := (walk_cost csum).
Notation main_step := (main_step barrier csum).
Notation main_loop := (main_loop barrier csum).
Notation try_move := (try_move barrier csum).
Notation core_with := (core_with barrier csum).
Notation core := (core barrier csum).

(* The flat arguments [g] encode the problem [p], row by row. *)
Definition cell (p : @problem C) (r c : Z) : Z := r * p_ncols p + c.

Definition represents (g : @args C) (p : problem) : Prop :=
  a_nrows g = p_nrows p /\ a_ncols g = p_ncols p
  /\ 0 <= p_nrows p /\ 0 <= p_ncols p
  /\ len (a_costs g) = p_nrows p * p_ncols p
  /\ len (a_sources g) = p_nrows p * p_ncols p
  /\ a_scaling g = (p_yscale p, p_xscale p)
  /\ a_diag g = p_diag p
  /\ (forall r c, in_grid p r c -> get (a_costs g) (cell p r c) = Ok (p_cost p r c))
  /\ (forall r c, in_grid p r c -> exists v, get (a_sources g) (cell p r c) = Ok v
        /\ p_source p r c = if v =? a_snull g then None else Some v)
  /\ match p_elev p with
     | None => a_use_elev g = false
     | Some e => a_use_elev g = true /\ a_enull g = p_enull p
         /\ len (a_elev g) = p_nrows p * p_ncols p
         /\ forall r c, in_grid p r c -> get (a_elev g) (cell p r c) = Ok (e r c)
     end.

(* [surface p l t]: the flat list l is the surface t. *)
Definition surface {A} (p : problem) (l : list A) (t : Z -> Z -> A) : Prop :=
  forall r c, in_grid p r c -> get l (cell p r c) = Ok (t r c).

(* ---------------- coordinates ---------------- *)

Lemma cell_row p r c : in_grid p r c -> cell p r c / p_ncols p = r.
Proof.
  unfold in_grid, cell. intros [H1 H2].
  rewrite Z.div_add_l by lia. rewrite Z.div_small by lia. lia.
Qed.

Lemma cell_col p r c : in_grid p r c -> cell p r c mod p_ncols p = c.
Proof.
  unfold in_grid, cell. intros [H1 H2]. rewrite Z.add_comm.
  rewrite Z.mod_add by lia. apply Z.mod_small. lia.
Qed.

Lemma cell_range p r c : in_grid p r c -> 0 <= cell p r c < p_nrows p * p_ncols p.
Proof. unfold in_grid, cell. intros [H1 H2]. nia. Qed.

Lemma flat_grid p x : 0 <= p_ncols p -> 0 <= x < p_nrows p * p_ncols p ->
  in_grid p (x / p_ncols p) (x mod p_ncols p)
  /\ cell p (x / p_ncols p) (x mod p_ncols p) = x.
Proof.
  intros Hc Hx. assert (p_ncols p <> 0) by (intros E0; rewrite E0 in Hx; lia). unfold in_grid, cell. split.
  - split.
    + split; [apply Z.div_pos; lia|]. apply Z.div_lt_upper_bound; [lia|]. rewrite Z.mul_comm. lia.
    + apply Z.mod_pos_bound. lia.
  - rewrite Z.mul_comm. symmetry. apply Z.div_mod. lia.
Qed.

(* ---------------- edges ---------------- *)

Definition in_gridb (p : @problem C) (r c : Z) : bool :=
  (0 <=? r) && (r <? p_nrows p) && (0 <=? c) && (c <? p_ncols p).

Definition passableb (p : problem) (r c : Z) : bool :=
  negb (barrier (p_cost p r c))
  && match p_elev p with
     | Some e => negb (feqb (e r c) (p_enull p))
     | None => true
     end.

Lemma in_gridb_spec p r c : in_gridb p r c = true <-> in_grid p r c.
Proof. unfold in_gridb, in_grid. lia. Qed.

Lemma passableb_spec p r c : passableb p r c = true <-> passable p r c.
Proof.
  unfold passableb, CostSpec.passable. rewrite andb_true_iff, negb_true_iff.
  destruct (p_elev p); [rewrite negb_true_iff|]; tauto.
Qed.

Definition edge_at (p : problem) (r c i : Z) : list edge :=
  match get moves i with
  | Ok (dr, dc) =>
      if in_gridb p (r + dr) (c + dc) && passableb p (r + dr) (c + dc)
      then [(i, cell p (r + dr) (c + dc), step_cost p r c (r + dr) (c + dc))]
      else []
  | Err _ => []
  end.

Definition gnbrs (p : problem) (x : Z) : list edge :=
  let r := x / p_ncols p in
  let c := x mod p_ncols p in
  if passableb p r c then flat_map (edge_at p r c) (move_range (p_diag p)) else [].

Definition gsource (p : @problem C) (x : Z) : option Z :=
  p_source p (x / p_ncols p) (x mod p_ncols p).

Lemma move_cases i : In i (move_range true) ->
  exists dr dc, get moves i = Ok (dr, dc) /\ Z.abs dr <= 1 /\ Z.abs dc <= 1
    /\ ~ (dr = 0 /\ dc = 0) /\ points_to i = Some (- dr, - dc).
Proof.
  cbn. intros H.
  repeat destruct H as [<-|H]; try contradiction; eexists _, _;
    (split; [reflexivity|]); cbn; repeat split; try lia.
Qed.

Lemma move_range_incl d : incl (move_range d) (move_range true).
Proof. destruct d; intros i; cbn; tauto. Qed.

Lemma gnbrs_in p r c m j w : in_grid p r c -> In (m, j, w) (gnbrs p (cell p r c)) ->
  exists dr dc, points_to m = Some (- dr, - dc) /\ j = cell p (r + dr) (c + dc)
    /\ legal p r c (r + dr) (c + dc) /\ w = step_cost p r c (r + dr) (c + dc)
    /\ In m (move_range (p_diag p)).
Proof.
  intros G. unfold gnbrs. rewrite cell_row, cell_col by exact G.
  destruct (passableb p r c) eqn:EP; [|intros []].
  rewrite in_flat_map. intros (i & Hi & He). unfold edge_at in He.
  destruct (move_cases i (move_range_incl _ _ Hi)) as (dr & dc & Gm & A & B & N & Pt).
  rewrite Gm in He.
  destruct (in_gridb p (r + dr) (c + dc) && passableb p (r + dr) (c + dc)) eqn:E;
    [|destruct He].
  apply andb_true_iff in E. destruct E as [E1 E2].
  destruct He as [He|[]]. injection He as <- <- <-.
  exists dr, dc. split; [exact Pt|]. split; [reflexivity|].
  split; [|split; [reflexivity|exact Hi]].
  split; [exact G|]. split; [now apply in_gridb_spec|].
  split; [|split; now apply passableb_spec].
  unfold neighbours. repeat split; try lia.
  intros D. rewrite D in Hi. cbn in Hi.
  repeat destruct Hi as [<-|Hi]; try contradiction; cbn in Gm; injection Gm as <- <-; lia.
Qed.

Lemma gnbrs_complete p r c r' c' : legal p r c r' c' ->
  exists m, In (m, cell p r' c', step_cost p r c r' c') (gnbrs p (cell p r c)).
Proof.
  intros (G & G' & (N1 & N2 & N3 & N4) & P & P').
  assert (HM : exists i, In i (move_range (p_diag p)) /\ get moves i = Ok (r' - r, c' - c)).
  { assert (Hd : r' - r = -1 \/ r' - r = 0 \/ r' - r = 1) by lia.
    assert (He : c' - c = -1 \/ c' - c = 0 \/ c' - c = 1) by lia.
    destruct (p_diag p).
    - destruct Hd as [Hd|[Hd|Hd]]; destruct He as [He|[He|He]]; rewrite Hd, He;
        try (exfalso; lia);
        match goal with |- exists i, _ /\ _ = Ok (?a, ?b) =>
          let i := constr:(match a, b with
             | 0, -1 => 0 | -1, -1 => 1 | -1, 0 => 2 | -1, 1 => 3
             | 0, 1 => 4 | 1, 1 => 5 | 1, 0 => 6 | _, _ => 7 end) in
          exists i; split; [cbn; tauto|reflexivity] end.
    - specialize (N4 eq_refl).
      destruct Hd as [Hd|[Hd|Hd]]; destruct He as [He|[He|He]]; rewrite Hd, He;
        try (exfalso; lia);
        match goal with |- exists i, _ /\ _ = Ok (?a, ?b) =>
          let i := constr:(match a, b with
             | 0, -1 => 0 | -1, 0 => 2 | 0, 1 => 4 | _, _ => 6 end) in
          exists i; split; [cbn; tauto|reflexivity] end. }
  destruct HM as (i & Hi & Gm). exists i.
  unfold gnbrs. rewrite cell_row, cell_col by exact G.
  apply passableb_spec in P. rewrite P. apply in_flat_map. exists i. split; [exact Hi|].
  unfold edge_at. rewrite Gm.
  replace (r + (r' - r)) with r' by lia. replace (c + (c' - c)) with c' by lia.
  apply in_gridb_spec in G'. apply passableb_spec in P'. rewrite G', P'. now left.
Qed.

Lemma step_cost_nonneg p r c r' c' : csum_ok barrier csum -> legal p r c r' c' ->
  fok (step_cost p r c r' c') = true -> fnonneg (step_cost p r c r' c') = true.
Proof.
  intros CS (_ & _ & _ & (B & _) & (B' & _)) HO. unfold CostSpec.step_cost in *.
  destruct (fmul_ok _ _ HO) as [O1 O2].
  destruct (fmul_ok _ _ O1) as [O3 _].
  apply fmul_nonneg; [|exact (CS _ _ B B')|exact HO].
  apply fmul_nonneg; [|reflexivity|exact O1].
  unfold move_length in *. destruct (p_elev p); now apply fsqrt_nonneg.
Qed.

Lemma gnbrs_ok p : csum_ok barrier csum -> steps_ok barrier csum p -> 0 <= p_ncols p ->
  forall i m j w, 0 <= i < p_nrows p * p_ncols p -> In (m, j, w) (gnbrs p i) ->
  0 <= j < p_nrows p * p_ncols p /\ fnonneg w = true.
Proof.
  intros CS SO Hc i m j w Hi He.
  destruct (flat_grid p i Hc Hi) as [G E]. rewrite <- E in He.
  destruct (gnbrs_in p _ _ m j w G He) as (dr & dc & _ & -> & L & -> & _).
  split.
  - apply cell_range. apply L.
  - apply step_cost_nonneg; auto.
Qed.

(* ---------------- the code's step is the abstract step ---------------- *)

Lemma get_map {A B} (f : A -> B) l i x : get l i = Ok x -> get (map f l) i = Ok (f x).
Proof.
  unfold get. destruct (i <? 0); [discriminate|]. rewrite nth_error_map.
  destruct (nth_error l (Z.to_nat i)); cbn; [|discriminate]. congruence.
Qed.

Lemma strides_eq nr nc : get_strides [nr; nc] = [nc; 1].
Proof.
  change (get_strides [nr; nc]) with [1 * 1 * nc; 1 * 1].
  now replace (1 * 1 * nc) with nc by ring.
Qed.

Lemma try_move_relax g p s r c index src cum i :
  represents g p -> in_grid p r c -> index = cell p r c ->
  passable p r c -> len (dist s) = p_nrows p * p_ncols p ->
  In i (move_range true) ->
  let strides := [a_ncols g; 1] in
  try_move g (map (ravel_index strides) moves)
    (move_lengths (a_scaling g) (a_use_elev g))
    (r =? 0) (r =? a_nrows g - 1) (c =? 0) (c =? a_ncols g - 1)
    index src cum (p_cost p r c) s i
  = relax_all src cum (edge_at p r c i) s.
Proof.
  intros (R1 & R2 & R3 & R4 & R5 & R6 & R7 & R8 & R9 & R10 & R11) G -> P Ld Hi strides.
  destruct (move_cases i Hi) as (dr & dc & Gm & A & B & N & Pt).
  unfold CostDist.try_move, edge_at. rewrite Gm. cbn [rbind fst snd].
  pose proof G as G0. unfold in_grid in G0.
  rewrite R1, R2.
  match goal with |- context [if ?x then Ok s else _] =>
    replace x with (negb (in_gridb p (r + dr) (c + dc))) by (unfold in_gridb; lia) end.
  destruct (in_gridb p (r + dr) (c + dc)) eqn:EG; cbn [negb andb]; [|reflexivity].
  apply in_gridb_spec in EG.
  rewrite (get_map (ravel_index strides) moves i _ Gm). cbn [rbind].
  assert (EI : cell p r c + ravel_index strides (dr, dc) = cell p (r + dr) (c + dc)).
  { subst strides. unfold ravel_index, cell. cbn [fst snd]. rewrite R2. ring. }
  rewrite EI. unfold move_lengths.
  rewrite (get_map (fun m => if a_use_elev g then move_len2 (a_scaling g) m
                             else fsqrt (move_len2 (a_scaling g) m)) moves i _ Gm).
  cbn [rbind].
  pose proof (cell_range p _ _ EG) as RJ.
  destruct (get_range (dist s) (cell p (r + dr) (c + dc))) as [dj Gj]; [lia|].
  rewrite Gj. cbn [rbind]. rewrite (R9 _ _ EG). cbn [rbind].
  assert (ML : move_len2 (a_scaling g) (dr, dc) = length2 p (r + dr - r) (c + dc - c)).
  { rewrite R7. unfold move_len2, length2, sq. cbn [fst snd].
    replace (r + dr - r) with dr by lia. replace (c + dc - c) with dc by lia. reflexivity. }
  rewrite ML. unfold passableb.
  destruct (barrier (p_cost p (r + dr) (c + dc))) eqn:EB; cbn [negb andb].
  { destruct (negb (feqb dj finf)); reflexivity. }
  destruct (p_elev p) as [e|] eqn:EE.
  - destruct R11 as (U & NV & Le & Ge). rewrite U.
    rewrite (Ge _ _ G). cbn [rbind]. rewrite (Ge _ _ EG). cbn [rbind]. rewrite NV.
    destruct (feqb (e (r + dr) (c + dc)) (p_enull p)) eqn:EN; cbn [negb rbind].
    { destruct (negb (feqb dj finf)); reflexivity. }
    cbn [relax_all].
    unfold CostSpec.step_cost, move_length. rewrite EE.
    unfold relax. rewrite Gj. cbn [rbind].
    destruct (negb (feqb dj finf)); [reflexivity|].
    fold (sq (fsub (e (r + dr) (c + dc)) (e r c))).
    match goal with |- ?a = rbind ?b _ => replace b with a end.
    { match goal with |- ?a = _ => destruct a; reflexivity end. }
    reflexivity.
  - rewrite R11. cbn [rbind]. 
    unfold CostSpec.step_cost, move_length. rewrite EE.
    cbn [relax_all]. unfold relax. rewrite Gj. cbn [rbind].
    destruct (negb (feqb dj finf)); [reflexivity|].
    match goal with |- ?a = rbind ?b _ => replace b with a end.
    { match goal with |- ?a = _ => destruct a; reflexivity end. }
    reflexivity.
Qed.

Lemma relax_dist src cum s e s' : relax src cum s e = Ok s' -> dist s' = dist s.
Proof.
  destruct e as ((m & j) & w). unfold relax. intros H.
  apply rbind_ok in H. destruct H as (d & _ & H).
  destruct (negb (feqb d finf)); [congruence|]. cbv zeta in H.
  destruct (negb (feqb (fadd cum w) finf)); [|congruence].
  apply rbind_ok in H. destruct H as ((h & f) & _ & H).
  destruct (0 <? f); [|injection H as <-; reflexivity].
  apply rbind_ok in H. destruct H as (t' & _ & H).
  apply rbind_ok in H. destruct H as (a' & _ & H). injection H as <-. reflexivity.
Qed.

Lemma relax_all_dist src cum es : forall s s', relax_all src cum es s = Ok s' ->
  dist s' = dist s.
Proof.
  induction es as [|e es IH]; cbn; intros s s' H; [congruence|].
  apply rbind_ok in H. destruct H as (s1 & H1 & H2).
  rewrite (IH _ _ H2). eapply relax_dist; eauto.
Qed.

Lemma relax_all_app src cum l1 : forall l2 s,
  relax_all src cum (l1 ++ l2) s
  = let* s' := relax_all src cum l1 s in relax_all src cum l2 s'.
Proof.
  induction l1 as [|e l1 IH]; intros l2 s; [reflexivity|].
  cbn [app relax_all]. destruct (relax src cum s e); cbn [rbind]; [apply IH|reflexivity].
Qed.

Lemma try_moves_relax g p r c index src cum is : forall s,
  represents g p -> in_grid p r c -> index = cell p r c ->
  passable p r c -> len (dist s) = p_nrows p * p_ncols p ->
  incl is (move_range true) ->
  let strides := [a_ncols g; 1] in
  try_moves (try_move g (map (ravel_index strides) moves)
    (move_lengths (a_scaling g) (a_use_elev g))
    (r =? 0) (r =? a_nrows g - 1) (c =? 0) (c =? a_ncols g - 1)
    index src cum (p_cost p r c)) is s
  = relax_all src cum (flat_map (edge_at p r c) is) s.
Proof.
  induction is as [|i is IH]; intros s R G E P L Inc strides; [reflexivity|].
  cbn [try_moves flat_map].
  pose proof (try_move_relax g p s r c index src cum i R G E P L) as T.
  cbv zeta in T. unfold strides. rewrite T by (apply Inc; now left).
  rewrite relax_all_app.
  destruct (relax_all src cum (edge_at p r c i) s) as [s'|e] eqn:ER; [|reflexivity].
  cbn [rbind]. apply IH; auto.
  - rewrite (relax_all_dist _ _ _ _ _ ER). exact L.
  - intros y Hy. apply Inc. now right.
Qed.

Lemma main_step_dstep g p s ord snull :
  represents g p ->
  DInv (p_nrows p * p_ncols p) (gnbrs p) (gsource p) snull s ord (all_edges (gnbrs p)) ->
  hcount (hp s) <> 0 ->
  main_step g (get_strides [a_nrows g; a_ncols g])
    (map (ravel_index (get_strides [a_nrows g; a_ncols g])) moves)
    (move_lengths (a_scaling g) (a_use_elev g)) s
  = dstep (gnbrs p) s.
Proof.
  intros R D Hc. unfold CostDist.main_step, dstep. rewrite strides_eq.
  destruct (pop_spec f64_KeyOrder (hp s) (d_heap _ _ _ _ _ _ _ D)) as
    (h & k & u & EP & IP & MP & SP).
  destruct SP as [(C0 & _)|(C1 & C2 & A & Mn & Del)]; [lia|].
  rewrite EP. cbn [rbind].
  destruct (d_front _ _ _ _ _ _ _ D u k A) as (Ru & Nu & Nk & Fk & Max).
  destruct (get (alloc s) u) as [src|]; [|reflexivity]. cbn [rbind].
  destruct (set (dist s) u k) as [d'|] eqn:Sd; [|reflexivity]. cbn [rbind].
  pose proof R as (R1 & R2 & R3 & R4 & R5 & R6 & R7 & R8 & R9 & R10 & R11).
  destruct (flat_grid p u R4 Ru) as [G E].
  set (r := u / p_ncols p) in *. set (c := u mod p_ncols p) in *.
  assert (GC : get (a_costs g) u = Ok (p_cost p r c)) by (rewrite <- E; now apply R9).
  rewrite GC. cbn [rbind].
  assert (SK : (if a_use_elev g
                then let* ev := get (a_elev g) u in Ok (feqb ev (a_enull g))
                else Ok false)
               = Ok match p_elev p with Some e => feqb (e r c) (p_enull p) | None => false end).
  { destruct (p_elev p) as [e|].
    - destruct R11 as (U & NV & Le & Ge). rewrite U. rewrite <- E, (Ge _ _ G), NV. reflexivity.
    - rewrite R11. reflexivity. }
  assert (GN : gnbrs p u = if passableb p r c
                then flat_map (edge_at p r c) (move_range (p_diag p)) else [])
    by reflexivity.
  rewrite GN. unfold passableb.
  destruct (barrier (p_cost p r c)) eqn:EB; cbn [negb andb]; [reflexivity|].
  rewrite SK. cbn [rbind].
  assert (ST : get [a_ncols g; 1] 0 = Ok (a_ncols g)) by reflexivity.
  assert (ST1 : get [a_ncols g; 1] 1 = Ok 1) by reflexivity.
  rewrite ST, ST1. cbn [rbind].
  assert (ER : (u / a_ncols g) mod a_nrows g = r).
  { rewrite R1, R2. fold r. apply Z.mod_small. apply G. }
  assert (EC : (u / 1) mod a_ncols g = c) by (rewrite R2, Z.div_1_r; reflexivity).
  rewrite ER, EC, R8.
  destruct (p_elev p) as [e|] eqn:EE.
  - destruct (feqb (e r c) (p_enull p)) eqn:EN; [reflexivity|]. cbn [negb].
    apply (try_moves_relax g p); auto.
    + split; [exact EB|]. now rewrite EE.
    + cbn [dist]. rewrite (set_len _ _ _ _ Sd). apply D.
    + apply move_range_incl.
  - apply (try_moves_relax g p); auto.
    + split; [exact EB|]. now rewrite EE.
    + cbn [dist]. rewrite (set_len _ _ _ _ Sd). apply D.
    + apply move_range_incl.
Qed.

Lemma main_loop_dloop g p snull n : forall s ord,
  represents g p -> csum_ok barrier csum -> steps_ok barrier csum p ->
  DInv (p_nrows p * p_ncols p) (gnbrs p) (gsource p) snull s ord (all_edges (gnbrs p)) ->
  main_loop g (get_strides [a_nrows g; a_ncols g])
    (map (ravel_index (get_strides [a_nrows g; a_ncols g])) moves)
    (move_lengths (a_scaling g) (a_use_elev g)) n s
  = dloop (gnbrs p) n s.
Proof.
  induction n as [|n IH]; intros s ord R CS SO D; [reflexivity|].
  cbn [CostDist.main_loop dloop]. destruct (hcount (hp s) =? 0) eqn:E; [reflexivity|].
  rewrite (main_step_dstep g p s ord snull R D) by lia.
  pose proof R as (R1 & R2 & R3 & R4 & _).
  destruct (dstep_spec _ _ _ _ (gnbrs_ok p CS SO R4) s ord D) as (u & s' & E' & D'); [lia|].
  rewrite E'. cbn [rbind]. eapply IH; eauto.
Qed.

(* ---------------- the whole core ---------------- *)

Lemma core_start g p : represents g p -> csum_ok barrier csum ->
  steps_ok barrier csum p ->
  exists h s1, init_heap finf 128 (Z.max (len (a_costs g) - 1) 1) = Ok h
    /\ push_sources (a_snull g) (a_sources g) 0
         (mkState (full (len (a_costs g)) finf)
            (full (len (a_costs g)) TRACEBACK_NOT_REACHED)
            (full (len (a_costs g)) (a_snull g)) h) = Ok s1
    /\ DInv (p_nrows p * p_ncols p) (gnbrs p) (gsource p) (a_snull g) s1 []
         (all_edges (gnbrs p)).
Proof.
  intros (R1 & R2 & R3 & R4 & R5 & R6 & R7 & R8 & R9 & R10 & R11) CS SO.
  destruct (init_ok f64_KeyOrder 128 (Z.max (len (a_costs g) - 1) 1))
    as (h & Eh & Ih & Mh & _ & Ah); [lia|lia|].
  assert (HS : 0 <= p_nrows p * p_ncols p) by nia.
  rewrite R5 in *.
  destruct (push_sources_spec (p_nrows p * p_ncols p) (gnbrs p) (gsource p) (a_snull g) (gnbrs_ok p CS SO R4) (a_sources g) 0
     (mkState (full (p_nrows p * p_ncols p) finf)
        (full (p_nrows p * p_ncols p) TRACEBACK_NOT_REACHED)
        (full (p_nrows p * p_ncols p) (a_snull g)) h) [])
    as (s1 & E1 & _); cbn [tb alloc hp]; rewrite ?full_len by lia; auto.
  exists h, s1. split; [exact Eh|]. split; [exact E1|].
  eapply (dinv_init _ (gnbrs p) (gsource p) (a_snull g) (gnbrs_ok p CS SO R4) (a_sources g) h s1); eauto.
  intros x Hx. destruct (flat_grid p x R4 Hx) as [G E].
  destruct (R10 _ _ G) as (v & Gv & Sv). rewrite E in Gv. exists v. auto.
Qed.

Lemma core_with_spec g p n : represents g p -> csum_ok barrier csum ->
  steps_ok barrier csum p -> p_nrows p * p_ncols p <= n ->
  exists s ord, core_with n g = Ok s
    /\ DInv (p_nrows p * p_ncols p) (gnbrs p) (gsource p) (a_snull g) s ord
         (all_edges (gnbrs p))
    /\ hcount (hp s) = 0.
Proof.
  intros R CS SO Hn. pose proof R as (R1 & R2 & R3 & R4 & R5 & _).
  destruct (core_start g p R CS SO) as (h & s1 & E1 & E2 & D1).
  unfold CostDist.core_with. cbv zeta. rewrite E1. cbn [rbind]. rewrite E2. cbn [rbind].
  rewrite (main_loop_dloop g p (a_snull g) _ s1 [] R CS SO D1).
  destruct (dloop_spec _ _ (gsource p) (a_snull g) (gnbrs_ok p CS SO R4) (Z.to_nat n) s1 []) as
    (s & ord & E & D & Z0); auto.
  - nia.
  - unfold len; cbn [length]. nia.
  - exists s, ord. auto.
Qed.

Lemma core_with_cap g p n m : represents g p -> csum_ok barrier csum ->
  steps_ok barrier csum p -> p_nrows p * p_ncols p <= n -> n <= m ->
  core_with m g = core_with n g.
Proof.
  intros R CS SO Hn Hm. pose proof R as (R1 & R2 & R3 & R4 & R5 & _).
  destruct (core_start g p R CS SO) as (h & s1 & E1 & E2 & D1).
  unfold CostDist.core_with. cbv zeta. rewrite E1. cbn [rbind]. rewrite E2. cbn [rbind].
  rewrite !(main_loop_dloop g p (a_snull g) _ s1 [] R CS SO D1).
  eapply (dloop_cap _ _ _ _ (gnbrs_ok p CS SO R4)); eauto.
  - nia.
  - unfold len; cbn [length]. nia.
  - lia.
Qed.

Lemma core_spec g p : represents g p -> csum_ok barrier csum ->
  steps_ok barrier csum p ->
  exists s ord, core g = Ok s
    /\ DInv (p_nrows p * p_ncols p) (gnbrs p) (gsource p) (a_snull g) s ord
         (all_edges (gnbrs p))
    /\ hcount (hp s) = 0.
Proof.
  intros R CS SO. apply (core_with_spec g p); auto.
  pose proof R as (R1 & R2 & R3 & R4 & R5 & _). rewrite R5.
  assert (0 <= p_nrows p * p_ncols p) by nia. lia.
Qed.

(* ---------------- paths ---------------- *)

Notation fpath' p := (fpath (p_nrows p * p_ncols p) (gnbrs p) (gsource p)).

Lemma path_in_grid p sr sc r c acc : path p sr sc r c acc -> in_grid p r c.
Proof. induction 1; auto. apply H0. Qed.

Lemma path_fpath p sr sc r c acc : path p sr sc r c acc ->
  fpath' p (cell p sr sc) (cell p r c) acc.
Proof.
  induction 1 as [l G S|r c acc r' c' P IH L].
  - apply fpath_nil with l; [now apply cell_range|].
    unfold gsource. rewrite cell_row, cell_col by exact G. exact S.
  - destruct (gnbrs_complete p r c r' c' L) as (m & He).
    eapply fpath_step; eauto.
Qed.

Lemma fpath_path p x0 x acc : csum_ok barrier csum -> steps_ok barrier csum p ->
  0 <= p_ncols p -> fpath' p x0 x acc ->
  path p (x0 / p_ncols p) (x0 mod p_ncols p) (x / p_ncols p) (x mod p_ncols p) acc.
Proof.
  intros CS SO Hc. induction 1 as [l R S|i acc m j w P IH He].
  - apply path_source with l; [now apply flat_grid|exact S].
  - destruct (fpath_facts _ _ (gsource p) (gnbrs_ok p CS SO Hc) _ _ _ P) as [Ri _].
    destruct (flat_grid p i Hc Ri) as [G E].
    rewrite <- E in He.
    destruct (gnbrs_in p _ _ m j w G He) as (dr & dc & _ & -> & L & -> & _).
    assert (G' : in_grid p (i / p_ncols p + dr) (i mod p_ncols p + dc)) by apply L.
    rewrite (cell_row p _ _ G'), (cell_col p _ _ G'). apply path_move; auto.
Qed.

(* What the reported distance d of a cell means. *)
Definition is_cost_distance (p : problem) (r c : Z) (d : f64) : Prop :=
  (d <> finf /\ (exists sr sc, path p sr sc r c d)
     /\ forall sr sc acc, path p sr sc r c acc -> fleb d acc = true)
  \/ (d = finf /\ forall sr sc acc, path p sr sc r c acc -> acc = finf).

Lemma settled_path g p s ord x :
  represents g p -> csum_ok barrier csum -> steps_ok barrier csum p ->
  DInv (p_nrows p * p_ncols p) (gnbrs p) (gsource p) (a_snull g) s ord
    (all_edges (gnbrs p)) -> In x ord ->
  exists l d, fwalk (gnbrs p) (gsource p) s x l /\ NoDup l /\ incl l ord
    /\ (length l <= length ord)%nat
    /\ get (dist s) x = Ok d /\ fpath' p (last l x) x d
    /\ get (alloc s) x = get (alloc s) (last l x).
Proof.
  intros R CS SO D Hx. pose proof R as (_ & _ & _ & R4 & _).
  destruct (traced_walk _ _ (gsource p) (gnbrs_ok p CS SO R4) s (length ord) ord x) as (l & W & L & Inc & ND); auto.
  { apply D. }
  destruct (fwalk_path _ _ _ _ (gnbrs_ok p CS SO R4) s ord x l D Hx W) as (d & Gd & P & A).
  exists l, d. pose proof (d_nodup _ _ _ _ _ _ _ D) as N. auto 10.
Qed.

Theorem core_min g p : represents g p -> csum_ok barrier csum ->
  steps_ok barrier csum p ->
  exists s, core g = Ok s /\ forall r c, in_grid p r c ->
    exists d, get (dist s) (cell p r c) = Ok d /\ is_cost_distance p r c d.
Proof.
  intros R CS SO. pose proof R as (_ & _ & R3 & R4 & _).
  destruct (core_spec g p R CS SO) as (s & ord & E & D & Z0).
  exists s. split; [exact E|]. intros r c G.
  pose proof (cell_range p r c G) as Rx.
  destruct (in_dec Z.eq_dec (cell p r c) ord) as [Hx|Nx].
  - destruct (settled_path g p s ord _ R CS SO D Hx) as (l & d & W & _ & _ & _ & Gd & P & _).
    exists d. split; [exact Gd|]. left.
    destruct (d_fin _ _ _ _ _ _ _ D _ Hx) as (_ & d' & Gd' & Nn & Nf).
    assert (d' = d) by congruence; subst d'.
    split; [exact Nf|]. split.
    + pose proof (fpath_path p _ _ _ CS SO R4 P) as P2.
      rewrite (cell_row p r c G), (cell_col p r c G) in P2. eauto.
    + intros sr sc acc Pa. destruct (feqb acc finf) eqn:EF.
      * apply feqb_finf in EF. subst acc. apply fleb_inf. now apply fnonneg_ok.
      * apply feqb_finf_false in EF. apply path_fpath in Pa.
        destruct (final_lower _ _ _ _ (gnbrs_ok p CS SO R4) s ord _ _ acc D Z0 Pa EF)
          as (d' & Gd2 & L).
        assert (d' = d) by congruence; subst d'. exact L.
  - exists finf. split; [now apply (d_inf _ _ _ _ _ _ _ D)|]. right. split; [reflexivity|].
    intros sr sc acc Pa. destruct (feqb acc finf) eqn:EF; [now apply feqb_finf|].
    apply feqb_finf_false in EF. exfalso. apply path_fpath in Pa.
    destruct (final_lower _ _ _ _ (gnbrs_ok p CS SO R4) s ord _ _ acc D Z0 Pa EF)
      as (d' & Gd2 & L).
    rewrite (d_inf _ _ _ _ _ _ _ D _ Rx Nx) in Gd2. injection Gd2 as <-.
    apply (fle_not_inf _ _ L EF). reflexivity.
Qed.

(* ---------------- traceback ---------------- *)

Definition coords (p : @problem C) (x : Z) : Z * Z := (x / p_ncols p, x mod p_ncols p).

Lemma fwalk_walk g p s ord x l t :
  represents g p -> csum_ok barrier csum -> steps_ok barrier csum p ->
  DInv (p_nrows p * p_ncols p) (gnbrs p) (gsource p) (a_snull g) s ord
    (all_edges (gnbrs p)) ->
  surface p (tb s) t -> In x ord -> fwalk (gnbrs p) (gsource p) s x l ->
  incl l ord ->
  walk t (x / p_ncols p) (x mod p_ncols p) (map (coords p) l)
  /\ get (dist s) x = Ok (walk_cost p (map (coords p) l)).
Proof.
  intros R CS SO D T Hx W Inc. pose proof R as (_ & _ & R3 & R4 & _).
  assert (RNG : forall y, In y ord -> 0 <= y < p_nrows p * p_ncols p)
    by (intros y Hy; now apply (d_fin _ _ _ _ _ _ _ D)).
  revert Hx Inc. induction W as [x lbl S|x i m w d k l S Gt He Gd Gk Ek Ea W IH];
    intros Hx Inc.
  - destruct (flat_grid p x R4 (RNG x Hx)) as [G E].
    destruct (d_src _ _ _ _ _ _ _ D x lbl (RNG x Hx) S) as (T1 & _ & [[_ HD]|HF]).
    + split; [|exact HD]. cbn [map]. apply walk_end.
      specialize (T _ _ G). rewrite E in T. congruence.
    + destruct (d_front _ _ _ _ _ _ _ D x _ HF) as (_ & N & _). contradiction.
  - assert (Hi : In i ord).
    { apply Inc. right. destruct W; now left. }
    destruct IH as [IW IC]; [exact Hi|intros y Hy; apply Inc; now right|].
    destruct (flat_grid p x R4 (RNG x Hx)) as [G E].
    destruct (flat_grid p i R4 (RNG i Hi)) as [Gi Ei].
    rewrite <- Ei in He.
    destruct (gnbrs_in p _ _ m x w Gi He) as (dr & dc & Pt & Ex & L & Ew & _).
    assert (G' : in_grid p (i / p_ncols p + dr) (i mod p_ncols p + dc)) by apply L.
    assert (EX : x / p_ncols p = i / p_ncols p + dr) by (rewrite Ex at 1; now apply cell_row).
    assert (EY : x mod p_ncols p = i mod p_ncols p + dc) by (rewrite Ex at 1; now apply cell_col).
    split.
    + cbn [map]. apply walk_next with (- dr) (- dc).
      * specialize (T _ _ G). rewrite E in T. assert (t (x / p_ncols p) (x mod p_ncols p) = m)
          by congruence. congruence.
      * replace (x / p_ncols p + - dr) with (i / p_ncols p) by lia.
        replace (x mod p_ncols p + - dc) with (i mod p_ncols p) by lia. exact IW.
    + rewrite Gk. f_equal.
      assert (EL : exists tl, l = i :: tl) by (destruct W; eauto).
      destruct EL as [tl ->]. cbn [map] in *. unfold coords at 1. unfold coords at 1.
      cbn [CostSpec.walk_cost]. unfold coords at 1 in IC.
      rewrite IC in Gd. injection Gd as <-. rewrite Ek. f_equal. rewrite Ew.
      rewrite EX, EY. reflexivity.
Qed.

Lemma walk_det (t : Z -> Z -> Z) r c l : walk t r c l -> forall l', walk t r c l' -> l' = l.
Proof.
  induction 1 as [r c E|r c dr dc l E W IH]; intros l' W'; inversion W'; subst; auto.
  - rewrite E in *. discriminate.
  - match goal with H : t r c = -1 |- _ => rewrite H in E end. discriminate.
  - assert (dr0 = dr /\ dc0 = dc) as [-> ->] by (split; congruence).
    f_equal. auto.
Qed.

Lemma coords_inj p x y : 0 <= p_ncols p -> 0 <= x < p_nrows p * p_ncols p ->
  0 <= y < p_nrows p * p_ncols p -> coords p x = coords p y -> x = y.
Proof.
  intros Hc Hx Hy E. unfold coords in E. injection E as E1 E2.
  destruct (flat_grid p x Hc Hx) as [_ <-]. destruct (flat_grid p y Hc Hy) as [_ <-].
  now rewrite E1, E2.
Qed.

Lemma last_map {A B} (f : A -> B) l a : last (map f l) (f a) = f (last l a).
Proof. induction l as [|x [|y l] IH]; auto. Qed.

(* The traceback of a cell with a finite distance. *)
Definition good_walk (p : problem) (t : Z -> Z -> Z) (a : Z -> Z -> Z) (r c : Z) (d : f64)
  (l : list (Z * Z)) : Prop :=
  walk t r c l /\ (forall l', walk t r c l' -> l' = l)
  /\ NoDup l /\ len l <= p_nrows p * p_ncols p
  /\ (forall r' c', In (r', c') l -> in_grid p r' c')
  /\ walk_cost p l = d
  /\ exists sr sc lbl, last l (r, c) = (sr, sc) /\ p_source p sr sc = Some lbl
       /\ a r c = lbl /\ path p sr sc r c d.

Theorem core_traceback g p s t a : represents g p -> csum_ok barrier csum ->
  steps_ok barrier csum p -> core g = Ok s ->
  surface p (tb s) t -> surface p (alloc s) a ->
  forall r c d, in_grid p r c -> get (dist s) (cell p r c) = Ok d -> d <> finf ->
    exists l, good_walk p t a r c d l.
Proof.
  intros R CS SO E0 T A r c d G Gd Nf. pose proof R as (_ & _ & R3 & R4 & _).
  destruct (core_spec g p R CS SO) as (s' & ord & E & D & Z0).
  assert (s' = s) by congruence; subst s'. clear E0.
  pose proof (cell_range p r c G) as Rx.
  assert (Hx : In (cell p r c) ord).
  { destruct (in_dec Z.eq_dec (cell p r c) ord) as [|N]; [assumption|].
    rewrite (d_inf _ _ _ _ _ _ _ D _ Rx N) in Gd. congruence. }
  assert (RNG : forall y, In y ord -> 0 <= y < p_nrows p * p_ncols p)
    by (intros y Hy; now apply (d_fin _ _ _ _ _ _ _ D)).
  destruct (settled_path g p s ord _ R CS SO D Hx) as (l & d' & W & ND & Inc & Ln & Gd' & P & Al).
  assert (d' = d) by congruence; subst d'.
  destruct (fwalk_walk g p s ord _ l t R CS SO D T Hx W Inc) as [W2 WC].
  rewrite (cell_row p r c G), (cell_col p r c G) in W2.
  exists (map (coords p) l). unfold good_walk.
  split; [exact W2|]. split; [now apply walk_det|]. split.
  { clear - R4 ND Inc RNG. induction ND as [|x l Nx ND IH]; cbn [map]; constructor.
    - rewrite in_map_iff. intros (y & Ey & Hy). apply Nx.
      replace x with y; [exact Hy|]. apply (coords_inj p); auto.
      + apply RNG, Inc. now right.
      + apply RNG, Inc. now left.
    - apply IH. intros y Hy. apply Inc. now right. }
  split.
  { unfold len. rewrite map_length. pose proof (ord_length _ _ _ _ (gnbrs_ok p CS SO R4) _ _ _ D) as OL.
    unfold len in OL. assert (0 <= p_nrows p * p_ncols p) by nia. lia. }
  split.
  { intros r' c' Hin. apply in_map_iff in Hin. destruct Hin as (y & Ey & Hy).
    unfold coords in Ey. injection Ey as <- <-. apply flat_grid; auto. }
  split; [congruence|].
  set (x0 := last l (cell p r c)) in *.
  assert (Sx : exists lbl, gsource p x0 = Some lbl).
  { subst x0. clear - W. induction W as [x lbl S|x i m w d k l S Gt He Gd Gk Ek Ea W IH].
    - cbn. eauto.
    - destruct IH as [lbl IH]. destruct l as [|y l]; [inversion W|].
      rewrite last_cons. rewrite (last_default l y x i). eauto. }
  destruct Sx as [lbl Sx].
  assert (Rx0 : 0 <= x0 < p_nrows p * p_ncols p).
  { apply RNG, Inc. subst x0. clear - W.
    induction W as [x lbl S|x i m w d k l S Gt He Gd Gk Ek Ea W IH]; [now left|].
    destruct l as [|y l]; [inversion W|].
    right. rewrite last_cons, (last_default l y x i). exact IH. }
  destruct (flat_grid p x0 R4 Rx0) as [G0 E0].
  exists (x0 / p_ncols p), (x0 mod p_ncols p), lbl.
  split.
  { transitivity (last (map (coords p) l) (coords p (cell p r c))).
    - f_equal. unfold coords. now rewrite (cell_row p r c G), (cell_col p r c G).
    - rewrite last_map. reflexivity. }
  split; [exact Sx|]. split.
  - destruct (d_src _ _ _ _ _ _ _ D x0 lbl Rx0 Sx) as (_ & GA & _).
    pose proof (A _ _ G) as A1. congruence.
  - pose proof (fpath_path p _ _ _ CS SO R4 P) as P2.
    rewrite (cell_row p r c G), (cell_col p r c G) in P2. exact P2.
Qed.

(* ---------------- connectivity, sources, unreached cells ---------------- *)

Definition orthogonal (code : Z) : Prop := code = 0 \/ code = 2 \/ code = 4 \/ code = 6.

Theorem core_codes g p s : represents g p -> csum_ok barrier csum ->
  steps_ok barrier csum p -> core g = Ok s ->
  forall r c, in_grid p r c -> exists code, get (tb s) (cell p r c) = Ok code
    /\ ((code = -1 /\ p_source p r c <> None)
        \/ (code = -2 /\ p_source p r c = None /\ get (dist s) (cell p r c) = Ok finf)
        \/ (p_source p r c = None /\ (p_diag p = false -> orthogonal code)
            /\ exists dr dc, points_to code = Some (dr, dc)
                 /\ legal p (r + dr) (c + dc) r c)).
Proof.
  intros R CS SO E0 r c G. pose proof R as (_ & _ & R3 & R4 & _).
  destruct (core_spec g p R CS SO) as (s' & ord & E & D & Z0).
  assert (s' = s) by congruence; subst s'. clear E0.
  pose proof (cell_range p r c G) as Rx.
  assert (ES : gsource p (cell p r c) = p_source p r c)
    by (unfold gsource; now rewrite (cell_row p r c G), (cell_col p r c G)).
  destruct (p_source p r c) as [lbl|] eqn:EP.
  { destruct (d_src _ _ _ _ _ _ _ D _ _ Rx ES) as (T1 & _ & _).
    exists (-1). split; [exact T1|]. left. split; [reflexivity|discriminate]. }
  destruct (in_dec Z.eq_dec (cell p r c) ord) as [Hx|Nx].
  - destruct (settled_path g p s ord _ R CS SO D Hx) as (l & d & W & ND & Inc & Ln & Gd & P & Al).
    inversion W as [x lbl S|x i m w d0 k l0 S Gt He Gd0 Gk Ek Ea W0]; subst; [congruence|].
    exists m. split; [exact Gt|]. right; right. split; [reflexivity|].
    assert (Ri : 0 <= i < p_nrows p * p_ncols p).
    { rewrite <- (d_lend _ _ _ _ _ _ _ D). eapply get_ok_range; eauto. }
    destruct (flat_grid p i R4 Ri) as [Gi Ei]. rewrite <- Ei in He.
    destruct (gnbrs_in p _ _ m _ w Gi He) as (dr & dc & Pt & Ex & L & Ew & Hm).
    assert (G' : in_grid p (i / p_ncols p + dr) (i mod p_ncols p + dc)) by apply L.
    assert (EX : r = i / p_ncols p + dr).
    { rewrite <- (cell_row p r c G), Ex. now apply cell_row. }
    assert (EY : c = i mod p_ncols p + dc).
    { rewrite <- (cell_col p r c G), Ex. now apply cell_col. }
    split.
    { intros Dg. rewrite Dg in Hm. unfold orthogonal. cbn in Hm. lia. }
    exists (- dr), (- dc). split; [exact Pt|].
    replace (r + - dr) with (i / p_ncols p) by lia.
    replace (c + - dc) with (i mod p_ncols p) by lia. rewrite EX, EY. exact L.
  - exists (-2).
    assert (NF : habs (hp s) (cell p r c) = None)
      by (now apply (count_zero_iff (hp s) (d_heap _ _ _ _ _ _ _ D))).
    destruct (d_none _ _ _ _ _ _ _ D _ Rx Nx NF) as (_ & T1 & _).
    split; [exact T1|]. right; left. split; [reflexivity|]. split; [reflexivity|].
    now apply (d_inf _ _ _ _ _ _ _ D).
Qed.

Theorem core_sources g p s : represents g p -> csum_ok barrier csum ->
  steps_ok barrier csum p -> core g = Ok s ->
  forall r c lbl, in_grid p r c -> p_source p r c = Some lbl ->
    get (dist s) (cell p r c) = Ok fzero /\ get (tb s) (cell p r c) = Ok (-1)
    /\ get (alloc s) (cell p r c) = Ok lbl.
Proof.
  intros R CS SO E0 r c lbl G S. pose proof R as (_ & _ & R3 & R4 & _).
  destruct (core_spec g p R CS SO) as (s' & ord & E & D & Z0).
  assert (s' = s) by congruence; subst s'. clear E0.
  pose proof (cell_range p r c G) as Rx.
  assert (ES : gsource p (cell p r c) = Some lbl)
    by (unfold gsource; now rewrite (cell_row p r c G), (cell_col p r c G)).
  destruct (d_src _ _ _ _ _ _ _ D _ _ Rx ES) as (T1 & T2 & [[_ T3]|HF]); [auto|].
  assert (NF : habs (hp s) (cell p r c) = None)
    by (now apply (count_zero_iff (hp s) (d_heap _ _ _ _ _ _ _ D))).
  congruence.
Qed.

Theorem core_unreached g p s : represents g p -> csum_ok barrier csum ->
  steps_ok barrier csum p -> core g = Ok s ->
  forall r c, in_grid p r c ->
    (get (dist s) (cell p r c) = Ok finf
       <-> forall sr sc acc, path p sr sc r c acc -> acc = finf)
    /\ (get (dist s) (cell p r c) = Ok finf ->
        get (tb s) (cell p r c) = Ok (-2) /\ get (alloc s) (cell p r c) = Ok (a_snull g))
    /\ (forall d, get (dist s) (cell p r c) = Ok d -> d <> finf -> is_finite d = true
          /\ get (tb s) (cell p r c) <> Ok (-2)).
Proof.
  intros R CS SO E0 r c G. pose proof R as (_ & _ & R3 & R4 & _).
  destruct (core_spec g p R CS SO) as (s' & ord & E & D & Z0).
  assert (s' = s) by congruence; subst s'.
  pose proof (cell_range p r c G) as Rx.
  destruct (core_min g p R CS SO) as (s' & E' & M).
  assert (s' = s) by congruence; subst s'. clear E'.
  destruct (M r c G) as (d & Gd & Hd).
  assert (NF : habs (hp s) (cell p r c) = None)
    by (now apply (count_zero_iff (hp s) (d_heap _ _ _ _ _ _ _ D))).
  split; [|split].
  - destruct Hd as [(Nf & (sr & sc & P) & _)|(-> & H)].
    + split; [congruence|]. intros H. exfalso. apply Nf. eauto.
    + split; [intros _; exact H|intros _; exact Gd].
  - intros Gf. assert (Nx : ~ In (cell p r c) ord).
    { intros Hx. destruct (d_fin _ _ _ _ _ _ _ D _ Hx) as (_ & d' & Gd' & _ & Nf). congruence. }
    now destruct (d_none _ _ _ _ _ _ _ D _ Rx Nx NF) as (_ & T1 & T2).
  - intros d' Gd' Nf. assert (d' = d) by congruence; subst d'.
    assert (Hx : In (cell p r c) ord).
    { destruct (in_dec Z.eq_dec (cell p r c) ord) as [|N]; [assumption|].
      rewrite (d_inf _ _ _ _ _ _ _ D _ Rx N) in Gd. congruence. }
    destruct (d_fin _ _ _ _ _ _ _ D _ Hx) as (_ & d' & Gd2 & Nn & _).
    assert (d' = d) by congruence; subst d'. split.
    + destruct (fnonneg_cases d Nn) as [->|[F _]]; [congruence|exact F].
    + destruct (core_codes g p s R CS SO E0 r c G) as (code & Gc & H).
      rewrite Gc. intros [= ->]. destruct H as [[H _]|[(_ & _ & H)|(_ & _ & dr & dc & H & _)]].
      * discriminate.
      * congruence.
      * discriminate.
Qed.

Theorem core_cap g p : represents g p -> csum_ok barrier csum ->
  steps_ok barrier csum p ->
  exists s, core g = Ok s /\ hcount (hp s) = 0
    /\ forall n, p_nrows p * p_ncols p <= n -> core_with n g = Ok s.
Proof.
  intros R CS SO. pose proof R as (_ & _ & R3 & R4 & R5 & _).
  destruct (core_spec g p R CS SO) as (s & ord & E & D & Z0).
  exists s. split; [exact E|]. split; [exact Z0|]. intros n Hn.
  assert (H0 : 0 <= p_nrows p * p_ncols p) by nia.
  unfold CostDist.core in E. rewrite R5 in E.
  rewrite (core_with_cap g p (p_nrows p * p_ncols p) n R CS SO ltac:(lia) Hn).
  rewrite <- E. symmetry. apply (core_with_cap g p); auto; lia.
Qed.

End Cost.

(* float64 costs: passable ones have non-negative sums *)
Lemma f64_csum_ok : csum_ok f64_barrier fadd.
Proof.
  intros a b Ha Hb. unfold f64_barrier in *.
  apply fadd_nonneg.
  - unfold fnonneg. destruct a as [s|[]| |[] m e H]; try discriminate; reflexivity.
  - unfold fnonneg. destruct b as [s|[]| |[] m e H]; try discriminate; reflexivity.
Qed.
