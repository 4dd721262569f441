From Coq Require Import QArith String.
From Verif Require Import Base BaseFacts Scalars Arr2 Arr2Facts Raster FocalSpec FocalValues RasterSpec RasterProofs CostPublicProofs UfuncCall UfuncCallSpec UfuncCallProofs BandwiseCall BandwiseCallSpec.
From Verif Require Align.
Require Import Lia ZifyBool.
Open Scope Z_scope.

Lemma full_rows nb nc (v : num) : 0 <= nb -> 0 <= nc -> shaped2 nb nc (full nb (full nc v)).
Proof.
  intros Hb Hc. split; [apply full_len; lia|]. apply Forall_forall. intros r Hr. apply in_get in Hr as (i & G).
  pose proof (get_ok_range _ _ _ G) as R. rewrite full_len in R by lia. rewrite get_full in G by lia. injection G as <-. apply full_len. lia.
Qed.
Lemma val2_get {A} (x : A) a b c row v : get a b = Ok row -> get row c = Ok v -> val2 x a b c = v.
Proof. intros E F. unfold val2, get2. rewrite E. cbn [rbind]. now rewrite F. Qed.
(* the array that stands for the operand *)
Lemma normalized dims s nb ny nx i d v : 0 < nb -> 0 < ny -> 0 < nx -> by_band nb nx i d v -> exists a, atleast_1d dims s i = Value (d, a) /\
  exists a', Align.normalize_bandwise_other a [nb; ny; nx] = Ok a' /\ shaped2 nb (ny * nx) (spread nb (ny * nx) a') /\ forall b c, in_raster nb (ny * nx) b c -> val2 NaN (spread nb (ny * nx) a') b c = v b.
Proof.
  intros Hb Hy Hx B.
  assert (C : 0 <= ny * nx) by nia.
  assert (K : forall sh x, exists a', Align.normalize_bandwise_other (Align.NdArray sh [x]) [nb; ny; nx] = Ok a' /\ shaped2 nb (ny * nx) (spread nb (ny * nx) a') /\ forall b c, in_raster nb (ny * nx) b c -> val2 NaN (spread nb (ny * nx) a') b c = x).
  { intros sh x. exists (Align.NdArray [1] [x]). split; [reflexivity|]. split; [apply full_rows; lia|]. intros b c [Ib Ic]. eapply val2_get; [cbn; apply get_full; lia|apply get_full; lia]. }
  destruct B as [z Hz|x|t|d x|d sh x|d l v L L1 X1 X2 G]; cbn [atleast_1d].
  - replace ((- 2 ^ 63 <=? z) && (z <? 2 ^ 63)) with true by lia. eexists. split; [reflexivity|]. apply K.
  - eexists. split; [reflexivity|]. apply K.
  - eexists. split; [reflexivity|]. destruct t; apply K.
  - eexists. split; [reflexivity|]. apply K.
  - eexists. split; [reflexivity|]. apply K.
  - eexists. split; [reflexivity|]. cbn [Align.nd_shape Align.nd_flat]. exists (Align.NdArray [nb; 1; 1] l). split.
    + unfold Align.normalize_bandwise_other. cbn [Align.nd_flat Align.nd_shape]. replace (len l =? 1) with false by lia.
      assert (Align.can_broadcast [nb] [nb; ny; nx] = false) as ->.
      { unfold Align.can_broadcast. cbn [rev app Align.broadcast_rev]. replace (nb =? nx) with false by lia. replace (nb =? 1) with false by lia. now replace (nx =? 1) with false by lia. }
      cbn [nth]. change (len [nb] =? 1) with true. replace (len l =? nb) with true by lia. cbn [andb]. now rewrite L.
    + unfold spread. cbn [Align.nd_shape Align.nd_flat]. split.
      * split; [rewrite len_map; exact L|]. apply Forall_forall. intros r Hr. apply in_map_iff in Hr as (x & <- & _). apply full_len. lia.
      * intros b c [Ib Ic]. eapply val2_get; [rewrite get_map_eq, (G b Ib); reflexivity|]. apply get_full. lia.
Qed.
Lemma handled_taken nb nx i d v : by_band nb nx i d v -> taken i = true /\ is_adapter i = false.
Proof. now destruct 1. Qed.
Lemma bandwise_ok dims s self e u first i d v ds kw nb ny nx : get s self = Ok e -> dims self = (ny, nx) -> 0 < ny -> 0 < nx -> wf nb (ny * nx) (e_raster e) -> 0 < nb ->
  by_band nb nx i d v -> good_types e u first d ds ->
  exists es, call_bandwise dims s self u (pair_in_order first Adapter i) false kw = Value (Fresh es, s) /\ band_outputs nb (ny * nx) e u first v ds es.
Proof.
  intros E D Hy Hx W Hb B (U & Gu & N & Lp & O0 & O1 & BF & M).
  destruct (normalized dims s nb ny nx i d v Hb Hy Hx B) as (a & A1 & a' & A2 & A3 & A4). destruct (handled_taken _ _ _ _ _ B) as [T1 T2].
  set (o := PArray d (Some (spread nb (ny * nx) a'))).
  assert (X : call_bandwise dims s self u (pair_in_order first Adapter i) false kw = match call_ufunc s u (pair_in_order first (PRaster self) o) [] kw with Declined => Raise XTypeError | r => r end).
  { unfold call_bandwise, bandwise_ufunc. destruct first; cbn [pair_in_order forallb taken is_adapter]; rewrite T1; cbn [andb negb];
      change (len [Adapter; i]) with 2; change (len [i; Adapter]) with 2; rewrite N, U, Gu, E, D; cbn -[call_ufunc]; rewrite ?T2;
      replace (len (r_data (e_raster e))) with nb by (destruct W as (_ & _ & [L _] & _); lia); rewrite A1; cbn -[call_ufunc]; rewrite A2; reflexivity. }
  assert (GC : good_call nb (ny * nx) s u (pair_in_order first (PRaster self) o) ds).
  { assert (OR : obj_ok nb (ny * nx) s (PRaster self)) by (exists e; cbn; rewrite E; auto).
    assert (TT : types s u (pair_in_order first (PRaster self) o) = pair_in_order first (Strong (r_dtype (e_raster e))) (Strong d)).
    { unfold types, o. destruct first; cbn [pair_in_order map obj_type obj_entry]; rewrite E; reflexivity. }
    unfold good_call. rewrite TT. split; [split; [exact U|split; [exact Gu|now right]]|]. split; [rewrite N; now destruct first|]. split; [destruct first; (constructor; [assumption|constructor; [assumption|constructor]])|].
    split; [destruct first; discriminate|]. split; [exact Lp|]. split; [exact O0|]. split; [exact O1|]. split; [exact BF|]. destruct M as [M|M]; [left|now right].
    destruct first; cbn [pair_in_order existsb]; unfold obj_masked, o; cbn [obj_entry]; rewrite E, M; reflexivity. }
  destruct (call_ok nb (ny * nx) s u _ ds kw GC) as (es & Ec & L & R). exists es. split; [rewrite X, Ec; reflexivity|]. split; [exact L|].
  intros k d' Hk. destruct (R k d' Hk) as (e' & G' & W' & D' & C' & V' & P'). exists e'. split; [exact G'|]. split; [exact W'|]. split; [exact D'|].
  split; [|split].
  - rewrite C'. unfold crs_of, o. destruct first; cbn [pair_in_order rasters arrays filter app fold_right obj_entry]; rewrite E; destruct e as [r [c|]]; reflexivity.
  - rewrite V'. destruct first; cbn [pair_in_order existsb]; unfold obj_masked, o; cbn [obj_entry]; rewrite E; cbn [orb]; now rewrite ?orb_false_r.
  - intros b c I. destruct (P' b c I) as [P1 P2].
    assert (NN : null (e_raster e') b c = null (e_raster e) b c).
    { rewrite P1. destruct first; cbn [pair_in_order existsb]; unfold obj_null, o; cbn [obj_entry]; rewrite E; cbn [orb]; now rewrite ?orb_false_r. }
    split; [exact NN|]. rewrite P2, NN. destruct (null (e_raster e) b c); [reflexivity|]. f_equal.
    destruct first; cbn [pair_in_order map]; unfold obj_value, o; cbn [obj_entry]; rewrite E, A4 by exact I; reflexivity.
Qed.
(* refusals *)
Lemma taken_iff i : taken i = true <-> looked_at i.
Proof. split; [destruct i as [| | |[]]; try discriminate; intros _; constructor|now intros []]. Qed.
Lemma refused_untaken dims s self u inputs i out kw : len inputs = u_nin u -> In Adapter inputs -> In i inputs -> ~ looked_at i -> call_bandwise dims s self u inputs out kw = Raise XTypeError.
Proof.
  intros L _ I T. unfold call_bandwise, bandwise_ufunc. rewrite L, Z.eqb_refl. cbn [negb]. destruct (forallb taken inputs) eqn:E; [|reflexivity].
  rewrite forallb_forall in E. apply E, taken_iff in I. contradiction.
Qed.
Lemma one_cell_raster dims s self other e' u first out kw d x : get s other = Ok e' -> dims other = (1, 1) -> r_dtype (e_raster e') = d -> r_data (e_raster e') = [[x]] ->
  call_bandwise dims s self u (pair_in_order first Adapter (Obj (PRaster other))) out kw = call_bandwise dims s self u (pair_in_order first Adapter (Obj (PNumber d x))) out kw.
Proof.
  intros G D T V. unfold call_bandwise, bandwise_ufunc. destruct first; cbn [pair_in_order]; unfold len; cbn [length forallb taken andb negb is_adapter atleast_1d]; rewrite G, D, T, V; reflexivity.
Qed.
Lemma refused_kind dims s self u inputs out kw : len inputs = u_nin u -> Forall looked_at inputs ->
  (u_nin u <> 2 -> call_bandwise dims s self u inputs out kw = Raise XValueError)
  /\ (u_nin u = 2 -> u_unsupported u = true -> call_bandwise dims s self u inputs out kw = Raise XTypeError)
  /\ (u_nin u = 2 -> u_unsupported u = false -> u_gufunc u = true -> call_bandwise dims s self u inputs out kw = Raise XNotImplementedError)
  /\ (u_nin u = 2 -> u_unsupported u = false -> u_gufunc u = false -> out = true -> call_bandwise dims s self u inputs out kw = Raise XNotImplementedError).
Proof.
  intros L F. assert (T : forallb taken inputs = true) by (apply forallb_forall; intros i I; apply taken_iff; rewrite Forall_forall in F; now apply F).
  unfold call_bandwise, bandwise_ufunc. rewrite L, Z.eqb_refl, T. cbn [negb]. repeat split.
  - intros N. destruct (u_nin u <? 2) eqn:E1; [reflexivity|]. now replace (2 <? u_nin u) with true by lia.
  - intros N U. rewrite N, U. reflexivity.
  - intros N U G. rewrite N, U, G. reflexivity.
  - intros N U G O. rewrite N, U, G, O. reflexivity.
Qed.
Lemma refused_shape dims s self e u first d a kw nb ny nx : get s self = Ok e -> dims self = (ny, nx) -> wf nb (ny * nx) (e_raster e) -> u_nin u = 2 -> u_unsupported u = false -> u_gufunc u = false ->
  len (Align.nd_flat a) <> 1 -> (forall n, Align.nd_shape a = [n] -> n <> len (Align.nd_flat a) \/ n <> nb \/ nx = 1 \/ nx = n) ->
  fold_right Z.mul 1 (Align.nd_shape a) = len (Align.nd_flat a) ->
  call_bandwise dims s self u (pair_in_order first Adapter (Nd d a)) false kw = Raise XValueError.
Proof.
  intros E D W N U G L S P.
  assert (X : Align.normalize_bandwise_other (Align.NdArray (match Align.nd_shape a with [] => [1] | sh => sh end) (Align.nd_flat a)) [nb; ny; nx] = Err ValueError).
  { unfold Align.normalize_bandwise_other. cbn [Align.nd_flat Align.nd_shape nth]. replace (len (Align.nd_flat a) =? 1) with false by lia.
    destruct (Align.nd_shape a) as [|n [|m t]] eqn:Sh.
    - cbn in P. lia.
    - cbn [fold_right] in P. destruct (Align.can_broadcast [n] [nb; ny; nx]) eqn:CB; [reflexivity|]. change (len [n] =? 1) with true. cbn [andb].
      destruct (len (Align.nd_flat a) =? nb) eqn:LB; [|reflexivity]. exfalso. unfold Align.can_broadcast in CB. cbn [rev app Align.broadcast_rev] in CB.
      destruct (S n eq_refl) as [K|[K|[K|K]]]; [lia|lia| |]; subst nx; [replace (n =? 1) with false in CB by lia|rewrite Z.eqb_refl in CB]; discriminate.
    - destruct (Align.can_broadcast _ _); [reflexivity|]. replace (len (n :: m :: t) =? 1) with false; [reflexivity|]. unfold len. cbn [Datatypes.length]. lia. }
  unfold call_bandwise, bandwise_ufunc. destruct first; cbn [pair_in_order forallb taken is_adapter andb negb];
    change (len [Adapter; Nd d a]) with 2; change (len [Nd d a; Adapter]) with 2; rewrite N, U, G, E, D; cbn -[call_ufunc Align.normalize_bandwise_other];
    replace (len (r_data (e_raster e))) with nb by (destruct W as (_ & _ & [L' _] & _); lia); rewrite X; reflexivity.
Qed.
Lemma refused_unknown dims s self e u first d kw : get s self = Ok e -> u_nin u = 2 -> u_unsupported u = false -> u_gufunc u = false -> call_bandwise dims s self u (pair_in_order first Adapter (Unknown d)) false kw = Raise XValueError.
Proof.
  intros E N U G. unfold call_bandwise, bandwise_ufunc. destruct first; cbn [pair_in_order forallb taken is_adapter andb negb];
    change (len [Adapter; Unknown d]) with 2; change (len [Unknown d; Adapter]) with 2; rewrite N, U, G, E; destruct (dims self); reflexivity.
Qed.
Lemma refused_count dims s self u inputs out kw : len inputs <> u_nin u -> call_bandwise dims s self u inputs out kw = Raise XTypeError.
Proof. intros L. unfold call_bandwise. now replace (len inputs =? u_nin u) with false by lia. Qed.
(* a number without bandwise *)
Definition number_of (o : pyobj) : option (dtype * num) :=
  match o with
  | PInt z => if (- 2 ^ 63 <=? z) && (z <? 2 ^ 63) then Some (I64, of_Z z) else None
  | PFloat v => Some (F64, v)
  | PNumber d v => Some (d, v)
  | _ => None
  end.
Lemma plain_ok s self e u first o d x ds kw nb nc : get s self = Ok e -> wf nb nc (e_raster e) -> number_of o = Some (d, x) -> (first = true \/ u_name u <> "ldexp"%string) -> good_types e u first d ds ->
  exists es, call_ufunc s u (pair_in_order first (PRaster self) o) [] kw = Value (Fresh es, s) /\ band_outputs nb nc e u first (fun _ => x) ds es.
Proof.
  intros E W NO LD (U & Gu & N & Lp & O0 & O1 & BF & M).
  assert (T0 : forall keep, keep = false -> obj_type s keep o = Strong d).
  { intros keep ->. destruct o; cbn in NO |- *; try discriminate; [destruct (_ && _); [|discriminate]| |]; injection NO as <- <-; reflexivity. }
  assert (OE : obj_entry s o = None) by (destruct o; cbn in NO |- *; try discriminate; reflexivity).
  assert (OV : forall b c, obj_value s b c o = x) by (intros b c; destruct o; cbn in NO |- *; try discriminate; [destruct (_ && _); [|discriminate]| |]; now injection NO as <- <-).
  assert (FO : obj_ok nb nc s o).
  { destruct o; cbn [number_of obj_ok] in NO |- *; try discriminate; try exact I. destruct ((- 2 ^ 63 <=? z) && (z <? 2 ^ 63)) eqn:Z; [lia|discriminate]. }
  assert (OS : filter (fun o => match o with PRaster _ => true | _ => false end) [o] = [] /\ filter (fun o => match o with PDataArray _ => true | _ => false end) [o] = []) by (destruct o; cbn in NO |- *; try discriminate; auto).
  assert (OR : obj_ok nb nc s (PRaster self)) by (exists e; cbn; rewrite E; auto).
  assert (GC : good_call nb nc s u (pair_in_order first (PRaster self) o) ds).
  { assert (TT : types s u (pair_in_order first (PRaster self) o) = pair_in_order first (Strong (r_dtype (e_raster e))) (Strong d)).
    { unfold types. destruct first; cbn [pair_in_order map]; rewrite T0; try reflexivity.
      - cbn [obj_type obj_entry]. now rewrite E.
      - cbn [obj_type obj_entry]. now rewrite E.
      - apply String.eqb_neq. now destruct LD. }
    unfold good_call. rewrite TT. split; [split; [exact U|split; [exact Gu|now right]]|]. split; [rewrite N; now destruct first|].
    split; [destruct first; (constructor; [assumption|constructor; [assumption|constructor]])|].
    split; [destruct first; [discriminate|]; destruct o; discriminate|]. split; [exact Lp|]. split; [exact O0|]. split; [exact O1|]. split; [exact BF|]. destruct M as [M|M]; [left|now right].
    destruct first; cbn [pair_in_order existsb]; unfold obj_masked; rewrite OE; cbn [obj_entry]; rewrite E, M; reflexivity. }
  destruct (call_ok nb nc s u _ ds kw GC) as (es & Ec & L & R). exists es. split; [exact Ec|]. split; [exact L|].
  intros k d' Hk. destruct (R k d' Hk) as (e' & G' & W' & D' & C' & V' & P'). exists e'. split; [exact G'|]. split; [exact W'|]. split; [exact D'|].
  split; [|split].
  - rewrite C'. unfold crs_of. destruct first; destruct o; cbn in NO; try discriminate; cbn [pair_in_order rasters arrays filter app fold_right obj_entry]; rewrite E; destruct e as [r [c|]]; reflexivity.
  - rewrite V'. destruct first; cbn [pair_in_order existsb]; unfold obj_masked; rewrite OE; cbn [obj_entry]; rewrite E; cbn [orb]; now rewrite ?orb_false_r.
  - intros b c I. destruct (P' b c I) as [P1 P2].
    assert (NN : null (e_raster e') b c = null (e_raster e) b c).
    { rewrite P1. destruct first; cbn [pair_in_order existsb]; unfold obj_null; rewrite OE; cbn [obj_entry]; rewrite E; cbn [orb]; now rewrite ?orb_false_r. }
    split; [exact NN|]. rewrite P2, NN. destruct (null (e_raster e) b c); [reflexivity|]. f_equal.
    destruct first; cbn [pair_in_order map]; rewrite OV; unfold obj_value; cbn [obj_entry]; rewrite E; reflexivity.
Qed.
