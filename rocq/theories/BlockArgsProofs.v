From Verif Require Import BaseFacts Scalars Chunks ChunksSpec ChunksProofs BlockArgs BlockArgsSpec.
From Coq Require Import ZifyBool ZifyNat Ascii.
Open Scope Z_scope.

(* ---------------- depth ---------------- *)

Lemma axis_norm v d : normalize_depth_axis v = Ok d <-> axis_means v d.
Proof.
  split.
  - destruct v as [n|l|l|]; cbn; try discriminate.
    + destruct (n <? 0) eqn:E; [discriminate|]. intros [= <-]. constructor. lia.
    + destruct l as [|[a| | |] [|[b| | |] [|c t]]]; try discriminate.
      destruct ((a <? 0) || (b <? 0)) eqn:E; [discriminate|]. intros [= <-]. constructor; lia.
  - intros H. inversion H; subst; cbn.
    + replace (n <? 0) with false by lia. reflexivity.
    + replace ((l <? 0) || (r <? 0)) with false by lia. reflexivity.
Qed.

Lemma axis_norm_err v e : normalize_depth_axis v = Err e -> e = ValueError \/ e = TypeError.
Proof.
  destruct v as [n|l|l|]; cbn; try (intros [= <-]; auto).
  - destruct (n <? 0); [|discriminate]. intros [= <-]; auto.
  - destruct l as [|[a| | |] [|[b| | |] [|c t]]]; try (intros [= <-]; auto).
    destruct (_ || _); [|discriminate]. intros [= <-]; auto.
Qed.

Lemma axis_means_fun v d d' : axis_means v d -> axis_means v d' -> d = d'.
Proof. intros H H'. apply axis_norm in H, H'. congruence. Qed.

Definition valid_item (it : py * py) : Prop :=
  exists k d, fst it = PInt k /\ 0 <= k <= 2 /\ axis_means (snd it) d.

Definition ax_after (items : list (py * py)) (k : Z) (a a' : axdepth) : Prop :=
  match last_for k items with None => a' = a | Some v => axis_means v a' end.

Definition step (out : depths) (it : py * py) : res depths :=
  let '(axis, value) := it in
  match axis with
  | PInt k =>
      if (k =? 0) || (k =? 1) || (k =? 2)
      then let* v := normalize_depth_axis value in Ok (put out k v)
      else Err ValueError
  | _ => Err ValueError
  end.

Lemma step_ok out it out' : step out it = Ok out' ->
  exists k d, fst it = PInt k /\ 0 <= k <= 2 /\ axis_means (snd it) d /\ out' = put out k d.
Proof.
  destruct it as [[k| | |] v]; cbn; try discriminate.
  destruct ((k =? 0) || (k =? 1) || (k =? 2)) eqn:E; [|discriminate].
  intros H. apply rbind_ok in H. destruct H as (d & H & [= <-]). exists k, d.
  split; [reflexivity|]. split; [lia|]. split; [now apply axis_norm|reflexivity].
Qed.

Lemma step_run out k v d : 0 <= k <= 2 -> axis_means v d -> step out (PInt k, v) = Ok (put out k d).
Proof.
  intros Hk H. cbn. replace ((k =? 0) || (k =? 1) || (k =? 2)) with true by lia.
  apply axis_norm in H. rewrite H. reflexivity.
Qed.

Definition nth_ax (d : depths) (k : Z) : axdepth :=
  let '(a, b, c) := d in if k =? 0 then a else if k =? 1 then b else c.

Lemma nth_put d k v j : 0 <= k <= 2 -> 0 <= j <= 2 ->
  nth_ax (put d k v) j = if j =? k then v else nth_ax d j.
Proof.
  destruct d as [[a b] c]. intros. unfold put, nth_ax.
  assert (k = 0 \/ k = 1 \/ k = 2) as [->|[->| ->]] by lia;
  assert (j = 0 \/ j = 1 \/ j = 2) as [->|[->| ->]] by lia; reflexivity.
Qed.

Lemma fold_items items : forall s,
  (forall out, foldM step items s = Ok out ->
     Forall valid_item items /\ forall k, 0 <= k <= 2 -> ax_after items k (nth_ax s k) (nth_ax out k))
  /\ (Forall valid_item items -> exists out, foldM step items s = Ok out).
Proof.
  induction items as [|[axis value] items IH]; intros s; cbn [foldM].
  - split; [|intros; eauto]. intros out [= <-]. split; [constructor|]. intros k Hk. reflexivity.
  - split.
    + intros out H. apply rbind_ok in H. destruct H as (s1 & H1 & H2).
      destruct (step_ok _ _ _ H1) as (k & d & Ek & Rk & M & ->). cbn in Ek, M. subst axis.
      destruct (proj1 (IH _) _ H2) as [F A]. split; [constructor; [exists k, d; auto|exact F]|].
      intros j Hj. specialize (A j Hj). unfold ax_after in *. cbn [last_for].
      destruct (last_for j items) eqn:EL; [exact A|]. rewrite nth_put in A by assumption.
      rewrite Z.eqb_sym. destruct (j =? k); [now subst|exact A].
    + intros F. inversion F as [|? ? (k & d & Ek & Rk & M) FI]; subst. cbn in Ek, M. subst axis.
      rewrite (step_run s k value d Rk M). cbn [rbind]. now apply IH.
Qed.

Lemma normalize_dict items : normalize_depth (PDict items) =
  let* out := foldM step items (Sym 0, Sym 0, Sym 0) in
  match out with (Sym 0, _, _) => Ok out | _ => Err ValueError end.
Proof. reflexivity. Qed.

Lemma depth_spec v y x : normalize_depth v = Ok (Sym 0, y, x) <-> depth_means v y x.
Proof.
  split.
  - destruct v as [n|l|items|].
    + cbn. destruct (n <? 0) eqn:E; [discriminate|]. cbn. intros [= <- <-]. constructor. lia.
    + cbn. destruct l as [|a [|b [|]]]; try discriminate.
      intros H. apply rbind_ok in H. destruct H as (y' & Hy & H). apply rbind_ok in H. destruct H as (x' & Hx & [= <- <-]).
      constructor; now apply axis_norm.
    + rewrite normalize_dict. intros H. apply rbind_ok in H. destruct H as ([[b y'] x'] & HF & H).
      destruct (proj1 (fold_items items _) _ HF) as [F A].
      assert ((b, y', x') = (Sym 0, y, x)) as E by (destruct b as [[|n|n]|l r]; congruence).
      injection E as -> -> ->.
      constructor; [exact F| | |].
      * exact (A 0 ltac:(lia)).
      * exact (A 1 ltac:(lia)).
      * exact (A 2 ltac:(lia)).
    + discriminate.
  - intros H. inversion H as [n Hn|a b y' x' Ha Hb|items y' x' F A0 A1 A2]; subst.
    + cbn. replace (n <? 0) with false by lia. reflexivity.
    + cbn. apply axis_norm in Ha, Hb. rewrite Ha. cbn. rewrite Hb. reflexivity.
    + rewrite normalize_dict. destruct (proj2 (fold_items items (Sym 0, Sym 0, Sym 0)) F) as ([[b y'] x'] & E).
      rewrite E. cbn [rbind]. destruct (proj1 (fold_items items _) _ E) as [_ A].
      assert (AX : forall k d, 0 <= k <= 2 -> dict_axis items k d -> nth_ax (b, y', x') k = d).
      { intros k d Hk HD. specialize (A k Hk). unfold ax_after, dict_axis in *.
        destruct (last_for k items); [eapply axis_means_fun; eauto|].
        subst d. rewrite A. unfold nth_ax. destruct (k =? 0), (k =? 1); reflexivity. }
      pose proof (AX 0 _ ltac:(lia) A0) as B0. pose proof (AX 1 _ ltac:(lia) A1) as B1.
      pose proof (AX 2 _ ltac:(lia) A2) as B2. cbn in B0, B1, B2. subst. reflexivity.
Qed.

Lemma fold_items_err items : forall s e, foldM step items s = Err e -> e = ValueError \/ e = TypeError.
Proof.
  induction items as [|[axis value] items IH]; intros s e; cbn [foldM]; [discriminate|].
  destruct (step s (axis, value)) as [s1|e1] eqn:E; cbn [rbind]; [apply IH|]. intros [= <-].
  destruct axis; cbn in E; try (injection E as <-; auto).
  destruct (_ || _); [|injection E as <-; auto].
  destruct (normalize_depth_axis value) eqn:EN; cbn in E; [discriminate E|]. injection E as <-.
  eapply axis_norm_err; eauto.
Qed.

Lemma depth_cases v :
  (exists y x, normalize_depth v = Ok (Sym 0, y, x))
  \/ normalize_depth v = Err ValueError \/ normalize_depth v = Err TypeError.
Proof.
  destruct v as [n|l|items|].
  - cbn. destruct (n <? 0); cbn; eauto.
  - cbn. destruct l as [|a [|b [|]]]; auto.
    destruct (normalize_depth_axis a) as [ya|e] eqn:E; cbn.
    + destruct (normalize_depth_axis b) as [xa|e] eqn:E'; cbn; [left; eauto|].
      destruct (axis_norm_err _ _ E') as [-> | ->]; auto.
    + destruct (axis_norm_err _ _ E) as [-> | ->]; auto.
  - rewrite normalize_dict. destruct (foldM step items _) as [[[b y] x]|e] eqn:E; cbn [rbind].
    + destruct b as [[|n|n]|l r]; eauto.
    + destruct (fold_items_err _ _ _ E) as [-> | ->]; auto.
  - auto.
Qed.

(* ---------------- minimum chunk size ---------------- *)

Lemma fold_min l : forall a m, fold_left Z.min l a = m -> m <= a /\ Forall (fun c => m <= c) l.
Proof.
  induction l as [|b l IH]; intros a m; cbn; [intros ->; split; [lia|constructor]|].
  intros H. destruct (IH _ _ H) as [H1 H2]. split; [lia|]. constructor; [lia|exact H2].
Qed.
Lemma fold_min_in l : forall a, fold_left Z.min l a = a \/ In (fold_left Z.min l a) l.
Proof.
  induction l as [|b l IH]; intros a; cbn; [auto|].
  destruct (IH (Z.min a b)) as [H|H]; [|auto]. rewrite H. destruct (Z.min_spec a b) as [[_ ->]|[_ ->]]; auto.
Qed.

Lemma add_last_spec l n : l <> [] -> sum (add_last l n) = sum l + n.
Proof.
  induction l as [|a l IH]; [congruence|]. intros _. cbn [add_last]. destruct l as [|b l].
  - rewrite !sum_cons. change (sum []) with 0. lia.
  - rewrite sum_cons, IH, (sum_cons a) by discriminate. lia.
Qed.
Lemma add_last_forall l n s : 0 <= n -> Forall (fun c => s <= c) l -> Forall (fun c => s <= c) (add_last l n).
Proof.
  intros Hn. induction 1 as [|a l H F IH]; [constructor|]. cbn [add_last]. destruct l as [|b l].
  - constructor; [lia|constructor].
  - constructor; [exact H|exact IH].
Qed.

Definition mstep (size : Z) : list Z * Z -> Z -> list Z * Z := fun '(output, new) c =>
  let '(output, new) :=
    if c <? size then
      if new >? size + (size - c)
      then (output ++ [new - (size - c)], size)
      else (output, new + c)
    else (output, new) in
  let '(output, new) :=
    if new >=? size then (output ++ [new], 0) else (output, new) in
  if c >=? size then (output, new + c) else (output, new).

Definition minv (size total : Z) (s : list Z * Z) : Prop :=
  let '(output, new) := s in
  Forall (fun c => size <= c) output /\ sum output + new = total /\ 0 <= new.

Lemma sum_snoc l a : sum (l ++ [a]) = sum l + a.
Proof. rewrite sum_app, sum_cons. change (sum []) with 0. lia. Qed.

Lemma mstep_inv size total s c : 0 < size -> 0 <= c -> minv size total s -> minv size (total + c) (mstep size s c).
Proof.
  intros Hs Hc. destruct s as [output new]. unfold minv, mstep. intros (F & T & N).
  destruct (c <? size) eqn:E1.
  - destruct (new >? size + (size - c)) eqn:E2.
    + replace (size >=? size) with true by lia. replace (c >=? size) with false by lia.
      split; [apply Forall_app; split; [apply Forall_app; split; [exact F|]|]; constructor; try constructor; lia|].
      rewrite !sum_snoc. lia.
    + destruct (new + c >=? size) eqn:E3; replace (c >=? size) with false by lia.
      * split; [apply Forall_app; split; [exact F|constructor; [lia|constructor]]|]. rewrite sum_snoc. lia.
      * split; [exact F|]. lia.
  - replace (c >=? size) with true by lia. destruct (new >=? size) eqn:E3.
    + split; [apply Forall_app; split; [exact F|constructor; [lia|constructor]]|]. rewrite sum_snoc. lia.
    + split; [exact F|]. lia.
Qed.

Lemma mfold_inv size chunks : 0 < size -> forall total s, Forall (fun c => 0 <= c) chunks -> minv size total s ->
  minv size (total + sum chunks) (fold_left (mstep size) chunks s).
Proof.
  intros Hs. induction chunks as [|c chunks IH]; intros total s F I; cbn [fold_left].
  - change (sum []) with 0. now rewrite Z.add_0_r.
  - inversion F; subst. rewrite sum_cons. replace (total + (c + sum chunks)) with (total + c + sum chunks) by lia.
    apply IH; auto. now apply mstep_inv.
Qed.

Lemma forall_ge s l : 0 <= s -> Forall (fun c => s <= c) l -> Forall (fun c => 0 <= c) l.
Proof. intros Hs H. eapply Forall_impl; [|exact H]. cbn; intros; lia. Qed.

Lemma minimum_spec size chunks : 0 < size -> chunks <> [] -> Forall (fun c => 0 <= c) chunks ->
  (size <= sum chunks -> exists out, ensure_minimum_chunksize size chunks = Ok out
     /\ Forall (fun c => size <= c) out /\ sum out = sum chunks
     /\ (Forall (fun c => size <= c) chunks -> out = chunks))
  /\ (sum chunks < size -> ensure_minimum_chunksize size chunks = Err ValueError).
Proof.
  intros Hs NE F. unfold ensure_minimum_chunksize, list_min. destruct chunks as [|a l]; [congruence|]. cbn [rbind].
  set (chunks := a :: l) in *. set (m := fold_left Z.min l a).
  destruct (fold_min l a m eq_refl) as [M1 M2].
  assert (MA : Forall (fun c => m <= c) chunks) by (constructor; auto).
  assert (MI : In m chunks) by (destruct (fold_min_in l a) as [H|H]; [left; symmetry; exact H|right; exact H]).
  assert (S0 : m <= sum chunks).
  { clear -F MI. clearbody chunks. induction F as [|c cs H F IH]; [destruct MI|].
    rewrite sum_cons. pose proof (sum_nonneg cs F). destruct MI as [->|MI]; [lia|]. specialize (IH MI). lia. }
  destruct (size <=? m) eqn:E.
  - split.
    + intros _. exists chunks. split; [reflexivity|]. split; [|auto].
      eapply Forall_impl; [|exact MA]. cbn; intros; lia.
    + lia.
  - change (fold_left _ chunks ([], 0)) with (fold_left (mstep size) chunks ([], 0)).
    pose proof (mfold_inv size chunks Hs 0 ([], 0) F) as I.
    destruct (fold_left (mstep size) chunks ([], 0)) as [output new].
    destruct I as (FO & T & N); [split; [constructor|split; [reflexivity|lia]]|].
    rewrite Z.add_0_l in T.
    assert (NOT : Forall (fun c => size <= c) chunks -> False).
    { intros H. rewrite Forall_forall in H. specialize (H _ MI). lia. }
    destruct (new >=? size) eqn:E1.
    + pose proof (forall_ge size output (Z.lt_le_incl _ _ Hs) FO) as FO0.
      pose proof (sum_nonneg _ FO0).
      split; [|lia]. intros _. exists (output ++ [new]). split; [reflexivity|].
      split; [apply Forall_app; split; [exact FO|constructor; [lia|constructor]]|].
      split; [rewrite sum_snoc; lia|]. tauto.
    + destruct (1 <=? len output) eqn:E2.
      * destruct output as [|o output]; [discriminate E2|].
        inversion FO as [|? ? Ho FO']; subst.
        pose proof (forall_ge size output (Z.lt_le_incl _ _ Hs) FO') as FO0.
        pose proof (sum_nonneg _ FO0). rewrite sum_cons in T.
        split; [|lia]. intros _. eexists. split; [reflexivity|].
        split; [now apply add_last_forall|]. split; [|tauto].
        rewrite add_last_spec by discriminate. rewrite sum_cons. lia.
      * destruct output as [|o output]; [|rewrite len_cons in E2; pose proof (len_nonneg output); lia].
        change (sum []) with 0 in T. split; [lia|reflexivity].
Qed.

Lemma grow_spec d c out : 0 <= d -> c <> [] -> Forall (fun c => 0 <= c) c -> grow d c = Ok out ->
  Forall (fun k => d <= k) out /\ sum out = sum c /\ (Forall (fun k => d <= k) c -> out = c).
Proof.
  intros Hd NE F. unfold grow. destruct (d =? 0) eqn:E.
  - intros [= <-]. split; [|auto]. eapply Forall_impl; [|exact F]. cbn; intros; lia.
  - destruct (minimum_spec d c ltac:(lia) NE F) as [M1 M2]. destruct (Z_lt_ge_dec (sum c) d) as [L|L].
    + rewrite M2 by lia. discriminate.
    + destruct M1 as (o & E1 & R); [lia|]. rewrite E1. intros [= <-]. exact R.
Qed.

Lemma chunks3_eqb_eq a b : chunks3_eqb a b = true -> a = b.
Proof.
  destruct a as [[a1 a2] a3], b as [[b1 b2] b3]. unfold chunks3_eqb.
  repeat destruct (list_eq_dec _ _ _); cbn; try discriminate. congruence.
Qed.

Lemma ensure_chunks_spec cb cy cx others d y x :
  cy <> [] -> cx <> [] -> Forall (fun c => 0 <= c) cy -> Forall (fun c => 0 <= c) cx ->
  depth_means d y x ->
  let dy := match y with Sym n => n | Asym l r => Z.max l r end in
  let dx := match x with Sym n => n | Asym l r => Z.max l r end in
  (dy <= sum cy /\ dx <= sum cx ->
   exists ny nx, ensure_chunks_for_overlap ((cb, cy, cx) :: others) (Sym 0, y, x)
       = Ok (map (fun _ => (cb, ny, nx)) ((cb, cy, cx) :: others))
     /\ Forall (fun c => dy <= c) ny /\ Forall (fun c => dx <= c) nx
     /\ sum ny = sum cy /\ sum nx = sum cx
     /\ (Forall (fun c => dy <= c) cy -> ny = cy) /\ (Forall (fun c => dx <= c) cx -> nx = cx))
  /\ (sum cy < dy \/ sum cx < dx ->
      ensure_chunks_for_overlap ((cb, cy, cx) :: others) (Sym 0, y, x) = Err ValueError).
Proof.
  intros NY NX FY FX M dy dx.
  assert (AM : forall v a, axis_means v a -> 0 <= depth_for_axis a).
  { intros v a H. inversion H; subst; cbn; lia. }
  assert (DA : forall items k a, dict_axis items k a ->
     Forall valid_item items -> 0 <= depth_for_axis a).
  { intros items k a H F. unfold dict_axis in H. destruct (last_for k items); [eauto|subst; cbn; lia]. }
  assert (HD : 0 <= dy /\ 0 <= dx).
  { change dy with (depth_for_axis y). change dx with (depth_for_axis x).
    inversion M; subst; cbn; eauto. }
  change dy with (depth_for_axis y) in *. change dx with (depth_for_axis x) in *.
  unfold ensure_chunks_for_overlap.
  assert (GE : forall dd c, 0 <= dd -> c <> [] -> Forall (fun c => 0 <= c) c ->
     (dd <= sum c -> exists o, grow dd c = Ok o) /\ (sum c < dd -> grow dd c = Err ValueError)).
  { intros dd c H1 H2 H3. unfold grow. destruct (dd =? 0) eqn:E.
    - split; [eauto|]. pose proof (sum_nonneg c H3). lia.
    - destruct (minimum_spec dd c ltac:(lia) H2 H3) as [M1 M2]. split; [|exact M2].
      intros H. destruct (M1 H) as (o & Eo & _). eauto. }
  destruct HD as [HDy HDx].
  destruct (GE _ _ HDy NY FY) as [GY1 GY2]. destruct (GE _ _ HDx NX FX) as [GX1 GX2]. split.
  - intros [L1 L2]. destruct (GY1 L1) as (ny & EY). destruct (GX1 L2) as (nx & EX).
    destruct (grow_spec _ _ _ HDy NY FY EY) as (A1 & A2 & A3).
    destruct (grow_spec _ _ _ HDx NX FX EX) as (B1 & B2 & B3).
    exists ny, nx. rewrite EY. cbn [rbind]. rewrite EX. cbn [rbind]. split; [|auto 10].
    f_equal. apply map_ext. intros r. destruct (chunks3_eqb r (cb, ny, nx)) eqn:E; [now apply chunks3_eqb_eq|reflexivity].
  - intros L. destruct (Z_lt_ge_dec (sum cy) (depth_for_axis y)) as [L1|L1].
    + rewrite GY2 by lia. reflexivity.
    + destruct GY1 as (ny & ->); [lia|]. cbn [rbind]. rewrite GX2 by lia. reflexivity.
Qed.

(* ---------------- boundary ---------------- *)

Lemma map_fst_combine {A B} (l : list A) : forall (l' : list B), length l = length l' -> map fst (combine l l') = l.
Proof. induction l as [|a l IH]; intros [|b l']; cbn; intros H; try discriminate; [reflexivity|]. f_equal. auto. Qed.
Lemma map_snd_combine {A B} (l : list A) : forall (l' : list B), length l = length l' -> map snd (combine l l') = l'.
Proof. induction l as [|a l IH]; intros [|b l']; cbn; intros H; try discriminate; [reflexivity|]. f_equal. auto. Qed.

Lemma map_slice {A B} (f : A -> B) l a b : map f (slice l a b) = slice (map f l) a b.
Proof. unfold slice. now rewrite skipn_map, firstn_map. Qed.

Lemma map_full {A B} (f : A -> B) n a : map f (full n a) = full n (f a).
Proof. unfold full. induction (Z.to_nat n); cbn; congruence. Qed.

(* padding commutes with any function of the cells *)
Lemma dask_pad_map {A B} (f : A -> B) s depth l :
  map f (dask_pad (DNamed s) depth l) = dask_pad (DNamed s) depth (map f l).
Proof.
  unfold dask_pad. rewrite len_map. destruct (str_eqb s s_reflect).
  - now rewrite !map_app, !map_rev, !map_slice.
  - destruct (str_eqb s s_periodic); [now rewrite !map_app, !map_slice|].
    destruct (str_eqb s s_nearest); [|reflexivity].
    rewrite !map_app, <- !map_slice. f_equal; [|f_equal].
    + generalize (slice l 0 1). induction l0; cbn; [reflexivity|]. now rewrite map_app, map_full, IHl0.
    + generalize (slice l (len l - 1) (len l)). induction l0; cbn; [reflexivity|]. now rewrite map_app, map_full, IHl0.
Qed.

Lemma dask_pad_in {A} s depth (l : list A) a : In a (dask_pad (DNamed s) depth l) -> In a l.
Proof.
  unfold dask_pad. destruct (str_eqb s s_reflect).
  - rewrite !in_app_iff, <- !in_rev. intros [H|[H|H]]; eauto using in_slice.
  - destruct (str_eqb s s_periodic).
    + rewrite !in_app_iff. intros [H|[H|H]]; eauto using in_slice.
    + destruct (str_eqb s s_nearest); [|auto].
      rewrite !in_app_iff, !in_flat_map. intros [(b & H1 & H2)|[H|(b & H1 & H2)]]; auto;
        apply repeat_spec in H2; subst; eauto using in_slice.
Qed.

(* every padded position carries the value and the mask bit of the same source
   cell, or the fill value and the matching mask bit *)
Lemma boundary_sync b nv d db mb depth data mask :
  resolve_boundary b nv d = Ok (db, mb) -> len data = len mask ->
  exists pairs,
    dask_pad db depth data = map fst pairs
    /\ dask_pad mb depth mask = map snd pairs
    /\ forall v m, In (v, m) pairs ->
       In (v, m) (combine data mask)
       \/ db = DConst v
          /\ match b with
             | BNone => False
             | BStr _ => m = true /\ v = match nv with Some n => n | None => default_null d end
             | BNum c => v = c /\ m = match nv with Some n => nan_equal c n | None => false end
             end.
Proof.
  intros H HL.
  assert (LL : length data = length mask) by (unfold len in HL; lia).
  assert (CONST : forall v m, db = DConst v -> mb = DConst m ->
    (match b with BNone => False
     | BStr _ => m = true /\ v = match nv with Some n => n | None => default_null d end
     | BNum c => v = c /\ m = match nv with Some n => nan_equal c n | None => false end end) ->
    exists pairs, dask_pad db depth data = map fst pairs /\ dask_pad mb depth mask = map snd pairs
      /\ forall v' m', In (v', m') pairs -> In (v', m') (combine data mask) \/ db = DConst v' /\
        match b with BNone => False
     | BStr _ => m' = true /\ v' = match nv with Some n => n | None => default_null d end
     | BNum c => v' = c /\ m' = match nv with Some n => nan_equal c n | None => false end end).
  { intros v m -> -> HB. exists (full depth (v, m) ++ combine data mask ++ full depth (v, m)).
    cbn [dask_pad]. rewrite !map_app, !map_full, map_fst_combine, map_snd_combine by assumption.
    split; [reflexivity|]. split; [reflexivity|]. intros v' m'. rewrite !in_app_iff.
    intros [I|[I|I]]; auto; apply repeat_spec in I; injection I as -> ->; auto. }
  destruct b as [|s|c]; cbn in H.
  - injection H as <- <-. exists (combine data mask). cbn [dask_pad].
    rewrite map_fst_combine, map_snd_combine by assumption. auto.
  - destruct (_ || _ || _) in H.
    + injection H as <- <-. eapply CONST; eauto.
    + destruct (_ || _ || _ || _) in H; [|discriminate H]. injection H as <- <-.
      exists (dask_pad (DNamed (lower s)) depth (combine data mask)).
      rewrite !dask_pad_map, map_fst_combine, map_snd_combine by assumption.
      split; [reflexivity|]. split; [reflexivity|]. intros v m HI. left. eapply dask_pad_in; eauto.
  - destruct nv as [n|].
    + destruct (nan_equal c n) eqn:E; injection H as <- <-; eapply CONST; eauto.
    + injection H as <- <-. eapply CONST; eauto.
Qed.

(* which strings are accepted *)
Lemma boundary_strings s nv d :
  (exists r, resolve_boundary (BStr s) nv d = Ok r) <->
  In (lower s) [s_null; s_null_value; s_nodata; s_reflect; s_periodic; s_nearest; s_none].
Proof.
  unfold resolve_boundary, str_eqb. cbn [In].
  split.
  - intros (r & H). repeat destruct (list_eq_dec ascii_dec _ _); cbn in H; try (symmetry in e); auto 8; try discriminate H;
      repeat match goal with H : _ = lower s |- _ => rewrite <- H; auto 8 end.
  - intros H. repeat destruct (list_eq_dec ascii_dec _ _); cbn; eauto. exfalso. intuition congruence.
Qed.

(* ---------------- null value ---------------- *)

Lemma wrapper_nv_agrees return_mask dtype_ meta inferred nv rd rnv n :
  check_dtype_meta_agree dtype_ meta = Ok tt ->
  return_mask = false \/ nv <> NvNone \/ out_dtype_hint dtype_ meta <> None ->
  wrapper_out_nv return_mask dtype_ meta inferred nv rd rnv n = final_nv dtype_ meta inferred nv rd rnv n.
Proof.
  intros C H. unfold wrapper_out_nv, final_nv, out_data_dtype, block_info_dtype.
  destruct (out_dtype_hint dtype_ meta) as [h|] eqn:E; [reflexivity|].
  destruct meta as [m|]; [discriminate E|]. cbn in E. subst dtype_.
  destruct return_mask; [|reflexivity].
  destruct H as [H|[H|H]]; try congruence. destruct nv; try congruence; reflexivity.
Qed.

Lemma out_nv_rule nv rd rnv n d :
  resolve_out_null_value nv rd rnv n (Plain d) =
    match nv with
    | NvNum v => Ok (Some v)
    | NvStr => Err ValueError
    | NvNone => if (n =? 1) && dtype_eqb rd d then Ok rnv else Ok (Some (default_null d))
    end.
Proof. destruct nv; reflexivity. Qed.
