From Coq Require Import String DecimalString DecimalN DecimalFacts NArith.
From Verif Require Import Base BaseFacts Arr2Facts ChunksProofs ProximityChunk RasterStack Vectors.
Open Scope Z_scope.

(* consecutive ranges from a to b *)
Fixpoint consecutive (a b : Z) (parts : list (Z * Z)) : Prop :=
  match parts with
  | [] => a = b
  | (l, r) :: parts => l = a /\ l < r /\ consecutive r b parts
  end.
Lemma consecutive_snoc parts : forall a b c, consecutive a b parts -> b < c -> consecutive a c (parts ++ [(b, c)]).
Proof. induction parts as [|[l r] parts IH]; cbn; intros a b c H L; [subst; auto|]. destruct H as (-> & L' & H). split; [reflexivity|]. split; [assumption|]. now apply IH. Qed.
Lemma zrange_join a b c : a <= b <= c -> zrange a c = zrange a b ++ zrange b c.
Proof.
  intros H. apply list_ext.
  - rewrite len_app, !len_zrange by lia. lia.
  - intros i x G. pose proof (get_ok_range _ _ _ G) as Hi. rewrite len_zrange in Hi by lia. rewrite <- G. symmetry. destruct (Z_lt_le_dec i (b - a)).
    + rewrite get_app1 by (rewrite len_zrange; lia). rewrite !get_zrange by lia. reflexivity.
    + rewrite get_app2 by (rewrite len_zrange; lia). rewrite len_zrange by lia. rewrite !get_zrange by lia. f_equal. lia.
Qed.
Lemma consecutive_le parts : forall a b, consecutive a b parts -> a <= b.
Proof. induction parts as [|[l r] parts IH]; cbn; intros a b H; [lia|]. destruct H as (-> & L & H). apply IH in H. lia. Qed.
Lemma consecutive_rows parts : forall a b, consecutive a b parts -> concat (map part_rows parts) = map (fun i => (i, i)) (zrange a b).
Proof.
  induction parts as [|[l r] parts IH]; cbn [map concat consecutive]; intros a b H.
  - subst. unfold zrange. rewrite Z.sub_diag. reflexivity.
  - destruct H as (-> & L & H). rewrite (IH r b H). unfold part_rows. cbn [fst snd]. rewrite <- map_app, <- zrange_join; [reflexivity|]. apply consecutive_le in H. lia.
Qed.
Lemma read_loop_spec total batch : 0 < batch -> 0 <= total -> forall fuel off parts last, 0 <= off ->
  consecutive 0 (Z.min off total) parts -> (1 <= fuel)%nat -> total - off < Z.of_nat fuel ->
  last = match parts with [] => None | _ => Some (Z.min off total) end -> len parts * batch = off ->
  (parts = [] \/ (len parts - 1) * batch < total) ->
  exists parts', read_loop fuel total batch off parts (map fst parts) last = Some (parts', map fst parts', match parts' with [] => None | _ => Some total end)
  /\ consecutive 0 total parts' /\ (parts' = [] \/ (len parts' - 1) * batch < total).
Proof.
  intros HB HT. induction fuel as [|fuel IH]; intros off parts last H0 HC H1 HF EL HN HL; [lia|].
  cbn [read_loop]. destruct (off <? total) eqn:E.
  - destruct (IH (off + batch) (parts ++ [(off, Z.min (off + batch) total)]) (Some (Z.min (off + batch) total))) as (parts' & E' & C' & L').
    + lia.
    + replace (Z.min off total) with off in HC by lia. apply consecutive_snoc; [exact HC|lia].
    + lia.
    + lia.
    + now destruct parts.
    + rewrite len_app, len_cons, len_nil. lia.
    + right. rewrite len_app, len_cons, len_nil. nia.
    + exists parts'. rewrite map_app in E'. cbn [map fst] in E'. auto.
  - exists parts. replace (Z.min off total) with total in * by lia. rewrite EL. auto.
Qed.
Lemma read_file_spec total np : 0 < total -> 0 < np -> exists parts, read_file_delayed total np = inl (parts, map fst parts ++ [total - 1])
  /\ consecutive 0 total parts /\ 1 <= len parts <= np.
Proof.
  intros HT HN. unfold read_file_delayed. replace (np =? 0) with false by lia.
  pose proof (Z.div_pos total np ltac:(lia) HN) as HD. set (batch := total / np + 1).
  destruct (read_loop_spec total batch ltac:(lia) ltac:(lia) (S (Z.to_nat total)) 0 [] None) as (parts & E & C & L); try (reflexivity || lia).
  { now replace (Z.min 0 total) with 0 by lia. }
  { now left. }
  cbn [map] in E. rewrite E. destruct parts as [|p parts]; [cbn in C; lia|]. exists (p :: parts). split; [reflexivity|]. split; [exact C|].
  destruct L as [?|L]; [discriminate|]. rewrite len_cons in *. pose proof (len_nonneg parts). split; [lia|].
  destruct (Z_le_gt_dec (1 + len parts) np); [assumption|]. exfalso.
  pose proof (Z.mod_pos_bound total np HN). pose proof (Z.div_mod total np ltac:(lia)). nia.
Qed.
Lemma read_file_empty np : np <> 0 -> read_file_delayed 0 np = inr UnboundLocalError.
Proof. intros H. unfold read_file_delayed. replace (np =? 0) with false by lia. reflexivity. Qed.

(* ---- sizes ---- *)
Lemma len_divisions divs : divs <> [] -> get_len_from_divisions divs = Ok (List.last divs 0 - hd 0 divs).
Proof.
  intros ND. unfold get_len_from_divisions.
  assert (H : forall n, 0 <= n < len divs -> exists x y, get divs 0 = Ok x /\ get divs n = Ok y /\
     foldM (fun n i => let* lft := get divs i in let* rgt := get divs (i + 1) in Ok (n + (rgt - lft))) (zrange 0 n) 0 = Ok (y - x)).
  { intros n [H1 H2]. revert H2. pattern n. apply natlike_ind; [|clear n H1; intros n H1 IH|assumption].
    - intros H2. destruct (get_range divs 0) as [x E]; [lia|]. exists x, x. split; [exact E|]. split; [exact E|]. cbn. f_equal. lia.
    - intros H2. destruct IH as (x & y & E1 & E2 & F); [lia|]. destruct (get_range divs (Z.succ n)) as [w E3]; [lia|]. exists x, w. split; [exact E1|]. split; [exact E3|].
      replace (Z.succ n) with (n + 1) in * by lia. rewrite zrange_snoc, foldM_app by lia. rewrite F. cbn [rbind foldM]. rewrite E2. cbn [rbind]. rewrite E3. cbn [rbind]. f_equal. lia. }
  pose proof (len_nonneg divs). destruct divs as [|d0 divs]; [contradiction|]. rewrite len_cons in *. pose proof (len_nonneg divs).
  destruct (H (len (d0 :: divs) - 1)) as (x & y & E1 & E2 & F); [rewrite len_cons; lia|]. rewrite len_cons in F. rewrite F. f_equal. 
  assert (d0 = x) by (cbn in E1; congruence). subst x. cbn [hd]. f_equal.
  clear - E2. revert d0 E2. induction divs as [|d divs IH]; intros d0 E2; [cbn in *; congruence|].
  rewrite len_cons, len_cons in E2. pose proof (len_nonneg divs). rewrite get_cons in E2 by lia. cbn [List.last]. specialize (IH d).
  rewrite len_cons in IH. replace (1 + (1 + len divs) - 1 - 1) with (1 + len divs - 1) in E2 by lia. apply IH in E2. exact E2.
Qed.
Lemma last_snoc {A} (l : list A) x d : List.last (l ++ [x]) d = x.
Proof. induction l as [|y l IH]; [reflexivity|]. cbn [app]. destruct (l ++ [x]) eqn:E; [now destruct l|exact IH]. Qed.
Lemma consecutive_hd parts a b : consecutive a b parts -> parts <> [] -> hd 0 (map fst parts) = a.
Proof. destruct parts as [|[l r] parts]; [contradiction|]. cbn. tauto. Qed.
Lemma slice_snoc {A} (l : list A) x : slice (l ++ [x]) 0 (len (l ++ [x]) - 1) = l.
Proof.
  unfold slice. replace (Z.to_nat 0) with 0%nat by reflexivity. cbn [skipn].
  replace (Z.to_nat (len (l ++ [x]) - 1 - 0)) with (length l) by (unfold len; rewrite app_length; cbn [length]; lia).
  now rewrite firstn_app, Nat.sub_diag, firstn_all, app_nil_r.
Qed.
Lemma consecutive_last parts : forall a b, consecutive a b parts -> parts <> [] -> exists l, List.last parts (0, 0) = (l, b) /\ List.last (map fst parts) 0 = l /\ l < b.
Proof.
  induction parts as [|[l r] parts IH]; intros a b H N; [contradiction|]. destruct H as (-> & L & H). destruct parts as [|p parts].
  - cbn in *. subst. eauto.
  - destruct (IH r b H ltac:(discriminate)) as (x & E1 & E2 & E3). exists x. cbn [List.last map] in *. auto.
Qed.
Lemma read_size total np parts divs : 0 < total -> 0 < np -> read_file_delayed total np = inl (parts, divs) ->
  vector_size divs (snd (List.last parts (0, 0)) - fst (List.last parts (0, 0))) None = Ok total
  /\ vector_size divs (snd (List.last parts (0, 0)) - fst (List.last parts (0, 0))) (Some total) = Ok total.
Proof.
  intros HT HN E. destruct (read_file_spec total np HT HN) as (parts' & E' & C & L). rewrite E in E'. injection E' as -> ->.
  assert (N : parts' <> []) by (intros ->; rewrite len_nil in L; lia).
  destruct (consecutive_last _ _ _ C N) as (l & E1 & E2 & E3). rewrite E1. cbn [fst snd vector_size].
  assert (N' : map fst parts' <> []) by now destruct parts'. pose proof (consecutive_hd _ _ _ C N) as HH.
  split.
  - unfold best_effort_len. destruct (len (map fst parts' ++ [total - 1]) =? 2) eqn:E2'.
    + rewrite len_app, len_map, len_cons, len_nil in E2'. destruct parts' as [|[a r] [|q parts']]; [contradiction| |rewrite !len_cons in E2'; pose proof (len_nonneg parts'); lia].
      cbn in *. f_equal. lia.
    + rewrite slice_snoc, len_divisions by assumption. cbn [rbind]. rewrite E2, HH. f_equal. lia.
  - rewrite len_divisions by now destruct (map fst parts'). rewrite last_snoc.
    replace (hd 0 (map fst parts' ++ [total - 1])) with 0 by (destruct (map fst parts'); [contradiction|cbn in *; congruence]). cbn [rbind].
    replace ((total =? total - 1 - 0) || (total =? total - 1 - 0 + 1)) with true by lia. reflexivity.
Qed.
Lemma getitem_spec size idx : 0 <= size ->
  (- size <= idx < size -> getitem size idx = Ok (idx mod size)) /\ (idx < - size \/ size <= idx -> getitem size idx = Err IndexError).
Proof.
  intros HS. unfold getitem. split.
  - intros H. replace (size <=? idx) with false by lia. destruct (idx <? 0) eqn:E.
    + replace (size + idx <? 0) with false by lia. f_equal. apply Z.mod_unique with (-1); lia.
    + f_equal. symmetry. apply Z.mod_small. lia.
  - intros H. destruct (size <=? idx) eqn:E; [reflexivity|]. replace (idx <? 0) with true by lia. now replace (size + idx <? 0) with true by lia.
Qed.

(* ---- C37 ---- *)
Lemma in_add_objid p base n x : In x (add_objid p base n) <-> 1 <= x - p * base <= n.
Proof.
  unfold add_objid. rewrite in_map_iff. split.
  - intros (k & <- & H). apply zrange_in' in H. lia.
  - intros H. exists (x - p * base). split; [lia|]. apply zrange_in'. lia.
Qed.
Lemma nodup_map_inj {A B} (f : A -> B) l : (forall x y, In x l -> In y l -> f x = f y -> x = y) -> NoDup l -> NoDup (map f l).
Proof.
  induction l as [|a l IH]; intros I N; [constructor|]. inversion N; subst. cbn. constructor.
  - rewrite in_map_iff. intros (b & E & Hb). apply I in E; [|now right|now left]. congruence.
  - apply IH; [|assumption]. intros. apply I; [now right|now right|assumption].
Qed.
Lemma nodup_zrange a b : NoDup (zrange a b).
Proof. unfold zrange. apply nodup_map_inj; [intros; lia|apply seq_NoDup]. Qed.
Lemma nodup_app {A} (l l' : list A) : NoDup l -> NoDup l' -> (forall x, In x l -> In x l' -> False) -> NoDup (l ++ l').
Proof.
  induction l as [|a l IH]; intros N N' D; [assumption|]. inversion N; subst. cbn. constructor.
  - rewrite in_app_iff. intros [H|H]; [contradiction|]. apply (D a); [now left|assumption].
  - apply IH; [assumption..|]. intros x Hx. apply D. now right.
Qed.
Lemma object_ids_acc base sizes : 0 <= base -> Forall (fun n => 0 <= n <= base) sizes -> forall p, 0 <= p ->
  let ids := concat (map (fun '(p, n) => add_objid p base n) (combine (map (fun k => p + k) (zrange 0 (len sizes))) sizes)) in
  NoDup ids /\ (forall x, In x ids -> p * base + 1 <= x) /\ len ids = fold_right Z.add 0 sizes.
Proof.
  intros HB. induction sizes as [|n sizes IH]; intros F p Hp ids.
  - unfold ids. cbn. repeat split; try constructor. intros ? [].
  - inversion F as [|? ? Hn F']; subst. specialize (IH F' (p + 1) ltac:(lia)). cbn zeta in IH.
    assert (EI : ids = add_objid p base n ++ concat (map (fun '(p, n) => add_objid p base n) (combine (map (fun k => p + 1 + k) (zrange 0 (len sizes))) sizes))).
    { unfold ids. rewrite len_cons. pose proof (len_nonneg sizes). rewrite zrange_cons by lia. replace (1 + len sizes - 1) with (len sizes) by lia. cbn [map combine concat].
      replace (p + 0) with p by lia. f_equal. f_equal. f_equal. f_equal. rewrite map_map. apply map_ext. intros. lia. }
    destruct IH as (N & L & C). rewrite EI. split; [|split].
    + apply nodup_app; [|assumption|].
      * unfold add_objid. apply nodup_map_inj; [intros; lia|apply nodup_zrange].
      * intros x H1 H2. apply in_add_objid in H1. apply L in H2. nia.
    + intros x. rewrite in_app_iff. intros [H|H]; [apply in_add_objid in H; lia|apply L in H; nia].
    + rewrite len_app, C. unfold add_objid. rewrite len_map, len_zrange. cbn [fold_right]. lia.
Qed.
Lemma object_ids_unique base sizes : 0 <= base -> Forall (fun n => 0 <= n <= base) sizes ->
  NoDup (concat (object_ids base sizes)) /\ Forall2 (fun ids n => len ids = n) (object_ids base sizes) sizes.
Proof.
  intros HB F. split.
  - destruct (object_ids_acc base sizes HB F 0 ltac:(lia)) as (N & _ & _). unfold object_ids.
    rewrite (map_ext _ (fun k => k)) in N by (intros; lia). now rewrite map_id in N.
  - unfold object_ids. assert (H : forall (l : list Z), length l = length sizes -> Forall2 (fun ids n => len ids = n) (map (fun '(p, n) => add_objid p base n) (combine l sizes)) sizes).
    { induction F as [|n sizes Hn F IH]; intros [|p l] E; try discriminate; cbn; [constructor|]. constructor; [|apply IH; cbn in E; lia]. unfold add_objid. rewrite len_map, len_zrange. lia. }
    apply H. unfold zrange. rewrite map_length, seq_length. unfold len. lia.
Qed.

(* ---- names ---- *)
Lemma append_inj (a b c : string) : String.append a b = String.append a c -> b = c.
Proof. induction a as [|x a IH]; cbn; intros H; [assumption|]. injection H as H. auto. Qed.
Lemma to_uint_nonnil n : N.to_uint n <> Decimal.Nil.
Proof. destruct n; [discriminate|]. cbn. apply DecimalPos.Unsigned.to_uint_nonnil. Qed.
Lemma objectid_inj n m : objectid_n n = objectid_n m -> n = m.
Proof.
  unfold objectid_n. intros H. apply append_inj in H.
  assert (E : NilZero.uint_of_string (NilZero.string_of_uint (N.to_uint n)) = NilZero.uint_of_string (NilZero.string_of_uint (N.to_uint m))) by now rewrite H.
  rewrite !NilZero.usu in E by apply to_uint_nonnil. injection E as E. now apply DecimalN.Unsigned.to_uint_inj.
Qed.
Lemma in_columns_iff name columns : in_columns name columns = true <-> In name columns.
Proof.
  unfold in_columns. rewrite existsb_exists. split.
  - intros (x & H & E). apply String.eqb_eq in E. now subst.
  - intros H. exists name. split; [assumption|apply String.eqb_refl].
Qed.
Lemma name_loop_spec columns : forall fuel n seen, NoDup seen -> (forall x, In x seen -> In x columns) ->
  (forall m, In (objectid_n m) seen -> (m < n)%N) -> (length columns < length seen + fuel)%nat ->
  exists m, name_loop fuel n columns = Ok (objectid_n m) /\ (n <= m)%N /\ ~ In (objectid_n m) columns /\ forall k, (n <= k < m)%N -> In (objectid_n k) columns.
Proof.
  induction fuel as [|fuel IH]; intros n seen ND SUB LT LEN.
  - exfalso. pose proof (NoDup_incl_length ND SUB). lia.
  - cbn [name_loop]. destruct (in_columns (objectid_n n) columns) eqn:E.
    + apply in_columns_iff in E. destruct (IH (n + 1)%N (objectid_n n :: seen)) as (m & H1 & H2 & H3 & H4).
      * constructor; [|assumption]. intros H. apply LT in H. lia.
      * intros x [<-|H]; auto.
      * intros m [H|H]; [apply objectid_inj in H; lia|]. apply LT in H. lia.
      * cbn. lia.
      * exists m. split; [assumption|]. split; [lia|]. split; [assumption|]. intros k Hk. destruct (N.eq_dec k n) as [->|]; [assumption|]. apply H4. lia.
    + exists n. split; [reflexivity|]. split; [lia|]. split; [|intros; lia]. rewrite <- in_columns_iff. congruence.
Qed.
Lemma objectid_name_new columns : exists name, objectid_name columns None = Ok name /\ ~ In name columns
  /\ (name = "OBJECTID"%string \/ In "OBJECTID"%string columns /\ exists m, name = objectid_n m /\ (1 <= m)%N /\ forall k, (1 <= k < m)%N -> In (objectid_n k) columns).
Proof.
  unfold objectid_name. destruct (in_columns "OBJECTID" columns) eqn:E.
  - apply in_columns_iff in E. destruct (name_loop_spec columns (S (length columns)) 1 []) as (m & H1 & H2 & H3 & H4); [constructor|intros ? []|intros ? []|cbn; lia|].
    exists (objectid_n m). split; [assumption|]. split; [assumption|]. right. split; [assumption|]. exists m. auto.
  - exists "OBJECTID"%string. split; [reflexivity|]. split; [|now left]. rewrite <- in_columns_iff. congruence.
Qed.
Lemma objectid_name_given columns name : objectid_name columns (Some name) = if in_dec string_dec name columns then Err ValueError else Ok name.
Proof.
  cbn. destruct (in_columns name columns) eqn:E; destruct (in_dec string_dec name columns) as [H|H]; try reflexivity.
  - apply in_columns_iff in E. contradiction. - apply in_columns_iff in H. congruence.
Qed.
(* the divisions describe the partitions *)
Lemma consecutive_divisions parts : forall a b, consecutive a b parts -> forall i p, get parts i = Ok p ->
  fst p < snd p /\ get (map fst parts ++ [b - 1]) i = Ok (fst p) /\
  (i < len parts - 1 -> get (map fst parts ++ [b - 1]) (i + 1) = Ok (snd p)) /\ (i = len parts - 1 -> snd p = b /\ get (map fst parts ++ [b - 1]) (i + 1) = Ok (b - 1)).
Proof.
  induction parts as [|[l r] parts IH]; intros a b H i p G; [pose proof (get_ok_range _ _ _ G) as R; cbn in R; lia|].
  destruct H as (-> & L & H). pose proof (get_ok_range _ _ _ G) as R. rewrite len_cons in *. pose proof (len_nonneg parts). cbn [map app fst].
  destruct (Z.eq_dec i 0) as [->|N].
  - rewrite get_cons0 in G. injection G as <-. cbn [fst snd]. split; [assumption|]. split; [now rewrite get_cons0|]. split.
    + intros K. destruct parts as [|[l' r'] parts]; [cbn in K; lia|]. destruct H as (-> & _). rewrite get_cons by lia. reflexivity.
    + intros K. destruct parts as [|q parts]; [|rewrite len_cons in *; pose proof (len_nonneg parts); lia]. cbn in H. subst. split; [reflexivity|]. rewrite get_cons by lia. reflexivity.
  - rewrite get_cons in G by lia. destruct (IH _ _ H _ _ G) as (A & B & C & D). split; [assumption|]. split; [rewrite get_cons by lia; exact B|].
    rewrite get_cons by lia. replace (i + 1 - 1) with (i - 1 + 1) by lia. split; intros; [apply C; lia|apply D; lia].
Qed.
Lemma read_all total np parts divs : 0 < total -> 0 < np -> read_file_delayed total np = inl (parts, divs) ->
  concat (map part_rows parts) = map (fun i => (i, i)) (zrange 0 total) /\ 1 <= len parts <= np /\ len divs = len parts + 1 /\
  forall i p, get parts i = Ok p -> fst p < snd p /\ get divs i = Ok (fst p) /\
    (i < len parts - 1 -> get divs (i + 1) = Ok (snd p)) /\ (i = len parts - 1 -> snd p = total /\ get divs (i + 1) = Ok (total - 1)).
Proof.
  intros HT HN E. destruct (read_file_spec total np HT HN) as (parts' & E' & C & L). rewrite E in E'. injection E' as -> ->.
  split; [now apply consecutive_rows|]. split; [assumption|]. split; [now rewrite len_app, len_map, len_cons, len_nil|]. now apply (consecutive_divisions _ 0).
Qed.
Lemma read_total total np : 0 < total -> 0 < np -> exists parts divs, read_file_delayed total np = inl (parts, divs).
Proof. intros HT HN. destruct (read_file_spec total np HT HN) as (parts & E & _). eauto. Qed.
