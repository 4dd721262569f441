(* The parser of batch scripts against their meaning. *)
From Coq Require Import QArith Ascii String.
From Verif Require Import Base BaseFacts Scalars RemapFile RemapFileSpec RemapFileProofs Batch BatchSpec.
Open Scope Z_scope.

(* ---- characters ---- *)
Lemma is_char_false d c : is_char d c = false <-> c <> d.
Proof. rewrite <- (is_char_spec d c). destruct (is_char d c); split; congruence. Qed.
Lemma all_chars (P : ascii -> bool) : forallb P (map ascii_of_nat (seq 0 256)) = true -> forall c, P c = true.
Proof.
  intros H c. rewrite forallb_forall in H. apply H. rewrite <- (ascii_nat_embedding c). apply in_map. apply in_seq.
  pose proof (nat_ascii_bounded c). lia.
Qed.
Lemma upper_capital s : upper s = map capital s.
Proof.
  unfold upper. apply map_ext. intros c.
  pose proof (all_chars (fun c => Ascii.eqb (if (97 <=? code c) && (code c <=? 122) then ascii_of_N (N_of_ascii c - 32) else c) (capital c))) as H.
  apply Ascii.eqb_eq. apply H. vm_compute. reflexivity.
Qed.
Lemma letters_bool s : letters s <-> Forall (fun c => is_letter c = true) s.
Proof.
  unfold letters. rewrite Forall_forall.
  assert (E : forall c, is_letter c = existsb (Ascii.eqb c) (lit "abcdefghijklmnopqrstuvwxyzABCDEFGHIJKLMNOPQRSTUVWXYZ")).
  { intros c. pose proof (all_chars (fun c => Bool.eqb (is_letter c) (existsb (Ascii.eqb c) (lit "abcdefghijklmnopqrstuvwxyzABCDEFGHIJKLMNOPQRSTUVWXYZ")))) as H.
    apply eqb_prop. apply H. vm_compute. reflexivity. }
  split; intros H c Hc; specialize (H c Hc).
  - rewrite E. apply existsb_exists. exists c. split; [exact H|apply Ascii.eqb_refl].
  - rewrite E in H. apply existsb_exists in H. destruct H as (d & Hd & EQ). apply Ascii.eqb_eq in EQ. now subst.
Qed.
Lemma letter_not_paren c : is_letter c = true -> is_char "(" c = false.
Proof. destruct (is_char "(" c) eqn:E; [|reflexivity]. apply is_char_spec in E. subst. discriminate. Qed.
Lemma chars_eqb_spec a b : chars_eqb a b = true <-> a = b.
Proof. unfold chars_eqb. destruct (list_eq_dec ascii_dec a b); split; congruence. Qed.
Lemma chars_eqb_refl a : chars_eqb a a = true.
Proof. now apply chars_eqb_spec. Qed.

(* ---- split ---- *)
Lemma lacks_cons d c s : lacks d (c :: s) <-> c <> d /\ lacks d s.
Proof. unfold lacks. cbn. intuition congruence. Qed.
Lemma lacks_app d a b : lacks d (a ++ b) <-> lacks d a /\ lacks d b.
Proof. unfold lacks. rewrite in_app_iff. tauto. Qed.
Lemma split_nonempty d s : split d s <> [].
Proof. destruct s as [|c s]; cbn; [discriminate|]. destruct (is_char d c); [discriminate|]. destruct (split d s); discriminate. Qed.
Lemma split_lacks d s : Forall (lacks d) (split d s).
Proof.
  induction s as [|c s IH]; cbn [split]; [repeat constructor; intros []|]. destruct (is_char d c) eqn:E; [constructor; [intros []|exact IH]|].
  apply is_char_false in E. destruct (split d s) as [|h t]; [repeat constructor; intros [|[]]; congruence|].
  inversion_clear IH. constructor; [|assumption]. apply lacks_cons. auto.
Qed.
Lemma split_joined d s : joined_with d (split d s) = s.
Proof.
  induction s as [|c s IH]; cbn [split]; [reflexivity|]. destruct (is_char d c) eqn:E.
  - apply is_char_spec in E. subst c. pose proof (split_nonempty d s). destruct (split d s) as [|h t] eqn:ES; [congruence|].
    change (joined_with d ([] :: h :: t)) with ([] ++ d :: joined_with d (h :: t)). now rewrite IH.
  - destruct (split d s) as [|h t]; [cbn in *; now rewrite IH|].
    replace (joined_with d ((c :: h) :: t)) with (c :: joined_with d (h :: t)) by (destruct t; reflexivity). now rewrite IH.
Qed.
Lemma split_none d s : lacks d s -> split d s = [s].
Proof.
  induction s as [|c s IH]; intros H; [reflexivity|]. apply lacks_cons in H. destruct H as [N H]. cbn [split].
  apply is_char_false in N. now rewrite N, IH.
Qed.
Lemma split_at d a b : lacks d a -> split d (a ++ d :: b) = a :: split d b.
Proof.
  induction a as [|c a IH]; intros H.
  - cbn [app split]. replace (is_char d d) with true; [reflexivity|]. symmetry. now apply is_char_spec.
  - apply lacks_cons in H. destruct H as [N H]. cbn [app split]. apply is_char_false in N. now rewrite N, IH.
Qed.
Lemma split_of_joined d parts : Forall (lacks d) parts -> parts <> [] -> split d (joined_with d parts) = parts.
Proof.
  induction 1 as [|p ps H F IH]; intros N; [congruence|]. destruct ps as [|q ps]; [now apply split_none|].
  change (joined_with d (p :: q :: ps)) with (p ++ d :: joined_with d (q :: ps)). rewrite split_at by exact H. f_equal. apply IH. discriminate.
Qed.

(* ---- strip ---- *)
Lemma space_false c : is_space c = false <-> ~ space c.
Proof. rewrite <- is_space_spec. destruct (is_space c); split; congruence. Qed.
Lemma strip_trimmed s : trimmed (strip s).
Proof.
  assert (T : forall c t, strip s = t ++ [c] -> ~ space c).
  { intros c t E. destruct (strip_ends s) as (a & d & E2 & H); [rewrite E; intros K; now apply app_eq_nil in K|].
    rewrite E2 in E. apply app_inj_tail in E. destruct E as [_ <-]. now apply space_false. }
  split; [|intros t c; apply T]. intros c t E.
  destruct (lstrip_split (rev (lstrip s))) as (w & Ww & E2).
  assert (L : lstrip s = strip s ++ rev w). { unfold strip. rewrite <- rev_app_distr, <- E2. now rewrite rev_involutive. }
  rewrite E in L. cbn [app] in L. apply lstrip_head in L. now apply space_false.
Qed.
Lemma strip_spec s t : strip s = t <-> padded t s.
Proof.
  split.
  - intros <-. split; [apply strip_trimmed|]. destruct (strip_split s) as (u & w & U & Ww & E). now exists u, w.
  - intros [[T1 T2] (w1 & w2 & W1 & W2 & ->)]. destruct t as [|c t].
    + apply strip_spaces. apply Forall_app. auto.
    + apply strip_core with (c := c) (t := t); auto.
      * apply space_false. now apply (T1 c t).
      * destruct (exists_last (l := c :: t)) as (a & d & E); [discriminate|]. exists a, d. split; [exact E|]. apply space_false. now apply (T2 a d).
Qed.
Lemma args_spec t args : split_strip t ";" = args <-> written_args args t.
Proof.
  unfold split_strip, written_args. split.
  - intros <-. split; [pose proof (split_nonempty ";" t); destruct (split ";" t); [congruence|discriminate]|].
    exists (split ";" t). split; [|split; [apply split_lacks|symmetry; apply split_joined]].
    induction (split ";" t) as [|p ps IH]; cbn; constructor; [|exact IH]. now apply strip_spec.
  - intros [N (parts & F & L & ->)]. rewrite split_of_joined; [|exact L|intros ->; inversion F; congruence].
    clear N L. induction F as [|a p args parts P F IH]; cbn; [reflexivity|]. f_equal; [now apply strip_spec|exact IH].
Qed.
Lemma padded_lacks c t s : ~ space c -> padded t s -> (lacks c s <-> lacks c t).
Proof.
  intros N [_ (w1 & w2 & W1 & W2 & ->)]. rewrite !lacks_app. unfold lacks, spaces in *. rewrite Forall_forall in W1, W2.
  split; [tauto|]. intros H. repeat split; auto.
Qed.

Lemma lacks_outer c t s : ~ space c -> padded t s -> lacks c t -> lacks c s.
Proof. intros N P. exact (proj2 (padded_lacks c t s N P)). Qed.
Lemma lacks_inner c t s : ~ space c -> padded t s -> lacks c s -> lacks c t.
Proof. intros N P. exact (proj1 (padded_lacks c t s N P)). Qed.

(* ---- the pattern of a call ---- *)
Definition call_text (f args : text) : text := f ++ "("%char :: args ++ [")"%char].
Definition call_parts (f args : text) : Prop := letters f /\ f <> [] /\ args <> [] /\ lacks "(" args /\ lacks ")" args.
Lemma lang_func m g : lang func_pattern m g <-> exists f a, g = [f; a] /\ m = call_text f a /\ call_parts f a.
Proof.
  unfold func_pattern, RPlus, call_text, call_parts. cbn [lang]. split.
  - intros (m1 & m2 & g1 & g2 & -> & -> & (g1' & -> & (m1a & m1b & g1a & g1b & -> & -> & (-> & c & -> & Hc) & (-> & F1))) &
      (m3 & m4 & g3 & g4 & -> & -> & (-> & d & -> & Hd) & (m5 & m6 & g5 & g6 & -> & -> & (g5' & -> & (m5a & m5b & g5a & g5b & -> & -> & (-> & e & -> & He) & (-> & F2))) & (-> & h & -> & Hh)))).
    apply is_char_spec in Hd, Hh. subst d h. exists (c :: m1b), (e :: m5b). split; [reflexivity|]. split; [reflexivity|].
    split; [apply letters_bool; constructor; assumption|]. split; [discriminate|]. split; [discriminate|].
    assert (F : Forall (fun c => negb (is_char "(" c || is_char ")" c) = true) (e :: m5b)) by (constructor; assumption).
    rewrite Forall_forall in F. split; intros HI; specialize (F _ HI); discriminate.
  - intros (f & a & -> & -> & L & Nf & Na & L1 & L2). apply letters_bool in L.
    assert (F : Forall (fun c => negb (is_char "(" c || is_char ")" c) = true) a).
    { apply Forall_forall. intros c Hc. destruct (is_char "(" c) eqn:E1; [apply is_char_spec in E1; subst; contradiction|].
      destruct (is_char ")" c) eqn:E2; [apply is_char_spec in E2; subst; contradiction|]. reflexivity. }
    destruct f as [|c f]; [congruence|]. destruct a as [|e a]; [congruence|]. inversion_clear L. inversion_clear F.
    exists (c :: f), ("("%char :: (e :: a) ++ [")"%char]), [c :: f], [e :: a]. split; [reflexivity|]. split; [reflexivity|]. split.
    + exists []. split; [reflexivity|]. exists [c], f, [], []. repeat split; auto. exists c. auto.
    + exists ["("%char], ((e :: a) ++ [")"%char]), [], [e :: a]. split; [reflexivity|]. split; [reflexivity|]. split; [split; [reflexivity|]; exists "("%char; auto|].
      exists (e :: a), [")"%char], [e :: a], []. split; [reflexivity|]. split; [reflexivity|]. split.
      * exists []. split; [reflexivity|]. exists [e], a, [], []. repeat split; auto. exists e. auto.
      * split; [reflexivity|]. exists ")"%char. auto.
Qed.
Lemma func_spec e f a : trimmed e -> (re_match func_pattern e = Some [f; a] <-> e = call_text f a /\ call_parts f a).
Proof.
  intros [_ T].
  assert (OK : forall g, re_match func_pattern e = Some g -> exists f a, g = [f; a] /\ e = call_text f a /\ call_parts f a).
  { intros g H. apply re_match_some in H. destruct H as (m & rest & E & A & L). apply lang_func in L. destruct L as (f' & a' & -> & -> & P).
    exists f', a'. split; [reflexivity|]. split; [|exact P]. destruct rest as [|c [|]]; [now rewrite app_nil_r in E| |discriminate].
    unfold at_end in A. apply is_char_spec in A. subst c. exfalso. apply (T _ _ E). unfold space. cbn. tauto. }
  split.
  - intros H. destruct (OK _ H) as (f' & a' & [= <- <-] & K). exact K.
  - intros [E P]. destruct (re_match_exists func_pattern e [f; a] _ eq_refl) as (g & H).
    { apply lang_func. exists f, a. auto. }
    rewrite H. destruct (OK _ H) as (f' & a' & -> & E' & P'). f_equal. rewrite E in E'. unfold call_text in E'.
    destruct P as (L & _ & _ & _). destruct P' as (L' & _ & _ & _). apply letters_bool in L, L'.
    apply split_first with (p := is_char "(") in E'; [|eapply Forall_impl; [|exact L]; exact letter_not_paren|eapply Forall_impl; [|exact L']; exact letter_not_paren|reflexivity|reflexivity].
    destruct E' as [-> E']. apply app_inj_tail in E'. destruct E' as [-> _]. reflexivity.
Qed.
Lemma func_none e : trimmed e -> (forall f a, ~ (e = call_text f a /\ call_parts f a)) -> re_match func_pattern e = None.
Proof.
  intros T N. destruct (re_match func_pattern e) as [g|] eqn:H; [|reflexivity]. exfalso.
  assert (exists f a, g = [f; a]) as (f & a & ->).
  { apply re_match_some in H. destruct H as (m & rest & E & A & L). apply lang_func in L. destruct L as (f & a & -> & _). eauto. }
  apply (N f a). now apply func_spec.
Qed.
Lemma andthen_ok {A B} (x : outcome A) (k : A -> outcome B) b : andthen x k = inl b <-> exists a, x = inl a /\ k a = inl b.
Proof. destruct x; cbn; split; [eauto|intros (? & [= ->] & ?); assumption|discriminate|intros (? & ? & ?); discriminate]. Qed.
Lemma orelse_ok {A} (x : option A) e a : orelse x e = inl a <-> x = Some a.
Proof. destruct x; cbn; split; congruence. Qed.
Lemma mapO_ok {A B} (f : A -> outcome B) l bs : mapO f l = inl bs <-> Forall2 (fun a b => f a = inl b) l bs.
Proof.
  revert bs. induction l as [|a l IH]; intros bs; cbn [mapO].
  - split; [intros [= <-]; constructor|intros H; inversion H; reflexivity].
  - rewrite andthen_ok. split.
    + intros (b & E & H). apply andthen_ok in H. destruct H as (bs' & E' & [= <-]). constructor; [exact E|]. now apply IH.
    + intros H. inversion H as [|? b ? bs' E F]. subst. exists b. split; [exact E|]. apply andthen_ok. exists bs'. split; [now apply IH|reflexivity].
Qed.
Lemma isabs_spec p : isabs p = true <-> absolute p.
Proof.
  unfold isabs, absolute. destruct p as [|c p]; [split; [discriminate|intros (t & [=])]|]. rewrite is_char_spec. split; [intros ->; eauto|intros (t & [= -> _]); reflexivity].
Qed.
Lemma path_join_spec p q r : path_join p q = r <-> relative_to p q r.
Proof.
  unfold path_join, relative_to. destruct (isabs q) eqn:A.
  - apply isabs_spec in A. split; [intros <-; auto|]. intros [[_ ->]|[N _]]; [reflexivity|contradiction].
  - assert (N : ~ absolute q) by (rewrite <- isabs_spec; congruence).
    destruct (rev p) as [|c t] eqn:ER.
    + assert (p = []) as -> by (rewrite <- (rev_involutive p), ER; reflexivity). split; [intros <-; auto|].
      intros [[? _]|[_ [[_ ->]|[[(t & E) _]|[E _]]]]]; [contradiction|reflexivity| |congruence]. symmetry in E. now apply app_eq_nil in E.
    + assert (E : p = rev t ++ [c]) by (rewrite <- (rev_involutive p), ER; reflexivity).
      destruct (is_char "/" c) eqn:EC.
      * apply is_char_spec in EC. subst c. split; [intros <-; right; split; [exact N|]; right; left; eauto|].
        intros [[? _]|[_ [[K _]|[[_ ->]|(_ & K & _)]]]]; [contradiction|rewrite K in E; symmetry in E; now apply app_eq_nil in E|reflexivity|].
        exfalso. eapply K. exact E.
      * apply is_char_false in EC. assert (NE : forall t', p <> t' ++ ["/"%char]). { intros t' K. rewrite K in E. apply app_inj_tail in E. destruct E. congruence. }
        assert (p <> []) by (intros ->; symmetry in E; now apply app_eq_nil in E).
        split; [intros <-; right; split; [exact N|]; right; right; auto|].
        intros [[? _]|[_ [[K _]|[[(t' & K) _]|(_ & _ & ->)]]]]; [contradiction|contradiction|exfalso; eapply NE; eauto|reflexivity].
Qed.

Lemma forall2_length {A B} (P : A -> B -> Prop) a b : Forall2 P a b -> Datatypes.length a = Datatypes.length b.
Proof. induction 1; cbn; congruence. Qed.

Lemma forall2_impl {A B} (P Q : A -> B -> Prop) a b : (forall x y, P x y -> Q x y) -> Forall2 P a b -> Forall2 Q a b.
Proof. intros H. induction 1; constructor; auto. Qed.

Section Batch.
Variables (R W : Type).
Variable open_raster : W -> chars -> option R.
Variable replace_null : R -> num -> option R.
Variable stack_bands : list R -> option R.
Variable save : W -> R -> chars -> num -> option (Z + Z * Z) -> option (R * W).
Variable py_float : chars -> option num.
Variable parse_int : chars -> option Z.
Variable location : chars.
Notation get_raster := (get_raster R W open_raster location).
Notation refers := (refers R W open_raster location).
Notation parse_raster := (parse_raster R W open_raster replace_null stack_bands save py_float parse_int location).
Notation call := (call R W open_raster replace_null stack_bands save py_float parse_int location).
Notation run_lines := (run_lines R W open_raster replace_null stack_bands save py_float parse_int location).
Notation runs := (runs R W open_raster replace_null stack_bands save py_float parse_int location).

(* the dict holds the latest assignments *)
Definition agree (d : dict R) (h : history R) : Prop :=
  forall k, match lookup R d k with Some r => latest R h k r | None => ~ In k (map fst h) end.
Lemma lookup_assign d k v k' : lookup R (assign R d k v) k' = if chars_eqb k' k then Some v else lookup R d k'.
Proof.
  induction d as [|[q x] d IH]; cbn [assign lookup]; [reflexivity|]. destruct (chars_eqb k q) eqn:E; cbn [lookup].
  - apply chars_eqb_spec in E. subst q. destruct (chars_eqb k' k); reflexivity.
  - destruct (chars_eqb k' q) eqn:E2; [|exact IH]. apply chars_eqb_spec in E2. subst q.
    destruct (chars_eqb k' k) eqn:E3; [|reflexivity]. apply chars_eqb_spec in E3. subst. rewrite chars_eqb_refl in E. discriminate.
Qed.
Lemma agree_assign d h k v : agree d h -> agree (assign R d k v) ((k, v) :: h).
Proof.
  intros A k'. rewrite lookup_assign. destruct (chars_eqb k' k) eqn:E.
  - apply chars_eqb_spec in E. subst. exists [], h. split; [reflexivity|intros []].
  - assert (N : k <> k') by (intros ->; rewrite chars_eqb_refl in E; discriminate). specialize (A k').
    destruct (lookup R d k') as [r|].
    + destruct A as (l & e & -> & H). exists ((k, v) :: l), e. split; [reflexivity|]. cbn. intuition.
    + cbn. intuition.
Qed.
Lemma latest_fun h k r r' : latest R h k r -> latest R h k r' -> r = r'.
Proof.
  revert r r'. intros r r' (l & e & -> & N) (l' & e' & E & N'). revert l' E N'. induction l as [|[q x] l IH]; intros l' E N'.
  - destruct l' as [|[q' x'] l']; [now injection E|]. injection E as -> -> E. exfalso. apply N'. now left.
  - destruct l' as [|[q' x'] l'].
    + injection E as -> -> E. exfalso. apply N. now left.
    + injection E as <- <- E. apply (IH (fun K => N (or_intror K)) l' E). intros K. apply N'. now right.
Qed.
Lemma latest_in h k r : latest R h k r -> In k (map fst h).
Proof. intros (l & e & -> & _). rewrite map_app, in_app_iff. right. now left. Qed.
Lemma agree_lookup d h k r : agree d h -> (lookup R d k = Some r <-> latest R h k r).
Proof.
  intros A. specialize (A k). split; intros H.
  - now rewrite H in A.
  - destruct (lookup R d k) as [r'|]; [f_equal; eapply latest_fun; eauto|]. apply latest_in in H. contradiction.
Qed.
Lemma get_raster_spec w d h n r : agree d h -> (get_raster w d n = inl r <-> refers w h n r).
Proof.
  intros A. unfold Batch.get_raster. pose proof (A n) as An. destruct (lookup R d n) as [r'|] eqn:E.
  - split.
    + intros [= <-]. now apply ByName.
    + intros [L|p N _ _]; [f_equal; eapply latest_fun; eauto|]. apply latest_in in An. contradiction.
  - rewrite orelse_ok.
    replace (if isabs n then n else path_join location n) with (path_join location n).
    2:{ destruct (isabs n) eqn:EA; [|reflexivity]. unfold path_join. now rewrite EA. }
    split.
    + intros H. eapply ByPath; [exact An| |exact H]. now apply path_join_spec.
    + intros [L|p N P O]; [apply latest_in in L; contradiction|]. apply path_join_spec in P. now rewrite P.
Qed.
Lemma parse_raster_spec w d h e ln r w' : agree d h -> trimmed e ->
  (parse_raster w d e ln = inl (r, w') <-> exists f a, e = call_text f a /\ call_parts f a /\ call w h (map capital f) a r w').
Proof.
  intros A T. unfold Batch.parse_raster.
  destruct (re_match func_pattern e) as [g|] eqn:M.
  2:{ split; [discriminate|]. intros (f & a & E & P & _). assert (K : re_match func_pattern e = Some [f; a]) by (apply func_spec; auto). congruence. }
  assert (exists f a, g = [f; a]) as (f & a & ->).
  { pose proof M as M'. apply re_match_some in M'. destruct M' as (m & rest & E & _ & L). apply lang_func in L. destruct L as (f & a & -> & _). eauto. }
  apply func_spec in M; [|exact T]. destruct M as [E P]. rewrite upper_capital.
  transitivity (call w h (map capital f) a r w').
  2:{ split; [intros C; exists f, a; auto|]. intros (f' & a' & E' & P' & C).
      assert (K : re_match func_pattern e = Some [f; a]) by (apply func_spec; auto).
      assert (K' : re_match func_pattern e = Some [f'; a']) by (apply func_spec; auto). congruence. }
  clear E P T e. set (F := map capital f). clearbody F. clear f. unfold func_to_parser. cbn [find].
  destruct (chars_eqb F (str "ARITHMETIC")) eqn:E1.
  { apply chars_eqb_spec in E1. subst F. split; [|intros C; inversion C].
    unfold parse_arithmetic. destruct (split_strip a ";") as [|? [|? [|? [|]]]]; try discriminate.
    rewrite andthen_ok. intros (? & _ & H). rewrite andthen_ok in H. destruct H as (? & _ & H). rewrite andthen_ok in H. destruct H as (? & _ & H).
    rewrite andthen_ok in H. destruct H as (? & _ & H). discriminate. }
  destruct (chars_eqb F (str "COMPOSITE")) eqn:E2.
  { apply chars_eqb_spec in E2. subst F. unfold parse_composite. rewrite andthen_ok. split.
    - intros (rs & M & H). apply mapO_ok in M. destruct (len rs <? 2) eqn:EL; [discriminate|].
      apply andthen_ok in H. destruct H as (r' & S & [= -> <-]). apply orelse_ok in S.
      apply (Composite _ _ _ _ _ _ _ _ _ w h (split_strip a ";") a rs r); [now apply args_spec| |  |exact S].
      + apply forall2_length in M. unfold len, text in *. lia.
      + eapply forall2_impl; [|exact M]. intros n x. now apply get_raster_spec.
    - intros C. inversion C as [|names t rs r0 WA L F S| |]; subst. apply args_spec in WA. exists rs. split.
      + apply mapO_ok. rewrite WA. eapply forall2_impl; [|exact F]. intros n x. now apply get_raster_spec.
      + apply forall2_length in F. replace (len rs <? 2) with false by (unfold len, text in *; lia). rewrite S. reflexivity. }
  destruct (chars_eqb F (str "EXTRACTBAND")) eqn:E3.
  { apply chars_eqb_spec in E3. subst F. split; [discriminate|intros C; inversion C]. }
  destruct (chars_eqb F (str "NULLTOVALUE")) eqn:E4.
  { apply chars_eqb_spec in E4. subst F. unfold parse_null_to_value. split.
    - destruct (split_strip a ";") as [|n [|v [|x y]]] eqn:ES; try discriminate.
      + cbn [len]. change (1 <? len [v]) with false. cbv iota. rewrite andthen_ok. intros (q & Q & H). apply orelse_ok in Q.
        apply andthen_ok in H. destruct H as (r1 & G & H). apply andthen_ok in H. destruct H as (r2 & N & [= -> <-]). apply orelse_ok in N.
        apply (NullToValue _ _ _ _ _ _ _ _ _ w h n v a r1 r q); [now apply args_spec|now apply (get_raster_spec _ _ _ _ _ A)|exact Q|exact N].
      + replace (1 <? len (v :: x :: y)) with true by (unfold len; cbn [Datatypes.length]; lia). discriminate.
    - intros C. inversion C as [| |n v t r1 r2 q WA G Q N|]; subst. apply args_spec in WA. rewrite WA. change (1 <? len [v]) with false. cbv iota.
      rewrite Q. cbn [orelse andthen]. apply (get_raster_spec _ _ _ _ _ A) in G. rewrite G. cbn [andthen]. rewrite N. reflexivity. }
  destruct (chars_eqb F (str "OPENRASTER")) eqn:E5.
  { apply chars_eqb_spec in E5. subst F. unfold parse_open. split.
    - destruct (get_raster w d a) as [r0|] eqn:G; [|discriminate]. intros [= -> <-]. apply Open. now apply (get_raster_spec _ _ _ _ _ A).
    - intros C. inversion C as [n r0 G| | |]; subst. apply (get_raster_spec _ _ _ _ _ A) in G. now rewrite G. }
  destruct (chars_eqb F (str "REMAP")) eqn:E6.
  { apply chars_eqb_spec in E6. subst F. split; [|intros C; inversion C].
    unfold parse_remap. destruct (split_strip a ";") as [|n rest]; [discriminate|]. destruct (1 <? len rest); [discriminate|].
    destruct rest as [|gs rest]; [discriminate|]. rewrite andthen_ok. intros (rm & _ & H). destruct rm; [discriminate|].
    apply andthen_ok in H. destruct H as (? & _ & H). discriminate. }
  destruct (chars_eqb F (str "SAVEFUNCTIONRASTER")) eqn:E7.
  { apply chars_eqb_spec in E7. subst F. unfold parse_save. split.
    - destruct (split_strip a ";") as [|n [|out [|dir [|ty ex]]]] eqn:ES; try discriminate.
      rewrite andthen_ok. intros (nodata & ND & H). apply andthen_ok in H. destruct H as (bw & BW & H). apply andthen_ok in H. destruct H as (bh & BH & H).
      destruct (3 <? len ex) eqn:EL; [discriminate|]. destruct (chars_eqb ty (str "TIFF")) eqn:ET; [|discriminate]. cbn [negb] in H.
      apply chars_eqb_spec in ET. subst ty. apply andthen_ok in H. destruct H as (r0 & G & H). apply orelse_ok in H.
      apply (Save _ _ _ _ _ _ _ _ _ w h n out dir (path_join dir out) ex a r0 r w' nodata
        (match bw, bh with Some bw, Some bh => Some (inr (bh, bw)) | Some bw, None => Some (inl bw) | None, _ => None end));
        [now apply args_spec|now apply (get_raster_spec _ _ _ _ _ A)|now apply path_join_spec| |exact H].
      destruct ex as [|v [|bwt [|bht [|x ex]]]].
      + injection ND as <-. injection BW as <-. injection BH as <-. reflexivity.
      + apply orelse_ok in ND. injection BW as <-. injection BH as <-. exact ND.
      + apply orelse_ok in ND. apply andthen_ok in BW. destruct BW as (z & BW & [= <-]). apply orelse_ok in BW. injection BH as <-. auto.
      + apply orelse_ok in ND. apply andthen_ok in BW. destruct BW as (z & BW & [= <-]). apply orelse_ok in BW.
        apply andthen_ok in BH. destruct BH as (z' & BH & [= <-]). apply orelse_ok in BH. auto.
      + unfold len in EL. cbn [Datatypes.length] in EL. lia.
    - intros C. inversion C as [| | |n out dir path opts t r0 r1 w1 nodata block WA G RP O SV]; subst. apply args_spec in WA. rewrite WA. cbn [app].
      apply path_join_spec in RP. apply (get_raster_spec _ _ _ _ _ A) in G. change (lit ".tif") with (str ".tif") in SV.
      assert (FIN : forall b, save w r0 (path ++ str ".tif") nodata b = Some (r, w') ->
        (do raster := get_raster w d n in orelse (save w raster (path_join dir out ++ str ".tif") nodata b) OperationError) = inl (r, w')).
      { intros b Hb. rewrite G. cbn [andthen]. rewrite RP, Hb. reflexivity. }
      destruct opts as [|v [|bwt [|bht [|x ex]]]], block as [[x'|[y' x']]|]; try contradiction.
      + subst nodata. exact (FIN _ SV).
      + rewrite O. exact (FIN _ SV).
      + destruct O as [O1 O2]. rewrite O1, O2. exact (FIN _ SV).
      + destruct O as (O1 & O2 & O3). rewrite O1, O2, O3. exact (FIN _ SV). }
  destruct (chars_eqb F (str "SETNULL")) eqn:E8.
  { apply chars_eqb_spec in E8. subst F. split; [discriminate|intros C; inversion C]. }
  split; [discriminate|]. intros C. inversion C; subst; discriminate.
Qed.
(* the part of a line before the comment *)
Lemma before_comment line h t : split "#" line = h :: t -> lacks "#" h /\ exists cm, comment cm /\ line = h ++ cm.
Proof.
  intros E. pose proof (split_joined "#" line) as J. pose proof (split_lacks "#" line) as L. rewrite E in *. inversion_clear L as [|? ? L1 _].
  split; [exact L1|]. destruct t as [|x t].
  - exists []. split; [now left|]. cbn in J. rewrite app_nil_r. congruence.
  - exists ("#"%char :: joined_with "#" (x :: t)). split; [right; eauto|]. symmetry. exact J.
Qed.
Lemma split_comment a cm : lacks "#" a -> comment cm -> exists t, split "#" (a ++ cm) = a :: t.
Proof.
  intros L [->|(c & ->)]; [exists []; rewrite app_nil_r; now apply split_none|]. exists (split "#" c). now apply split_at.
Qed.
Lemma space_other c : space c -> c <> "#"%char /\ c <> "="%char.
Proof. intros H. apply is_space_spec in H. split; intros ->; discriminate. Qed.
Lemma not_space_hash : ~ space "#"%char. Proof. intros H. now apply space_other in H. Qed.
Lemma not_space_eq : ~ space "="%char. Proof. intros H. now apply space_other in H. Qed.
Lemma letters_lack f : letters f -> lacks "#" f /\ lacks "=" f.
Proof. intros L. split; intros H; apply L in H; cbn in H; intuition discriminate. Qed.
Lemma letters_trimmed f a : letters f -> f <> [] -> trimmed (call_text f a).
Proof.
  intros L N. split.
  - intros c t E. destruct f as [|x f]; [congruence|]. injection E as -> _. apply letters_bool in L. inversion_clear L as [|? ? H _].
    apply space_false. assert (K : implb (is_letter c) (negb (is_space c)) = true) by (apply (all_chars (fun c => implb (is_letter c) (negb (is_space c)))); vm_compute; reflexivity). cbv beta in K. rewrite H in K. now destruct (is_space c).
  - intros t c E. unfold call_text in E. rewrite app_comm_cons, app_assoc in E. apply app_inj_tail in E. destruct E as [_ <-].
    apply space_false. reflexivity.
Qed.
Lemma padded_trimmed s t : padded s t -> trimmed s. Proof. now intros []. Qed.
Lemma strip_idem s : strip (strip s) = strip s.
Proof. apply strip_spec. split; [apply strip_trimmed|]. exists [], []. split; [constructor|]. split; [constructor|]. now rewrite app_nil_r. Qed.

Definition newest (h : history R) : option text := match h with (n, _) :: _ => Some n | [] => None end.
Lemma run_line line ls ln w d h last : agree d h -> last = newest h ->
  forall w' d' last', run_lines (line :: ls) ln w d last = inl (w', d', last') <->
    (exists sp cm, spaces sp /\ comment cm /\ line = sp ++ cm /\ run_lines ls (ln + 1) w d last = inl (w', d', last'))
    \/ exists name f args lhs rhs cm r w1, padded name lhs /\ lacks "#" name /\ lacks "=" name /\ call_parts f args /\ lacks "#" args /\ lacks "=" args
        /\ padded (call_text f args) rhs /\ comment cm /\ line = lhs ++ "="%char :: rhs ++ cm /\ call w h (map capital f) args r w1
        /\ run_lines ls (ln + 1) w1 (assign R d name r) (Some name) = inl (w', d', last').
Proof.
  intros A LA w' d' last'. cbn [Batch.run_lines]. unfold split_strip at 1.
  destruct (split "#" line) as [|s0 t] eqn:ES; [now apply split_nonempty in ES|]. cbn [map].
  destruct (before_comment _ _ _ ES) as (L0 & cm & CM & EL).
  assert (ALT : (exists name f args lhs rhs cm r w1, padded name lhs /\ lacks "#" name /\ lacks "=" name /\ call_parts f args /\ lacks "#" args /\ lacks "=" args
        /\ padded (call_text f args) rhs /\ comment cm /\ line = lhs ++ "="%char :: rhs ++ cm /\ call w h (map capital f) args r w1
        /\ run_lines ls (ln + 1) w1 (assign R d name r) (Some name) = inl (w', d', last'))
    <-> exists name f args lhs rhs r w1, padded name lhs /\ lacks "=" lhs /\ lacks "=" rhs /\ padded (call_text f args) rhs /\ call_parts f args
        /\ s0 = lhs ++ "="%char :: rhs /\ call w h (map capital f) args r w1
        /\ run_lines ls (ln + 1) w1 (assign R d name r) (Some name) = inl (w', d', last')).
  { split.
    - intros (name & f & args & lhs & rhs & cm' & r & w1 & P & N1 & N2 & CP & A1 & A2 & P2 & CM' & E & C & RL).
      exists name, f, args, lhs, rhs, r, w1. pose proof CP as (LF & _). destruct (letters_lack f LF).
      assert (forall c, c <> "("%char -> c <> ")"%char -> lacks c f -> lacks c args -> lacks c (call_text f args)) as LC.
      { intros c H1 H2 H3 H4. unfold call_text. apply lacks_app. split; [assumption|]. apply lacks_cons. split; [congruence|]. apply lacks_app. split; [assumption|].
        intros [|[]]; congruence. }
      assert (LH : lacks "#" (lhs ++ "="%char :: rhs)).
      { apply lacks_app. split; [eapply lacks_outer; eauto using not_space_hash|]. apply lacks_cons. split; [discriminate|].
        eapply lacks_outer; [exact not_space_hash|exact P2|]. apply LC; auto; discriminate. }
      split; [exact P|]. split; [eapply lacks_outer; eauto using not_space_eq|].
      split; [eapply lacks_outer; [exact not_space_eq|exact P2|]; apply LC; auto; discriminate|]. split; [exact P2|]. split; [exact CP|].
      split; [|auto]. destruct (split_comment _ _ LH CM') as (t' & E').
      rewrite <- app_assoc in E'. cbn [app] in E'. rewrite <- E, ES in E'. congruence.
    - intros (name & f & args & lhs & rhs & r & w1 & P & N1 & N2 & P2 & CP & E & C & RL).
      exists name, f, args, lhs, rhs, cm, r, w1. rewrite E in L0. apply lacks_app in L0. destruct L0 as [L1 L2]. apply lacks_cons in L2. destruct L2 as [_ L2].
      assert (M1 : lacks "#" (call_text f args)) by (eapply lacks_inner; eauto using not_space_hash).
      assert (M2 : lacks "=" (call_text f args)) by (eapply lacks_inner; eauto using not_space_eq).
      unfold call_text in M1, M2. rewrite app_comm_cons in M1, M2. rewrite !lacks_app, lacks_cons in M1, M2.
      split; [exact P|]. split; [eapply lacks_inner; eauto using not_space_hash|]. split; [eapply lacks_inner; eauto using not_space_eq|].
      split; [exact CP|]. split; [tauto|]. split; [tauto|]. split; [exact P2|]. split; [exact CM|]. split; [|auto].
      rewrite EL, E, <- app_assoc. reflexivity. }
  rewrite ALT. clear ALT.
  destruct (strip s0) as [|c0 s1] eqn:E0.
  - apply strip_nil in E0. split.
    + intros H. left. exists s0, cm. auto.
    + intros [(sp & cm' & _ & _ & _ & H)|(name & f & args & lhs & rhs & r & w1 & _ & _ & _ & _ & _ & E & _)]; [exact H|].
      exfalso. unfold spaces in E0. rewrite E in E0. apply Forall_app in E0. destruct E0 as [_ E0]. inversion_clear E0 as [|? ? H _]. now apply not_space_eq.
  - assert (NB : ~ exists sp cm, spaces sp /\ comment cm /\ line = sp ++ cm /\ run_lines ls (ln + 1) w d last = inl (w', d', last')).
    { intros (sp & cm' & S & CM' & E & _). destruct (split_comment sp cm') as (t' & E'); [|exact CM'|].
      - unfold spaces in S. rewrite Forall_forall in S. intros H. apply S in H. now apply not_space_hash.
      - rewrite <- E, ES in E'. injection E' as -> _. rewrite strip_spaces in E0 by exact S. discriminate. }
    rewrite <- E0. clear c0 s1 E0. unfold split_strip.
    destruct (strip_split s0) as (u & v & U & V & EU).
    split.
    + intros H. right. destruct (split "=" (strip s0)) as [|a [|b [|]]] eqn:EE; try discriminate.
      cbn [map] in H. apply andthen_ok in H. destruct H as ([r w1] & PR & H).
      apply (parse_raster_spec _ _ h) in PR; [|exact A|apply strip_trimmed]. destruct PR as (f & args & E1 & CP & C).
      pose proof (split_joined "=" (strip s0)) as J. pose proof (split_lacks "=" (strip s0)) as LE. rewrite EE in J, LE. cbn [joined_with] in J.
      inversion_clear LE as [|? ? LA1 LE']. inversion_clear LE' as [|? ? LB _].
      assert (forall x, spaces x -> lacks "=" x) as SL. { intros x Sx K. unfold spaces in Sx. rewrite Forall_forall in Sx. apply Sx in K. now apply not_space_eq. }
      exists (strip a), f, args, (u ++ a), (b ++ v), r, w1.
      assert (PA : padded (strip a) (u ++ a)).
      { split; [apply strip_trimmed|]. destruct (strip_split a) as (x & y & X & Y & E). exists (u ++ x), y. split; [apply Forall_app; auto|]. split; [exact Y|].
        rewrite E at 1. now rewrite app_assoc. }
      assert (PB : padded (call_text f args) (b ++ v)).
      { rewrite <- E1. split; [apply strip_trimmed|]. destruct (strip_split b) as (x & y & X & Y & E). exists x, (y ++ v). split; [exact X|]. split; [apply Forall_app; auto|].
        rewrite E at 1. now rewrite <- !app_assoc. }
      split; [exact PA|]. split; [apply lacks_app; auto|]. split; [apply lacks_app; auto|]. split; [exact PB|]. split; [exact CP|].
      split; [|auto]. rewrite EU, <- J, <- !app_assoc. reflexivity.
    + intros [H|(name & f & args & lhs & rhs & r & w1 & P & N1 & N2 & P2 & CP & E & C & RL)]; [contradiction|].
      assert (PR : parse_raster w d (call_text f args) ln = inl (r, w1)).
      { apply (parse_raster_spec _ _ h); [exact A|eapply padded_trimmed; eauto|]. exists f, args. auto. }
      assert (SS : exists a b, split "=" (strip s0) = [a; b] /\ strip a = name /\ strip b = call_text f args).
      { clear - P P2 CP E N1 N2. destruct P as [[T1 T2] (x1 & x2 & X1 & X2 & ->)]. destruct P2 as [TC (y1 & y2 & Y1 & Y2 & ->)].
        set (a := match name with [] => [] | _ => name ++ x2 end).
        assert (SA : strip a = name).
        { unfold a. destruct name as [|c name]; [reflexivity|]. apply strip_spec. split; [split; assumption|]. exists [], x2. split; [constructor|]. auto. }
        assert (LA : lacks "=" a).
        { apply lacks_app in N1. destruct N1 as [_ N1]. unfold a. destruct name; [intros []|exact N1]. }
        assert (EX : exists x, spaces x /\ x1 ++ name ++ x2 = x ++ a).
        { unfold a. destruct name as [|c name]; [exists (x1 ++ x2); split; [apply Forall_app; auto|now rewrite app_nil_r]|]. exists x1. auto. }
        destruct EX as (x & X & EA).
        assert (SX : strip s0 = a ++ "="%char :: y1 ++ call_text f args).
        { apply strip_spec. split.
          - split.
            + intros c t EC. unfold a in EC. destruct name as [|c1 name]; [injection EC as <- _; exact not_space_eq|]. injection EC as -> _. now apply (T1 c name).
            + intros t c EC. unfold call_text in EC. destruct TC as [_ TC].
              destruct (exists_last (l := a ++ "="%char :: y1 ++ call_text f args)) as (t' & c' & EL); [intros K; now apply app_eq_nil in K|].
              assert (c = ")"%char) as ->; [|apply space_false; reflexivity].
              rewrite !app_comm_cons, !app_assoc in EC. apply app_inj_tail in EC. destruct EC as [_ <-]. reflexivity.
          - exists x, y2. split; [exact X|]. split; [exact Y2|]. rewrite E, EA. rewrite <- !app_assoc. cbn [app]. now rewrite <- app_assoc. }
        exists a, (y1 ++ call_text f args). rewrite SX. rewrite split_at by exact LA. rewrite app_assoc in N2. apply lacks_app in N2.
        rewrite split_none by tauto. split; [reflexivity|]. split; [exact SA|]. apply strip_spec. split; [exact TC|]. exists y1, []. split; [exact Y1|].
        split; [constructor|]. now rewrite app_nil_r. }
      destruct SS as (a & b & S1 & S2 & S3). rewrite S1. cbn [map]. rewrite S2, S3, PR. exact RL.
Qed.
Lemma run_lines_sound ls : forall ln w d h last w' d' last', agree d h -> last = newest h ->
  run_lines ls ln w d last = inl (w', d', last') -> exists h', runs ls w h w' h' /\ agree d' h' /\ last' = newest h'.
Proof.
  induction ls as [|line ls IH]; intros ln w d h last w' d' last' A L H.
  - injection H as <- <- <-. exists h. split; [constructor|auto].
  - apply (run_line line ls ln w d h last A L) in H. destruct H as [(sp & cm & S & CM & -> & H)|H].
    + destruct (IH _ _ _ _ _ _ _ _ A L H) as (h' & RH & K). exists h'. split; [|exact K]. now constructor.
    + destruct H as (name & f & args & lhs & rhs & cm & r & w1 & P & N1 & N2 & (LF & NF & NA & P1 & P3) & A1 & A2 & P2 & CM & -> & C & H).
      destruct (IH _ _ _ ((name, r) :: h) _ _ _ _ (agree_assign _ _ _ _ A) eq_refl H) as (h' & RH & K). exists h'. split; [|exact K].
      eapply RunsLine with (name := name) (f := f) (args := args) (r := r) (w1 := w1); eassumption.
Qed.
Lemma run_lines_complete ls w h w' h' : runs ls w h w' h' -> forall ln d last, agree d h -> last = newest h ->
  exists d', run_lines ls ln w d last = inl (w', d', newest h') /\ agree d' h'.
Proof.
  induction 1 as [w h|sp cm ls w h w' h' S CM RH IH|name f args lhs rhs cm ls w h r w1 w2 h2 P N1 N2 LF NF NA P1 P3 A1 A2 P2 CM C RH IH]; intros ln d last A L.
  - exists d. rewrite L. split; [reflexivity|exact A].
  - destruct (IH (ln + 1) d last A L) as (d' & H & A'). exists d'. split; [|exact A']. apply (run_line _ ls ln w d h last A L). left. eauto 10.
  - destruct (IH (ln + 1) (assign R d name r) (Some name) (agree_assign _ _ _ _ A) eq_refl) as (d' & H & A'). exists d'. split; [|exact A'].
    apply (run_line _ ls ln w d h last A L). right. exists name, f, args, lhs, rhs, cm, r, w1. unfold call_parts. tauto.
Qed.
Notation parse_batch_script := (parse_batch_script R W open_raster replace_null stack_bands save py_float parse_int location).
Lemma script_spec content w r w' :
  (exists d, parse_batch_script content w = inl (r, d, w')) <-> exists n h, runs (file_lines [] content) w [] w' ((n, r) :: h).
Proof.
  assert (A0 : agree [] []) by (intros k; cbn; auto). unfold Batch.parse_batch_script. split.
  - intros (d & H). apply andthen_ok in H. destruct H as ([[w1 d1] last] & H & K).
    destruct (run_lines_sound _ _ _ _ [] _ _ _ _ A0 eq_refl H) as (h & RH & A & ->). destruct h as [|[n x] h]; [discriminate|]. cbn [newest] in K.
    apply andthen_ok in K. destruct K as (r1 & LK & [= -> <- <-]). apply orelse_ok in LK. apply (agree_lookup _ _ _ _ A) in LK.
    assert (r = x) as ->. { eapply latest_fun; [exact LK|]. exists [], h. split; [reflexivity|intros []]. } eauto.
  - intros (n & h & RH). destruct (run_lines_complete _ _ _ _ _ RH 1 [] None A0 eq_refl) as (d & H & A). exists d. apply andthen_ok. exists (w', d, Some n). split; [exact H|].
    assert (LK : lookup R d n = Some r). { apply (agree_lookup _ _ _ _ A). exists [], h. split; [reflexivity|intros []]. }
    apply andthen_ok. exists r. split; [now apply orelse_ok|reflexivity].
Qed.
Lemma names_spec content w r d w' : parse_batch_script content w = inl (r, d, w') ->
  exists h, runs (file_lines [] content) w [] w' h /\ forall k x, lookup R d k = Some x <-> latest R h k x.
Proof.
  assert (A0 : agree [] []) by (intros k; cbn; auto). unfold Batch.parse_batch_script.
  intros H. apply andthen_ok in H. destruct H as ([[w1 d1] last] & H & K).
  destruct (run_lines_sound _ _ _ _ [] _ _ _ _ A0 eq_refl H) as (h & RH & A & ->). destruct h as [|[n x] h]; [discriminate|]. cbn [newest] in K.
  apply andthen_ok in K. destruct K as (r1 & LK & [= -> <- <-]). exists ((n, x) :: h). split; [exact RH|]. intros k y. now apply agree_lookup.
Qed.
Lemma parse_errors_number w d e ln n : parse_raster w d e ln = inr (BatchScriptParseError n) -> n = ln.
Proof.
  unfold Batch.parse_raster. destruct (re_match func_pattern e) as [[|f [|a [|]]]|]; try (intros [= <-]; reflexivity).
  assert (G : forall x, get_raster w d x = inr (BatchScriptParseError n) -> n = ln).
  { intros x. unfold Batch.get_raster. destruct (lookup R d x); [discriminate|]. destruct (open_raster _ _); discriminate. }
  assert (O : forall x, operand R W open_raster py_float location w d x = inr (BatchScriptParseError n) -> n = ln).
  { intros x. unfold operand. destruct (py_float x); [discriminate|]. destruct (get_raster w d x) eqn:E; cbn; [discriminate|]. intros [= ->]. eauto. }
  assert (AE : forall A B (x : outcome A) (k : A -> outcome B), andthen x k = inr (BatchScriptParseError n) ->
     x = inr (BatchScriptParseError n) \/ exists y, k y = inr (BatchScriptParseError n)).
  { intros A B [y|er] k H; [right; eauto|left; cbn in H; congruence]. }
  assert (OE : forall A (x : option A) er, orelse x er = inr (BatchScriptParseError n) -> er = BatchScriptParseError n).
  { intros A [y|] er; cbn; congruence. }
  assert (ME : forall A B (f : A -> outcome B) l, mapO f l = inr (BatchScriptParseError n) -> exists y, f y = inr (BatchScriptParseError n)).
  { intros A B g l. induction l as [|y l IH]; cbn [mapO]; [discriminate|]. intros H. apply AE in H. destruct H as [H|(z & H)]; [eauto|].
    apply AE in H. destruct H as [H|(z' & H)]; [auto|discriminate]. }
  unfold func_to_parser. cbn [find].
  repeat match goal with |- context [if chars_eqb ?x ?y then _ else _] => destruct (chars_eqb x y) end; cbv iota beta; try (intros [= <-]; reflexivity).
  - unfold parse_arithmetic. destruct (split_strip a ";") as [|? [|? [|? [|]]]]; try discriminate. intros H.
    apply AE in H. destruct H as [H|(? & H)]; [apply OE in H; discriminate|]. apply AE in H. destruct H as [H|(? & H)]; [apply OE in H; congruence|].
    apply AE in H. destruct H as [H|(? & H)]; [eauto|]. apply AE in H. destruct H as [H|(? & H)]; [eauto|discriminate].
  - unfold parse_composite. intros H. apply AE in H. destruct H as [H|(rs & H)]; [apply ME in H; destruct H; eauto|].
    destruct (len rs <? 2); [congruence|]. apply AE in H. destruct H as [H|(? & H)]; [apply OE in H; discriminate|discriminate].
  - unfold parse_null_to_value. destruct (split_strip a ";") as [|? rest]; [discriminate|]. destruct (1 <? len rest); [congruence|]. destruct rest; [discriminate|].
    intros H. apply AE in H. destruct H as [H|(? & H)]; [apply OE in H; discriminate|]. apply AE in H. destruct H as [H|(? & H)]; [eauto|].
    apply AE in H. destruct H as [H|(? & H)]; [apply OE in H; discriminate|discriminate].
  - unfold parse_open. destruct (get_raster w d a); [discriminate|]. congruence.
  - unfold parse_remap. destruct (split_strip a ";") as [|? rest]; [discriminate|]. destruct (1 <? len rest); [congruence|]. destruct rest as [|gs rest]; [discriminate|].
    intros H. apply AE in H. destruct H as [H|(rm & H)].
    + apply ME in H. destruct H as (g & H). unfold remap_group in H. apply AE in H. destruct H as [H|(vs & H)].
      * apply ME in H. destruct H as (v & H). apply OE in H. congruence.
      * destruct vs as [|? [|? [|? [|]]]]; try congruence. destruct (num_leb _ _); congruence.
    + destruct rm; [congruence|]. apply AE in H. destruct H as [H|(? & H)]; [eauto|discriminate].
  - unfold parse_save. destruct (split_strip a ";") as [|? [|? [|? [|? ex]]]]; try congruence. intros H.
    apply AE in H. destruct H as [H|(? & H)]; [destruct ex; [discriminate|apply OE in H; discriminate]|].
    apply AE in H. destruct H as [H|(? & H)].
    { destruct ex as [|? [|? ?]]; try discriminate. apply AE in H. destruct H as [H|(? & H)]; [apply OE in H; discriminate|discriminate]. }
    apply AE in H. destruct H as [H|(? & H)].
    { destruct ex as [|? [|? [|? [|]]]]; try discriminate. apply AE in H. destruct H as [H|(? & H)]; [apply OE in H; discriminate|discriminate]. }
    destruct (3 <? len ex); [congruence|]. destruct (negb _); [congruence|]. apply AE in H. destruct H as [H|(? & H)]; [eauto|].
    apply OE in H. discriminate.
Qed.
Lemma error_line ls : forall ln w d last n, run_lines ls ln w d last = inr (BatchScriptParseError n) ->
  exists pre line post w1 d1 last1, ls = pre ++ line :: post /\ n = ln + len pre /\ run_lines pre ln w d last = inl (w1, d1, last1)
    /\ forall res, run_lines [line] n w1 d1 last1 <> inl res.
Proof.
  induction ls as [|line ls IH]; intros ln w d last n H; [discriminate|].
  assert (REC : forall w1 d1 last1, (forall l2, run_lines (line :: l2) ln w d last = run_lines l2 (ln + 1) w1 d1 last1) ->
     exists pre line' post w1 d1 last1, line :: ls = pre ++ line' :: post /\ n = ln + len pre /\ run_lines pre ln w d last = inl (w1, d1, last1)
       /\ forall res, run_lines [line'] n w1 d1 last1 <> inl res).
  { intros w1 d1 last1 E. rewrite E in H. destruct (IH _ _ _ _ _ H) as (pre & l' & post & w2 & d2 & last2 & -> & -> & E2 & N).
    exists (line :: pre), l', post, w2, d2, last2. split; [reflexivity|]. split; [unfold len; cbn [Datatypes.length]; lia|]. split; [now rewrite E|exact N]. }
  cbn [Batch.run_lines] in *. destruct (split_strip line "#") as [|[|c0 s0] t] eqn:E0; [discriminate|apply (REC w d last); reflexivity|].
  destruct (split_strip (c0 :: s0) "=") as [|a [|b [|]]] eqn:E1; try discriminate.
  destruct (parse_raster w d b ln) as [[r w1]|er] eqn:E2; [apply (REC w1 (assign R d a r) (Some a)); reflexivity|].
  cbn [andthen] in H. injection H as ->. apply parse_errors_number in E2 as EN. subst n.
  exists [], line, ls, w, d, last. split; [reflexivity|]. split; [unfold len; cbn; lia|]. split; [reflexivity|].
  intros res. rewrite E0, E1, E2. discriminate.
Qed.
Lemma script_error content w n : parse_batch_script content w = inr (BatchScriptParseError n) ->
  exists pre line post w1 h1, file_lines [] content = pre ++ line :: post /\ n = len pre + 1 /\ runs pre w [] w1 h1
    /\ forall w2 h2, ~ runs [line] w1 h1 w2 h2.
Proof.
  assert (A0 : agree [] []) by (intros k; cbn; auto). unfold Batch.parse_batch_script. intros H.
  destruct (run_lines (file_lines [] content) 1 w [] None) as [[[w1 d1] last1]|er] eqn:E.
  - cbn [andthen] in H. destruct last1 as [k|]; [|discriminate]. destruct (lookup R d1 k); discriminate.
  - cbn [andthen] in H. injection H as ->. apply error_line in E. destruct E as (pre & line & post & w1 & d1 & last1 & E1 & -> & E2 & N).
    destruct (run_lines_sound _ _ _ _ [] _ _ _ _ A0 eq_refl E2) as (h & RH & A & L).
    exists pre, line, post, w1, h. split; [exact E1|]. split; [lia|]. split; [exact RH|]. intros w2 h2 K.
    destruct (run_lines_complete _ _ _ _ _ K (1 + len pre) d1 last1 A L) as (d' & H & _). exact (N _ H).
Qed.
Lemma agree_self (d : dict R) : agree d d.
Proof.
  intros k. induction d as [|[q x] d IH]; cbn [lookup]; [intros []|]. destruct (chars_eqb k q) eqn:E.
  - apply chars_eqb_spec in E. subst. exists [], d. split; [reflexivity|intros []].
  - assert (q <> k) by (intros ->; rewrite chars_eqb_refl in E; discriminate). destruct (lookup R d k) as [r|].
    + destruct IH as (l & e & -> & N). exists ((q, x) :: l), e. split; [reflexivity|]. cbn. intuition.
    + cbn. intuition.
Qed.
Lemma dead_functions w d f args ln r : letters f -> In (map capital f) (map lit ["ARITHMETIC"; "EXTRACTBAND"; "REMAP"; "SETNULL"]%string) ->
  parse_raster w d (f ++ "("%char :: args ++ [")"%char]) ln <> inl r.
Proof.
  intros L I H. destruct r as [r w']. assert (NF : f <> []) by (intros ->; cbn in I; intuition discriminate).
  pose proof (letters_trimmed f args L NF) as T. change (f ++ "("%char :: args ++ [")"%char]) with (call_text f args) in H.
  apply (parse_raster_spec _ _ d) in H; [|apply agree_self|exact T]. destruct H as (f' & a' & E & (L' & _) & C).
  assert (f' = f) as ->.
  { unfold call_text in E. apply letters_bool in L, L'. symmetry.
    apply split_first with (p := is_char "(") in E; [tauto|eapply Forall_impl; [|exact L]; exact letter_not_paren|eapply Forall_impl; [|exact L']; exact letter_not_paren|reflexivity|reflexivity]. }
  inversion C as [n r0 _ E1|ns t rs r0 _ _ _ _ E1|n v t r0 r1 q _ _ _ _ E1|n out dir path opts t r0 r1 w1 nodata block _ _ _ _ _ E1]; rewrite <- E1 in I; cbn in I; intuition discriminate.
Qed.
End Batch.
