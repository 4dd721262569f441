From Coq Require Import QArith Qpower Qfield Ascii String Lia ZifyBool ZifyNat.
From Verif Require Import Base BaseFacts Scalars ChunksProofs RasterStack RemapFile RemapFileSpec.
Open Scope Z_scope.

Ltac all_ascii c := destruct c as [[] [] [] [] [] [] [] []].
Lemma is_char_spec d c : is_char d c = true <-> c = d.
Proof. unfold is_char. rewrite Ascii.eqb_eq. split; congruence. Qed.
Lemma digit_char_digit d : 0 <= d <= 9 -> is_digit (digit_char d) = true /\ digit (digit_char d) = d.
Proof.
  intros H. assert (E : d = 0 \/ d = 1 \/ d = 2 \/ d = 3 \/ d = 4 \/ d = 5 \/ d = 6 \/ d = 7 \/ d = 8 \/ d = 9) by lia.
  destruct E as [->|[->|[->|[->|[->|[->|[->|[->|[->| ->]]]]]]]]]; split; reflexivity.
Qed.
Lemma is_digit_char c : is_digit c = true -> digit_char (digit c) = c /\ 0 <= digit c <= 9.
Proof. all_ascii c; intros H; try discriminate H; (split; [reflexivity|]); vm_compute; split; discriminate. Qed.
Lemma is_space_spec c : is_space c = true <-> space c.
Proof. unfold space. split; all_ascii c; vm_compute; intros H; auto 20; try discriminate; repeat (destruct H as [H|H]; [discriminate|]); destruct H. Qed.

Lemma digits_of s : Forall (fun c => is_digit c = true) s <-> exists ds, digits ds /\ s = digits_text ds.
Proof.
  split.
  - induction 1 as [|c s H F (ds & D & ->)]; [exists []; split; [constructor|reflexivity]|].
    destruct (is_digit_char c H) as [E R]. exists (digit c :: ds). split; [constructor; assumption|]. unfold digits_text. cbn [map]. rewrite E. reflexivity.
  - intros (ds & D & ->). unfold digits_text. induction D as [|d ds H D IH]; cbn; constructor; [apply digit_char_digit, H|exact IH].
Qed.
Lemma digits_value_text ds : digits ds -> forall a, digits_value a (digits_text ds) = fold_left (fun a d => 10 * a + d) ds a.
Proof.
  induction 1 as [|d ds H D IH]; intros a; [reflexivity|]. unfold digits_text. cbn [map digits_value fold_left]. unfold digits_text in IH. rewrite IH. rewrite (proj2 (digit_char_digit d H)). reflexivity.
Qed.
Definition no_digit_next (rest : chars) : Prop := match rest with [] => True | c :: _ => is_digit c = false end.
Lemma take_digits_text ds rest : digits ds -> no_digit_next rest -> take_digits (digits_text ds ++ rest) = (digits_text ds, rest).
Proof.
  induction 1 as [|d ds H D IH]; intros N.
  - cbn. destruct rest as [|c rest]; [reflexivity|]. cbn in N. cbn. rewrite N. reflexivity.
  - unfold digits_text. cbn [map app take_digits]. rewrite (proj1 (digit_char_digit d H)). unfold digits_text in IH. rewrite (IH N). reflexivity.
Qed.

(* ---- regular expressions ---- *)
Fixpoint lang (r : re) (m : chars) (g : list chars) : Prop :=
  match r with
  | RClass p => g = [] /\ exists c, m = [c] /\ p c = true
  | RStar p => g = [] /\ Forall (fun c => p c = true) m
  | RSeq r1 r2 => exists m1 m2 g1 g2, m = m1 ++ m2 /\ g = g1 ++ g2 /\ lang r1 m1 g1 /\ lang r2 m2 g2
  | RAlt r1 r2 => lang r1 m g \/ lang r2 m g
  | ROpt r => lang r m g \/ (m = [] /\ g = [])
  | RGroup r => exists g', g = m :: g' /\ lang r m g'
  end.
Lemma star_spec p s : forall m rest, In (m, rest) (star p s) <-> s = m ++ rest /\ Forall (fun c => p c = true) m.
Proof.
  induction s as [|c s IH]; intros m rest; cbn.
  - split.
    + intros [[= <- <-]|[]]. split; [reflexivity|constructor].
    + intros [E _]. symmetry in E. apply app_eq_nil in E. destruct E as [-> ->]. left. reflexivity.
  - destruct (p c) eqn:Ep.
    + rewrite in_app_iff, in_map_iff. split.
      * intros [([m' r'] & [= <- <-] & H)|[[= <- <-]|[]]].
        -- apply IH in H. destruct H as [-> F]. split; [reflexivity|constructor; assumption].
        -- split; [reflexivity|constructor].
      * intros [E F]. destruct m as [|d m]; cbn in E.
        -- right. left. congruence.
        -- injection E as <- E. left. exists (m, rest). split; [reflexivity|]. apply IH. inversion F; subst. split; [reflexivity|assumption].
    + split.
      * intros [[= <- <-]|[]]. split; [reflexivity|constructor].
      * intros [E F]. destruct m as [|d m]; cbn in E; [left; congruence|]. injection E as <- E. inversion F. congruence.
Qed.
Lemma matches_spec r : forall s m g rest, In (m, g, rest) (matches r s) <-> s = m ++ rest /\ lang r m g.
Proof.
  induction r as [p|p|r1 IH1 r2 IH2|r1 IH1 r2 IH2|r IH|r IH]; intros s m g rest; cbn [matches lang].
  - destruct s as [|c s].
    + split; [intros []|]. intros [E (_ & c & -> & _)]. discriminate E.
    + destruct (p c) eqn:Ep.
      * split.
        -- intros [[= <- <- <-]|[]]. split; [reflexivity|]. split; [reflexivity|]. eauto.
        -- intros [E (-> & d & -> & Hd)]. injection E as <- <-. left. reflexivity.
      * split; [intros []|]. intros [E (_ & d & -> & Hd)]. injection E as <- _. congruence.
  - rewrite in_map_iff. split.
    + intros ([m' r'] & [= <- <- <-] & H). apply star_spec in H. tauto.
    + intros (E & -> & F). exists (m, rest). split; [reflexivity|]. apply star_spec. tauto.
  - rewrite in_flat_map. split.
    + intros ([[m1 g1] s1] & H1 & H2). apply in_map_iff in H2. destruct H2 as ([[m2 g2] s2] & [= <- <- <-] & H2).
      apply IH1 in H1. apply IH2 in H2. destruct H1 as [-> L1]. destruct H2 as [-> L2]. split; [apply app_assoc|]. exists m1, m2, g1, g2. tauto.
    + intros (E & m1 & m2 & g1 & g2 & -> & -> & L1 & L2). exists (m1, g1, m2 ++ rest). split.
      * apply IH1. split; [rewrite app_assoc; exact E|exact L1].
      * apply in_map_iff. exists (m2, g2, rest). split; [reflexivity|]. apply IH2. split; [reflexivity|exact L2].
  - rewrite in_app_iff, IH1, IH2. tauto.
  - rewrite in_app_iff, IH. cbn [In]. split.
    + intros [[E L]|[[= <- <- <-]|[]]]; [tauto|]. split; [reflexivity|]. auto.
    + intros [E [L|[-> ->]]]; [tauto|]. right. left. cbn in E. congruence.
  - rewrite in_map_iff. split.
    + intros ([[m' g'] r'] & [= <- <- <-] & H). apply IH in H. destruct H as [E L]. split; [exact E|]. eauto.
    + intros (E & g' & -> & L). exists (m, g', rest). split; [reflexivity|]. apply IH. tauto.
Qed.
Lemma re_match_some r s g : re_match r s = Some g -> exists m rest, s = m ++ rest /\ at_end rest = true /\ lang r m g.
Proof.
  unfold re_match. destruct (find _ _) as [[[m g'] rest]|] eqn:E; [|discriminate]. intros [= <-].
  apply find_some in E. destruct E as [H1 H2]. apply matches_spec in H1. destruct H1 as [-> L]. eauto.
Qed.
Lemma re_match_exists r s g m : s = m -> lang r m g -> exists g', re_match r s = Some g'.
Proof.
  intros -> L. unfold re_match. destruct (find _ _) as [[[m' g'] rest]|] eqn:E; [eauto|].
  exfalso. assert (H : In (m, g, []) (matches r m)) by (apply matches_spec; rewrite app_nil_r; auto).
  apply (find_none _ _ E) in H. discriminate H.
Qed.

(* ---- numerals, possibly without mantissa ---- *)
Definition otext (s : sign) (m : option mantissa) (e : option exponent) : chars :=
  sign_text s ++ (match m with Some m => mantissa_text m | None => [] end) ++ exponent_text e.
Definition ook (m : option mantissa) (e : option exponent) : Prop := (match m with Some m => mantissa_ok m | None => True end) /\ exponent_ok e.
Lemma lang_sign m g : lang (ROpt (RClass is_sign)) m g <-> g = [] /\ exists s, m = sign_text s.
Proof.
  cbn. split.
  - intros [(-> & c & -> & H)|[-> ->]]; (split; [reflexivity|]); [|exists NoSign; reflexivity].
    apply orb_prop in H. destruct H as [H|H]; apply is_char_spec in H; subst; [exists Minus|exists Plus]; reflexivity.
  - intros (-> & [| |] & ->); [right; auto|left|left]; (split; [reflexivity|]); eexists; split; reflexivity.
Qed.
Lemma lang_plus m g : lang (RPlus is_digit) m g <-> g = [] /\ exists ds, digits ds /\ ds <> [] /\ m = digits_text ds.
Proof.
  cbn. split.
  - intros (m1 & m2 & g1 & g2 & -> & -> & (-> & c & -> & H) & -> & F). split; [reflexivity|].
    assert (F' : Forall (fun c => is_digit c = true) (c :: m2)) by (constructor; assumption).
    apply digits_of in F'. destruct F' as (ds & D & E). exists ds. split; [exact D|]. split; [|exact E]. intros ->. discriminate E.
  - intros (-> & ds & D & N & ->). destruct ds as [|d ds]; [contradiction|].
    assert (F : Forall (fun c => is_digit c = true) (digits_text (d :: ds))) by (apply digits_of; eauto).
    inversion F; subst. exists [digit_char d], (digits_text ds), [], []. repeat split; eauto.
Qed.
Lemma lang_exp m g : lang (ROpt (RSeq (RClass is_e) (RSeq (ROpt (RClass is_sign)) (RPlus is_digit)))) m g <-> g = [] /\ exists e, exponent_ok e /\ m = exponent_text e.
Proof.
  cbn [lang]. split.
  - intros [(m1 & m2 & g1 & g2 & -> & -> & (-> & c & -> & H) & m3 & m4 & g3 & g4 & -> & -> & L3 & L4)|[-> ->]].
    + apply lang_sign in L3. apply lang_plus in L4. destruct L3 as (-> & s & ->). destruct L4 as (-> & ds & D & N & ->). split; [reflexivity|].
      apply orb_prop in H. destruct H as [H|H]; apply is_char_spec in H; subst c; [exists (Some (Exponent false s ds))|exists (Some (Exponent true s ds))]; split; try reflexivity; split; assumption.
    + split; [reflexivity|]. exists None. split; [exact I|reflexivity].
  - intros (-> & [[cap s ds]|] & O & ->); [|right; auto]. left. destruct O as [D N]. cbn in D, N.
    exists [if cap then "E"%char else "e"%char], (sign_text s ++ digits_text ds), [], []. repeat split.
    + exists (if cap then "E"%char else "e"%char). split; [reflexivity|]. destruct cap; reflexivity.
    + exists (sign_text s), (digits_text ds), [], []. repeat split; [apply lang_sign; eauto|apply lang_plus; eauto].
Qed.
Definition mantissa_re : re :=
  RAlt (RSeq (RAlt (RClass (is_char "0")) (RSeq (RClass (fun c => is_digit c && negb (is_char "0" c))) (RStar is_digit)))
             (ROpt (RSeq (RClass (is_char ".")) (RStar is_digit))))
       (RSeq (RClass (is_char ".")) (RPlus is_digit)).
Lemma lang_mantissa m g : lang mantissa_re m g <-> g = [] /\ exists mt, mantissa_ok mt /\ m = mantissa_text mt.
Proof.
  unfold mantissa_re. split.
  - intros [L|L].
    + cbn [lang] in L. destruct L as (m1 & m2 & g1 & g2 & -> & -> & L1 & L2).
      assert (H1 : g1 = [] /\ exists ip, digits ip /\ (ip = [0] \/ exists d t, ip = d :: t /\ d <> 0) /\ m1 = digits_text ip).
      { destruct L1 as [(-> & c & -> & H)|(m3 & m4 & g3 & g4 & -> & -> & (-> & c & -> & H) & -> & F)].
        - apply is_char_spec in H. subst c. split; [reflexivity|]. exists [0]. split; [repeat constructor; lia|]. split; [left; reflexivity|reflexivity].
        - split; [reflexivity|]. apply andb_prop in H. destruct H as [H1 H2]. apply digits_of in F. destruct F as (ds & D & ->).
          destruct (is_digit_char c H1) as [E R]. exists (digit c :: ds). split; [constructor; assumption|]. split; [|unfold digits_text; cbn [map]; rewrite E; reflexivity].
          right. exists (digit c), ds. split; [reflexivity|]. intros E0. rewrite E0 in E. subst c. discriminate H2. }
      destruct H1 as (-> & ip & D & Z & ->). destruct L2 as [(m3 & m4 & g3 & g4 & -> & -> & (-> & c & -> & H) & -> & F)|[-> ->]].
      * apply is_char_spec in H. subst c. apply digits_of in F. destruct F as (fp & D2 & ->). split; [reflexivity|]. exists (Whole ip (Some fp)). split; [|reflexivity]. cbn. tauto.
      * split; [reflexivity|]. exists (Whole ip None). split; [cbn; tauto|]. cbn. apply app_nil_r.
    + cbn [lang] in L. destruct L as (m1 & m2 & g1 & g2 & -> & -> & (-> & c & -> & H) & L2). apply is_char_spec in H. subst c.
      apply lang_plus in L2. destruct L2 as (-> & fp & D & N & ->). split; [reflexivity|]. exists (Fraction fp). split; [split; assumption|reflexivity].
  - intros (-> & mt & O & ->). destruct mt as [ip fp|fp]; cbn [mantissa_ok] in O.
    + destruct O as (D & Z & F). left. cbn [lang].
      exists (digits_text ip), (match fp with Some fp => "."%char :: digits_text fp | None => [] end), [], []. split; [destruct fp; [reflexivity|symmetry; apply app_nil_r]|]. split; [reflexivity|]. split.
      * destruct Z as [->|(d & t & -> & N)].
        -- left. split; [reflexivity|]. exists "0"%char. split; reflexivity.
        -- right. inversion D as [|? ? D1 D2]; subst. exists [digit_char d], (digits_text t), [], []. repeat split.
           ++ exists (digit_char d). split; [reflexivity|]. destruct (digit_char_digit d D1) as [E1 E2]. rewrite E1. cbn [andb].
              destruct (is_char "0" (digit_char d)) eqn:E0; [|reflexivity]. exfalso. apply is_char_spec in E0. rewrite E0 in E2. apply N. rewrite <- E2. reflexivity.
           ++ apply digits_of. eauto.
      * destruct fp as [fp|]; [left|right; auto]. exists ["."%char], (digits_text fp), [], []. repeat split.
        -- exists "."%char. split; reflexivity.
        -- apply digits_of. eauto.
    + right. destruct O as [D N]. exists ["."%char], (digits_text fp), [], []. split; [reflexivity|]. split; [reflexivity|]. split.
      * split; [reflexivity|]. exists "."%char. split; reflexivity.
      * apply lang_plus. eauto.
Qed.
Lemma lang_number m g : lang int_or_float_re m g <-> g = [] /\ exists s mt e, ook mt e /\ m = otext s mt e.
Proof.
  change int_or_float_re with (RSeq (RSeq (ROpt (RClass is_sign)) (ROpt mantissa_re)) (ROpt (RSeq (RClass is_e) (RSeq (ROpt (RClass is_sign)) (RPlus is_digit))))).
  split.
  - intros (m1 & m2 & g1 & g2 & -> & -> & (m3 & m4 & g3 & g4 & -> & -> & L3 & L4) & L2).
    apply lang_sign in L3. apply lang_exp in L2. destruct L3 as (-> & s & ->). destruct L2 as (-> & e & Oe & ->).
    destruct L4 as [L4|[-> ->]].
    + apply lang_mantissa in L4. destruct L4 as (-> & mt & Om & ->). split; [reflexivity|]. exists s, (Some mt), e. split; [split; assumption|]. symmetry. apply app_assoc.
    + split; [reflexivity|]. exists s, None, e. split; [split; [exact I|assumption]|]. unfold otext. rewrite app_nil_r. reflexivity.
  - intros (-> & s & mt & e & [Om Oe] & ->). unfold otext. rewrite app_assoc.
    exists (sign_text s ++ match mt with Some m => mantissa_text m | None => [] end), (exponent_text e), [], []. split; [reflexivity|]. split; [reflexivity|]. split.
    + exists (sign_text s), (match mt with Some m => mantissa_text m | None => [] end), [], []. split; [reflexivity|]. split; [reflexivity|]. split; [apply lang_sign; eauto|].
      destruct mt as [mt|]; [left; apply lang_mantissa; eauto|right; auto].
    + apply lang_exp. eauto.
Qed.

(* ---- int() and float() of numerals ---- *)
Definition no_sign_next (rest : chars) : Prop := match rest with [] => True | c :: _ => is_sign c = false end.
Lemma take_sign_text s rest : no_sign_next rest -> take_sign (sign_text s ++ rest) = (sign_value s, rest).
Proof.
  destruct s; cbn [sign_text app sign_value]; try reflexivity. intros N. destruct rest as [|c rest]; [reflexivity|]. cbn [no_sign_next take_sign] in *.
  unfold is_sign in N. apply orb_false_elim in N. destruct N as [-> ->]. reflexivity.
Qed.
Lemma digit_char_other d : 0 <= d <= 9 ->
  is_sign (digit_char d) = false /\ is_e (digit_char d) = false /\ is_char "." (digit_char d) = false /\ is_space (digit_char d) = false /\ is_char ":" (digit_char d) = false.
Proof.
  intros H. assert (E : d = 0 \/ d = 1 \/ d = 2 \/ d = 3 \/ d = 4 \/ d = 5 \/ d = 6 \/ d = 7 \/ d = 8 \/ d = 9) by lia.
  destruct E as [->|[->|[->|[->|[->|[->|[->|[->|[->| ->]]]]]]]]]; repeat split; reflexivity.
Qed.
Lemma number_of_app a b : number_of (a ++ b) = number_of a * 10 ^ len b + number_of b.
Proof.
  unfold number_of. rewrite fold_left_app. generalize (fold_left (fun a d => 10 * a + d) a 0). clear a. intros a.
  assert (G : forall l x, fold_left (fun a d => 10 * a + d) l x = x * 10 ^ len l + fold_left (fun a d => 10 * a + d) l 0).
  { induction l as [|d l IH]; intros x.
    - cbn. lia.
    - cbn [fold_left]. rewrite IH, (IH (10 * 0 + d)). rewrite len_cons. rewrite (Z.add_comm 1), Z.pow_add_r by (pose proof (len_nonneg l); lia). ring. }
  apply G.
Qed.
Lemma len_text ds : len (digits_text ds) = len ds.
Proof. apply len_map. Qed.
Lemma exponent_next_digit e : no_digit_next (exponent_text e).
Proof. destruct e as [[[] s ds]|]; exact I || reflexivity. Qed.
Definition dot_text (fp : option (list Z)) : chars := match fp with Some fp => "."%char :: digits_text fp | None => [] end.
Definition fraction_digits (fp : option (list Z)) : list Z := match fp with Some fp => fp | None => [] end.
Definition fp_ok (fp : option (list Z)) : Prop := match fp with Some fp => digits fp | None => True end.
Lemma no_sign_text ds rest : digits ds -> no_sign_next rest -> no_sign_next (digits_text ds ++ rest).
Proof. intros D N. destruct D as [|d ds H D]; [exact N|]. cbn. apply digit_char_other, H. Qed.
Lemma py_decimal_text s ip fp e : digits ip -> fp_ok fp -> exponent_ok e ->
  py_decimal (sign_text s ++ digits_text ip ++ dot_text fp ++ exponent_text e) =
  match ip ++ fraction_digits fp with
  | [] => None
  | _ => Some (inject_Z (sign_value s * number_of (ip ++ fraction_digits fp)) * Qpower (10 # 1) (exponent_value e - len (fraction_digits fp)))%Q
  end.
Proof.
  intros Di Df Oe. unfold py_decimal.
  rewrite take_sign_text.
  2:{ apply no_sign_text; [exact Di|]. destruct fp; [reflexivity|]. destruct e as [[[] ? ?]|]; exact I || reflexivity. }
  rewrite take_digits_text.
  2: exact Di.
  2:{ destruct fp; [reflexivity|]. apply exponent_next_digit. }
  assert (F : match dot_text fp ++ exponent_text e with
    | [] => ([], [])
    | c :: s' => if is_char "." c then take_digits s' else ([], dot_text fp ++ exponent_text e)
    end = (digits_text (fraction_digits fp), exponent_text e)).
  { destruct fp as [fp|].
    - cbn [dot_text app]. rewrite take_digits_text; [reflexivity|exact Df|apply exponent_next_digit].
    - cbn [dot_text app fraction_digits digits_text map]. destruct e as [[[] ? ?]|]; reflexivity. }
  rewrite F. clear F.
  assert (X : match exponent_text e with
     | [] => (0, true, [])
     | c :: s' => if is_e c then let '(esg, s'0) := take_sign s' in let '(ed, rest) := take_digits s'0 in
                   (esg * digits_value 0 ed, match ed with [] => false | _ :: _ => true end, rest)
                  else (0, true, exponent_text e)
     end = (exponent_value e, true, [])).
  { destruct e as [[cap es ed]|]; [|reflexivity]. destruct Oe as [De Ne]. cbn [e_digits] in De, Ne. cbn [exponent_text e_capital e_sign e_digits].
    replace (is_e (if cap then "E" else "e")%char) with true by (destruct cap; reflexivity).
    rewrite take_sign_text by (rewrite <- (app_nil_r (digits_text ed)); apply no_sign_text; [exact De|exact I]).
    rewrite <- (app_nil_r (digits_text ed)), take_digits_text by (exact De || exact I). rewrite digits_value_text by exact De.
    destruct ed; [contradiction|]. reflexivity. }
  rewrite X. clear X. unfold digits_text. rewrite <- map_app. fold (digits_text (ip ++ fraction_digits fp)). fold (digits_text (fraction_digits fp)).
  rewrite digits_value_text, len_text.
  2:{ apply Forall_app. split; [exact Di|]. destruct fp; [exact Df|constructor]. }
  destruct (ip ++ fraction_digits fp); reflexivity.
Qed.
Lemma decimal_value sv ip fp ex :
  (inject_Z (sv * number_of (ip ++ fp)) * Qpower (10 # 1) (ex - len fp) ==
   inject_Z sv * (inject_Z (number_of ip) + fraction_value fp) * Qpower (10 # 1) ex)%Q.
Proof.
  unfold fraction_value. rewrite number_of_app. rewrite !inject_Z_mult, inject_Z_plus, inject_Z_mult. rewrite (Zpower_Qpower 10) by apply len_nonneg.
  unfold Z.sub. rewrite Qpower_plus by (intros H; discriminate H). rewrite Qpower_opp.
  change (inject_Z 10) with (10 # 1). assert (N : (~ Qpower (10 # 1) (len fp) == 0)%Q) by (apply Qpower_not_0; intros H; discriminate H).
  field. exact N.
Qed.

Section Float.
Variable to_float : Q -> num.
Hypothesis to_float_proper : forall p q, (p == q)%Q -> to_float p = to_float q.

Definition dot_or_e (c : ascii) : bool := is_char "." c || is_char "e" c || is_char "E" c.
Lemma dot_or_e_digits ds : digits ds -> existsb dot_or_e (digits_text ds) = false.
Proof.
  induction 1 as [|d ds H D IH]; [reflexivity|]. unfold digits_text. cbn [map existsb]. unfold digits_text in IH. rewrite IH.
  destruct (digit_char_other d H) as (_ & E1 & E2 & _). unfold dot_or_e. rewrite E2. unfold is_e in E1. apply orb_false_elim in E1. destruct E1 as [-> ->]. reflexivity.
Qed.
Lemma str_value_text s mt e : ook mt e ->
  str_to_float_or_int to_float (otext s mt e) = match mt with Some m => Some (numeral_value to_float (Numeral s m e)) | None => None end.
Proof.
  intros [Om Oe]. unfold str_to_float_or_int. change (fun c => is_char "." c || is_char "e" c || is_char "E" c) with dot_or_e.
  unfold otext. rewrite !existsb_app.
  replace (existsb dot_or_e (sign_text s)) with false by (destruct s; reflexivity). cbn [orb].
  assert (X : existsb dot_or_e (exponent_text e) = match e with Some _ => true | None => false end) by (destruct e as [[[] ? ?]|]; reflexivity).
  rewrite X. clear X.
  assert (PD : forall ip fp, digits ip -> fp_ok fp -> ip ++ fraction_digits fp <> [] -> forall q,
     (q == inject_Z (sign_value s) * (inject_Z (number_of ip) + fraction_value (fraction_digits fp)) * Qpower (10 # 1) (exponent_value e))%Q ->
     option_map to_float (py_decimal (sign_text s ++ digits_text ip ++ dot_text fp ++ exponent_text e)) = Some (to_float q)).
  { intros ip fp Di Df N q Eq. rewrite py_decimal_text by assumption. destruct (ip ++ fraction_digits fp) eqn:E; [contradiction|].
    cbn [option_map]. f_equal. apply to_float_proper. rewrite Eq, <- E. apply decimal_value. }
  destruct mt as [[ip fp|fp]|].
  - destruct Om as (Di & Zd & Df). assert (Ni : ip <> []) by (destruct Zd as [->|(? & ? & -> & _)]; discriminate).
    assert (N : ip ++ fraction_digits fp <> []) by (destruct ip; [contradiction|discriminate]).
    destruct fp as [fp|].
    + cbn [mantissa_text]. rewrite existsb_app, (dot_or_e_digits ip Di). cbn [existsb orb]. replace (dot_or_e ".") with true by reflexivity. cbn [orb].
      rewrite <- app_assoc. change ("."%char :: digits_text fp) with (dot_text (Some fp)). rewrite (PD ip (Some fp) Di Df N (inject_Z (sign_value s) * (inject_Z (number_of ip) + fraction_value fp) * (10 # 1) ^ exponent_value e)%Q) by reflexivity.
      reflexivity.
    + cbn [mantissa_text]. rewrite (dot_or_e_digits ip Di). cbn [orb]. destruct e as [e|].
      * change (digits_text ip ++ exponent_text (Some e)) with (digits_text ip ++ dot_text None ++ exponent_text (Some e)). rewrite (PD ip None Di I N (inject_Z (sign_value s) * inject_Z (number_of ip) * (10 # 1) ^ exponent_value (Some e))%Q); [reflexivity|].
        cbn [fraction_digits]. unfold fraction_value. replace (inject_Z (number_of []) / (10 # 1) ^ len (@nil Z))%Q with 0%Q by reflexivity. rewrite Qplus_0_r. reflexivity.
      * cbn [exponent_text]. rewrite app_nil_r. unfold py_int. rewrite take_sign_text by (rewrite <- (app_nil_r (digits_text ip)); apply no_sign_text; [exact Di|exact I]).
        rewrite <- (app_nil_r (digits_text ip)), take_digits_text by (exact Di || exact I). rewrite digits_value_text by exact Di. destruct ip; [contradiction|]. reflexivity.
  - destruct Om as [Df N]. cbn [mantissa_text existsb orb]. replace (dot_or_e ".") with true by reflexivity. cbn [orb].
    change (sign_text s ++ ("."%char :: digits_text fp) ++ exponent_text e) with (sign_text s ++ digits_text [] ++ dot_text (Some fp) ++ exponent_text e).
    rewrite (PD [] (Some fp) (Forall_nil _) Df N (inject_Z (sign_value s) * fraction_value fp * (10 # 1) ^ exponent_value e)%Q); [reflexivity|].
    cbn [fraction_digits]. replace (inject_Z (number_of [])) with 0%Q by reflexivity. rewrite Qplus_0_l. reflexivity.
  - cbn [existsb orb app]. destruct e as [e|].
    + change (sign_text s ++ exponent_text (Some e)) with (sign_text s ++ digits_text [] ++ dot_text None ++ exponent_text (Some e)).
      rewrite py_decimal_text; [reflexivity|constructor|exact I|exact Oe].
    + destruct s; reflexivity.
Qed.

(* ---- lines ---- *)
Lemma number_chars s mt e : ook mt e -> Forall (fun c => is_space c = false /\ is_char ":" c = false) (otext s mt e).
Proof.
  intros [Om Oe]. assert (D : forall ds, digits ds -> Forall (fun c => is_space c = false /\ is_char ":" c = false) (digits_text ds)).
  { induction 1 as [|d ds H D IH]; constructor; [|exact IH]. destruct (digit_char_other d H) as (_ & _ & _ & A & B). auto. }
  assert (Sg : forall s, Forall (fun c => is_space c = false /\ is_char ":" c = false) (sign_text s)) by (destruct s0; repeat constructor).
  unfold otext. apply Forall_app. split; [apply Sg|]. apply Forall_app. split.
  - destruct mt as [[ip [fp|]|fp]|]; cbn [mantissa_ok mantissa_text] in *.
    + apply Forall_app. split; [apply D; tauto|]. constructor; [split; reflexivity|apply D; tauto].
    + apply D; tauto.
    + constructor; [split; reflexivity|apply D; tauto].
    + constructor.
  - destruct e as [[cap es ed]|]; [|constructor]. constructor; [destruct cap; split; reflexivity|]. apply Forall_app. split; [apply Sg|apply D, Oe].
Qed.
Lemma split_first {A} (p : A -> bool) a c b a' c' b' : Forall (fun x => p x = false) a -> Forall (fun x => p x = false) a' -> p c = true -> p c' = true ->
  a ++ c :: b = a' ++ c' :: b' -> a = a' /\ b = b'.
Proof.
  intros F. revert a'. induction F as [|x a Hx F IH]; intros a' F' Hc Hc' E; destruct F' as [|y a' Hy F']; cbn in E; injection E as E1 E2.
  - auto.
  - congruence.
  - congruence.
  - destruct (IH a' F' Hc Hc' E2) as [-> ->]. split; congruence.
Qed.
Lemma spaces_bool w : spaces w <-> Forall (fun c => is_space c = true) w.
Proof. unfold spaces. split; apply Forall_impl; intros c; apply is_space_spec. Qed.
Definition visible (s : chars) : chars := filter (fun c => negb (is_space c)) s.
Lemma visible_spaces w : spaces w -> visible w = [].
Proof. intros H. apply spaces_bool in H. induction H as [|c w H F IH]; [reflexivity|]. cbn. rewrite H. exact IH. Qed.
Lemma visible_id s : Forall (fun c => is_space c = false) s -> visible s = s.
Proof. induction 1 as [|c s H F IH]; [reflexivity|]. cbn. rewrite H. cbn. f_equal. exact IH. Qed.
Lemma visible_mid w f w' : spaces w -> spaces w' -> Forall (fun c => is_space c = false) f -> visible (w ++ f ++ w') = f.
Proof. intros H1 H2 F. unfold visible. rewrite !filter_app. fold (visible w). fold (visible f). fold (visible w'). rewrite (visible_spaces w), (visible_spaces w'), (visible_id f) by assumption. apply app_nil_r. Qed.
Lemma space_not_colon w : spaces w -> Forall (fun c => is_char ":" c = false) w.
Proof.
  intros H. apply spaces_bool in H. revert H. apply Forall_impl. intros c H. destruct (is_char ":" c) eqn:E; [|reflexivity]. apply is_char_spec in E. subst c. discriminate H.
Qed.
(* the texts allowed by the regular expression *)
Inductive to_text : chars -> Prop :=
| TT s mt e : ook mt e -> to_text (otext s mt e)
| TNull : to_text (list_ascii_of_string "NoData").
Inductive line_shape : chars -> chars -> chars -> Prop :=
| LShape w1 w2 w3 w4 s mt e t : spaces w1 -> spaces w2 -> spaces w3 -> spaces w4 -> ook mt e -> to_text t ->
    line_shape (w1 ++ otext s mt e ++ w2 ++ ":"%char :: w3 ++ t ++ w4) (otext s mt e) t.
Lemma lang_str m g : lang (RStr "NoData") m g <-> g = [] /\ m = list_ascii_of_string "NoData".
Proof.
  cbn [RStr lang]. split.
  - intros (m1 & m2 & g1 & g2 & -> & -> & (-> & c & -> & H1) & m3 & m4 & g3 & g4 & -> & -> & (-> & c2 & -> & H2) & m5 & m6 & g5 & g6 & -> & -> & (-> & c3 & -> & H3) & m7 & m8 & g7 & g8 & -> & -> & (-> & c4 & -> & H4) & m9 & ma & g9 & ga & -> & -> & (-> & c5 & -> & H5) & -> & c6 & -> & H6).
    apply is_char_spec in H1, H2, H3, H4, H5, H6. subst. split; reflexivity.
  - intros [-> ->]. do 5 (eexists [_], _, [], []; split; [reflexivity|]; split; [reflexivity|]; split; [split; [reflexivity|]; eexists; split; [reflexivity|reflexivity]|]).
    split; [reflexivity|]. eexists. split; reflexivity.
Qed.
Lemma lang_spaces m g : lang (RStar is_space) m g <-> g = [] /\ spaces m.
Proof. cbn. rewrite spaces_bool. tauto. Qed.
Lemma lang_to m g : lang (RGroup (RAlt int_or_float_re (RStr "NoData"))) m g <-> g = [m] /\ to_text m.
Proof.
  change (lang (RGroup (RAlt int_or_float_re (RStr "NoData"))) m g) with (exists g', g = m :: g' /\ (lang int_or_float_re m g' \/ lang (RStr "NoData") m g')).
  split.
  - intros (g' & -> & [L|L]).
    + apply lang_number in L. destruct L as (-> & s & mt & e & O & ->). split; [reflexivity|constructor; exact O].
    + apply lang_str in L. destruct L as [-> ->]. split; [reflexivity|constructor].
  - intros [-> T]. exists []. split; [reflexivity|]. destruct T as [s mt e O|]; [left; apply lang_number; eauto 6|right; apply lang_str; auto].
Qed.
Lemma lang_line m g : lang remapping_line_pattern m g <-> exists f t, g = [f; t] /\ line_shape m f t.
Proof.
  unfold remapping_line_pattern. split.
  - intros (w1 & m1 & g1 & h1 & -> & -> & L1 & f & m2 & g2 & h2 & -> & -> & (gf & -> & L2) & w2 & m3 & g3 & h3 & -> & -> & L3 & m4 & m5 & g4 & h4 & -> & -> & (-> & c & -> & Hc) & w3 & m6 & g6 & h6 & -> & -> & L6 & t & w4 & g7 & h7 & -> & -> & L7 & L8).
    apply is_char_spec in Hc. subst c. apply lang_spaces in L1, L3, L6, L8. apply lang_number in L2. apply lang_to in L7.
    destruct L1 as [-> W1], L3 as [-> W2], L6 as [-> W3], L8 as [-> W4], L7 as [-> T], L2 as (-> & s & mt & e & O & ->).
    exists (otext s mt e), t. split; [reflexivity|]. cbn [app]. constructor; assumption.
  - intros (f & t & -> & L). destruct L as [w1 w2 w3 w4 s mt e t W1 W2 W3 W4 O T].
    exists w1, (otext s mt e ++ w2 ++ ":"%char :: w3 ++ t ++ w4), [], [otext s mt e; t]. split; [reflexivity|]. split; [reflexivity|]. split; [apply lang_spaces; auto|].
    exists (otext s mt e), (w2 ++ ":"%char :: w3 ++ t ++ w4), [otext s mt e], [t]. split; [reflexivity|]. split; [reflexivity|]. split.
    { exists []. split; [reflexivity|]. apply lang_number. eauto 6. }
    exists w2, (":"%char :: w3 ++ t ++ w4), [], [t]. split; [reflexivity|]. split; [reflexivity|]. split; [apply lang_spaces; auto|].
    exists [":"%char], (w3 ++ t ++ w4), [], [t]. split; [reflexivity|]. split; [reflexivity|]. split; [split; [reflexivity|]; exists ":"%char; split; reflexivity|].
    exists w3, (t ++ w4), [], [t]. split; [reflexivity|]. split; [reflexivity|]. split; [apply lang_spaces; auto|].
    exists t, w4, [t], []. split; [reflexivity|]. split; [reflexivity|]. split; [apply lang_to; auto|apply lang_spaces; auto].
Qed.
Lemma to_text_visible t : to_text t -> Forall (fun c => is_space c = false) t.
Proof.
  intros [s mt e O|]; [|repeat constructor]. apply (Forall_impl _ (fun c H => proj1 H) (number_chars s mt e O)).
Qed.
Lemma line_shape_unique l f t f' t' : line_shape l f t -> line_shape l f' t' -> f = f' /\ t = t'.
Proof.
  assert (V : forall l f t, line_shape l f t -> exists a b, l = a ++ ":"%char :: b /\ Forall (fun c => is_char ":" c = false) a /\ visible a = f /\ visible b = t).
  { clear. intros l f t [w1 w2 w3 w4 s mt e t' W1 W2 W3 W4 O T]. exists (w1 ++ otext s mt e ++ w2), (w3 ++ t' ++ w4).
    pose proof (number_chars s mt e O) as N. split; [rewrite <- !app_assoc; reflexivity|]. split; [|split].
    - apply Forall_app. split; [apply space_not_colon, W1|]. apply Forall_app. split; [|apply space_not_colon, W2]. apply (Forall_impl _ (fun c H => proj2 H) N).
    - apply visible_mid; [exact W1|exact W2|]. apply (Forall_impl _ (fun c H => proj1 H) N).
    - apply visible_mid; [exact W3|exact W4|]. apply to_text_visible, T. }
  intros H H'. destruct (V _ _ _ H) as (a & b & E & F & <- & <-). destruct (V _ _ _ H') as (a' & b' & E' & F' & <- & <-).
  assert (X : a = a' /\ b = b'). { apply (split_first (is_char ":") a ":"%char b a' ":"%char b' F F' eq_refl eq_refl). congruence. }
  destruct X as [-> ->]. auto.
Qed.
(* lines that do not end with space *)
Definition ends_visible (l : chars) : Prop := exists a c, l = a ++ [c] /\ is_space c = false.
Lemma re_match_line l : ends_visible l -> match re_match remapping_line_pattern l with
  | Some g => exists f t, g = [f; t] /\ line_shape l f t
  | None => forall f t, ~ line_shape l f t
  end.
Proof.
  intros (a & c & E & Hc). destruct (re_match remapping_line_pattern l) as [g|] eqn:M.
  - apply re_match_some in M. destruct M as (m & rest & El & Ha & L). apply lang_line in L.
    assert (R : rest = []).
    { destruct rest as [|d [|? ?]]; [reflexivity| |discriminate Ha]. exfalso. cbn [at_end] in Ha. apply is_char_spec in Ha. subst d. rewrite E in El. apply app_inj_tail in El. destruct El as [_ ->]. discriminate Hc. }
    subst rest. rewrite app_nil_r in El. subst m. exact L.
  - intros f t H. destruct (re_match_exists remapping_line_pattern l [f; t] l eq_refl) as [g' G]; [apply lang_line; eauto|]. congruence.
Qed.
Lemma otext_nil s mt e : otext s mt e = [] -> mt = None \/ exists ip fp, mt = Some (Whole ip fp) /\ ip = [].
Proof.
  unfold otext. intros H. apply app_eq_nil in H. destruct H as [_ H]. apply app_eq_nil in H. destruct H as [H _].
  destruct mt as [[[|i ip] [fp|]|fp]|]; cbn in H; try discriminate; eauto.
Qed.
Lemma numeral_nonempty n : numeral_ok n -> exists c t, numeral_text n = c :: t.
Proof.
  intros [Om Oe]. destruct n as [s m e]. cbn in Om, Oe. destruct (numeral_text (Numeral s m e)) eqn:E; [|eauto]. exfalso.
  change (otext s (Some m) e = []) in E. apply otext_nil in E. destruct E as [E|(ip & fp & [= ->] & ->)]; [discriminate|].
  destruct Om as (_ & [O|(? & ? & O & _)] & _); discriminate O.
Qed.
Lemma otext_nodata s mt e : ook mt e -> otext s mt e <> list_ascii_of_string "NoData".
Proof.
  intros [Om Oe] H. destruct s; [|discriminate H|discriminate H]. cbn in H. unfold otext in H. cbn [sign_text app] in H.
  destruct mt as [[ip fp|fp]|].
  - destruct Om as (D & Z & _). destruct ip as [|d ip]; [destruct Z as [Z|(? & ? & Z & _)]; discriminate Z|].
    assert (E : digit_char d = "N"%char) by (destruct fp; cbn in H; injection H as H _; exact H).
    inversion D as [|? ? D1 _]; subst. pose proof (proj1 (digit_char_digit d D1)) as X. rewrite E in X. discriminate X.
  - discriminate H.
  - destruct e as [[[] ? ?]|]; discriminate H.
Qed.
Lemma parse_line_spec l e : ends_visible l -> (parse_line to_float l = inl e <-> documented_line to_float l e).
Proof.
  intros V. pose proof (re_match_line l V) as M. unfold parse_line. split.
  - destruct (re_match remapping_line_pattern l) as [g|]; [|discriminate]. destruct M as (f & t & -> & L).
    destruct L as [w1 w2 w3 w4 s mt ex t W1 W2 W3 W4 O T]. pose proof (str_value_text s mt ex O) as Vf.
    destruct (otext s mt ex) as [|c f] eqn:Ef; [discriminate|]. destruct t as [|d t]; [discriminate|]. rewrite Vf.
    destruct mt as [mt|]; [|discriminate]. rewrite <- Ef.
    change (otext s (Some mt) ex) with (numeral_text (Numeral s mt ex)).
    unfold chars_eqb. destruct (list_eq_dec ascii_dec (d :: t) (list_ascii_of_string "NoData")) as [E|N].
    + intros [= <-]. rewrite E. constructor; try assumption. constructor.
    + assert (X : exists s' mt' ex', ook mt' ex' /\ d :: t = otext s' mt' ex') by (inversion T as [s' mt' ex' O' E|E]; [eauto 6|exfalso; apply N; subst; reflexivity]).
      destruct X as (s' & mt' & ex' & O' & E). rewrite E. rewrite (str_value_text s' mt' ex' O'). destruct mt' as [mt'|]; [|discriminate].
      intros [= <-]. change (otext s' (Some mt') ex') with (numeral_text (Numeral s' mt' ex')). constructor; try assumption. constructor. exact O'.
  - intros D. assert (L : exists f t, line_shape l f t /\ f <> [] /\ t <> [] /\ str_to_float_or_int to_float f = Some (fst e) /\
      (if chars_eqb t (list_ascii_of_string "NoData") then snd e = None else exists v, str_to_float_or_int to_float t = Some v /\ snd e = Some v)).
    { destruct D as [w1 w2 w3 w4 a t v W1 W2 W3 W4 Oa T]. destruct a as [s mt ex]. exists (otext s (Some mt) ex), t. split; [|split; [|split; [|split]]].
      - apply (LShape w1 w2 w3 w4 s (Some mt) ex t W1 W2 W3 W4 Oa). destruct T as [[s' mt' ex'] O'|]; [apply (TT s' (Some mt') ex'), O'|constructor].
      - destruct (numeral_nonempty _ Oa) as (? & ? & E). change (otext s (Some mt) ex) with (numeral_text (Numeral s mt ex)). rewrite E. discriminate.
      - destruct T as [n O'|]; [|discriminate]. destruct (numeral_nonempty _ O') as (? & ? & E). rewrite E. discriminate.
      - rewrite (str_value_text s (Some mt) ex Oa). reflexivity.
      - unfold chars_eqb. destruct T as [[s' mt' ex'] O'|].
        + destruct (list_eq_dec ascii_dec _ _) as [E|N]; [exfalso; apply (otext_nodata s' (Some mt') ex' O' E)|].
          exists (numeral_value to_float (Numeral s' mt' ex')). split; [apply (str_value_text s' (Some mt') ex' O')|reflexivity].
        + destruct (list_eq_dec ascii_dec _ _) as [E|N]; [reflexivity|contradiction]. }
    destruct L as (f & t & L & Nf & Nt & Vf & Vt). destruct (re_match remapping_line_pattern l) as [g|]; [|destruct (M f t L)].
    destruct M as (f' & t' & -> & L'). destruct (line_shape_unique _ _ _ _ _ L L') as [<- <-].
    destruct f as [|c f]; [contradiction|]. destruct t as [|d t]; [contradiction|]. rewrite Vf. destruct e as [k v]. cbn [fst snd] in *.
    destruct (chars_eqb _ _); [rewrite Vt; reflexivity|]. destruct Vt as (x & -> & ->). reflexivity.
Qed.

(* ---- strip ---- *)
Lemma lstrip_split s : exists w, spaces w /\ s = w ++ lstrip s.
Proof.
  induction s as [|c s (w & W & E)]; [exists []; split; [constructor|reflexivity]|]. cbn. destruct (is_space c) eqn:H.
  - exists (c :: w). split; [constructor; [apply is_space_spec, H|exact W]|]. cbn. congruence.
  - exists []. split; [constructor|reflexivity].
Qed.
Lemma lstrip_head s c t : lstrip s = c :: t -> is_space c = false.
Proof. induction s as [|d s IH]; [discriminate|]. cbn. destruct (is_space d) eqn:E; [exact IH|]. intros [= <- _]. exact E. Qed.
Lemma lstrip_spaces w s : spaces w -> lstrip (w ++ s) = lstrip s.
Proof. intros H. apply spaces_bool in H. induction H as [|c w H F IH]; [reflexivity|]. cbn. rewrite H. exact IH. Qed.
Lemma spaces_rev w : spaces w -> spaces (rev w).
Proof. intros H. apply Forall_rev, H. Qed.
Lemma strip_split s : exists u w, spaces u /\ spaces w /\ s = u ++ strip s ++ w.
Proof.
  destruct (lstrip_split s) as (u & U & E). destruct (lstrip_split (rev (lstrip s))) as (w & W & E2).
  exists u, (rev w). split; [exact U|]. split; [apply spaces_rev, W|]. rewrite E at 1. f_equal. unfold strip.
  rewrite <- rev_app_distr, <- E2. symmetry. apply rev_involutive.
Qed.
Lemma strip_ends s : strip s <> [] -> ends_visible (strip s).
Proof.
  unfold strip. destruct (lstrip (rev (lstrip s))) as [|c t] eqn:E; [intros H; contradiction|]. intros _. apply lstrip_head in E. exists (rev t), c. split; [reflexivity|exact E].
Qed.
Lemma strip_spaces w : spaces w -> strip w = [].
Proof. intros H. unfold strip. pose proof (lstrip_spaces w [] H) as E. rewrite app_nil_r in E. rewrite E. reflexivity. Qed.
Lemma strip_nil s : strip s = [] -> spaces s.
Proof. intros H. destruct (strip_split s) as (u & w & U & W & E). rewrite E, H. apply Forall_app. auto. Qed.
Lemma lstrip_visible c x : is_space c = false -> lstrip (c :: x) = c :: x.
Proof. intros H. cbn. rewrite H. reflexivity. Qed.
Lemma strip_core w x w' c t : spaces w -> spaces w' -> x = c :: t -> is_space c = false -> ends_visible x -> strip (w ++ x ++ w') = x.
Proof.
  intros W W' -> Hc (a & d & E & Hd). unfold strip. rewrite lstrip_spaces by exact W. cbn [app]. rewrite lstrip_visible by exact Hc.
  change (c :: t ++ w') with ((c :: t) ++ w'). rewrite rev_app_distr, lstrip_spaces by (apply spaces_rev, W'). rewrite E, rev_app_distr. cbn [rev app].
  rewrite lstrip_visible by exact Hd. cbn [rev]. rewrite rev_involutive. reflexivity.
Qed.
Lemma ends_app a b : ends_visible b -> ends_visible (a ++ b).
Proof. intros (x & c & -> & H). exists (a ++ x), c. split; [apply app_assoc|exact H]. Qed.
Lemma visible_ends x : x <> [] -> Forall (fun c => is_space c = false) x -> ends_visible x.
Proof. intros N F. destruct (exists_last N) as (a & c & ->). exists a, c. split; [reflexivity|]. apply Forall_app in F. destruct F as [_ F]. inversion F; assumption. Qed.
Lemma target_ends t v : target to_float t v -> ends_visible t.
Proof.
  intros T. apply visible_ends.
  - destruct T as [n O|]; [|discriminate]. destruct (numeral_nonempty n O) as (? & ? & ->). discriminate.
  - apply to_text_visible. destruct T as [[s m e] O|]; [apply (TT s (Some m) e), O|constructor].
Qed.
Lemma documented_strip l e : documented_line to_float (strip l) e <-> documented_line to_float l e.
Proof.
  split.
  - destruct (strip_split l) as (u & w & U & W & E). intros D. rewrite E. destruct D as [w1 w2 w3 w4 a t v W1 W2 W3 W4 Oa T].
    replace (u ++ (w1 ++ numeral_text a ++ w2 ++ ":"%char :: w3 ++ t ++ w4) ++ w) with ((u ++ w1) ++ numeral_text a ++ w2 ++ ":"%char :: w3 ++ t ++ w4 ++ w) by (rewrite <- !app_assoc; cbn [app]; rewrite <- !app_assoc; reflexivity).
    constructor; try assumption; apply Forall_app; auto.
  - intros [w1 w2 w3 w4 a t v W1 W2 W3 W4 Oa T]. destruct (numeral_nonempty a Oa) as (c & x & Ea).
    replace (w1 ++ numeral_text a ++ w2 ++ ":"%char :: w3 ++ t ++ w4) with (w1 ++ (numeral_text a ++ w2 ++ ":"%char :: w3 ++ t) ++ w4) by (rewrite <- !app_assoc; cbn [app]; rewrite <- !app_assoc; reflexivity).
    rewrite (strip_core w1 _ w4 c (x ++ w2 ++ ":"%char :: w3 ++ t)).
    + replace (numeral_text a ++ w2 ++ ":"%char :: w3 ++ t) with ([] ++ numeral_text a ++ w2 ++ ":"%char :: w3 ++ t ++ []) by (rewrite app_nil_r; reflexivity).
      constructor; try assumption; constructor.
    + exact W1.
    + exact W4.
    + rewrite Ea. reflexivity.
    + destruct a as [s m ex]. pose proof (number_chars s (Some m) ex Oa) as N. change (otext s (Some m) ex) with (numeral_text (Numeral s m ex)) in N. rewrite Ea in N. inversion N as [|? ? N1 _]. apply N1.
    + apply ends_app, ends_app. change (":"%char :: w3 ++ t) with ([":"%char] ++ w3 ++ t). apply ends_app, ends_app, (target_ends t v T).
Qed.
Lemma documented_not_blank l e : documented_line to_float l e -> ~ spaces l.
Proof.
  intros D H. apply documented_strip in D. rewrite (strip_spaces l H) in D. inversion D as [w1 w2 w3 w4 a t v W1 W2 W3 W4 Oa T E].
  apply app_eq_nil in E. destruct E as [_ E]. apply app_eq_nil in E. destruct E as [_ E]. apply app_eq_nil in E. destruct E as [_ E]. discriminate E.
Qed.
Lemma documented_fun l e e' : documented_line to_float l e -> documented_line to_float l e' -> e = e'.
Proof.
  intros D D'. pose proof (documented_not_blank l e D) as N. assert (V : ends_visible (strip l)) by (apply strip_ends; intros H; apply N, strip_nil, H).
  apply documented_strip in D, D'. apply (parse_line_spec _ _ V) in D, D'. congruence.
Qed.

(* ---- files ---- *)
Lemma distinct_app m e : distinct_keys (m ++ [e]) <-> distinct_keys m /\ existsb (fun '(k', _) => num_eqb (fst e) k') m = false.
Proof.
  induction m as [|[k v] m IH]; cbn.
  - split; [intros _; split; [constructor|reflexivity]|]. intros _. repeat constructor.
  - split.
    + intros D. inversion D as [|? ? F D2]; subst. apply IH in D2. destruct D2 as [D2 E]. apply Forall_app in F. destruct F as [F1 F2].
      split; [constructor; assumption|]. inversion F2 as [|? ? H _]; subst. cbn in H. rewrite H. exact E.
    + intros [D E]. inversion D as [|? ? F D2]; subst. apply orb_false_elim in E. destruct E as [E1 E2]. constructor; [|apply IH; auto].
      apply Forall_app. split; [exact F|]. repeat constructor. exact E1.
Qed.
Lemma distinct_prefix a b : distinct_keys (a ++ b) -> distinct_keys a.
Proof. induction a as [|x a IH]; [constructor|]. cbn. intros D. inversion D as [|? ? F D2]; subst. constructor; [|apply IH, D2]. apply Forall_app in F. apply F. Qed.
Lemma parse_lines_spec ls : forall acc m, distinct_keys acc ->
  (parse_lines to_float ls acc = inl m <-> exists new, described to_float ls new /\ m = acc ++ new /\ distinct_keys m).
Proof.
  induction ls as [|l ls IH]; intros acc m Da; cbn [parse_lines].
  - split.
    + intros [= <-]. exists []. split; [constructor|]. rewrite app_nil_r. auto.
    + intros (new & D & -> & _). inversion D; subst. rewrite app_nil_r. reflexivity.
  - destruct (strip l) as [|c t] eqn:Es.
    + rewrite (IH acc m Da). pose proof (strip_nil l Es) as B. split.
      * intros (new & D & E & Dk). exists new. split; [apply DBlank; assumption|auto].
      * intros (new & D & E & Dk). exists new. split; [|auto]. inversion D as [|? ? ? _ D2|? ? ? ? D1 _]; subst; [assumption|]. destruct (documented_not_blank _ _ D1 B).
    + assert (V : ends_visible (c :: t)) by (rewrite <- Es; apply strip_ends; rewrite Es; discriminate).
      assert (NB : ~ spaces l) by (intros B; rewrite (strip_spaces l B) in Es; discriminate Es).
      destruct (parse_line to_float (c :: t)) as [[k v]|er] eqn:P.
      * apply (parse_line_spec _ _ V) in P. rewrite <- Es in P. apply (proj1 (documented_strip l (k, v))) in P.
        assert (New : forall new, described to_float (l :: ls) new -> exists new', new = (k, v) :: new' /\ described to_float ls new').
        { intros new D. inversion D as [|? ? ? B _|? e ? m' D1 D2]; subst; [contradiction|]. rewrite (documented_fun _ _ _ D1 P). eauto. }
        destruct (existsb (fun '(k', _) => num_eqb k k') acc) eqn:Ex.
        -- split; [discriminate|]. intros (new & D & -> & Dk). destruct (New new D) as (new' & -> & _). exfalso.
           change (acc ++ (k, v) :: new') with (acc ++ [(k, v)] ++ new') in Dk. rewrite app_assoc in Dk. apply distinct_prefix, distinct_app in Dk. destruct Dk as [_ Dk]. cbn [fst] in Dk. congruence.
        -- rewrite IH by (apply distinct_app; auto). split.
           ++ intros (new & D & -> & Dk). exists ((k, v) :: new). split; [constructor; assumption|]. rewrite <- app_assoc in *. auto.
           ++ intros (new & D & -> & Dk). destruct (New new D) as (new' & -> & D'). exists new'. split; [exact D'|]. rewrite <- app_assoc. auto.
      * split; [discriminate|]. intros (new & D & -> & Dk). exfalso. inversion D as [|? ? ? B _|? e ? m' D1 _]; subst; [contradiction|].
        apply documented_strip in D1. rewrite Es in D1. apply (parse_line_spec _ _ V) in D1. congruence.
Qed.
Lemma get_remapping_spec content m : get_remapping to_float content = inl m <-> described to_float (file_lines [] content) m /\ distinct_keys m /\ m <> [].
Proof.
  unfold get_remapping. pose proof (parse_lines_spec (file_lines [] content) [] m (FOP_nil _)) as H. split.
  - destruct (parse_lines to_float (file_lines [] content) []) as [[|e m']|er]; try discriminate. intros [= <-].
    destruct (proj1 H eq_refl) as (new & D & E & Dk). cbn [app] in E. subst new. split; [exact D|]. split; [exact Dk|discriminate].
  - intros (D & Dk & N). rewrite (proj2 H); [destruct m; [contradiction|reflexivity]|]. exists m. auto.
Qed.
End Float.

(* ---- the lines of a file ---- *)
Definition no_newline (l : chars) : Prop := Forall (fun c => is_char "010" c = false /\ is_char "013" c = false) l.
Lemma file_lines_line l rest : no_newline l -> forall cur, file_lines cur (l ++ rest) = file_lines (rev l ++ cur) rest.
Proof.
  induction 1 as [|c l [H1 H2] F IH]; intros cur; [reflexivity|]. cbn [app file_lines rev]. rewrite H1, H2, IH, <- app_assoc. reflexivity.
Qed.
Lemma file_lines_app l rest : no_newline l -> file_lines [] (l ++ "010"%char :: rest) = l :: file_lines [] rest.
Proof. intros N. rewrite file_lines_line by exact N. cbn. rewrite app_nil_r, rev_involutive. reflexivity. Qed.
Lemma file_lines_crlf l rest : no_newline l -> file_lines [] (l ++ "013"%char :: "010"%char :: rest) = l :: file_lines [] rest.
Proof. intros N. rewrite file_lines_line by exact N. cbn. rewrite app_nil_r, rev_involutive. reflexivity. Qed.
Lemma file_lines_last l : no_newline l -> l <> [] -> file_lines [] l = [l].
Proof.
  intros N H. rewrite <- (app_nil_r l) at 1. rewrite file_lines_line by exact N. cbn. rewrite app_nil_r. destruct (rev l) eqn:E.
  - apply (f_equal (@rev _)) in E. rewrite rev_involutive in E. contradiction.
  - rewrite <- E, rev_involutive. reflexivity.
Qed.
Lemma file_lines_text ls last : Forall (fun '(l, e) => no_newline l /\ (e = ["010"%char] \/ e = ["013"%char; "010"%char])) ls -> no_newline last ->
  file_lines [] (flat_map (fun '(l, e) => l ++ e) ls ++ last) = map fst ls ++ (match last with [] => [] | _ => [last] end).
Proof.
  intros F N. induction F as [|[l e] ls [Nl He] F IH]; cbn [flat_map map app fst].
  - destruct last as [|c last]; [reflexivity|]. apply file_lines_last; [exact N|discriminate].
  - rewrite <- IH. destruct He as [->| ->]; rewrite <- !app_assoc; cbn [app]; [apply file_lines_app|apply file_lines_crlf]; exact Nl.
Qed.
Lemma described_fun to_float : (forall p q, (p == q)%Q -> to_float p = to_float q) -> forall ls m, described to_float ls m -> forall m', described to_float ls m' -> m = m'.
Proof.
  intros P ls m D. induction D as [|l ls m B D IH|l e ls m L D IH]; intros m' D'.
  - inversion D'. reflexivity.
  - inversion D' as [|? ? ? _ D2|? ? ? ? L _]; subst; [apply IH, D2|]. destruct (documented_not_blank to_float l _ L B).
  - inversion D' as [|? ? ? B _|? e' ? m2 L' D2]; subst; [destruct (documented_not_blank to_float l _ L B)|]. f_equal; [apply (documented_fun to_float P l); assumption|apply IH, D2].
Qed.
