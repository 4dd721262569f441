(* Order and equality of scalars. *)
From Coq Require Import QArith Lqa.
From Verif Require Import Base Scalars.
Open Scope Z_scope.

Lemma Qlt_bool_iff p q : Qlt_bool p q = true <-> (p < q)%Q.
Proof. unfold Qlt_bool. rewrite negb_true_iff, <- not_true_iff_false, Qle_bool_iff. split; intros; lra. Qed.
Lemma Qlt_bool_false p q : Qlt_bool p q = false <-> (q <= p)%Q.
Proof. unfold Qlt_bool. rewrite negb_false_iff. apply Qle_bool_iff. Qed.
Lemma Qeq_bool_false p q : Qeq_bool p q = false <-> ~ (p == q)%Q.
Proof. rewrite <- not_true_iff_false, Qeq_bool_iff. tauto. Qed.

(* one propositional reading of the comparisons, for case analysis *)
Ltac num_cases :=
  unfold num_leb, num_eqb, num_ltb, is_nan, nan_equal in *;
  repeat match goal with
  | H : context [match ?a with _ => _ end] |- _ => is_var a; destruct a
  | |- context [match ?a with _ => _ end] => is_var a; destruct a
  end; try discriminate; try reflexivity;
  repeat match goal with
  | H : (_ || _)%bool = true |- _ => apply orb_true_iff in H
  | H : (_ || _)%bool = false |- _ => apply orb_false_iff in H; destruct H
  | |- (_ || _)%bool = true => apply orb_true_iff
  | |- (_ || _)%bool = false => apply orb_false_iff
  | H : Qlt_bool _ _ = true |- _ => apply Qlt_bool_iff in H
  | H : Qlt_bool _ _ = false |- _ => apply Qlt_bool_false in H
  | H : Qeq_bool _ _ = true |- _ => apply Qeq_bool_iff in H
  | H : Qeq_bool _ _ = false |- _ => apply Qeq_bool_false in H
  | |- Qlt_bool _ _ = true => apply Qlt_bool_iff
  | |- Qlt_bool _ _ = false => apply Qlt_bool_false
  | |- Qeq_bool _ _ = true => apply Qeq_bool_iff
  | |- Qeq_bool _ _ = false => apply Qeq_bool_false
  end.

Lemma num_ltb_trans a b c : num_ltb a b = true -> num_ltb b c = true -> num_ltb a c = true.
Proof. destruct a, b, c; intros; num_cases. lra. Qed.
Lemma num_ltb_irrefl a : num_ltb a a = false.
Proof. destruct a; num_cases. lra. Qed.
Lemma num_total a b : is_nan a = false -> is_nan b = false ->
  num_ltb a b = true \/ num_eqb a b = true \/ num_ltb b a = true.
Proof.
  destruct a as [p| | |], b as [q| | |]; cbn; try discriminate; auto. intros _ _.
  rewrite !Qlt_bool_iff, Qeq_bool_iff. destruct (Q_dec p q) as [[H|H]|H]; auto.
Qed.
Lemma num_ltb_eqb_l a a' b : num_eqb a a' = true -> num_ltb a b = num_ltb a' b.
Proof.
  destruct a as [p| | |], a' as [p'| | |], b as [q| | |]; cbn; try discriminate; try reflexivity.
  rewrite Qeq_bool_iff. intros H. apply eq_true_iff_eq. rewrite !Qlt_bool_iff. split; lra.
Qed.
Lemma num_ltb_eqb_r a b b' : num_eqb b b' = true -> num_ltb a b = num_ltb a b'.
Proof.
  destruct a as [p| | |], b as [q| | |], b' as [q'| | |]; cbn; try discriminate; try reflexivity.
  rewrite Qeq_bool_iff. intros H. apply eq_true_iff_eq. rewrite !Qlt_bool_iff. split; lra.
Qed.
Lemma num_eqb_congr_l a a' b : num_eqb a a' = true -> num_eqb a b = num_eqb a' b.
Proof.
  intros H. apply eq_true_iff_eq. split; intros E.
  - eapply num_eqb_trans; [|exact E]. now rewrite num_eqb_sym.
  - eapply num_eqb_trans; eauto.
Qed.
Lemma num_ltb_neq a b : num_ltb a b = true -> num_eqb a b = false.
Proof. destruct a, b; intros; num_cases. lra. Qed.
Lemma num_ltb_asym a b : num_ltb a b = true -> num_ltb b a = false.
Proof.
  intros H. destruct (num_ltb b a) eqn:E; [|reflexivity].
  pose proof (num_ltb_trans _ _ _ H E). now rewrite num_ltb_irrefl in H0.
Qed.
Lemma num_eqb_not_nan a b : num_eqb a b = true -> is_nan a = false /\ is_nan b = false.
Proof. destruct a, b; cbn; auto; discriminate. Qed.
Lemma num_ltb_not_nan a b : num_ltb a b = true -> is_nan a = false /\ is_nan b = false.
Proof. destruct a, b; cbn; auto; discriminate. Qed.
Lemma num_leb_refl a : is_nan a = false -> num_leb a a = true.
Proof. intros. unfold num_leb. rewrite num_eqb_refl by assumption. apply orb_true_r. Qed.
Lemma num_leb_trans a b c : num_leb a b = true -> num_leb b c = true -> num_leb a c = true.
Proof.
  unfold num_leb. rewrite !orb_true_iff. intros [H|H] [K|K].
  - left. eapply num_ltb_trans; eauto.
  - left. now rewrite <- (num_ltb_eqb_r _ _ _ K).
  - left. now rewrite (num_ltb_eqb_l _ _ _ H).
  - right. eapply num_eqb_trans; eauto.
Qed.
Lemma num_leb_total a b : is_nan a = false -> is_nan b = false -> num_leb a b = false -> num_ltb b a = true.
Proof.
  unfold num_leb. intros Ha Hb H. apply orb_false_iff in H. destruct H as [H1 H2].
  destruct (num_total a b Ha Hb) as [H|[H|H]]; congruence.
Qed.
Lemma num_leb_antisym a b : num_leb a b = true -> num_leb b a = true -> num_eqb a b = true.
Proof.
  unfold num_leb. rewrite !orb_true_iff. intros [H|H] [K|K]; try assumption.
  - rewrite (num_ltb_asym _ _ H) in K. discriminate.
  - now rewrite num_eqb_sym.
Qed.
Lemma num_leb_not_nan a b : num_leb a b = true -> is_nan a = false /\ is_nan b = false.
Proof.
  unfold num_leb. rewrite orb_true_iff. intros [H|H]; [now apply num_ltb_not_nan|now apply num_eqb_not_nan].
Qed.
Lemma num_nan_eqb a b : is_nan a = true -> num_eqb a b = false.
Proof. destruct a; cbn; try discriminate. reflexivity. Qed.
