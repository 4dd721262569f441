From Coq Require Import Permutation.
From Verif Require Import Base BaseFacts Scalars Dtypes DtypesSpec.
Open Scope Z_scope.

Lemma fold_min_le zs : forall z, fold_left Z.min zs z <= z /\ (forall x, In x zs -> fold_left Z.min zs z <= x)
  /\ In (fold_left Z.min zs z) (z :: zs).
Proof.
  induction zs as [|y zs IH]; intros z; [cbn; intuition lia|]. cbn [fold_left]. destruct (IH (Z.min z y)) as (A & B & C).
  split; [lia|]. split; [intros x [<-|H]; [lia|now apply B]|]. destruct C as [C|C]; [|now right; right].
  rewrite <- C. destruct (Z.min_spec z y) as [[_ ->]|[_ ->]]; [now left|right; now left].
Qed.
Lemma fold_max_le zs : forall z, z <= fold_left Z.max zs z /\ (forall x, In x zs -> x <= fold_left Z.max zs z)
  /\ In (fold_left Z.max zs z) (z :: zs).
Proof.
  induction zs as [|y zs IH]; intros z; [cbn; intuition lia|]. cbn [fold_left]. destruct (IH (Z.max z y)) as (A & B & C).
  split; [lia|]. split; [intros x [<-|H]; [lia|now apply B]|]. destruct C as [C|C]; [|now right; right].
  rewrite <- C. destruct (Z.max_spec z y) as [[_ ->]|[_ ->]]; [right; now left|now left].
Qed.

Lemma promote_comm a b : promote_types a b = promote_types b a.
Proof. destruct a, b; reflexivity. Qed.
Lemma promote_idem a : promote_types a a = a.
Proof. destruct a; reflexivity. Qed.
(* an integer of a that is small enough for every float is an integer of the
   promoted dtype; without 64 bit integers the bound is not needed *)
Lemma promote_holds a b z : holds a z -> - 2 ^ 53 <= z <= 2 ^ 53 -> holds (promote_types a b) z.
Proof.
  unfold holds. intros H B. destruct a, b; cbn in *; lia.
Qed.
Lemma promote_int_holds a b z : is_float_dtype (promote_types a b) = false -> holds a z -> holds (promote_types a b) z.
Proof. unfold holds. intros HF H. destruct a, b; cbn in *; (discriminate HF || lia). Qed.
Lemma promote_not_float a b : is_float_dtype (promote_types a b) = false -> is_float_dtype a = false /\ is_float_dtype b = false.
Proof. destruct a, b; cbn; auto. Qed.

Lemma fold_holds ds : forall d z, - 2 ^ 53 <= z <= 2 ^ 53 ->
  (holds d z \/ exists d', In d' ds /\ holds d' z) -> holds (fold_left promote_types ds d) z.
Proof.
  induction ds as [|d' ds IH]; intros d z B H; cbn [fold_left].
  - destruct H as [H|(d' & [] & _)]. exact H.
  - apply IH; [exact B|]. destruct H as [H|(e & [<-|HI] & H)].
    + left. now apply promote_holds.
    + left. rewrite promote_comm. now apply promote_holds.
    + right. eauto.
Qed.
Lemma fold_not_float ds : forall d, is_float_dtype (fold_left promote_types ds d) = false ->
  is_float_dtype d = false /\ Forall (fun d' => is_float_dtype d' = false) ds.
Proof.
  induction ds as [|d' ds IH]; intros d H; cbn [fold_left] in H; [auto|].
  apply IH in H. destruct H as [H F]. apply promote_not_float in H. split; [tauto|]. constructor; tauto.
Qed.
Lemma fold_int_holds ds : forall d z, is_float_dtype (fold_left promote_types ds d) = false ->
  (holds d z \/ exists d', In d' ds /\ holds d' z) -> holds (fold_left promote_types ds d) z.
Proof.
  induction ds as [|d' ds IH]; intros d z NF H; cbn [fold_left] in *.
  - destruct H as [H|(d' & [] & _)]. exact H.
  - apply IH; [exact NF|]. pose proof (fold_not_float _ _ NF) as [HP _]. destruct H as [H|(e & [<-|HI] & H)].
    + left. now apply promote_int_holds.
    + left. rewrite promote_comm in *. now apply promote_int_holds.
    + right. eauto.
Qed.

Lemma find_some_spec {A} (f : A -> bool) l x : find f l = Some x -> In x l /\ f x = true.
Proof. apply find_some. Qed.
Lemma literal_fits lits dt : literal_dtype lits = [dt] -> In dt int_types /\ forall z, In z lits -> int_min dt <= z <= int_max dt.
Proof.
  destruct lits as [|z0 zs]; [discriminate|]. unfold literal_dtype. intros H.
  destruct (find _ int_types) eqn:E; [|discriminate]. injection H as ->. apply find_some in E. destruct E as [HI HF].
  split; [exact HI|]. destruct (fold_min_le zs z0) as (A & B & _), (fold_max_le zs z0) as (A' & B' & _).
  apply andb_true_iff in HF. destruct HF as [_ HF]. intros z [<-|Hz]; [lia|]. specialize (B z Hz). specialize (B' z Hz). lia.
Qed.
Lemma literal_exists lits dt : lits <> [] -> In dt int_types -> (forall z, In z lits -> int_min dt <= z <= int_max dt) ->
  exists dt', literal_dtype lits = [dt'] /\ bits dt' <= bits dt.
Proof.
  intros NE HI HF. destruct lits as [|z0 zs]; [congruence|]. unfold literal_dtype.
  destruct (fold_min_le zs z0) as (A & B & C), (fold_max_le zs z0) as (A' & B' & C').
  set (mn := fold_left Z.min zs z0) in *. set (mx := fold_left Z.max zs z0) in *.
  pose proof (HF mn C) as H1. pose proof (HF mx C') as H2.
  assert (HM : mn <= mx) by lia. clearbody mn mx. clear - H1 H2 HM HI. unfold int_types in *.
  cbn [find].
  repeat (match goal with |- context [if ?b then _ else _] => destruct b eqn:?; [eexists; split; [reflexivity|]|] end).
  all: repeat (destruct HI as [HI|HI]; [subst dt; cbn in *; lia|]); destruct HI.
Qed.
Lemma literal_one lits : literal_dtype lits = [] \/ exists dt, literal_dtype lits = [dt].
Proof. destruct lits; [now left|]. unfold literal_dtype. destruct (find _ _); [right; eauto|now left]. Qed.

Lemma in_literals items z : In z (literals_of items) <-> In (IInt z) items.
Proof.
  unfold literals_of. rewrite in_flat_map. split.
  - intros (x & HI & H). destruct x; cbn in H; try tauto. destruct H as [->|[]]. exact HI.
  - intros H. exists (IInt z). split; [exact H|now left].
Qed.

Lemma common_holds items d z : get_common_dtype items = Ok d -> In (IInt z) items ->
  (exists dt, In dt int_types /\ forall y, In (IInt y) items -> int_min dt <= y <= int_max dt) ->
  is_float_dtype d = false \/ - 2 ^ 53 <= z <= 2 ^ 53 -> holds d z.
Proof.
  unfold get_common_dtype. intros HC HI (dt & HT & HF) HB. destruct items as [|i items']; [discriminate|]. set (items := i :: items') in *.
  assert (HZ : In z (literals_of items)) by now apply in_literals.
  destruct (literal_exists (literals_of items) dt) as (dt' & EL & _); [intros E; rewrite E in HZ; destruct HZ|exact HT|intros y Hy; apply HF; now apply in_literals|].
  rewrite EL in HC. destruct (literal_fits _ _ EL) as [HT' HF']. specialize (HF' z HZ).
  assert (HH : holds dt' z). { unfold holds. replace (is_float_dtype dt') with false; [exact HF'|].
    unfold int_types in HT'. repeat (destruct HT' as [<-|HT']; [reflexivity|]). destruct HT'. }
  destruct (dtypes_of items) as [|d0 ds]; cbn [app] in HC; injection HC as <-.
  - exact HH.
  - assert (HX : holds d0 z \/ exists d', In d' (ds ++ [dt']) /\ holds d' z).
    { right. exists dt'. split; [apply in_or_app; right; now left|exact HH]. }
    destruct HB as [HB|HB]; [now apply fold_int_holds|now apply fold_holds].
Qed.
Lemma common_literals_only lits dt : lits <> [] -> In dt int_types -> (forall z, In z lits -> int_min dt <= z <= int_max dt) ->
  exists d, get_common_dtype (map IInt lits) = Ok d /\ (forall z, In z lits -> holds d z) /\ bits d <= bits dt.
Proof.
  intros NE HT HF. destruct (literal_exists lits dt NE HT HF) as (d & EL & HB). exists d.
  assert (E1 : literals_of (map IInt lits) = lits).
  { clear. induction lits as [|z l IH]; [reflexivity|]. cbn. unfold literals_of in *. cbn. now rewrite IH. }
  assert (E2 : dtypes_of (map IInt lits) = []) by (clear; induction lits; [reflexivity|exact IHlits]).
  unfold get_common_dtype. rewrite E1, E2, EL. cbn [app fold_left]. split.
  - destruct lits; [congruence|reflexivity].
  - split; [|exact HB]. destruct (literal_fits _ _ EL) as [HT' HF']. intros z Hz. specialize (HF' z Hz). unfold holds.
    replace (is_float_dtype d) with false; [exact HF'|]. unfold int_types in HT'. repeat (destruct HT' as [<-|HT']; [reflexivity|]). destruct HT'.
Qed.
(* the result also holds what the given dtypes hold *)
Lemma common_dtypes items d d' z : get_common_dtype items = Ok d -> In (IDtype d') items -> holds d' z ->
  is_float_dtype d = false \/ - 2 ^ 53 <= z <= 2 ^ 53 -> holds d z.
Proof.
  unfold get_common_dtype. intros HC HI HH HB. destruct items as [|i items']; [discriminate|]. set (items := i :: items') in *.
  assert (HZ : In d' (dtypes_of items ++ literal_dtype (literals_of items))).
  { apply in_or_app. left. unfold dtypes_of. apply in_flat_map. exists (IDtype d'). split; [exact HI|now left]. }
  destruct (dtypes_of items ++ literal_dtype (literals_of items)) as [|d0 ds]; [discriminate|]. injection HC as <-.
  assert (HX : holds d0 z \/ exists e, In e ds /\ holds e z) by (destruct HZ as [<-|HZ]; [now left|right; eauto]).
  destruct HB as [HB|HB]; [now apply fold_int_holds|now apply fold_holds].
Qed.

Lemma safe_min_exact nonfinite suggested exact : is_float_dtype suggested = true -> exact F64 = true -> nonfinite = false ->
  let d := safe_min_scalar_type nonfinite suggested exact in
  exact d = true /\ is_float_dtype d = true /\ bits suggested <= bits d
  /\ forall d', is_float_dtype d' = true -> bits suggested <= bits d' -> exact d' = true -> bits d <= bits d'.
Proof.
  intros HS HE ->. unfold safe_min_scalar_type. rewrite HS. cbn [find].
  assert (X : bits suggested <= 64) by (destruct suggested; cbn; lia).
  repeat (match goal with |- context [if ?b then _ else _] => destruct b eqn:? end); cbn [is_float_dtype].
  - cbn [bits] in *. split; [now apply andb_true_iff in Heqb|]. split; [reflexivity|].
    apply andb_true_iff in Heqb. split; [lia|]. intros d' HF _ _. destruct d'; (discriminate HF || cbn; lia).
  - cbn [bits] in *. apply andb_true_iff in Heqb0. apply andb_false_iff in Heqb. split; [tauto|]. split; [reflexivity|]. split; [lia|].
    intros d' HF HB HX. destruct d'; try discriminate HF; cbn [bits] in *; lia.
  - apply andb_true_iff in Heqb1. apply andb_false_iff in Heqb, Heqb0. cbn [bits] in *. split; [tauto|]. split; [reflexivity|]. split; [lia|].
    intros d' HF HB HX. destruct d'; try discriminate HF; cbn [bits] in *; lia.
  - exfalso. apply andb_false_iff in Heqb1. destruct Heqb1 as [E|E]; [|congruence]. cbn in E. lia.
Qed.
Lemma float_holds d z : is_float_dtype d = false -> holds d z -> - 2 ^ 53 <= z <= 2 ^ 53 -> holds (promote_dtype_to_float d) z
  /\ is_float_dtype (promote_dtype_to_float d) = true.
Proof. unfold holds. intros HF H B. destruct d; cbn in *; try discriminate HF; split; (reflexivity || lia). Qed.
