(* Proofs for C68. *)
From Coq Require Import Reals ZArith List Lia Lra.
From Verif Require Import Base BaseFacts ChunksProofs RasterStack Zonal ZonalSpec ZonalProofs Reductions ReductionsSpec.
Import ListNotations.
Open Scope R_scope.

(* a reduction computes a property of the concatenated blocks *)
Section Tree.
Context {A B S : Type} (chunk : list A -> S) (combine : list S -> S) (sel : list A -> list B) (good : S -> list B -> Prop).
Hypotheses (SEL : forall a b, sel (a ++ b) = sel a ++ sel b) (SELN : sel [] = []).
Hypothesis CH : forall b, good (chunk b) (sel b).
Hypothesis CO : forall ss ls, Forall2 good ss ls -> good (combine ss) (concat ls).
Lemma sel_leaves ts : sel (flat_map leaves ts) = concat (map (fun t => sel (leaves t)) ts).
Proof. induction ts as [|t ts IH]; cbn [flat_map map concat]; [exact SELN|]. now rewrite SEL, IH. Qed.
Lemma subtree_good t : good (subtree chunk combine t) (sel (leaves t)).
Proof.
  induction t as [b|ts IH] using tree_ind'; cbn [subtree leaves]; [apply CH|].
  rewrite sel_leaves. apply CO. induction IH as [|t ts H _ IH]; cbn [map]; constructor; assumption.
Qed.
Lemma subtrees_good ts : Forall2 good (map (subtree chunk combine) ts) (map (fun t => sel (leaves t)) ts).
Proof. induction ts as [|t ts IH]; cbn [map]; constructor; [apply subtree_good|exact IH]. Qed.
End Tree.

Lemma select_app {V} (a b : list (V * bool)) : select (a ++ b) = select a ++ select b.
Proof. unfold select. now rewrite filter_app, map_app. Qed.
Lemma not_nans_app a b : not_nans (a ++ b) = not_nans a ++ not_nans b.
Proof. unfold not_nans. apply flat_map_app. Qed.
Lemma not_nans_numbers l : not_nans l = numbers l.
Proof. induction l as [|[x|] l IH]; cbn; [reflexivity| |]; now rewrite <- IH. Qed.
Lemma not_nans_cons x l : not_nans (Some x :: l) = x :: not_nans l. Proof. reflexivity. Qed.
Definition nums (b : masked_block) : list R := not_nans (select b).
Lemma nums_app a b : nums (a ++ b) = nums a ++ nums b.
Proof. unfold nums. now rewrite select_app, not_nans_app. Qed.
Lemma nums_valid ts : concat (map (fun t => nums (leaves t)) ts) = numbers (valid ts).
Proof. rewrite <- (sel_leaves nums nums_app eq_refl). unfold nums. now rewrite not_nans_numbers. Qed.

(* ---- folds ---- *)
Lemma fold_plus l : forall a, fold_left Rplus l a = a + sum l.
Proof. induction l as [|x l IH]; intros a; cbn; [lra|]. rewrite IH. lra. Qed.
Lemma Rsum_sum l : Rsum l = sum l. Proof. unfold Rsum. rewrite fold_plus. lra. Qed.
Lemma fold_mult l : forall a, fold_left Rmult l a = a * product l.
Proof. induction l as [|x l IH]; intros a; cbn; [lra|]. rewrite IH. lra. Qed.
Lemma Rprod_product l : Rprod l = product l. Proof. unfold Rprod. rewrite fold_mult. lra. Qed.
Lemma sum_app a b : sum (a ++ b) = sum a + sum b.
Proof. induction a as [|x a IH]; cbn; [lra|]. rewrite IH. lra. Qed.
Lemma product_app a b : product (a ++ b) = product a * product b.
Proof. induction a as [|x a IH]; cbn; [lra|]. rewrite IH. lra. Qed.
Lemma fold_zplus l : forall a, fold_left Z.add l a = (a + zsum l)%Z.
Proof. induction l as [|x l IH]; intros a; cbn; [lia|]. rewrite IH. lia. Qed.
Lemma Zsum_zsum l : Zsum l = zsum l. Proof. unfold Zsum. rewrite fold_zplus. lia. Qed.

Lemma sum_concat ss ls : Forall2 (fun s l => s = sum l) ss ls -> sum ss = sum (concat ls).
Proof. induction 1 as [|s l ss ls H _ IH]; cbn; [reflexivity|]. now rewrite sum_app, H, IH. Qed.
Lemma product_concat ss ls : Forall2 (fun s l => s = product l) ss ls -> product ss = product (concat ls).
Proof. induction 1 as [|s l ss ls H _ IH]; cbn; [reflexivity|]. now rewrite product_app, H, IH. Qed.

Lemma sum_valid ts : raster_sum ts = sum (numbers (valid ts)).
Proof.
  unfold raster_sum, reduce. rewrite Rsum_sum, <- nums_valid. apply sum_concat.
  apply (subtrees_good _ _ nums (fun s l => s = sum l) nums_app eq_refl); [intros b; apply Rsum_sum|].
  intros ss ls F. rewrite Rsum_sum. now apply sum_concat.
Qed.
Lemma prod_valid ts : raster_prod ts = product (numbers (valid ts)).
Proof.
  unfold raster_prod, reduce. rewrite Rprod_product, <- nums_valid. apply product_concat.
  apply (subtrees_good _ _ nums (fun s l => s = product l) nums_app eq_refl); [intros b; apply Rprod_product|].
  intros ss ls F. rewrite Rprod_product. now apply product_concat.
Qed.

(* ---- mean ---- *)
Lemma len_concat_zsum {A} (ns : list Z) (ls : list (list A)) : Forall2 (fun n l => n = len l) ns ls -> zsum ns = len (concat ls).
Proof. induction 1 as [|n l ns ls H _ IH]; cbn [zsum concat]; [reflexivity|]. rewrite len_app. lia. Qed.
Definition mean_good (s : Z * R) (l : list R) : Prop := fst s = len l /\ snd s = sum l.
Lemma mean_parts ss ls : Forall2 mean_good ss ls -> Zsum (map fst ss) = len (concat ls) /\ Rsum (map snd ss) = sum (concat ls).
Proof.
  intros F. rewrite Zsum_zsum, Rsum_sum. split; [apply len_concat_zsum|apply sum_concat];
  induction F as [|s l ss ls [H1 H2] _ IH]; cbn [map]; constructor; assumption.
Qed.
Lemma divide_len {A} (x : R) (l : list A) : divide x (len l) = match l with [] => None | _ => Some (x / IZR (len l)) end.
Proof.
  unfold divide. destruct l as [|a l]; [reflexivity|]. destruct (len (a :: l) =? 0)%Z eqn:E; [|reflexivity].
  unfold len in E. cbn [length] in E. lia.
Qed.
Lemma mean_valid ts : raster_mean ts = match numbers (valid ts) with [] => None | l => Some (mean l) end.
Proof.
  unfold raster_mean, reduce, mean_agg.
  assert (F : Forall2 mean_good (map (subtree (fun b => mean_chunk (select b)) mean_combine) ts) (map (fun t => nums (leaves t)) ts)).
  { apply (subtrees_good _ _ nums mean_good nums_app eq_refl).
    - intros b. split; cbn; [reflexivity|apply Rsum_sum].
    - intros ss ls F. destruct (mean_parts ss ls F). now split. }
  destruct (mean_parts _ _ F) as [-> ->]. rewrite nums_valid, divide_len. unfold mean. now destruct (numbers (valid ts)).
Qed.

(* ---- variance ---- *)
Definition dev (l : list R) (u : R) : R := sum (map (fun x => (x - u) ^ 2) l).
Lemma dev_split l u v : dev l u = dev l v + 2 * (v - u) * (sum l - IZR (len l) * v) + IZR (len l) * (v - u) ^ 2.
Proof.
  unfold dev. induction l as [|x l IH]; cbn [map sum].
  - change (len []) with 0%Z. lra.
  - rewrite IH. rewrite len_cons, plus_IZR. ring.
Qed.
Lemma dev_mean l u : l <> [] -> dev l u = dev l (mean l) + IZR (len l) * (mean l - u) ^ 2.
Proof.
  intros N. rewrite (dev_split l u (mean l)). unfold mean. assert (IZR (len l) <> 0).
  { apply not_0_IZR. destruct l; [congruence|]. unfold len. cbn [length]. lia. }
  field. assumption.
Qed.
Lemma dev_app a b u : dev (a ++ b) u = dev a u + dev b u.
Proof. unfold dev. now rewrite map_app, sum_app. Qed.
Definition var_good (m : moment) (l : list R) : Prop :=
  m_n m = len l /\ m_total m = sum l /\ m_M m = match l with [] => 0 | _ => dev l (mean l) end.
Lemma moment_chunk_good l : var_good (moment_chunk l) (not_nans l).
Proof.
  unfold var_good, moment_chunk. cbn [m_n m_total m_M]. rewrite !Rsum_sum, divide_len. split; [reflexivity|]. split; [reflexivity|].
  destruct (not_nans l) as [|x0 l0] eqn:E.
  - assert (not_nans (map (fun a => times_square 1 (minus a None)) l) = []) as ->; [|reflexivity].
    clear E. induction l as [|[a|] l IH]; cbn in *; auto.
  - rewrite <- E. fold (mean (not_nans l)). generalize (mean (not_nans l)). clear E x0 l0. intros u.
    unfold dev. induction l as [|[a|] l IH]; [reflexivity| |exact IH].
    cbn [map minus times_square option_map]. rewrite !not_nans_cons. cbn [map sum]. rewrite <- IH. ring.
Qed.
Lemma moment_parts ss ls : Forall2 var_good ss ls -> Zsum (map m_n ss) = len (concat ls) /\ Rsum (map m_total ss) = sum (concat ls).
Proof.
  intros F. rewrite Zsum_zsum, Rsum_sum. split; [apply len_concat_zsum|apply sum_concat];
  induction F as [|s l ss ls (H1 & H2 & _) _ IH]; cbn [map]; constructor; assumption.
Qed.
Lemma moment_helper_good ss ls : Forall2 var_good ss ls -> var_good (moment_helper ss) (concat ls).
Proof.
  intros F. unfold var_good, moment_helper. cbn [m_n m_total m_M]. destruct (moment_parts ss ls F) as [-> ->]. split; [reflexivity|]. split; [reflexivity|].
  rewrite !Rsum_sum, divide_len.
  destruct (concat ls) as [|x0 l0] eqn:E.
  - assert (not_nans (map (fun m => times_square (m_n m) (minus (divide (m_total m) (m_n m)) None)) ss) = []) as ->.
    { clear. induction ss as [|m ss IH]; cbn in *; [reflexivity|]. now destruct (divide (m_total m) (m_n m)). }
    assert (sum (map m_M ss) = 0) as ->; [|cbn; lra].
    revert E. induction F as [|m l ss ls (_ & _ & H) _ IH]; intros E; cbn in *; [reflexivity|].
    apply app_eq_nil in E as [-> E]. rewrite H, IH by exact E. lra.
  - rewrite <- E. fold (mean (concat ls)). generalize (mean (concat ls)). clear E x0 l0. intros u.
    induction F as [|m l ss ls (H1 & H2 & H3) _ IH].
    + cbn. lra.
    + cbn [map concat sum]. rewrite dev_app, <- IH. cbn [not_nans flat_map]. fold (not_nans (map (fun m => times_square (m_n m) (minus (divide (m_total m) (m_n m)) (Some u))) ss)).
      rewrite sum_app, H1, H2, H3, divide_len. destruct l as [|x l].
      * cbn. lra.
      * fold (mean (x :: l)). rewrite (dev_mean (x :: l) u) by discriminate. cbn [minus times_square option_map opt_list sum]. ring.
Qed.
Lemma var_valid ts : raster_var ts = match numbers (valid ts) with [] => None | l => Some (variance l) end.
Proof.
  unfold raster_var, reduce, moment_agg.
  assert (G : var_good (moment_helper (map (subtree (fun b => moment_chunk (select b)) moment_helper) ts)) (concat (map (fun t => nums (leaves t)) ts))).
  { apply moment_helper_good. apply (subtrees_good _ _ nums var_good nums_app eq_refl).
    - intros b. apply moment_chunk_good.
    - intros ss ls F. now apply moment_helper_good. }
  destruct G as (-> & _ & ->). rewrite nums_valid, divide_len. unfold variance, dev. now destruct (numbers (valid ts)).
Qed.

(* ---- all, any ---- *)
Lemma sel_valid {V} (ts : list (tree (list (V * bool)))) : concat (map (fun t => select (leaves t)) ts) = valid ts.
Proof. now rewrite <- (sel_leaves select select_app eq_refl). Qed.
Lemma all_concat {V} (truth : V -> bool) ss ls : Forall2 (fun s l => s = forallb truth l) ss ls -> forallb (fun x => x) ss = forallb truth (concat ls).
Proof. induction 1 as [|s l ss ls H _ IH]; cbn; [reflexivity|]. now rewrite forallb_app, H, IH. Qed.
Lemma any_concat {V} (truth : V -> bool) ss ls : Forall2 (fun s l => s = existsb truth l) ss ls -> existsb (fun x => x) ss = existsb truth (concat ls).
Proof. induction 1 as [|s l ss ls H _ IH]; cbn; [reflexivity|]. now rewrite existsb_app, H, IH. Qed.
Lemma all_valid {V} (truth : V -> bool) ts : raster_all truth ts = true <-> forall v, In v (valid ts) -> truth v = true.
Proof.
  unfold raster_all, reduce. rewrite (all_concat truth _ (map (fun t => select (leaves t)) ts)), sel_valid; [apply forallb_forall|].
  apply (subtrees_good _ _ select (fun s l => s = forallb truth l) select_app eq_refl); [reflexivity|]. intros ss ls F. now apply all_concat.
Qed.
Lemma any_valid {V} (truth : V -> bool) ts : raster_any truth ts = true <-> exists v, In v (valid ts) /\ truth v = true.
Proof.
  unfold raster_any, reduce. rewrite (any_concat truth _ (map (fun t => select (leaves t)) ts)), sel_valid; [apply existsb_exists|].
  apply (subtrees_good _ _ select (fun s l => s = existsb truth l) select_app eq_refl); [reflexivity|]. intros ss ls F. now apply any_concat.
Qed.

(* ---- integers ---- *)
Open Scope Z_scope.
Lemma wrap_mod s x : wrap s x mod 2 ^ 64 = x mod 2 ^ 64.
Proof. unfold wrap. destruct s; [|apply Z.mod_mod; lia]. rewrite Zminus_mod, Z.mod_mod, <- Zminus_mod by lia. f_equal. lia. Qed.
Lemma wrap_eq s x y : x mod 2 ^ 64 = y mod 2 ^ 64 -> wrap s x = wrap s y.
Proof. intros H. unfold wrap. destruct s; [|exact H]. now rewrite <- (Zplus_mod_idemp_l x), <- (Zplus_mod_idemp_l y), H. Qed.
Lemma wrap_small s x : (if s : bool then - 2 ^ 63 <= x < 2 ^ 63 else 0 <= x < 2 ^ 64) -> wrap s x = x.
Proof. unfold wrap. destruct s; intros H; rewrite Z.mod_small by lia; lia. Qed.
Lemma wsum_mod s l : forall a, fold_left (fun a x => wrap s (a + x)) l a mod 2 ^ 64 = (a + zsum l) mod 2 ^ 64.
Proof.
  induction l as [|x l IH]; intros a; cbn [fold_left zsum]; [f_equal; lia|]. rewrite IH, Zplus_mod, wrap_mod, <- Zplus_mod. f_equal. lia.
Qed.
Lemma wprod_mod s l : forall a, fold_left (fun a x => wrap s (a * x)) l a mod 2 ^ 64 = (a * zproduct l) mod 2 ^ 64.
Proof.
  induction l as [|x l IH]; intros a; cbn [fold_left zproduct]; [f_equal; lia|]. rewrite IH, Zmult_mod, wrap_mod, <- Zmult_mod. f_equal. lia.
Qed.
Lemma wrap_range s x : wrap s (wrap s x) = wrap s x.
Proof. apply wrap_eq, wrap_mod. Qed.
Lemma wsum_wrap s l : wsum s l = wrap s (zsum l).
Proof.
  assert (E : wsum s l = wrap s (wsum s l)).
  { unfold wsum. destruct l as [|x l] using rev_ind; [destruct s; reflexivity|]. rewrite fold_left_app. cbn [fold_left]. symmetry. apply wrap_range. }
  rewrite E. apply wrap_eq. unfold wsum. now rewrite wsum_mod.
Qed.
Lemma wprod_wrap s l : wprod s l = wrap s (zproduct l).
Proof.
  assert (E : wprod s l = wrap s (wprod s l)).
  { unfold wprod. destruct l as [|x l] using rev_ind; [destruct s; reflexivity|]. rewrite fold_left_app. cbn [fold_left]. symmetry. apply wrap_range. }
  rewrite E. apply wrap_eq. unfold wprod. rewrite wprod_mod. f_equal. lia.
Qed.
Lemma zsum_app a b : zsum (a ++ b) = zsum a + zsum b.
Proof. induction a as [|x a IH]; cbn [app zsum]; lia. Qed.
Lemma zproduct_app a b : zproduct (a ++ b) = zproduct a * zproduct b.
Proof. induction a as [|x a IH]; cbn [app zproduct]; [lia|]. rewrite IH. ring. Qed.
Lemma wsum_concat s ss ls : Forall2 (fun x l => x = wrap s (zsum l)) ss ls -> wsum s ss = wrap s (zsum (concat ls)).
Proof.
  intros F. rewrite wsum_wrap. apply wrap_eq. induction F as [|x l ss ls H _ IH]; cbn [zsum concat]; [reflexivity|].
  rewrite zsum_app, Zplus_mod, IH, H, wrap_mod, <- Zplus_mod. reflexivity.
Qed.
Lemma wprod_concat s ss ls : Forall2 (fun x l => x = wrap s (zproduct l)) ss ls -> wprod s ss = wrap s (zproduct (concat ls)).
Proof.
  intros F. rewrite wprod_wrap. apply wrap_eq. induction F as [|x l ss ls H _ IH]; cbn [zproduct concat]; [reflexivity|].
  rewrite zproduct_app, Zmult_mod, IH, H, wrap_mod, <- Zmult_mod. reflexivity.
Qed.
Lemma int_sum_valid s ts : raster_int_sum s ts = wrap s (zsum (valid ts)).
Proof.
  unfold raster_int_sum, reduce. rewrite <- sel_valid. apply wsum_concat.
  apply (subtrees_good _ _ select (fun x l => x = wrap s (zsum l)) select_app eq_refl); [intros b; apply wsum_wrap|]. intros ss ls F. now apply wsum_concat.
Qed.
Lemma int_prod_valid s ts : raster_int_prod s ts = wrap s (zproduct (valid ts)).
Proof.
  unfold raster_int_prod, reduce. rewrite <- sel_valid. apply wprod_concat.
  apply (subtrees_good _ _ select (fun x l => x = wrap s (zproduct l)) select_app eq_refl); [intros b; apply wprod_wrap|]. intros ss ls F. now apply wprod_concat.
Qed.
Lemma wrap_spec s x : (exists k, wrap s x = x + k * 2 ^ 64) /\ in_dtype s (wrap s x).
Proof.
  unfold wrap, in_dtype. destruct s.
  - pose proof (Z.mod_pos_bound (x + 2 ^ 63) (2 ^ 64)). split; [|lia]. exists (- ((x + 2 ^ 63) / 2 ^ 64)).
    pose proof (Z.div_mod (x + 2 ^ 63) (2 ^ 64)). lia.
  - split; [|apply Z.mod_pos_bound; lia]. exists (- (x / 2 ^ 64)). pose proof (Z.div_mod x (2 ^ 64)). lia.
Qed.
Lemma int_sum_spec s ts : (exists k, raster_int_sum s ts = zsum (valid ts) + k * 2 ^ 64) /\ in_dtype s (raster_int_sum s ts).
Proof. rewrite int_sum_valid. apply wrap_spec. Qed.
Lemma int_prod_spec s ts : (exists k, raster_int_prod s ts = zproduct (valid ts) + k * 2 ^ 64) /\ in_dtype s (raster_int_prod s ts).
Proof. rewrite int_prod_valid. apply wrap_spec. Qed.
Lemma std_valid ts : raster_std ts = match numbers (valid ts) with [] => None | l => Some (sqrt (variance l)) end.
Proof. unfold raster_std. rewrite var_valid. now destruct (numbers (valid ts)). Qed.
