(* aggregate in two steps *)
From Coq Require Import QArith Lia List.
From Verif Require Import Base BaseFacts Scalars NumFacts Arr2 Stats StatsSpec Chunks Focal FocalSpec FocalResults Zonal ZonalSpec ZonalProofs ZonalStats Aggregate AggregateSpec AggregateProofs TwoStepsSpec.
Import ListNotations.
Open Scope Z_scope.

Section TwoSteps.
Variables (f : num -> num -> num) (le : num -> num -> bool).
Hypothesis f_nan_l : forall a b, is_nan a = true -> f a b = b.
Hypothesis f_nan_r : forall a b, is_nan b = true -> f a b = a.
Hypothesis f_sel : forall a b, is_nan a = false -> is_nan b = false -> (f a b = a \/ f a b = b) /\ le (f a b) a = true /\ le (f a b) b = true.
Hypothesis le_refl : forall a, is_nan a = false -> le a a = true.
Hypothesis le_trans : forall a b c, le a b = true -> le b c = true -> le a c = true.
Hypothesis le_antisym : forall a b, le a b = true -> le b a = true -> num_eqb a b = true.

Lemma ext_members x y m : ext_of le x [m] -> (forall v, In v x <-> In v y) -> ext_of le y [m].
Proof.
  intros [[_ H]|[(N & A & E)|(m' & E & I & N & L)]] S; [discriminate| |].
  - right; left. split; [intros ->; destruct x as [|a x]; [contradiction|]; exact (proj1 (S a) (or_introl eq_refl))|]. split; [|exact E].
    apply Forall_forall. intros v Hv. rewrite Forall_forall in A. apply A, S, Hv.
  - right; right. exists m'. split; [exact E|]. split; [now apply S|]. split; [exact N|]. intros v Hv. apply L, S, Hv.
Qed.
Lemma ext_unique x m m' : ext_of le x [m] -> ext_of le x [m'] -> same_num m m'.
Proof.
  intros [[_ H]|[(N & A & E)|(a & E & I & Na & L)]]; [discriminate| |]; intros [[_ H']|[(N' & A' & E')|(b & E' & I' & Nb & L')]]; try discriminate; injection E as ->; injection E' as ->.
  - right. split; reflexivity.
  - rewrite Forall_forall in A. rewrite (A b I') in Nb. discriminate.
  - rewrite Forall_forall in A'. rewrite (A' a I) in Na. discriminate.
  - left. apply le_antisym; [now apply L|now apply L'].
Qed.

(* the value of a cell, NaN for null *)
Definition shown (data : list (list num)) (mask : option (list (list bool))) (y x : Z) : num :=
  if null_of mask y x then NaN else val2 NaN data y x.
Lemma window_shown data mask fy fx j k : window_values data (null_of mask) fy fx j k = map (fun '(y, x) => shown data mask y x) (cells_under fy fx j k).
Proof. reflexivity. Qed.
Lemma under_nonempty fy fx j k : 1 <= fy -> 1 <= fx -> cells_under fy fx j k <> [].
Proof. intros Hy Hx E. assert (H : In (j * fy, k * fx) (cells_under fy fx j k)) by (apply in_cells_under; lia). rewrite E in H. destruct H. Qed.
Lemma under_under ay ax by' bx j k y x : 1 <= ay -> 1 <= ax -> 1 <= by' -> 1 <= bx ->
  In (y, x) (cells_under (ay * by') (ax * bx) j k) <-> exists y' x', In (y', x') (cells_under by' bx j k) /\ In (y, x) (cells_under ay ax y' x').
Proof.
  intros. rewrite in_cells_under. split.
  - intros H'. exists (y / ay), (x / ax). rewrite !in_cells_under.
    pose proof (Z.div_mod y ay). pose proof (Z.mod_pos_bound y ay). pose proof (Z.div_mod x ax). pose proof (Z.mod_pos_bound x ax). nia.
  - intros (y' & x' & A & B). apply in_cells_under in A, B. nia.
Qed.

(* one step, in terms of what is shown *)
Lemma step promote nv ny nx fy fx ycs xcs data mask : 1 <= fy -> 1 <= fx -> ~ (fy = 1 /\ fx = 1) -> 0 <= ny -> 0 <= nx ->
  cuts (ny / fy) ycs -> cuts (nx / fx) xcs -> xcs <> [] -> shaped2 ny nx data -> match mask with Some m => shaped2 ny nx m | None => True end ->
  (forall y x, 0 <= y < ny -> 0 <= x < nx -> mask <> None -> null_of mask y x = false -> promote (val2 NaN data y x) = val2 NaN data y x) ->
  exists out omask, aggregate promote nv (Builtin (extreme f)) ny nx fy fx ycs xcs data mask = Ok (out, omask)
  /\ shaped2 (ny / fy) (nx / fx) out /\ (omask = None <-> mask = None) /\ match omask with Some m => shaped2 (ny / fy) (nx / fx) m | None => True end
  /\ forall j k, 0 <= j < ny / fy -> 0 <= k < nx / fx ->
     (null_of omask j k = true <-> mask <> None /\ forall y x, In (y, x) (cells_under fy fx j k) -> null_of mask y x = true)
     /\ (null_of omask j k = true -> val2 NaN out j k = nv)
     /\ ext_of le (map (fun '(y, x) => shown data mask y x) (cells_under fy fx j k)) [shown out omask j k].
Proof.
  intros Hy Hx Hn Ny Nx Cy Cx Nxc S M P.
  destruct (aggregate_spec promote nv (Builtin (extreme f)) (extreme f) ny nx fy fx ycs xcs data mask Hy Hx Hn Ny Nx Cy Cx Nxc) as (out & om & E & SO & MO & V); try assumption.
  { reflexivity. }
  exists out, om. split; [exact E|]. split; [exact SO|]. split; [destruct om; [destruct MO; split; [discriminate|contradiction]|now split]|].
  split; [destruct om; [apply MO|exact I]|]. intros j k Hj Hk. destruct (V j k Hj Hk) as [V1 V2].
  assert (Q : null_of om j k = true <-> mask <> None /\ forall y x, In (y, x) (cells_under fy fx j k) -> null_of mask y x = true).
  { rewrite V1. destruct mask as [m|]; [|split; [discriminate|intros [H _]; contradiction]]. unfold all_null. rewrite forallb_forall. split.
    - intros H. split; [discriminate|]. intros y x Hi. exact (H (y, x) Hi).
    - intros [_ H] [y x] Hi. now apply H. }
  split; [exact Q|]. split; [intros N; now rewrite V2, N|].
  unfold shown at 2. destruct (null_of om j k) eqn:EN.
  - right; left. split; [intros H; apply map_eq_nil in H; now apply (under_nonempty fy fx j k)|]. split; [|reflexivity].
    apply Forall_forall. intros v Hv. apply in_map_iff in Hv. destruct Hv as ([y x] & <- & Hi). unfold shown. now rewrite (proj2 (proj1 Q eq_refl) y x Hi).
  - rewrite V2, window_shown. apply (extreme_ext f le); try assumption. intros H. apply map_eq_nil in H. now apply (under_nonempty fy fx j k) in H.
Qed.

Theorem two_steps promote promote' nv nv' nv'' ny nx ay ax by' bx ycs xcs ycs' xcs' ycs'' xcs'' data mask :
  1 <= ay -> 1 <= ax -> ~ (ay = 1 /\ ax = 1) -> 1 <= by' -> 1 <= bx -> ~ (by' = 1 /\ bx = 1) -> 0 <= ny -> 0 <= nx ->
  cuts (ny / ay) ycs -> cuts (nx / ax) xcs -> xcs <> [] ->
  cuts (ny / ay / by') ycs' -> cuts (nx / ax / bx) xcs' -> xcs' <> [] ->
  cuts (ny / (ay * by')) ycs'' -> cuts (nx / (ax * bx)) xcs'' -> xcs'' <> [] ->
  shaped2 ny nx data -> match mask with Some m => shaped2 ny nx m | None => True end ->
  (forall y x, 0 <= y < ny -> 0 <= x < nx -> mask <> None -> null_of mask y x = false -> promote (val2 NaN data y x) = val2 NaN data y x /\ promote' (val2 NaN data y x) = val2 NaN data y x) ->
  promote' NaN = NaN ->
  exists o1 m1 o2 m2 o m,
    aggregate promote nv (Builtin (extreme f)) ny nx ay ax ycs xcs data mask = Ok (o1, m1)
    /\ aggregate promote' nv' (Builtin (extreme f)) (ny / ay) (nx / ax) by' bx ycs' xcs' o1 m1 = Ok (o2, m2)
    /\ aggregate promote nv'' (Builtin (extreme f)) ny nx (ay * by') (ax * bx) ycs'' xcs'' data mask = Ok (o, m)
    /\ ny / ay / by' = ny / (ay * by') /\ nx / ax / bx = nx / (ax * bx)
    /\ shaped2 (ny / (ay * by')) (nx / (ax * bx)) o2 /\ shaped2 (ny / (ay * by')) (nx / (ax * bx)) o
    /\ (m2 = None <-> m = None)
    /\ forall j k, 0 <= j < ny / (ay * by') -> 0 <= k < nx / (ax * bx) ->
       null_of m2 j k = null_of m j k /\ (null_of m j k = false -> same_num (val2 NaN o2 j k) (val2 NaN o j k)).
Proof.
  intros Ha Hb Hn Ha' Hb' Hn' Ny Nx Cy Cx Nc Cy' Cx' Nc' Cy'' Cx'' Nc'' S M P PN.
  destruct (step promote nv ny nx ay ax ycs xcs data mask) as (o1 & m1 & E1 & S1 & N1 & M1 & V1); try assumption. { intros. now apply P. }
  assert (D1 : ny / ay / by' = ny / (ay * by')) by (apply Z.div_div; lia). assert (D2 : nx / ax / bx = nx / (ax * bx)) by (apply Z.div_div; lia).
  destruct (step promote' nv' (ny / ay) (nx / ax) by' bx ycs' xcs' o1 m1) as (o2 & m2 & E2 & S2 & N2 & M2 & V2); try assumption.
  { apply Z.div_pos; lia. } { apply Z.div_pos; lia. }
  { intros y x Hy Hx Hm HN. destruct (V1 y x Hy Hx) as (_ & _ & X). unfold shown at 2 in X. rewrite HN in X.
    destruct X as [[_ X]|[(_ & _ & X)|(v & X & I & NV & _)]]; [discriminate| |]; injection X as X; rewrite X; [exact PN|].
    apply in_map_iff in I. destruct I as ([p q] & I & U). unfold shown in I. destruct (null_of mask p q) eqn:EN; [rewrite <- I in NV; discriminate NV|]. rewrite <- I.
    destruct (under_range ay ax ny nx y x p q) as [R1 R2]; try assumption. apply (P p q R1 R2); [now rewrite <- N1|exact EN]. }
  assert (L1 : 1 <= ay * by') by (clear - Ha Ha'; nia). assert (L2 : 1 <= ax * bx) by (clear - Hb Hb'; nia).
  assert (L3 : ~ (ay * by' = 1 /\ ax * bx = 1)) by (clear - Ha Hb Hn Ha' Hb'; intros [X Y]; apply Hn; split; nia).
  destruct (step promote nv'' ny nx (ay * by') (ax * bx) ycs'' xcs'' data mask) as (o & m & E & S3 & N3 & M3 & V3); try assumption. { intros. now apply P. }
  exists o1, m1, o2, m2, o, m. split; [exact E1|]. split; [exact E2|]. split; [exact E|]. split; [exact D1|]. split; [exact D2|].
  rewrite <- D1, <- D2 in *. split; [exact S2|]. split; [exact S3|]. split; [tauto|]. intros j k Hj Hk.
  destruct (V2 j k Hj Hk) as (A1 & _ & A3). destruct (V3 j k Hj Hk) as (B1 & _ & B3).
  assert (R : forall y' x', In (y', x') (cells_under by' bx j k) -> 0 <= y' < ny / ay /\ 0 <= x' < nx / ax).
  { intros y' x' U. apply (under_range by' bx (ny / ay) (nx / ax) j k); try assumption; apply Z.div_pos; lia. }
  assert (Q : null_of m2 j k = null_of m j k).
  { apply Bool.eq_iff_eq_true. rewrite A1, B1. split; intros [X Y]; (split; [tauto|]).
    - intros y x U. apply (under_under ay ax by' bx) in U; try assumption. destruct U as (y' & x' & U1 & U2). specialize (Y y' x' U1). destruct (R y' x' U1) as [R1 R2].
      destruct (V1 y' x' R1 R2) as (W & _). now apply W.
    - intros y' x' U. destruct (R y' x' U) as [R1 R2]. destruct (V1 y' x' R1 R2) as (W & _). apply W. split; [exact X|]. intros y x U'. apply Y. apply (under_under ay ax by' bx); try assumption. eauto. }
  split; [exact Q|]. intros HN.
  assert (X : ext_of le (map (fun '(y, x) => shown data mask y x) (cells_under (ay * by') (ax * bx) j k)) [shown o2 m2 j k]).
  { apply (ext_members (concat (map (fun '(y', x') => map (fun '(y, x) => shown data mask y x) (cells_under ay ax y' x')) (cells_under by' bx j k)))).
    - apply (ext_concat le le_refl le_trans _ (map (fun '(y', x') => [shown o1 m1 y' x']) (cells_under by' bx j k))).
      + assert (R' : forall p, In p (cells_under by' bx j k) -> 0 <= fst p < ny / ay /\ 0 <= snd p < nx / ax) by (intros [y' x'] U; now apply R).
        clear - R' V1. induction (cells_under by' bx j k) as [|[y' x'] l IH]; [constructor|]. cbn [map]. constructor.
        * destruct (R' (y', x') (or_introl eq_refl)) as [R1 R2]. apply (V1 y' x' R1 R2).
        * apply IH. intros p U. apply R'. now right.
      + replace (concat _) with (map (fun '(y', x') => shown o1 m1 y' x') (cells_under by' bx j k)); [exact A3|].
        clear. induction (cells_under by' bx j k) as [|[y' x'] l IH]; [reflexivity|]. cbn [map concat app]. now rewrite <- IH.
    - intros v. rewrite in_concat, in_map_iff. split.
      + intros (l & I & J). apply in_map_iff in I. destruct I as ([y' x'] & <- & U). apply in_map_iff in J. destruct J as ([y x] & J & U'). exists (y, x). split; [exact J|]. apply (under_under ay ax by' bx); try assumption. eauto.
      + intros ([y x] & J & U). apply (under_under ay ax by' bx) in U; try assumption. destruct U as (y' & x' & U1 & U2).
        eexists. split; [apply in_map_iff; exists (y', x'); split; [reflexivity|exact U1]|]. apply in_map_iff. exists (y, x). now split. }
  pose proof (ext_unique _ _ _ X B3) as Y. unfold shown in Y. now rewrite Q, HN in Y.
Qed.
End TwoSteps.
Definition two_steps_max := two_steps fmax (fun a b => num_leb b a) fmax_nan_l fmax_nan_r fmax_sel num_leb_refl
  (fun a b c H1 H2 => num_leb_trans c b a H2 H1) (fun a b H1 H2 => num_leb_antisym a b H2 H1).
Definition two_steps_min := two_steps fmin num_leb fmin_nan_l fmin_nan_r fmin_sel num_leb_refl num_leb_trans num_leb_antisym.

Lemma two_steps_coords a b n x0 r coords : 1 <= a -> 1 <= b -> 0 <= n -> len coords = n ->
  (forall i c, get coords i = Ok c -> (c == x0 + r * (inject_Z i + (1 # 2)))%Q) ->
  len (coarsen_coords b (n / a) (coarsen_coords a n coords)) = len (coarsen_coords (a * b) n coords)
  /\ forall k c c', get (coarsen_coords b (n / a) (coarsen_coords a n coords)) k = Ok c -> get (coarsen_coords (a * b) n coords) k = Ok c' -> (c == c')%Q.
Proof.
  intros Ha Hb Hn L C. destruct (coords_spec a n x0 r Ha Hn coords L C) as [L1 C1].
  assert (Hm : 0 <= n / a) by (apply Z.div_pos; lia). assert (Hab : 1 <= a * b) by nia.
  destruct (coords_spec b (n / a) x0 (r * inject_Z a) Hb Hm _ L1 C1) as [L2 C2]. destruct (coords_spec (a * b) n x0 r Hab Hn coords L C) as [L3 C3].
  split; [rewrite L2, L3; apply Z.div_div; lia|]. intros k c c' E E'. rewrite (C2 k c E), (C3 k c' E'), inject_Z_mult. ring.
Qed.
