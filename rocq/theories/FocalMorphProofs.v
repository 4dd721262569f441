(* Dilation and erosion are focal maximum and minimum of rectangles *)
From Coq Require Import QArith Lia List.
From Verif Require Import Base BaseFacts Scalars NumFacts Chunks ChunksSpec ChunksProofs Arr2 Arr2Facts Stats StatsSpec StatsProofs Focal FocalSpec FocalProofs FocalValues FocalFast FocalCorr FocalResults Morph MorphSpec MorphProofs.
Import ListNotations.
Open Scope Z_scope.

Lemma at2_val2 {A} (d : A) a i j x : at2 a i j x -> val2 d a i j = x.
Proof. intros (row & E & F). unfold val2. now rewrite E, F. Qed.
Lemma val2_default {A} (d d' : A) ny nx a i j : shaped2 ny nx a -> 0 <= i < ny -> 0 <= j < nx -> val2 d' a i j = val2 d a i j.
Proof. intros S Hi Hj. rewrite (shaped_tab d ny nx a S) at 1 by lia. now rewrite val2_tab by lia. Qed.
Lemma val2_full kr kc a b : 0 < kr -> 0 < kc -> val2 false (full kr (full kc true)) a b = true <-> 0 <= a < kr /\ 0 <= b < kc.
Proof.
  intros Hr Hc. split.
  - unfold val2. destruct (get (full kr (full kc true)) a) as [row|] eqn:E; [|discriminate]. pose proof (get_ok_range _ _ _ E) as R. rewrite full_len in R by lia.
    destruct (get row b) eqn:E'; [|discriminate]. intros _. rewrite get_full in E by lia. injection E as <-. apply get_ok_range in E'. rewrite full_len in E'; lia.
  - intros [Ha Hb]. unfold val2. rewrite get_full by lia. now rewrite get_full by lia.
Qed.
Lemma in_cells ny nx p q : In (p, q) (cells ny nx) <-> 0 <= p < ny /\ 0 <= q < nx.
Proof.
  unfold cells. rewrite in_concat. split.
  - intros (l & Hl & H). apply in_map_iff in Hl. destruct Hl as (i & <- & Hi). apply in_map_iff in H. destruct H as (j & [= <- <-] & H). apply zrange_in in Hi, H. lia.
  - intros [Hp Hq]. exists (map (fun j => (p, j)) (zrange 0 nx)). split; apply in_map_iff; [exists p|exists q]; (split; [reflexivity|]; apply zrange_in; lia).
Qed.
Lemma shaped_full kr kc : 0 < kr -> 0 < kc -> shaped2 kr kc (full kr (full kc true)).
Proof.
  intros Hr Hc. split; [apply full_len; lia|]. apply Forall_forall. intros r H. unfold full in H. apply repeat_spec in H. subst r. apply full_len. lia.
Qed.
(* the window of n cells *)
Notation around := reaches_down (only parsing).
Lemma win_entry n k : 0 < n -> 0 <= k + (n - 1) / 2 < n <-> around n k.
Proof. intros Hn. unfold reaches_down. pose proof (Z.div_mod n 2 ltac:(lia)). pose proof (Z.mod_pos_bound n 2 ltac:(lia)). pose proof (Z.div_mod (n - 1) 2 ltac:(lia)). pose proof (Z.mod_pos_bound (n - 1) 2 ltac:(lia)). lia. Qed.
Lemma odd_up n k : n mod 2 = 1 -> reaches_up n k <-> around n k.
Proof. intros Ho. unfold reaches_down, reaches_up. pose proof (half_odd n Ho). lia. Qed.
Lemma win_self n k : 0 < n -> around n (k - k).
Proof. intros Hn. unfold reaches_down. pose proof (Z.div_pos (n - 1) 2). pose proof (Z.div_pos n 2). lia. Qed.

Section Values.
Variables (kr kc ny nx : Z) (data : list (list num)) (nul : Z -> Z -> bool).
Hypothesis (Hr : 0 < kr) (Hc : 0 < kc).
Hypothesis NN : forall p q, 0 <= p < ny -> 0 <= q < nx -> nul p q = false -> is_nan (val2 NaN data p q) = false.
Definition in_win i j p q : Prop := around kr (p - i) /\ around kc (q - j) /\ (0 <= p < ny /\ 0 <= q < nx) /\ nul p q = false.
Lemma focal_in i j v : In v (focal_values data nul (full kr (full kc true)) kr kc ny nx i j) <-> exists p q, in_win i j p q /\ val2 NaN data p q = v.
Proof.
  unfold focal_values. rewrite filter_In, in_map_iff. split.
  - intros [([p q] & <- & H) _]. apply filter_In in H. destruct H as [C H]. apply in_cells in C. apply Bool.andb_true_iff in H. destruct H as [U M]. apply Bool.negb_true_iff in M.
    unfold under in U. apply val2_full in U; try assumption. exists p, q. split; [|reflexivity]. split; [now apply win_entry|]. split; [now apply win_entry|]. now split.
  - intros (p & q & (A & B & C & M) & <-). split; [|now rewrite (NN p q (proj1 C) (proj2 C) M)]. exists (p, q). split; [reflexivity|]. apply filter_In. split; [now apply in_cells|].
    rewrite M, Bool.andb_true_r. unfold under. apply val2_full; try assumption. split; [now apply win_entry|now apply win_entry].
Qed.
Lemma stat_in other s i j p0 q0 : s = SMax \/ s = SMin -> in_win i j p0 q0 ->
  let v := stat_func other s (focal_values data nul (full kr (full kc true)) kr kc ny nx i j) in
  is_nan v = false /\ (s = SMax -> greatest_in (in_win i j) (val2 NaN data) v) /\ (s = SMin -> least_in (in_win i j) (val2 NaN data) v).
Proof.
  intros HS W. cbv zeta. pose proof (focal_in i j) as F.
  assert (NV : Forall (fun v => is_nan v = false) (focal_values data nul (full kr (full kc true)) kr kc ny nx i j)).
  { apply Forall_forall. intros v Hv. apply F in Hv. destruct Hv as (p & q & (_ & _ & C & M) & <-). now apply NN. }
  assert (ID : drop_nan (focal_values data nul (full kr (full kc true)) kr kc ny nx i j) = focal_values data nul (full kr (full kc true)) kr kc ny nx i j).
  { clear F. induction NV as [|v l H _ IH]; [reflexivity|]. unfold drop_nan in *. cbn [filter]. rewrite H. cbn [negb]. now rewrite IH. }
  destruct (focal_values data nul (full kr (full kc true)) kr kc ny nx i j) as [|a t] eqn:E.
  { destruct (proj2 (F _) (ex_intro _ p0 (ex_intro _ q0 (conj W eq_refl)))). }
  inversion NV as [|? ? Na Nt]; subst.
  assert (R : forall v, In v (a :: t) -> is_nan v = false) by (intros v Hv; rewrite Forall_forall in NV; now apply NV).
  destruct HS as [-> | ->]; cbn [stat_func]; unfold nanmax, nanmin; rewrite ID.
  - destruct (fold_max_spec t a Na Nt) as [I L]. split; [now apply R|]. split; [|discriminate]. intros _. split.
    + apply F in I as I'. destruct I' as (p & q & W' & E'). exists p, q. split; [exact W'|]. rewrite E'. apply num_eqb_refl. now apply R.
    + intros p q W'. apply L, F. eauto.
  - destruct (fold_min_spec t a Na Nt) as [I L]. split; [now apply R|]. split; [discriminate|]. intros _. split.
    + apply F in I as I'. destruct I' as (p & q & W' & E'). exists p, q. split; [exact W'|]. rewrite E'. apply num_eqb_refl. now apply R.
    + intros p q W'. apply L, F. eauto.
Qed.
End Values.
Lemma num_leb_eq a b c : num_leb a b = true -> num_eqb b c = true -> num_leb a c = true.
Proof. intros H E. apply (num_leb_trans _ b); [exact H|]. unfold num_leb. rewrite E. apply Bool.orb_true_r. Qed.
Lemma num_leb_eq' a b c : num_eqb a b = true -> num_leb a c = true -> num_leb b c = true.
Proof. intros E H. apply (num_leb_trans _ a); [|exact H]. unfold num_leb. rewrite num_eqb_sym, E. apply Bool.orb_true_r. Qed.
Lemma greatest_unique W W' value v v' : (forall p q, W p q <-> W' p q) -> greatest_in W value v -> greatest_in W' value v' -> num_eqb v v' = true.
Proof.
  intros S [(p & q & P & E) L] [(p' & q' & P' & E') L']. apply num_leb_antisym.
  - apply (num_leb_eq' (value p q)); [exact E|]. apply L', S, P.
  - apply (num_leb_eq' (value p' q')); [exact E'|]. apply L, S, P'.
Qed.
Lemma least_unique W W' value v v' : (forall p q, W p q <-> W' p q) -> least_in W value v -> least_in W' value v' -> num_eqb v v' = true.
Proof.
  intros S [(p & q & P & E) L] [(p' & q' & P' & E') L']. apply num_leb_antisym.
  - apply (num_leb_eq _ (value p' q')); [|exact E']. apply L, S, P'.
  - apply (num_leb_eq _ (value p q)); [|exact E]. apply L', S, P.
Qed.

Lemma held_nan d v : held_by d v -> is_nan v = false.
Proof. destruct v; [reflexivity..|intros []]. Qed.
Lemma win_valid kr kc ny nx mask i j p q : shaped2 ny nx mask ->
  in_win kr kc ny nx (val2 false mask) i j p q <-> around kr (p - i) /\ around kc (q - j) /\ valid_cell (Some mask) ny nx p q.
Proof.
  intros S. unfold in_win, valid_cell. split; intros (A & B & C); (split; [exact A|]; split; [exact B|]).
  - destruct C as [[C D] M]. split; [exact C|]. split; [exact D|]. now rewrite (val2_default false true ny nx).
  - destruct C as (C & D & M). split; [now split|]. now rewrite (val2_default true false ny nx).
Qed.
Section Masked.
Variables (other : Z -> list num -> num) (junk : Z -> Z -> arr2 num) (s : size) (kr kc : Z) (d : dtype) (nv : num) (ny nx : Z) (ycs xcs ycs' xcs' : list Z) (data : list (list num)) (mask : list (list bool)).
Theorem dilate_focal : allocates junk -> dims s = Some (kr, kc) -> 0 < kr -> 0 < kc -> ~ (kr = 1 /\ kc = 1) -> d <> BOOL ->
  0 < ny -> 0 < nx -> kr / 2 <= ny -> kc / 2 <= nx -> cuts ny ycs -> cuts nx xcs -> cuts ny ycs' -> cuts nx xcs' -> shaped2 ny nx data -> shaped2 ny nx mask ->
  (forall p q, valid_cell (Some mask) ny nx p q -> held_by d (val2 NaN data p q) /\ val2 NaN data p q <> MInf) ->
  exists fo fm o om, focal other junk ny nx ycs xcs (full kr (full kc true)) kr kc SMax false (Band data (Some mask)) = Ok (Band fo (Some fm))
  /\ dilate_or_erode Dilation s d nv ny nx ycs' xcs' (Band data (Some mask)) = Ok (Band o (Some om))
  /\ forall i j, 0 <= i < ny -> 0 <= j < nx -> val2 true fm i j = val2 true mask i j
     /\ (val2 true mask i j = false -> val2 true om i j = false /\ num_eqb (val2 NaN fo i j) (val2 NaN o i j) = true).
Proof.
  intros AJ DS Hr Hc H1 HD Hy Hx By Bx C1 C2 C3 C4 SD SM HV.
  destruct (masked_result other junk kr kc ny nx ycs xcs (full kr (full kc true)) SMax data mask) as (fo & fm & EF & _ & SF & VF); try assumption. { now apply shaped_full. }
  destruct (dilate_spec s kr kc d nv ny nx ycs' xcs' data (Some mask)) as (o & om & ED & _ & MO & VD); try assumption.
  destruct om as [om|]; [|discriminate]. exists fo, fm, o, om. split; [exact EF|]. split; [exact ED|]. intros i j Hi Hj.
  destruct (VF i j Hi Hj) as [F1 F2]. destruct (VD i j Hi Hj) as [D1 D2]. cbv zeta in *. cbn [null_cell] in D1, D2.
  apply (at2_val2 true) in F1. apply (at2_val2 NaN) in F2. rewrite (val2_default true false ny nx mask i j SM Hi Hj) in F1, F2.
  assert (NN : forall p q, 0 <= p < ny -> 0 <= q < nx -> val2 false mask p q = false -> is_nan (val2 NaN data p q) = false).
  { intros p q Hp Hq M. apply (held_nan d). apply HV. split; [exact Hp|]. split; [exact Hq|]. now rewrite (val2_default false true ny nx). }
  destruct (val2 true mask i j) eqn:M; [split; [exact F1|discriminate]|].
  assert (W : in_win kr kc ny nx (val2 false mask) i j i j).
  { split; [now apply win_self|]. split; [now apply win_self|]. split; [now split|]. now rewrite (val2_default true false ny nx). }
  destruct (stat_in kr kc ny nx data (val2 false mask) Hr Hc NN other SMax i j i j (or_introl eq_refl) W) as (N & G & _). specialize (G eq_refl).
  cbn [orb] in F1. rewrite N in F1. split; [exact F1|]. intros _.
  assert (Q : forall p q, in_win kr kc ny nx (val2 false mask) i j p q <-> reaches_down kr (p - i) /\ reaches_down kc (q - j) /\ valid_cell (Some mask) ny nx p q).
  { intros p q. rewrite (win_valid kr kc ny nx mask i j p q SM). reflexivity. }
  assert (E : val2 true om i j = false) by (apply D1; exists i, j; now apply Q). split; [exact E|]. rewrite E in D2. rewrite F2. exact (greatest_unique _ _ _ _ _ Q G D2).
Qed.
Theorem erode_focal : allocates junk -> dims s = Some (kr, kc) -> 0 < kr -> 0 < kc -> ~ (kr = 1 /\ kc = 1) -> kr mod 2 = 1 -> kc mod 2 = 1 -> d <> BOOL ->
  0 < ny -> 0 < nx -> kr / 2 <= ny -> kc / 2 <= nx -> cuts ny ycs -> cuts nx xcs -> cuts ny ycs' -> cuts nx xcs' -> shaped2 ny nx data -> shaped2 ny nx mask ->
  (forall p q, valid_cell (Some mask) ny nx p q -> held_by d (val2 NaN data p q) /\ val2 NaN data p q <> PInf) ->
  exists fo fm o om, focal other junk ny nx ycs xcs (full kr (full kc true)) kr kc SMin false (Band data (Some mask)) = Ok (Band fo (Some fm))
  /\ dilate_or_erode Erosion s d nv ny nx ycs' xcs' (Band data (Some mask)) = Ok (Band o (Some om))
  /\ forall i j, 0 <= i < ny -> 0 <= j < nx -> val2 true fm i j = val2 true mask i j
     /\ (val2 true om i j = false -> val2 true mask i j = false /\ num_eqb (val2 NaN fo i j) (val2 NaN o i j) = true).
Proof.
  intros AJ DS Hr Hc H1 Or Oc HD Hy Hx By Bx C1 C2 C3 C4 SD SM HV.
  destruct (masked_result other junk kr kc ny nx ycs xcs (full kr (full kc true)) SMin data mask) as (fo & fm & EF & _ & SF & VF); try assumption. { now apply shaped_full. }
  destruct (erode_spec s kr kc d nv ny nx ycs' xcs' data (Some mask)) as (o & om & ED & _ & MO & VD); try assumption.
  destruct om as [om|]; [|discriminate]. exists fo, fm, o, om. split; [exact EF|]. split; [exact ED|]. intros i j Hi Hj.
  destruct (VF i j Hi Hj) as [F1 F2]. destruct (VD i j Hi Hj) as [D1 D2]. cbv zeta in *. cbn [null_cell] in D1, D2.
  apply (at2_val2 true) in F1. apply (at2_val2 NaN) in F2. rewrite (val2_default true false ny nx mask i j SM Hi Hj) in F1, F2.
  assert (NN : forall p q, 0 <= p < ny -> 0 <= q < nx -> val2 false mask p q = false -> is_nan (val2 NaN data p q) = false).
  { intros p q Hp Hq M. apply (held_nan d). apply HV. split; [exact Hp|]. split; [exact Hq|]. now rewrite (val2_default false true ny nx). }
  assert (A0 : around kr (i - i) /\ around kc (j - j)) by (split; now apply win_self).
  destruct (val2 true mask i j) eqn:M.
  { split; [exact F1|]. intros E. exfalso. destruct (proj1 D1 E) as [X|X]; [discriminate|]. destruct (X i j) as (_ & _ & Y); [|congruence].
    split; [now apply odd_up|now apply odd_up]. }
  assert (W : in_win kr kc ny nx (val2 false mask) i j i j).
  { split; [apply A0|]. split; [apply A0|]. split; [now split|]. now rewrite (val2_default true false ny nx). }
  destruct (stat_in kr kc ny nx data (val2 false mask) Hr Hc NN other SMin i j i j (or_intror eq_refl) W) as (N & _ & G). specialize (G eq_refl).
  cbn [orb] in F1. rewrite N in F1. split; [exact F1|]. intros E. split; [reflexivity|].
  assert (Q : forall p q, in_win kr kc ny nx (val2 false mask) i j p q <-> (reaches_up kr (p - i) /\ reaches_up kc (q - j)) /\ valid_cell (Some mask) ny nx p q).
  { intros p q. rewrite (win_valid kr kc ny nx mask i j p q SM). rewrite (odd_up kr), (odd_up kc) by assumption. tauto. }
  rewrite E in D2. rewrite F2. exact (least_unique _ _ _ _ _ Q G D2).
Qed.
End Masked.
Section Unmasked.
Variables (other : Z -> list num -> num) (junk : Z -> Z -> arr2 num) (s : size) (kr kc : Z) (d : dtype) (nv : num) (ny nx : Z) (ycs xcs ycs' xcs' : list Z) (data : list (list num)).
Lemma solid_full : 0 < kr -> 0 < kc -> solid (full kr (full kc true)) kr kc.
Proof.
  intros Hr Hc a b a' b' H A B. apply val2_full in H; try assumption. apply val2_full; try assumption. unfold between in *.
  pose proof (Z.div_mod (kr - 1) 2 ltac:(lia)). pose proof (Z.mod_pos_bound (kr - 1) 2 ltac:(lia)). pose proof (Z.div_mod (kc - 1) 2 ltac:(lia)). pose proof (Z.mod_pos_bound (kc - 1) 2 ltac:(lia)). lia.
Qed.
Theorem unmasked_focal op st : op = Dilation /\ st = SMax \/ op = Erosion /\ st = SMin ->
  dims s = Some (kr, kc) -> 0 < kr -> 0 < kc -> ~ (kr = 1 /\ kc = 1) -> kr mod 2 = 1 -> kc mod 2 = 1 -> d <> BOOL ->
  0 < ny -> 0 < nx -> kr / 2 <= ny -> kc / 2 <= nx -> cuts ny ycs' -> cuts nx xcs' -> shaped2 ny nx data -> all_cells finite data ->
  (forall p q, 0 <= p < ny -> 0 <= q < nx -> held_by d (val2 NaN data p q)) ->
  exists fo o, focal other junk ny nx ycs xcs (full kr (full kc true)) kr kc st false (Band data None) = Ok (Band fo None)
  /\ dilate_or_erode op s d nv ny nx ycs' xcs' (Band data None) = Ok (Band o None)
  /\ forall i j, 0 <= i < ny -> 0 <= j < nx -> num_eqb (val2 NaN fo i j) (val2 NaN o i j) = true.
Proof.
  intros HO DS Hr Hc H1 Or Oc HD Hy Hx By Bx C3 C4 SD FD HV.
  assert (FI : forall p q, 0 <= p < ny -> 0 <= q < nx -> exists z, val2 NaN data p q = Fin z).
  { intros p q Hp Hq. destruct SD as [L F]. destruct (get_range data p ltac:(lia)) as [row E]. unfold all_cells in FD. unfold val2. rewrite E. apply get_in in E. rewrite Forall_forall in F, FD.
    specialize (F row E). specialize (FD row E). rewrite Forall_forall in FD. destruct (get_range row q ltac:(lia)) as [v E']. rewrite E'. apply get_in in E'. specialize (FD v E').
    destruct v; try discriminate. eauto. }
  destruct (unmasked_fast_result other junk kr kc ny nx ycs xcs (full kr (full kc true)) st false data) as (fo & EF & _ & VF); try assumption. { now apply shaped_full. }
  { right. split; [destruct HO as [[_ ->]|[_ ->]]; auto|now apply solid_full]. }
  assert (NN : forall p q, 0 <= p < ny -> 0 <= q < nx -> false = false -> is_nan (val2 NaN data p q) = false).
  { intros p q Hp Hq _. destruct (FI p q Hp Hq) as [z ->]. reflexivity. }
  assert (A0 : forall i j, around kr (i - i) /\ around kc (j - j)) by (intros i j; split; now apply win_self).
  assert (EQ : forall v w u, nan_equal v w = true -> is_nan w = false -> num_eqb w u = true -> num_eqb v u = true).
  { intros v w u Q N T. unfold nan_equal in Q. destruct (is_nan v); [congruence|]. now apply (num_eqb_trans _ w). }
  destruct HO as [[-> ->]|[-> ->]].
  - destruct (dilate_spec s kr kc d nv ny nx ycs' xcs' data None) as (o & om & ED & _ & MO & VD); try assumption; try exact I.
    { intros p q (Hp & Hq & _). split; [now apply HV|]. destruct (FI p q Hp Hq) as [z ->]. discriminate. }
    destruct om as [om|]; [destruct MO; congruence|]. exists fo, o. split; [exact EF|]. split; [exact ED|]. intros i j Hi Hj.
    destruct (VF i j Hi Hj) as (v & AV & QV). apply (at2_val2 NaN) in AV. rewrite AV. destruct (VD i j Hi Hj) as [_ D2]. cbn [null_cell] in D2.
    assert (W : in_win kr kc ny nx (fun _ _ => false) i j i j) by (split; [apply (A0 i j)|]; split; [apply (A0 i j)|]; now split).
    destruct (stat_in kr kc ny nx data (fun _ _ => false) Hr Hc NN other SMax i j i j (or_introl eq_refl) W) as (N & G & _). specialize (G eq_refl).
    refine (EQ _ _ _ QV N (greatest_unique _ _ _ _ _ _ G D2)). intros p q. unfold in_win, valid_cell. tauto.
  - destruct (erode_spec s kr kc d nv ny nx ycs' xcs' data None) as (o & om & ED & _ & MO & VD); try assumption; try exact I.
    { intros p q (Hp & Hq & _). split; [now apply HV|]. destruct (FI p q Hp Hq) as [z ->]. discriminate. }
    destruct om as [om|]; [destruct MO; congruence|]. exists fo, o. split; [exact EF|]. split; [exact ED|]. intros i j Hi Hj.
    destruct (VF i j Hi Hj) as (v & AV & QV). apply (at2_val2 NaN) in AV. rewrite AV. destruct (VD i j Hi Hj) as [_ D2]. cbn [null_cell] in D2.
    assert (W : in_win kr kc ny nx (fun _ _ => false) i j i j) by (split; [apply (A0 i j)|]; split; [apply (A0 i j)|]; now split).
    destruct (stat_in kr kc ny nx data (fun _ _ => false) Hr Hc NN other SMin i j i j (or_intror eq_refl) W) as (N & _ & G). specialize (G eq_refl).
    refine (EQ _ _ _ QV N (least_unique _ _ _ _ _ _ G D2)). intros p q. unfold in_win, valid_cell.
    rewrite (odd_up kr), (odd_up kc) by assumption. tauto.
Qed.
End Unmasked.
