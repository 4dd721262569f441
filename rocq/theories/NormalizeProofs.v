From Coq Require Import QArith String Permutation.
From Verif Require Import Base BaseFacts Scalars Arr2 Arr2Facts FocalSpec BandsSpec Bands BandsProofs PointsProofs Vectors BlockArgs MapBlocks MapBlocksSpec MapBlocksProofs ProximityChunk ChunksProofs Normalize NormalizeSpec.
Open Scope Z_scope.

(* ---- lists turned round ---- *)
Lemma len_rev {A} (l : list A) : len (rev l) = len l. Proof. unfold len. now rewrite rev_length. Qed.
Lemma get_nth {A} (l : list A) i d : 0 <= i < len l -> get l i = Ok (nth (Z.to_nat i) l d).
Proof.
  intros H. unfold get. replace (i <? 0) with false by lia. destruct (nth_error l (Z.to_nat i)) eqn:E.
  - f_equal. symmetry. now apply nth_error_nth.
  - apply nth_error_None in E. unfold len in H. lia.
Qed.
Lemma get_rev {A} (l : list A) i : 0 <= i < len l -> get (rev l) i = get l (len l - 1 - i).
Proof.
  intros H. destruct l as [|d l]; [unfold len in H; cbn in H; lia|]. rewrite (get_nth _ _ d) by (rewrite len_rev; lia). rewrite (get_nth _ _ d) by lia.
  f_equal. rewrite rev_nth by (unfold len in H; lia). f_equal. unfold len in *. lia.
Qed.
Lemma get_rev' {A} (l : list A) i : 0 <= i < len l -> get (rev l) (len l - 1 - i) = get l i.
Proof. intros H. rewrite get_rev by lia. f_equal. lia. Qed.

Lemma qlt_bool p q : Qlt_bool p q = true <-> (p < q)%Q.
Proof.
  unfold Qlt_bool. rewrite negb_true_iff. rewrite <- not_true_iff_false. rewrite Qle_bool_iff. split; [apply Qnot_le_lt|apply Qlt_not_le].
Qed.
Lemma ordered_cons r p q l : ordered r (p :: q :: l) <-> r p q /\ ordered r (q :: l).
Proof.
  split.
  - intros H. split; [now apply (H 0 p q)|]. intros i u v E1 E2. pose proof (get_ok_range _ _ _ E1). apply (H (i + 1)); rewrite get_cons by lia; [rewrite <- E1|rewrite <- E2]; f_equal; lia.
  - intros [H1 H2] i u v E1 E2. pose proof (get_ok_range _ _ _ E1). destruct (Z.eq_dec i 0) as [->|N].
    + cbn in E1. injection E1 as <-. change (0 + 1) with 1 in E2. injection E2 as <-. exact H1.
    + rewrite get_cons in E1, E2 by lia. apply (H2 (i - 1)); [exact E1|]. rewrite <- E2. f_equal. lia.
Qed.
Lemma steps_ordered r (R : Q -> Q -> Prop) l : (forall p q, r p q = true <-> R p q) -> (steps r l = true <-> ordered R l).
Proof.
  intros HR. induction l as [|p [|q l] IH].
  - split; [|reflexivity]. intros _ i u v E. pose proof (get_ok_range _ _ _ E). unfold len in *; cbn in *; lia.
  - split; [|reflexivity]. intros _ i u v E1 E2. pose proof (get_ok_range _ _ _ E1). pose proof (get_ok_range _ _ _ E2). unfold len in *; cbn in *; lia.
  - rewrite ordered_cons, <- IH, <- HR.  change (steps r (p :: q :: l)) with (r p q && steps r (q :: l)). apply andb_true_iff.
Qed.
Lemma increasing_iff l : is_strictly_increasing l = true <-> 1 < len l /\ increasing l.
Proof. unfold is_strictly_increasing. rewrite andb_true_iff, (steps_ordered _ Qlt) by apply qlt_bool. unfold increasing. intuition lia. Qed.
Lemma decreasing_iff l : is_strictly_decreasing l = true <-> 1 < len l /\ decreasing l.
Proof. unfold is_strictly_decreasing. rewrite andb_true_iff, (steps_ordered _ (fun p q => q < p)%Q) by (intros; apply qlt_bool). unfold decreasing. intuition lia. Qed.
Lemma rev_decreasing l : decreasing l -> increasing (rev l).
Proof.
  intros H i p q E1 E2. pose proof (get_ok_range _ _ _ E1). pose proof (get_ok_range _ _ _ E2). rewrite len_rev in *. rewrite get_rev in E1, E2 by lia.
  apply (H (len l - 1 - (i + 1))); [exact E2|]. rewrite <- E1. f_equal. lia.
Qed.
Lemma rev_increasing l : increasing l -> decreasing (rev l).
Proof.
  intros H i p q E1 E2. pose proof (get_ok_range _ _ _ E1). pose proof (get_ok_range _ _ _ E2). rewrite len_rev in *. rewrite get_rev in E1, E2 by lia.
  apply (H (len l - 1 - (i + 1))); [exact E2|]. rewrite <- E1. f_equal. lia.
Qed.
Lemma short_ordered r l : len l <= 1 -> ordered r l.
Proof. intros H i p q E1 E2. pose proof (get_ok_range _ _ _ E1). pose proof (get_ok_range _ _ _ E2). lia. Qed.

(* ---- orientation ---- *)
Lemma moved_same l i : 0 <= i < len l -> moved l l i i /\ get l i = get l i. Proof. intros. split; [left; auto|reflexivity]. Qed.
Lemma moved_rev l i : 0 <= i < len l -> moved l (rev l) i (len l - 1 - i) /\ get (rev l) (len l - 1 - i) = get l i.
Proof. intros. split; [right; auto|now apply get_rev']. Qed.
Lemma at3_flip_x {A} nb ny nx (a : arr3 A) b i j v : shaped3 nb ny nx a -> at3 a b i j v -> at3 (map (map (@rev A)) a) b i (nx - 1 - j) v.
Proof.
  intros [L F] (band & G1 & row & G2 & G3). exists (map (@rev A) band). split; [now rewrite get_map_eq, G1|]. exists (rev row). split; [now rewrite get_map_eq, G2|].
  rewrite Forall_forall in F. destruct (F band (get_in _ _ _ G1)) as [L2 F2]. rewrite Forall_forall in F2. pose proof (F2 row (get_in _ _ _ G2)) as L3.
  pose proof (get_ok_range _ _ _ G3). rewrite <- L3. now rewrite get_rev' by lia.
Qed.
Lemma at3_flip_y {A} nb ny nx (a : arr3 A) b i j v : shaped3 nb ny nx a -> at3 a b i j v -> at3 (map (@rev (list A)) a) b (ny - 1 - i) j v.
Proof.
  intros [L F] (band & G1 & row & G2 & G3). exists (rev band). split; [now rewrite get_map_eq, G1|]. exists row. split; [|exact G3].
  rewrite Forall_forall in F. destruct (F band (get_in _ _ _ G1)) as [L2 F2]. pose proof (get_ok_range _ _ _ G2). rewrite <- L2. now rewrite get_rev' by lia.
Qed.
Lemma shaped3_flip_x {A} nb ny nx (a : arr3 A) : shaped3 nb ny nx a -> shaped3 nb ny nx (map (map (@rev A)) a).
Proof.
  intros [L F]. split; [now rewrite len_map|]. apply Forall_map. eapply Forall_impl; [|exact F]. intros band [L2 F2]. split; [now rewrite len_map|].
  apply Forall_map. eapply Forall_impl; [|exact F2]. intros row H. now rewrite len_rev.
Qed.
Lemma shaped3_flip_y {A} nb ny nx (a : arr3 A) : shaped3 nb ny nx a -> shaped3 nb ny nx (map (@rev (list A)) a).
Proof.
  intros [L F]. split; [now rewrite len_map|]. apply Forall_map. eapply Forall_impl; [|exact F]. intros band [L2 F2]. split; [now rewrite len_rev|]. now apply Forall_rev.
Qed.
Lemma orient_places {A} nb ys xs (a : arr3 A) : shaped3 nb (len ys) (len xs) a -> same_places nb ys xs (at3 a) (orient nb ys xs a).
Proof.
  intros S. unfold orient.
  assert (X : exists xs' a', (if is_strictly_decreasing xs then (rev xs, map (map (@rev A)) a) else (xs, a)) = (xs', a')
    /\ (shaped3 nb (len ys) (len xs) a' /\ len xs' = len xs) /\ (increasing xs \/ decreasing xs -> increasing xs')
    /\ forall b i j v, 0 <= j < len xs -> at3 a b i j v -> exists j', moved xs xs' j j' /\ get xs' j' = get xs j /\ at3 a' b i j' v).
  { destruct (is_strictly_decreasing xs) eqn:E; eexists _, _; (split; [reflexivity|]).
    - split; [split; [now apply shaped3_flip_x|apply len_rev]|]. apply decreasing_iff in E as [_ D]. split; [intros _; now apply rev_decreasing|].
      intros b i j v Hj H. exists (len xs - 1 - j). destruct (moved_rev xs j Hj). split; [assumption|]. split; [assumption|]. eapply at3_flip_x; eassumption.
    - split; [split; [exact S|reflexivity]|]. split.
      + intros [I|D]; [exact I|]. assert (len xs <= 1) by (apply not_true_iff_false in E; rewrite decreasing_iff in E; destruct (Z_le_gt_dec (len xs) 1); [assumption|exfalso; apply E; split; [lia|exact D]]).
        now apply short_ordered.
      + intros b i j v Hj H. exists j. destruct (moved_same xs j Hj). auto. }
  destruct X as (xs' & a' & -> & [S' L'] & IX & PX).
  destruct (is_strictly_increasing ys) eqn:E; (split; [reflexivity|]); cbn [r_band r_y r_x r_data].
  - split; [split; [now apply shaped3_flip_y|split; [apply len_rev|exact L']]|]. split; [exact IX|]. apply increasing_iff in E as [_ D]. split; [intros _; now apply rev_increasing|].
    intros b i j v Hb Hi Hj H. destruct (PX b i j v Hj H) as (j' & M & G & H'). destruct (moved_rev ys i Hi) as [M2 G2]. exists (len ys - 1 - i), j'. repeat split; try assumption. eapply at3_flip_y; eassumption.
  - split; [split; [exact S'|split; [reflexivity|exact L']]|]. split; [exact IX|]. split.
    + intros [I|D]; [|exact D]. assert (len ys <= 1) by (apply not_true_iff_false in E; rewrite increasing_iff in E; destruct (Z_le_gt_dec (len ys) 1); [assumption|exfalso; apply E; split; [lia|exact I]]).
      now apply short_ordered.
    + intros b i j v Hb Hi Hj H. destruct (PX b i j v Hj H) as (j' & M & G & H'). exists i, j'. destruct (moved_same ys i Hi). repeat split; assumption.
Qed.

(* ---- transposition ---- *)
Lemma traverse_range {B} (g : Z -> res B) n : 0 <= n -> (forall i, 0 <= i < n -> exists v, g i = Ok v) ->
  exists l, traverse g (zrange 0 n) = Ok l /\ len l = n /\ (forall i, 0 <= i < n -> get l i = g i).
Proof.
  intros Hn H. assert (E : exists d, forall i, 0 <= i < n -> exists v, g i = Ok v /\ d i = Some v).
  { exists (fun i => match g i with Ok v => Some v | Err _ => None end). intros i Hi. destruct (H i Hi) as [v E]. exists v. now rewrite E. }
  destruct E as [d E]. destruct (Z.eq_dec n 0) as [->|N].
  - exists []. split; [reflexivity|]. split; [reflexivity|lia].
  - destruct (H 0 ltac:(lia)) as [v0 E0]. set (h := fun i => match d i with Some v => v | None => v0 end).
    rewrite (traverse_ok (B := B) g h).
    + exists (map h (zrange 0 n)). split; [reflexivity|]. split; [rewrite len_map, len_zrange; lia|]. intros i Hi. rewrite get_map_eq, get_zrange by lia. cbn [rbind].
      destruct (E i Hi) as (v & Ev & Dv). unfold h. rewrite Z.add_0_l, Dv. now rewrite Ev.
    + intros i Hi. apply zrange_in' in Hi. destruct (E i Hi) as (v & Ev & Dv). unfold h. now rewrite Dv.
Qed.
Lemma traverse3 {B} (g : Z -> Z -> Z -> res B) nb ny nx : 0 <= nb -> 0 <= ny -> 0 <= nx ->
  (forall b i j, 0 <= b < nb -> 0 <= i < ny -> 0 <= j < nx -> exists v, g b i j = Ok v) ->
  exists t, traverse (fun b => traverse (fun i => traverse (fun j => g b i j) (zrange 0 nx)) (zrange 0 ny)) (zrange 0 nb) = Ok t
  /\ shaped3 nb ny nx t /\ forall b i j v, 0 <= b < nb -> 0 <= i < ny -> 0 <= j < nx -> g b i j = Ok v -> at3 t b i j v.
Proof.
  intros Hb Hy Hx H.
  assert (H2 : forall b i, 0 <= b < nb -> 0 <= i < ny -> exists row, traverse (fun j => g b i j) (zrange 0 nx) = Ok row /\ len row = nx /\ forall j, 0 <= j < nx -> get row j = g b i j)
    by (intros; apply traverse_range; auto).
  assert (H1 : forall b, 0 <= b < nb -> exists band, traverse (fun i => traverse (fun j => g b i j) (zrange 0 nx)) (zrange 0 ny) = Ok band /\ len band = ny
    /\ forall i, 0 <= i < ny -> get band i = traverse (fun j => g b i j) (zrange 0 nx)).
  { intros b R. apply traverse_range; [assumption|]. intros i Ri. destruct (H2 b i R Ri) as (row & E & _). eauto. }
  destruct (traverse_range (fun b => traverse (fun i => traverse (fun j => g b i j) (zrange 0 nx)) (zrange 0 ny)) nb Hb) as (t & E & L & G).
  { intros b R. destruct (H1 b R) as (band & E & _). eauto. }
  exists t. split; [exact E|]. split.
  - split; [exact L|]. apply Forall_forall. intros band I. apply in_get in I as (b & I). pose proof (get_ok_range _ _ _ I) as R. rewrite L in R. rewrite G in I by exact R.
    destruct (H1 b R) as (band' & E1 & L1 & G1). rewrite E1 in I. injection I as ->. split; [exact L1|]. apply Forall_forall. intros row I. apply in_get in I as (i & I). pose proof (get_ok_range _ _ _ I) as Ri. rewrite L1 in Ri.
    rewrite G1 in I by exact Ri. destruct (H2 b i R Ri) as (row' & E2 & L2 & _). rewrite E2 in I. injection I as ->. exact L2.
  - intros b i j v R Ri Rj V. destruct (H1 b R) as (band & E1 & L1 & G1). destruct (H2 b i R Ri) as (row & E2 & L2 & G2).
    exists band. split; [now rewrite G|]. exists row. split; [now rewrite G1|]. now rewrite G2.
Qed.

(* ---- names ---- *)
Lemma has_in d l : has d l = true <-> In d l.
Proof. unfold has. rewrite existsb_exists. split; [intros (x & I & E); apply String.eqb_eq in E; now subst|intros I; exists d; split; [exact I|apply String.eqb_refl]]. Qed.
Lemma distinct_nodup l : distinct l = true <-> NoDup l.
Proof.
  induction l as [|d l IH]; cbn [distinct]; [split; [constructor|reflexivity]|]. rewrite andb_true_iff, IH, negb_true_iff, <- not_true_iff_false, has_in.
  split; [intros [? ?]; now constructor|intros H; inversion H; auto].
Qed.
Lemma find_coord_in l k c : NoDup (map fst l) -> In (k, c) l -> find_coord l k = Some c.
Proof.
  induction l as [|[k' c'] l IH]; cbn; [contradiction|]. intros N [E|I].
  - injection E as -> ->. now rewrite String.eqb_refl.
  - inversion N as [|? ? NI N']; subst. destruct (String.eqb_spec k' k) as [->|_]; [exfalso; apply NI; apply (in_map fst _ _ I)|auto].
Qed.
Lemma rename_ok {A} m (x : xarray A) : NoDup (map (renamed m) (x_dims x)) ->
  rename m x = Ok (XArray (map (renamed m) (x_dims x)) (map (fun '(k, c) => (renamed m k, c)) (x_coords x)) (x_body x)).
Proof. intros N. unfold rename. now rewrite (proj2 (distinct_nodup _) N). Qed.
Lemma renamed_coords m (l : list (string * coordinate)) dims : incl (map fst l) dims -> NoDup (map fst l) -> NoDup (map (renamed m) dims) -> NoDup dims ->
  let l' := map (fun '(k, c) => (renamed m k, c)) l in
  NoDup (map fst l') /\ incl (map fst l') (map (renamed m) dims) /\ forall k c, In (k, c) l -> In (renamed m k, c) l'.
Proof.
  intros I N NM ND l'. assert (E : map fst l' = map (renamed m) (map fst l)) by (unfold l'; rewrite !map_map; apply map_ext; intros [k c]; reflexivity).
  rewrite E. split; [|split].
  - assert (J : forall p q, In p dims -> In q dims -> renamed m p = renamed m q -> p = q).
    { clear -NM. induction dims as [|d dims IH]; [contradiction|]. cbn in NM. inversion NM as [|? ? NI N']; subst. intros p q [->|Hp] [->|Hq] EQ; auto.
      - exfalso. apply NI. rewrite EQ. now apply in_map.
      - exfalso. apply NI. rewrite <- EQ. now apply in_map. }
    clear -I N J. induction (map fst l) as [|k t IH]; cbn; constructor.
    + intros H. apply in_map_iff in H as (q & EQ & Hq). inversion N as [|? ? NI _]; subst. apply NI. rewrite (J k q); auto; [apply I; now left|apply I; now right].
    + apply IH; [intros q Hq; apply I; now right|now inversion N].
  - intros d H. apply in_map_iff in H as (k & <- & H). apply in_map. now apply I.
  - intros k c H. unfold l'. apply in_map_iff. now exists (k, c).
Qed.
Lemma first_standard dims d : In d dims -> renamed (first_names dims) d = standard d.
Proof.
  intros I. assert (H : forall d', String.eqb d' d = true -> has d' dims = true) by (intros d' E; apply String.eqb_eq in E; subst; now apply has_in).
  unfold first_names, renamed, standard. cbn [filter fst]. rewrite !(String.eqb_sym d).
  destruct (String.eqb "time" d) eqn:E1; [rewrite (H _ E1); cbn [find fst]; now rewrite E1|].
  destruct (String.eqb "lon" d) eqn:E2; [rewrite (H _ E2)|]; destruct (has "time" dims); cbn [find fst]; rewrite ?E1, ?E2; try reflexivity;
    (destruct (String.eqb "lat" d) eqn:E3; [rewrite (H _ E3)|]; destruct (has "lon" dims); try destruct (has "lat" dims); cbn [find fst]; rewrite ?E1, ?E2, ?E3; reflexivity).
Qed.
Lemma map_first dims : map (renamed (first_names dims)) dims = map standard dims.
Proof. apply map_ext_in. intros d I. now apply first_standard. Qed.
Lemma nodup_map {A B} (f : A -> B) l : NoDup (map f l) -> NoDup l.
Proof. induction l as [|a l IH]; cbn; intros N; inversion N as [|? ? NI N']; subst; constructor; auto. intros I. apply NI. now apply in_map. Qed.

(* ---- transposition of the named array ---- *)
Definition final (bd yd d : string) : string := along bd yd d "band"%string "y"%string "x"%string.
Lemma perm3 {A} (a b c x y z : A) : Permutation [a; b; c] [x; y; z] ->
  (x, y, z) = (a, b, c) \/ (x, y, z) = (a, c, b) \/ (x, y, z) = (b, a, c) \/ (x, y, z) = (b, c, a) \/ (x, y, z) = (c, a, b) \/ (x, y, z) = (c, b, a).
Proof.
  intros P. assert (I : In x [a; b; c]) by (eapply Permutation_in; [apply Permutation_sym, P|now left]).
  assert (P2 : forall (u v y z : A), Permutation [u; v] [y; z] -> (y, z) = (u, v) \/ (y, z) = (v, u)).
  { intros u v y' z' P'. apply Permutation_length_2 in P'. destruct P' as [[-> ->]|[-> ->]]; auto. }
  destruct I as [->|[->|[->|[]]]].
  - apply Permutation_cons_inv in P. destruct (P2 _ _ _ _ P) as [[= -> ->]|[= -> ->]]; auto.
  - assert (Q : Permutation [x; a; c] [x; y; z]) by (etransitivity; [apply perm_swap|exact P]).
    apply Permutation_cons_inv in Q. destruct (P2 _ _ _ _ Q) as [[= -> ->]|[= -> ->]]; auto.
  - assert (Q : Permutation [x; a; b] [x; y; z]).
    { etransitivity; [|exact P]. etransitivity; [apply perm_swap|]. apply perm_skip, perm_swap. }
    apply Permutation_cons_inv in Q. destruct (P2 _ _ _ _ Q) as [[= -> ->]|[= -> ->]]; auto 6.
Qed.
Lemma size_first {A} d0 d1 d2 n0 n1 n2 (a : list (list (list A))) : shaped3 n0 n1 n2 a -> 0 < n0 -> 0 < n1 ->
  forall name, size_along [d0; d1; d2] a name = if String.eqb d0 name then Ok n0 else if String.eqb d1 name then Ok n1 else if String.eqb d2 name then Ok n2 else Err ValueError.
Proof.
  intros [L F] H0 H1 name. destruct a as [|p a]; [unfold len in L; cbn in L; lia|]. inversion F as [|? ? [L1 F1] _]; subst.
  destruct p as [|q p]; [unfold len in H1; cbn in H1; lia|]. inversion F1 as [|? ? L2 _]; subst. reflexivity.
Qed.
Lemma transpose_named {A} f0 f1 f2 n0 n1 n2 nb ny nx (a : list (list (list A))) : shaped3 n0 n1 n2 a -> 0 < n0 -> 0 < n1 -> 0 < nb -> 0 < ny -> 0 < nx ->
  size_along [f0; f1; f2] a "band" = Ok nb -> size_along [f0; f1; f2] a "y" = Ok ny -> size_along [f0; f1; f2] a "x" = Ok nx ->
  (forall b i j, 0 <= b < nb -> 0 <= i < ny -> 0 <= j < nx -> 0 <= axis f0 b i j < n0 /\ 0 <= axis f1 b i j < n1 /\ 0 <= axis f2 b i j < n2) ->
  exists t, transpose3 [f0; f1; f2] a = Ok t /\ shaped3 nb ny nx t
  /\ forall b i j v, 0 <= b < nb -> 0 <= i < ny -> 0 <= j < nx -> at3 a (axis f0 b i j) (axis f1 b i j) (axis f2 b i j) v -> at3 t b i j v.
Proof.
  intros [L F] H0 H1 Hb Hy Hx E1 E2 E3 R. unfold transpose3. rewrite E1, E2, E3. cbn [rbind].
  destruct (traverse3 (fun b i j => get3r a (axis f0 b i j) (axis f1 b i j) (axis f2 b i j)) nb ny nx) as (t & E & ST & V); try lia.
  - intros b i j R1 R2 R3. destruct (R b i j R1 R2 R3) as (I0 & I1 & I2).
    destruct (get_range a (axis f0 b i j)) as [p G1]; [now rewrite L|]. rewrite Forall_forall in F. destruct (F p (get_in _ _ _ G1)) as [L1 F1].
    destruct (get_range p (axis f1 b i j)) as [q G2]; [now rewrite L1|]. rewrite Forall_forall in F1. pose proof (F1 q (get_in _ _ _ G2)) as L2.
    destruct (get_range q (axis f2 b i j)) as [v G3]; [now rewrite L2|]. exists v. unfold get3r. rewrite G1. cbn [rbind]. rewrite G2. exact G3.
  - exists t. split; [exact E|]. split; [exact ST|]. intros b i j v R1 R2 R3 (p & G1 & q & G2 & G3). apply V; try assumption. unfold get3r. rewrite G1. cbn [rbind]. now rewrite G2.
Qed.
Lemma transpose_along {A} bd yd xd d0 d1 d2 nb ny nx (a : list (list (list A))) : NoDup [bd; yd; xd] -> Permutation [bd; yd; xd] [d0; d1; d2] -> 0 < nb -> 0 < ny -> 0 < nx ->
  (let n := fun d => along bd yd d nb ny nx in shaped3 (n d0) (n d1) (n d2) a) ->
  exists t, transpose3 (map (final bd yd) [d0; d1; d2]) a = Ok t /\ shaped3 nb ny nx t
  /\ forall b i j v, 0 <= b < nb -> 0 <= i < ny -> 0 <= j < nx -> at3 a (along bd yd d0 b i j) (along bd yd d1 b i j) (along bd yd d2 b i j) v -> at3 t b i j v.
Proof.
  intros N P Hb Hy Hx S. cbv beta zeta in S.
  assert (AX : forall d b i j, along bd yd d b i j = axis (final bd yd d) b i j).
  { intros d b i j. unfold final, along. destruct (String.eqb d bd); [reflexivity|]. destruct (String.eqb d yd); reflexivity. }
  inversion N as [|? ? N1 N']; subst. inversion N' as [|? ? N2 _]; subst.
  assert (E1 : final bd yd bd = "band"%string) by (unfold final, along; now rewrite String.eqb_refl).
  assert (E2 : final bd yd yd = "y"%string) by (unfold final, along; rewrite (proj2 (String.eqb_neq yd bd)) by (intros ->; apply N1; cbn; auto); now rewrite String.eqb_refl).
  assert (E3 : final bd yd xd = "x"%string) by (unfold final, along; rewrite (proj2 (String.eqb_neq xd bd)) by (intros ->; apply N1; cbn; auto);
    rewrite (proj2 (String.eqb_neq xd yd)) by (intros ->; apply N2; cbn; auto); reflexivity).
  rewrite !AX in S.
  assert (G : forall f0 f1 f2, final bd yd d0 = f0 -> final bd yd d1 = f1 -> final bd yd d2 = f2 -> Permutation ["band"; "y"; "x"]%string [f0; f1; f2] ->
    exists t, transpose3 [f0; f1; f2] a = Ok t /\ shaped3 nb ny nx t
    /\ forall b i j v, 0 <= b < nb -> 0 <= i < ny -> 0 <= j < nx -> at3 a (along bd yd d0 b i j) (along bd yd d1 b i j) (along bd yd d2 b i j) v -> at3 t b i j v).
  { intros f0 f1 f2 F0 F1 F2 PF. rewrite F0, F1, F2 in S.
    destruct (transpose_named f0 f1 f2 (axis f0 nb ny nx) (axis f1 nb ny nx) (axis f2 nb ny nx) nb ny nx a S) as (t & T1 & T2 & T3);
      try (rewrite (size_first _ _ _ _ _ _ _ S)); try (destruct (perm3 _ _ _ _ _ _ PF) as [[= -> -> ->]|[[= -> -> ->]|[[= -> -> ->]|[[= -> -> ->]|[[= -> -> ->]|[= -> -> ->]]]]]]; cbn; lia || reflexivity).
    exists t. split; [exact T1|]. split; [exact T2|]. intros b i j v R1 R2 R3. rewrite !AX, F0, F1, F2. now apply T3. }
  cbn [map]. apply G; try reflexivity.
  change (Permutation ["band"; "y"; "x"]%string (map (final bd yd) [d0; d1; d2])). rewrite <- E1, <- E2, <- E3. change (Permutation (map (final bd yd) [bd; yd; xd]) (map (final bd yd) [d0; d1; d2])). now apply Permutation_map.
Qed.

(* ---- normalize_xarray_data ---- *)
Definition standard_names {A} (x : xarray A) : xarray A :=
  XArray (map standard (x_dims x)) (map (fun '(k, c) => (renamed (first_names (x_dims x)) k, c)) (x_coords x)) (x_body x).
Section Main.
Context {A : Type}.
Variables (spatial : list string -> option (string * string)) (x : xarray A) (bd yd xd : string) (nb : Z) (cy cx : coordinate).
Hypothesis (W : array3 bd yd xd nb cy cx x) (Hb : 0 < nb) (Hy : 0 < len (c_values cy)) (Hx : 0 < len (c_values cx)).
Let m2 := [(standard yd, "y"); (standard xd, "x"); (standard bd, "band")]%string.

Lemma roles : NoDup [standard bd; standard yd; standard xd] /\ NoDup [bd; yd; xd] /\ Permutation [bd; yd; xd] (x_dims x).
Proof.
  destruct W as (d0 & d1 & d2 & a & D & P & _ & _ & N & _). rewrite D.
  assert (N1 : NoDup (map standard [bd; yd; xd])) by (eapply Permutation_NoDup; [apply Permutation_sym, Permutation_map, P|exact N]).
  split; [exact N1|]. split; [now apply nodup_map in N1|exact P].
Qed.
Lemma second_names d : In d (x_dims x) -> renamed m2 (standard d) = final bd yd d.
Proof.
  intros I. destruct roles as (N1 & N2 & P). assert (J : In d [bd; yd; xd]) by (eapply Permutation_in; [apply Permutation_sym, P|exact I]).
  inversion N1 as [|? ? A1 B1]; subst. inversion B1 as [|? ? A2 _]; subst. inversion N2 as [|? ? A3 B3]; subst. inversion B3 as [|? ? A4 _]; subst.
  unfold renamed, m2, final, along. cbn [find fst].
  destruct J as [<-|[<-|[<-|[]]]].
  - rewrite (proj2 (String.eqb_neq (standard yd) (standard bd))) by (intros E; apply A1; rewrite <- E; cbn; auto).
    rewrite (proj2 (String.eqb_neq (standard xd) (standard bd))) by (intros E; apply A1; rewrite <- E; cbn; auto). now rewrite !String.eqb_refl.
  - rewrite (proj2 (String.eqb_neq yd bd)) by (intros E; apply A3; rewrite <- E; cbn; auto). now rewrite !String.eqb_refl.
  - rewrite (proj2 (String.eqb_neq (standard yd) (standard xd))) by (intros E; apply A2; rewrite <- E; cbn; auto).
    rewrite (proj2 (String.eqb_neq xd bd)) by (intros E; apply A3; rewrite <- E; cbn; auto). rewrite (proj2 (String.eqb_neq xd yd)) by (intros E; apply A4; rewrite <- E; cbn; auto). now rewrite !String.eqb_refl.
Qed.
Lemma final_names : map (renamed m2) (map standard (x_dims x)) = map (final bd yd) (x_dims x) /\ NoDup (map (final bd yd) (x_dims x)).
Proof.
  split; [rewrite map_map; apply map_ext_in; apply second_names|]. destruct roles as (_ & N & P). eapply Permutation_NoDup; [apply Permutation_map, P|].
  inversion N as [|? ? N1 N']; subst. inversion N' as [|? ? N2 _]; subst. unfold final, along. cbn [map]. rewrite !String.eqb_refl.
  rewrite (proj2 (String.eqb_neq yd bd)) by (intros E; apply N1; rewrite <- E; cbn; auto). rewrite (proj2 (String.eqb_neq xd bd)) by (intros E; apply N1; rewrite <- E; cbn; auto).
  rewrite (proj2 (String.eqb_neq xd yd)) by (intros E; apply N2; rewrite <- E; cbn; auto). repeat constructor; cbn; intuition discriminate.
Qed.
(* the array t in the order band, y, x, and then orientated *)
Definition placed (r : raster_array A) : Prop := same_places nb (c_values cy) (c_values cx) (value_along bd yd x) r
  /\ exists t, shaped3 nb (len (c_values cy)) (len (c_values cx)) t /\ r = orient nb (c_values cy) (c_values cx) t
     /\ forall b i j v, 0 <= b < nb -> 0 <= i < len (c_values cy) -> 0 <= j < len (c_values cx) -> value_along bd yd x b i j v -> at3 t b i j v.
Lemma body_placed m : renamed m (standard yd) = "y"%string -> renamed m (standard xd) = "x"%string -> map (renamed m) (map standard (x_dims x)) = map (final bd yd) (x_dims x) ->
  exists x', rename m (standard_names x) = Ok x' /\ exists r,
  match x_body x' with
  | Body2 _ => Err ValueError
  | Body3 a => let* a := transpose3 (x_dims x') a in
      match find_coord (x_coords x') "y", find_coord (x_coords x') "x" with
      | Some cy, Some cx => Ok (orient (len a) (c_values cy) (c_values cx) a)
      | _, _ => Err ValueError
      end
  end = Ok r /\ placed r.
Proof.
  intros MY MX MD. destruct roles as (N1 & N2 & P). pose proof (proj2 final_names) as NF. pose proof W as (d0 & d1 & d2 & a & D & PD & BD & S & NS & NC & IC & CY & CX).
  assert (ND : NoDup (x_dims x)) by (eapply Permutation_NoDup; [exact P|exact N2]).
  destruct (renamed_coords (first_names (x_dims x)) (x_coords x) (x_dims x)) as (C1 & C2 & C3); try assumption; [now rewrite D|rewrite map_first, D; exact NS|].
  rewrite map_first in C2. 
  destruct (renamed_coords m (x_coords (standard_names x)) (map standard (x_dims x))) as (K1 & _ & K3); try assumption; [now rewrite MD|rewrite D; exact NS|].
  eexists. split; [apply rename_ok; unfold standard_names; cbn [x_dims]; now rewrite MD|]. cbn [x_body x_dims x_coords standard_names]. rewrite BD, MD, D.
  destruct (transpose_along bd yd xd d0 d1 d2 nb (len (c_values cy)) (len (c_values cx)) a N2 PD Hb Hy Hx S) as (t & T1 & T2 & T3). rewrite T1. cbn [rbind].
  assert (F : forall d c, In (d, c) (x_coords x) -> In d (x_dims x) -> find_coord (map (fun '(k, c) => (renamed m k, c)) (x_coords (standard_names x))) (renamed m (standard d)) = Some c).
  { intros d c I ID. apply find_coord_in; [exact K1|]. apply K3. rewrite <- (first_standard (x_dims x)) by exact ID. now apply C3. }
  assert (IY : In yd (x_dims x)) by (eapply Permutation_in; [exact P|cbn; auto]). assert (IX : In xd (x_dims x)) by (eapply Permutation_in; [exact P|cbn; auto]).
  pose proof (F yd cy CY IY) as FY. rewrite MY in FY. pose proof (F xd cx CX IX) as FX. rewrite MX in FX. unfold standard_names in FY, FX. cbn [x_coords] in FY, FX. rewrite D in FY, FX. rewrite FY, FX.
  eexists. split; [reflexivity|]. replace (len t) with nb by (symmetry; apply T2).
  assert (AT : forall b i j v, 0 <= b < nb -> 0 <= i < len (c_values cy) -> 0 <= j < len (c_values cx) -> value_along bd yd x b i j v -> at3 t b i j v).
  { intros b i j v R1 R2 R3 (e0 & e1 & e2 & a' & D' & BD' & V). rewrite D in D'. injection D' as <- <- <-. rewrite BD in BD'. injection BD' as <-. now apply T3. }
  split; [|exists t; auto].
  destruct (orient_places nb (c_values cy) (c_values cx) t T2) as (O1 & O2 & O3 & O4 & O5). split; [exact O1|]. split; [exact O2|]. split; [exact O3|]. split; [exact O4|].
  intros b i j v R1 R2 R3 V. apply O5; try assumption. now apply AT.
Qed.
Lemma first_steps : expand x = Ok x /\ rename (first_names (x_dims x)) x = Ok (standard_names x).
Proof.
  destruct W as (d0 & d1 & d2 & a & D & PD & BD & S & NS & NC & IC & CY & CX). split; [unfold expand; now rewrite BD|].
  rewrite rename_ok by (rewrite map_first, D; exact NS). now rewrite map_first.
Qed.
Lemma normalize_named : find_spatial_dims spatial (standard_names x) = Ok (Some (standard yd, standard xd)) ->
  exists r, normalize_xarray_data spatial x = Ok r /\ placed r.
Proof.
  intros FS. destruct first_steps as [E1 E2]. destruct roles as (N1 & N2 & P). destruct final_names as [FN _].
  assert (IY : In yd (x_dims x)) by (eapply Permutation_in; [exact P|cbn; auto]). assert (IX : In xd (x_dims x)) by (eapply Permutation_in; [exact P|cbn; auto]).
  destruct (body_placed m2) as (x' & R & r & B & PL); [..|exact FN|].
  - rewrite second_names by exact IY. inversion N2 as [|? ? A3 B3]; subst. unfold final, along. rewrite (proj2 (String.eqb_neq yd bd)) by (intros E; apply A3; rewrite <- E; cbn; auto). now rewrite String.eqb_refl.
  - rewrite second_names by exact IX. inversion N2 as [|? ? A3 B3]; subst. inversion B3 as [|? ? A4 _]; subst. unfold final, along. rewrite (proj2 (String.eqb_neq xd bd)) by (intros E; apply A3; rewrite <- E; cbn; auto).
    now rewrite (proj2 (String.eqb_neq xd yd)) by (intros E; apply A4; rewrite <- E; cbn; auto).
  - exists r. split; [|exact PL]. unfold normalize_xarray_data. rewrite E1. cbn [rbind]. rewrite E2. cbn [rbind]. rewrite FS. cbn [rbind].
    replace (filter _ (x_dims (standard_names x))) with [standard bd]; [unfold m2 in R; rewrite R; exact B|].
    unfold standard_names. cbn [x_dims]. destruct W as (d0 & d1 & d2 & a & D & PD & _). rewrite D. cbn [map].
    inversion N1 as [|? ? A1 B1]; subst. inversion B1 as [|? ? A2 _]; subst.
    assert (Q1 : String.eqb (standard bd) (standard yd) = false) by (apply String.eqb_neq; intros E; apply A1; rewrite E; cbn; auto).
    assert (Q2 : String.eqb (standard bd) (standard xd) = false) by (apply String.eqb_neq; intros E; apply A1; rewrite E; cbn; auto).
    destruct (perm3 _ _ _ _ _ _ PD) as [[= -> -> ->]|[[= -> -> ->]|[[= -> -> ->]|[[= -> -> ->]|[[= -> -> ->]|[= -> -> ->]]]]]]; cbn [filter];
      rewrite ?Q1, ?Q2, ?String.eqb_refl; cbn [negb andb]; rewrite ?andb_false_r; reflexivity.
Qed.
(* names that say nothing: the order of the dimensions counts *)
Lemma normalize_positional : find_spatial_dims spatial (standard_names x) = Ok None -> x_dims x = [bd; yd; xd] -> ~ In "band"%string (map standard (x_dims x)) ->
  exists r, normalize_xarray_data spatial x = Ok r /\ placed r.
Proof.
  intros FS D NB. destruct first_steps as [E1 E2]. destruct roles as (N1 & N2 & P). set (m := [(standard bd, "band"); (standard yd, "y"); (standard xd, "x")]%string).
  inversion N1 as [|? ? A1 B1]; subst. inversion B1 as [|? ? A2 _]; subst. inversion N2 as [|? ? A3 B3]; subst. inversion B3 as [|? ? A4 _]; subst.
  assert (Q1 : String.eqb (standard bd) (standard yd) = false) by (apply String.eqb_neq; intros E; apply A1; rewrite E; cbn; auto).
  assert (Q2 : String.eqb (standard bd) (standard xd) = false) by (apply String.eqb_neq; intros E; apply A1; rewrite E; cbn; auto).
  assert (Q3 : String.eqb (standard yd) (standard xd) = false) by (apply String.eqb_neq; intros E; apply A2; rewrite E; cbn; auto).
  assert (MB : renamed m (standard bd) = "band"%string) by (unfold renamed, m; cbn [find fst]; now rewrite String.eqb_refl).
  assert (MY : renamed m (standard yd) = "y"%string) by (unfold renamed, m; cbn [find fst]; rewrite Q1; now rewrite String.eqb_refl).
  assert (MX : renamed m (standard xd) = "x"%string) by (unfold renamed, m; cbn [find fst]; rewrite Q2, Q3; now rewrite String.eqb_refl).
  destruct (body_placed m MY MX) as (x' & R & r & B & PL).
  - rewrite D. cbn [map]. rewrite MB, MY, MX. unfold final, along. rewrite !String.eqb_refl. rewrite (proj2 (String.eqb_neq yd bd)) by (intros E; apply A3; rewrite <- E; cbn; auto).
    rewrite (proj2 (String.eqb_neq xd bd)) by (intros E; apply A3; rewrite <- E; cbn; auto). now rewrite (proj2 (String.eqb_neq xd yd)) by (intros E; apply A4; rewrite <- E; cbn; auto).
  - exists r. split; [|exact PL]. unfold normalize_xarray_data. rewrite E1. cbn [rbind]. rewrite E2. cbn [rbind]. rewrite FS. cbn [rbind].
    unfold standard_names at 1 2. cbn [x_dims]. replace (has "band" (map standard (x_dims x))) with false by (symmetry; apply not_true_iff_false; now rewrite has_in). rewrite D. cbn [map]. unfold m in R. rewrite R. exact B.
Qed.
End Main.
(* arrays without bands *)
Lemma normalize_2d {A} spatial dims coords (a : arr2 A) : ~ In "band"%string dims ->
  normalize_xarray_data spatial (XArray dims coords (Body2 a)) = normalize_xarray_data spatial (XArray ("band"%string :: dims) (("band"%string, Coord false [1%Q]) :: coords) (Body3 [a])).
Proof. intros N. unfold normalize_xarray_data, expand. cbn [x_body x_dims x_coords]. replace (has "band" dims) with false by (symmetry; apply not_true_iff_false; now rewrite has_in). reflexivity. Qed.

(* ---- the result again ---- *)
Lemma ints_refl l : ints_eqb l l = true. Proof. induction l; cbn; [reflexivity|]. now rewrite Z.eqb_refl. Qed.
Lemma ints_eq a : forall b, ints_eqb a b = true -> a = b.
Proof. induction a as [|x a IH]; intros [|y b]; cbn; try discriminate; [reflexivity|]. rewrite andb_true_iff. intros [E F]. f_equal; [lia|auto]. Qed.
Lemma places_normalized {A} nb ys xs (at_ : Z -> Z -> Z -> A -> Prop) r b i j v : 0 <= nb -> same_places nb ys xs at_ r ->
  0 <= b < nb -> 0 <= i < len ys -> 0 <= j < len xs -> at_ b i j v ->
  1 < len ys -> 1 < len xs -> increasing ys \/ decreasing ys -> increasing xs \/ decreasing xs -> is_normalized r = true.
Proof.
  intros Hn (BD & _ & IX & DY & PL) Rb Ri Rj V LY LX MY MX. destruct (PL b i j v Rb Ri Rj V) as (i' & j' & M1 & M2 & _).
  assert (L1 : len (r_y r) = len ys) by (destruct M1 as [[-> _]|[-> _]]; [reflexivity|apply len_rev]). assert (L2 : len (r_x r) = len xs) by (destruct M2 as [[-> _]|[-> _]]; [reflexivity|apply len_rev]).
  unfold is_normalized. rewrite BD, len_zrange. replace (Z.max 0 (nb + 1 - 1)) with nb by lia. rewrite ints_refl. cbn [andb]. apply andb_true_iff. split; [apply increasing_iff|apply decreasing_iff]; split; auto; lia.
Qed.
Lemma orient_normalized {A} (r : raster_array A) nb : len (r_band r) = nb -> is_normalized r = true -> orient nb (r_y r) (r_x r) (r_data r) = r.
Proof.
  unfold is_normalized. rewrite !andb_true_iff. intros L [[B X] Y]. apply ints_eq in B. apply increasing_iff in X as [X1 X2]. apply decreasing_iff in Y as [Y1 Y2].
  unfold orient. assert (is_strictly_decreasing (r_x r) = false) as ->.
  { apply not_true_iff_false. rewrite decreasing_iff. intros [_ D]. destruct (get_range (r_x r) 0) as [p G1]; [lia|]. destruct (get_range (r_x r) (0 + 1)) as [q G2]; [lia|].
    apply (Qlt_irrefl p). eapply Qlt_trans; [apply (X2 _ _ _ G1 G2)|apply (D _ _ _ G1 G2)]. }
  assert (is_strictly_increasing (r_y r) = false) as ->.
  { apply not_true_iff_false. rewrite increasing_iff. intros [_ D]. destruct (get_range (r_y r) 0) as [p G1]; [lia|]. destruct (get_range (r_y r) (0 + 1)) as [q G2]; [lia|].
    apply (Qlt_irrefl p). eapply Qlt_trans; [apply (D _ _ _ G1 G2)|apply (Y2 _ _ _ G1 G2)]. }
  rewrite L in B. rewrite <- B. now destruct r.
Qed.

(* ---- data_to_xr_raster ---- *)
Definition turn_y (ys : list Q) (i : Z) : Z := if is_strictly_increasing ys then len ys - 1 - i else i.
Definition turn_x (xs : list Q) (j : Z) : Z := if is_strictly_decreasing xs then len xs - 1 - j else j.
Lemma orient_at {A} nb ys xs (a : list (list (list A))) b i j v : shaped3 nb (len ys) (len xs) a -> at3 a b i j v -> at3 (r_data (orient nb ys xs a)) b (turn_y ys i) (turn_x xs j) v.
Proof.
  intros S H. unfold orient, turn_y, turn_x. destruct (is_strictly_decreasing xs), (is_strictly_increasing ys); cbn [r_data].
  - eapply at3_flip_y; [apply shaped3_flip_x, S|]. eapply at3_flip_x; eassumption.
  - eapply at3_flip_x; eassumption.
  - eapply at3_flip_y; eassumption.
  - exact H.
Qed.
Lemma orient_coords {A B} nb ys xs (a : arr3 A) (c : arr3 B) : r_y (orient nb ys xs a) = r_y (orient nb ys xs c) /\ r_x (orient nb ys xs a) = r_x (orient nb ys xs c).
Proof. unfold orient. destruct (is_strictly_decreasing xs), (is_strictly_increasing ys); split; reflexivity. Qed.
Lemma turned {A} nb ys xs (a : arr3 A) i j : 0 <= i < len ys -> 0 <= j < len xs ->
  get (r_y (orient nb ys xs a)) (turn_y ys i) = get ys i /\ get (r_x (orient nb ys xs a)) (turn_x xs j) = get xs j.
Proof.
  intros Hi Hj. unfold orient, turn_y, turn_x. destruct (is_strictly_decreasing xs), (is_strictly_increasing ys); cbn [r_y r_x]; split; try reflexivity; now apply get_rev'.
Qed.
Lemma size3_shaped {A} nb ny nx (a : list (list (list A))) : 0 < nb -> 0 < ny -> shaped3 nb ny nx a -> size3 a = (nb, ny, nx).
Proof.
  intros Hb Hy [L F]. destruct a as [|p a]; [unfold len in L; cbn in L; lia|]. inversion F as [|? ? [L1 F1] _]; subst. destruct p as [|q p]; [unfold len in Hy; cbn in Hy; lia|].
  inversion F1; subst. reflexivity.
Qed.
Lemma rev_centres n : 0 <= n -> rev (map (fun i => inject_Z i + (1 # 2))%Q (zrange 0 n)) = map (fun i => inject_Z (n - 1 - i) + (1 # 2))%Q (zrange 0 n).
Proof. intros H. rewrite <- map_rev, zrange_rev by exact H. now rewrite map_map. Qed.
Lemma default_y_down n : decreasing (map (fun i => inject_Z (n - 1 - i) + (1 # 2))%Q (zrange 0 n)).
Proof.
  intros i p q E1 E2. pose proof (get_ok_range _ _ _ E1). pose proof (get_ok_range _ _ _ E2). rewrite len_map, len_zrange in *.
  rewrite get_map_eq, get_zrange in E1, E2 by lia. cbn [rbind] in E1, E2. injection E1 as <-. injection E2 as <-. apply Qplus_lt_l. rewrite <- Zlt_Qlt. lia.
Qed.
Lemma default_x_up n : increasing (map (fun i => inject_Z i + (1 # 2))%Q (zrange 0 n)).
Proof.
  intros i p q E1 E2. pose proof (get_ok_range _ _ _ E1). pose proof (get_ok_range _ _ _ E2). rewrite len_map, len_zrange in *.
  rewrite get_map_eq, get_zrange in E1, E2 by lia. cbn [rbind] in E1, E2. injection E1 as <-. injection E2 as <-. apply Qplus_lt_l. rewrite <- Zlt_Qlt. lia.
Qed.
Lemma is_null_here nv v : is_null nv v = true <-> null_value_here nv v.
Proof.
  unfold is_null, null_value_here. destruct nv as [n|]; [|split; [discriminate|intros (n & [=] & _)]]. destruct (is_nan n) eqn:N.
  - split; [intros I; exists n; split; [reflexivity|left; split; assumption]|intros (n' & [= <-] & [[_ I]|I]); [exact I|]]. destruct n; try discriminate. destruct v; discriminate.
  - split; [intros I; exists n; split; [reflexivity|right; exact I]|intros (n' & [= <-] & [[I _]|I]); [congruence|exact I]].
Qed.
Lemma data_to_ds d (data : list (list (list num))) mask p nv burn nb ny nx ys xs : 0 < nb -> 0 < ny -> 0 < nx -> shaped3 nb ny nx data ->
  match mask with Some m => shaped3 nb ny nx m | None => True end -> coordinates_of p ny nx ys xs ->
  let n := match mask with Some _ => Some (match nv with Some v => v | None => default_null d end) | None => nv end in
  exists rd rm, data_to_xr_raster_ds d data mask p nv burn = Ok (n, rd, rm)
  /\ r_y rd = r_y rm /\ r_x rd = r_x rm /\ r_band rd = zrange 1 (nb + 1) /\ r_band rm = zrange 1 (nb + 1)
  /\ shaped3 nb ny nx (r_data rd) /\ shaped3 nb ny nx (r_data rm)
  /\ (increasing xs \/ decreasing xs -> increasing (r_x rd)) /\ (increasing ys \/ decreasing ys -> decreasing (r_y rd))
  /\ forall b i j v, at3 data b i j v -> exists i' j' m, same_coord (get (r_y rd) i') (get ys i) /\ same_coord (get (r_x rd) j') (get xs j)
     /\ at3 (r_data rm) b i' j' m
     /\ match mask with
        | Some mask => at3 mask b i j m /\ at3 (r_data rd) b i' j' (if burn && m then match nv with Some v => v | None => default_null d end else v)
        | None => (m = true <-> null_value_here nv v) /\ at3 (r_data rd) b i' j' v
        end.
Proof.
  intros Hb Hy Hx S SM (LY & LX & C) n.
  assert (P : exists ys' xs', len ys' = ny /\ len xs' = nx
     /\ (forall A (a : list (list (list A))), shaped3 nb ny nx a -> data_to_xr_raster a p = Ok (orient nb ys' xs' a))
     /\ (forall i, 0 <= i < ny -> same_coord (get ys' i) (get ys i)) /\ (forall j, 0 <= j < nx -> same_coord (get xs' j) (get xs j))
     /\ (increasing xs \/ decreasing xs -> increasing xs' \/ decreasing xs') /\ (increasing ys \/ decreasing ys -> increasing ys' \/ decreasing ys')).
  { assert (RF : forall l k, 0 <= k < len l -> same_coord (get l k) (get l k)) by (intros l k R; destruct (get_range l k R) as [q E]; rewrite E; cbn; reflexivity).
    destruct p as [xs' ys'| | |xs' ys'].
    - destruct C as [-> ->]. exists ys', xs'. repeat split; auto.
      + intros A a Sa. unfold data_to_xr_raster. rewrite (size3_shaped nb ny nx) by assumption. replace ((len ys' =? ny) && (len xs' =? nx)) with true by lia. reflexivity.
      + intros i R. apply RF. lia.
      + intros i R. apply RF. lia.
    - contradiction.
    - destruct C as [CX CY]. exists (map (fun i => inject_Z (ny - 1 - i) + (1 # 2))%Q (zrange 0 ny)), (map (fun i => inject_Z i + (1 # 2))%Q (zrange 0 nx)).
      split; [rewrite len_map, len_zrange; lia|]. split; [rewrite len_map, len_zrange; lia|]. split.
      { intros A a Sa. unfold data_to_xr_raster. rewrite (size3_shaped nb ny nx) by assumption. cbn [rbind]. now rewrite rev_centres by lia. }
      split; [|split; [|split; [intros _; left; apply default_x_up|intros _; right; apply default_y_down]]].
      + intros i R. rewrite get_map_eq, get_zrange by lia. cbn [rbind]. destruct (get_range ys i) as [q E]; [lia|]. rewrite E. cbn [same_coord]. rewrite (CY i q E). rewrite ?Z.add_0_l.
        replace (ny - 1 - i) with (ny - i + -1) by lia. rewrite inject_Z_plus. unfold inject_Z at 2. ring.
      + intros j R. rewrite get_map_eq, get_zrange by lia. cbn [rbind]. destruct (get_range xs j) as [q E]; [lia|]. rewrite E. cbn [same_coord]. rewrite (CX j q E). rewrite ?Z.add_0_l. reflexivity.
    - destruct C as [-> ->]. exists ys', xs'. repeat split; auto.
      + intros A a Sa. unfold data_to_xr_raster. rewrite (size3_shaped nb ny nx) by assumption. reflexivity.
      + intros i R. apply RF. lia.
      + intros i R. apply RF. lia. }
  destruct P as (ys' & xs' & LY' & LX' & PL & EY & EX & OX & OY).
  assert (FIN : forall (a : list (list (list num))) (m : list (list (list bool))), shaped3 nb ny nx a -> shaped3 nb ny nx m ->
     let rd := orient nb ys' xs' a in let rm := orient nb ys' xs' m in
     r_y rd = r_y rm /\ r_x rd = r_x rm /\ r_band rd = zrange 1 (nb + 1) /\ r_band rm = zrange 1 (nb + 1) /\ shaped3 nb ny nx (r_data rd) /\ shaped3 nb ny nx (r_data rm)
     /\ (increasing xs \/ decreasing xs -> increasing (r_x rd)) /\ (increasing ys \/ decreasing ys -> decreasing (r_y rd))
     /\ forall b i j, 0 <= i < ny -> 0 <= j < nx -> exists i' j', same_coord (get (r_y rd) i') (get ys i) /\ same_coord (get (r_x rd) j') (get xs j)
        /\ (forall v, at3 a b i j v -> at3 (r_data rd) b i' j' v) /\ (forall v, at3 m b i j v -> at3 (r_data rm) b i' j' v)).
  { intros a m Sa Sm rd rm. rewrite <- LY', <- LX' in Sa, Sm. destruct (orient_places nb ys' xs' a Sa) as (O1 & (O2 & _) & O3 & O4 & _). destruct (orient_places nb ys' xs' m Sm) as (Q1 & (Q2 & _) & _).
    destruct (orient_coords nb ys' xs' a m) as [K1 K2]. rewrite LY', LX' in O2, Q2. repeat (split; [solve [auto]|]).
    intros b i j Ri Rj. exists (turn_y ys' i), (turn_x xs' j). destruct (turned nb ys' xs' a i j) as [T1 T2]; [lia|lia|]. unfold rd, rm. rewrite T1, T2. split; [auto|]. split; [auto|].
    split; intros v H; apply orient_at; assumption. }
  unfold data_to_xr_raster_ds. destruct mask as [mask|].
  - rewrite (same_shape_ok nb ny nx) by assumption. cbn [negb rbind]. set (n0 := match nv with Some v => v | None => default_null d end) in *.
    assert (SB : shaped3 nb ny nx (if burn then where3 mask n0 data else data)).
    { destruct burn; [|exact S]. rewrite (shaped3_is_tab3 false nb ny nx mask SM) by lia. rewrite (shaped3_is_tab3 NaN nb ny nx data S) by lia. rewrite where3_tab3. apply shaped3_tab3; lia. }
    pose proof (PL _ _ SB) as E1. unfold arr3, arr2 in *. rewrite E1, (PL _ _ SM). cbn [rbind]. eexists _, _. split; [destruct nv; reflexivity|].
    destruct (FIN _ _ SB SM) as (F1 & F2 & F3 & F4 & F5 & F6 & F7 & F8 & F9). repeat (split; [assumption|]).
    intros b i j v H. destruct (at3_range _ _ _ _ _ _ _ _ S H) as (Rb & Ri & Rj). destruct (F9 b i j Ri Rj) as (i' & j' & G1 & G2 & G3 & G4).
    pose proof (at3_tab3 nb ny nx (val3 false mask) b i j Rb Ri Rj) as T. rewrite <- (shaped3_is_tab3 false nb ny nx mask SM) in T by lia.
    exists i', j', (val3 false mask b i j). split; [exact G1|]. split; [exact G2|]. split; [now apply G4|]. split; [exact T|]. apply G3.
    destruct burn; cbn [andb]; [|exact H].
    pose proof (at3_tab3 nb ny nx (val3 NaN data) b i j Rb Ri Rj) as T2. rewrite <- (shaped3_is_tab3 NaN nb ny nx data S) in T2 by lia. rewrite (at3_fun _ _ _ _ _ _ H T2).
    rewrite (shaped3_is_tab3 false nb ny nx mask SM), (shaped3_is_tab3 NaN nb ny nx data S), where3_tab3 by lia.
    pose proof (at3_tab3 nb ny nx (fun b i j => if val3 false mask b i j then n0 else val3 NaN data b i j) b i j Rb Ri Rj) as T3. cbv beta in T3.
    rewrite <- (shaped3_is_tab3 NaN nb ny nx data S), <- (shaped3_is_tab3 false nb ny nx mask SM) by lia. exact T3.
  - assert (SM' : shaped3 nb ny nx (map3 (is_null nv) data)) by now apply map3_shaped.
    cbn [rbind]. rewrite (PL _ _ S), (PL _ _ SM'). cbn [rbind]. eexists _, _. split; [reflexivity|].
    destruct (FIN _ _ S SM') as (F1 & F2 & F3 & F4 & F5 & F6 & F7 & F8 & F9). repeat (split; [assumption|]).
    intros b i j v H. destruct (at3_range _ _ _ _ _ _ _ _ S H) as (Rb & Ri & Rj). destruct (F9 b i j Ri Rj) as (i' & j' & G1 & G2 & G3 & G4).
    exists i', j', (is_null nv v). split; [exact G1|]. split; [exact G2|]. split; [apply G4; now apply at3_map3|]. split; [|now apply G3].
    apply is_null_here.
Qed.

(* ---- dimensions without known names ---- *)
Section Order.
Context {A : Type}.
Variables (spatial : list string -> option (string * string)) (x : xarray A) (bd yd xd : string) (nb : Z) (cy cx : coordinate).
Hypothesis (W : array3 bd yd xd nb cy cx x) (Hb : 0 < nb) (Hy : 0 < len (c_values cy)) (Hx : 0 < len (c_values cx)).
Hypothesis (D : x_dims x = [bd; yd; xd]) (SP : spatial (map standard [bd; yd; xd]) = None) (NY : ~ In (standard yd) band_names) (NX : ~ In (standard xd) band_names).
Lemma unnamed : find_spatial_dims spatial (standard_names x) = Ok (if negb (c_float cy) || negb (c_float cx) then Some (standard yd, standard xd) else None).
Proof.
  destruct (roles x bd yd xd nb cy cx W) as (N1 & N2 & P). pose proof W as (d0 & d1 & d2 & a & D' & PD & BD & S & NS & NC & IC & CY & CX). rewrite D in D'. injection D' as <- <- <-.
  destruct (renamed_coords (first_names (x_dims x)) (x_coords x) (x_dims x)) as (C1 & C2 & C3); try assumption; [now rewrite D|rewrite map_first, D; exact NS|now rewrite D|].
  unfold find_spatial_dims, standard_names. cbn [x_dims x_coords]. rewrite D, SP. cbn [map filter].
  replace (has (standard yd) band_names) with false by (symmetry; apply not_true_iff_false; now rewrite has_in).
  replace (has (standard xd) band_names) with false by (symmetry; apply not_true_iff_false; now rewrite has_in). cbn [negb].
  assert (FY : find_coord (map (fun '(k, c) => (renamed (first_names (x_dims x)) k, c)) (x_coords x)) (standard yd) = Some cy).
  { apply find_coord_in; [exact C1|]. rewrite <- (first_standard (x_dims x)) by (rewrite D; cbn; auto). now apply C3. }
  assert (FX : find_coord (map (fun '(k, c) => (renamed (first_names (x_dims x)) k, c)) (x_coords x)) (standard xd) = Some cx).
  { apply find_coord_in; [exact C1|]. rewrite <- (first_standard (x_dims x)) by (rewrite D; cbn; auto). now apply C3. }
  rewrite D in FY, FX. destruct (negb (has (standard bd) band_names)); cbn [rev app]; rewrite FY, FX; reflexivity.
Qed.
Lemma normalize_order : standard bd <> "band"%string \/ c_float cy = false \/ c_float cx = false ->
  exists r, normalize_xarray_data spatial x = Ok r /\ same_places nb (c_values cy) (c_values cx) (value_along bd yd x) r.
Proof.
  intros H. pose proof unnamed as U. destruct (negb (c_float cy) || negb (c_float cx)) eqn:E.
  - destruct (normalize_named spatial x bd yd xd nb cy cx) as (r & R & P & _); try assumption. eauto.
  - destruct (normalize_positional spatial x bd yd xd nb cy cx) as (r & R & P & _); try assumption; [|eauto]. rewrite D. intros I.
    destruct H as [H|[H|H]]; [|rewrite H in E; discriminate|rewrite H, orb_true_r in E; discriminate].
    cbn [map In] in I. destruct I as [I|[I|[I|[]]]]; [congruence|apply NY; rewrite I; cbn; auto|apply NX; rewrite I; cbn; auto].
Qed.
Lemma normalize_stuck : standard bd = "band"%string -> c_float cy = true -> c_float cx = true -> normalize_xarray_data spatial x = Err TypeError.
Proof.
  intros H F1 F2. pose proof unnamed as U. rewrite F1, F2 in U. cbn in U. destruct (first_steps x bd yd xd nb cy cx W) as [E1 E2].
  unfold normalize_xarray_data. rewrite E1. cbn [rbind]. rewrite E2. cbn [rbind]. rewrite U. cbn [rbind]. unfold standard_names. cbn [x_dims]. rewrite D. cbn [map]. rewrite H. reflexivity.
Qed.
End Order.
Lemma normalize_placed {A} spatial (x : xarray A) bd yd xd nb cy cx : array3 bd yd xd nb cy cx x -> 0 < nb -> 0 < len (c_values cy) -> 0 < len (c_values cx) ->
  spatial (map standard (x_dims x)) = Some (standard yd, standard xd) ->
  exists r, normalize_xarray_data spatial x = Ok r /\ placed x bd yd nb cy cx r.
Proof. intros W Hb Hy Hx S. apply (normalize_named spatial x bd yd xd nb cy cx); try assumption. unfold find_spatial_dims, standard_names. cbn [x_dims]. now rewrite S. Qed.
Lemma normalize_spatial {A} spatial (x : xarray A) bd yd xd nb cy cx : array3 bd yd xd nb cy cx x -> 0 < nb -> 0 < len (c_values cy) -> 0 < len (c_values cx) ->
  spatial (map standard (x_dims x)) = Some (standard yd, standard xd) ->
  exists r, normalize_xarray_data spatial x = Ok r /\ same_places nb (c_values cy) (c_values cx) (value_along bd yd x) r.
Proof. intros W Hb Hy Hx S. destruct (normalize_placed spatial x bd yd xd nb cy cx W Hb Hy Hx S) as (r & R & P & _). eauto. Qed.

(* ---- once more ---- *)
Definition as_xarray {A} (r : raster_array A) : xarray A :=
  XArray ["band"; "y"; "x"]%string [("band", Coord false (map inject_Z (r_band r))); ("y", Coord true (r_y r)); ("x", Coord true (r_x r))]%string (Body3 (r_data r)).
Lemma transpose_same {A} nb ny nx (a : list (list (list A))) : 0 < nb -> 0 < ny -> 0 < nx -> shaped3 nb ny nx a -> transpose3 ["band"; "y"; "x"]%string a = Ok a.
Proof.
  intros Hb Hy Hx S. destruct (transpose_named "band" "y" "x" nb ny nx nb ny nx a S) as (t & T1 & T2 & T3); try lia; try (rewrite (size_first _ _ _ nb ny nx a S) by lia; reflexivity); [cbn; auto|].
  rewrite T1. f_equal. destruct a as [|p a]; [destruct S as [L _]; unfold len in L; cbn in L; lia|].
  assert (d : A). { destruct S as [L F]. apply Forall_inv in F as [L1 F1]. destruct p as [|q p]; [exfalso; unfold len in L1; cbn in L1; lia|]. apply Forall_inv in F1. destruct q as [|v q]; [exfalso; unfold len in F1; cbn in F1; lia|exact v]. }
  rewrite (shaped3_is_tab3 d nb ny nx t T2), (shaped3_is_tab3 d nb ny nx (p :: a) S) by lia. apply tab3_ext. intros b i j Rb Ri Rj.
  pose proof (at3_tab3 nb ny nx (val3 d (p :: a)) b i j Rb Ri Rj) as V. rewrite <- (shaped3_is_tab3 d nb ny nx (p :: a) S) in V by lia. specialize (T3 b i j _ Rb Ri Rj V).
  pose proof (at3_tab3 nb ny nx (val3 d t) b i j Rb Ri Rj) as V2. rewrite <- (shaped3_is_tab3 d nb ny nx t T2) in V2 by lia. eapply at3_fun; eassumption.
Qed.
Lemma orient_fixed {A} nb ys xs (a : list (list (list A))) : let r := orient nb ys xs a in is_strictly_decreasing (r_x r) = false /\ is_strictly_increasing (r_y r) = false.
Proof.
  assert (ND : forall l, is_strictly_decreasing l = true -> is_strictly_decreasing (rev l) = false).
  { intros l H. apply decreasing_iff in H as [L H]. apply not_true_iff_false. rewrite decreasing_iff. intros [L' D]. pose proof (rev_decreasing l H) as I.
    destruct (get_range (rev l) 0) as [p G1]; [lia|]. destruct (get_range (rev l) (0 + 1)) as [q G2]; [lia|]. apply (Qlt_irrefl p). eapply Qlt_trans; [apply (I _ _ _ G1 G2)|apply (D _ _ _ G1 G2)]. }
  assert (NI : forall l, is_strictly_increasing l = true -> is_strictly_increasing (rev l) = false).
  { intros l H. apply increasing_iff in H as [L H]. apply not_true_iff_false. rewrite increasing_iff. intros [L' D]. pose proof (rev_increasing l H) as I.
    destruct (get_range (rev l) 0) as [p G1]; [lia|]. destruct (get_range (rev l) (0 + 1)) as [q G2]; [lia|]. apply (Qlt_irrefl p). eapply Qlt_trans; [apply (D _ _ _ G1 G2)|apply (I _ _ _ G1 G2)]. }
  unfold orient. destruct (is_strictly_decreasing xs) eqn:E1, (is_strictly_increasing ys) eqn:E2; cbn [r_y r_x r_data]; rewrite ?(ND _ E1), ?(NI _ E2), ?E1, ?E2; auto.
Qed.
(* any result of normalize_xarray_data has its coordinates in order *)
Lemma normalize_oriented {A} spatial (x : xarray A) r : normalize_xarray_data spatial x = Ok r -> is_strictly_decreasing (r_x r) = false /\ is_strictly_increasing (r_y r) = false.
Proof.
  unfold normalize_xarray_data. intros H. repeat (apply rbind_ok in H as (? & ? & H)). match type of H with match ?b with _ => _ end = _ => destruct b as [a|a] end; [discriminate|]. apply rbind_ok in H as (t & _ & H).
  destruct (find_coord _ _); [|discriminate]. destruct (find_coord _ _); [|discriminate]. injection H as <-. apply orient_fixed.
Qed.
Lemma normalize_fixed {A} spatial nb (r : raster_array A) : 0 < nb -> 0 < len (r_y r) -> 0 < len (r_x r) -> shaped3 nb (len (r_y r)) (len (r_x r)) (r_data r) ->
  spatial ["band"; "y"; "x"]%string = Some ("y", "x")%string -> r_band r = zrange 1 (nb + 1) -> is_strictly_decreasing (r_x r) = false -> is_strictly_increasing (r_y r) = false ->
  normalize_xarray_data spatial (as_xarray r) = Ok r.
Proof.
  intros Hb Hy Hx S SP BD DX DY. unfold normalize_xarray_data, expand, as_xarray. cbn [x_body x_dims x_coords rbind].
  change (first_names ["band"; "y"; "x"]%string) with (@nil (string * string)).
  rewrite rename_ok by (cbn; repeat constructor; cbn; intuition discriminate). cbn [rbind map x_dims x_coords x_body renamed find].
  unfold find_spatial_dims. cbn [x_dims]. rewrite SP. cbn [rbind]. 
  change (filter _ ["band"; "y"; "x"]%string) with ["band"]%string. cbv beta iota.
  rewrite rename_ok by (cbn; repeat constructor; cbn; intuition discriminate). cbn [rbind x_body x_dims x_coords].
  change (map (renamed _) ["band"; "y"; "x"]%string) with ["band"; "y"; "x"]%string.
  rewrite (transpose_same nb (len (r_y r)) (len (r_x r))) by assumption. cbn [rbind]. replace (len (r_data r)) with nb by (symmetry; apply S).
  transitivity (Ok (orient nb (r_y r) (r_x r) (r_data r))); [reflexivity|]. f_equal. unfold orient. rewrite DX, DY, <- BD. now destruct r.
Qed.
Lemma normalize_again {A} spatial nb ys xs (a : list (list (list A))) : 0 < nb -> 0 < len ys -> 0 < len xs -> shaped3 nb (len ys) (len xs) a ->
  spatial ["band"; "y"; "x"]%string = Some ("y", "x")%string -> let r := orient nb ys xs a in normalize_xarray_data spatial (as_xarray r) = Ok r.
Proof.
  intros Hb Hy Hx S SP r. destruct (orient_places nb ys xs a S) as (B & (S' & L1 & L2) & _). fold r in B, S', L1, L2. destruct (orient_fixed nb ys xs a) as [F1 F2]. fold r in F1, F2.
  apply (normalize_fixed spatial nb); try assumption; rewrite ?L1, ?L2; assumption.
Qed.
