From Coq Require Import QArith Lia ZifyBool ZifyNat.
From Verif Require Import Focal RasterStack Base BaseFacts Scalars ProximityChunk Chunks ChunksSpec ChunksProofs Arr2 Arr2Facts Stats StatsSpec StatsProofs FocalSpec FocalValues FocalResults Zonal Aggregate AggregateSpec.
Open Scope Z_scope.

Lemma groups_tab {A} f n (g : Z -> A) N : 0 <= f -> 0 <= n -> n * f <= N ->
  groups f n (tab N g) = tab n (fun k => tab f (fun a => g (k * f + a))).
Proof.
  intros Hf Hn HN. unfold groups. change (map (fun k => slice (tab N g) (k * f) (k * f + f)) (zrange 0 n)) with (tab n (fun k => slice (tab N g) (k * f) (k * f + f))).
  apply tab_ext. intros k Hk. rewrite slice_tab by nia. f_equal. lia.
Qed.
Lemma map_tab {A B} (h : A -> B) n g : map h (tab n g) = tab n (fun i => h (g i)).
Proof. unfold tab. apply map_map. Qed.
Lemma tab_eq_n {A} n n' (f g : Z -> A) : n = n' -> (forall i, 0 <= i < n -> f i = g i) -> tab n f = tab n' g.
Proof. intros <-. apply tab_ext. Qed.
Definition tab4 {A} (n fy m fx : Z) (f : Z -> Z -> A) : list (list (list (list A))) :=
  tab n (fun j => tab fy (fun a => tab m (fun k => tab fx (fun b => f (j * fy + a) (k * fx + b))))).
Lemma div_mul_le a b : 1 <= b -> 0 <= a -> 0 <= a / b /\ a / b * b <= a.
Proof. intros. pose proof (Z.div_pos a b). pose proof (Z.mul_div_le a b). nia. Qed.
Lemma coarsen_tab {A} fy fx ny nx (f : Z -> Z -> A) : 1 <= fy -> 1 <= fx -> 0 <= ny -> 0 <= nx ->
  coarsen fy fx ny nx (tab2 ny nx f) = tab4 (ny / fy) fy (nx / fx) fx f.
Proof.
  intros Hy Hx Hny Hnx. destruct (div_mul_le ny fy Hy Hny). destruct (div_mul_le nx fx Hx Hnx).
  unfold coarsen, trim. unfold tab2 at 1. rewrite slice_tab by nia. rewrite map_tab.
  rewrite groups_tab by nia. rewrite map_tab. unfold tab4. apply tab_ext. intros j Hj. rewrite map_tab. apply tab_ext. intros a Ha.
  rewrite slice_tab by nia. rewrite groups_tab by nia. apply tab_ext. intros k Hk. apply tab_ext. intros b Hb. reflexivity.
Qed.
Lemma window_tab4 {A} n fy m fx (f : Z -> Z -> A) j k : 0 <= j < n -> 0 <= k < m ->
  window_of (tab4 n fy m fx f) j k = Ok (map (fun '(y, x) => f y x) (cells_under fy fx j k)).
Proof.
  intros Hj Hk. unfold window_of, tab4. rewrite get_tab by lia. cbn [rbind].
  erewrite (traverse_ok _ (fun row => match get row k with Ok x => x | Err _ => [] end)).
  - cbn [rbind]. f_equal. rewrite map_tab. unfold cells_under, cells, tab. rewrite map_map, concat_map, map_map. f_equal.
    apply map_ext. intros a. change (map (fun k0 => map (fun b => f (j * fy + a) (k0 * fx + b)) (zrange 0 fx)) (zrange 0 m)) with (tab m (fun k0 => map (fun b => f (j * fy + a) (k0 * fx + b)) (zrange 0 fx))).
    rewrite get_tab by lia. rewrite map_map. reflexivity.
  - intros row Hr. unfold tab in Hr. apply in_map_iff in Hr. destruct Hr as (a & <- & _).
    change (map (fun k0 => map (fun b => f (j * fy + a) (k0 * fx + b)) (zrange 0 fx)) (zrange 0 m)) with (tab m (fun k0 => map (fun b => f (j * fy + a) (k0 * fx + b)) (zrange 0 fx))).
    rewrite get_tab by lia. reflexivity.
Qed.
Lemma reduce_tab4 {A B} (h : list A -> res B) (g : list A -> B) n fy m fx (f : Z -> Z -> A) : (forall w, h w = Ok (g w)) ->
  reduce h n m (tab4 n fy m fx f) = Ok (tab2 n m (fun j k => g (map (fun '(y, x) => f y x) (cells_under fy fx j k)))).
Proof.
  intros H. unfold reduce. apply traverse_ok. intros j Hj. apply zrange_in in Hj. apply traverse_ok. intros k Hk. apply zrange_in in Hk.
  rewrite window_tab4 by lia. cbn [rbind]. apply H.
Qed.
Lemma locations_range cs : Forall (fun c => 0 <= c) cs -> forall lo hi, In (lo, hi) (chunks_to_array_locations cs) -> 0 <= lo /\ lo <= hi /\ hi <= sum cs.
Proof.
  induction cs as [|c cs IH]; intros F lo hi H; [destruct H|]. inversion F as [|? ? F1 F2]; subst. rewrite sum_cons.
  pose proof (sum_nonneg cs F2) as N. rewrite locs_cons in H. destruct H as [[= <- <-]|H]; [lia|].
  apply in_map_iff in H. destruct H as ([a b] & [= <- <-] & H). destruct (IH F2 _ _ H) as (? & ? & ?). cbn [fst snd]. lia.
Qed.
Lemma block_map_tab4 (h : list num -> res num) (g : list num -> num) check ycs xcs n m fy fx (f : Z -> Z -> num) :
  cuts n ycs -> cuts m xcs -> xcs <> [] ->
  (forall w, h w = Ok (g w)) ->
  coarsen_block_map h check ycs xcs (tab4 n fy m fx f)
  = Ok (tab2 n m (fun j k => let v := g (map (fun '(y, x) => f y x) (cells_under fy fx j k)) in if check && is_nan v then of_Z 0 else v)).
Proof.
  intros Cy Cx Nx H. destruct (cuts_sum _ _ Cy) as [Fy Sy]. destruct (cuts_sum _ _ Cx) as [Fx Sx].
  set (F := fun j k => let v := g (map (fun '(y, x) => f y x) (cells_under fy fx j k)) in if check && is_nan v then of_Z 0 else v).
  unfold coarsen_block_map.
  erewrite (traverse_ok _ (fun p => tab2 (snd p - fst p) m (fun j k => F (fst p + j) k))).
  - cbn [rbind]. f_equal. rewrite (vcat_tab m ycs Fy F), Sy. reflexivity.
  - intros [r0 r1] Hr.
    destruct (locations_range _ Fy _ _ Hr) as (R1 & R2 & R3).
    erewrite (traverse_ok _ (fun p => tab2 (r1 - r0) (snd p - fst p) (fun j k => F (r0 + j) (fst p + k)))).
    + cbn [rbind fst snd]. f_equal. rewrite (hcat_tab (r1 - r0) xcs Fx Nx (fun j k => F (r0 + j) k)), Sx. reflexivity.
    + intros [c0 c1] Hc. destruct (locations_range _ Fx _ _ Hc) as (C1 & C2 & C3). cbn [fst snd].
      unfold coarsen_chunk, tab4. rewrite slice_tab by lia. rewrite map_tab.
      rewrite (tab_ext _ _ (fun j => tab fy (fun a => tab (c1 - c0) (fun k => tab fx (fun b => f ((r0 + j) * fy + a) ((c0 + k) * fx + b)))))).
      2:{ intros j Hj. rewrite map_tab. apply tab_ext. intros a Ha. rewrite slice_tab by lia. reflexivity. }
      rewrite (tab_ext _ _ (fun j => tab fy (fun a => tab (c1 - c0) (fun k => tab fx (fun b => (fun y x => f (r0 * fy + y) (c0 * fx + x)) (j * fy + a) (k * fx + b)))))).
      2:{ intros j Hj. apply tab_ext. intros a Ha. apply tab_ext. intros k Hk. apply tab_ext. intros b Hb. f_equal; lia. }
      fold (tab4 (r1 - r0) fy (c1 - c0) fx (fun y x => f (r0 * fy + y) (c0 * fx + x))).
      erewrite reduce_tab4; [|intros w; rewrite H; reflexivity]. f_equal. apply tab2_ext. intros j k Hj Hk. unfold F. cbv zeta.
      replace (map (fun '(y, x) => f (r0 * fy + y) (c0 * fx + x)) (cells_under fy fx j k)) with (map (fun '(y, x) => f y x) (cells_under fy fx (r0 + j) (c0 + k))); [reflexivity|].
      unfold cells_under. rewrite !map_map. apply map_ext. intros [a b]. f_equal; lia.
Qed.

(* the function a statistic applies to the values of a window *)
Definition computes (s : statistic) (g : list num -> num) : Prop :=
  match s with
  | Builtin f => f = g
  | Custom f => forall w, f w = Ok (g w)
  | SMode => forall w, exists v, nanmode w = Ok v /\ g w = if is_nan v then of_Z 0 else v
  end.
Lemma run_tab4 s g ycs xcs n m fy fx f : cuts n ycs -> cuts m xcs -> xcs <> [] -> computes s g ->
  run_statistic s ycs xcs n m (tab4 n fy m fx f) = Ok (tab2 n m (fun j k => g (map (fun '(y, x) => f y x) (cells_under fy fx j k)))).
Proof.
  intros Cy Cx Nx H. destruct s as [h|h|]; cbn [run_statistic computes] in *.
  - subst h. apply reduce_tab4. reflexivity.
  - rewrite (block_map_tab4 h g) by assumption. reflexivity.
  - rewrite (block_map_tab4 nanmode (fun w => match nanmode w with Ok v => v | Err _ => NaN end)).
    + f_equal. apply tab2_ext. intros j k Hj Hk. cbv zeta. destruct (H (map (fun '(y, x) => f y x) (cells_under fy fx j k))) as (v & E & ->). rewrite E. reflexivity.
    + exact Cy.
    + exact Cx.
    + exact Nx.
    + intros w. destruct (H w) as (v & E & _). rewrite E. reflexivity.
Qed.
Lemma where2_tab {A} ny nx m (x : A) f : where2 (tab2 ny nx m) x (tab2 ny nx f) = tab2 ny nx (fun i j => if m i j : bool then x else f i j).
Proof.
  unfold where2, tab2, tab. rewrite combine_map, map_map. apply map_ext. intros i. rewrite combine_map, map_map. reflexivity.
Qed.
Lemma in_cells_under fy fx j k y x : In (y, x) (cells_under fy fx j k) <-> j * fy <= y < j * fy + fy /\ k * fx <= x < k * fx + fx.
Proof.
  unfold cells_under, cells. rewrite in_map_iff. split.
  - intros ([a b] & [= <- <-] & H). apply in_concat in H. destruct H as (l & Hl & H). apply in_map_iff in Hl. destruct Hl as (i & <- & Hi).
    apply in_map_iff in H. destruct H as (i' & [= <- <-] & H). apply zrange_in in Hi, H. lia.
  - intros H. exists (y - j * fy, x - k * fx). split; [f_equal; lia|]. apply in_concat. exists (map (fun b => (y - j * fy, b)) (zrange 0 fx)).
    split; apply in_map_iff; [exists (y - j * fy)|exists (x - k * fx)]; (split; [reflexivity|]; apply zrange_in; lia).
Qed.
Lemma under_range fy fx ny nx j k y x : 1 <= fy -> 1 <= fx -> 0 <= j < ny / fy -> 0 <= k < nx / fx -> 0 <= ny -> 0 <= nx ->
  In (y, x) (cells_under fy fx j k) -> 0 <= y < ny /\ 0 <= x < nx.
Proof.
  intros Hy Hx Hj Hk Ny Nx H. apply in_cells_under in H. destruct (div_mul_le ny fy Hy Ny). destruct (div_mul_le nx fx Hx Nx). nia.
Qed.

Lemma aggregate_spec promote nv s g ny nx fy fx ycs xcs data mask :
  1 <= fy -> 1 <= fx -> ~ (fy = 1 /\ fx = 1) -> 0 <= ny -> 0 <= nx ->
  cuts (ny / fy) ycs -> cuts (nx / fx) xcs -> xcs <> [] -> computes s g ->
  shaped2 ny nx data -> match mask with Some m => shaped2 ny nx m | None => True end ->
  (forall y x, 0 <= y < ny -> 0 <= x < nx -> mask <> None -> null_of mask y x = false -> promote (val2 NaN data y x) = val2 NaN data y x) ->
  exists out omask, aggregate promote nv s ny nx fy fx ycs xcs data mask = Ok (out, omask)
  /\ shaped2 (ny / fy) (nx / fx) out
  /\ match omask with Some m => mask <> None /\ shaped2 (ny / fy) (nx / fx) m | None => mask = None end
  /\ forall j k, 0 <= j < ny / fy -> 0 <= k < nx / fx ->
     null_of omask j k = (match mask with Some _ => all_null (null_of mask) fy fx j k | None => false end)
     /\ val2 NaN out j k = if null_of omask j k then nv else g (window_values data (null_of mask) fy fx j k).
Proof.
  intros Hy Hx H1 Ny Nx Cy Cx Nc HS Sd Sm HP.
  destruct (div_mul_le ny fy Hy Ny) as [Qy _]. destruct (div_mul_le nx fx Hx Nx) as [Qx _].
  assert (VD : forall y x, default2 NaN data y x = val2 NaN data y x).
  { intros y x. unfold default2, get2, val2. destruct (get data y); reflexivity. }
  assert (UA : forall data mask, aggregate promote nv s ny nx fy fx ycs xcs data mask =
    match mask with
    | Some mask =>
        let* out := run_statistic s ycs xcs (ny / fy) (nx / fx) (coarsen fy fx ny nx (where2 mask NaN (map (map promote) data))) in
        let* omask := reduce (fun w => Ok (forallb (fun b => b) w)) (ny / fy) (nx / fx) (coarsen fy fx ny nx mask) in
        Ok (where2 omask nv out, Some omask)
    | None => let* out := run_statistic s ycs xcs (ny / fy) (nx / fx) (coarsen fy fx ny nx data) in Ok (out, None)
    end).
  { intros. unfold aggregate. replace ((fy =? 1) && (fx =? 1)) with false by lia. replace (negb ((1 <=? fy) && (1 <=? fx))) with false by lia. reflexivity. }
  destruct mask as [mask|].
  - replace (aggregate promote nv s ny nx fy fx ycs xcs data (Some mask)) with (aggregate promote nv s ny nx fy fx ycs xcs (tab2 ny nx (default2 NaN data)) (Some (tab2 ny nx (default2 true mask)))) by (rewrite <- (rect_is_tab2 NaN ny nx data Sd Ny), <- (rect_is_tab2 true ny nx mask Sm Ny); reflexivity).
    rewrite UA. cbv iota.
    assert (VM : forall y x, default2 true mask y x = val2 true mask y x).
    { intros y x. unfold default2, get2, val2. destruct (get mask y); reflexivity. }
    replace (map (map promote) (tab2 ny nx (default2 NaN data))) with (tab2 ny nx (fun y x => promote (default2 NaN data y x))).
    2:{ unfold tab2. rewrite map_tab. apply tab_ext. intros. rewrite map_tab. reflexivity. }
    rewrite where2_tab, coarsen_tab by lia. rewrite (run_tab4 s g) by assumption. cbn [rbind].
    rewrite coarsen_tab by lia. erewrite reduce_tab4; [|reflexivity]. cbn [rbind]. rewrite where2_tab.
    eexists _, (Some _). split; [reflexivity|]. split; [apply rect_tab2; lia|]. split; [split; [discriminate|apply rect_tab2; lia]|].
    intros j k Hj Hk. cbn [null_of]. rewrite !val2_tab by lia.
    assert (EA : forallb (fun b => b) (map (fun '(y, x) => default2 true mask y x) (cells_under fy fx j k)) = all_null (null_of (Some mask)) fy fx j k).
    { unfold all_null. clear. induction (cells_under fy fx j k) as [|[y x] l IH]; [reflexivity|]. cbn [map forallb]. rewrite IH. f_equal.
      unfold default2, get2. cbn. unfold val2. destruct (get mask y); reflexivity. }
    rewrite EA. split; [reflexivity|]. destruct (all_null _ fy fx j k); [reflexivity|]. f_equal. unfold window_values. apply map_ext_in. intros [y x] Hi.
    destruct (under_range _ _ _ _ _ _ _ _ Hy Hx Hj Hk Ny Nx Hi). rewrite VM, VD. cbn [null_of]. destruct (val2 true mask y x) eqn:E; [reflexivity|].
    apply HP; [lia|lia|discriminate|exact E].
  - rewrite UA. cbv iota. replace (coarsen fy fx ny nx data) with (coarsen fy fx ny nx (tab2 ny nx (default2 NaN data))) by (rewrite <- (rect_is_tab2 NaN ny nx data Sd Ny); reflexivity).
    rewrite coarsen_tab by lia. rewrite (run_tab4 s g) by assumption. cbn [rbind].
    eexists _, None. split; [reflexivity|]. split; [apply rect_tab2; lia|]. split; [reflexivity|].
    intros j k Hj Hk. cbn [null_of]. rewrite val2_tab by lia. split; [reflexivity|]. f_equal. unfold window_values. apply map_ext. intros [y x]. cbn. apply VD.
Qed.

(* every cell of the trimmed raster is under exactly one cell of the result, and
   the other cells are those beyond the last complete window *)
Lemma under_unique fy fx ny nx y x : 1 <= fy -> 1 <= fx -> 0 <= ny -> 0 <= nx -> 0 <= y < ny -> 0 <= x < nx ->
  (y < ny / fy * fy /\ x < nx / fx * fx <-> exists j k, 0 <= j < ny / fy /\ 0 <= k < nx / fx /\ In (y, x) (cells_under fy fx j k))
  /\ forall j k j' k', In (y, x) (cells_under fy fx j k) -> In (y, x) (cells_under fy fx j' k') -> j = j' /\ k = k'.
Proof.
  intros Hy Hx Ny Nx Yr Xr. split; [split|].
  - intros [H1 H2]. exists (y / fy), (x / fx). pose proof (Z.div_mod y fy). pose proof (Z.mod_pos_bound y fy). pose proof (Z.div_mod x fx). pose proof (Z.mod_pos_bound x fx).
    rewrite in_cells_under. pose proof (Z.div_pos y fy). pose proof (Z.div_pos x fx).
    assert (y / fy < ny / fy) by (apply Z.div_lt_upper_bound; lia). assert (x / fx < nx / fx) by (apply Z.div_lt_upper_bound; lia). lia.
  - intros (j & k & Hj & Hk & H). apply in_cells_under in H. nia.
  - intros j k j' k' H H'. apply in_cells_under in H, H'. nia.
Qed.

Lemma mode_computes : computes SMode (fun w => match nanmode w with Ok v => if is_nan v then of_Z 0 else v | Err _ => NaN end).
Proof.
  intros w. destruct (mode_spec w) as [[_ E]|(m & E & _)]; rewrite E; eexists; split; reflexivity.
Qed.
Lemma mode_value w v : In v w -> is_nan v = false ->
  is_mode w (match nanmode w with Ok v => if is_nan v then of_Z 0 else v | Err _ => NaN end).
Proof.
  intros H N. destruct (mode_spec w) as [[F _]|(m & E & M)].
  - rewrite Forall_forall in F. rewrite (F v H) in N. discriminate.
  - rewrite E. pose proof M as (_ & Nm & _). rewrite Nm. exact M.
Qed.
Lemma unique_le x : 0 <= nan_unique_count x <= len x.
Proof.
  unfold nan_unique_count. split; [apply len_nonneg|].
  assert (G : forall x s, len (fold_left (fun s v => if is_nan v then s else set_add s v) x s) <= len s + len x).
  { clear x. induction x as [|v x IH]; intros s; cbn [fold_left]; [cbn; lia|]. rewrite len_cons. specialize (IH (if is_nan v then s else set_add s v)).
    assert (len (set_add s v) <= len s + 1) by (unfold set_add; destruct (existsb _ _); [lia|rewrite RasterStack.len_app; unfold len; cbn; lia]).
    destruct (is_nan v); lia. }
  specialize (G x []). cbn in G. lia.
Qed.
Lemma len_window data null fy fx j k : 0 <= fy -> 0 <= fx -> len (window_values data null fy fx j k) = fy * fx.
Proof.
  intros Hy Hx. unfold window_values, cells_under. rewrite !len_map. unfold cells.
  assert (G : forall (l : list (list (Z * Z))), Forall (fun r => len r = fx) l -> len (concat l) = len l * fx).
  { induction l as [|r l IH]; intros F; [reflexivity|]. inversion F; subst. cbn [concat]. rewrite RasterStack.len_app, len_cons, IH by assumption. lia. }
  rewrite G; [rewrite len_map, len_zrange; lia|]. apply Forall_forall. intros r Hr. apply in_map_iff in Hr. destruct Hr as (i & <- & _). rewrite len_map, len_zrange. lia.
Qed.
Lemma unique_fits n d c : 0 <= n -> Focal.unique_dtype n = Some d -> 0 <= c <= n ->
  (int_min d <= c <= int_max d) /\ (int_min (get_unique_dtype d) <= c <= int_max (get_unique_dtype d)).
Proof.
  unfold Focal.unique_dtype. cbn [find]. intros Hn H Hc.
  repeat match type of H with context [n <=? int_max ?x] => destruct (n <=? int_max x) eqn:? end; try discriminate H; injection H as <-; cbn in *; lia.
Qed.

(* the coordinates of the result are those of the coarser grid *)
Lemma fold_Qplus_acc l : forall a, (fold_left Qplus l a == a + fold_left Qplus l 0)%Q.
Proof.
  induction l as [|x l IH]; intros a; cbn [fold_left]; [ring|]. rewrite (IH (a + x)%Q), (IH (0 + x)%Q). ring.
Qed.
Lemma sum_arith (n : Z) (g : Z -> Q) c r : 0 <= n -> (forall i, 0 <= i < n -> (g i == c + r * inject_Z i)%Q) ->
  (2 * fold_left Qplus (tab n g) 0 == inject_Z n * (2 * c + r * (inject_Z n - 1)))%Q.
Proof.
  intros Hn. pattern n. apply natlike_ind; [|clear n Hn|exact Hn].
  - intros _. cbn. ring.
  - intros n Hn IH H. unfold Z.succ. rewrite tab_succ by exact Hn. rewrite fold_left_app. cbn [fold_left].
    rewrite Qmult_plus_distr_r, IH by (intros i Hi; apply H; lia). rewrite (H n) by lia. rewrite inject_Z_plus. change (inject_Z 1) with 1%Q. ring.
Qed.
Lemma coords_spec f n x0 r : 1 <= f -> 0 <= n -> forall coords, len coords = n ->
  (forall i c, get coords i = Ok c -> (c == x0 + r * (inject_Z i + (1 # 2)))%Q) ->
  len (coarsen_coords f n coords) = n / f /\
  forall k c, get (coarsen_coords f n coords) k = Ok c -> (c == x0 + (r * inject_Z f) * (inject_Z k + (1 # 2)))%Q.
Proof.
  intros Hf Hn coords L H. destruct (div_mul_le n f Hf Hn) as [Q1 Q2].
  set (d := fun i => match get coords i with Ok c => c | Err _ => 0%Q end).
  assert (E : coords = tab n d).
  { apply list_tab; [lia|exact L|]. intros i Hi. unfold d. destruct (get_range coords i) as [c Ec]; [lia|]. now rewrite Ec. }
  assert (HD : forall i, 0 <= i < n -> (d i == x0 + r * (inject_Z i + (1 # 2)))%Q).
  { intros i Hi. unfold d. destruct (get_range coords i) as [c Ec]; [lia|]. rewrite Ec. apply H, Ec. }
  unfold coarsen_coords. rewrite E, slice_tab by nia. rewrite groups_tab by nia. rewrite map_tab. split; [apply len_tab; lia|].
  intros k c Hc. pose proof (get_ok_range _ _ _ Hc) as R. rewrite len_tab in R by lia. rewrite get_tab in Hc by lia. injection Hc as <-.
  assert (S : (2 * fold_left Qplus (tab f (fun a => d (0 + (k * f + a))%Z)) 0 == inject_Z f * (2 * (x0 + r * (inject_Z (k * f) + (1 # 2))) + r * (inject_Z f - 1)))%Q).
  { apply sum_arith; [lia|]. intros i Hi. rewrite HD by nia. rewrite !inject_Z_plus. ring. }
  assert (NZ : ~ (inject_Z f == 0)%Q) by (intros C; apply (inject_Z_injective f 0) in C; lia).
  apply (Qmult_inj_l _ _ (2 * inject_Z f)%Q); [intros C; apply Qmult_integral in C; destruct C; [discriminate|contradiction]|].
  match goal with |- (_ * (?T / _) == _)%Q => transitivity (2 * T)%Q; [field; exact NZ|]; change (T) with (fold_left Qplus (tab f (fun a => d (0 + (k * f + a))%Z)) 0%Q) end.
  rewrite S, inject_Z_mult. ring.
Qed.
