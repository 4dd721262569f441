From Coq Require Import QArith Lia ZifyBool ZifyNat.
From Verif Require Import RasterStack PadProofs Base BaseFacts Scalars NumFacts Dtypes ProximityChunk Chunks ChunksSpec ChunksProofs Arr2 Arr2Facts Stats StatsSpec StatsProofs Focal FocalSpec FocalValues FocalResults Aggregate AggregateProofs Bands BandsSpec.
Open Scope Z_scope.

Definition tab3 {A} (nb ny nx : Z) (f : Z -> Z -> Z -> A) : arr3 A := tab nb (fun b => tab2 ny nx (f b)).
Lemma tab3_ext {A} nb ny nx (f g : Z -> Z -> Z -> A) :
  (forall b i j, 0 <= b < nb -> 0 <= i < ny -> 0 <= j < nx -> f b i j = g b i j) -> tab3 nb ny nx f = tab3 nb ny nx g.
Proof. intros H. apply tab_ext. intros b Hb. apply tab2_ext. intros. now apply H. Qed.
Lemma shaped3_tab3 {A} nb ny nx (f : Z -> Z -> Z -> A) : 0 <= nb -> 0 <= ny -> 0 <= nx -> shaped3 nb ny nx (tab3 nb ny nx f).
Proof.
  intros. split; [now apply len_tab|]. apply Forall_forall. intros a Ha. unfold tab3, tab in Ha. apply in_map_iff in Ha. destruct Ha as (b & <- & _).
  now apply rect_tab2.
Qed.
Definition val3 {A} (d : A) (a : list (list (list A))) (b i j : Z) : A := match get a b with Ok x => val2 d x i j | Err _ => d end.
Lemma shaped3_is_tab3 {A} (d : A) nb ny nx a : shaped3 nb ny nx a -> 0 <= nb -> 0 <= ny -> a = tab3 nb ny nx (val3 d a).
Proof.
  intros [L F] Hb Hy. apply list_tab; [exact Hb|exact L|]. intros b Hr. destruct (get_range a b) as [x E]; [lia|]. rewrite E. f_equal.
  rewrite Forall_forall in F. specialize (F x (get_in _ _ _ E)).
  rewrite (rect_is_tab2 d ny nx x F Hy) at 1. apply tab2_ext. intros i j _ _. unfold val3. rewrite E. unfold default2, get2, val2. destruct (get x i); reflexivity.
Qed.
Lemma through_tab3 {A} (d : A) nb ny nx f r c : 0 <= r < ny -> 0 <= c < nx -> through d (tab3 nb ny nx f) r c = tab nb (fun b => f b r c).
Proof.
  intros. unfold through, tab3, tab. rewrite map_map. apply map_ext. intros b. now rewrite val2_tab.
Qed.
Lemma column_tab3 {A} nb ny nx (f : Z -> Z -> Z -> A) r c : 0 <= r < ny -> 0 <= c < nx -> column (tab3 nb ny nx f) r c = Ok (tab nb (fun b => f b r c)).
Proof.
  intros. unfold column, tab3.
  rewrite (traverse_ok _ (fun band => match get2 band r c with Ok x => x | Err _ => f 0 0 0 end)).
  - f_equal. unfold tab. rewrite map_map. apply map_ext. intros b. now rewrite get2_tab2.
  - intros x Hx. unfold tab in Hx. apply in_map_iff in Hx. destruct Hx as (b & <- & _). now rewrite get2_tab2.
Qed.
Lemma cut3_tab3 {A} nb ny nx (f : Z -> Z -> Z -> A) r0 r1 c0 c1 : 0 <= r0 <= r1 -> r1 <= ny -> 0 <= c0 <= c1 -> c1 <= nx ->
  cut3 r0 r1 c0 c1 (tab3 nb ny nx f) = tab3 nb (r1 - r0) (c1 - c0) (fun b i j => f b (r0 + i) (c0 + j)).
Proof.
  intros. unfold cut3, tab3. rewrite map_tab. apply tab_ext. intros b _. unfold tab2. rewrite slice_tab by lia. rewrite map_tab. apply tab_ext. intros i _.
  now rewrite slice_tab by lia.
Qed.
Lemma where3_tab3 {A} nb ny nx m (x : A) f : where3 (tab3 nb ny nx m) x (tab3 nb ny nx f) = tab3 nb ny nx (fun b i j => if m b i j : bool then x else f b i j).
Proof.
  unfold where3, tab3, tab. rewrite combine_map, map_map. apply map_ext. intros b. apply AggregateProofs.where2_tab.
Qed.
Lemma join_ok {A B P} (cat : list A -> B) nout (h : Z -> P -> A) (l : list P) :
  join cat nout (map (fun p => tab nout (fun o => h o p)) l) = Ok (tab nout (fun o => cat (map (h o) l))).
Proof.
  unfold join. apply traverse_ok. intros o Ho. apply zrange_in in Ho.
  destruct l as [|p0 l]; [reflexivity|]. set (ps := p0 :: l).
  rewrite (traverse_ok _ (fun b => match get b o with Ok x => x | Err _ => h 0 p0 end)).
  - cbn [rbind]. do 2 f_equal. rewrite map_map. apply map_ext. intros p. now rewrite get_tab.
  - intros b Hb. apply in_map_iff in Hb. destruct Hb as (p & <- & _). now rewrite get_tab.
Qed.
Lemma map_blocks3_spec {A B} (f : Z -> Z -> Z -> Z -> arr3 A -> res (arr3 B)) nb nout ny nx ycs xcs F (G : Z -> Z -> Z -> B) :
  cuts ny ycs -> cuts nx xcs -> xcs <> [] ->
  (forall r0 c0 n m, 0 <= r0 -> 0 <= n -> r0 + n <= ny -> 0 <= c0 -> 0 <= m -> c0 + m <= nx ->
     f r0 c0 n m (tab3 nb n m (fun b i j => F b (r0 + i) (c0 + j))) = Ok (tab3 nout n m (fun o i j => G o (r0 + i) (c0 + j)))) ->
  map_blocks3 f nout ycs xcs (tab3 nb ny nx F) = Ok (tab3 nout ny nx G).
Proof.
  intros Cy Cx Nx H. destruct (cuts_sum _ _ Cy) as [Fy Sy]. destruct (cuts_sum _ _ Cx) as [Fx Sx].
  unfold map_blocks3.
  rewrite (traverse_ok _ (fun p => tab nout (fun o => tab2 (snd p - fst p) nx (fun i j => G o (fst p + i) j)))).
  - cbn [rbind]. rewrite (join_ok (fun bs => concat bs) nout (fun o p => tab2 (snd p - fst p) nx (fun i j => G o (fst p + i) j))).
    f_equal. apply tab_ext. intros o _. etransitivity; [exact (vcat_tab nx ycs Fy (G o))|now rewrite Sy].
  - intros [r0 r1] Hr. destruct (locations_range _ Fy _ _ Hr) as (R1 & R2 & R3).
    rewrite (traverse_ok _ (fun p => tab nout (fun o => tab2 (r1 - r0) (snd p - fst p) (fun i j => G o (r0 + i) (fst p + j))))).
    + cbn [rbind]. rewrite (join_ok hcat nout (fun o p => tab2 (r1 - r0) (snd p - fst p) (fun i j => G o (r0 + i) (fst p + j)))).
      f_equal. apply tab_ext. intros o _. cbn [fst snd]. etransitivity; [exact (hcat_tab (r1 - r0) xcs Fx Nx (fun i j => G o (r0 + i) j))|now rewrite Sx].
    + intros [c0 c1] Hc. destruct (locations_range _ Fx _ _ Hc) as (C1 & C2 & C3). cbn [fst snd].
      rewrite cut3_tab3 by lia. apply H; lia.
Qed.
Lemma bands_loop {A} ny nx nb (m : Z -> Z -> Z -> A) (g : list A -> bool) :
  traverse (fun r => traverse (fun c => let* bs := column (tab3 nb ny nx m) r c in Ok (g bs)) (zrange 0 nx)) (zrange 0 ny)
  = Ok (tab2 ny nx (fun r c => g (tab nb (fun b => m b r c)))).
Proof.
  apply traverse_ok. intros r Hr. apply zrange_in in Hr. apply traverse_ok. intros c Hc. apply zrange_in in Hc.
  rewrite column_tab3 by lia. reflexivity.
Qed.

(* ---- local_stats ---- *)
Lemma local_chunk_tab func (g : list num -> num) nb n m out F : (forall i j, 0 <= i < n -> 0 <= j < m -> func (tab nb (fun b => F b i j)) = Ok (g (tab nb (fun b => F b i j)))) ->
  0 <= n -> 0 <= m -> rect n m out ->
  local_chunk func n m out (tab3 nb n m F) = Ok (tab2 n m (fun i j => g (tab nb (fun b => F b i j)))).
Proof.
  intros H Hn Hm R. unfold local_chunk.
  rewrite (foldM_nested (fun out p => let* farr := column (tab3 nb n m F) (fst p) (snd p) in let* v := func farr in set2 out (fst p) (snd p) v)).
  assert (IN : forall i j, In (i, j) (flat_map (fun r => map (fun c => (r, c)) (zrange 0 m)) (zrange 0 n)) <-> 0 <= i < n /\ 0 <= j < m).
  { intros i j. rewrite in_flat_map. split.
    - intros (r & Hr & HI). apply in_map_iff in HI. destruct HI as (c & [= <- <-] & Hc). apply zrange_in' in Hr, Hc. lia.
    - intros [Hi Hj]. exists i. split; [apply zrange_in'; lia|]. apply in_map_iff. exists j. split; [reflexivity|apply zrange_in'; lia]. }
  destruct (fill2 (fun i j => g (tab nb (fun b => F b i j)))
    (fun out p => let* farr := column (tab3 nb n m F) (fst p) (snd p) in let* v := func farr in set2 out (fst p) (snd p) v) n m
    (flat_map (fun r => map (fun c => (r, c)) (zrange 0 m)) (zrange 0 n))) with (out := out) as (o & E & RO & G).
  - intros i j HI. now apply IN.
  - intros o i j HI _. apply IN in HI. cbn [fst snd]. rewrite column_tab3 by lia. cbn [rbind]. rewrite H by lia. reflexivity.
  - exact R.
  - rewrite E. f_equal. transitivity (tab2 n m (default2 NaN o)).
    + exact (rect_is_tab2 NaN n m o RO Hn).
    + apply tab2_ext. intros i j Hi Hj. unfold default2. rewrite G by (apply IN; lia). reflexivity.
Qed.
Lemma local_blocks_tab junk func (g : list num -> num) nb ny nx ycs xcs F : cuts ny ycs -> cuts nx xcs -> xcs <> [] ->
  (forall i j, 0 <= i < ny -> 0 <= j < nx -> func (tab nb (fun b => F b i j)) = Ok (g (tab nb (fun b => F b i j)))) ->
  local_blocks junk func ycs xcs (tab3 nb ny nx F) = Ok (tab2 ny nx (fun i j => g (tab nb (fun b => F b i j)))).
Proof.
  intros Cy Cx Nx H. unfold local_blocks.
  rewrite (map_blocks3_spec _ nb 1 ny nx ycs xcs F (fun _ i j => g (tab nb (fun b => F b i j)))); try assumption.
  - cbn [rbind]. unfold tab3. rewrite get_tab by lia. reflexivity.
  - intros r0 c0 n m R1 R2 R3 C1 C2 C3.
    change (map (fun r => map (fun c => junk (r0 + r) (c0 + c)) (zrange 0 m)) (zrange 0 n)) with (tab2 n m (fun r c => junk (r0 + r) (c0 + c))).
    rewrite (local_chunk_tab func g nb n m); [reflexivity| | | |].
    + intros i j Hi Hj. apply (H (r0 + i) (c0 + j)); lia.
    + lia.
    + lia.
    + apply rect_tab2; lia.
Qed.
Definition stat_fun (cast : dtype -> num -> num) (s : local_stat) (o : dtype) (x : list num) : num :=
  match s with
  | LNumpy f _ => f x
  | LSum f => cast o (f x)
  | LMode => match nanmode x with Ok v => v | Err _ => NaN end
  | LUnique => store_int o (nan_unique_count x)
  | LMinBand => store_int o (nanargmin x)
  | LMaxBand => store_int o (nanargmax x)
  end.
Lemma unique_dtype_some n : n <= int_max U64 -> exists o, unique_dtype n = Some o /\ n <= int_max o /\ In o [U8; U16; U32; U64].
Proof.
  intros H. unfold unique_dtype. cbn [find].
  destruct (n <=? int_max U8) eqn:E1; [exists U8; split; [reflexivity|split; [lia|cbn [In]; auto]]|].
  destruct (n <=? int_max U16) eqn:E2; [exists U16; split; [reflexivity|split; [lia|cbn [In]; auto]]|].
  destruct (n <=? int_max U32) eqn:E3; [exists U32; split; [reflexivity|split; [lia|cbn [In]; auto]]|].
  destruct (n <=? int_max U64) eqn:E4; [exists U64; split; [reflexivity|split; [lia|cbn [In]; auto]]|lia].
Qed.
(* what local_func chooses *)
Definition chosen (s : local_stat) (nb : Z) (o : dtype) (d1 : dtype) : Prop :=
  match s with
  | LNumpy _ o' => o = o'
  | LSum _ => o = F32 \/ o = F64
  | LMode => o = d1
  | LUnique => nb <= int_max o /\ In o [U8; U16; U32; U64]
  | _ => nb - 1 <= int_max o /\ In o [U8; U16; U32; U64]
  end.
Lemma local_func_ok cast s nb d1 : nb <= int_max U64 ->
  exists o func, local_func cast s nb d1 = Ok (o, func) /\ (forall x, func x = Ok (stat_fun cast s o x)) /\ chosen s nb o d1.
Proof.
  intros H. destruct s as [f o|f| | | |]; cbn [local_func chosen].
  - eexists _, _. split; [reflexivity|]. split; reflexivity.
  - eexists _, _. split; [reflexivity|]. split; [reflexivity|]. destruct d1; auto.
  - exists d1, nanmode. split; [reflexivity|]. split; [|reflexivity]. intros x. cbn [stat_fun]. destruct (mode_spec x) as [[_ E]|(m & E & _)]; now rewrite E.
  - destruct (unique_dtype_some nb H) as (o & -> & L & I). eexists _, _. split; [reflexivity|]. split; [reflexivity|]. now split.
  - destruct (unique_dtype_some (nb - 1)) as (o & -> & L & I); [lia|]. eexists _, _. split; [reflexivity|]. split; [reflexivity|]. now split.
  - destruct (unique_dtype_some (nb - 1)) as (o & -> & L & I); [lia|]. eexists _, _. split; [reflexivity|]. split; [reflexivity|]. now split.
Qed.
Lemma run_local cast junk s o func nb ny nx ycs xcs F : cuts ny ycs -> cuts nx xcs -> xcs <> [] ->
  (forall x, func x = Ok (stat_fun cast s o x)) ->
  run_stat junk s func ny nx ycs xcs (tab3 nb ny nx F)
  = Ok (tab2 ny nx (fun i j => stat_fun cast s o (tab nb (fun b => F b i j)))).
Proof.
  intros Cy Cx Nx H.
  assert (LB := local_blocks_tab junk func (stat_fun cast s o) nb ny nx ycs xcs F Cy Cx Nx (fun i j _ _ => H _)).
  destruct s as [f o'|f| | | |]; try exact LB.
  unfold reduce_bands. apply traverse_ok. intros r Hr. apply zrange_in in Hr. apply traverse_ok. intros c Hc. apply zrange_in in Hc.
  rewrite column_tab3 by lia. apply H.
Qed.
Lemma store_fits o z : 0 <= z <= int_max o -> store_int o z = of_Z z.
Proof. intros H. unfold store_int. now rewrite Z.mod_small by lia. Qed.
Lemma argopt_in x j : (exists m : num, get x j = Ok m) -> 0 <= j < len x.
Proof. intros [m E]. exact (get_ok_range _ _ _ E). Qed.
(* the stored value is the statistic *)
Lemma stat_fun_value cast s nb o d1 vals : chosen s nb o d1 -> len vals = nb -> stat_value s (cast o) vals (stat_fun cast s o vals).
Proof.
  intros C L. destruct s as [f o'|f| | | |]; cbn [stat_value stat_fun chosen] in *; try reflexivity.
  - destruct (mode_spec vals) as [[F E]|(m & E & M)]; rewrite E; [left; auto|now right].
  - intros D HD. rewrite (unique_spec vals D HD). apply store_fits. rewrite <- (unique_spec vals D HD). pose proof (AggregateProofs.unique_le vals). lia.
  - intros (u & Hu & Nu & Lu). pose proof (argmin_spec vals u Hu Nu Lu) as A. exists (nanargmin vals). split; [exact A|].
    apply store_fits. destruct A as (m & G & _). pose proof (get_ok_range _ _ _ G). lia.
  - intros (u & Hu & Nu & Lu). pose proof (argmax_nan_spec vals u Hu Nu Lu) as A. exists (nanargmax vals). split; [exact A|].
    apply store_fits. destruct A as (m & G & _). pose proof (get_ok_range _ _ _ G). lia.
Qed.
Lemma store_range o z : In o [U8; U16; U32; U64] -> exists k, store_int o z = of_Z k /\ 0 <= k <= int_max o.
Proof.
  intros H. exists (z mod (int_max o + 1)). split; [reflexivity|]. assert (0 < int_max o + 1) by (destruct H as [<-|[<-|[<-|[<-|[]]]]]; reflexivity).
  pose proof (Z.mod_pos_bound z (int_max o + 1)). lia.
Qed.
Lemma unique_dtype_wider o : In o [U8; U16; U32; U64] -> is_int_dtype (get_unique_dtype o) = true
  /\ int_min (get_unique_dtype o) <= 0 /\ int_max o <= int_max (get_unique_dtype o).
Proof. intros H. destruct H as [<-|[<-|[<-|[<-|[]]]]]; cbn; repeat split; discriminate. Qed.

Lemma combine_tab {A B} n (f : Z -> A) (g : Z -> B) : combine (tab n f) (tab n g) = tab n (fun i => (f i, g i)).
Proof. unfold tab. apply combine_map. Qed.
Lemma map2_tab3 {A B} (h : A -> B) nb ny nx f : map (map (map h)) (tab3 nb ny nx f) = tab3 nb ny nx (fun b i j => h (f b i j)).
Proof. unfold tab3, tab2. rewrite map_tab. apply tab_ext. intros. rewrite map_tab. apply tab_ext. intros. now rewrite map_tab. Qed.
Lemma map2_tab2 {A B} (h : A -> B) ny nx f : map (map h) (tab2 ny nx f) = tab2 ny nx (fun i j => h (f i j)).
Proof. unfold tab2. rewrite map_tab. apply tab_ext. intros. now rewrite map_tab. Qed.
Lemma in_tab {A} n (f : Z -> A) x : In x (tab n f) <-> exists i, 0 <= i < n /\ x = f i.
Proof. unfold tab. rewrite in_map_iff. split; intros (i & H1 & H2); exists i; [apply zrange_in in H2; auto|split; [auto|now apply zrange_in]]. Qed.

Lemma local_stats_spec cast junk s nb ny nx ycs xcs d data mask :
  0 <= nb -> nb <= int_max U64 -> 0 <= ny -> 0 <= nx -> cuts ny ycs -> cuts nx xcs -> xcs <> [] ->
  shaped3 nb ny nx data -> match mask with Some m => shaped3 nb ny nx m | None => True end -> exact_ints cast ->
  (forall m band mband r c, mask = Some m -> In (band, mband) (combine data m) -> 0 <= r < ny -> 0 <= c < nx -> val2 true mband r c = false ->
     cast (promote_dtype_to_float d) (val2 NaN band r c) = val2 NaN band r c /\ cast d (val2 NaN band r c) = val2 NaN band r c) ->
  exists d' nv out omask, local_stats cast junk s ny nx ycs xcs d data mask = Ok (d', nv, out, omask)
  /\ result_dtype s d nb d'
  /\ nv = (match mask with Some _ => Some (default_null d') | None => None end)
  /\ shaped2 ny nx out
  /\ match omask with Some m => mask <> None /\ shaped2 ny nx m | None => mask = None end
  /\ forall r c, 0 <= r < ny -> 0 <= c < nx ->
     AggregateSpec.null_of omask r c = null_in_all mask r c
     /\ if null_in_all mask r c then val2 NaN out r c = default_null d'
        else stat_value s (cast d') (band_values data mask r c) (val2 NaN out r c).
Proof.
  intros Hb Hb2 Hy Hx Cy Cx Nx Sd Sm XI XC.
  pose proof (shaped3_is_tab3 NaN nb ny nx data Sd Hb Hy) as ED.
  destruct mask as [m|].
  2:{ destruct (local_func_ok cast s nb d Hb2) as (o & func & EF & HF & CH).
      unfold local_stats. unfold arr2, arr3 in *. cbv zeta iota beta. replace (len data) with nb by (symmetry; apply Sd). rewrite EF. cbn [rbind].
      replace (run_stat junk s func ny nx ycs xcs data) with (Ok (tab2 ny nx (fun i j => stat_fun cast s o (tab nb (fun b => val3 NaN data b i j))))).
      2:{ rewrite <- (run_local cast junk s o func nb ny nx ycs xcs (val3 NaN data) Cy Cx Nx HF). rewrite <- ED. reflexivity. }
      cbn [rbind]. eexists _, None, _, None. split; [reflexivity|]. split.
      { destruct s; cbn [chosen result_dtype] in *; try assumption; destruct CH as [L [<-|[<-|[<-|[<-|[]]]]]]; split; try reflexivity; exact L. }
      split; [reflexivity|]. split; [apply rect_tab2; lia|]. split; [reflexivity|]. intros r c Hr Hc. split; [reflexivity|]. cbn [null_in_all band_values].
      rewrite val2_tab by lia. rewrite ED at 1. rewrite through_tab3 by lia. apply (stat_fun_value cast s nb o d _ CH). now apply len_tab. }
  pose proof (shaped3_is_tab3 true nb ny nx m Sm Hb Hy) as EM.
  set (d1 := promote_dtype_to_float d). destruct (local_func_ok cast s nb d1 Hb2) as (o & func & EF & HF & CH).
  set (f := val3 NaN data). set (g := val3 true m).
  assert (XC' : forall b r c, 0 <= b < nb -> 0 <= r < ny -> 0 <= c < nx -> g b r c = false -> cast d1 (f b r c) = f b r c /\ cast d (f b r c) = f b r c).
  { intros b r c Hbb Hr Hc. unfold f, g, val3. destruct Sd as [Ld _], Sm as [Lm _].
    destruct (get_range data b) as [x Ex]; [lia|]. destruct (get_range m b) as [mx Emx]; [lia|]. rewrite Ex, Emx. intros E.
    apply (XC m x mx r c eq_refl); [|lia|lia|exact E]. apply (get_in _ b). exact (PadProofs.get_combine' _ _ _ _ _ Ex Emx). }
  unfold local_stats. unfold arr2, arr3 in *. cbv zeta iota beta. replace (len data) with nb by (symmetry; apply Sd). fold d1.
  replace (null_to_nan cast d1 d data m)
    with (tab3 nb ny nx (fun b r c => if g b r c then NaN else f b r c)).
  2:{ rewrite EM, ED. fold f g. unfold null_to_nan. destruct (dtype_eqb d1 d).
      - rewrite where3_tab3. reflexivity.
      - rewrite map2_tab3, where3_tab3. apply tab3_ext. intros b r c Hbb Hr Hc. destruct (g b r c) eqn:E; [reflexivity|]. symmetry. now apply XC'. }
  rewrite EF. cbn [rbind].
  rewrite (run_local cast junk s o func nb ny nx ycs xcs (fun b r c => if g b r c then NaN else f b r c) Cy Cx Nx HF).
  cbn [rbind]. replace (all_bands ny nx m) with (Ok (tab2 ny nx (fun r c => forallb (fun b => b) (tab nb (fun b => g b r c))))).
  2:{ unfold all_bands. rewrite EM. fold g. now rewrite bands_loop. }
  cbn [rbind].
  set (d3 := match s with LUnique | LMinBand | LMaxBand => get_unique_dtype o | LMode => d | _ => o end).
  set (post := match s with LUnique | LMinBand | LMaxBand | LMode => cast d3 | _ => fun v => v end).
  set (raw := fun i j => stat_fun cast s o (tab nb (fun b => if g b i j then NaN else f b i j))).
  replace (result_cast cast s d o (tab2 ny nx raw)) with (d3, tab2 ny nx (fun i j => post (raw i j))).
  2:{ unfold post, d3. destruct s; cbn [result_cast]; rewrite ?map2_tab2; reflexivity. }
  rewrite AggregateProofs.where2_tab. eexists d3, _, _, (Some _). split; [reflexivity|].
  assert (RD : result_dtype s d nb d3).
  { unfold d3. destruct s; cbn [chosen result_dtype] in *; try assumption; try reflexivity;
      destruct CH as [L I]; destruct (unique_dtype_wider o I) as (W1 & W2 & W3); (split; [exact W1|lia]). }
  split; [exact RD|]. split; [reflexivity|]. split; [apply rect_tab2; lia|]. split; [split; [discriminate|apply rect_tab2; lia]|].
  intros r c Hr Hc.
  assert (EN : null_in_all (Some m) r c = forallb (fun b => b) (tab nb (fun b => g b r c))).
  { cbn [null_in_all]. rewrite EM at 1. fold g. now rewrite through_tab3 by lia. }
  assert (EV : band_values data (Some m) r c = tab nb (fun b => if g b r c then NaN else f b r c)).
  { cbn [band_values]. rewrite ED at 1. rewrite EM at 1. fold f g. rewrite !through_tab3, combine_tab by lia. rewrite map_tab. reflexivity. }
  cbn [AggregateSpec.null_of]. rewrite !val2_tab by lia. rewrite EN. split; [reflexivity|].
  destruct (forallb (fun b => b) (tab nb (fun b => g b r c))) eqn:EA; [reflexivity|].
  rewrite EV. set (vals := tab nb (fun b => if g b r c then NaN else f b r c)).
  pose proof (stat_fun_value cast s nb o d1 vals CH ltac:(now apply len_tab)) as SV.
  assert (PI : forall z, In o [U8; U16; U32; U64] -> cast (get_unique_dtype o) (store_int o z) = store_int o z).
  { intros z I. destruct (store_range o z I) as (k & -> & K). destruct (unique_dtype_wider o I) as (W1 & W2 & W3). apply XI; [exact W1|lia]. }
  assert (PR : post (raw r c) = stat_fun cast s o vals /\ (forall v, stat_value s (cast o) vals v -> stat_value s (cast d3) vals v)).
  { unfold post, raw, d3. fold vals. destruct s as [h o'|h| | | |]; cbn [stat_fun stat_value chosen] in *; try (split; [reflexivity|auto]; fail).
    - split; [|auto]. destruct SV as [[FN ->]|M].
      + assert (exists b, 0 <= b < nb /\ g b r c = false) as (b & Hbb & Eg).
        { destruct (forallb_forall (fun b => b) (tab nb (fun b => g b r c))) as [_ Q].
          destruct (existsb (fun b => negb (g b r c)) (zrange 0 nb)) eqn:X.
          - apply existsb_exists in X. destruct X as (b & I & B). apply zrange_in in I. exists b. split; [lia|]. now destruct (g b r c).
          - rewrite Q in EA; [discriminate|]. intros x Hx'. apply in_tab in Hx'. destruct Hx' as (b & Hbb & ->).
            destruct (g b r c) eqn:Eb; [reflexivity|]. assert (existsb (fun b => negb (g b r c)) (zrange 0 nb) = true) by (apply existsb_exists; exists b; split; [now apply zrange_in|now rewrite Eb]). congruence. }
        rewrite Forall_forall in FN. specialize (FN (f b r c)). assert (In (f b r c) vals) by (apply in_tab; exists b; rewrite Eg; auto).
        specialize (FN H). destruct (XC' b r c Hbb Hr Hc Eg) as [_ X]. destruct (f b r c); try discriminate FN. exact X.
      + destruct M as (I & N & _). apply in_tab in I. destruct I as (b & Hbb & E). destruct (g b r c) eqn:Eg; [rewrite E in N; discriminate|].
        rewrite E. now apply XC'.
    - destruct CH as [L I]. split; [now apply PI|auto].
    - destruct CH as [L I]. split; [now apply PI|auto].
    - destruct CH as [L I]. split; [now apply PI|auto]. }
  destruct PR as [-> PR]. now apply PR.
Qed.

(* ---- model_predict_raster ---- *)
Lemma concat_nil_tab {A} n : concat (tab n (fun _ => @nil A)) = [].
Proof. unfold tab. induction (zrange 0 n); [reflexivity|assumption]. Qed.
Lemma concat_tab2' {A} ny nx (f : Z -> Z -> A) : 0 <= ny -> 0 <= nx -> concat (tab2 ny nx f) = tab (ny * nx) (fun k => f (k / nx) (k mod nx)).
Proof.
  intros Hy Hx. destruct (Z.eq_dec nx 0) as [->|N].
  - rewrite Z.mul_0_r. apply (concat_nil_tab ny).
  - apply concat_tab2; lia.
Qed.
Lemma div_mod_at i m k : 0 <= k < m -> (i * m + k) / m = i /\ (i * m + k) mod m = k.
Proof. intros H. split; [symmetry; apply (Z.div_unique _ _ i k); lia|symmetry; apply (Z.mod_unique _ _ i k); lia]. Qed.
Lemma reshape2_tab {A} n m (g : Z -> Z -> A) : 0 <= n -> 0 <= m -> reshape2 n m (tab (n * m) (fun k => g (k / m) (k mod m))) = Ok (tab2 n m g).
Proof.
  intros Hn Hm. unfold reshape2. rewrite len_tab by nia. rewrite Z.eqb_refl. f_equal. unfold tab2, tab at 2. apply map_ext_in. intros i Hi. apply zrange_in in Hi.
  rewrite slice_tab by nia. replace (i * m + m - i * m) with m by lia. apply tab_ext. intros k Hk. destruct (div_mod_at i m k Hk) as [-> ->]. reflexivity.
Qed.
Lemma reshape3_tab {A} w n m (g : Z -> Z -> Z -> A) : 0 <= w -> 0 <= n -> 0 <= m ->
  reshape3 w n m (concat (tab2 w (n * m) (fun o k => g o (k / m) (k mod m)))) = Ok (tab3 w n m g).
Proof.
  intros Hw Hn Hm. rewrite concat_tab2' by nia. unfold reshape3. rewrite len_tab by nia. rewrite Z.eqb_refl.
  apply traverse_ok. intros o Ho. apply zrange_in in Ho. rewrite slice_tab by nia. replace (o * (n * m) + n * m - o * (n * m)) with (n * m) by lia.
  rewrite <- (reshape2_tab n m (g o)) by lia. f_equal. apply tab_ext. intros k Hk. destruct (div_mod_at o (n * m) k Hk) as [-> ->]. reflexivity.
Qed.
Section PredictProofs.
Context {V : Type}.
Variables (predict : list (list num) -> res (@prediction V)) (largest : num) (dflt : V).
Definition nth_at (l : list V) (o : Z) : V := match get l o with Ok v => v | Err _ => dflt end.
Lemma transpose_tab w K (f : Z -> list V) : (forall k, 0 <= k < K -> len (f k) = w) -> transpose w (tab K f) = Ok (tab2 w K (fun o k => nth_at (f k) o)).
Proof.
  intros H. unfold transpose. apply traverse_ok. intros o Ho. apply zrange_in in Ho.
  rewrite (traverse_ok _ (fun row => nth_at row o)); [now rewrite map_tab|].
  intros row Hr. apply in_tab in Hr. destruct Hr as (k & Hk & ->). unfold nth_at. destruct (get_range (f k) o) as [v E]; [rewrite H; lia|]. now rewrite E.
Qed.
Lemma rows_tab nb n m (F : Z -> Z -> Z -> num) : 
  traverse (fun i => traverse (fun j => column (tab3 nb n m F) i j) (zrange 0 m)) (zrange 0 n)
  = Ok (tab2 n m (fun i j => tab nb (fun b => F b i j))).
Proof.
  apply traverse_ok. intros r Hr. apply zrange_in in Hr. apply traverse_ok. intros c Hc. apply zrange_in in Hc. now rewrite column_tab3 by lia.
Qed.
(* the rows handed to the model and the answer as a two-dimensional array *)
Lemma predict_rows nb nout f K (row : Z -> list num) : rowwise predict nb nout f -> (forall k, len (row k) = nb) ->
  exists p, predict (tab K row) = Ok p /\ match p with P1 l => map (fun v => [v]) l | P2 l => l end = tab K (fun k => f (row k)).
Proof.
  intros [LF H] LR. destruct (H (tab K row)) as [E|(E1 & l & E & EM)].
  - apply Forall_forall. intros x Hx. apply in_tab in Hx. destruct Hx as (k & _ & ->). apply LR.
  - exists (P2 (map f (tab K row))). split; [exact E|]. now rewrite map_tab.
  - exists (P1 l). split; [exact E|]. rewrite EM. now rewrite map_tab.
Qed.
Lemma pred_raster_rows nb n m F : 0 <= nb -> 0 <= n -> 0 <= m ->
  map (map (nan_to_num largest)) (concat (tab2 n m (fun i j => tab nb (fun b => F b i j))))
  = tab (n * m) (fun k => map (nan_to_num largest) (tab nb (fun b => F b (k / m) (k mod m)))).
Proof. intros. rewrite concat_tab2' by lia. now rewrite map_tab. Qed.
Lemma pred_raster_tab nb nout f n m F : rowwise predict nb nout f -> 0 <= nb -> 0 <= nout -> 0 <= n -> 0 <= m ->
  pred_raster predict largest nout n m (tab3 nb n m F)
  = Ok (tab3 nout n m (fun o i j => nth_at (f (map (nan_to_num largest) (tab nb (fun b => F b i j)))) o)).
Proof.
  intros R Hb Ho Hn Hm. unfold pred_raster. rewrite rows_tab. cbn [rbind].
  replace (map (map (nan_to_num largest)) (concat (tab2 n m (fun i j => tab nb (fun b => F b i j)))))
    with (tab (n * m) (fun k => map (nan_to_num largest) (tab nb (fun b => F b (k / m) (k mod m))))) by (symmetry; now apply pred_raster_rows).
  set (row := fun k => map (nan_to_num largest) (tab nb (fun b => F b (k / m) (k mod m)))).
  assert (LR : forall k, len (row k) = nb) by (intros k; unfold row; rewrite len_map; now apply len_tab).
  destruct (predict_rows nb nout f (n * m) row R LR) as (p & -> & EP). cbn [rbind]. rewrite EP.
  assert (LF : forall k, len (f (row k)) = nout) by (intros k; now apply (proj1 R)).
  destruct (Z.eq_dec (n * m) 0) as [E0|N0].
  - rewrite E0. cbn [tab zrange]. change (tab 0 (fun k => f (row k))) with (@nil (list V)). cbv iota.
    change (transpose 0 (@nil (list V))) with (Ok (@nil (list V))). cbn [rbind].
    change (concat (@nil (list V))) with (@nil V).
    replace (@nil V) with (concat (tab2 nout (n * m) (fun o k => nth_at (f (map (nan_to_num largest) (tab nb (fun b => F b (k / m) (k mod m))))) o))).
    + apply (reshape3_tab nout n m (fun o i j => nth_at (f (map (nan_to_num largest) (tab nb (fun b => F b i j)))) o)); lia.
    + rewrite E0. apply (concat_nil_tab nout).
  - assert (W : match tab (n * m) (fun k => f (row k)) with [] => 0 | r :: _ => len r end = nout).
    { destruct (get_range (tab (n * m) (fun k => f (row k))) 0) as [x Ex]; [rewrite len_tab by nia; nia|].
      rewrite get_tab in Ex by nia. destruct (tab (n * m) (fun k => f (row k))) as [|r t] eqn:ET.
      - assert (L := len_tab (n * m) (fun k => f (row k)) ltac:(nia)). rewrite ET in L. change (len (@nil (list V))) with 0 in L. lia.
      - assert (G : get (tab (n * m) (fun k => f (row k))) 0 = Ok r) by now rewrite ET.
        rewrite get_tab in G by nia. injection G as <-. apply LF. }
    unfold arr2 in *. rewrite W. rewrite transpose_tab by (intros; apply LF). cbn [rbind].
    apply (reshape3_tab nout n m (fun o i j => nth_at (f (map (nan_to_num largest) (tab nb (fun b => F b i j)))) o)); lia.
Qed.
Lemma pred_raster_wrong nb w nout f n m F : rowwise predict nb w f -> w <> nout -> 0 <= nb -> 0 <= w -> 0 < n -> 0 < m ->
  pred_raster predict largest nout n m (tab3 nb n m F) = Err ValueError.
Proof.
  intros R NW Hb Ho Hn Hm. unfold pred_raster. rewrite rows_tab. cbn [rbind].
  replace (map (map (nan_to_num largest)) (concat (tab2 n m (fun i j => tab nb (fun b => F b i j)))))
    with (tab (n * m) (fun k => map (nan_to_num largest) (tab nb (fun b => F b (k / m) (k mod m))))) by (symmetry; apply pred_raster_rows; lia).
  set (row := fun k => map (nan_to_num largest) (tab nb (fun b => F b (k / m) (k mod m)))).
  assert (LR : forall k, len (row k) = nb) by (intros k; unfold row; rewrite len_map; now apply len_tab).
  destruct (predict_rows nb w f (n * m) row R LR) as (p & -> & EP). cbn [rbind]. rewrite EP.
  assert (LF : forall k, len (f (row k)) = w) by (intros k; now apply (proj1 R)).
  assert (W : match tab (n * m) (fun k => f (row k)) with [] => 0 | r :: _ => len r end = w).
  { destruct (tab (n * m) (fun k => f (row k))) as [|r t] eqn:ET.
    - assert (L := len_tab (n * m) (fun k => f (row k)) ltac:(nia)). rewrite ET in L. change (len (@nil (list V))) with 0 in L. lia.
    - assert (G : get (tab (n * m) (fun k => f (row k))) 0 = Ok r) by now rewrite ET.
      rewrite get_tab in G by nia. injection G as <-. apply LF. }
  unfold arr2 in *. rewrite W. rewrite transpose_tab by (intros; apply LF). cbn [rbind].
  unfold reshape3. rewrite concat_tab2' by nia. rewrite len_tab by nia. replace (w * (n * m) =? nout * (n * m)) with false; [reflexivity|].
  symmetry. apply Z.eqb_neq. intros E. apply NW. apply (Z.mul_reg_r w nout (n * m)); [nia|exact E].
Qed.
Lemma predict_wrong nv nb w nout f ny nx ycs xcs data mask :
  rowwise predict nb w f -> w <> nout -> 0 <= nb -> 0 <= w -> 0 < ny -> 0 < nx -> cuts ny ycs -> cuts nx xcs -> Forall (fun c => 0 < c) ycs -> Forall (fun c => 0 < c) xcs ->
  shaped3 nb ny nx data -> match mask with Some m => shaped3 nb ny nx m | None => True end ->
  model_predict_raster predict largest nv nout ny nx ycs xcs data mask = Err ValueError.
Proof.
  intros R NW Hb Ho Hy Hx Cy Cx Py Px Sd Sm. unfold model_predict_raster. destruct (nout <? 1); [reflexivity|].
  assert (MB : forall F, map_blocks3 (fun _ _ y x block => pred_raster predict largest nout y x block) nout ycs xcs (tab3 nb ny nx F) = Err ValueError).
  { intros F. destruct (cuts_sum _ _ Cy) as [Fy Sy]. destruct (cuts_sum _ _ Cx) as [Fx Sx].
    destruct ycs as [|r ys]; [cbn in Sy; lia|]. destruct xcs as [|c xs]; [cbn in Sx; lia|]. rewrite sum_cons in Sy, Sx.
    inversion Py as [|? ? Pr _]; subst. inversion Px as [|? ? Pc _]; subst. inversion Fy as [|? ? _ Fys]; subst. inversion Fx as [|? ? _ Fxs]; subst.
    pose proof (sum_nonneg ys Fys). pose proof (sum_nonneg xs Fxs).
    unfold map_blocks3. rewrite !locs_cons. cbn [traverse]. rewrite !Z.sub_0_r. rewrite cut3_tab3 by lia. rewrite !Z.sub_0_r.
    rewrite (pred_raster_wrong nb w nout f r c _ R NW) by lia. reflexivity. }
  rewrite (shaped3_is_tab3 NaN nb ny nx data Sd Hb ltac:(lia)). destruct mask as [m|].
  - rewrite (shaped3_is_tab3 true nb ny nx m Sm Hb ltac:(lia)). rewrite where3_tab3, MB. reflexivity.
  - rewrite MB. reflexivity.
Qed.
Lemma any_band_tab nb ny nx m : any_band ny nx (tab3 nb ny nx m) = Ok (tab2 ny nx (fun r c => existsb (fun b => b) (tab nb (fun b => m b r c)))).
Proof. unfold any_band. apply bands_loop. Qed.
Lemma full_is_tab {A} n (x : A) : 0 <= n -> full n x = tab n (fun _ => x).
Proof. intros H. apply list_tab; [lia|now apply full_len|]. intros i Hi. now apply get_full. Qed.
Lemma at3_tab3 {A} nb ny nx (f : Z -> Z -> Z -> A) b r c : 0 <= b < nb -> 0 <= r < ny -> 0 <= c < nx -> at3 (tab3 nb ny nx f) b r c (f b r c).
Proof. intros. exists (tab2 ny nx (f b)). split; [unfold tab3; now rewrite get_tab|now apply at2_tab]. Qed.

Lemma predict_spec nv nb nout f ny nx ycs xcs data mask :
  rowwise predict nb nout f -> 0 <= nb -> 1 <= nout -> 0 <= ny -> 0 <= nx -> cuts ny ycs -> cuts nx xcs -> xcs <> [] ->
  shaped3 nb ny nx data -> match mask with Some m => shaped3 nb ny nx m | None => True end ->
  exists out omask, model_predict_raster predict largest nv nout ny nx ycs xcs data mask = Ok (out, omask)
  /\ shaped3 nout ny nx out
  /\ match omask with Some m => mask <> None /\ shaped3 nout ny nx m | None => mask = None end
  /\ forall o r c, 0 <= o < nout -> 0 <= r < ny -> 0 <= c < nx ->
     (forall m, omask = Some m -> at3 m o r c (null_in_some mask r c))
     /\ if null_in_some mask r c then at3 out o r c nv
        else exists v, get (f (map (nan_to_num largest) (through NaN data r c))) o = Ok v /\ at3 out o r c v.
Proof.
  intros R Hb Ho Hy Hx Cy Cx Nx Sd Sm.
  pose proof (shaped3_is_tab3 NaN nb ny nx data Sd Hb Hy) as ED. set (fd := val3 NaN data) in ED.
  assert (MB : forall F, map_blocks3 (fun _ _ y x block => pred_raster predict largest nout y x block) nout ycs xcs (tab3 nb ny nx F)
     = Ok (tab3 nout ny nx (fun o i j => nth_at (f (map (nan_to_num largest) (tab nb (fun b => F b i j)))) o))).
  { intros F. apply map_blocks3_spec; try assumption. intros r0 c0 n m R1 R2 R3 C1 C2 C3.
    now rewrite (pred_raster_tab nb nout f n m (fun b i j => F b (r0 + i) (c0 + j)) R) by lia. }
  assert (GV : forall vals o, len vals = nb -> 0 <= o < nout -> get (f (map (nan_to_num largest) vals)) o = Ok (nth_at (f (map (nan_to_num largest) vals)) o)).
  { intros vals o L H. unfold nth_at. destruct (get_range (f (map (nan_to_num largest) vals)) o) as [v E]; [rewrite (proj1 R) by (now rewrite len_map); lia|]. now rewrite E. }
  unfold model_predict_raster. replace (nout <? 1) with false by lia.
  destruct mask as [m|].
  - pose proof (shaped3_is_tab3 true nb ny nx m Sm Hb Hy) as EM. set (fm := val3 true m) in EM.
    rewrite ED, EM. rewrite where3_tab3, MB. cbn [rbind]. rewrite any_band_tab. cbn [rbind].
    rewrite full_is_tab by lia. fold (tab3 nout ny nx (fun _ r c => existsb (fun b => b) (tab nb (fun b => fm b r c)))). rewrite where3_tab3.
    eexists _, (Some _). split; [reflexivity|]. split; [apply shaped3_tab3; lia|]. split; [split; [discriminate|apply shaped3_tab3; lia]|].
    intros o r c Hoo Hr Hc. cbn [null_in_some]. rewrite !through_tab3 by lia. split.
    + intros m' [= <-]. now apply (at3_tab3 nout ny nx (fun _ r c => existsb (fun b => b) (tab nb (fun b => fm b r c)))).
    + destruct (existsb (fun b => b) (tab nb (fun b => fm b r c))) eqn:E.
      * match goal with |- at3 (tab3 _ _ _ ?F) _ _ _ _ => pose proof (at3_tab3 nout ny nx F o r c Hoo Hr Hc) as A end. cbv beta in A. rewrite E in A. exact A.
      * eexists. split; [apply GV; [now apply len_tab|lia]|].
        match goal with |- at3 (tab3 _ _ _ ?F) _ _ _ _ => pose proof (at3_tab3 nout ny nx F o r c Hoo Hr Hc) as A end. cbv beta in A. rewrite E in A.
        replace (tab nb (fun b => if fm b r c then NaN else fd b r c)) with (tab nb (fun b => fd b r c)) in A; [exact A|].
        apply tab_ext. intros b Hbb. destruct (fm b r c) eqn:Eb; [|reflexivity]. assert (existsb (fun b => b) (tab nb (fun b => fm b r c)) = true); [|congruence].
        apply existsb_exists. exists true. split; [|reflexivity]. apply in_tab. exists b. split; [lia|now rewrite Eb].
  - rewrite ED. rewrite MB. cbn [rbind]. eexists _, None. split; [reflexivity|]. split; [apply shaped3_tab3; lia|]. split; [reflexivity|].
    intros o r c Hoo Hr Hc. split; [discriminate|]. cbn [null_in_some]. rewrite through_tab3 by lia. eexists. split; [apply GV; [now apply len_tab|lia]|].
    match goal with |- at3 (tab3 _ _ _ ?F) _ _ _ _ => exact (at3_tab3 nout ny nx F o r c Hoo Hr Hc) end.
Qed.
End PredictProofs.
Lemma inputs largest vals ws : Forall2 (input_of largest) vals ws -> map (nan_to_num (Fin largest)) vals = ws.
Proof. induction 1 as [|v w vals ws H _ IH]; [reflexivity|]. cbn [map]. rewrite IH. f_equal. destruct v; symmetry; exact H. Qed.
Lemma predict_spec_inputs {V} (predict : list (list num) -> res (@prediction V)) largest nv nb nout f ny nx ycs xcs data mask :
  rowwise predict nb nout f -> 0 <= nb -> 1 <= nout -> 0 <= ny -> 0 <= nx -> cuts ny ycs -> cuts nx xcs -> xcs <> [] ->
  shaped3 nb ny nx data -> match mask with Some m => shaped3 nb ny nx m | None => True end ->
  exists out omask, model_predict_raster predict (Fin largest) nv nout ny nx ycs xcs data mask = Ok (out, omask)
  /\ shaped3 nout ny nx out
  /\ match omask with Some m => mask <> None /\ shaped3 nout ny nx m | None => mask = None end
  /\ forall o r c, 0 <= o < nout -> 0 <= r < ny -> 0 <= c < nx ->
     (forall m, omask = Some m -> at3 m o r c (null_in_some mask r c))
     /\ if null_in_some mask r c then at3 out o r c nv
        else forall ws, Forall2 (input_of largest) (through NaN data r c) ws -> exists v, get (f ws) o = Ok v /\ at3 out o r c v.
Proof.
  intros R Hb Ho Hy Hx Cy Cx Nx Sd Sm. destruct (predict_spec predict (Fin largest) nv nv nb nout f ny nx ycs xcs data mask R Hb Ho Hy Hx Cy Cx Nx Sd Sm) as (out & omask & E & S & M & H).
  exists out, omask. split; [exact E|]. split; [exact S|]. split; [exact M|]. intros o r c H1 H2 H3. destruct (H o r c H1 H2 H3) as [A B]. split; [exact A|].
  destruct (null_in_some mask r c); [exact B|]. intros ws F. rewrite <- (inputs _ _ _ F). exact B.
Qed.
