From Coq Require Import QArith Lia.
From Verif Require Import Base BaseFacts Scalars NumFacts Chunks ChunksSpec ChunksProofs Arr2 Arr2Facts Focal FocalSpec FocalProofs FocalValues FocalFast FocalResults Morph MorphSpec.
Open Scope Z_scope.

Lemma chosen_all {A} (l : list A) : chosen (map (fun v => (true, v)) l) = l.
Proof. unfold chosen. induction l as [|v l IH]; [reflexivity|]. cbn. f_equal. exact IH. Qed.
Lemma chosen_tab {A} kr kc (g : Z -> Z -> A) : chosen (concat (tab2 kr kc (fun p q => (true, g p q)))) = concat (tab2 kr kc g).
Proof. rewrite !concat_tab2_flat. rewrite <- (map_map (fun p => g (fst p) (snd p)) (fun v => (true, v))). apply chosen_all. Qed.
Lemma ndfilter_empty {W A B} b (cval : A) ny nx krows kcols cr cc (kernel : arr2 W) (f : list (W * A) -> B) a :
  0 <= ny -> 0 <= nx -> (ny = 0 \/ nx = 0) -> ndfilter b cval ny nx krows kcols cr cc kernel f a = Ok (tab ny (fun _ => [])).
Proof.
  intros Hy Hx [->| ->]; unfold ndfilter.
  - reflexivity.
  - rewrite (traverse_ok _ (fun _ => [])); [reflexivity|]. intros r _. reflexivity.
Qed.

(* a filter with a full footprint, applied by chunks *)
Lemma filter_overlap {A B} (cval cval' : A) ny nx dy dx kr kc cr cc ycs xcs (F : list A -> B) (f : list (bool * A) -> B) (a : Z -> Z -> A) :
  (forall l, f (map (fun v => (true, v)) l) = F l) ->
  0 < ny -> 0 < nx -> 0 < kr -> 0 < kc -> 0 <= cr <= dy -> 0 <= cc <= dx -> kr - 1 - cr <= dy -> kc - 1 - cc <= dx -> dy <= ny -> dx <= nx ->
  cuts ny ycs -> cuts nx xcs ->
  map_overlap Constant cval ny nx dy dx ycs xcs (fun n m => ndfilter Constant cval' n m kr kc cr cc (full kr (full kc true)) f) (tab2 ny nx a)
  = Ok (tab2 ny nx (fun i j => F (concat (tab2 kr kc (fun p q => cellf Constant cval a ny nx (i + (p - cr)) (j + (q - cc))))))).
Proof.
  intros Ff Hy Hx Hkr Hkc Hcr Hcc Hdy Hdx Ldy Ldx Cy Cx. destruct (cuts_sum _ _ Cy) as [Fy Sy]. destruct (cuts_sum _ _ Cx) as [Fx Sx].
  rewrite (map_overlap_spec Constant cval ny nx dy dx ycs xcs _ (fun g => F (concat (tab2 kr kc (fun p q => g (p - cr) (q - cc))))) a); try assumption; try lia; [reflexivity| |].
  - intros n m g Hn Hm. destruct (Z.eq_dec n 0) as [N0|N0]; [|destruct (Z.eq_dec m 0) as [M0|M0]].
    + exists (tab n (fun _ => [])). split; [apply ndfilter_empty; lia|]. subst n. split; [split; [reflexivity|constructor]|]. intros; lia.
    + exists (tab n (fun _ => [])). split; [apply ndfilter_empty; lia|]. split; [|intros; lia]. split; [apply len_tab; lia|].
      subst m. unfold tab. apply Forall_map, Forall_forall. intros; reflexivity.
    + rewrite (full2_tab kr kc true) by lia. rewrite ndfilter_spec by lia.
      eexists. split; [reflexivity|]. split; [apply rect_tab2; lia|]. intros i j Hi Hj. rewrite get2_tab2 by lia. f_equal.
      rewrite concat_tab2_flat. rewrite <- (map_map (fun p => cellf Constant cval' g n m (i + (fst p - cr)) (j + (snd p - cc))) (fun v => (true, v))).
      rewrite Ff, concat_tab2_flat. f_equal. apply map_ext_in. intros [p q] Hp. apply ndindex2_in in Hp. cbn [fst snd]. unfold cellf. rewrite !extend_in by lia. reflexivity.
  - intros g g' H. f_equal. rewrite !concat_tab2_flat. apply map_ext_in. intros [p q] Hp. apply ndindex2_in in Hp. cbn [fst snd]. apply H; lia.
Qed.

(* the centre of the footprint and the reach of the windows *)
Definition reach (op : morph) (n k : Z) : Prop := match op with Dilation => reaches_down n k | Erosion => reaches_up n k end.
Lemma halves n : 0 < n -> (n - 1) / 2 + n / 2 = n - 1 /\ 0 <= (n - 1) / 2 <= n / 2.
Proof.
  intros H. destruct (Z.eq_dec (n mod 2) 1) as [O|O].
  - pose proof (half_odd n O). pose proof (Z.div_mod n 2 ltac:(lia)). lia.
  - pose proof (Z.mod_pos_bound n 2 ltac:(lia)). assert (E : n mod 2 = 0) by lia. pose proof (half_even n E). pose proof (Z.div_mod n 2 ltac:(lia)). lia.
Qed.
Lemma centre_eq op n : 0 < n -> centre op n = match op with Dilation => (n - 1) / 2 | Erosion => n / 2 end.
Proof.
  intros H. unfold centre, origin. destruct op; [|lia]. destruct (n mod 2 =? 0) eqn:E.
  - pose proof (half_even n ltac:(lia)). lia.
  - pose proof (Z.mod_pos_bound n 2 ltac:(lia)). pose proof (half_odd n ltac:(lia)). lia.
Qed.
Lemma centre_bounds op n : 0 < n -> 0 <= centre op n <= n / 2 /\ n - 1 - centre op n <= n / 2.
Proof. intros H. rewrite centre_eq by exact H. pose proof (halves n H). destruct op; lia. Qed.
Lemma reach_iff op n k : 0 < n -> reach op n k <-> exists p, 0 <= p < n /\ k = p - centre op n.
Proof.
  intros H. rewrite centre_eq by exact H. pose proof (halves n H). destruct op; cbn; unfold reaches_down, reaches_up; (split; [intros K|intros (p & Hp & ->); lia]).
  - exists (k + (n - 1) / 2). lia.
  - exists (k + n / 2). lia.
Qed.
Lemma reach_0 op n : 0 < n -> reach op n 0.
Proof. intros H. pose proof (halves n H). destruct op; cbn; unfold reaches_down, reaches_up; lia. Qed.
Lemma constant_cell {A} (cval : A) a ny nx i j : cellf Constant cval a ny nx i j = if (0 <=? i) && (i <? ny) && ((0 <=? j) && (j <? nx)) then a i j else cval.
Proof.
  unfold cellf, extend. destruct ((0 <=? i) && (i <? ny)); cbn [andb]; [|reflexivity]. destruct ((0 <=? j) && (j <? nx)); reflexivity.
Qed.

(* the values in a window *)
Definition window_values {A} (op : morph) kr kc (c : Z -> Z -> A) (i j : Z) : list A :=
  concat (tab2 kr kc (fun p q => c (i + (p - centre op kr)) (j + (q - centre op kc)))).
Lemma window_in {A} op kr kc (c : Z -> Z -> A) i j v : 0 < kr -> 0 < kc ->
  In v (window_values op kr kc c i j) <-> exists p q, reach op kr (p - i) /\ reach op kc (q - j) /\ c p q = v.
Proof.
  intros Hr Hc. unfold window_values. rewrite concat_tab2_flat, in_map_iff. split.
  - intros ([p q] & <- & Hp). apply ndindex2_in in Hp. cbn [fst snd]. exists (i + (p - centre op kr)), (j + (q - centre op kc)).
    split; [apply reach_iff; [exact Hr|]; exists p; lia|]. split; [apply reach_iff; [exact Hc|]; exists q; lia|]. reflexivity.
  - intros (p & q & Rp & Rq & <-). apply reach_iff in Rp; [|exact Hr]. apply reach_iff in Rq; [|exact Hc]. destruct Rp as (a & Ha & Ea). destruct Rq as (b & Hb & Eb).
    exists (a, b). cbn [fst snd]. split; [f_equal; lia|]. apply ndindex2_in. lia.
Qed.

Section Filter.
Variables (d : dtype) (nv : num) (ny nx : Z) (ycs xcs : list Z) (kr kc : Z).
Hypothesis Hy : 0 < ny.
Hypothesis Hx : 0 < nx.
Hypothesis Hkr : 0 < kr.
Hypothesis Hkc : 0 < kc.
Hypothesis Dy : kr / 2 <= ny.
Hypothesis Dx : kc / 2 <= nx.
Hypothesis Cy : cuts ny ycs.
Hypothesis Cx : cuts nx xcs.

Definition masked_value (mask : option (arr2 bool)) (data : arr2 num) (fill : num) (p q : Z) : num := if null_cell mask p q then fill else val2 NaN data p q.
Definition extended (mask : option (arr2 bool)) (data : arr2 num) (fill : num) (p q : Z) : num := cellf Constant fill (masked_value mask data fill) ny nx p q.
Definition extended_valid (mask : arr2 bool) (p q : Z) : bool := cellf Constant false (fun p q => negb (val2 true mask p q)) ny nx p q.
Definition binary_result (op : morph) (l : list bool) : bool := match op with Dilation => existsb (fun b => b) l | Erosion => forallb (fun b => b) l end.

Lemma morph_filter_spec op fill data mask : get_fill d op = Ok fill -> shaped2 ny nx data -> match mask with Some m => shaped2 ny nx m | None => True end ->
  let omask := match mask with Some m => Some (tab2 ny nx (fun i j => negb (binary_result op (window_values op kr kc (extended_valid m) i j)))) | None => None end in
  morph_filter d nv op ny nx ycs xcs kr kc (full kr (full kc true)) (Band data mask)
  = Ok (Band (tab2 ny nx (fun i j => if null_cell omask i j then nv else extremum op fill (window_values op kr kc (extended mask data fill) i j))) omask).
Proof.
  intros Ef HD HM omask. unfold morph_filter. rewrite Ef. cbn [rbind get_offsets b_data b_mask].
  pose proof (halves kr Hkr) as [_ H1]. pose proof (halves kc Hkc) as [_ H2]. rewrite !Z.max_r by lia.
  pose proof (centre_bounds op kr Hkr) as [C1 C2]. pose proof (centre_bounds op kc Hkc) as [C3 C4].
  match goal with |- context [map_overlap Constant fill ny nx _ _ ycs xcs _ ?x] => assert (ED : x = tab2 ny nx (masked_value mask data fill)) end.
  { destruct mask as [m|]; [|apply (shaped_tab NaN); [exact HD|lia]]. rewrite (shaped_tab NaN ny nx data HD) at 1 by lia.
    rewrite (shaped_tab true ny nx m HM) at 1 by lia. rewrite where2_tab. reflexivity. }
  rewrite ED. unfold morph_chunk, binary_chunk.
  rewrite (filter_overlap fill fill ny nx (kr / 2) (kc / 2) kr kc (centre op kr) (centre op kc) ycs xcs (extremum op fill)); try assumption; try lia.
  2:{ intros l. rewrite chosen_all. reflexivity. }
  cbn [rbind]. destruct mask as [m|].
  - rewrite (shaped_tab true ny nx m HM) at 1 by lia. rewrite map2_tab.
    rewrite (filter_overlap false false ny nx (kr / 2) (kc / 2) kr kc (centre op kr) (centre op kc) ycs xcs (binary_result op)); try assumption; try lia.
    2:{ intros l. rewrite chosen_all. reflexivity. }
    cbn [rbind]. rewrite map2_tab, where2_tab. f_equal. unfold omask. f_equal. apply tab2_ext. intros i j Hi Hj. cbn [null_cell]. rewrite val2_tab by lia. reflexivity.
  - reflexivity.
Qed.
End Filter.

Lemma extended_in ny nx mask data fill p q : 0 <= p < ny -> 0 <= q < nx -> extended ny nx mask data fill p q = masked_value mask data fill p q.
Proof. intros. unfold extended. rewrite constant_cell. replace ((0 <=? p) && (p <? ny) && ((0 <=? q) && (q <? nx))) with true by lia. reflexivity. Qed.
Lemma extended_cases ny nx mask data fill p q :
  valid_cell mask ny nx p q /\ extended ny nx mask data fill p q = val2 NaN data p q
  \/ ~ valid_cell mask ny nx p q /\ extended ny nx mask data fill p q = fill.
Proof.
  unfold extended, valid_cell. rewrite constant_cell. destruct ((0 <=? p) && (p <? ny) && ((0 <=? q) && (q <? nx))) eqn:E.
  - unfold masked_value, null_cell. destruct mask as [m|]; [|left; repeat split; lia].
    destruct (val2 true m p q) eqn:V; [right|left]; split; try reflexivity; [|repeat split; lia]. intros (_ & _ & H). discriminate H.
  - right. split; [lia|reflexivity].
Qed.
Lemma extended_valid_iff ny nx m p q : extended_valid ny nx m p q = true <-> valid_cell (Some m) ny nx p q.
Proof.
  unfold extended_valid, valid_cell. rewrite constant_cell. destruct ((0 <=? p) && (p <? ny) && ((0 <=? q) && (q <? nx))) eqn:E.
  - destruct (val2 true m p q); cbn; split; intros H; try discriminate; try reflexivity; try lia; repeat split; lia.
  - split; [discriminate|lia].
Qed.
Lemma binary_window op ny nx kr kc m i j : 0 < kr -> 0 < kc ->
  binary_result op (window_values op kr kc (extended_valid ny nx m) i j) = true <->
  match op with
  | Dilation => exists p q, reach op kr (p - i) /\ reach op kc (q - j) /\ valid_cell (Some m) ny nx p q
  | Erosion => forall p q, reach op kr (p - i) -> reach op kc (q - j) -> valid_cell (Some m) ny nx p q
  end.
Proof.
  intros Hr Hc. destruct op; unfold binary_result.
  - rewrite existsb_exists. split.
    + intros (b & I & ->). apply window_in in I; try assumption. destruct I as (p & q & R1 & R2 & E). apply extended_valid_iff in E. eauto.
    + intros (p & q & R1 & R2 & V). exists true. split; [|reflexivity]. apply window_in; try assumption. exists p, q. split; [exact R1|]. split; [exact R2|]. apply extended_valid_iff, V.
  - rewrite forallb_forall. split.
    + intros H p q R1 R2. apply extended_valid_iff. apply H. apply window_in; try assumption. eauto.
    + intros H b I. apply window_in in I; try assumption. destruct I as (p & q & R1 & R2 & <-). apply extended_valid_iff. auto.
Qed.
Lemma window_nonempty {A} op kr kc (c : Z -> Z -> A) i j : 0 < kr -> 0 < kc -> window_values op kr kc c i j <> [].
Proof.
  intros Hr Hc H. assert (I : In (c i j) (window_values op kr kc c i j)).
  { apply window_in; try assumption. exists i, j. rewrite !Z.sub_diag. split; [apply reach_0; assumption|]. split; [apply reach_0; assumption|]. reflexivity. }
  rewrite H in I. destruct I.
Qed.
Definition ordered (op : morph) (a b : num) : Prop := match op with Dilation => num_leb b a = true | Erosion => num_leb a b = true end.
Lemma extremum_spec op cval l : l <> [] -> Forall (fun v => is_nan v = false) l -> In (extremum op cval l) l /\ forall v, In v l -> ordered op (extremum op cval l) v.
Proof.
  intros N F. destruct l as [|a t]; [contradiction|]. inversion F as [|? ? Ha Ft]; subst. destruct op; cbn [extremum ordered].
  - apply fold_max_spec; assumption.
  - apply fold_min_spec; assumption.
Qed.
Definition extreme_in (op : morph) (W : Z -> Z -> Prop) (value : Z -> Z -> num) (v : num) : Prop :=
  match op with Dilation => greatest_in W value v | Erosion => least_in W value v end.
Definition in_window (op : morph) (kr kc i j p q : Z) : Prop := reach op kr (p - i) /\ reach op kc (q - j).

(* the window contains a valid cell: the extremum is that of the valid cells *)
Lemma extremum_valid op ny nx kr kc mask data fill i j : 0 < kr -> 0 < kc -> is_nan fill = false ->
  (forall p q, valid_cell mask ny nx p q -> is_nan (val2 NaN data p q) = false /\ ordered op (val2 NaN data p q) fill) ->
  (exists p q, in_window op kr kc i j p q /\ valid_cell mask ny nx p q) ->
  extreme_in op (fun p q => in_window op kr kc i j p q /\ valid_cell mask ny nx p q) (val2 NaN data)
    (extremum op fill (window_values op kr kc (extended ny nx mask data fill) i j)).
Proof.
  intros Hr Hc Nf OK (p0 & q0 & [R1 R2] & V0). set (c := extended ny nx mask data fill). set (l := window_values op kr kc c i j). set (e := extremum op fill l).
  assert (F : Forall (fun v => is_nan v = false) l).
  { apply Forall_forall. intros v I. apply window_in in I; try assumption. destruct I as (p & q & _ & _ & <-). unfold c.
    destruct (extended_cases ny nx mask data fill p q) as [[V ->]|[_ ->]]; [apply OK, V|exact Nf]. }
  destruct (extremum_spec op fill l (window_nonempty op kr kc c i j Hr Hc) F) as [I B]. fold e in I, B.
  assert (BV : forall p q, in_window op kr kc i j p q /\ valid_cell mask ny nx p q -> ordered op e (val2 NaN data p q)).
  { intros p q [[P1 P2] V]. apply B. apply window_in; try assumption. exists p, q. split; [exact P1|]. split; [exact P2|].
    unfold c. destruct (extended_cases ny nx mask data fill p q) as [[_ E]|[N _]]; [exact E|contradiction]. }
  pose proof I as I'. apply window_in in I'; try assumption. destruct I' as (p & q & P1 & P2 & E).
  unfold c in E. destruct (extended_cases ny nx mask data fill p q) as [[V E']|[V E']]; rewrite E' in E.
  - destruct op; cbn [extreme_in]; (split; [exists p, q; split; [split; [split; assumption|exact V]|rewrite E; apply num_eqb_refl; rewrite <- E; apply OK, V]|exact BV]).
  - assert (W0 : in_window op kr kc i j p0 q0 /\ valid_cell mask ny nx p0 q0) by (split; [split|]; assumption).
    pose proof (BV p0 q0 W0) as B0. destruct (OK p0 q0 V0) as [N0 O0]. rewrite E in O0.
    destruct op; cbn [extreme_in ordered] in *; (split; [exists p0, q0; split; [exact W0|apply num_leb_antisym; assumption]|exact BV]).
Qed.

Lemma null_iff ny nx op kr kc mask i j : 0 < kr -> 0 < kc -> 0 <= i < ny -> 0 <= j < nx ->
  let omask := match mask with Some m => Some (tab2 ny nx (fun i j => negb (binary_result op (window_values op kr kc (extended_valid ny nx m) i j)))) | None => None end in
  null_cell omask i j = false <->
  match op with
  | Dilation => exists p q, in_window op kr kc i j p q /\ valid_cell mask ny nx p q
  | Erosion => mask = None \/ forall p q, in_window op kr kc i j p q -> valid_cell mask ny nx p q
  end.
Proof.
  intros Hr Hc Hi Hj omask. unfold omask. destruct mask as [m|]; cbn [null_cell].
  - rewrite val2_tab by lia. rewrite negb_false_iff, binary_window by assumption. destruct op; unfold in_window.
    + split; [intros (p & q & A & B & C)|intros (p & q & [A B] & C)]; eauto 6.
    + split; [intros H; right; intros p q [A B]; auto|]. intros [H|H] p q A B; [discriminate H|auto].
  - split; [|reflexivity]. intros _. destruct op; [|left; reflexivity]. exists i, j. unfold in_window, valid_cell. rewrite !Z.sub_diag. split; [split; apply reach_0; assumption|]. repeat split; lia.
Qed.
Lemma get_fill_nan d op fill : get_fill d op = Ok fill -> is_nan fill = false.
Proof. unfold get_fill. destruct (is_int_dtype d); [intros [= <-]; reflexivity|]. destruct (is_float_dtype d); [intros [= <-]; reflexivity|discriminate]. Qed.

(* the public functions *)
Definition dims (s : size) : option (Z * Z) := match s with OneSize n => Some (n, n) | SizeSeq [a; b] => Some (a, b) | _ => None end.
Lemma footprint_ok s kr kc : dims s = Some (kr, kc) -> 0 < kr -> 0 < kc -> ~ (kr = 1 /\ kc = 1) -> get_footprint s = Ok (kr, kc, full kr (full kc true)).
Proof.
  unfold dims, get_footprint. destruct s as [n|[|a [|b [|]]]]; try discriminate; intros [= -> ->] H1 H2 H3; cbn [rbind];
  (destruct (negb ((0 <? _) && (0 <? _))) eqn:E1; [lia|]); (destruct ((_ =? 1) && (_ =? 1)) eqn:E2; [lia|]); reflexivity.
Qed.
Lemma footprint_bad s : match dims s with Some (kr, kc) => kr <= 0 \/ kc <= 0 \/ (kr = 1 /\ kc = 1) | None => True end -> get_footprint s = Err ValueError.
Proof.
  unfold dims, get_footprint. destruct s as [n|[|a [|b [|]]]]; try reflexivity; intros H; cbn [rbind];
  (destruct (negb ((0 <? _) && (0 <? _))) eqn:E1; [reflexivity|]); (destruct ((_ =? 1) && (_ =? 1)) eqn:E2; [reflexivity|lia]).
Qed.
Lemma morph_spec op s kr kc d nv ny nx ycs xcs fill data mask :
  dims s = Some (kr, kc) -> 0 < kr -> 0 < kc -> ~ (kr = 1 /\ kc = 1) -> get_fill d op = Ok fill ->
  0 < ny -> 0 < nx -> kr / 2 <= ny -> kc / 2 <= nx -> cuts ny ycs -> cuts nx xcs ->
  shaped2 ny nx data -> match mask with Some m => shaped2 ny nx m | None => True end ->
  (forall p q, valid_cell mask ny nx p q -> is_nan (val2 NaN data p q) = false /\ ordered op (val2 NaN data p q) fill) ->
  exists out omask, dilate_or_erode op s d nv ny nx ycs xcs (Band data mask) = Ok (Band out omask)
  /\ shaped2 ny nx out /\ match omask with Some m => mask <> None /\ shaped2 ny nx m | None => mask = None end
  /\ forall i j, 0 <= i < ny -> 0 <= j < nx ->
     (null_cell omask i j = false <->
      match op with
      | Dilation => exists p q, in_window op kr kc i j p q /\ valid_cell mask ny nx p q
      | Erosion => mask = None \/ forall p q, in_window op kr kc i j p q -> valid_cell mask ny nx p q
      end)
     /\ if null_cell omask i j then val2 NaN out i j = nv
        else extreme_in op (fun p q => in_window op kr kc i j p q /\ valid_cell mask ny nx p q) (val2 NaN data) (val2 NaN out i j).
Proof.
  intros Hs Hr Hc N1 Ef Hy Hx Dy Dx Cy Cx HD HM OK. unfold dilate_or_erode. rewrite (footprint_ok s kr kc Hs Hr Hc N1). cbn [rbind].
  rewrite (morph_filter_spec d nv ny nx ycs xcs kr kc Hy Hx Hr Hc Dy Dx Cy Cx op fill data mask Ef HD HM).
  eexists _, _. split; [reflexivity|]. split; [apply rect_tab2; lia|]. split.
  { destruct mask as [m|]; [|reflexivity]. split; [discriminate|apply rect_tab2; lia]. }
  intros i j Hi Hj. pose proof (null_iff ny nx op kr kc mask i j Hr Hc Hi Hj) as NI. cbv zeta in NI. split; [exact NI|].
  rewrite val2_tab by lia. destruct (null_cell _ i j) eqn:En; [reflexivity|].
  apply extremum_valid; try assumption; [apply (get_fill_nan d op), Ef|]. destruct NI as [NI _]. specialize (NI eq_refl).
  destruct op; [exact NI|]. exists i, j. assert (W : in_window Erosion kr kc i j i j) by (unfold in_window; rewrite !Z.sub_diag; split; apply reach_0; assumption).
  split; [exact W|]. destruct NI as [->|NI]; [repeat split; lia|apply NI, W].
Qed.
Lemma float_largest d : is_float_dtype d = true -> float_max d = largest d.
Proof. destruct d; intros H; try discriminate H; vm_compute; reflexivity. Qed.
Lemma fill_value d op : d <> BOOL -> get_fill d op = Ok (of_Z (match op with Erosion => largest d | Dilation => smallest d end)).
Proof.
  intros N. unfold get_fill. destruct (is_int_dtype d) eqn:E.
  - destruct d; try discriminate E; destruct op; reflexivity.
  - assert (F : is_float_dtype d = true) by (destruct d; try discriminate E; try contradiction; reflexivity). rewrite F, (float_largest d F).
    destruct op; [|reflexivity]. destruct d; try discriminate F; reflexivity.
Qed.
Lemma held_ordered d op v : held_by d v -> v <> (match op with Erosion => PInf | Dilation => MInf end) ->
  is_nan v = false /\ ordered op v (of_Z (match op with Erosion => largest d | Dilation => smallest d end)).
Proof.
  intros H N. destruct v as [q| | |]; cbn in H; try contradiction.
  - split; [reflexivity|]. unfold ordered, num_leb, of_Z. destruct op; cbn [num_ltb num_eqb]; apply orb_true_iff.
    + destruct (Qlt_le_dec (inject_Z (smallest d)) q) as [L|L]; [left; apply Qlt_bool_iff, L|right; apply Qeq_bool_iff, Qle_antisym; [apply H|exact L]].
    + destruct (Qlt_le_dec q (inject_Z (largest d))) as [L|L]; [left; apply Qlt_bool_iff, L|right; apply Qeq_bool_iff, Qle_antisym; [apply H|exact L]].
  - split; [reflexivity|]. destruct op; [reflexivity|contradiction].
  - split; [reflexivity|]. destruct op; [contradiction|reflexivity].
Qed.
Lemma dilate_spec s kr kc d nv ny nx ycs xcs data mask :
  dims s = Some (kr, kc) -> 0 < kr -> 0 < kc -> ~ (kr = 1 /\ kc = 1) -> d <> BOOL ->
  0 < ny -> 0 < nx -> kr / 2 <= ny -> kc / 2 <= nx -> cuts ny ycs -> cuts nx xcs ->
  shaped2 ny nx data -> match mask with Some m => shaped2 ny nx m | None => True end ->
  (forall p q, valid_cell mask ny nx p q -> held_by d (val2 NaN data p q) /\ val2 NaN data p q <> MInf) ->
  exists out omask, dilate_or_erode Dilation s d nv ny nx ycs xcs (Band data mask) = Ok (Band out omask)
  /\ shaped2 ny nx out /\ match omask with Some m => mask <> None /\ shaped2 ny nx m | None => mask = None end
  /\ forall i j, 0 <= i < ny -> 0 <= j < nx ->
     let W p q := reaches_down kr (p - i) /\ reaches_down kc (q - j) /\ valid_cell mask ny nx p q in
     (null_cell omask i j = false <-> exists p q, W p q)
     /\ if null_cell omask i j then val2 NaN out i j = nv else greatest_in W (val2 NaN data) (val2 NaN out i j).
Proof.
  intros Hs Hr Hc N1 Hd Hy Hx Dy Dx Cy Cx HD HM OK.
  destruct (morph_spec Dilation s kr kc d nv ny nx ycs xcs _ data mask Hs Hr Hc N1 (fill_value d Dilation Hd) Hy Hx Dy Dx Cy Cx HD HM) as (out & omask & E & S1 & S2 & R).
  { intros p q V. destruct (OK p q V). apply (held_ordered d Dilation); assumption. }
  exists out, omask. split; [exact E|]. split; [exact S1|]. split; [exact S2|]. intros i j Hi Hj W. destruct (R i j Hi Hj) as [R1 R2].
  assert (EW : forall p q, W p q <-> in_window Dilation kr kc i j p q /\ valid_cell mask ny nx p q) by (intros p q; unfold W, in_window; cbn; tauto).
  split; [rewrite R1; split; intros (p & q & H); exists p, q; apply EW, H|].
  destruct (null_cell omask i j); [exact R2|]. destruct R2 as [(p & q & H & V) B]. split; [exists p, q; split; [apply EW, H|exact V]|]. intros p' q' H'. apply B, EW, H'.
Qed.
Lemma erode_spec s kr kc d nv ny nx ycs xcs data mask :
  dims s = Some (kr, kc) -> 0 < kr -> 0 < kc -> ~ (kr = 1 /\ kc = 1) -> d <> BOOL ->
  0 < ny -> 0 < nx -> kr / 2 <= ny -> kc / 2 <= nx -> cuts ny ycs -> cuts nx xcs ->
  shaped2 ny nx data -> match mask with Some m => shaped2 ny nx m | None => True end ->
  (forall p q, valid_cell mask ny nx p q -> held_by d (val2 NaN data p q) /\ val2 NaN data p q <> PInf) ->
  exists out omask, dilate_or_erode Erosion s d nv ny nx ycs xcs (Band data mask) = Ok (Band out omask)
  /\ shaped2 ny nx out /\ match omask with Some m => mask <> None /\ shaped2 ny nx m | None => mask = None end
  /\ forall i j, 0 <= i < ny -> 0 <= j < nx ->
     let W p q := reaches_up kr (p - i) /\ reaches_up kc (q - j) in
     (null_cell omask i j = false <-> mask = None \/ forall p q, W p q -> valid_cell mask ny nx p q)
     /\ if null_cell omask i j then val2 NaN out i j = nv else least_in (fun p q => W p q /\ valid_cell mask ny nx p q) (val2 NaN data) (val2 NaN out i j).
Proof.
  intros Hs Hr Hc N1 Hd Hy Hx Dy Dx Cy Cx HD HM OK.
  destruct (morph_spec Erosion s kr kc d nv ny nx ycs xcs _ data mask Hs Hr Hc N1 (fill_value d Erosion Hd) Hy Hx Dy Dx Cy Cx HD HM) as (out & omask & E & S1 & S2 & R).
  { intros p q V. destruct (OK p q V). apply (held_ordered d Erosion); assumption. }
  exists out, omask. split; [exact E|]. split; [exact S1|]. split; [exact S2|]. intros i j Hi Hj. exact (R i j Hi Hj).
Qed.
Lemma window_self n : 0 < n -> reaches_down n 0 /\ reaches_up n 0.
Proof. intros H. split; [apply (reach_0 Dilation)|apply (reach_0 Erosion)]; exact H. Qed.
(* the bound alone holds for infinities as well *)
Lemma morph_bound op s kr kc d nv ny nx ycs xcs data mask :
  dims s = Some (kr, kc) -> 0 < kr -> 0 < kc -> ~ (kr = 1 /\ kc = 1) -> d <> BOOL ->
  0 < ny -> 0 < nx -> kr / 2 <= ny -> kc / 2 <= nx -> cuts ny ycs -> cuts nx xcs ->
  shaped2 ny nx data -> match mask with Some m => shaped2 ny nx m | None => True end ->
  (forall p q, valid_cell mask ny nx p q -> is_nan (val2 NaN data p q) = false) ->
  exists out omask, dilate_or_erode op s d nv ny nx ycs xcs (Band data mask) = Ok (Band out omask)
  /\ forall i j, 0 <= i < ny -> 0 <= j < nx ->
     (null_cell omask i j = false <->
      match op with
      | Dilation => exists p q, in_window op kr kc i j p q /\ valid_cell mask ny nx p q
      | Erosion => mask = None \/ forall p q, in_window op kr kc i j p q -> valid_cell mask ny nx p q
      end)
     /\ (null_cell omask i j = false -> valid_cell mask ny nx i j -> ordered op (val2 NaN out i j) (val2 NaN data i j)).
Proof.
  intros Hs Hr Hc N1 Hd Hy Hx Dy Dx Cy Cx HD HM OK. unfold dilate_or_erode. rewrite (footprint_ok s kr kc Hs Hr Hc N1). cbn [rbind].
  set (fill := of_Z (match op with Erosion => largest d | Dilation => smallest d end)).
  rewrite (morph_filter_spec d nv ny nx ycs xcs kr kc Hy Hx Hr Hc Dy Dx Cy Cx op fill data mask (fill_value d op Hd) HD HM).
  eexists _, _. split; [reflexivity|]. intros i j Hi Hj. pose proof (null_iff ny nx op kr kc mask i j Hr Hc Hi Hj) as NI. cbv zeta in NI. split; [exact NI|].
  rewrite val2_tab by lia. intros En V. rewrite En.
  apply extremum_spec.
  - apply window_nonempty; assumption.
  - apply Forall_forall. intros v I. apply window_in in I; try assumption. destruct I as (p & q & _ & _ & <-).
    destruct (extended_cases ny nx mask data fill p q) as [[V' ->]|[_ ->]]; [apply OK, V'|reflexivity].
  - apply window_in; try assumption. exists i, j. rewrite !Z.sub_diag. split; [apply reach_0; assumption|]. split; [apply reach_0; assumption|].
    destruct (extended_cases ny nx mask data fill i j) as [[_ E]|[N _]]; [exact E|contradiction].
Qed.
Lemma erode_le_dilate s kr kc d nv ny nx ycs xcs data mask :
  dims s = Some (kr, kc) -> 0 < kr -> 0 < kc -> ~ (kr = 1 /\ kc = 1) -> d <> BOOL ->
  0 < ny -> 0 < nx -> kr / 2 <= ny -> kc / 2 <= nx -> cuts ny ycs -> cuts nx xcs ->
  shaped2 ny nx data -> match mask with Some m => shaped2 ny nx m | None => True end ->
  (forall p q, valid_cell mask ny nx p q -> is_nan (val2 NaN data p q) = false) ->
  exists dout dmask eout emask, dilate_or_erode Dilation s d nv ny nx ycs xcs (Band data mask) = Ok (Band dout dmask)
  /\ dilate_or_erode Erosion s d nv ny nx ycs xcs (Band data mask) = Ok (Band eout emask)
  /\ forall i j, 0 <= i < ny -> 0 <= j < nx ->
     (null_cell emask i j = false -> null_cell mask i j = false /\ num_leb (val2 NaN eout i j) (val2 NaN data i j) = true)
     /\ (null_cell mask i j = false -> null_cell dmask i j = false /\ num_leb (val2 NaN data i j) (val2 NaN dout i j) = true).
Proof.
  intros Hs Hr Hc N1 Hd Hy Hx Dy Dx Cy Cx HD HM OK.
  destruct (morph_bound Dilation s kr kc d nv ny nx ycs xcs data mask) as (dout & dmask & E & R); try assumption.
  destruct (morph_bound Erosion s kr kc d nv ny nx ycs xcs data mask) as (eout & emask & E' & R'); try assumption.
  exists dout, dmask, eout, emask. split; [exact E|]. split; [exact E'|]. intros i j Hi Hj. destruct (R i j Hi Hj) as [R1 R2]. destruct (R' i j Hi Hj) as [R1' R2'].
  assert (VN : valid_cell mask ny nx i j <-> null_cell mask i j = false) by (unfold valid_cell, null_cell; destruct mask; split; [tauto|repeat split; tauto|tauto|repeat split; tauto]).
  assert (W : forall op, in_window op kr kc i j i j) by (intros op; unfold in_window; rewrite !Z.sub_diag; split; apply reach_0; assumption).
  split.
  - intros N. assert (V : valid_cell mask ny nx i j) by (destruct (proj1 R1' N) as [->|A]; [repeat split; lia|apply A, W]).
    split; [apply VN, V|]. apply (R2' N V).
  - intros N. apply VN in N. assert (ND : null_cell dmask i j = false) by (apply R1; exists i, j; split; [apply W|exact N]).
    split; [exact ND|]. apply (R2 ND N).
Qed.
