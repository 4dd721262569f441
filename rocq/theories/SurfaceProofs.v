(* The surface operations by chunks; nulls and NaN. *)
From Verif Require Import Base BaseFacts Chunks ChunksSpec ChunksProofs Arr2 Arr2Facts Focal FocalSpec FocalProofs FocalValues FocalFast FocalResults
  Surface.
From Coq Require Import Reals.
From Verif Require Import SurfaceSpec.
Open Scope Z_scope.

(* a kernel reads the 3 x 3 cells around a cell *)
Definition around1 {F} (g : Z -> Z -> F) : arr2 F := tab2 3 3 (fun i j => g (i - 1) (j - 1)).
Definition at_centre {F} (A : arith F) (k : kernel) (g : Z -> Z -> F) : F :=
  match k (around1 g) 1 1 with Ok v => v | Err _ => nan A end.
Definition local {F} (A : arith F) (k : kernel (F := F)) : Prop :=
  forall n m (g : Z -> Z -> F) i j, 1 <= i < n - 1 -> 1 <= j < m - 1 ->
    k (tab2 n m g) i j = Ok (at_centre A k (fun di dj => g (i + di) (j + dj))).

Lemma around_get9 {F} (g : Z -> Z -> F) :
  get2 (around1 g) 0 0 = Ok (g (-1) (-1)) /\ get2 (around1 g) 0 1 = Ok (g (-1) 0) /\ get2 (around1 g) 0 2 = Ok (g (-1) 1)
  /\ get2 (around1 g) 1 0 = Ok (g 0 (-1)) /\ get2 (around1 g) 1 1 = Ok (g 0 0) /\ get2 (around1 g) 1 2 = Ok (g 0 1)
  /\ get2 (around1 g) 2 0 = Ok (g 1 (-1)) /\ get2 (around1 g) 2 1 = Ok (g 1 0) /\ get2 (around1 g) 2 2 = Ok (g 1 1).
Proof. repeat split. Qed.
Lemma tab_get9 {F} n m (g : Z -> Z -> F) i j : 1 <= i < n - 1 -> 1 <= j < m - 1 ->
  let a := tab2 n m g in
  get2 a (i - 1) (j - 1) = Ok (g (i + -1) (j + -1)) /\ get2 a (i - 1) j = Ok (g (i + -1) (j + 0)) /\ get2 a (i - 1) (j + 1) = Ok (g (i + -1) (j + 1))
  /\ get2 a i (j - 1) = Ok (g (i + 0) (j + -1)) /\ get2 a i j = Ok (g (i + 0) (j + 0)) /\ get2 a i (j + 1) = Ok (g (i + 0) (j + 1))
  /\ get2 a (i + 1) (j - 1) = Ok (g (i + 1) (j + -1)) /\ get2 a (i + 1) j = Ok (g (i + 1) (j + 0)) /\ get2 a (i + 1) (j + 1) = Ok (g (i + 1) (j + 1)).
Proof.
  intros Hi Hj a. subst a. rewrite !get2_tab2 by lia. rewrite !Z.add_0_r. repeat split; f_equal; f_equal; lia.
Qed.
Lemma kernel_local {F} (A : arith F) fn : local A (kernel_of A fn).
Proof.
  intros n m g i j Hi Hj. unfold at_centre.
  destruct (tab_get9 n m g i j Hi Hj) as (G1 & G2 & G3 & G4 & G5 & G6 & G7 & G8 & G9).
  destruct fn; cbn [kernel_of];
  unfold slope_kernel, aspect_kernel, curv_kernel, area_kernel, hillshade_kernel;
  rewrite ?G1, ?G2, ?G3, ?G4, ?G5, ?G6, ?G7, ?G8, ?G9;
  change (1 - 1) with 0; change (1 + 1) with 2;
  pose proof (around_get9 (fun di dj => g (i + di) (j + dj))) as (H1 & H2 & H3 & H4 & H5 & H6 & H7 & H8 & H9);
  rewrite ?H1, ?H2, ?H3, ?H4, ?H5, ?H6, ?H7, ?H8, ?H9; cbn [rbind]; reflexivity.
Qed.
Lemma at_centre_ext {F} (A : arith F) k (g g' : Z -> Z -> F) :
  (forall di dj, -1 <= di <= 1 -> -1 <= dj <= 1 -> g di dj = g' di dj) -> at_centre A k g = at_centre A k g'.
Proof. intros H. unfold at_centre, around1. erewrite tab2_ext; [reflexivity|]. intros i j Hi Hj. cbv beta. apply H; lia. Qed.

(* ---- the chunks ---- *)
Lemma surface_chunk_spec {F} (A : arith F) (k : kernel) (junk : arr2 F) rows cols g :
  local A k -> rect rows cols junk ->
  exists o, surface_chunk k junk rows cols (tab2 rows cols g) = Ok o /\ rect rows cols o
    /\ forall i j, 1 <= i < rows - 1 -> 1 <= j < cols - 1 -> get2 o i j = Ok (at_centre A k (fun di dj => g (i + di) (j + dj))).
Proof.
  intros L R. unfold surface_chunk.
  rewrite (foldM_nested (fun out p => let* v := k (tab2 rows cols g) (fst p) (snd p) in set2 out (fst p) (snd p) v)).
  destruct (fill2 (fun i j => at_centre A k (fun di dj => g (i + di) (j + dj)))
    (fun out p => let* v := k (tab2 rows cols g) (fst p) (snd p) in set2 out (fst p) (snd p) v) rows cols
    (flat_map (fun r => map (fun c => (r, c)) (zrange 1 (cols - 1))) (zrange 1 (rows - 1)))) with (out := junk) as (o & E & RO & G).
  - intros i j HI. apply in_flat_map in HI. destruct HI as (r & Hr' & HI). apply in_map_iff in HI. destruct HI as (c & HE & Hc').
    injection HE as <- <-. apply zrange_in' in Hr', Hc'. lia.
  - intros out i j HI _. apply in_flat_map in HI. destruct HI as (r & Hr' & HI). apply in_map_iff in HI. destruct HI as (c & HE & Hc').
    injection HE as <- <-. apply zrange_in' in Hr', Hc'. cbn [fst snd]. rewrite (L rows cols g r c) by lia. reflexivity.
  - exact R.
  - exists o. split; [exact E|]. split; [exact RO|]. intros i j Hi Hj. apply G. apply in_flat_map. exists i.
    split; [apply zrange_in'; lia|]. apply in_map_iff. exists j. split; [reflexivity|apply zrange_in'; lia].
Qed.
Lemma surface_overlap {F} (A : arith F) (k : kernel) junk ny nx ycs xcs (a : Z -> Z -> F) :
  local A k -> allocates junk -> 0 < ny -> 0 < nx -> cuts ny ycs -> cuts nx xcs ->
  map_overlap Constant (nan A) ny nx 1 1 ycs xcs (fun rows cols => surface_chunk k (junk rows cols) rows cols) (tab2 ny nx a)
  = Ok (tab2 ny nx (fun i j => at_centre A k (fun di dj => cellf Constant (nan A) a ny nx (i + di) (j + dj)))).
Proof.
  intros L J Hy Hx Cy Cx. destruct (cuts_sum _ _ Cy) as [Fy Sy]. destruct (cuts_sum _ _ Cx) as [Fx Sx].
  apply map_overlap_spec; try assumption; try lia.
  - intros n m g Hn Hm. apply surface_chunk_spec; [exact L|]. apply J; lia.
  - intros g g' H. apply at_centre_ext. intros. apply H; lia.
Qed.

(* ---- the result ---- *)
Definition filled {F} (A : arith F) (f16 : option F) (rs : sband) (i j : Z) : F :=
  if is_null rs i j then match f16 with Some v => v | None => nan A end else val2 (nan A) (s_data rs) i j.
Lemma prepared {F} (A : arith F) f16 ny nx rs : 0 < ny -> 0 < nx -> band_shaped ny nx rs ->
  s_data (astype_float32 f16 (null_to_nan A rs)) = tab2 ny nx (filled A f16 rs)
  /\ mask_of (astype_float32 f16 (null_to_nan A rs)) = tab2 ny nx (is_null rs).
Proof.
  intros Hy Hx [SD SM]. destruct rs as [data [m|]]; cbn [s_data s_mask] in *.
  - unfold null_to_nan, astype_float32; cbn [s_mask s_data].
    rewrite (shaped_tab (nan A) ny nx data SD) by lia. rewrite (shaped_tab false ny nx m SM) by lia.
    destruct f16 as [v|]; cbn [s_data s_mask mask_of]; rewrite ?where2_tab.
    + split; [|apply tab2_ext; intros; unfold is_null; cbn [s_mask]; now rewrite val2_tab by lia].
      apply tab2_ext. intros i j Hi Hj. unfold filled, is_null; cbn [s_data s_mask]. rewrite !val2_tab by lia. now destruct (val2 false m i j).
    + split; [|apply tab2_ext; intros; unfold is_null; cbn [s_mask]; now rewrite val2_tab by lia].
      apply tab2_ext. intros i j Hi Hj. unfold filled, is_null; cbn [s_data s_mask]. rewrite !val2_tab by lia. reflexivity.
  - assert (E : astype_float32 f16 (null_to_nan A (SBand data None)) = SBand data None) by now destruct f16. rewrite E.
    unfold mask_of; cbn [s_data s_mask]. split.
    + rewrite (shaped_tab (nan A) ny nx data SD) by lia. apply tab2_ext. intros i j Hi Hj. unfold filled, is_null; cbn [s_data s_mask]. now rewrite val2_tab by lia.
    + rewrite (shaped_tab (nan A) ny nx data SD) by lia. rewrite map2_tab. reflexivity.
Qed.
Lemma set_tab {A} n (f : Z -> A) k v : 0 <= k < n -> set (tab n f) k v = Ok (tab n (fun i => if i =? k then v else f i)).
Proof.
  intros H. destruct (set_range (tab n f) k v) as [l E]; [rewrite len_tab; lia|]. rewrite E. f_equal.
  apply list_tab; [lia|now rewrite (set_len _ _ _ _ E), len_tab by lia|]. intros i Hi. destruct (i =? k) eqn:EK.
  - assert (i = k) by lia. subst. now rewrite (get_set_same _ _ _ _ E).
  - rewrite (get_set_other _ _ _ _ _ E) by lia. now apply get_tab.
Qed.
Lemma full_tab {A} n (x : A) : 0 <= n -> full n x = tab n (fun _ => x).
Proof. intros H. apply list_tab; [lia|now rewrite full_len|]. intros i Hi. now apply get_full. Qed.
Lemma finalize_spec {F} (nv : F) ny nx (d : Z -> Z -> F) (m : Z -> Z -> bool) like : 0 < ny -> 0 < nx -> mask_of like = tab2 ny nx m ->
  finalize nv ny nx (tab2 ny nx d) like
  = Ok (SBand (tab2 ny nx (fun i j => if on_ring ny nx i j || m i j then nv else d i j)) (Some (tab2 ny nx (fun i j => on_ring ny nx i j || m i j)))).
Proof.
  intros Hy Hx E. unfold finalize. rewrite E. unfold tab2 at 1. rewrite set_tab by lia. cbn [rbind]. rewrite set_tab by lia. cbn [rbind].
  rewrite (traverse_ok _ (fun row => match set row 0 true with Ok r => match set r (nx - 1) true with Ok r => r | Err _ => [] end | Err _ => [] end)).
  - cbn [rbind]. match goal with |- context [map ?f (tab ny ?g)] => replace (map f (tab ny g)) with (tab ny (fun i => f (g i))) by (unfold tab; now rewrite map_map) end.
    assert (EM : tab ny (fun i => match set (if i =? ny - 1 then full nx true else if i =? 0 then full nx true else tab nx (m i)) 0 true with
                        | Ok r => match set r (nx - 1) true with Ok r => r | Err _ => [] end | Err _ => [] end)
             = tab2 ny nx (fun i j => on_ring ny nx i j || m i j)).
    { apply tab_ext. intros i Hi. rewrite !full_tab by lia.
      assert (ER : (if i =? ny - 1 then tab nx (fun _ => true) else if i =? 0 then tab nx (fun _ => true) else tab nx (m i))
         = tab nx (fun j => (i =? ny - 1) || (i =? 0) || m i j)).
      { destruct (i =? ny - 1); [reflexivity|]. destruct (i =? 0); reflexivity. }
      rewrite ER, set_tab by lia. rewrite set_tab by lia. apply tab_ext. intros j Hj. unfold on_ring.
      destruct (j =? nx - 1), (j =? 0), (i =? ny - 1), (i =? 0); reflexivity. }
    rewrite EM, where2_tab. reflexivity.
  - intros row HI. unfold tab at 1 in HI. apply in_map_iff in HI. destruct HI as (i & <- & _).
    assert (ER : exists f, (if i =? ny - 1 then full nx true else if i =? 0 then full nx true else tab nx (m i)) = tab nx f).
    { rewrite !full_tab by lia. destruct (i =? ny - 1); [now eexists|]. destruct (i =? 0); now eexists. }
    destruct ER as [f ER]. cbv beta. rewrite ER. rewrite set_tab by lia. cbn [rbind]. now rewrite set_tab by lia.
Qed.
Definition value_at {F} (A : arith F) k (f16 : option F) (rs : sband) (i j : Z) : F :=
  at_centre A k (fun di dj => filled A f16 rs (i + di) (j + dj)).
Lemma surface_op_spec {F} (A : arith F) k f16 nv junk ny nx ycs xcs rs :
  local A k -> allocates junk -> 0 < ny -> 0 < nx -> cuts ny ycs -> cuts nx xcs -> band_shaped ny nx rs ->
  surface_op A k f16 nv junk ny nx ycs xcs rs
  = Ok (SBand (tab2 ny nx (fun i j => if on_ring ny nx i j || is_null rs i j then nv else value_at A k f16 rs i j))
              (Some (tab2 ny nx (fun i j => on_ring ny nx i j || is_null rs i j)))).
Proof.
  intros L J Hy Hx Cy Cx SH. unfold surface_op. destruct (prepared A f16 ny nx rs Hy Hx SH) as [ED EM].
  rewrite ED, surface_overlap by assumption. cbn [rbind]. rewrite (finalize_spec nv ny nx _ (is_null rs)) by assumption.
  do 2 f_equal. apply tab2_ext. intros i j Hi Hj. destruct (on_ring ny nx i j) eqn:ER; [reflexivity|]. cbn [orb].
  destruct (is_null rs i j); [reflexivity|]. apply at_centre_ext. intros di dj Hdi Hdj. unfold on_ring in ER. unfold cellf.
  rewrite !extend_in by lia. reflexivity.
Qed.

(* ---- NaN ---- *)
Lemma side_nan {F} (A : arith F) l x : nan_laws A -> side A l (nan A) x = nan A /\ side A l x (nan A) = nan A.
Proof. intros []. unfold side, sq. rewrite !nan_sub_l, !nan_sub_r, nan_mul_l, nan_add_r, nan_sqrt, nan_mul_l. auto. Qed.
Lemma heron_nan {F} (A : arith F) p q : nan_laws A -> heron A (nan A) p q = nan A /\ heron A p (nan A) q = nan A /\ heron A p q (nan A) = nan A.
Proof.
  intros []. unfold heron. split; [|split]; repeat rewrite ?nan_add_r, ?nan_add_l, ?nan_mul_l, ?nan_mul_r, ?nan_sub_l, ?nan_sub_r, ?nan_sqrt; reflexivity.
Qed.
Lemma nan_centre {F} (A : arith F) fn (g : Z -> Z -> F) dr dc : nan_laws A -> needs fn dr dc -> g dr dc = nan A ->
  at_centre A (kernel_of A fn) g = nan A.
Proof.
  intros NL N E. unfold at_centre.
  pose proof (around_get9 g) as (H1 & H2 & H3 & H4 & H5 & H6 & H7 & H8 & H9).
  assert (CS : (dr = -1 \/ dr = 0 \/ dr = 1) /\ (dc = -1 \/ dc = 0 \/ dc = 1)).
  { destruct fn; cbn [needs] in N; lia. }
  pose proof (nan_round32 A NL) as R32.
  pose proof (fun l x => proj1 (side_nan A l x NL)) as NS1. pose proof (fun l x => proj2 (side_nan A l x NL)) as NS2.
  pose proof (fun p q => proj1 (heron_nan A p q NL)) as NH1. pose proof (fun p q => proj1 (proj2 (heron_nan A p q NL))) as NH2.
  pose proof (fun p q => proj2 (proj2 (heron_nan A p q NL))) as NH3.
  destruct NL. destruct fn; cbn [kernel_of needs] in *;
  unfold slope_kernel, aspect_kernel, curv_kernel, area_kernel, hillshade_kernel;
  change (1 - 1) with 0; change (1 + 1) with 2;
  rewrite ?H1, ?H2, ?H3, ?H4, ?H5, ?H6, ?H7, ?H8, ?H9; cbn [rbind];
  destruct CS as [[-> | [-> | ->]] [-> | [-> | ->]]]; try lia; rewrite E;
  repeat (rewrite ?NS1, ?NS2, ?NH1, ?NH2, ?NH3, ?nan_add_l, ?nan_add_r, ?nan_sub_l, ?nan_sub_r, ?nan_mul_l, ?nan_mul_r, ?nan_div_l, ?nan_div_r,
    ?nan_opp, ?nan_sqrt, ?nan_atan, ?nan_atan2_l, ?nan_atan2_r, ?nan_cos, ?nan_sin, ?nan_eqb_l, ?nan_ltb_l, ?nan_ltb_r, ?nan_leb_l;
    rewrite ?Bool.andb_false_r; cbn [andb negb]); try (destruct degrees); first [reflexivity | exact R32].
Qed.
