(* Proofs about Frames.v. *)
From Coq Require Import QArith String DecimalString DecimalN NArith Lia ZifyBool ZifyNat.
From Verif Require Import Base BaseFacts Scalars NumFacts Arr2 Arr2Facts ChunksProofs ProximityChunk Vectors VectorsProofs RasterStack Bands BandsSpec Frames FramesSpec.
Open Scope Z_scope.

Lemma numbered_inj prefix n m : 0 <= n -> 0 <= m -> numbered prefix n = numbered prefix m -> n = m.
Proof.
  unfold numbered. intros Hn Hm H. apply append_inj in H.
  assert (E : NilZero.uint_of_string (NilZero.string_of_uint (N.to_uint (Z.to_N n))) = NilZero.uint_of_string (NilZero.string_of_uint (N.to_uint (Z.to_N m)))) by now rewrite H.
  rewrite !NilZero.usu in E by apply to_uint_nonnil. injection E as E. apply DecimalN.Unsigned.to_uint_inj in E. lia.
Qed.
Lemma find_column_in cols : forall name, NoDup (map fst cols) -> forall c, In (name, c) cols -> find_column cols name = Some c.
Proof.
  induction cols as [|[k c] cols IH]; intros name ND c0 H; [destruct H|]. cbn in ND. inversion ND as [|? ? N ND' E]; subst. cbn [find_column].
  destruct H as [H|H]; [injection H as -> ->; now rewrite String.eqb_refl|].
  destruct (String.eqb_spec k name) as [->|_]; [|now apply IH]. exfalso. apply N. apply in_map_iff. exists (name, c0). auto.
Qed.
Lemma forall2_length {A B} (P : A -> B -> Prop) a b : Forall2 P a b -> Datatypes.length a = Datatypes.length b.
Proof. induction 1; cbn; congruence. Qed.
Definition val (l : list num) (i : Z) : num := match get l i with Ok v => v | Err _ => NaN end.
Lemma get_val l i : 0 <= i < len l -> get l i = Ok (val l i).
Proof. intros H. unfold val. destruct (get_range l i H) as [v ->]. reflexivity. Qed.

Lemma scatter_spec {A} n (g : A -> bool) (f : A -> list num) x :
  scatter n (map g x) (map f (where_true (map g x) x)) = Ok (map (fun r => if g r then f r else full n NaN) x).
Proof.
  induction x as [|a x IH]; [reflexivity|]. cbn [map]. unfold where_true in *. cbn [combine filter fst]. destruct (g a) eqn:E; cbn [map snd scatter]; rewrite IH; reflexivity.
Qed.
Lemma in_where_true {A} (g : A -> bool) x a : In a (where_true (map g x) x) -> In a x.
Proof.
  unfold where_true. intros H. apply in_map_iff in H as ([b a'] & E & H). cbn in E. subst. apply filter_In in H as [H _]. now apply in_combine_r in H.
Qed.
Lemma broadcast_same k n y : len y = k -> Forall (fun row => len row = n) y -> broadcast_rows k n y = Ok y.
Proof.
  intros E F. unfold broadcast_rows. rewrite (proj2 (Z.eqb_eq _ _) E). cbn [rbind]. rewrite traverse_ok with (g := fun x => x).
  - now rewrite map_id.
  - intros row H. unfold broadcast_row. rewrite Forall_forall in F. rewrite (proj2 (Z.eqb_eq _ _) (F row H)). reflexivity.
Qed.
Lemma len_where_map {A} (x : list A) {B} (f : A -> B) : len (map f x) = len x. Proof. apply len_map. Qed.

Section P.
Variables (predict : list (list num) -> res (@prediction num)) (nout : Z) (f : list num -> list num).

Definition rows_of (ls : list (list num)) (n : Z) : list (list num) := map (fun i => map (fun col => val col i) ls) (zrange 0 n).
Definition ok_row (row : list num) : bool := negb (existsb is_nan row).
Definition out_rows ls n := map (fun row => if ok_row row then f row else full nout NaN) (rows_of ls n).

Lemma data_ok names df fields : frame_ok names df -> NoDup names -> Forall (numeric df) fields ->
  exists ls, traverse (numbers df) fields = Ok ls /\ Forall2 (fun name l => In (name, NumCol l) (columns df) /\ len l = len (index df)) fields ls.
Proof.
  intros [EN FL] ND F. induction F as [|name fields [l H] F (ls & E & F2)]; [exists []; split; [reflexivity|constructor]|].
  exists (l :: ls). split.
  - cbn [traverse]. unfold numbers at 1. rewrite (find_column_in _ name) with (c := NumCol l); [|now rewrite EN|assumption]. cbn [rbind]. now rewrite E.
  - constructor; [|assumption]. split; [assumption|]. rewrite Forall_forall in FL. exact (FL _ H).
Qed.
Lemma expand w rows : rowwise predict w nout f -> Forall (fun row => len row = w) rows ->
  exists y, predict rows = Ok y /\ match y with P1 l => map (fun v => [v]) l | P2 l => l end = map f rows.
Proof.
  intros [_ R] F. destruct (R rows F) as [E|(E1 & l & E & EL)].
  - exists (P2 (map f rows)). split; [assumption|reflexivity].
  - exists (P1 l). split; assumption.
Qed.
Lemma pred_df_spec names df fields prefix : rowwise predict (len fields) nout f -> 0 <= nout ->
  frame_ok names df -> NoDup names -> Forall (numeric df) fields ->
  exists ls, Forall2 (fun name l => In (name, NumCol l) (columns df) /\ len l = len (index df)) fields ls
  /\ pred_df predict df fields nout prefix
     = Ok (Frame (index df) (columns df ++ map (fun o => (numbered prefix (o + 1), NumCol (map (fun row => val row o) (out_rows ls (len (index df)))))) (zrange 0 nout))).
Proof.
  intros RW HN OK ND F. destruct (data_ok names df fields OK ND F) as (ls & E & F2). exists ls. split; [assumption|].
  assert (FL : Forall (fun l => len l = len (index df)) ls).
  { clear -F2. induction F2 as [|? ? ? ? [_ H]]; constructor; assumption. }
  assert (LL : len ls = len fields) by (apply forall2_length in F2; unfold len; lia).
  unfold pred_df. rewrite E. cbn [rbind].
  rewrite traverse_ok with (g := fun i => map (fun col => val col i) ls).
  2:{ intros i Hi. apply zrange_in in Hi. apply traverse_ok. intros col Hc. apply get_val. rewrite Forall_forall in FL. rewrite (FL col Hc). lia. }
  cbn [rbind]. change (map (fun i => map (fun col => val col i) ls) (zrange 0 (len (index df)))) with (rows_of ls (len (index df))).
  change (fun row => negb (existsb is_nan row)) with ok_row. set (x := rows_of ls (len (index df))).
  assert (FX : Forall (fun row => len row = len fields) x).
  { unfold x, rows_of. apply Forall_forall. intros row H. apply in_map_iff in H as (i & <- & _). rewrite len_map. exact LL. }
  assert (FW : Forall (fun row => len row = len fields) (where_true (map ok_row x) x)).
  { apply Forall_forall. intros row H. apply in_where_true in H. rewrite Forall_forall in FX. auto. }
  destruct (expand _ _ RW FW) as (y & EY & EX). rewrite EY. cbn [rbind].
  replace (match y with P1 l => map (fun v => [v]) l | P2 l => l end) with (map f (where_true (map ok_row x) x)).
  rewrite broadcast_same; [|apply len_map|].
  2:{ apply Forall_forall. intros r H. apply in_map_iff in H as (row & <- & H). apply (proj1 RW). rewrite Forall_forall in FW. auto. }
  cbn [rbind]. rewrite scatter_spec. cbn [rbind].
  rewrite traverse_ok with (g := fun o => (numbered prefix (o + 1), NumCol (map (fun row => val row o) (out_rows ls (len (index df)))))); [reflexivity|].
  intros o Ho. apply zrange_in in Ho. unfold out_rows. fold x. rewrite traverse_ok with (g := fun row => val row o); [reflexivity|].
  intros r H. apply get_val. apply in_map_iff in H as (row & <- & H). destruct (ok_row row).
  - rewrite (proj1 RW); [lia|]. rewrite Forall_forall in FX. auto.
  - rewrite full_len; lia.
Qed.

Lemma numbered_at prefix o : 0 <= o < nout -> get (map (fun o => numbered prefix (o + 1)) (zrange 0 nout)) o = Ok (numbered prefix (o + 1)).
Proof. intros H. rewrite get_map_eq, get_zrange by lia. cbn. now rewrite ?Z.add_0_l. Qed.

Lemma vals_are names df fields ls : NoDup names -> frame_ok names df ->
  Forall2 (fun name l => In (name, NumCol l) (columns df) /\ len l = len (index df)) fields ls ->
  forall i vals, Forall2 (fun name v => holds_at df name i v) fields vals -> map (fun col => val col i) ls = vals.
Proof.
  intros ND [EN _] F2 i. induction F2 as [|name l fields ls [H _] F2 IH]; intros vals V; inversion V as [|? v ? vals' (l' & H' & G) V' E1 E2]; subst; [reflexivity|].
  cbn [map]. f_equal; [|now apply IH].
  assert (E : find_column (columns df) name = Some (NumCol l)) by (apply find_column_in; assumption).
  rewrite (find_column_in _ name ND (NumCol l') H') in E. injection E as ->. unfold val. now rewrite G.
Qed.

Lemma predict_vector_spec names parts fields prefix :
  rowwise predict (len fields) nout f -> 1 <= nout -> NoDup names -> Forall (frame_ok names) parts ->
  (forall name, In name fields -> In name names) -> Forall (fun df => Forall (numeric df) fields) parts ->
  (forall o, 1 <= o <= nout -> ~ In (numbered prefix o) names) ->
  exists parts', model_predict_vector predict names parts fields nout prefix = Ok parts'
  /\ NoDup (names ++ map (numbered prefix) (zrange 1 (nout + 1)))
  /\ Forall2 (fun df df' => extends df df' (map (numbered prefix) (zrange 1 (nout + 1)))
       /\ forall i vals, 0 <= i < len (index df) -> Forall2 (fun name v => holds_at df name i v) fields vals ->
          forall o, 1 <= o <= nout ->
          if existsb is_nan vals then holds_at df' (numbered prefix o) i NaN
          else exists v, get (f vals) (o - 1) = Ok v /\ holds_at df' (numbered prefix o) i v) parts parts'.
Proof.
  intros RW HN ND FO IN FN NEW. unfold model_predict_vector.
  replace (forallb (fun f => in_columns f names) fields) with true.
  2:{ symmetry. apply forallb_forall. intros x H. apply in_columns_iff. auto. }
  cbn [negb]. replace (nout <? 1) with false by lia.
  replace (existsb (fun o => in_columns (numbered prefix (o + 1)) names) (zrange 0 nout)) with false.
  2:{ symmetry. apply not_true_is_false. intros H. apply existsb_exists in H as (o & Ho & H). apply zrange_in in Ho. apply in_columns_iff in H. apply (NEW (o + 1)); [lia|assumption]. }
  assert (Z1 : zrange 1 (nout + 1) = map (fun o => o + 1) (zrange 0 nout)).
  { apply list_ext.
    - rewrite len_map, !len_zrange. lia.
    - intros k x G. pose proof (get_ok_range _ _ _ G) as Hk. rewrite len_zrange in Hk. rewrite get_zrange in G by lia. injection G as <-. rewrite get_map_eq, get_zrange by lia. rewrite (Z.add_comm (0 + k)), Z.add_0_l. reflexivity. }
  assert (SP : forall df, In df parts -> exists df', pred_df predict df fields nout prefix = Ok df'
     /\ extends df df' (map (numbered prefix) (zrange 1 (nout + 1)))
       /\ forall i vals, 0 <= i < len (index df) -> Forall2 (fun name v => holds_at df name i v) fields vals ->
          forall o, 1 <= o <= nout ->
          if existsb is_nan vals then holds_at df' (numbered prefix o) i NaN
          else exists v, get (f vals) (o - 1) = Ok v /\ holds_at df' (numbered prefix o) i v).
  { intros df HD. rewrite Forall_forall in FO, FN. destruct (pred_df_spec names df fields prefix RW ltac:(lia) (FO df HD) ND (FN df HD)) as (ls & F2 & E).
    eexists. split; [exact E|]. split.
    - split; [reflexivity|]. eexists. split; [reflexivity|]. rewrite map_map, Z1, map_map. reflexivity.
    - intros i vals Hi HV o Ho. pose proof (vals_are names df fields ls ND (FO df HD) F2 i vals HV) as EV.
      assert (G : forall v, val (if ok_row vals then f vals else full nout NaN) (o - 1) = v ->
        holds_at (Frame (index df) (columns df ++ map (fun o => (numbered prefix (o + 1), NumCol (map (fun row => val row o) (out_rows ls (len (index df)))))) (zrange 0 nout))) (numbered prefix o) i v).
      { intros v Hv. eexists. split.
        - cbn [columns]. apply in_or_app. right. apply in_map_iff. exists (o - 1). split; [|apply zrange_in; lia]. replace (o - 1 + 1) with o by lia. reflexivity.
        - unfold out_rows, rows_of. rewrite !get_map_eq, get_zrange by lia. cbn. replace (0 + i) with i by lia. rewrite EV. now rewrite <- Hv. }
      unfold ok_row in G. destruct (existsb is_nan vals) eqn:EN; cbn [negb] in G.
      + apply G. unfold val. rewrite get_full by lia. reflexivity.
      + exists (val (f vals) (o - 1)). split; [|now apply G]. apply get_val.
        rewrite (proj1 RW); [lia|]. apply forall2_length in HV. unfold len. lia. }
  clear -SP ND NEW HN Z1. assert (T : exists parts', traverse (fun df => pred_df predict df fields nout prefix) parts = Ok parts' /\ Forall2 (fun df df' => extends df df' (map (numbered prefix) (zrange 1 (nout + 1)))
       /\ forall i vals, 0 <= i < len (index df) -> Forall2 (fun name v => holds_at df name i v) fields vals ->
          forall o, 1 <= o <= nout ->
          if existsb is_nan vals then holds_at df' (numbered prefix o) i NaN
          else exists v, get (f vals) (o - 1) = Ok v /\ holds_at df' (numbered prefix o) i v) parts parts').
  { induction parts as [|df parts IH]; [exists []; split; [reflexivity|constructor]|].
    destruct IH as (ps & E & F2); [intros; apply SP; now right|]. destruct (SP df (or_introl eq_refl)) as (df' & E' & H').
    exists (df' :: ps). split; [cbn [traverse]; rewrite E'; cbn [rbind]; now rewrite E|]. constructor; assumption. }
  destruct T as (parts' & E & F2). exists parts'. split; [assumption|]. split; [|assumption].
  assert (N2 : NoDup (map (numbered prefix) (zrange 1 (nout + 1)))).
  { assert (I : forall l, (forall x, In x l -> 0 <= x) -> NoDup l -> NoDup (map (numbered prefix) l)).
    { induction l as [|x l IH]; intros P N; [constructor|]. inversion N; subst. cbn. constructor; [|apply IH; auto; intros; apply P; now right].
      intros H. apply in_map_iff in H as (y & Ey & Hy). apply numbered_inj in Ey; [subst; auto|apply P; now right|apply P; now left]. }
    apply I; [|apply nodup_zrange]. intros x H. apply zrange_in' in H. lia. }
  clear -ND NEW N2. induction names as [|a names IH]; [exact N2|]. inversion ND; subst. cbn. constructor.
  - rewrite in_app_iff. intros [H|H]; [auto|]. apply in_map_iff in H as (o & <- & H). apply zrange_in' in H. apply (NEW o); [lia|now left].
  - apply IH; auto. intros o Ho H. apply (NEW o Ho). now right.
Qed.

Lemma column_found cols name c : find_column cols name = Some c -> In (name, c) cols.
Proof. induction cols as [|[k d] cols IH]; cbn; [discriminate|]. destruct (String.eqb_spec k name) as [->|]; [intros [= ->]; auto|auto]. Qed.
Lemma predicted_numeric fields prefix : forall parts parts', traverse (fun df => pred_df predict df fields nout prefix) parts = Ok parts' ->
  Forall (fun df => Forall (numeric df) fields) parts.
Proof.
  induction parts as [|df parts IH]; intros parts' T; [constructor|]. cbn [traverse] in T. apply rbind_ok in T as (df' & E & T). apply rbind_ok in T as (l & E2 & _). constructor; [|eauto].
  unfold pred_df in E. apply rbind_ok in E as (data & E & _). clear -E. revert data E.
  induction fields as [|name fields IH]; intros data E; [constructor|]. cbn [traverse] in E. apply rbind_ok in E as (l & E & E2). apply rbind_ok in E2 as (l' & E2 & _). constructor; [|eauto].
  unfold numbers in E. destruct (find_column (columns df) name) as [[c|c]|] eqn:F; try discriminate. exists c. now apply column_found.
Qed.
Lemma predict_vector_errors names parts fields prefix :
  (forall parts', model_predict_vector predict names parts fields nout prefix = Ok parts' ->
     (forall name, In name fields -> In name names) /\ 1 <= nout /\ (forall o, 1 <= o <= nout -> ~ In (numbered prefix o) names)
     /\ Forall (fun df => Forall (numeric df) fields) parts)
  /\ ((exists name, In name fields /\ ~ In name names) -> model_predict_vector predict names parts fields nout prefix = Err KeyError).
Proof.
  unfold model_predict_vector. split.
  - intros parts'. destruct (forallb (fun f => in_columns f names) fields) eqn:E1; cbn [negb]; [|discriminate].
    destruct (nout <? 1) eqn:E2; [discriminate|]. destruct (existsb _ _) eqn:E3; [discriminate|]. intros T.
    split; [|split; [lia|split; [|revert T; apply predicted_numeric]]].
    + intros name H. rewrite forallb_forall in E1. apply in_columns_iff. auto.
    + intros o Ho H. apply not_true_iff_false in E3. apply E3. apply existsb_exists. exists (o - 1). split; [apply zrange_in; lia|].
      apply in_columns_iff. now replace (o - 1 + 1) with o by lia.
  - intros (name & H & N). replace (forallb (fun f => in_columns f names) fields) with false; [reflexivity|].
    symmetry. apply not_true_iff_false. intros E. rewrite forallb_forall in E. apply N. apply in_columns_iff. auto.
Qed.
End P.
