(* Proofs about SaveChunks.v *)
From Coq Require Import QArith Ascii String.
From Verif Require Import Base BaseFacts Scalars Chunks ChunksSpec ChunksProofs Dtypes Raster FocalSpec RasterSpec Reconcile ReconcileSpec Saving SavingSpec SavingProofs.
From Verif Require Import WriteOptions WriteOptionsSpec WriteOptionsProofs SaveChunks SaveChunksSpec.
From Coq Require Import Lia.
Open Scope Z_scope.

(* ---- files ---- *)
Lemma holds_new p f fs : holds ((p, f) :: fs) p f.
Proof. exists [], fs. cbn. auto. Qed.
Lemma holds_other p q f g fs : p <> q -> (holds ((q, g) :: fs) p f <-> holds fs p f).
Proof.
  intros N. split.
  - intros (l & e & E & NI). destruct l as [|x l].
    + cbn in E. congruence.
    + cbn in E. injection E as <- ->. exists l, e. split; [reflexivity|]. intros H. apply NI. right. exact H.
  - intros (l & e & -> & NI). exists ((q, g) :: l), e. split; [reflexivity|]. cbn. intros [H|H]; [congruence|auto].
Qed.

Section Files.
Variable cast : dtype -> num -> num.
Variable float_dtype : num -> dtype.
Variable reconcile_other : num -> dtype -> num * bool.
Variable gdal_has : dtype -> bool.
Variable gdal_nodata : dtype -> num -> num.
Notation save := (save cast float_dtype reconcile_other gdal_has gdal_nodata).
Notation save_file := (save_file cast float_dtype reconcile_other gdal_has gdal_nodata).
Notation save_chunks := (save_chunks cast float_dtype reconcile_other gdal_has gdal_nodata).

(* the job was done *)
Definition done (kw : save_kwargs) (fs : files) (job : list ascii * res raster) (o : raster) : Prop :=
  exists t f, snd job = Ok t /\ save (get_extension (unstr (fst job))) (k_driver kw) (tile_null_value kw) None t = Ok f
  /\ open_raster cast f = Ok o /\ holds fs (fst job) f.

Lemma fold_done kw jobs : NoDup (map fst jobs) -> forall out fs out' fs', foldM (save_file kw) jobs (out, fs) = Ok (out', fs') ->
  (exists rs, out' = out ++ rs /\ Forall2 (done kw fs') jobs rs)
  /\ (forall p f, ~ In p (map fst jobs) -> (holds fs' p f <-> holds fs p f)).
Proof.
  induction jobs as [|[p t0] jobs IH]; intros ND out fs out' fs' H.
  - cbn in H. injection H as <- <-. split; [|tauto]. exists []. rewrite app_nil_r. auto.
  - cbn [map fst] in ND. apply NoDup_cons_iff in ND as [NI ND]. cbn [foldM] in H. unfold SaveChunks.save_file at 1 in H. destruct t0 as [t|]; [|discriminate H]. cbn [rbind] in H.
    destruct (save (get_extension (unstr p)) (k_driver kw) (tile_null_value kw) None t) as [f|] eqn:S; [|discriminate H]. cbn [rbind] in H.
    destruct (open_raster cast f) as [r|] eqn:O; [|discriminate H]. cbn [rbind] in H.
    destruct (IH ND _ _ _ _ H) as ((rs & -> & F) & FR). split.
    + exists (r :: rs). split; [now rewrite <- app_assoc|]. constructor; [|exact F]. exists t, f. repeat split; auto. apply FR; [exact NI|apply holds_new].
    + intros q g NQ. cbn in NQ. rewrite FR by tauto. apply holds_other. intros ->. tauto.
Qed.

Lemma fold_total kw jobs : (forall p t0, In (p, t0) jobs -> exists t f o, t0 = Ok t /\ save (get_extension (unstr p)) (k_driver kw) (tile_null_value kw) None t = Ok f /\ open_raster cast f = Ok o) ->
  forall st, exists st', foldM (save_file kw) jobs st = Ok st'.
Proof.
  induction jobs as [|[p t0] jobs IH]; intros H st.
  - exists st. reflexivity.
  - destruct (H p t0) as (t & f & o & -> & S & O); [now left|]. destruct st as [out fs]. cbn [foldM]. unfold SaveChunks.save_file at 1. cbn [rbind]. rewrite S. cbn [rbind]. rewrite O. cbn [rbind].
    apply IH. intros q t1 I. apply (H q t1). now right.
Qed.

Lemma fold_error kw jobs e : forall st, foldM (save_file kw) jobs st = Err e -> exists p t0, In (p, t0) jobs
  /\ (t0 = Err e \/ exists t, t0 = Ok t /\ save_raster cast float_dtype reconcile_other gdal_has gdal_nodata (get_extension (unstr p)) (k_driver kw) (tile_null_value kw) None t = Err e).
Proof.
  induction jobs as [|[p t0] jobs IH]; intros [out fs] H; [discriminate H|]. cbn [foldM] in H. unfold SaveChunks.save_file at 1 in H.
  destruct t0 as [t|e0]; cbn [rbind] in H; [|exists p, (Err e0); split; [now left|left; congruence]].
  unfold save_raster.
  destruct (save (get_extension (unstr p)) (k_driver kw) (tile_null_value kw) None t) as [f|e0] eqn:S; cbn [rbind] in H.
  2:{ exists p, (Ok t). split; [now left|]. right. exists t. split; [reflexivity|]. rewrite S. cbn [rbind]. congruence. }
  destruct (open_raster cast f) as [r|e0] eqn:O; cbn [rbind] in H.
  2:{ exists p, (Ok t). split; [now left|]. right. exists t. split; [reflexivity|]. rewrite S. cbn [rbind]. rewrite O. congruence. }
  destruct (IH _ H) as (q & t1 & I & D). exists q, t1. split; [now right|exact D].
Qed.

Lemma asked_null kw v : asked kw v <-> v = tile_null_value kw.
Proof. unfold asked, tile_null_value. destruct (k_null_value kw), (k_no_data_value kw); split; auto. Qed.
End Files.

(* ---- extensions ---- *)
Lemma find_first (table : list (string * string)) d : match find (fun '(_, drv) => String.eqb drv d) table with
  | Some (e, d') => d' = d /\ exists before after, table = before ++ (e, d) :: after /\ ~ In d (map snd before)
  | None => ~ In d (map snd table)
  end.
Proof.
  induction table as [|[e0 d0] table IH]; [cbn; tauto|]. cbn [find]. destruct (String.eqb d0 d) eqn:E.
  - apply String.eqb_eq in E as ->. split; [reflexivity|]. exists [], table. cbn. auto.
  - apply String.eqb_neq in E. destruct (find _ table) as [[e d']|].
    + destruct IH as (-> & b & a & -> & N). split; [reflexivity|]. exists ((e0, d0) :: b), a. split; [reflexivity|]. cbn. tauto.
    + cbn. tauto.
Qed.
Lemma driver_ext_iff table driver e : driver_ext table driver e <-> ext_for_driver table driver = e.
Proof.
  split.
  - intros H. destruct H as [| |d e b a NC -> NI|d NC NI]; [reflexivity|reflexivity| |]; unfold ext_for_driver; apply String.eqb_neq in NC; rewrite NC.
    + pose proof (find_first (b ++ (e, d) :: a) d) as F. assert (G : find (fun '(_, drv) => String.eqb drv d) (b ++ (e, d) :: a) = Some (e, d)).
      { clear F. induction b as [|[e1 d1] b IH]; cbn [app find]; [now rewrite String.eqb_refl|]. cbn in NI. destruct (String.eqb d1 d) eqn:E; [apply String.eqb_eq in E; tauto|]. apply IH. tauto. }
      rewrite G. reflexivity.
    + pose proof (find_first table d) as F. destruct (find _ table) as [[e' d']|]; [|reflexivity]. destruct F as (-> & b & a & -> & _). exfalso. apply NI. rewrite map_app. apply in_or_app. right. now left.
  - intros <-. unfold ext_for_driver. destruct driver as [d|]; [|constructor]. destruct (String.eqb d "COG") eqn:C; [apply String.eqb_eq in C as ->; constructor|]. apply String.eqb_neq in C.
    pose proof (find_first table d) as F. destruct (find _ table) as [[e d']|].
    + destruct F as (-> & b & a & E & NI). apply (listed_driver table d e b a); assumption.
    + apply other_driver; assumption.
Qed.
Lemma driver_ext_dot table driver : exists w, ext_for_driver table driver = String dot w.
Proof.
  unfold ext_for_driver. destruct driver as [d|]; [|eexists; reflexivity]. destruct (String.eqb d "COG"); [eexists; reflexivity|]. destruct (find _ table) as [[e d']|]; eexists; reflexivity.
Qed.
Theorem file_ext_iff table ext driver e : file_ext table ext driver e <-> tile_ext table ext driver = e.
Proof.
  split.
  - intros H. destruct H as [driver e D| | |driver c e N].
    + apply driver_ext_iff in D. destruct (driver_ext_dot table driver) as (w & W). unfold tile_ext. rewrite W in *. rewrite <- D. reflexivity.
    + reflexivity.
    + reflexivity.
    + unfold tile_ext. destruct (Ascii.eqb c dot) eqn:E; [apply Ascii.eqb_eq in E; tauto|]. reflexivity.
  - intros <-. destruct ext as [[|c e]|].
    + constructor.
    + unfold tile_ext. destruct (Ascii.eqb c dot) eqn:E; [apply Ascii.eqb_eq in E as ->; constructor|]. apply Ascii.eqb_neq in E. constructor. exact E.
    + unfold tile_ext. destruct (driver_ext_dot table driver) as (w & W). rewrite W. cbn. constructor. apply driver_ext_iff. exact W.
Qed.

(* ---- the extension of the names ---- *)
Lemma digit_plain d : isdig d -> digit d <> dot /\ digit d <> slash /\ digit d <> "_"%char.
Proof. unfold isdig. intros H. assert (C : d = 0 \/ d = 1 \/ d = 2 \/ d = 3 \/ d = 4 \/ d = 5 \/ d = 6 \/ d = 7 \/ d = 8 \/ d = 9) by lia.
  decompose [or] C; subst d; vm_compute; repeat split; discriminate. Qed.
Lemma zpad_plain n k c : 0 <= k < n -> In c (zpad (width n) k) -> c <> dot /\ c <> slash.
Proof.
  intros H I. destruct (zpad_spec n k H) as (D & E & F & _). rewrite E in I. apply in_map_iff in I as (d & <- & I). rewrite Forall_forall in F. destruct (digit_plain d (F d I)) as (A & B & _). auto.
Qed.
Lemma dir_base (p : list ascii) : exists dir base, p = dir ++ base /\ (dir = [] \/ exists d, dir = d ++ [slash]) /\ ~ In slash base.
Proof.
  induction p as [|c p (dir & base & -> & D & N)]; [exists [], []; cbn; auto|]. destruct D as [-> |(d & ->)].
  - destruct (ascii_dec c slash) as [->|NC].
    + exists [slash], base. split; [reflexivity|]. split; [right; exists []; reflexivity|exact N].
    + exists [], (c :: base). split; [reflexivity|]. split; [now left|]. cbn. intros [E|I]; [congruence|tauto].
  - exists (c :: d ++ [slash]), base. split; [reflexivity|]. split; [right; exists (c :: d); reflexivity|exact N].
Qed.
(* names are the prefix, more without dots or slashes that ends with _ and digits, and the extension *)
Definition tail_ok (t : list ascii) : Prop := (forall c, In c t -> c <> dot /\ c <> slash) /\ exists a b, t = a ++ "_"%char :: b.
Lemma name_shape prefix ext per_band n ny nx p : In p (save_names prefix ext per_band n ny nx) -> exists t, p = prefix ++ t ++ ext /\ tail_ok t.
Proof.
  unfold save_names. destruct per_band; intros I; apply in_map_iff in I.
  - destruct I as ([[b r] c] & <- & I). apply ndindex3_in in I as (Hb & Hr & Hc). unfold name_band.
    exists (["_"; "b"]%char ++ zpad (width n) b ++ ["_"]%char ++ zpad (width ny) r ++ ["_"]%char ++ zpad (width nx) c). split; [now rewrite <- !app_assoc|]. split.
    + intros x X. rewrite !in_app_iff in X. cbn [In] in X. destruct X as [[<-|[<-|[]]]|[X|[[<-|[]]|[X|[[<-|[]]|X]]]]]; try (split; discriminate); eapply zpad_plain; try exact X; lia.
    + exists (["_"; "b"]%char ++ zpad (width n) b ++ ["_"]%char ++ zpad (width ny) r), (zpad (width nx) c). now rewrite <- !app_assoc.
  - destruct I as ([r c] & <- & I). apply ndindex2_in in I as (Hr & Hc). unfold name_tile.
    exists (["_"]%char ++ zpad (width ny) r ++ ["_"]%char ++ zpad (width nx) c). split; [now rewrite <- !app_assoc|]. split.
    + intros x X. rewrite !in_app_iff in X. cbn [In] in X. destruct X as [[<-|[]]|[X|[[<-|[]]|X]]]; try (split; discriminate); eapply zpad_plain; try exact X; lia.
    + exists (["_"]%char ++ zpad (width ny) r), (zpad (width nx) c). now rewrite <- !app_assoc.
Qed.
Lemma str_unstr p : str (unstr p) = p. Proof. apply list_ascii_of_string_of_list_ascii. Qed.
Lemma unstr_str s : unstr (str s) = s. Proof. apply string_of_list_ascii_of_string. Qed.

Theorem names_ext prefix e per_band n ny nx p : plain_ext e -> In p (save_names prefix (str e) per_band n ny nx) -> get_extension (unstr p) = lower e.
Proof.
  intros (w & -> & ND & NS) I. destruct (name_shape _ _ _ _ _ _ _ I) as (t & -> & T & a & b & ->). unfold get_extension.
  change (list_ascii_of_string (unstr ?x)) with (str (unstr x)). rewrite str_unstr.
  rewrite (splitext_has _ (dot :: str w)).
  - change (dot :: str w) with (str (String dot w)). change (string_of_list_ascii ?x) with (unstr x). now rewrite unstr_str.
  - destruct (dir_base prefix) as (dir & base & -> & D & NB). exists dir, (base ++ a ++ "_"%char :: b), (str w). split; [cbn [str list_ascii_of_string]; now rewrite <- !app_assoc|].
    split; [exact D|]. split.
    { intros X. apply in_app_iff in X as [X|X]; [tauto|]. now apply (T slash X). }
    split; [exact NS|]. split; [exact ND|]. split; [|reflexivity]. exists "_"%char. split; [|discriminate]. apply in_or_app. right. apply in_or_app. right. now left.
Qed.

Lemma app_split {A} (a b c d : list A) : a ++ b = c ++ d -> exists l, (a = c ++ l /\ d = l ++ b) \/ (c = a ++ l /\ b = l ++ d).
Proof.
  revert c. induction a as [|x a IH]; intros c H; [exists c; right; auto|]. destruct c as [|y c].
  - exists (x :: a). left. split; [reflexivity|]. symmetry. exact H.
  - cbn in H. injection H as -> H. destruct (IH c H) as (l & [[-> ->]|[-> ->]]); exists l; [left|right]; auto.
Qed.
Lemma lower_underscore e : In "_"%char e -> In "_"%char (str (lower (unstr e))).
Proof.
  induction e as [|c e IH]; [intros []|]. cbn [unstr string_of_list_ascii lower smap str list_ascii_of_string In]. intros [-> |I]; [left; reflexivity|right; apply IH; exact I].
Qed.
Theorem names_no_ext prefix per_band n ny nx p : In p (save_names prefix [] per_band n ny nx) ->
  no_ext (get_extension (unstr p)) /\ resolve_driver (get_extension (unstr p)) None = None.
Proof.
  intros I. destruct (name_shape _ _ _ _ _ _ _ I) as (t & -> & T & a & b & ->). rewrite app_nil_r. unfold get_extension. change (list_ascii_of_string (unstr ?x)) with (str (unstr x)). rewrite str_unstr.
  set (x := splitext1 _). assert (C : x = [] \/ In "_"%char x).
  { destruct x as [|c0 x0] eqn:E; [now left|]. right. assert (H : has_ext (prefix ++ a ++ "_"%char :: b) (c0 :: x0)) by (apply splitext_ok; split; [exact E|discriminate]).
    destruct H as (dir & stem & rest & EQ & _ & _ & _ & _ & _ & ->). rewrite (app_assoc prefix), (app_assoc dir) in EQ.
    destruct (app_split _ _ _ _ EQ) as (l & [[_ L]|[_ L]]).
    - rewrite L. apply in_or_app. right. now left.
    - exfalso. destruct (T dot) as [T1 _]; [apply in_or_app; right; rewrite L; apply in_or_app; right; now left|now apply T1]. }
  clearbody x. destruct C as [->|C]; [split; [intros H; cbn in H; repeat (destruct H as [H|H]; [discriminate H|]); exact H|reflexivity]|].
  apply lower_underscore in C. change (string_of_list_ascii x) with (unstr x). set (y := lower (unstr x)) in *. clearbody y. split.
  - intros H. cbn in H. repeat (destruct H as [H|H]; [subst y; cbn in C; repeat (destruct C as [C|C]; [discriminate C|]); exact C|]). exact H.
  - unfold resolve_driver. destruct (existsb (String.eqb y) [".tif"%string; ".tiff"%string]) eqn:E; [|reflexivity]. apply existsb_exists in E as (z & Z & E). apply String.eqb_eq in E as ->.
    cbn in Z. repeat (destruct Z as [<-|Z]; [cbn in C; repeat (destruct C as [C|C]; [discriminate C|]); destruct C|]). destruct Z.
Qed.
