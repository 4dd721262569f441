(* The theorems about save_chunks *)
From Coq Require Import QArith Ascii String.
From Verif Require Import Base BaseFacts Scalars Chunks ChunksSpec ChunksProofs Dtypes Raster FocalSpec RasterSpec Reconcile ReconcileSpec Saving SavingSpec SavingProofs.
From Verif Require Import WriteOptions WriteOptionsSpec WriteOptionsProofs SaveChunks SaveChunksSpec SaveChunksProofs.
From Coq Require Import Lia.
Open Scope Z_scope.

Lemma forall2_map {A B C} (g : A -> B) (P : B -> C -> Prop) l r : Forall2 P (map g l) r -> Forall2 (fun a c => P (g a) c) l r.
Proof. revert r. induction l as [|a l IH]; cbn; intros r H; inversion H; subst; constructor; auto. Qed.
Lemma forall2_in {A C} (P Q : A -> C -> Prop) l r : (forall a c, In a l -> P a c -> Q a c) -> Forall2 P l r -> Forall2 Q l r.
Proof. intros I H. induction H; constructor; [apply I; [now left|assumption]|]. apply IHForall2. intros a c X. apply I. now right. Qed.

Section Main.
Variable cast : dtype -> num -> num.
Variable float_dtype : num -> dtype.
Variable reconcile_other : num -> dtype -> num * bool.
Variable gdal_has : dtype -> bool.
Variable gdal_nodata : dtype -> num -> num.
Variable table : list (string * string).
Notation save := (save cast float_dtype reconcile_other gdal_has gdal_nodata).
Notation save_raster := (save_raster cast float_dtype reconcile_other gdal_has gdal_nodata).
Notation save_chunks := (save_chunks cast float_dtype reconcile_other gdal_has gdal_nodata table).

Definition jobs_of (prefix ext : list ascii) (per_band : bool) nb ny nx (chunk : Z -> Z -> Z -> raster) : list (list ascii * res raster) :=
  if per_band
  then map (fun '(b, r, c) => (name_band prefix ext (width nb) (width ny) (width nx) b r c, Ok (chunk b r c))) (ndindex3 nb ny nx)
  else map (fun '(r, c) => (name_tile prefix ext (width ny) (width nx) r c,
         if nb =? 1 then Ok (chunk 0 r c) else stack_bands cast reconcile_other (map (fun b => chunk b r c) (zrange 0 nb)) None None)) (ndindex2 ny nx).
Lemma jobs_names prefix ext per_band nb ny nx chunk : map fst (jobs_of prefix ext per_band nb ny nx chunk) = save_names prefix ext per_band nb ny nx.
Proof. unfold jobs_of, save_names. destruct per_band; rewrite map_map; apply map_ext; [intros [[b r] c]|intros [r c]]; reflexivity. Qed.
Lemma save_chunks_jobs kw prefix per_band ext nb ny nx chunk fs : save_chunks kw prefix per_band ext nb ny nx chunk fs
  = if k_path kw then Err TypeError else foldM (save_file cast float_dtype reconcile_other gdal_has gdal_nodata kw) (jobs_of prefix (str (tile_ext table ext (k_driver kw))) per_band nb ny nx chunk) ([], fs).
Proof. reflexivity. Qed.

Lemma chunks_done kw prefix per_band ext nb ny nx chunk fs out fs' : save_chunks kw prefix per_band ext nb ny nx chunk fs = Ok (out, fs') ->
  let e := str (tile_ext table ext (k_driver kw)) in
  Forall2 (done cast float_dtype reconcile_other gdal_has gdal_nodata kw fs') (jobs_of prefix e per_band nb ny nx chunk) out
  /\ forall p f, ~ In p (save_names prefix e per_band nb ny nx) -> (holds fs' p f <-> holds fs p f).
Proof.
  intros H. cbv zeta. rewrite save_chunks_jobs in H. destruct (k_path kw); [discriminate H|].
  apply fold_done in H; [|rewrite jobs_names; apply save_names_nodup]. rewrite jobs_names in H. destruct H as ((rs & -> & F) & G). split; assumption.
Qed.

Theorem bands_written kw prefix ext e nb ny nx chunk fs out fs' v : file_ext table ext (k_driver kw) e -> asked kw v ->
  save_chunks kw prefix true ext nb ny nx chunk fs = Ok (out, fs') ->
  Forall2 (fun '(b, r, c) o => let path := name_band prefix (str e) (width nb) (width ny) (width nx) b r c in
    exists f, holds fs' path f /\ save (get_extension (unstr path)) (k_driver kw) v None (chunk b r c) = Ok f /\ open_raster cast f = Ok o) (ndindex3 nb ny nx) out
  /\ forall p f, ~ In p (save_names prefix (str e) true nb ny nx) -> (holds fs' p f <-> holds fs p f).
Proof.
  intros FE AV H. apply file_ext_iff in FE. apply asked_null in AV. apply chunks_done in H. cbv zeta in H. rewrite FE in H. destruct H as [H G]. split; [|exact G]. unfold jobs_of in H. apply forall2_map in H.
  eapply forall2_in; [|exact H]. intros [[b r] c] o _ (t & f & T & S & O & HO). cbn [fst snd] in *. injection T as <-. exists f. subst v. auto.
Qed.
Theorem tiles_written kw prefix ext e nb ny nx chunk fs out fs' v : file_ext table ext (k_driver kw) e -> asked kw v ->
  save_chunks kw prefix false ext nb ny nx chunk fs = Ok (out, fs') ->
  Forall2 (fun '(r, c) o => let path := name_tile prefix (str e) (width ny) (width nx) r c in
    exists t f, holds fs' path f /\ (nb = 1 /\ t = chunk 0 r c \/ nb <> 1 /\ stack_bands cast reconcile_other (map (fun b => chunk b r c) (zrange 0 nb)) None None = Ok t)
      /\ save (get_extension (unstr path)) (k_driver kw) v None t = Ok f /\ open_raster cast f = Ok o) (ndindex2 ny nx) out
  /\ forall p f, ~ In p (save_names prefix (str e) false nb ny nx) -> (holds fs' p f <-> holds fs p f).
Proof.
  intros FE AV H. apply file_ext_iff in FE. apply asked_null in AV. apply chunks_done in H. cbv zeta in H. rewrite FE in H. destruct H as [H G]. split; [|exact G]. unfold jobs_of in H. apply forall2_map in H.
  eapply forall2_in; [|exact H]. intros [r c] o _ (t & f & T & S & O & HO). cbn [fst snd] in *. exists t, f. subst v. repeat split; try assumption.
  destruct (Z.eqb_spec nb 1); [left; split; congruence|right; auto].
Qed.

Theorem chunks_refused kw prefix per_band ext nb ny nx chunk fs : k_path kw = true -> save_chunks kw prefix per_band ext nb ny nx chunk fs = Err TypeError.
Proof. intros H. rewrite save_chunks_jobs, H. reflexivity. Qed.

(* when the tile of each place is given *)
Lemma bands_tile nb nc t l : wf nb nc t -> (1 < nb -> r_nv t <> None) -> bands_of t = l -> len l = nb ->
  (if nb =? 1 then match l with x :: _ => Ok x | [] => Err ValueError end else stack_bands cast reconcile_other l None None) = Ok t.
Proof.
  intros W HN <- LL. destruct (Z.eqb_spec nb 1) as [->|N].
  - destruct W as (Hb & _ & [L1 _] & [L2 _] & _). destruct t as [d nv data mask]. unfold bands_of. cbn [r_data r_mask r_dtype r_nv] in *.
    destruct data as [|r0 [|r1 data]]; try discriminate L1; try (exfalso; rewrite !len_cons in L1; pose proof (len_nonneg data); lia).
    destruct mask as [|m0 [|m1 mask]]; try discriminate L2; try (exfalso; rewrite !len_cons in L2; pose proof (len_nonneg mask); lia). reflexivity.
  - assert (L : 1 < nb) by (destruct W as (Hb & _); lia). rewrite (stack_bands_of cast reconcile_other gdal_has gdal_nodata nb nc t W L). specialize (HN L). destruct (r_nv t); [reflexivity|congruence].
Qed.
Lemma job_tile nb nc t (chunk : Z -> raster) : wf nb nc t -> (1 < nb -> r_nv t <> None) -> bands_of t = map chunk (zrange 0 nb) ->
  (if nb =? 1 then Ok (chunk 0) else stack_bands cast reconcile_other (map chunk (zrange 0 nb)) None None) = Ok t.
Proof.
  intros W HN E. rewrite <- (bands_tile nb nc t _ W HN E); [|unfold len, zrange; rewrite !map_length, seq_length; destruct W as (Hb & _); lia].
  destruct (Z.eqb_spec nb 1) as [->|]; reflexivity.
Qed.

Hypothesis HC : casts cast.
Hypothesis HG : gdal_ok cast gdal_nodata.

Lemma kept_saved ext driver nb nc r : no_ext ext -> kept gdal_has ext driver nb nc r -> exists f o, save ext driver None None r = Ok f /\ open_raster cast f = Ok o /\ same_cells nb nc r o.
Proof.
  intros HE (W & B & T & HU & (d & HD & G & HX) & HN & HF).
  destruct (round_trip cast float_dtype reconcile_other gdal_has gdal_nodata HC HG ext driver nb nc r d HE W B T HU HD G HN HX HF) as (r' & E & W' & _ & C).
  unfold Saving.save_raster in E. destruct (save ext driver None None r) as [f|]; [|discriminate E]. cbn [rbind] in E. exists f, r'. split; [reflexivity|]. split; [exact E|]. split; [exact W'|exact C].
Qed.

Theorem bands_kept driver prefix ext e nb ny nx chunk fs (size : Z -> Z -> Z) : file_ext table ext driver e -> plain_ext e -> no_ext (lower e) ->
  (forall b r c, 0 <= b < nb -> 0 <= r < ny -> 0 <= c < nx -> kept gdal_has (lower e) driver 1 (size r c) (chunk b r c)) ->
  exists out fs', save_chunks (Kwargs false None None driver) prefix true ext nb ny nx chunk fs = Ok (out, fs')
  /\ Forall2 (fun '(b, r, c) o => (exists f, holds fs' (name_band prefix (str e) (width nb) (width ny) (width nx) b r c) f /\ open_raster cast f = Ok o)
       /\ same_cells 1 (size r c) (chunk b r c) o) (ndindex3 nb ny nx) out.
Proof.
  intros FE PE NE HK. set (kw := Kwargs false None None driver).
  assert (NX : forall b r c, In (b, r, c) (ndindex3 nb ny nx) -> get_extension (unstr (name_band prefix (str e) (width nb) (width ny) (width nx) b r c)) = lower e).
  { intros b r c I. apply (names_ext prefix e true nb ny nx); [exact PE|]. unfold save_names. apply in_map_iff. exists (b, r, c). auto. }
  destruct (fold_total cast float_dtype reconcile_other gdal_has gdal_nodata kw (jobs_of prefix (str e) true nb ny nx chunk)) with (st := (@nil raster, fs)) as ([out fs'] & E).
  { intros p t0 I. unfold jobs_of in I. apply in_map_iff in I as ([[b r] c] & [= <- <-] & I). rewrite (NX b r c I). apply ndindex3_in in I as (Hb & Hr & Hc).
    destruct (kept_saved (lower e) driver 1 (size r c) (chunk b r c) NE (HK b r c Hb Hr Hc)) as (f & o & S & O & _). exists (chunk b r c), f, o. auto. }
  assert (EC : save_chunks kw prefix true ext nb ny nx chunk fs = Ok (out, fs')) by (rewrite save_chunks_jobs; cbn [k_path kw k_driver]; rewrite (proj1 (file_ext_iff table ext driver e) FE); exact E).
  exists out, fs'. split; [exact EC|]. destruct (bands_written kw prefix ext e nb ny nx chunk fs out fs' None FE eq_refl EC) as [W _].
  eapply forall2_in; [|exact W]. intros [[b r] c] o I (f & HO & S & O). split; [exists f; auto|]. rewrite (NX b r c I) in S. apply ndindex3_in in I as (Hb & Hr & Hc).
  destruct (kept_saved (lower e) driver 1 (size r c) (chunk b r c) NE (HK b r c Hb Hr Hc)) as (f1 & o1 & S1 & O1 & SC). cbn [k_driver kw] in S. congruence.
Qed.

Theorem tiles_kept driver prefix ext e nb ny nx chunk fs (size : Z -> Z -> Z) (tile : Z -> Z -> raster) : file_ext table ext driver e -> plain_ext e -> no_ext (lower e) ->
  (forall r c, 0 <= r < ny -> 0 <= c < nx -> kept gdal_has (lower e) driver nb (size r c) (tile r c) /\ (1 < nb -> r_nv (tile r c) <> None) /\ bands_of (tile r c) = map (fun b => chunk b r c) (zrange 0 nb)) ->
  exists out fs', save_chunks (Kwargs false None None driver) prefix false ext nb ny nx chunk fs = Ok (out, fs')
  /\ Forall2 (fun '(r, c) o => (exists f, holds fs' (name_tile prefix (str e) (width ny) (width nx) r c) f /\ open_raster cast f = Ok o)
       /\ same_cells nb (size r c) (tile r c) o) (ndindex2 ny nx) out.
Proof.
  intros FE PE NE HK. set (kw := Kwargs false None None driver).
  assert (NX : forall r c, In (r, c) (ndindex2 ny nx) -> get_extension (unstr (name_tile prefix (str e) (width ny) (width nx) r c)) = lower e).
  { intros r c I. apply (names_ext prefix e false nb ny nx); [exact PE|]. unfold save_names. apply in_map_iff. exists (r, c). auto. }
  assert (JT : forall r c, 0 <= r < ny -> 0 <= c < nx -> (if nb =? 1 then Ok (chunk 0 r c) else stack_bands cast reconcile_other (map (fun b => chunk b r c) (zrange 0 nb)) None None) = Ok (tile r c)).
  { intros r c Hr Hc. destruct (HK r c Hr Hc) as (K & HN & EB). exact (job_tile nb (size r c) (tile r c) (fun b => chunk b r c) (proj1 K) HN EB). }
  destruct (fold_total cast float_dtype reconcile_other gdal_has gdal_nodata kw (jobs_of prefix (str e) false nb ny nx chunk)) with (st := (@nil raster, fs)) as ([out fs'] & E).
  { intros p t0 I. unfold jobs_of in I. apply in_map_iff in I as ([r c] & [= <- <-] & I). rewrite (NX r c I). apply ndindex2_in in I as (Hr & Hc). rewrite (JT r c Hr Hc).
    destruct (kept_saved (lower e) driver nb (size r c) (tile r c) NE (proj1 (HK r c Hr Hc))) as (f & o & S & O & _). exists (tile r c), f, o. auto. }
  assert (EC : save_chunks kw prefix false ext nb ny nx chunk fs = Ok (out, fs')) by (rewrite save_chunks_jobs; cbn [k_path kw k_driver]; rewrite (proj1 (file_ext_iff table ext driver e) FE); exact E).
  exists out, fs'. split; [exact EC|]. destruct (chunks_done _ _ _ _ _ _ _ _ _ _ _ EC) as [W _]. cbn [kw k_driver] in W. rewrite (proj1 (file_ext_iff table ext driver e) FE) in W. unfold jobs_of in W. apply forall2_map in W.
  eapply forall2_in; [|exact W]. intros [r c] o I (t & f & T & S & O & HO). cbn [fst snd] in *. split; [exists f; auto|]. rewrite (NX r c I) in S. apply ndindex2_in in I as (Hr & Hc). rewrite (JT r c Hr Hc) in T. injection T as <-.
  destruct (kept_saved (lower e) driver nb (size r c) (tile r c) NE (proj1 (HK r c Hr Hc))) as (f1 & o1 & S1 & O1 & SC). cbn [k_driver kw tile_null_value k_null_value k_no_data_value] in S. congruence.
Qed.
End Main.

(* errors are those of one of the tiles *)
Theorem bands_error cast float_dtype reconcile_other gdal_has gdal_nodata table kw prefix ext e nb ny nx chunk fs v x : k_path kw = false -> file_ext table ext (k_driver kw) e -> asked kw v ->
  save_chunks cast float_dtype reconcile_other gdal_has gdal_nodata table kw prefix true ext nb ny nx chunk fs = Err x ->
  exists b r c, (0 <= b < nb /\ 0 <= r < ny /\ 0 <= c < nx)
  /\ save_raster cast float_dtype reconcile_other gdal_has gdal_nodata (get_extension (unstr (name_band prefix (str e) (width nb) (width ny) (width nx) b r c))) (k_driver kw) v None (chunk b r c) = Err x.
Proof.
  intros HP FE AV H. apply file_ext_iff in FE. apply asked_null in AV. subst v. rewrite save_chunks_jobs, HP, FE in H. apply fold_error in H as (p & t0 & I & D).
  unfold jobs_of in I. apply in_map_iff in I as ([[b r] c] & [= <- <-] & I). apply ndindex3_in in I. exists b, r, c. split; [exact I|]. destruct D as [D|(t & [= <-] & S)]; [discriminate D|exact S].
Qed.
Theorem tiles_error cast float_dtype reconcile_other gdal_has gdal_nodata table kw prefix ext e nb ny nx chunk fs v x : k_path kw = false -> file_ext table ext (k_driver kw) e -> asked kw v ->
  save_chunks cast float_dtype reconcile_other gdal_has gdal_nodata table kw prefix false ext nb ny nx chunk fs = Err x ->
  exists r c, (0 <= r < ny /\ 0 <= c < nx)
  /\ let stacked := stack_bands cast reconcile_other (map (fun b => chunk b r c) (zrange 0 nb)) None None in
     (nb <> 1 /\ stacked = Err x
      \/ exists t, (nb = 1 /\ t = chunk 0 r c \/ nb <> 1 /\ stacked = Ok t)
         /\ save_raster cast float_dtype reconcile_other gdal_has gdal_nodata (get_extension (unstr (name_tile prefix (str e) (width ny) (width nx) r c))) (k_driver kw) v None t = Err x).
Proof.
  intros HP FE AV H. apply file_ext_iff in FE. apply asked_null in AV. subst v. rewrite save_chunks_jobs, HP, FE in H. apply fold_error in H as (p & t0 & I & D).
  unfold jobs_of in I. apply in_map_iff in I as ([r c] & [= <- <-] & I). apply ndindex2_in in I. exists r, c. split; [exact I|]. cbv zeta. destruct (Z.eqb_spec nb 1) as [E|E]; destruct D as [D|(t & D & S)].
  - discriminate D.
  - right. exists t. split; [left; split; congruence|exact S].
  - left. auto.
  - right. exists t. auto.
Qed.
