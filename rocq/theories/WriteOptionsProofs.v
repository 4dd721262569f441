(* Proofs about the options of writing. *)
From Coq Require Import Ascii String.
From Verif Require Import Base BaseFacts ChunksProofs RasterStack Grids Saving WriteOptions WriteOptionsSpec.
Open Scope Z_scope.

(* ---------------- dictionaries ---------------- *)
Lemma dget_dput k v d k' : dget (dput k v d) k' = if String.eqb k' k then Some v else dget d k'.
Proof.
  induction d as [|[a b] d IH]; cbn [dput dget]; [reflexivity|]. destruct (String.eqb_spec k a) as [->|N]; cbn [dget].
  - destruct (String.eqb_spec k' a); reflexivity.
  - rewrite IH. destruct (String.eqb_spec k' a) as [->|]; [|reflexivity]. destruct (String.eqb_spec a k); [congruence|reflexivity].
Qed.
Lemma dget_none d k : dget d k = None <-> ~ In k (map fst d).
Proof.
  induction d as [|[a b] d IH]; cbn [dget map fst In]; [tauto|]. destruct (String.eqb_spec k a) as [->|N]; [split; [discriminate|tauto]|]. rewrite IH. intuition congruence.
Qed.
Lemma dget_update d e k : NoDup (map fst e) -> dget (update d e) k = match dget e k with Some v => Some v | None => dget d k end.
Proof.
  unfold update. revert d. induction e as [|[a b] e IH]; intros d H; [reflexivity|]. cbn [fold_left dget]. inversion H as [|x l N ND]; subst. rewrite IH by exact ND. rewrite dget_dput.
  destruct (String.eqb_spec k a) as [->|]; [|reflexivity]. apply dget_none in N. now rewrite N.
Qed.
Lemma dput_keys k v d k' : In k' (map fst (dput k v d)) <-> k' = k \/ In k' (map fst d).
Proof.
  induction d as [|[a b] d IH]; cbn [dput map fst In]; [intuition congruence|]. destruct (String.eqb_spec k a) as [->|N]; cbn [map fst In]; [intuition congruence|]. rewrite IH. intuition congruence.
Qed.

(* ---------------- the translators ---------------- *)
Definition level_names : list string := ["deflate"; "zstd"; "jpeg"]%string.
Definition cog_level_names : list string := ["deflate"; "zstd"; "lzw"; "lerc"; "lerc_deflate"; "lerc_zstd"; "jpeg"]%string.

Lemma compressor_put o d : compressor (put_compress o d) = compression o.
Proof. unfold compressor, put_compress. rewrite dget_dput. reflexivity. Qed.
Definition gtiff_value (o : opts) (k : string) : option value :=
  (if k =? "tiled" then option_map VBool (o_tiled o)
   else if k =? "blockxsize" then match o_blocksize o with Some (BlockInt n) => Some (VInt n) | Some (BlockSeq [h; w]) => Some (VInt w) | _ => None end
   else if k =? "blockysize" then match o_blocksize o with Some (BlockInt n) => Some (VInt n) | Some (BlockSeq [h; w]) => Some (VInt h) | _ => None end
   else if k =? "compress" then Some (VStr (compression o))
   else if k =? "zlevel" then if compression o =? "deflate" then option_map VInt (o_level o) else None
   else if k =? "zstd_level" then if compression o =? "zstd" then option_map VInt (o_level o) else None
   else if k =? "jpeg_quality" then if compression o =? "jpeg" then option_map VInt (o_level o) else None
   else if k =? "predictor" then
     if compression o =? "jpeg" then None
     else match o_predictor o with Some (PredInt z) => Some (VInt z) | Some (PredStr s) => if s =? "horizontal" then Some (VInt 2) else if s =? "float" then Some (VInt 3) else None | None => None end
   else if k =? "bigtiff" then match o_bigtiff o with Some (BigBool b) => Some (VStr (if b then "yes" else "no")) | Some (BigStr s) => Some (VStr (lower s)) | None => None end
   else None)%string.
Lemma gtiff_value_spec o k v : gtiff_value o k = Some v <-> gtiff_option o k v.
Proof.
  split.
  - unfold gtiff_value. intros H.
    repeat match type of H with (if String.eqb k ?s then _ else _) = _ => destruct (String.eqb_spec k s) as [->|_] end; [..|discriminate].
    + destruct (o_tiled o) eqn:E; [|discriminate]. injection H as <-. now constructor.
    + destruct (o_blocksize o) as [[n|[|h [|w [|]]]|]|] eqn:E; try discriminate; injection H as <-; eapply g_width; [exact E|right; split; reflexivity|exact E|left; reflexivity].
    + destruct (o_blocksize o) as [[n|[|h [|w [|]]]|]|] eqn:E; try discriminate; injection H as <-; eapply g_height; [exact E|right; split; reflexivity|exact E|left; reflexivity].
    + injection H as <-. constructor.
    + destruct (String.eqb_spec (compression o) "deflate"); [|discriminate]. destruct (o_level o) eqn:E; [|discriminate]. injection H as <-. now constructor.
    + destruct (String.eqb_spec (compression o) "zstd"); [|discriminate]. destruct (o_level o) eqn:E; [|discriminate]. injection H as <-. now constructor.
    + destruct (String.eqb_spec (compression o) "jpeg"); [|discriminate]. destruct (o_level o) eqn:E; [|discriminate]. injection H as <-. now constructor.
    + destruct (String.eqb_spec (compression o) "jpeg"); [discriminate|]. destruct (o_predictor o) as [[z|s]|] eqn:E; [| |discriminate]; [injection H as <-; now constructor|].
      destruct (String.eqb_spec s "horizontal") as [->|]; [injection H as <-; now constructor|]. destruct (String.eqb_spec s "float") as [->|]; [injection H as <-; now constructor|discriminate].
    + destruct (o_bigtiff o) as [[b|s]|] eqn:E; [| |discriminate]; injection H as <-; now constructor.
  - intros H. destruct H as [b E|bs h w E B|bs h w E B| |l E C|l E C|l E C|z E C|E C|E C|b E|s E]; unfold gtiff_value; cbn [String.eqb Ascii.eqb Bool.eqb]; try rewrite E; try reflexivity.
    + destruct B as [-> |[-> ->]]; reflexivity.
    + destruct B as [-> |[-> ->]]; reflexivity.
    + rewrite C. reflexivity.
    + rewrite C. reflexivity.
    + rewrite C. reflexivity.
    + apply String.eqb_neq in C. rewrite C. reflexivity.
    + apply String.eqb_neq in C. rewrite C. reflexivity.
    + apply String.eqb_neq in C. rewrite C. reflexivity.
Qed.
Lemma put_level_get key o d d' w : put_level key o d = (d', w) -> (forall c k, key c = Some k -> k <> "compress"%string) ->
  compressor d' = compressor d /\ (forall k, dget d' k = match o_level o, key (compressor d) with Some l, Some k' => if String.eqb k k' then Some (VInt l) else dget d k | _, _ => dget d k end)
  /\ w = match o_level o, key (compressor d) with Some _, None => [WLevel] | _, _ => [] end.
Proof.
  unfold put_level. intros H K. destruct (o_level o); [|injection H as <- <-; auto]. destruct (key (compressor d)) as [k'|] eqn:E; injection H as <- <-; [|auto].
  split; [|split; [|reflexivity]].
  - unfold compressor. rewrite dget_dput. destruct (String.eqb_spec "compress" k'); [|reflexivity]. apply K in E. congruence.
  - intros k. apply dget_dput.
Qed.
Lemma put_predictor_get a b o d :
  match put_predictor a b o d with
  | Ok (d', w) => (forall k, dget d' k = match o_predictor o with
        | Some p => if String.eqb (compressor d) "jpeg" then dget d k else if String.eqb k "predictor" then
             match p with PredInt z => Some (VInt z) | PredStr s => if String.eqb s "horizontal" then Some a else Some b end else dget d k
        | None => dget d k end)
      /\ w = (match o_predictor o with Some _ => if String.eqb (compressor d) "jpeg" then [WPredictor] else [] | None => [] end)
      /\ ~ (exists s, o_predictor o = Some (PredStr s) /\ s <> "horizontal"%string /\ s <> "float"%string /\ compressor d <> "jpeg"%string)
  | Err e => e = ValueError /\ exists s, o_predictor o = Some (PredStr s) /\ s <> "horizontal"%string /\ s <> "float"%string /\ compressor d <> "jpeg"%string
  end.
Proof.
  unfold put_predictor. destruct (o_predictor o) as [p|]; [|split; [reflexivity|split; [reflexivity|intros (s & X & _); discriminate]]].
  destruct (String.eqb_spec (compressor d) "jpeg") as [E|E]; [split; [reflexivity|split; [reflexivity|intros (s & _ & _ & _ & X); contradiction]]|].
  destruct p as [z|s].
  - split; [intros k; apply dget_dput|]. split; [reflexivity|]. intros (s & X & _). discriminate.
  - destruct (String.eqb_spec s "horizontal") as [->|N].
    + split; [intros k; apply dget_dput|]. split; [reflexivity|]. intros (s & X & Y & _). congruence.
    + destruct (String.eqb_spec s "float") as [->|N'].
      * split; [intros k; apply dget_dput|]. split; [reflexivity|]. intros (s & X & _ & Y & _). congruence.
      * split; [reflexivity|]. exists s. auto.
Qed.
Lemma put_bigtiff_get o d k : dget (put_bigtiff o d) k = if String.eqb k "bigtiff" then
    match o_bigtiff o with Some (BigBool b) => Some (VStr (if b then "yes" else "no")) | Some (BigStr s) => Some (VStr (lower s)) | None => dget d k end else dget d k.
Proof. unfold put_bigtiff. destruct (o_bigtiff o) as [[b|s]|]; rewrite ?dget_dput; destruct (String.eqb k "bigtiff"); reflexivity. Qed.

Lemma block_first o : match o_blocksize o with
  | None => True
  | Some bs => match (match bs with BlockInt n => Ok (n, n) | BlockSeq l => unpack l | BlockOther => Err TypeError end) with
     | Ok (h, w) => block bs h w | Err e => (e = ValueError \/ e = TypeError) /\ bad_block false o end end.
Proof.
  unfold bad_block. destruct (o_blocksize o) as [[n|l|]|]; [right; auto| | |exact I].
  - destruct l as [|h [|w [|]]]; cbn [unpack]; try (split; [auto|]; eexists; split; [reflexivity|]; intros (h' & w' & [X|[X _]] & _); discriminate). left. reflexivity.
  - split; [auto|]. eexists. split; [reflexivity|]. intros (h & w & [X|[X _]] & _); discriminate.
Qed.
Lemma gtiff_ok o : match gtiff_translate o with
  | Ok (d, w) => (forall k v, dget d k = Some v <-> gtiff_option o k v) /\ ~ bad_block false o /\ ~ bad_predictor o
      /\ (In WLevel w <-> no_level level_names o) /\ (In WPredictor w <-> lost_predictor o) /\ ~ In WFactors w
  | Err e => (bad_block false o \/ bad_predictor o) /\ (e = ValueError \/ e = TypeError)
  end.
Proof.
  unfold gtiff_translate. set (o0 := match o_tiled o with Some b => dput "tiled" (VBool b) [] | None => [] end).
  assert (E0 : forall k, dget o0 k = if String.eqb k "tiled" then option_map VBool (o_tiled o) else None).
  { intros k. unfold o0. destruct (o_tiled o); [apply dget_dput|]. now destruct (String.eqb k "tiled"). }
  assert (BF := block_first o).
  assert (E1 : match (match o_blocksize o with
    | None => Ok o0
    | Some bs => let* '(h, w) := match bs with BlockInt n => Ok (n, n) | BlockSeq l => unpack l | BlockOther => Err TypeError end in Ok (dput "blockysize" (VInt h) (dput "blockxsize" (VInt w) o0)) end) with
    | Ok d => ~ bad_block false o /\ forall k, dget d k = if String.eqb k "blockysize" then gtiff_value o "blockysize" else if String.eqb k "blockxsize" then gtiff_value o "blockxsize" else dget o0 k
    | Err e => bad_block false o /\ (e = ValueError \/ e = TypeError) end).
  { unfold bad_block, gtiff_value in *. cbn [String.eqb Ascii.eqb Bool.eqb]. destruct (o_blocksize o) as [bs|].
    - destruct bs as [n|[|h [|w [|]]]|]; cbn [unpack rbind] in *; try (split; [apply BF|tauto]).
      + split; [|intros k; rewrite !dget_dput; reflexivity]. intros (b & X & Y). injection X as <-. apply Y. exists n, n. split; [exact BF|congruence].
      + split; [|intros k; rewrite !dget_dput; reflexivity]. intros (b & X & Y). injection X as <-. apply Y. exists h, w. split; [exact BF|discriminate].
    - split; [intros (b & X & _); discriminate|]. intros k. rewrite E0. destruct (String.eqb_spec k "blockysize") as [->|]; [reflexivity|]. destruct (String.eqb_spec k "blockxsize") as [->|]; reflexivity. }
  destruct (match o_blocksize o with None => Ok o0 | Some bs => _ end) as [o1|e] eqn:EB in E1 |- *; [|cbn [rbind]; tauto]. cbn [rbind]. destruct E1 as [NB E1].
  destruct (put_level gtiff_level o (put_compress o o1)) as [o2 w1] eqn:E2.
  apply put_level_get in E2 as (C2 & G2 & W2).
  2:{ intros c k. unfold gtiff_level. repeat destruct (String.eqb c _); intros X; congruence || (injection X as <-; discriminate). }
  rewrite compressor_put in C2, G2, W2. pose proof (put_predictor_get (VInt 2) (VInt 3) o o2) as P. rewrite C2 in P.
  destruct (put_predictor (VInt 2) (VInt 3) o o2) as [[o3 w2]|e]; cbn [rbind]; [|destruct P as [-> P]; split; [right; exact P|auto]].
  destruct P as (G3 & W3 & NP). split; [|split; [exact NB|split; [exact NP|]]].
  - intros k v. rewrite <- gtiff_value_spec. cut (dget (put_bigtiff o o3) k = gtiff_value o k); [intros ->; tauto|].
    assert (NP' : forall s, o_predictor o = Some (PredStr s) -> (s =? "horizontal")%string = false -> (compression o =? "jpeg")%string = false -> (s =? "float")%string = true).
    { intros s X Y Z. apply String.eqb_neq in Y, Z. destruct (String.eqb_spec s "float"); [reflexivity|]. exfalso. apply NP. eauto 6. }
    rewrite put_bigtiff_get, G3, G2. unfold put_compress. rewrite dget_dput, E1, E0. fold (compression o). unfold gtiff_value, gtiff_level. cbn [String.eqb Ascii.eqb Bool.eqb].
    destruct (String.eqb_spec k "tiled") as [->|N1]; [cbn [String.eqb Ascii.eqb Bool.eqb]; destruct (o_predictor o), (o_level o), (compression o =? "jpeg")%string, (compression o =? "zstd")%string, (compression o =? "deflate")%string; reflexivity|].
    destruct (String.eqb_spec k "blockxsize") as [->|N2]; [cbn [String.eqb Ascii.eqb Bool.eqb]; destruct (o_predictor o), (o_level o), (compression o =? "jpeg")%string, (compression o =? "zstd")%string, (compression o =? "deflate")%string; reflexivity|].
    destruct (String.eqb_spec k "blockysize") as [->|N3]; [cbn [String.eqb Ascii.eqb Bool.eqb]; destruct (o_predictor o), (o_level o), (compression o =? "jpeg")%string, (compression o =? "zstd")%string, (compression o =? "deflate")%string; reflexivity|].
    destruct (String.eqb_spec k "compress") as [->|N4]; [cbn [String.eqb Ascii.eqb Bool.eqb]; destruct (o_predictor o), (o_level o), (compression o =? "jpeg")%string, (compression o =? "zstd")%string, (compression o =? "deflate")%string; reflexivity|].
    destruct (String.eqb_spec k "predictor") as [->|N5].
    { cbn [String.eqb Ascii.eqb Bool.eqb]. destruct (o_predictor o) as [[z|s]|] eqn:EP; [| |destruct (o_level o), (compression o =? "jpeg")%string, (compression o =? "zstd")%string, (compression o =? "deflate")%string; reflexivity].
      - destruct (compression o =? "jpeg")%string eqn:J; [|reflexivity]. apply String.eqb_eq in J. rewrite J. now destruct (o_level o).
      - specialize (NP' s eq_refl). destruct (compression o =? "jpeg")%string eqn:J; [apply String.eqb_eq in J; rewrite J; now destruct (o_level o)|]. destruct (s =? "horizontal")%string eqn:SH; [reflexivity|]. now rewrite (NP' eq_refl eq_refl). }
    assert (LV : forall x, (match o_predictor o with Some p => if (compression o =? "jpeg")%string then x else x | None => x end : option value) = x) by (intros x; destruct (o_predictor o), (compression o =? "jpeg")%string; reflexivity).
    rewrite LV. destruct (String.eqb_spec k "bigtiff") as [->|N6].
    { cbn [String.eqb Ascii.eqb Bool.eqb]. destruct (o_bigtiff o) as [[]|]; try reflexivity. destruct (o_level o), (compression o =? "jpeg")%string, (compression o =? "zstd")%string, (compression o =? "deflate")%string; reflexivity. }
    destruct (o_level o) as [l|]; [|repeat match goal with |- context [if ?b then _ else _] => destruct b end; reflexivity].
    destruct (String.eqb_spec (compression o) "deflate") as [D|D]; [rewrite D; cbn [String.eqb Ascii.eqb Bool.eqb]; repeat match goal with |- context [if ?b then _ else _] => destruct b end; reflexivity|].
    destruct (String.eqb_spec (compression o) "zstd") as [D2|D2]; [rewrite D2; cbn [String.eqb Ascii.eqb Bool.eqb]; destruct (String.eqb_spec k "zlevel") as [->|]; [reflexivity|]; repeat match goal with |- context [if ?b then _ else _] => destruct b end; reflexivity|].
    destruct (String.eqb_spec (compression o) "jpeg") as [D3|D3]; [destruct (String.eqb_spec k "zlevel") as [->|]; [reflexivity|]; destruct (String.eqb_spec k "zstd_level") as [->|]; reflexivity|].
    repeat match goal with |- context [if ?b then _ else _] => destruct b end; reflexivity.
  - subst w1 w2. unfold no_level, lost_predictor, level_names, gtiff_level. cbn [In].
    destruct (String.eqb_spec (compression o) "deflate") as [D|D]; [|destruct (String.eqb_spec (compression o) "zstd") as [D2|D2]; [|destruct (String.eqb_spec (compression o) "jpeg") as [D3|D3]]]; destruct (o_level o) as [l|], (o_predictor o) as [p|];
    cbn [app In]; rewrite ?D, ?D2; cbn [String.eqb Ascii.eqb Bool.eqb app In]; intuition congruence.
Qed.

Definition cog_value (o : opts) (k : string) : option value :=
  (if k =? "blocksize" then match o_blocksize o with Some (BlockInt n) => Some (VInt n) | Some (BlockSeq [h; w]) => if Z.eqb h w then Some (VInt h) else None | _ => None end
   else if k =? "compress" then Some (VStr (compression o))
   else if k =? "level" then if existsb (String.eqb (compression o)) ["deflate"; "zstd"; "lzw"; "lerc"; "lerc_deflate"; "lerc_zstd"] then option_map VInt (o_level o) else None
   else if k =? "quality" then if compression o =? "jpeg" then option_map VInt (o_level o) else None
   else if k =? "predictor" then
     if compression o =? "jpeg" then None
     else match o_predictor o with Some (PredInt z) => Some (VInt z)
       | Some (PredStr s) => if s =? "horizontal" then Some (VStr "STANDARD") else if s =? "float" then Some (VStr "FLOATING_POINT") else None | None => None end
   else if k =? "bigtiff" then match o_bigtiff o with Some (BigBool b) => Some (VStr (if b then "yes" else "no")) | Some (BigStr s) => Some (VStr (lower s)) | None => None end
   else if k =? "overviews" then Some (VStr (match o_overviews o with OvNone | OvFlag false => "none" | _ => "auto" end))
   else if k =? "overview_resampling" then match o_resampling o with Some s => Some (VStr (lower s)) | None => None end
   else None)%string.
Lemma existsb_in x l : existsb (String.eqb x) l = true <-> In x l.
Proof. rewrite existsb_exists. split; [intros (y & I & E); apply String.eqb_eq in E; now subst|]. intros I. exists x. split; [exact I|apply String.eqb_refl]. Qed.
Lemma cog_value_spec o k v : cog_value o k = Some v <-> cog_option o k v.
Proof.
  split.
  - unfold cog_value. intros H.
    repeat match type of H with (if String.eqb k ?s then _ else _) = _ => destruct (String.eqb_spec k s) as [->|_] end; [..|discriminate].
    + destruct (o_blocksize o) as [[n|[|h [|w [|]]]|]|] eqn:E; try discriminate; [|destruct (Z.eqb_spec h w) as [<-|]; [|discriminate]]; injection H as <-; eapply c_size; [exact E|right; split; reflexivity|exact E|left; reflexivity].
    + injection H as <-. constructor.
    + destruct (existsb _ _) eqn:X in H; [|discriminate]. apply existsb_in in X. destruct (o_level o) eqn:E; [|discriminate]. injection H as <-. now constructor.
    + destruct (String.eqb_spec (compression o) "jpeg"); [|discriminate]. destruct (o_level o) eqn:E; [|discriminate]. injection H as <-. now constructor.
    + destruct (String.eqb_spec (compression o) "jpeg"); [discriminate|]. destruct (o_predictor o) as [[z|s]|] eqn:E; [| |discriminate]; [injection H as <-; now constructor|].
      destruct (String.eqb_spec s "horizontal") as [->|]; [injection H as <-; now constructor|]. destruct (String.eqb_spec s "float") as [->|]; [injection H as <-; now constructor|discriminate].
    + destruct (o_bigtiff o) as [[b|s]|] eqn:E; [| |discriminate]; injection H as <-; now constructor.
    + injection H as <-. destruct (o_overviews o) as [|[]|l] eqn:E; constructor; unfold no_overviews; rewrite E; auto; intros [X|X]; discriminate.
    + destruct (o_resampling o) eqn:E; [|discriminate]. injection H as <-. now constructor.
  - intros H. destruct H as [bs h E B| |l E C|l E C|z E C|E C|E C|b E|s E|E|E|s E]; unfold cog_value; cbn [String.eqb Ascii.eqb Bool.eqb]; try rewrite E; try reflexivity.
    + destruct B as [-> |[-> _]]; [now rewrite Z.eqb_refl|reflexivity].
    + apply existsb_in in C. rewrite C. reflexivity.
    + rewrite C. reflexivity.
    + apply String.eqb_neq in C. rewrite C. reflexivity.
    + apply String.eqb_neq in C. rewrite C. reflexivity.
    + apply String.eqb_neq in C. rewrite C. reflexivity.
    + destruct E as [-> | ->]; reflexivity.
    + unfold no_overviews in E. destruct (o_overviews o) as [|[]|l]; try reflexivity; exfalso; apply E; auto.
Qed.
Lemma cog_ok o : match cog_translate o with
  | Ok (d, w) => (forall k v, dget d k = Some v <-> cog_option o k v) /\ ~ bad_block true o /\ ~ bad_predictor o
      /\ (In WLevel w <-> no_level cog_level_names o) /\ (In WPredictor w <-> lost_predictor o) /\ (In WFactors w <-> exists l, o_overviews o = OvFactors l)
  | Err e => (bad_block true o \/ bad_predictor o) /\ (e = ValueError \/ e = TypeError)
  end.
Proof.
  unfold cog_translate. cbv zeta.
  assert (E1 : match (match o_blocksize o with
    | None => Ok []
    | Some (BlockInt n) => Ok (dput "blocksize" (VInt n) [])
    | Some (BlockSeq l) => let* '(h, w) := unpack l in if negb (h =? w) then Err ValueError else Ok (dput "blocksize" (VInt h) [])
    | Some BlockOther => Err TypeError end) with
    | Ok d => ~ bad_block true o /\ forall k, dget d k = if String.eqb k "blocksize" then cog_value o "blocksize" else None
    | Err e => bad_block true o /\ (e = ValueError \/ e = TypeError) end).
  { unfold bad_block, cog_value in *. cbn [String.eqb Ascii.eqb Bool.eqb]. destruct (o_blocksize o) as [bs|].
    - destruct bs as [n|[|h [|w [|]]]|]; cbn [unpack rbind]; try (split; [|auto]; eexists; split; [reflexivity|]; intros (h' & w' & [X|[X _]] & _); discriminate).
      + split; [|intros k; rewrite dget_dput; reflexivity]. intros (b & X & Y). injection X as <-. apply Y. exists n, n. split; [right; auto|reflexivity].
      + destruct (Z.eqb_spec h w) as [<-|N]; cbn [negb].
        * split; [|intros k; rewrite dget_dput; reflexivity]. intros (b & X & Y). injection X as <-. apply Y. exists h, h. split; [left; reflexivity|reflexivity].
        * split; [|auto]. eexists. split; [reflexivity|]. intros (h' & w' & [X|[X _]] & Y); [|discriminate]. injection X as -> ->. now apply N, Y.
    - split; [intros (b & X & _); discriminate|]. intros k. now destruct (String.eqb k "blocksize"). }
  match type of E1 with match ?x with _ => _ end => destruct x as [o1|e] end; [|cbn [rbind]; tauto]. cbn [rbind]. destruct E1 as [NB E1].
  destruct (put_level cog_level o (put_compress o o1)) as [o2 w1] eqn:E2.
  apply put_level_get in E2 as (C2 & G2 & W2).
  2:{ intros c k. unfold cog_level. destruct (existsb _ _); [|destruct (String.eqb c _)]; intros X; congruence || (injection X as <-; discriminate). }
  rewrite compressor_put in C2, G2, W2. pose proof (put_predictor_get (VStr "STANDARD") (VStr "FLOATING_POINT") o o2) as P. rewrite C2 in P.
  destruct (put_predictor (VStr "STANDARD") (VStr "FLOATING_POINT") o o2) as [[o3 w2]|e]; cbn [rbind]; [|destruct P as [-> P]; split; [right; exact P|auto]].
  destruct P as (G3 & W3 & NP).
  set (ov := match o_overviews o with OvNone | OvFlag false => (dput "overviews" (VStr "none") (put_bigtiff o o3), []) | OvFlag true => (dput "overviews" (VStr "auto") (put_bigtiff o o3), []) | OvFactors _ => (dput "overviews" (VStr "auto") (put_bigtiff o o3), [WFactors]) end).
  assert (G4 : forall k, dget (fst ov) k = if String.eqb k "overviews" then cog_value o "overviews" else dget (put_bigtiff o o3) k).
  { intros k. unfold ov, cog_value. cbn [String.eqb Ascii.eqb Bool.eqb]. destruct (o_overviews o) as [|[]|]; apply dget_dput. }
  assert (W4 : snd ov = match o_overviews o with OvFactors _ => [WFactors] | _ => [] end) by (unfold ov; destruct (o_overviews o) as [|[]|]; reflexivity).
  destruct ov as [o4 w3]. cbn [fst snd] in G4, W4.
  split; [|split; [exact NB|split; [exact NP|]]].
  - intros k v. rewrite <- cog_value_spec.
    cut (dget (match o_resampling o with Some s => dput "overview_resampling" (VStr (lower s)) o4 | None => o4 end) k = cog_value o k); [intros ->; tauto|].
    assert (NP' : forall s, o_predictor o = Some (PredStr s) -> (s =? "horizontal")%string = false -> (compression o =? "jpeg")%string = false -> (s =? "float")%string = true).
    { intros s X Y Z. apply String.eqb_neq in Y, Z. destruct (String.eqb_spec s "float"); [reflexivity|]. exfalso. apply NP. eauto 6. }
    assert (G5 : dget (match o_resampling o with Some s => dput "overview_resampling" (VStr (lower s)) o4 | None => o4 end) k
      = if String.eqb k "overview_resampling" then match o_resampling o with Some s => Some (VStr (lower s)) | None => dget o4 k end else dget o4 k).
    { destruct (o_resampling o); [apply dget_dput|]. now destruct (String.eqb k _). }
    rewrite G5, G4, put_bigtiff_get, G3, G2. unfold put_compress. rewrite dget_dput, E1. fold (compression o). unfold cog_value, cog_level. cbn [String.eqb Ascii.eqb Bool.eqb].
    set (lv := existsb _ _). assert (JL : (compression o =? "jpeg")%string = true -> lv = false). { intros J. apply String.eqb_eq in J. unfold lv. rewrite J. reflexivity. } clearbody lv.
    set (J := (compression o =? "jpeg")%string) in *. clearbody J.
    destruct (String.eqb_spec k "blocksize") as [->|N1]; [cbn [String.eqb Ascii.eqb Bool.eqb]; destruct (o_predictor o), (o_level o), J, lv; reflexivity|].
    destruct (String.eqb_spec k "compress") as [->|N4]; [cbn [String.eqb Ascii.eqb Bool.eqb]; destruct (o_predictor o), (o_level o), J, lv; reflexivity|].
    destruct (String.eqb_spec k "predictor") as [->|N5].
    { cbn [String.eqb Ascii.eqb Bool.eqb]. destruct (o_predictor o) as [[z|s]|] eqn:EP; [| |destruct (o_level o), J, lv; reflexivity].
      - destruct J; [|reflexivity]. destruct (o_level o), lv; reflexivity.
      - specialize (NP' s eq_refl). destruct J; [destruct (o_level o), lv; reflexivity|]. destruct (s =? "horizontal")%string eqn:SH; [reflexivity|]. now rewrite (NP' eq_refl eq_refl). }
    assert (LV : forall x, (match o_predictor o with Some p => if J then x else x | None => x end : option value) = x) by (intros x; destruct (o_predictor o), J; reflexivity).
    rewrite LV. destruct (String.eqb_spec k "bigtiff") as [->|N6].
    { cbn [String.eqb Ascii.eqb Bool.eqb]. destruct (o_bigtiff o) as [[]|]; try reflexivity. destruct (o_level o), J, lv; reflexivity. }
    destruct (String.eqb_spec k "overviews") as [->|N7]; [reflexivity|].
    destruct (String.eqb_spec k "overview_resampling") as [->|N8]; [cbn [String.eqb Ascii.eqb Bool.eqb]; destruct (o_resampling o), (o_level o), J, lv; reflexivity|].
    destruct (String.eqb_spec k "level") as [->|N9]; [cbn [String.eqb Ascii.eqb Bool.eqb]; destruct (o_level o), J, lv; reflexivity|].
    destruct (String.eqb_spec k "quality") as [->|N10]; [|apply String.eqb_neq in N9, N10; destruct (o_level o), J, lv; rewrite ?N9, ?N10; reflexivity].
    cbn [String.eqb Ascii.eqb Bool.eqb]. destruct J; [rewrite (JL eq_refl)|destruct lv]; now destruct (o_level o).
  - subst w1 w2 w3. unfold no_level, lost_predictor, cog_level. assert (IN : In (compression o) cog_level_names <-> existsb (String.eqb (compression o)) ["deflate"; "zstd"; "lzw"; "lerc"; "lerc_deflate"; "lerc_zstd"]%string = true \/ compression o = "jpeg"%string).
    { rewrite existsb_in. unfold cog_level_names. cbn [In]. intuition congruence. }
    rewrite IN. clear IN. assert (OF : (exists l, o_overviews o = OvFactors l) <-> In WFactors (match o_overviews o with OvFactors _ => [WFactors] | _ => [] end)).
    { destruct (o_overviews o) as [|b|l]; cbn [In]; [split; [intros [l X]; discriminate|tauto]|split; [intros [l X]; discriminate|tauto]|split; [auto|eauto]]. } rewrite OF. clear OF.
    assert (JL : compression o = "jpeg"%string -> existsb (String.eqb (compression o)) ["deflate"; "zstd"; "lzw"; "lerc"; "lerc_deflate"; "lerc_zstd"]%string = false) by (intros ->; reflexivity).
    set (lv := existsb _ _) in *. clearbody lv. rewrite !in_app_iff.
    destruct (String.eqb_spec (compression o) "jpeg") as [D3|D3]; [specialize (JL D3)|]; destruct lv; try discriminate; destruct (o_level o) as [l|], (o_predictor o) as [p|], (o_overviews o) as [|b|fl]; cbn [In]; intuition congruence.
Qed.

(* ---------------- extensions ---------------- *)
Lemma lower_char c : is_lower_of c (shift 65 90 32 c).
Proof.
  unfold is_lower_of, shift. pose proof (nat_ascii_bounded c) as B. set (n := nat_of_ascii c) in *. destruct ((65 <=? Z.of_nat n) && (Z.of_nat n <=? 90)) eqn:E.
  - left. apply andb_prop in E as [E1 E2]. apply Z.leb_le in E1, E2. split; [lia|]. rewrite nat_ascii_embedding by lia. lia.
  - right. split; [|reflexivity]. intros H. apply andb_false_iff in E as [E|E]; apply Z.leb_gt in E; lia.
Qed.
Lemma lower_chars s : Forall2 is_lower_of (list_ascii_of_string s) (list_ascii_of_string (lower s)).
Proof. induction s as [|c s IH]; [constructor|]. cbn [list_ascii_of_string lower smap]. constructor; [apply lower_char|exact IH]. Qed.

Lemma rfind_state c l : snd (fold_left (fun '(found, i) x => (if Ascii.eqb x c then i else found, i + 1)) l (-1, 0)) = len l.
Proof.
  induction l as [|x l IH] using rev_ind; [reflexivity|]. rewrite fold_left_app, len_app. cbn [fold_left]. destruct (fold_left _ l _) as [f i] eqn:E. cbn [snd] in IH. cbn [snd]. subst i. reflexivity.
Qed.
Lemma rfind_snoc c l x : rfind c (l ++ [x]) = if Ascii.eqb x c then len l else rfind c l.
Proof.
  unfold rfind. rewrite fold_left_app. cbn [fold_left]. pose proof (rfind_state c l) as S. destruct (fold_left _ l _) as [f i]. cbn [snd] in S. subst i. cbn [fst]. reflexivity.
Qed.
Lemma rfind_none c l : ~ In c l -> rfind c l = -1.
Proof.
  induction l as [|x l IH] using rev_ind; [reflexivity|]. rewrite in_app_iff. cbn [In]. intros H. rewrite rfind_snoc. destruct (Ascii.eqb_spec x c); [subst; tauto|]. apply IH. tauto.
Qed.
Lemma rfind_at c a b : ~ In c b -> rfind c (a ++ c :: b) = len a.
Proof.
  induction b as [|x b IH] using rev_ind; intros H; [rewrite rfind_snoc, Ascii.eqb_refl; reflexivity|]. rewrite in_app_iff in H. cbn [In] in H.
  change (a ++ c :: b ++ [x]) with (a ++ (c :: b) ++ [x]). rewrite app_assoc, rfind_snoc. destruct (Ascii.eqb_spec x c); [subst; tauto|]. apply IH. tauto.
Qed.
Lemma last_split (c : ascii) l : ~ In c l \/ exists a b, l = a ++ c :: b /\ ~ In c b.
Proof.
  induction l as [|x l IH] using rev_ind; [left; tauto|]. destruct (ascii_dec x c) as [->|N]; [right; exists l, []; split; [reflexivity|tauto]|].
  destruct IH as [IH|(a & b & -> & NB)].
  - left. rewrite in_app_iff. cbn [In]. tauto.
  - right. exists a, (b ++ [x]). split; [now rewrite <- app_assoc|]. rewrite in_app_iff. cbn [In]. tauto.
Qed.
Lemma slice_mid {A} (x y z : list A) : slice (x ++ y ++ z) (len x) (len x + len y) = y.
Proof.
  unfold slice, len. replace (Z.to_nat (Z.of_nat (Datatypes.length x) + Z.of_nat (Datatypes.length y) - Z.of_nat (Datatypes.length x))) with (Datatypes.length y) by lia. rewrite Nat2Z.id.
  rewrite skipn_app, skipn_all, Nat.sub_diag. cbn [skipn app]. rewrite firstn_app, firstn_all, Nat.sub_diag. cbn [firstn]. apply app_nil_r.
Qed.
Lemma slice_end {A} (x y : list A) n : n = len x + len y -> slice (x ++ y) (len x) n = y.
Proof. intros ->. pose proof (slice_mid x y []) as H. now rewrite app_nil_r in H. Qed.
Lemma splitext_has p e : has_ext p e -> splitext1 p = e.
Proof.
  intros (dir & stem & rest & -> & D & NS & NR & ND & (c & IC & NC) & ->). unfold splitext1.
  assert (ED : rfind dot (dir ++ stem ++ dot :: rest) = len dir + len stem) by (rewrite app_assoc, rfind_at by exact ND; apply len_app).
  assert (ES : rfind slash (dir ++ stem ++ dot :: rest) + 1 = len dir).
  { assert (NT : ~ In slash (stem ++ dot :: rest)) by (rewrite in_app_iff; cbn [In]; intros [X|[X|X]]; [tauto|discriminate|tauto]).
    destruct D as [-> |[d ->]]; [cbn [app]; rewrite rfind_none by exact NT; reflexivity|]. rewrite <- app_assoc. cbn [app]. rewrite rfind_at by exact NT. rewrite len_app. reflexivity. }
  pose proof (len_nonneg stem). rewrite ED. rewrite ES. replace (rfind slash _ <? _) with true by (symmetry; apply Z.ltb_lt; lia). cbn [andb].
  rewrite slice_mid. replace (existsb _ stem) with true by (symmetry; apply existsb_exists; exists c; split; [exact IC|]; now destruct (Ascii.eqb_spec c dot)).
  rewrite app_assoc. rewrite <- len_app. rewrite slice_end; [reflexivity|]. apply len_app.
Qed.
Lemma has_splitext p e : splitext1 p = e -> e <> [] -> has_ext p e.
Proof.
  intros E NE. unfold splitext1 in E. destruct ((rfind slash p <? rfind dot p) && _) eqn:C in E; [|congruence]. apply andb_prop in C as [LT EX].
  destruct (last_split dot p) as [N|(a & rest & EP & ND)]; [rewrite (rfind_none dot p N) in LT|].
  - exfalso. apply Z.ltb_lt in LT. destruct (last_split slash p) as [N'|(a & b & EP & NB)]; [rewrite (rfind_none _ _ N') in LT; lia|]. rewrite EP, rfind_at in LT by exact NB. pose proof (len_nonneg a). lia.
  - subst p. rewrite (rfind_at dot a rest ND) in *. rewrite slice_end in E by apply len_app. subst e. apply Z.ltb_lt in LT.
    assert (NSR : ~ In slash rest).
    { intros I. apply in_split in I as (r1 & r2 & ->). destruct (last_split slash (slash :: r2)) as [N|(x & y & EQ & NY)]; [apply N; left; reflexivity|].
      assert (RW : a ++ dot :: r1 ++ slash :: r2 = (a ++ dot :: r1 ++ x) ++ slash :: y) by (rewrite EQ, <- app_assoc; cbn [app]; now rewrite <- app_assoc). rewrite RW in LT.
      rewrite (rfind_at slash _ y NY) in LT. rewrite len_app in LT. pose proof (len_nonneg (dot :: r1 ++ x)). lia. }
    destruct (last_split slash a) as [N|(d & stem & -> & NS)].
    + rewrite rfind_none in EX by (rewrite in_app_iff; cbn [In]; intros [X|[X|X]]; [tauto|discriminate|tauto]). pose proof (slice_mid [] a (dot :: rest)) as SM. cbn [app] in SM. change (len (@nil ascii)) with 0 in SM. change (-1 + 1) with 0 in EX. rewrite Z.add_0_l in SM. rewrite SM in EX.
      exists [], a, rest. split; [reflexivity|]. split; [auto|]. split; [exact N|]. split; [exact NSR|]. split; [exact ND|]. split; [|reflexivity]. apply existsb_exists in EX as (c & I & NC). exists c. split; [exact I|]. intros ->. now rewrite Ascii.eqb_refl in NC.
    + rewrite <- app_assoc in EX. cbn [app] in EX. rewrite rfind_at in EX by (rewrite in_app_iff; cbn [In]; intros [X|[X|X]]; [tauto|discriminate|tauto]).
      replace (d ++ slash :: stem ++ dot :: rest) with ((d ++ [slash]) ++ stem ++ dot :: rest) in EX by (rewrite <- app_assoc; reflexivity).
      replace (len d + 1) with (len (d ++ [slash])) in EX by (rewrite len_app; reflexivity).
      assert (LE : len (d ++ slash :: stem) = len (d ++ [slash]) + len stem). { change (slash :: stem) with ([slash] ++ stem). rewrite app_assoc. apply len_app. }
      rewrite LE, slice_mid in EX.
      exists (d ++ [slash]), stem, rest. split; [rewrite <- !app_assoc; reflexivity|]. split; [right; eauto|]. split; [exact NS|]. split; [exact NSR|]. split; [exact ND|]. split; [|reflexivity]. apply existsb_exists in EX as (c & I & NC). exists c. split; [exact I|]. intros ->. now rewrite Ascii.eqb_refl in NC.
Qed.
Lemma splitext_ok p e : has_ext p e <-> splitext1 p = e /\ e <> [].
Proof.
  split; [|intros [E N]; now apply has_splitext]. intros H. split; [now apply splitext_has|]. destruct H as (dir & stem & rest & _ & _ & _ & _ & _ & _ & ->). discriminate.
Qed.

(* ---------------- options of each driver ---------------- *)
Lemma creation_gtiff is_bool o kw : NoDup (map fst kw) -> match creation_opts (Some "GTiff"%string) is_bool o kw with
  | Ok (d, _) => forall k v, dget d k = Some v <-> dget kw k = Some v \/ (dget kw k = None /\ (gtiff_option o k v \/ (is_bool = true /\ k = "nbits"%string /\ v = VInt 1)))
  | Err e => (bad_block false o \/ bad_predictor o) /\ (e = ValueError \/ e = TypeError) end.
Proof.
  intros ND. unfold creation_opts. cbn [String.eqb Ascii.eqb Bool.eqb]. pose proof (gtiff_ok o) as G. destruct (gtiff_translate o) as [[d w]|e]; cbn [rbind]; [|exact G]. destruct G as (G & _).
  intros k v. rewrite dget_update by exact ND. destruct (dget kw k) as [x|]; [split; [auto|intros [H|[H _]]; [exact H|discriminate]]|].
  assert (NB : forall v, ~ gtiff_option o "nbits" v) by (intros x X; inversion X).
  destruct is_bool.
  - rewrite dget_dput. destruct (String.eqb_spec k "nbits") as [->|N].
    + split; [intros H; injection H as <-; auto 6|]. intros [H|[_ [H|(_ & _ & ->)]]]; [discriminate|now apply NB in H|reflexivity].
    + rewrite G. intuition (congruence || discriminate).
  - rewrite G. intuition (congruence || discriminate).
Qed.
Lemma creation_cog is_bool o kw : NoDup (map fst kw) -> match creation_opts (Some "COG"%string) is_bool o kw with
  | Ok (d, _) => forall k v, dget d k = Some v <-> dget kw k = Some v \/ (dget kw k = None /\ cog_option o k v)
  | Err e => (bad_block true o \/ bad_predictor o) /\ (e = ValueError \/ e = TypeError) end.
Proof.
  intros ND. unfold creation_opts. cbn [String.eqb Ascii.eqb Bool.eqb]. pose proof (cog_ok o) as G. destruct (cog_translate o) as [[d w]|e]; cbn [rbind]; [|exact G]. destruct G as (G & _).
  intros k v. rewrite dget_update by exact ND. destruct (dget kw k) as [x|]; [split; [auto|intros [H|[H _]]; [exact H|discriminate]]|]. rewrite G. intuition (congruence || discriminate).
Qed.
Lemma update_nil kw : NoDup (map fst kw) -> update [] kw = kw.
Proof.
  intros ND. unfold update. assert (H : forall e d, NoDup (map fst (d ++ e)) -> fold_left (fun d '(k, v) => dput k v d) e d = d ++ e).
  { induction e as [|[k v] e IH]; intros d H; [symmetry; apply app_nil_r|]. cbn [fold_left]. assert (E : dput k v d = d ++ [(k, v)]).
    { rewrite map_app in H. cbn [map fst] in H. apply NoDup_remove_2 in H. rewrite in_app_iff in H. assert (N : ~ In k (map fst d)) by tauto. clear - N.
      induction d as [|[a b] d IH]; [reflexivity|]. cbn [dput map fst In app] in *. destruct (String.eqb_spec k a) as [->|]; [tauto|]. rewrite IH by tauto. reflexivity. }
    rewrite E, IH by (rewrite <- app_assoc; exact H). now rewrite <- app_assoc. }
  apply (H kw []). exact ND.
Qed.
Lemma creation_other driver is_bool o kw : driver <> Some "GTiff"%string -> driver <> Some "COG"%string -> NoDup (map fst kw) -> creation_opts driver is_bool o kw = Ok (kw, []).
Proof.
  intros N1 N2 ND. unfold creation_opts. destruct driver as [d|]; [|cbn [rbind]; now rewrite update_nil].
  destruct (String.eqb_spec d "GTiff"); [congruence|]. destruct (String.eqb_spec d "COG"); [congruence|]. cbn [rbind]. now rewrite update_nil.
Qed.

(* ---------------- files ---------------- *)
Section Files.
Variable raises : op -> option err.
Variable names : string -> bool.
Variable temp : string -> string.
Lemma write_cog path driver o_ops out : write_file raises temp path driver (Some "COG"%string) out = o_ops ->
  let tmp := temp path in
  (exists e, raises (MakeTemp tmp) = Some e /\ o_ops = ([MakeTemp tmp], Err e))
  \/ (exists e, raises (MakeTemp tmp) = None /\ raises (ToRaster tmp None []) = Some e /\ fst o_ops = [MakeTemp tmp; ToRaster tmp None []; Unlink tmp] /\ exists e', snd o_ops = Err e')
  \/ (raises (MakeTemp tmp) = None /\ raises (ToRaster tmp None []) = None /\ fst o_ops = [MakeTemp tmp; ToRaster tmp None []; Copy tmp path "COG" out; Unlink tmp]
      /\ (snd o_ops = Ok tt <-> raises (Copy tmp path "COG" out) = None /\ raises (Unlink tmp) = None)).
Proof.
  intros <-. cbv zeta. unfold write_file. cbn [String.eqb Ascii.eqb Bool.eqb]. unfold andthen, finally, perform. destruct (raises (MakeTemp _)) as [e|]; [left; eauto|]. right.
  destruct (raises (ToRaster _ _ _)) as [e|]; [left; exists e; do 2 (split; [reflexivity|]); split; [reflexivity|]; cbn [fst snd]; destruct (raises (Unlink _)); eauto|]. right.
  do 2 (split; [reflexivity|]). cbn [fst snd app]. split; [reflexivity|]. destruct (raises (Copy _ _ _ _)), (raises (Unlink _)); intuition discriminate.
Qed.
Lemma write_plain path driver is_bool height width o threads kw ops w : let resolved := resolve_driver (get_extension path) driver in
  write_raster raises names temp path driver is_bool height width o threads kw = ((ops, Ok tt), w) -> resolved <> Some "COG"%string ->
  exists out l, creation_opts resolved is_bool o kw = Ok (out, w) /\ factors_of o height width l
    /\ ops = ToRaster path driver out :: match l with [] => [] | _ => match o_resampling o with Some s => [BuildOverviews path l s (option_map upper threads)] | None => [] end end
    /\ (l <> [] -> exists s, o_resampling o = Some s /\ names s = true).
Proof.
  cbv zeta. unfold write_raster. destruct (existsb _ _); [discriminate|]. set (resolved := resolve_driver _ _). intros H N. destruct (creation_opts resolved is_bool o kw) as [[out w']|e]; [|discriminate].
  injection H as H <-. exists out. unfold write_file, build_overviews in H. assert (NC : match resolved with Some d => String.eqb d "COG" | None => false end = false).
  { destruct resolved as [d|]; [|reflexivity]. apply String.eqb_neq. congruence. } rewrite NC in H. unfold andthen, perform in H. destruct (raises (ToRaster path driver out)) as [e|]; [discriminate|]. cbn [app] in H. unfold factors_of.
  set (go := build_factors raises names path o threads) in H. assert (GO : forall l, ToRaster path driver out :: fst (go l) = ops -> snd (go l) = Ok tt ->
     ops = ToRaster path driver out :: match l with [] => [] | _ => match o_resampling o with Some s => [BuildOverviews path l s (option_map upper threads)] | None => [] end end
    /\ (l <> [] -> exists s, o_resampling o = Some s /\ names s = true)).
  { intros l <- S. unfold go, build_factors in *. destruct l as [|x l]; [split; [reflexivity|congruence]|]. destruct (o_resampling o) as [s|]; [|discriminate]. destruct (names s) eqn:NS; [|discriminate]. split; [reflexivity|]. intros _. eauto. }
  clearbody go. destruct (o_overviews o) as [|[]|l].
  - injection H as <-. exists []. split; [reflexivity|]. split; [auto 6|]. split; [reflexivity|congruence].
  - destruct (auto_overview_factors height width 256) as [l|e]; [|discriminate]. exists l. split; [reflexivity|]. split; [auto|]. apply GO; congruence.
  - injection H as <-. exists []. split; [reflexivity|]. split; [auto 6|]. split; [reflexivity|congruence].
  - exists l. split; [reflexivity|]. split; [auto|]. apply GO; congruence.
Qed.
Lemma write_raster_cog path driver is_bool height width o threads kw ops w : 
  resolve_driver (get_extension path) driver = Some "COG"%string -> write_raster raises names temp path driver is_bool height width o threads kw = ((ops, Ok tt), w) ->
  exists out, creation_opts (Some "COG"%string) is_bool o kw = Ok (out, w) /\ ops = [MakeTemp (temp path); ToRaster (temp path) None []; Copy (temp path) path "COG" out; Unlink (temp path)].
Proof.
  intros R. unfold write_raster. destruct (existsb _ _); [discriminate|]. rewrite R. intros H. destruct (creation_opts _ is_bool o kw) as [[out w']|e]; [|discriminate]. injection H as H <-. exists out. split; [reflexivity|].
  destruct (write_cog path driver _ out eq_refl) as [(e & _ & E)|[(e & _ & _ & _ & e' & E)|(_ & _ & E & _)]]; destruct (write_file _ _ _ _ _ _) as [l r]; cbn [fst snd] in *.
  - injection E as -> ->. discriminate.
  - subst r. discriminate.
  - subst l. unfold andthen, build_overviews in H. cbn [String.eqb Ascii.eqb Bool.eqb] in H. destruct r; [|discriminate]. cbn [fst snd nothing] in H. inversion H. reflexivity.
Qed.
(* whatever fails, the temporary file does not stay *)
Lemma temp_removed path driver is_bool height width o threads kw ops r w : (forall p, raises (Unlink p) = None) ->
  write_raster raises names temp path driver is_bool height width o threads kw = ((ops, r), w) ->
  forall tmp, In (MakeTemp tmp) ops -> raises (MakeTemp tmp) = None -> exists before, ops = before ++ [Unlink tmp].
Proof.
  intros NU. unfold write_raster. destruct (existsb _ _); [intros H; injection H as <- <- <-; intros tmp []|]. set (resolved := resolve_driver _ _).
  destruct (creation_opts _ is_bool o kw) as [[out w']|e]; [|intros H; injection H as <- <- <-; intros tmp []]. intros H. injection H as H _.
  destruct (match resolved with Some d => String.eqb d "COG" | None => false end) eqn:C.
  - assert (RC : resolved = Some "COG"%string) by (destruct resolved as [d|]; [|discriminate]; apply String.eqb_eq in C; now subst). rewrite RC in *. intros tmp I NR.
    destruct (write_cog path driver _ out eq_refl) as [(e & RE & E)|[(e & _ & _ & E & e' & E')|(_ & _ & E & _)]]; destruct (write_file _ _ _ _ _ _) as [l x]; cbn [fst snd] in *.
    + injection E as -> ->. cbn [andthen] in H. injection H as <- <-. destruct I as [X|[]]. injection X as <-. congruence.
    + subst l x. cbn [andthen] in H. injection H as <- <-. cbn [In] in I. destruct I as [X|[X|[X|[]]]]; try discriminate. injection X as <-. now exists [MakeTemp (temp path); ToRaster (temp path) None []].
    + subst l. assert (HO : ops = [MakeTemp (temp path); ToRaster (temp path) None []; Copy (temp path) path "COG" out; Unlink (temp path)]).
      { unfold andthen, build_overviews in H. cbn [String.eqb Ascii.eqb Bool.eqb] in H. destruct x; cbn [nothing fst snd] in H; inversion H; reflexivity. }
      subst ops. cbn [In] in I. destruct I as [X|[X|[X|[X|[]]]]]; try discriminate. injection X as <-. now exists [MakeTemp (temp path); ToRaster (temp path) None []; Copy (temp path) path "COG" out].
  - intros tmp I. exfalso. unfold write_file, build_overviews, build_factors, andthen, perform, nothing, refuse in H. rewrite C in H.
    destruct (raises (ToRaster path driver out)); [injection H as <- <-; destruct I as [X|[]]; discriminate|].
    assert (HO : forall t : trace, ops = [ToRaster path driver out] ++ fst t -> (fst t = [] \/ exists p f s th, fst t = [BuildOverviews p f s th]) -> False).
    { intros t -> [E|(p & f & s & th & E)]; rewrite E in I; cbn [app In] in I; destruct I as [X|I]; try discriminate; [exact I|]. destruct I as [X|[]]. discriminate. }
    injection H as HF HS. eapply HO; [symmetry; exact HF|]. clear.
    destruct (o_overviews o) as [|[]|l]; cbn [fst]; auto; [destruct (auto_overview_factors _ _ _) as [l|]; [|auto]|]; destruct l; auto; destruct (o_resampling o); auto; destruct (names s); cbn [fst]; eauto 8.
Qed.
(* what is refused before any file is touched *)
Lemma refused_first path driver is_bool height width o threads kw : let resolved := resolve_driver (get_extension path) driver in
  In (get_extension path) write_not_implemented \/ (exists e, creation_opts resolved is_bool o kw = Err e) ->
  exists e, write_raster raises names temp path driver is_bool height width o threads kw = (([], Err e), []).
Proof.
  cbv zeta. intros H. unfold write_raster. destruct (existsb _ _) eqn:E; [now exists ValueError|]. destruct H as [H|[e H]]; [apply existsb_in in H; congruence|]. rewrite H. now exists e.
Qed.
End Files.

(* ---------------- opening ---------------- *)
Lemma opened ex : (forall s, open_decision ex (PathStr s) = Open) /\ (forall s, open_decision ex (PathLike s) = NotImplemented <-> In s write_not_implemented)
  /\ (forall s, ~ In s write_not_implemented -> open_decision ex (PathLike s) = Open) /\ open_decision ex PathOther = NotAPath.
Proof.
  split; [reflexivity|]. split; [|split; [|reflexivity]]; intros s; unfold open_decision; rewrite <- existsb_in; destruct (existsb _ _); intuition congruence.
Qed.
