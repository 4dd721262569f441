(* Opening (erode, then dilate) and closing (dilate, then erode) *)
From Coq Require Import QArith Lia List.
From Verif Require Import Base BaseFacts Scalars NumFacts Chunks Arr2 Focal FocalSpec FocalResults Morph MorphSpec MorphProofs FocalMorphProofs MorphTwiceProofs.
Import ListNotations.
Open Scope Z_scope.

Section Open.
Variables (s : size) (kr kc : Z) (d : dtype) (ny nx : Z).
Hypothesis D1 : dims s = Some (kr, kc).
Hypotheses (Kr : 0 < kr) (Kc : 0 < kc) (K1 : ~ (kr = 1 /\ kc = 1)) (HD : d <> BOOL) (Hy : 0 < ny) (Hx : 0 < nx) (By : kr / 2 <= ny) (Bx : kc / 2 <= nx).

Let shaped_mask (m : option (list (list bool))) := match m with Some m => shaped2 ny nx m | None => True end.
Let fin (x : list (list num)) m := forall p q, valid_cell m ny nx p q -> held_by d (val2 NaN x p q) /\ val2 NaN x p q <> MInf /\ val2 NaN x p q <> PInf.
Let isD (x : list (list num)) m (o : list (list num)) om := forall i j, 0 <= i < ny -> 0 <= j < nx ->
  let W p q := reaches_down kr (p - i) /\ reaches_down kc (q - j) /\ valid_cell m ny nx p q in
  (null_cell om i j = false <-> exists p q, W p q) /\ (null_cell om i j = false -> greatest_in W (val2 NaN x) (val2 NaN o i j)).
Let isE (x : list (list num)) m (o : list (list num)) om := forall i j, 0 <= i < ny -> 0 <= j < nx ->
  let W p q := reaches_up kr (p - i) /\ reaches_up kc (q - j) in
  (null_cell om i j = false <-> m = None \/ forall p q, W p q -> valid_cell m ny nx p q)
  /\ (null_cell om i j = false -> least_in (fun p q => W p q /\ valid_cell m ny nx p q) (val2 NaN x) (val2 NaN o i j)).

Lemma fin_eq v w : num_eqb v w = true -> held_by d v /\ v <> MInf /\ v <> PInf -> held_by d w /\ w <> MInf /\ w <> PInf.
Proof.
  intros E (A & B & C). split; [now apply (held_eq d v)|]. split; intros ->; destruct v; try discriminate; congruence.
Qed.
Lemma dstep nv ycs xcs x m : cuts ny ycs -> cuts nx xcs -> shaped2 ny nx x -> shaped_mask m -> fin x m ->
  exists o om, dilate_or_erode Dilation s d nv ny nx ycs xcs (Band x m) = Ok (Band o om) /\ shaped2 ny nx o /\ shaped_mask om /\ (om = None <-> m = None) /\ fin o om /\ isD x m o om.
Proof.
  intros Cy Cx S M F. destruct (dilate_spec s kr kc d nv ny nx ycs xcs x m) as (o & om & E & So & Mo & V); try assumption. { intros p q H. destruct (F p q H) as (? & ? & _). now split. }
  exists o, om. split; [exact E|]. split; [exact So|]. split; [destruct om; [apply Mo|exact I]|]. split; [destruct om; [destruct Mo; split; [discriminate|contradiction]|now split]|].
  assert (I : isD x m o om). { intros i j Hi Hj. destruct (V i j Hi Hj) as [A B]. split; [exact A|]. intros N. cbv zeta in B. now rewrite N in B. }
  split; [|exact I]. intros p q H. apply valid_null in H. destruct H as (Hp & Hq & N). destruct (I p q Hp Hq) as [_ G]. destruct (G N) as [(a & b & (_ & _ & W) & Q) _]. exact (fin_eq _ _ Q (F a b W)).
Qed.
Lemma estep nv ycs xcs x m : cuts ny ycs -> cuts nx xcs -> shaped2 ny nx x -> shaped_mask m -> fin x m ->
  exists o om, dilate_or_erode Erosion s d nv ny nx ycs xcs (Band x m) = Ok (Band o om) /\ shaped2 ny nx o /\ shaped_mask om /\ (om = None <-> m = None) /\ fin o om /\ isE x m o om.
Proof.
  intros Cy Cx S M F. destruct (erode_spec s kr kc d nv ny nx ycs xcs x m) as (o & om & E & So & Mo & V); try assumption. { intros p q H. destruct (F p q H) as (? & _ & ?). now split. }
  exists o, om. split; [exact E|]. split; [exact So|]. split; [destruct om; [apply Mo|exact I]|]. split; [destruct om; [destruct Mo; split; [discriminate|contradiction]|now split]|].
  assert (I : isE x m o om). { intros i j Hi Hj. destruct (V i j Hi Hj) as [A B]. split; [exact A|]. intros N. cbv zeta in B. now rewrite N in B. }
  split; [|exact I]. intros p q H. apply valid_null in H. destruct H as (Hp & Hq & N). destruct (I p q Hp Hq) as [_ G]. destruct (G N) as [(a & b & (_ & W) & Q) _]. exact (fin_eq _ _ Q (F a b W)).
Qed.
Lemma up_of_down n i p : reaches_down n (p - i) <-> reaches_up n (i - p).
Proof. rewrite up_down. now replace (- (i - p)) with (p - i) by lia. Qed.

Lemma open_le x m e em o om i j : isE x m e em -> isD e em o om -> 0 <= i < ny -> 0 <= j < nx -> null_cell om i j = false ->
  null_cell m i j = false /\ num_leb (val2 NaN o i j) (val2 NaN x i j) = true.
Proof.
  intros IE ID Hi Hj N. destruct (ID i j Hi Hj) as [_ G]. destruct (G N) as [(p & q & (P & Q & W) & Eq) _]. apply valid_null in W. destruct W as (Hp & Hq & W).
  apply up_of_down in P, Q. destruct (IE p q Hp Hq) as [A L]. destruct (L W) as [_ L'].
  assert (V : valid_cell m ny nx i j). { destruct (proj1 A W) as [-> |H]; [now split|]. now apply H. }
  split; [now apply valid_null in V|]. apply (num_leb_eq' (val2 NaN e p q)); [exact Eq|]. apply L'. now split.
Qed.
Lemma close_ge x m e em o om i j : isD x m e em -> isE e em o om -> 0 <= i < ny -> 0 <= j < nx -> null_cell m i j = false ->
  em = None \/ (forall p q, reaches_up kr (p - i) -> reaches_up kc (q - j) -> 0 <= p < ny /\ 0 <= q < nx) ->
  null_cell om i j = false /\ num_leb (val2 NaN x i j) (val2 NaN o i j) = true.
Proof.
  intros ID IE Hi Hj N R. assert (V : valid_cell m ny nx i j) by now apply valid_null.
  assert (U : forall p q, 0 <= p < ny -> 0 <= q < nx -> reaches_up kr (p - i) -> reaches_up kc (q - j) -> null_cell em p q = false /\ num_leb (val2 NaN x i j) (val2 NaN e p q) = true).
  { intros p q Hp Hq P Q. apply up_of_down in P, Q. destruct (ID p q Hp Hq) as [A G]. assert (N' : null_cell em p q = false) by (apply A; now exists i, j).
    split; [exact N'|]. apply (G N'). now split. }
  destruct (IE i j Hi Hj) as [A L]. assert (N' : null_cell om i j = false).
  { apply A. destruct R as [R|R]; [now left|right]. intros p q [P Q]. destruct (R p q P Q) as [Hp Hq]. apply valid_null. split; [exact Hp|]. split; [exact Hq|]. now apply U. }
  split; [exact N'|]. destruct (L N') as [(p & q & ((P & Q) & W) & Eq) _]. apply valid_null in W. destruct W as (Hp & Hq & _). apply (num_leb_eq _ (val2 NaN e p q)); [|exact Eq]. now apply U.
Qed.

Theorem opening nv nv' ycs xcs ycs' xcs' x m : cuts ny ycs -> cuts nx xcs -> cuts ny ycs' -> cuts nx xcs' -> shaped2 ny nx x -> shaped_mask m -> fin x m ->
  exists e em o om, dilate_or_erode Erosion s d nv ny nx ycs xcs (Band x m) = Ok (Band e em) /\ dilate_or_erode Dilation s d nv' ny nx ycs' xcs' (Band e em) = Ok (Band o om)
  /\ forall i j, 0 <= i < ny -> 0 <= j < nx -> null_cell om i j = false -> null_cell m i j = false /\ num_leb (val2 NaN o i j) (val2 NaN x i j) = true.
Proof.
  intros Cy Cx Cy' Cx' S M F. destruct (estep nv ycs xcs x m) as (e & em & E & Se & Me & _ & Fe & IE); try assumption. destruct (dstep nv' ycs' xcs' e em) as (o & om & E' & _ & _ & _ & _ & ID); try assumption.
  exists e, em, o, om. split; [exact E|]. split; [exact E'|]. intros i j Hi Hj. now apply (open_le x m e em o om).
Qed.
Theorem closing nv nv' ycs xcs ycs' xcs' x m : cuts ny ycs -> cuts nx xcs -> cuts ny ycs' -> cuts nx xcs' -> shaped2 ny nx x -> shaped_mask m -> fin x m ->
  exists e em o om, dilate_or_erode Dilation s d nv ny nx ycs xcs (Band x m) = Ok (Band e em) /\ dilate_or_erode Erosion s d nv' ny nx ycs' xcs' (Band e em) = Ok (Band o om)
  /\ forall i j, 0 <= i < ny -> 0 <= j < nx -> null_cell m i j = false ->
     m = None \/ (forall p q, reaches_up kr (p - i) -> reaches_up kc (q - j) -> 0 <= p < ny /\ 0 <= q < nx) ->
     null_cell om i j = false /\ num_leb (val2 NaN x i j) (val2 NaN o i j) = true.
Proof.
  intros Cy Cx Cy' Cx' S M F. destruct (dstep nv ycs xcs x m) as (e & em & E & Se & Me & NN & Fe & ID); try assumption. destruct (estep nv' ycs' xcs' e em) as (o & om & E' & _ & _ & _ & _ & IE); try assumption.
  exists e, em, o, om. split; [exact E|]. split; [exact E'|]. intros i j Hi Hj N R. apply (close_ge x m e em o om); try assumption. destruct R as [R|R]; [left; now apply NN|now right].
Qed.
(* opening twice is opening once *)
Theorem opening_twice nv nv' nv2 nv2' ycs xcs ycs' xcs' x m : cuts ny ycs -> cuts nx xcs -> cuts ny ycs' -> cuts nx xcs' -> shaped2 ny nx x -> shaped_mask m -> fin x m ->
  exists e em o om e2 em2 o2 om2, dilate_or_erode Erosion s d nv ny nx ycs xcs (Band x m) = Ok (Band e em) /\ dilate_or_erode Dilation s d nv' ny nx ycs xcs (Band e em) = Ok (Band o om)
  /\ dilate_or_erode Erosion s d nv2 ny nx ycs' xcs' (Band o om) = Ok (Band e2 em2) /\ dilate_or_erode Dilation s d nv2' ny nx ycs' xcs' (Band e2 em2) = Ok (Band o2 om2)
  /\ forall i j, 0 <= i < ny -> 0 <= j < nx -> null_cell om2 i j = null_cell om i j /\ (null_cell om i j = false -> num_eqb (val2 NaN o2 i j) (val2 NaN o i j) = true).
Proof.
  intros Cy Cx Cy' Cx' S M F. destruct (estep nv ycs xcs x m) as (e & em & E & Se & Me & Ne & Fe & IE); try assumption. destruct (dstep nv' ycs xcs e em) as (o & om & E' & So & Mo & No & Fo & ID); try assumption.
  destruct (estep nv2 ycs' xcs' o om) as (e2 & em2 & E2 & Se2 & Me2 & Ne2 & Fe2 & IE2); try assumption. destruct (dstep nv2' ycs' xcs' e2 em2) as (o2 & om2 & E2' & _ & _ & _ & _ & ID2); try assumption.
  exists e, em, o, om, e2, em2, o2, om2. split; [exact E|]. split; [exact E'|]. split; [exact E2|]. split; [exact E2'|]. intros i j Hi Hj.
  assert (A : forall p q, 0 <= p < ny -> 0 <= q < nx -> null_cell em p q = false -> null_cell em2 p q = false /\ num_leb (val2 NaN e p q) (val2 NaN e2 p q) = true).
  { intros p q Hp Hq N. apply (close_ge e em o om e2 em2); try assumption. destruct (IE p q Hp Hq) as [V _]. destruct (proj1 V N) as [H|H]; [left; now apply No, Ne|right].
    intros a b P Q. destruct (H a b (conj P Q)) as (? & ? & _). now split. }
  assert (B : null_cell om i j = false -> null_cell om2 i j = false /\ num_leb (val2 NaN o i j) (val2 NaN o2 i j) = true).
  { intros N. destruct (ID i j Hi Hj) as [_ G]. destruct (G N) as [(p & q & (P & Q & W) & Eq) _]. apply valid_null in W. destruct W as (Hp & Hq & W). destruct (A p q Hp Hq W) as [W2 L].
    destruct (ID2 i j Hi Hj) as [V2 G2]. assert (W' : valid_cell em2 ny nx p q) by now apply valid_null. assert (N2 : null_cell om2 i j = false) by (apply V2; now exists p, q).
    split; [exact N2|]. apply (num_leb_eq' (val2 NaN e p q)); [exact Eq|]. apply (num_leb_trans _ (val2 NaN e2 p q)); [exact L|]. apply (G2 N2). now split. }
  split.
  - destruct (null_cell om i j) eqn:N; [|now apply B]. destruct (null_cell om2 i j) eqn:N2; [reflexivity|]. now rewrite <- N, (proj1 (open_le o om e2 em2 o2 om2 i j IE2 ID2 Hi Hj N2)).
  - intros N. destruct (B N) as [N2 L]. apply num_leb_antisym; [|exact L]. now apply (open_le o om e2 em2 o2 om2).
Qed.
(* closing twice is closing once *)
Theorem closing_twice nv nv' nv2 nv2' ycs xcs ycs' xcs' x m : cuts ny ycs -> cuts nx xcs -> cuts ny ycs' -> cuts nx xcs' -> shaped2 ny nx x -> shaped_mask m -> fin x m ->
  exists e em o om e2 em2 o2 om2, dilate_or_erode Dilation s d nv ny nx ycs xcs (Band x m) = Ok (Band e em) /\ dilate_or_erode Erosion s d nv' ny nx ycs xcs (Band e em) = Ok (Band o om)
  /\ dilate_or_erode Dilation s d nv2 ny nx ycs' xcs' (Band o om) = Ok (Band e2 em2) /\ dilate_or_erode Erosion s d nv2' ny nx ycs' xcs' (Band e2 em2) = Ok (Band o2 om2)
  /\ forall i j, 0 <= i < ny -> 0 <= j < nx -> null_cell om2 i j = null_cell om i j /\ (null_cell om i j = false -> num_eqb (val2 NaN o2 i j) (val2 NaN o i j) = true).
Proof.
  intros Cy Cx Cy' Cx' S M F. destruct (dstep nv ycs xcs x m) as (e & em & E & Se & Me & Ne & Fe & ID); try assumption. destruct (estep nv' ycs xcs e em) as (o & om & E' & So & Mo & No & Fo & IE); try assumption.
  destruct (dstep nv2 ycs' xcs' o om) as (e2 & em2 & E2 & Se2 & Me2 & Ne2 & Fe2 & ID2); try assumption. destruct (estep nv2' ycs' xcs' e2 em2) as (o2 & om2 & E2' & _ & _ & No2 & _ & IE2); try assumption.
  exists e, em, o, om, e2, em2, o2, om2. split; [exact E|]. split; [exact E'|]. split; [exact E2|]. split; [exact E2'|]. intros i j Hi Hj.
  assert (A : null_cell om i j = false -> null_cell om2 i j = false /\ num_leb (val2 NaN o i j) (val2 NaN o2 i j) = true).
  { intros N. apply (close_ge o om e2 em2 o2 om2); try assumption. destruct (IE i j Hi Hj) as [V _]. destruct (proj1 V N) as [H|H]; [left; now apply Ne2, No|right].
    intros a b P Q. destruct (H a b (conj P Q)) as (? & ? & _). now split. }
  split.
  - destruct (null_cell om i j) eqn:N; [|now apply A]. destruct (null_cell om2 i j) eqn:N2; [reflexivity|]. rewrite <- N. destruct (IE2 i j Hi Hj) as [V2 _]. destruct (IE i j Hi Hj) as [V _]. symmetry. apply V.
    destruct (proj1 V2 N2) as [H|H]; [left; now apply No, Ne2|right]. intros p q W. specialize (H p q W). apply valid_null in H. destruct H as (Hp & Hq & H). apply valid_null. split; [exact Hp|]. split; [exact Hq|].
    now apply (open_le e em o om e2 em2 p q).
  - intros N. destruct (A N) as [N2 L]. apply num_leb_antisym; [|exact L]. destruct (IE i j Hi Hj) as [_ G]. destruct (G N) as [(p & q & (W & V) & Eq) _]. apply (num_leb_eq _ (val2 NaN e p q)); [|exact Eq].
    apply valid_null in V. destruct V as (Hp & Hq & _). assert (H : null_cell em2 p q = false). { apply (ID2 p q Hp Hq). exists i, j. rewrite !up_of_down. split; [apply W|]. split; [apply W|]. now apply valid_null. }
    apply (num_leb_trans _ (val2 NaN e2 p q)); [|now apply (open_le e em o om e2 em2)]. destruct (IE2 i j Hi Hj) as [_ L2]. apply (L2 N2). split; [exact W|now apply valid_null].
Qed.
End Open.
