(* Mosaic: properties C12 and C13.  A raster is represented by its bands at one
   cell; the specification is in MosaicSpec.v. *)
From Verif Require Import Base F64 Mosaic MosaicSpec MosaicProofs.
From Flocq Require Import Core BinarySingleNaN.
Open Scope Z_scope.

(* C12.  [chunk] is the way dask splits a stack into blocks and the tree it
   combines them with: any of them gives the same result. *)
Theorem C12_first :
  forall (V : Type) (missing : V -> bool) (chunk : list V -> option (chunked V)) (nodata : V),
  chunk_ok chunk -> missing nodata = true ->
  forall srcs, srcs <> [] ->
  exists out, mosaic nodata (paint_first missing chunk) srcs = Ok out
    /\ is_nbands srcs (length out)
    /\ forall i v, nth_error out i = Some v -> is_first missing (band_values nodata srcs i) v.
Proof. exact @public_first. Qed.
Print Assumptions C12_first.

Theorem C12_last :
  forall (V : Type) (missing : V -> bool) (chunk : list V -> option (chunked V)) (nodata : V),
  chunk_ok chunk -> missing nodata = true ->
  forall srcs, srcs <> [] ->
  exists out, mosaic nodata (paint_last missing chunk) srcs = Ok out
    /\ is_nbands srcs (length out)
    /\ forall i v, nth_error out i = Some v -> is_last missing (band_values nodata srcs i) v.
Proof. exact @public_last. Qed.
Print Assumptions C12_last.

(* integer dtypes with range [lo, hi] *)
Theorem C12_int_min :
  forall lo hi nodata, lo <= nodata <= hi -> forall srcs, srcs <> [] ->
  (forall bands v, In bands srcs -> In v bands -> lo <= v <= hi) ->
  exists out, mosaic nodata (paint_imin (mkIinfo lo hi) nodata) srcs = Ok out
    /\ is_nbands srcs (length out)
    /\ forall i v, nth_error out i = Some v ->
         is_extremum (Z.eqb nodata) (fun _ => false) Z.leb (band_values nodata srcs i) v.
Proof. exact public_imin. Qed.
Print Assumptions C12_int_min.

Theorem C12_int_max :
  forall lo hi nodata, lo <= nodata <= hi -> forall srcs, srcs <> [] ->
  (forall bands v, In bands srcs -> In v bands -> lo <= v <= hi) ->
  exists out, mosaic nodata (paint_imax (mkIinfo lo hi) nodata) srcs = Ok out
    /\ is_nbands srcs (length out)
    /\ forall i v, nth_error out i = Some v ->
         is_extremum (Z.eqb nodata) (fun _ => false) Z.geb (band_values nodata srcs i) v.
Proof. exact public_imax. Qed.
Print Assumptions C12_int_max.

(* float64, with any null value including NaN *)
Theorem C12_float_min :
  forall nodata srcs, srcs <> [] ->
  exists out, mosaic nodata (paint_fmin nodata) srcs = Ok out
    /\ is_nbands srcs (length out)
    /\ forall i v, nth_error out i = Some v ->
         is_extremum (fmissing nodata) fisnan fleb (band_values nodata srcs i) v.
Proof. exact public_fmin. Qed.
Print Assumptions C12_float_min.

Theorem C12_float_max :
  forall nodata srcs, srcs <> [] ->
  exists out, mosaic nodata (paint_fmax nodata) srcs = Ok out
    /\ is_nbands srcs (length out)
    /\ forall i v, nth_error out i = Some v ->
         is_extremum (fmissing nodata) fisnan (fun a b => fleb b a) (band_values nodata srcs i) v.
Proof. exact public_fmax. Qed.
Print Assumptions C12_float_max.

(* C13.  Full statement: for every srcs (in the dtype's range),
     exists v, single_band nodata (paint_isum (mkIinfo lo hi) nodata) srcs = Ok v
       /\ is_sum lo hi nodata srcs v /\ (v = nodata <-> valid srcs = []).
   It is false (below).  Proved: the value is the sum when there are at most 6
   rasters, or when no run of consecutive rasters sums to the null value. *)
Theorem C13_sum_partial :
  forall lo hi nodata, lo <= nodata <= hi -> forall srcs,
  (length srcs <= 6)%nat \/ sum_free lo hi nodata srcs ->
  exists v, single_band nodata (paint_isum (mkIinfo lo hi) nodata) srcs = Ok v
    /\ is_sum lo hi nodata srcs v.
Proof. exact public_sum_exact. Qed.
Print Assumptions C13_sum_partial.

(* With 7 rasters the stack is split, and a half whose sum is the null value is
   dropped: 1+4+5 = 10 = nodata, so 1+4+5+7 is reported as 7. *)
Theorem C13_sum_refuted :
  ~ forall lo hi nodata srcs, lo <= nodata <= hi ->
      (forall v, In v srcs -> lo <= v <= hi) ->
      exists v, single_band nodata (paint_isum (mkIinfo lo hi) nodata) srcs = Ok v
        /\ is_sum lo hi nodata srcs v.
Proof.
  intros H.
  destruct (H 0 255 10 [7; 10; 10; 1; 4; 5; 10]) as (v & E & HS).
  - lia.
  - cbn. intros v Hv. repeat destruct Hv as [<-|Hv]; try lia.
  - vm_compute in E. injection E as <-. destruct HS as (_ & k & HS).
    replace (zsum _) with 17 in HS by reflexivity. lia.
Qed.
Print Assumptions C13_sum_refuted.

(* A sum equal to the null value reads as null although cells were valid. *)
Theorem C13_null_iff_all_null_refuted :
  ~ forall lo hi nodata srcs, lo <= nodata <= hi ->
      (forall v, In v srcs -> lo <= v <= hi) ->
      single_band nodata (paint_isum (mkIinfo lo hi) nodata) srcs = Ok nodata ->
      valid (Z.eqb nodata) srcs = [].
Proof.
  intros H. specialize (H 0 255 10 [5; 5]). cbn in H.
  discriminate (H ltac:(lia) ltac:(intros v [<-|[<-|[]]]; lia) eq_refl).
Qed.
Print Assumptions C13_null_iff_all_null_refuted.

(* ---------------- examples ---------------- *)

(* a chunking with a two-block prefix *)
Definition ex_chunk (l : list Z) : option (chunked Z) :=
  match l with
  | [] => None
  | x :: t => match t with
              | y :: z :: u => Some (mkChunked (Some (Node (Leaf x []) (Leaf y []))) z u)
              | _ => Some (mkChunked None x t)
              end
  end.

Lemma ex_chunk_ok : chunk_ok ex_chunk.
Proof.
  intros [|x [|y [|z u]]] H; [congruence| | |]; eexists; split; reflexivity.
Qed.

Example ex_first_last :
  mosaic 0 (paint_first (Z.eqb 0) ex_chunk) [[0; 5]; [3; 0]; [4]; [0]; [6]; [0]; [0]; [7]; [0]]
    = Ok [3; 5]
  /\ mosaic 0 (paint_last (Z.eqb 0) ex_chunk) [[0; 5]; [3; 0]; [4]; [0]; [6]; [0]; [0]; [7]; [0]]
    = Ok [7; 5].
Proof. split; reflexivity. Qed.

(* 255 is the sentinel of min as well as a value *)
Example ex_min_max :
  mosaic 9 (paint_imin (mkIinfo 0 255) 9) [[9; 9]; [255; 9]; [9; 9]] = Ok [255; 9]
  /\ mosaic 9 (paint_imax (mkIinfo 0 255) 9) [[9; 3]; [0; 9]; [9; 4]] = Ok [0; 4].
Proof. split; reflexivity. Qed.

Example ex_fmin :
  match mosaic fnan (paint_fmin fnan) [[fzero]; [fnan]; [(f64_of_Z (-1))]] with
  | Ok [v] => B2SF v = B2SF (f64_of_Z (-1))
  | _ => False
  end.
Proof. vm_compute. reflexivity. Qed.

(* The premise of C13_sum_partial for 8 rasters, one of them null. *)
Example ex_sum_free : sum_free 0 255 200 [1; 2; 200; 3; 4; 5; 6; 7].
Proof.
  assert (NN : forall l, (forall x, In x l -> 0 <= x) -> 0 <= zsum (valid (Z.eqb 200) l)).
  { induction l as [|x l IH]; [reflexivity|]. intros H. unfold valid in *. cbn [filter].
    assert (0 <= x) by (apply H; now left).
    assert (0 <= zsum (filter (fun v => negb (200 =? v)) l)) by (apply IH; intros; apply H; now right).
    destruct (200 =? x); cbn [negb]; [assumption|]. unfold zsum in *. cbn [fold_right]. lia. }
  intros pre mid post E V v H C.
  assert (T : zsum (valid (Z.eqb 200) (pre ++ mid ++ post)) = 28) by (rewrite <- E; reflexivity).
  rewrite !valid_app, !zsum_app in T.
  assert (P : forall x, In x (pre ++ mid ++ post) -> 0 <= x).
  { rewrite <- E. cbn. intros x Hx. repeat destruct Hx as [<-|Hx]; try lia. }
  assert (N1 : 0 <= zsum (valid (Z.eqb 200) pre)) by (apply NN; intros; apply P; apply in_or_app; auto).
  assert (N2 : 0 <= zsum (valid (Z.eqb 200) mid))
    by (apply NN; intros; apply P; apply in_or_app; right; apply in_or_app; auto).
  assert (N3 : 0 <= zsum (valid (Z.eqb 200) post))
    by (apply NN; intros; apply P; apply in_or_app; right; apply in_or_app; auto).
  unfold is_sum in H. destruct (valid (Z.eqb 200) mid) as [|x t]; [congruence|].
  destruct H as (_ & k & H). lia.
Qed.

Example ex_sum : single_band 200 (paint_isum (mkIinfo 0 255) 200) [1; 2; 200; 3; 4; 5; 6; 7] = Ok 28.
Proof. reflexivity. Qed.
