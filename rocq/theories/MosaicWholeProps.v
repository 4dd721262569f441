(* C69: mosaic of whole rasters. *)
From Coq Require Import QArith.
From Verif Require Import Base Scalars Dtypes Raster RasterSpec Mosaic MosaicWhole MosaicWholeSpec MosaicWholeProofs.
Open Scope Z_scope.

(* first, last, min, max: every cell of the result holds the value picked from the
   rasters that have its band and are not null there, and is null where there is none.
   The result has the dtype asked for (or the common one), the null value asked for (or
   the first one there is), and as many bands as the input with most bands. *)
Theorem C69_pick : forall cast reconcile_other add fill result_type chunk to_grid nc rs m dt nv d nodata,
  result_dtype result_type rs dt d -> result_null rs d nv nodata ->
  rs <> [] -> 0 <= nc -> m = First \/ m = Last \/ (m = Min \/ m = Max) /\ d <> BOOL -> chunk_ok chunk ->
  null_value_for cast reconcile_other fill d nodata ->
  Forall (source cast d nc) (map to_grid rs) -> no_close_nulls nodata (map to_grid rs) ->
  exists r' nb, mosaic cast reconcile_other add fill result_type chunk to_grid nc rs m dt nv = Ok r' /\ is_nbands (map to_grid rs) nb
    /\ result nb nc d nodata (contributions cast d nodata (map to_grid rs)) (picked m) r'.
Proof. intros. apply whole_picked; try assumption; [now apply result_dtype_eq|now apply result_null_eq]. Qed.
Print Assumptions C69_pick.

(* sum of integers: the sum modulo 2^bits for up to six rasters, and for any number
   where no run of neighbouring values sums to the null value (see C13) *)
Theorem C69_sum : forall cast reconcile_other add fill result_type chunk to_grid nc rs dt nv d nodata,
  result_dtype result_type rs dt d -> result_null rs d nv nodata ->
  rs <> [] -> 0 <= nc -> is_int_dtype d = true -> int_adds d (add d) ->
  null_value_for cast reconcile_other fill d nodata ->
  Forall (source cast d nc) (map to_grid rs) -> no_close_nulls nodata (map to_grid rs) ->
  exists r' nb, mosaic cast reconcile_other add fill result_type chunk to_grid nc rs Sum dt nv = Ok r' /\ is_nbands (map to_grid rs) nb
    /\ wf nb nc r' /\ r_dtype r' = d /\ r_nv r' = Some nodata
    /\ forall b c, in_raster nb nc b c -> null r' b c = same_value (value r' b c) nodata
       /\ let values := contributions cast d nodata (map to_grid rs) b c in (len rs <= 6 \/ run_free d nodata values -> is_int_sum d nodata values (value r' b c)).
Proof. intros. apply whole_sum; try assumption; [now apply result_dtype_eq|now apply result_null_eq]. Qed.
Print Assumptions C69_sum.

Theorem C69_refused : forall cast reconcile_other add fill result_type chunk to_grid nc rs m dt nv, rs = [] \/ m = Other ->
  mosaic cast reconcile_other add fill result_type chunk to_grid nc rs m dt nv = Err ValueError.
Proof. exact whole_refused. Qed.
Print Assumptions C69_refused.

(* ---- examples ---- *)
Definition z := of_Z.
Definition ex_cast (d : dtype) (v : num) : num := v.
Definition ex_reconcile (v : num) (d : dtype) : num * bool := (v, false).
Definition ex_add (d : dtype) (a b : num) : num :=
  match a, b with
  | Fin p, Fin q => z ((Qnum p + Qnum q - int_min d) mod (int_max d - int_min d + 1) + int_min d)
  | _, _ => NaN
  end.
Definition ex_fill (d : dtype) (v : num) : res num := if is_nan v && negb (is_float_dtype d) then Err ValueError else Ok v.
Definition ex_result_type (l : list dtype) : dtype := match l with d :: ds => fold_left promote_types ds d | [] => F64 end.
Definition ex_chunk (l : list num) : option (chunked num) := match l with [] => None | x :: t => Some (mkChunked None x t) end.
Definition ex_mosaic nc rs m dt nv := mosaic ex_cast ex_reconcile ex_add ex_fill ex_result_type ex_chunk (fun r => r) nc rs m dt nv.
Definition ex_a := Raster U8 (Some (z 9)) [[z 1; z 9; z 9]] [[false; true; true]].
Definition ex_b := Raster U8 (Some (z 0)) [[z 7; z 8; z 0]; [z 3; z 0; z 4]] [[false; false; true]; [false; true; false]].
Example C69_example :
  ex_mosaic 3 [ex_a; ex_b] First None None = Ok (Raster U8 (Some (z 9)) [[z 1; z 8; z 9]; [z 3; z 9; z 4]] [[false; false; true]; [false; true; false]])
  /\ ex_mosaic 3 [ex_a; ex_b] Last None (Some (z 200)) = Ok (Raster U8 (Some (z 200)) [[z 7; z 8; z 200]; [z 3; z 200; z 4]] [[false; false; true]; [false; true; false]])
  /\ ex_mosaic 3 [ex_a; ex_b] Max (Some I32) None = Ok (Raster I32 (Some (z 9)) [[z 7; z 8; z 9]; [z 3; z 9; z 4]] [[false; false; true]; [false; true; false]])
  /\ ex_mosaic 3 [ex_a; ex_b] Sum None None = Ok (Raster U8 (Some (z 9)) [[z 8; z 8; z 9]; [z 3; z 9; z 4]] [[false; false; true]; [false; true; false]]).
Proof. vm_compute. auto. Qed.
(* eight rasters, one of them null, and a null value that no run sums to *)
Definition ex_many : list raster := map (fun v => Raster U8 (Some (z 200)) [[z v]] [[v =? 200]]) [1; 2; 200; 3; 4; 5; 6; 7].
Example C69_sum_example : ex_mosaic 1 ex_many Sum None None = Ok (Raster U8 (Some (z 200)) [[z 28]] [[false]]).
Proof. vm_compute. reflexivity. Qed.
Example C69_run_free : run_free U8 (z 200) (contributions ex_cast U8 (z 200) ex_many 0 0).
Proof.
  assert (E : contributions ex_cast U8 (z 200) ex_many 0 0 = map of_Z [1; 2; 3; 4; 5; 6; 7]) by (vm_compute; reflexivity). rewrite E. clear E.
  intros pre mid post E N S.
  assert (SP : forall zs, Forall (fun v => 1 <= v) zs -> 0 <= MosaicSpec.zsum zs) by (induction 1; [reflexivity|]; change (MosaicSpec.zsum (x :: l)) with (x + MosaicSpec.zsum l); lia).
  assert (EE : forall a b c : list num, map of_Z [1; 2; 3; 4; 5; 6; 7] = a ++ b ++ c -> exists p m q, a = map of_Z p /\ b = map of_Z m /\ c = map of_Z q /\ [1; 2; 3; 4; 5; 6; 7] = p ++ m ++ q).
  { intros a b c H. apply map_eq_app in H. destruct H as (p & r & EL & <- & H). apply map_eq_app in H. destruct H as (m & q & -> & <- & <-). eauto 10. }
  destruct (EE _ _ _ E) as (p & m & q & -> & -> & -> & EL). destruct m as [|x m]; [cbn in N; congruence|]. cbn [map is_int_sum] in S.
  destruct S as (zs & s & EZ & ES & R & k & EK). apply of_Z_inj in ES. subst s.
  assert (M : zs = x :: m).
  { change (map of_Z (x :: m) = map of_Z zs) in EZ. symmetry. clear -EZ. revert zs EZ. generalize (x :: m). induction l as [|a l IH]; intros [|b zs] H; try discriminate; [reflexivity|].
    cbn [map] in H. assert (H1 : of_Z a = of_Z b) by congruence. assert (H2 : map of_Z l = map of_Z zs) by congruence. apply of_Z_inj in H1. subst b. now rewrite (IH zs H2). }
  subst zs. assert (F : Forall (fun v => 1 <= v) (p ++ (x :: m) ++ q)) by (rewrite <- EL; repeat constructor; lia).
  apply Forall_app in F. destruct F as [F1 F]. apply Forall_app in F. destruct F as [F2 F3].
  assert (T : MosaicSpec.zsum [1; 2; 3; 4; 5; 6; 7] = MosaicSpec.zsum p + (MosaicSpec.zsum (x :: m) + MosaicSpec.zsum q)) by (rewrite EL, !MosaicProofs.zsum_app; reflexivity).
  pose proof (SP p F1). pose proof (SP q F3). inversion F2 as [|? ? G1 G2]; subst. pose proof (SP m G2).
  change (MosaicSpec.zsum (x :: m)) with (x + MosaicSpec.zsum m) in *. change (MosaicSpec.zsum [1; 2; 3; 4; 5; 6; 7]) with 28 in T. change (int_max U8 - int_min U8 + 1) with 256 in EK. lia.
Qed.
Example C69_hypotheses : result_dtype ex_result_type [ex_a; ex_b] None U8 /\ result_null [ex_a; ex_b] U8 None (z 9) /\ chunk_ok ex_chunk /\ int_adds U8 (ex_add U8)
  /\ null_value_for ex_cast ex_reconcile ex_fill U8 (z 9)
  /\ Forall (source ex_cast U8 3) [ex_a; ex_b] /\ no_close_nulls (z 9) [ex_a; ex_b].
Proof.
  split; [right; auto|]. split; [right; split; [reflexivity|left; now exists [], ex_a, [ex_b]]|].
  split; [intros [|x t] N; [congruence|eexists; split; reflexivity]|]. split.
  { intros a b Ha Hb. cbn in Ha, Hb. cbn -[Z.modulo]. eexists. split; [reflexivity|]. pose proof (Z.mod_pos_bound (a + b - 0) 256 ltac:(lia)). split; [lia|].
    exists (- ((a + b - 0) / 256)). pose proof (Z.div_mod (a + b - 0) 256 ltac:(lia)). lia. }
  split; [split; [exists 9; split; [reflexivity|cbn; lia]|]; split; [reflexivity|]; split; [reflexivity|]; auto|].
  split; [constructor; [exists 1|constructor; [exists 2|constructor]]|].
  3: { intros r old [<-|[<-|[]]] E; injection E as <-; [reflexivity|discriminate]. }
  - split; [exact (three_cells [[z 1; z 9; z 9]] [[false; true; true]] U8 _ eq_refl eq_refl ltac:(discriminate))|]. intros b c [Hb Hc]. replace b with 0 by lia.
    assert (C : c = 0 \/ c = 1 \/ c = 2) by lia. destruct C as [-> | [-> | ->]]; (split; [intros E; try discriminate E; reflexivity|split; [reflexivity|]]); eexists; (split; [reflexivity|cbn; lia]).
  - split; [exact (three_cells [[z 7; z 8; z 0]; [z 3; z 0; z 4]] [[false; false; true]; [false; true; false]] U8 _ eq_refl eq_refl ltac:(discriminate))|]. intros b c [Hb Hc].
    assert (B : b = 0 \/ b = 1) by lia. assert (C : c = 0 \/ c = 1 \/ c = 2) by lia.
    destruct B as [-> | ->], C as [-> | [-> | ->]]; (split; [intros E; try discriminate E; reflexivity|split; [reflexivity|]]); eexists; (split; [reflexivity|cbn; lia]).
Qed.

(* ---- findings ---- *)
(* A cell that is not null becomes null if its value is the null value chosen for the
   result, here that of another raster. *)
Theorem C69_valid_null_refuted :
  ~ (forall nc rs m dt nv r' b c r, ex_mosaic nc rs m dt nv = Ok r' -> In r rs -> wf (len (r_data r)) nc r -> in_raster (len (r_data r)) nc b c ->
       null r b c = false -> null r' b c = false).
Proof.
  intros H. specialize (H 1 [Raster U8 (Some (z 9)) [[z 9]] [[true]]; Raster U8 None [[z 9]] [[false]]] First None None _ 0 0 (Raster U8 None [[z 9]] [[false]]) eq_refl).
  discriminate (H (or_intror (or_introl eq_refl)) (one_cell U8 None (z 9) false (fun _ => eq_refl)) ltac:(vm_compute; repeat split; discriminate) eq_refl).
Qed.
Print Assumptions C69_valid_null_refuted.
(* A null cell becomes a value if the rasters' null values are close but not equal. *)
Theorem C69_close_null_refuted :
  ~ (forall nc rs m dt nv r' c, ex_mosaic nc rs m dt nv = Ok r' -> (forall r, In r rs -> wf 1 nc r /\ null r 0 c = true) -> null r' 0 c = true).
Proof.
  intros H. specialize (H 1 [Raster I32 (Some (z (-999999))) [[z (-999999)]] [[true]]; Raster I32 (Some (z (-999998))) [[z (-999998)]] [[true]]] First None None _ 0 eq_refl).
  assert (A : forall r, In r [Raster I32 (Some (z (-999999))) [[z (-999999)]] [[true]]; Raster I32 (Some (z (-999998))) [[z (-999998)]] [[true]]] -> wf 1 1 r /\ null r 0 0 = true).
  { intros r [<-|[<-|[]]]; (split; [apply one_cell; discriminate|reflexivity]). }
  discriminate (H A).
Qed.
Print Assumptions C69_close_null_refuted.
(* min and max of bool rasters always fail; so does an integer dtype for rasters whose
   null value is NaN, though Raster.astype would take another null value. *)
Theorem C69_bool_refuted :
  ~ (forall nc rs m dt nv, rs <> [] -> m <> Other -> (forall r, In r rs -> exists nb, wf nb nc r) -> exists r', ex_mosaic nc rs m dt nv = Ok r').
Proof.
  intros H. destruct (H 1 [Raster BOOL None [[z 1]] [[false]]] Max None None) as (r' & E); [discriminate|discriminate| |discriminate E].
  intros r [<-|[]]. exists 1. apply one_cell. reflexivity.
Qed.
Print Assumptions C69_bool_refuted.
Example C69_nan_to_int :
  ex_mosaic 1 [Raster F32 (Some NaN) [[z 5]] [[false]]] First (Some I32) None = Err ValueError
  /\ astype ex_cast ex_reconcile (Raster F32 (Some NaN) [[z 5]] [[false]]) I32 None = Ok (Raster I32 (Some (z (-2147483648))) [[z 5]] [[false]]).
Proof. vm_compute. auto. Qed.
