(* C39: aggregation. *)
From Coq Require Import QArith Lia.
From Verif Require Import Base BaseFacts Scalars NumFacts F64 Stats StatsSpec Focal FocalSpec FocalResults Zonal ZonalSpec ZonalProofs ZonalStats Aggregate AggregateSpec AggregateProofs.
Open Scope Z_scope.

(* Every shape, factors, chunking of the result, mask and statistic g of a
   window's values (NaN for null cells): the result has ny / fy x nx / fx cells,
   a cell is null exactly when all cells under it are (masked rasters), and
   otherwise holds the statistic of exactly the cells under it.
   [computes s g] says that s is one of the kinds of statistic aggregate uses
   with the value g; promote is exact on the valid cells. *)
Theorem C39_aggregate : forall promote nv s g ny nx fy fx ycs xcs data mask,
  1 <= fy -> 1 <= fx -> ~ (fy = 1 /\ fx = 1) -> 0 <= ny -> 0 <= nx ->
  cuts (ny / fy) ycs -> cuts (nx / fx) xcs -> xcs <> [] -> computes s g ->
  shaped2 ny nx data -> match mask with Some m => shaped2 ny nx m | None => True end ->
  (forall y x, 0 <= y < ny -> 0 <= x < nx -> mask <> None -> null_of mask y x = false -> promote (val2 NaN data y x) = val2 NaN data y x) ->
  exists out omask, aggregate promote nv s ny nx fy fx ycs xcs data mask = Ok (out, omask)
  /\ shaped2 (ny / fy) (nx / fx) out
  /\ match omask with Some m => mask <> None /\ shaped2 (ny / fy) (nx / fx) m | None => mask = None end
  /\ forall j k, 0 <= j < ny / fy -> 0 <= k < nx / fx ->
     null_of omask j k = (match mask with Some _ => all_null (null_of mask) fy fx j k | None => false end)
     /\ val2 NaN out j k = if null_of omask j k then nv else g (window_values data (null_of mask) fy fx j k).
Proof. exact aggregate_spec. Qed.
Print Assumptions C39_aggregate.

(* The cells under the result's cells are disjoint and cover exactly the raster
   without the incomplete windows at the high edges. *)
Theorem C39_windows : forall fy fx ny nx y x, 1 <= fy -> 1 <= fx -> 0 <= ny -> 0 <= nx -> 0 <= y < ny -> 0 <= x < nx ->
  (y < ny / fy * fy /\ x < nx / fx * fx <-> exists j k, 0 <= j < ny / fy /\ 0 <= k < nx / fx /\ In (y, x) (cells_under fy fx j k))
  /\ forall j k j' k', In (y, x) (cells_under fy fx j k) -> In (y, x) (cells_under fy fx j' k') -> j = j' /\ k = k'.
Proof. exact under_unique. Qed.
Print Assumptions C39_windows.

(* mode: a mode of the window's valid values, if there is one *)
Theorem C39_mode : exists g, computes SMode g /\ forall w v, In v w -> is_nan v = false -> is_mode w (g w).
Proof. exact (ex_intro _ _ (conj mode_computes mode_value)). Qed.
Print Assumptions C39_mode.
(* min, max (NaN skipped) *)
Theorem C39_min : forall w, w <> [] -> least_of w [extreme fmin w].
Proof. exact (extreme_ext fmin num_leb fmin_nan_l fmin_nan_r fmin_sel num_leb_refl num_leb_trans). Qed.
Print Assumptions C39_min.
Theorem C39_max : forall w, w <> [] -> greatest_of w [extreme fmax w].
Proof. exact (extreme_ext fmax (fun a b => num_leb b a) fmax_nan_l fmax_nan_r fmax_sel num_leb_refl (fun a b c H1 H2 => num_leb_trans c b a H2 H1)). Qed.
Print Assumptions C39_max.
(* unique: counts fit the dtype chosen for them, masked or not *)
Theorem C39_unique_fits : forall data null fy fx j k d, 0 <= fy -> 0 <= fx -> unique_dtype (fy * fx) = Some d ->
  let c := nan_unique_count (window_values data null fy fx j k) in
  (int_min d <= c <= int_max d) /\ (int_min (get_unique_dtype d) <= c <= int_max (get_unique_dtype d)).
Proof.
  exact (fun data null fy fx j k d Hy Hx E => unique_fits (fy * fx) d _ (Z.mul_nonneg_nonneg _ _ Hy Hx) E
    (eq_ind _ (fun n => 0 <= nan_unique_count (window_values data null fy fx j k) <= n) (unique_le _) _ (len_window data null fy fx j k Hy Hx))).
Qed.
Print Assumptions C39_unique_fits.

(* The result lies on the grid with the same corner and fy x fx times larger
   cells (exact arithmetic, either axis). *)
Theorem C39_coords : forall f n x0 r, 1 <= f -> 0 <= n -> forall coords, len coords = n ->
  (forall i c, get coords i = Ok c -> (c == x0 + r * (inject_Z i + (1 # 2)))%Q) ->
  len (coarsen_coords f n coords) = n / f /\
  forall k c, get (coarsen_coords f n coords) k = Ok c -> (c == x0 + (r * inject_Z f) * (inject_Z k + (1 # 2)))%Q.
Proof. exact coords_spec. Qed.
Print Assumptions C39_coords.

Theorem C39_errors : forall promote nv s ny nx fy fx ycs xcs data mask, fy < 1 \/ fx < 1 \/ (fy = 1 /\ fx = 1) ->
  aggregate promote nv s ny nx fy fx ycs xcs data mask = Err ValueError.
Proof.
  intros * H. unfold aggregate. destruct ((fy =? 1) && (fx =? 1)) eqn:E; [reflexivity|].
  replace (negb ((1 <=? fy) && (1 <=? fx))) with true by lia. reflexivity.
Qed.
Print Assumptions C39_errors.

(* 5 x 5 cells, windows of 2 x 3: the result has 2 x 1 cells; last row and last
   two columns are cut off *)
Definition ex_data : list (list num) :=
  map (map of_Z) [[1; 2; 2; 9; 9]; [3; 2; 1; 9; 9]; [0; 0; 0; 9; 9]; [0; 0; 0; 9; 9]; [9; 9; 9; 9; 9]].
Definition ex_mask : list (list bool) :=
  [[true; true; true; false; false]; [false; false; false; false; false]; [true; true; true; false; false]; [true; true; true; false; false]; [false; false; false; false; false]].
Example C39_ex_shapes : shaped2 5 5 ex_data /\ shaped2 5 5 ex_mask /\ cuts (5 / 2) [1; 1] /\ cuts (5 / 3) [1].
Proof. repeat split; repeat constructor; cbn; lia. Qed.
Example C39_ex_mode : aggregate (fun v => v) (of_Z (-1)) SMode 5 5 2 3 [1; 1] [1] ex_data (Some ex_mask) = Ok ([[of_Z 1]; [of_Z (-1)]], Some [[false]; [true]])
  /\ aggregate (fun v => v) (of_Z (-1)) SMode 5 5 2 3 [1; 1] [1] ex_data None = Ok ([[of_Z 2]; [of_Z 0]], None).
Proof. vm_compute. auto. Qed.
Example C39_ex_max : aggregate (fun v => v) (of_Z (-1)) (Builtin (extreme fmax)) 5 5 2 2 [2] [1; 1] ex_data (Some ex_mask)
  = Ok ([[of_Z 3; of_Z 9]; [of_Z (-1); of_Z 9]], Some [[false; false]; [true; false]]).
Proof. vm_compute. reflexivity. Qed.
Example C39_ex_coords : Forall2 Qeq (coarsen_coords 2 5 [21 # 2; 23 # 2; 25 # 2; 27 # 2; 29 # 2]%Q) [11 # 1; 13 # 1]%Q.
Proof. repeat constructor; reflexivity. Qed.

(* Finding: mode turns a window of valid NaN cells into a valid 0. *)
Theorem C39_mode_nan_refuted : ~ (forall data out, aggregate (fun v => v) (of_Z 0) SMode 1 2 1 2 [1] [1] data None = Ok (out, None) ->
  forall v, val2 NaN out 0 0 = v -> In v (window_values data (null_of None) 1 2 0 0)).
Proof.
  intros H. specialize (H [[NaN; NaN]] [[of_Z 0]] ltac:(vm_compute; reflexivity) (of_Z 0) ltac:(vm_compute; reflexivity)).
  vm_compute in H. destruct H as [H|[H|[]]]; discriminate.
Qed.
Print Assumptions C39_mode_nan_refuted.

(* Finding: the mode of a masked int64 raster passes through float64, and need
   not be a value of the raster. *)
Definition round53 (z : Z) : Z :=
  if Z.abs z <=? 2 ^ 53 then z
  else
    let e := Z.log2 (Z.abs z) - 52 in
    let q := z / 2 ^ e in
    let r := 2 * (z mod 2 ^ e) in
    if (r <? 2 ^ e) || ((r =? 2 ^ e) && Z.even q) then q * 2 ^ e else (q + 1) * 2 ^ e.
Definition promote64 (v : num) : num :=
  match v with
  | Fin q => of_Z (round53 (Qnum q))        (* integers *)
  | v => v
  end.
Example ex_round53 : forallb (fun z => feqb (f64_of_Z z) (f64_of_Z (round53 z))) [2 ^ 53 + 1; 2 ^ 53 + 3; - 2 ^ 53 - 1; 2 ^ 60 + 129; 2 ^ 62 - 1] = true
  /\ map round53 [2 ^ 53 + 1; 2 ^ 53 + 3; - 2 ^ 53 - 1] = [2 ^ 53; 2 ^ 53 + 4; - 2 ^ 53].
Proof. vm_compute. auto. Qed.
Theorem C39_mode_int64_refuted : ~ (forall data mask out omask, aggregate promote64 (of_Z 0) SMode 1 2 1 2 [1] [1] data (Some mask) = Ok (out, omask) ->
  null_of omask 0 0 = false -> exists v, In v (window_values data (null_of (Some mask)) 1 2 0 0) /\ num_eqb v (val2 NaN out 0 0) = true).
Proof.
  intros H. specialize (H [[of_Z (2 ^ 53 + 1); of_Z 0]] [[false; true]] [[of_Z (2 ^ 53)]] (Some [[false]]) ltac:(vm_compute; reflexivity) ltac:(vm_compute; reflexivity)).
  destruct H as (v & H & E). vm_compute in H. destruct H as [<-|[<-|[]]]; vm_compute in E; discriminate.
Qed.
Print Assumptions C39_mode_int64_refuted.
