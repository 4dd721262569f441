(* C19, C20, C21, C52: focal statistics, correlate / convolve, focal windows.
   The claims quantify over the unmodelled statistics [other] and over the
   uninitialised arrays [junk]. *)
From Coq Require Import QArith.
From Verif Require Import Base Scalars Arr2 Stats StatsSpec Focal FocalSpec FocalCorr FocalResults.
Open Scope Z_scope.

(* [cuts n cs]: the chunk sizes cs cut n cells; [allocates junk]: junk n m is
   some n x m array (FocalResults.v). *)

Theorem C19_focal_chunk_independent other junk junk' krows kcols ny nx ycs xcs ycs' xcs' kernel s ignore_null rs :
  allocates junk -> allocates junk' ->
  0 < krows -> 0 < kcols -> 0 < ny -> 0 < nx ->
  cuts ny ycs -> cuts nx xcs -> cuts ny ycs' -> cuts nx xcs' ->
  shaped2 krows kcols kernel -> shaped2 ny nx (b_data rs) ->
  match b_mask rs with Some m => shaped2 ny nx m | None => True end ->
  focal other junk ny nx ycs xcs kernel krows kcols s ignore_null rs
  = focal other junk' ny nx ycs' xcs' kernel krows kcols s ignore_null rs.
Proof. exact (chunk_independent other junk junk' krows kcols ny nx ycs xcs ycs' xcs' kernel s ignore_null rs). Qed.
Print Assumptions C19_focal_chunk_independent.

Theorem C20_masked other junk krows kcols ny nx ycs xcs kernel s data mask :
  allocates junk -> 0 < krows -> 0 < kcols -> 0 < ny -> 0 < nx -> cuts ny ycs -> cuts nx xcs ->
  shaped2 krows kcols kernel -> shaped2 ny nx data -> shaped2 ny nx mask ->
  krows / 2 <= ny -> kcols / 2 <= nx ->
  exists out m, focal other junk ny nx ycs xcs kernel krows kcols s false (Band data (Some mask)) = Ok (Band out (Some m))
  /\ shaped2 ny nx out /\ shaped2 ny nx m
  /\ forall i j, 0 <= i < ny -> 0 <= j < nx ->
     let vals := focal_values data (val2 false mask) kernel krows kcols ny nx i j in
     let st := match s, vals with SUnique, [] => NaN | _, _ => stat_func other s vals end in
     at2 m i j (val2 false mask i j || is_nan st) /\ at2 out i j (if val2 false mask i j then NaN else st).
Proof. exact (masked_result other junk krows kcols ny nx ycs xcs kernel s data mask). Qed.
Print Assumptions C20_masked.

Theorem C20_unmasked other junk krows kcols ny nx ycs xcs kernel s ignore_null data :
  allocates junk -> 0 < krows -> 0 < kcols -> 0 < ny -> 0 < nx -> cuts ny ycs -> cuts nx xcs ->
  shaped2 krows kcols kernel -> shaped2 ny nx data ->
  krows / 2 <= ny -> kcols / 2 <= nx -> is_fast s = false ->
  exists out, focal other junk ny nx ycs xcs kernel krows kcols s ignore_null (Band data None) = Ok (Band out None)
  /\ shaped2 ny nx out
  /\ forall i j, 0 <= i < ny -> 0 <= j < nx ->
     at2 out i j (stat_func other s (focal_values data (fun _ _ => false) kernel krows kcols ny nx i j)).
Proof. exact (unmasked_result other junk krows kcols ny nx ycs xcs kernel s ignore_null data). Qed.
Print Assumptions C20_unmasked.

(* min, max and sum of a raster without nulls take another path; its values are
   finite numbers *)
Theorem C20_unmasked_fast other junk krows kcols ny nx ycs xcs kernel s ignore_null data :
  0 < krows -> 0 < kcols -> krows mod 2 = 1 -> kcols mod 2 = 1 -> 0 < ny -> 0 < nx ->
  shaped2 krows kcols kernel -> shaped2 ny nx data -> all_cells finite data ->
  s = SSum \/ ((s = SMin \/ s = SMax) /\ solid kernel krows kcols) ->
  exists out, focal other junk ny nx ycs xcs kernel krows kcols s ignore_null (Band data None) = Ok (Band out None)
  /\ shaped2 ny nx out
  /\ forall i j, 0 <= i < ny -> 0 <= j < nx ->
     exists v, at2 out i j v
     /\ nan_equal v (stat_func other s (focal_values data (fun _ _ => false) kernel krows kcols ny nx i j)) = true.
Proof.
  exact (fun a b c d e f g h _ => unmasked_fast_result other junk krows kcols ny nx ycs xcs kernel s ignore_null data a b c d e f g h).
Qed.
Print Assumptions C20_unmasked_fast.

(* With ignore_null=True the nulls of the input still stay null. *)
Theorem C20_ignore_null other junk krows kcols ny nx ycs xcs kernel s data mask :
  allocates junk -> 0 < krows -> 0 < kcols -> 0 < ny -> 0 < nx -> cuts ny ycs -> cuts nx xcs ->
  shaped2 krows kcols kernel -> shaped2 ny nx data -> shaped2 ny nx mask ->
  krows / 2 <= ny -> kcols / 2 <= nx ->
  exists out, focal other junk ny nx ycs xcs kernel krows kcols s true (Band data (Some mask)) = Ok (Band out (Some mask))
  /\ forall i j, 0 <= i < ny -> 0 <= j < nx -> val2 false mask i j = true -> at2 out i j NaN.
Proof. exact (ignore_null_result other junk krows kcols ny nx ycs xcs kernel s data mask). Qed.
Print Assumptions C20_ignore_null.

(* ---------------- examples and refutations ---------------- *)
Definition ex_junk (n m : Z) : list (list num) := full n (full m PInf).
Definition n (z : Z) : num := of_Z z.
Definition ex_data : list (list num) :=
  [[n 1; n 2; n 3; n 4]; [n 5; n 6; n 7; n 8]; [n 9; n 10; n 11; n 12]].
Definition ex_mask : list (list bool) :=
  [[false; false; false; false]; [false; true; false; false]; [false; false; false; false]].
Definition ex_kernel : list (list bool) := [[true; false]; [true; true]; [false; true]].
Definition show (r : res band) : list (list Q) :=
  match r with Ok b => map (map (fun v => match v with Fin q => Qred q | _ => (-1 # 1)%Q end)) (b_data b) | Err _ => [] end.
Definition mask_of (r : res band) : option (list (list bool)) := match r with Ok b => b_mask b | Err _ => None end.

Example C19_hypotheses : cuts 3 [1; 2] /\ cuts 4 [3; 1] /\ shaped2 3 2 ex_kernel /\ shaped2 3 4 ex_data /\ shaped2 3 4 ex_mask.
Proof. unfold cuts, shaped2. repeat split; repeat constructor; lia. Qed.
(* an even kernel, cut and whole; the sum at (0, 0) is 1 + 2: the entry below
   right lies on a null cell, the entry above outside *)
Example C19_example :
  show (focal (fun _ _ => NaN) ex_junk 3 4 [1; 2] [3; 1] ex_kernel 3 2 SSum false (Band ex_data (Some ex_mask)))
  = [[3; 12; 15; 4]; [16; -1; 30; 12]; [24; 21; 30; 20]]%Q
  /\ show (focal (fun _ _ => NaN) ex_junk 3 4 [3] [4] ex_kernel 3 2 SSum false (Band ex_data (Some ex_mask)))
  = [[3; 12; 15; 4]; [16; -1; 30; 12]; [24; 21; 30; 20]]%Q.
Proof. split; vm_compute; reflexivity. Qed.
Example C20_example : focal_values ex_data (val2 false ex_mask) ex_kernel 3 2 3 4 1 1 = [n 2; n 7; n 11].
Proof. vm_compute. reflexivity. Qed.
(* unique: no valid cell in the window is null *)
Example C20_unique_example :
  mask_of (focal (fun _ _ => NaN) ex_junk 1 3 [2; 1] [1; 2] [[true; false; false]] 1 3 SUnique false
    (Band [[n 4; n 4; n 5]] (Some [[false; false; false]]))) = Some [[true; false; false]].
Proof. vm_compute. reflexivity. Qed.

(* The documentation: "If True, cells marked as null may receive a data value,
   provided there are valid cells in the neighborhood."  They never do. *)
Theorem C20_ignore_null_refuted :
  exists data mask kernel,
    focal_values data (val2 false mask) kernel 1 3 1 3 0 1 = [n 1; n 3]
    /\ mask_of (focal (fun _ _ => NaN) ex_junk 1 3 [1] [3] kernel 1 3 SMax true (Band data (Some mask)))
       = Some [[false; true; false]].
Proof. exists [[n 1; n 2; n 3]], [[false; true; false]], [[true; true; true]]. split; vm_compute; reflexivity. Qed.
Print Assumptions C20_ignore_null_refuted.

(* An even window is centred on entry d / 2 in the path without nulls and on
   (d - 1) / 2 in the other, so adding an unrelated null value to a raster changes
   its focal minimum everywhere. *)
Theorem C20_even_refuted :
  exists data kernel,
    stat_func (fun _ _ => NaN) SMin (focal_values data (fun _ _ => false) kernel 2 1 2 1 0 0) = n 1
    /\ show (focal (fun _ _ => NaN) ex_junk 2 1 [2] [1] kernel 2 1 SMin false (Band data None)) = [[5]; [1]]%Q
    /\ show (focal (fun _ _ => NaN) ex_junk 2 1 [2] [1] kernel 2 1 SMin false (Band data (Some [[false]; [false]]))) = [[1]; [1]]%Q.
Proof. exists [[n 5]; [n 1]], [[true]; [true]]. repeat split; vm_compute; reflexivity. Qed.
Print Assumptions C20_even_refuted.

(* An annulus excludes the cell itself, but at the edge of a raster without nulls
   min and max see it: the edge is continued by repetition. *)
Theorem C20_annulus_edge_refuted :
  exists data kernel, get_focal_window (Two 1 2) None = Ok kernel
    /\ focal_values data (fun _ _ => false) kernel 3 3 1 2 0 0 = [n 1]
    /\ show (focal (fun _ _ => NaN) ex_junk 1 2 [1] [2] kernel 3 3 SMax false (Band data None)) = [[9; 9]]%Q.
Proof. exists [[n 9; n 1]], [[false; true; false]; [true; false; true]; [false; true; false]]. repeat split; vm_compute; reflexivity. Qed.
Print Assumptions C20_annulus_edge_refuted.

(* ---------------- C21 ---------------- *)
Section C21.
Context {V : Type}.
Variable nanv : V.
Variable isnan : V -> bool.
Variables (vzero : V) (vadd vmul : V -> V -> V).
Theorem C21_correlate junk krows kcols ny nx ycs xcs kernel m cval nv cast data mask :
  allocates junk -> 0 < krows -> 0 < kcols -> 0 < ny -> 0 < nx -> cuts ny ycs -> cuts nx xcs ->
  shaped2 krows kcols kernel -> Forall (Forall (fun v => isnan v = false)) kernel ->
  shaped2 ny nx data -> shaped2 ny nx mask -> krows / 2 <= ny -> kcols / 2 <= nx ->
  exists out, correlate nanv isnan vzero vadd vmul junk ny nx ycs xcs kernel krows kcols m cval nv cast (VBand data (Some mask))
    = Ok (VBand out (Some mask))
  /\ shaped2 ny nx out
  /\ forall i j, 0 <= i < ny -> 0 <= j < nx ->
     at2 out i j (if val2 false mask i j then nv else
       cast (correlation isnan vzero vadd vmul (val2 vzero kernel) krows kcols
         (beyond (mode_edge m) cval (fun p q => if val2 false mask p q then nanv else val2 nanv data p q) ny nx) i j)).
Proof. exact (correlate_result nanv isnan vzero vadd vmul junk krows kcols ny nx ycs xcs kernel m cval nv cast data mask). Qed.
Theorem C21_correlate_unmasked junk krows kcols ny nx ycs xcs kernel m cval nv cast data :
  0 < krows -> 0 < kcols -> 0 < ny -> 0 < nx ->
  shaped2 krows kcols kernel -> Forall (Forall (fun v => isnan v = false)) kernel -> shaped2 ny nx data ->
  exists out, correlate nanv isnan vzero vadd vmul junk ny nx ycs xcs kernel krows kcols m cval nv cast (VBand data None)
    = Ok (VBand out None)
  /\ shaped2 ny nx out
  /\ forall i j, 0 <= i < ny -> 0 <= j < nx ->
     at2 out i j (correlation (fun _ => false) vzero vadd vmul (val2 vzero kernel) krows kcols
         (beyond (mode_edge m) cval (val2 nanv data) ny nx) i j).
Proof. exact (correlate_unmasked_result nanv isnan vzero vadd vmul junk krows kcols ny nx ycs xcs kernel m cval nv cast data). Qed.
Theorem C21_convolve junk krows kcols ny nx ycs xcs kernel m cval nv cast data mask :
  allocates junk -> 0 < krows -> 0 < kcols -> 0 < ny -> 0 < nx -> cuts ny ycs -> cuts nx xcs ->
  shaped2 krows kcols kernel -> Forall (Forall (fun v => isnan v = false)) kernel ->
  shaped2 ny nx data -> shaped2 ny nx mask -> krows / 2 <= ny -> kcols / 2 <= nx ->
  exists out, convolve nanv isnan vzero vadd vmul junk ny nx ycs xcs kernel krows kcols m cval nv cast (VBand data (Some mask))
    = Ok (VBand out (Some mask))
  /\ shaped2 ny nx out
  /\ forall i j, 0 <= i < ny -> 0 <= j < nx ->
     at2 out i j (if val2 false mask i j then nv else
       cast (correlation isnan vzero vadd vmul (fun a b => val2 vzero kernel (krows - 1 - a) (kcols - 1 - b)) krows kcols
         (beyond (mode_edge m) cval (fun p q => if val2 false mask p q then nanv else val2 nanv data p q) ny nx) i j)).
Proof. exact (convolve_result nanv isnan vzero vadd vmul junk krows kcols ny nx ycs xcs kernel m cval nv cast data mask). Qed.
Theorem C21_convolve_unmasked junk krows kcols ny nx ycs xcs kernel m cval nv cast data :
  0 < krows -> 0 < kcols -> 0 < ny -> 0 < nx ->
  shaped2 krows kcols kernel -> Forall (Forall (fun v => isnan v = false)) kernel -> shaped2 ny nx data ->
  exists out, convolve nanv isnan vzero vadd vmul junk ny nx ycs xcs kernel krows kcols m cval nv cast (VBand data None)
    = Ok (VBand out None)
  /\ shaped2 ny nx out
  /\ forall i j, 0 <= i < ny -> 0 <= j < nx ->
     at2 out i j (correlation (fun _ => false) vzero vadd vmul (fun a b => val2 vzero kernel (krows - 1 - a) (kcols - 1 - b)) krows kcols
         (beyond (mode_edge m) cval (val2 nanv data) ny nx) i j).
Proof. exact (convolve_unmasked_result nanv isnan vzero vadd vmul junk krows kcols ny nx ycs xcs kernel m cval nv cast data). Qed.
End C21.
Print Assumptions C21_correlate.
Print Assumptions C21_correlate_unmasked.
Print Assumptions C21_convolve.
Print Assumptions C21_convolve_unmasked.

(* in exact arithmetic these are the textbook sums *)
Theorem C21_correlation_sum W krows kcols value i j :
  correlation (fun _ => false) 0 Z.add Z.mul W krows kcols value i j
  = Zsum krows (fun a => Zsum kcols (fun b => W a b * value (i + a - (krows - 1) / 2) (j + b - (kcols - 1) / 2))).
Proof. exact (correlation_sum W krows kcols value i j). Qed.
Print Assumptions C21_correlation_sum.
Theorem C21_convolution_sum W krows kcols value i j :
  correlation (fun _ => false) 0 Z.add Z.mul (fun a b => W (krows - 1 - a) (kcols - 1 - b)) krows kcols value i j
  = Zsum krows (fun a => Zsum kcols (fun b => W a b * value (i + krows / 2 - a) (j + kcols / 2 - b))).
Proof. exact (convolution_sum W krows kcols value i j). Qed.
Print Assumptions C21_convolution_sum.

Definition oadd (a b : option Z) := match a, b with Some x, Some y => Some (x + y) | _, _ => None end.
Definition omul (a b : option Z) := match a, b with Some x, Some y => Some (x * y) | _, _ => None end.
Definition onan (a : option Z) := match a with None => true | _ => false end.
Definition ozs := map (map (@Some Z)).
Definition ojunk (n m : Z) : list (list (option Z)) := full n (full m (Some 777)).
Example C21_example :
  correlate None onan (Some 0) oadd omul ojunk 2 3 [1; 1] [2; 1] (ozs [[1; 10]; [100; 1000]]) 2 2 MNearest (Some 0) (Some (-9)) (fun v => v)
    (VBand (ozs [[1; 2; 3]; [4; 5; 6]]) (Some [[false; true; false]; [false; false; false]]))
  = Ok (VBand (ozs [[5401; -9; 6633]; [5454; 6565; 6666]]) (Some [[false; true; false]; [false; false; false]]))
  /\ convolve None onan (Some 0) oadd omul ojunk 2 3 [1; 1] [2; 1] (ozs [[1; 10]; [100; 1000]]) 2 2 MNearest (Some 0) (Some (-9)) (fun v => v)
    (VBand (ozs [[1; 2; 3]; [4; 5; 6]]) (Some [[false; true; false]; [false; false; false]]))
  = Ok (VBand (ozs [[1045; -9; 3366]; [4545; 5656; 6666]]) (Some [[false; true; false]; [false; false; false]])).
Proof. split; vm_compute; reflexivity. Qed.

(* ---------------- C52 ---------------- *)
Theorem C52_rectangle w h : 0 < w -> 0 < h ->
  exists k, get_focal_window (One w) (Some h) = Ok k /\ shaped2 w h k /\ solid k w h
  /\ forall a b, 0 <= a < w -> 0 <= b < h -> at2 k a b true.
Proof. exact (rect_window w h). Qed.
Print Assumptions C52_rectangle.
Theorem C52_circle r : 0 < r ->
  exists k, get_focal_window (One r) None = Ok k /\ shaped2 (2 * r - 1) (2 * r - 1) k /\ solid k (2 * r - 1) (2 * r - 1)
  /\ forall a b, 0 <= a < 2 * r - 1 -> 0 <= b < 2 * r - 1 -> exists t, at2 k a b t /\ (t = true <-> in_disc r a b).
Proof. exact (circle_window r). Qed.
Print Assumptions C52_circle.
Theorem C52_annulus r1 r2 : 0 < r1 < r2 ->
  exists k, get_focal_window (Two r1 r2) None = Ok k /\ shaped2 (2 * r2 - 1) (2 * r2 - 1) k
  /\ forall a b, 0 <= a < 2 * r2 - 1 -> 0 <= b < 2 * r2 - 1 -> exists t, at2 k a b t
     /\ (t = true <-> in_disc r2 a b /\ ~ in_disc r1 (a - (r2 - r1)) (b - (r2 - r1))).
Proof. exact (annulus_window r1 r2). Qed.
Print Assumptions C52_annulus.
Theorem C52_errors a h : (forall v, (a = One v \/ (exists w, a = Two v w) \/ (exists w, a = Two w v)) -> v <= 0 ->
  get_focal_window a h = Err ValueError)
  /\ (forall v1 v2, a = Two v1 v2 -> v2 <= v1 \/ h <> None -> get_focal_window a h = Err ValueError)
  /\ (forall v k, a = One v -> h = Some k -> k <= 0 -> get_focal_window a h = Err ValueError).
Proof. exact (window_bad a h). Qed.
Print Assumptions C52_errors.
(* the dtype chosen for the unique counts holds every count of a window of size k *)
Theorem C52_unique_dtype k dt vals : len vals <= k -> unique_dtype k = Some dt ->
  is_unsigned dt = true /\ 0 <= nan_unique_count vals <= int_max dt.
Proof.
  exact (fun H E => unique_dtype_holds k dt (nan_unique_count vals)
    (conj (proj1 (unique_le vals)) (Z.le_trans _ _ _ (proj2 (unique_le vals)) H)) E).
Qed.
Print Assumptions C52_unique_dtype.

Example C52_example :
  get_focal_window (Two 2 3) None =
  Ok [[false; false; true; false; false]; [false; true; false; true; false]; [true; false; false; false; true];
      [false; true; false; true; false]; [false; false; true; false; false]]
  /\ get_focal_window (One 3) None =
  Ok [[false; false; true; false; false]; [false; true; true; true; false]; [true; true; true; true; true];
      [false; true; true; true; false]; [false; false; true; false; false]]
  /\ unique_dtype 255 = Some U8 /\ unique_dtype 256 = Some U16.
Proof. repeat split; vm_compute; reflexivity. Qed.
(* rows run along y: a window of width 5 and height 1 is 5 rows high *)
Theorem C52_rectangle_orientation_refuted :
  ~ (forall w h k, 0 < w -> 0 < h -> get_focal_window (One w) (Some h) = Ok k -> len k = h).
Proof. intros H. specialize (H 5 1 _ ltac:(lia) ltac:(lia) eq_refl). vm_compute in H. discriminate H. Qed.
Print Assumptions C52_rectangle_orientation_refuted.
