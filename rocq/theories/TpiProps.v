(* C75: the topographic position index *)
From Coq Require Import QArith.
From Verif Require Import Base Scalars Dtypes Arr2 Focal FocalSpec FocalResults Raster RasterSpec Tpi TpiSpec TpiProofs.
Open Scope Z_scope.

Theorem C75_masked : forall cast fdt rec other ms sub add junk, allocates junk -> cast I32 (of_Z (- 2 ^ 31)) = of_Z (- 2 ^ 31) ->
  forall dem ny nx ycs xcs inner outer, wf ny nx dem -> masked dem = true -> 0 < nx -> cuts ny ycs -> cuts nx xcs -> 0 <= inner < outer -> outer - 1 <= ny -> outer - 1 <= nx ->
  exists out, tpi cast fdt rec other ms sub add junk ny nx ycs xcs dem (Some inner) (Some outer) = Ok out /\ wf ny nx out /\ r_dtype out = I32 /\ r_nv out = Some (of_Z (- 2 ^ 31))
  /\ forall i j, in_raster ny nx i j -> let mean := other ms (ring_values dem ny nx inner outer i j) in let t := cast I32 (add (sub (value dem i j) mean) (Fin (1 # 2))) in
     (null out i j = true <-> null dem i j = true \/ is_nan mean = true \/ num_eqb t (of_Z (- 2 ^ 31)) = true)
     /\ value out i j = if null out i j then of_Z (- 2 ^ 31) else t.
Proof. exact tpi_masked. Qed.
Print Assumptions C75_masked.
Theorem C75_unmasked : forall cast fdt rec other ms sub add junk, allocates junk ->
  forall dem ny nx ycs xcs inner outer, wf ny nx dem -> masked dem = false -> 0 < nx -> cuts ny ycs -> cuts nx xcs -> 0 <= inner < outer -> outer - 1 <= ny -> outer - 1 <= nx ->
  exists out, tpi cast fdt rec other ms sub add junk ny nx ycs xcs dem (Some inner) (Some outer) = Ok out /\ wf ny nx out /\ r_dtype out = I32 /\ r_nv out = None
  /\ forall i j, in_raster ny nx i j -> value out i j = cast I32 (add (sub (value dem i j) (other ms (ring_values dem ny nx inner outer i j))) (Fin (1 # 2))) /\ null out i j = false.
Proof. exact tpi_unmasked. Qed.
Print Assumptions C75_unmasked.
(* with exact arithmetic and a conversion towards zero: what the index says about the
   cell and the mean around it *)
Theorem C75_exact : forall cast fdt rec other ms junk dem ny nx ycs xcs inner outer, allocates junk ->
  (forall q, - 2 ^ 31 <= trunc q < 2 ^ 31 -> cast I32 (Fin q) = of_Z (trunc q)) ->
  wf ny nx dem -> masked dem = true -> 0 < nx -> cuts ny ycs -> cuts nx xcs -> 0 <= inner < outer -> outer - 1 <= ny -> outer - 1 <= nx ->
  exists out, tpi cast fdt rec other ms exact_sub exact_add junk ny nx ycs xcs dem (Some inner) (Some outer) = Ok out
  /\ forall i j x m, in_raster ny nx i j -> null dem i j = false -> value dem i j = Fin x -> other ms (ring_values dem ny nx inner outer i j) = Fin m ->
     - 2 ^ 31 < trunc (x - m + (1 # 2)) < 2 ^ 31 ->
     null out i j = false /\ exists t, value out i j = of_Z t
     /\ (t = 0 <-> (- (3 # 2) < x - m)%Q /\ (x - m < 1 # 2)%Q)
     /\ (0 < t -> (inject_Z t - (1 # 2) <= x - m)%Q /\ (x - m < inject_Z t + (1 # 2))%Q)
     /\ (t < 0 -> (inject_Z t - (3 # 2) < x - m)%Q /\ (x - m <= inject_Z t - (1 # 2))%Q).
Proof. exact tpi_exact. Qed.
Print Assumptions C75_exact.
Theorem C75_chunks : forall cast fdt rec other ms sub add junk junk' dem ny nx ycs xcs ycs' xcs' inner outer, allocates junk -> allocates junk' -> cast I32 (of_Z (- 2 ^ 31)) = of_Z (- 2 ^ 31) ->
  wf ny nx dem -> 0 < nx -> cuts ny ycs -> cuts nx xcs -> cuts ny ycs' -> cuts nx xcs' -> 0 <= inner < outer -> outer - 1 <= ny -> outer - 1 <= nx ->
  tpi cast fdt rec other ms sub add junk ny nx ycs xcs dem (Some inner) (Some outer) = tpi cast fdt rec other ms sub add junk' ny nx ycs' xcs' dem (Some inner) (Some outer).
Proof. exact tpi_chunks. Qed.
Print Assumptions C75_chunks.
Theorem C75_refused : forall cast fdt rec other ms sub add junk dem ny nx ycs xcs,
  (forall i o, i = None \/ o = None -> tpi cast fdt rec other ms sub add junk ny nx ycs xcs dem i o = Err TypeError)
  /\ forall i o, i < 0 \/ o <= i -> tpi cast fdt rec other ms sub add junk ny nx ycs xcs dem (Some i) (Some o) = Err ValueError.
Proof. exact tpi_refused. Qed.
Print Assumptions C75_refused.

(* an exact mean and conversion *)
Definition mean_of (_ : Z) (l : list num) : num :=
  match l with [] => NaN | _ => Fin (Qred (fold_right (fun v s => match v with Fin q => q + s | _ => s end) 0 l / inject_Z (len l)))%Q end.
Definition to_int (d : dtype) (v : num) : num := match d, v with I32, Fin q => of_Z (trunc q) | I32, _ => of_Z (- 2 ^ 31) | _, _ => v end.
Definition run nv rows mask inner outer :=
  tpi to_int (fun _ => F64) (fun v _ => (v, false)) mean_of 0 exact_sub exact_add (fun h w => full h (full w NaN)) (len rows) 3 [len rows] [2; 1] (Raster F32 nv rows mask) (Some inner) (Some outer).
Definition Zs (l : list (list Z)) : arr2 num := map (map of_Z) l.
Definition none (l : list (list Z)) : arr2 bool := map (map (fun _ => false)) l.
Definition peak (c : Z) := [[5; 5; 5]; [5; c; 5]; [5; 5; 5]].
(* the four neighbours and the cell itself; the cell in the corner is null *)
Example C75_example : run (Some (of_Z 0)) (Zs [[0; 5; 5]; [5; 15; 5]; [5; 5; 5]]) [[true; false; false]; [false; false; false]; [false; false; false]] 0 2
  = Ok (Raster I32 (Some (of_Z (- 2 ^ 31))) (Zs [[- 2 ^ 31; -2; 0]; [-2; 8; -2]; [0; -2; 0]]) [[true; false; false]; [false; false; false]; [false; false; false]]).
Proof. vm_compute. reflexivity. Qed.
Example C75_hypotheses : wf 3 3 (Raster F32 (Some (of_Z 0)) (Zs (peak 7)) (none (peak 7))) /\ cuts 3 [3] /\ cuts 3 [2; 1] /\ to_int I32 (of_Z (- 2 ^ 31)) = of_Z (- 2 ^ 31)
  /\ (forall q, to_int I32 (Fin q) = of_Z (trunc q)).
Proof.
  assert (C : cuts 3 [3] /\ cuts 3 [2; 1]) by (split; (split; [repeat (constructor; [discriminate|]); constructor|reflexivity])).
  split; [|split; [apply C|split; [apply C|split; [vm_compute; reflexivity|reflexivity]]]].
  split; [reflexivity|]. split; [discriminate|]. split; [split; [reflexivity|repeat constructor]|]. split; [split; [reflexivity|repeat constructor]|]. discriminate.
Qed.
(* a cell 1 above what surrounds it has index 1, a cell 1 below has index 0 *)
Theorem C75_symmetric_refuted :
  (let* r := run None (Zs (peak 6)) (none (peak 6)) 1 2 in Ok (value r 1 1)) = Ok (of_Z 1)
  /\ (let* r := run None (Zs (peak 4)) (none (peak 4)) 1 2 in Ok (value r 1 1)) = Ok (of_Z 0).
Proof. vm_compute. split; reflexivity. Qed.
Print Assumptions C75_symmetric_refuted.
(* without a null value, a cell with nothing in its annulus gets whatever NaN is cast
   to, as a valid value *)
Theorem C75_empty_annulus_refuted :
  (let* r := run None (Zs (peak 6)) (none (peak 6)) 3 4 in Ok (r_nv r, value r 1 1, null r 1 1)) = Ok (None, of_Z (- 2 ^ 31), false)
  /\ (let* r := run (Some (of_Z 0)) (Zs (peak 6)) (none (peak 6)) 3 4 in Ok (value r 1 1, null r 1 1)) = Ok (of_Z (- 2 ^ 31), true).
Proof. vm_compute. split; reflexivity. Qed.
Print Assumptions C75_empty_annulus_refuted.
(* the outer radius is one cell less than asked for: with 1 there is only the cell *)
Theorem C75_radius_refuted : (let* r := run None (Zs (peak 9)) (none (peak 9)) 0 1 in Ok (r_data r)) = Ok (Zs [[0; 0; 0]; [0; 0; 0]; [0; 0; 0]]).
Proof. vm_compute. reflexivity. Qed.
Print Assumptions C75_radius_refuted.
