(* C81: padding a raster to bounds.
   extends g g' top bottom lft rgt: g' is the grid g with rows and columns added;
   fills gap size n: n is the least number of cells of that size that fill the gap;
   padded ... r r' f top lft: r' holds the cells of r, moved, and new cells for f. *)
From Coq Require Import QArith Qabs String Lia.
From Verif Require Import Base Scalars Arr2 Raster FocalSpec RasterSpec Blocks BlocksSpec Pad PadGrid PadGridSpec PadGridProofs.
Open Scope Z_scope.

(* C81: the grid is extended on each side by the least number of cells that reaches the
   bound; the cells keep their values and coordinates.  A NaN bound, or an infinite one
   inwards, adds nothing *)
Theorem C81_pad : forall cast open_raster r t f b, north_up (p_box r) -> fits r -> good_fill r f -> resolve_bounds open_raster r t = Ok b ->
  minx b <> MInf -> miny b <> MInf -> maxx b <> PInf -> maxy b <> PInf ->
  exists top bottom lft rgt r', pad_to cast open_raster r t f = Ok r' /\ extends (p_box r) (p_box r') top bottom lft rgt
  /\ fills (above (maxy b) (north (p_box r))) (- af_e (gb_affine (p_box r))) top /\ fills (below (miny b) (south (p_box r))) (- af_e (gb_affine (p_box r))) bottom
  /\ fills (below (minx b) (west (p_box r))) (af_a (gb_affine (p_box r))) lft /\ fills (above (maxx b) (east (p_box r))) (af_a (gb_affine (p_box r))) rgt
  /\ padded cast r r' f top lft
  /\ p_dtype r' = p_dtype r /\ p_crs r' = p_crs r /\ p_nv r' = match f with FNone => Some (match p_nv r with Some v => v | None => default_null (p_dtype r) end) | _ => p_nv r end.
Proof. exact pad_to_ok. Qed.
Print Assumptions C81_pad.

(* C81: the result covers the raster and the bounds, with no row or column to spare; a
   raster that covers the bounds stays as it is *)
Theorem C81_covers : forall cast open_raster r t f x0 y0 x1 y1, north_up (p_box r) -> fits r -> good_fill r f -> resolve_bounds open_raster r t = Ok (Bounds (Fin x0) (Fin y0) (Fin x1) (Fin y1)) ->
  exists r', pad_to cast open_raster r t f = Ok r' /\ let g := p_box r in let g' := p_box r' in let a := af_a (gb_affine g) in let e := af_e (gb_affine g) in
  (west g' <= west g /\ west g' <= x0 /\ (west g' == west g \/ x0 < west g' + a))%Q
  /\ (east g <= east g' /\ x1 <= east g' /\ (east g' == east g \/ east g' - a < x1))%Q
  /\ (south g' <= south g /\ south g' <= y0 /\ (south g' == south g \/ y0 < south g' - e))%Q
  /\ (north g <= north g' /\ y1 <= north g' /\ (north g' == north g \/ north g' + e < y1))%Q
  /\ ((west g <= x0 /\ x1 <= east g /\ south g <= y0 /\ y1 <= north g)%Q -> extends g g' 0 0 0 0 /\ padded cast r r' f 0 0).
Proof. exact pad_covers. Qed.
Print Assumptions C81_covers.

(* C81: the bounds of a sequence, another raster (or its path), a GeoBox *)
Theorem C81_targets : forall open_raster r,
  (forall a b c d, resolve_bounds open_raster r (TSequence [Number a; Number b; Number c; Number d]) = Ok (Bounds a b c d))
  /\ (forall o, crs_differ (p_crs r) (p_crs o) = false -> north_up (p_box o) -> exists w s e n, resolve_bounds open_raster r (TRaster o) = Ok (Bounds (Fin w) (Fin s) (Fin e) (Fin n))
       /\ (w == west (p_box o) /\ s == south (p_box o) /\ e == east (p_box o) /\ n == north (p_box o))%Q)
  /\ (forall p o, open_raster p = Ok o -> resolve_bounds open_raster r (TPath p) = resolve_bounds open_raster r (TRaster o))
  /\ (forall g crs, crs_differ (p_crs r) crs = false -> exists w s e n, resolve_bounds open_raster r (TBox g crs) = Ok (Bounds (Fin w) (Fin s) (Fin e) (Fin n))
       /\ (forall c, In c (corners g) -> (w <= fst c <= e /\ s <= snd c <= n)%Q)
       /\ (exists c, In c (corners g) /\ (w == fst c)%Q) /\ (exists c, In c (corners g) /\ (e == fst c)%Q) /\ (exists c, In c (corners g) /\ (s == snd c)%Q) /\ (exists c, In c (corners g) /\ (n == snd c)%Q)).
Proof. exact targets_ok. Qed.
Print Assumptions C81_targets.

(* C81: wrong arguments *)
Theorem C81_refused : forall cast open_raster r f,
  (forall o, crs_differ (p_crs r) (p_crs o) = true -> pad_to cast open_raster r (TRaster o) f = Err ValueError)
  /\ (forall g crs, crs_differ (p_crs r) crs = true -> pad_to cast open_raster r (TBox g crs) f = Err ValueError)
  /\ (forall p e, open_raster p = Err e -> pad_to cast open_raster r (TPath p) f = Err e)
  /\ (forall l, len l <> 4 \/ In NotNumber l -> pad_to cast open_raster r (TSequence l) f = Err ValueError)
  /\ pad_to cast open_raster r TOther f = Err TypeError
  /\ (forall t b, resolve_bounds open_raster r t = Ok b -> pad_to cast open_raster r t FOther = Err TypeError /\ forall vs, len vs <> len (p_bands r) -> pad_to cast open_raster r t (FList vs) = Err ValueError).
Proof. exact pad_refused. Qed.
Print Assumptions C81_refused.
Theorem C81_infinite : forall cast open_raster r t f b, north_up (p_box r) -> good_fill r f -> resolve_bounds open_raster r t = Ok b ->
  minx b = MInf \/ miny b = MInf \/ maxx b = PInf \/ maxy b = PInf -> pad_to cast open_raster r t f = Err ValueError.
Proof. exact pad_to_infinite. Qed.
Print Assumptions C81_infinite.

(* ---- examples ---- *)
(* 2 x 2 cells of width 10 and height 5; west 0, north 20 *)
Definition ex_box : geobox := GeoBox 2 2 (Blocks.Affine 10 0 0 0 (-5 # 1) 20).
Definition ex_raster : praster := PRaster I16 (Some (of_Z (-1))) [([[of_Z 1; of_Z 2]; [of_Z 3; of_Z (-1)]], [[false; false]; [false; true]])] ex_box (Some 32611).
Definition closed (s : string) : res praster := Err KeyError.
Example C81_ex_hypotheses : north_up (p_box ex_raster) /\ fits ex_raster /\ good_fill ex_raster (FScalar (of_Z 7)).
Proof. repeat split; try reflexivity; try discriminate; repeat constructor. Qed.
(* 3 to the west needs a column, 1 above the raster a row; 12 to the east two columns *)
Definition ex_bounds : target := TSequence [Number (of_Z (-3)); Number (of_Z 10); Number (of_Z 32); Number (of_Z 21)].
Example C81_ex : exists r, pad_to (fun _ v => v) closed ex_raster ex_bounds (FScalar (of_Z 7)) = Ok r
  /\ p_bands r = [([[of_Z 7; of_Z 7; of_Z 7; of_Z 7; of_Z 7]; [of_Z 7; of_Z 1; of_Z 2; of_Z 7; of_Z 7]; [of_Z 7; of_Z 3; of_Z (-1); of_Z 7; of_Z 7]],
                   [[false; false; false; false; false]; [false; false; false; false; false]; [false; false; true; false; false]])]
  /\ (west (p_box r) == -10)%Q /\ (north (p_box r) == 25)%Q /\ (east (p_box r) == 40)%Q /\ (south (p_box r) == 10)%Q.
Proof. eexists. split; [vm_compute; reflexivity|]. repeat split; reflexivity. Qed.
Example C81_ex_none : exists r, pad_to (fun _ v => v) closed ex_raster (TBox (GeoBox 1 1 (Blocks.Affine 1 0 20 0 (-1 # 1) 20)) None) FNone = Ok r
  /\ p_bands r = [([[of_Z 1; of_Z 2; of_Z (-1)]; [of_Z 3; of_Z (-1); of_Z (-1)]], [[false; false; true]; [false; true; true]])].
Proof. eexists. split; vm_compute; reflexivity. Qed.
(* finding: NaN is a number for _is_numeric_scalar, so NaN bounds are not refused, and
   nothing is added; nor are bounds in the wrong order *)
Theorem C81_nan_refuted : ~ (forall r l f, In (Number NaN) l -> exists e, pad_to (fun _ v => v) closed r (TSequence l) f = Err e).
Proof.
  intros H. destruct (H ex_raster [Number NaN; Number NaN; Number NaN; Number NaN] FNone (or_introl eq_refl)) as [e E]. vm_compute in E. discriminate.
Qed.
Print Assumptions C81_nan_refuted.
