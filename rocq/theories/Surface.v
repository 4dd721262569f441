(* Model of surface.py:27-503: surface area, slope, aspect, curvature, northing,
   easting and hillshade of one band.

   The arithmetic is a parameter (floats, or exact reals with a NaN).  Integer
   rasters without nulls are not promoted to float by the code; their sums are
   formed in 64-bit integers, here in the same arithmetic as everything else.
   (get_raster's opening of files is not modelled.) *)
From Verif Require Import Base Arr2 Focal.
Open Scope Z_scope.

Record arith (F : Type) := Arith {
  nan : F; lit : Z -> F; half : F; pi : F;
  add : F -> F -> F; sub : F -> F -> F; mul : F -> F -> F; div : F -> F -> F; opp : F -> F;
  sqrt : F -> F; atan : F -> F; atan2 : F -> F -> F; cos : F -> F; sin : F -> F;
  eqb : F -> F -> bool; ltb : F -> F -> bool; leb : F -> F -> bool;
  round32 : F -> F;   (* storing in a float32 array *)
  to_u8 : F -> F      (* casting to uint8 *)
}.
Arguments nan {F}. Arguments lit {F}. Arguments half {F}. Arguments pi {F}. Arguments add {F}. Arguments sub {F}. Arguments mul {F}.
Arguments div {F}. Arguments opp {F}. Arguments sqrt {F}. Arguments atan {F}. Arguments atan2 {F}.
Arguments cos {F}. Arguments sin {F}. Arguments eqb {F}. Arguments ltb {F}. Arguments leb {F}.
Arguments round32 {F}. Arguments to_u8 {F}.

Section Surface.
Context {F : Type} (A : arith F).
Notation "x +! y" := (add A x y) (at level 50, left associativity).
Notation "x -! y" := (sub A x y) (at level 50, left associativity).
Notation "x *! y" := (mul A x y) (at level 40, left associativity).
Notation "x /! y" := (div A x y) (at level 40, left associativity).
Notation "# n" := (lit A n%Z) (at level 5, format "# n").

(* surface.py:29-30 *)
Definition radians_to_degrees := # 180 /! pi A.
Definition degrees_to_radians := pi A /! # 180.

(* The bodies of the loops: the value stored at row ri, column ci.  [x] is xarr. *)
Definition kernel := arr2 F -> Z -> Z -> res F.

(* surface.py:47-100 _surface_area_3d *)
Definition sq (x : F) : F := x *! x.
Definition side (len2 : F) (x y : F) : F := sqrt A (len2 +! sq (x -! y)) *! half A.
Definition heron (p q r : F) : F :=
  let si := (p +! q +! r) *! half A in
  sqrt A (si *! (si -! p) *! (si -! q) *! (si -! r)).
Definition area_kernel (res : F) : kernel := fun x rw cl =>
  let sd := sq res in
  let dd := sd *! # 2 in
  let* e := get2 x rw cl in
  let* a := get2 x (rw + 1) (cl - 1) in
  let* b := get2 x (rw + 1) cl in
  let* c := get2 x (rw + 1) (cl + 1) in
  let* d := get2 x rw (cl - 1) in
  let* f := get2 x rw (cl + 1) in
  let* g := get2 x (rw - 1) (cl - 1) in
  let* h := get2 x (rw - 1) cl in
  let* i := get2 x (rw - 1) (cl + 1) in
  let ea := side dd e a in
  let eb := side sd e b in
  let ab := side sd a b in
  let ta := # 0 +! heron ea eb ab in
  let ec := side dd e c in
  let bc := side sd b c in
  let ta := ta +! heron ec eb bc in
  let ef := side sd e f in
  let cf := side sd c f in
  let ta := ta +! heron ec ef cf in
  let ei := side dd e i in
  let fi := side sd f i in
  let ta := ta +! heron ei ef fi in
  let eh := side sd e h in
  let hi := side sd h i in
  let ta := ta +! heron ei eh hi in
  let eg := side dd e g in
  let gh := side sd g h in
  let ta := ta +! heron eg eh gh in
  let ed := side sd e d in
  let dg := side sd d g in
  let ta := ta +! (let si := (eg +! dg +! ed) *! half A in sqrt A (si *! (si -! eg) *! (si -! ed) *! (si -! dg))) in
  let ad := side sd a d in
  let ta := ta +! heron ea ed ad in
  Ok ta.

(* surface.py:139-165 _slope *)
Definition slope_kernel (res0 res1 : F) (degrees : bool) : kernel := fun x ri ci =>
  let dx := res0 *! # 8 in
  let dy := res1 *! # 8 in
  let* a := get2 x (ri + 1) (ci - 1) in
  let* b := get2 x (ri + 1) ci in
  let* c := get2 x (ri + 1) (ci + 1) in
  let* d := get2 x ri (ci - 1) in
  let* f := get2 x ri (ci + 1) in
  let* g := get2 x (ri - 1) (ci - 1) in
  let* h := get2 x (ri - 1) ci in
  let* i := get2 x (ri - 1) (ci + 1) in
  let dzdx := ((c +! # 2 *! f +! i) -! (a +! # 2 *! d +! g)) /! dx in
  let dzdy := ((g +! # 2 *! h +! i) -! (a +! # 2 *! b +! c)) /! dy in
  let rise_run := sqrt A (dzdx *! dzdx +! dzdy *! dzdy) in
  Ok (if degrees then atan A rise_run *! radians_to_degrees else rise_run).

(* surface.py:209-242 _aspect *)
Definition aspect_kernel : kernel := fun x ri ci =>
  let* a := get2 x (ri - 1) (ci - 1) in
  let* b := get2 x (ri - 1) ci in
  let* c := get2 x (ri - 1) (ci + 1) in
  let* d := get2 x ri (ci - 1) in
  let* f := get2 x ri (ci + 1) in
  let* g := get2 x (ri + 1) (ci - 1) in
  let* h := get2 x (ri + 1) ci in
  let* i := get2 x (ri + 1) (ci + 1) in
  let dzdx := ((c +! # 2 *! f +! i) -! (a +! # 2 *! d +! g)) /! # 8 in
  let dzdy := ((g +! # 2 *! h +! i) -! (a +! # 2 *! b +! c)) /! # 8 in
  Ok (if eqb A dzdx (# 0) && eqb A dzdy (# 0) then # (-1)
      else
        let aspect := atan2 A dzdy (opp A dzdx) *! radians_to_degrees in
        if leb A aspect (# 90) then # 90 -! aspect else # 450 -! aspect).

(* surface.py:280-301 _curv; ca is res[0] * res[1] of the absolute cell sizes *)
Definition curv_kernel (res0 res1 : F) : kernel := fun x ri ci =>
  let ca := res0 *! res1 in
  let* z2 := get2 x (ri - 1) ci in
  let* z4 := get2 x ri (ci - 1) in
  let* z5 := get2 x ri ci in
  let* z6 := get2 x ri (ci + 1) in
  let* z8 := get2 x (ri + 1) ci in
  let dl2 := (z4 +! z6) /! # 2 -! z5 in
  let el2 := (z2 +! z8) /! # 2 -! z5 in
  Ok (# (-2) *! (dl2 +! el2) *! # 100 /! ca).

(* surface.py:409-451 _hillshade *)
Definition hillshade_kernel (res0 res1 azimuth altitude : F) : kernel := fun x ri ci =>
  let a_rad := (# 360 -! azimuth +! # 90) *! degrees_to_radians in
  let z_rad := (# 90 -! altitude) *! degrees_to_radians in
  let dx := res0 *! # 8 in
  let dy := res1 *! # 8 in
  let* a := get2 x (ri + 1) (ci - 1) in
  let* b := get2 x (ri + 1) ci in
  let* c := get2 x (ri + 1) (ci + 1) in
  let* d := get2 x ri (ci - 1) in
  let* f := get2 x ri (ci + 1) in
  let* g := get2 x (ri - 1) (ci - 1) in
  let* h := get2 x (ri - 1) ci in
  let* i := get2 x (ri - 1) (ci + 1) in
  let dzdx := ((c +! # 2 *! f +! i) -! (a +! # 2 *! d +! g)) /! dx in
  let dzdy := ((g +! # 2 *! h +! i) -! (a +! # 2 *! b +! c)) /! dy in
  let slpr := atan A (sqrt A (dzdx *! dzdx +! dzdy *! dzdy)) in
  let asr := atan2 A dzdy (opp A dzdx) in
  let asr :=
    if negb (eqb A dzdx (# 0)) then
      if ltb A asr (# 0) then # 2 *! pi A +! asr else asr
    else if ltb A (# 0) dzdy then pi A /! # 2
    else if ltb A dzdy (# 0) then # 2 *! pi A -! pi A /! # 2
    else asr in
  let hs := # 255 *! (cos A z_rad *! cos A slpr +! sin A z_rad *! sin A slpr *! cos A (a_rad -! asr)) in
  Ok (round32 A (if ltb A hs (# 0) then # 0 else hs)).

(* The common shape of the chunk functions: junk is np.empty_like, and only the
   inner cells are written. *)
Definition surface_chunk (k : kernel) (junk : arr2 F) (rows cols : Z) (x : arr2 F) : res (arr2 F) :=
  foldM (fun out ri => foldM (fun out ci => let* v := k x ri ci in set2 out ri ci v) (zrange 1 (cols - 1)) out)
    (zrange 1 (rows - 1)) junk.

(* A band: its data and, for masked rasters, its mask *)
Record sband := SBand { s_data : arr2 F; s_mask : option (arr2 bool) }.
Definition mask_of (rs : sband) : arr2 bool :=
  match s_mask rs with Some m => m | None => map (map (fun _ => false)) (s_data rs) end.
(* raster.py:3206-3212 get_raster, null_to_nan=True *)
Definition null_to_nan (rs : sband) : sband :=
  match s_mask rs with
  | Some m => SBand (where2 m (nan A) (s_data rs)) (Some m)
  | None => rs
  end.
(* 194-195 (also 126-127, 268-269, 327-328, 483-484): promoted rasters of 8 bits and
   float16 rasters are cast to float32.  raster.py:1927-1936: astype writes the
   null value into the null cells again.  [f16] is Some nv if the promoted raster
   is float16 and nv is its null value, reconciled with float32. *)
Definition astype_float32 (f16 : option F) (rs : sband) : sband :=
  match f16, s_mask rs with
  | Some nv, Some m => SBand (where2 m nv (s_data rs)) (Some m)
  | _, _ => rs
  end.
(* surface.py:33-44 _finalize; nv is the default null value of the data's type *)
Definition finalize (nv : F) (ny nx : Z) (data : arr2 F) (like : sband) : res sband :=
  let mask := mask_of like in
  let* mask := set mask 0 (full nx true) in
  let* mask := set mask (ny - 1) (full nx true) in
  let* mask := traverse (fun row => let* row := set row 0 true in set row (nx - 1) true) mask in
  Ok (SBand (where2 mask nv data) (Some mask)).

(* slope (192-206), aspect (266-277), curvature (325-337), surface_area_3d
   (124-136): the raster is ny x nx, in chunks of ycs rows and xcs columns *)
Definition surface_op (k : kernel) (f16 : option F) (nv : F) (junk : Z -> Z -> arr2 F) (ny nx : Z) (ycs xcs : list Z) (rs : sband) : res sband :=
  let raster := astype_float32 f16 (null_to_nan rs) in
  let* out_data := map_overlap Constant (nan A) ny nx 1 1 ycs xcs
    (fun rows cols => surface_chunk k (junk rows cols) rows cols) (s_data raster) in
  finalize nv ny nx out_data raster.

(* surface.py:481-502 hillshade.  replace_null(255) and set_null_value(255) make cells of
   value 255 null (raster.py:2077-2089). *)
Definition set_null_255 (rs : sband) : sband :=
  let eq := map (map (fun v => eqb A v (# 255))) (s_data rs) in
  let mask := match s_mask rs with Some m => or2 m eq | None => eq end in
  SBand (where2 mask (# 255) (s_data rs)) (Some mask).
Definition hillshade (res0 res1 azimuth altitude : F) (f16 : option F) (nv : F) (junk : Z -> Z -> arr2 F) (ny nx : Z) (ycs xcs : list Z) (rs : sband) : res sband :=
  let* out := surface_op (hillshade_kernel res0 res1 azimuth altitude) f16 nv junk ny nx ycs xcs rs in
  let out := set_null_255 (set_null_255 out) in
  let data := map (map (to_u8 A)) (s_data out) in
  Ok (SBand (match s_mask out with Some m => where2 m (# 255) data | None => data end) (s_mask out)).

(* surface.py:340-349 _northing_easting, 352-377 northing, 380-406 easting of an elevation
   raster (is_aspect=False) *)
Definition trig (northing : bool) (v : F) : F := if northing then cos A (v *! degrees_to_radians) else sin A (v *! degrees_to_radians).
Definition northing_easting (northing : bool) (nv : F) (rs : sband) : sband :=
  let raster := null_to_nan rs in
  let data := map (map (trig northing)) (s_data raster) in
  match s_mask raster with
  | Some m => SBand (where2 m nv data) (Some m)
  | None => SBand data None
  end.
Definition northing_of_dem (northing : bool) (f16 : option F) (nv : F) (junk : Z -> Z -> arr2 F) (ny nx : Z) (ycs xcs : list Z) (rs : sband) : res sband :=
  let* asp := surface_op aspect_kernel f16 nv junk ny nx ycs xcs rs in
  Ok (northing_easting northing nv asp).
End Surface.
Arguments SBand {F}. Arguments s_data {F}. Arguments s_mask {F}.
