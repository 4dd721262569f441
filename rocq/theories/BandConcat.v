(* general.py: band_concat, which joins rasters along the band dimension on the cells they
   have in common (xarray.concat with join="inner"). *)
From Coq Require Import QArith.
From Verif Require Import Base Scalars Dtypes Arr2.
Open Scope Z_scope.

(* Data and mask are given band by band, row by row; b_y and b_x are the coordinates of the
   rows and columns.  CRSs are numbers. *)
Record bandsr := Bands_ { b_dtype : dtype; b_nv : option num; b_crs : option Z; b_y : list Q; b_x : list Q;
  b_data : list (list (list num)); b_mask : list (list (list bool)) }.

(* pandas' Index.intersection, one after the other: the labels of the first that all others
   have.  Coordinates of rasters are decreasing or increasing, so the order is that of the
   first. *)
Definition has (l : list Q) (q : Q) : bool := existsb (Qeq_bool q) l.
Definition inner (l : list Q) (others : list (list Q)) : list Q :=
  filter (fun q => forallb (fun o => has o q) others) l.
(* the items of a at the labels new of its index *)
Definition reindex {A} (index new : list Q) (a : list A) : list A :=
  flat_map (fun q => match find (fun p => Qeq_bool (fst p) q) (combine index a) with
                     | Some p => [snd p]
                     | None => []
                     end) new.
Definition cut {A} (r : bandsr) (ys xs : list Q) (a : list (list (list A))) : list (list (list A)) :=
  map (fun band => map (fun row => reindex (b_x r) xs row) (reindex (b_y r) ys band)) a.

(* np.result_type of the dtypes, and astype *)
Section Concat.
Variable result_type : list dtype -> dtype.
Variable cast : dtype -> num -> num.

(* general.py:912-954 band_concat of rasters that get_raster (C85) gave.  The CRS of the
   result is that of the first raster, whose spatial_ref xarray keeps; only if it has none
   the last one found is written.  The numbers of the bands, 1 to n, are implied. *)
Definition band_concat (rasters : list bandsr) : res bandsr :=
  match rasters with
  | [] => Err ValueError
  | [r] => Ok r
  | r0 :: others =>
      let ys := inner (b_y r0) (map b_y others) in
      let xs := inner (b_x r0) (map b_x others) in
      let d := result_type (map b_dtype rasters) in
      let data := map (map (map (cast d))) (concat (map (fun r => cut r ys xs (b_data r)) rasters)) in
      let mask := concat (map (fun r => cut r ys xs (b_mask r)) rasters) in
      let nv := if existsb (fun r => match b_nv r with Some _ => true | None => false end) rasters then Some (default_null d) else None in
      let data := match nv with
                  | Some v => map (fun '(mb, db) => map (fun '(mr, dr) => map (fun '(m, x) => if m : bool then v else x) (combine mr dr)) (combine mb db)) (combine mask data)
                  | None => data
                  end in
      let crs := fold_left (fun c r => match b_crs r with Some k => Some k | None => c end) rasters None in
      Ok (Bands_ d nv (match b_crs r0 with Some k => Some k | None => crs end) ys xs data mask)
  end.
End Concat.
