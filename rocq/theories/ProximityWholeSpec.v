(* What proximity analysis of a whole raster has to give. *)
From Verif Require Import Base F64 FocalSpec FocalResults BandsSpec BlockArgs.
Open Scope Z_scope.

(* a raster of nb bands of ny x nx cells, cut into chunks of one band and of any
   rows and columns *)
Record input {A} (nb ny nx : Z) (xc yc : list f64) (chunks : chunks3) (bands : list (list (list A))) : Prop := {
  in_bands : 0 < nb; in_rows : 0 < ny; in_cols : 0 < nx;
  in_xc : len xc = nx; in_yc : len yc = ny;
  in_shape : shaped3 nb ny nx bands;
  in_chunks : let '(bcs, ycs, xcs) := chunks in
    cuts nb bcs /\ Forall (fun c => c = 1) bcs /\ cuts ny ycs /\ ycs <> [] /\ cuts nx xcs /\ xcs <> []
}.
