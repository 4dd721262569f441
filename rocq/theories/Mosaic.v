(* Model of /repo/raster_tools/_mosaic.py: resolving overlap between rasters
   that are already on the destination grid and dtype (reprojection and astype
   are not modelled here).  Every operation of the code is elementwise over the
   (N, H, W) stack along the first axis, so the model is the computation at one
   cell: the list of that cell's N values. *)
From Verif Require Import Base F64.

Section Mosaic.
Context {V : Type}.
(* np.isnan(v) if np.isnan(nodata) else v == nodata:
   _mosaic.py:27-31, 43, raster.py:502 get_mask_from_data *)
Variable missing : V -> bool.

(* _mosaic.py:20-33 _nb_push: forward fill along the first axis *)
Fixpoint push_from (prev : V) (l : list V) : list V :=
  match l with
  | [] => []
  | x :: t => let y := if missing x then prev else x in y :: push_from y t
  end.

Definition push (l : list V) : list V :=
  match l with [] => [] | x :: t => x :: push_from x t end.

(* _mosaic.py:47-50 _push_take_last; x is a block with at least one layer *)
Definition push_take_last (x : V) (l : list V) : V := last (push (x :: l)) x.

(* _mosaic.py:42-44 _push_binop_last *)
Definition push_binop_last (lhs rhs : V) : V := if missing rhs then lhs else rhs.

(* dask's cumreduction(method="blelloch"), which _dask_push (53-72) calls: the
   layers are split into blocks; the blocks before the last are summarised by
   preop and combined by binop in some binary tree (which one depends on the
   number of blocks); the last block becomes binop(prefix, func(block)). *)
Inductive tree :=
| Leaf (x : V) (l : list V)          (* a block with its first layer *)
| Node (a b : tree).

Fixpoint tree_value (t : tree) : V :=
  match t with
  | Leaf x l => push_take_last x l
  | Node a b => push_binop_last (tree_value a) (tree_value b)
  end.

Fixpoint tree_layers (t : tree) : list V :=
  match t with
  | Leaf x l => x :: l
  | Node a b => tree_layers a ++ tree_layers b
  end.

Record chunked := mkChunked {
  ck_prefix : option tree;           (* all blocks but the last *)
  ck_first : V;                      (* first layer of the last block *)
  ck_rest : list V
}.

Definition ck_layers (k : chunked) : list V :=
  match ck_prefix k with Some t => tree_layers t | None => [] end
  ++ ck_first k :: ck_rest k.

(* _mosaic.py:75-76 _dask_push_take_last *)
Definition dask_push_take_last (k : chunked) : V :=
  let block := push (ck_first k :: ck_rest k) in
  match ck_prefix k with
  | None => last block (ck_first k)
  | Some t => last (map (push_binop_last (tree_value t)) block) (ck_first k)
  end.

(* How dask chunks a stack of layers; arbitrary except that it is the stack. *)
Variable chunk : list V -> option chunked.

Definition chunk_ok : Prop := forall l, l <> [] ->
  exists k, chunk l = Some k /\ ck_layers k = l.

Variable nodata : V.

(* _mosaic.py:131-142 _paint_recursive, for any paint function.  [fuel] bounds
   the recursion depth. *)
Fixpoint paint_recursive (fuel : nat) (paint : list V -> res V) (l : list V)
  : res V :=
  match fuel with
  | O => Err OutOfFuel
  | S f =>
      if len l <? 8 then paint l
      else
        let h := Z.to_nat (len l / 2) in
        let* a := paint_recursive f paint (firstn h l) in
        let* b := paint_recursive f paint (skipn h l) in
        paint_recursive f paint [a; b]
  end.

(* _mosaic.py:145-152 _mosaic_single_band; [srcs] are the values of the source
   rasters in list order *)
Definition single_band (paint : list V -> res V) (srcs : list V) : res V :=
  let stack := rev srcs ++ [nodata] in
  paint_recursive (length stack) paint stack.

(* _mosaic.py:100-103 'first' and 'last' *)
Definition paint_first (l : list V) : res V :=
  match chunk l with
  | Some k => Ok (dask_push_take_last k)
  | None => Err ValueError
  end.
Definition paint_last (l : list V) : res V := paint_first (rev l).

(* _mosaic.py:155-171 _mosaic: band i is built from the rasters that have it.
   [srcs] gives each raster's bands. *)
Definition group (srcs : list (list V)) (i : nat) : list V :=
  flat_map (fun bands => match nth_error bands i with Some v => [v] | None => [] end) srcs.

Definition nbands (srcs : list (list V)) : nat :=
  fold_right Nat.max O (map (@length V) srcs).

Fixpoint mapM {A B} (f : A -> res B) (l : list A) : res (list B) :=
  match l with
  | [] => Ok []
  | a :: t => let* b := f a in let* bs := mapM f t in Ok (b :: bs)
  end.

Definition mosaic (paint : list V -> res V) (srcs : list (list V)) : res (list V) :=
  mapM (fun i => single_band paint (group srcs i)) (seq 0 (nbands srcs)).

End Mosaic.
Arguments tree V : clear implicits.
Arguments chunked V : clear implicits.

(* ---------------- min, max, sum of integer rasters ---------------- *)

(* np.iinfo of an integer dtype *)
Record iinfo := mkIinfo { i_min : Z; i_max : Z }.

Section Ints.
Variable info : iinfo.
Variable nodata : Z.

Definition imissing (v : Z) : bool := v =? nodata.

(* _mosaic.py:104-117 for an integer dtype; da.min / da.max as a fold *)
Definition paint_imin (l : list Z) : res Z :=
  let filled := map (fun v => if imissing v then i_max info else v) l in
  match filled with
  | [] => Err ValueError
  | x :: t =>
      let reduced := fold_left Z.min t x in
      Ok (if forallb imissing l then nodata else reduced)
  end.

Definition paint_imax (l : list Z) : res Z :=
  let filled := map (fun v => if imissing v then i_min info else v) l in
  match filled with
  | [] => Err ValueError
  | x :: t =>
      let reduced := fold_left Z.max t x in
      Ok (if forallb imissing l then nodata else reduced)
  end.

(* Values wrap around the dtype. *)
Definition wrap (z : Z) : Z := (z - i_min info) mod (i_max info - i_min info + 1) + i_min info.

(* _mosaic.py:118-126: da.sum with dtype fixed, so every addition wraps *)
Definition paint_isum (l : list Z) : res Z :=
  let data := map (fun v => if imissing v then 0 else v) l in
  let summed := fold_left (fun a b => wrap (a + b)) data (wrap 0) in
  Ok (if forallb imissing l then nodata else summed).

End Ints.

(* ---------------- min, max of float64 rasters ---------------- *)

Section Floats.
Variable nodata : f64.

Definition fmissing (v : f64) : bool :=
  if fisnan nodata then fisnan v else feqb v nodata.

(* np.nanmin / np.nanmax of a list: NaN if there is no number *)
Definition nanmin (l : list f64) : f64 :=
  fold_left (fun a v => if fisnan v then a
                        else if fisnan a then v
                        else if fltb v a then v else a) l fnan.
Definition nanmax (l : list f64) : f64 :=
  fold_left (fun a v => if fisnan v then a
                        else if fisnan a then v
                        else if fltb a v then v else a) l fnan.

(* _mosaic.py:104-117 for a floating dtype *)
Definition paint_fmin (l : list f64) : res f64 :=
  let filled := map (fun v => if fmissing v then fnan else v) l in
  Ok (if forallb fmissing l then nodata else nanmin filled).
Definition paint_fmax (l : list f64) : res f64 :=
  let filled := map (fun v => if fmissing v then fnan else v) l in
  Ok (if forallb fmissing l then nodata else nanmax filled).

End Floats.
