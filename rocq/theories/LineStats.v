(* Model of line_stats.py: batching of geometries, merging of the lengths, the
   partitions of the feature table.
   The cells of a block are numbered 0 .. n-1 (idx0 * width + idx1).  A line
   says how many vertices it has, which cells its buffer touches (_rio_mask of
   geometry.buffer), and the length of its part within the circle around a
   cell's centre, if there is such a part (geopandas' overlay).  A feature is a
   multi-line with a weight. *)
From Coq Require Import String.
From Verif Require Import Base.
Open Scope Z_scope.

Section Arithmetic.
Context {S : Type}.
Variables (zero : S) (add mul : S -> S -> S).
Record line := Line { l_verts : Z; l_near : Z -> bool; l_clip : Z -> option S }.
Record feature := Feature { f_lines : list line; f_weight : S }.

(* line_stats.py:16-21 _length_sum *)
Definition length_sum (out lengths : list S) (idxs : list Z) : res (list S) :=
  foldM (fun out i =>
    let* k := get idxs i in
    let* l := get lengths i in
    let* o := get out k in
    set out k (add o l)) (zrange 0 (len lengths)) out.
(* line_stats.py:24-45 _compute_lengths.  geoms: lines with their weights; the rows of the
   overlay come line by line (exact sums do not depend on their order) *)
Definition overlay (weighted : bool) (geoms : list (line * S)) (targets : list Z) : list (S * Z) :=
  flat_map (fun '(g, w) =>
    flat_map (fun '(k, c) =>
      match l_clip g c with
      | None => []
      | Some l => [((if weighted then mul l w else l), k)]
      end) (combine (zrange 0 (len targets)) targets)) geoms.
Definition compute_lengths (weighted : bool) (geoms : list (line * S)) (targets : list Z) : res (list S) :=
  let rows := overlay weighted geoms targets in
  length_sum (full (len targets) zero) (map fst rows) (map snd rows).
(* line_stats.py:112-131 _get_indices_and_lengths_core *)
Definition core (weighted : bool) (n : Z) (geoms : list (line * S)) : res (list (Z * S)) :=
  let indices := filter (fun c => existsb (fun '(g, _) => l_near g c) geoms) (zrange 0 n) in
  let* lengths := compute_lengths weighted geoms indices in
  Ok (combine indices lengths).

(* 150, 159-160: the batches range(0, n, batch_size), iloc[i : i + batch_size] *)
Fixpoint batches {A} (fuel : nat) (batch_size : Z) (l : list A) : res (list (list A)) :=
  match l with
  | [] => Ok []
  | _ =>
      match fuel with
      | O => Err OutOfFuel
      | Datatypes.S fuel =>
          let* rest := batches fuel batch_size (slice l batch_size (len l)) in
          Ok (slice l 0 batch_size :: rest)
      end
  end.
(* groupby(["idx0", "idx1"]).sum(): one entry for each cell, ascending *)
Fixpoint add_entry (c : Z) (l : S) (d : list (Z * S)) : list (Z * S) :=
  match d with
  | [] => [(c, l)]
  | (c', l') :: d' =>
      if c =? c' then (c', add l' l) :: d'
      else if c <? c' then (c, l) :: d
      else (c', l') :: add_entry c l d'
  end.
Definition group_sum (entries : list (Z * S)) : list (Z * S) :=
  fold_left (fun d '(c, l) => add_entry c l d) entries [].
Definition VERTS_PER_GEOM_CUTOFF : Z := 15.
Definition GEOM_BATCH_SIZE : Z := 700.
(* 149-156: Some batch_size if the geometries are split.  nverts / n and
   ratio / 15 are taken as exact, as they are up to 2^40 vertices. *)
Definition batch_size_of (nverts n : Z) : option Z :=
  if ((VERTS_PER_GEOM_CUTOFF * n <? nverts) && (1 <? n)) || (GEOM_BATCH_SIZE <? n) then
    let n_batches := Z.max 1 (nverts / (VERTS_PER_GEOM_CUTOFF * n)) in
    Some (Z.min GEOM_BATCH_SIZE (Z.max 1 (n / n_batches)))
  else None.
(* line_stats.py:133-178 _get_indices_and_lengths *)
Definition explode (fs : list feature) : list (line * S) :=
  flat_map (fun f => map (fun l => (l, f_weight f)) (f_lines f)) fs.
Fixpoint map_core {A B} (f : A -> res B) (l : list A) : res (list B) :=
  match l with
  | [] => Ok []
  | x :: l => let* y := f x in let* ys := map_core f l in Ok (y :: ys)
  end.
Definition get_indices_and_lengths (weighted : bool) (n : Z) (fs : list feature) : res (list (Z * S)) :=
  let geoms := explode fs in
  let nverts := fold_left (fun a g => a + l_verts (fst g)) geoms 0 in
  match batch_size_of nverts (len geoms) with
  | Some batch_size =>
      let* bs := batches (length geoms) batch_size geoms in
      let* ds := map_core (core weighted n) bs in
      Ok (group_sum (concat ds))
  | None => core weighted n geoms
  end.
(* line_stats.py:181-199 _length on one block and one partition: output[indices] = lengths *)
Definition length_block (weighted : bool) (n : Z) (fs : list feature) : res (list S) :=
  match fs with
  | [] => Ok (full n zero)
  | _ =>
      let* d := get_indices_and_lengths weighted n fs in
      foldM (fun out '(c, l) => set out c l) d (full n zero)
  end.
(* line_stats.py:297-311 length: da.sum over the partitions of the feature table *)
Definition add_all (a b : list S) : list S := map (fun p => add (fst p) (snd p)) (combine a b).
Definition length_raster (weighted : bool) (n : Z) (parts : list (list feature)) : res (list S) :=
  foldM (fun acc p => let* r := length_block weighted n p in Ok (add_all acc r)) parts (full n zero).
End Arithmetic.

(* line_stats.py:184-191 the weights: gdf[["geometry", field]].rename({field: "weights"})
   renames labels of the index (the default axis), not columns, so that
   gdf.weights exists only if the field is called so already *)
Inductive weights_error := AttributeError.
Definition weights_column (field : option string) : option string + weights_error :=
  match field with
  | None => inl None
  | Some f =>
      let columns := ["geometry"; f]%string in
      if existsb (String.eqb "weights") columns then inl (Some "weights"%string) else inr AttributeError
  end.
