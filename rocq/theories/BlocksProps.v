(* C14, C15 (block infos) and C16: where a block is. *)
From Verif Require Import Base Chunks Blocks BlocksSpec BlocksProofs.
From Coq Require Import QArith.
Open Scope Z_scope.

(* C15: looking up the block info of a chunk gives the description of that chunk. *)
Theorem C15_block_infos : forall gb nbands bcs ycs xcs,
  Forall (fun c => 0 <= c) bcs -> Forall (fun c => 0 <= c) ycs -> Forall (fun c => 0 <= c) xcs ->
  exists out, geo_block_infos gb nbands bcs ycs xcs = Ok out
    /\ ChunksSpec.shape3 (len bcs) (len ycs) (len xcs) out
    /\ forall kb ky kx bs rs cs,
       get (chunks_to_array_locations bcs) kb = Ok bs ->
       get (chunks_to_array_locations ycs) ky = Ok rs ->
       get (chunks_to_array_locations xcs) kx = Ok cs ->
       exists g, lookup out (kb, ky, kx) = Ok g
         /\ g_band g = bs /\ g_rows g = rs /\ g_cols g = cs /\ g_loc g = (kb, ky, kx)
         /\ g_parent_affine g = gb_affine gb /\ g_parent_shape g = (nbands, gb_ny gb, gb_nx gb)
         /\ describes gb g.
Proof. exact geo_block_infos_spec. Qed.
Print Assumptions C15_block_infos.

(* C14: whatever sequence of calls succeeds, the result describes its window, and
   the window is the documented one; the sequence succeeds exactly when no call
   asks for a negative size or passes a non-integer. *)
Theorem C14_pad_shift : forall parent ops g, describes parent g ->
  (forall g', run_ops g ops = Ok g' ->
     moves (win_of g) ops (win_of g') /\ describes parent g'
     /\ g_band g' = g_band g /\ g_loc g' = g_loc g
     /\ g_parent_affine g' = g_parent_affine g /\ g_parent_shape g' = g_parent_shape g)
  /\ (forall w, moves (win_of g) ops w -> exists g', run_ops g ops = Ok g' /\ win_of g' = w)
  /\ (forall e, run_ops g ops = Err e -> e = TypeError \/ e = ValueError).
Proof. exact run_ops_spec. Qed.
Print Assumptions C14_pad_shift.

Definition ex_gb : geobox := GeoBox 6 6 (Affine 30 0 1000 0 (- (30 # 1)) 2000).
Definition ex_block : gbi :=
  GBI (gb_window ex_gb (2, 4) (0, 3)) (0, 1) (2, 4) (0, 3) (0, 1, 0) (gb_affine ex_gb) (1, 6, 6).
Example ex_describes : describes ex_gb ex_block.
Proof. apply window_describes; discriminate. Qed.
Example ex_ops :
  match run_ops ex_block [OpPad (Int 1) None; OpShiftX (Int 2); OpPadY (Int (-3)) (Int 0)] with
  | Ok g => win_of g = (4, 5, 1, 6)
            /\ Qpair_eq (gb_coord (g_geobox g) 0 0) (1045 # 1, 1865 # 1)%Q
  | Err _ => False
  end
  /\ run_ops ex_block [OpPadY (Int (-2)) (Int (-1))] = Err ValueError
  /\ run_ops ex_block [OpShift NotInt None] = Err TypeError.
Proof. split; [|split; reflexivity]. vm_compute. repeat split. Qed.

(* C16: with the same depth on both sides, at every chunk when the boundary pads
   and at interior chunks when it does not, the description handed to the function
   has the shape of the block and the window of the block. *)
Theorem C16_symmetric_depth : forall gb nbands bcs ycs xcs padded dy dx kb ky kx bs rs cs,
  Forall (fun c => 0 <= c) bcs -> Forall (fun c => 0 <= c) ycs -> Forall (fun c => 0 <= c) xcs ->
  0 <= dy -> 0 <= dx ->
  get (chunks_to_array_locations bcs) kb = Ok bs ->
  get (chunks_to_array_locations ycs) ky = Ok rs ->
  get (chunks_to_array_locations xcs) kx = Ok cs ->
  padded = true \/ (0 < ky < len ycs - 1 /\ 0 < kx < len xcs - 1) ->
  exists tbl shape g,
    geo_block_infos gb nbands bcs ycs xcs = Ok tbl
    /\ overlapped_shape padded (dy, dy) (dx, dx) ycs xcs (kb, ky, kx) (snd bs - fst bs) = Ok shape
    /\ resolve_gbi_with_overlap_pad tbl (kb, ky, kx) shape = Ok g
    /\ g_shape g = shape
    /\ describes gb g
    /\ win_of g = (fst rs - dy, snd rs + dy, fst cs - dx, snd cs + dx).
Proof. exact overlap_symmetric. Qed.
Print Assumptions C16_symmetric_depth.

(* In general the shape is always right, and the position is right exactly when
   each axis is extended by the same amount on both sides (or by one cell more
   below / to the right). *)
Theorem C16_when_exact : forall gb nbands bcs ycs xcs padded dy dx kb ky kx bs rs cs,
  Forall (fun c => 0 <= c) bcs -> Forall (fun c => 0 <= c) ycs -> Forall (fun c => 0 <= c) xcs ->
  0 <= fst dy -> 0 <= snd dy -> 0 <= fst dx -> 0 <= snd dx ->
  get (chunks_to_array_locations bcs) kb = Ok bs ->
  get (chunks_to_array_locations ycs) ky = Ok rs ->
  get (chunks_to_array_locations xcs) kx = Ok cs ->
  let t := above padded dy ky in let b := below padded dy (len ycs) ky in
  let l := above padded dx kx in let r := below padded dx (len xcs) kx in
  exists tbl shape g,
    geo_block_infos gb nbands bcs ycs xcs = Ok tbl
    /\ overlapped_shape padded dy dx ycs xcs (kb, ky, kx) (snd bs - fst bs) = Ok shape
    /\ resolve_gbi_with_overlap_pad tbl (kb, ky, kx) shape = Ok g
    /\ g_shape g = shape
    /\ describes gb g
    /\ g_loc g = (kb, ky, kx)
    /\ (win_of g = (fst rs - t, snd rs + b, fst cs - l, snd cs + r)
        <-> (t = b \/ b = t + 1) /\ (l = r \/ r = l + 1)).
Proof. exact overlap_spec. Qed.
Print Assumptions C16_when_exact.

(* Finding: the docstring says "exact for interior chunks", but with the accepted
   depth {1: (2, 0)} an interior chunk is described one row too low. *)
Theorem C16_interior_exact_refuted :
  exists gb bcs ycs xcs dy dx tbl shape g,
    geo_block_infos gb 1 bcs ycs xcs = Ok tbl
    /\ overlapped_shape false dy dx ycs xcs (0, 1, 1) 1 = Ok shape
    /\ resolve_gbi_with_overlap_pad tbl (0, 1, 1) shape = Ok g
    /\ 0 < 1 < len ycs - 1 /\ 0 < 1 < len xcs - 1
    (* rows 3..5 are chunk 1; the block holds rows 1..5 *)
    /\ get (chunks_to_array_locations ycs) 1 = Ok (3, 6) /\ dy = (2, 0)
    /\ g_rows g = (2, 7).
Proof.
  exists ex_gb, [1], [3; 3; 3], [3; 3; 3], (2, 0), (0, 0).
  do 3 eexists. split; [vm_compute; reflexivity|]. split; [vm_compute; reflexivity|].
  split; [vm_compute; reflexivity|]. repeat split; vm_compute; auto.
Qed.
Print Assumptions C16_interior_exact_refuted.

(* With boundary 'none' an edge chunk is off too; this the docstring admits
   ("slightly off-position"). *)
Theorem C16_edge_refuted :
  exists gb bcs ycs xcs tbl shape g,
    geo_block_infos gb 1 bcs ycs xcs = Ok tbl
    /\ overlapped_shape false (4, 4) (0, 0) ycs xcs (0, 0, 0) 1 = Ok shape
    /\ resolve_gbi_with_overlap_pad tbl (0, 0, 0) shape = Ok g
    (* the block holds rows 0..9 *)
    /\ get (chunks_to_array_locations ycs) 0 = Ok (0, 6)
    /\ g_rows g = (-2, 8).
Proof.
  exists ex_gb, [1], [6; 6], [6].
  do 3 eexists. split; [vm_compute; reflexivity|]. split; [vm_compute; reflexivity|].
  split; [vm_compute; reflexivity|]. repeat split; vm_compute; auto.
Qed.
Print Assumptions C16_edge_refuted.

Example ex_interior : get (chunks_to_array_locations [3; 3; 3]) 1 = Ok (3, 6)
  /\ 0 < 1 < len [3; 3; 3] - 1.
Proof. vm_compute. repeat split. Qed.
