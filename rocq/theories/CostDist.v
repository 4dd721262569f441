(* Model of /repo/raster_tools/distance/cost_distance.py: the many-source
   Dijkstra search and its wrappers.

   C is the element type of the cost array.  [barrier] is the test of lines
   219 and 263 (`cost < 0 or cost == np.inf or np.isnan(cost)`) and [csum] is
   `cost + new_cost` in the array's own arithmetic, converted to float64 by the
   product on line 275 (float32 costs are added in float32, integers wrap).
   CostDistF64 below instantiates them for float64 costs.  All other arithmetic
   is IEEE binary64, round to nearest even (numba is used without fastmath). *)
From Verif Require Import Base Heap F64.

(* cost_distance.py:89-109 _MOVES, (row offset, column offset) by move index *)
Definition moves : list (Z * Z) :=
  [(0, -1); (-1, -1); (-1, 0); (-1, 1); (0, 1); (1, 1); (1, 0); (1, -1)].

(* cost_distance.py:110 *)
Definition TRACEBACK_NOT_REACHED : Z := -2.

(* cost_distance.py:30-37 _mult_accumulate *)
Fixpoint mult_accumulate (c : Z) (x : list Z) : list Z :=
  match x with
  | [] => []
  | a :: t => (c * a) :: mult_accumulate (c * a) t
  end.

(* cost_distance.py:47-55 _get_strides for a 2D shape:
   values = [1] ++ shape[::-1][:-1]; strides = accumulate(values)[::-1] *)
Definition get_strides (shape : list Z) : list Z :=
  rev (mult_accumulate 1 (1 :: removelast (rev shape))).

(* cost_distance.py:59-63 _ravel_indices: np.sum(strides * idx) for each idx *)
Definition ravel_index (strides : list Z) (idx : Z * Z) : Z :=
  match strides with
  | [s0; s1] => s0 * fst idx + s1 * snd idx
  | _ => 0
  end.

(* cost_distance.py:417 squared length of move i; scaling = (row, col) *)
Definition move_len2 (scaling : f64 * f64) (m : Z * Z) : f64 :=
  let a := fmul (fst scaling) (f64_of_Z (fst m)) in
  let b := fmul (snd scaling) (f64_of_Z (snd m)) in
  fadd (fmul a a) (fmul b b).

(* cost_distance.py:417-421 move_lengths: squared when elevation is used *)
Definition move_lengths (scaling : f64 * f64) (use_elevation : bool) : list f64 :=
  map (fun m => if use_elevation then move_len2 scaling m
                else fsqrt (move_len2 scaling m)) moves.

Record state := mkState {
  dist : list f64;      (* flat_cost_distance *)
  tb : list Z;          (* flat_traceback *)
  alloc : list Z;       (* flat_allocation *)
  hp : @heap f64
}.

Section CostDist.
Context {C : Type} (barrier : C -> bool) (csum : C -> C -> f64).

(* The arguments of the core function. *)
Record args := mkArgs {
  a_costs : list C;            (* flat_costs *)
  a_sources : list Z;          (* flat_sources *)
  a_nrows : Z;                 (* shape[0] *)
  a_ncols : Z;                 (* shape[1] *)
  a_scaling : f64 * f64;       (* (row, col) scaling *)
  a_snull : Z;                 (* sources_null_value *)
  a_elev : list f64;           (* flat_elev *)
  a_enull : f64;               (* elevation_null_value *)
  a_use_elev : bool;
  a_diag : bool                (* use_diagonals *)
}.

(* cost_distance.py:176-183: mark and push the sources *)
Fixpoint push_sources (snull : Z) (srcs : list Z) (i : Z) (s : state)
  : res state :=
  match srcs with
  | [] => Ok s
  | src :: srcs' =>
      let* s :=
        if negb (src =? snull) then
          let* tb' := set (tb s) i (-1) in
          let* al' := set (alloc s) i src in
          let* '(h, _) := push fltb finf (hp s) fzero i in
          Ok (mkState (dist s) tb' al' h)
        else Ok s in
      push_sources snull srcs' (i + 1) s
  end.

(* cost_distance.py:240-289: one turn of the loop over moves.  [cum], [src] and
   [index] are cumcost, src and index; the four flags say at which edges the
   cell lies. *)
Definition try_move (g : args) (flat_moves : list Z) (lens : list f64)
  (top bottom left right : bool) (index src : Z) (cum : f64) (cost : C)
  (s : state) (i : Z) : res state :=
  let* move := get moves i in
  let is_at_edge := top || bottom || left || right in
  let bad_move :=
    (top && (fst move <? 0)) || (bottom && (0 <? fst move))
    || (left && (snd move <? 0)) || (right && (0 <? snd move)) in
  if is_at_edge && bad_move then Ok s
  else
    let* fm := get flat_moves i in
    let new_index := index + fm in
    let* move_length := get lens i in
    let* d := get (dist s) new_index in
    if negb (feqb d finf) then Ok s
    else
      let* new_cost := get (a_costs g) new_index in
      if barrier new_cost then Ok s
      else
        (* None: null elevation, `continue` *)
        let* ml :=
          if a_use_elev g then
            let* ev := get (a_elev g) index in
            let* new_ev := get (a_elev g) new_index in
            if feqb new_ev (a_enull g) then Ok None
            else
              let dz := fsub new_ev ev in
              Ok (Some (fsqrt (fadd move_length (fmul dz dz))))
          else Ok (Some move_length) in
        match ml with
        | None => Ok s
        | Some move_length =>
            let new_cumcost :=
              fadd cum (fmul (fmul move_length fhalf) (csum cost new_cost)) in
            if negb (feqb new_cumcost finf) then
              let* '(h, flag) := push_if_lower fltb finf (hp s) new_cumcost new_index in
              if 0 <? flag then
                let* tb' := set (tb s) new_index i in
                let* al' := set (alloc s) new_index src in
                Ok (mkState (dist s) tb' al' h)
              else Ok (mkState (dist s) (tb s) (alloc s) h)
            else Ok s
        end.

(* cost_distance.py:239-289: the loop over moves *)
Fixpoint try_moves (f : state -> Z -> res state) (is : list Z) (s : state)
  : res state :=
  match is with
  | [] => Ok s
  | i :: is' => let* s' := f s i in try_moves f is' s'
  end.

(* range(0, 8, step), cost_distance.py:238-239 *)
Definition move_range (diag : bool) : list Z :=
  if diag then [0; 1; 2; 3; 4; 5; 6; 7] else [0; 2; 4; 6].

(* cost_distance.py:201-289: one turn of the main loop, on a non-empty queue *)
Definition main_step (g : args) (strides flat_moves : list Z) (lens : list f64)
  (s : state) : res state :=
  let* '(h, cumcost, index) := pop fleb fltb finf (hp s) in
  let* src := get (alloc s) index in
  let* d' := set (dist s) index cumcost in
  let s := mkState d' (tb s) (alloc s) h in
  let* cost := get (a_costs g) index in
  if barrier cost then Ok s
  else
    let* skip :=
      if a_use_elev g then
        let* ev := get (a_elev g) index in Ok (feqb ev (a_enull g))
      else Ok false in
    if skip then Ok s
    else
      let* st0 := get strides 0 in
      let* st1 := get strides 1 in
      let r := (index / st0) mod (a_nrows g) in
      let c := (index / st1) mod (a_ncols g) in
      let top := r =? 0 in
      let bottom := r =? a_nrows g - 1 in
      let left := c =? 0 in
      let right := c =? a_ncols g - 1 in
      try_moves
        (try_move g flat_moves lens top bottom left right index src cumcost cost)
        (move_range (a_diag g)) s.

(* cost_distance.py:197-199: the main loop.  Like the code it also ends,
   silently, when the cap [n] on the number of turns is reached. *)
Fixpoint main_loop (g : args) (strides flat_moves : list Z) (lens : list f64)
  (n : nat) (s : state) : res state :=
  match n with
  | O => Ok s
  | S n' =>
      if hcount (hp s) =? 0 then Ok s
      else
        let* s' := main_step g strides flat_moves lens s in
        main_loop g strides flat_moves lens n' s'
  end.

(* cost_distance.py:114-290 _cost_distance_analysis_core, with the arguments
   flat_moves and move_lengths prepared as on lines 415-421.  [maxiter] is a
   parameter so that C07 can speak about it; the code uses size + size // 2.
   The result also exposes the final queue. *)
Definition core_with (maxiter : Z) (g : args) : res state :=
  let size := len (a_costs g) in
  let strides := get_strides [a_nrows g; a_ncols g] in
  let flat_moves := map (ravel_index strides) moves in
  let lens := move_lengths (a_scaling g) (a_use_elev g) in
  let* h := init_heap finf 128 (Z.max (size - 1) 1) in
  let s0 := mkState (full size finf) (full size TRACEBACK_NOT_REACHED)
                    (full size (a_snull g)) h in
  let* s1 := push_sources (a_snull g) (a_sources g) 0 s0 in
  main_loop g strides flat_moves lens (Z.to_nat maxiter) s1.

Definition core (g : args) : res state :=
  core_with (len (a_costs g) + len (a_costs g) / 2) g.

(* cost_distance.py:293-443 cost_distance_analysis_numpy: argument checks.
   The arrays are given flat with their common shape; an elevation of another
   shape or sources of another shape are rejected (377-392). *)
Definition cost_distance_numpy (costs : list C) (sources : list Z)
  (nrows ncols : Z) (sources_null : Z) (elevation : option (list f64))
  (elevation_null : f64) (scaling : f64 * f64) (connectivity : Z)
  : res (list f64 * list Z * list Z) :=
  if negb (len sources =? len costs) then Err ValueError
  else
    let* '(elev, enull, use_elev) :=
      match elevation with
      | None => Ok ([], fzero, false)
      | Some e => if len e =? len costs then Ok (e, elevation_null, true)
                  else Err ValueError
      end in
    if fleb (fst scaling) fzero || fleb (snd scaling) fzero then Err ValueError
    else if negb ((connectivity =? 4) || (connectivity =? 8)) then Err ValueError
    else
      let* s := core (mkArgs costs sources nrows ncols scaling sources_null elev
                             enull use_elev (connectivity =? 8)) in
      Ok (dist s, tb s, alloc s).

End CostDist.

(* float64 costs *)
Definition f64_barrier (c : f64) : bool :=
  fltb c fzero || feqb c finf || fisnan c.

(* ---------------- the public function ---------------- *)

(* A single-band float64 raster, flat: data, mask and null value (None when the
   raster is not masked).  Raster objects, lazy evaluation, coordinates and CRS
   are not modelled. *)
Record raster1 := mkRaster1 {
  r_data : list f64;
  r_mask : list bool;
  r_null : option f64
}.

(* da.where(mask, x, data) for a scalar x *)
Definition where_scalar {A} (mask : list bool) (x : A) (data : list A) : list A :=
  map (fun md => if fst md : bool then x else snd md) (combine mask data).

(* cost_distance.py:446-460 _normalize_raster_data, float dtype *)
Definition normalize_raster_data (rs : raster1) (missing : f64) : list f64 :=
  match r_null rs with
  | None => r_data rs
  | Some nv =>
      if negb (fisnan nv) then where_scalar (r_mask rs) missing (r_data rs)
      else if negb (fisnan missing) then
        map (fun d => if fisnan d then missing else d) (r_data rs)
      else r_data rs
  end.

Definition fminus1 : f64 := f64_of_Z (-1).
Definition fm9999 : f64 := f64_of_Z (-9999).
(* masking.py: default null value of float64 *)
Definition default_null_f64 : f64 := f64_of_Z (-999999).
Definition is_fin (x : f64) : bool := negb (fisnan x) && negb (fisinf x).

(* cost_distance.py:586-607: sources given as a sequence of (row, col) *)
Definition check_indices (nrows ncols : Z) (idxs : list (Z * Z)) : bool :=
  forallb (fun rc => (0 <=? fst rc) && (fst rc <? nrows)
                     && (0 <=? snd rc) && (snd rc <? ncols)) idxs.

Fixpoint has_duplicates (idxs : list (Z * Z)) : bool :=
  match idxs with
  | [] => false
  | rc :: t => existsb (fun rc' => (fst rc =? fst rc') && (snd rc =? snd rc')) t
               || has_duplicates t
  end.

Fixpoint label_sources (ncols : Z) (idxs : list (Z * Z)) (label : Z) (srcs : list Z)
  : res (list Z) :=
  match idxs with
  | [] => Ok srcs
  | (r, c) :: t =>
      let* srcs' := set srcs (r * ncols + c) label in
      label_sources ncols t (label + 1) srcs'
  end.

Definition sources_of_indices (nrows ncols : Z) (idxs : list (Z * Z))
  : res (list Z) :=
  if has_duplicates idxs then Err ValueError
  else if negb (check_indices nrows ncols idxs) then Err ValueError
  else label_sources ncols idxs 0 (full (nrows * ncols) (-1)).

(* cost_distance.py:609-680: the three outputs (data, mask, null value).
   [sources] and [snull] are prepared by the caller (558-607). *)
Definition cost_distance_analysis (costs : raster1) (nrows ncols : Z)
  (sources : list Z) (snull : Z) (elevation : option raster1)
  (resolution : f64 * f64) (connectivity : Z)
  : res ((list f64 * f64) * (list Z * Z) * (list Z * Z) * list bool) :=
  let data := normalize_raster_data costs fminus1 in
  let '(edata, enull) :=
    match elevation with
    | Some e => (Some (normalize_raster_data e fm9999), fm9999)
    | None => (None, fzero)
    end in
  (* np.abs(costs.resolution)[::-1]; resolution = (xres, yres) *)
  let scaling := (fabs (snd resolution), fabs (fst resolution)) in
  let* '(cd, tr, al) :=
    cost_distance_numpy f64_barrier fadd data sources nrows ncols snull edata enull
      scaling connectivity in
  let nv := match r_null costs with Some nv => nv | None => default_null_f64 end in
  let mask := map (fun md => fst md || negb (is_fin (snd md)))
                  (combine (r_mask costs) cd) in
  let cd := where_scalar mask nv cd in
  let tr := map (fun t => t + 1) (where_scalar mask TRACEBACK_NOT_REACHED tr) in
  let al := where_scalar mask snull al in
  Ok ((cd, nv), (tr, TRACEBACK_NOT_REACHED + 1), (al, snull), mask).
