(* C15, C17, C18: cutting a raster into pieces. *)
From Verif Require Import Base Chunks ChunksSpec ChunksProofs.
From Coq Require Import Ascii Sorted.

(* C15: the ranges follow each other without gaps over the whole axis, and the
   k-th range has the size of the k-th chunk. *)
Theorem C15_locations_partition : forall chunks,
  Forall (fun c => 0 <= c) chunks ->
  len (chunks_to_array_locations chunks) = len chunks
  /\ consecutive 0 (sum chunks) (chunks_to_array_locations chunks)
  /\ forall k lo hi, get (chunks_to_array_locations chunks) k = Ok (lo, hi) ->
       get chunks k = Ok (hi - lo).
Proof. exact locations_spec. Qed.
Print Assumptions C15_locations_partition.

(* every index lies in exactly one range *)
Theorem C15_one_chunk_per_index : forall chunks i,
  Forall (fun c => 0 <= c) chunks -> 0 <= i < sum chunks ->
  exists! k, exists lo hi,
    get (chunks_to_array_locations chunks) k = Ok (lo, hi) /\ lo <= i < hi.
Proof. exact locations_unique. Qed.
Print Assumptions C15_one_chunk_per_index.

(* np.ndindex visits every block, once, in row-major order *)
Theorem C15_row_major : forall n ny nx,
  (forall b r c, In (b, r, c) (ndindex3 n ny nx) <-> 0 <= b < n /\ 0 <= r < ny /\ 0 <= c < nx)
  /\ StronglySorted lex3 (ndindex3 n ny nx).
Proof. exact (fun n ny nx => conj (ndindex3_in n ny nx) (ndindex3_sorted n ny nx)). Qed.
Print Assumptions C15_row_major.

Example ex_locations : chunks_to_array_locations [3; 1; 0; 2] = [(0, 3); (3, 4); (4, 4); (4, 6)]
  /\ Forall (fun c => 0 <= c) [3; 1; 0; 2].
Proof. split; [reflexivity|repeat constructor; discriminate]. Qed.

(* C17: the four quadrants, laid out by position, are the raster. *)
Theorem C17_quadrants : forall A C (r : raster A C) n ny nx,
  well_shaped n ny nx r ->
  exists nw ne sw se, to_quadrants r ny nx = [nw; ne; sw; se]
    /\ well_shaped n (ny / 2) (nx / 2) nw /\ well_shaped n (ny / 2) (nx - nx / 2) ne
    /\ well_shaped n (ny - ny / 2) (nx / 2) sw /\ well_shaped n (ny - ny / 2) (nx - nx / 2) se
    /\ above3 (beside3 (r_data nw) (r_data ne)) (beside3 (r_data sw) (r_data se)) = r_data r
    /\ above3 (beside3 (r_mask nw) (r_mask ne)) (beside3 (r_mask sw) (r_mask se)) = r_mask r
    /\ r_y ne = r_y nw /\ r_y se = r_y sw /\ r_y nw ++ r_y sw = r_y r
    /\ r_x sw = r_x nw /\ r_x se = r_x ne /\ r_x nw ++ r_x ne = r_x r
    /\ r_band nw = r_band r /\ r_band ne = r_band r /\ r_band sw = r_band r /\ r_band se = r_band r.
Proof. exact @quadrants_spec. Qed.
Print Assumptions C17_quadrants.

(* C17: with one band per chunk, block (kb, ky, kx) holds exactly the cells at
   the chunk's location, with their mask and coordinates.  With C15 every cell
   is in exactly one block. *)
Theorem C17_chunk_rasters : forall A C (r : raster A C) bcs ycs xcs,
  well_shaped (sum bcs) (sum ycs) (sum xcs) r ->
  Forall (fun c => c = 1) bcs -> Forall (fun c => 0 <= c) ycs -> Forall (fun c => 0 <= c) xcs ->
  exists out, get_chunk_rasters r bcs ycs xcs = Ok out
    /\ shape3 (len bcs) (len ycs) (len xcs) out
    /\ forall kb ky kx b0 b1 y0 y1 x0 x1,
       get (chunks_to_array_locations bcs) kb = Ok (b0, b1) ->
       get (chunks_to_array_locations ycs) ky = Ok (y0, y1) ->
       get (chunks_to_array_locations xcs) kx = Ok (x0, x1) ->
       exists p, get3 out kb ky kx = Ok (Some p)
         /\ well_shaped 1 (y1 - y0) (x1 - x0) p
         /\ r_band p = [1]
         /\ (forall i j, 0 <= i < y1 - y0 -> 0 <= j < x1 - x0 ->
              get3 (r_data p) 0 i j = get3 (r_data r) b0 (y0 + i) (x0 + j)
              /\ get3 (r_mask p) 0 i j = get3 (r_mask r) b0 (y0 + i) (x0 + j))
         /\ (forall i, 0 <= i < y1 - y0 -> get (r_y p) i = get (r_y r) (y0 + i))
         /\ (forall j, 0 <= j < x1 - x0 -> get (r_x p) j = get (r_x r) (x0 + j)).
Proof. exact @chunk_rasters_spec. Qed.
Print Assumptions C17_chunk_rasters.

(* A raster whose bands share a chunk is not cut: assign_coords(band=[1]) does
   not fit.  (Finding: the documentation does not mention it.) *)
Theorem C17_shared_band_chunk_rejected : forall A C (r : raster A C) n ny nx bc bcs yc ycs xc xcs,
  well_shaped n ny nx r -> 0 <= bc <= n -> bc <> 1 ->
  get_chunk_rasters r (bc :: bcs) (yc :: ycs) (xc :: xcs) = Err ValueError.
Proof. exact @chunk_rasters_multiband. Qed.
Print Assumptions C17_shared_band_chunk_rejected.

Definition ex_raster : raster Z Z :=
  mkRaster [[[1; 2; 3]; [4; 5; 6]]; [[7; 8; 9]; [10; 11; 12]]]
           [[[true; false; false]; [false; false; true]]; [[false; false; false]; [true; true; true]]]
           [1; 2] [20; 10] [5; 6; 7].
Example ex_well_shaped : well_shaped (sum [1; 1]) (sum [1; 1]) (sum [2; 1]) ex_raster
  /\ Forall (fun c => c = 1) [1; 1] /\ Forall (fun c => 0 <= c) [2; 1].
Proof. repeat (split || constructor); discriminate. Qed.
Example ex_chunk_rasters :
  match get_chunk_rasters ex_raster [1; 1] [1; 1] [2; 1] with
  | Ok out => get3 out 1 1 0 = Ok (Some (mkRaster [[[10; 11]]] [[[true; true]]] [1] [10] [5; 6]))
  | Err _ => False
  end.
Proof. vm_compute. reflexivity. Qed.
Example ex_quadrants : map r_data (to_quadrants ex_raster 2 3)
  = [[[[1]]; [[7]]]; [[[2; 3]]; [[8; 9]]]; [[[4]]; [[10]]]; [[[5; 6]]; [[11; 12]]]].
Proof. vm_compute. reflexivity. Qed.

(* C18: the names are written in increasing order, hence all different ... *)
Theorem C18_names_increasing : forall prefix ext per_band n ny nx,
  StronglySorted str_lt (save_names prefix ext per_band n ny nx)
  /\ NoDup (save_names prefix ext per_band n ny nx).
Proof.
  exact (fun prefix ext per_band n ny nx =>
    conj (save_names_sorted prefix ext per_band n ny nx) (save_names_nodup prefix ext per_band n ny nx)).
Qed.
Print Assumptions C18_names_increasing.

(* ... and comparing two names is comparing the two (band, row, column) triples *)
Theorem C18_name_order : forall prefix ext n ny nx p q,
  In p (ndindex3 n ny nx) -> In q (ndindex3 n ny nx) ->
  (str_lt (name_band prefix ext (width n) (width ny) (width nx) (fst (fst p)) (snd (fst p)) (snd p))
          (name_band prefix ext (width n) (width ny) (width nx) (fst (fst q)) (snd (fst q)) (snd q))
   <-> lex3 p q).
Proof. exact name_band_order. Qed.
Print Assumptions C18_name_order.

Example ex_names : nth 23 (save_names ["d"]%char ["."; "t"]%char true 2 1 12) []
  = ["d"; "_"; "b"; "1"; "_"; "0"; "_"; "1"; "1"; "."; "t"]%char
  /\ nth 14 (save_names ["d"]%char []%char true 2 1 12) []
  = ["d"; "_"; "b"; "1"; "_"; "0"; "_"; "0"; "2"]%char.
Proof. split; vm_compute; reflexivity. Qed.
