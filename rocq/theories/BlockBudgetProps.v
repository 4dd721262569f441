(* C99: the tiles map_blocks works on when out_bands is given stay within the byte budget *)
From Coq Require Import ZArith List Bool Lia.
From Verif Require Import Base BaseFacts BlockArgs BlockBudget BlockBudgetSpec BlockBudgetProofs.
Import ListNotations.
Open Scope Z_scope.

(* All rasters get the same chunks, with all bands in one; cells, shapes and dtypes stay.
   The result has out bands in one chunk and the same tiles.  A tile of more than one cell
   takes, with all bands that go in and with all that come out, at most array.chunk-size
   bytes (times dask's tolerance), if its cells are not larger than those of the first
   raster. *)
Theorem C99_budget : forall {A} num den auto chunk_size nb ny nx (ref : chunked A) rest out,
  auto_within num den auto -> 0 < den -> 0 < num < 2 * den -> 0 < chunk_size -> 0 < nb -> 0 < ny -> 0 < nx -> 0 < k_itemsize ref -> 0 < out ->
  (forall r, In r (ref :: rest) -> k_shape r = (nb, ny, nx)) ->
  exists rs cy cx, prepare auto chunk_size (ref :: rest) out = Ok (rs, ([out], cy, cx))
  /\ parts ny cy /\ parts nx cx
  /\ Forall2 (fun r r' => k_shape r' = k_shape r /\ k_itemsize r' = k_itemsize r /\ k_cells r' = k_cells r /\ k_chunks r' = ([nb], cy, cx)) (ref :: rest) rs
  /\ forall h w, In h cy -> In w cx -> (h = 1 /\ w = 1)
     \/ (forall size, 0 < size <= k_itemsize ref -> within num den chunk_size nb size h w /\ within num den chunk_size out size h w).
Proof.
  intros A num den auto chunk_size nb ny nx ref rest out AU HD HN HC Hb Hy Hx Hs Ho SH.
  exact (prepare_budget num den auto AU HD HN chunk_size nb ny nx _ out ref rest HC Hb Hy Hx Hs Ho eq_refl SH).
Qed.
Print Assumptions C99_budget.

(* with fewer bands than before the budget is array.chunk-size itself *)
Theorem C99_reduction : forall {A} auto chunk_size nb ny nx (ref : chunked A) rest out,
  0 < chunk_size -> 0 < out <= nb -> k_shape ref = (nb, ny, nx) ->
  align_single_band auto chunk_size (ref :: rest) out = chunk_all (auto (nb, ny, nx) (k_itemsize ref) (k_chunks ref) chunk_size) (ref :: rest).
Proof. intros A. exact align_reduction. Qed.
Print Assumptions C99_reduction.

Theorem C99_refused : forall {A} auto chunk_size (rs : list (chunked A)) out, out < 1 -> prepare auto chunk_size rs out = Err ValueError.
Proof. intros A. exact prepare_refused. Qed.
Print Assumptions C99_refused.

(* ---- examples ---- *)
Definition ex_ref : chunked Z := Chunked (2, 2, 10) 4 ([1; 1], [2], [10]) 7.
Definition ex_other : chunked Z := Chunked (2, 2, 10) 4 ([2], [1; 1], [4; 4; 2]) 8.
Example C99_example :
  prepare strip_auto 96 [ex_ref; ex_other] 6
  = Ok ([Chunked (2, 2, 10) 4 ([2], [1; 1], [4; 4; 2]) 7; ex_other], ([6], [1; 1], [4; 4; 2]))
  /\ prepare strip_auto 96 [ex_ref; ex_other] 1
  = Ok ([Chunked (2, 2, 10) 4 ([2], [1; 1], [10]) 7; Chunked (2, 2, 10) 4 ([2], [1; 1], [10]) 8], ([1], [1; 1], [10]))
  /\ prepare strip_auto 96 [ex_ref] 1000 = Ok ([Chunked (2, 2, 10) 4 ([2], [1; 1], repeat 1 10) 7], ([1000], [1; 1], repeat 1 10))
  /\ prepare strip_auto 96 [ex_ref] 0 = Err ValueError
  /\ prepare strip_auto 96 [ex_ref; Chunked (2, 3, 10) 4 ([2], [3], [10]) 8] 1 = Err ValueError.
Proof. repeat split; reflexivity. Qed.
Example C99_hypotheses : auto_within 1 1 strip_auto /\ 0 < 1 < 2 * 1 /\ (forall r, In r [ex_ref; ex_other] -> k_shape r = (2, 2, 10)) /\ 0 < k_itemsize ex_ref.
Proof. split; [exact strip_auto_within|]. split; [lia|]. split; [intros r [<-|[<-|[]]]; reflexivity|reflexivity]. Qed.

(* The docstring says that input and output blocks fit.  Only the dtype of the first raster
   is looked at: a result of a larger dtype, or with the mask that return_mask adds to
   every cell, does not, *)
Theorem C99_output_refuted :
  ~ (forall (ref : chunked Z) chunk_size nb ny nx out rs cy cx size h w, k_shape ref = (nb, ny, nx) -> 0 < k_itemsize ref -> 0 < chunk_size -> 0 < out -> 0 < size ->
       prepare strip_auto chunk_size [ref] out = Ok (rs, ([out], cy, cx)) -> In h cy -> In w cx -> (h = 1 /\ w = 1) \/ within 1 1 chunk_size out size h w).
Proof.
  intros H. destruct (H (Chunked (1, 1, 64) 1 ([1], [1], [64]) 0) 64 1 1 64 1 [Chunked (1, 1, 64) 1 ([1], [1], [64]) 0] [1] [64] 2 1 64) as [[_ D]|D];
    try reflexivity; try (now left); [discriminate D|]. unfold within in D. lia.
Qed.
Print Assumptions C99_output_refuted.
(* nor does another raster of a larger dtype *)
Theorem C99_inputs_refuted :
  ~ (forall (ref other : chunked Z) chunk_size nb ny nx out rs cy cx h w, k_shape ref = (nb, ny, nx) -> k_shape other = (nb, ny, nx) ->
       0 < k_itemsize ref -> 0 < k_itemsize other -> 0 < chunk_size -> 0 < out ->
       prepare strip_auto chunk_size [ref; other] out = Ok (rs, ([out], cy, cx)) -> In h cy -> In w cx ->
       (h = 1 /\ w = 1) \/ within 1 1 chunk_size nb (k_itemsize other) h w).
Proof.
  intros H. destruct (H (Chunked (1, 1, 64) 1 ([1], [1], [64]) 0) (Chunked (1, 1, 64) 8 ([1], [1], [64]) 0) 64 1 1 64 1
    [Chunked (1, 1, 64) 1 ([1], [1], [64]) 0; Chunked (1, 1, 64) 8 ([1], [1], [64]) 0] [1] [64] 1 64) as [[_ D]|D];
    try reflexivity; try (now left); [discriminate D|]. unfold within in D. cbn [k_itemsize] in D. lia.
Qed.
Print Assumptions C99_inputs_refuted.
