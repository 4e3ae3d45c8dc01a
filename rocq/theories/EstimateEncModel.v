(** EstimateBrunsliEncodePeakMemoryUsage (c/enc/brunsli_encode.cc:1481-1531) and the memory it is about. *)
From Verif Require Import Base JpegModel MetaModel HSecModel Encoder EstimateModel.

Definition num_blocks (j : jpeg) : Z := sumZ (map (fun c => c_wb c * c_hb c) (j_comps j)).
Definition component_states (j : jpeg) : Z := sumZ (map (fun c => component_state_size (c_wb c)) (j_comps j)).

(** brunsli_encode.cc:1491-1503.  [brotli_peak] is BrotliEncoderEstimatePeakMemoryUsage for the fixed quality and window. *)
Definition brotli_memory (brotli_peak : Z -> Z) (j : jpeg) : Z :=
  let metadata_size :=
    sumZ (map (fun s => match transform_app0 s with Some t => Z.of_nat (length t) | None => Z.of_nat (length s) end) (j_app j))
    + sumZ (map (fun s => Z.of_nat (length s)) (j_com j)) in
  if 1 <? metadata_size then brotli_peak metadata_size else 0.

(** brunsli_encode.cc:1515-1517. *)
Definition guessed_nonzeros (jpg_size : Z) (j : jpeg) : Z := Z.max 1 (Z.min 64 (jpg_size * 8 / (num_blocks j * 5))) * num_blocks j.

(** brunsli_encode.cc:1489-1531.  [None]: division by zero, or the logarithm of 0.  sizeof(Histogram) = 88 (state.h:48-58, 18 ints, an int, a double).
    size_t is taken as unbounded (C66_estimate_is_defined). *)
Definition estimate_encoder_memory (brotli_peak : Z -> Z) (jpg_size : Z) (j : jpeg) : option Z :=
  let ncomp := Z.of_nat (length (j_comps j)) in
  if num_blocks j * 5 =? 0 then None else
  let nonzeros := guessed_nonzeros jpg_size j in
  let? context_bits := select_context_bits nonzeros in
  let ncontexts := ncomp * (Z.of_nat (scheme_size context_bits) + 1) in
  let entropy_source_size := 2 * ncontexts * 9 * 88 in
  let ncodewords := Z.max (2 ^ 18) (2 * nonzeros + 6 * num_blocks j + ncomp * 1024) in
  Some (Z.max (brotli_memory brotli_peak j) (entropy_source_size + ncodewords * 8 + component_states j)).

(** The vectors that exist when EncodeAC starts with the first block.  Code words of the DC stream (1101) and of the AC stream (1189-1205), 8
    bytes each; histograms (1204, 554-557); the state of the components (1191-1201).  ResizeForBlock (617-625) only adds to it.
    The blocks of a component are all of [c_coeffs]. *)
Definition sampled_nonzeros (j : jpeg) : Z := sumZ (map (fun c => sample_nonzeros (c_coeffs c)) (j_comps j)).
Definition code_words (j : jpeg) : Z :=
  (3 * num_blocks j + 128) + sumZ (map (fun c => 2 * sample_nonzeros (c_coeffs c) + 1024 + 3 * (c_wb c * c_hb c)) (j_comps j)).
Definition histograms (j : jpeg) : Z :=
  9 * (Z.of_nat (length (j_comps j)) +
       sumZ (map (fun c => match select_context_bits (sample_nonzeros (c_coeffs c) + 1) with Some b => Z.of_nat (scheme_size b) | None => 0 end) (j_comps j))).
Definition encoder_memory (j : jpeg) : Z := 8 * code_words j + 88 * histograms j + component_states j.
