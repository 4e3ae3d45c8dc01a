(** The size of the buffer callers of the encoder allocate (c/enc/brunsli_encode.cc). *)
From Verif Require Import Base JpegModel Encoder.

(** brunsli_encode.cc:69-87, GetMaximumBrunsliEncodedSize (size_t arithmetic, taken not to overflow); the reader sets
    num_blocks to width_in_blocks * height_in_blocks (jpeg_data_reader.cc:144). *)
Definition max_encoded_size (j : jpeg) : Z :=
  (sumZ (map (fun c => c_wb c * c_hb c) (j_comps j))) * 84 +
  (2 ^ 20 + aux_estimate j + sumZ (map (fun s => Z.of_nat (length s)) (j_app j)) + sumZ (map (fun s => Z.of_nat (length s)) (j_com j)) +
   Z.of_nat (length (j_tail j))).
