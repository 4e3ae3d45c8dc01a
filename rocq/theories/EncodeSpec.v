(** Specification used by C54: what the encoder needs from the floating point code, and the limits
    of the format that a JPEG file can exceed. *)
From Verif Require Import Base JpegModel BitModel CodesModel HistModel HistProofs QuantModel InternalsModel MetaModel HSecModel CoefModel ClusterModel Encoder.

(** The histograms that BrunsliEncodeJpeg stores, one per cluster. *)
Definition chosen_clusters (C : costs) (j : jpeg) : list (list Z) :=
  match enc_metas j (Z.of_nat (length (j_comps j))) (j_comps j) with
  | Some ms =>
      match encode_dc ms (map c_coeffs (j_comps j)) with
      | Some dc =>
          match encode_ac (negb (Z.testbit (j_version j) 1)) ms (enc_orders j) (map c_coeffs (j_comps j)) (snd dc) with
          | Some ac =>
              match entropy_codes C (fst dc ++ snd ac) (contexts_of (map cm_bits ms)) (0%nat :: map (fun m => Z.to_nat (cm_off m)) ms) with
              | Some ec => fst ec
              | None => []
              end
          | None => []
          end
      | None => []
      end
  | None => []
  end.

(** Rounding to nearest, as the floating point code does it up to small errors: there are targets
    [T n / D] that sum to 1024 up to 1/4, each is rounded to the nearest integer, and a count is only rounded up
    in the second attempt if that does not increase the error by more than 1/4. *)
Definition nearest (c : choices) (h : list Z) : Prop :=
  exists (D : Z) (T : nat -> Z), 0 < D /\
    (forall n, 0 < T n -> 2 * D * ch_rnd c n <= 2 * T n + D < 2 * D * (ch_rnd c n + 1)) /\
    (forall n, 0 < nth n h 0 -> 0 < T n) /\
    4 * Z.abs (target_sum T 0 h - 1024 * D) <= D /\
    min_error_decisions D T (ch_rnd c) (ch_up2 c) 0 h 0 0.

(** What the codecs of other projects and the floating point unit have to do for this picture. *)
Record oracle_works (O : oracle) (j : jpeg) : Prop := {
  ow_range : forall i n, 0 <= ch_rnd (or_round O i) n <= 1024;
  ow_nearest : forall i h, nth_error (chosen_clusters (or_costs O) j) i = Some h -> (exists s, 0 < nth s h 0) -> nearest (or_round O i) h;
  ow_compress : forall m, or_compress O m <> None }.

(** The limits of the format. *)
Record encodable (j : jpeg) : Prop := {
  (* every DC coefficient is within 2054 of its prediction from the neighbours *)
  en_dc : Forall (fun c => forall x y, (x < Z.to_nat (c_wb c))%nat -> (y < Z.to_nat (c_hb c))%nat ->
      Z.abs (dc_at (c_coeffs c) (y * Z.to_nat (c_wb c) + x) - predict (Z.to_nat (c_wb c)) (c_coeffs c) x y) <= 2054) (j_comps j);
  (* at most 7 padding bits per block of 8x8 pixels and component, and 256 more, if one of them is 0 *)
  en_pad : j_zero_pad j = true -> Z.of_nat (length (j_padding j)) <= padding_bits_limit (j_width j) (j_height j) (length (j_comps j));
  (* 832 APP segments with an abbreviation, 1024 others, 1024 COM segments *)
  en_meta : Z.of_nat (length (filter snd (map transform_app (j_app j)))) <= 832 /\
      Z.of_nat (length (j_app j)) - Z.of_nat (length (filter snd (map transform_app (j_app j)))) <= 1024 /\ Z.of_nat (length (j_com j)) <= 1024;
  (* the differences of the quantisation tables from the predicted ones have 16 bits *)
  en_quant : encode_quant_tables (map q_values (j_quant j)) (map c_quant (j_comps j)) <> None;
  (* the length of the JPEG internals fits the length field sized by the estimate *)
  en_aux : forall aux, encode_aux (j_width j) (j_height j) (internals_of j) (j_inter j) = Some aux ->
      Z.of_nat (length aux) < 2 ^ (7 * Z.of_nat (base128_size (aux_estimate j))) }.

(** A buffer size that is always sufficient: 654 bytes per block of 8x8 coefficients, 128 KiB for everything of limited
    size, the JPEG internals and the compressed metadata. *)
Definition option_length (o : option (list Z)) : Z := match o with Some l => Z.of_nat (length l) | None => 0 end.
Definition sufficient_size (O : oracle) (j : jpeg) : Z :=
  654 * sumZ (map (fun c => c_wb c * c_hb c) (j_comps j)) + 131072
  + option_length (encode_aux (j_width j) (j_height j) (internals_of j) (j_inter j))
  + option_length (encode_metadata (or_compress O) (j_app j) (j_com j) (j_tail j)).
