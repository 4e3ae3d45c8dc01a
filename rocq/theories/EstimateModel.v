(** BrunsliEstimateDecoderPeakMemoryUsage (c/dec/brunsli_decode.cc:2470-2503): the stream is parsed with every section but the
    histograms skipped. *)
From Verif Require Import Base BitModel CodesModel HistModel Stream Machine HeaderModel HeaderProofs ContainerModel HSecModel.

(** brunsli_decode.cc:1798-1872 with shallow_histograms: schemes and the number of histograms; the rest of the section is skipped
    without looking at it (BrunsliBitReaderFinish is not called, so there is no test of the padding). *)
Definition shallow_section (num_components : nat) : prog (list Z * Z) :=
  Need (3 * num_components)
    (bind (read_schemes num_components) (fun schemes =>
      Chk (Need 11 (bind decode_var_len_uint8 (fun v => Chk (Ret (schemes, v + 1))))))).

(** brunsli_decode.cc:2046-2196 with skip_tags = ~(1 << 6), from the position [pos] on, all of [D] being there.  A section is skipped
    without a test of the sections before it (2104-2117); after the AC section further sections are read until the end of the data
    (2056-2058: no tag after AC data is Stage::DONE).  [x]: what the histogram section gave.  Every round uses up one of 15 tags.
    NOT_ENOUGH_DATA and errors are both [None]: the caller does not tell them apart. *)
Fixpoint est_sections (D : list Z) (fuel : nat) (met : list Z) (nc : nat) (x : option (list Z * Z)) (pos : nat) : option (option (list Z * Z)) :=
  match fuel with
  | O => None
  | S f =>
      match skipn pos D with
      | [] => if mem 8 met then Some x else None
      | _ :: _ =>
          match bfull (parse_section met) pos (skipn pos D) with
          | None => None
          | Some (None, met', pos', _) => est_sections D f met' nc x pos'
          | Some (Some (tag, n), met', pos', rest) =>
              if negb (n <=? Z.of_nat (length rest)) then None
              else if tag =? 6 then
                if mem 4 met' then
                  let? r := arun false (shallow_section nc) (bits_of_bytes (firstn (Z.to_nat n) rest)) in
                  est_sections D f met' nc (Some (fst r)) (pos' + Z.to_nat n)
                else None
              else est_sections D f met' nc x (pos' + Z.to_nat n)
          end
      end
  end.

(** What the parse leaves for the estimate: blocks of the components (width, height) and the histogram section.  The stages
    SIGNATURE, HEADER and FALLBACK do not look at skip_tags. *)
Definition est_parse (D : list Z) : option (list (Z * Z) * option (list Z * Z)) :=
  match verify_signature (firstn 6 D) with
  | SigOk =>
      match bfull decode_header 6 (skipn 6 D) with
      | Some (HFallback, pos, l) =>
          match bfull decode_original pos l with
          | Some (_, _, []) => Some ([], None)
          | _ => None
          end
      | Some (HImage _ _ _ _ comps g, pos, _) =>
          let? x := est_sections D 17 [9; 2; 1] (length comps) None pos in
          Some (g_blocks g, x)
      | None => None
      end
  | _ => None
  end.

(** context.h:367-372, ComponentState::SizeInBytes, with sizeof(int) = sizeof(Prob) = 4. *)
Definition component_state_size (w : Z) : Z := (4 + (10 + 3 * w) * 64 + 2 * w) * 4 + ((11 + 2 * 8 + 11) * 64 + 32 * 63) * 4.

(** brunsli_decode.cc:2486-2502; sizeof(coeff_t) = 2, sizeof(ANSDecodingData) = 1024 * 6.  num_contexts and num_histograms are 0
    unless a histogram section was met (state_internal.h:357-358). *)
Definition est_size (len : Z) (blocks : list (Z * Z)) (x : option (list Z * Z)) : Z :=
  let num_contexts := match x with Some (schemes, _) => Z.of_nat (contexts_of schemes) | None => 0 end in
  let num_histograms := match x with Some (_, n) => n | None => 0 end in
  let jpeg_data_size := sumZ (map (fun b => fst b * snd b) blocks) * 64 * 2 in
  let decode_peak := num_contexts * 9 * 4 + num_histograms * 6144 + sumZ (map (fun b => component_state_size (fst b)) blocks) in
  let jpeg_writer_size := 2 ^ 17 + 2 ^ 16 * 4 in
  2 * len + jpeg_data_size + Z.max decode_peak jpeg_writer_size.

(** brunsli_decode.cc:2470-2503.  [None]: the null pointer, for which the status code BRUNSLI_INVALID_PARAM (3, status.h:12-22) is
    returned as the size.  size_t is taken as unbounded ([C62_estimate_does_not_overflow]). *)
Definition estimate_decoder_memory (data : option (list Z)) : Z :=
  match data with
  | None => 3
  | Some D => match est_parse D with Some (blocks, x) => est_size (Z.of_nat (length D)) blocks x | None => 0 end
  end.
