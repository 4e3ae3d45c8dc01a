(** The histogram section: context schemes, context map and histograms
    (brunsli_encode.cc:590-597 and 925-939, brunsli_decode.cc:1798-1930). *)
From Verif Require Import Base BitModel CodesModel HistModel CtxTables JBitModel HuffModel HStoreModel CMapModel.

(** kNumNonzeroContextSkip[scheme]; schemes are below kNumSchemes = 7. *)
Definition scheme_size (scheme : Z) : nat := Z.to_nat (nth (Z.to_nat scheme) kNumNonzeroContextSkip 0).
(** brunsli_decode.cc:1806 and 1829-1836: num_contexts starts from the number of components. *)
Definition contexts_of (schemes : list Z) : nat := (length schemes + fold_right Nat.add 0 (map scheme_size schemes))%nat.
(** context_map_.resize(num_contexts * kNumAvrgContexts). *)
Definition map_len (schemes : list Z) : nat := (contexts_of schemes * 9)%nat.

(** * Decoder *)

(** brunsli_decode.cc:1829-1836. *)
Fixpoint read_schemes (n : nat) : prog (list Z) :=
  match n with
  | O => Ret []
  | S m => Read 3 (fun s => if 7 <=? s then Fail else bind (read_schemes m) (fun r => Ret (s :: r)))
  end.

(** brunsli_decode.cc:1903-1914: the counts of every histogram; its table must be complete.  The
    histograms stand for the tables built from them (C14). *)
Fixpoint read_codes (n : nat) : prog (list (list Z)) :=
  match n with
  | O => Ret []
  | S m =>
      Need 207 (bind read_histogram (fun h =>
        match ans_init h (repeat (0, 0, 0) 1024) with
        | Some (_, true) => bind (read_codes m) (fun r => Ret (h :: r))
        | _ => Fail
        end))
  end.

(** brunsli_decode.cc:1798-1930 without SKIP_CONTENT (shallow_histograms is for callers that only
    measure memory): schemes, context map, histograms.  Whether the section was used up is seen by the caller. *)
Definition read_histogram_section (arena : list (Z * Z)) (num_components : nat) : prog (list Z * list Z * list (list Z)) :=
  Need (3 * num_components)
    (bind (read_schemes num_components) (fun schemes =>
      Chk (Need 11 (bind decode_var_len_uint8 (fun v =>
        Chk (let nh := Z.to_nat (v + 1) in
             bind (if (1 <? nh)%nat then read_context_map arena nh (map_len schemes) else Ret (repeat 0 (map_len schemes))) (fun cmap =>
             bind (read_codes nh) (fun codes => Chk (Ret (schemes, cmap, codes)))))))))).

(** * Encoder *)

(** Outcomes of the floating point operations of NormalizeCounts for one histogram (C16). *)
Record choices := mkChoices { ch_rnd : nat -> Z; ch_up1 : nat -> bool; ch_up2 : nat -> bool }.

(** brunsli_encode.cc:590-596, BuildAndStoreEntropyCodes: the tables used for coding, and the fields written. *)
Fixpoint store_codes (o : nat -> choices) (k : nat) (clusters : list (list Z)) : option (list (list Z) * list (nat * Z)) :=
  match clusters with
  | [] => Some ([], [])
  | h :: r =>
      let? x := store_histogram (ch_rnd (o k)) (ch_up1 (o k)) (ch_up2 (o k)) h in
      let? y := store_codes o (S k) r in
      Some (fst x :: fst y, snd x ++ snd y)
  end.

(** brunsli_encode.cc:925-939, EncodeHistogramData. *)
Definition encode_histogram_section (o : nat -> choices) (schemes : list Z) (cmap : list nat) (clusters : list (list Z))
  : option (list (list Z) * list (nat * Z)) :=
  match encode_cmap (map Z.of_nat cmap) (Z.of_nat (length clusters)) with
  | JOk f =>
      let? y := store_codes o 0 clusters in
      Some (fst y, map (fun s => (3%nat, s)) schemes ++ f ++ snd y)
  | _ => None
  end.
