(** C62: the estimate of the decoder's peak memory. *)
From Verif Require Import Base JpegModel BitModel HistModel Stream Machine HeaderModel HeaderProofs ContainerModel HSecModel HSecProofs ProgLogic
  InternalsProofs CodesModel CoefModel WordModel InternalsModel QuantModel PropsHeader QuantProofs JpegSpec MetaModel Decoder GrammarProofs DecoderProofs1 DecoderProofs2 DecodedSpec PropsDecoder PropsContainer PropsMeta EstimateModel EstimateProofs.

(** * Specification *)

(** Coefficients are 16-bit (jpeg_data.h, coeff_t); [c_coeffs] is a list of blocks. *)
Definition coefficient_bytes (j : jpeg) : Z := sumZ (map (fun c => 2 * sumZ (map (fun b => Z.of_nat (length b)) (c_coeffs c))) (j_comps j)).

(** The arrays of a ComponentState after SetWidth(w) (context.h:347-392), in bytes: two ints, order, mult_row and mult_col, then the
    vectors of ints, then those of probabilities (4 bytes each). *)
Definition state_bytes (w : Z) : Z :=
  4 * (1 + 1 + 64 + 64 + 64)
  + w + 4 * ((w + 1) + 64 * 2 * (w + 3) + 64 * (w + 1))
  + 4 * (11 * 64 + (2 * 8 + 1) * 64 + 10 * 64 + 32 * 63).

(** Context map (one byte for an entry) and one decoding table of 1024 entries of 6 bytes for each histogram. *)
Definition table_bytes (r : list Z * list Z * list (list Z)) : Z := let '(_, cmap, codes) := r in Z.of_nat (length cmap) + 1024 * 6 * Z.of_nat (length codes).

(** * Proofs *)
Lemma state_covered w : 0 <= w -> state_bytes w <= component_state_size w.
Proof. intros H. unfold state_bytes, component_state_size. lia. Qed.

Lemma widths_pos j : decoded_ok j -> forall c, In c (j_comps j) -> 0 <= c_wb c.
Proof.
  intros D c I. destruct (do_picture j D) as (_ & _ & _ & _ & _ & (_ & _ & _ & _ & _ & _ & V)). cbn [grid_of g_blocks] in V. rewrite Forall_forall in V.
  specialize (V _ (in_map (fun c => (c_wb c, c_hb c)) _ c I)). cbn [fst snd] in V. lia.
Qed.

Lemma sumZ_le_map {A} (f g : A -> Z) l : (forall x, In x l -> f x <= g x) -> sumZ (map f l) <= sumZ (map g l).
Proof. unfold sumZ. induction l as [|a l IH]; intros H; cbn [map fold_right]; [lia|]. pose proof (H a (or_introl eq_refl)). specialize (IH (fun x I => H x (or_intror I))). lia. Qed.

Lemma sumZ_scale k l : sumZ (map (fun x => k * x) l) = k * sumZ l.
Proof. unfold sumZ. induction l as [|a l IH]; cbn [map fold_right]; lia. Qed.

Lemma blocks_sum l : Forall (fun b : list Z => length b = 64%nat) l -> sumZ (map (fun b => Z.of_nat (length b)) l) = 64 * Z.of_nat (length l).
Proof. unfold sumZ. induction 1 as [|b l H _ IH]; cbn [map fold_right length]; [reflexivity|]. rewrite IH, H. lia. Qed.

Lemma coefficient_bytes_spec j : decoded_ok j -> coefficient_bytes j = sumZ (map (fun b => fst b * snd b) (map (fun c => (c_wb c, c_hb c)) (j_comps j))) * 64 * 2.
Proof.
  intros D. pose proof (do_comps j D) as F. unfold coefficient_bytes. rewrite map_map. cbn [fst snd]. revert F. generalize (j_comps j). intros l F. unfold sumZ. induction F as [|c l (_ & _ & L & FB) F IH]; [reflexivity|]. cbn [map fold_right]. rewrite IH.
  fold (sumZ (map (fun b => Z.of_nat (length b)) (c_coeffs c))). rewrite blocks_sum by (eapply Forall_impl; [|exact FB]; cbv beta; tauto).
  match goal with |- context [Z.of_nat (length ?x)] => assert (Z.of_nat (length x) = c_wb c * c_hb c) as -> by exact L end. lia.
Qed.

Lemma est_size_ge len bl x : 2 * len + sumZ (map (fun b => fst b * snd b) bl) * 64 * 2 + 393216 <= est_size len bl x.
Proof. unfold est_size. cbv zeta. change (2 ^ 17 + 2 ^ 16 * 4) with 393216. lia. Qed.

Lemma image_facts B D p : bytes D -> decode_once (decode_stream (real_bodies B)) D = (StOk, Some (OImage p)) ->
  exists met j, picture_jpeg p = Some j /\ decoded_ok j /\ pic_ok (8 :: met) p.
Proof.
  intros Hb Ed. pose proof (decode_stream_ok _ _ D (OImage p) (real_bodies_laws B) Hb Ed) as (_ & met & n & A & P).
  assert (M : mem 7 met = true). { unfold admissible in A. cbn [Z.eqb Pos.eqb] in A. apply andb_true_iff in A as [A _]. rewrite mem_cons in A. exact A. }
  destruct (pic_decoded met p M P) as (j & Ej & H). eauto.
Qed.

(** * Theorems *)

(** For every stream that the decoder accepts, the estimate is at least the input twice, the coefficients of the returned image, and
    the larger of the writer's buffers (384 kB) and the per-component state of the decoder. *)
Theorem C62_estimate_covers_the_image : forall (B : brotli) (D : list Z) j, bytes D -> brunsli_decode_jpeg B D = (StOk, Some (OImage j)) ->
  2 * Z.of_nat (length D) + coefficient_bytes j + Z.max 393216 (sumZ (map (fun c => state_bytes (c_wb c)) (j_comps j))) <= estimate_decoder_memory (Some D).
Proof.
  intros B D j Hb E. unfold brunsli_decode_jpeg in E. destruct (decode_once (decode_stream (real_bodies B)) D) as [st [[p|d]|]] eqn:Ed; try discriminate.
  destruct (picture_jpeg p) as [j'|] eqn:Ej; [|discriminate]. injection E as -> ->. destruct (image_facts B D p Hb Ed) as (met & j' & Ej' & Dk & P). rewrite Ej in Ej'. apply some_inj in Ej'. subst j'.
  destruct (est_parse_ok B D _ Hb Ed) as (x & Ex & _). cbn [estimate_decoder_memory]. rewrite Ex, <- (pic_blocks met p j P Ej), (coefficient_bytes_spec j Dk).
  unfold est_size. cbv zeta. set (bl := map _ (j_comps j)). assert (S1 : sumZ (map (fun c => state_bytes (c_wb c)) (j_comps j)) <= sumZ (map (fun b => component_state_size (fst b)) bl)).
  { unfold bl. rewrite map_map. cbn [fst]. apply sumZ_le_map. intros c I. apply state_covered, (widths_pos j Dk c I). }
  change (2 ^ 17 + 2 ^ 16 * 4) with 393216. 
  enough (0 <= match x with Some (schemes, _) => Z.of_nat (contexts_of schemes) | None => 0 end /\ 0 <= match x with Some (_, n) => n | None => 0 end) by lia.
  destruct (est_parse_ok B D _ Hb Ed) as (x' & Ex' & Sx). rewrite Ex in Ex'. apply some_inj in Ex'. injection Ex' as <-. unfold seen in Sx. destruct (pi_hist p) as [[[s c] codes]|]; subst x; lia.
Qed.
Print Assumptions C62_estimate_covers_the_image.

(** The same with the context map and the decoding tables that the stream asks for. *)
Theorem C62_estimate_covers_the_tables : forall (B : brotli) (D : list Z) p j r, bytes D -> decode_once (decode_stream (real_bodies B)) D = (StOk, Some (OImage p)) ->
  picture_jpeg p = Some j -> pi_hist p = Some r ->
  2 * Z.of_nat (length D) + coefficient_bytes j + (table_bytes r + sumZ (map (fun c => state_bytes (c_wb c)) (j_comps j))) <= estimate_decoder_memory (Some D).
Proof.
  intros B D p j [[s cm] codes] Hb Ed Ej Eh. destruct (image_facts B D p Hb Ed) as (met & j' & Ej' & Dk & P). rewrite Ej in Ej'. apply some_inj in Ej'. subst j'.
  destruct (est_parse_ok B D _ Hb Ed) as (x & Ex & Sx). unfold seen in Sx. rewrite Eh in Sx. subst x. cbn [estimate_decoder_memory]. rewrite Ex, <- (pic_blocks met p j P Ej), (coefficient_bytes_spec j Dk).
  destruct P as (_ & _ & _ & HS & _). rewrite Eh in HS. destruct HS as (_ & _ & Lc & _). unfold map_len in Lc.
  unfold est_size, table_bytes. cbv zeta. rewrite Lc, Nat2Z.inj_mul. set (bl := map _ (j_comps j)). assert (S1 : sumZ (map (fun c => state_bytes (c_wb c)) (j_comps j)) <= sumZ (map (fun b => component_state_size (fst b)) bl)).
  { unfold bl. rewrite map_map. cbn [fst]. apply sumZ_le_map. intros c I. apply state_covered, (widths_pos j Dk c I). }
  lia.
Qed.
Print Assumptions C62_estimate_covers_the_tables.

(** A stream that is accepted, stored originals too, is never estimated at 0. *)
Theorem C62_accepted_means_nonzero : forall (B : brotli) (D : list Z) o, bytes D -> brunsli_decode_jpeg B D = (StOk, Some o) ->
  2 * Z.of_nat (length D) + 393216 <= estimate_decoder_memory (Some D).
Proof.
  intros B D [j|d] Hb E.
  - pose proof (C62_estimate_covers_the_image B D j Hb E) as H. enough (0 <= coefficient_bytes j) by lia. unfold coefficient_bytes. apply sumZ_nonneg, Forall_map, Forall_forall. intros c _.
    enough (0 <= sumZ (map (fun b => Z.of_nat (length b)) (c_coeffs c))) by lia. apply sumZ_nonneg, Forall_map, Forall_forall. intros; lia.
  - unfold brunsli_decode_jpeg in E. destruct (decode_once (decode_stream (real_bodies B)) D) as [st [[p|d']|]] eqn:Ed; try discriminate; [destruct (picture_jpeg p); discriminate|].
    injection E as -> ->. pose proof (est_parse_ok B D _ Hb Ed) as Ex. cbv beta iota in Ex. cbn [estimate_decoder_memory]. rewrite Ex. pose proof (est_size_ge (Z.of_nat (length D)) [] None). cbn [map sumZ fold_right] in H. lia.
Qed.
Print Assumptions C62_accepted_means_nonzero.

(** A stream that is cut short anywhere is estimated at 0. *)
Theorem C62_truncated_means_zero : forall (B : brotli) (D1 D2 : list Z) o, bytes (D1 ++ D2) -> D2 <> [] -> brunsli_decode_jpeg B (D1 ++ D2) = (StOk, Some o) ->
  estimate_decoder_memory (Some D1) = 0.
Proof.
  intros B D1 D2 o Hb HN E. unfold brunsli_decode_jpeg in E. destruct (decode_once (decode_stream (real_bodies B)) (D1 ++ D2)) as [st [r|]] eqn:Ed; [|discriminate].
  assert (st = StOk) as -> by (destruct r as [p|d]; [destruct (picture_jpeg p)|]; congruence). cbn [estimate_decoder_memory]. rewrite (est_parse_prefix B D1 D2 r Hb HN Ed). reflexivity.
Qed.
Print Assumptions C62_truncated_means_zero.

(** Whatever the bytes, the result is at most 2^31 above the input twice: the sums and products do not overflow. *)
Lemma scheme_size_le s : 0 <= s < 7 -> (scheme_size s <= 412)%nat.
Proof. intros H. assert (In s [0; 1; 2; 3; 4; 5; 6]) as I by (cbn [In]; lia). cbn [In] in I. destruct I as [<-|[<-|[<-|[<-|[<-|[<-|[<-|[]]]]]]]]; vm_compute; repeat constructor. Qed.

Lemma contexts_le nc s : schemes_ok nc s -> (contexts_of s <= nc * 413)%nat.
Proof.
  intros [L F]. unfold contexts_of. rewrite L. subst nc. induction F as [|a l H F IH]; cbn [length map fold_right]; [lia|]. pose proof (scheme_size_le a H). lia.
Qed.

Lemma sumZ_max {A} (f : A -> Z) m l : Forall (fun x => 0 <= f x <= m) l -> 0 <= sumZ (map f l) <= Z.of_nat (length l) * m.
Proof. unfold sumZ. induction 1 as [|a l H F IH]; cbn [map fold_right length]; lia. Qed.

Theorem C62_estimate_does_not_overflow : forall (D : list Z), bytes D ->
  0 <= estimate_decoder_memory (Some D) <= 2 * Z.of_nat (length D) + 2 ^ 31.
Proof.
  intros D Hb. cbn [estimate_decoder_memory]. destruct (est_parse D) as [[bl x]|] eqn:E; [|lia]. unfold est_parse in E.
  destruct (verify_signature (firstn 6 D)) eqn:Vs; try discriminate.
  assert (L6 : (6 <= length D)%nat). { unfold verify_signature in Vs. destruct (Nat.ltb_spec (length (firstn 6 D)) 6) as [|L]; [discriminate|]. rewrite firstn_length in L. lia. }
  destruct (bfull decode_header 6 (skipn 6 D)) as [[[h pos] l]|] eqn:F; [|discriminate].
  pose proof (bfull_ball0 header_valid D Hb decode_header 6 h pos _ L6 decode_header_ball F) as HV.
  destruct h as [|w h version legacy comps g].
  - destruct (bfull decode_original pos l) as [[[? ?] []]|]; try discriminate. injection E as <- <-. unfold est_size. cbv zeta. cbn [map sumZ fold_right]. lia.
  - destruct (est_sections D 17 [9; 2; 1] (length comps) None pos) as [x'|] eqn:Ex; [|discriminate]. cbv beta iota delta [obind] in E. injection E as <- <-.
    pose proof (est_sections_hist D 17 [9; 2; 1] (length comps) None pos x' ltac:(discriminate) Ex) as HX.
    cbn [header_valid] in HV. destruct HV as (_ & _ & _ & _ & LC & _ & (_ & _ & _ & _ & _ & GBl & V)).
    assert (LB : length (g_blocks g) = length comps) by (rewrite GBl; apply map_length).
    assert (S1 : 0 <= sumZ (map (fun b => fst b * snd b) (g_blocks g)) <= Z.of_nat (length (g_blocks g)) * 2 ^ 21) by (apply sumZ_max; eapply Forall_impl; [|exact V]; cbv beta; intros; nia).
    assert (S2 : 0 <= sumZ (map (fun b => component_state_size (fst b)) (g_blocks g)) <= Z.of_nat (length (g_blocks g)) * 7000000).
    { apply sumZ_max; eapply Forall_impl; [|exact V]; cbv beta; intros b Hbd. unfold component_state_size. lia. }
    rewrite LB in S1, S2. unfold est_size. cbv zeta.
    assert (S3 : 0 <= match x' with Some (schemes, _) => Z.of_nat (contexts_of schemes) | None => 0 end <= 4 * 413 /\ 0 <= match x' with Some (_, n) => n | None => 0 end <= 256).
    { destruct x' as [[s n]|]; [|lia]. destruct (HX s n eq_refl) as [X1 X2]. apply contexts_le in X1. nia. }
    change (2 ^ 21) with 2097152 in *. change (2 ^ 31) with 2147483648. change (2 ^ 17 + 2 ^ 16 * 4) with 393216. nia.
Qed.
Print Assumptions C62_estimate_does_not_overflow.

(** Zero is not the answer for everything that cannot be decoded: the null pointer gives the number of the status code
    (brunsli_decode.cc:2472), and a stream whose AC section is damaged is estimated although it is rejected. *)
Theorem C62_failure_means_zero_refuted : estimate_decoder_memory None = 3 /\
  exists D, bytes D /\ fst (brunsli_decode_jpeg toy D) <> StOk /\ estimate_decoder_memory (Some D) <> 0.
Proof.
  split; [reflexivity|]. exists (firstn 154 ex_out ++ [Z.lxor 255 (nth 154 ex_out 0)] ++ skipn 155 ex_out). split.
  { apply Forall_forall. intros v I. assert (X : forallb (fun v => (0 <=? v) && (v <? 256)) (firstn 154 ex_out ++ [Z.lxor 255 (nth 154 ex_out 0)] ++ skipn 155 ex_out) = true) by (vm_compute; reflexivity).
    rewrite forallb_forall in X. specialize (X v I). unfold is_byte. lia. }
  split; vm_compute; discriminate.
Qed.
Print Assumptions C62_failure_means_zero_refuted.

Example C62_case : bytes ex_out /\ (exists j, brunsli_decode_jpeg toy ex_out = (StOk, Some (OImage j)) /\ 0 < coefficient_bytes j) /\
  393216 + 2 * Z.of_nat (length ex_out) < estimate_decoder_memory (Some ex_out) /\
  estimate_decoder_memory (Some (firstn 100 ex_out)) = 0 /\ (100 < length ex_out)%nat.
Proof.
  split; [apply C51_case|]. split.
  - pose proof C01_case_decodes as C. destruct (brunsli_decode_jpeg toy ex_out) as [[] [[j|]|]] eqn:E; try contradiction. exists j. split; [reflexivity|].
    assert (X : match brunsli_decode_jpeg toy ex_out with (_, Some (OImage j)) => 0 <? coefficient_bytes j | _ => false end = true) by (vm_compute; reflexivity).
    rewrite E in X. apply Z.ltb_lt. exact X.
  - vm_compute. repeat split; repeat constructor.
Qed.
