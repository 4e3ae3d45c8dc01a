(** C51: what a decoder answering OK hands out; C28-C30 for the decoder with its real section
    decoders. *)
From Verif Require Import Base BitModel BitProofs Stream JpegModel QuantModel QuantProofs InternalsModel InternalsProofs InternalsProofs4 MetaModel MetaProofs MetaShape
  HeaderModel HeaderProofs PropsHeader Machine ContainerModel DriverModel DriverProofs GrammarProofs PropsStream CoefModel CoefProofs DCProofs WordModel Decoder DecoderProofs1 DecoderProofs2 JpegSpec DecodedSpec PropsMeta PropsContainer.

(** * Putting the components together *)
Lemma make_quant_spec : forall heads ts, Forall2 qvalues_ok (map snd heads) ts ->
  Forall qhead_ok heads ->
  length (make_quant heads ts) = length heads /\
  Forall (fun q => 0 <= q_index q < 4 /\ 0 <= q_precision q <= 1 /\ qvalues_ok (q_precision q) (q_values q)) (make_quant heads ts).
Proof.
  induction heads as [|[[ix l] prec] heads IH]; intros ts F G; cbn [map] in F.
  - split; [reflexivity|constructor].
  - inversion F as [|? t ? ts' A F']; subst. cbn [make_quant]. pose proof (Forall_inv G) as G0. cbn [snd] in A. unfold qhead_ok in G0.
    destruct (IH ts' F' (Forall_inv_tail G)) as [L H]. cbn [length]. split; [lia|]. constructor; [|exact H]. cbn [q_index q_precision q_values]. tauto.
Qed.

Lemma make_comps_spec nt : forall ids samp blocks idx planes,
  length ids = length samp -> length blocks = length samp -> length idx = length samp ->
  Forall (fun v => 0 <= v < 256) ids -> Forall (fun q => 0 <= q < Z.of_nat nt) idx ->
  Forall2 (fun b (p : plane) => Z.of_nat (length p) = fst b * snd b /\
    Forall (fun b => length b = 64%nat /\ -32768 <= nth 0 b 0 <= 32767 /\ forall v, In v (tl b) -> Z.abs v <= 2054) p) blocks planes ->
  let cs := make_comps ids samp blocks idx planes in
  length cs = length samp /\ map (fun c => (c_h c, c_v c)) cs = samp /\ map (fun c => (c_wb c, c_hb c)) cs = blocks /\ Forall (comp_decoded nt) cs.
Proof.
  induction ids as [|i ids IH]; intros samp blocks idx planes L1 L2 L3 FI FX F; cbv zeta.
  - destruct samp; [|discriminate]. destruct blocks; [|discriminate]. cbn. auto.
  - destruct samp as [|s samp]; [discriminate|]. destruct blocks as [|b blocks]; [discriminate|]. destruct idx as [|q idx]; [discriminate|].
    inversion F as [|? p ? planes' A F']; subst. cbn [make_comps map length] in *.
    destruct (IH samp blocks idx planes' ltac:(lia) ltac:(lia) ltac:(lia) (Forall_inv_tail FI) (Forall_inv_tail FX) F') as (B1 & B2 & B3 & B4).
    split; [lia|]. cbn [c_h c_v c_wb c_hb]. rewrite B2, B3. destruct s, b. cbn [fst snd] in *. split; [reflexivity|]. split; [reflexivity|].
    constructor; [|exact B4]. pose proof (Forall_inv FI). pose proof (Forall_inv FX). cbv beta in *. destruct A.
    unfold comp_decoded. cbn [c_id c_quant c_wb c_hb c_coeffs]. auto.
Qed.

Lemma Forall2_zip {A B C} (P : A -> B -> Prop) (Q : A -> C -> Prop) : forall l a b, Forall2 P l a -> Forall2 Q l b -> Forall2 (fun x y => exists z, P z x /\ Q z y) a b.
Proof.
  induction l as [|x l IH]; intros a b F G; inversion F; inversion G; subst; constructor; eauto.
Qed.

(** * C51 *)
Lemma pic_decoded met p : mem 7 met = true -> pic_ok (8 :: met) p -> exists j, picture_jpeg p = Some j /\ decoded_ok j.
Proof.
  intros M7 H. pose proof H as (HH & HI & HQ & HS & HD & HA & HM).
  destruct (pi_ac p) as [planes|] eqn:Ea; [|rewrite mem_cons in HA; discriminate]. destruct HA as (_ & _ & ms & Em & FP).
  destruct (pi_quant p) as [[ts idx]|] eqn:Eq; [|unfold metas_of in Em; rewrite Eq in Em; discriminate].
  destruct (pi_hist p) as [h|] eqn:Eh; [|unfold metas_of in Em; rewrite Eq, Eh in Em; discriminate].
  destruct (pic_metas _ p ts idx h H Eq Eh) as (ms' & Em' & Lm & _ & _ & FB & _ & _). rewrite Em in Em'. apply some_inj in Em'. subst ms'.
  destruct HQ as (_ & (x & inter & Ei & FQ) & Li & FX). rewrite Ei in HI. destruct HI as (_ & JG & Linter). cbn [fst snd] in JG, Linter.
  destruct JG as (I1 & I2 & I3 & I4 & I5 & I6 & I7 & I8 & I9 & I10 & I11 & I12 & I13 & I14 & I15).
  destruct (make_quant_spec _ _ FQ I9) as [Q1 Q2].
  assert (Lt : length ts = length (in_quant x)) by (apply F2_length in FQ; rewrite map_length in FQ; lia).
  pose proof HH as HV. cbn [header_valid] in HV. destruct HV as (V1 & V2 & V3 & V4 & V5 & V6 & V7).
  assert (GB : length (g_blocks (pi_grid p)) = length (pi_samp p)) by (apply F2_length in FB; lia).
  assert (GP : Forall (fun b => 0 <= fst b /\ 0 <= snd b) (g_blocks (pi_grid p))).
  { destruct V7 as (_ & _ & _ & _ & _ & _ & V). eapply Forall_impl; [|exact V]. cbv beta. intros. lia. }
  assert (F2 : Forall2 (fun b (p : plane) => Z.of_nat (length p) = fst b * snd b /\
    Forall (fun b => length b = 64%nat /\ -32768 <= nth 0 b 0 <= 32767 /\ forall v, In v (tl b) -> Z.abs v <= 2054) p) (g_blocks (pi_grid p)) planes).
  { pose proof (Forall2_zip _ _ _ _ _ FB FP) as Z. clear - Z GP. induction Z as [|b pl bs pls (m & (A1 & A2) & A3 & A4) Z IH]; constructor.
    - pose proof (Forall_inv GP) as P. cbv beta in P. split; [|exact A4]. rewrite A3, A1, A2, Nat2Z.inj_mul, !Z2Nat.id by lia. reflexivity.
    - apply IH. exact (Forall_inv_tail GP). }
  destruct (make_comps_spec (length ts) (in_ids x) (pi_samp p) (g_blocks (pi_grid p)) idx planes ltac:(lia) GB Li I11 FX F2) as (C1 & C2 & C3 & C4).
  unfold picture_jpeg. rewrite Ei, Eq, Ea. eexists. split; [reflexivity|].
  constructor; cbn [j_width j_height j_version j_max_h j_max_v j_mcu_rows j_mcu_cols j_restart j_app j_com j_quant j_huff j_comps j_scans j_markers j_inter j_tail j_zero_pad j_padding].
  - unfold grid_of. cbn [j_max_h j_max_v j_mcu_rows j_mcu_cols j_comps]. rewrite C2, C3. destruct (pi_grid p) as [mh mv mr mc bl]. cbn [g_max_h g_max_v g_mcu_rows g_mcu_cols g_blocks]. unfold picture_ok. auto 10.
  - rewrite Q1, <- Lt. exact C4.
  - rewrite Q1. auto.
  - exact I1.
  - auto.
  - auto.
  - auto.
  - exact Linter.
  - destruct (pi_meta p); [apply HM|constructor].
  - destruct (pi_meta p); [apply HM|constructor].
  - rewrite C1. auto.
Qed.

(** C51.  For every byte string: if BrunsliDecodeJpeg answers OK, it has either the bytes of a stored
    original or a JPEGData, and that JPEGData is well-formed in all its parts ([decoded_ok] is in
    DecodedSpec.v): nothing is left unset, no index points outside its table, no array has
    another length than the header says. [B] is the Brotli decoder, of which nothing is assumed. *)
Theorem C51_ok_means_well_formed : forall (B : brotli) (D : list Z) o, bytes D -> brunsli_decode_jpeg B D = (StOk, o) ->
  match o with
  | Some (OImage j) => decoded_ok j
  | Some (OOriginal d) => original_stream d D
  | None => False
  end.
Proof.
  intros B D o Hb E. unfold brunsli_decode_jpeg in E. destruct (decode_once (decode_stream (real_bodies B)) D) as [st [[p|d]|]] eqn:Ed; injection E as -> <-.
  - pose proof (decode_stream_ok _ _ D (OImage p) (real_bodies_laws B) Hb Ed) as (_ & met & n & A & P).
    assert (M : mem 7 met = true). { unfold admissible in A. cbn [Z.eqb Pos.eqb] in A. apply andb_true_iff in A as [A _]. rewrite mem_cons in A. exact A. }
    destruct (pic_decoded met p M P) as (j & Ej & H). rewrite Ej. exact H.
  - exact (decode_stream_ok _ _ D (OOriginal d) (real_bodies_laws B) Hb Ed).
  - unfold decode_once, do_process in Ed. destruct (mrun D (decode_stream (real_bodies B)) 0 (length D)) as [x q| |[? ?]]; try discriminate.
    unfold finish in Ed. destruct (q =? length D)%nat; discriminate.
Qed.
Print Assumptions C51_ok_means_well_formed.

(** The same when the stream arrives in pieces, of any number and sizes. *)
Theorem C51_ok_means_well_formed_streaming : forall (B : brotli) (D : list Z) chunks d o n, bytes D -> chunks <> [] -> concat chunks = D ->
  drive_chunks (stream_parser _ D) (stream_start D (decode_stream (real_bodies B))) StNeed chunks = Some (StOk, d) ->
  d_st d = PDone o n -> n = length D ->
  match o with
  | OImage p => exists j, picture_jpeg p = Some j /\ decoded_ok j
  | OOriginal d => original_stream d D
  end.
Proof.
  intros B D chunks d o n Hb Hn Hc E Ed ->. destruct (C29_streaming_equals_one_shot (real_bodies B) D chunks) as (st & d' & E' & _ & H); auto.
  { exists pic_ok. apply real_bodies_laws. }
  rewrite E' in E. apply some_inj in E. injection E as -> ->. pose proof (proj1 (H o) (conj eq_refl Ed)) as K.
  pose proof (C51_ok_means_well_formed B D) as W. unfold brunsli_decode_jpeg in W. rewrite K in W. destruct o as [p|x].
  - specialize (W _ Hb eq_refl). destruct (picture_jpeg p) as [j|]; [eauto|contradiction].
  - exact (W _ Hb eq_refl).
Qed.
Print Assumptions C51_ok_means_well_formed_streaming.

(** A stream with an image, and a stream with a stored file. *)
Example C51_case : bytes ex_out /\ (exists j, brunsli_decode_jpeg toy ex_out = (StOk, Some (OImage j)) /\ (0 < length (j_scans j))%nat) /\
  (bytes stored_599 /\ brunsli_decode_jpeg toy stored_599 = (StOk, Some (OOriginal (repeat 170 599)))).
Proof.
  assert (F : forall l, forallb (fun v => (0 <=? v) && (v <? 256)) l = true -> bytes l).
  { intros l X. apply Forall_forall. rewrite forallb_forall in X. intros v I. specialize (X v I). unfold is_byte. lia. }
  split; [apply F; vm_compute; reflexivity|]. split.
  - pose proof C01_case_decodes as C. destruct (brunsli_decode_jpeg toy ex_out) as [[] [[j|]|]] eqn:E; try contradiction. exists j. split; [reflexivity|].
    assert (X : match brunsli_decode_jpeg toy ex_out with (_, Some (OImage j)) => (0 <? length (j_scans j))%nat | _ => false end = true) by (vm_compute; reflexivity).
    rewrite E in X. apply Nat.ltb_lt. exact X.
  - split; [apply F; vm_compute; reflexivity|vm_compute; reflexivity].
Qed.

(** * C28-C30 and C48 for the decoder with all its section decoders *)
Lemma real_good B : good_bodies (real_bodies B).
Proof. exists pic_ok. apply real_bodies_laws. Qed.

Theorem C28_decoder_accepts_only_grammar : forall (B : brotli) D o, bytes D -> brunsli_decode_jpeg B D = (StOk, Some o) ->
  match o with OImage _ => image_stream D | OOriginal data => original_stream data D end.
Proof.
  intros B D o Hb E. unfold brunsli_decode_jpeg in E. destruct (decode_once (decode_stream (real_bodies B)) D) as [st [[p|d]|]] eqn:Ed.
  - destruct (picture_jpeg p); [|discriminate]. injection E as -> <-. exact (C28_accepted_streams_follow_grammar _ D _ (real_good B) Hb Ed).
  - injection E as -> <-. exact (C28_accepted_streams_follow_grammar _ D _ (real_good B) Hb Ed).
  - discriminate.
Qed.
Print Assumptions C28_decoder_accepts_only_grammar.

(** However the stream is cut: the same status in the end, whether the stream is accepted, not
    valid or not complete, and the same JPEGData. *)
Theorem C29_decoder_streaming_equals_one_shot : forall (B : brotli) D chunks, bytes D -> chunks <> [] -> concat chunks = D ->
  exists st d, drive_chunks (stream_parser _ D) (stream_start D (decode_stream (real_bodies B))) StNeed chunks = Some (st, d) /\
    st = fst (brunsli_decode_jpeg B D) /\
    (forall j, (st = StOk /\ exists p, d_st d = PDone (OImage p) (length D) /\ picture_jpeg p = Some j) <-> brunsli_decode_jpeg B D = (StOk, Some (OImage j))) /\
    (forall x, (st = StOk /\ d_st d = PDone (OOriginal x) (length D)) <-> brunsli_decode_jpeg B D = (StOk, Some (OOriginal x))).
Proof.
  intros B D chunks Hb Hn Hc. destruct (C29_streaming_equals_one_shot (real_bodies B) D chunks (real_good B) Hb Hn Hc) as (st & d & E & S & H).
  exists st, d. split; [exact E|]. unfold brunsli_decode_jpeg. split; [rewrite S; destruct (decode_once _ D) as [s [[p|x]|]]; reflexivity|]. split.
  - intros j. split.
    + intros (-> & p & Ed & Ep). rewrite (proj1 (H (OImage p)) (conj eq_refl Ed)). rewrite Ep. reflexivity.
    + intros K. destruct (decode_once (decode_stream (real_bodies B)) D) as [s [[p|x]|]] eqn:Ed; try discriminate.
      destruct (picture_jpeg p) as [j'|] eqn:Ep; [|discriminate]. injection K as -> <-. destruct (proj2 (H (OImage p)) eq_refl) as [-> Q]. eauto.
  - intros x. split.
    + intros (-> & Ed). rewrite (proj1 (H (OOriginal x)) (conj eq_refl Ed)). reflexivity.
    + intros K. destruct (decode_once (decode_stream (real_bodies B)) D) as [s [[p|x']|]] eqn:Ed; try discriminate.
      * destruct (picture_jpeg p); discriminate.
      * injection K as -> <-. exact (proj2 (H (OOriginal x')) eq_refl).
Qed.
Print Assumptions C29_decoder_streaming_equals_one_shot.

Theorem C30_real_decoder_never_overflows : forall (B : brotli) D chunks, bytes D -> chunks <> [] -> concat chunks = D ->
  drive_chunks (stream_parser _ D) (stream_start D (decode_stream (real_bodies B))) StNeed chunks <> None.
Proof. intros B D chunks. exact (C30_decoder_never_overflows _ D chunks (real_good B)). Qed.
Print Assumptions C30_real_decoder_never_overflows.
