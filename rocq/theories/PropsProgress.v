(** C55: the streaming decoder from the bytes of the stream to the bytes of the file. *)
From Verif Require Import Base JpegModel CodesModel CodesProofs HeaderModel MetaModel PropsMeta Stream Machine ContainerModel GrammarProofs DriverModel ClusterModel PropsCluster JBitModel JFileModel
  Decoder DecoderProofs2 Encoder EncoderProofs4 JpegSpec JSegModel ReaderProofs4 ReaderProofs5 QuantModel InternalsModel HSecModel CoefModel EntropyModel JFileProofs PropsContainer PropsDecoder PropsWriter OutputModel OutputProofs SerialModel SerialSpec PropsSerial ProgressModel ProgressSpec ProgressProofs3 ProgressProofs5.

Lemma image_run B D J : bytes D -> brunsli_decode_jpeg B D = (StOk, Some (OImage J)) ->
  exists P met, pic_ok met P /\ picture_jpeg P = Some J /\ mrun D (decode_stream (real_bodies B)) 0 (length D) = RDone (OImage P) (length D).
Proof.
  intros Hb E. unfold brunsli_decode_jpeg in E. destruct (decode_once (decode_stream (real_bodies B)) D) as [st [[p|d]|]] eqn:Ed; injection E as -> E; try discriminate.
  destruct (picture_jpeg p) as [j|] eqn:Ej; [|discriminate]. injection E as ->.
  pose proof (decode_stream_ok _ _ D (OImage p) (real_bodies_laws B) Hb Ed) as (_ & met & n & A & P). exists p, (8 :: met). split; [exact P|]. split; [exact Ej|].
  unfold decode_once, do_process in Ed. destruct (mrun D (decode_stream (real_bodies B)) 0 (length D)) as [x q| |[? ?]]; try discriminate.
  unfold finish in Ed. destruct (Nat.eqb_spec q (length D)) as [Q|]; [|discriminate]. rewrite Q. apply (f_equal snd) in Ed. cbn [snd] in Ed. apply some_inj in Ed. rewrite Ed. reflexivity.
Qed.

(** The caller offers the stream in pieces of any sizes and buffers of any sizes, and goes on as
    long as it likes.  No call fails, no buffer overflows, undefined behaviour is never met, what was
    delivered is a beginning of the file that WriteJpeg makes of what BrunsliDecodeJpeg gives for
    the whole stream, and "done" means that it is all of it. *)
Theorem C55_decoder_delivers_the_file : forall (B : brotli) (D : list Z) J out calls,
  bytes D -> metadata_first D -> brunsli_decode_jpeg B D = (StOk, Some (OImage J)) -> JFileModel.write_jpeg J = JOk out ->
  exists s T o d, xdecode_calls B D (xdecoder_start B D) 0 NeedsInput calls = Some (s, T, o, d) /\
    s <> Err /\ undefined (snd d) = false /\ (exists rest, out = o ++ rest) /\ (s = Done -> o = out).
Proof.
  intros B D J out calls Hb MF E HW. destruct (image_run B D J Hb E) as (P & met & HP & EJ & HR).
  pose proof (live_start B D Hb P J out HR (real_good B)) as L.
  destruct (live_calls B D Hb MF P J met HP EJ out HW HR calls _ _ NeedsInput [] L ltac:(discriminate) ltac:(discriminate)) as (s & T & o & d & E1 & L1 & S1 & S2 & _). cbn [Datatypes.app] in L1.
  exists s, T, o, d. split; [exact E1|]. split; [exact S1|]. destruct (live_out B D J out HW _ _ _ L1) as (U & R & _). split; [exact U|]. split; [exact R|].
  intros H. destruct (S2 H) as [G Q]. destruct L1 as (_ & _ & _ & L1 & _). rewrite G, Q in L1. cbn in L1. rewrite app_nil_r in L1. exact L1.
Qed.
Print Assumptions C55_decoder_delivers_the_file.

(** It ends: when the whole stream was offered, one more call with room for the file delivers
    the rest of it and says "done". *)
Theorem C55_decoder_completes : forall (B : brotli) (D : list Z) J out calls k cap,
  bytes D -> metadata_first D -> brunsli_decode_jpeg B D = (StOk, Some (OImage J)) -> JFileModel.write_jpeg J = JOk out ->
  (length D <= list_sum (map fst calls))%nat -> (length out < cap)%nat ->
  exists d, xdecode_calls B D (xdecoder_start B D) 0 NeedsInput (calls ++ [(k, cap)]) = Some (Done, length D, out, d).
Proof.
  intros B D J out calls k cap Hb MF E HW HS HC. destruct (image_run B D J Hb E) as (P & met & HP & EJ & HR).
  pose proof (live_start B D Hb P J out HR (real_good B)) as L.
  destruct (live_calls B D Hb MF P J met HP EJ out HW HR calls _ _ NeedsInput [] L ltac:(discriminate) ltac:(discriminate)) as (s & T & o & d & E1 & L1 & S1 & S2 & S3). cbn [Datatypes.app] in L1.
  assert (TN : T = length D) by (destruct L1 as ((LT & _) & _); lia). subst T.
  destruct (live_step B D Hb MF P J met HP EJ out HW HR d _ o k cap L1) as (s2 & c & o2 & d2 & E2 & L2 & U1 & U2 & U3).
  assert (CA : forall a b d0 T0 st0, xdecode_calls B D d0 T0 st0 (a ++ b) =
    match xdecode_calls B D d0 T0 st0 a with Some (s1, T1, o1, d1) => match xdecode_calls B D d1 T1 s1 b with Some (s2, T2, o2, d2) => Some (s2, T2, o1 ++ o2, d2) | None => None end | None => None end).
  { induction a as [|[k0 c0] a IH]; intros b d0 T0 st0; cbn [xdecode_calls Datatypes.app].
    - destruct (xdecode_calls B D d0 T0 st0 b) as [[[[? ?] ?] ?]|]; reflexivity.
    - destruct (xdecode B D d0 (firstn k0 (skipn T0 D)) c0) as [[[[s1 c1] o1] d1]|]; [|reflexivity]. unfold obind; cbv beta iota. rewrite IH. destruct (xdecode_calls B D d1 (T0 + c1) s1 a) as [[[[s3 T3] o3] d3]|]; [|reflexivity].
      destruct (xdecode_calls B D d3 T3 s3 b) as [[[[s4 T4] o4] d4]|]; [|reflexivity]. rewrite app_assoc. reflexivity. }
  rewrite CA, E1. cbn [xdecode_calls]. rewrite E2. unfold obind; cbv beta iota. rewrite app_nil_r.
  assert (C0 : c = 0%nat) by (destruct L2 as ((LT & _) & _); lia). subst c. rewrite Nat.add_0_r in *.
  destruct (live_out B D J out HW _ _ _ L1) as (_ & _ & R1). destruct (live_out B D J out HW _ _ _ L2) as (_ & _ & R2). specialize (R1 eq_refl). specialize (R2 eq_refl).
  assert (Q : ss_queue (snd d2) = [] /\ s2 = Done).
  { unfold xdecode in E2. destruct (drive _ (fst d) _) as [[[r cc] dx]|]; [|discriminate]. unfold obind in E2; cbv beta iota in E2.
    assert (G : ss_stage (snd d) = GDone) by (destruct L1 as (_ & _ & _ & _ & L1); apply L1; reflexivity).
    destruct (serialize real_serializer (look (d_st dx)) (snd d) cap) as [[s3 o3] ss3] eqn:E3. unfold serialize in E3. rewrite G in E3. destruct (push_output (ss_queue (snd d)) cap) as [[oo q] c2] eqn:Ep. injection E3 as <- <- <-.
    assert (LQ : (length (concat (ss_queue (snd d))) < cap)%nat) by (apply (f_equal (@length Z)) in R1; rewrite app_length in R1; lia).
    assert (Q : q = []).
    { clear - Ep LQ. revert cap oo q c2 Ep LQ. induction (ss_queue (snd d)) as [|c r IH]; intros cap oo q c2 Ep LQ; cbn [push_output] in Ep; [injection Ep as _ <- _; reflexivity|].
      cbn [concat] in LQ. rewrite app_length in LQ. destruct (Nat.eqb_spec cap 0); [lia|]. destruct (Nat.leb_spec (length c) cap); [|lia].
      destruct (push_output r (cap - length c)) as [[o' q'] c'] eqn:E. injection Ep as _ <- _. eapply IH; [exact E|lia]. }
    subst q. destruct r; apply some_inj in E2; injection E2 as <- _ _ <-; [split; reflexivity|split; reflexivity|congruence]. }
  destruct Q as [Q ->]. rewrite Q in R2. cbn [concat] in R2. rewrite app_nil_r in R2. rewrite R2. eauto.
Qed.
Print Assumptions C55_decoder_completes.

(** * A progressive file of two MCU rows with an APP segment *)
Definition pg_jpeg : jpeg :=
  let j := ps_jpeg ps_blocks in
  mkJpeg 16 16 0 1 1 2 2 0 [[0xE1; 0; 4; 7; 9]] [] (j_quant j) (j_huff j) (j_comps j) (j_scans j) (225 :: j_markers j) [] [] false [].
Definition pg_clusters := Eval vm_compute in ex_clusters merge_all pg_jpeg.
Definition pg_oracle : oracle := mkOracle merge_all (fun i => ex_round (nth i pg_clusters [])) toy_compress.
Definition pg_stream := Eval vm_compute in match brunsli_encode_jpeg pg_oracle pg_jpeg 100000 with Some o => o | None => [] end.

(** Where the run stands after the calls: status, bytes taken, bytes delivered, undefined behaviour. *)
Definition stand {D} (r : option (sstatus * nat * list Z * xdecoder toy D)) : option (sstatus * nat * list Z * bool) :=
  match r with Some (s, T, o, d) => Some (s, T, o, undefined (snd d)) | None => None end.
Definition run_on (D : list Z) (calls : list (nat * nat)) := stand (xdecode_calls toy D (xdecoder_start toy D) 0 NeedsInput calls).

Definition same (r : option (sstatus * nat * list Z * bool)) (s : sstatus) (T : nat) (o : list Z) : bool :=
  match r with
  | Some (s', T', o', false) => match s', s with NeedsInput, NeedsInput | NeedsOutput, NeedsOutput | Done, Done | Err, Err => true | _, _ => false end && ((T' =? T)%nat && list_eqb o' o)
  | _ => false
  end.
Lemma same_ok r s T o : same r s T o = true -> r = Some (s, T, o, false).
Proof.
  destruct r as [[[[s' T'] o'] []]|]; cbn [same]; try discriminate. intros H. apply andb_prop in H as [H1 H]. apply andb_prop in H as [H2 H3].
  apply Nat.eqb_eq in H2. apply list_eqb_eq in H3. subst. destruct s', s; try discriminate; reflexivity.
Qed.

Lemma metadata_first_tags D a b : section_tags (length D) D = a ++ 7 :: b -> ~ In 7 a -> ~ In 7 b -> ~ In 3 b -> metadata_first D.
Proof.
  intros E Na Nb N3 a' b' E'. rewrite E in E'. clear E D. revert a' E'. induction a as [|x a IH]; intros [|y a'] E'; cbn [Datatypes.app] in E'.
  - injection E' as E'. subst b'. exact N3.
  - injection E' as _ E'. exfalso. apply Nb. rewrite E'. apply in_or_app. right. left. reflexivity.
  - injection E' as Hx _. exfalso. apply Na. left. exact Hx.
  - injection E' as _ E'. apply (IH (fun H => Na (or_intror H)) a'). exact E'.
Qed.

(** The hypotheses hold.  With 20 bytes at a time, 166 bytes of the file are there before the last
    16 bytes of the stream are read; with one byte at a time in and out the file is the same. *)
Example C55_stream_case : bytes pg_stream /\ metadata_first pg_stream /\
  exists J out, brunsli_decode_jpeg toy pg_stream = (StOk, Some (OImage J)) /\ JFileModel.write_jpeg J = JOk out /\ length out = 185%nat /\
    run_on pg_stream (repeat (20, 1000)%nat 5) = Some (NeedsInput, 100%nat, firstn 166 out, false) /\
    run_on pg_stream (repeat (20, 1000)%nat 6) = Some (Done, 116%nat, out, false) /\
    run_on pg_stream (repeat (1, 1)%nat 400) = Some (Done, 116%nat, out, false).
Proof.
  split; [apply bytesb_ok; vm_compute; reflexivity|]. split.
  { apply (metadata_first_tags _ [1; 2; 4; 3; 5; 6] [8]); [vm_compute; reflexivity| | |]; cbn; intuition lia. }
  destruct (answers_image (brunsli_decode_jpeg toy pg_stream) (fun j => match JFileModel.write_jpeg j with
    | JOk o => (length o =? 185)%nat && (same (run_on pg_stream (repeat (20, 1000)%nat 5)) NeedsInput 100 (firstn 166 o) &&
        (same (run_on pg_stream (repeat (20, 1000)%nat 6)) Done 116 o && same (run_on pg_stream (repeat (1, 1)%nat 400)) Done 116 o))
    | _ => false end)) as (j & E & H). { vm_cast_no_check (eq_refl true). }
  exists j. destruct (JFileModel.write_jpeg j) as [o| |]; [|discriminate|discriminate]. exists o. split; [exact E|]. split; [reflexivity|].
  apply andb_prop in H as [L H]. apply andb_prop in H as [H1 H]. apply andb_prop in H as [H2 H3].
  split; [apply Nat.eqb_eq; exact L|]. split; [apply same_ok; exact H1|]. split; [apply same_ok; exact H2|apply same_ok; exact H3].
Qed.

(** * From file to stream to file *)
Lemma encode_section_tags tag k payload s rest : HeaderModel.encode_section tag k payload = Some s -> (1 <= k <= 9)%nat -> 0 <= tag <= 15 -> tags (s ++ rest) = tag :: tags rest.
Proof.
  intros E Hk Ht. destruct (encode_section_inv _ _ _ _ E) as [-> L]. cbn [Datatypes.app]. rewrite tags_cons, <- app_assoc, base128_fix_roundtrip by lia.
  assert (M : Z.shiftr (section_marker tag) 3 = tag /\ Z.land (section_marker tag) 7 = 2).
  { unfold section_marker. rewrite Z.shiftr_div_pow2 by lia. change 7 with (Z.ones 3). rewrite Z.land_ones by lia. change (2 ^ 3) with 8. split; dlia. }
  destruct M as [-> ->]. cbn [Z.eqb Pos.eqb]. rewrite Nat2Z.id, skipn_app_exact. reflexivity.
Qed.
(** The encoder writes the sections in this order: signature, header, JPEG internals, metadata, quantisation
    tables, histograms, DC, AC. *)
Lemma encoded_tags O j len out : len < 2 ^ 63 -> aux_estimate j < 2 ^ 63 -> brunsli_encode_jpeg O j len = Some out -> section_tags (length out) out = [1; 2; 4; 3; 5; 6; 7; 8].
Proof.
  intros HL HA E. unfold brunsli_encode_jpeg in E. destruct (_ =? 0)%nat; [discriminate|]. cbv zeta in E. unfold obind in E.
  destruct (enc_metas _ _ _) as [ms|]; [|discriminate]. destruct (encode_dc _ _) as [dc|]; [|discriminate]. destruct (encode_ac _ _ _ _ _) as [ac|]; [|discriminate]. destruct (entropy_codes _ _ _ _) as [ec|]; [|discriminate].
  unfold Encoder.serialize_sections in E. cbv zeta in E. unfold obind in E.
  destruct (encode_header _ _ _ _) as [hd|]; [|discriminate]. destruct (HeaderModel.encode_section 2 1 hd) as [s2|] eqn:E2; [|discriminate].
  destruct (encode_aux _ _ _ _) as [aux|]; [|discriminate]. destruct (HeaderModel.encode_section 4 _ aux) as [s4|] eqn:E4; [|discriminate].
  destruct (encode_metadata _ _ _ _) as [md|]; [|discriminate]. destruct (HeaderModel.encode_section 3 _ md) as [s3|] eqn:E3; [|discriminate].
  destruct (encode_quant_tables _ _) as [qt|]; [|discriminate]. destruct (HeaderModel.encode_section 5 2 _) as [s5|] eqn:E5; [|discriminate].
  destruct (encode_histogram_section _ _ _ _) as [h|]; [|discriminate]. destruct (HeaderModel.encode_section 6 _ _) as [s6|] eqn:E6; [|discriminate].
  destruct (HeaderModel.encode_section 7 _ _) as [s7|] eqn:E7; [|discriminate]. destruct (HeaderModel.encode_section 8 _ _) as [s8|] eqn:E8; [|discriminate].
  destruct (len <? _); [discriminate|]. apply some_inj in E. subst out. fold (tags ((((((( signature ++ s2) ++ s4) ++ s3) ++ s5) ++ s6) ++ s7) ++ s8)). rewrite <- !app_assoc.
  assert (SG : forall r, tags (signature ++ r) = 1 :: tags r).
  { intros r. assert (K : HeaderModel.encode_section 1 1 [66; 210; 213; 78] = Some signature) by reflexivity. exact (encode_section_tags 1 1 _ signature r K ltac:(lia) ltac:(lia)). }
  rewrite SG, (encode_section_tags 2 _ _ s2 _ E2), (encode_section_tags 4 _ _ s4 _ E4), (encode_section_tags 3 _ _ s3 _ E3), (encode_section_tags 5 _ _ s5 _ E5), (encode_section_tags 6 _ _ s6 _ E6), (encode_section_tags 7 _ _ s7 _ E7);
    try lia; try (apply base128_size_range; lia). rewrite <- (app_nil_r s8), (encode_section_tags 8 _ _ s8 _ E8); [reflexivity|apply base128_size_range; lia|lia].
Qed.
Lemma encoded_metadata_first O j len out : len < 2 ^ 63 -> aux_estimate j < 2 ^ 63 -> brunsli_encode_jpeg O j len = Some out -> metadata_first out.
Proof.
  intros HL HA E. apply (metadata_first_tags _ [1; 2; 4; 3; 5; 6] [8]); [exact (encoded_tags O j len out HL HA E)| | |]; cbn; intuition lia.
Qed.

(** ReadJpeg, BrunsliEncodeJpeg, then BrunsliDecoder::Decode with the stream in pieces of any sizes and buffers of
    any sizes: what has been delivered is always a beginning of the file, "done" means that it is all of it, and
    it comes to an end. *)
Theorem C01_file_round_trip_by_pieces :
  forall (B : brotli) (O : oracle) (file : list Z) (j : jpeg) (len : Z) (stream : list Z) (calls : list (nat * nat)),
    bytes file -> Z.of_nat (length file) < 2 ^ 32 -> read_jpeg RAll file = JOk j ->
    brotli_inverse B (or_compress O) -> (forall i n, 0 <= ch_rnd (or_round O i) n <= 1024) ->
    len < 2 ^ 63 -> brunsli_encode_jpeg O j len = Some stream ->
    (exists s T o d, xdecode_calls B stream (xdecoder_start B stream) 0 NeedsInput calls = Some (s, T, o, d) /\
       s <> Err /\ undefined (snd d) = false /\ (exists rest, file = o ++ rest) /\ (s = Done -> o = file)) /\
    ((length stream <= list_sum (map fst calls))%nat -> forall k cap, (length file < cap)%nat ->
       exists d, xdecode_calls B stream (xdecoder_start B stream) 0 NeedsInput (calls ++ [(k, cap)]) = Some (Done, length stream, file, d)).
Proof.
  intros B O file j len out calls Y LF R HB HR HL E.
  assert (JO : jpeg_ok (normal j)) by (apply (reader_jpeg_ok file); auto; unfold ReaderProofs3.len; change (2 ^ 61) with 2305843009213693952; change (2 ^ 32) with 4294967296 in LF; lia).
  pose proof (reader_aux_small file j O len out Y LF R E) as A. rewrite <- aux_estimate_normal in A. rewrite <- encode_normal in E.
  destruct (C01_container_round_trip B O (normal j) len out JO HB HR HL A E) as (Yo & _ & DE).
  assert (W : JFileModel.write_jpeg (normal j) = JOk file). { rewrite write_normal. pose proof (read_jpeg_ok RAll file Y) as W. rewrite R in W. apply W. reflexivity. }
  pose proof (encoded_metadata_first O (normal j) len out HL A E) as MF. split.
  - exact (C55_decoder_delivers_the_file B out (normal j) file calls Yo MF DE W).
  - intros HS k cap HC. exact (C55_decoder_completes B out (normal j) file calls k cap Yo MF DE W HS HC).
Qed.
Print Assumptions C01_file_round_trip_by_pieces.

(** * Sections in another order *)
Fixpoint cut_sections (fuel : nat) (l : list Z) : list (list Z) :=
  match fuel, l with
  | S f, marker :: r =>
      match decode_base128 r with
      | BOk n r' => let rest := if Z.land marker 7 =? 2 then skipn (Z.to_nat n) r' else r' in firstn (length l - length rest) l :: cut_sections f rest
      | _ => []
      end
  | _, _ => []
  end.

(** The metadata between the DC and the AC section: the one-shot decoder accepts the stream and the file can
    be written, and a streaming decoder that gets all of it at once delivers that file.  If the first call
    ends anywhere in the DC section, that call fails. *)
Definition late_stream := Eval vm_compute in let s := cut_sections 20 pg_stream in concat (firstn 3 s ++ firstn 3 (skipn 4 s) ++ [nth 3 s []; nth 7 s []]).
Theorem C55_metadata_behind_dc_refuted : exists D J out, bytes D /\ brunsli_decode_jpeg toy D = (StOk, Some (OImage J)) /\ JFileModel.write_jpeg J = JOk out /\
  run_on D [(length D, length out); (0%nat, 1%nat)] = Some (Done, length D, out, false) /\
  exists k o, run_on D [(k, length out)] = Some (Err, k, o, false).
Proof.
  exists late_stream. destruct (answers_image (brunsli_decode_jpeg toy late_stream) (fun j => match JFileModel.write_jpeg j with
    | JOk o => same (run_on late_stream [(length late_stream, length o); (0%nat, 1%nat)]) Done (length late_stream) o && same (run_on late_stream [(80%nat, length o)]) Err 80 (firstn 2 o)
    | _ => false end)) as (j & E & H). { vm_cast_no_check (eq_refl true). }
  exists j. destruct (JFileModel.write_jpeg j) as [o| |]; [|discriminate|discriminate]. exists o. split; [apply bytesb_ok; vm_compute; reflexivity|]. split; [exact E|]. split; [reflexivity|].
  apply andb_prop in H as [H1 H2]. split; [apply same_ok; exact H1|]. exists 80%nat, (firstn 2 o). apply same_ok. exact H2.
Qed.
Print Assumptions C55_metadata_behind_dc_refuted.

(** Signature, header, JPEG internals and the tag of the AC section: one call, and the serializer reads
    coefficients that do not exist. *)
Definition early_ac_stream := Eval vm_compute in
  concat (firstn 3 (cut_sections 20 (match brunsli_encode_jpeg pg_oracle (ps_jpeg ps_blocks) 100000 with Some o => o | None => [] end))) ++ [66].
Theorem C55_ac_tag_behind_internals_refuted : exists D s T o, bytes D /\ run_on D [(length D, 1000%nat)] = Some (s, T, o, true).
Proof. exists early_ac_stream. eexists _, _, _. split; [apply bytesb_ok; vm_compute; reflexivity|]. vm_compute. reflexivity. Qed.
Print Assumptions C55_ac_tag_behind_internals_refuted.
