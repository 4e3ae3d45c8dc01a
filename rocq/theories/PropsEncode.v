(** C54: which JPEG files BrunsliEncodeJpeg accepts. *)
From Verif Require Import Base CodesModel JpegModel BitModel HistModel QuantModel QuantProofs InternalsModel InternalsProofs InternalsProofs2 MetaModel MetaProofs PropsMeta HeaderModel PropsHeader
  CoefModel ClusterModel PropsCluster HSecModel JBitModel JSegModel JFileModel PropsJpegFile ContainerModel Decoder Encoder JpegSpec ReaderProofs4 ReaderProofs5 ReaderProofs6 PropsContainer EncodeTotal1 EncodeTotal2 EncodeSpec EncodeTotal3 AuxBound.

Lemma file_ok file j : bytes file -> Z.of_nat (length file) < 2 ^ 32 -> read_jpeg RAll file = JOk j -> jpeg_ok (normal j).
Proof. intros Y LF R. apply (reader_jpeg_ok file); auto. unfold ReaderProofs3.len. change (2 ^ 61) with 2305843009213693952. change (2 ^ 32) with 4294967296 in LF. lia. Qed.

(** C54.  Every file below 4 GB that ReadJpeg accepts and that is within the limits listed in
    [encodable] is encoded, given a buffer of [sufficient_size]; the result is decoded to the same JPEGData, which WriteJpeg turns back
    into the file.  Nothing else in the file, whether scan script, tables, restart intervals, markers, padding or
    sampling factors, can make BrunsliEncodeJpeg fail. *)
Theorem C54_files_within_limits_are_encoded :
  forall (O : oracle) (file : list Z) (j : jpeg) (len : Z),
    bytes file -> Z.of_nat (length file) < 2 ^ 32 -> read_jpeg RAll file = JOk j -> oracle_works O j -> encodable j ->
    sufficient_size O j <= len < 2 ^ 63 ->
    exists out, brunsli_encode_jpeg O j len = Some out /\
      forall B, brotli_inverse B (or_compress O) ->
        brunsli_decode_jpeg B out = (StOk, Some (OImage (normal j))) /\ write_jpeg (normal j) = JOk file.
Proof.
  intros O file j len Y LF R OW EN HL. pose proof (file_ok file j Y LF R) as JO.
  destruct (reader_more file j Y R) as ([M1 M2 M3] & LS & QI).
  destruct (encode_total O (normal j) JO) with (len := len) as [out E]; [constructor; assumption|exact LS|exact QI|apply oracle_works_normal; exact OW|apply encodable_normal; exact EN|rewrite sufficient_size_normal; exact HL|].
  rewrite encode_normal in E. exists out. split; [exact E|]. intros B HB.
  destruct (C01_file_round_trip B O file j len out Y LF R HB (ow_range O j OW) ltac:(lia) E) as (_ & _ & D & W). auto.
Qed.
Print Assumptions C54_files_within_limits_are_encoded.

(** Such a buffer exists: for files below 512 MB, unless the compressor blows up the metadata to 2^62 bytes. *)
Theorem C54_sufficient_size_is_moderate :
  forall (O : oracle) (file : list Z) (j : jpeg),
    bytes file -> Z.of_nat (length file) < 2 ^ 29 -> read_jpeg RAll file = JOk j -> encodable j ->
    option_length (encode_metadata (or_compress O) (j_app j) (j_com j) (j_tail j)) <= 2 ^ 62 -> sufficient_size O j < 2 ^ 63.
Proof.
  intros O file j Y LF R EN MD. assert (L32 : Z.of_nat (length file) < 2 ^ 32) by (change (2 ^ 29) with 536870912 in LF; change (2 ^ 32) with 4294967296; lia).
  pose proof (file_ok file j Y L32 R) as JO. rewrite <- sufficient_size_normal. apply sufficient_size_moderate; [exact JO|apply encodable_normal; exact EN| |exact MD].
  rewrite aux_estimate_normal. apply (reader_aux_bound file); [exact Y|exact LF|exact R|]. intros Zp. pose proof (en_pad j EN Zp) as P.
  destruct (jo_internals _ JO) as (_ & _ & _ & _ & _ & _ & _ & _ & _ & _ & IL & _ & _ & _ & HW & HH). change (j_width (normal j)) with (j_width j) in *. change (j_height (normal j)) with (j_height j) in *.
  pose proof (padding_limit_small (j_width j) (j_height j) _ HW HH (proj2 IL)) as PL. unfold internals_of, normal in PL. cbn [in_ids j_comps] in PL. rewrite map_length in PL. lia.
Qed.
Print Assumptions C54_sufficient_size_is_moderate.

(** The limits are exact: outside of them the encoder fails, whatever the buffer, the
    rounding and the compressor. *)
Theorem C54_files_outside_limits_are_rejected :
  forall (O : oracle) (file : list Z) (j : jpeg) (len : Z),
    bytes file -> Z.of_nat (length file) < 2 ^ 32 -> read_jpeg RAll file = JOk j -> ~ encodable j -> brunsli_encode_jpeg O j len = None.
Proof.
  intros O file j len Y LF R NE. destruct (brunsli_encode_jpeg O j len) as [out|] eqn:E; [|reflexivity]. exfalso. apply NE.
  apply encodable_normal. rewrite <- encode_normal in E. exact (encode_limits O (normal j) len out (file_ok file j Y LF R) E).
Qed.
Print Assumptions C54_files_outside_limits_are_rejected.

(** Exact rounding is one of the roundings covered, for every clustering. *)
Theorem C54_exact_rounding_works :
  forall (C : costs) (compress : list Z -> option (list Z)) (file : list Z) (j : jpeg),
    bytes file -> Z.of_nat (length file) < 2 ^ 32 -> read_jpeg RAll file = JOk j -> (forall m, compress m <> None) ->
    oracle_works (exact_oracle C compress j) j.
Proof. intros C compress file j Y LF R HC. apply exact_oracle_works; [exact (file_ok file j Y LF R)|exact HC]. Qed.
Print Assumptions C54_exact_rounding_works.

(** What EstimateAuxDataSize returns is enough when no Huffman table has more than 168 symbols; [hc_counts] also counts
    the sentinel.  With a table of more symbols it need not be: C53_aux_estimate_refuted. *)
Theorem C54_aux_estimate_is_enough :
  forall (file : list Z) (j : jpeg) (aux : list Z),
    bytes file -> Z.of_nat (length file) < 2 ^ 32 -> read_jpeg RAll file = JOk j ->
    Forall (fun h => sumZ (hc_counts h) <= 169) (j_huff j) ->
    encode_aux (j_width j) (j_height j) (internals_of j) (j_inter j) = Some aux -> Z.of_nat (length aux) <= aux_estimate j.
Proof.
  intros file j aux Y LF R HT EA. pose proof (file_ok file j Y LF R) as JO.
  destruct (jo_internals _ JO) as (_ & _ & _ & _ & _ & _ & _ & _ & L & _ & IL & _). unfold internals_of, normal in L, IL. cbn [in_quant j_quant in_ids j_comps] in L, IL. rewrite map_length in L, IL.
  destruct (read_jpeg_parts file j Y R) as (st & pos & tail & comps & HP & _ & PA & CT & _ & _ & EJ & _ & LT & _ & LH).
  apply aux_length; [exact L|lia| | | | |exact EA].
  - pose proof (ReaderProofs3.pt_huff _ _ PA) as H. rewrite EJ in *. cbn [set_comps set_tail j_huff] in *. rewrite Forall_forall in *. intros h I. destruct (H h I) as (H1 & _ & H3 & _). specialize (HT h I). auto.
  - pose proof (ReaderProofs3.pt_scans _ _ PA) as H. rewrite EJ. exact H.
  - pose proof (ReaderProofs3.pt_scan_size _ _ PA) as H. rewrite EJ. cbn [set_comps set_tail j_scans]. eapply Forall_impl; [|exact H]. cbv beta. intros s Q. apply Q.
  - pose proof (ReaderProofs3.ct_size _ _ CT) as H. rewrite EJ. cbn [set_comps set_tail j_inter]. apply Forall_forall. intros s I.
    assert (G : (length s <= length (concat (j_inter (rf_j st))))%nat).
    { clear -I. induction (j_inter (rf_j st)) as [|x l IH]; [destruct I|]. cbn [concat]. rewrite app_length. destruct I as [->|I]; [lia|]. specialize (IH I). lia. }
    unfold ReaderProofs3.len in *. change (2 ^ 35) with 34359738368. change (2 ^ 32) with 4294967296 in LF. lia.
Qed.
Print Assumptions C54_aux_estimate_is_enough.

(** The limits hold for the files met in practice: DC coefficients of 8-bit samples are within 1024, quantisation values
    within 255 (or 16 bits, up to 65283), there are a few hundred APP and COM segments at most, and the Huffman tables of
    8-bit images need at most 162 symbols. *)
Theorem C54_simple_limits :
  forall (file : list Z) (j : jpeg),
    bytes file -> Z.of_nat (length file) < 2 ^ 32 -> read_jpeg RAll file = JOk j ->
    Forall (fun c => Forall (fun b => Z.abs (nth 0 b 0) <= 1027) (c_coeffs c)) (j_comps j) ->
    Forall (fun q => Forall (fun v => v <= 65283) (q_values q)) (j_quant j) ->
    (length (j_app j) <= 832)%nat -> (length (j_com j) <= 1024)%nat ->
    Forall (fun h => sumZ (hc_counts h) <= 169) (j_huff j) ->
    (j_zero_pad j = true -> Z.of_nat (length (j_padding j)) <= padding_bits_limit (j_width j) (j_height j) (length (j_comps j))) ->
    encodable j.
Proof.
  intros file j Y LF R HD HQ HA HC HT HP. pose proof (file_ok file j Y LF R) as JO.
  assert (PS : j_zero_pad j = true -> Z.of_nat (length (j_padding j)) < 2 ^ 32).
  { intros Zp. specialize (HP Zp). destruct (jo_internals _ JO) as (_ & _ & _ & _ & _ & _ & _ & _ & _ & _ & IL & _ & _ & _ & HW & HH). change (j_width (normal j)) with (j_width j) in *. change (j_height (normal j)) with (j_height j) in *.
    pose proof (padding_limit_small (j_width j) (j_height j) _ HW HH (proj2 IL)) as PL. unfold internals_of, normal in PL. cbn [in_ids j_comps] in PL. rewrite map_length in PL. lia. }
  constructor; [| | | |].
  - eapply Forall_impl; [|exact HD]. cbv beta. intros c F x y _ _. apply dc_bounded_residual. exact F.
  - exact HP.
  - assert (L : (length (filter snd (map transform_app (j_app j))) <= length (j_app j))%nat).
    { rewrite <- (map_length transform_app). generalize (map transform_app (j_app j)). clear. intros l. induction l as [|x l IH]; cbn [filter length]; [lia|]. destruct (snd x); cbn [length]; lia. }
    lia.
  - destruct (quant_tables_some (map q_values (j_quant j)) (map c_quant (j_comps j))) as [fs E]; [| |rewrite E; discriminate].
    + rewrite map_length. destruct (jo_internals _ JO) as (_ & _ & _ & _ & _ & _ & _ & _ & L & _). unfold internals_of, normal in L. cbn [in_quant j_quant] in L. rewrite map_length in L. exact L.
    + pose proof (jo_quant _ JO) as Q. change (j_quant (normal j)) with (j_quant j) in Q. rewrite Forall_map. rewrite Forall_forall in *. intros q I. specialize (Q q I). specialize (HQ q I). cbv beta in *.
      destruct Q as (L & F & _). split; [exact L|]. rewrite Forall_forall in *. intros v Iv. specialize (F v Iv). specialize (HQ v Iv). cbv beta in *. lia.
  - intros aux EA. pose proof (C54_aux_estimate_is_enough file j aux Y LF R HT EA) as LA. eapply Z.le_lt_trans; [exact LA|]. apply base128_size_fits. split; [lia|].
    pose proof (reader_aux_linear file j Y R PS) as B. unfold ReaderProofs3.len in B. change (2 ^ 32) with 4294967296 in LF. change (2 ^ 33) with 8589934592 in B. change (2 ^ 63) with 9223372036854775808. lia.
Qed.
Print Assumptions C54_simple_limits.

(** The baseline file of C01 meets all hypotheses. *)
Lemma C54_case_generic file j O len out : bytes file -> Z.of_nat (length file) < 2 ^ 32 -> read_jpeg RAll file = JOk j -> brunsli_encode_jpeg O j len = Some out ->
  oracle_works (exact_oracle merge_all toy_compress j) j /\ encodable j.
Proof.
  intros Y L R E. split.
  - apply (C54_exact_rounding_works _ _ file); auto. intros m. discriminate.
  - apply encodable_normal. rewrite <- encode_normal in E. exact (encode_limits _ (normal j) _ _ (file_ok file j Y L R) E).
Qed.
Lemma C54_case_size : (option_length (encode_metadata toy_compress (j_app (ex_jpeg ex_file)) (j_com (ex_jpeg ex_file)) (j_tail (ex_jpeg ex_file))) <=? 2 ^ 62) = true.
Proof. vm_compute. reflexivity. Qed.
(** ... also those of C54_simple_limits. *)
Lemma C54_case_simple : let j := ex_jpeg ex_file in
  forallb (fun c => forallb (fun b => Z.abs (nth 0 b 0) <=? 1027) (c_coeffs c)) (j_comps j) &&
  forallb (fun q => forallb (fun v => v <=? 65283) (q_values q)) (j_quant j) &&
  (length (j_app j) <=? 832)%nat && (length (j_com j) <=? 1024)%nat &&
  forallb (fun h => sumZ (hc_counts h) <=? 169) (j_huff j) &&
  (Z.of_nat (length (j_padding j)) <=? padding_bits_limit (j_width j) (j_height j) (length (j_comps j))) = true.
Proof. vm_compute. reflexivity. Qed.
#[local] Opaque ex_jpeg ex_file ex_oracle ex_out.
Example C54_case :
  bytes ex_file /\ Z.of_nat (length ex_file) < 2 ^ 32 /\ read_jpeg RAll ex_file = JOk (ex_jpeg ex_file) /\
  oracle_works (exact_oracle merge_all toy_compress (ex_jpeg ex_file)) (ex_jpeg ex_file) /\ encodable (ex_jpeg ex_file) /\
  sufficient_size (exact_oracle merge_all toy_compress (ex_jpeg ex_file)) (ex_jpeg ex_file) < 2 ^ 63.
Proof.
  destruct C01_case as (Y & L & R & _ & _ & E & _ & _). split; [exact Y|]. split; [exact L|]. split; [exact R|].
  destruct (C54_case_generic ex_file (ex_jpeg ex_file) (ex_oracle ex_file) 10000 ex_out Y L R E) as [A B]. split; [exact A|]. split; [exact B|].
  refine (C54_sufficient_size_is_moderate _ ex_file _ Y _ R B _); [vm_compute; reflexivity|]. apply Z.leb_le. exact C54_case_size.
Qed.
