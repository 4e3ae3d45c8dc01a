(** C53: is the buffer size that GetMaximumBrunsliEncodedSize answers large enough? *)
From Verif Require Import Base Tables BitModel BitProofs CodesModel JpegModel HeaderModel HeaderProofs PropsHeader MetaModel PropsMeta Stream Machine ContainerModel InternalsModel InternalsProofs2 QuantProofs HSecModel CoefModel ClusterModel DCProofs JBitModel JHuffModel JSegModel
  JFileModel PropsJpegFile Decoder Encoder JpegSpec ReaderProofs4 ReaderProofs5 PropsContainer SizeModel CountProofs.

(** * Images full of noise *)
(** 2560 x 2560 grey images, everything but the coefficients as in [ex_file]; DC 0, AC values in
    -2047 .. 2047, which is what ReadJpeg accepts. *)
Definition noise_base := Eval vm_compute in normal (ex_jpeg ex_file).
Lemma noise_base_eq : noise_base = normal (ex_jpeg ex_file).
Proof. vm_cast_no_check (eq_refl noise_base). Qed.
Definition noise_jpeg (coeffs : list block) : jpeg :=
  let j := noise_base in
  mkJpeg 2560 2560 (j_version j) 1 1 320 320 (j_restart j) (j_app j) (j_com j) (j_quant j) (j_huff j)
    [mkComp (c_id (nth 0 (j_comps j) (mkComp 0 0 0 0 0 0 []))) 1 1 (c_quant (nth 0 (j_comps j) (mkComp 0 0 0 0 0 0 []))) 320 320 coeffs]
    (j_scans j) (j_markers j) (j_inter j) (j_tail j) (j_zero_pad j) (j_padding j).
Definition ac_values : list Z := map (fun k => Z.of_nat k - 2047) (seq 0 (Z.to_nat 4095)).
Definition noise_blocks : list block := map (cons 0) (all_lists ac_values 63).
Definition noise_count : nat := Z.to_nat 102400.
Definition noise_images : list (list block) := all_lists noise_blocks noise_count.
Lemma noise_count_z : Z.of_nat noise_count = 102400.
Proof. unfold noise_count. apply Z2Nat.id. lia. Qed.
#[local] Opaque noise_count all_lists.

Lemma ac_values_in v : In v ac_values <-> -2047 <= v <= 2047.
Proof.
  unfold ac_values. rewrite in_map_iff. split.
  - intros (k & <- & I). apply in_seq in I. lia.
  - intros H. exists (Z.to_nat (v + 2047)). split; [lia|]. apply in_seq. lia.
Qed.
Lemma ac_values_nodup : NoDup ac_values.
Proof. apply nodup_map; [apply seq_NoDup|]. intros a b _ _ E. lia. Qed.
Lemma noise_blocks_in b : In b noise_blocks <-> exists t, b = 0 :: t /\ length t = 63%nat /\ Forall (fun v => -2047 <= v <= 2047) t.
Proof.
  unfold noise_blocks. rewrite in_map_iff. split.
  - intros (t & <- & I). apply all_lists_in in I as [L F]. exists t. split; [reflexivity|]. split; [exact L|]. eapply Forall_impl; [|exact F]. intros v. apply ac_values_in.
  - intros (t & -> & L & F). exists t. split; [reflexivity|]. apply all_lists_in. split; [exact L|]. eapply Forall_impl; [|exact F]. intros v. apply ac_values_in.
Qed.
Lemma noise_images_in cs : In cs noise_images -> length cs = noise_count /\ Forall (fun b => In b noise_blocks) cs.
Proof. unfold noise_images. intros I. exact (proj1 (all_lists_in _ _ _) I). Qed.
Lemma noise_images_nodup : NoDup noise_images.
Proof.
  apply all_lists_nodup, nodup_map; [apply all_lists_nodup, ac_values_nodup|]. intros a b _ _ E. injection E as ->. reflexivity.
Qed.
Lemma noise_images_len : Z.of_nat (length noise_images) = (4095 ^ 63) ^ 102400.
Proof.
  unfold noise_images. rewrite all_lists_len. unfold noise_blocks. rewrite map_length, all_lists_len. unfold ac_values. rewrite map_length, seq_length.
  rewrite noise_count_z. rewrite !Z2Nat.id by lia. reflexivity.
Qed.

Lemma noise_base_ok : jpeg_ok noise_base.
Proof. rewrite noise_base_eq. apply C01_case. Qed.

Lemma noise_ok cs : In cs noise_images -> jpeg_ok (noise_jpeg cs).
Proof.
  intros I. apply noise_images_in in I as [L F]. pose proof noise_base_ok as B.
  assert (E : internals_of (noise_jpeg cs) = internals_of noise_base) by (vm_compute; reflexivity).
  constructor.
  - change (picture_ok 2560 2560 (j_version noise_base) [(1, 1)] (mkGrid 1 1 320 320 [(320, 320)])).
    split; [lia|]. split; [lia|]. split; [apply (jo_picture _ B)|]. split; [cbn [length]; lia|]. split; [constructor; [unfold samp_ok; cbn [fst snd]; lia|constructor]|].
    unfold grid_consistent. cbn [g_max_h g_max_v g_mcu_rows g_mcu_cols g_blocks map fst snd]. split; [lia|]. split; [lia|]. split; [intros c [<-|[]]; cbn [fst snd]; lia|].
    split; [exists (1, 1); split; [left; reflexivity|reflexivity]|]. split; [exists (1, 1); split; [left; reflexivity|reflexivity]|]. split; [reflexivity|].
    constructor; [cbn [fst snd]; change (2 ^ 21) with 2097152; lia|constructor].
  - pose proof (jo_internals _ B) as H. rewrite E. unfold internals_ok in *. cbn [noise_jpeg j_width j_height]. intuition lia.
  - exact (jo_inter _ B).
  - exact (jo_app _ B).
  - exact (jo_com _ B).
  - exact (jo_tail _ B).
  - exact (jo_size _ B).
  - exact (jo_quant _ B).
  - unfold noise_jpeg. cbv zeta. cbn [j_comps]. constructor; [|constructor]. cbn [c_coeffs c_wb c_hb]. split; [exact (eq_trans (f_equal Z.of_nat L) noise_count_z)|].
    eapply Forall_impl; [|exact F]. intros b Ib. apply noise_blocks_in in Ib as (t & -> & Lt & Ft). split.
    + split; [cbn [length]; lia|]. constructor; [unfold DCProofs.i16; lia|]. eapply Forall_impl; [|exact Ft]. cbv beta. unfold DCProofs.i16. lia.
    + cbn [tl]. intros v Iv. rewrite Forall_forall in Ft. specialize (Ft v Iv). lia.
Qed.

Lemma noise_max cs : max_encoded_size (noise_jpeg cs) = max_encoded_size (noise_jpeg []).
Proof. reflexivity. Qed.
Lemma noise_max_value : 0 <= max_encoded_size (noise_jpeg []) <= 102400 * 84 + 2 ^ 20 + 2000 /\ aux_estimate (noise_jpeg []) < 2 ^ 63.
Proof. vm_compute. repeat split; discriminate. Qed.

(** C53 is false of the code as it is.  Whatever the clustering, the rounding and the Brotli
    implementation do ([O], which may depend on the image), there are well-formed images with AC
    coefficients within -2047 .. 2047 on which BrunsliEncodeJpeg cannot succeed in a buffer of
    GetMaximumBrunsliEncodedSize bytes: the encoded image does not fit, and as the DC and AC
    sections are stored without a bound check (brunsli_encode.cc:698-719) the encoder writes behind the end of the
    buffer.  The proof counts: as the decoder recovers every image (C01), the encodings
    of different images are different, and there are more images than byte strings of that size. *)
Theorem C53_maximum_size_refuted : forall (B : brotli) (O : jpeg -> oracle),
  (forall j, brotli_inverse B (or_compress (O j))) -> (forall j i n, 0 <= ch_rnd (or_round (O j) i) n <= 1024) ->
  exists j, jpeg_ok j /\
    Forall (fun c => Forall (fun b => nth 0 b 0 = 0 /\ Forall (fun v => -2047 <= v <= 2047) b) (c_coeffs c)) (j_comps j) /\
    brunsli_encode_jpeg (O j) j (max_encoded_size j) = None.
Proof.
  intros B O HB HR. pose proof noise_max_value as [[M0 M1] A]. set (M := max_encoded_size (noise_jpeg [])) in *.
  assert (EM : forall cs, max_encoded_size (noise_jpeg cs) = M) by exact noise_max. clearbody M.
  assert (R : forall cs s, In cs noise_images -> brunsli_encode_jpeg (O (noise_jpeg cs)) (noise_jpeg cs) M = Some s ->
    bytes s /\ Z.of_nat (length s) <= M /\ brunsli_decode_jpeg B s = (StOk, Some (OImage (noise_jpeg cs)))).
  { intros cs s I E. apply (C01_container_round_trip B (O (noise_jpeg cs)) (noise_jpeg cs) M s (noise_ok cs I) (HB _) (HR _)); [|exact A|exact E].
    change (2 ^ 63) with 9223372036854775808. change (2 ^ 20) with 1048576 in M1. clear - M1. lia. }
  destruct (pigeonhole noise_images (fun cs => brunsli_encode_jpeg (O (noise_jpeg cs)) (noise_jpeg cs) M) (Z.to_nat M)) as (cs & I & E).
  - exact noise_images_nodup.
  - rewrite noise_images_len. rewrite Z2Nat.id by exact M0. change 256 with (2 ^ 8). rewrite <- Z.pow_mul_r by lia.
    transitivity ((2 ^ 755) ^ 102400).
    + rewrite <- Z.pow_mul_r by lia. apply Z.pow_le_mono_r; [lia|]. change (2 ^ 20) with 1048576 in M1. clear - M1. lia.
    + apply Z.pow_le_mono_l. split; [apply Z.pow_nonneg; lia|]. apply Z.leb_le. vm_compute. reflexivity.
  - intros cs s I E. destruct (R cs s I E) as (H1 & H2 & _). split; [exact H1|clear - H2 M0; lia].
  - intros a b s Ia Ib Ea Eb. destruct (R a s Ia Ea) as (_ & _ & D1). destruct (R b s Ib Eb) as (_ & _ & D2). rewrite D1 in D2. injection D2 as D2. exact D2.
  - exists (noise_jpeg cs). split; [exact (noise_ok cs I)|]. split; [|rewrite EM; exact E].
    unfold noise_jpeg. cbv zeta. cbn [j_comps]. constructor; [|constructor]. cbn [c_coeffs]. apply noise_images_in in I as [_ F]. eapply Forall_impl; [|exact F]. intros b Ib.
    apply noise_blocks_in in Ib as (t & -> & _ & Ft). split; [reflexivity|]. clear - Ft. constructor; [lia|exact Ft].
Qed.
Print Assumptions C53_maximum_size_refuted.

(** * The size of the internals section *)
(** A file as [ex_file] with one more DHT segment: 57 AC tables for slot 3 (used by no scan), with
    all 256 values in an order far from the usual one. *)
Definition long_table : list Z := [19] ++ [0; 0; 0; 0; 0; 0; 0; 128; 128; 0; 0; 0; 0; 0; 0; 0] ++ rev kDefaultACValues.
Definition long_file : list Z :=
  ex_soi ++ ex_dqt ++ ex_sof 192 ++ ex_dht ++ ([255; 196; 60; 203] ++ concat (repeat long_table 57))
  ++ ex_sos 0 63 0 ++ [110; 72; 102; 107; 221; 146; 138; 0; 102; 0; 5] ++ [255; 217].
Definition long_jpeg := Eval vm_compute in ex_jpeg long_file.
Definition zlen {A} (l : list A) : Z := fold_left (fun n _ => n + 1) l 0.
Lemma zlen_ok {A} (l : list A) : zlen l = Z.of_nat (length l).
Proof.
  unfold zlen. enough (H : forall n, fold_left (fun n (_ : A) => n + 1) l n = n + Z.of_nat (length l)) by (rewrite H; lia).
  induction l as [|a l IH]; intros n; cbn [fold_left length]; [lia|]. rewrite IH. lia.
Qed.
(* bits of the internals section before the inter-marker data *)
Definition aux_bits (j : jpeg) : Z :=
  match encode_internals (j_width j) (j_height j) (internals_of j) with Some fs => zlen (fields_bits fs) | None => 0 end.
Lemma aux_too_long O len j : 131072 <= aux_bits j -> base128_size (aux_estimate j) = 2%nat -> brunsli_encode_jpeg O j len = None.
Proof.
  intros LB LE. unfold aux_bits in LB.
  unfold brunsli_encode_jpeg. destruct (_ =? _)%nat; [reflexivity|]. cbv zeta. unfold obind at 1. destruct (enc_metas _ _ _); [|reflexivity].
  unfold obind at 1. destruct (encode_dc _ _); [|reflexivity]. unfold obind at 1. destruct (encode_ac _ _ _ _ _); [|reflexivity]. unfold obind at 1. destruct (entropy_codes _ _ _ _); [|reflexivity].
  unfold serialize_sections. unfold obind at 1. destruct (encode_header _ _ _ _); [|reflexivity]. unfold obind at 1. destruct (encode_section _ _ _); [|reflexivity].
  cbv zeta. unfold obind at 1. unfold encode_aux. destruct (encode_internals _ _ _) as [fs|]; [|reflexivity]. cbn [obind]. rewrite LE, zlen_ok in *.
  unfold obind at 1. unfold encode_section at 1. rewrite app_length, pack_length.
  destruct (Z.ltb_spec 0 (Z.shiftr (Z.of_nat ((length (fields_bits fs) + 7) / 8 + length (encode_inter (j_inter j)))) (7 * Z.of_nat 2))) as [G|G]; [reflexivity|]. exfalso.
  rewrite Z.shiftr_div_pow2 in G by lia. change (2 ^ (7 * Z.of_nat 2)) with 16384 in G. rewrite Nat2Z.inj_add, Nat2Z.inj_div in G.
  assert (16384 <= Z.of_nat (length (fields_bits fs) + 7) / Z.of_nat 8) by (apply Z.div_le_lower_bound; lia).
  assert (1 <= (Z.of_nat (length (fields_bits fs) + 7) / Z.of_nat 8 + Z.of_nat (length (encode_inter (j_inter j)))) / 16384) by (apply Z.div_le_lower_bound; lia). lia.
Qed.
Lemma long_bits_big : 131072 <= aux_bits long_jpeg.
Proof. apply Z.leb_le. vm_compute. reflexivity. Qed.
Lemma long_read : read_jpeg RAll long_file = JOk long_jpeg.
Proof. vm_cast_no_check (eq_refl (read_jpeg RAll long_file)). Qed.
Lemma long_estimate : base128_size (aux_estimate long_jpeg) = 2%nat.
Proof. vm_compute. reflexivity. Qed.

(** The second defect: EstimateAuxDataSize is not the upper bound its comment says.  This
    well-formed file, which ReadJpeg accepts, cannot be encoded whatever the size of the buffer: the estimate for the
    internals section is below 2^14, the section is longer, and EncodeSection gives up. *)
#[local] Opaque long_jpeg long_file.
Theorem C53_aux_estimate_refuted : exists file j,
  bytes file /\ Z.of_nat (length file) < 2 ^ 32 /\ read_jpeg RAll file = JOk j /\ jpeg_ok (normal j) /\
  forall O len, brunsli_encode_jpeg O j len = None.
Proof.
  exists long_file, long_jpeg.
  assert (Y : bytes long_file). { apply Forall_forall. assert (X : forallb (fun v => (0 <=? v) && (v <? 256)) long_file = true) by (vm_compute; reflexivity). rewrite forallb_forall in X. intros v I. specialize (X v I). unfold is_byte. clear - X. lia. }
  split; [exact Y|]. split; [apply Z.ltb_lt; vm_compute; reflexivity|]. split; [exact long_read|].
  split; [apply (reader_jpeg_ok long_file _ Y); [apply Z.ltb_lt; vm_compute; reflexivity|exact long_read]|].
  intros O len. exact (aux_too_long O len long_jpeg long_bits_big long_estimate).
Qed.
Print Assumptions C53_aux_estimate_refuted.

(** The hypotheses of the first theorem can be met, and small images are encoded in a buffer of that size. *)
Example C53_case :
  (forall j : jpeg, brotli_inverse toy (or_compress (ex_oracle ex_file))) /\ (forall (j : jpeg) i n, 0 <= ch_rnd (or_round (ex_oracle ex_file) i) n <= 1024) /\
  brunsli_encode_jpeg (ex_oracle ex_file) (ex_jpeg ex_file) (max_encoded_size (ex_jpeg ex_file)) <> None.
Proof.
  split; [intros _; apply toy_is_inverse|]. split; [intros _; apply ex_oracle_range|].
  assert (X : match brunsli_encode_jpeg (ex_oracle ex_file) (ex_jpeg ex_file) (max_encoded_size (ex_jpeg ex_file)) with Some _ => true | None => false end = true) by (vm_cast_no_check (eq_refl true)).
  intros N. rewrite N in X. discriminate X.
Qed.
