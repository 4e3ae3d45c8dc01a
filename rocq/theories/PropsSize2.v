(** C53, C64: small images fit the buffer that callers of the encoder allocate. *)
From Verif Require Import Base JpegModel JBitModel JFileModel Stream Machine ContainerModel InternalsModel MetaModel Decoder Encoder SizeModel
  HSecModel JpegSpec PropsJpegFile PropsMeta PropsContainer EncodeSpec EncodeTotal3 PropsCluster PropsEncode ToolModel PropsTools.

Definition blocks (j : jpeg) : Z := sumZ (map (fun c => c_wb c * c_hb c) (j_comps j)).
Definition metadata_bytes (j : jpeg) : Z :=
  sumZ (map (fun s => Z.of_nat (length s)) (j_app j)) + sumZ (map (fun s => Z.of_nat (length s)) (j_com j)) + Z.of_nat (length (j_tail j)).

(** The part of C53 that holds: a file within the limits of the format is encoded into a buffer of GetMaximumBrunsliEncodedSize bytes, without
    anything written behind it, if the image has at most 1600 blocks, and the internals and the compressed metadata together exceed their estimates (the
    metadata: the bytes of the segments) by at most 5504 bytes.  More generally every block takes 570 bytes of a reserve of 917504.
    Missing: larger images, for which it is false (C53_maximum_size_refuted), and internals that are far longer than estimated (C53_aux_estimate_refuted). *)
Theorem C53_small_images_fit_partial : forall (O : oracle) (file : list Z) (j : jpeg),
  bytes file -> Z.of_nat (length file) < 2 ^ 32 -> read_jpeg RAll file = JOk j -> oracle_works O j -> encodable j -> max_encoded_size j < 2 ^ 63 ->
  570 * blocks j
  + (option_length (encode_aux (j_width j) (j_height j) (internals_of j) (j_inter j)) - aux_estimate j)
  + (option_length (encode_metadata (or_compress O) (j_app j) (j_com j) (j_tail j)) - metadata_bytes j) <= 917504 ->
  exists out, brunsli_encode_jpeg O j (max_encoded_size j) = Some out /\
    forall B, brotli_inverse B (or_compress O) -> Z.of_nat (length out) <= max_encoded_size j /\ brunsli_decode_jpeg B out = (StOk, Some (OImage (normal j))).
Proof.
  intros O file j Y L R OW EN M H. unfold blocks, metadata_bytes in H.
  destruct (C54_files_within_limits_are_encoded O file j (max_encoded_size j) Y L R OW EN) as (out & E & D).
  { split; [|exact M]. unfold sufficient_size, max_encoded_size. change (2 ^ 20) with 1048576. lia. }
  exists out. split; [exact E|]. intros B HB. destruct (C01_file_round_trip B O file j _ out Y L R HB (ow_range O j OW) M E) as (_ & LO & DD & _). auto.
Qed.
Print Assumptions C53_small_images_fit_partial.

(** So cbrunsli and then dbrunsli succeed on every such file and restore it, if the file system works. *)
Theorem C64_small_files_succeed : forall (B : brotli) (O : oracle) x1 w1 x2 w2 (f : files) (a : name) (file : list Z) j,
  f a = Some file -> a <> [] -> bytes file -> Z.of_nat (length file) < 2 ^ 31 -> read_jpeg RAll file = JOk j ->
  brotli_inverse B (or_compress O) -> oracle_works O j -> encodable j -> max_encoded_size j < 2 ^ 31 ->
  570 * blocks j
  + (option_length (encode_aux (j_width j) (j_height j) (internals_of j) (j_inter j)) - aux_estimate j)
  + (option_length (encode_metadata (or_compress O) (j_app j) (j_com j) (j_tail j)) - metadata_bytes j) <= 917504 ->
  reads_well x1 -> writes_well w1 -> reads_well x2 -> writes_well w2 ->
  exists f1 f2, cbrunsli O x1 w1 f [a] = (Success, f1) /\ dbrunsli B x2 w2 f1 [a ++ [46; 98; 114; 110]] = (Success, f2) /\
    f2 (a ++ [46; 98; 114; 110; 46; 106; 112; 103]) = Some file /\ f2 a = Some file.
Proof.
  intros B O x1 w1 x2 w2 f a file j Hf Na Y L R HB OW EN M H X1 W1 X2 W2.
  assert (M63 : max_encoded_size j < 2 ^ 63) by (change (2 ^ 31) with 2147483648 in M; change (2 ^ 63) with 9223372036854775808; lia).
  assert (L32 : Z.of_nat (length file) < 2 ^ 32) by (change (2 ^ 31) with 2147483648 in L; change (2 ^ 32) with 4294967296; lia).
  destruct (C53_small_images_fit_partial O file j Y L32 R OW EN M63 H) as (out & E & D). destruct (D B HB) as [LO _].
  apply (C64_round_trip_succeeds B O x1 w1 x2 w2 f a file j out); auto. exact (ow_range O j OW). lia.
Qed.
Print Assumptions C64_small_files_succeed.

Lemma sum_nonneg {A} (g : A -> Z) l : (forall x, 0 <= g x) -> 0 <= sumZ (map g l).
Proof. intros H. unfold sumZ. induction l as [|a l IH]; cbn [map fold_right]; [lia|]. specialize (H a). lia. Qed.
Lemma metadata_bytes_nonneg j : 0 <= metadata_bytes j.
Proof. unfold metadata_bytes. pose proof (sum_nonneg (fun s : list Z => Z.of_nat (length s)) (j_app j) ltac:(intros; cbv beta; lia)). pose proof (sum_nonneg (fun s : list Z => Z.of_nat (length s)) (j_com j) ltac:(intros; cbv beta; lia)). lia. Qed.
Lemma aux_estimate_nonneg j : 0 <= aux_estimate j.
Proof.
  unfold aux_estimate. pose proof (sum_nonneg (fun s => 7 * Z.of_nat (length (si_resets s)) + 7 * Z.of_nat (length (si_zero_runs s))) (j_scans j) ltac:(intros; cbv beta; lia)).
  pose proof (sum_nonneg (fun s : list Z => 5 + Z.of_nat (length s)) (j_inter j) ltac:(intros; cbv beta; lia)).
  assert (0 <= Z.shiftr ((if j_zero_pad j then Z.of_nat (length (j_padding j)) else 0) + 43) 3) by (apply Z.shiftr_nonneg; destruct (j_zero_pad j); lia). lia.
Qed.

(** In terms of the file: 8-bit DC values, tables with the usual number of symbols, no recorded padding beyond the limit, at most 1600 blocks, and a
    compressor that adds at most 5504 bytes to the metadata. *)
Theorem C53_ordinary_small_files_fit_partial : forall (O : oracle) (file : list Z) (j : jpeg),
  bytes file -> Z.of_nat (length file) < 2 ^ 32 -> read_jpeg RAll file = JOk j -> oracle_works O j ->
  Forall (fun c => Forall (fun b => Z.abs (nth 0 b 0) <= 1027) (c_coeffs c)) (j_comps j) ->
  Forall (fun q => Forall (fun v => v <= 65283) (q_values q)) (j_quant j) ->
  (length (j_app j) <= 832)%nat -> (length (j_com j) <= 1024)%nat ->
  Forall (fun h => sumZ (hc_counts h) <= 169) (j_huff j) -> 
  (j_zero_pad j = true -> Z.of_nat (length (j_padding j)) <= padding_bits_limit (j_width j) (j_height j) (length (j_comps j))) ->
  blocks j <= 1600 -> max_encoded_size j < 2 ^ 63 ->
  (forall md, encode_metadata (or_compress O) (j_app j) (j_com j) (j_tail j) = Some md -> Z.of_nat (length md) <= metadata_bytes j + 5504) ->
  exists out, brunsli_encode_jpeg O j (max_encoded_size j) = Some out.
Proof.
  intros O file j Y L R OW H1 H2 H3 H4 H5 H6 HB M MD.
  destruct (C53_small_images_fit_partial O file j Y L R OW) as (out & E & _); [apply (C54_simple_limits file); assumption|exact M| |eauto].
  assert (A : option_length (encode_aux (j_width j) (j_height j) (internals_of j) (j_inter j)) <= aux_estimate j).
  { destruct (encode_aux _ _ _ _) as [aux|] eqn:EA; cbn [option_length]; [exact (C54_aux_estimate_is_enough file j aux Y L R H5 EA)|]. 
    pose proof (aux_estimate_nonneg j). lia. }
  assert (B : option_length (encode_metadata (or_compress O) (j_app j) (j_com j) (j_tail j)) <= metadata_bytes j + 5504).
  { destruct (encode_metadata _ _ _ _) as [md|]; cbn [option_length]; [apply MD; reflexivity|]. pose proof (metadata_bytes_nonneg j). lia. }
  lia.
Qed.
Print Assumptions C53_ordinary_small_files_fit_partial.

(** A concrete file meets the hypotheses, with room to spare. *)
Example C53_small_case :
  let O := exact_oracle merge_all toy_compress (ex_jpeg ex_file) in
  bytes ex_file /\ Z.of_nat (length ex_file) < 2 ^ 31 /\ read_jpeg RAll ex_file = JOk (ex_jpeg ex_file) /\ brotli_inverse toy (or_compress O) /\
  oracle_works O (ex_jpeg ex_file) /\ encodable (ex_jpeg ex_file) /\ max_encoded_size (ex_jpeg ex_file) < 2 ^ 31 /\
  570 * blocks (ex_jpeg ex_file)
  + (option_length (encode_aux (j_width (ex_jpeg ex_file)) (j_height (ex_jpeg ex_file)) (internals_of (ex_jpeg ex_file)) (j_inter (ex_jpeg ex_file))) - aux_estimate (ex_jpeg ex_file))
  + (option_length (encode_metadata (or_compress O) (j_app (ex_jpeg ex_file)) (j_com (ex_jpeg ex_file)) (j_tail (ex_jpeg ex_file))) - metadata_bytes (ex_jpeg ex_file)) <= 917504.
Proof.
  intros O. destruct C54_case as (Y & _ & R & OW & EN & _).
  split; [exact Y|]. split; [apply Z.ltb_lt; vm_compute; reflexivity|]. split; [exact R|]. split; [change (or_compress O) with toy_compress; exact toy_is_inverse|]. split; [exact OW|]. split; [exact EN|].
  split; [apply Z.ltb_lt; vm_compute; reflexivity|]. apply Z.leb_le. vm_compute. reflexivity.
Qed.

Lemma by_test {A} (P : A -> Prop) (t : A -> bool) l : (forall x, t x = true -> P x) -> forallb t l = true -> Forall P l.
Proof. intros H F. apply Forall_forall. rewrite forallb_forall in F. auto. Qed.

Example C53_ordinary_case :
  let j := ex_jpeg ex_file in let O := exact_oracle merge_all toy_compress j in
  Forall (fun c => Forall (fun b => Z.abs (nth 0 b 0) <= 1027) (c_coeffs c)) (j_comps j) /\
  Forall (fun q => Forall (fun v => v <= 65283) (q_values q)) (j_quant j) /\
  (length (j_app j) <= 832)%nat /\ (length (j_com j) <= 1024)%nat /\
  Forall (fun h => sumZ (hc_counts h) <= 169) (j_huff j) /\ Z.of_nat (length (j_padding j)) <= padding_bits_limit (j_width j) (j_height j) (length (j_comps j)) /\ 1 <= blocks j <= 1600 /\
  (forall md, encode_metadata (or_compress O) (j_app j) (j_com j) (j_tail j) = Some md -> Z.of_nat (length md) <= metadata_bytes j + 5504).
Proof.
  intros j O.
  split; [apply (by_test _ (fun c => forallb (fun b => Z.abs (nth 0 b 0) <=? 1027) (c_coeffs c))); [|vm_compute; reflexivity]; intros c H; apply (by_test _ _ _ (fun b K => proj1 (Z.leb_le _ _) K) H)|].
  split; [apply (by_test _ (fun q => forallb (fun v => v <=? 65283) (q_values q))); [|vm_compute; reflexivity]; intros c H; apply (by_test _ _ _ (fun b K => proj1 (Z.leb_le _ _) K) H)|].
  split; [apply Nat.leb_le; vm_compute; reflexivity|]. split; [apply Nat.leb_le; vm_compute; reflexivity|].
  split; [apply (by_test _ (fun h => sumZ (hc_counts h) <=? 169)); [intros h H; apply Z.leb_le; exact H|vm_compute; reflexivity]|].
  split; [apply Z.leb_le; vm_compute; reflexivity|]. split; [split; apply Z.leb_le; vm_compute; reflexivity|].
  assert (T : match encode_metadata (or_compress O) (j_app j) (j_com j) (j_tail j) with Some md => Z.of_nat (length md) <=? metadata_bytes j + 5504 | None => true end = true) by (vm_compute; reflexivity).
  intros md E. rewrite E in T. apply Z.leb_le. exact T.
Qed.
