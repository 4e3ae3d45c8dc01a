(** C01: the whole container. *)
From Verif Require Import Base JpegModel HeaderModel HeaderProofs PropsHeader MetaModel PropsMeta Stream Machine ContainerModel DriverModel DriverProofs GrammarProofs PropsStream HSecModel CoefModel ClusterModel PropsCluster JBitModel JHuffModel JSegModel JFileModel JFileProofs JSegProofs1 PropsJpegFile
  Decoder DecoderProofs2 Encoder EncoderProofs4 JpegSpec ReaderProofs4 ReaderProofs5.

(** BrunsliDecodeJpeg on the bytes that BrunsliEncodeJpeg produced gives back the same JPEGData,
    field by field.  [jpeg_ok] is in JpegSpec.v.  [B] stands for the Brotli decoder, [O] for the
    Brotli encoder and all decisions that depend on floating point numbers: clustering costs are arbitrary, rounded
    frequencies lie between 0 and 1024. [len] is the capacity of the output buffer. *)
Theorem C01_container_round_trip :
  forall (B : brotli) (O : oracle) (j : jpeg) (len : Z) (out : list Z),
    jpeg_ok j -> brotli_inverse B (or_compress O) -> (forall i n, 0 <= ch_rnd (or_round O i) n <= 1024) ->
    len < 2 ^ 63 -> aux_estimate j < 2 ^ 63 ->
    brunsli_encode_jpeg O j len = Some out ->
    bytes out /\ Z.of_nat (length out) <= len /\ brunsli_decode_jpeg B out = (StOk, Some (OImage j)).
Proof.
  intros B O j len out HJ HB HR HL HA E. destruct (container_mrun B O j len out HJ HB HR HL HA E) as (Y & F & p & R & P).
  split; [exact Y|]. split; [exact F|]. unfold brunsli_decode_jpeg, decode_once, do_process. rewrite R. unfold finish. rewrite Nat.eqb_refl. rewrite P. reflexivity.
Qed.
Print Assumptions C01_container_round_trip.

(** The same for the streaming decoder, the bytes arriving in any pieces. *)
Theorem C01_container_round_trip_streaming :
  forall (B : brotli) (O : oracle) (j : jpeg) (len : Z) (out : list Z) (chunks : list (list Z)),
    jpeg_ok j -> brotli_inverse B (or_compress O) -> (forall i n, 0 <= ch_rnd (or_round O i) n <= 1024) ->
    len < 2 ^ 63 -> aux_estimate j < 2 ^ 63 ->
    brunsli_encode_jpeg O j len = Some out -> chunks <> [] -> concat chunks = out ->
    exists d p, drive_chunks (stream_parser _ out) (stream_start out (decode_stream (real_bodies B))) StNeed chunks = Some (StOk, d) /\
      d_st d = PDone (OImage p) (length out) /\ picture_jpeg p = Some j.
Proof.
  intros B O j len out chunks HJ HB HR HL HA E Hn Hc. destruct (container_mrun B O j len out HJ HB HR HL HA E) as (Y & F & p & R & P).
  assert (GB : good_bodies (real_bodies B)) by (exists pic_ok; apply real_bodies_laws).
  destruct (C29_streaming_equals_one_shot (real_bodies B) out chunks GB Y Hn Hc) as (st & d & D & _ & I).
  destruct (proj2 (I (OImage p))) as [-> X].
  { unfold decode_once, do_process. rewrite R. unfold finish. rewrite Nat.eqb_refl. reflexivity. }
  exists d, p. auto.
Qed.
Print Assumptions C01_container_round_trip_streaming.

(** From file to file.  A JPEG file shorter than 4 GB that ReadJpeg accepts and BrunsliEncodeJpeg then encodes
    is decoded to the JPEGData that was encoded (the padding bits being kept only when they matter, [normal]),
    and WriteJpeg turns that back into the file, byte by byte.  No assumption on the contents of the file. *)
Theorem C01_file_round_trip :
  forall (B : brotli) (O : oracle) (file : list Z) (j : jpeg) (len : Z) (out : list Z),
    bytes file -> Z.of_nat (length file) < 2 ^ 32 -> read_jpeg RAll file = JOk j ->
    brotli_inverse B (or_compress O) -> (forall i n, 0 <= ch_rnd (or_round O i) n <= 1024) ->
    len < 2 ^ 63 -> brunsli_encode_jpeg O j len = Some out ->
    bytes out /\ Z.of_nat (length out) <= len /\
    brunsli_decode_jpeg B out = (StOk, Some (OImage (normal j))) /\ write_jpeg (normal j) = JOk file.
Proof.
  intros B O file j len out Y LF R HB HR HL E.
  assert (JO : jpeg_ok (normal j)) by (apply (reader_jpeg_ok file); auto; unfold ReaderProofs3.len; change (2 ^ 61) with 2305843009213693952; change (2 ^ 32) with 4294967296 in LF; lia).
  pose proof (reader_aux_small file j O len out Y LF R E) as A. rewrite <- aux_estimate_normal in A. rewrite <- encode_normal in E.
  destruct (C01_container_round_trip B O (normal j) len out JO HB HR HL A E) as (H1 & H2 & H3). split; [exact H1|]. split; [exact H2|]. split; [exact H3|].
  rewrite write_normal. pose proof (read_jpeg_ok RAll file Y) as W. rewrite R in W. apply W. reflexivity.
Qed.
Print Assumptions C01_file_round_trip.

(** The same with the container arriving in any pieces. *)
Theorem C01_file_round_trip_streaming :
  forall (B : brotli) (O : oracle) (file : list Z) (j : jpeg) (len : Z) (out : list Z) (chunks : list (list Z)),
    bytes file -> Z.of_nat (length file) < 2 ^ 32 -> read_jpeg RAll file = JOk j ->
    brotli_inverse B (or_compress O) -> (forall i n, 0 <= ch_rnd (or_round O i) n <= 1024) ->
    len < 2 ^ 63 -> brunsli_encode_jpeg O j len = Some out -> chunks <> [] -> concat chunks = out ->
    exists d p J, drive_chunks (stream_parser _ out) (stream_start out (decode_stream (real_bodies B))) StNeed chunks = Some (StOk, d) /\
      d_st d = PDone (OImage p) (length out) /\ picture_jpeg p = Some J /\ write_jpeg J = JOk file.
Proof.
  intros B O file j len out chunks Y LF R HB HR HL E Hn Hc.
  assert (JO : jpeg_ok (normal j)) by (apply (reader_jpeg_ok file); auto; unfold ReaderProofs3.len; change (2 ^ 61) with 2305843009213693952; change (2 ^ 32) with 4294967296 in LF; lia).
  pose proof (reader_aux_small file j O len out Y LF R E) as A. rewrite <- aux_estimate_normal in A. rewrite <- encode_normal in E.
  destruct (C01_container_round_trip_streaming B O (normal j) len out chunks JO HB HR HL A E Hn Hc) as (d & p & H1 & H2 & H3). exists d, p, (normal j). split; [exact H1|]. split; [exact H2|]. split; [exact H3|].
  rewrite write_normal. pose proof (read_jpeg_ok RAll file Y) as W. rewrite R in W. apply W. reflexivity.
Qed.
Print Assumptions C01_file_round_trip_streaming.

Definition ex_jpeg (data : list Z) : jpeg := match read_jpeg RAll data with JOk j => j | _ => empty_jpeg end.
Definition ex_clusters (C : costs) (j : jpeg) : list (list Z) :=
  match enc_metas j (Z.of_nat (length (j_comps j))) (j_comps j) with
  | Some ms =>
      match encode_dc ms (map c_coeffs (j_comps j)) with
      | Some dc =>
          match encode_ac false ms (enc_orders j) (map c_coeffs (j_comps j)) (snd dc) with
          | Some ac => match entropy_codes C (fst dc ++ snd ac) (contexts_of (map cm_bits ms)) (0%nat :: map (fun m => Z.to_nat (cm_off m)) ms) with Some ec => fst ec | None => [] end
          | None => []
          end
      | None => []
      end
  | None => []
  end.
Definition ex_round (h : list Z) : choices :=
  mkChoices (fun n => (nth n h 0 * 2048 + sumZ h) / (2 * sumZ h)) (fun _ => false) (fun _ => false).
Definition ex_oracle (data : list Z) : oracle :=
  let cl := ex_clusters merge_all (ex_jpeg data) in mkOracle merge_all (fun i => ex_round (nth i cl [])) toy_compress.

(** A baseline file with one block: encoded, decoded, and written out again. *)
Definition ex_out : list Z :=
  Eval vm_compute in match brunsli_encode_jpeg (ex_oracle ex_file) (ex_jpeg ex_file) 10000 with Some o => o | None => [] end.

Example C01_case_encodes : brunsli_encode_jpeg (ex_oracle ex_file) (ex_jpeg ex_file) 10000 = Some ex_out /\ (100 < length ex_out)%nat.
Proof. split; [vm_compute; reflexivity|apply Nat.ltb_lt; vm_compute; reflexivity]. Qed.

Example C01_case_decodes :
  match brunsli_decode_jpeg toy ex_out with (StOk, Some (OImage j)) => write_jpeg j = JOk ex_file | _ => False end.
Proof. vm_compute. reflexivity. Qed.

Lemma ex_round_range h n : Forall (fun v => 0 <= v) h -> 0 <= ch_rnd (ex_round h) n <= 1024.
Proof.
  intros F. cbn [ex_round ch_rnd].
  assert (S : forall l, Forall (fun v => 0 <= v) l -> 0 <= sumZ l /\ forall k, 0 <= nth k l 0 <= sumZ l).
  { clear. induction l as [|a l IH]; intros F; [split; [unfold sumZ; cbn; lia|intros [|k]; unfold sumZ; cbn; lia]|].
    pose proof (Forall_inv F) as P. cbv beta in P. destruct (IH (Forall_inv_tail F)) as [I1 I2]. change (sumZ (a :: l)) with (a + sumZ l).
    split; [lia|]. intros [|k]; cbn [nth]; [lia|]. specialize (I2 k). lia. }
  destruct (S h F) as [S1 S2]. specialize (S2 n). destruct (Z.eq_dec (sumZ h) 0) as [E|N]; [rewrite E, Z.mul_0_r, Zdiv_0_r; lia|].
  split; [apply Z.div_pos; lia|]. assert (X : (nth n h 0 * 2048 + sumZ h) / (2 * sumZ h) < 1025); [|lia].
  apply Z.div_lt_upper_bound; lia.
Qed.

Lemma ex_oracle_range i n : 0 <= ch_rnd (or_round (ex_oracle ex_file) i) n <= 1024.
Proof.
  cbn [ex_oracle or_round]. apply ex_round_range.
  assert (X : forallb (forallb (fun v => 0 <=? v)) (ex_clusters merge_all (ex_jpeg ex_file)) = true) by (vm_compute; reflexivity).
  rewrite forallb_forall in X.
  destruct (le_lt_dec (length (ex_clusters merge_all (ex_jpeg ex_file))) i) as [L|L]; [rewrite nth_overflow by exact L; constructor|].
  apply Forall_forall. intros v I. specialize (X _ (nth_In _ [] L)). rewrite forallb_forall in X. specialize (X _ I). apply Z.leb_le. exact X.
Qed.

(** All hypotheses of the theorems hold for this file. *)
Example C01_case :
  bytes ex_file /\ Z.of_nat (length ex_file) < 2 ^ 32 /\ read_jpeg RAll ex_file = JOk (ex_jpeg ex_file) /\
  brotli_inverse toy (or_compress (ex_oracle ex_file)) /\ (forall i n, 0 <= ch_rnd (or_round (ex_oracle ex_file) i) n <= 1024) /\
  brunsli_encode_jpeg (ex_oracle ex_file) (ex_jpeg ex_file) 10000 = Some ex_out /\
  jpeg_ok (normal (ex_jpeg ex_file)) /\ aux_estimate (ex_jpeg ex_file) < 2 ^ 63.
Proof.
  assert (Y : bytes ex_file). { apply Forall_forall. assert (X : forallb (fun v => (0 <=? v) && (v <? 256)) ex_file = true) by (vm_compute; reflexivity). rewrite forallb_forall in X. intros v I. specialize (X v I). unfold is_byte. lia. }
  assert (L : Z.of_nat (length ex_file) < 2 ^ 32) by (apply Z.ltb_lt; vm_compute; reflexivity).
  assert (R : read_jpeg RAll ex_file = JOk (ex_jpeg ex_file)) by (vm_compute; reflexivity).
  split; [exact Y|]. split; [exact L|]. split; [exact R|]. split; [apply toy_is_inverse|]. split; [apply ex_oracle_range|]. split; [apply C01_case_encodes|].
  split; [|apply Z.ltb_lt; vm_compute; reflexivity]. apply (reader_jpeg_ok ex_file _ Y); [apply Z.ltb_lt; vm_compute; reflexivity|exact R].
Qed.
