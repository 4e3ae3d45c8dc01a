(** C52: the JPEG writer on what the decoder handed out. *)
From Verif Require Import Base JpegModel HeaderModel MetaModel PropsMeta Stream Machine ContainerModel DriverModel HSecModel CoefModel ClusterModel PropsCluster JBitModel JHuffModel JSegModel JFileModel
  PropsJpegFile Decoder Encoder JpegSpec PropsContainer DecodedSpec PropsDecoder WriterProofs1 WriterProofs2.

Lemma bytesb_ok l : forallb (fun v => (0 <=? v) && (v <? 256)) l = true -> bytes l.
Proof. intros X. apply Forall_forall. rewrite forallb_forall in X. intros v I. specialize (X v I). unfold is_byte. lia. Qed.

Lemma answers_image (r : status * option (outcome jpeg)) (t : jpeg -> bool) :
  match r with (StOk, Some (OImage j)) => t j | _ => false end = true -> exists j, r = (StOk, Some (OImage j)) /\ t j = true.
Proof. destruct r as [[] [[j|d]|]]; intros H; try discriminate H. exists j. auto. Qed.

(** C52 (part).  For every byte string the decoder accepts: if no DC coefficient of the image is
    outside -16384 .. 16383 (in a file with 8-bit samples they lie within -2048 .. 2047),
    WriteJpeg gives bytes or reports failure: it never reads or writes outside an array
    and never shifts by 32 or more ([JUB]).  Missing: images with larger DC values; the next
    theorem shows that the claim is false for some of them. *)
Theorem C52_writer_safe_partial : forall (B : brotli) (D : list Z) j, bytes D -> brunsli_decode_jpeg B D = (StOk, Some (OImage j)) ->
  Forall (fun c => Forall (fun b => -16384 <= nth 0 b 0 <= 16383) (c_coeffs c)) (j_comps j) ->
  write_jpeg j <> JUB.
Proof.
  intros B D j Hb E HD. pose proof (C51_ok_means_well_formed B D _ Hb E) as W. cbv beta iota in W.
  destruct (decoded_writer_ok j W HD) as [O C]. exact (write_jpeg_ok j O C).
Qed.
Print Assumptions C52_writer_safe_partial.

(** The same for any well-formed JPEGData, however it was made. *)
Theorem C52_well_formed_writer_safe_partial : forall j, decoded_ok j ->
  Forall (fun c => Forall (fun b => -16384 <= nth 0 b 0 <= 16383) (c_coeffs c)) (j_comps j) ->
  write_jpeg j <> JUB.
Proof. intros j W HD. destruct (decoded_writer_ok j W HD) as [O C]. exact (write_jpeg_ok j O C). Qed.
Print Assumptions C52_well_formed_writer_safe_partial.

Example C52_case : bytes ex_out /\ exists j, brunsli_decode_jpeg toy ex_out = (StOk, Some (OImage j)) /\
  Forall (fun c => Forall (fun b => -16384 <= nth 0 b 0 <= 16383) (c_coeffs c)) (j_comps j) /\ exists out, write_jpeg j = JOk out /\ out <> [].
Proof.
  split; [apply bytesb_ok; vm_compute; reflexivity|].
  destruct (answers_image (brunsli_decode_jpeg toy ex_out) (fun j =>
    forallb (fun c => forallb (fun b => (-16384 <=? nth 0 b 0) && (nth 0 b 0 <=? 16383)) (c_coeffs c)) (j_comps j) && match write_jpeg j with JOk (_ :: _) => true | _ => false end)) as (j & E & H).
  { vm_cast_no_check (eq_refl true). }
  apply andb_true_iff in H as [H W]. exists j. split; [exact E|]. clear E. split.
  - apply Forall_forall. intros c Ic. rewrite forallb_forall in H. specialize (H c Ic). apply Forall_forall. intros b Ib. rewrite forallb_forall in H. specialize (H b Ib). lia.
  - destruct (write_jpeg j) as [[|x out]| |]; try discriminate. exists (x :: out). split; [reflexivity|discriminate].
Qed.

(** * A stream that makes the writer shift by 32 *)
(** The decoder bounds each DC coefficient's distance to its prediction, not its value. Sixteen
    steps to the right and one down reach a value 32768 above its neighbour in the next row. *)
Definition ramp : list Z := map (fun k => Z.min (2054 * Z.of_nat k) 30714) (seq 0 16).
Definition dc_block (v : Z) : list Z := v :: repeat 0 63.
Definition ramp_jpeg : jpeg :=
  let j := ex_jpeg ex_file in
  let c := nth 0 (j_comps j) (mkComp 0 0 0 0 0 0 []) in
  mkJpeg 128 16 (j_version j) 1 1 2 16 (j_restart j) (j_app j) (j_com j) (j_quant j) (j_huff j)
    [mkComp (c_id c) 1 1 (c_quant c) 16 2 (map dc_block (ramp ++ map (fun v => v - 2054) ramp))]
    (j_scans j) (j_markers j) (j_inter j) (j_tail j) (j_zero_pad j) (j_padding j).
Definition ramp_clusters := Eval vm_compute in ex_clusters merge_all ramp_jpeg.
Definition ramp_oracle : oracle := mkOracle merge_all (fun i => ex_round (nth i ramp_clusters [])) toy_compress.
Definition ramp_stream := Eval vm_compute in match brunsli_encode_jpeg ramp_oracle ramp_jpeg 100000 with Some o => o | None => [] end.

(** C52 is false of the code as it is: the decoder accepts a stream on which the writer computes
    [1u << 32] (jpeg_data_writer.cc:512-525). *)
Theorem C52_dc_difference_refuted : exists D j, bytes D /\ brunsli_decode_jpeg toy D = (StOk, Some (OImage j)) /\ write_jpeg j = JUB.
Proof.
  destruct (answers_image (brunsli_decode_jpeg toy ramp_stream) (fun j => match write_jpeg j with JUB => true | _ => false end)) as (j & E & H).
  { vm_cast_no_check (eq_refl true). }
  exists ramp_stream, j. split; [apply bytesb_ok; vm_compute; reflexivity|]. split; [exact E|]. clear E. destruct (write_jpeg j); [discriminate H|discriminate H|reflexivity].
Qed.
Print Assumptions C52_dc_difference_refuted.
