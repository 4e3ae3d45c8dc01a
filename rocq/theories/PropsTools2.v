(** C65: how the command-line tools end on arbitrary files. *)
From Verif Require Import Base JpegModel JBitModel JFileModel JFileProofs Stream Machine ContainerModel MetaModel Decoder Encoder SizeModel
  HSecModel JpegSpec PropsJpegFile PropsMeta PropsContainer PropsWriter ToolModel PropsTools.

(** The files are byte strings. *)
Definition files_of_bytes (f : files) : Prop := forall m c, f m = Some c -> bytes c.

(** Only a size outside 0 .. 2^31 - 1 makes ReadFile end with an exception. *)
Lemma read_file_terminated x c l : read_file x c = (Terminated, l) -> exists file, c = Some file /\ (rd_tell x = false \/ 2 ^ 31 <= Z.of_nat (length file)).
Proof.
  unfold read_file. destruct c as [c|]; [|discriminate]. intros E. exists c. split; [reflexivity|].
  destruct (rd_tell x); [right|left; reflexivity]. destruct (Z.lt_ge_cases (Z.of_nat (length c)) (2 ^ 31)) as [L|]; [|assumption]. exfalso.
  destruct (rd_open x); [|discriminate]. destruct (rd_seek_end x); [|discriminate]. cbn [negb] in E. cbv zeta in E. rewrite to_int_small in E by lia.
  destruct (Z.of_nat (length c) =? 0); [discriminate|]. destruct (rd_seek_set x); [|discriminate]. cbn [negb] in E. destruct (Z.ltb_spec (Z.of_nat (length c)) 0); [lia|].
  destruct (fread_loop _ _ _ _ _); [destruct (rd_close x)|]; discriminate.
Qed.

Lemma read_file_defined x c l : read_file x c <> (Undefined, l).
Proof.
  unfold read_file. destruct c as [c|]; [|discriminate]. destruct (rd_open x), (rd_seek_end x), (rd_seek_set x); cbn [negb]; try discriminate; cbv zeta;
  destruct (to_int _ =? 0); try discriminate; destruct (to_int _ <? 0); try discriminate; destruct (fread_loop _ _ _ _ _); try discriminate; destruct (rd_close x); discriminate.
Qed.

Lemma read_file_bytes f x a input : files_of_bytes f -> read_file x (f a) = (Success, input) -> bytes input.
Proof.
  intros Y E. destruct (read_file_ok _ _ _ E) as (c & Ec & _ & _ & (rest & Er) & _). specialize (Y a c Ec). rewrite Er in Y. apply bytes_app in Y. apply Y.
Qed.

(** cbrunsli, whatever the files hold, whatever the arguments and whatever the file system does: no undefined behaviour while the file is read and
    parsed; it ends with an exit code unless ftell fails, the file has 2 GB or more, or the output buffer would need 2^63 bytes.
    (What happens behind the output buffer while encoding is C53.) *)
Theorem C65_cbrunsli_ends : forall (O : oracle) x w (f f' : files) args e, files_of_bytes f -> cbrunsli O x w f args = (e, f') ->
  e <> Undefined /\
  (e = Terminated -> exists inp out file, file_names dot_brn args = Some (inp, out) /\ f inp = Some file /\
     (rd_tell x = false \/ 2 ^ 31 <= Z.of_nat (length file) \/ exists j, read_jpeg RAll file = JOk j /\ 2 ^ 63 <= max_encoded_size j)).
Proof.
  intros O x w f f' args e Y E. unfold cbrunsli, tool in E. destruct (file_names dot_brn args) as [[inp out]|]; [|injection E as <- _; split; discriminate].
  assert (K : forall l, compress_input O x f inp <> (Undefined, l)).
  { intros l. unfold compress_input. destruct (read_file x (f inp)) as [[| | |] input] eqn:R; try discriminate; [|exact (fun _ => read_file_defined _ _ _ R)].
    pose proof (read_jpeg_ok RAll input (read_file_bytes f x inp input Y R)) as J. destruct (read_jpeg RAll input) as [j| |]; [|discriminate|contradiction].
    destruct (2 ^ 63 <=? max_encoded_size j); [discriminate|]. destruct (brunsli_encode_jpeg O j (max_encoded_size j)); discriminate. }
  destruct (compress_input O x f inp) as [e0 s] eqn:C. destruct e0.
  - destruct (write_file_ok _ _ _ _ _ _ E) as (_ & _ & [->| ->]); split; discriminate.
  - injection E as <- _. split; discriminate.
  - injection E as <- _. split; [discriminate|]. intros _. exists inp, out. unfold compress_input in C. destruct (read_file x (f inp)) as [[| | |] input] eqn:R; try discriminate.
    + destruct (read_file_ok _ _ _ R) as (file & Ef & _ & _ & _ & F). exists file. split; [reflexivity|]. split; [exact Ef|]. right.
      destruct (Z.lt_ge_cases (Z.of_nat (length file)) (2 ^ 31)) as [L|]; [right|left; assumption]. rewrite (F L) in C. destruct (read_jpeg RAll file) as [j| |]; try discriminate. exists j. split; [reflexivity|].
      destruct (Z.leb_spec (2 ^ 63) (max_encoded_size j)); [assumption|]. destruct (brunsli_encode_jpeg O j (max_encoded_size j)); discriminate.
    + destruct (read_file_terminated _ _ _ R) as (file & Ef & T). exists file. split; [reflexivity|]. split; [exact Ef|]. tauto.
  - exfalso. exact (K s eq_refl).
Qed.
Print Assumptions C65_cbrunsli_ends.

(** dbrunsli on arbitrary bytes: the same, if the stream in the file, should it be accepted, has no DC value outside -16384 .. 16383.
    Missing: other images; the next theorem shows that the claim is false for some of them. *)
Theorem C65_dbrunsli_ends_partial : forall (B : brotli) x w (f f' : files) args e, files_of_bytes f ->
  (forall inp out input j, file_names dot_jpg args = Some (inp, out) -> read_file x (f inp) = (Success, input) -> brunsli_decode_jpeg B input = (StOk, Some (OImage j)) ->
     Forall (fun c => Forall (fun b => -16384 <= nth 0 b 0 <= 16383) (c_coeffs c)) (j_comps j)) ->
  dbrunsli B x w f args = (e, f') ->
  e <> Undefined /\
  (e = Terminated -> exists inp out file, file_names dot_jpg args = Some (inp, out) /\ f inp = Some file /\ (rd_tell x = false \/ 2 ^ 31 <= Z.of_nat (length file))).
Proof.
  intros B x w f f' args e Y DC E. unfold dbrunsli, tool in E. destruct (file_names dot_jpg args) as [[inp out]|]; [|injection E as <- _; split; discriminate].
  specialize (DC inp out). destruct (expand_input B x f inp) as [e0 s] eqn:C. destruct e0.
  - destruct (write_file_ok _ _ _ _ _ _ E) as (_ & _ & [->| ->]); split; discriminate.
  - injection E as <- _. split; discriminate.
  - injection E as <- _. split; [discriminate|]. intros _. exists inp, out. unfold expand_input in C. destruct (read_file x (f inp)) as [[| | |] input] eqn:R; try discriminate.
    + destruct (brunsli_decode_jpeg B input) as [[| |] [[j|d]|]]; try discriminate. destruct (write_jpeg j); discriminate.
    + destruct (read_file_terminated _ _ _ R) as (file & Ef & T). exists file. auto.
  - exfalso. unfold expand_input in C. destruct (read_file x (f inp)) as [[| | |] input] eqn:R; try discriminate; [|exact (read_file_defined _ _ _ R)].
    destruct (brunsli_decode_jpeg B input) as [[| |] [[j|d]|]] eqn:D; try discriminate. specialize (DC input j eq_refl eq_refl D).
    pose proof (C52_writer_safe_partial B input j (read_file_bytes f x inp input Y R) D DC) as W. destruct (write_jpeg j); congruence.
Qed.
Print Assumptions C65_dbrunsli_ends_partial.

(** dbrunsli on a file of less than 2 GB can end in undefined behaviour: the stream of C52. *)
Theorem C65_dbrunsli_refuted : exists (B : brotli) x w (f : files) args, files_of_bytes f /\ reads_well x /\ writes_well w /\
  (forall m c, f m = Some c -> Z.of_nat (length c) < 2 ^ 31) /\ fst (dbrunsli B x w f args) = Undefined.
Proof.
  destruct (answers_image (brunsli_decode_jpeg toy ramp_stream) (fun j => match write_jpeg j with JUB => true | _ => false end)) as (j & D & H).
  { vm_cast_no_check (eq_refl true). }
  assert (Y : bytes ramp_stream) by (apply bytesb_ok; vm_compute; reflexivity).
  assert (L : Z.of_nat (length ramp_stream) < 2 ^ 31) by (apply Z.ltb_lt; vm_compute; reflexivity).
  exists toy, all_at_once, byte_by_byte, (put (fun _ => None) [97] ramp_stream), [[97]].
  assert (P : forall m c, put (fun _ => None) [97] ramp_stream m = Some c -> c = ramp_stream). { intros m c. unfold put. destruct (list_eq_dec Z.eq_dec m [97]); [intros E; injection E; auto|discriminate]. }
  split; [intros m c E; rewrite (P m c E); exact Y|]. split; [apply all_at_once_well|]. split; [apply byte_by_byte_well|]. split; [intros m c E; rewrite (P m c E); exact L|].
  unfold dbrunsli, tool. change (file_names dot_jpg [[97]]) with (Some ([97], [97] ++ dot_jpg)). cbv iota beta. unfold expand_input. rewrite put_same, (read_file_total _ ramp_stream all_at_once_well) by (exact L || discriminate).
  rewrite D. destruct (write_jpeg j); [discriminate H|discriminate H|reflexivity].
Qed.
Print Assumptions C65_dbrunsli_refuted.

(** A file that is no JPEG, an empty file, no file, too many arguments: failure, nothing changed. *)
Example C65_case : files_of_bytes disk /\
  fst (cbrunsli (ex_oracle ex_file) all_at_once byte_by_byte disk [[97]; [98]; [99]]) = Failure /\
  fst (cbrunsli (ex_oracle ex_file) all_at_once byte_by_byte disk [[98]]) = Failure /\
  fst (cbrunsli (ex_oracle ex_file) all_at_once byte_by_byte (put disk [98] []) [[98]]) = Failure /\
  fst (cbrunsli (ex_oracle ex_file) all_at_once byte_by_byte (put disk [98] [255; 216; 0]) [[98]]) = Failure /\
  fst (cbrunsli (ex_oracle ex_file) (mkReading true true false true (fun _ => 1%nat) true) byte_by_byte disk [[97]]) = Terminated /\
  fst (dbrunsli toy all_at_once byte_by_byte (put disk [98] tool_out) [[98]]) = Success.
Proof.
  split. { intros m c. unfold disk. destruct (list_eq_dec Z.eq_dec m [97]); [|discriminate]. intros E. injection E as <-. exact (proj1 C01_case). }
  repeat (split; [vm_compute; reflexivity|]). vm_compute. reflexivity.
Qed.
