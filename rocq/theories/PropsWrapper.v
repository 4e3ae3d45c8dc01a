(** C67: the wrappers for browsers and Java. *)
From Verif Require Import PropsDecoder ReaderProofs5 Base JpegModel JBitModel JFileModel JFileProofs Stream Machine ContainerModel MetaModel Decoder Encoder SizeModel
  HSecModel JpegSpec DriverModel DriverProofs OutputModel OutputProofs SerialModel SerialSpec ProgressModel ProgressSpec ProgressProofs1 ProgressProofs5 ProgressProofs6
  PropsJpegFile PropsMeta PropsContainer PropsWriter PropsStream PropsProgress PropsStored EstimateModel EstimateProofs ToolModel PropsTools WrapperModel.

(** * Whole files *)

(** What JpegToBrunsli returns, whatever size its buffer has, BrunsliToJpeg turns back into the file. *)
Theorem C67_round_trip : forall (B : brotli) (O : oracle) size (file s : list Z),
  bytes file -> Z.of_nat (length file) < 2 ^ 32 -> brotli_inverse B (or_compress O) -> (forall i n, 0 <= ch_rnd (or_round O i) n <= 1024) ->
  jpeg_to_brunsli O size file = Str s -> brunsli_to_jpeg B s = Str file.
Proof.
  intros B O size file s Y L HB HR E. unfold jpeg_to_brunsli in E. destruct (read_jpeg RAll file) as [j| |] eqn:R; try discriminate.
  destruct (Z.leb_spec (2 ^ 63) (size j)) as [|M]; [discriminate|]. destruct (size j =? 0); [discriminate|].
  destruct (brunsli_encode_jpeg O j (size j)) as [s'|] eqn:EE; [|discriminate]. injection E as ->.
  destruct (C01_file_round_trip B O file j _ s Y L R HB HR M EE) as (_ & _ & D & W). unfold brunsli_to_jpeg. rewrite D, W. reflexivity.
Qed.
Print Assumptions C67_round_trip.

Lemma to_byte_array_prefix l r : to_byte_array l = Str r -> exists k, r = firstn k l.
Proof. unfold to_byte_array. cbv zeta. destruct (_ <? 0); [discriminate|]. intros E. injection E as <-. eauto. Qed.
Lemma to_byte_array_small l : Z.of_nat (length l) < 2 ^ 31 -> to_byte_array l = Str l.
Proof.
  intros L. unfold to_byte_array. cbv zeta. rewrite to_int_small by lia. destruct (Z.ltb_spec (Z.of_nat (length l)) 0); [lia|]. rewrite Nat2Z.id, firstn_all. reflexivity.
Qed.

(** Java: if both calls return arrays, the second is the file.  A stream of 2^32 bytes and more is cut off by ToByteArray; what is left is not accepted. *)
Theorem C67_java_round_trip : forall (B : brotli) (O : oracle) size (file s r : list Z),
  bytes file -> Z.of_nat (length file) < 2 ^ 31 -> brotli_inverse B (or_compress O) -> (forall i n, 0 <= ch_rnd (or_round O i) n <= 1024) ->
  native_encode O size (Some file) = Str s -> native_decode B (Some s) = Str r -> r = file.
Proof.
  intros B O size file s r Y L HB HR E E2. assert (L2 : Z.of_nat (length file) < 2 ^ 32) by (change (2 ^ 31) with 2147483648 in L; change (2 ^ 32) with 4294967296; lia).
  unfold native_encode in E. destruct (read_jpeg RAll file) as [j| |] eqn:R; try discriminate.
  destruct (Z.leb_spec (2 ^ 63) (size j)) as [|M]; [discriminate|]. destruct (brunsli_encode_jpeg O j (size j)) as [w|] eqn:EE; [|discriminate].
  destruct (C01_file_round_trip B O file j _ w Y L2 R HB HR M EE) as (Yw & _ & D & W). destruct (to_byte_array_prefix _ _ E) as (k & ->).
  unfold native_decode, brunsli_to_jpeg in E2. destruct (brunsli_decode_jpeg B (firstn k w)) as [st o] eqn:D'. destruct st; try discriminate. destruct o as [o|]; [|discriminate].
  rewrite <- (firstn_skipn k w) in Yw, D. pose proof (accepted_prefix _ _ _ _ _ Yw D D') as Q. rewrite Q, app_nil_r in D. rewrite D in D'. injection D' as <-.
  rewrite W in E2. rewrite to_byte_array_small in E2 by exact L. congruence.
Qed.
Print Assumptions C67_java_round_trip.

(** And they do if the encoder succeeds and the stream is below 2 GB. *)
Theorem C67_java_succeeds : forall (B : brotli) (O : oracle) size (file stream : list Z) j,
  bytes file -> Z.of_nat (length file) < 2 ^ 31 -> brotli_inverse B (or_compress O) -> (forall i n, 0 <= ch_rnd (or_round O i) n <= 1024) ->
  read_jpeg RAll file = JOk j -> size j < 2 ^ 63 -> brunsli_encode_jpeg O j (size j) = Some stream -> Z.of_nat (length stream) < 2 ^ 31 ->
  native_encode O size (Some file) = Str stream /\ native_decode B (Some stream) = Str file.
Proof.
  intros B O size file s j Y L HB HR R M EE LS. assert (L2 : Z.of_nat (length file) < 2 ^ 32) by (change (2 ^ 31) with 2147483648 in L; change (2 ^ 32) with 4294967296; lia).
  destruct (C01_file_round_trip B O file j _ s Y L2 R HB HR M EE) as (_ & _ & D & W). unfold native_encode. rewrite R. destruct (Z.leb_spec (2 ^ 63) (size j)); [lia|]. rewrite EE, (to_byte_array_small _ LS).
  split; [reflexivity|]. unfold native_decode, brunsli_to_jpeg. rewrite D, W. apply to_byte_array_small. exact L.
Qed.
Print Assumptions C67_java_succeeds.

(** The encoding functions meet no undefined behaviour while they parse arbitrary bytes (behind the buffer: C53). *)
Theorem C67_encode_defined : forall (O : oracle) size (data : list Z), bytes data -> jpeg_to_brunsli O size data <> Undef /\ native_encode O size (Some data) <> Undef.
Proof.
  intros O size data Y. pose proof (read_jpeg_ok RAll data Y) as J. unfold jpeg_to_brunsli, native_encode, to_byte_array. destruct (read_jpeg RAll data) as [j| |]; [|split; discriminate|contradiction].
  split; destruct (2 ^ 63 <=? size j); try discriminate.
  - destruct (size j =? 0); [discriminate|]. destruct (brunsli_encode_jpeg O j (size j)); discriminate.
  - destruct (brunsli_encode_jpeg O j (size j)) as [w|]; [|discriminate]. cbv zeta. destruct (_ <? 0); discriminate.
Qed.
Print Assumptions C67_encode_defined.

(** * The streaming instance *)

Lemma push_all : forall q cap o q' c', push_output q cap = (o, q', c') -> (length (concat q) < cap)%nat -> q' = [].
Proof.
  induction q as [|c r IH]; intros cap o q' c' E L; cbn [push_output] in E; [injection E as _ <- _; reflexivity|].
  cbn [concat] in L. rewrite app_length in L. destruct (Nat.eqb_spec cap 0); [lia|]. destruct (Nat.leb_spec (length c) cap); [|lia].
  destruct (push_output r (cap - length c)) as [[o' q2] c2] eqn:E2. injection E as _ <- _. eapply IH; [exact E2|lia].
Qed.

Section Session.
  Context (B : brotli) (D : list Z) (HD : bytes D) (out : list Z).
  Notation N := (length D).
  Context (I : xdecoder B D -> nat -> list Z -> Prop).
  Context (I_inv : forall d T o, I d T o -> inv D (decode_stream (real_bodies B)) (drv_of B D (fst d)) T).
  Context (I_step : forall d T o k cap, I d T o -> exists s c o1 d1, xdecode B D d (firstn k (skipn T D)) cap = Some (s, c, o1, d1) /\ I d1 (T + c)%nat (o ++ o1) /\ s <> Err /\
    (s = Done -> ss_stage (snd d1) = GDone /\ ss_queue (snd d1) = []) /\ (Nat.min N (T + k) <= T + c)%nat).
  Context (I_part : forall d T o, I d T o -> undefined (snd d) = false /\ exists rest, out = o ++ rest).
  Context (I_done : forall d T o, I d T o -> ss_stage (snd d) = GDone -> o ++ concat (ss_queue (snd d)) = out).
  Context (I_end : forall d o, I d N o -> ss_stage (snd d) = GDone).

  (** Decode takes no more than it is given. *)
  Lemma taken d T o k cap s c o1 d1 : I d T o -> xdecode B D d (firstn k (skipn T D)) cap = Some (s, c, o1, d1) -> (c <= length (firstn k (skipn T D)))%nat.
  Proof.
    intros L E. pose proof (I_inv _ _ _ L) as V. pose proof V as (LT & _). set (m := Nat.min k (N - T)).
    assert (EX : firstn k (skipn T D) = slice D T (T + m)).
    { unfold slice. replace (T + m - T)%nat with m by lia. unfold m. destruct (Nat.le_gt_cases k (N - T)); [rewrite Nat.min_l by lia; reflexivity|]. rewrite Nat.min_r by lia. rewrite !firstn_all2; [reflexivity| |]; rewrite skipn_length; lia. }
    rewrite EX in *. destruct (drive_stream D _ HD (drv_of B D (fst d)) T m V ltac:(lia)) as (r & c2 & d' & E2 & C1 & _).
    rewrite drive_of in E2. unfold xdecode in E. destruct (drive (x_parser B D) (fst d) (slice D T (T + m))) as [[[r2 c3] dx]|]; [|discriminate]. cbn [res_of] in E2. apply some_inj in E2. injection E2 as -> -> <-.
    unfold obind in E; cbv beta iota in E. assert (C : c2 = c). { destruct r; [| |apply some_inj in E; injection E as _ -> _ _; reflexivity]; destruct (serialize _ _ _ _) as [[? ?] ?]; apply some_inj in E; injection E as _ -> _ _; reflexivity. }
    subst c2. rewrite slice_len by lia. lia.
  Qed.

  Lemma processed d T o k : (k <= buffer_size)%nat -> I d T o -> (T <= N)%nat -> exists code o1 d1, process B D d (firstn k (skipn T D)) = Some (code, o1, d1) /\
    (code = 0 \/ code = 1) /\ I d1 (Nat.min N (T + k)) (o ++ o1) /\ (code = 1 -> o ++ o1 = out) /\
    (ss_stage (snd d) = GDone -> ss_stage (snd d1) = GDone /\ (code = 1 \/ length o1 = buffer_size)) /\ (length o1 <= buffer_size)%nat.
  Proof.
    intros K L LT. destruct (I_step d T o k buffer_size L) as (s & c & o1 & d1 & E & L1 & S1 & S2 & S3). pose proof (taken _ _ _ _ _ _ _ _ _ L E) as TK.
    assert (LE : length (firstn k (skipn T D)) = Nat.min k (N - T)) by (rewrite firstn_length, skipn_length; reflexivity).
    assert (C : (T + c)%nat = Nat.min N (T + k)) by lia. rewrite C in L1. unfold process. destruct (Nat.ltb_spec buffer_size (length (firstn k (skipn T D)))); [lia|]. rewrite E. unfold obind; cbv beta iota.
    eexists _, o1, d1. split; [reflexivity|]. split; [destruct s; auto; congruence|]. split; [exact L1|]. split.
    { intros H1. assert (SD : s = Done) by (destruct s; congruence). destruct (S2 SD) as [G Q]. pose proof (I_done _ _ _ L1 G) as F. rewrite Q in F. cbn [concat] in F. rewrite app_nil_r in F. exact F. }
    unfold xdecode in E. destruct (drive (x_parser B D) (fst d) _) as [[[r cc] dx]|]; [|discriminate]. unfold obind in E; cbv beta iota in E.
    assert (SE : serialize real_serializer (look (d_st dx)) (snd d) buffer_size = (s, o1, snd d1)).
    { destruct r; [| |apply some_inj in E; injection E as E1 _ _ _; congruence]; destruct (serialize real_serializer (look (d_st dx)) (snd d) buffer_size) as [[s3 o3] ss3]; apply some_inj in E; injection E as -> _ -> <-; reflexivity. }
    split.
    - intros G. unfold serialize in SE. rewrite G in SE. destruct (push_output (ss_queue (snd d)) buffer_size) as [[oo q] c2] eqn:Ep. injection SE as <- <- SS. split; [rewrite <- SS; reflexivity|].
      pose proof (push_full _ _ _ _ _ Ep) as PF. destruct (Nat.lt_ge_cases (length (concat (ss_queue (snd d)))) buffer_size) as [Q|Q]; [left|right; lia].
      rewrite (push_all _ _ _ _ _ Ep Q). reflexivity.
    - destruct (serialize_spec _ _ _ _ _ _ _ SE) as (? & ? & ? & _ & _ & _ & _ & LO & _). exact LO.
  Qed.

  (** Whatever the pieces. *)
  Lemma session_ok : forall ks d T o, Forall (fun k => (k <= buffer_size)%nat) ks -> I d T o -> (T <= N)%nat -> exists code o1 d1, session B D d T ks = Some (code, o1, d1) /\
    (code = 0 \/ code = 1) /\ undefined (snd d1) = false /\ (exists rest, out = (o ++ o1) ++ rest) /\ (code = 1 -> o ++ o1 = out) /\
    (code = 0 -> I d1 (Nat.min N (T + list_sum ks)) (o ++ o1)).
  Proof.
    induction ks as [|k ks IH]; intros d T o F L LT; cbn [session].
    - exists 0, [], d. rewrite app_nil_r. destruct (I_part _ _ _ L) as [U R]. repeat split; auto; [discriminate|]. intros _. cbn. rewrite Nat.add_0_r, Nat.min_r by lia. exact L.
    - cbv zeta. destruct (processed d T o k (Forall_inv F) L LT) as (code & o1 & d1 & E & C & L1 & C1 & _). rewrite E. unfold obind; cbv beta iota.
      assert (TT : (T + length (firstn k (skipn T D)))%nat = Nat.min N (T + k)) by (rewrite firstn_length, skipn_length; lia). rewrite TT.
      destruct C as [-> | ->].
      + change (0 =? 0) with true. cbv iota. destruct (IH d1 _ _ (Forall_inv_tail F) L1 ltac:(lia)) as (code2 & o2 & d2 & E2 & P1 & P2 & P3 & P4 & P5). rewrite E2. rewrite <- app_assoc in P3, P4, P5.
        exists code2, (o1 ++ o2), d2. repeat split; auto. intros H. specialize (P5 H). cbn [list_sum fold_right] in *. fold (list_sum ks). replace (Nat.min N (T + (k + list_sum ks))) with (Nat.min N (Nat.min N (T + k) + list_sum ks)) by lia. exact P5.
      + change (1 =? 0) with false. cbv iota. exists 1, o1, d1. destruct (I_part _ _ _ L1) as [U R]. repeat split; auto; try discriminate.
  Qed.

  (** All was handed over: every call but the last fills the buffer. *)
  Lemma session_drains : forall ks d o, Forall (fun k => (k <= buffer_size)%nat) ks -> I d N o -> (length out < length o + length ks * buffer_size)%nat ->
    exists o1 d1, session B D d N ks = Some (1, o1, d1) /\ o ++ o1 = out.
  Proof.
    induction ks as [|k ks IH]; intros d o F L LN; cbn [session length] in *.
    - destruct (I_part _ _ _ L) as [_ [rest R]]. exfalso. rewrite R, app_length in LN. lia.
    - cbv zeta. destruct (processed d N o k (Forall_inv F) L (le_n _)) as (code & o1 & d1 & E & C & L1 & C1 & C2 & _). rewrite E. unfold obind; cbv beta iota.
      assert (TT : (N + length (firstn k (skipn N D)))%nat = N) by (rewrite firstn_length, skipn_length; lia). rewrite TT. rewrite Nat.min_l in L1 by lia.
      destruct C as [-> | ->].
      + change (0 =? 0) with true. cbv iota. destruct (C2 (I_end _ _ L)) as (_ & [|FB]); [discriminate|].
        destruct (IH d1 _ (Forall_inv_tail F) L1) as (o2 & d2 & E2 & Q). { rewrite app_length, FB. lia. }
        rewrite E2. exists (o1 ++ o2), d2. split; [reflexivity|]. rewrite app_assoc. exact Q.
      + change (1 =? 0) with false. cbv iota. exists o1, d1. split; [reflexivity|]. apply C1. reflexivity.
  Qed.

  Lemma session_app : forall a b d T, session B D d T (a ++ b) =
    match session B D d T a with
    | Some (c1, o1, d1) => if c1 =? 0 then match session B D d1 (fold_left (fun t k => t + length (firstn k (skipn t D)))%nat a T) b with Some (c2, o2, d2) => Some (c2, o1 ++ o2, d2) | None => None end else Some (c1, o1, d1)
    | None => None
    end.
  Proof.
    induction a as [|k a IH]; intros b d T; cbn [session Datatypes.app fold_left].
    - change (0 =? 0) with true. cbv iota. destruct (session B D d T b) as [[[? ?] ?]|]; reflexivity.
    - cbv zeta. destruct (process B D d (firstn k (skipn T D))) as [[[c o] d1]|]; [|reflexivity]. unfold obind; cbv beta iota. destruct (Z.eqb_spec c 0) as [->|NZ].
      + rewrite IH. destruct (session B D d1 _ a) as [[[c2 o2] d2]|]; [|reflexivity]. destruct (Z.eqb_spec c2 0) as [->|NZ2]; [|reflexivity].
        destruct (session B D d2 _ b) as [[[c3 o3] d3]|]; [|reflexivity]. rewrite app_assoc. reflexivity.
      + destruct (Z.eqb_spec c 0); [contradiction|reflexivity].
  Qed.
  Lemma handed_over : forall a T, (T <= N)%nat -> fold_left (fun t k => t + length (firstn k (skipn t D)))%nat a T = Nat.min N (T + list_sum a).
  Proof.
    induction a as [|k a IH]; intros T L; cbn [fold_left]; [cbn; lia|]. rewrite firstn_length, skipn_length. rewrite IH by lia. cbn [list_sum fold_right]. fold (list_sum a). lia.
  Qed.

  Lemma session_completes : forall a b d, Forall (fun k => (k <= buffer_size)%nat) (a ++ b) -> I d 0%nat [] -> (N <= list_sum a)%nat -> (length out < length b * buffer_size)%nat ->
    exists d1, session B D d 0 (a ++ b) = Some (1, out, d1).
  Proof.
    intros a b d F L HS HB. apply Forall_app in F as [Fa Fb]. destruct (session_ok a d 0%nat [] Fa L ltac:(lia)) as (code & o1 & d1 & E & C & _ & _ & C1 & C0). cbn [Datatypes.app] in *.
    rewrite session_app, E. destruct C as [-> | ->].
    - change (0 =? 0) with true. cbv iota. rewrite handed_over by lia. specialize (C0 eq_refl). rewrite Nat.min_l in * by lia.
      destruct (session_drains b d1 o1 Fb C0 ltac:(lia)) as (o2 & d2 & E2 & Q). rewrite E2, Q. eauto.
    - change (1 =? 0) with false. cbv iota. rewrite (C1 eq_refl). eauto.
  Qed.
End Session.

(** A browser hands over a valid stream in pieces of at most 64 KiB, takes the output after each call and goes on while the result is 0: no call
    fails, none of the input is lost, what came out is a beginning of the file that BrunsliToJpeg gives for the whole stream, and the result 1
    means that it is all of it. *)
Theorem C67_session_delivers_the_file : forall (B : brotli) (D : list Z) J out ks,
  bytes D -> metadata_first D -> brunsli_decode_jpeg B D = (StOk, Some (OImage J)) -> JFileModel.write_jpeg J = JOk out ->
  Forall (fun k => Z.of_nat k <= 65536) ks ->
  exists code o d, session B D (xdecoder_start B D) 0 ks = Some (code, o, d) /\ (code = 0 \/ code = 1) /\ undefined (snd d) = false /\
    (exists rest, out = o ++ rest) /\ (code = 1 -> o = out).
Proof.
  intros B D J out ks Hb MF E HW F. destruct (image_run B D J Hb E) as (P & met & HP & EJ & HR). pose proof (live_start B D Hb P J out HR (real_good B)) as L.
  assert (F' : Forall (fun k => (k <= buffer_size)%nat) ks) by (eapply Forall_impl; [|exact F]; unfold buffer_size; intros a H; cbv beta in *; lia).
  destruct (session_ok B D Hb out (live B D J out)) with (ks := ks) (d := xdecoder_start B D) (T := 0%nat) (o := @nil Z) as (code & o & d & E1 & A1 & A2 & A3 & A4 & _).
  - intros d T o H. apply H.
  - intros d T o k cap H. exact (live_step B D Hb MF P J met HP EJ out HW HR d T o k cap H).
  - intros d T o H. destruct (live_out B D J out HW _ _ _ H) as (U & R & _). auto.
  - intros d T o (_ & _ & _ & H & _) G. rewrite G in H. exact H.
  - intros d o (_ & _ & _ & _ & H). apply H. reflexivity.
  - exact F'.
  - exact L.
  - lia.
  - exists code, o, d. auto.
Qed.
Print Assumptions C67_session_delivers_the_file.

(** It ends: once everything was handed over, as many calls as there are 64 KiB in the file, and one more, are enough. *)
Theorem C67_session_completes : forall (B : brotli) (D : list Z) J out ks more,
  bytes D -> metadata_first D -> brunsli_decode_jpeg B D = (StOk, Some (OImage J)) -> JFileModel.write_jpeg J = JOk out ->
  Forall (fun k => Z.of_nat k <= 65536) (ks ++ more) -> (length D <= list_sum ks)%nat -> Z.of_nat (length out) / 65536 < Z.of_nat (length more) ->
  exists d, session B D (xdecoder_start B D) 0 (ks ++ more) = Some (1, out, d).
Proof.
  intros B D J out ks more Hb MF E HW F HS HM. destruct (image_run B D J Hb E) as (P & met & HP & EJ & HR). pose proof (live_start B D Hb P J out HR (real_good B)) as L.
  assert (F' : Forall (fun k => (k <= buffer_size)%nat) (ks ++ more)) by (eapply Forall_impl; [|exact F]; unfold buffer_size; intros a H; cbv beta in *; lia).
  assert (LM : (length out < length more * buffer_size)%nat).
  { apply Nat2Z.inj_lt. rewrite Nat2Z.inj_mul. change (Z.of_nat buffer_size) with 65536. pose proof (Z.mul_succ_div_gt (Z.of_nat (length out)) 65536 ltac:(lia)). nia. }
  apply (session_completes B D Hb out (live B D J out)); auto.
  - intros d T o H. apply H.
  - intros d T o k cap H. exact (live_step B D Hb MF P J met HP EJ out HW HR d T o k cap H).
  - intros d T o H. destruct (live_out B D J out HW _ _ _ H) as (U & R & _). auto.
  - intros d T o (_ & _ & _ & H & _) G. rewrite G in H. exact H.
  - intros d o (_ & _ & _ & _ & H). apply H. reflexivity.
Qed.
Print Assumptions C67_session_completes.

(** A JPEG file through JpegToBrunsli and a session. *)
Theorem C67_round_trip_by_pieces : forall (B : brotli) (O : oracle) size (file s : list Z) ks more,
  bytes file -> Z.of_nat (length file) < 2 ^ 32 -> brotli_inverse B (or_compress O) -> (forall i n, 0 <= ch_rnd (or_round O i) n <= 1024) ->
  jpeg_to_brunsli O size file = Str s ->
  Forall (fun k => Z.of_nat k <= 65536) (ks ++ more) -> (length s <= list_sum ks)%nat -> Z.of_nat (length file) / 65536 < Z.of_nat (length more) ->
  exists d, session B s (xdecoder_start B s) 0 (ks ++ more) = Some (1, file, d).
Proof.
  intros B O size file s ks more Y L HB HR E F HS HM. unfold jpeg_to_brunsli in E. destruct (read_jpeg RAll file) as [j| |] eqn:R; try discriminate.
  destruct (Z.leb_spec (2 ^ 63) (size j)) as [|M]; [discriminate|]. destruct (size j =? 0); [discriminate|].
  destruct (brunsli_encode_jpeg O j (size j)) as [s'|] eqn:EE; [|discriminate]. injection E as ->.
  destruct (C01_file_round_trip B O file j _ s Y L R HB HR M EE) as (Ys & _ & D & W).
  pose proof (reader_aux_small file j O _ s Y L R EE) as A. rewrite <- aux_estimate_normal in A. rewrite <- encode_normal in EE.
  pose proof (encoded_metadata_first O (normal j) _ s M A EE) as MF. exact (C67_session_completes B s _ file ks more Ys MF D W F HS HM).
Qed.
Print Assumptions C67_round_trip_by_pieces.

(** The same for a stored file, without a condition on the order of the sections. *)
Theorem C67_session_stored : forall (B : brotli) (D data : list Z) ks more,
  bytes D -> brunsli_decode_jpeg B D = (StOk, Some (OOriginal data)) -> data <> [] ->
  Forall (fun k => Z.of_nat k <= 65536) (ks ++ more) -> (length D <= list_sum ks)%nat -> Z.of_nat (length data) / 65536 < Z.of_nat (length more) ->
  exists d, session B D (xdecoder_start B D) 0 (ks ++ more) = Some (1, data, d).
Proof.
  intros B D data ks more Hb E ND F HS HM. pose proof (original_run B D data E) as HR. pose proof (kept_start B D Hb data HR (real_good B)) as L.
  assert (F' : Forall (fun k => (k <= buffer_size)%nat) (ks ++ more)) by (eapply Forall_impl; [|exact F]; unfold buffer_size; intros a H; cbv beta in *; lia).
  assert (LM : (length data < length more * buffer_size)%nat).
  { apply Nat2Z.inj_lt. rewrite Nat2Z.inj_mul. change (Z.of_nat buffer_size) with 65536. pose proof (Z.mul_succ_div_gt (Z.of_nat (length data)) 65536 ltac:(lia)). nia. }
  apply (session_completes B D Hb data (kept B D data)); auto.
  - intros d T o H. apply H.
  - intros d T o k cap H. destruct (kept_step B D Hb data ND HR d T o k cap H) as (s & c & o1 & d1 & A1 & A2 & A3 & A4 & A5 & _). exists s, c, o1, d1. auto.
  - intros d T o (_ & [(G & -> & _)|[G H]]); [split; [rewrite G; reflexivity|exists data; reflexivity]|]. split; [unfold undefined; rewrite G; reflexivity|eexists; symmetry; exact H].
  - intros d T o (_ & [(G & _)|[_ H]]) S; [rewrite G in S; discriminate|exact H].
  - intros d o (_ & [(_ & _ & H)|[G _]]); [lia|exact G].
Qed.
Print Assumptions C67_session_stored.

(** Whatever the instance was fed with before, a call puts at most 65536 bytes at [out]. *)
Theorem C67_output_fits : forall (B : brotli) (D : list Z) d input code o d1, process B D d input = Some (code, o, d1) ->
  Z.of_nat (length o) <= 65536 /\ (code = 0 \/ code = 1 \/ code = 2).
Proof.
  intros B D d input code o d1 E. unfold process in E. destruct (buffer_size <? length input)%nat; [discriminate|]. unfold xdecode in E.
  destruct (drive (x_parser B D) (fst d) input) as [[[r c] dx]|]; [|discriminate]. unfold obind in E; cbv beta iota in E.
  destruct (serialize real_serializer (look (d_st dx)) (snd d) buffer_size) as [[s o2] ss] eqn:SE. destruct (serialize_spec _ _ _ _ _ _ _ SE) as (? & ? & ? & _ & _ & _ & _ & LO & _).
  assert (LO' : Z.of_nat (length o2) <= 65536) by (unfold buffer_size in LO; lia).
  destruct r; apply some_inj in E; injection E as <- <- _; try (split; [exact LO'|destruct s; auto]). cbn. split; [lia|auto].
Qed.
Print Assumptions C67_output_fits.

(** * The memory of an instance *)

Lemma nth_new {A} (h : list A) l d i : nth (length h + i) (h ++ l) d = nth i l d.
Proof. rewrite app_nth2_plus. reflexivity. Qed.

(** Destroying an instance is undefined behaviour, in whatever state the memory is: the buffers come from malloc and are released with delete[]. *)
Theorem C67_cleanup_refuted : forall h, exists h1 i, decoder_init h = (h1, i) /\ decoder_cleanup h1 (Some i) = None.
Proof.
  intros h. eexists _, _. split; [reflexivity|]. unfold decoder_cleanup. cbn [i_decoder i_in i_out i_self].
  repeat rewrite <- app_assoc. cbn [Datatypes.app]. rewrite !app_length. cbn [length]. unfold release at 1.
  rewrite nth_new. cbn [nth how_eqb]. unfold obind; cbv beta iota. unfold release at 1.
  rewrite firstn_app_2. cbn [firstn]. replace (S (length h + 1)) with (length h + 2)%nat by lia. rewrite skipn_app, skipn_all2 by lia. replace (length h + 2 - length h)%nat with 2%nat by lia. cbn [skipn Datatypes.app].
  rewrite <- app_assoc. cbn [Datatypes.app]. replace (length h + 1 + 1)%nat with (length h + 2)%nat by lia. rewrite nth_new. reflexivity.
Qed.
Print Assumptions C67_cleanup_refuted.

(** * A case *)
Example C67_case :
  jpeg_to_brunsli (ex_oracle ex_file) max_encoded_size ex_file = Str tool_out /\ brunsli_to_jpeg toy tool_out = Str ex_file /\
    native_encode (ex_oracle ex_file) max_encoded_size (Some ex_file) = Str tool_out /\ native_decode toy (Some tool_out) = Str ex_file /\
    brunsli_to_jpeg toy (firstn 50 tool_out) = Null /\ native_decode toy None = Null /\
    match session toy pg_stream (xdecoder_start toy pg_stream) 0 (repeat 20%nat 6) with Some (code, o, _) => code = 1 /\ Str o = brunsli_to_jpeg toy pg_stream | None => False end /\
    match session toy pg_stream (xdecoder_start toy pg_stream) 0 (repeat 20%nat 5) with Some (code, o, _) => code = 0 /\ length o = 166%nat | None => False end.
Proof. split; [vm_compute; reflexivity|]. split; [vm_compute; reflexivity|]. split; [vm_compute; reflexivity|]. split; [vm_compute; reflexivity|]. split; [vm_compute; reflexivity|]. split; [reflexivity|]. split; vm_compute; auto. Qed.
