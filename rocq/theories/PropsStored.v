(** C55, C02: a stored file through the streaming decoder. *)
From Verif Require Import Base CodesModel HeaderModel MetaModel PropsMeta PropsWriter Stream Machine ContainerModel GrammarProofs DriverModel Decoder OutputModel BypassModel PropsBypass PropsStream PropsContainer PropsDecoder SerialModel ProgressModel ProgressProofs5 ProgressProofs6 PropsProgress.

Lemma original_run B D d : brunsli_decode_jpeg B D = (StOk, Some (OOriginal d)) -> mrun D (decode_stream (real_bodies B)) 0 (length D) = RDone (OOriginal d) (length D).
Proof.
  intros E. unfold brunsli_decode_jpeg in E. destruct (decode_once (decode_stream (real_bodies B)) D) as [st [[p|d']|]] eqn:Ed; injection E as -> E; try discriminate.
  { destruct (picture_jpeg p); discriminate. }
  assert (d' = d) by congruence. subst d'. unfold decode_once, do_process in Ed. destruct (mrun D (decode_stream (real_bodies B)) 0 (length D)) as [x q| |[? ?]]; try discriminate.
  unfold finish in Ed. destruct (Nat.eqb_spec q (length D)) as [Q|]; [|discriminate]. rewrite Q. apply (f_equal snd) in Ed. cbn [snd] in Ed. apply some_inj in Ed. rewrite Ed. reflexivity.
Qed.
Lemma xdecode_calls_app B D : forall a b d0 T0 st0, xdecode_calls B D d0 T0 st0 (a ++ b) =
  match xdecode_calls B D d0 T0 st0 a with Some (s1, T1, o1, d1) => match xdecode_calls B D d1 T1 s1 b with Some (s2, T2, o2, d2) => Some (s2, T2, o1 ++ o2, d2) | None => None end | None => None end.
Proof.
  induction a as [|[k0 c0] a IH]; intros b d0 T0 st0; cbn [xdecode_calls Datatypes.app].
  - destruct (xdecode_calls B D d0 T0 st0 b) as [[[[? ?] ?] ?]|]; reflexivity.
  - destruct (xdecode B D d0 (firstn k0 (skipn T0 D)) c0) as [[[[s1 c1] o1] d1]|]; [|reflexivity]. unfold obind; cbv beta iota. rewrite IH. destruct (xdecode_calls B D d1 (T0 + c1) s1 a) as [[[[s3 T3] o3] d3]|]; [|reflexivity].
    destruct (xdecode_calls B D d3 T3 s3 b) as [[[[s4 T4] o4] d4]|]; [|reflexivity]. rewrite app_assoc. reflexivity.
Qed.

(** The stream holds a stored file: whatever the pieces and the buffers, no call fails, undefined behaviour is not
    met, what was delivered is a beginning of the file, and "done" means that it is all of it.  No section order
    has to be asked for. *)
Theorem C55_stored_file_delivered : forall (B : brotli) (D data : list Z) calls,
  bytes D -> brunsli_decode_jpeg B D = (StOk, Some (OOriginal data)) -> data <> [] ->
  exists s T o d, xdecode_calls B D (xdecoder_start B D) 0 NeedsInput calls = Some (s, T, o, d) /\
    s <> Err /\ undefined (snd d) = false /\ (exists rest, data = o ++ rest) /\ (s = Done -> o = data).
Proof.
  intros B D data calls Hb E ND. pose proof (original_run B D data E) as HR. pose proof (kept_start B D Hb data HR (real_good B)) as L.
  destruct (kept_calls B D Hb data ND HR calls _ _ NeedsInput [] L ltac:(discriminate) ltac:(discriminate)) as (s & T & o & d & E1 & L1 & S1 & S2 & _). cbn [Datatypes.app] in L1.
  exists s, T, o, d. split; [exact E1|]. split; [exact S1|]. destruct L1 as (_ & L1). destruct L1 as [(G & -> & _)|[G L1]].
  - split; [rewrite G; reflexivity|]. split; [exists data; reflexivity|]. intros H. destruct (S2 H) as [G' _]. rewrite G in G'. discriminate.
  - split; [unfold undefined; rewrite G; reflexivity|]. split; [eexists; symmetry; exact L1|]. intros H. destruct (S2 H) as [_ Q]. rewrite Q in L1. cbn in L1. rewrite app_nil_r in L1. exact L1.
Qed.
Print Assumptions C55_stored_file_delivered.

(** When the whole stream was offered, one more call with room for the file delivers the rest of it. *)
Theorem C55_stored_file_completes : forall (B : brotli) (D data : list Z) calls k cap,
  bytes D -> brunsli_decode_jpeg B D = (StOk, Some (OOriginal data)) -> data <> [] ->
  (length D <= list_sum (map fst calls))%nat -> (length data < cap)%nat ->
  exists d, xdecode_calls B D (xdecoder_start B D) 0 NeedsInput (calls ++ [(k, cap)]) = Some (Done, length D, data, d).
Proof.
  intros B D data calls k cap Hb E ND HS HC. pose proof (original_run B D data E) as HR. pose proof (kept_start B D Hb data HR (real_good B)) as L.
  destruct (kept_calls B D Hb data ND HR calls _ _ NeedsInput [] L ltac:(discriminate) ltac:(discriminate)) as (s & T & o & d & E1 & L1 & S1 & S2 & S3). cbn [Datatypes.app] in L1.
  assert (TN : T = length D) by (destruct L1 as ((LT & _) & _); lia). subst T.
  destruct (kept_step B D Hb data ND HR d _ o k cap L1) as (s2 & c & o2 & d2 & E2 & L2 & _ & U2 & _ & U4).
  rewrite xdecode_calls_app, E1. cbn [xdecode_calls]. rewrite E2. unfold obind; cbv beta iota. rewrite app_nil_r.
  assert (C0 : c = 0%nat) by (destruct L2 as ((LT & _) & _); lia). subst c. rewrite Nat.add_0_r in *.
  destruct L1 as (_ & [(_ & _ & L1)|[G _]]); [lia|]. specialize (U4 G HC). subst s2. destruct (U2 eq_refl) as [_ Q]. destruct L2 as (_ & [(_ & _ & L2)|[_ L2]]); [lia|].
  rewrite Q in L2. cbn [concat] in L2. rewrite app_nil_r in L2. rewrite L2. eauto.
Qed.
Print Assumptions C55_stored_file_completes.

(** Any non-empty file, JPEG or not, stored by the bypass encoder, comes back through the streaming decoder with
    the stream in pieces of any sizes and buffers of any sizes. *)
Theorem C02_bypass_by_pieces : forall h data cap mem, seen_ok h -> bytes data -> data <> [] ->
  Z.of_nat (length data) < 2 ^ 63 -> cap < 2 ^ 64 -> Z.of_nat (length mem) = cap -> bypass_size (Z.of_nat (length data)) <= cap ->
  exists stream, encode_bypass h (Some data) cap mem = WOk stream /\ forall (B : brotli) calls,
    (exists s T o d, xdecode_calls B stream (xdecoder_start B stream) 0 NeedsInput calls = Some (s, T, o, d) /\
       s <> Err /\ undefined (snd d) = false /\ (exists rest, data = o ++ rest) /\ (s = Done -> o = data)) /\
    ((length stream <= list_sum (map fst calls))%nat -> forall k room, (length data < room)%nat ->
       exists d, xdecode_calls B stream (xdecoder_start B stream) 0 NeedsInput (calls ++ [(k, room)]) = Some (Done, length stream, data, d)).
Proof.
  intros h data cap mem Hs Hd Hne Hl Hc Hm Hr. destruct (C02_bypass_is_lossless h data cap mem Hs Hd Hl Hc Hm Hr) as (out & E & Y & _ & Dec).
  exists out. split; [exact E|]. intros B calls.
  assert (DE : brunsli_decode_jpeg B out = (StOk, Some (OOriginal data))) by (unfold brunsli_decode_jpeg; rewrite Dec; reflexivity). split.
  - exact (C55_stored_file_delivered B out data calls Y DE Hne).
  - intros HS k room HC. exact (C55_stored_file_completes B out data calls k room Y DE Hne HS HC).
Qed.
Print Assumptions C02_bypass_by_pieces.

(** The hypotheses hold: five bytes stored, 23 bytes of stream, one byte at a time in and out. *)
Definition stored_five : list Z := [10; 4; 66; 210; 213; 78; 18; 8; 8; 17; 16; 9; 24; 6; 32; 16; 74; 5; 255; 216; 7; 255; 217].
Example C55_stored_case : encode_bypass (Some (17, 9, [(2, 1); (1, 1); (1, 1)])) (Some [255; 216; 7; 255; 217]) 60 (repeat 85 60) = WOk stored_five /\
  bytes stored_five /\ brunsli_decode_jpeg toy stored_five = (StOk, Some (OOriginal [255; 216; 7; 255; 217])) /\
  run_on stored_five (repeat (1, 1)%nat 24) = Some (NeedsOutput, 23%nat, [255], false) /\
  run_on stored_five (repeat (1, 1)%nat 29) = Some (Done, 23%nat, [255; 216; 7; 255; 217], false).
Proof. split; [vm_compute; reflexivity|]. split; [apply bytesb_ok; vm_compute; reflexivity|]. split; [vm_compute; reflexivity|]. split; vm_compute; reflexivity. Qed.

(** The empty file: it is stored, the one-shot decoder accepts the stream, and the streaming decoder fails when
    it has read it (finding 5). *)
Theorem C55_empty_stored_file_refuted : exists D, brunsli_decode_jpeg toy D = (StOk, Some (OOriginal [])) /\ bytes D /\ run_on D [(length D, 1%nat)] = Some (Err, length D, [], false).
Proof. exists [10; 4; 66; 210; 213; 78; 18; 8; 8; 17; 16; 9; 24; 6; 32; 16; 74; 0]. split; [vm_compute; reflexivity|]. split; [apply bytesb_ok; vm_compute; reflexivity|]. vm_compute. reflexivity. Qed.
Print Assumptions C55_empty_stored_file_refuted.
