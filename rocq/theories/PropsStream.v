(** Properties of the stream as a whole: C28 (grammar), C29 (streaming equals one-shot),
    C30 (look-ahead buffer), C31 (output delivery), C32 (errors and completion are
    stable), C44/C45 (sinks of the C interface), C48 (signature). *)
From Verif Require Import Base CodesModel CodesProofs BitModel BitProofs Stream InternalsProofs InternalsProofs3 Machine HeaderModel HeaderProofs PropsHeader
  ContainerModel DriverModel DriverProofs GrammarProofs OutputModel OutputProofs.

(** * C28 *)

(** Whatever the section decoders do, as long as they are resumable ([good_bodies]):
    an accepted stream is the signature, a header section and then either a single
    section with the original file or sections obeying [grammar]; nothing follows. *)
Theorem C28_accepted_streams_follow_grammar : forall B D o, good_bodies B -> bytes D ->
  decode_once (decode_stream B) D = (StOk, Some o) ->
  match o with OImage _ => image_stream D | OOriginal data => original_stream data D end.
Proof. exact decode_stream_inv. Qed.
Print Assumptions C28_accepted_streams_follow_grammar.

(** Mandatory sections of an image. *)
Theorem C28_mandatory_sections : forall ws, grammar ws -> forall t, In t [4; 5; 6; 7; 8] -> exists p, In (WSection t p) ws.
Proof.
  intros ws G. destruct (gr_last _ G) as (a & p8 & E). 
  assert (H8 : In (WSection 8 p8) ws) by (rewrite E; apply in_or_app; right; left; reflexivity).
  assert (Pull : forall t1 t2 p, In (WSection t2 p) ws -> before ws t1 t2 -> exists p1, In (WSection t1 p1) ws).
  { intros t1 t2 p H B. apply in_split in H as (x & y & ->). destruct (B x p y eq_refl) as (p1 & H1). exists p1. apply in_or_app. left. exact H1. }
  destruct (Pull _ _ _ H8 (gr_dc_ac _ G)) as (p7 & H7). destruct (Pull _ _ _ H7 (gr_quant_dc _ G)) as (p5 & H5).
  destruct (Pull _ _ _ H7 (gr_hist_dc _ G)) as (p6 & H6). destruct (Pull _ _ _ H5 (gr_internals_quant _ G)) as (p4 & H4).
  intros t [<-|[<-|[<-|[<-|[<-|[]]]]]]; eauto.
Qed.
Print Assumptions C28_mandatory_sections.

(** A message with an unknown tag is skipped: the parser arrives behind it with the same
    image; only the tag counts as used. *)
Theorem C28_unknown_message_skipped : forall B D fuel met img pos w bs rest, bytes D -> (pos <= length D)%nat ->
  10 <= wire_tag w <= 15 -> mem (wire_tag w) met = false -> on_wire w bs -> skipn pos D = bs ++ rest ->
  mrun D (read_sections B (S fuel) met img) pos (length D) =
  mrun D (read_sections B fuel (wire_tag w :: met) img) (pos + length bs) (length D).
Proof.
  intros B D fuel met img pos w bs rest Hb Hp Ht Hm Hw Hs. cbn [read_sections mrun].
  assert (Hbs : bytes (bs ++ rest)) by (rewrite <- Hs; apply skipn_bytes; exact Hb).
  pose proof (brun_bfull D Hb (parse_section met) pos _ Hs Hp) as F.
  assert (HL : (pos + length bs + length rest = length D)%nat).
  { apply f_equal with (f := @length Z) in Hs. rewrite skipn_length, app_length in Hs. lia. }
  destruct w as [t v|t p]; cbn [wire_tag on_wire] in *; destruct Hw as (b & -> & Hd).
  - unfold parse_section in F |- *. cbn [Datatypes.app] in F. change (t * 8) with (value_marker t) in F. 
    rewrite (bfull_tag (fun tag is_section met' => if is_section then BBase128 (fun n => BRet (Some (tag, n), met')) else if known_tag tag then BFail else BBase128 (fun _ => BRet (None, met'))) met pos t false (b ++ rest) ltac:(lia) Hm) in F.
    cbv iota beta in F. replace (known_tag t) with false in F by (unfold known_tag; lia). cbn [bfull] in F.
    rewrite decode_base128_more, Hd in F. cbn [Datatypes.app bfull] in F. destruct F as (F1 & F2 & F3). rewrite F1. cbn [fst snd].
    f_equal. rewrite app_length. cbn [length]. lia.
  - unfold parse_section in F |- *. cbn [Datatypes.app] in F.
    change (t * 8 + 2) with (section_marker t) in F. rewrite (bfull_tag (fun tag is_section met' => if is_section then BBase128 (fun n => BRet (Some (tag, n), met')) else if known_tag tag then BFail else BBase128 (fun _ => BRet (None, met'))) met pos t true _ ltac:(lia) Hm) in F.
    cbv iota beta in F. cbn [bfull] in F. rewrite <- app_assoc in F.
    rewrite decode_base128_more, Hd in F. cbn [Datatypes.app bfull] in F. destruct F as (F1 & F2 & F3). rewrite F1. cbn [fst snd].
    replace (known_tag t) with false by (unfold known_tag; lia). cbn [mrun].
    set (q := (S pos + (length (b ++ p ++ rest) - length (p ++ rest)))%nat) in *.
    assert (Q : q = (S pos + length b)%nat) by (unfold q; rewrite !app_length; lia).
    pose proof (brun_bfull D Hb (BBytes [] (Z.of_nat (length p)) (fun _ => BRet tt)) q (p ++ rest) F2 ltac:(lia)) as G. cbn [bfull] in G.
    destruct (Z.leb_spec (Z.of_nat (length p)) (Z.of_nat (length (p ++ rest)))) as [_|C]; [|rewrite app_length in C; lia]. cbn [bfull] in G.
    destruct G as (G1 & _). rewrite G1. f_equal. rewrite Nat2Z.id. cbn [length]. rewrite app_length. lia.
Qed.
Print Assumptions C28_unknown_message_skipped.

(** Section decoders that skip their payload, for examples: they consume what is visible. *)
Definition skip_bodies : bodies := {|
  bo_img := list Z;
  bo_state := nat;
  bo_start := fun _ _ _ _ _ _ => [];
  bo_init := fun _ _ _ => 0%nat;
  bo_call := fun tag n img _ s avail => if (n <=? avail)%nat then RDone (tag :: img) n else RMore avail;
  bo_pos := fun s => s |}.
Lemma skip_bodies_good : good_bodies skip_bodies.
Proof.
  exists (fun _ _ => True). split; [intros; exact I|]. split; [intros; exact I|]. intros D start tag n met img Hb _ _ _ _. exists (fun (s : nat) a => (s <= a)%nat /\ (s <= n)%nat). split; [|cbn; lia]. cbn [skip_bodies bo_call bo_pos]. constructor.
  - intros N HN s a Hs b Hab. destruct (Nat.leb_spec n b).
    + destruct (Nat.leb_spec n N); [reflexivity|lia].
    + split; [lia|]. intros x q. reflexivity.
  - intros s a b x q Hs Hab E. destruct (Nat.leb_spec n b); [|discriminate]. injection E as _ <-. lia.
  - intros s a b s' Hs Hab E. destruct (Nat.leb_spec n b); [discriminate|]. injection E as <-. unfold read_ahead. lia.
  - intros. exact I.
  - intros s a Hs b N Hab HN. destruct (Nat.leb_spec n b).
    + destruct (Nat.leb_spec n N); [reflexivity|lia].
    + split; [lia|]. destruct (n <=? N)%nat; reflexivity.
Qed.

(** A header for 16x8 pixels, one component; sections 4, 12 (unknown), 5, value 10, 6, 7, 8. *)
Definition example_header : list Z := header_section [HVal 1 16; HVal 2 8; HVal 3 0; HVal 4 0].
Definition example_sections : list Z :=
  [34; 1; 7] ++ [98; 2; 0; 0] ++ [42; 0] ++ [80; 5] ++ [50; 1; 1] ++ [58; 2; 1; 2] ++ [66; 2; 3; 4].
Definition example_stream : list Z := signature ++ example_header ++ example_sections.
Example C28_case : decode_once (decode_stream skip_bodies) example_stream = (StOk, Some (OImage [8; 7; 6; 5; 4])).
Proof. vm_compute. reflexivity. Qed.
(** Quantisation before internals, a repeated tag, odd DC length, trailing byte: rejected. *)
Example C28_rejected :
  map (fun s => fst (decode_once (decode_stream skip_bodies) (signature ++ example_header ++ s)))
    [ [42; 0] ++ [34; 1; 7] ++ [50; 1; 1] ++ [58; 2; 1; 2] ++ [66; 2; 3; 4];
      [34; 1; 7] ++ [98; 0] ++ [42; 0] ++ [98; 0] ++ [50; 1; 1] ++ [58; 2; 1; 2] ++ [66; 2; 3; 4];
      [34; 1; 7] ++ [42; 0] ++ [50; 1; 1] ++ [58; 1; 1] ++ [66; 2; 3; 4];
      example_sections ++ [0] ] = [StInvalid; StInvalid; StInvalid; StInvalid].
Proof. vm_compute. reflexivity. Qed.

(** * C29 *)

(** However the stream is cut into chunks, the streaming decoder ends with the status of the
    one-shot decoder, also when it fails: both say that the data is not valid, or both
    that it is not complete.  It accepts with the same result. *)
Theorem C29_streaming_equals_one_shot : forall B D chunks, good_bodies B -> bytes D -> chunks <> [] -> concat chunks = D ->
  exists st d, drive_chunks (stream_parser _ D) (stream_start D (decode_stream B)) StNeed chunks = Some (st, d) /\
    st = fst (decode_once (decode_stream B) D) /\
    forall x, (st = StOk /\ d_st d = PDone x (length D)) <-> decode_once (decode_stream B) D = (StOk, Some x).
Proof.
  intros B D chunks GB Hb Hn Hc. destruct (decode_stream_good B D GB Hb) as [G O].
  exact (streaming_is_one_shot D (decode_stream B) Hb G O chunks Hn Hc).
Qed.
Print Assumptions C29_streaming_equals_one_shot.
Example C29_case : forallb (fun x =>
  match drive_chunks (stream_parser _ example_stream) (stream_start example_stream (decode_stream skip_bodies)) StNeed
          [firstn x example_stream; firstn 3 (skipn x example_stream); skipn (3 + x) example_stream] with
  | Some (StOk, d) => match d_st d with PDone (OImage l) q => list_eqb l [8; 7; 6; 5; 4] && (q =? length example_stream)%nat | _ => false end
  | _ => false
  end) (seq 0 30) = true.
Proof. vm_compute. reflexivity. Qed.

(** The two failures: after the first section the stream is incomplete; with that section once
    more it is not valid, wherever the chunks end. *)
Definition cut_stream : list Z := firstn 19 example_stream.
Definition doubled_stream : list Z := cut_stream ++ [34; 1; 7].
Example C29_case_failures :
  fst (decode_once (decode_stream skip_bodies) cut_stream) = StNeed /\
  fst (decode_once (decode_stream skip_bodies) doubled_stream) = StInvalid /\
  forall x, In x (seq 0 24) ->
    option_map fst (drive_chunks (stream_parser _ cut_stream) (stream_start cut_stream (decode_stream skip_bodies)) StNeed [firstn x cut_stream; skipn x cut_stream]) = Some StNeed /\
    option_map fst (drive_chunks (stream_parser _ doubled_stream) (stream_start doubled_stream (decode_stream skip_bodies)) StNeed [firstn x doubled_stream; skipn x doubled_stream]) = Some StInvalid.
Proof.
  split; [vm_compute; reflexivity|]. split; [vm_compute; reflexivity|]. apply Forall_forall.
  cbn [seq]. repeat (constructor; [split; vm_compute; reflexivity|]). constructor.
Qed.

(** A caller must not stop at the first success.  A file stored as is, 599 bytes long and
    followed by one byte that does not belong there, delivered in two chunks cut inside
    the length: the second call reports success and leaves the last byte unread,
    although the whole is not a valid stream. *)
Definition stored_599 : list Z := signature ++ header_section [HVal 1 0; HVal 2 0; HVal 3 4; HVal 4 0] ++ [74] ++ encode_base128 599 ++ repeat 170 599.
Definition stored_cut : nat := (length stored_599 - 600)%nat.
Theorem C29_success_with_unread_input_refuted : exists (B : bodies) (D c1 c2 : list Z) d1 d2 n,
  D = c1 ++ c2 /\ decode_once (decode_stream B) D = (StInvalid, None) /\
  drive (stream_parser _ D) (stream_start D (decode_stream B)) c1 = Some (StNeed, length c1, d1) /\
  drive (stream_parser _ D) d1 c2 = Some (StOk, n, d2) /\ (n < length c2)%nat.
Proof.
  exists skip_bodies, (stored_599 ++ [0]), (firstn stored_cut stored_599), (skipn stored_cut stored_599 ++ [0]).
  set (D := stored_599 ++ [0]). set (c1 := firstn stored_cut stored_599). set (c2 := skipn stored_cut stored_599 ++ [0]).
  assert (T : match drive (stream_parser _ D) (stream_start D (decode_stream skip_bodies)) c1 with
              | Some (StNeed, n1, d1) => (n1 =? length c1)%nat && match drive (stream_parser _ D) d1 c2 with Some (StOk, n2, _) => (n2 <? length c2)%nat | _ => false end
              | _ => false end = true) by (vm_compute; reflexivity).
  destruct (drive (stream_parser _ D) (stream_start D (decode_stream skip_bodies)) c1) as [[[r1 n1] d1]|]; [|discriminate]. destruct r1; try discriminate.
  apply andb_prop in T as [T1 T2]. apply Nat.eqb_eq in T1. destruct (drive (stream_parser _ D) d1 c2) as [[[r2 n2] d2]|] eqn:E2; [|discriminate].
  destruct r2; try discriminate. apply Nat.ltb_lt in T2.
  exists d1, d2, n2. split; [vm_compute; reflexivity|]. split; [vm_compute; reflexivity|]. split; [rewrite T1; reflexivity|]. split; [exact E2|exact T2].
Qed.
Print Assumptions C29_success_with_unread_input_refuted.

(** * C30 *)

(** A caller passes any byte strings, one per call.  [fed]: the state after the calls and all bytes
    the calls reported as taken. *)
Fixpoint fed (P : parser) (d : dstate P) (exts : list (list Z)) : option (list Z * dstate P) :=
  match exts with
  | [] => Some ([], d)
  | e :: r =>
      let? x := drive P d e in
      let '(_, c, d1) := x in
      let? y := fed P d1 r in
      Some (firstn c e ++ fst y, snd y)
  end.

(** For every parser that consumes at most what it is shown and leaves fewer than 600 bytes
    when it asks for more: the buffer is never written past its end, it holds fewer than
    600 bytes between calls, and the bytes consumed by the parser, followed by the
    buffered ones, are the bytes taken from the caller, in order. *)
Theorem C30_buffer_bounded_no_byte_lost : forall P, parser_laws P -> forall exts (d : dstate (logging P)), (length (d_buf d) < 600)%nat ->
  exists taken d', fed (logging P) d exts = Some (taken, d') /\ (length (d_buf d') < 600)%nat /\
    log d' ++ d_buf d' = log d ++ d_buf d ++ taken.
Proof.
  intros P L. induction exts as [|e r IH]; intros d Hd; cbn [fed].
  - exists [], d. rewrite app_nil_r. auto.
  - destruct (drive_ok P L d e Hd) as (st & c & d1 & E & B1 & _ & _ & B2). rewrite E. cbn [obind].
    destruct (IH d1 B1) as (t & d2 & E2 & B3 & B4). rewrite E2. cbn [obind fst snd]. exists (firstn c e ++ t), d2. split; [reflexivity|]. split; [exact B3|].
    rewrite B4, !app_assoc, B2, <- !app_assoc. reflexivity.
Qed.
Print Assumptions C30_buffer_bounded_no_byte_lost.

(** Asking for more means that everything passed was taken. *)
Theorem C30_more_input_means_all_taken : forall P, parser_laws P -> forall (d : dstate (logging P)) ext c d', (length (d_buf d) < 600)%nat ->
  drive (logging P) d ext = Some (StNeed, c, d') -> c = length ext.
Proof.
  intros P L d ext c d' Hd E. destruct (drive_ok P L d ext Hd) as (st & c1 & d1 & E1 & _ & _ & B & _).
  rewrite E1 in E. apply some_inj in E. injection E as -> -> ->. apply B. reflexivity.
Qed.
Print Assumptions C30_more_input_means_all_taken.

(** The decoder itself never overruns the buffer, for any stream and any chunks. *)
Theorem C30_decoder_never_overflows : forall B D chunks, good_bodies B -> bytes D -> chunks <> [] -> concat chunks = D ->
  drive_chunks (stream_parser _ D) (stream_start D (decode_stream B)) StNeed chunks <> None.
Proof.
  intros B D chunks GB Hb Hn Hc E. destruct (C29_streaming_equals_one_shot B D chunks GB Hb Hn Hc) as (st & d & H & _ & _). congruence.
Qed.
Print Assumptions C30_decoder_never_overflows.

(** A parser that takes pairs of bytes, with a 1000-byte chunk, a 599-byte one and single bytes. *)
Definition pairs_parser : parser := {|
  pa_state := unit; pa_run := fun _ w => (StNeed, (length w - length w mod 2)%nat, tt); pa_failed := fun _ => false |}.
Example C30_case : parser_laws pairs_parser /\
  match fed (logging pairs_parser) (@mkD (logging pairs_parser) [] ([], tt)) [[1]; repeat 2 999; [3]; repeat 4 599; []; [5]] with
  | Some (t, d) => (length t, length (d_buf d)) = (1601, 1)%nat
  | None => False
  end.
Proof.
  split; [|vm_compute; reflexivity]. constructor.
  - cbn [pairs_parser pa_run]. intros s w r c s' E. injection E as _ <- _. lia.
  - cbn [pairs_parser pa_run]. intros s w c s' E. injection E as <- _. unfold read_ahead. destruct (snd (Nat.divmod (length w) 1 0 1)); lia.
Qed.

(** * C31 *)

(** Two callers that drain the decoder with different buffers, the parser being in
    the same state at corresponding calls: what was delivered plus what is pending is the
    same; an error, a request for input and the end are reported at the same calls. *)
Theorem C31_delivery_independent_of_buffers : forall R calls1 calls2 s1 o1 t1 s2 o2 t2,
  map fst calls1 = map fst calls2 ->
  serialize_calls R (mkSS GInit []) NeedsInput calls1 = (s1, o1, t1) ->
  serialize_calls R (mkSS GInit []) NeedsInput calls2 = (s2, o2, t2) ->
  o1 ++ concat (ss_queue t1) = o2 ++ concat (ss_queue t2) /\ (s1 = Err <-> s2 = Err) /\ (s1 = NeedsInput <-> s2 = NeedsInput) /\
  (s1 = Done -> s2 = Done -> o1 = o2).
Proof.
  intros R c1 c2 s1 o1 t1 s2 o2 t2 Hm E1 E2.
  destruct (serialize_calls_same R c1 c2 (mkSS GInit []) (mkSS GInit []) NeedsInput NeedsInput Hm eq_refl eq_refl _ _ _ _ _ _ E1 E2) as (K & _ & p & P1 & P2). cbn [ss_queue concat Datatypes.app] in P1, P2.
  assert (Last : forall c ss st s o t, (st = Done -> ss_queue ss = []) -> serialize_calls R ss st c = (s, o, t) -> s = Done -> ss_queue t = []).
  { clear. induction c as [|[i n] c IH]; intros ss st s o t H E; cbn [serialize_calls] in E; [injection E as <- <- <-; exact H|].
    destruct (serialize R i ss n) as [[a b] d] eqn:F. destruct (serialize_calls R d a c) as [[u v] w] eqn:G. injection E as <- <- <-.
    destruct (serialize_spec _ _ _ _ _ _ _ F) as (k & p & g & _ & F2 & _ & _ & _ & F6). eapply (IH d a); [|exact G].
    intros ->. cbn in F2. apply (F6 (eq_sym F2)). reflexivity. }
  split; [congruence|]. split; [destruct s1, s2; cbn in K; split; congruence|]. split; [destruct s1, s2; cbn in K; split; congruence|].
  intros D1 D2. assert (Q1 : ss_queue t1 = []) by (eapply (Last c1); [|exact E1|exact D1]; reflexivity).
  assert (Q2 : ss_queue t2 = []) by (eapply (Last c2); [|exact E2|exact D2]; reflexivity).
  rewrite Q1 in P1. rewrite Q2 in P2. cbn [concat] in P1, P2. rewrite app_nil_r in P1, P2. congruence.
Qed.
Print Assumptions C31_delivery_independent_of_buffers.

(** Once everything is produced, each call delivers as much as fits, "done" is
    reported exactly when the queue is empty, and nothing is delivered beyond the buffer. *)
Theorem C31_drain : forall R info q cap s o ss, serialize R info (mkSS GDone q) cap = (s, o, ss) ->
  length o = Nat.min cap (length (concat q)) /\ o ++ concat (ss_queue ss) = concat q /\ (s = Done <-> ss_queue ss = []) /\ (s = Done \/ s = NeedsOutput).
Proof.
  intros R info q cap s o ss E. pose proof E as E0. unfold serialize in E. cbn [ss_stage ss_queue] in E. destruct (push_output q cap) as [[o1 q1] c1] eqn:Ep.
  destruct (serialize_spec _ _ _ _ _ _ _ E0) as (k & p & g & F1 & F2 & F3 & F4 & F5 & F6). cbn [ss_stage emit] in F1. injection F1 as <- <- <-.
  injection E as <- <- <-. split; [exact (push_full _ _ _ _ _ Ep)|]. rewrite app_nil_r in F4. split; [exact F4|]. split; [apply F6; reflexivity|]. destruct q1; cbn; auto.
Qed.
Print Assumptions C31_drain.

(** "Needs more output" can be reported although no byte is left: an empty chunk (such as
    the bytes after the end of image of an ordinary file, EncodeEOI 311-315) stays queued
    when the buffer was filled exactly. *)
Theorem C31_more_output_without_bytes_refuted : exists R info q cap o ss,
  serialize R info (mkSS GDone q) cap = (NeedsOutput, o, ss) /\ concat (ss_queue ss) = [].
Proof.
  exists (mkSer unit unit tt (fun _ => SrMarkers) (fun _ => [217]) (fun _ _ _ => ([[255; 217]; []], tt, SecDone))), tt, [[255; 217]; []], 2%nat.
  eexists _, _. split; vm_compute; reflexivity.
Qed.
Print Assumptions C31_more_output_without_bytes_refuted.

(** It is also reported with free space left: the first call for a stored file queues it
    and returns before delivering anything. *)
Theorem C31_more_output_with_free_space_refuted : exists R info cap ss,
  serialize R info (mkSS GInit []) cap = (NeedsOutput, [], ss) /\ (0 < cap)%nat /\ concat (ss_queue ss) <> [].
Proof.
  exists (mkSer unit unit tt (fun _ => SrFallback (Some [1; 2; 3])) (fun _ => []) (fun _ _ _ => ([], tt, SecDone))), tt, 100%nat.
  eexists. split; [vm_compute; reflexivity|]. split; [lia|]. discriminate.
Qed.
Print Assumptions C31_more_output_with_free_space_refuted.

(** A serializer with a two-stage marker that waits for input once. *)
Definition example_serializer : serializer :=
  mkSer bool bool false (fun _ => SrMarkers) (fun _ => [192; 218; 217])
    (fun ready st m => if m =? 218 then if ready then ([[m; 2]; [4; 5; 6]], true, SecDone) else ([[m; 1]], true, SecNeedInput)
                       else ([[255; m]; []], st, SecDone)).
Example C31_case :
  let run caps := fst (serialize_calls example_serializer (mkSS GInit []) NeedsInput (combine [false; true; true; true; true; true] caps)) in
  run [3; 3; 3; 3; 3; 3]%nat = (Done, [255; 216; 255; 192; 218; 1; 218; 2; 4; 5; 6; 255; 217]) /\
  run [0; 100; 0; 1; 0; 7]%nat = (Done, [255; 216; 255; 192; 218; 1; 218; 2; 4; 5; 6; 255; 217]).
Proof. vm_compute. split; reflexivity. Qed.

(** * C32 *)

Lemma drive_invalid {X} D (d : dstate (stream_parser X D)) ext c d' :
  drive (stream_parser X D) d ext = Some (StInvalid, c, d') -> d_st d' = PError.
Proof.
  assert (P : forall s w c s', pa_run (stream_parser X D) s w = (StInvalid, c, s') -> s' = PError).
  { intros s w c0 s' E. cbn in E. destruct (list_eqb _ _); [|injection E as _ <-; reflexivity].
    destruct (do_process D s (state_pos s + length w)) as [r s1] eqn:Ed. injection E as -> _ <-.
    unfold do_process, finish in Ed. destruct s as [p pos|x q|].
    - destruct (mrun D p pos _) as [x q| |[? ?]]; [|congruence|congruence]. destruct (_ =? _)%nat; congruence.
    - destruct (_ =? _)%nat; congruence.
    - congruence. }
  assert (Ext : forall s p c d', drive_external (stream_parser X D) s ext p = Some (StInvalid, c, d') -> d_st d' = PError).
  { intros s p c0 d0 E. unfold drive_external in E. destruct (pa_run (stream_parser X D) s (skipn p ext)) as [[r n] s'] eqn:Er. destruct r.
    - discriminate.
    - destruct (store _); discriminate.
    - apply some_inj in E. injection E as _ <-. exact (P _ _ _ _ Er). }
  intros E. unfold drive in E. destruct (pa_failed (stream_parser X D) (d_st d)) eqn:Hf.
  { apply some_inj in E. injection E as _ <-. cbn in Hf. destruct (d_st d); try discriminate. reflexivity. }
  destruct (d_buf d) as [|b0 bt] eqn:Eb; [exact (Ext _ _ _ _ E)|]. rewrite <- Eb in E. destruct (store _) as [w|]; [|discriminate]. cbn [obind] in E.
  destruct (pa_run (stream_parser X D) (d_st d) w) as [[r n] s'] eqn:Er. destruct (length (d_buf d) <=? n)%nat; destruct r; try discriminate.
  - exact (Ext _ _ _ _ E).
  - apply some_inj in E. injection E as _ <-. exact (P _ _ _ _ Er).
  - apply some_inj in E. injection E as _ <-. exact (P _ _ _ _ Er).
Qed.

(** A failed decoder: the parser or the serializer has failed. *)
Definition failed {X} {D} {R} (d : decoder (X := X) D R) : Prop := d_st (fst d) = PError \/ ss_stage (snd d) = GError.

(** After an error every later call reports an error and delivers nothing. *)
Theorem C32_errors_are_sticky : forall X D R look (d d1 : decoder (X := X) D R) ext1 cap1 c1 o1,
  decode_call D R look d ext1 cap1 = Some (Err, c1, o1, d1) -> failed d1 /\
  forall ext2 cap2 s2 c2 o2 d2, decode_call D R look d1 ext2 cap2 = Some (s2, c2, o2, d2) -> s2 = Err /\ o2 = [] /\ failed d2.
Proof.
  intros X D R look d d1 ext1 cap1 c1 o1 E.
  assert (F : failed d1).
  { unfold decode_call in E. destruct (drive _ (fst d) ext1) as [[[st c] dd]|] eqn:Ed; [|discriminate]. cbn [obind] in E. destruct st.
    - destruct (serialize R (look (d_st dd)) (snd d) cap1) as [[s o] ss] eqn:Es. apply some_inj in E. injection E as -> _ _ <-.
      right. destruct (serialize_spec _ _ _ _ _ _ _ Es) as (k & p & g & F1 & F2 & F3 & _). cbn in F2. subst k. cbn [snd]. rewrite F3.
      clear - F1. destruct (ss_stage (snd d)) as [|idx st| |]; cbn [emit] in F1; try congruence.
      + assert (S : forall ms idx st p g, emit_sections R (look (d_st dd)) ms idx st = (KErr, p, g) -> g = GError).
        { clear. induction ms as [|m r IH]; intros idx st p g E; cbn [emit_sections] in E; [congruence|]. destruct (sr_section R _ st m) as [[c s'] [| |]]; try congruence.
          destruct (emit_sections R _ r (S idx) s') as [[k0 o0] g0] eqn:E0. injection E as -> <- <-. exact (IH _ _ _ _ E0). }
        destruct (sr_start R _) as [|[dt|]| |]; try congruence. destruct (emit_sections R _ (sr_markers R _) 0 (sr_init R)) as [[k0 o0] g0] eqn:E0. injection F1 as -> <- <-. exact (S _ _ _ _ _ E0).
      + assert (S : forall ms idx st p g, emit_sections R (look (d_st dd)) ms idx st = (KErr, p, g) -> g = GError).
        { clear. induction ms as [|m r IH]; intros idx st p g E; cbn [emit_sections] in E; [congruence|]. destruct (sr_section R _ st m) as [[c s'] [| |]]; try congruence.
          destruct (emit_sections R _ r (S idx) s') as [[k0 o0] g0] eqn:E0. injection E as -> <- <-. exact (IH _ _ _ _ E0). }
        exact (S _ _ _ _ _ F1).
    - destruct (serialize R (look (d_st dd)) (snd d) cap1) as [[s o] ss] eqn:Es. apply some_inj in E. injection E as -> _ _ <-.
      right. destruct (serialize_spec _ _ _ _ _ _ _ Es) as (k & p & g & F1 & F2 & F3 & _). cbn in F2. subst k. cbn [snd]. rewrite F3.
      clear - F1. destruct (ss_stage (snd d)) as [|idx st| |]; cbn [emit] in F1; try congruence.
      + assert (S : forall ms idx st p g, emit_sections R (look (d_st dd)) ms idx st = (KErr, p, g) -> g = GError).
        { clear. induction ms as [|m r IH]; intros idx st p g E; cbn [emit_sections] in E; [congruence|]. destruct (sr_section R _ st m) as [[c s'] [| |]]; try congruence.
          destruct (emit_sections R _ r (S idx) s') as [[k0 o0] g0] eqn:E0. injection E as -> <- <-. exact (IH _ _ _ _ E0). }
        destruct (sr_start R _) as [|[dt|]| |]; try congruence. destruct (emit_sections R _ (sr_markers R _) 0 (sr_init R)) as [[k0 o0] g0] eqn:E0. injection F1 as -> <- <-. exact (S _ _ _ _ _ E0).
      + assert (S : forall ms idx st p g, emit_sections R (look (d_st dd)) ms idx st = (KErr, p, g) -> g = GError).
        { clear. induction ms as [|m r IH]; intros idx st p g E; cbn [emit_sections] in E; [congruence|]. destruct (sr_section R _ st m) as [[c s'] [| |]]; try congruence.
          destruct (emit_sections R _ r (S idx) s') as [[k0 o0] g0] eqn:E0. injection E as -> <- <-. exact (IH _ _ _ _ E0). }
        exact (S _ _ _ _ _ F1).
    - apply some_inj in E. injection E as _ _ <-. left. exact (drive_invalid _ _ _ _ _ Ed). }
  split; [exact F|]. intros ext2 cap2 s2 c2 o2 d2 E2. unfold decode_call in E2. destruct F as [F|F].
  - rewrite (drive_failed D (fst d1) ext2 F) in E2. cbn [obind] in E2. apply some_inj in E2. injection E2 as <- _ <- <-. split; [reflexivity|]. split; [reflexivity|]. left. exact F.
  - destruct (drive _ (fst d1) ext2) as [[[st c] dd]|] eqn:Ed; [|discriminate]. cbn [obind] in E2. 
    assert (S : serialize R (look (d_st dd)) (snd d1) cap2 = (Err, [], snd d1)) by (unfold serialize; rewrite F; reflexivity).
    rewrite S in E2. destruct st; apply some_inj in E2; injection E2 as <- _ <- <-; (split; [reflexivity|]); (split; [reflexivity|]); right; exact F.
Qed.
Print Assumptions C32_errors_are_sticky.

(** After a parse error nothing is consumed any more and the state does not change. *)
Theorem C32_parse_error_consumes_nothing : forall X D R look (d : decoder (X := X) D R) ext c d1,
  drive (stream_parser X D) (fst d) ext = Some (StInvalid, c, d1) ->
  forall ext2 cap2, decode_call D R look (d1, snd d) ext2 cap2 = Some (Err, 0%nat, [], (d1, snd d)).
Proof.
  intros X D R look d ext c d1 E ext2 cap2. unfold decode_call. cbn [fst snd]. rewrite drive_failed by exact (drive_invalid _ _ _ _ _ E). reflexivity.
Qed.
Print Assumptions C32_parse_error_consumes_nothing.

(** After an error of the serializer alone the parser goes on consuming: here the error
    is reported at the first call and the second call still takes its three bytes. *)
Theorem C32_serializer_error_keeps_consuming_refuted : exists (D : list Z) (R : serializer) look (d d1 : decoder (X := outcome (list Z)) D R) c1 d2,
  decode_call D R look d [10; 4] 100 = Some (Err, c1, [], d1) /\ decode_call D R look d1 [66; 210; 213] 100 = Some (Err, 3%nat, [], d2).
Proof.
  exists [10; 4; 66; 210; 213; 78], (mkSer unit unit tt (fun _ => SrBad) (fun _ => []) (fun _ _ _ => ([], tt, SecDone))), (fun _ => tt).
  set (D := [10; 4; 66; 210; 213; 78]). set (R := mkSer unit unit tt (fun _ => SrBad) (fun _ => []) (fun _ _ _ => ([], tt, SecDone))).
  set (look := fun _ : pstate (outcome (list Z)) => tt). exists (stream_start D (decode_stream skip_bodies), mkSS GInit []).
  assert (T : match decode_call D R look (stream_start D (decode_stream skip_bodies), mkSS GInit []) [10; 4] 100 with
              | Some (Err, c1, [], d1) => match decode_call D R look d1 [66; 210; 213] 100 with Some (Err, 3%nat, [], _) => true | _ => false end
              | _ => false end = true) by (vm_compute; reflexivity).
  destruct (decode_call D R look (stream_start D (decode_stream skip_bodies), mkSS GInit []) [10; 4] 100) as [[[[s1 c1] o1] d1]|]; [|discriminate].
  destruct s1; try discriminate. destruct o1; try discriminate. destruct (decode_call D R look d1 [66; 210; 213] 100) as [[[[s2 c2] o2] d2]|] eqn:E2; [|discriminate].
  destruct s2; try discriminate. destruct c2 as [|[|[|[|c2]]]]; try discriminate. destruct o2; try discriminate.
  exists d1, c1, d2. split; [reflexivity|exact E2].
Qed.
Print Assumptions C32_serializer_error_keeps_consuming_refuted.

(** After success: calls without new data succeed again and change nothing, new data is
    rejected. *)
Theorem C32_completion_is_stable : forall X D R look (d : decoder (X := X) D R) x q,
  d_st (fst d) = PDone x q -> d_buf (fst d) = [] -> ss_stage (snd d) = GDone -> ss_queue (snd d) = [] ->
  (forall cap, decode_call D R look d [] cap = Some (Done, 0%nat, [], d)) /\
  (forall b ext cap, exists c d', decode_call D R look d (b :: ext) cap = Some (Err, c, [], d')).
Proof.
  intros X D R look [dd ss] x q E1 E2 E3 E4. cbn [fst snd] in *. destruct dd as [buf s]. cbn [d_st d_buf] in *. subst buf s. destruct ss as [g qu]. cbn [ss_stage ss_queue] in *. subst g qu. split.
  - intros cap. unfold decode_call, drive. cbn [fst snd d_st d_buf pa_failed stream_parser]. unfold drive_external. cbn [skipn stream_parser pa_run state_pos length].
    rewrite Nat.add_0_r. unfold slice. rewrite Nat.sub_diag. cbn [firstn list_eqb]. unfold do_process, finish. rewrite Nat.eqb_refl. cbn [obind]. rewrite Nat.sub_diag. reflexivity.
  - intros b ext cap. unfold decode_call, drive. cbn [fst snd d_st d_buf pa_failed stream_parser]. unfold drive_external. cbn [skipn stream_parser pa_run state_pos].
    destruct (list_eqb _ _); [|cbn [obind]; eauto]. unfold do_process, finish. destruct (Nat.eqb_spec q (q + length (b :: ext))) as [C|_]; [cbn [length] in C; lia|]. cbn [obind]. eauto.
Qed.
Print Assumptions C32_completion_is_stable.
Example C32_case :
  match drive (stream_parser _ example_stream) (stream_start example_stream (decode_stream skip_bodies)) example_stream with
  | Some (StOk, n, d) => match d_buf d, d_st d with [], PDone (OImage l) q => list_eqb l [8; 7; 6; 5; 4] && (q =? n)%nat | _, _ => false end
  | _ => false
  end = true.
Proof. vm_compute. reflexivity. Qed.

(** * C44 *)

(** c/dec/decode.cc:24-42, DecodeBrunsli: 1 or 0, and the pieces handed to the sink. *)
Definition decode_brunsli (B : bodies) (R : serializer) (look : outcome (bo_img B) -> sr_info R) (K : sink) (k : sk_state K) (fuel : nat) (input : list Z)
  : option (Z * list (list Z)) :=
  match decode_once (decode_stream B) input with
  | (StOk, Some x) =>
      let? r := write_jpeg fuel R (look x) K (mkSS GInit []) k in
      Some ((if fst r then 1 else 0), snd r)
  | _ => Some (0, [])
  end.

(** It returns 1 exactly if the stream decodes, everything can be serialised and the sink
    accepts every piece in full; the pieces are then the whole file. *)
Theorem C44_success_means_all_accepted : forall B R look K k fuel input ret pieces,
  decode_brunsli B R look K k fuel input = Some (ret, pieces) -> (ret = 1 \/ ret = 0) /\
  (ret = 1 -> exists x out, decode_once (decode_stream B) input = (StOk, Some x) /\ whole_output R (look x) = Some out /\
              concat pieces = out /\ accepts K k pieces) /\
  (ret = 0 -> (forall x out, decode_once (decode_stream B) input = (StOk, Some x) -> whole_output R (look x) = Some out -> ~ accepts K k pieces)).
Proof.
  intros B R look K k fuel input ret pieces E. unfold decode_brunsli in E. destruct (decode_once (decode_stream B) input) as [st [x|]].
  2:{ assert (ret = 0 /\ pieces = []) as [-> ->] by (destruct st; injection E as <- <-; auto). split; [auto|]. split; [discriminate|]. intros _ x out C. discriminate. }
  destruct st; [|injection E as <- <-; split; [auto|]; split; [discriminate|]; intros _ y out C; discriminate|injection E as <- <-; split; [auto|]; split; [discriminate|]; intros _ y out C; discriminate].
  destruct (write_jpeg fuel R (look x) K (mkSS GInit []) k) as [[r p]|] eqn:Ew; [|discriminate]. cbn [obind fst snd] in E. apply some_inj in E. injection E as <- <-.
  destruct (write_jpeg_ok _ _ _ _ _ _ _ _ Ew) as (kd & out & g & F1 & F2 & F3). cbn [ss_stage ss_queue concat Datatypes.app] in *. unfold whole_output.
  destruct r; (split; [auto|]); split; try discriminate.
  - intros _. destruct (F2 eq_refl) as (-> & A & C). exists x, out. rewrite F1. auto.
  - intros _ y o Hy. injection Hy as <-. rewrite F1. intros Ho. destruct kd; try discriminate. destruct (F3 eq_refl) as [C|C]; [congruence|exact C].
Qed.
Print Assumptions C44_success_means_all_accepted.

(** A result is always reached. *)
Theorem C44_terminates : forall B R look K k input, exists fuel r, decode_brunsli B R look K k fuel input = Some r.
Proof.
  intros B R look K k input. unfold decode_brunsli. destruct (decode_once (decode_stream B) input) as [st [x|]]; [|destruct st; exists 0%nat; eauto].
  destruct st; try (exists 0%nat; eauto; fail). destruct (write_jpeg_total R (look x) K k) as (fuel & r & E). exists fuel. rewrite E. cbn [obind]. eauto.
Qed.
Print Assumptions C44_terminates.

(** A sink that accepts everything, and one that loses a byte of the second piece. *)
Definition good_sink : sink := mkSink unit (fun _ o => (Z.of_nat (length o), tt)).
Definition short_sink : sink := mkSink nat (fun n o => (Z.of_nat (length o) - (if (n =? 1)%nat then 1 else 0), S n)).
Definition big_serializer : serializer := mkSer unit unit tt (fun _ => SrMarkers) (fun _ => [217]) (fun _ _ _ => ([repeat 7 (Z.to_nat 20000)], tt, SecDone)).
Example C44_case :
  option_map (fun r => (fst r, map (@length Z) (snd r))) (decode_brunsli skip_bodies big_serializer (fun _ => tt) good_sink tt 5 example_stream) = Some (1, [Z.to_nat 16384; Z.to_nat 3618]) /\
  option_map fst (decode_brunsli skip_bodies big_serializer (fun _ => tt) short_sink 0%nat 5 example_stream) = Some 0.
Proof. vm_compute. split; reflexivity. Qed.

(** * C45 *)

(** EncodeBrunsli is documented to fail when the sink returns anything but the number of
    bytes it was given.  It only checks for zero. *)
Theorem C45_short_write_reported_as_success_refuted : exists (J : Type) (read : list Z -> option J) encode K k input out,
  encode_brunsli read encode K k input = (1, [out]) /\ fst (sk_call K k out) <> Z.of_nat (length out).
Proof.
  exists unit, (fun _ => Some tt), (fun _ => Some [10; 4; 66]), (mkSink unit (fun _ _ => (1, tt))), tt, [], [10; 4; 66]. vm_compute. split; [reflexivity|discriminate].
Qed.
Print Assumptions C45_short_write_reported_as_success_refuted.

(** What does hold: 1 is returned only if the JPEG was read and encoded and the sink, given
    the whole encoding in one piece, did not return zero. *)
Theorem C45_encoder_sink_partial : forall J (read : list Z -> option J) encode K k input ret pieces,
  encode_brunsli read encode K k input = (ret, pieces) ->
  (ret = 1 <-> exists j out, read input = Some j /\ encode j = Some out /\ fst (sk_call K k out) <> 0) /\
  (ret = 1 -> exists j out, read input = Some j /\ encode j = Some out /\ pieces = [out]).
Proof.
  intros J read encode K k input ret pieces E. unfold encode_brunsli in E. destruct (read input) as [j|].
  2:{ injection E as <- <-. split; [split; [discriminate|intros (j & out & C & _); discriminate]|discriminate]. }
  destruct (encode j) as [out|] eqn:Ee.
  2:{ injection E as <- <-. split; [split; [discriminate|intros (j' & out & C & C2 & _); congruence]|discriminate]. }
  destruct (sk_call K k out) as [r k'] eqn:Ek. injection E as <- <-. split.
  - split.
    + intros H. exists j, out. rewrite Ek. cbn [fst]. destruct (Z.eqb_spec r 0); [discriminate|auto].
    + intros (j' & out' & Hj & H1 & H2). injection Hj as <-. rewrite Ee in H1. injection H1 as <-. rewrite Ek in H2. cbn [fst] in H2. destruct (Z.eqb_spec r 0); [contradiction|reflexivity].
  - intros _. exists j, out. auto.
Qed.
Print Assumptions C45_encoder_sink_partial.

(** * C48 *)
Theorem C48_is_brunsli_exact : forall data, is_brunsli data = true <-> exists rest, data = [10; 4; 66; 210; 213; 78] ++ rest.
Proof.
  intros data. unfold is_brunsli. split.
  - intros H. apply andb_prop in H as [H1 H2]. apply list_eqb_eq in H2. exists (skipn 6 data). rewrite <- (firstn_skipn 6 data) at 1. rewrite H2. reflexivity.
  - intros (rest & ->). reflexivity.
Qed.
Print Assumptions C48_is_brunsli_exact.

Theorem C48_decoder_needs_signature : forall B D x, decode_once (decode_stream B) D = (StOk, Some x) -> is_brunsli D = true.
Proof.
  intros B D x E. unfold decode_once, do_process in E. destruct (mrun D (decode_stream B) 0 (length D)) as [y q| |[? ?]] eqn:Em; try discriminate.
  unfold decode_stream in Em. cbn [mrun] in Em. destruct (Nat.leb_spec (0 + 6) (length D)) as [H6|]; [|discriminate].
  unfold is_brunsli. destruct (Nat.leb_spec 6 (length D)); [|lia]. cbn [andb].
  unfold verify_signature in Em. rewrite slice_len in Em by lia. change (0 + 6 - 0)%nat with 6%nat in Em. change (6 <? 6)%nat with false in Em. cbv iota in Em.
  unfold slice in Em. change (0 + 6 - 0)%nat with 6%nat in Em. cbn [skipn] in Em. rewrite firstn_firstn in Em. change (Nat.min 6 6) with 6%nat in Em.
  destruct (list_eqb (firstn 6 D) signature); [reflexivity|discriminate].
Qed.
Print Assumptions C48_decoder_needs_signature.
Example C48_case : is_brunsli example_stream = true /\ is_brunsli (tl example_stream) = false /\ is_brunsli [10; 4; 66; 210; 213] = false.
Proof. vm_compute. repeat split. Qed.
