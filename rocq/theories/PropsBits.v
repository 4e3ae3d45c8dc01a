(** C05, C06: bit writer and bit reader. *)
From Verif Require Import Base BitModel BitProofs.

(** C05.  Fields written into a large enough buffer with arbitrary previous
    content and read back with the same widths, the written bytes being
    delivered to the reader in any pieces. *)
Theorem C05_bit_writer_reader_inverse :
  forall (fields : list (nat * Z)) (buffer : list Z) (lenient : bool) (avails : list nat),
    Forall (fun f => (fst f <= 24)%nat /\ 0 <= snd f < 2 ^ Z.of_nat (fst f)) fields ->
    bytes buffer ->
    (fields_len fields / 8 + 8 <= length buffer)%nat ->
    exists st0 st,
      storage_init buffer = Some st0 /\
      write_fields fields st0 = Some st /\
      length (storage_out st) = storage_used st /\
      forall out, out = storage_out st ->
        nondecreasing 0 avails -> Forall (fun a => (a <= length out)%nat) avails -> In (length out) avails ->
        section_calls lenient out (read_fields (map fst fields)) br_init 0 avails
          = SDone (map snd fields) (length out).
Proof.
  intros fields buffer lenient avails Hok Hb Hlen.
  assert (Hok' : fields_ok fields) by (eapply Forall_impl; [|exact Hok]; cbv beta; intros a [H1 H2]; split; [lia|exact H2]).
  destruct (write_fields_spec fields buffer Hb Hok' Hlen) as (s0 & s & E0 & E & Eo & El & Ep).
  exists s0, s. split; [exact E0|]. split; [exact E|]. split.
  { rewrite Eo, pack_length, fields_bits_length. unfold storage_used. rewrite Ep. reflexivity. }
  intros out -> Hnd Hle Hin. rewrite Eo in *.
  rewrite section_chunking; auto using pack_bytes.
  - rewrite (asection_pack _ _ _ (map snd fields)); [reflexivity|]. apply arun_read_fields; exact Hok'.
  - apply bok_read_fields. rewrite Forall_map. eapply Forall_impl; [|exact Hok]. cbv beta; intros a [H1 _]; exact H1.
Qed.
Print Assumptions C05_bit_writer_reader_inverse.

Example C05_case :
  exists st, write_fields [(3%nat, 5); (24%nat, 16000000); (1%nat, 1); (0%nat, 0); (13%nat, 4097)] (mkSt (0 :: repeat 77 20) 0) = Some st /\
  section_calls false (storage_out st) (read_fields [3; 24; 1; 0; 13]%nat) br_init 0 [1; 1; 3; 4; 6]%nat
    = SDone [5; 16000000; 1; 0; 4097] 6.
Proof. eexists; split; [vm_compute; reflexivity|vm_compute; reflexivity]. Qed.

(** C06.  Any decoder that announces what it is going to read gives the same
    outcome however the section is split over calls. *)
Theorem C06_bit_section_chunking_independent :
  forall (T : Type) (p : prog T) (lenient : bool) (section : list Z) (avails1 avails2 : list nat),
    bytes section -> bok 0 p ->
    nondecreasing 0 avails1 -> Forall (fun a => (a <= length section)%nat) avails1 -> In (length section) avails1 ->
    nondecreasing 0 avails2 -> Forall (fun a => (a <= length section)%nat) avails2 -> In (length section) avails2 ->
    section_calls lenient section p br_init 0 avails1 = section_calls lenient section p br_init 0 avails2.
Proof. intros. rewrite !section_chunking by assumption. reflexivity. Qed.
Print Assumptions C06_bit_section_chunking_independent.

(** ... and this outcome is the plain reading of the section's bit string
    (least significant bit first), with zero padding required at the end. *)
Theorem C06_bit_section_is_plain_reading :
  forall (T : Type) (p : prog T) (lenient : bool) (section : list Z) (avails : list nat),
    bytes section -> bok 0 p ->
    nondecreasing 0 avails -> Forall (fun a => (a <= length section)%nat) avails -> In (length section) avails ->
    section_calls lenient section p br_init 0 avails =
    match arun (negb lenient) p (bits_of_bytes section) with
    | Some (a, rest) =>
        if forallb negb (firstn (length rest mod 8) rest)
        then SDone a (length section - length rest / 8) else SFail
    | None => SFail
    end.
Proof.
  intros. rewrite section_chunking by assumption. unfold asection.
  destruct (arun _ p _) as [[a rest]|]; [destruct (forallb _ _)|]; reflexivity.
Qed.
Print Assumptions C06_bit_section_is_plain_reading.

(** Before the end is available a call either asks for more or already gives
    the final outcome. *)
Theorem C06_partial_input_is_never_misread :
  forall (T : Type) (p : prog T) (lenient : bool) (section : list Z) (avails full : list nat),
    bytes section -> bok 0 p ->
    nondecreasing 0 avails -> Forall (fun a => (a <= length section)%nat) avails ->
    nondecreasing 0 full -> Forall (fun a => (a <= length section)%nat) full -> In (length section) full ->
    match section_calls lenient section p br_init 0 avails with
    | SMore _ _ _ => True
    | outcome => outcome = section_calls lenient section p br_init 0 full
    end.
Proof.
  intros. rewrite (section_chunking lenient section p full) by assumption.
  pose proof (section_prefix lenient section p avails) as Hx.
  destruct (section_calls lenient section p br_init 0 avails); try exact I; apply Hx; assumption.
Qed.
Print Assumptions C06_partial_input_is_never_misread.

Definition C06_p : prog (Z * Z * Z) :=
  Need 6 (Read 2 (fun n => Read 4 (fun m => Need 12 (Take 8 (fun v => Z.to_nat (v mod 5)) (fun v => Ret (n, m, v)))))).
Definition C06_outcome (r : sec_result (Z * Z * Z)) : option (option (Z * Z * Z * nat)) :=
  match r with SDone a n => Some (Some (a, n)) | SFail => Some None | SMore _ _ _ => None end.
Example C06_case :
  bok 0 C06_p /\
  C06_outcome (section_calls false [169; 3; 0] C06_p br_init 0 [0; 1; 2; 3]%nat) = Some (Some (1, 10, 14, 2%nat)) /\
  C06_outcome (section_calls false [169; 3; 0] C06_p br_init 0 [3]%nat) = Some (Some (1, 10, 14, 2%nat)) /\
  C06_outcome (section_calls false [169; 3; 0] C06_p br_init 0 [0; 1; 2]%nat) = None.
Proof.
  split; [|repeat split; vm_compute; reflexivity].
  unfold C06_p, Read. cbn [bok].
  repeat split; try lia; try (pose proof (Z.mod_pos_bound v1 5); lia).
Qed.
