(** C04, C07, C08, C09, C41: integer codes, Lehmer codes, coefficient orders. *)
From Coq Require Import Permutation.
From Verif Require Import Base BitModel BitProofs CodesModel CodesProofs EntropyModel EntropyProofs LehmerModel LehmerProofs.

(** C04 *)
Theorem C04_base128_round_trip :
  forall (v : Z) (rest : list Z), 0 <= v < 2 ^ 63 ->
    bytes (encode_base128 v) /\
    length (encode_base128 v) = base128_size v /\
    decode_base128 (encode_base128 v ++ rest) = BOk v rest.
Proof.
  intros v rest Hv. split; [apply encode_base128_bytes; lia|]. split; [|apply base128_roundtrip; exact Hv].
  apply base128_size_ok; [|lia]. change (7 * Z.of_nat 10) with 70. lia.
Qed.
Print Assumptions C04_base128_round_trip.

Theorem C04_base128_fixed_width_round_trip :
  forall (v : Z) (n : nat) (rest : list Z), (1 <= n <= 9)%nat -> 0 <= v < 2 ^ (7 * Z.of_nat n) ->
    bytes (encode_base128_fix v n) /\
    length (encode_base128_fix v n) = n /\
    decode_base128 (encode_base128_fix v n ++ rest) = BOk v rest.
Proof.
  intros v n rest Hn Hv. split; [apply encode_base128_fix_bytes; lia|].
  split; [apply encode_base128_fix_length|apply base128_fix_roundtrip; assumption].
Qed.
Print Assumptions C04_base128_fixed_width_round_trip.

(** The size function gives the least sufficient width. *)
Theorem C04_base128_size_minimal :
  forall v, 0 <= v < 2 ^ 63 ->
    (1 <= base128_size v <= 10)%nat /\ v < 2 ^ (7 * Z.of_nat (base128_size v)) /\
    forall n, (1 <= n < base128_size v)%nat -> 2 ^ (7 * Z.of_nat n) <= v.
Proof.
  intros v Hv.
  destruct (base128_size_ok 10 v) as (_ & H1 & H2 & H3); [change (7 * Z.of_nat 10) with 70; lia|lia|].
  fold (base128_size v) in *. split; [lia|]. split; [exact H1|]. intros n Hn.
  assert (128 <= v).
  { destruct (Z.le_gt_cases 128 v); [assumption|]. exfalso.
    assert (base128_size v = 1%nat); [|lia]. unfold base128_size. cbn [base128_size_loop].
    destruct (Z.leb_spec 128 v); [lia|reflexivity]. }
  eapply Z.le_trans; [|apply H3; assumption]. apply Z.pow_le_mono_r; lia.
Qed.
Print Assumptions C04_base128_size_minimal.

(** Whatever the input: the reader uses 1..9 bytes, returns a 63-bit value, asks
    for more exactly when fewer than 9 bytes are there and all have the
    continuation bit, and rejects exactly when 9 bytes have it. *)
Theorem C04_base128_reader_total :
  forall (input : list Z), bytes input ->
    let continued b := 128 <= b in
    match decode_base128 input with
    | BOk v rest => 0 <= v < 2 ^ 63 /\ exists used, input = used ++ rest /\ (1 <= length used <= 9)%nat
    | BNeed => (length input < 9)%nat /\ Forall continued input
    | BBad => (9 <= length input)%nat /\ Forall continued (firstn 9 input)
    end.
Proof.
  intros input Hb continued.
  assert (Hc : forall b, is_byte b -> Z.land b 128 =? 0 = false -> 128 <= b).
  { intros b Hbb E. destruct (Z.le_gt_cases 128 b); [assumption|]. exfalso.
    destruct (b128_stop b) as [E' _]; [unfold is_byte in Hbb; lia|congruence]. }
  destruct (decode_base128 input) as [v rest| |] eqn:E.
  - apply decode_base128_ok; assumption.
  - apply decode_base128_need_iff in E as [H1 H2]. split; [exact H1|].
    unfold bytes in Hb. rewrite Forall_forall in *. intros b Hin. apply Hc; auto.
  - apply decode_base128_bad_iff in E as [H1 H2]. split; [exact H1|].
    unfold bytes in Hb. rewrite Forall_forall in *. intros b Hin. apply Hc; auto.
    apply Hb. rewrite <- (firstn_skipn 9 input). apply in_or_app; left; exact Hin.
Qed.
Print Assumptions C04_base128_reader_total.

Example C04_case : encode_base128 300 = [172; 2] /\ decode_base128 [172; 2; 77] = BOk 300 [77] /\
  encode_base128_fix 300 3 = [172; 130; 0] /\ decode_base128 (repeat 255 9) = BBad /\ decode_base128 [255] = BNeed.
Proof. repeat split; vm_compute; reflexivity. Qed.

(** C07.  Each code followed by other fields, in a section delivered in any
    pieces. *)
Definition then_fields {A} (p : prog A) (ns : list nat) : prog (A * list Z) :=
  bind p (fun a => bind (read_fields ns) (fun l => Ret (a, l))).

Definition small_fields (fs : list (nat * Z)) : Prop :=
  Forall (fun f => (fst f <= 24)%nat /\ 0 <= snd f < 2 ^ Z.of_nat (fst f)) fs.

Lemma then_fields_section {A} (p : prog A) B a fs lenient avails :
  dec 0 p B a -> bok 0 p -> small_fields fs ->
  let out := pack (B ++ fields_bits fs) in
  nondecreasing 0 avails -> Forall (fun x => (x <= length out)%nat) avails -> In (length out) avails ->
  section_calls lenient out (then_fields p (map fst fs)) br_init 0 avails = SDone (a, map snd fs) (length out).
Proof.
  intros D Hb Hfs out H1 H2 H3.
  assert (Hok : fields_ok fs) by (eapply Forall_impl; [|exact Hfs]; cbv beta; intros x [? ?]; split; [lia|assumption]).
  rewrite section_chunking; auto.
  - unfold out. rewrite (asection_pack _ _ _ (a, map snd fs)); [reflexivity|].
    unfold then_fields. rewrite arun_bind, <- app_assoc, D by lia.
    rewrite arun_bind, arun_read_fields by exact Hok. reflexivity.
  - apply pack_bytes.
  - apply bok_bind; [exact Hb|]. intros x. apply bok_bind; [|intros; exact I].
    apply bok_read_fields. rewrite Forall_map. eapply Forall_impl; [|exact Hfs]. cbv beta; intros y [? _]; assumption.
Qed.

Theorem C07_varint_round_trip :
  forall (max_bits : nat) (v : Z) (fs : list (nat * Z)) (lenient : bool) (avails : list nat),
    (max_bits <= 64)%nat -> 0 <= v < 2 ^ Z.of_nat max_bits -> small_fields fs ->
    let out := pack (fields_bits (encode_varint v max_bits ++ fs)) in
    nondecreasing 0 avails -> Forall (fun x => (x <= length out)%nat) avails -> In (length out) avails ->
    fields_ok (encode_varint v max_bits) /\
    section_calls lenient out (then_fields (decode_varint max_bits) (map fst fs)) br_init 0 avails
      = SDone (v, map snd fs) (length out).
Proof.
  intros mb v fs lenient avails Hm Hv Hfs out. unfold out. rewrite fields_bits_app. intros.
  split; [apply encode_varint_ok; lia|].
  apply then_fields_section; auto using decode_varint_dec, bok_decode_varint.
Qed.
Print Assumptions C07_varint_round_trip.

Theorem C07_limited_varint_round_trip :
  forall (k max_symbols : nat) (v : Z) (fs : list (nat * Z)) (lenient : bool) (avails : list nat),
    (1 <= k <= 24)%nat -> (max_symbols * k <= 64)%nat -> 0 <= v < 2 ^ Z.of_nat (max_symbols * k) -> small_fields fs ->
    let out := pack (fields_bits (encode_limited_varint v k max_symbols ++ fs)) in
    nondecreasing 0 avails -> Forall (fun x => (x <= length out)%nat) avails -> In (length out) avails ->
    fields_ok (encode_limited_varint v k max_symbols) /\
    section_calls lenient out (then_fields (decode_limited_varint k max_symbols) (map fst fs)) br_init 0 avails
      = SDone (v, map snd fs) (length out).
Proof.
  intros k ms v fs lenient avails Hk Hm Hv Hfs out. unfold out. rewrite fields_bits_app. intros.
  split; [apply encode_limited_varint_ok; lia|].
  apply then_fields_section; auto; [apply decode_limited_varint_dec; lia|apply bok_decode_limited_varint; lia].
Qed.
Print Assumptions C07_limited_varint_round_trip.

(** The caller of the 8-bit code asks for 11 bits beforehand (as the histogram
    section does); it only runs in lenient mode. *)
Theorem C07_var_len_uint8_round_trip :
  forall (v : Z) (fs : list (nat * Z)) (avails : list nat),
    0 <= v < 256 -> small_fields fs ->
    let out := pack (fields_bits (encode_var_len_uint8 v ++ fs)) in
    nondecreasing 0 avails -> Forall (fun x => (x <= length out)%nat) avails -> In (length out) avails ->
    fields_ok (encode_var_len_uint8 v) /\
    section_calls true out (then_fields (Need 11 decode_var_len_uint8) (map fst fs)) br_init 0 avails
      = SDone (v, map snd fs) (length out).
Proof.
  intros v fs avails Hv Hfs out. unfold out. rewrite fields_bits_app. intros H1 H2 H3.
  split; [apply encode_var_len_uint8_ok; exact Hv|].
  assert (Hok : fields_ok fs) by (eapply Forall_impl; [|exact Hfs]; cbv beta; intros x [? ?]; split; [lia|assumption]).
  rewrite section_chunking; auto.
  - rewrite (asection_pack _ _ _ (v, map snd fs)); [reflexivity|].
    unfold then_fields. cbn [bind arun negb andb]. rewrite arun_bind, <- app_assoc.
    rewrite (decode_var_len_uint8_dec v Hv) by lia.
    rewrite arun_bind, arun_read_fields by exact Hok. reflexivity.
  - apply pack_bytes.
  - apply bok_bind; [cbn [bok]; apply bok_decode_var_len_uint8|]. intros x. apply bok_bind; [|intros; exact I].
    apply bok_read_fields. rewrite Forall_map. eapply Forall_impl; [|exact Hfs]. cbv beta; intros y [? _]; assumption.
Qed.
Print Assumptions C07_var_len_uint8_round_trip.

Example C07_case :
  let out := pack (fields_bits (encode_varint 5000 28 ++ encode_limited_varint 77 2 4 ++ encode_var_len_uint8 200)) in
  section_calls false out (bind (decode_varint 28) (fun a => bind (decode_limited_varint 2 4) (fun b => Ret (a, b)))) br_init 0
     (seq 0 (S (length out))) = SFail /\
  arun false (bind (decode_varint 28) (fun a => bind (decode_limited_varint 2 4) (fun b => bind decode_var_len_uint8 (fun c => Ret (a, b, c)))))
    (bits_of_bytes out) = Some (5000, 77, 200, repeat false 6).
Proof. split; vm_compute; reflexivity. Qed.

(** C08.  A permutation of 0..n-1 of any length n. *)
Theorem C08_lehmer_round_trip :
  forall (sigma : list Z), Permutation sigma (map Z.of_nat (seq 0 (length sigma))) ->
    exists code, compute_lehmer sigma = Some code /\ length code = length sigma /\
      decode_lehmer code = Some sigma.
Proof. intros s H. destruct (lehmer_roundtrip s H) as (c & H1 & H2 & _ & H3). exists c; auto. Qed.
Print Assumptions C08_lehmer_round_trip.

Theorem C08_accepted_code_is_a_permutation :
  forall (code sigma : list Z), Forall (fun c => 0 <= c) code -> decode_lehmer code = Some sigma ->
    Permutation sigma (map Z.of_nat (seq 0 (length code))) /\ compute_lehmer sigma = Some code.
Proof. intros c s H E. destruct (lehmer_decode_perm c s H E) as (H1 & H2 & H3). rewrite H2 in H1. auto. Qed.
Print Assumptions C08_accepted_code_is_a_permutation.

(** Rejected exactly when some entry is not below the number of items left. *)
Theorem C08_out_of_range_codes_rejected :
  forall (code : list Z), Forall (fun c => 0 <= c) code ->
    (decode_lehmer code = None <-> exists i, (i < length code)%nat /\ Z.of_nat (length code - i) <= nth i code 0).
Proof.
  intros code Hc. rewrite lehmer_reject by exact Hc.
  assert (G : forall code n, Forall (fun c => 0 <= c) code -> (length code <= n)%nat ->
    (~ lehmer_valid code n <-> exists i, (i < length code)%nat /\ Z.of_nat (n - i) <= nth i code 0)).
  { clear. induction code as [|c code IH]; intros n Hc Hn; cbn [lehmer_valid length] in *.
    - split; [tauto|]. intros (i & H & _). lia.
    - inversion Hc as [|? ? Hc0 Hc']; subst. split.
      + intros H. destruct (Z.lt_ge_cases c (Z.of_nat n)) as [Hlt|Hge].
        * destruct (proj1 (IH (n - 1)%nat Hc' ltac:(lia))) as (i & H1 & H2); [intros Hv; apply H; split; [lia|exact Hv]|].
          exists (S i). split; [lia|]. cbn [nth]. replace (n - S i)%nat with (n - 1 - i)%nat by lia. exact H2.
        * exists 0%nat. split; [lia|]. cbn [nth]. lia.
      + intros (i & H1 & H2) [Hv1 Hv2]. destruct i as [|i]; cbn [nth] in H2; [lia|].
        apply (proj2 (IH (n - 1)%nat Hc' ltac:(lia))); [|exact Hv2]. exists i. split; [lia|].
        replace (n - 1 - i)%nat with (n - S i)%nat by lia. exact H2. }
  apply G; [exact Hc|lia].
Qed.
Print Assumptions C08_out_of_range_codes_rejected.

Example C08_case : compute_lehmer [2; 0; 4; 1; 3] = Some [2; 0; 2; 0; 0] /\ decode_lehmer [2; 0; 2; 0; 0] = Some [2; 0; 4; 1; 3]
  /\ decode_lehmer [2; 0; 3; 0; 0] = None.
Proof. repeat split; vm_compute; reflexivity. Qed.

(** C09 *)
Theorem C09_symbol_list_round_trip :
  forall (values symbols : list Z) (codes : list (Z * nat)),
    pc_encode symbols values = Some codes ->
    pc_decode (map fst codes) values = Some symbols /\
    Forall (fun cn => 0 <= fst cn < 2 ^ Z.of_nat (snd cn)) codes.
Proof. intros. destruct (pc_roundtrip _ _ _ H) as (H1 & _ & H3). auto. Qed.
Print Assumptions C09_symbol_list_round_trip.

(** The encoder accepts exactly lists without repetition of known values. *)
Theorem C09_encoder_accepts_iff :
  forall (values symbols : list Z), NoDup values ->
    ((exists codes, pc_encode symbols values = Some codes) <-> NoDup symbols /\ (forall s, In s symbols -> In s values)).
Proof. intros. apply pc_encode_iff; assumption. Qed.
Print Assumptions C09_encoder_accepts_iff.

(** The decoder rejects exactly the index lists with an out-of-range index
    ([length values - i] values are left for the i-th index). *)
Theorem C09_decoder_rejects_iff :
  forall (values codes : list Z), Forall (fun c => 0 <= c) codes -> (length codes <= length values)%nat ->
    (pc_decode codes values = None <-> exists i, (i < length codes)%nat /\ Z.of_nat (length values - i) <= nth i codes 0).
Proof.
  intros values codes Hc Hl.
  assert (G : forall codes n, Forall (fun c => 0 <= c) codes -> (length codes <= n)%nat ->
    (~ lehmer_valid codes n <-> exists i, (i < length codes)%nat /\ Z.of_nat (n - i) <= nth i codes 0)).
  { clear. induction codes as [|c code IH]; intros n Hc Hn; cbn [lehmer_valid length] in *.
    - split; [tauto|]. intros (i & H & _). lia.
    - inversion Hc as [|? ? Hc0 Hc']; subst. split.
      + intros H. destruct (Z.lt_ge_cases c (Z.of_nat n)) as [Hlt|Hge].
        * destruct (proj1 (IH (n - 1)%nat Hc' ltac:(lia))) as (i & H1 & H2); [intros Hv; apply H; split; [lia|exact Hv]|].
          exists (S i). split; [lia|]. cbn [nth]. replace (n - S i)%nat with (n - 1 - i)%nat by lia. exact H2.
        * exists 0%nat. split; [lia|]. cbn [nth]. lia.
      + intros (i & H1 & H2) [Hv1 Hv2]. destruct i as [|i]; cbn [nth] in H2; [lia|].
        apply (proj2 (IH (n - 1)%nat Hc' ltac:(lia))); [|exact Hv2]. exists i. split; [lia|].
        replace (n - 1 - i)%nat with (n - S i)%nat by lia. exact H2. }
  rewrite <- G by assumption. rewrite <- pc_decode_iff by exact Hc.
  destruct (pc_decode codes values) as [v|]; split; try discriminate; try reflexivity.
  - intros H. exfalso. apply H. eexists; reflexivity.
  - intros _ [v E]. discriminate.
Qed.
Print Assumptions C09_decoder_rejects_iff.

Example C09_case : pc_encode [3; 1; 9] [1; 3; 5; 7; 9] = Some [(1, 3%nat); (0, 2%nat); (2, 2%nat)] /\
  pc_decode [1; 0; 2] [1; 3; 5; 7; 9] = Some [3; 1; 9] /\ pc_encode [3; 3] [1; 3; 5; 7; 9] = None /\ pc_decode [1; 4] [1; 3; 5; 7; 9] = None.
Proof. repeat split; vm_compute; reflexivity. Qed.

(** C41.  Whatever words the section contains, an accepted order is a
    permutation of the 64 positions with DC first.  [k] is whatever the decoder
    reads before and after. *)
Theorem C41_accepted_order_is_a_permutation :
  forall (words order : list Z), edecode decode_coeff_order words = Some order ->
    Permutation order (map Z.of_nat (seq 0 64)) /\ nth 0 order 1 = 0.
Proof. intros ws o E. exact (edecode_eall order_ok _ _ _ decode_coeff_order_eall E). Qed.
Print Assumptions C41_accepted_order_is_a_permutation.

(** The same in the middle of a section: from any decoder state. *)
Theorem C41_accepted_order_is_a_permutation_any_state :
  forall (d d' : dstate) (order : list Z), erun decode_coeff_order d = Some (order, d') ->
    Permutation order (map Z.of_nat (seq 0 64)) /\ nth 0 order 1 = 0.
Proof. intros d d' o E. exact (erun_eall order_ok _ decode_coeff_order_eall _ _ _ E). Qed.
Print Assumptions C41_accepted_order_is_a_permutation_any_state.

Theorem C41_order_round_trip :
  forall (order : list Z), Permutation order (map Z.of_nat (seq 0 64)) -> nth 0 order 1 = 0 ->
    exists items, encode_coeff_order order = Some items /\
      edecode decode_coeff_order (encode_items items) = Some order.
Proof.
  intros o P H. destruct (coeff_order_roundtrip o (conj P H)) as (items & E & Hok & Ha).
  exists items. split; [exact E|]. apply entropy_roundtrip; [exact Hok|].
  specialize (Ha []). rewrite app_nil_r in Ha. exact Ha.
Qed.
Print Assumptions C41_order_round_trip.

Example C41_case :
  let order := 0 :: map Z.of_nat (rev (seq 1 63)) in
  Permutation order (map Z.of_nat (seq 0 64)) /\ nth 0 order 1 = 0 /\
  match encode_coeff_order order with
  | Some items => match edecode decode_coeff_order (encode_items items) with Some o => list_eqb o order | None => false end
  | None => false end = true.
Proof.
  cbv zeta. split; [|split; [reflexivity|vm_compute; reflexivity]].
  change (map Z.of_nat (seq 0 64)) with (0 :: map Z.of_nat (seq 1 63)). apply perm_skip. apply Permutation_map. symmetry. apply Permutation_rev.
Qed.
