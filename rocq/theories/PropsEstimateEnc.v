(** C66: the estimate of the encoder's peak memory. *)
From Verif Require Import Base JpegModel HeaderModel PropsHeader JBitModel JFileModel MetaModel CoefModel HSecModel InternalsProofs Encoder JpegSpec PropsJpegFile PropsEncode EstimateModel EstimateEncModel.

(** * Specification: [encoder_memory] of EstimateEncModel.v is what EncodeAC has allocated when it starts with the first block. *)

(** * Proofs *)
Lemma grid_facts j : jpeg_ok j -> (1 <= length (j_comps j) <= 4)%nat /\ Forall (fun c => 1 <= c_wb c /\ 1 <= c_hb c /\ c_wb c * c_hb c <= 2 ^ 21) (j_comps j).
Proof.
  intros JO. destruct (jo_picture j JO) as (_ & _ & _ & N & _ & (_ & _ & _ & _ & _ & _ & V)). rewrite map_length in N. split; [exact N|].
  cbn [grid_of g_blocks] in V. rewrite Forall_map in V. eapply Forall_impl; [|exact V]. cbv beta. cbn [fst snd]. intros c H. change (2 ^ 21) with 2097152 in *. tauto.
Qed.

Lemma total_facts l : Forall (fun c => 1 <= c_wb c /\ 1 <= c_hb c /\ c_wb c * c_hb c <= 2 ^ 21) l ->
  Z.of_nat (length l) <= sumZ (map (fun c => c_wb c * c_hb c) l) <= 2 ^ 21 * Z.of_nat (length l).
Proof. unfold sumZ. change (2 ^ 21) with 2097152. induction 1 as [|c l H F IH]; cbn [map fold_right length]; [lia|]. nia. Qed.

Definition skips : list Z := map (fun b => Z.of_nat (scheme_size b)) kContextBits.
Lemma skips_monotone i k : (i <= k)%nat -> (k < 33)%nat -> nth i skips 0 <= nth k skips 0.
Proof.
  intros H L. assert (T : forallb (fun a => forallb (fun b => (b <? a)%nat || (nth a skips 0 <=? nth b skips 0)) (seq 0 33)) (seq 0 33) = true) by (vm_compute; reflexivity).
  rewrite forallb_forall in T. specialize (T i ltac:(apply in_seq; lia)). rewrite forallb_forall in T. specialize (T k ltac:(apply in_seq; lia)).
  apply orb_true_iff in T as [T|T]; [apply Nat.ltb_lt in T; lia|apply Z.leb_le in T; exact T].
Qed.

Lemma skips_step i : (i < 32)%nat -> nth (S i) skips 0 <= 2 * nth i skips 0 + 1.
Proof.
  intros L. assert (T : forallb (fun a => nth (S a) skips 0 <=? 2 * nth a skips 0 + 1) (seq 0 32) = true) by (vm_compute; reflexivity).
  rewrite forallb_forall in T. specialize (T i ltac:(apply in_seq; lia)). apply Z.leb_le in T. exact T.
Qed.

Lemma select_some n : 0 < n < 2 ^ 32 -> exists b, select_context_bits n = Some b /\ Z.of_nat (scheme_size b) = nth (Z.to_nat (Z.log2 n)) skips 0 /\ 0 <= Z.of_nat (scheme_size b) <= 412.
Proof.
  intros H. unfold select_context_bits. rewrite Z.mod_small by lia. destruct (Z.leb_spec n 0); [lia|].
  assert (L : 0 <= Z.log2 n < 32) by (split; [apply Z.log2_nonneg|apply Z.log2_lt_pow2; lia]).
  assert (L' : (Z.to_nat (Z.log2 n) < length kContextBits)%nat) by (change (length kContextBits) with 33%nat; lia).
  destruct (nth_error kContextBits (Z.to_nat (Z.log2 n))) as [b|] eqn:E; [|apply nth_error_None in E; lia]. exists b. split; [reflexivity|].
  assert (Q : Z.of_nat (scheme_size b) = nth (Z.to_nat (Z.log2 n)) skips 0).
  { unfold skips. symmetry. apply nth_error_nth. rewrite nth_error_map, E. reflexivity. }
  split; [exact Q|]. split; [lia|]. rewrite Q. pose proof (skips_monotone (Z.to_nat (Z.log2 n)) 32 ltac:(lia) ltac:(lia)) as M. change (nth 32 skips 0) with 412 in M. exact M.
Qed.

Lemma guess_range size j : jpeg_ok j -> 0 <= size -> 1 <= num_blocks j <= 2 ^ 23 /\ num_blocks j <= guessed_nonzeros size j <= 64 * num_blocks j.
Proof.
  intros JO H. destruct (grid_facts j JO) as [N F]. pose proof (total_facts _ F) as T. fold (num_blocks j) in T. change (2 ^ 21) with 2097152 in T. change (2 ^ 23) with 8388608. split; [lia|].
  unfold guessed_nonzeros. nia.
Qed.

Lemma states_range j : jpeg_ok j -> 0 <= component_states j <= 4 * 7000000000.
Proof.
  intros JO. destruct (grid_facts j JO) as [N F]. unfold component_states. assert (G : forall l, Forall (fun c => 1 <= c_wb c /\ 1 <= c_hb c /\ c_wb c * c_hb c <= 2 ^ 21) l ->
    0 <= sumZ (map (fun c => component_state_size (c_wb c)) l) <= 7000000000 * Z.of_nat (length l)).
  { unfold sumZ. induction 1 as [|c l H _ IH]; cbn [map fold_right length]; [lia|]. change (2 ^ 21) with 2097152 in H. assert (c_wb c <= 2097152) by nia. unfold component_state_size in *. lia. }
  specialize (G _ F). lia.
Qed.

(** * Theorems *)

(** For every file the reader accepts, and whatever size is given: no division by zero, no logarithm of 0, and a result below 2^36 unless Brotli asks
    for more, so that nothing overflows. *)
Theorem C66_estimate_is_defined : forall (brotli_peak : Z -> Z) (file : list Z) (j : jpeg) (size : Z),
  bytes file -> Z.of_nat (length file) < 2 ^ 32 -> read_jpeg RAll file = JOk j -> 0 <= size ->
  exists v, estimate_encoder_memory brotli_peak size j = Some v /\ 2 ^ 21 <= v <= Z.max (brotli_memory brotli_peak j) (2 ^ 36).
Proof.
  intros bp file j size Y L R H. pose proof (file_ok file j Y L R) as JO. destruct (guess_range size (normal j) JO H) as [T G]. change (num_blocks (normal j)) with (num_blocks j) in *. change (guessed_nonzeros size (normal j)) with (guessed_nonzeros size j) in *.
  pose proof (states_range _ JO) as S. change (component_states (normal j)) with (component_states j) in S. destruct (grid_facts _ JO) as [N _]. change (j_comps (normal j)) with (j_comps j) in N.
  change (2 ^ 23) with 8388608 in T. unfold estimate_encoder_memory. destruct (Z.eqb_spec (num_blocks j * 5) 0); [lia|].
  destruct (select_some (guessed_nonzeros size j)) as (b & Eb & _ & Rb); [change (2 ^ 32) with 4294967296; lia|]. rewrite Eb. cbv beta iota zeta delta [obind]. eexists. split; [reflexivity|].
  change (2 ^ 18) with 262144. change (2 ^ 21) with 2097152. change (2 ^ 36) with 68719476736. nia.
Qed.
Print Assumptions C66_estimate_is_defined.

(** If the file is not smaller than 5 bits for each coefficient that the encoder counts as nonzero, so that the guess is not too
    low, the estimate covers what the encoder allocates, up to 1 KiB.  Missing: files that are smaller; the next theorem shows that it is false for some. *)
Theorem C66_estimate_covers_partial : forall (brotli_peak : Z -> Z) (file : list Z) (j : jpeg) (size v : Z),
  bytes file -> Z.of_nat (length file) < 2 ^ 32 -> read_jpeg RAll file = JOk j -> 0 <= size ->
  sampled_nonzeros j <= guessed_nonzeros size j ->
  estimate_encoder_memory brotli_peak size j = Some v -> encoder_memory j <= v + 1024.
Proof.
  intros bp file j size v Y L R H HS E. pose proof (file_ok file j Y L R) as JO. destruct (guess_range size (normal j) JO H) as [T G]. change (num_blocks (normal j)) with (num_blocks j) in *. change (guessed_nonzeros size (normal j)) with (guessed_nonzeros size j) in *.
  change (2 ^ 23) with 8388608 in T. unfold estimate_encoder_memory in E. destruct (Z.eqb_spec (num_blocks j * 5) 0); [lia|].
  destruct (select_some (guessed_nonzeros size j)) as (b & Eb & Qb & Rb); [change (2 ^ 32) with 4294967296; lia|]. rewrite Eb in E. cbv beta iota zeta delta [obind] in E. apply some_inj in E.
  assert (P : forall c, 0 <= sample_nonzeros (c_coeffs c)).
  { intros c. unfold sample_nonzeros. destruct (_ <? _)%nat; [lia|]. generalize (every_fifth 0 (c_coeffs c)). intros l. enough (sumZ (map (count_zeros l) (seq 0 64)) <= 64 * Z.of_nat (length l)) by lia.
    assert (K : forall s, sumZ (map (count_zeros l) s) <= Z.of_nat (length s) * Z.of_nat (length l)).
    { unfold sumZ. induction s as [|k s IH]; cbn [map fold_right length]; [lia|]. assert (count_zeros l k <= Z.of_nat (length l)). { unfold count_zeros. clear. apply Nat2Z.inj_le. induction l as [|a l IH]; cbn [filter length]; [lia|]. destruct (nth k a 0 =? 0); cbn [length]; lia. } lia. }
    specialize (K (seq 0 64)). rewrite seq_length in K. exact K. }
  assert (W : code_words j = 6 * num_blocks j + 2 * sampled_nonzeros j + 1024 * Z.of_nat (length (j_comps j)) + 128).
  { unfold code_words, num_blocks, sampled_nonzeros, sumZ. generalize (j_comps j). intros l.
    enough (fold_right Z.add 0 (map (fun c => 2 * sample_nonzeros (c_coeffs c) + 1024 + 3 * (c_wb c * c_hb c)) l) = 3 * fold_right Z.add 0 (map (fun c => c_wb c * c_hb c) l) + 2 * fold_right Z.add 0 (map (fun c => sample_nonzeros (c_coeffs c)) l) + 1024 * Z.of_nat (length l)) by lia.
    induction l as [|c l IH]; cbn [map fold_right length]; lia. }
  assert (HI : histograms j <= 9 * (Z.of_nat (length (j_comps j)) * (2 * Z.of_nat (scheme_size b) + 2))).
  { unfold histograms.
    assert (K : forall l, sumZ (map (fun c => sample_nonzeros (c_coeffs c)) l) <= guessed_nonzeros size j ->
      sumZ (map (fun c => match select_context_bits (sample_nonzeros (c_coeffs c) + 1) with Some b0 => Z.of_nat (scheme_size b0) | None => 0 end) l) <= Z.of_nat (length l) * (2 * Z.of_nat (scheme_size b) + 1)).
    { induction l as [|c l IH]; unfold sumZ in *; cbn [map fold_right length]; intros K; [lia|]. pose proof (P c) as Pc.
      assert (Q : 0 <= fold_right Z.add 0 (map (fun c => sample_nonzeros (c_coeffs c)) l)) by (clear - P; induction l as [|c l IH]; cbn [map fold_right]; [lia|]; specialize (P c); lia).
      specialize (IH ltac:(lia)). destruct (select_some (sample_nonzeros (c_coeffs c) + 1)) as (b0 & E0 & Q0 & _); [change (2 ^ 32) with 4294967296; lia|]. rewrite E0.
      enough (Z.of_nat (scheme_size b0) <= 2 * Z.of_nat (scheme_size b) + 1) by lia. rewrite Q0, Qb. set (nz := guessed_nonzeros size j) in *.
      assert (L2 : Z.log2 nz < 30) by (apply Z.log2_lt_pow2; [lia|]; change (2 ^ 30) with 1073741824; lia). pose proof (Z.log2_nonneg nz).
      etransitivity; [|apply skips_step; lia]. apply skips_monotone; [|lia]. rewrite <- Z2Nat.inj_succ by lia. apply Z2Nat.inj_le; [apply Z.log2_nonneg|lia|].
      etransitivity; [apply Z.log2_le_mono with (b := Z.succ nz); lia|]. destruct (Z.log2_succ_or nz) as [->| ->]; lia. }
    specialize (K (j_comps j)). fold (sampled_nonzeros j) in K. specialize (K ltac:(lia)). lia. }
  rewrite <- E. unfold encoder_memory. rewrite W. lia.
Qed.
Print Assumptions C66_estimate_covers_partial.

(** * Examples *)
Lemma answer {A} (r : jres A) (t : A -> bool) : match r with JOk x => t x | _ => false end = true -> exists x, r = JOk x /\ t x = true.
Proof. destruct r; intros H; try discriminate H. eauto. Qed.

(** A flat image: 4 components, 1023 blocks each, one byte for the four blocks of an MCU. *)
Definition flat_file : list Z :=
  [255; 216] ++ ([255; 219; 0; 67; 0] ++ repeat 1 64)
  ++ [255; 192; 0; 20; 8; 1; 8; 0; 248; 4; 1; 17; 0; 2; 17; 0; 3; 17; 0; 4; 17; 0]
  ++ [255; 196; 0; 38; 0; 1; 0; 0; 0; 0; 0; 0; 0; 0; 0; 0; 0; 0; 0; 0; 0; 0; 16; 1; 0; 0; 0; 0; 0; 0; 0; 0; 0; 0; 0; 0; 0; 0; 0; 0]
  ++ [255; 218; 0; 14; 4; 1; 0; 2; 0; 3; 0; 4; 0; 0; 63; 0] ++ repeat 0 1023 ++ [255; 217].

(** The estimate for this file of 1174 bytes is less than half of what the encoder allocates: a component of less than 1024 blocks is not
    sampled but counted with 64 nonzero coefficients for each block (1002), while the estimate takes the file for the measure. *)
Theorem C66_estimate_covers_refuted : exists (file : list Z) (j : jpeg) v, bytes file /\ Z.of_nat (length file) < 2 ^ 32 /\ read_jpeg RAll file = JOk j /\
  (forall brotli_peak, estimate_encoder_memory brotli_peak (Z.of_nat (length file)) j = Some v) /\ 2 * v < encoder_memory j.
Proof.
  destruct (answer (read_jpeg RAll flat_file) (fun j => (match j_app j, j_com j with [], [] => true | _, _ => false end) &&
    match estimate_encoder_memory (fun _ => 0) (Z.of_nat (length flat_file)) j with Some v => 2 * v <? encoder_memory j | None => false end)) as (j & R & T); [vm_compute; reflexivity|].
  apply andb_true_iff in T as [T1 T2]. exists flat_file, j.
  remember (estimate_encoder_memory (fun _ => 0) (Z.of_nat (length flat_file)) j) as e eqn:E. destruct e as [v|]; [|discriminate T2]. exists v.
  split. { apply Forall_forall. assert (X : forallb (fun v => (0 <=? v) && (v <? 256)) flat_file = true) by (vm_compute; reflexivity). rewrite forallb_forall in X. intros x I. specialize (X x I). unfold is_byte. clear - X. lia. }
  split; [apply Z.ltb_lt; vm_compute; reflexivity|]. split; [exact R|]. split; [|apply Z.ltb_lt; exact T2].
  intros bp. rewrite E. unfold estimate_encoder_memory. replace (brotli_memory bp j) with (brotli_memory (fun _ => 0) j); [reflexivity|]. unfold brotli_memory. destruct (j_app j); [|discriminate T1]. destruct (j_com j); [|discriminate T1]. reflexivity.
Qed.
Print Assumptions C66_estimate_covers_refuted.

(** A file that meets the hypotheses of C66_estimate_covers_partial. *)
Example C66_case : exists j, read_jpeg RAll ex_file = JOk j /\ 1 <= sampled_nonzeros j <= guessed_nonzeros (Z.of_nat (length ex_file)) j.
Proof.
  destruct (answer (read_jpeg RAll ex_file) (fun j => (1 <=? sampled_nonzeros j) && (sampled_nonzeros j <=? guessed_nonzeros (Z.of_nat (length ex_file)) j))) as (j & R & T); [vm_compute; reflexivity|].
  exists j. split; [exact R|]. apply andb_true_iff in T as [T1 T2]. apply Z.leb_le in T1, T2. auto.
Qed.
