(** Proofs about bit-level I/O. *)
From Verif Require Import Base BitModel.

(** * List helpers *)

Lemma skipn_skipn' {A} (l : list A) a b : skipn a (skipn b l) = skipn (b + a) l.
Proof. revert l; induction b as [|b IH]; intros l; cbn [Nat.add]; [reflexivity|]. destruct l; cbn [skipn]; [rewrite skipn_nil; reflexivity|apply IH]. Qed.

Lemma firstn_app_le {A} (l1 l2 : list A) n : (n <= length l1)%nat -> firstn n (l1 ++ l2) = firstn n l1.
Proof. intros H. rewrite firstn_app. replace (n - length l1)%nat with O by lia. cbn [firstn]. apply app_nil_r. Qed.

Lemma skipn_app_le {A} (l1 l2 : list A) n : (n <= length l1)%nat -> skipn n (l1 ++ l2) = skipn n l1 ++ l2.
Proof. intros H. rewrite skipn_app. replace (n - length l1)%nat with O by lia. reflexivity. Qed.

Lemma skipn_app_ge {A} (l1 l2 : list A) n : (length l1 <= n)%nat -> skipn n (l1 ++ l2) = skipn (n - length l1) l2.
Proof. intros H. rewrite skipn_app. rewrite skipn_all2 by lia. reflexivity. Qed.

Lemma skipn_bits_of_bytes l n : skipn (8 * n) (bits_of_bytes l) = bits_of_bytes (skipn n l).
Proof.
  revert l; induction n as [|n IH]; intros l; [reflexivity|].
  destruct l as [|b l]; [rewrite !skipn_nil; reflexivity|].
  cbn [bits_of_bytes skipn]. replace (8 * S n)%nat with (length (bits_of 8 b) + 8 * n)%nat by (rewrite bits_of_length; lia).
  rewrite <- skipn_skipn', skipn_app_exact. apply IH.
Qed.

Lemma firstn_bits_of_bytes l n : firstn (8 * n) (bits_of_bytes l) = bits_of_bytes (firstn n l).
Proof.
  revert l; induction n as [|n IH]; intros l; [reflexivity|].
  destruct l as [|b l]; [rewrite !firstn_nil; reflexivity|].
  cbn [bits_of_bytes firstn]. rewrite firstn_app, bits_of_length.
  rewrite firstn_all2 by (rewrite bits_of_length; lia).
  replace (8 * S n - 8)%nat with (8 * n)%nat by lia. rewrite IH. reflexivity.
Qed.

Lemma nth_error_skipn_cons {A} (l : list A) n x : nth_error l n = Some x -> skipn n l = x :: skipn (S n) l.
Proof. revert l; induction n as [|n IH]; intros [|a l] H; cbn in *; try discriminate; [congruence|]. apply IH; exact H. Qed.

Lemma val_of_firstn n l : val_of (firstn n l) = val_of l mod 2 ^ Z.of_nat n.
Proof.
  revert l; induction n as [|n IH]; intros l.
  - cbn [firstn val_of]. change (2 ^ Z.of_nat 0) with 1. rewrite Z.mod_1_r; reflexivity.
  - destruct l as [|b l]; cbn [firstn val_of].
    + rewrite Z.mod_0_l; [reflexivity|]. pose proof (pow2_pos_nat (S n)); lia.
    + rewrite IH, pow2_S. pose proof (pow2_pos_nat n).
      rewrite Z.rem_mul_r by lia.
      replace ((b2z b + 2 * val_of l) mod 2) with (b2z b) by (unfold b2z; destruct b; dlia).
      replace ((b2z b + 2 * val_of l) / 2) with (val_of l) by (unfold b2z; destruct b; dlia). reflexivity.
Qed.

Lemma val_of_skipn n l : val_of (skipn n l) = val_of l / 2 ^ Z.of_nat n.
Proof.
  revert l; induction n as [|n IH]; intros l.
  - change (2 ^ Z.of_nat 0) with 1. rewrite Z.div_1_r; reflexivity.
  - destruct l as [|b l]; cbn [skipn val_of].
    + rewrite Z.div_0_l; [reflexivity|]. pose proof (pow2_pos_nat (S n)); lia.
    + rewrite IH, pow2_S. pose proof (pow2_pos_nat n). rewrite <- Z.div_div by lia.
      replace ((b2z b + 2 * val_of l) / 2) with (val_of l) by (unfold b2z; destruct b; dlia). reflexivity.
Qed.

Lemma val_of_app_zeros l n : val_of (l ++ repeat false n) = val_of l.
Proof. rewrite val_of_app, val_of_repeat_false. lia. Qed.

Lemma peek_val n l : peek n l = val_of l mod 2 ^ Z.of_nat n.
Proof. unfold peek. rewrite val_of_firstn, val_of_app_zeros. reflexivity. Qed.

Lemma peek_range n l : 0 <= peek n l < 2 ^ Z.of_nat n.
Proof. rewrite peek_val. apply Z.mod_pos_bound, pow2_pos_nat. Qed.

Lemma peek_app n l1 l2 : (n <= length l1)%nat -> peek n (l1 ++ l2) = peek n l1.
Proof.
  intros H. unfold peek. rewrite <- app_assoc. rewrite !firstn_app_le by lia. reflexivity.
Qed.

Lemma peek_bits n v l : 0 <= v < 2 ^ Z.of_nat n -> peek n (bits_of n v ++ l) = v.
Proof.
  intros H. rewrite peek_app by (rewrite bits_of_length; lia). rewrite peek_val, val_of_bits_of_small by exact H.
  apply Z.mod_small; exact H.
Qed.

(** * The reader machine *)

Record R (lead : list bool) (chunk : list Z) (b : breader) (L : list bool) (c real : nat) : Prop := mkR {
  R_chunk : br_chunk b = chunk;
  R_bytes : bytes chunk;
  R_lead : (length lead < 8)%nat;
  R_c : (c <= length (lead ++ bits_of_bytes chunk))%nat;
  R_L : L = skipn c (lead ++ bits_of_bytes chunk);
  R_real : (real + c = length lead + 8 * br_next b)%nat;
  R_bits : br_bits b = val_of (firstn real L);
  R_nbits : (br_nbits b = real + 8 * br_debt b)%nat;
  R_next : (br_next b <= length chunk)%nat;
  R_debt : (0 < br_debt b)%nat -> br_next b = length chunk;
  R_healthy : br_healthy b = true
}.

Lemma R_len lead chunk b L c real : R lead chunk b L c real ->
  length L = (length lead + 8 * length chunk - c)%nat.
Proof. intros H. rewrite (R_L _ _ _ _ _ _ H), skipn_length, app_length, bits_of_bytes_length. reflexivity. Qed.

Lemma R_real_le lead chunk b L c real : R lead chunk b L c real -> (real <= length L)%nat.
Proof.
  intros H. rewrite (R_len _ _ _ _ _ _ H). pose proof (R_real _ _ _ _ _ _ H). pose proof (R_next _ _ _ _ _ _ H). lia.
Qed.

Lemma R_debt_real lead chunk b L c real : R lead chunk b L c real -> (0 < br_debt b)%nat -> real = length L.
Proof.
  intros H Hd. rewrite (R_len _ _ _ _ _ _ H). pose proof (R_real _ _ _ _ _ _ H).
  rewrite (R_debt _ _ _ _ _ _ H Hd) in *. lia.
Qed.

Lemma R_bits_range lead chunk b L c real : R lead chunk b L c real -> 0 <= br_bits b < 2 ^ Z.of_nat real.
Proof.
  intros H. rewrite (R_bits _ _ _ _ _ _ H). pose proof (val_of_range (firstn real L)) as Hr.
  rewrite firstn_length in Hr. pose proof (R_real_le _ _ _ _ _ _ H).
  replace (Nat.min real (length L)) with real in Hr by lia. exact Hr.
Qed.

Lemma fetch_R lead chunk b L c real n : R lead chunk b L c real -> (n <= 24)%nat ->
  exists real', R lead chunk (br_fetch n b) L c real' /\
    (br_nbits (br_fetch n b) = if (br_nbits b <? n)%nat then br_nbits b + 8 else br_nbits b)%nat /\
    br_opt (br_fetch n b) = br_opt b /\
    ((n <= length L)%nat -> br_debt b = O -> br_debt (br_fetch n b) = O).
Proof.
  intros H Hn. unfold br_fetch. destruct (Nat.ltb_spec (br_nbits b) n) as [Hlt|Hge].
  - rewrite (R_chunk _ _ _ _ _ _ H). destruct (nth_error chunk (br_next b)) as [x|] eqn:E.
    + assert (Hd : br_debt b = O).
      { destruct (br_debt b) eqn:Ed; [reflexivity|]. pose proof (R_debt _ _ _ _ _ _ H ltac:(lia)) as Hx.
        rewrite Hx in E. assert (nth_error chunk (length chunk) = None) by (apply nth_error_None; lia). congruence. }
      assert (Hxb : is_byte x).
      { pose proof (R_bytes _ _ _ _ _ _ H) as Hb. unfold bytes in Hb. rewrite Forall_forall in Hb. apply Hb. eapply nth_error_In; exact E. }
      assert (Hnx : (br_next b < length chunk)%nat) by (apply nth_error_Some; congruence).
      pose proof (R_nbits _ _ _ _ _ _ H) as Hnb. rewrite Hd in Hnb. assert (Hre : br_nbits b = real) by lia.
      exists (real + 8)%nat. cbn [br_nbits br_opt br_debt]. split; [|auto].
      pose proof (R_real _ _ _ _ _ _ H) as Hr.
      constructor; cbn [br_chunk br_next br_nbits br_bits br_debt br_healthy]; try (apply H); try reflexivity; try lia.
      * pose proof (R_bits_range _ _ _ _ _ _ H) as Hbr.
        assert (HL : skipn real L = bits_of 8 x ++ bits_of_bytes (skipn (S (br_next b)) chunk)).
        { rewrite (R_L _ _ _ _ _ _ H), skipn_skipn'.
          rewrite skipn_app_ge by lia. replace (c + real - length lead)%nat with (8 * br_next b)%nat by lia.
          rewrite skipn_bits_of_bytes. rewrite (nth_error_skipn_cons _ _ _ E). reflexivity. }
        assert (HF : firstn (real + 8) L = firstn real L ++ bits_of 8 x).
        { rewrite <- (firstn_skipn real L) at 1. rewrite HL.
          assert (length (firstn real L) = real) by (rewrite firstn_length; pose proof (R_real_le _ _ _ _ _ _ H); lia).
          rewrite firstn_app. rewrite firstn_all2 by lia. f_equal.
          replace (real + 8 - length (firstn real L))%nat with 8%nat by lia.
          rewrite firstn_app_le by (rewrite bits_of_length; lia). apply firstn_all2. rewrite bits_of_length; lia. }
        rewrite HF, val_of_app, val_of_bits_of_small by exact Hxb.
        rewrite firstn_length. pose proof (R_real_le _ _ _ _ _ _ H). replace (Nat.min real (length L)) with real by lia.
        rewrite Hre, (R_bits _ _ _ _ _ _ H). rewrite <- (R_bits _ _ _ _ _ _ H).
        rewrite Z.shiftl_mul_pow2 by lia.
        pose proof (pow2_pos_nat real).
        assert (x * 2 ^ Z.of_nat real < 2 ^ 32).
        { apply Z.lt_le_trans with (2 ^ 8 * 2 ^ Z.of_nat real); [unfold is_byte in Hxb; nia|].
          rewrite <- Z.pow_add_r by lia. apply Z.pow_le_mono_r; lia. }
        rewrite Z.mod_small by (unfold is_byte in Hxb; nia).
        rewrite lor_disjoint_add by lia. lia.
    + exists real. cbn [br_nbits br_opt br_debt]. split; [|split; [reflexivity|split; [reflexivity|]]].
      * apply nth_error_None in E. pose proof (R_next _ _ _ _ _ _ H). pose proof (R_nbits _ _ _ _ _ _ H).
        constructor; cbn [br_chunk br_next br_nbits br_bits br_debt br_healthy]; try (apply H); try reflexivity; try lia.
      * intros HL Hd. exfalso. apply nth_error_None in E.
        pose proof (R_real _ _ _ _ _ _ H). pose proof (R_nbits _ _ _ _ _ _ H). rewrite (R_len _ _ _ _ _ _ H) in HL. lia.
  - exists real. auto.
Qed.

Lemma load_R lead chunk b L c real n : R lead chunk b L c real -> (n <= 24)%nat ->
  exists real', R lead chunk (br_load n b) L c real' /\ (n <= br_nbits (br_load n b))%nat /\
    br_opt (br_load n b) = br_opt b /\
    ((n <= length L)%nat -> br_debt b = O -> br_debt (br_load n b) = O).
Proof.
  intros H Hn. unfold br_load.
  destruct (fetch_R _ _ _ _ _ _ n H Hn) as (r1 & H1 & N1 & O1 & D1).
  destruct (Nat.ltb_spec 8 n) as [Hn8|Hn8].
  - destruct (fetch_R _ _ _ _ _ _ n H1 Hn) as (r2 & H2 & N2 & O2 & D2).
    destruct (Nat.ltb_spec 16 n) as [Hn16|Hn16].
    + destruct (fetch_R _ _ _ _ _ _ n H2 Hn) as (r3 & H3 & N3 & O3 & D3).
      exists r3. split; [exact H3|]. split; [|split; [congruence|auto]].
      rewrite N3, N2, N1. repeat match goal with |- context [(?a <? ?b)%nat] => destruct (Nat.ltb_spec a b) end; lia.
    + exists r2. split; [exact H2|]. split; [|split; [congruence|auto]].
      rewrite N2, N1. repeat match goal with |- context [(?a <? ?b)%nat] => destruct (Nat.ltb_spec a b) end; lia.
  - exists r1. split; [exact H1|]. split; [|split; [congruence|auto]].
    rewrite N1. destruct (Nat.ltb_spec (br_nbits b) n); lia.
Qed.

Lemma get_R lead chunk b L c real n : R lead chunk b L c real -> (n <= br_nbits b)%nat ->
  br_get n b = peek n L.
Proof.
  intros H Hn. unfold br_get. rewrite land_ones_mod by lia. rewrite peek_val, (R_bits _ _ _ _ _ _ H).
  rewrite val_of_firstn.
  destruct (Nat.leb_spec n real) as [Hle|Hgt].
  - pose proof (pow2_pos_nat real). pose proof (pow2_pos_nat n).
    replace (2 ^ Z.of_nat real) with (2 ^ Z.of_nat n * 2 ^ Z.of_nat (real - n)) by (rewrite <- Z.pow_add_r by lia; f_equal; lia).
    pose proof (pow2_pos_nat (real - n)).
    rewrite Z.rem_mul_r by lia. rewrite (Z.mul_comm (2 ^ Z.of_nat n)), Z.mod_add by lia. apply Z.mod_mod; lia.
  - assert (Hd : (0 < br_debt b)%nat) by (pose proof (R_nbits _ _ _ _ _ _ H); lia).
    pose proof (R_debt_real _ _ _ _ _ _ H Hd) as Hr.
    rewrite (Z.mod_small (val_of L) (2 ^ Z.of_nat real)); [reflexivity|].
    subst real. apply val_of_range.
Qed.

Lemma drop_R lead chunk b L c real n m : R lead chunk b L c real -> (n <= br_nbits b)%nat -> (m <= n)%nat ->
  (m <= length L)%nat -> R lead chunk (br_drop m b) (skipn m L) (c + m) (real - m).
Proof.
  intros H Hn Hm HL.
  assert (Hr : (m <= real)%nat).
  { destruct (br_debt b) eqn:Ed.
    - pose proof (R_nbits _ _ _ _ _ _ H); lia.
    - pose proof (R_debt_real _ _ _ _ _ _ H ltac:(lia)); lia. }
  pose proof (R_len _ _ _ _ _ _ H). pose proof (R_real _ _ _ _ _ _ H). pose proof (R_nbits _ _ _ _ _ _ H).
  pose proof (R_c _ _ _ _ _ _ H) as Hc. rewrite app_length, bits_of_bytes_length in Hc.
  constructor; cbn [br_drop br_chunk br_next br_nbits br_bits br_debt br_healthy]; try (apply H); try reflexivity; try lia.
  - rewrite app_length, bits_of_bytes_length. lia.
  - rewrite (R_L _ _ _ _ _ _ H), skipn_skipn'. reflexivity.
  - rewrite (R_bits _ _ _ _ _ _ H), Z.shiftr_div_pow2 by lia.
    rewrite <- val_of_skipn. f_equal.
    rewrite firstn_skipn_comm. f_equal. f_equal. lia.
Qed.

(** Overrun: consumed more than there was. *)
Definition Over (b : breader) : Prop :=
  (br_nbits b < 8 * br_debt b)%nat /\ (length (br_chunk b) <= br_next b)%nat.

Lemma drop_Over lead chunk b L c real n m : R lead chunk b L c real -> (n <= br_nbits b)%nat -> (m <= n)%nat ->
  (length L < m)%nat -> Over (br_drop m b).
Proof.
  intros H Hn Hm HL.
  pose proof (R_real_le _ _ _ _ _ _ H). pose proof (R_nbits _ _ _ _ _ _ H).
  assert (Hd : (0 < br_debt b)%nat) by (pose proof (R_len _ _ _ _ _ _ H); pose proof (R_real _ _ _ _ _ _ H);
    pose proof (R_next _ _ _ _ _ _ H); destruct (br_debt b); lia).
  pose proof (R_debt_real _ _ _ _ _ _ H Hd). pose proof (R_debt _ _ _ _ _ _ H Hd).
  unfold Over; cbn [br_drop br_chunk br_next br_nbits br_debt]. rewrite (R_chunk _ _ _ _ _ _ H). lia.
Qed.

Lemma fetch_Over b n : Over b -> Over (br_fetch n b).
Proof.
  intros [H1 H2]. unfold br_fetch. destruct (_ <? _)%nat; [|split; assumption].
  assert (E : nth_error (br_chunk b) (br_next b) = None) by (apply nth_error_None; exact H2).
  rewrite E. split; cbn [br_chunk br_next br_nbits br_debt]; lia.
Qed.

Lemma load_Over b n : Over b -> Over (br_load n b).
Proof.
  intros H. unfold br_load. destruct (_ <? _)%nat; [destruct (16 <? n)%nat|]; repeat apply fetch_Over; exact H.
Qed.

Lemma drop_Over' b m : Over b -> Over (br_drop m b).
Proof. intros [H1 H2]. split; cbn [br_drop br_chunk br_next br_nbits br_debt]; lia. Qed.

Lemma unload_Over b : Over b -> Over (br_unload b) /\ (0 < br_debt (br_unload b))%nat.
Proof.
  intros [H1 H2]. unfold Over, br_unload; cbn [br_chunk br_next br_nbits br_debt].
  assert (Hlt : (br_nbits b / 8 < br_debt b)%nat) by (apply Nat.div_lt_upper_bound; lia).
  replace (Nat.min (br_debt b) (br_nbits b / 8)) with (br_nbits b / 8)%nat by lia.
  pose proof (Nat.div_mod (br_nbits b) 8 ltac:(lia)). pose proof (Nat.mod_upper_bound (br_nbits b) 8 ltac:(lia)).
  assert (Hz : ((br_nbits b - 8 * (br_nbits b / 8)) / 8 = 0)%nat) by (apply Nat.div_small; lia).
  rewrite Hz. lia.
Qed.

Lemma mrun_Over {A} (p : prog A) : forall b, Over b ->
  match mrun p b with Done _ b' => Over b' | _ => True end.
Proof.
  induction p as [a| |n f k IH|n p IH|p IH]; intros b H; cbn [mrun]; try exact I.
  - exact H.
  - apply IH. apply drop_Over', load_Over, H.
  - destruct (br_can_read n b); [apply IH, H|exact I].
  - unfold br_is_healthy. destruct (unload_Over b H) as [H1 H2].
    destruct (br_debt (br_unload b) =? 0)%nat eqn:E; [apply Nat.eqb_eq in E; lia|]. exact I.
Qed.

(** Unload. *)
Lemma unload_R lead chunk b L c real : R lead chunk b L c real ->
  R lead chunk (br_unload b) L c (real mod 8) /\ br_debt (br_unload b) = O /\
  br_opt (br_unload b) = br_opt b.
Proof.
  intros H. unfold br_unload.
  pose proof (R_nbits _ _ _ _ _ _ H) as Hnb. pose proof (R_real _ _ _ _ _ _ H) as Hr.
  pose proof (R_lead _ _ _ _ _ _ H) as Hl. pose proof (R_next _ _ _ _ _ _ H) as Hn.
  assert (Hc : Nat.min (br_debt b) (br_nbits b / 8) = br_debt b).
  { apply Nat.min_l. apply Nat.div_le_lower_bound; lia. }
  rewrite Hc. replace (br_nbits b - 8 * br_debt b)%nat with real by lia.
  pose proof (Nat.div_mod real 8 ltac:(lia)) as Hdm. pose proof (Nat.mod_upper_bound real 8 ltac:(lia)) as Hmb.
  replace (real - 8 * (real / 8))%nat with (real mod 8)%nat by lia.
  split; [|split; [cbn [br_debt]; lia|reflexivity]].
  constructor; cbn [br_chunk br_next br_nbits br_bits br_debt br_healthy]; try (apply H); try reflexivity; try lia.
  rewrite land_ones_mod by lia. rewrite (R_bits _ _ _ _ _ _ H). rewrite <- val_of_firstn, firstn_firstn.
  f_equal. f_equal. lia.
Qed.

Lemma can_read_R lead chunk b L c real n : R lead chunk b L c real -> br_opt b = false -> br_debt b = O ->
  br_can_read n b = (n <=? length L)%nat.
Proof.
  intros H Ho Hd. unfold br_can_read. rewrite Ho, Hd. cbn [Nat.eqb negb].
  pose proof (R_nbits _ _ _ _ _ _ H) as Hnb. pose proof (R_real _ _ _ _ _ _ H) as Hr.
  pose proof (R_len _ _ _ _ _ _ H) as HL. pose proof (R_next _ _ _ _ _ _ H) as Hn.
  rewrite (R_chunk _ _ _ _ _ _ H).
  pose proof (Nat.div_mod (n - br_nbits b + 7) 8 ltac:(lia)).
  pose proof (Nat.mod_upper_bound (n - br_nbits b + 7) 8 ltac:(lia)).
  destruct (Nat.leb_spec n (br_nbits b)).
  - symmetry; apply Nat.leb_le; lia.
  - apply eq_true_iff_eq. rewrite !Nat.leb_le. lia.
Qed.

(** Pessimistic mode: programs within budget. *)
Lemma mrun_budget {A} (p : prog A) : forall lead chunk b L c real k U (strict : bool),
  R lead chunk b L c real -> br_opt b = false -> br_debt b = O ->
  bok k p -> (k <= length L)%nat ->
  match mrun p b with
  | Done a b' => exists L' c' real', R lead chunk b' L' c' real' /\ arun strict p (L ++ U) = Some (a, L' ++ U)
  | Failed => arun strict p (L ++ U) = None
  | More q b' => exists L' c' real' k' n q', R lead chunk b' L' c' real' /\ br_opt b' = false /\ br_debt b' = O /\
      arun strict p (L ++ U) = arun strict q (L' ++ U) /\ bok k' q /\ (k' <= length L')%nat /\
      q = Need n q' /\ (length L' < n)%nat
  end.
Proof.
  induction p as [a| |n f kk IH|n p IH|p IH]; intros lead chunk b L c real k U strict H Ho Hd Hb Hk; cbn [mrun arun bok] in *.
  - exists L, c, real. auto.
  - reflexivity.
  - destruct Hb as (Hn & Hn24 & Hb).
    destruct (load_R _ _ _ _ _ _ n H Hn24) as (r1 & H1 & N1 & O1 & D1).
    specialize (D1 ltac:(lia) Hd).
    rewrite (get_R _ _ _ _ _ _ n H1 N1). rewrite peek_app by lia.
    destruct (Hb (peek n L) (peek_range n L)) as [Hf Hb'].
    assert (E : (f (peek n L) <=? length (L ++ U))%nat = true) by (apply Nat.leb_le; rewrite app_length; lia).
    rewrite E. rewrite skipn_app_le by lia.
    eapply IH; [eapply drop_R; [exact H1|exact N1|exact Hf|lia]| | |exact Hb'|].
    + cbn [br_drop br_opt]. congruence.
    + cbn [br_drop br_debt]. exact D1.
    + rewrite skipn_length. lia.
  - rewrite (can_read_R _ _ _ _ _ _ n H Ho Hd).
    destruct (Nat.leb_spec n (length L)) as [Hle|Hgt].
    + assert (E : (length (L ++ U) <? n)%nat = false) by (apply Nat.ltb_ge; rewrite app_length; lia).
      rewrite E, andb_false_r. eapply IH; [exact H|exact Ho|exact Hd|exact Hb|lia].
    + exists L, c, real, k, n, p. repeat split; auto; apply H.
  - unfold br_is_healthy. destruct (unload_R _ _ _ _ _ _ H) as (H1 & D1 & O1).
    rewrite D1, (R_healthy _ _ _ _ _ _ H1). cbn [Nat.eqb andb].
    eapply IH; [exact H1|congruence|exact D1|exact Hb|exact Hk].
Qed.

(** Optimistic mode on the complete rest of the section. *)
Lemma mrun_optimistic {A} (p : prog A) : forall lead chunk b L c real k,
  R lead chunk b L c real -> br_opt b = true -> bok k p ->
  match arun false p L with
  | Some (a, rest) => exists b' c' real', mrun p b = Done a b' /\ R lead chunk b' rest c' real'
  | None => match mrun p b with Done _ b' => Over b' | _ => True end
  end.
Proof.
  induction p as [a| |n f kk IH|n p IH|p IH]; intros lead chunk b L c real k H Ho Hb; cbn [mrun arun bok] in *.
  - exists b, c, real. auto.
  - exact I.
  - destruct Hb as (Hn & Hn24 & Hb).
    destruct (load_R _ _ _ _ _ _ n H Hn24) as (r1 & H1 & N1 & O1 & _).
    rewrite (get_R _ _ _ _ _ _ n H1 N1).
    destruct (Hb (peek n L) (peek_range n L)) as [Hf Hb'].
    destruct (Nat.leb_spec (f (peek n L)) (length L)) as [Hle|Hgt].
    + eapply IH; [eapply drop_R; [exact H1|exact N1|exact Hf|exact Hle]| |exact Hb'].
      cbn [br_drop br_opt]. congruence.
    + apply mrun_Over. eapply drop_Over; [exact H1|exact N1|exact Hf|exact Hgt].
  - cbn [andb]. unfold br_can_read. rewrite Ho. eapply IH; eassumption.
  - unfold br_is_healthy. destruct (unload_R _ _ _ _ _ _ H) as (H1 & D1 & O1).
    rewrite D1, (R_healthy _ _ _ _ _ _ H1). cbn [Nat.eqb andb].
    eapply IH; [exact H1|congruence|exact Hb].
Qed.

(** * Whole sections *)

(** State between two calls. *)
Record Rest (sec : list Z) (b : breader) (pos : nat) (A : list bool) : Prop := mkRest {
  Rest_n : (br_nbits b < 8)%nat;
  Rest_d : br_debt b = O;
  Rest_h : br_healthy b = true;
  Rest_p : (pos <= length sec)%nat;
  Rest_a : (br_nbits b <= length A)%nat;
  Rest_b : br_bits b = val_of (firstn (br_nbits b) A);
  Rest_s : skipn (br_nbits b) A = bits_of_bytes (skipn pos sec)
}.

Lemma resume_R sec b pos A avail o : bytes sec -> Rest sec b pos A -> (pos <= avail)%nat ->
  let lead := firstn (br_nbits b) A in
  let chunk := firstn (avail - pos) (skipn pos sec) in
  R lead chunk (br_set_optimistic (br_resume b chunk) o) (lead ++ bits_of_bytes chunk) 0 (br_nbits b).
Proof.
  intros Hs H Hp lead chunk.
  assert (Hll : length lead = br_nbits b) by (unfold lead; rewrite firstn_length; pose proof (Rest_a _ _ _ _ H); lia).
  constructor; cbn [br_set_optimistic br_resume br_chunk br_next br_nbits br_bits br_debt br_healthy];
    try rewrite (Rest_d _ _ _ _ H); try (apply H); try lia; try reflexivity.
  - unfold chunk. unfold bytes in *. apply Forall_forall. intros x Hx. rewrite Forall_forall in Hs. apply Hs.
    rewrite <- (firstn_skipn pos sec). apply in_or_app. right.
    rewrite <- (firstn_skipn (avail - pos) (skipn pos sec)). apply in_or_app. left. exact Hx.
  - rewrite Hll. apply H.
  - rewrite (Rest_b _ _ _ _ H). fold lead. f_equal. rewrite <- Hll. symmetry. apply firstn_app_exact.
Qed.

Lemma skipn_sub {A} (l : list A) a b : (a <= b)%nat -> skipn (b - a) (skipn a l) = skipn b l.
Proof. intros H. rewrite skipn_skipn'. f_equal; lia. Qed.

Lemma firstn_min_skipn {A} (l : list A) n : firstn n l ++ skipn (length (firstn n l)) l = l.
Proof.
  rewrite firstn_length. destruct (Nat.leb_spec n (length l)).
  - replace (Nat.min n (length l)) with n by lia. apply firstn_skipn.
  - replace (Nat.min n (length l)) with (length l) by lia.
    rewrite skipn_all, app_nil_r. apply firstn_all2; lia.
Qed.

(** Suspending in state R leads to a Rest state. *)
Lemma suspend_Rest sec b0 pos A avail b L c real : Rest sec b0 pos A -> (pos <= avail)%nat ->
  let lead := firstn (br_nbits b0) A in
  let chunk := firstn (avail - pos) (skipn pos sec) in
  let U := bits_of_bytes (skipn (pos + length chunk) sec) in
  R lead chunk b L c real ->
  let '(b', unused) := br_suspend b in
  Rest sec b' (pos + (length chunk - unused)) (L ++ U) /\
  (pos + (length chunk - unused) <= pos + length chunk)%nat /\
  (pos + (length chunk - unused) = length sec - length (L ++ U) / 8)%nat /\
  (br_nbits b' = length (L ++ U) mod 8)%nat.
Proof.
  intros HR Hp lead chunk U H. unfold br_suspend.
  destruct (unload_R _ _ _ _ _ _ H) as (H1 & D1 & O1).
  set (b' := br_unload b) in *.
  pose proof (R_chunk _ _ _ _ _ _ H1) as Ec. rewrite Ec.
  pose proof (R_next _ _ _ _ _ _ H1) as Hn. pose proof (R_real _ _ _ _ _ _ H1) as Hr.
  pose proof (R_nbits _ _ _ _ _ _ H1) as Hnb. rewrite D1 in Hnb.
  assert (Hnb' : br_nbits b' = (real mod 8)%nat) by lia.
  assert (Hm : (real mod 8 < 8)%nat) by (apply Nat.mod_upper_bound; lia).
  pose proof (R_real_le _ _ _ _ _ _ H1) as Hrl.
  pose proof (Rest_p _ _ _ _ HR) as Hps.
  assert (Hcl : (pos + length chunk <= length sec)%nat).
  { unfold chunk. rewrite firstn_length, skipn_length. lia. }
  replace (length chunk - (length chunk - br_next b'))%nat with (br_next b') by lia.
  assert (Hskip : skipn (real mod 8) (L ++ U) = bits_of_bytes (skipn (pos + br_next b') sec)).
  { rewrite skipn_app_le by lia. rewrite (R_L _ _ _ _ _ _ H1), skipn_skipn'.
    rewrite skipn_app_ge by lia.
    replace (c + real mod 8 - length lead)%nat with (8 * br_next b')%nat by lia.
    rewrite skipn_bits_of_bytes. unfold U. rewrite <- bits_of_bytes_app. f_equal.
    rewrite <- (skipn_skipn' sec (br_next b') pos).
    rewrite <- (skipn_skipn' sec (length chunk) pos).
    rewrite <- skipn_app_le by lia. f_equal. unfold chunk. apply firstn_min_skipn. }
  assert (HLU : (length (L ++ U) = real mod 8 + 8 * (length sec - (pos + br_next b')))%nat).
  { assert (E := f_equal (@length bool) Hskip). rewrite skipn_length, bits_of_bytes_length, skipn_length in E.
    rewrite app_length in *. lia. }
  split; [|split; [lia|split]].
  - constructor.
    + lia.
    + exact D1.
    + apply (R_healthy _ _ _ _ _ _ H1).
    + lia.
    + rewrite app_length; lia.
    + rewrite (R_bits _ _ _ _ _ _ H1), Hnb'. f_equal. rewrite firstn_app_le by lia. reflexivity.
    + rewrite Hnb'. exact Hskip.
  - rewrite HLU. rewrite Nat.mul_comm, Nat.div_add by lia. rewrite Nat.div_small by lia. lia.
  - rewrite HLU. rewrite Nat.mul_comm, Nat.mod_add by lia. rewrite Nat.mod_small by lia. lia.
Qed.

Lemma forallb_zero l : forallb negb l = (val_of l =? 0).
Proof.
  induction l as [|b l IH]; cbn [forallb val_of]; [reflexivity|].
  pose proof (val_of_range l). rewrite IH. unfold b2z. destruct b; cbn [negb andb]; lia.
Qed.

(** The padding check at the end. *)
Lemma finish_Rest sec b pos A : Rest sec b pos A ->
  fst (br_is_healthy (br_finish b)) = forallb negb (firstn (br_nbits b) A).
Proof.
  intros H. unfold br_finish.
  destruct (Nat.leb_spec 8 (br_nbits b)) as [Hx|Hx]; [pose proof (Rest_n _ _ _ _ H); lia|].
  destruct (Nat.ltb_spec 0 (br_nbits b)) as [Hy|Hy].
  - unfold br_is_healthy, br_unload, br_drop, br_get. cbn [br_debt br_nbits br_healthy fst].
    rewrite (Rest_d _ _ _ _ H), (Rest_h _ _ _ _ H). cbn [Nat.min Nat.sub Nat.eqb andb].
    rewrite forallb_zero. rewrite land_ones_mod by lia. rewrite (Rest_b _ _ _ _ H).
    rewrite Z.mod_small.
    + destruct (val_of _ =? 0); reflexivity.
    + pose proof (val_of_range (firstn (br_nbits b) A)) as Hr. rewrite firstn_length in Hr.
      pose proof (Rest_a _ _ _ _ H). replace (Nat.min (br_nbits b) (length A)) with (br_nbits b) in Hr by lia. exact Hr.
  - replace (br_nbits b) with O by lia. cbn [firstn forallb].
    unfold br_is_healthy, br_unload. cbn [br_debt br_healthy fst].
    rewrite (Rest_d _ _ _ _ H), (Rest_h _ _ _ _ H). reflexivity.
Qed.

Lemma finish_Over b : Over b -> fst (br_is_healthy (br_finish (fst (br_suspend b)))) = false.
Proof.
  intros H. unfold br_suspend. cbn [fst]. destruct (unload_Over b H) as [H1 H2].
  set (b' := br_unload b) in *. unfold br_finish.
  assert (G : forall x, Over x -> fst (br_is_healthy x) = false).
  { intros x Hx. unfold br_is_healthy. cbn [fst]. destruct (unload_Over x Hx) as [_ Hx2].
    destruct (br_debt (br_unload x) =? 0)%nat eqn:E; [apply Nat.eqb_eq in E; lia|reflexivity]. }
  destruct (8 <=? br_nbits b')%nat; [apply G; exact H1|].
  destruct (0 <? br_nbits b')%nat; [|apply G; exact H1].
  apply G. apply (drop_Over' b' (br_nbits b')) in H1. exact H1.
Qed.

(** Final verdict from an abstract continuation [q] on remaining bits [A]. *)
Definition averdict {T} (lenient : bool) (sec : list Z) (q : prog T) (A : list bool) : sec_result T :=
  match arun (negb lenient) q A with
  | Some (a, rest) =>
      if forallb negb (firstn (length rest mod 8) rest) then SDone a (length sec - length rest / 8) else SFail
  | None => SFail
  end.

Lemma section_call_spec {T} (lenient : bool) sec (p : prog T) b pos avail A k :
  bytes sec -> Rest sec b pos A -> (pos <= avail)%nat -> (avail <= length sec)%nat ->
  bok k p -> (k <= br_nbits b + 8 * (avail - pos))%nat ->
  match section_call lenient sec p b pos avail with
  | SMore q b' pos' => exists A' k', Rest sec b' pos' A' /\ (pos' <= avail)%nat /\ (avail < length sec)%nat /\
       bok k' q /\ (k' <= br_nbits b' + 8 * (avail - pos'))%nat /\
       averdict lenient sec p A = averdict lenient sec q A'
  | x => x = averdict lenient sec p A
  end.
Proof.
  intros Hs HR Hpa Has Hb Hk. unfold section_call.
  set (chunk := firstn (avail - pos) (skipn pos sec)).
  assert (Hcl : length chunk = (avail - pos)%nat) by (unfold chunk; rewrite firstn_length, skipn_length; lia).
  set (lead := firstn (br_nbits b) A).
  set (U := bits_of_bytes (skipn (pos + length chunk) sec)).
  assert (HA : A = (lead ++ bits_of_bytes chunk) ++ U).
  { rewrite <- (firstn_skipn (br_nbits b) A) at 1. fold lead. rewrite (Rest_s _ _ _ _ HR).
    rewrite <- app_assoc. f_equal. unfold U. rewrite <- bits_of_bytes_app. f_equal.
    rewrite <- skipn_skipn'. symmetry. apply firstn_min_skipn. }
  assert (Hll : length lead = br_nbits b) by (unfold lead; rewrite firstn_length; pose proof (Rest_a _ _ _ _ HR); lia).
  pose proof (resume_R sec b pos A avail (lenient && (length sec <=? avail)%nat) Hs HR Hpa) as HR0.
  fold chunk in HR0. cbv zeta in HR0. fold lead in HR0.
  set (b0 := br_set_optimistic (br_resume b chunk) (lenient && (length sec <=? avail)%nat)) in *.
  destruct (lenient && (length sec <=? avail)%nat) eqn:Eopt.
  - (* optimistic *)
    apply andb_true_iff in Eopt as [El Ea]. rewrite El in *. apply Nat.leb_le in Ea.
    assert (HU : U = []).
    { unfold U. rewrite skipn_all2 by lia. reflexivity. }
    rewrite HU, app_nil_r in HA.
    pose proof (mrun_optimistic p _ _ _ _ _ _ k HR0 eq_refl Hb) as Hm.
    unfold averdict. cbn [negb]. rewrite HA.
    destruct (arun false p (lead ++ bits_of_bytes chunk)) as [[a rest]|] eqn:Er.
    + destruct Hm as (b' & c' & real' & Em & HR'). rewrite Em.
      pose proof (suspend_Rest sec b pos A avail b' rest c' real' HR Hpa HR') as Hsu.
      fold chunk in Hsu. cbv zeta in Hsu. fold U in Hsu.
      destruct (br_suspend b') as [b'' unused]. rewrite HU, app_nil_r in Hsu.
      destruct Hsu as (S1 & S2 & S3 & S4).
      pose proof (finish_Rest _ _ _ _ S1) as Hf.
      destruct (br_is_healthy (br_finish b'')) as [h bb]. cbn [fst] in Hf. subst h.
      rewrite S4, S3. destruct (forallb _ _); reflexivity.
    + destruct (mrun p b0) as [a b'| |q b'].
      * pose proof (finish_Over b' Hm) as Hf. destruct (br_suspend b') as [b'' unused]. cbn [fst] in Hf.
        destruct (br_is_healthy (br_finish b'')) as [h bb]. cbn [fst] in Hf. rewrite Hf. reflexivity.
      * reflexivity.
      * destruct (br_suspend b') as [b'' unused].
        destruct (length sec <=? avail)%nat eqn:E; [reflexivity|]. apply Nat.leb_gt in E; lia.
  - (* budget *)
    assert (Hopt : br_opt b0 = false) by reflexivity.
    assert (Hdeb : br_debt b0 = O) by apply (Rest_d _ _ _ _ HR).
    pose proof (mrun_budget p _ _ _ _ _ _ k U (negb lenient) HR0 Hopt Hdeb Hb) as Hm.
    specialize (Hm ltac:(rewrite app_length, bits_of_bytes_length; lia)). rewrite <- HA in Hm.
    destruct (mrun p b0) as [a b'| |q b'].
    + destruct Hm as (L' & c' & real' & HR' & Em).
      pose proof (suspend_Rest sec b pos A avail b' L' c' real' HR Hpa HR') as Hsu.
      fold chunk in Hsu. cbv zeta in Hsu. fold U in Hsu.
      destruct (br_suspend b') as [b'' unused].
      destruct Hsu as (S1 & S2 & S3 & S4).
      pose proof (finish_Rest _ _ _ _ S1) as Hf.
      destruct (br_is_healthy (br_finish b'')) as [h bb]. cbn [fst] in Hf. subst h.
      unfold averdict. rewrite Em. rewrite S4, S3. destruct (forallb _ _); reflexivity.
    + unfold averdict. rewrite Hm. reflexivity.
    + destruct Hm as (L' & c' & real' & k' & n & q' & HR' & Ho' & Hd' & Em & Hb' & Hk' & Hq & Hlt).
      pose proof (suspend_Rest sec b pos A avail b' L' c' real' HR Hpa HR') as Hsu.
      fold chunk in Hsu. cbv zeta in Hsu. fold U in Hsu.
      destruct (br_suspend b') as [b'' unused].
      destruct Hsu as (S1 & S2 & S3 & S4).
      destruct (Nat.leb_spec (length sec) avail) as [Ea|Ea].
      * (* strict and at the end *)
        destruct lenient; [discriminate|].
        unfold averdict. rewrite Em, Hq. cbn [negb arun andb].
        assert (HU : U = []) by (unfold U; rewrite skipn_all2 by lia; reflexivity).
        rewrite HU, app_nil_r.
        destruct (Nat.ltb_spec (length L') n); [reflexivity|lia].
      * exists (L' ++ U), k'. split; [exact S1|]. split; [lia|]. split; [lia|]. split; [exact Hb'|]. split.
        { assert (E := f_equal (@length bool) (Rest_s _ _ _ _ S1)).
          pose proof (Rest_a _ _ _ _ S1). pose proof (Rest_p _ _ _ _ S1).
          rewrite skipn_length, bits_of_bytes_length, skipn_length in E.
          assert (length U = 8 * (length sec - avail))%nat by (unfold U; rewrite bits_of_bytes_length, skipn_length; lia).
          rewrite app_length in *. lia. }
        unfold averdict. rewrite Em. reflexivity.
Qed.

Fixpoint nondecreasing (pos : nat) (l : list nat) : Prop :=
  match l with
  | [] => True
  | a :: r => (pos <= a)%nat /\ nondecreasing a r
  end.

Lemma nondecreasing_weaken p q l : (p <= q)%nat -> nondecreasing q l -> nondecreasing p l.
Proof. destruct l; cbn; [auto|]. intros H [H1 H2]; split; [lia|exact H2]. Qed.

Lemma section_calls_spec {T} (lenient : bool) sec (avails : list nat) : forall (p : prog T) b pos A k low,
  bytes sec -> Rest sec b pos A -> (pos <= low)%nat -> nondecreasing low avails ->
  Forall (fun a => (a <= length sec)%nat) avails ->
  bok k p -> (k <= br_nbits b + 8 * (low - pos))%nat ->
  match section_calls lenient sec p b pos avails with
  | SMore q b' pos' => ~ In (length sec) avails
  | x => x = averdict lenient sec p A
  end.
Proof.
  induction avails as [|av r IH]; intros p b pos A k low Hs HR Hpl Hnd Hle Hb Hk; cbn [section_calls].
  - intros [].
  - cbn [nondecreasing] in Hnd. destruct Hnd as [Hlow Hnd].
    inversion Hle as [|x l Hav Hle']; subst.
    pose proof (section_call_spec lenient sec p b pos av A k Hs HR ltac:(lia) Hav Hb ltac:(lia)) as Hc.
    destruct (section_call lenient sec p b pos av) as [a n| |q b' pos']; [exact Hc|exact Hc|].
    destruct Hc as (A' & k' & HR' & Hp' & Hlt & Hb' & Hk' & Hv).
    rewrite Hv.
    pose proof (IH q b' pos' A' k' av Hs HR' Hp' Hnd Hle' Hb' Hk') as Hi.
    destruct (section_calls lenient sec q b' pos' r); try exact Hi.
    cbn [In]. intros [E|E]; [lia|]. apply Hi; exact E.
Qed.

Lemma Rest_init sec : Rest sec br_init 0 (bits_of_bytes sec).
Proof. constructor; cbn; try lia; reflexivity. Qed.

Theorem section_chunking {T} (lenient : bool) sec (p : prog T) avails :
  bytes sec -> bok 0 p -> nondecreasing 0 avails ->
  Forall (fun a => (a <= length sec)%nat) avails -> In (length sec) avails ->
  section_calls lenient sec p br_init 0 avails =
  match asection (negb lenient) p sec with Some (a, n) => SDone a n | None => SFail end.
Proof.
  intros Hs Hb Hnd Hle Hin.
  pose proof (section_calls_spec lenient sec avails p br_init 0 _ 0 0 Hs (Rest_init sec) (le_n _) Hnd Hle Hb ltac:(lia)) as H.
  assert (E : averdict lenient sec p (bits_of_bytes sec) =
    match asection (negb lenient) p sec with Some (a, n) => SDone a n | None => SFail end).
  { unfold averdict, asection. destruct (arun (negb lenient) p (bits_of_bytes sec)) as [[a rest]|]; [|reflexivity].
    destruct (forallb _ _); reflexivity. }
  rewrite <- E. destruct (section_calls _ _ _ _ _ _); try exact H. contradiction.
Qed.

(** Any prefix of calls: the verdict, if any, is the verdict for the whole section. *)
Theorem section_prefix {T} (lenient : bool) sec (p : prog T) avails :
  bytes sec -> bok 0 p -> nondecreasing 0 avails ->
  Forall (fun a => (a <= length sec)%nat) avails ->
  match section_calls lenient sec p br_init 0 avails with
  | SMore _ _ _ => True
  | x => x = match asection (negb lenient) p sec with Some (a, n) => SDone a n | None => SFail end
  end.
Proof.
  intros Hs Hb Hnd Hle.
  pose proof (section_calls_spec lenient sec avails p br_init 0 _ 0 0 Hs (Rest_init sec) (le_n _) Hnd Hle Hb ltac:(lia)) as H.
  assert (E : averdict lenient sec p (bits_of_bytes sec) =
    match asection (negb lenient) p sec with Some (a, n) => SDone a n | None => SFail end).
  { unfold averdict, asection. destruct (arun (negb lenient) p (bits_of_bytes sec)) as [[a rest]|]; [|reflexivity].
    destruct (forallb _ _); reflexivity. }
  rewrite <- E. destruct (section_calls _ _ _ _ _ _); auto.
Qed.

(** * Program algebra *)

Lemma arun_bind {A B} strict (p : prog A) (g : A -> prog B) : forall l,
  arun strict (bind p g) l = match arun strict p l with Some (a, r) => arun strict (g a) r | None => None end.
Proof.
  induction p as [a| |n f k IH|n p IH|p IH]; intros l; cbn [bind arun]; try reflexivity.
  - destruct (_ <=? _)%nat; [apply IH|reflexivity].
  - destruct (_ && _); [reflexivity|apply IH].
  - apply IH.
Qed.

Lemma arun_rd strict n v l : 0 <= v < 2 ^ Z.of_nat n -> arun strict (rd n) (bits_of n v ++ l) = Some (v, l).
Proof.
  intros H. unfold rd, Read. cbn [arun]. rewrite peek_bits by exact H.
  rewrite app_length, bits_of_length. destruct (Nat.leb_spec n (n + length l)); [|lia].
  rewrite <- (bits_of_length n v) at 1. rewrite skipn_app_exact. reflexivity.
Qed.

Lemma arun_Read {A} strict n (k : Z -> prog A) v l : 0 <= v < 2 ^ Z.of_nat n ->
  arun strict (Read n k) (bits_of n v ++ l) = arun strict (k v) l.
Proof.
  intros H. unfold Read. cbn [arun]. rewrite peek_bits by exact H.
  rewrite app_length, bits_of_length. destruct (Nat.leb_spec n (n + length l)); [|lia].
  rewrite <- (bits_of_length n v) at 1. rewrite skipn_app_exact. reflexivity.
Qed.

(** * Writer *)

Fixpoint fields_bits (l : list (nat * Z)) : list bool :=
  match l with [] => [] | (n, v) :: r => bits_of n v ++ fields_bits r end.

Definition fields_ok (l : list (nat * Z)) : Prop :=
  Forall (fun f => (fst f <= 56)%nat /\ 0 <= snd f < 2 ^ Z.of_nat (fst f)) l.

Fixpoint fields_len (l : list (nat * Z)) : nat :=
  match l with [] => O | (n, _) :: r => (n + fields_len r)%nat end.

Lemma fields_bits_length l : length (fields_bits l) = fields_len l.
Proof. induction l as [|[n v] l IH]; cbn [fields_bits fields_len length]; [reflexivity|]. rewrite app_length, bits_of_length, IH; reflexivity. Qed.

Lemma le_bytes_length k v : length (le_bytes k v) = k.
Proof. revert v; induction k; intros v; cbn [le_bytes length]; auto. Qed.

Lemma le_bytes_bits k v : bits_of_bytes (le_bytes k v) = bits_of (8 * k) v.
Proof.
  revert v; induction k as [|k IH]; intros v; [reflexivity|].
  cbn [le_bytes bits_of_bytes]. replace (8 * S k)%nat with (8 + 8 * k)%nat by lia.
  rewrite bits_of_app, IH. f_equal. change 256 with (2 ^ Z.of_nat 8). rewrite bits_of_mod. reflexivity.
Qed.

Lemma le_bytes_bytes k v : bytes (le_bytes k v).
Proof. revert v; induction k; intros v; cbn [le_bytes]; constructor; [apply Z.mod_pos_bound; lia|apply IHk]. Qed.

(** Storage content: the first [pos] bits are [B], the rest of the current
    byte is zero. *)
Definition holds (s : storage) (B : list bool) : Prop :=
  bytes (st_data s) /\ st_pos s = length B /\
  firstn (8 * (st_pos s / 8) + 8) (bits_of_bytes (st_data s)) =
    B ++ repeat false (8 * (st_pos s / 8) + 8 - st_pos s).

Lemma bytes_firstn l n : bytes l -> bytes (firstn n l).
Proof. unfold bytes; intros H; revert n; induction H; intros [|n]; cbn [firstn]; constructor; auto. Qed.
Lemma bytes_skipn l n : bytes l -> bytes (skipn n l).
Proof. unfold bytes; intros H; revert n; induction H; intros [|n]; cbn [skipn]; try constructor; auto. Qed.

Lemma bits_of_val_app n v m : 0 <= v < 2 ^ Z.of_nat n -> bits_of (n + m) v = bits_of n v ++ repeat false m.
Proof.
  intros H. rewrite bits_of_app. rewrite Z.div_small by exact H. rewrite bits_of_0. reflexivity.
Qed.

Lemma repeat_app' {A} (x : A) a b : repeat x a ++ repeat x b = repeat x (a + b).
Proof. symmetry. apply repeat_app. Qed.

Lemma write_bits_holds n v s B : holds s B -> (n <= 56)%nat -> 0 <= v < 2 ^ Z.of_nat n ->
  (st_pos s / 8 + 8 <= length (st_data s))%nat ->
  exists s', write_bits n v s = Some s' /\ holds s' (B ++ bits_of n v) /\ length (st_data s') = length (st_data s).
Proof.
  intros (Hb & Hpos & Hc) Hn Hv Hlen. unfold write_bits.
  destruct (Nat.leb_spec (st_pos s / 8 + 8) (length (st_data s))) as [_|]; [|lia].
  eexists; split; [reflexivity|].
  set (p := (st_pos s / 8)%nat) in *.
  set (q := (st_pos s mod 8)%nat).
  assert (Hpq : st_pos s = (8 * p + q)%nat) by (apply Nat.div_mod; lia).
  assert (Hq : (q < 8)%nat) by (apply Nat.mod_upper_bound; lia).
  set (old := nth p (st_data s) 0).
  (* old byte *)
  assert (Hold : bits_of 8 old = skipn (8 * p) B ++ repeat false (8 - q)).
  { assert (E : firstn 8 (skipn (8 * p) (bits_of_bytes (st_data s))) = bits_of 8 old).
    { rewrite skipn_bits_of_bytes.
      assert (Hx : nth_error (st_data s) p = Some old) by (apply nth_error_nth'; lia).
      rewrite (nth_error_skipn_cons _ _ _ Hx). cbn [bits_of_bytes].
      rewrite firstn_app_le by (rewrite bits_of_length; lia). apply firstn_all2. rewrite bits_of_length; lia. }
    rewrite <- E, firstn_skipn_comm, Hc, skipn_app_le by lia.
    do 2 f_equal. lia. }
  assert (Holdb : is_byte old).
  { unfold old. unfold bytes in Hb. rewrite Forall_forall in Hb. apply Hb. apply nth_In. lia. }
  assert (Hov : old = val_of (skipn (8 * p) B)).
  { rewrite <- (val_of_bits_of_small 8 old Holdb), Hold, val_of_app_zeros. reflexivity. }
  assert (Hsl : length (skipn (8 * p) B) = q) by (rewrite skipn_length; lia).
  assert (Hor : 0 <= old < 2 ^ Z.of_nat q).
  { rewrite Hov, <- Hsl. apply val_of_range. }
  pose proof (pow2_pos_nat q). pose proof (pow2_pos_nat n).
  assert (Hsh : Z.shiftl v (Z.of_nat q) mod 2 ^ 64 = v * 2 ^ Z.of_nat q).
  { rewrite Z.shiftl_mul_pow2 by lia. apply Z.mod_small. split; [nia|].
    apply Z.lt_le_trans with (2 ^ Z.of_nat n * 2 ^ Z.of_nat q); [nia|].
    rewrite <- Z.pow_add_r by lia. apply Z.pow_le_mono_r; lia. }
  rewrite Hsh. rewrite lor_disjoint_add by lia.
  set (V := old + v * 2 ^ Z.of_nat q).
  assert (HV : V = val_of (skipn (8 * p) B ++ bits_of n v)).
  { rewrite val_of_app, Hsl, <- Hov, val_of_bits_of_small by exact Hv. unfold V; lia. }
  assert (HVr : 0 <= V < 2 ^ Z.of_nat (q + n)).
  { rewrite HV. replace (q + n)%nat with (length (skipn (8 * p) B ++ bits_of n v)) by (rewrite app_length, bits_of_length; lia).
    apply val_of_range. }
  assert (HVb : bits_of (q + n) V = skipn (8 * p) B ++ bits_of n v).
  { rewrite HV. replace (q + n)%nat with (length (skipn (8 * p) B ++ bits_of n v)) by (rewrite app_length, bits_of_length; lia).
    apply bits_of_val_of. }
  split.
  - unfold holds. cbn [st_data st_pos]. split; [|split].
    + apply bytes_app; split; [apply bytes_firstn; exact Hb|]. apply bytes_app; split; [apply le_bytes_bytes|apply bytes_skipn; exact Hb].
    + rewrite app_length, bits_of_length; lia.
    + rewrite bits_of_bytes_app.
      set (p' := ((st_pos s + n) / 8)%nat).
      assert (Hp' : (8 * p' <= st_pos s + n < 8 * p' + 8)%nat).
      { unfold p'. pose proof (Nat.div_mod (st_pos s + n) 8 ltac:(lia)). pose proof (Nat.mod_upper_bound (st_pos s + n) 8 ltac:(lia)). lia. }
      assert (Hfl : length (bits_of_bytes (firstn p (st_data s))) = (8 * p)%nat).
      { rewrite bits_of_bytes_length, firstn_length. lia. }
      assert (Hfb : bits_of_bytes (firstn p (st_data s)) = firstn (8 * p) B).
      { rewrite <- firstn_bits_of_bytes.
        assert (E := f_equal (firstn (8 * p)) Hc). rewrite firstn_firstn in E.
        replace (Nat.min (8 * p) (8 * p + 8)) with (8 * p)%nat in E by lia.
        rewrite firstn_app_le in E by lia. exact E. }
      rewrite firstn_app, Hfl. rewrite firstn_all2 by lia.
      rewrite bits_of_bytes_app, le_bytes_bits. rewrite firstn_app_le by (rewrite bits_of_length; lia).
      rewrite Hfb. rewrite <- app_assoc. rewrite <- (firstn_skipn (8 * p) B) at 2. rewrite <- app_assoc. f_equal.
      replace (8 * 8)%nat with ((q + n) + (64 - (q + n)))%nat by lia.
      rewrite bits_of_val_app by exact HVr. rewrite HVb.
      rewrite firstn_app. rewrite firstn_all2 by (rewrite app_length, bits_of_length; lia).
      rewrite <- app_assoc. f_equal. f_equal.
      rewrite app_length, bits_of_length, Hsl.
      replace (8 * p' + 8 - 8 * p - (q + n))%nat with (8 * p' + 8 - (st_pos s + n))%nat by lia.
      set (a := (8 * p' + 8 - (st_pos s + n))%nat).
      assert (Ha : (a <= 64 - (q + n))%nat) by (unfold a; lia).
      replace (64 - (q + n))%nat with (a + (64 - (q + n) - a))%nat by lia.
      rewrite repeat_app, firstn_app_le by (rewrite repeat_length; lia).
      apply firstn_all2. rewrite repeat_length; lia.
  - cbn [st_data]. rewrite !app_length, le_bytes_length, firstn_length, skipn_length. lia.
Qed.

(** Packing a bit string into bytes. *)
Definition pack (B : list bool) : list Z := le_bytes ((length B + 7) / 8) (val_of B).

Lemma pack_bytes B : bytes (pack B).
Proof. apply le_bytes_bytes. Qed.

Lemma pack_length B : length (pack B) = ((length B + 7) / 8)%nat.
Proof. apply le_bytes_length. Qed.

Definition padlen (n : nat) : nat := (8 * ((n + 7) / 8) - n)%nat.

Lemma padlen_lt n : (padlen n < 8)%nat /\ (n + padlen n = 8 * ((n + 7) / 8))%nat.
Proof.
  unfold padlen. pose proof (Nat.div_mod (n + 7) 8 ltac:(lia)). pose proof (Nat.mod_upper_bound (n + 7) 8 ltac:(lia)). lia.
Qed.

Lemma pack_bits B : bits_of_bytes (pack B) = B ++ repeat false (padlen (length B)).
Proof.
  unfold pack. rewrite le_bytes_bits. destruct (padlen_lt (length B)) as [_ <-].
  rewrite bits_of_val_app by apply val_of_range. rewrite bits_of_val_of. reflexivity.
Qed.

Lemma bits_of_bytes_inj l1 l2 : bytes l1 -> bytes l2 -> bits_of_bytes l1 = bits_of_bytes l2 -> l1 = l2.
Proof.
  intros H1; revert l2; induction H1 as [|a l1 Ha H1 IH]; intros l2 H2 E.
  - destruct l2 as [|b l2]; [reflexivity|]. cbn [bits_of_bytes] in E.
    apply (f_equal (@length bool)) in E. rewrite app_length, bits_of_length in E. cbn in E; lia.
  - destruct l2 as [|b l2].
    + apply (f_equal (@length bool)) in E. cbn [bits_of_bytes] in E. rewrite app_length, bits_of_length in E. cbn in E; lia.
    + inversion H2; subst. cbn [bits_of_bytes] in E.
      assert (Ea := f_equal (firstn 8) E). assert (Eb := f_equal (skipn 8) E).
      rewrite !firstn_app_le in Ea by (rewrite bits_of_length; lia).
      rewrite !firstn_all2 in Ea by (rewrite bits_of_length; lia).
      rewrite !skipn_app_ge in Eb by (rewrite bits_of_length; lia). rewrite !bits_of_length in Eb. cbn [Nat.sub skipn] in Eb.
      f_equal; [apply (bits_of_inj 8); assumption|apply IH; assumption].
Qed.

Lemma holds_out s B : holds s B -> storage_out s = pack B \/ (length (st_data s) < (length B + 7) / 8)%nat.
Proof.
  intros (Hb & Hp & Hc). destruct (Nat.ltb_spec (length (st_data s)) ((length B + 7) / 8)) as [H|H]; [right; exact H|left].
  apply bits_of_bytes_inj; [apply bytes_firstn; exact Hb|apply pack_bytes|].
  rewrite pack_bits. unfold storage_out, storage_used. rewrite <- firstn_bits_of_bytes.
  rewrite Hp in *. destruct (padlen_lt (length B)) as [P1 P2].
  assert (Hle : (8 * ((length B + 7) / 8) <= 8 * (length B / 8) + 8)%nat).
  { pose proof (Nat.div_mod (length B) 8 ltac:(lia)). pose proof (Nat.mod_upper_bound (length B) 8 ltac:(lia)).
    pose proof (Nat.div_mod (length B + 7) 8 ltac:(lia)). lia. }
  assert (E := f_equal (firstn (8 * ((length B + 7) / 8))) Hc). rewrite firstn_firstn in E.
  rewrite Nat.min_l in E by exact Hle. rewrite E.
  rewrite firstn_app. rewrite firstn_all2 by lia. f_equal.
  replace (8 * ((length B + 7) / 8) - length B)%nat with (padlen (length B)) by lia.
  replace (8 * (length B / 8) + 8 - length B)%nat with (padlen (length B) + (8 * (length B / 8) + 8 - length B - padlen (length B)))%nat by lia.
  rewrite repeat_app, firstn_app_le by (rewrite repeat_length; lia).
  apply firstn_all2. rewrite repeat_length; lia.
Qed.

Lemma write_fields_holds l : forall s B, holds s B -> fields_ok l ->
  ((length B + fields_len l) / 8 + 8 <= length (st_data s))%nat ->
  exists s', write_fields l s = Some s' /\ holds s' (B ++ fields_bits l) /\ length (st_data s') = length (st_data s).
Proof.
  induction l as [|[n v] l IH]; intros s B H Hok Hlen; cbn [write_fields fields_bits fields_len] in *.
  - exists s. rewrite app_nil_r. auto.
  - inversion Hok as [|f l' [Hn Hv] Hok']; subst. cbn [fst snd] in *.
    assert (Hp : st_pos s = length B) by apply H.
    assert (Hle : (st_pos s / 8 + 8 <= length (st_data s))%nat).
    { rewrite Hp. apply Nat.le_trans with (2 := Hlen). apply Nat.add_le_mono_r. apply Nat.div_le_mono; lia. }
    destruct (write_bits_holds n v s B H Hn Hv Hle) as (s1 & E1 & H1 & L1).
    rewrite E1. destruct (IH s1 (B ++ bits_of n v) H1 Hok') as (s2 & E2 & H2 & L2).
    + rewrite L1, app_length, bits_of_length. rewrite <- Nat.add_assoc. exact Hlen.
    + exists s2. rewrite app_assoc, L2, L1. auto.
Qed.

Lemma storage_init_holds data s : bytes data -> storage_init data = Some s -> holds s [] /\ length (st_data s) = length data.
Proof.
  intros Hb E. destruct data as [|x r]; [discriminate|]. injection E as <-. inversion Hb; subst.
  split; [|reflexivity]. unfold holds; cbn [st_data st_pos length]. split; [|split; [reflexivity|]].
  - constructor; [unfold is_byte; lia|assumption].
  - change (0 / 8)%nat with O. cbn [Nat.mul Nat.add Nat.sub app]. cbn [bits_of_bytes].
    rewrite firstn_app_le by (rewrite bits_of_length; lia). reflexivity.
Qed.

(** Writing all fields into a large enough buffer gives exactly their bits. *)
Theorem write_fields_spec l data : bytes data -> fields_ok l -> (fields_len l / 8 + 8 <= length data)%nat ->
  exists s0 s, storage_init data = Some s0 /\ write_fields l s0 = Some s /\
    storage_out s = pack (fields_bits l) /\ length (st_data s) = length data /\ st_pos s = fields_len l.
Proof.
  intros Hb Hok Hlen. destruct (storage_init data) as [s0|] eqn:E0; [|destruct data; cbn in *; [lia|discriminate]].
  destruct (storage_init_holds _ _ Hb E0) as [H0 L0].
  destruct (write_fields_holds l s0 [] H0 Hok) as (s & E & H & L).
  - cbn [length Nat.add]. rewrite L0; exact Hlen.
  - exists s0, s. split; [reflexivity|]. split; [exact E|].
    cbn [app] in H. split; [|split; [congruence|]].
    + destruct (holds_out _ _ H) as [Ho|Ho]; [exact Ho|]. exfalso. rewrite L, L0, fields_bits_length in Ho.
      pose proof (Nat.div_mod (fields_len l) 8 ltac:(lia)). pose proof (Nat.div_mod (fields_len l + 7) 8 ltac:(lia)).
      pose proof (Nat.mod_upper_bound (fields_len l) 8 ltac:(lia)). lia.
    + destruct H as (_ & Hp & _). rewrite Hp. apply fields_bits_length.
Qed.

(** Reading a list of fixed-width fields. *)
Fixpoint read_fields (ns : list nat) : prog (list Z) :=
  match ns with
  | [] => Ret []
  | n :: r => Need n (Read n (fun v => bind (read_fields r) (fun vs => Ret (v :: vs))))
  end.

Lemma bok_mono {A} (p : prog A) : forall b b', (b <= b')%nat -> bok b p -> bok b' p.
Proof.
  induction p as [a| |n f k IH|n p IH|p IH]; intros b b' Hle H; cbn [bok] in *; auto.
  - destruct H as (H1 & H2 & H3). repeat split; try lia; destruct (H3 v H) as [H4 H5]; [exact H4|].
    eapply IH; [|exact H5]. lia.
  - eapply IH; [|exact H]. lia.
  - eapply IH; eassumption.
Qed.

Lemma bok_bind {A B} (p : prog A) (g : A -> prog B) : forall b, bok b p -> (forall a, bok 0 (g a)) -> bok b (bind p g).
Proof.
  induction p as [a| |n f k IH|n p IH|p IH]; intros b H Hg; cbn [bok bind] in *; auto.
  - eapply bok_mono; [|apply Hg]. lia.
  - destruct H as (H1 & H2 & H3). repeat split; auto; destruct (H3 v H) as [H4 H5]; [exact H4|].
    apply IH; auto.
Qed.

Lemma bok_read_fields ns : Forall (fun n => (n <= 24)%nat) ns -> bok 0 (read_fields ns).
Proof.
  induction 1 as [|n r Hn Hr IH]; cbn [read_fields bok Read]; [exact I|].
  unfold Read; cbn [bok]. repeat split; try lia.
  eapply bok_mono; [|apply bok_bind; [exact IH|intros; exact I]]. lia.
Qed.

Lemma arun_read_fields strict l : fields_ok l -> forall tl,
  arun strict (read_fields (map fst l)) (fields_bits l ++ tl) = Some (map snd l, tl).
Proof.
  induction l as [|[n v] l IH]; intros Hok tl; cbn [map read_fields fields_bits arun app fst snd]; [reflexivity|].
  inversion Hok as [|f l' [Hn Hv] Hok']; subst. cbn [fst snd] in *.
  rewrite <- app_assoc.
  assert (E : (length (bits_of n v ++ fields_bits l ++ tl) <? n)%nat = false).
  { apply Nat.ltb_ge. rewrite app_length, bits_of_length; lia. }
  rewrite E, andb_false_r. rewrite arun_Read by exact Hv. rewrite arun_bind, IH by exact Hok'. reflexivity.
Qed.

(** Section verdict for a program that consumes exactly the packed bits. *)
Lemma asection_pack {A} strict (p : prog A) B a :
  arun strict p (B ++ repeat false (padlen (length B))) = Some (a, repeat false (padlen (length B))) ->
  asection strict p (pack B) = Some (a, length (pack B)).
Proof.
  intros H. unfold asection. rewrite pack_bits, H. rewrite repeat_length.
  destruct (padlen_lt (length B)) as [P1 P2].
  rewrite Nat.mod_small, Nat.div_small by exact P1.
  rewrite firstn_all2 by (rewrite repeat_length; lia).
  assert (E : forallb negb (repeat false (padlen (length B))) = true).
  { clear. induction (padlen (length B)); cbn; auto. }
  rewrite E, Nat.sub_0_r. reflexivity.
Qed.

(** Same with payload bytes following the bits. *)
Lemma asection_pack_app {A} strict (p : prog A) B a (tail : list Z) :
  arun strict p (B ++ repeat false (padlen (length B)) ++ bits_of_bytes tail)
    = Some (a, repeat false (padlen (length B)) ++ bits_of_bytes tail) ->
  asection strict p (pack B ++ tail) = Some (a, length (pack B)).
Proof.
  intros H. unfold asection. rewrite bits_of_bytes_app, pack_bits, <- app_assoc, H.
  rewrite app_length, repeat_length, bits_of_bytes_length.
  destruct (padlen_lt (length B)) as [P1 P2].
  rewrite (Nat.mul_comm 8), Nat.mod_add, Nat.div_add by lia. rewrite Nat.mod_small, Nat.div_small by exact P1.
  rewrite firstn_app, firstn_all2 by (rewrite repeat_length; lia).
  rewrite repeat_length, Nat.sub_diag. cbn [firstn]. rewrite app_nil_r.
  assert (E : forallb negb (repeat false (padlen (length B))) = true).
  { clear. induction (padlen (length B)); cbn; auto. }
  rewrite E, app_length. f_equal. f_equal. lia.
Qed.
