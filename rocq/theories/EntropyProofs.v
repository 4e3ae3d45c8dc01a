(** Proof of the round trip of the interleaved entropy coding layer. *)
From Verif Require Import Base EntropyModel.

(** ** Abstract output: the slots in stream order *)

Inductive slot := SW (v : Z) | SS (counts : list Z) (sym : Z).

Record est := mkE { e_low : Z; e_high : Z; e_bv : Z; e_bp : Z }.

Definition est_ok (e : est) : Prop :=
  0 <= e_low e < e_high e /\ e_high e < 2 ^ 32 /\ 0 <= e_bp e <= 16 /\ 0 <= e_bv e < 2 ^ e_bp e.

(** Content of the currently reserved slots (bit word [b], arithmetic words
    [a0] [a1]) and of the slots that follow. *)
Fixpoint slots_of (e : est) (l : list item) : Z * Z * Z * list slot :=
  match l with
  | [] => (Z.land (e_bv e) 65535, Z.shiftr (e_high e) 16, Z.land (e_high e) 65535, [])
  | ISym c s :: r =>
      let '(b, a0, a1, sl) := slots_of e r in (b, a0, a1, SS c s :: sl)
  | IBits n v :: r =>
      let val := Z.lor (e_bv e) (Z.shiftl v (e_bp e)) mod 2 ^ 32 in
      let bp := e_bp e + Z.of_nat n in
      if 16 <? bp then
        let '(b, a0, a1, sl) := slots_of (mkE (e_low e) (e_high e) (Z.shiftr val 16) (bp - 16)) r in
        (Z.land val 65535, a0, a1, SW b :: sl)
      else slots_of (mkE (e_low e) (e_high e) val bp) r
  | IBit p bit :: r =>
      let split := arith_split (e_low e) (e_high e) p in
      let low := if bit then (split + 1) mod 2 ^ 32 else e_low e in
      let high := if bit then e_high e else split in
      if Z.shiftr (Z.lxor low high) 16 =? 0 then
        let '(b, a0, a1, sl) :=
          slots_of (mkE (Z.shiftl low 16 mod 2 ^ 32) (Z.lor (Z.shiftl high 16 mod 2 ^ 32) 65535)
                        (e_bv e) (e_bp e)) r in
        (b, Z.shiftr high 16, a0, SW a1 :: sl)
      else slots_of (mkE low high (e_bv e) (e_bp e)) r
  end.

(** ** Arithmetic facts *)

Lemma split_bounds low high p :
  0 <= low < high -> high < 2 ^ 32 -> 0 <= p <= 255 ->
  low <= arith_split low high p < high.
Proof.
  intros Hl Hh Hp. unfold arith_split.
  rewrite (Z.mod_small (high - low)) by lia.
  rewrite Z.shiftr_div_pow2 by lia. change (2 ^ 8) with 256.
  assert (0 <= (high - low) * p / 256 < high - low).
  { split; [apply Z.div_pos; nia|]. apply Z.div_lt_upper_bound; nia. }
  rewrite Z.mod_small by lia. lia.
Qed.

Lemma shl16_or (h w : Z) : 0 <= w < 2 ^ 16 ->
  Z.lor (Z.shiftl h 16 mod 2 ^ 32) w = (h mod 2 ^ 16) * 2 ^ 16 + w.
Proof.
  intros Hw. rewrite Z.shiftl_mul_pow2 by lia.
  replace (h * 2 ^ 16 mod 2 ^ 32) with (h mod 2 ^ 16 * 2 ^ 16).
  - rewrite Z.lor_comm, lor_disjoint_add by lia. lia.
  - change (2 ^ 32) with (2 ^ 16 * 2 ^ 16). rewrite Z.mul_mod_distr_r by lia. reflexivity.
Qed.

Lemma shl16_mod h : Z.shiftl h 16 mod 2 ^ 32 = (h mod 2 ^ 16) * 2 ^ 16.
Proof.
  rewrite Z.shiftl_mul_pow2 by lia.
  change (2 ^ 32) with (2 ^ 16 * 2 ^ 16). rewrite Z.mul_mod_distr_r by lia. reflexivity.
Qed.

Lemma xor_shift_zero a b : Z.shiftr (Z.lxor a b) 16 =? 0 = (a / 2 ^ 16 =? b / 2 ^ 16).
Proof.
  rewrite Z.shiftr_lxor. rewrite !Z.shiftr_div_pow2 by lia.
  destruct (a / 2 ^ 16 =? b / 2 ^ 16) eqn:E.
  - apply Z.eqb_eq in E. rewrite E, Z.lxor_nilpotent. reflexivity.
  - apply Z.eqb_neq in E. apply Z.eqb_neq. intros H. apply Z.lxor_eq in H. contradiction.
Qed.

Lemma land_65535 v : Z.land v 65535 = v mod 2 ^ 16.
Proof. change 65535 with (2 ^ 16 - 1). apply land_ones_mod; lia. Qed.

Lemma shr16 v : Z.shiftr v 16 = v / 2 ^ 16.
Proof. apply Z.shiftr_div_pow2; lia. Qed.

(** Next bounds of the interval. *)
Definition ar_low (e : est) (p : Z) (bit : bool) : Z :=
  if bit then (arith_split (e_low e) (e_high e) p + 1) mod 2 ^ 32 else e_low e.
Definition ar_high (e : est) (p : Z) (bit : bool) : Z :=
  if bit then e_high e else arith_split (e_low e) (e_high e) p.

Lemma ar_bounds e p bit : est_ok e -> 0 <= p <= 255 ->
  0 <= ar_low e p bit /\ ar_low e p bit <= ar_high e p bit /\ ar_high e p bit < 2 ^ 32 /\
  e_low e <= ar_low e p bit /\ ar_high e p bit <= e_high e /\
  (bit = true -> ar_low e p bit = arith_split (e_low e) (e_high e) p + 1).
Proof.
  intros (H1 & H2 & _) Hp. pose proof (split_bounds _ _ _ H1 H2 Hp) as Hs.
  unfold ar_low, ar_high. destruct bit.
  - rewrite Z.mod_small by lia. repeat split; lia.
  - repeat split; try lia; try discriminate.
Qed.

Lemma ar_noshift_lt e p bit : est_ok e -> 0 <= p <= 255 ->
  (ar_low e p bit / 2 ^ 16 =? ar_high e p bit / 2 ^ 16) = false ->
  ar_low e p bit < ar_high e p bit.
Proof.
  intros He Hp E. pose proof (ar_bounds e p bit He Hp).
  apply Z.eqb_neq in E. assert (ar_low e p bit <> ar_high e p bit) by congruence. lia.
Qed.

Lemma bits_val e (n : nat) v : est_ok e -> (n <= 16)%nat -> 0 <= v < 2 ^ Z.of_nat n ->
  Z.lor (e_bv e) (Z.shiftl v (e_bp e)) mod 2 ^ 32 = e_bv e + v * 2 ^ e_bp e /\
  0 <= e_bv e + v * 2 ^ e_bp e < 2 ^ (e_bp e + Z.of_nat n).
Proof.
  intros (_ & _ & Hp & Hb) Hn Hv.
  rewrite Z.shiftl_mul_pow2 by lia. rewrite lor_disjoint_add by lia.
  assert (0 <= e_bv e + v * 2 ^ e_bp e < 2 ^ (e_bp e + Z.of_nat n)).
  { rewrite Z.pow_add_r by lia. nia. }
  split; [|assumption].
  apply Z.mod_small. split; [lia|]. eapply Z.lt_le_trans; [apply H|]. apply Z.pow_le_mono_r; lia.
Qed.

Lemma bits_ok e (n : nat) v : est_ok e -> (n <= 16)%nat -> 0 <= v < 2 ^ Z.of_nat n ->
  let val := Z.lor (e_bv e) (Z.shiftl v (e_bp e)) mod 2 ^ 32 in
  let bp := e_bp e + Z.of_nat n in
  (16 < bp -> est_ok (mkE (e_low e) (e_high e) (Z.shiftr val 16) (bp - 16))) /\
  (bp <= 16 -> est_ok (mkE (e_low e) (e_high e) val bp)).
Proof.
  intros He Hn Hv. cbn zeta.
  destruct (bits_val e n v He Hn Hv) as [-> Hr].
  destruct He as (H1 & H2 & Hp & Hb).
  split; intros Hbp; unfold est_ok; cbn [e_low e_high e_bv e_bp]; repeat split; try lia.
  - rewrite shr16. apply Z.div_pos; lia.
  - rewrite shr16. apply Z.div_lt_upper_bound; [lia|].
    rewrite <- Z.pow_add_r by lia. replace (16 + (e_bp e + Z.of_nat n - 16)) with (e_bp e + Z.of_nat n) by lia. lia.
Qed.

Lemma bit_ok e p bit : est_ok e -> 0 <= p <= 255 ->
  ((ar_low e p bit / 2 ^ 16 =? ar_high e p bit / 2 ^ 16) = true ->
   est_ok (mkE (Z.shiftl (ar_low e p bit) 16 mod 2 ^ 32)
               (Z.lor (Z.shiftl (ar_high e p bit) 16 mod 2 ^ 32) 65535) (e_bv e) (e_bp e))) /\
  ((ar_low e p bit / 2 ^ 16 =? ar_high e p bit / 2 ^ 16) = false ->
   est_ok (mkE (ar_low e p bit) (ar_high e p bit) (e_bv e) (e_bp e))).
Proof.
  intros He Hp. pose proof (ar_bounds e p bit He Hp) as Hb.
  split; intros E.
  - destruct He as (_ & _ & H3 & H4).
    unfold est_ok; cbn [e_low e_high e_bv e_bp].
    rewrite shl16_or by lia. rewrite shl16_mod.
    apply Z.eqb_eq in E.
    pose proof (Z.mod_pos_bound (ar_low e p bit) (2 ^ 16) ltac:(lia)).
    pose proof (Z.mod_pos_bound (ar_high e p bit) (2 ^ 16) ltac:(lia)).
    assert (ar_low e p bit mod 2 ^ 16 <= ar_high e p bit mod 2 ^ 16) by (rewrite !Z.mod_eq by lia; lia).
    repeat split; lia.
  - pose proof (ar_noshift_lt e p bit He Hp E).
    destruct He as (_ & _ & H3 & H4).
    unfold est_ok; cbn [e_low e_high e_bv e_bp]. repeat split; lia.
Qed.

(** Invariants of the reserved words. *)
Lemma slots_of_inv l : forall e b a0 a1 sl, est_ok e -> items_ok l ->
  slots_of e l = (b, a0, a1, sl) ->
  0 <= b < 2 ^ 16 /\ b mod 2 ^ e_bp e = e_bv e /\
  0 <= a0 < 2 ^ 16 /\ 0 <= a1 < 2 ^ 16 /\
  e_low e <= a0 * 2 ^ 16 + a1 <= e_high e.
Proof.
  induction l as [|it l IH]; intros e b a0 a1 sl He Hl E.
  - cbn [slots_of] in E. injection E as <- <- <- <-.
    destruct He as (H1 & H2 & H3 & H4).
    rewrite !land_65535, shr16.
    assert (e_bv e < 2 ^ 16) by (eapply Z.lt_le_trans; [apply H4|]; apply Z.pow_le_mono_r; lia).
    rewrite (Z.mod_small (e_bv e) (2 ^ 16)) by lia.
    rewrite (Z.mod_small (e_bv e)) by lia.
    repeat split; try lia; try (apply Z.mod_pos_bound; lia); dlia.
  - inversion Hl as [|it' l' Hit Hl']; subst. destruct it as [p bit|c s|n v]; cbn [slots_of item_ok] in E, Hit.
    + fold (ar_low e p bit) in E. fold (ar_high e p bit) in E. rewrite xor_shift_zero in E.
      pose proof (ar_bounds e p bit He Hit) as Hb.
      destruct (bit_ok e p bit He Hit) as [Ha Hc].
      destruct (ar_low e p bit / 2 ^ 16 =? ar_high e p bit / 2 ^ 16) eqn:Es.
      * destruct (slots_of _ l) as [[[b' a0'] a1'] sl'] eqn:Er. injection E as <- <- <- <-.
        destruct (IH _ _ _ _ _ (Ha eq_refl) Hl' Er) as (I1 & I2 & I3 & I4 & I5).
        cbn [e_low e_high e_bv e_bp] in *.
        rewrite shl16_or, shl16_mod in I5 by lia. rewrite shr16.
        apply Z.eqb_eq in Es. repeat split; try lia; try dlia.
      * destruct (IH _ _ _ _ _ (Hc eq_refl) Hl' E) as (I1 & I2 & I3 & I4 & I5).
        cbn [e_low e_high e_bv e_bp] in *. repeat split; try lia; tauto.
    + destruct (slots_of e l) as [[[b' a0'] a1'] sl'] eqn:Er. injection E as <- <- <- <-.
      eapply IH; eassumption.
    + destruct Hit as [Hn Hv]. destruct (bits_ok e n v He Hn Hv) as [Ha Hc].
      destruct (bits_val e n v He Hn Hv) as [Ev Hr]. cbn zeta in Ha, Hc. rewrite Ev in *.
      destruct (16 <? e_bp e + Z.of_nat n) eqn:Eo.
      * apply Z.ltb_lt in Eo. destruct (slots_of _ l) as [[[b' a0'] a1'] sl'] eqn:Er. injection E as <- <- <- <-.
        destruct (IH _ _ _ _ _ (Ha Eo) Hl' Er) as (I1 & I2 & I3 & I4 & I5).
        cbn [e_low e_high e_bv e_bp] in *. rewrite land_65535.
        repeat split; try (apply Z.mod_pos_bound; lia); try lia.
        destruct He as (_ & _ & Hp & Hb).
        replace (2 ^ 16) with (2 ^ e_bp e * 2 ^ (16 - e_bp e)) by (rewrite <- Z.pow_add_r by lia; f_equal; lia).
        pose proof (pow2_pos (e_bp e) ltac:(lia)). pose proof (pow2_pos (16 - e_bp e) ltac:(lia)).
        rewrite Z.rem_mul_r by lia.
        rewrite (Z.mul_comm (2 ^ e_bp e)). rewrite Z.mod_add by lia.
        rewrite Z.mod_mod by lia. rewrite Z.mod_add by lia. apply Z.mod_small; lia.
      * apply Z.ltb_ge in Eo.
        destruct (IH _ _ _ _ _ (Hc Eo) Hl' E) as (I1 & I2 & I3 & I4 & I5).
        cbn [e_low e_high e_bv e_bp] in *. repeat split; try lia.
        destruct He as (_ & _ & Hp & Hb).
        pose proof (pow2_pos (e_bp e) ltac:(lia)). pose proof (pow2_pos (Z.of_nat n) ltac:(lia)).
        assert (b mod 2 ^ e_bp e = (b mod 2 ^ (e_bp e + Z.of_nat n)) mod 2 ^ e_bp e) as ->.
        { rewrite Z.pow_add_r by lia. rewrite Z.rem_mul_r by lia.
          rewrite (Z.mul_comm (2 ^ e_bp e)), Z.mod_add by lia. rewrite Z.mod_mod by lia. reflexivity. }
        rewrite I2, Z.mod_add by lia. apply Z.mod_small; lia.
Qed.

(** ** ANS *)

Fixpoint ans_slots (sl : list slot) : Z * list Z :=
  match sl with
  | [] => (ans_signature_state, [])
  | SW v :: r => let '(s, ws) := ans_slots r in (s, v mod 2 ^ 16 :: ws)
  | SS c x :: r =>
      let '(s, ws) := ans_slots r in
      let '(s', bits, nbits) := ans_put s (ans_freq c x) (ans_start c x) in
      (s', if nbits =? 0 then ws else bits mod 2 ^ 16 :: ws)
  end.

Definition slot_ok (s : slot) : Prop :=
  match s with SW _ => True | SS c x => item_ok (ISym c x) end.

Lemma slots_of_ok l : forall e b a0 a1 sl, items_ok l -> slots_of e l = (b, a0, a1, sl) -> Forall slot_ok sl.
Proof.
  induction l as [|it l IH]; intros e b a0 a1 sl Hl E; cbn [slots_of] in E.
  - injection E as <- <- <- <-. constructor.
  - inversion Hl as [|it' l' Hit Hl']; subst. destruct it as [p bit|c s|n v].
    + destruct (_ =? 0).
      * destruct (slots_of _ l) as [[[b' a0'] a1'] sl'] eqn:Er. injection E as <- <- <- <-.
        constructor; [exact I|]. eapply IH; eassumption.
      * eapply IH; eassumption.
    + destruct (slots_of e l) as [[[b' a0'] a1'] sl'] eqn:Er. injection E as <- <- <- <-.
      constructor; [exact Hit|]. eapply IH; eassumption.
    + destruct (16 <? _).
      * destruct (slots_of _ l) as [[[b' a0'] a1'] sl'] eqn:Er. injection E as <- <- <- <-.
        constructor; [exact I|]. eapply IH; eassumption.
      * eapply IH; eassumption.
Qed.

Lemma ans_map_length i counts : Forall (fun c => 0 <= c) counts ->
  Z.of_nat (length (ans_map_from i counts)) = sumZ counts.
Proof.
  intros H; revert i; induction H as [|c r Hc Hr IH]; intros i; cbn [ans_map_from sumZ fold_right]; [reflexivity|].
  rewrite app_length, map_length, seq_length, Nat2Z.inj_add, IH. unfold sumZ. lia.
Qed.

Lemma ans_map_nth counts : forall i s j, Forall (fun c => 0 <= c) counts ->
  0 <= s -> 0 <= j < ans_freq counts s ->
  nth_error (ans_map_from i counts) (Z.to_nat (ans_start counts s + j)) =
    Some (i + s, ans_freq counts s, j).
Proof.
  induction counts as [|c r IH]; intros i s j Hc Hs Hj.
  - unfold ans_freq in Hj. destruct (Z.to_nat s); cbn in Hj; lia.
  - inversion Hc as [|c' r' Hc0 Hr]; subst. cbn [ans_map_from].
    destruct (Z.eq_dec s 0) as [->|Hs0].
    + unfold ans_start, ans_freq in *. change (Z.to_nat 0) with O in *. cbn [firstn nth] in *.
      change (sumZ []) with 0.
      rewrite nth_error_app1 by (rewrite map_length, seq_length; lia).
      replace (Z.to_nat (0 + j)) with (Z.to_nat j) by lia.
      erewrite map_nth_error; [|rewrite nth_error_nth' with (d := O) by (rewrite seq_length; lia); rewrite seq_nth by lia; reflexivity].
      f_equal. f_equal; [f_equal; lia | lia].
    + assert (Ef : ans_freq (c :: r) s = ans_freq r (s - 1)).
      { unfold ans_freq. replace (Z.to_nat s) with (S (Z.to_nat (s - 1))) by lia. reflexivity. }
      assert (Es : ans_start (c :: r) s = c + ans_start r (s - 1)).
      { unfold ans_start. replace (Z.to_nat s) with (S (Z.to_nat (s - 1))) by lia. reflexivity. }
      rewrite Ef in *. rewrite Es.
      assert (0 <= ans_start r (s - 1)).
      { unfold ans_start. apply sumZ_nonneg. clear - Hr. revert Hr. generalize (Z.to_nat (s - 1)).
        intros n Hr; revert n; induction Hr; intros [|n]; cbn [firstn]; constructor; auto. }
      rewrite nth_error_app2 by (rewrite map_length, seq_length; lia).
      rewrite map_length, seq_length.
      replace (Z.to_nat (c + ans_start r (s - 1) + j) - Z.to_nat c)%nat
        with (Z.to_nat (ans_start r (s - 1) + j)) by lia.
      rewrite IH by (auto; lia). f_equal. f_equal. f_equal. lia.
Qed.

Lemma ans_start_freq counts s : Forall (fun c => 0 <= c) counts -> 0 <= s ->
  0 <= ans_start counts s /\ 0 <= ans_freq counts s /\
  ans_start counts s + ans_freq counts s <= sumZ counts.
Proof.
  intros Hc. revert s; induction Hc as [|c r Hc Hr IH]; intros s Hs.
  - unfold ans_start, ans_freq. rewrite firstn_nil. destruct (Z.to_nat s); cbn; lia.
  - destruct (Z.eq_dec s 0) as [->|Hs0].
    + unfold ans_start, ans_freq. change (Z.to_nat 0) with O. cbn [firstn nth].
      pose proof (sumZ_nonneg r Hr). unfold sumZ in *; cbn [fold_right]; lia.
    + specialize (IH (s - 1) ltac:(lia)). unfold ans_start, ans_freq in *.
      replace (Z.to_nat s) with (S (Z.to_nat (s - 1))) by lia. cbn [firstn nth].
      unfold sumZ in *; cbn [fold_right]; lia.
Qed.

(** One ANS step: bounds and inverse. *)
Lemma ans_put_spec S f st S' bits nbits :
  2 ^ 16 <= S < 2 ^ 32 -> 0 < f -> 0 <= st -> st + f <= 1024 ->
  ans_put S f st = (S', bits, nbits) ->
  2 ^ 16 <= S' < 2 ^ 32 /\ (nbits = 0 \/ nbits = 16) /\
  st <= S' mod 1024 < st + f /\
  (let x := f * (S' / 1024) + (S' mod 1024 - st) in
   if nbits =? 0 then 2 ^ 16 <= x /\ x = S
   else 0 <= x < 2 ^ 16 /\ 0 <= bits < 2 ^ 16 /\ x * 2 ^ 16 + bits = S).
Proof.
  intros HS Hf Hst Hsf. unfold ans_put.
  destruct (f <=? Z.shiftr S 22) eqn:E; rewrite Z.shiftr_div_pow2 in E by lia.
  - apply Z.leb_le in E.
    intros H; injection H as <- <- <-.
    rewrite land_65535, shr16.
    set (T := S / 2 ^ 16) in *.
    assert (HT : 0 <= T < 2 ^ 16) by (unfold T; dlia).
    assert (HT2 : 2 ^ 6 * f <= T).
    { unfold T. apply Z.div_le_lower_bound; [lia|].
      assert (2 ^ 22 * f <= S) by (pose proof (Z.mul_div_le S (2 ^ 22) ltac:(lia)); nia). lia. }
    assert (Hq : 2 ^ 6 <= T / f) by (apply Z.div_le_lower_bound; lia).
    assert (Hq2 : T / f <= T) by (apply Z.div_le_upper_bound; nia).
    pose proof (Z.mod_pos_bound T f Hf) as Hm.
    rewrite Z.shiftl_mul_pow2 by lia. change (2 ^ 10) with 1024.
    rewrite (Z.mod_small (T / f * 1024)) by lia.
    rewrite (Z.mod_small (T / f * 1024 + T mod f + st)) by lia.
    assert (Ed : (T / f * 1024 + T mod f + st) / 1024 = T / f).
    { symmetry; apply Z.div_unique with (r := T mod f + st); lia. }
    assert (Em : (T / f * 1024 + T mod f + st) mod 1024 = T mod f + st).
    { symmetry; apply Z.mod_unique with (q := T / f); lia. }
    rewrite Ed, Em. change (16 =? 0) with false. cbv zeta iota beta.
    assert (Ex : f * (T / f) + (T mod f + st - st) = T).
    { pose proof (Z.div_mod T f ltac:(lia)); lia. }
    rewrite Ex.
    repeat split; try lia; try (apply Z.mod_pos_bound; lia).
  - apply Z.leb_gt in E.
    intros H; injection H as <- <- <-.
    assert (HS2 : S < 2 ^ 22 * f).
    { pose proof (Z.div_mod S (2 ^ 22) ltac:(lia)). pose proof (Z.mod_pos_bound S (2 ^ 22) ltac:(lia)). nia. }
    assert (Hq : 2 ^ 6 <= S / f) by (apply Z.div_le_lower_bound; nia).
    assert (Hq2 : S / f < 2 ^ 22) by (apply Z.div_lt_upper_bound; lia).
    pose proof (Z.mod_pos_bound S f Hf) as Hm.
    rewrite Z.shiftl_mul_pow2 by lia. change (2 ^ 10) with 1024.
    rewrite (Z.mod_small (S / f * 1024)) by lia.
    rewrite (Z.mod_small (S / f * 1024 + S mod f + st)) by lia.
    assert (Ed : (S / f * 1024 + S mod f + st) / 1024 = S / f).
    { symmetry; apply Z.div_unique with (r := S mod f + st); lia. }
    assert (Em : (S / f * 1024 + S mod f + st) mod 1024 = S mod f + st).
    { symmetry; apply Z.mod_unique with (q := S / f); lia. }
    rewrite Ed, Em. change (0 =? 0) with true. cbv zeta iota beta.
    assert (Ex : f * (S / f) + (S mod f + st - st) = S).
    { pose proof (Z.div_mod S f ltac:(lia)); lia. }
    rewrite Ex. repeat split; lia.
Qed.

Lemma ans_slots_range sl s ws : Forall slot_ok sl -> ans_slots sl = (s, ws) -> 2 ^ 16 <= s < 2 ^ 32.
Proof.
  intros H; revert s ws; induction H as [|x sl Hx Hsl IH]; intros s ws E; cbn [ans_slots] in E.
  - injection E as <- <-. unfold ans_signature_state; lia.
  - destruct x as [v|c x].
    + destruct (ans_slots sl) as [s0 ws0]; injection E as <- <-. eapply IH; reflexivity.
    + destruct (ans_slots sl) as [s0 ws0].
      destruct (ans_put _ _ _) as [[s1 bits] nb] eqn:Ep. injection E as <- <-.
      destruct Hx as ((Hc1 & Hc2) & Hs0 & Hf).
      pose proof (ans_start_freq c x Hc1 Hs0).
      eapply ans_put_spec in Ep; try lia. apply (IH _ _ eq_refl).
Qed.

(** ** Decoder simulates *)

(** The decoder state that matches encoder state [e] with items [l] still to
    be decoded. *)
Definition dmatch (e : est) (l : list item) (d : dstate) : Prop :=
  exists b a0 a1 sl s ws,
    slots_of e l = (b, a0, a1, sl) /\ ans_slots sl = (s, ws) /\
    d = mkD s b (e_bp e) (e_low e) (e_high e) (a0 * 2 ^ 16 + a1) (mkWS ws false).

Lemma dmatch_bit e p bit l d : est_ok e -> items_ok (IBit p bit :: l) -> dmatch e (IBit p bit :: l) d ->
  exists e' d', read_bit p d = (bit, d') /\ est_ok e' /\ dmatch e' l d'.
Proof.
  intros He Hl (b & a0 & a1 & sl & s & ws & E & Ea & ->).
  inversion Hl as [|it' l' Hit Hl']; subst. cbn [item_ok] in Hit.
  cbn [slots_of] in E. fold (ar_low e p bit) in E. fold (ar_high e p bit) in E. rewrite xor_shift_zero in E.
  pose proof (ar_bounds e p bit He Hit) as Hb.
  destruct (bit_ok e p bit He Hit) as [Ha Hc].
  assert (Hdec : e_low e <= a0 * 2 ^ 16 + a1 <= e_high e ->
     ar_low e p bit <= a0 * 2 ^ 16 + a1 <= ar_high e p bit ->
     (arith_split (e_low e) (e_high e) p <? a0 * 2 ^ 16 + a1) = bit).
  { intros _ Hv. destruct bit.
    - apply Z.ltb_lt. destruct Hb as (_ & _ & _ & _ & _ & Hb). specialize (Hb eq_refl). lia.
    - apply Z.ltb_ge. unfold ar_high in Hv. lia. }
  unfold read_bit. cbn [d_low d_high d_value d_src d_ans d_val d_bitpos].
  destruct (ar_low e p bit / 2 ^ 16 =? ar_high e p bit / 2 ^ 16) eqn:Es.
  - destruct (slots_of _ l) as [[[b' a0'] a1'] sl'] eqn:Er. injection E as <- <- <- <-.
    destruct (slots_of_inv _ _ _ _ _ _ (Ha eq_refl) Hl' Er) as (I1 & I2 & I3 & I4 & I5).
    cbn [e_low e_high e_bv e_bp] in *.
    rewrite shl16_or, shl16_mod in I5 by lia. rewrite (shr16 (ar_high e p bit)) in *.
    pose proof Es as Es'. apply Z.eqb_eq in Es'.
    assert (Hv : ar_low e p bit <= ar_high e p bit / 2 ^ 16 * 2 ^ 16 + a0' <= ar_high e p bit) by dlia.
    rewrite Hdec by lia.
    fold (ar_low e p bit) (ar_high e p bit). rewrite xor_shift_zero, Es.
    cbn [ans_slots] in Ea. destruct (ans_slots sl') as [s' ws'] eqn:Ea'. injection Ea as <- <-.
    cbn [next_word ws_words ws_error].
    eexists _, _. split; [reflexivity|]. split; [apply Ha; reflexivity|].
    exists b', a0', a1', sl', s', ws'. split; [exact Er|]. split; [exact Ea'|].
    cbn [e_low e_high e_bv e_bp]. f_equal.
    rewrite (Z.mod_small a1') by lia. rewrite shl16_or by lia.
    f_equal. rewrite Z.add_comm, Z.mod_add by lia. rewrite Z.mod_small by lia. reflexivity.
  - destruct (slots_of_inv _ _ _ _ _ _ (Hc eq_refl) Hl' E) as (I1 & I2 & I3 & I4 & I5).
    cbn [e_low e_high e_bv e_bp] in *.
    rewrite Hdec by lia.
    fold (ar_low e p bit) (ar_high e p bit). rewrite xor_shift_zero, Es.
    eexists _, _. split; [reflexivity|]. split; [apply Hc; reflexivity|].
    exists b, a0, a1, sl, s, ws. auto.
Qed.

Lemma dmatch_sym e c x l d : est_ok e -> items_ok (ISym c x :: l) -> dmatch e (ISym c x :: l) d ->
  exists e' d', read_symbol c d = Some (x, d') /\ est_ok e' /\ dmatch e' l d'.
Proof.
  intros He Hl (b & a0 & a1 & sl & s & ws & E & Ea & ->).
  inversion Hl as [|it' l' Hit Hl']; subst.
  cbn [slots_of] in E. destruct (slots_of e l) as [[[b' a0'] a1'] sl'] eqn:Er. injection E as <- <- <- <-.
  cbn [ans_slots] in Ea. destruct (ans_slots sl') as [s0 ws0] eqn:Ea0.
  destruct (ans_put _ _ _) as [[s1 bits] nb] eqn:Ep. injection Ea as <- <-.
  pose proof (slots_of_ok _ _ _ _ _ _ Hl' Er) as Hsl.
  pose proof (ans_slots_range _ _ _ Hsl Ea0) as Hs0.
  destruct Hit as ((Hc1 & Hc2) & Hx & Hf).
  pose proof (ans_start_freq c x Hc1 Hx) as Hsf.
  assert (Hsum : ans_start c x + ans_freq c x <= 1024) by lia.
  destruct (ans_put_spec _ _ _ _ _ _ Hs0 Hf (proj1 Hsf) Hsum Ep) as (R1 & R2 & R3 & R4).
  unfold read_symbol. cbn [d_ans d_src d_val d_bitpos d_low d_high d_value].
  replace (Z.land s1 1023) with (s1 mod 1024) by (change 1023 with (2 ^ 10 - 1); rewrite land_ones_mod by lia; reflexivity).
  pose proof (ans_map_nth c 0 x (s1 mod 1024 - ans_start c x) Hc1 Hx ltac:(lia)) as Hn.
  replace (ans_start c x + (s1 mod 1024 - ans_start c x)) with (s1 mod 1024) in Hn by lia.
  unfold ans_map. rewrite Hn. rewrite Z.shiftr_div_pow2 by lia. change (2 ^ 10) with 1024. cbv zeta in R4.
  destruct (nb =? 0) eqn:Enb.
  - destruct R4 as [R4 R5]. rewrite R5. rewrite Z.mod_small by lia.
    destruct (s0 <? 2 ^ 16) eqn:El; [apply Z.ltb_lt in El; lia|].
    eexists e, _. split; [rewrite Z.add_0_l; reflexivity|]. split; [exact He|].
    exists b', a0', a1', sl', s0, ws0. auto.
  - destruct R4 as (R4 & R5 & R6).
    rewrite (Z.mod_small (_ * _ + _)) by lia.
    destruct (_ <? 2 ^ 16) eqn:El; [|apply Z.ltb_ge in El; lia].
    cbn [next_word ws_words ws_error].
    eexists e, _. split; [rewrite Z.add_0_l; reflexivity|]. split; [exact He|].
    exists b', a0', a1', sl', s0, ws0. split; [exact Er|]. split; [exact Ea0|].
    f_equal. rewrite (Z.mod_small bits) by lia. rewrite shl16_or by lia.
    rewrite Z.mod_small by lia. exact R6.
Qed.

Lemma dmatch_bits e n v l d : est_ok e -> items_ok (IBits n v :: l) -> dmatch e (IBits n v :: l) d ->
  exists e' d', read_bits n d = (v, d') /\ est_ok e' /\ dmatch e' l d'.
Proof.
  intros He Hl (b & a0 & a1 & sl & s & ws & E & Ea & ->).
  inversion Hl as [|it' l' Hit Hl']; subst. destruct Hit as [Hn Hv].
  destruct (bits_ok e n v He Hn Hv) as [Ha Hc].
  destruct (bits_val e n v He Hn Hv) as [Ev Hr]. cbn zeta in Ha, Hc.
  cbn [slots_of] in E. rewrite Ev in *.
  pose proof He as (_ & _ & Hp & Hb).
  pose proof (pow2_pos (e_bp e) ltac:(lia)) as Hpp. pose proof (pow2_pos (Z.of_nat n) ltac:(lia)) as Hpn.
  unfold read_bits. cbn [d_ans d_src d_val d_bitpos d_low d_high d_value].
  destruct (16 <? e_bp e + Z.of_nat n) eqn:Eo.
  - apply Z.ltb_lt in Eo. destruct (slots_of _ l) as [[[b' a0'] a1'] sl'] eqn:Er. injection E as <- <- <- <-.
    destruct (slots_of_inv _ _ _ _ _ _ (Ha Eo) Hl' Er) as (I1 & I2 & I3 & I4 & I5).
    cbn [ans_slots] in Ea. destruct (ans_slots sl') as [s' ws'] eqn:Ea'. injection Ea as <- <-.
    cbn [e_low e_high e_bv e_bp] in *.
    cbn [next_word ws_words ws_error].
    rewrite (Z.mod_small b') by lia. rewrite land_65535.
    set (V := e_bv e + v * 2 ^ e_bp e) in *.
    pose proof (Z.mod_pos_bound V (2 ^ 16) ltac:(lia)) as HVm.
    rewrite shl16_mod. rewrite (Z.mod_small b') by lia. rewrite lor_disjoint_add by lia.
    rewrite !shr16 in *. rewrite Z.shiftr_div_pow2 by lia. rewrite land_ones_mod by lia.
    rewrite (Z.div_add (V mod 2 ^ 16)) by lia. rewrite (Z.div_small (V mod 2 ^ 16)) by lia. rewrite Z.add_0_l.
    assert (Hres : (V mod 2 ^ 16 + b' * 2 ^ 16) / 2 ^ e_bp e mod 2 ^ Z.of_nat n = v).
    { rewrite Z.mod_eq by lia.
      (* value congruent to V modulo 2^(bp+n) *)
      set (m := e_bp e + Z.of_nat n) in *.
      assert (Hcong : (V mod 2 ^ 16 + b' * 2 ^ 16) mod 2 ^ m = V).
      { assert (Em : 2 ^ m = 2 ^ 16 * 2 ^ (m - 16)) by (rewrite <- Z.pow_add_r by lia; f_equal; lia).
        rewrite Em. pose proof (pow2_pos (m - 16) ltac:(lia)).
        rewrite Z.rem_mul_r by lia. rewrite Z.mod_add by lia. rewrite Z.mod_mod by lia.
        rewrite Z.div_add by lia. rewrite (Z.div_small (V mod 2 ^ 16)) by lia. rewrite Z.add_0_l.
        rewrite I2. pose proof (Z.div_mod V (2 ^ 16) ltac:(lia)). lia. }
      rewrite <- Z.mod_eq by lia.
      set (X := V mod 2 ^ 16 + b' * 2 ^ 16) in *.
      assert (EX : X = V + 2 ^ e_bp e * 2 ^ Z.of_nat n * (X / 2 ^ m)).
      { rewrite <- Z.pow_add_r by lia. fold m. pose proof (Z.div_mod X (2 ^ m) ltac:(pose proof (pow2_pos m ltac:(lia)); lia)). lia. }
      rewrite EX. unfold V.
      replace (e_bv e + v * 2 ^ e_bp e + 2 ^ e_bp e * 2 ^ Z.of_nat n * (X / 2 ^ m))
        with (e_bv e + (v + (X / 2 ^ m) * 2 ^ Z.of_nat n) * 2 ^ e_bp e) by ring.
      rewrite Z.div_add by lia. rewrite (Z.div_small (e_bv e)) by lia. rewrite Z.add_0_l.
      rewrite Z.mod_add by lia. apply Z.mod_small; lia. }
    rewrite Hres.
    eexists _, _. split; [reflexivity|]. split; [apply Ha; exact Eo|].
    exists b', a0', a1', sl', s', ws'. auto.
  - apply Z.ltb_ge in Eo.
    destruct (slots_of_inv _ _ _ _ _ _ (Hc Eo) Hl' E) as (I1 & I2 & I3 & I4 & I5).
    cbn [e_low e_high e_bv e_bp] in *.
    rewrite Z.shiftr_div_pow2 by lia. rewrite land_ones_mod by lia.
    assert (Hres : b / 2 ^ e_bp e mod 2 ^ Z.of_nat n = v).
    { rewrite Z.pow_add_r in I2 by lia. rewrite Z.rem_mul_r in I2 by lia.
      assert (b mod 2 ^ e_bp e = e_bv e).
      { assert (Hx : (b mod 2 ^ e_bp e + 2 ^ e_bp e * (b / 2 ^ e_bp e mod 2 ^ Z.of_nat n)) mod 2 ^ e_bp e
               = (e_bv e + v * 2 ^ e_bp e) mod 2 ^ e_bp e) by (f_equal; exact I2).
        rewrite (Z.mul_comm (2 ^ e_bp e)) in Hx. rewrite !Z.mod_add in Hx by lia.
        rewrite Z.mod_mod in Hx by lia. rewrite (Z.mod_small (e_bv e)) in Hx by lia. exact Hx. }
      nia. }
    rewrite Hres.
    eexists _, _. split; [reflexivity|]. split; [apply Hc; exact Eo|].
    exists b, a0, a1, sl, s, ws. auto.
Qed.

Lemma erun_simulates {A} (p : eprog A) : forall e l d a rest,
  est_ok e -> items_ok l -> dmatch e l d -> eaccept p l = Some (a, rest) ->
  exists e' d', erun p d = Some (a, d') /\ est_ok e' /\ items_ok rest /\ dmatch e' rest d'.
Proof.
  induction p as [a0| |q k IH|c k IH|n k IH]; intros e l d a rest He Hl Hd Hacc; cbn [eaccept erun] in *.
  - injection Hacc as <- <-. eexists _, _. eauto.
  - discriminate.
  - destruct l as [|[q' b|c' s|n' v] l]; try discriminate.
    destruct (q =? q') eqn:Eq; [|discriminate]. apply Z.eqb_eq in Eq; subst q'.
    destruct (dmatch_bit _ _ _ _ _ He Hl Hd) as (e' & d' & Hr & He' & Hd').
    rewrite Hr. inversion Hl; subst. eapply IH; eassumption.
  - destruct l as [|[q' b|c' s|n' v] l]; try discriminate.
    destruct (list_eqb c c') eqn:Eq; [|discriminate]. apply list_eqb_eq in Eq; subst c'.
    destruct (dmatch_sym _ _ _ _ _ He Hl Hd) as (e' & d' & Hr & He' & Hd').
    rewrite Hr. inversion Hl; subst. eapply IH; eassumption.
  - destruct l as [|[q' b|c' s|n' v] l]; try discriminate.
    destruct (Nat.eqb n n') eqn:Eq; [|discriminate]. apply Nat.eqb_eq in Eq; subst n'.
    destruct (dmatch_bits _ _ _ _ _ He Hl Hd) as (e' & d' & Hr & He' & Hd').
    rewrite Hr. inversion Hl; subst. eapply IH; eassumption.
Qed.

(** ** The mutable-slot encoder produces these slots *)

Definition cwslot (w : code_word) : slot :=
  if cw_nbits w =? 0 then SS (cw_counts w) (cw_code w) else SW (cw_value w).

Lemma ans_pass_slots cws :
  let '(s, cws') := ans_pass cws in
  ans_slots (map cwslot cws) =
    (s, map (fun w => cw_value w mod 2 ^ 16) (filter (fun w => negb (cw_nbits w =? 0)) cws')).
Proof.
  induction cws as [|w r IH]; cbn [ans_pass map ans_slots]; [reflexivity|].
  destruct (ans_pass r) as [s r'] eqn:Er. unfold cwslot at 1.
  destruct (cw_nbits w =? 0) eqn:E.
  - rewrite IH. destruct (ans_put _ _ _) as [[s' bits] nb].
    cbn [filter cw_nbits]. destruct (nb =? 0); cbn [negb map cw_value]; reflexivity.
  - rewrite IH. cbn [filter]. rewrite E. cbn [negb map]. reflexivity.
Qed.

Lemma map_upd {A B} (f : A -> B) l i v : map f (upd l i v) = upd (map f l) i (f v).
Proof. revert i; induction l as [|a l IH]; intros [|i]; cbn [upd map]; congruence. Qed.

Lemma upd_app_l {A} (l1 l2 : list A) i v : (i < length l1)%nat -> upd (l1 ++ l2) i v = upd l1 i v ++ l2.
Proof. revert i; induction l1 as [|a l IH]; intros [|i] H; cbn [upd app length] in *; try lia; auto. rewrite IH by lia; reflexivity. Qed.

Lemma upd_app_last {A} (l : list A) x r v : upd (l ++ x :: r) (length l) v = l ++ v :: r.
Proof. induction l as [|a l IH]; cbn [upd app length]; congruence. Qed.

Lemma upd_comm {A} (l : list A) i j v w : i <> j -> upd (upd l i v) j w = upd (upd l j w) i v.
Proof. revert i j; induction l as [|a l IH]; intros [|i] [|j] H; cbn [upd]; try congruence; auto. rewrite IH by congruence; reflexivity. Qed.

Lemma upd_upd {A} (l : list A) i v w : upd (upd l i v) i w = upd l i w.
Proof. revert i; induction l as [|a l IH]; intros [|i]; cbn [upd]; auto. rewrite IH; reflexivity. Qed.

Lemma set_word_slot cws i v : (i < length cws)%nat ->
  map cwslot (set_word cws i v) = upd (map cwslot cws) i (SW v).
Proof.
  intros H. unfold set_word. destruct (nth_error cws i) as [w|] eqn:E.
  - rewrite map_upd. reflexivity.
  - apply nth_error_None in E; lia.
Qed.

Lemma set_word_length cws i v : length (set_word cws i v) = length cws.
Proof. unfold set_word; destruct (nth_error cws i); [apply upd_length|reflexivity]. Qed.

Definition ds_wf (d : dstream) : Prop :=
  (ds_bw_pos d < length (ds_cws d))%nat /\ (ds_ac_pos0 d < length (ds_cws d))%nat /\
  (ds_ac_pos1 d < length (ds_cws d))%nat /\
  ds_bw_pos d <> ds_ac_pos0 d /\ ds_bw_pos d <> ds_ac_pos1 d /\ ds_ac_pos0 d <> ds_ac_pos1 d.

Definition est_of (d : dstream) : est := mkE (ds_low d) (ds_high d) (ds_bw_val d) (ds_bw_bitpos d).

Definition flushed (d : dstream) : list code_word := flush_arith d (flush_bit_writer d).

Definition upd3 (l : list slot) (d : dstream) (b a0 a1 : Z) : list slot :=
  upd (upd (upd l (ds_bw_pos d) (SW b)) (ds_ac_pos0 d) (SW a0)) (ds_ac_pos1 d) (SW a1).

Lemma flush_slots d : ds_wf d ->
  map cwslot (flushed d) =
  upd3 (map cwslot (ds_cws d)) d (Z.land (ds_bw_val d) 65535)
       (Z.shiftr (ds_high d) 16) (Z.land (ds_high d) 65535).
Proof.
  intros (H1 & H2 & H3 & _). unfold flushed.
  change (flush_arith d (flush_bit_writer d)) with
    (set_word (set_word (flush_bit_writer d) (ds_ac_pos0 d) (Z.shiftr (ds_high d) 16))
       (ds_ac_pos1 d) (Z.land (ds_high d) 65535)).
  unfold flush_bit_writer, upd3.
  rewrite !set_word_slot by (rewrite ?set_word_length; lia). reflexivity.
Qed.

Lemma app_cons_assoc {A} (l1 : list A) x l2 : l1 ++ x :: l2 = (l1 ++ [x]) ++ l2.
Proof. rewrite <- app_assoc; reflexivity. Qed.

Lemma add_items_slots l : forall d b a0 a1 sl, ds_wf d ->
  slots_of (est_of d) l = (b, a0, a1, sl) ->
  map cwslot (flushed (fold_left add_item l d)) = upd3 (map cwslot (ds_cws d)) d b a0 a1 ++ sl.
Proof.
  induction l as [|it l IH]; intros d b a0 a1 sl Hd E; cbn [fold_left].
  - cbn [slots_of est_of e_low e_high e_bv e_bp] in E. injection E as <- <- <- <-.
    rewrite app_nil_r. apply flush_slots; exact Hd.
  - destruct Hd as (H1 & H2 & H3 & H4 & H5 & H6).
    destruct it as [p bit|c s|n v]; cbn [slots_of add_item] in *.
    + unfold add_bit. cbn [est_of e_low e_high e_bv e_bp] in E.
      set (split := arith_split (ds_low d) (ds_high d) p) in *.
      set (low := if bit then (split + 1) mod 2 ^ 32 else ds_low d) in *.
      set (high := if bit then ds_high d else split) in *.
      destruct (Z.shiftr (Z.lxor low high) 16 =? 0).
      * destruct (slots_of _ l) as [[[b' a0'] a1'] sl'] eqn:Er. injection E as <- <- <- <-.
        erewrite IH; [| |exact Er].
        2:{ unfold ds_wf; cbn [ds_cws ds_bw_pos ds_ac_pos0 ds_ac_pos1].
            rewrite app_length, set_word_length; cbn [length]. repeat split; lia. }
        unfold upd3; cbn [ds_cws ds_bw_pos ds_ac_pos0 ds_ac_pos1].
        rewrite map_app, set_word_slot by lia. cbn [map].
        rewrite (app_cons_assoc _ (SW a1') sl'). f_equal.
        rewrite upd_app_l by (rewrite upd_length, map_length; lia).
        rewrite upd_app_l by (rewrite !upd_length, map_length; lia).
        match goal with |- upd (?L ++ [?x]) _ _ = _ =>
          replace (length (ds_cws d)) with (length L) by (rewrite !upd_length, map_length; reflexivity) end.
        rewrite upd_app_last. f_equal.
        rewrite (upd_comm _ (ds_ac_pos0 d) (ds_bw_pos d)) by lia. reflexivity.
      * erewrite IH; [reflexivity| |exact E].
        repeat split; assumption.
    + unfold add_code. destruct (slots_of (est_of d) l) as [[[b' a0'] a1'] sl'] eqn:Er. injection E as <- <- <- <-.
      erewrite IH; [| |exact Er].
      2:{ unfold ds_wf; cbn [ds_cws ds_bw_pos ds_ac_pos0 ds_ac_pos1].
          rewrite app_length; cbn [length]. repeat split; lia. }
      unfold upd3; cbn [ds_cws ds_bw_pos ds_ac_pos0 ds_ac_pos1].
      rewrite map_app. cbn [map].
      rewrite !upd_app_l by (rewrite ?upd_length, map_length; lia).
      rewrite <- app_assoc. reflexivity.
    + unfold add_bits. cbn [est_of e_low e_high e_bv e_bp] in E.
      set (val := Z.lor (ds_bw_val d) (Z.shiftl v (ds_bw_bitpos d)) mod 2 ^ 32) in *.
      destruct (16 <? ds_bw_bitpos d + Z.of_nat n).
      * destruct (slots_of _ l) as [[[b' a0'] a1'] sl'] eqn:Er. injection E as <- <- <- <-.
        erewrite IH; [| |exact Er].
        2:{ unfold ds_wf; cbn [ds_cws ds_bw_pos ds_ac_pos0 ds_ac_pos1].
            rewrite app_length, upd_length; cbn [length]. repeat split; lia. }
        unfold upd3; cbn [ds_cws ds_bw_pos ds_ac_pos0 ds_ac_pos1].
        rewrite map_app, map_upd. cbn [map].
        rewrite (app_cons_assoc _ (SW b') sl'). f_equal.
        match goal with |- upd (upd (upd (?L ++ [?x]) _ _) _ _) _ _ = _ =>
          replace (length (ds_cws d)) with (length L) by (rewrite !upd_length, map_length; reflexivity) end.
        rewrite upd_app_last.
        rewrite upd_app_l by (rewrite upd_length, map_length; lia).
        rewrite upd_app_l by (rewrite !upd_length, map_length; lia).
        reflexivity.
      * erewrite IH; [reflexivity| |exact E].
        repeat split; assumption.
Qed.

Lemma encode_items_slots l b a0 a1 sl s ws :
  slots_of (mkE 0 (2 ^ 32 - 1) 0 0) l = (b, a0, a1, sl) ->
  ans_slots (SW b :: SW a0 :: SW a1 :: sl) = (s, ws) ->
  encode_items l = (s / 2 ^ 16) mod 2 ^ 16 :: s mod 2 ^ 16 :: ws.
Proof.
  intros E Ea. unfold encode_items, encode_code_words.
  pose proof (add_items_slots l ds_init b a0 a1 sl) as H.
  change (est_of ds_init) with (mkE 0 (2 ^ 32 - 1) 0 0) in H.
  specialize (H ltac:(unfold ds_wf, ds_init; cbn; repeat split; lia) E).
  change (upd3 (map cwslot (ds_cws ds_init)) ds_init b a0 a1) with [SW b; SW a0; SW a1] in H.
  cbn [app] in H.
  change (flush_arith (fold_left add_item l ds_init) (flush_bit_writer (fold_left add_item l ds_init)))
    with (flushed (fold_left add_item l ds_init)).
  pose proof (ans_pass_slots (flushed (fold_left add_item l ds_init))) as Hp.
  destruct (ans_pass _) as [s' cws']. rewrite H, Ea in Hp. injection Hp as -> ->.
  rewrite shr16. reflexivity.
Qed.

Lemma est_init_ok : est_ok (mkE 0 (2 ^ 32 - 1) 0 0).
Proof. unfold est_ok; cbn; lia. Qed.

Lemma d_init_match l : items_ok l ->
  dmatch (mkE 0 (2 ^ 32 - 1) 0 0) l (d_init (mkWS (encode_items l) false)).
Proof.
  intros Hl. destruct (slots_of (mkE 0 (2 ^ 32 - 1) 0 0) l) as [[[b a0] a1] sl] eqn:E.
  destruct (slots_of_inv _ _ _ _ _ _ est_init_ok Hl E) as (I1 & _ & I3 & I4 & _).
  destruct (ans_slots sl) as [s ws] eqn:Es.
  assert (Ea : ans_slots (SW b :: SW a0 :: SW a1 :: sl) = (s, b mod 2 ^ 16 :: a0 mod 2 ^ 16 :: a1 mod 2 ^ 16 :: ws)).
  { cbn [ans_slots]. rewrite Es. reflexivity. }
  rewrite (encode_items_slots _ _ _ _ _ _ _ E Ea).
  pose proof (ans_slots_range _ _ _ (slots_of_ok _ _ _ _ _ _ Hl E) Es) as Hs.
  exists b, a0, a1, sl, s, ws. split; [exact E|]. split; [exact Es|].
  unfold d_init. cbn [next_word ws_words ws_error e_low e_high e_bp].
  rewrite !(Z.mod_small b), !(Z.mod_small a0), !(Z.mod_small a1) by lia.
  rewrite !shl16_or by (try lia; apply Z.mod_pos_bound; lia).
  f_equal.
  - rewrite Z.mod_mod by lia. rewrite (Z.mod_small (s / 2 ^ 16)) by dlia.
    pose proof (Z.div_mod s (2 ^ 16) ltac:(lia)). lia.
  - rewrite Z.mod_small by lia. reflexivity.
Qed.

Lemma dmatch_end e d : est_ok e -> dmatch e [] d ->
  d_finalize d = true /\ ws_error (d_src d) = false /\ ws_words (d_src d) = [].
Proof.
  intros He (b & a0 & a1 & sl & s & ws & E & Ea & ->).
  cbn [slots_of] in E. injection E as <- <- <- <-. cbn [ans_slots] in Ea. injection Ea as <- <-.
  cbn [d_src ws_error ws_words]. split; [|auto].
  unfold d_finalize. cbn [d_ans d_val d_bitpos]. rewrite Z.eqb_refl. cbn [andb].
  destruct He as (_ & _ & H3 & H4).
  rewrite land_65535, Z.shiftr_div_pow2 by lia.
  assert (e_bv e < 2 ^ 16) by (eapply Z.lt_le_trans; [apply H4|]; apply Z.pow_le_mono_r; lia).
  rewrite Z.mod_small by lia. rewrite Z.div_small by lia. reflexivity.
Qed.

Lemma entropy_roundtrip {A} (p : eprog A) l a : items_ok l -> eaccept p l = Some (a, []) ->
  edecode p (encode_items l) = Some a.
Proof.
  intros Hl Ha. unfold edecode.
  destruct (erun_simulates p _ _ _ _ _ est_init_ok Hl (d_init_match l Hl) Ha)
    as (e' & d' & Hr & He' & _ & Hd').
  rewrite Hr. destruct (dmatch_end _ _ He' Hd') as (F1 & F2 & F3).
  rewrite F1, F2, F3. reflexivity.
Qed.

(** Words are 16-bit and the byte serialisation is invertible. *)
Lemma ans_slots_words sl s ws : ans_slots sl = (s, ws) -> Forall (fun w => 0 <= w < 2 ^ 16) ws.
Proof.
  revert s ws; induction sl as [|x sl IH]; intros s ws E; cbn [ans_slots] in E.
  - injection E as <- <-. constructor.
  - destruct x as [v|c x]; destruct (ans_slots sl) as [s0 ws0]; specialize (IH _ _ eq_refl).
    + injection E as <- <-. constructor; [apply Z.mod_pos_bound; lia|exact IH].
    + destruct (ans_put _ _ _) as [[s1 bits] nb]. injection E as <- <-.
      destruct (nb =? 0); [exact IH|]. constructor; [apply Z.mod_pos_bound; lia|exact IH].
Qed.

Lemma encode_items_words l : Forall (fun w => 0 <= w < 2 ^ 16) (encode_items l).
Proof.
  destruct (slots_of (mkE 0 (2 ^ 32 - 1) 0 0) l) as [[[b a0] a1] sl] eqn:E.
  destruct (ans_slots (SW b :: SW a0 :: SW a1 :: sl)) as [s ws] eqn:Ea.
  rewrite (encode_items_slots _ _ _ _ _ _ _ E Ea).
  constructor; [apply Z.mod_pos_bound; lia|]. constructor; [apply Z.mod_pos_bound; lia|].
  eapply ans_slots_words; exact Ea.
Qed.

Lemma words_bytes_roundtrip ws : Forall (fun w => 0 <= w < 2 ^ 16) ws ->
  bytes_to_words (words_to_bytes ws) = ws /\ bytes (words_to_bytes ws) /\
  length (words_to_bytes ws) = (2 * length ws)%nat.
Proof.
  induction 1 as [|w r Hw Hr IH]; cbn [words_to_bytes bytes_to_words]; [repeat split; constructor|].
  destruct IH as (IH1 & IH2 & IH3). rewrite IH1. repeat split.
  - f_equal. dlia.
  - repeat (apply bytes_cons; split); try (apply Z.mod_pos_bound; lia). exact IH2.
  - cbn [length]. lia.
Qed.

(** The coding interval stays non-empty and the bit accumulator small. *)
Lemma add_item_est_ok d it : est_ok (est_of d) -> item_ok it -> est_ok (est_of (add_item d it)).
Proof.
  intros He Hit. destruct it as [p bit|c s|n v]; cbn [add_item item_ok] in *.
  - pose proof (bit_ok (est_of d) p bit He Hit) as [Ha Hc].
    unfold ar_low, ar_high in Ha, Hc. cbn [est_of e_low e_high e_bv e_bp] in Ha, Hc.
    unfold add_bit.
    set (split := arith_split (ds_low d) (ds_high d) p) in *.
    set (low := if bit then (split + 1) mod 2 ^ 32 else ds_low d) in *.
    set (high := if bit then ds_high d else split) in *.
    rewrite xor_shift_zero.
    destruct (low / 2 ^ 16 =? high / 2 ^ 16); unfold est_of; cbn [ds_low ds_high ds_bw_val ds_bw_bitpos].
    + apply Ha; reflexivity.
    + apply Hc; reflexivity.
  - exact He.
  - destruct Hit as [Hn Hv]. pose proof (bits_ok (est_of d) n v He Hn Hv) as [Ha Hc].
    cbn [est_of e_low e_high e_bv e_bp] in Ha, Hc. unfold add_bits.
    destruct (16 <? ds_bw_bitpos d + Z.of_nat n) eqn:E; unfold est_of; cbn [ds_low ds_high ds_bw_val ds_bw_bitpos].
    + apply Ha. lia.
    + apply Hc. lia.
Qed.

Lemma run_est_ok l : forall d, est_ok (est_of d) -> items_ok l -> est_ok (est_of (fold_left add_item l d)).
Proof.
  induction l as [|it l IH]; intros d He Hl; cbn [fold_left]; [exact He|].
  inversion Hl; subst. apply IH; [|assumption]. apply add_item_est_ok; assumption.
Qed.

Lemma interval_nonempty l : items_ok l ->
  let d := fold_left add_item l ds_init in 0 <= ds_low d < ds_high d /\ ds_high d < 2 ^ 32.
Proof.
  intros Hl. pose proof (run_est_ok l ds_init est_init_ok Hl) as (H1 & H2 & _). split; assumption.
Qed.

(** The ANS state never wraps. *)
Lemma ans_put_nowrap S f st : 2 ^ 16 <= S < 2 ^ 32 -> 0 < f -> 0 <= st -> st + f <= 1024 ->
  let renorm := f * 2 ^ 22 <=? S in
  let T := if renorm then S / 2 ^ 16 else S in
  ans_put S f st = (T / f * 1024 + T mod f + st, if renorm then S mod 2 ^ 16 else 0, if renorm then 16 else 0)
  /\ 2 ^ 16 <= T / f * 1024 + T mod f + st < 2 ^ 32.
Proof.
  intros HS Hf Hst Hsf. cbv zeta.
  destruct (ans_put S f st) as [[S' bits] nb] eqn:E.
  pose proof (ans_put_spec S f st S' bits nb HS Hf Hst Hsf E) as (R1 & _).
  assert (Er : (f * 2 ^ 22 <=? S) = (f <=? Z.shiftr S 22)).
  { rewrite Z.shiftr_div_pow2 by lia. apply eq_true_iff_eq. rewrite !Z.leb_le.
    split; intros H; [apply Z.div_le_lower_bound; lia|].
    pose proof (Z.mul_div_le S (2 ^ 22) ltac:(lia)). nia. }
  rewrite Er. unfold ans_put in E.
  destruct (f <=? Z.shiftr S 22) eqn:Ef.
  - rewrite shr16, land_65535 in E.
    assert (HT : 0 <= S / 2 ^ 16 < 2 ^ 16) by dlia.
    assert (Hq2 : S / 2 ^ 16 / f <= S / 2 ^ 16) by (apply Z.div_le_upper_bound; nia).
    assert (Hq1 : 0 <= S / 2 ^ 16 / f) by (apply Z.div_pos; lia).
    pose proof (Z.mod_pos_bound (S / 2 ^ 16) f Hf) as Hm.
    rewrite Z.shiftl_mul_pow2 in E by lia. change (2 ^ 10) with 1024 in E.
    rewrite (Z.mod_small (_ * 1024)) in E by lia. rewrite (Z.mod_small (_ + _ + st)) in E by lia.
    injection E as <- <- <-. split; [reflexivity|exact R1].
  - apply Z.leb_gt in Ef. rewrite Z.shiftr_div_pow2 in Ef by lia.
    assert (HS2 : S < 2 ^ 22 * f).
    { pose proof (Z.div_mod S (2 ^ 22) ltac:(lia)). pose proof (Z.mod_pos_bound S (2 ^ 22) ltac:(lia)). nia. }
    assert (Hq2 : S / f < 2 ^ 22) by (apply Z.div_lt_upper_bound; lia).
    assert (Hq1 : 0 <= S / f) by (apply Z.div_pos; lia).
    pose proof (Z.mod_pos_bound S f Hf) as Hm.
    rewrite Z.shiftl_mul_pow2 in E by lia. change (2 ^ 10) with 1024 in E.
    rewrite (Z.mod_small (_ * 1024)) in E by lia. rewrite (Z.mod_small (_ + _ + st)) in E by lia.
    injection E as <- <- <-. split; [reflexivity|exact R1].
Qed.
