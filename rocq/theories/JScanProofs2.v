(** First scans: what the reader takes in for a block is what the writer emits for it. *)
From Verif Require Import Base JpegModel LehmerModel CoefModel JBitModel JWriteProofs JReadProofs
  JHuffModel JHuffProofs JHuffPair JScanModel JScanProofs1.
From Coq Require Import ZifyBool ZifyNat.

(** [lia] without the hypotheses it would have to branch on. *)
Ltac slia :=
  repeat match goal with
  | H : ?A -> ?B |- _ => clear H
  | H : forall _, _ |- _ => clear H
  | H : _ \/ _ |- _ => clear H
  end; lia.

(** * Calls that leave the pending run alone *)

Definition wput (st st' : wcs) (B : list bool) : Prop :=
  wadv st st' B /\ wc_eob st' = wc_eob st /\ wc_tab st' = wc_tab st /\ wc_rb st' = wc_rb st /\ wc_rbn st' = wc_rbn st.

Lemma wput_refl st : wput st st [].
Proof. split; [apply wadv_refl|auto]. Qed.

Lemma wput_trans a b c B1 B2 : wput a b B1 -> wput b c B2 -> wput a c (B1 ++ B2).
Proof.
  intros (A1 & E1 & E2 & E3 & E4) (A2 & F1 & F2 & F3 & F4). split; [eapply wadv_trans; eauto|].
  split; [congruence|]. split; [congruence|]. split; congruence.
Qed.

Lemma wput_clean st st' B : wput st st' B -> clean st -> clean st'.
Proof. intros (_ & E1 & _ & E3 & E4) (C1 & C2 & C3). split; [congruence|]. split; congruence. Qed.

Lemma put_put n v st : 0 < n <= 16 -> 0 <= v < 2 ^ n -> wput st (put (WBitsOp n v) st) (mbits (Z.to_nat n) v).
Proof. intros Hn Hv. split; [apply put_adv; assumption|]. cbn [put wc_eob wc_tab wc_rb wc_rbn]. auto. Qed.

Lemma put_sym_put tab v st : sym_ok tab v -> exists st', put_sym tab v st = JOk st' /\ wput st st' (code_of tab v).
Proof.
  intros S. destruct (put_sym_ok tab v st S) as (o & E & A). exists (put o st). split; [exact E|]. split; [exact A|].
  cbn [put wc_eob wc_tab wc_rb wc_rbn]. auto.
Qed.

Definition zrls (tab : codetab) (z : Z) : list bool := concat (repeat (code_of tab 240) (Z.to_nat z)).

Lemma zrls_0 tab : zrls tab 0 = [].
Proof. reflexivity. Qed.

Lemma zrls_S tab z : 0 <= z -> zrls tab (z + 1) = zrls tab z ++ code_of tab 240.
Proof.
  intros H. unfold zrls. replace (Z.to_nat (z + 1)) with (Z.to_nat z + 1)%nat by lia.
  rewrite repeat_app, concat_app. cbn [repeat concat]. rewrite app_nil_r. reflexivity.
Qed.

Lemma zrls_S' tab z : 0 <= z -> zrls tab (z + 1) = code_of tab 240 ++ zrls tab z.
Proof. intros H. unfold zrls. replace (Z.to_nat (z + 1)) with (S (Z.to_nat z)) by lia. reflexivity. Qed.

Lemma put_zrl_ok tab : forall fuel z j st, (0 < z -> sym_ok tab 240) -> 0 <= z < Z.of_nat fuel -> 0 <= j < 16 ->
  exists st', put_zrl fuel tab (16 * z + j) st = JOk (j, st') /\ wput st st' (zrls tab z).
Proof.
  induction fuel as [|f IH]; intros z j st S Hz Hj; [lia|]. cbn [put_zrl].
  destruct (Z.ltb_spec 15 (16 * z + j)) as [H|H].
  - assert (Hz1 : 0 < z) by lia. destruct (put_sym_put tab 240 st (S Hz1)) as (st1 & E1 & A1). rewrite E1. cbn [jbind].
    replace (16 * z + j - 16) with (16 * (z - 1) + j) by lia.
    destruct (IH (z - 1) j st1) as (st2 & E2 & A2); [intros; apply S; lia|lia|lia|].
    exists st2. split; [exact E2|]. replace z with (z - 1 + 1) by lia. rewrite zrls_S' by lia. eapply wput_trans; eauto.
  - exists st. replace z with 0 by lia. split; [do 2 f_equal; lia|]. apply wput_refl.
Qed.

Lemma put_extra_ok tab : forall n st, (0 < n -> sym_ok tab 240) -> 0 <= n ->
  exists st', put_extra (Z.to_nat n) tab st = JOk st' /\ wput st st' (zrls tab n).
Proof.
  intros n st S Hn. assert (X : forall m st, (0 < Z.of_nat m -> sym_ok tab 240) -> exists st', put_extra m tab st = JOk st' /\ wput st st' (zrls tab (Z.of_nat m))).
  { clear. induction m as [|m IH]; intros st S; [exists st; split; [reflexivity|apply wput_refl]|].
    cbn [put_extra]. destruct (put_sym_put tab 240 st (S ltac:(lia))) as (st1 & E1 & A1). rewrite E1. cbn [jbind].
    destruct (IH st1) as (st2 & E2 & A2); [intros; apply S; lia|]. exists st2. split; [exact E2|].
    replace (Z.of_nat (Datatypes.S m)) with (Z.of_nat m + 1) by lia. rewrite zrls_S' by lia. eapply wput_trans; eauto. }
  destruct (X (Z.to_nat n) st) as (st' & E & A); [intros; apply S; lia|]. rewrite Z2Nat.id in A by lia. exists st'. auto.
Qed.

Lemma split_symbol v : 0 <= v < 256 -> v = Z.shiftl (Z.shiftr v 4) 4 + Z.land v 15 /\ 0 <= Z.shiftr v 4 < 16 /\ 0 <= Z.land v 15 < 16.
Proof.
  intros H. rewrite Z.shiftl_mul_pow2, Z.shiftr_div_pow2 by lia. change 15 with (2 ^ 4 - 1). rewrite land_mask by lia. change (2 ^ 4) with 16. dlia.
Qed.

Lemma put_coef_ok tab z rr sz bits st : 1 <= sz <= 15 -> 0 <= rr < 16 -> 0 <= z < 5 -> (0 < z -> sym_ok tab 240) ->
  0 <= bits < 2 ^ sz -> sym_ok tab (Z.shiftl rr 4 + sz) ->
  let v := huff_extend bits sz in
  exists st', put_coef tab (v <? 0) (Z.abs v) (16 * z + rr) st = JOk st'
    /\ wput st st' (zrls tab z ++ code_of tab (Z.shiftl rr 4 + sz) ++ mbits (Z.to_nat sz) bits).
Proof.
  intros Hs Hr Hz S Hb SY v. destruct (huff_extend_ok bits sz ltac:(lia) Hb) as (N0 & RA & EL & EB). fold v in N0, RA, EL, EB.
  unfold put_coef. destruct (put_zrl_ok tab 5 z rr st S ltac:(lia) Hr) as (st1 & E1 & A1). rewrite E1. cbn [jbind].
  unfold log2nz. destruct (Z.leb_spec (Z.abs v) 0); [lia|]. cbn [jbind]. rewrite EL.
  destruct (put_sym_put tab _ st1 SY) as (st2 & E2 & A2). rewrite E2. cbn [jbind].
  eexists. split; [reflexivity|]. rewrite EB. eapply wput_trans; [exact A1|]. eapply wput_trans; [exact A2|]. apply put_put; lia.
Qed.

(** * Quotients seen by the writer *)

Lemma quot_abs_shift t al : 0 <= al -> Z.shiftr (Z.abs t) al = Z.abs (Z.quot t (2 ^ al)).
Proof.
  intros H. pose proof (Z.pow_pos_nonneg 2 al ltac:(lia) H) as P. rewrite Z.shiftr_div_pow2 by exact H.
  rewrite <- Z.quot_abs by lia. rewrite (Z.abs_eq (2 ^ al)) by lia. symmetry. apply Z.quot_div_nonneg; lia.
Qed.

Lemma quot_sign t m : 0 < m -> Z.quot t m <> 0 -> (t <? 0) = (Z.quot t m <? 0).
Proof.
  intros H N. destruct (Z.ltb_spec t 0) as [Ht|Ht].
  - destruct (Z.ltb_spec (Z.quot t m) 0) as [|Hq]; [reflexivity|]. exfalso.
    pose proof (Z.quot_pos (- t) m ltac:(lia) H). rewrite Z.quot_opp_l in H0 by lia. lia.
  - destruct (Z.ltb_spec (Z.quot t m) 0) as [Hq|]; [|reflexivity]. exfalso. pose proof (Z.quot_pos t m Ht H). lia.
Qed.

Lemma neg_abs t : -32767 <= t <= 32767 -> (if t <? 0 then to_i16 (- t) else t) = Z.abs t.
Proof. intros H. destruct (Z.ltb_spec t 0); [rewrite to_i16_small by lia; lia|lia]. Qed.

(** One step of the writer's loop in terms of the quotient. *)
Lemma prog_ac_step f b tab se al k r st : length b = 64%nat -> 0 <= k < 64 -> k <= se -> 0 <= al -> Z.abs (zat b k) <= 32767 ->
  let q := Z.quot (zat b k) (2 ^ al) in
  prog_ac (S f) b tab se al k r st =
    if q =? 0 then prog_ac f b tab se al (k + 1) (r + 1) st
    else let* st := flush st in let* st := put_coef tab (q <? 0) (Z.abs q) r st in prog_ac f b tab se al (k + 1) 0 st.
Proof.
  intros L Hk Hse Ha Hb. cbv zeta. cbn [prog_ac]. destruct (Z.ltb_spec se k); [lia|].
  rewrite zz_get_ok by assumption. cbn [jbind]. pose proof (Z.pow_pos_nonneg 2 al ltac:(lia) Ha) as P.
  destruct (Z.eqb_spec (zat b k) 0) as [E|E].
  - rewrite E, Z.quot_0_l by lia. reflexivity.
  - rewrite neg_abs by lia. rewrite quot_abs_shift by exact Ha.
    destruct (Z.eqb_spec (Z.quot (zat b k) (2 ^ al)) 0) as [Q|Q].
    + rewrite Q. reflexivity.
    + destruct (Z.eqb_spec (Z.abs (Z.quot (zat b k) (2 ^ al))) 0); [lia|]. rewrite (quot_sign _ _ P Q). reflexivity.
Qed.

Lemma prog_ac_skip b tab se al st : length b = 64%nat -> se <= 63 -> 0 <= al -> forall n f k r,
  0 <= k -> k + Z.of_nat n <= se + 1 ->
  (forall j, k <= j < k + Z.of_nat n -> Z.quot (zat b j) (2 ^ al) = 0 /\ Z.abs (zat b j) <= 32767) ->
  prog_ac (n + f) b tab se al k r st = prog_ac f b tab se al (k + Z.of_nat n) (r + Z.of_nat n) st.
Proof.
  intros L Hse Ha. induction n as [|n IH]; intros f k r Hk Hn HZ.
  - cbn [Nat.add]. f_equal; lia.
  - destruct (HZ k ltac:(lia)) as [Q B]. cbn [Nat.add]. rewrite prog_ac_step by (lia || assumption). cbv zeta. rewrite Q. cbn [Z.eqb].
    rewrite IH; [replace (k + 1 + Z.of_nat n) with (k + Z.of_nat (S n)) by lia; replace (r + 1 + Z.of_nat n) with (r + Z.of_nat (S n)) by lia; reflexivity|lia|lia|]. intros j Hj. apply HZ. lia.
Qed.

Lemma prog_ac_end f b tab se al k r st : se < k -> prog_ac (S f) b tab se al k r st = JOk (r, st).
Proof. intros H. cbn [prog_ac]. destruct (Z.ltb_spec se k); [reflexivity|lia]. Qed.

(** * The AC loop *)

Definition ac_level (al c : Z) : Prop := (2 ^ al | c) /\ Z.abs c <= 2047.

Lemma ac_level_0 al : ac_level al 0.
Proof. split; [apply Z.divide_0_r|lia]. Qed.

Lemma bri_app data p0 U V W s : bri data p0 ((U ++ V) ++ W) s -> bri data p0 (U ++ V ++ W) s.
Proof. rewrite app_assoc. auto. Qed.

Definition ends (act : codetab) (allowed : bool) (ss se kl nz eob0 eob1 : Z) (reset0 reset1 : bool) (eb : list bool) : Prop :=
  (se < kl + 16 * nz /\ eb = [] /\ eob1 = eob0 /\ reset1 = reset0)
  \/ (kl + 16 * nz <= se /\ 1 <= eob1 <= 32767 /\ sym_ok act (eob_sym eob1) /\ eb = eob_bits act eob1
      /\ (allowed = false -> eob1 = 1)
      /\ reset1 = if allowed && (kl + 16 * nz =? ss) && (eob0 =? 0) then true else reset0).

Lemma read_eob_ok data p0 act allowed ats rr s r U : bytes data -> 0 <= rr < 15 -> sym_ok act (Z.shiftl rr 4) ->
  bri data p0 (U ++ code_of act (Z.shiftl rr 4)) s ->
  match read_eob data allowed ats rr s r with
  | JUB => False
  | JErr => True
  | JOk r' => 1 <= rb_eob r' <= 32767 /\ sym_ok act (eob_sym (rb_eob r')) /\ bri data p0 (U ++ eob_bits act (rb_eob r')) (rb_s r')
     /\ (allowed = false -> rb_eob r' = 1) /\ rb_reset r' = (if allowed && ats && (rb_eob r =? 0) then true else rb_reset r)
     /\ rb_nzr r' = rb_nzr r /\ rb_c r' = rb_c r
  end.
Proof.
  intros Y Hr S I. unfold read_eob. destruct (Z.ltb_spec 0 rr) as [H|H].
  - destruct allowed; [|exact Logic.I]. destruct (read_ok data p0 _ s rr Y I ltac:(lia)) as (x & s' & R & Rx & I'). rewrite R. cbn [jbind rb_eob rb_s rb_reset rb_nzr rb_c].
    assert (EL : Z.log2 (2 ^ rr + x) = rr) by (apply Z.log2_unique; [lia|rewrite Z.pow_succ_r by lia; lia]).
    assert (P14 : 2 ^ rr <= 2 ^ 14) by (apply Z.pow_le_mono_r; lia). change (2 ^ 14) with 16384 in P14.
    pose proof (Z.pow_pos_nonneg 2 rr ltac:(lia) ltac:(lia)).
    split; [lia|]. unfold eob_sym, eob_bits, eob_sym. rewrite EL. split; [exact S|].
    replace (2 ^ rr + x - 2 ^ rr) with x by lia. rewrite app_assoc. split; [exact I'|]. split; [discriminate|]. auto.
  - replace rr with 0 in * by lia. cbn [rb_eob rb_s rb_reset rb_nzr rb_c]. split; [lia|].
    unfold eob_sym, eob_bits, eob_sym. change (Z.log2 1) with 0. split; [exact S|]. split; [|auto].
    change (mbits (Z.to_nat 0) _) with (@nil bool). rewrite app_nil_r. exact I.
Qed.

Lemma dec_ac_ok data p0 lut act ss se al allowed : bytes data -> slot_ok lut act -> 1 <= ss -> se <= 63 -> 0 <= al <= 10 ->
  forall fuel k0 z r U,
  1 <= Z.of_nat fuel -> se + 2 <= k0 + 16 * z + Z.of_nat fuel ->
  ss <= k0 <= se + 1 -> 0 <= z -> rb_nzr r = z -> length (rb_c r) = 64%nat ->
  (forall j, k0 <= j <= se -> zat (rb_c r) j = 0) ->
  (0 < z -> sym_ok act 240) -> bri data p0 (U ++ zrls act z) (rb_s r) ->
  match dec_ac fuel data lut ss se al allowed (k0 + 16 * z) r with
  | JUB => False
  | JErr => True
  | JOk r' =>
      length (rb_c r') = 64%nat
      /\ (forall j, 0 <= j < 64 -> ~ (k0 <= j <= se) -> zat (rb_c r') j = zat (rb_c r) j)
      /\ (forall j, k0 <= j <= se -> ac_level al (zat (rb_c r') j))
      /\ 0 <= rb_nzr r' /\ (0 < rb_nzr r' -> sym_ok act 240)
      /\ exists kl X eb, k0 <= kl <= se + 1
         /\ (kl = k0 -> X = [] /\ z <= rb_nzr r')
         /\ bri data p0 (U ++ X ++ zrls act (rb_nzr r') ++ eb) (rb_s r')
         /\ ends act allowed ss se kl (rb_nzr r') (rb_eob r) (rb_eob r') (rb_reset r) (rb_reset r') eb
         /\ (kl <= se /\ z = 0 \/ kl <> k0 -> X ++ zrls act (rb_nzr r') ++ eb <> [])
         /\ forall bF st P stf fuel2, length bF = 64%nat ->
              (forall j, k0 <= j <= se -> Z.quot (zat bF j) (2 ^ al) = Z.quot (zat (rb_c r') j) (2 ^ al) /\ Z.abs (zat bF j) <= 32767) ->
              flush st = JOk stf -> clean stf -> wadv st stf P ->
              1 <= Z.of_nat fuel2 -> se + 2 <= k0 + Z.of_nat fuel2 ->
              exists st', prog_ac fuel2 bF act se al k0 0 st = JOk (se + 1 - kl, st')
                /\ (kl = k0 -> st' = st) /\ (kl <> k0 -> clean st' /\ wadv st st' (P ++ X))
  end.
Proof.
  intros Y SL Hss Hse Hal. induction fuel as [|f IH]; intros k0 z r U Hf1 Hf Hk Hz Hn L HZ S I; [lia|].
  assert (SKIP : forall bF st fuel2, length bF = 64%nat ->
     (forall j, k0 <= j <= se -> Z.quot (zat bF j) (2 ^ al) = Z.quot (zat (rb_c r) j) (2 ^ al) /\ Z.abs (zat bF j) <= 32767) ->
     1 <= Z.of_nat fuel2 -> se + 2 <= k0 + Z.of_nat fuel2 -> prog_ac fuel2 bF act se al k0 0 st = JOk (se + 1 - k0, st)).
  { intros bF st fuel2 LF HF H1 H2.
    replace fuel2 with (Z.to_nat (se + 1 - k0) + (Datatypes.S (fuel2 - Z.to_nat (se + 1 - k0) - 1)))%nat by slia.
    rewrite prog_ac_skip; [|assumption|lia|lia|lia|lia|].
    - rewrite prog_ac_end by slia. do 2 f_equal. lia.
    - intros j Hj. destruct (HF j ltac:(lia)) as [Q B]. split; [|exact B]. rewrite Q, HZ by slia. apply Z.quot_0_l.
      pose proof (Z.pow_pos_nonneg 2 al ltac:(lia) ltac:(lia)). lia. }
  cbn [dec_ac]. destruct (Z.ltb_spec se (k0 + 16 * z)) as [He|He].
  - split; [exact L|]. split; [auto|]. split; [intros j Hj; rewrite HZ by exact Hj; apply ac_level_0|]. rewrite Hn. split; [exact Hz|]. split; [exact S|].
    exists k0, [], []. split; [lia|]. split; [split; [reflexivity|lia]|]. split; [cbn [app]; rewrite app_nil_r; exact I|].
    split; [left; auto|]. split.
    + intros [[H1 H2]|H2]; lia.
    + intros bF st P stf fuel2 LF HF FL CL A H1 H2. exists st. split; [apply SKIP; assumption|]. split; [auto|congruence].
  - destruct (read_sym data p0 _ (rb_s r) lut act Y I SL) as (sr & s & R & Hsr & K). rewrite R. cbn [jbind].
    destruct (Z.leb_spec 256 sr) as [H256|H256]; [exact Logic.I|]. destruct (K H256) as [I1 S1]. clear K.
    destruct (split_symbol sr ltac:(lia)) as (ES & Hrr & Hsz). set (rr := Z.shiftr sr 4) in *. set (sz := Z.land sr 15) in *.
    destruct (Z.ltb_spec 0 sz) as [Hs0|Hs0].
    + destruct (Z.ltb_spec se (k0 + 16 * z + rr)) as [Ho|Ho]; [exact Logic.I|].
      destruct (Z.leb_spec 12 (sz + al)) as [Ho2|Ho2]; [exact Logic.I|].
      destruct (read_ok data p0 _ s sz Y I1 ltac:(lia)) as (bits & s2 & R2 & Rb & I2). rewrite R2. cbn [jbind].
      set (k1 := k0 + 16 * z + rr) in *. set (v := huff_extend bits sz).
      destruct (huff_extend_ok bits sz ltac:(lia) Rb) as (N0 & RA & EL & EB). fold v in N0, RA, EL, EB.
      pose proof (Z.pow_pos_nonneg 2 al ltac:(lia) ltac:(lia)) as PA.
      assert (VB : Z.abs (v * 2 ^ al) <= 2047).
      { rewrite Z.abs_mul, (Z.abs_eq (2 ^ al)) by slia. assert (P11 : 2 ^ sz * 2 ^ al <= 2 ^ 11) by (rewrite <- Z.pow_add_r by slia; apply Z.pow_le_mono_r; lia).
        change (2 ^ 11) with 2048 in P11. nia. }
      rewrite to_i16_small by slia. rewrite zz_set_ok by (lia || assumption). cbn [jbind].
      set (c1 := zup (rb_c r) k1 (v * 2 ^ al)). set (r1 := mkRB s2 (rb_eob r) (rb_reset r) 0 c1).
      specialize (IH (k1 + 1) 0 r1 (U ++ zrls act z ++ code_of act sr ++ mbits (Z.to_nat sz) bits) ltac:(lia) ltac:(lia) ltac:(lia) ltac:(lia) eq_refl).
      replace (k1 + 1 + 16 * 0) with (k1 + 1) in IH by slia.
      assert (IHp := IH ltac:(cbn [r1 rb_c c1]; unfold c1; rewrite zup_length; exact L)). clear IH.
      assert (Z1 : forall j, k1 + 1 <= j <= se -> zat (rb_c r1) j = 0).
      { intros j Hj. cbn [r1 rb_c]. unfold c1. rewrite zat_zup_other by slia. apply HZ. lia. }
      specialize (IHp Z1 ltac:(lia)).
      assert (I2' : bri data p0 ((U ++ zrls act z ++ code_of act sr ++ mbits (Z.to_nat sz) bits) ++ zrls act 0) (rb_s r1)).
      { rewrite zrls_0, app_nil_r. cbn [r1 rb_s]. rewrite !app_assoc. exact I2. }
      specialize (IHp I2'). destruct (dec_ac f data lut ss se al allowed (k1 + 1) r1) as [r'| |]; [|exact Logic.I|exact IHp].
      destruct IHp as (L' & Out & Lev & Hn' & S' & kl & X & eb & Hkl & HX & Ib & En & Ne & Wr).
      split; [exact L'|]. split.
      { intros j Hj HNj. rewrite Out by slia. cbn [r1 rb_c]. unfold c1. apply zat_zup_other; lia. }
      assert (Ek1 : zat (rb_c r') k1 = v * 2 ^ al).
      { rewrite Out by slia. cbn [r1 rb_c]. unfold c1. apply zat_zup_same; [exact L|lia]. }
      split.
      { intros j Hj. destruct (Z_lt_ge_dec k1 j) as [H|H]; [apply Lev; lia|].
        destruct (Z.eq_dec j k1) as [->|Nj].
        - rewrite Ek1. split; [exists v; reflexivity|exact VB].
        - rewrite Out by slia. cbn [r1 rb_c]. unfold c1. rewrite zat_zup_other by slia. rewrite HZ by slia. apply ac_level_0. }
      split; [exact Hn'|]. split; [exact S'|].
      exists kl, (zrls act z ++ code_of act sr ++ mbits (Z.to_nat sz) bits ++ X), eb.
      split; [lia|]. split; [lia|]. split; [rewrite <- !app_assoc in Ib; rewrite <- !app_assoc; exact Ib|]. split; [exact En|]. split.
      { intros _ E. apply app_eq_nil in E as [E _]. apply app_eq_nil in E as [_ E]. apply app_eq_nil in E as [E _]. exact (code_of_nonempty _ _ S1 E). }
      intros bF st P stf fuel2 LF HF FL CL A H1 H2.
      replace fuel2 with (Z.to_nat (k1 - k0) + (Datatypes.S (fuel2 - Z.to_nat (k1 - k0) - 1)))%nat by slia.
      rewrite prog_ac_skip; [|assumption|lia|lia|lia|lia|].
      2:{ intros j Hj. destruct (HF j ltac:(lia)) as [Q B]. split; [|exact B]. rewrite Q. rewrite Out by slia. cbn [r1 rb_c]. unfold c1. rewrite zat_zup_other by slia.
          rewrite HZ by slia. apply Z.quot_0_l. lia. }
      replace (k0 + Z.of_nat (Z.to_nat (k1 - k0))) with k1 by slia.
      destruct (HF k1 ltac:(lia)) as [Q B]. rewrite Ek1, Z.quot_mul in Q by slia.
      rewrite prog_ac_step by (lia || assumption). cbv zeta. rewrite Q. destruct (Z.eqb_spec v 0); [congruence|].
      rewrite FL. cbn [jbind]. replace (0 + Z.of_nat (Z.to_nat (k1 - k0))) with (16 * z + rr) by slia.
      rewrite ES in S1.
      destruct (put_coef_ok act z rr sz bits stf ltac:(lia) Hrr ltac:(lia) S Rb S1) as (st2 & E2 & A2). fold v in E2.
      rewrite E2. cbn [jbind]. rewrite <- ES in A2.
      pose proof (wput_clean _ _ _ A2 CL) as CL2. destruct A2 as [A2 _].
      destruct (Wr bF st2 [] (mkWC (wc_ops st2) 0 (wc_tab st2) [] 0) (fuel2 - Z.to_nat (k1 - k0) - 1)%nat) as (st' & E' & K1 & K2).
      { exact LF. } { intros j Hj. apply HF. lia. } { apply flush_clean. exact CL2. } { repeat split. } { eapply wadv_same; [|apply wadv_refl]. reflexivity. } { lia. } { lia. }
      exists st'. split; [exact E'|]. split; [lia|]. intros _.
      assert (AA : wadv st st2 (P ++ zrls act z ++ code_of act sr ++ mbits (Z.to_nat sz) bits)) by (eapply wadv_trans; eauto).
      destruct (Z.eq_dec kl (k1 + 1)) as [EK|EK].
      * rewrite (K1 EK). destruct (HX EK) as [EX _]. rewrite EX, app_nil_r. split; [exact CL2|exact AA].
      * destruct (K2 EK) as [C' A']. split; [exact C'|]. pose proof (wadv_trans _ _ _ _ _ AA A') as AB. cbn [app] in AB. rewrite <- !app_assoc in AB. exact AB.
    + assert (Es : sz = 0) by slia. rewrite Es, Z.add_0_r in ES.
      destruct (Z.eqb_spec rr 15) as [H15|H15].
      * rewrite H15 in ES. change (Z.shiftl 15 4) with 240 in ES. rewrite ES in I1, S1.
        replace (k0 + 16 * z + 16) with (k0 + 16 * (z + 1)) by slia.
        specialize (IH k0 (z + 1) (mkRB s (rb_eob r) (rb_reset r) (rb_nzr r + 1) (rb_c r)) U ltac:(lia) ltac:(lia) Hk ltac:(lia) ltac:(cbn [rb_nzr]; lia) L HZ (fun _ => S1)).
        rewrite zrls_S, app_assoc in IH by exact Hz. specialize (IH I1).
        destruct (dec_ac f data lut ss se al allowed (k0 + 16 * (z + 1)) _) as [r'| |]; [|exact Logic.I|exact IH].
        destruct IH as (L' & Out & Lev & Hn' & S' & kl & X & eb & Hkl & HX & Ib & En & Ne & Wr). cbn [rb_c rb_eob rb_reset] in *.
        split; [exact L'|]. split; [exact Out|]. split; [exact Lev|]. split; [exact Hn'|]. split; [exact S'|].
        exists kl, X, eb. split; [exact Hkl|]. split; [intros E; destruct (HX E); split; [assumption|lia]|]. split; [exact Ib|]. split; [exact En|]. split; [|exact Wr].
        intros [[H1 H2]|H2]; [|apply Ne; auto]. destruct (Z.eq_dec kl k0) as [H3|H3]; [|apply Ne; auto]. destruct (HX H3) as [EX HZn]. rewrite EX. cbn [app]. intros E. apply app_eq_nil in E as [E _].
        replace (rb_nzr r') with (rb_nzr r' - 1 + 1) in E by slia. rewrite zrls_S in E by slia. apply app_eq_nil in E as [_ E]. exact (code_of_nonempty _ _ S1 E).
      * rewrite ES in I1, S1.
        pose proof (read_eob_ok data p0 act allowed (k0 + 16 * z =? ss) rr s r _ Y ltac:(lia) S1 I1) as RE.
        destruct (read_eob data allowed (k0 + 16 * z =? ss) rr s r) as [r'| |]; [|exact Logic.I|exact RE].
        destruct RE as (He1 & SE & IE & HA & HR & HNn & HC).
        rewrite HC, HNn, Hn. split; [exact L|]. split; [auto|]. split; [intros j Hj; rewrite HZ by exact Hj; apply ac_level_0|]. split; [exact Hz|]. split; [exact S|].
        exists k0, [], (eob_bits act (rb_eob r')). split; [lia|]. split; [split; [reflexivity|lia]|]. split; [cbn [app]; rewrite app_assoc; exact IE|].
        split; [right; auto 10|]. split.
        { intros _ E. cbn [app] in E. apply app_eq_nil in E as [_ E]. unfold eob_bits in E. apply app_eq_nil in E as [E _]. exact (code_of_nonempty _ _ SE E). }
        intros bF st P stf fuel2 LF HF FL CL A H1 H2. exists st. split; [apply SKIP; assumption|]. split; [auto|congruence].
Qed.

(** * The DC coefficient *)

Definition i16 (v : Z) : Prop := -32768 <= v <= 32767.

Lemma to_i16_range v : i16 (to_i16 v).
Proof. unfold i16, to_i16. pose proof (Z.mod_pos_bound (v + 32768) 65536 ltac:(lia)). lia. Qed.

Lemma to_i16_id v : i16 v -> to_i16 v = v.
Proof. unfold i16. intros H. apply to_i16_small. lia. Qed.

Lemma zat_0 b : zat b 0 = nth 0 b 0.
Proof. reflexivity. Qed.

Lemma put_dc_ok tab sz diff bits last st t : 0 <= sz <= 11 -> sym_ok tab sz ->
  (0 < sz -> 0 <= bits < 2 ^ sz /\ diff = huff_extend bits sz) -> (sz = 0 -> diff = 0) -> t = diff + last -> Z.abs diff <= 2047 ->
  exists st', put_dc tab t last st = JOk (t, st') /\ wput st st' (code_of tab sz ++ (if 0 <? sz then mbits (Z.to_nat sz) bits else [])).
Proof.
  intros Hs S HB H0 Et Hd. unfold put_dc. replace (t - last) with diff by slia. rewrite (to_i16_small diff) by slia.
  destruct (Z.ltb_spec 0 sz) as [P|P].
  - destruct (HB P) as [Rb Ed]. destruct (huff_extend_ok bits sz ltac:(lia) Rb) as (N0 & RA & EL & EB). rewrite <- Ed in N0, RA, EL, EB.
    destruct (put_sym_put tab sz st S) as (st1 & E1 & A1).
    destruct (Z.ltb_spec diff 0) as [D|D].
    + rewrite (to_i16_small (- diff)), (to_i16_small (diff - 1)) by slia. replace (- diff) with (Z.abs diff) by slia.
      destruct (Z.eqb_spec (Z.abs diff) 0); [lia|]. unfold log2nz. destruct (Z.leb_spec (Z.abs diff) 0); [lia|]. cbn [jbind].
      rewrite EL, E1. cbn [jbind]. destruct (Z.ltb_spec 0 sz); [|lia]. eexists. split; [reflexivity|]. eapply wput_trans; [exact A1|].
      replace (diff - 1) with (- Z.abs diff - 1) by slia. rewrite EB. apply put_put; lia.
    + rewrite (Z.abs_eq diff) in * by slia. destruct (Z.eqb_spec diff 0); [lia|]. unfold log2nz. destruct (Z.leb_spec diff 0); [lia|]. cbn [jbind].
      rewrite EL, E1. cbn [jbind]. destruct (Z.ltb_spec 0 sz); [|lia]. eexists. split; [reflexivity|]. eapply wput_trans; [exact A1|].
      rewrite EB. apply put_put; lia.
  - assert (sz = 0) by slia. rewrite (H0 H). cbn [Z.ltb Z.compare Z.eqb jbind]. subst sz.
    destruct (put_sym_put tab 0 st S) as (st1 & E1 & A1). change (0 <? 0) with false; cbv iota beta; change (0 =? 0) with true; cbn [jbind]; rewrite E1. cbn [jbind]. exists st1. split; [reflexivity|]. rewrite app_nil_r. exact A1.
Qed.

Lemma dec_dc_ok data p0 lut dct al last r U : bytes data -> slot_ok lut dct -> 0 <= al -> i16 last -> length (rb_c r) = 64%nat ->
  bri data p0 U (rb_s r) ->
  match dec_dc data lut al last r with
  | JUB => False
  | JErr => True
  | JOk (r', last') =>
      i16 last' /\ i16 (zat (rb_c r') 0) /\ zat (rb_c r') 0 = last' * 2 ^ al /\ length (rb_c r') = 64%nat
      /\ (forall j, 1 <= j < 64 -> zat (rb_c r') j = zat (rb_c r) j)
      /\ rb_eob r' = rb_eob r /\ rb_reset r' = rb_reset r /\ rb_nzr r' = rb_nzr r
      /\ exists X, X <> [] /\ bri data p0 (U ++ X) (rb_s r')
         /\ forall t st, t / 2 ^ al = zat (rb_c r') 0 / 2 ^ al ->
              exists st', put_dc dct (Z.shiftr t al) last st = JOk (last', st') /\ wput st st' X
  end.
Proof.
  intros Y SL Hal Hl L I. unfold dec_dc. destruct (read_sym data p0 _ (rb_s r) lut dct Y I SL) as (sz & s & R & Hsr & K). rewrite R. cbn [jbind].
  destruct (Z.leb_spec 12 sz) as [H12|H12]; [exact Logic.I|]. destruct (K ltac:(lia)) as [I1 S1]. clear K.
  pose proof (Z.pow_pos_nonneg 2 al ltac:(lia) Hal) as PA.
  assert (CORE : forall diff bits s2 X, X = code_of dct sz ++ (if 0 <? sz then mbits (Z.to_nat sz) bits else []) ->
     (0 < sz -> 0 <= bits < 2 ^ sz /\ diff = huff_extend bits sz) -> (sz = 0 -> diff = 0) -> Z.abs diff <= 2047 -> bri data p0 (U ++ X) s2 ->
     match
       (let coeff := diff + last in let dc := coeff * 2 ^ al in
        if negb (dc =? to_i16 dc) then JErr
        else let* c := aset (rb_c r) 0 dc in JOk (mkRB s2 (rb_eob r) (rb_reset r) (rb_nzr r) c, to_i16 coeff)) with
     | JUB => False
     | JErr => True
     | JOk (r', last') =>
      i16 last' /\ i16 (zat (rb_c r') 0) /\ zat (rb_c r') 0 = last' * 2 ^ al /\ length (rb_c r') = 64%nat
      /\ (forall j, 1 <= j < 64 -> zat (rb_c r') j = zat (rb_c r) j)
      /\ rb_eob r' = rb_eob r /\ rb_reset r' = rb_reset r /\ rb_nzr r' = rb_nzr r
      /\ exists X, X <> [] /\ bri data p0 (U ++ X) (rb_s r')
         /\ forall t st, t / 2 ^ al = zat (rb_c r') 0 / 2 ^ al ->
              exists st', put_dc dct (Z.shiftr t al) last st = JOk (last', st') /\ wput st st' X
     end).
  { intros diff bits s2 X EX HB H0 Hd I2. cbv zeta.
    destruct (Z.eqb_spec ((diff + last) * 2 ^ al) (to_i16 ((diff + last) * 2 ^ al))) as [E|E]; cbn [negb]; [|exact Logic.I].
    pose proof (to_i16_range ((diff + last) * 2 ^ al)) as RG. rewrite <- E in RG. unfold i16 in RG.
    assert (RC : i16 (diff + last)) by (unfold i16; nia).
    rewrite (to_i16_id _ RC). rewrite aset_0 by exact L. cbn [jbind rb_c rb_eob rb_reset rb_nzr rb_s].
    rewrite zat_zup_same by (lia || assumption).
    split; [exact RC|]. split; [exact RG|]. split; [reflexivity|]. split; [rewrite zup_length; exact L|].
    split; [intros j Hj; apply zat_zup_other; lia|]. split; [reflexivity|]. split; [reflexivity|]. split; [reflexivity|].
    exists X. split; [rewrite EX; intros Q; apply app_eq_nil in Q as [Q _]; exact (code_of_nonempty _ _ S1 Q)|]. split; [exact I2|].
    intros t st Et. rewrite Z.div_mul in Et by slia. rewrite Z.shiftr_div_pow2, Et by exact Hal. rewrite EX.
    apply (put_dc_ok dct sz diff bits last st (diff + last)); try assumption; lia. }
  destruct (Z.ltb_spec 0 sz) as [Hs0|Hs0].
  - destruct (read_ok data p0 _ s sz Y I1 ltac:(lia)) as (bits & s2 & R2 & Rb & I2). rewrite R2. cbn [jbind].
    destruct (huff_extend_ok bits sz ltac:(lia) Rb) as (N0 & RA & EL & EB).
    assert (P11 : 2 ^ sz <= 2 ^ 11) by (apply Z.pow_le_mono_r; lia). change (2 ^ 11) with 2048 in P11.
    apply (CORE _ bits s2 _ eq_refl); [auto|lia|lia|]. rewrite app_assoc. exact I2.
  - cbn [jbind]. apply (CORE 0 0 s _ eq_refl); [lia|auto|lia|]. rewrite app_nil_r. exact I1.
Qed.

(** * A block of a first scan *)

(** The final block [bF] agrees with the block [b] as seen at level [al]. *)
Definition view (ss se al : Z) (bF b : list Z) : Prop :=
  length bF = 64%nat /\ (ss = 0 -> zat bF 0 / 2 ^ al = zat b 0 / 2 ^ al)
  /\ forall j, Z.max 1 ss <= j <= se -> Z.quot (zat bF j) (2 ^ al) = Z.quot (zat b j) (2 ^ al) /\ Z.abs (zat bF j) <= 32767.

Definition first_written (dct act : codetab) (ss se al last last' : Z) (reset : bool) (nzr R R' : Z) (c' : list Z) (Y : list bool) : Prop :=
  forall bF st P, view ss se al bF c' -> pend st R P -> (ss = 0 -> clean st) ->
    exists st1 st' X P', (if reset then flush st else JOk st) = JOk st1
      /\ encode_prog bF dct act ss se al nzr last st1 = JOk (last', st')
      /\ wadv st st' X /\ pend st' R' P' /\ P ++ Y = X ++ P' /\ (ss = 0 -> clean st').

Lemma clean_flush st : clean st -> flush st = JOk st.
Proof. intros C. rewrite flush_clean by exact C. destruct st as [o e t rb n], C as (E1 & E2 & E3). cbn [wc_eob wc_rb wc_rbn wc_ops wc_tab] in *. subst. reflexivity. Qed.

Lemma wput_adv a b B : wput a b B -> wadv a b B.
Proof. intros [H _]. exact H. Qed.

(** The AC part, common to both kinds of bands: [s1] is the band start, at least 1. *)
Lemma ac_part data p0 lut act s1 se al allowed r U : bytes data -> slot_ok lut act -> 1 <= s1 <= se -> se <= 63 -> 0 <= al <= 10 ->
  length (rb_c r) = 64%nat -> (forall j, s1 <= j <= se -> zat (rb_c r) j = 0) -> rb_reset r = false -> rb_nzr r = 0 ->
  rb_eob r <= 0 -> bri data p0 U (rb_s r) ->
  match dec_ac 64 data lut s1 se al allowed s1 r with
  | JUB => False
  | JErr => True
  | JOk r' => length (rb_c r') = 64%nat
      /\ (forall j, 0 <= j < 64 -> ~ (s1 <= j <= se) -> zat (rb_c r') j = zat (rb_c r) j)
      /\ (forall j, s1 <= j <= se -> ac_level al (zat (rb_c r') j))
      /\ 0 <= rb_nzr r' /\ (allowed = false -> rb_eob r' <= 1 /\ rb_reset r' = false)
      /\ exists Y, Y <> [] /\ bri data p0 (U ++ Y) (rb_s r')
        /\ forall bF st P, length bF = 64%nat ->
            (forall j, s1 <= j <= se -> Z.quot (zat bF j) (2 ^ al) = Z.quot (zat (rb_c r') j) (2 ^ al) /\ Z.abs (zat bF j) <= 32767) ->
            pend st (rb_eob r) P -> (allowed = false -> clean st) ->
            exists st1 st2 st3 st' X P' rr, (if rb_reset r' then flush st else JOk st) = JOk st1
              /\ prog_ac 64 bF act se al s1 0 st1 = JOk (rr, st2)
              /\ (if 0 <? rb_nzr r' then let* st := flush st2 in put_extra (Z.to_nat (rb_nzr r')) act st else JOk st2) = JOk st3
              /\ (if 0 <? (if 0 <? rb_nzr r' then rr - 16 * rb_nzr r' else rr)
                  then let* st := buffer_eob act [] st3 in if allowed then JOk st else flush st else JOk st3) = JOk st'
              /\ wadv st st' X /\ pend st' (rb_eob r' - 1) P' /\ P ++ Y = X ++ P' /\ (allowed = false -> clean st')
  end.
Proof.
  intros Y SL Hs Hse Hal L HZ Hr0 Hn0 HR I.
  pose proof (dec_ac_ok data p0 lut act s1 se al allowed Y SL ltac:(lia) Hse Hal 64 s1 0 r U ltac:(lia) ltac:(lia) ltac:(lia) ltac:(lia) Hn0 L HZ ltac:(lia)) as D.
  rewrite zrls_0, app_nil_r in D. specialize (D I). rewrite Z.add_0_r in D.
  destruct (dec_ac 64 data lut s1 se al allowed s1 r) as [r'| |]; [|exact Logic.I|exact D].
  destruct D as (L' & Out & Lev & Hn' & S' & kl & X & eb & Hkl & HX & Ib & En & Ne & Wr).
  split; [exact L'|]. split; [exact Out|]. split; [exact Lev|]. split; [exact Hn'|]. split.
  { intros Ha. destruct En as [(_ & _ & E1 & E2)|(_ & E1 & _ & _ & E3 & E4)]; [split; [lia|congruence]|]. rewrite Ha in E4. split; [specialize (E3 Ha); lia|cbn [andb] in E4; congruence]. }
  exists (X ++ zrls act (rb_nzr r') ++ eb). split.
  { apply Ne. destruct (Z.eq_dec kl s1); [left; lia|right; assumption]. }
  split; [exact Ib|].
  intros bF st P LF HF PD HC.
  destruct (pend_flush st _ P PD HR) as (stf & FL & CLf & Af).
  (* the state before the band, flushed or not *)
  assert (exists st1, (if rb_reset r' then flush st else JOk st) = JOk st1 /\ exists P1 P2, P = P1 ++ P2 /\ wadv st st1 P1
            /\ (exists st1f, flush st1 = JOk st1f /\ clean st1f /\ wadv st1 st1f P2)
            /\ (kl = s1 -> rb_nzr r' = 0 -> clean st1 /\ P2 = [])) as (st1 & E1 & P1 & P2 & EP & A1 & (st1f & FL1 & CL1 & Af1) & HCl).
  { destruct (rb_reset r') eqn:Er.
    - exists stf. split; [exact FL|]. exists P, []. split; [symmetry; apply app_nil_r|]. split; [exact Af|]. split; [|intros; split; [exact CLf|reflexivity]].
      exists stf. split; [apply clean_flush; exact CLf|]. split; [exact CLf|apply wadv_refl].
    - exists st. split; [reflexivity|]. exists [], P. split; [reflexivity|]. split; [apply wadv_refl|]. split; [exists stf; auto|].
      intros E En0. destruct En as [(E2 & _)|(E2 & _ & _ & _ & _ & E4)]; [lia|].
      rewrite Hr0 in E4. destruct allowed.
      + replace (kl + 16 * rb_nzr r' =? s1) with true in E4 by slia. destruct (Z.eqb_spec (rb_eob r) 0) as [Q|Q]; [discriminate|].
        apply (pend_neg st _ P PD). lia.
      + specialize (HC eq_refl). split; [exact HC|]. destruct HC as (Z0 & _). destruct (pend_zero st _ P PD Z0) as (_ & EP & _). exact EP. }
  destruct (Wr bF st1 P2 st1f 64%nat LF HF FL1 CL1 Af1 ltac:(lia) ltac:(lia)) as (st2 & EA & K1 & K2).
  (* extra zero runs *)
  assert (exists st3, (if 0 <? rb_nzr r' then let* st := flush st2 in put_extra (Z.to_nat (rb_nzr r')) act st else JOk st2) = JOk st3
            /\ clean st3 /\ wadv st1 st3 (P2 ++ X ++ zrls act (rb_nzr r'))) as (st3 & E3 & CL3 & A3).
  { destruct (Z.ltb_spec 0 (rb_nzr r')) as [Hp|Hp].
    - destruct (Z.eq_dec kl s1) as [Ek|Ek].
      + rewrite (K1 Ek). destruct (HX Ek) as [EX _]. rewrite FL1. cbn [jbind]. destruct (put_extra_ok act (rb_nzr r') st1f S' Hn') as (st3 & E3 & A3).
        exists st3. split; [exact E3|]. split; [eapply wput_clean; eauto|]. rewrite EX. eapply wadv_trans; [exact Af1|exact (wput_adv _ _ _ A3)].
      + destruct (K2 Ek) as [C2 A2]. rewrite (clean_flush _ C2). cbn [jbind]. destruct (put_extra_ok act (rb_nzr r') st2 S' Hn') as (st3 & E3 & A3).
        exists st3. split; [exact E3|]. split; [eapply wput_clean; eauto|]. rewrite app_assoc. eapply wadv_trans; [exact A2|exact (wput_adv _ _ _ A3)].
    - assert (En0 : rb_nzr r' = 0) by slia. exists st2. split; [reflexivity|]. rewrite En0, zrls_0, app_nil_r. destruct (Z.eq_dec kl s1) as [Ek|Ek].
      + rewrite (K1 Ek). destruct (HX Ek) as [EX _]. destruct (HCl Ek En0) as [C2 ->]. rewrite EX. split; [exact C2|apply wadv_refl].
      + apply (K2 Ek). }
  (* end of block *)
  set (rr := if 0 <? rb_nzr r' then se + 1 - kl - 16 * rb_nzr r' else se + 1 - kl).
  assert (Err : rr = se + 1 - kl - 16 * rb_nzr r') by (unfold rr; destruct (Z.ltb_spec 0 (rb_nzr r')); lia).
  assert (exists st' X2 P', (if 0 <? rr then let* st := buffer_eob act [] st3 in if allowed then JOk st else flush st else JOk st3) = JOk st'
            /\ wadv st3 st' X2 /\ pend st' (rb_eob r' - 1) P' /\ X2 ++ P' = eb /\ (allowed = false -> clean st')) as (st' & X2 & P' & E4 & A4 & PD4 & EX4 & C4).
  { destruct En as [(E & Eb & Ee & _)|(E & He & SE & Eb & Ea & _)].
    - destruct (Z.ltb_spec 0 rr); [lia|]. exists st3, [], []. split; [reflexivity|]. split; [apply wadv_refl|]. split; [apply pend_clean; [exact CL3|lia]|]. auto.
    - destruct (Z.ltb_spec 0 rr); [|lia].
      destruct (pend_new act [] st3 (rb_eob r') CL3 ltac:(lia) SE ltac:(cbn [length]; lia)) as (st4 & X4 & P4 & Q1 & Q2 & Q3 & Q4).
      change (map b2z []) with (@nil Z) in Q1. rewrite Q1. cbn [jbind]. rewrite app_nil_r in Q4. destruct allowed.
      + exists st4, X4, P4. split; [reflexivity|]. split; [exact Q2|]. split; [exact Q3|]. split; [congruence|discriminate].
      + specialize (Ea eq_refl). rewrite Ea in *. destruct (pend_flush st4 _ P4 Q3 ltac:(lia)) as (st5 & F5 & C5 & A5).
        exists st5, (X4 ++ P4), []. split; [exact F5|]. split; [eapply wadv_trans; eauto|]. split; [apply pend_clean; [exact C5|lia]|].
        split; [rewrite app_nil_r; congruence|auto]. }
  exists st1, st2, st3, st', (P1 ++ P2 ++ X ++ zrls act (rb_nzr r') ++ X2), P', (se + 1 - kl).
  split; [exact E1|]. split; [exact EA|]. split; [exact E3|]. split; [exact E4|].
  split; [eapply wadv_trans; [exact A1|]; replace (P2 ++ X ++ zrls act (rb_nzr r') ++ X2) with ((P2 ++ X ++ zrls act (rb_nzr r')) ++ X2) by (rewrite <- !app_assoc; reflexivity); eapply wadv_trans; eauto|].
  split; [exact PD4|]. split; [|exact C4]. rewrite EP, <- EX4, <- !app_assoc. reflexivity.
Qed.

Lemma decode_block_ok data p0 dcl acl dct act ss se al last r U :
  bytes data -> (ss = 0 -> slot_ok dcl dct) -> (0 < se -> slot_ok acl act) -> 0 <= ss <= se -> se <= 63 -> 0 <= al <= 10 -> i16 last ->
  length (rb_c r) = 64%nat -> (forall j, Z.max 1 ss <= j <= se -> zat (rb_c r) j = 0) -> rb_reset r = false -> rb_nzr r = 0 ->
  (ss = 0 -> rb_eob r <= 0) -> bri data p0 U (rb_s r) ->
  match decode_block data dcl acl ss se al last r with
  | JUB => False
  | JErr => True
  | JOk (r', last') => i16 last' /\ length (rb_c r') = 64%nat
      /\ (forall j, 0 <= j < 64 -> ~ (ss <= j <= se) -> zat (rb_c r') j = zat (rb_c r) j)
      /\ (forall j, Z.max 1 ss <= j <= se -> ac_level al (zat (rb_c r') j))
      /\ (ss = 0 -> i16 (zat (rb_c r') 0) /\ (2 ^ al | zat (rb_c r') 0))
      /\ 0 <= rb_nzr r' /\ (ss = 0 -> rb_eob r' <= 0)
      /\ exists Y, bri data p0 (U ++ Y) (rb_s r') /\ (rb_eob r <= 0 -> Y <> [])
         /\ first_written dct act ss se al last last' (rb_reset r') (rb_nzr r') (rb_eob r) (rb_eob r') (rb_c r') Y
  end.
Proof.
  intros Y SD SA Hs Hse Hal Hl L HZ Hr0 Hn0 HE I. unfold decode_block.
  destruct (Z.eqb_spec ss 0) as [E0|E0].
  - pose proof (dec_dc_ok data p0 dcl dct al last r U Y (SD E0) ltac:(lia) Hl L I) as D.
    destruct (dec_dc data dcl al last r) as [[r1 last1]| |]; [|exact Logic.I|exact D]. cbn [jbind].
    destruct D as (Hl1 & B0 & V0 & L1 & O1 & Ee1 & Er1 & En1 & XD & NX & I1 & WD). specialize (HE E0).
    destruct (Z.ltb_spec se 1) as [H1|H1].
    + split; [exact Hl1|]. split; [exact L1|]. split; [intros j Hj HN; apply O1; lia|]. split; [lia|]. split; [intros _; split; [exact B0|exists last1; exact V0]|].
      split; [lia|]. split; [lia|]. exists XD. split; [exact I1|]. split; [auto|].
      intros bF st P (LF & V & _) PD HC. rewrite Er1, Hr0. specialize (HC E0). destruct (WD (zat bF 0) st (V E0)) as (st' & E' & A').
      exists st, st', XD, []. split; [reflexivity|]. split.
      * unfold encode_prog. rewrite E0. change (0 =? 0) with true. cbv iota zeta. rewrite aget_0 by exact LF. cbn [jbind]. rewrite E'. cbn [jbind].
        destruct (Z.ltb_spec se 1); [reflexivity|lia].
      * split; [exact (wput_adv _ _ _ A')|]. assert (C' : clean st') by (eapply wput_clean; eauto). split; [apply pend_clean; [exact C'|lia]|].
        destruct HC as (Z0 & HC). destruct (pend_zero st _ P PD Z0) as (_ & EP & _). rewrite EP, app_nil_r. split; [reflexivity|auto].
    + destruct (Z.ltb_spec 0 (rb_eob r1)) as [H2|H2]; [lia|].
      set (r2 := mkRB (rb_s r1) (rb_eob r1) (rb_reset r1) 0 (rb_c r1)).
      pose proof (ac_part data p0 acl act 1 se al (0 <? ss) r2 (U ++ XD) Y (SA ltac:(lia)) ltac:(lia) Hse Hal L1) as A.
      specialize (A ltac:(cbn [r2 rb_c]; intros j Hj; rewrite O1 by slia; apply HZ; lia) ltac:(cbn [r2 rb_reset]; congruence) eq_refl ltac:(cbn [r2 rb_eob]; lia) I1).
      replace (0 <? ss) with false in A |- * by slia.
      destruct (dec_ac 64 data acl 1 se al false 1 r2) as [r3| |]; [|exact Logic.I|exact A]. cbn [jbind rb_c rb_nzr rb_eob rb_s rb_reset].
      destruct A as (L3 & O3 & Lev & Hn3 & HA & YA & NY & I3 & WA). destruct (HA eq_refl) as [He3 Hr3].
      assert (V3 : zat (rb_c r3) 0 = zat (rb_c r1) 0) by (apply O3; lia).
      split; [exact Hl1|]. split; [exact L3|]. split; [intros j Hj HN; rewrite O3 by slia; apply O1; lia|]. split; [intros j Hj; apply Lev; lia|].
      split; [intros _; rewrite V3; split; [exact B0|exists last1; exact V0]|]. split; [exact Hn3|]. split; [lia|].
      exists (XD ++ YA). split; [rewrite app_assoc; exact I3|]. split; [intros _ E; apply app_eq_nil in E as [E _]; exact (NX E)|].
      intros bF st P (LF & V & VA) PD HC. specialize (HC E0). destruct HC as (Z0 & HC). destruct (pend_zero st _ P PD Z0) as (CL & EP & _).
      specialize (V E0). rewrite V3 in V.
      destruct (WD (zat bF 0) st V) as (st1 & E1 & A1).
      assert (C1 : clean st1) by (eapply wput_clean; eauto).
      destruct (WA bF st1 [] LF) as (sta & st2 & st3 & st' & X & P' & rr & Q1 & Q2 & Q3 & Q4 & Q5 & Q6 & Q7 & Q8).
      { intros j Hj. apply VA. lia. } { apply pend_clean; [exact C1|cbn [r2 rb_eob]; lia]. } { auto. }
      rewrite Hr3 in Q1 |- *. injection Q1 as <-.
      exists st, st', (XD ++ X), P'. split; [reflexivity|]. split.
      * unfold encode_prog. rewrite E0. change (0 =? 0) with true. change (0 <? 0) with false. cbv iota zeta. rewrite aget_0 by exact LF. cbn [jbind]. rewrite E1. cbn [jbind].
        destruct (Z.ltb_spec se 1); [lia|]. rewrite Q2. cbn [jbind]. rewrite Q3. cbn [jbind].
        destruct (0 <? _) in Q4 |- *; [|injection Q4 as ->; reflexivity].
        destruct (buffer_eob act [] st3) as [st4| |]; [|discriminate|discriminate]. cbn [jbind] in Q4 |- *. rewrite Q4. reflexivity.
      * split; [eapply wadv_trans; [exact (wput_adv _ _ _ A1)|exact Q5]|]. split; [exact Q6|]. split; [|auto].
        cbn [app] in Q7. rewrite EP, Q7. cbn [app]. rewrite app_assoc. reflexivity.
  - cbn [jbind]. destruct (Z.ltb_spec se ss) as [H1|H1]; [lia|].
    assert (Em : Z.max 1 ss = ss) by slia. rewrite Em in *.
    destruct (Z.ltb_spec 0 (rb_eob r)) as [H2|H2].
    + cbn [rb_c rb_nzr rb_eob rb_s rb_reset]. split; [exact Hl|]. split; [exact L|]. split; [auto|]. split; [intros j Hj; rewrite HZ by exact Hj; apply ac_level_0|].
      split; [congruence|]. split; [lia|]. split; [congruence|]. exists []. split; [rewrite app_nil_r; exact I|]. split; [lia|].
      intros bF st P (LF & _ & V) PD _. rewrite Hr0, Hn0. rewrite Em in V.
      destruct (pend_extend act [] st (rb_eob r) P PD H2 ltac:(cbn [length]; lia)) as (st' & X & P' & Q1 & Q2 & Q3 & Q4).
      change (map b2z []) with (@nil Z) in Q1.
      exists st, st', X, P'. split; [reflexivity|]. split.
      * unfold encode_prog. destruct (Z.eqb_spec ss 0); [congruence|]. cbn [jbind]. destruct (Z.ltb_spec se ss); [lia|].
        replace 64%nat with (Z.to_nat (se + 1 - ss) + S (63 - Z.to_nat (se + 1 - ss)))%nat by slia.
        rewrite prog_ac_skip; [|assumption|lia|lia|lia|lia|].
        2:{ intros j Hj. destruct (V j ltac:(lia)) as [Q B]. split; [|exact B]. rewrite Q. cbn [rb_c]. rewrite HZ by slia. apply Z.quot_0_l.
            pose proof (Z.pow_pos_nonneg 2 al ltac:(lia) ltac:(lia)). lia. }
        rewrite prog_ac_end by slia. cbn [jbind]. change (0 <? 0) with false. cbn [jbind]. destruct (Z.ltb_spec 0 (0 + Z.of_nat (Z.to_nat (se + 1 - ss)))); [|lia].
        rewrite Q1. cbn [jbind]. destruct (Z.ltb_spec 0 ss); [reflexivity|lia].
      * split; [exact Q2|]. split; [exact Q3|]. split; [congruence|congruence].
    + set (r2 := mkRB (rb_s r) (rb_eob r) (rb_reset r) 0 (rb_c r)).
      pose proof (ac_part data p0 acl act ss se al (0 <? ss) r2 U Y (SA ltac:(lia)) ltac:(lia) Hse Hal L HZ Hr0 eq_refl H2 I) as A.
      destruct (dec_ac 64 data acl ss se al (0 <? ss) ss r2) as [r3| |]; [|exact Logic.I|exact A]. cbn [jbind rb_c rb_nzr rb_eob rb_s rb_reset].
      destruct A as (L3 & O3 & Lev & Hn3 & _ & YA & NY & I3 & WA).
      split; [exact Hl|]. split; [exact L3|]. split; [exact O3|]. split; [exact Lev|]. split; [congruence|]. split; [exact Hn3|]. split; [congruence|].
      exists YA. split; [exact I3|]. split; [auto|].
      intros bF st P (LF & _ & V) PD _. rewrite Em in V. replace (0 <? ss) with true in WA by slia.
      destruct (WA bF st P LF V PD ltac:(discriminate)) as (sta & st2 & st3 & st' & X & P' & rr & Q1 & Q2 & Q3 & Q4 & Q5 & Q6 & Q7 & Q8).
      exists sta, st', X, P'. split; [exact Q1|]. split.
      * unfold encode_prog. destruct (Z.eqb_spec ss 0); [congruence|]. cbn [jbind]. destruct (Z.ltb_spec se ss); [lia|].
        rewrite Q2. cbn [jbind]. rewrite Q3. cbn [jbind]. replace (0 <? ss) with true by slia.
        destruct (0 <? _) in Q4 |- *; [|injection Q4 as ->; reflexivity].
        destruct (buffer_eob act [] st3) as [st4| |]; [|discriminate|discriminate]. cbn [jbind] in Q4 |- *. injection Q4 as ->. reflexivity.
      * split; [exact Q5|]. split; [exact Q6|]. split; [exact Q7|congruence].
Qed.

(** * The sequential encoder makes the same calls *)

Lemma put_sym_clean tab v st st' : put_sym tab v st = JOk st' -> clean st -> clean st'.
Proof.
  unfold put_sym. destruct (aget (fst tab) v); [|discriminate|discriminate]. cbn [jbind]. destruct (aget (snd tab) v); [|discriminate|discriminate]. cbn [jbind].
  intros E C. injection E as <-. exact C.
Qed.

Lemma put_zrl_clean tab : forall fuel r st r' st', put_zrl fuel tab r st = JOk (r', st') -> clean st -> clean st'.
Proof.
  induction fuel as [|f IH]; intros r st r' st' E C; [discriminate|]. cbn [put_zrl] in E. destruct (15 <? r); [|injection E as <- <-; exact C].
  destruct (put_sym tab 240 st) as [st1| |] eqn:E1; [|discriminate|discriminate]. cbn [jbind] in E. eapply IH; [exact E|]. eapply put_sym_clean; eauto.
Qed.

Lemma put_coef_clean tab neg a r st st' : put_coef tab neg a r st = JOk st' -> clean st -> clean st'.
Proof.
  unfold put_coef. destruct (put_zrl 5 tab r st) as [[r1 st1]| |] eqn:E1; [|discriminate|discriminate]. cbn [jbind].
  destruct (log2nz a) as [l| |]; [|discriminate|discriminate]. cbn [jbind].
  destruct (put_sym tab (Z.shiftl r1 4 + (l + 1)) st1) as [st2| |] eqn:E2; [|discriminate|discriminate]. cbn [jbind].
  intros E C. injection E as <-. apply (put_sym_clean _ _ _ _ E2). eapply put_zrl_clean; eauto.
Qed.

Lemma put_extra_clean tab : forall n st st', put_extra n tab st = JOk st' -> clean st -> clean st'.
Proof.
  induction n as [|n IH]; intros st st' E C; [injection E as <-; exact C|]. cbn [put_extra] in E.
  destruct (put_sym tab 240 st) as [st1| |] eqn:E1; [|discriminate|discriminate]. cbn [jbind] in E. eapply IH; [exact E|]. eapply put_sym_clean; eauto.
Qed.

Lemma seq_prog_ac b tab : length b = 64%nat -> (forall j, 1 <= j <= 63 -> Z.abs (zat b j) <= 32767) -> forall fuel k r st, 1 <= k ->
  clean st -> seq_ac fuel b tab k r st = prog_ac fuel b tab 63 0 k r st
     /\ forall r' st', prog_ac fuel b tab 63 0 k r st = JOk (r', st') -> clean st'.
Proof.
  intros L HB. induction fuel as [|f IH]; intros k r st Hk C; [split; [reflexivity|discriminate]|].
  cbn [seq_ac]. destruct (Z.leb_spec 64 k) as [H|H].
  - rewrite prog_ac_end by slia. split; [reflexivity|]. intros r' st' E. injection E as <- <-. exact C.
  - rewrite prog_ac_step by (lia || assumption || (apply HB; lia)). cbv zeta. change (2 ^ 0) with 1. rewrite Z.quot_1_r.
    rewrite zz_get_ok by (lia || assumption). cbn [jbind]. destruct (Z.eqb_spec (zat b k) 0) as [E|E].
    + apply IH; [lia|exact C].
    + rewrite neg_abs by (specialize (HB k); lia). rewrite (clean_flush _ C). cbn [jbind].
      destruct (put_coef tab (zat b k <? 0) (Z.abs (zat b k)) r st) as [st1| |] eqn:E1; [|split; [reflexivity|discriminate]|split; [reflexivity|discriminate]].
      cbn [jbind]. apply IH; [lia|]. eapply put_coef_clean; eauto.
Qed.

Lemma put_dc_clean tab t last st l st' : put_dc tab t last st = JOk (l, st') -> clean st -> clean st'.
Proof.
  unfold put_dc. destruct (if to_i16 (t - last) <? 0 then _ else _) as [a v]. destruct (if a =? 0 then _ else _) as [n| |]; [|discriminate|discriminate]. cbn [jbind].
  destruct (put_sym tab n st) as [st1| |] eqn:E1; [|discriminate|discriminate]. cbn [jbind]. intros E C. injection E as <- <-.
  pose proof (put_sym_clean _ _ _ _ E1 C) as C1. destruct (0 <? n); exact C1.
Qed.

Lemma one_eob act st (l : Z) : clean st ->
  (let* st := buffer_eob act [] st in let* st := flush st in JOk (l, st)) = (let* s := put_sym act 0 st in JOk (l, mkWC (wc_ops s) 0 act [] 0)).
Proof.
  destruct st as [o e t rb n]. intros (E1 & E2 & E3). cbn [wc_eob wc_rb wc_rbn] in *. subst.
  change (buffer_eob act [] (mkWC o 0 t [] 0)) with (JOk (mkWC o 1 act [] 0)). cbn [jbind].
  unfold flush, put_sym. cbn [wc_eob wc_tab wc_ops wc_rb wc_rbn]. change (0 <? 1) with true. change (Z.log2 1) with 0. change (Z.shiftl 0 4) with 0. cbv iota zeta.
  destruct (aget (fst act) 0) as [n| |]; [|reflexivity|reflexivity]. cbn [jbind]. destruct (aget (snd act) 0) as [c| |]; reflexivity.
Qed.

Opaque prog_ac seq_ac put_extra flush put_dc put_sym.
Lemma seq_from_prog b dct act nzr last st l st' : length b = 64%nat -> (forall j, 1 <= j <= 63 -> Z.abs (zat b j) <= 32767) -> clean st -> 0 <= nzr ->
  encode_prog b dct act 0 63 0 nzr last st = JOk (l, st') ->
  exists st2, encode_seq b dct act nzr last st = JOk (l, st2) /\ wc_ops st2 = wc_ops st' /\ clean st2.
Proof.
  intros L HB C Hn E. unfold encode_prog in E. unfold encode_seq. change (0 =? 0) with true in E. change (0 <? 0) with false in E. change (63 <? 1) with false in E. cbv iota zeta in E.
  rewrite aget_0 in E |- * by exact L. cbn [jbind] in E |- *. rewrite Z.shiftr_0_r in E.
  destruct (put_dc dct (zat b 0) last st) as [[l1 st1]| |] eqn:E1; [|discriminate|discriminate]. cbn [jbind] in E |- *.
  pose proof (put_dc_clean _ _ _ _ _ _ E1 C) as C1.
  destruct (seq_prog_ac b act L HB 64 1 0 st1 ltac:(lia) C1) as [EQ CQ]. rewrite EQ.
  destruct (prog_ac 64 b act 63 0 1 0 st1) as [[r st2]| |] eqn:E2; [|discriminate|discriminate]. cbn [jbind] in E |- *.
  specialize (CQ _ _ eq_refl).
  assert (E3 : put_extra (Z.to_nat nzr) act st2 = (if 0 <? nzr then let* st := flush st2 in put_extra (Z.to_nat nzr) act st else JOk st2)).
  { destruct (Z.ltb_spec 0 nzr); [rewrite (clean_flush _ CQ); reflexivity|]. replace nzr with 0 by slia. reflexivity. }
  rewrite E3. destruct (if 0 <? nzr then let* st := flush st2 in put_extra (Z.to_nat nzr) act st else JOk st2) as [st3| |] eqn:E4; [|discriminate|discriminate].
  cbn [jbind] in E |- *. pose proof (put_extra_clean _ _ _ _ E3 CQ) as C3.
  replace (r - 16 * Z.max 0 nzr) with (if 0 <? nzr then r - 16 * nzr else r) by (destruct (Z.ltb_spec 0 nzr); lia).
  destruct (0 <? (if 0 <? nzr then r - 16 * nzr else r)).
  - rewrite (one_eob act st3 l1 C3) in E. destruct (put_sym act 0 st3) as [s4| |] eqn:E5; [|discriminate|discriminate].
    cbn [jbind] in E |- *. injection E as <- <-. eexists. split; [reflexivity|]. split; [reflexivity|]. exact (put_sym_clean _ _ _ _ E5 C3).
  - injection E as <- <-. eexists. split; [reflexivity|]. split; [reflexivity|exact C3].
Qed.
Transparent prog_ac seq_ac put_extra flush put_dc put_sym.
