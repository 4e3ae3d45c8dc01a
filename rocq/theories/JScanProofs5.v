(** Refinement scans, third part: the band of a block, and whole blocks. *)
From Verif Require Import Base JpegModel LehmerModel CoefModel JBitModel JWriteProofs JReadProofs
  JHuffModel JHuffProofs JHuffPair JScanModel JScanProofs1 JScanProofs2 JScanProofs3 JScanProofs4.
From Coq Require Import ZifyBool ZifyNat.

Ltac flia :=
  repeat match goal with
  | H : ?T |- _ =>
      match type of T with Prop => idtac end;
      match T with
      | context [zat] => clear H
      | context [Z.pow] => clear H
      | context [Z.shiftl] => clear H
      | context [Z.shiftr] => clear H
      | context [Z.land] => clear H
      | context [@length] => clear H
      | context [JOk] => clear H
      | context [Z.eqb] => clear H
      end
  end; slia.

Definition agree (al lo hi : Z) (bF c : list Z) : Prop :=
  forall j, lo <= j < hi -> Z.quot (zat bF j) (2 ^ al) = Z.quot (zat c j) (2 ^ al) /\ Z.abs (zat bF j) <= 32767.

Lemma agree_aqs al lo hi bF c j : agree al lo hi bF c -> lo <= j < hi -> aqs al bF j = aqs al c j /\ Z.abs (zat bF j) <= 32767.
Proof. intros A H. destruct (A j H) as [E B]. split; [unfold aqs, aq; rewrite E; reflexivity|exact B]. Qed.

Lemma aqs_nonneg al c j : 0 <= aqs al c j.
Proof. unfold aqs, aq. lia. Qed.

Definition band_written (act : codetab) (se al k k' : Z) (zr : bool) (c' : list Z) (V : list bool) : Prop :=
  k' <> k -> forall bF st r bits P T fuel, length bF = 64%nat -> agree al k k' bF c' ->
    gi act r bits T 0 [] -> fl st P -> r <= k -> (r <> 0 -> sym_ok act 240) ->
    exists st', refw_ac (Z.to_nat (k' - k) + fuel) bF act se al (k' - 1) k r bits st = refw_ac fuel bF act se al (k' - 1) k' 0 [] st'
      /\ clean st' /\ wadv st st' (P ++ T ++ V).

Lemma ref_ac_ok data p0 lut act ss se al allowed : bytes data -> slot_ok lut act -> 1 <= ss -> se <= 63 -> 0 <= al <= 10 ->
  forall fuel k zr r U, 1 <= Z.of_nat fuel -> se + 2 <= k + Z.of_nat fuel -> ss <= k <= se + 2 -> (zr = false -> k <= se + 1) ->
  length (rb_c r) = 64%nat -> (forall j, k <= j <= se -> hist_ok al (zat (rb_c r) j)) -> bri data p0 U (rb_s r) ->
  match ref_ac fuel data lut ss se al allowed k zr r with
  | JUB => False
  | JErr => True
  | JOk (k', (zr', r')) => zr' = false ->
      length (rb_c r') = 64%nat /\ (forall j, 0 <= j < 64 -> ~ (k <= j < k') -> zat (rb_c r') j = zat (rb_c r) j)
      /\ (forall j, k <= j < k' -> refd al (zat (rb_c r) j) (zat (rb_c r') j))
      /\ rb_nzr r' = rb_nzr r /\ k <= k' <= se + 1
      /\ exists V eb, bri data p0 (U ++ V ++ eb) (rb_s r')
         /\ ends act allowed ss se k' 0 (rb_eob r) (rb_eob r') (rb_reset r) (rb_reset r') eb
         /\ (k' <> k -> aqs al (rb_c r') (k' - 1) = 1) /\ (k' = k -> V = [] /\ zr = false) /\ (k <= se -> V ++ eb <> [])
         /\ band_written act se al k k' zr (rb_c r') V
  end.
Proof.
  intros Y SL Hss Hse Hal. induction fuel as [|f IH]; intros k zr r U Hf1 Hf Hk Hzr L HH I; [lia|]. cbn [ref_ac].
  destruct (Z.ltb_spec se k) as [He|He].
  - intros ->. specialize (Hzr eq_refl). split; [exact L|]. split; [auto|]. split; [lia|]. split; [reflexivity|]. split; [lia|].
    exists [], []. rewrite !app_nil_r. split; [exact I|]. split; [left; split; [lia|auto]|]. split; [congruence|]. split; [auto|]. split; [lia|]. intros H. congruence.
  - destruct (read_sym data p0 _ (rb_s r) lut act Y I SL) as (sr & s & R & Hsr & K). rewrite R. cbn [jbind].
    destruct (Z.leb_spec 256 sr) as [H256|H256]; [exact Logic.I|]. destruct (K H256) as [I1 S1]. clear K.
    destruct (split_symbol sr ltac:(slia)) as (ES & Hrr & Hsz). set (rr := Z.shiftr sr 4) in *. set (sz := Z.land sr 15) in *.
    destruct (Z.eqb_spec sz 0) as [Es|Es].
    + rewrite Es, Z.add_0_r in ES. destruct (Z.eqb_spec rr 15) as [H15|H15].
      * rewrite H15 in ES |- *. change (Z.shiftl 15 4) with 240 in ES. rewrite ES in I1, S1.
        destruct (ref_skip_ok data p0 se al Y Hal Hse 64 k 15 s (rb_c r) _ ltac:(slia) ltac:(slia) ltac:(slia) L HH I1) as (k2 & s2 & c2 & E2 & K2 & L2 & O2 & R2 & I2 & N1 & N2).
        rewrite E2. cbn [jbind]. set (r2 := mkRB s2 (rb_eob r) (rb_reset r) (rb_nzr r) c2).
        specialize (IH (k2 + 1) true r2 (U ++ code_of act 240 ++ hb (aqs al c2) k (Z.to_nat (k2 - k))) ltac:(slia) ltac:(slia) ltac:(slia) ltac:(discriminate) L2).
        assert (HH2 : forall j, k2 + 1 <= j <= se -> hist_ok al (zat c2 j)) by (intros j Hj; rewrite O2 by slia; apply HH; lia).
        specialize (IH HH2). rewrite <- app_assoc in I2. specialize (IH I2).
        destruct (ref_ac f data lut ss se al allowed (k2 + 1) true r2) as [[k' [zr' r']]| |]; [|exact Logic.I|exact IH].
        intros Ez. destruct (IH Ez) as (L' & O' & RF' & NZ' & K' & V & eb & Ib & En & LN & VN & NE & BW). clear IH.
        assert (HK2 : k2 <= se) by slia. destruct (N2 HK2) as [N3 N4].
        assert (NK : k' <> k2 + 1) by (intros Q; destruct (VN Q); discriminate).
        cbn [r2 rb_c rb_eob rb_reset rb_nzr] in *.
        assert (Ec2 : forall j, k <= j <= k2 -> zat (rb_c r') j = zat c2 j) by (intros j Hj; apply O'; lia).
        assert (Ez2 : zat c2 k2 = 0) by (rewrite O2 by slia; exact N4).
        split; [exact L'|]. split; [intros j Hj HN; rewrite O' by slia; apply O2; lia|]. split.
        { intros j Hj. destruct (Z_lt_ge_dec k2 j) as [H|H].
          - rewrite <- (O2 j) by slia. apply RF'. lia.
          - rewrite Ec2 by slia. destruct (Z.eq_dec j k2) as [->|Nj]; [rewrite Ez2, N4; left; auto|]. apply R2. lia. }
        split; [exact NZ'|]. split; [lia|].
        exists (code_of act 240 ++ hb (aqs al c2) k (Z.to_nat (k2 - k)) ++ V), eb.
        split; [rewrite <- !app_assoc in Ib |- *; exact Ib|]. split; [exact En|]. split; [intros _; apply LN; exact NK|]. split; [lia|]. split.
        { intros _ Q. apply app_eq_nil in Q as [Q _]. apply app_eq_nil in Q as [Q _]. exact (code_of_nonempty _ _ S1 Q). }
        intros _ bF st rw bits P T fuel LF AG G F Hr HS.
        replace (Z.to_nat (k' - k) + fuel)%nat with (Z.to_nat (k2 - k) + (Datatypes.S (Z.to_nat (k' - (k2 + 1)) + fuel)))%nat by slia.
        assert (AQ : forall j, k <= j <= k2 -> aqs al bF j = aqs al c2 j).
        { intros j Hj. destruct (agree_aqs al k k' bF (rb_c r') j AG ltac:(slia)) as [Q _]. rewrite Q. unfold aqs. rewrite Ec2 by slia. reflexivity. }
        assert (NZe : nz (aqs al bF) k (Z.to_nat (k2 - k)) = 15) by (rewrite <- N3; apply nz_ext; intros j Hj; apply AQ; lia).
        assert (HBe : hb (aqs al bF) k (Z.to_nat (k2 - k)) = hb (aqs al c2) k (Z.to_nat (k2 - k))) by (apply hb_ext; intros j Hj; apply AQ; lia).
        destruct (refw_stretch bF act se al (k' - 1) LF ltac:(slia) Hse (Z.to_nat (k2 - k)) k rw bits st P T 0 [] (Datatypes.S (Z.to_nat (k' - (k2 + 1)) + fuel)))
          as (rw' & bits' & st1 & P1 & T1 & X1 & Q1 & Q2 & Q3 & Q4 & Q5 & Q6 & Q7 & Q8); try assumption; try lia.
        { intros j Hj. split; [rewrite AQ by slia; apply R2; lia|apply (AG j); lia]. } { apply aqs_nonneg. }
        { intros H1. split; [apply HS; exact H1|lia]. }
        rewrite Q1. replace (k + Z.of_nat (Z.to_nat (k2 - k))) with k2 in * by slia.
        rewrite refw_zero; [|assumption|slia|slia|slia|rewrite AQ by slia; unfold aqs; rewrite Ez2; apply aq_zero; slia|apply (AG k2); slia].
        apply gi_zero in Q2. rewrite NZe, HBe in Q2. cbn [app] in Q2. change (0 + 15 + 1) with 16 in Q2. apply gi_run in Q2.
        destruct (BW NK bF st1 (rw' + 1) bits' P1 _ fuel LF ltac:(intros j Hj; apply AG; slia) Q2 Q3 ltac:(slia) ltac:(intros _; exact S1)) as (st' & W1 & W2 & W3).
        exists st'. split; [exact W1|]. split; [exact W2|].
        pose proof (wadv_trans _ _ _ _ _ Q5 W3) as WW. rewrite <- !app_assoc in WW. replace (P ++ T ++ code_of act 240 ++ hb (aqs al c2) k (Z.to_nat (k2 - k)) ++ V) with
          ((X1 ++ P1 ++ T1) ++ code_of act 240 ++ hb (aqs al c2) k (Z.to_nat (k2 - k)) ++ V) by (rewrite Q6, <- !app_assoc; reflexivity).
        rewrite <- !app_assoc. exact WW.
      * rewrite ES in I1, S1.
        pose proof (read_eob_ok data p0 act allowed (k =? ss) rr s r _ Y ltac:(slia) S1 I1) as RE.
        destruct (read_eob data allowed (k =? ss) rr s r) as [r'| |]; [|exact Logic.I|exact RE]. cbn [jbind].
        destruct RE as (He1 & SE & IE & HA & HR & HNn & HC). intros ->. rewrite HC.
        split; [exact L|]. split; [auto|]. split; [lia|]. split; [exact HNn|]. split; [lia|].
        exists [], (eob_bits act (rb_eob r')). cbn [app]. split; [exact IE|].
        split; [right; change (16 * 0) with 0; rewrite Z.add_0_r; auto 10|]. split; [congruence|]. split; [auto|]. split.
        { intros _ Q. unfold eob_bits in Q. apply app_eq_nil in Q as [Q _]. exact (code_of_nonempty _ _ SE Q). }
        intros H. congruence.
    + destruct (Z.eqb_spec sz 1) as [E1|E1]; [|exact Logic.I]. rewrite E1 in ES.
      destruct (read_ok data p0 _ s 1 Y I1 ltac:(flia)) as (x & s1 & Rx & Bx & Ix). rewrite Rx. cbn [jbind].
      change (2 ^ 1) with 2 in Bx. change (Z.to_nat 1) with 1%nat in Ix. rewrite mval_bit in Ix by exact Bx.
      destruct (ref_skip_ok data p0 se al Y Hal Hse 64 k rr s1 (rb_c r) _ ltac:(flia) ltac:(flia) ltac:(flia) L HH Ix) as (k2 & s2 & c2 & E2 & K2 & L2 & O2 & R2 & I2 & N1 & N2).
      rewrite E2. cbn [jbind]. destruct (Z.ltb_spec se k2) as [Hke|HK2]; [exact Logic.I|]. destruct (N2 HK2) as [N3 N4].
      set (sg := if x =? 0 then -1 else 1).
      assert (Ev : (if x =? 0 then - 2 ^ al else 2 ^ al) = sg * 2 ^ al) by (unfold sg; destruct (x =? 0); lia). rewrite Ev.
      destruct (pow_al al ltac:(flia)) as [PA _]. assert (PB : 2 ^ al <= 1024) by (change 1024 with (2 ^ 10); apply Z.pow_le_mono_r; lia).
      assert (Hsg : sg = 1 \/ sg = -1) by (unfold sg; destruct (x =? 0); auto).
      rewrite to_i16_small by (destruct Hsg as [-> | ->]; lia). rewrite zz_set_ok by (lia || assumption). cbn [jbind].
      set (c3 := zup c2 k2 (sg * 2 ^ al)). assert (L3 : length c3 = 64%nat) by (unfold c3; rewrite zup_length; exact L2).
      assert (Ek3 : zat c3 k2 = sg * 2 ^ al) by (apply zat_zup_same; [exact L2|lia]).
      assert (Eo3 : forall j, 0 <= j < 64 -> j <> k2 -> zat c3 j = zat c2 j) by (intros j Hj HN; apply zat_zup_other; lia).
      set (r2 := mkRB s2 (rb_eob r) (rb_reset r) (rb_nzr r) c3).
      specialize (IH (k2 + 1) false r2 (U ++ code_of act sr ++ [negb (x =? 0)] ++ hb (aqs al c2) k (Z.to_nat (k2 - k))) ltac:(flia) ltac:(flia) ltac:(flia) ltac:(flia) L3).
      assert (HH2 : forall j, k2 + 1 <= j <= se -> hist_ok al (zat c3 j)) by (intros j Hj; rewrite Eo3, O2 by flia; apply HH; lia).
      specialize (IH HH2). rewrite <- !app_assoc in I2. specialize (IH I2).
      destruct (ref_ac f data lut ss se al allowed (k2 + 1) false r2) as [[k' [zr' r']]| |]; [|exact Logic.I|exact IH].
      intros Ez. destruct (IH Ez) as (L' & O' & RF' & NZ' & K' & V & eb & Ib & En & LN & VN & NE & BW). clear IH.
      cbn [r2 rb_c rb_eob rb_reset rb_nzr] in *.
      assert (Ec2 : forall j, k <= j < k2 -> zat (rb_c r') j = zat c2 j) by (intros j Hj; rewrite O' by flia; apply Eo3; lia).
      assert (Ek' : zat (rb_c r') k2 = sg * 2 ^ al) by (rewrite O' by flia; exact Ek3).
      assert (EN : aqs al (rb_c r') k2 = 1) by (unfold aqs; rewrite Ek'; apply aq_new; [lia|exact Hsg]).
      split; [exact L'|]. split; [intros j Hj HN; rewrite O' by flia; rewrite Eo3 by flia; apply O2; lia|]. split.
      { intros j Hj. destruct (Z_lt_ge_dec k2 j) as [H|H].
        - replace (zat (rb_c r) j) with (zat c3 j) by (rewrite Eo3, O2 by flia; reflexivity). apply RF'. lia.
        - destruct (Z.eq_dec j k2) as [->|Nj]; [|rewrite Ec2 by flia; apply R2; lia]. rewrite Ek', N4. left. split; [reflexivity|]. right. destruct Hsg as [-> | ->]; [left|right]; lia. }
      split; [exact NZ'|]. split; [lia|].
      exists (code_of act sr ++ [negb (x =? 0)] ++ hb (aqs al c2) k (Z.to_nat (k2 - k)) ++ V), eb.
      split; [rewrite <- !app_assoc in Ib |- *; exact Ib|]. split; [exact En|]. split.
      { intros _. destruct (Z.eq_dec k' (k2 + 1)) as [->|NK]; [replace (k2 + 1 - 1) with k2 by flia; exact EN|apply LN; exact NK]. }
      split; [lia|]. split.
      { intros _ Q. apply app_eq_nil in Q as [Q _]. apply app_eq_nil in Q as [Q _]. exact (code_of_nonempty _ _ S1 Q). }
      intros _ bF st rw bits P T fuel LF AG G F Hr HS.
      replace (Z.to_nat (k' - k) + fuel)%nat with (Z.to_nat (k2 - k) + (Datatypes.S (Z.to_nat (k' - (k2 + 1)) + fuel)))%nat by flia.
      assert (AQ : forall j, k <= j < k2 -> aqs al bF j = aqs al c2 j).
      { intros j Hj. destruct (agree_aqs al k k' bF (rb_c r') j AG ltac:(flia)) as [Q _]. rewrite Q. unfold aqs. rewrite Ec2 by flia. reflexivity. }
      assert (NZe : nz (aqs al bF) k (Z.to_nat (k2 - k)) = rr) by (rewrite <- N3; apply nz_ext; intros j Hj; apply AQ; flia).
      assert (HBe : hb (aqs al bF) k (Z.to_nat (k2 - k)) = hb (aqs al c2) k (Z.to_nat (k2 - k))) by (apply hb_ext; intros j Hj; apply AQ; flia).
      destruct (refw_stretch bF act se al (k' - 1) LF ltac:(flia) Hse (Z.to_nat (k2 - k)) k rw bits st P T 0 [] (Datatypes.S (Z.to_nat (k' - (k2 + 1)) + fuel)))
        as (rw' & bits' & st1 & P1 & T1 & X1 & Q1 & Q2 & Q3 & Q4 & Q5 & Q6 & Q7 & Q8); try assumption; try flia.
      { intros j Hj. split; [rewrite AQ by flia; apply R2; flia|apply (AG j); flia]. } { apply aqs_nonneg. }
      { intros H1. split; [apply HS; exact H1|flia]. }
      rewrite Q1. replace (k + Z.of_nat (Z.to_nat (k2 - k))) with k2 in * by flia. rewrite NZe, HBe in Q2. cbn [app] in Q2. change (0 + rr) with rr in Q2.
      rewrite NZe, Z.add_0_l in Q8. rewrite ES in S1.
      destruct (agree_aqs al k k' bF _ k2 AG ltac:(flia)) as [AN BN].
      destruct (refw_new bF act se al (k' - 1) k2 rw' bits' st1 P1 T1 rr (hb (aqs al c2) k (Z.to_nat (k2 - k))) (Z.to_nat (k' - (k2 + 1)) + fuel) LF ltac:(flia) Hse ltac:(flia))
        as (st2 & W1 & C2 & W2); try assumption; try flia.
      { intros H1. apply HS. apply Q8. exact H1. }
      rewrite W1. rewrite <- ES in W2.
      assert (Esg : negb (zat bF k2 <? 0) = negb (x =? 0)).
      { destruct (AG k2 ltac:(flia)) as [EQ _]. rewrite Ek', quot_exact in EQ by flia. rewrite (quot_sign _ (2 ^ al) PA) by (rewrite EQ; clear - Hsg; destruct Hsg as [-> | ->]; lia).
        rewrite EQ. unfold sg. destruct (x =? 0); reflexivity. }
      rewrite Esg in W2.
      pose proof (wadv_trans _ _ _ _ _ Q5 W2) as WW.
      replace (X1 ++ P1 ++ T1 ++ code_of act sr ++ [negb (x =? 0)] ++ hb (aqs al c2) k (Z.to_nat (k2 - k)))
        with ((P ++ T) ++ code_of act sr ++ [negb (x =? 0)] ++ hb (aqs al c2) k (Z.to_nat (k2 - k))) in WW by (rewrite <- Q6, <- !app_assoc; reflexivity).
      destruct (Z.eq_dec k' (k2 + 1)) as [EK|NK].
      * destruct (VN EK) as [EV _]. exists st2. replace (Z.to_nat (k' - (k2 + 1)) + fuel)%nat with fuel by flia. rewrite <- EK. split; [reflexivity|]. split; [exact C2|].
        rewrite EV, app_nil_r. rewrite <- app_assoc in WW. exact WW.
      * destruct (BW NK bF st2 0 [] [] [] fuel LF ltac:(intros j Hj; apply AG; flia) ltac:(split; [flia|]; left; auto) (fl_clean _ C2) ltac:(flia) ltac:(flia)) as (st' & W3 & W4 & W5).
        exists st'. split; [exact W3|]. split; [exact W4|]. cbn [app] in W5. pose proof (wadv_trans _ _ _ _ _ WW W5) as WW2. rewrite <- !app_assoc in WW2. exact WW2.
Qed.

(** * The last new coefficient *)

Lemma last_new_none bF al se : length bF = 64%nat -> 0 <= al -> se <= 63 -> forall fuel k e, 0 <= k <= se + 1 -> se + 2 <= k + Z.of_nat fuel ->
  (forall j, k <= j <= se -> aqs al bF j <> 1 /\ Z.abs (zat bF j) <= 32767) -> last_new fuel bF al k se e = JOk e.
Proof.
  intros L Ha Hse. induction fuel as [|f IH]; intros k e Hk Hf H; [lia|]. cbn [last_new]. destruct (Z.ltb_spec se k) as [H1|H1]; [reflexivity|].
  destruct (H k ltac:(lia)) as [A B]. rewrite abs_at_ok by (assumption || lia). cbn [jbind]. destruct (Z.eqb_spec (aqs al bF k) 1); [congruence|].
  apply IH; [lia|lia|]. intros j Hj. apply H. lia.
Qed.

Lemma last_new_at bF al se q : length bF = 64%nat -> 0 <= al -> se <= 63 -> forall fuel k e, 0 <= k <= q -> q <= se -> se + 2 <= k + Z.of_nat fuel ->
  aqs al bF q = 1 -> (forall j, k <= j <= se -> Z.abs (zat bF j) <= 32767) -> (forall j, q < j <= se -> aqs al bF j <> 1) -> last_new fuel bF al k se e = JOk q.
Proof.
  intros L Ha Hse. induction fuel as [|f IH]; intros k e Hk Hq Hf A1 HB HN; [lia|]. cbn [last_new]. destruct (Z.ltb_spec se k) as [H1|H1]; [lia|].
  rewrite abs_at_ok by (assumption || lia || (apply HB; lia)). cbn [jbind]. destruct (Z.eq_dec k q) as [->|Nk].
  - rewrite A1. change (1 =? 1) with true. cbv iota. apply last_new_none; try assumption; try lia. intros j Hj. split; [apply HN; lia|apply HB; lia].
  - apply IH; try assumption; try lia. intros j Hj. apply HB. lia.
Qed.

(** * A block of a refinement scan *)

Definition refine_written (act : codetab) (ss se al : Z) (reset : bool) (R R' : Z) (c' : list Z) (Y : list bool) : Prop :=
  forall bF st P, view ss se al bF c' -> pend st R P -> (ss = 0 -> clean st) ->
    exists st1 st' X P', (if reset then flush st else JOk st) = JOk st1
      /\ encode_refine bF act ss se al st1 = JOk st' /\ wadv st st' X /\ pend st' R' P' /\ P ++ Y = X ++ P' /\ (ss = 0 -> clean st').

(** The part of the writer behind the DC bit. *)
Definition refine_band (b : list Z) (act : codetab) (allowed : bool) (ss se al : Z) (st : wcs) : jres wcs :=
  let* eob := last_new 64 b al ss se 0 in
  let* (r, (bits, st)) := refw_ac 64 b act se al eob ss 0 [] st in
  if (0 <? r) || negb (Z.of_nat (length bits) =? 0) then
    let* st := buffer_eob act bits st in
    if allowed then JOk st else flush st
  else JOk st.

(** The tail of a block, after the last new coefficient: nothing is written. *)
Lemma refw_tail bF act se al eob st : length bF = 64%nat -> 0 <= al -> se <= 63 -> forall n k r g fuel, 1 <= k -> k + Z.of_nat n <= se + 1 -> eob < k ->
  (forall j, k <= j < k + Z.of_nat n -> aqs al bF j <> 1 /\ Z.abs (zat bF j) <= 32767) ->
  refw_ac (n + fuel) bF act se al eob k r (map b2z g) st
  = refw_ac fuel bF act se al eob (k + Z.of_nat n) (r + nz (aqs al bF) k n) (map b2z (g ++ hb (aqs al bF) k n)) st.
Proof.
  intros L Ha Hse. induction n as [|n IH]; intros k r g fuel Hk Hn He HA.
  - cbn [Nat.add nz hb]. rewrite app_nil_r, !Z.add_0_r. reflexivity.
  - cbn [Nat.add refw_ac nz hb]. destruct (Z.ltb_spec se k); [lia|]. destruct (HA k ltac:(lia)) as [A1 B1]. rewrite abs_at_ok by (assumption || lia). cbn [jbind].
    pose proof (aqs_nonneg al bF k) as P0. replace (k + Z.of_nat (S n)) with (k + 1 + Z.of_nat n) by lia.
    destruct (Z.eqb_spec (aqs al bF k) 0) as [E0|E0].
    + replace (1 <? aqs al bF k) with false by lia. rewrite IH; [|lia|lia|lia|intros; apply HA; lia]. cbn [app].
      replace (r + 1 + nz (aqs al bF) (k + 1) n) with (r + (1 + nz (aqs al bF) (k + 1) n)) by lia. reflexivity.
    + cbn [ref_zrl]. replace (k <=? eob) with false by lia. rewrite andb_false_r. cbn [jbind]. replace (1 <? aqs al bF k) with true by lia.
      rewrite land_1. replace (map b2z g ++ [b2z (Z.odd (aqs al bF k))]) with (map b2z (g ++ [Z.odd (aqs al bF k)])) by (rewrite map_app; reflexivity).
      rewrite IH; [|lia|lia|lia|intros; apply HA; lia]. rewrite Z.add_0_l, <- app_assoc. reflexivity.
Qed.

Lemma tail_written bF act se al eob k st : length bF = 64%nat -> 0 <= al -> se <= 63 -> 1 <= k <= se + 1 -> eob < k ->
  (forall j, k <= j <= se -> aqs al bF j <> 1 /\ Z.abs (zat bF j) <= 32767) -> forall fuel, se + 2 <= k + Z.of_nat fuel ->
  refw_ac fuel bF act se al eob k 0 [] st = JOk (nz (aqs al bF) k (Z.to_nat (se + 1 - k)), (map b2z (hb (aqs al bF) k (Z.to_nat (se + 1 - k))), st)).
Proof.
  intros L Ha Hse Hk He HN fuel Hf.
  replace fuel with (Z.to_nat (se + 1 - k) + S (fuel - Z.to_nat (se + 1 - k) - 1))%nat by lia.
  change [] with (map b2z []) at 1. rewrite refw_tail; [|assumption|lia|lia|lia|lia|lia|intros; apply HN; lia].
  cbn [refw_ac]. destruct (Z.ltb_spec se (k + Z.of_nat (Z.to_nat (se + 1 - k)))); [|lia]. reflexivity.
Qed.

Lemma stretch_nonempty A k n : (0 < n)%nat -> (forall i, 0 <= A i) -> (forall i, k <= i < k + Z.of_nat n -> A i <> 1) ->
  (0 <? nz A k n) || negb (Z.of_nat (length (map b2z (hb A k n))) =? 0) = true.
Proof.
  intros Hn HP HA. destruct n as [|n]; [lia|]. cbn [nz hb]. pose proof (nz_range A n (k + 1)). specialize (HA k ltac:(lia)). specialize (HP k).
  rewrite map_length, app_length. destruct (Z.eqb_spec (A k) 0); [replace (0 <? 1 + nz A (k + 1) n) with true by lia; reflexivity|].
  replace (1 <? A k) with true by lia. cbn [length]. replace (Z.of_nat (1 + length (hb A (k + 1) n)) =? 0) with false by lia. apply orb_true_r.
Qed.

(** A block in the middle of an end-of-block run. *)
Lemma band_in_run act se al s1 (allowed : bool) bF st R P : length bF = 64%nat -> 0 <= al -> 1 <= s1 <= se -> se <= 63 ->
  (forall j, s1 <= j <= se -> aqs al bF j <> 1 /\ Z.abs (zat bF j) <= 32767) -> pend st R P -> 0 < R -> allowed = true ->
  exists st' X P', refine_band bF act allowed s1 se al st = JOk st' /\ wadv st st' X /\ pend st' (R - 1) P'
    /\ X ++ P' = P ++ hb (aqs al bF) s1 (Z.to_nat (se + 1 - s1)).
Proof.
  intros L Ha Hs Hse HN PD HR ->. unfold refine_band.
  rewrite last_new_none by (assumption || lia || (intros; apply HN; lia)). cbn [jbind].
  rewrite tail_written by (assumption || lia || (intros; apply HN; lia)). cbn [jbind].
  rewrite stretch_nonempty by (lia || apply aqs_nonneg || (intros; apply HN; lia)).
  destruct (pend_extend act (hb (aqs al bF) s1 (Z.to_nat (se + 1 - s1))) st R P PD HR) as (st' & X & P' & Q1 & Q2 & Q3 & Q4).
  { pose proof (hb_length (aqs al bF) (Z.to_nat (se + 1 - s1)) s1). lia. }
  rewrite Q1. cbn [jbind]. exists st', X, P'. auto.
Qed.

(** A block in which a band is read. *)
Lemma band_ok data p0 lut act s1 se al allowed r U : bytes data -> slot_ok lut act -> 1 <= s1 <= se -> se <= 63 -> 0 <= al <= 10 ->
  length (rb_c r) = 64%nat -> (forall j, s1 <= j <= se -> hist_ok al (zat (rb_c r) j)) -> rb_reset r = false ->
  rb_eob r <= 0 -> bri data p0 U (rb_s r) ->
  match
    (let* (k, (zr, r)) := ref_ac 64 data lut s1 se al allowed s1 false r in
     if zr then JErr
     else
      let* (s, c) := (if 0 <? rb_eob r then ref_tail 65 data se al k (rb_s r) (rb_c r) else JOk (rb_s r, rb_c r)) in
      JOk (mkRB s (rb_eob r - 1) (rb_reset r) (rb_nzr r) c)) with
  | JUB => False
  | JErr => True
  | JOk r' => length (rb_c r') = 64%nat
      /\ (forall j, 0 <= j < 64 -> ~ (s1 <= j <= se) -> zat (rb_c r') j = zat (rb_c r) j)
      /\ (forall j, s1 <= j <= se -> refd al (zat (rb_c r) j) (zat (rb_c r') j))
      /\ rb_nzr r' = rb_nzr r /\ (allowed = false -> rb_eob r' <= 0 /\ rb_reset r' = false)
      /\ exists Y, Y <> [] /\ bri data p0 (U ++ Y) (rb_s r')
        /\ forall bF st P, length bF = 64%nat -> agree al s1 (se + 1) bF (rb_c r') -> pend st (rb_eob r) P -> (allowed = false -> clean st) ->
            exists st1 st' X P', (if rb_reset r' then flush st else JOk st) = JOk st1
              /\ refine_band bF act allowed s1 se al st1 = JOk st'
              /\ wadv st st' X /\ pend st' (rb_eob r') P' /\ P ++ Y = X ++ P' /\ (allowed = false -> clean st')
  end.
Proof.
  intros Y SL Hs Hse Hal L HH Hr0 HR I.
  pose proof (ref_ac_ok data p0 lut act s1 se al allowed Y SL ltac:(lia) Hse Hal 64 s1 false r U ltac:(lia) ltac:(lia) ltac:(lia) ltac:(lia) L HH I) as D.
  destruct (ref_ac 64 data lut s1 se al allowed s1 false r) as [[k [zr r1]]| |]; [|exact Logic.I|exact D]. cbn [jbind].
  destruct zr; [exact Logic.I|]. destruct (D eq_refl) as (L1 & O1 & RF1 & NZ1 & K1 & V & eb & Ib & En & LN & VN & NE & BW). clear D.
  (* the block behind the tail *)
  assert (exists s2 c2, (if 0 <? rb_eob r1 then ref_tail 65 data se al k (rb_s r1) (rb_c r1) else JOk (rb_s r1, rb_c r1)) = JOk (s2, c2)
     /\ length c2 = 64%nat /\ (forall j, 0 <= j < 64 -> ~ (k <= j <= se) -> zat c2 j = zat (rb_c r1) j)
     /\ (forall j, k <= j <= se -> refd al (zat (rb_c r1) j) (zat c2 j) /\ aqs al c2 j <> 1)
     /\ bri data p0 ((U ++ V ++ eb) ++ hb (aqs al c2) k (Z.to_nat (se + 1 - k))) s2) as (s2 & c2 & E2 & L2 & O2 & R2 & I2).
  { destruct (Z.ltb_spec 0 (rb_eob r1)) as [H|H].
    - apply ref_tail_ok; try assumption; try lia. intros j Hj. rewrite O1 by lia. apply HH. lia.
    - destruct En as [(Ek & _)|(_ & Ee & _)]; [|lia]. exists (rb_s r1), (rb_c r1). split; [reflexivity|]. split; [exact L1|]. split; [auto|]. split; [lia|].
      replace (Z.to_nat (se + 1 - k)) with 0%nat by lia. cbn [hb]. rewrite app_nil_r. exact Ib. }
  rewrite E2. cbn [jbind rb_c rb_s rb_eob rb_reset rb_nzr].
  split; [exact L2|]. split; [intros j Hj HN; rewrite O2 by lia; apply O1; lia|]. split.
  { intros j Hj. destruct (Z_lt_ge_dec j k) as [H|H]; [rewrite O2 by lia; apply RF1; lia|]. rewrite <- (O1 j) by lia. apply R2. lia. }
  split; [exact NZ1|]. split.
  { intros Ha. destruct En as [(_ & _ & E1 & E3)|(_ & E1 & _ & _ & E3 & E4)]; [split; [lia|congruence]|]. rewrite Ha in E4. split; [specialize (E3 Ha); lia|cbn [andb] in E4; congruence]. }
  set (HB := hb (aqs al c2) k (Z.to_nat (se + 1 - k))) in *.
  exists (V ++ eb ++ HB). split.
  { intros Q. apply (NE ltac:(lia)). apply app_eq_nil in Q as [Q1 Q]. apply app_eq_nil in Q as [Q2 _]. rewrite Q1, Q2. reflexivity. }
  split; [rewrite <- !app_assoc in I2; exact I2|].
  intros bF st P LF AG PD HC. destruct (pend_flush st _ P PD HR) as (stf & FL & CLf & Af).
  assert (AQ2 : forall j, s1 <= j <= se -> aqs al bF j = aqs al c2 j /\ Z.abs (zat bF j) <= 32767) by (intros j Hj; apply (agree_aqs al s1 (se + 1)); [exact AG|lia]).
  assert (EHB : hb (aqs al bF) k (Z.to_nat (se + 1 - k)) = HB) by (apply hb_ext; intros j Hj; apply AQ2; lia).
  assert (HNT : forall j, k <= j <= se -> aqs al bF j <> 1 /\ Z.abs (zat bF j) <= 32767).
  { intros j Hj. destruct (AQ2 j ltac:(lia)) as [Q1 Q2]. split; [rewrite Q1; apply R2; lia|exact Q2]. }
  (* the state before the band, flushed or not *)
  assert (exists st1, (if rb_reset r1 then flush st else JOk st) = JOk st1 /\ exists P1 P2, P = P1 ++ P2 /\ wadv st st1 P1 /\ fl st1 P2
            /\ (k = s1 -> clean st1 /\ P2 = [])) as (st1 & E1 & P1 & P2 & EP & A1 & F1 & HCl).
  { destruct (rb_reset r1) eqn:Er.
    - exists stf. split; [exact FL|]. exists P, []. split; [symmetry; apply app_nil_r|]. split; [exact Af|]. split; [apply fl_clean; exact CLf|]. intros; split; [exact CLf|reflexivity].
    - exists st. split; [reflexivity|]. exists [], P. split; [reflexivity|]. split; [apply wadv_refl|]. split; [exists stf; auto|].
      intros E. destruct En as [(E0 & _)|(E0 & _ & _ & _ & _ & E4)]; [lia|].
      rewrite Hr0 in E4. destruct allowed.
      + replace (k + 16 * 0 =? s1) with true in E4 by lia. destruct (Z.eqb_spec (rb_eob r) 0) as [Q|Q]; [discriminate|].
        apply (pend_neg st _ P PD). lia.
      + specialize (HC eq_refl). split; [exact HC|]. destruct HC as (Z0 & _). destruct (pend_zero st _ P PD Z0) as (_ & EP & _). exact EP. }
  (* up to the last new coefficient *)
  assert (exists st2 eobp, last_new 64 bF al s1 se 0 = JOk eobp /\ eobp < k /\ clean st2 /\ wadv st1 st2 (P2 ++ V)
            /\ refw_ac 64 bF act se al eobp s1 0 [] st1 = refw_ac (64 - Z.to_nat (k - s1)) bF act se al eobp k 0 [] st2) as (st2 & eobp & EL & HE & C2 & A2 & EW).
  { destruct (Z.eq_dec k s1) as [Ek|Nk].
    - destruct (HCl Ek) as [C1 EP2]. exists st1, 0. split; [apply last_new_none; try assumption; try lia; intros j Hj; apply HNT; lia|]. split; [lia|]. split; [exact C1|].
      destruct (VN Ek) as [-> _]. rewrite EP2. split; [apply wadv_refl|]. rewrite Ek. replace (64 - Z.to_nat (s1 - s1))%nat with 64%nat by lia. reflexivity.
    - assert (AN : aqs al bF (k - 1) = 1). { destruct (AQ2 (k - 1) ltac:(lia)) as [Q _]. rewrite Q. unfold aqs in *. rewrite O2 by lia. apply LN. exact Nk. }
      destruct (BW Nk bF st1 0 [] P2 [] (64 - Z.to_nat (k - s1))%nat LF) as (st2 & W1 & W2 & W3); try assumption; try lia.
      { intros j Hj. destruct (AG j ltac:(lia)) as [Q1 Q2]. rewrite (O2 j) in Q1 by flia. split; assumption. } { split; [lia|]. left. auto. }
      exists st2, (k - 1). split; [apply last_new_at; [exact LF|lia|exact Hse|lia|lia|lia|exact AN|intros j Hj; apply AQ2; lia|intros j Hj; apply HNT; lia]|].
      split; [lia|]. split; [exact W2|]. split; [exact W3|]. replace 64%nat with (Z.to_nat (k - s1) + (64 - Z.to_nat (k - s1)))%nat at 1 by lia. exact W1. }
  (* the tail and the end of the block *)
  assert (exists st' X2 P', refine_band bF act allowed s1 se al st1 = JOk st' /\ wadv st2 st' X2 /\ pend st' (rb_eob r1 - 1) P' /\ X2 ++ P' = eb ++ HB
            /\ (allowed = false -> clean st')) as (st' & X2 & P' & E3 & A3 & PD3 & EX3 & C3).
  { unfold refine_band. rewrite EL. cbn [jbind]. rewrite EW. rewrite tail_written by (assumption || lia). cbn [jbind]. rewrite EHB.
    destruct En as [(E & Eb & Ee & _)|(E & He & SE & Eb & Ea & _)].
    - assert (k = se + 1) by lia. unfold HB in *. replace (Z.to_nat (se + 1 - k)) with 0%nat in * by lia. cbn [nz hb map length]. change (0 <? 0) with false. change (Z.of_nat 0 =? 0) with true. cbn [orb negb].
      exists st2, [], []. split; [reflexivity|]. split; [apply wadv_refl|]. split; [apply pend_clean; [exact C2|lia]|]. rewrite Eb. auto.
    - replace ((0 <? nz (aqs al bF) k (Z.to_nat (se + 1 - k))) || negb (Z.of_nat (length (map b2z HB)) =? 0)) with true
        by (rewrite <- EHB; symmetry; apply stretch_nonempty; [lia|apply aqs_nonneg|intros; apply HNT; lia]).
      destruct (pend_new act HB st2 (rb_eob r1) C2 ltac:(lia) SE) as (st4 & X4 & P4 & Q1 & Q2 & Q3 & Q4).
      { unfold HB. pose proof (hb_length (aqs al c2) (Z.to_nat (se + 1 - k)) k). lia. }
      rewrite Q1. cbn [jbind]. destruct allowed.
      + exists st4, X4, P4. split; [reflexivity|]. split; [exact Q2|]. split; [exact Q3|]. split; [congruence|discriminate].
      + specialize (Ea eq_refl). rewrite Ea in *. destruct (pend_flush st4 _ P4 Q3 ltac:(lia)) as (st5 & F5 & C5 & A5).
        exists st5, (X4 ++ P4), []. split; [exact F5|]. split; [eapply wadv_trans; eauto|]. split; [apply pend_clean; [exact C5|lia]|].
        split; [rewrite app_nil_r; congruence|auto]. }
  exists st1, st', (P1 ++ (P2 ++ V) ++ X2), P'. split; [exact E1|]. split; [exact E3|].
  split; [eapply wadv_trans; [exact A1|]; eapply wadv_trans; eauto|]. split; [exact PD3|]. split; [|exact C3]. rewrite EP, <- EX3, <- !app_assoc. reflexivity.
Qed.

Lemma dc_refined al dc x : 0 <= al <= 14 -> i16 dc -> (2 ^ (al + 1) | dc) -> 0 <= x < 2 ->
  to_i16 (Z.lor dc (x * 2 ^ al)) = dc + x * 2 ^ al /\ i16 (dc + x * 2 ^ al) /\ (dc + x * 2 ^ al) / 2 ^ al mod 2 = x
  /\ (2 ^ al | dc + x * 2 ^ al) /\ (dc + x * 2 ^ al) / 2 ^ (al + 1) = dc / 2 ^ (al + 1).
Proof.
  intros Ha HI [q E] Hx. destruct (pow_al al ltac:(lia)) as [P E2].
  assert (P15 : 2 ^ (al + 1) * 2 ^ (14 - al) = 32768) by (rewrite <- Z.pow_add_r by lia; replace (al + 1 + (14 - al)) with 15 by lia; reflexivity).
  pose proof (Z.pow_pos_nonneg 2 (14 - al) ltac:(lia) ltac:(lia)) as P2.
  assert (EL : Z.lor dc (x * 2 ^ al) = dc + x * 2 ^ al).
  { rewrite Z.lor_comm, E. rewrite lor_disjoint_add by nia. lia. }
  unfold i16 in *. assert (HB : -32768 <= dc + x * 2 ^ al <= 32767).
  { split; [nia|]. assert (q <= 2 ^ (14 - al) - 1) by nia. nia. }
  rewrite EL. rewrite to_i16_small by lia. split; [reflexivity|]. split; [exact HB|].
  replace (dc + x * 2 ^ al) with ((q * 2 + x) * 2 ^ al) by lia. rewrite Z.div_mul by lia. split; [rewrite Z.add_comm, Z.mod_add by lia; apply Z.mod_small; lia|].
  split; [exists (q * 2 + x); reflexivity|].
  replace ((q * 2 + x) * 2 ^ al) with (x * 2 ^ al + q * 2 ^ (al + 1)) by lia. rewrite Z.div_add, Z.div_small by nia. rewrite E, Z.div_mul by lia. lia.
Qed.

Lemma refine_block_ok data p0 acl act ss se al r U :
  bytes data -> (0 < se -> slot_ok acl act) -> 0 <= ss <= se -> se <= 63 -> 0 <= al <= 10 ->
  length (rb_c r) = 64%nat -> (forall j, Z.max 1 ss <= j <= se -> hist_ok al (zat (rb_c r) j)) ->
  (ss = 0 -> i16 (zat (rb_c r) 0) /\ (2 ^ (al + 1) | zat (rb_c r) 0)) -> rb_reset r = false -> rb_nzr r = 0 ->
  (ss = 0 -> rb_eob r <= 0) -> bri data p0 U (rb_s r) ->
  match refine_block data acl ss se al r with
  | JUB => False
  | JErr => True
  | JOk r' => length (rb_c r') = 64%nat
      /\ (forall j, 0 <= j < 64 -> ~ (ss <= j <= se) -> zat (rb_c r') j = zat (rb_c r) j)
      /\ (forall j, Z.max 1 ss <= j <= se -> refd al (zat (rb_c r) j) (zat (rb_c r') j))
      /\ (ss = 0 -> i16 (zat (rb_c r') 0) /\ (2 ^ al | zat (rb_c r') 0) /\ zat (rb_c r') 0 / 2 ^ (al + 1) = zat (rb_c r) 0 / 2 ^ (al + 1))
      /\ rb_nzr r' = 0 /\ (ss = 0 -> rb_eob r' <= 0)
      /\ exists Y, bri data p0 (U ++ Y) (rb_s r') /\ (rb_eob r <= 0 -> Y <> [])
         /\ refine_written act ss se al (rb_reset r') (rb_eob r) (rb_eob r') (rb_c r') Y
  end.
Proof.
  intros Y SA Hs Hse Hal L HH HD Hr0 Hn0 HE I. unfold refine_block.
  destruct (Z.eqb_spec ss 0) as [E0|E0].
  - specialize (HE E0). destruct (HD E0) as [D1 D2].
    destruct (read_ok data p0 U (rb_s r) 1 Y I ltac:(lia)) as (x & s & R & Rx & I1). rewrite R. cbn [jbind].
    change (2 ^ 1) with 2 in Rx. change (Z.to_nat 1) with 1%nat in I1. rewrite mval_bit in I1 by exact Rx.
    rewrite aget_0 by exact L. cbn [jbind]. rewrite aset_0 by exact L. cbn [jbind].
    destruct (dc_refined al (zat (rb_c r) 0) x ltac:(lia) D1 D2 Rx) as (Q1 & Q2 & Q3 & Q4 & Q5). rewrite Q1.
    set (dc := zat (rb_c r) 0 + x * 2 ^ al) in *. set (c1 := zup (rb_c r) 0 dc).
    assert (L1 : length c1 = 64%nat) by (unfold c1; rewrite zup_length; exact L).
    assert (Ec : zat c1 0 = dc) by (apply zat_zup_same; [exact L|lia]).
    assert (Eo : forall j, 1 <= j < 64 -> zat c1 j = zat (rb_c r) j) by (intros j Hj; apply zat_zup_other; lia).
    assert (WD : forall bF st, zat bF 0 / 2 ^ al = dc / 2 ^ al -> wput st (put (WBitsOp 1 (Z.land (Z.shiftr (zat bF 0) al) 1)) st) [negb (x =? 0)]).
    { intros bF st Q. rewrite Z.shiftr_div_pow2, Q by lia. rewrite <- mval_bit by exact Rx.
      assert (EL : Z.land (dc / 2 ^ al) 1 = x) by (change 1 with (2 ^ 1 - 1) at 1; rewrite land_mask by lia; exact Q3).
      rewrite EL. change 1%nat with (Z.to_nat 1). apply put_put; lia. }
    destruct (Z.ltb_spec se 1) as [H1|H1].
    + cbn [rb_c rb_s rb_eob rb_reset rb_nzr]. split; [exact L1|]. split; [intros j Hj HN; apply Eo; lia|]. split; [lia|]. split; [rewrite Ec; auto|]. split; [exact Hn0|]. split; [auto|].
      exists [negb (x =? 0)]. split; [exact I1|]. split; [discriminate|].
      intros bF st P (LF & V & _) PD HC. rewrite Hr0. specialize (HC E0). specialize (V E0). rewrite Ec in V. pose proof (WD bF st V) as A'.
      exists st, (put (WBitsOp 1 (Z.land (Z.shiftr (zat bF 0) al) 1)) st), [negb (x =? 0)], []. split; [reflexivity|]. split.
      * unfold encode_refine. rewrite E0. change (0 =? 0) with true. cbv iota zeta. rewrite aget_0 by exact LF. cbn [jbind].
        destruct (Z.ltb_spec se 1); [reflexivity|lia].
      * split; [exact (wput_adv _ _ _ A')|]. pose proof (wput_clean _ _ _ A' HC) as C'. split; [apply pend_clean; [exact C'|lia]|].
        destruct HC as (Z0 & HC). destruct (pend_zero st _ P PD Z0) as (_ & EP & _). rewrite EP, app_nil_r. split; [reflexivity|auto].
    + replace (0 <? ss) with false by lia.
      set (r2 := mkRB s (rb_eob r) (rb_reset r) (rb_nzr r) c1).
      pose proof (band_ok data p0 acl act 1 se al false r2 (U ++ [negb (x =? 0)]) Y (SA ltac:(lia)) ltac:(lia) Hse Hal L1) as A.
      specialize (A ltac:(intros j Hj; cbn [r2 rb_c]; rewrite Eo by lia; apply HH; lia) Hr0 HE I1).
      change (rb_eob r2) with (rb_eob r). replace (rb_eob r <=? 0) with true by lia. cbv iota.
      destruct (let* (k, (zr, r0)) := ref_ac 64 data acl 1 se al false 1 false r2 in _) as [r3| |]; [|exact Logic.I|exact A].
      destruct A as (L3 & O3 & RF & Hn3 & HA & YA & NY & I3 & WA). destruct (HA eq_refl) as [He3 Hr3].
      assert (V3 : zat (rb_c r3) 0 = dc) by (rewrite O3 by lia; exact Ec).
      split; [exact L3|]. split; [intros j Hj HN; rewrite O3 by lia; apply Eo; lia|]. split.
      { intros j Hj. rewrite <- Eo by slia. apply RF. lia. }
      split; [rewrite V3; auto|]. split; [rewrite Hn3; exact Hn0|]. split; [auto|].
      exists ([negb (x =? 0)] ++ YA). split; [rewrite app_assoc; exact I3|]. split; [discriminate|].
      intros bF st P (LF & V & VA) PD HC. specialize (HC E0). pose proof HC as (Z0 & _). destruct (pend_zero st _ P PD Z0) as (_ & EP & _).
      specialize (V E0). rewrite V3 in V. pose proof (WD bF st V) as A1.
      set (st1 := put _ st) in *. assert (C1 : clean st1) by (eapply wput_clean; eauto).
      destruct (WA bF st1 [] LF) as (sta & st' & X & P' & W1 & W2 & W3 & W4 & W5 & W6).
      { intros j Hj. apply VA. flia. } { apply pend_clean; [exact C1|exact HE]. } { auto. }
      rewrite Hr3 in W1 |- *. injection W1 as <-.
      exists st, st', ([negb (x =? 0)] ++ X), P'. split; [reflexivity|]. split.
      * unfold encode_refine. rewrite E0. change (0 =? 0) with true. change (0 <? 0) with false. cbv iota zeta. rewrite aget_0 by exact LF. cbn [jbind]. fold st1.
        destruct (Z.ltb_spec se 1); [lia|]. exact W2.
      * split; [eapply wadv_trans; [exact (wput_adv _ _ _ A1)|exact W3]|]. split; [exact W4|]. split; [|auto].
        cbn [app] in W5. rewrite EP, W5. reflexivity.
  - cbn [jbind]. destruct (Z.ltb_spec se ss) as [H1|H1]; [lia|]. replace (0 <? ss) with true by lia.
    assert (Em : Z.max 1 ss = ss) by lia. rewrite Em in *.
    destruct (Z.leb_spec (rb_eob r) 0) as [H2|H2].
    + pose proof (band_ok data p0 acl act ss se al true r U Y (SA ltac:(lia)) ltac:(lia) Hse Hal L HH Hr0 H2 I) as A.
      destruct (let* (k, (zr, r0)) := ref_ac 64 data acl ss se al true ss false r in _) as [r3| |]; [|exact Logic.I|exact A].
      destruct A as (L3 & O3 & RF & Hn3 & _ & YA & NY & I3 & WA).
      split; [exact L3|]. split; [exact O3|]. split; [exact RF|]. split; [congruence|]. split; [rewrite Hn3; exact Hn0|]. split; [congruence|].
      exists YA. split; [exact I3|]. split; [auto|].
      intros bF st P (LF & _ & V) PD _. rewrite Em in V.
      destruct (WA bF st P LF ltac:(intros j Hj; apply V; lia) PD ltac:(discriminate)) as (sta & st' & X & P' & W1 & W2 & W3 & W4 & W5 & W6).
      exists sta, st', X, P'. split; [exact W1|]. split; [|split; [exact W3|]; split; [exact W4|]; split; [exact W5|congruence]].
      unfold encode_refine. destruct (Z.eqb_spec ss 0); [congruence|]. cbn [jbind]. destruct (Z.ltb_spec se ss); [lia|]. replace (0 <? ss) with true by lia. exact W2.
    + cbn [jbind]. replace (0 <? rb_eob r) with true by lia.
      destruct (ref_tail_ok data p0 se al Y Hal Hse 65 ss (rb_s r) (rb_c r) U ltac:(lia) ltac:(lia) L HH I) as (s2 & c2 & E2 & L2 & O2 & R2 & I2).
      rewrite E2. cbn [jbind rb_c rb_s rb_eob rb_reset rb_nzr]. split; [exact L2|]. split; [exact O2|]. split; [intros j Hj; apply R2; exact Hj|]. split; [congruence|]. split; [exact Hn0|]. split; [congruence|].
      exists (hb (aqs al c2) ss (Z.to_nat (se + 1 - ss))). split; [exact I2|]. split; [lia|].
      intros bF st P (LF & _ & V) PD _. rewrite Em in V. rewrite Hr0.
      assert (AG : agree al ss (se + 1) bF c2) by (intros j Hj; apply V; lia).
      destruct (band_in_run act se al ss true bF st (rb_eob r) P LF ltac:(lia) ltac:(lia) Hse) as (st' & X & P' & W1 & W2 & W3 & W4); try assumption; try reflexivity.
      { intros j Hj. destruct (agree_aqs al ss (se + 1) bF c2 j AG ltac:(lia)) as [Q1 Q2]. split; [rewrite Q1; apply R2; lia|exact Q2]. }
      exists st, st', X, P'. split; [reflexivity|]. split; [|split; [exact W2|]; split; [exact W3|]; split; [|congruence]].
      * unfold encode_refine. destruct (Z.eqb_spec ss 0); [congruence|]. cbn [jbind]. destruct (Z.ltb_spec se ss); [lia|]. replace (0 <? ss) with true by lia. exact W1.
      * rewrite W4. f_equal. apply hb_ext. intros j Hj. symmetry. apply (agree_aqs al ss (se + 1) bF c2 j AG). lia.
Qed.
