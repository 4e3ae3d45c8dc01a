(** Refinement scans, second part: the writer's loop and whole blocks. *)
From Verif Require Import Base JpegModel LehmerModel CoefModel JBitModel JWriteProofs JReadProofs
  JHuffModel JHuffProofs JHuffPair JScanModel JScanProofs1 JScanProofs2 JScanProofs3.
From Coq Require Import ZifyBool ZifyNat.

(** * Writer: one step *)

(** [st] can be flushed, which writes [P]. *)
Definition fl (st : wcs) (P : list bool) : Prop := exists stf, flush st = JOk stf /\ clean stf /\ wadv st stf P.

Lemma fl_clean st : clean st -> fl st [].
Proof. intros C. exists st. split; [apply clean_flush; exact C|]. split; [exact C|apply wadv_refl]. Qed.

Lemma put_each_ok g : forall st, wput st (put_each (map b2z g) st) g.
Proof.
  unfold put_each. induction g as [|b g IH]; intros st; [apply wput_refl|]. cbn [map fold_left].
  change (b :: g) with ([b] ++ g). eapply wput_trans; [|apply IH].
  replace [b] with (mbits (Z.to_nat 1) (b2z b)) by (destruct b; reflexivity). apply put_put; destruct b; cbn [b2z]; lia.
Qed.

(** The writer's counters while [T] (whole zero runs with their bits) has not been written
    yet, and [j] zeros and the bits [g] have been seen since. *)
Definition gi (tab : codetab) (r : Z) (bits : list Z) (T : list bool) (j : Z) (g : list bool) : Prop :=
  0 <= j /\
  ((r = j /\ bits = map b2z g /\ T = [])
   \/ (g = [] /\ exists m B, 1 <= m /\ r = 16 * m + j /\ bits = map b2z B /\ T = code_of tab 240 ++ B ++ zrls tab (m - 1))).

Lemma gi_zero tab r bits T j g : gi tab r bits T j g -> gi tab (r + 1) bits T (j + 1) g.
Proof.
  intros (H & [(E1 & E2 & E3)|(E & m & B & Hm & E1 & E2 & E3)]); (split; [lia|]).
  - left. split; [lia|]. auto.
  - right. split; [exact E|]. exists m, B. split; [exact Hm|]. split; [lia|]. auto.
Qed.

(** The end of a zero run of the reader. *)
Lemma gi_run tab r bits T g : gi tab r bits T 16 g -> gi tab r bits (T ++ code_of tab 240 ++ g) 0 [].
Proof.
  intros (_ & [(E1 & E2 & E3)|(E & m & B & Hm & E1 & E2 & E3)]); (split; [lia|]); right; (split; [reflexivity|]).
  - exists 1, g. split; [lia|]. split; [lia|]. split; [exact E2|]. rewrite E3. cbn [app]. change (1 - 1) with 0. rewrite zrls_0, app_nil_r. reflexivity.
  - exists (m + 1), B. split; [lia|]. split; [lia|]. split; [exact E2|]. rewrite E3, E, app_nil_r.
    replace (m + 1 - 1) with (m - 1 + 1) by lia. rewrite zrls_S by lia. rewrite <- !app_assoc. reflexivity.
Qed.

(** [while (r > 15 && k <= eob)]. *)
Lemma ref_zrl_clean tab k eob j : sym_ok tab 240 -> k <= eob -> 0 <= j < 16 -> forall fuel m st, 0 <= m < Z.of_nat fuel -> clean st ->
  exists st', ref_zrl fuel tab k eob (16 * m + j) [] st = JOk (j, ([], st')) /\ clean st' /\ wadv st st' (zrls tab m).
Proof.
  intros S He Hj. induction fuel as [|f IH]; intros m st Hm C; [lia|]. cbn [ref_zrl].
  destruct (Z.ltb_spec 15 (16 * m + j)) as [H|H]; cbn [andb].
  - replace (k <=? eob) with true by lia. rewrite (clean_flush _ C). cbn [jbind]. destruct (put_sym_put tab 240 st S) as (st1 & E1 & A1). rewrite E1. cbn [jbind].
    unfold put_each. cbn [fold_left]. replace (16 * m + j - 16) with (16 * (m - 1) + j) by lia.
    destruct (IH (m - 1) st1 ltac:(lia) (wput_clean _ _ _ A1 C)) as (st2 & E2 & C2 & A2). exists st2. split; [exact E2|]. split; [exact C2|].
    replace m with (m - 1 + 1) by lia. rewrite zrls_S' by lia. eapply wadv_trans; [exact (wput_adv _ _ _ A1)|exact A2].
  - replace m with 0 by lia. exists st. replace (16 * 0 + j) with j by lia. split; [reflexivity|]. split; [exact C|apply wadv_refl].
Qed.

Lemma gi_nonempty tab r bits T j g : sym_ok tab 240 -> gi tab r bits T j g -> r <> j -> T <> [].
Proof.
  intros S (Hj & [(E1 & E2 & E3)|(E & m & B & Hm & E1 & E2 & E3)]) H; [lia|]. rewrite E3. intros Q. apply app_eq_nil in Q as [Q _].
  exact (code_of_nonempty _ _ S Q).
Qed.

Lemma ref_zrl_S f tab k eob r bits st : ref_zrl (S f) tab k eob r bits st =
  if (15 <? r) && (k <=? eob) then
    let* st := flush st in let* st := put_sym tab 240 st in ref_zrl f tab k eob (r - 16) [] (put_each bits st)
  else JOk (r, (bits, st)).
Proof. reflexivity. Qed.

Lemma ref_zrl_ok tab k eob r bits st P T j g : gi tab r bits T j g -> fl st P -> r < 64 ->
  (r <> j -> sym_ok tab 240 /\ k <= eob /\ j <= 15) -> (j <= 15 \/ eob < k) ->
  exists st' P' X, ref_zrl 5 tab k eob r bits st = JOk (j, (map b2z g, st')) /\ fl st' P' /\ wadv st st' X /\ X ++ P' = P ++ T
    /\ (r = j -> st' = st /\ P' = P).
Proof.
  intros (Hj & [(E1 & E2 & E3)|(E & m & B & Hm & E1 & E2 & E3)]) F Hr HT HJ.
  - exists st, P, []. split.
    + cbn [ref_zrl]. replace ((15 <? r) && (k <=? eob)) with false by (destruct (Z.ltb_spec 15 r), (Z.leb_spec k eob); cbn [andb]; try reflexivity; lia).
      rewrite E1, E2. reflexivity.
    + split; [exact F|]. split; [apply wadv_refl|]. rewrite E3, app_nil_r. split; [reflexivity|auto].
  - destruct (HT ltac:(lia)) as (S & He & H15). destruct F as (stf & FL & CL & A).
    rewrite (ref_zrl_S 4). replace (15 <? r) with true by lia. replace (k <=? eob) with true by lia. cbn [andb]. rewrite FL. cbn [jbind].
    destruct (put_sym_put tab 240 stf S) as (st1 & Q1 & A1). rewrite Q1. cbn [jbind]. rewrite E2.
    pose proof (put_each_ok B st1) as A2. set (st2 := put_each (map b2z B) st1) in *.
    assert (C2 : clean st2) by (eapply wput_clean; [exact A2|]; eapply wput_clean; [exact A1|exact CL]).
    replace (r - 16) with (16 * (m - 1) + j) by lia.
    destruct (ref_zrl_clean tab k eob j S He ltac:(lia) 4 (m - 1) st2 ltac:(lia) C2) as (st3 & Q3 & C3 & A3).
    exists st3, [], (P ++ code_of tab 240 ++ B ++ zrls tab (m - 1)). rewrite E. split; [exact Q3|]. split; [apply fl_clean; exact C3|]. split.
    + eapply wadv_trans; [exact A|]. eapply wadv_trans; [exact (wput_adv _ _ _ A1)|]. eapply wadv_trans; [exact (wput_adv _ _ _ A2)|exact A3].
    + rewrite app_nil_r, E3. split; [reflexivity|lia].
Qed.

(** * Writer: a stretch without new coefficients *)

Lemma abs_at_ok bF al k : length bF = 64%nat -> 0 <= al -> 0 <= k < 64 -> Z.abs (zat bF k) <= 32767 -> abs_at bF al k = JOk (aqs al bF k).
Proof.
  intros L Ha Hk B. unfold abs_at. rewrite zz_get_ok by assumption. cbn [jbind]. rewrite to_i16_small by lia. rewrite quot_abs_shift by exact Ha. reflexivity.
Qed.

Lemma land_1 a : Z.land a 1 = b2z (Z.odd a).
Proof. change 1 with (Z.ones 1) at 1. rewrite Z.land_ones by lia. change (2 ^ 1) with 2. rewrite Zmod_odd. destruct (Z.odd a); reflexivity. Qed.

Lemma refw_stretch bF tab se al eob : length bF = 64%nat -> 0 <= al -> se <= 63 -> forall n k r bits st P T j g fuel,
  0 <= k -> k + Z.of_nat n <= se + 1 -> (forall i, k <= i < k + Z.of_nat n -> aqs al bF i <> 1 /\ Z.abs (zat bF i) <= 32767) -> (forall i, 0 <= aqs al bF i) ->
  gi tab r bits T j g -> fl st P -> r <= k ->
  (r <> j -> sym_ok tab 240 /\ k + Z.of_nat n <= eob + 1) ->
  (j + nz (aqs al bF) k n <= 15 \/ (r = j /\ eob < k)) ->
  exists r' bits' st' P' T' X, refw_ac (n + fuel) bF tab se al eob k r bits st = refw_ac fuel bF tab se al eob (k + Z.of_nat n) r' bits' st'
    /\ gi tab r' bits' T' (j + nz (aqs al bF) k n) (g ++ hb (aqs al bF) k n) /\ fl st' P' /\ r' <= k + Z.of_nat n /\ wadv st st' X /\ X ++ P' ++ T' = P ++ T
    /\ (r = j -> st' = st /\ P' = P /\ r' = j + nz (aqs al bF) k n)
    /\ (r' <> j + nz (aqs al bF) k n -> r <> j).
Proof.
  intros L Ha Hse. induction n as [|n IH]; intros k r bits st P T j g fuel Hk Hn HA HP G F Hr HS HJ.
  - exists r, bits, st, P, T, []. cbn [nz hb Nat.add]. rewrite app_nil_r, !Z.add_0_r. split; [reflexivity|]. split; [exact G|]. split; [exact F|]. split; [lia|]. split; [apply wadv_refl|].
    split; [reflexivity|]. split; [auto|]. auto.
  - destruct (HA k ltac:(lia)) as [A1 B1]. cbn [Nat.add refw_ac nz hb] in *. destruct (Z.ltb_spec se k); [lia|].
    rewrite abs_at_ok by (assumption || lia). cbn [jbind]. pose proof (HP k) as PK. pose proof (nz_range (aqs al bF) n (k + 1)) as NR.
    destruct (Z.eqb_spec (aqs al bF k) 0) as [E0|E0].
    + replace (1 <? aqs al bF k) with false by lia. cbn [app].
      destruct (IH (k + 1) (r + 1) bits st P T (j + 1) g fuel) as (r' & bits' & st' & P' & T' & X & Q1 & Q2 & Q3 & Q4 & Q5 & Q6 & Q7 & Q8); try assumption; try lia.
      { intros i Hi. apply HA. lia. } { apply gi_zero. exact G. } { intros H1. destruct (HS ltac:(lia)). split; [assumption|lia]. }
      exists r', bits', st', P', T', X. replace (k + Z.of_nat (S n)) with (k + 1 + Z.of_nat n) by lia. replace (j + (1 + nz (aqs al bF) (k + 1) n)) with (j + 1 + nz (aqs al bF) (k + 1) n) by lia.
      split; [exact Q1|]. split; [exact Q2|]. split; [exact Q3|]. split; [lia|]. split; [exact Q5|]. split; [exact Q6|]. split; [intros H1; apply Q7; lia|]. intros H1. specialize (Q8 H1). lia.
    + replace (1 <? aqs al bF k) with true by lia.
      destruct (ref_zrl_ok tab k eob r bits st P T j g G F ltac:(lia)) as (st1 & P1 & X1 & R1 & F1 & W1 & EX1 & K1).
      { intros H1. destruct (HS H1). split; [assumption|]. split; lia. } { lia. }
      rewrite R1. cbn [jbind]. rewrite land_1. replace (map b2z g ++ [b2z (Z.odd (aqs al bF k))]) with (map b2z (g ++ [Z.odd (aqs al bF k)])) by (rewrite map_app; reflexivity).
      assert (Hj : 0 <= j) by (destruct G; assumption).
      destruct (IH (k + 1) j (map b2z (g ++ [Z.odd (aqs al bF k)])) st1 P1 [] j (g ++ [Z.odd (aqs al bF k)]) fuel) as (r' & bits' & st' & P' & T' & X & Q1 & Q2 & Q3 & Q4 & Q5 & Q6 & Q7 & Q8); try assumption; try lia.
      { intros i Hi. apply HA. lia. } { split; [exact Hj|]. left. auto. }
      { assert (j <= r); [|lia]. destruct G as (_ & [(G1 & _)|(_ & m & B & G1 & G2 & _)]); lia. }
      exists r', bits', st', P', T', (X1 ++ X). replace (k + Z.of_nat (S n)) with (k + 1 + Z.of_nat n) by lia. rewrite Z.add_0_l. rewrite <- app_assoc in Q2. 
      split; [exact Q1|]. split; [exact Q2|]. split; [exact Q3|]. split; [lia|]. split; [eapply wadv_trans; eauto|].
      split; [rewrite <- app_assoc, Q6, app_nil_r; exact EX1|]. destruct (Q7 eq_refl) as (QA & QB & QC). split; [|lia].
      intros H1. destruct (K1 H1) as [KA KB]. split; [congruence|]. split; [congruence|exact QC].
Qed.

(** A new coefficient. *)
Lemma refw_new bF tab se al eob k r bits st P T j g fuel : length bF = 64%nat -> 0 <= al -> se <= 63 -> 0 <= k <= se ->
  aqs al bF k = 1 -> Z.abs (zat bF k) <= 32767 -> gi tab r bits T j g -> fl st P -> r <= k ->
  (r <> j -> sym_ok tab 240) -> k <= eob -> j <= 15 -> sym_ok tab (Z.shiftl j 4 + 1) ->
  exists st', refw_ac (S fuel) bF tab se al eob k r bits st = refw_ac fuel bF tab se al eob (k + 1) 0 [] st' /\ clean st'
    /\ wadv st st' (P ++ T ++ code_of tab (Z.shiftl j 4 + 1) ++ [negb (zat bF k <? 0)] ++ g).
Proof.
  intros L Ha Hse Hk A1 B1 G F Hr HS He Hj SY. cbn [refw_ac]. destruct (Z.ltb_spec se k); [lia|].
  rewrite abs_at_ok by (assumption || lia). cbn [jbind]. rewrite A1. change (1 =? 0) with false. change (1 <? 1) with false. cbv iota.
  destruct (ref_zrl_ok tab k eob r bits st P T j g G F ltac:(lia)) as (st1 & P1 & X1 & R1 & (stf & FL & CL & AF) & W1 & EX1 & K1).
  { intros H1. split; [apply HS; exact H1|]. lia. } { lia. }
  rewrite R1. cbn [jbind]. rewrite FL. cbn [jbind]. rewrite zz_get_ok by (assumption || lia). cbn [jbind].
  destruct (put_sym_put tab _ stf SY) as (st2 & Q2 & A2). rewrite Q2. cbn [jbind].
  set (o := WBitsOp 1 (if zat bF k <? 0 then 0 else 1)).
  assert (A3 : wput st2 (put o st2) [negb (zat bF k <? 0)]).
  { unfold o. destruct (zat bF k <? 0); [replace [negb true] with (mbits (Z.to_nat 1) 0) by reflexivity|replace [negb false] with (mbits (Z.to_nat 1) 1) by reflexivity]; apply put_put; lia. }
  pose proof (put_each_ok g (put o st2)) as A4.
  eexists. split; [reflexivity|]. split; [eapply wput_clean; [exact A4|]; eapply wput_clean; [exact A3|]; eapply wput_clean; [exact A2|exact CL]|].
  replace (P ++ T ++ code_of tab (Z.shiftl j 4 + 1) ++ [negb (zat bF k <? 0)] ++ g) with (X1 ++ P1 ++ code_of tab (Z.shiftl j 4 + 1) ++ [negb (zat bF k <? 0)] ++ g)
    by (rewrite !app_assoc, EX1; reflexivity).
  eapply wadv_trans; [exact W1|]. eapply wadv_trans; [exact AF|]. eapply wadv_trans; [exact (wput_adv _ _ _ A2)|]. eapply wadv_trans; [exact (wput_adv _ _ _ A3)|exact (wput_adv _ _ _ A4)].
Qed.

Lemma refw_zero bF tab se al eob k r bits st fuel : length bF = 64%nat -> 0 <= al -> se <= 63 -> 0 <= k <= se ->
  aqs al bF k = 0 -> Z.abs (zat bF k) <= 32767 ->
  refw_ac (S fuel) bF tab se al eob k r bits st = refw_ac fuel bF tab se al eob (k + 1) (r + 1) bits st.
Proof.
  intros L Ha Hse Hk A1 B1. cbn [refw_ac]. destruct (Z.ltb_spec se k); [lia|].
  rewrite abs_at_ok by (assumption || lia). cbn [jbind]. rewrite A1. reflexivity.
Qed.
