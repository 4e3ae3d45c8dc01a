(** Refinement scans: what the reader takes in for a block is what the writer emits for it. *)
From Verif Require Import Base JpegModel LehmerModel CoefModel JBitModel JWriteProofs JReadProofs
  JHuffModel JHuffProofs JHuffPair JScanModel JScanProofs1 JScanProofs2.
From Coq Require Import ZifyBool ZifyNat.

(** * One coefficient *)

(** Magnitude at level [al]. *)
Definition aq (al t : Z) : Z := Z.abs (Z.quot t (2 ^ al)).

(** A coefficient of an earlier scan and what refinement may make of it. *)
Definition hist_ok (al t : Z) : Prop := (2 ^ (al + 1) | t) /\ Z.abs t <= 2047.
Definition refd (al t t' : Z) : Prop :=
  (t = 0 /\ (t' = 0 \/ t' = 2 ^ al \/ t' = - 2 ^ al)) \/ (t <> 0 /\ (t' = t \/ t' = t + Z.sgn t * 2 ^ al)).

Lemma pow_al al : 0 <= al -> 0 < 2 ^ al /\ 2 ^ (al + 1) = 2 * 2 ^ al.
Proof. intros H. pose proof (Z.pow_pos_nonneg 2 al ltac:(lia) H). split; [exact H0|]. rewrite Z.pow_add_r by lia. lia. Qed.

Lemma hist_bound al t : 0 <= al <= 10 -> hist_ok al t -> Z.abs t + 2 ^ al <= 2047.
Proof.
  intros H [[q E] B]. destruct (pow_al al ltac:(lia)) as [P E2].
  assert (P11 : 2 ^ (al + 1) * 2 ^ (10 - al) = 2048) by (rewrite <- Z.pow_add_r by lia; replace (al + 1 + (10 - al)) with 11 by lia; reflexivity).
  pose proof (Z.pow_pos_nonneg 2 (10 - al) ltac:(lia) ltac:(lia)) as P2.
  subst t. rewrite Z.abs_mul, (Z.abs_eq (2 ^ (al + 1))) in * by lia.
  assert (Z.abs q <= 2 ^ (10 - al) - 1) by nia. nia.
Qed.

Lemma ac_level_hist al t : ac_level (al + 1) t <-> hist_ok al t.
Proof. reflexivity. Qed.

Lemma quot_exact q m : 0 < m -> Z.quot (q * m) m = q.
Proof. intros. apply Z.quot_mul. lia. Qed.

Lemma refd_level al t t' : 0 <= al <= 10 -> hist_ok al t -> refd al t t' -> ac_level al t'.
Proof.
  intros H HH R. pose proof (hist_bound al t H HH) as HB. destruct HH as [[q E] B]. destruct (pow_al al ltac:(lia)) as [P E2].
  assert (D : (2 ^ al | t)) by (exists (2 * q); lia).
  destruct R as [[Z0 [->|[->| ->]]]|[N0 [->| ->]]].
  - split; [apply Z.divide_0_r|lia].
  - split; [apply Z.divide_refl|lia].
  - split; [exists (-1); lia|lia].
  - split; [exact D|lia].
  - split; [|lia]. apply Z.divide_add_r; [exact D|]. exists (Z.sgn t). lia.
Qed.

Lemma quot_small a m : 0 < m -> - m < a < m -> Z.quot a m = 0.
Proof. intros H1 H2. apply Z.quot_small_iff; lia. Qed.


Lemma refd_quot al t t' : 0 <= al <= 10 -> hist_ok al t -> refd al t t' -> Z.quot t' (2 ^ (al + 1)) = Z.quot t (2 ^ (al + 1)).
Proof.
  intros H [[q E] B] R. destruct (pow_al al ltac:(lia)) as [P E2].
  destruct R as [[Z0 [->|[->| ->]]]|[N0 [->| ->]]].
  - subst t. rewrite Z0. reflexivity.
  - rewrite Z0, Z.quot_0_l by lia. apply quot_small; lia.
  - rewrite Z0, Z.quot_0_l by lia. apply quot_small; lia.
  - reflexivity.
  - rewrite E at 3. rewrite quot_exact by lia. symmetry.
    destruct (Z_lt_ge_dec t 0) as [Hq|Hq].
    + rewrite Z.sgn_neg by lia. replace (t + -1 * 2 ^ al) with (- (2 ^ (al + 1) * (- q) + 2 ^ al)) by lia. rewrite Z.quot_opp_l by lia.
      assert (X : - q = Z.quot (2 ^ (al + 1) * - q + 2 ^ al) (2 ^ (al + 1))) by (apply Z.quot_unique with (r := 2 ^ al); nia). lia.
    + rewrite Z.sgn_pos by lia. apply Z.quot_unique with (r := 2 ^ al); nia.
Qed.

(** Magnitudes of the refined coefficient. *)
Lemma aq_zero al : 0 <= al -> aq al 0 = 0.
Proof. intros H. unfold aq. destruct (pow_al al H). rewrite Z.quot_0_l by lia. reflexivity. Qed.

Lemma aq_new al s : 0 <= al -> s = 1 \/ s = -1 -> aq al (s * 2 ^ al) = 1.
Proof. intros H [->| ->]; unfold aq; destruct (pow_al al H); rewrite Z.quot_mul by lia; reflexivity. Qed.

Lemma aq_hist al t b : 0 <= al -> hist_ok al t -> t <> 0 ->
  let t' := if (b : bool) then t + Z.sgn t * 2 ^ al else t in 1 < aq al t' /\ Z.odd (aq al t') = b.
Proof.
  intros H [[q E] B] N0. cbv zeta. destruct (pow_al al H) as [P E2].
  assert (Eq : (if b then t + Z.sgn t * 2 ^ al else t) = (Z.sgn t * (2 * Z.abs q + b2z b)) * 2 ^ al).
  { rewrite E at 2 3. subst t. rewrite Z.sgn_mul, (Z.sgn_pos (2 ^ (al + 1))) by lia. rewrite Z.mul_1_r.
    pose proof (Z.abs_sgn q) as Aq. destruct b; cbn [b2z]; nia. }
  unfold aq. rewrite Eq, quot_exact by lia. rewrite Z.abs_mul. assert (Q0 : q <> 0) by nia.
  assert (S1 : Z.abs (Z.sgn t) = 1) by (destruct (Z.sgn_spec t) as [[_ ->]|[[Q ->]|[_ ->]]]; lia).
  rewrite S1, Z.mul_1_l. rewrite Z.abs_eq by (destruct b; cbn [b2z]; lia). split; [destruct b; cbn [b2z]; lia|].
  rewrite Z.add_comm, Z.odd_add_mul_2. destruct b; reflexivity.
Qed.

(** * Counting over a stretch of positions *)

Fixpoint hb (A : Z -> Z) (k : Z) (n : nat) : list bool :=
  match n with O => [] | S n' => (if 1 <? A k then [Z.odd (A k)] else []) ++ hb A (k + 1) n' end.
Fixpoint nz (A : Z -> Z) (k : Z) (n : nat) : Z :=
  match n with O => 0 | S n' => (if A k =? 0 then 1 else 0) + nz A (k + 1) n' end.

Lemma hb_ext A A' : forall n k, (forall j, k <= j < k + Z.of_nat n -> A j = A' j) -> hb A k n = hb A' k n.
Proof. induction n as [|n IH]; intros k H; [reflexivity|]. cbn [hb]. rewrite (H k) by lia. f_equal. apply IH. intros j Hj. apply H. lia. Qed.
Lemma nz_ext A A' : forall n k, (forall j, k <= j < k + Z.of_nat n -> A j = A' j) -> nz A k n = nz A' k n.
Proof. induction n as [|n IH]; intros k H; [reflexivity|]. cbn [nz]. rewrite (H k) by lia. f_equal. apply IH. intros j Hj. apply H. lia. Qed.
Lemma nz_range A : forall n k, 0 <= nz A k n <= Z.of_nat n.
Proof. induction n as [|n IH]; intros k; cbn [nz]; [lia|]. specialize (IH (k + 1)). destruct (A k =? 0); lia. Qed.
Lemma hb_length A : forall n k, (length (hb A k n) <= n)%nat.
Proof. induction n as [|n IH]; intros k; cbn [hb length]; [lia|]. rewrite app_length. specialize (IH (k + 1)). destruct (1 <? A k); cbn [length]; lia. Qed.

Definition aqs (al : Z) (c : list Z) : Z -> Z := fun j => aq al (zat c j).

(** * Reader: correction bits *)

Lemma land_hist al t : 0 <= al -> hist_ok al t -> Z.land t (2 ^ al) = 0.
Proof.
  intros H [[q E] _]. apply Z.bits_inj'. intros n Hn. rewrite Z.land_spec, Z.bits_0. rewrite Z.pow2_bits_eqb by lia.
  destruct (Z.eqb_spec al n) as [<-|]; [|apply andb_false_r]. rewrite andb_true_r. rewrite E. rewrite Z.mul_pow2_bits_low by lia. reflexivity.
Qed.

Lemma mval_bit x : 0 <= x < 2 -> mbits 1 x = [negb (x =? 0)].
Proof. intros H. assert (x = 0 \/ x = 1) as [->| ->] by lia; reflexivity. Qed.

Lemma ref_coef_ok data p0 al t s U : bytes data -> 0 <= al <= 10 -> hist_ok al t -> t <> 0 -> bri data p0 U s ->
  exists b s', ref_coef data al t s = JOk ((if (b : bool) then t + Z.sgn t * 2 ^ al else t), s') /\ bri data p0 (U ++ [b]) s'.
Proof.
  intros Y Hal HH N0 I. unfold ref_coef. destruct (read_ok data p0 U s 1 Y I ltac:(lia)) as (x & s' & R & Rx & I'). rewrite R. cbn [jbind].
  change (2 ^ 1) with 2 in Rx. change (Z.to_nat 1) with 1%nat in I'. rewrite mval_bit in I' by exact Rx.
  exists (negb (x =? 0)), s'. split; [|exact I']. rewrite land_hist by (lia || assumption). rewrite Z.eqb_refl, andb_true_r.
  do 2 f_equal. destruct (negb (x =? 0)); [|reflexivity]. pose proof (hist_bound al t Hal HH). destruct (pow_al al ltac:(lia)) as [P _].
  destruct (Z.leb_spec 0 t); rewrite to_i16_small by lia.
  - rewrite Z.sgn_pos by lia. lia.
  - rewrite Z.sgn_neg by lia. lia.
Qed.

Lemma ref_skip_ok data p0 se al : bytes data -> 0 <= al <= 10 -> se <= 63 -> forall fuel k rr s c U,
  0 <= rr -> 0 <= k <= se -> se + 1 <= k + Z.of_nat fuel -> length c = 64%nat ->
  (forall j, k <= j <= se -> hist_ok al (zat c j)) -> bri data p0 U s ->
  exists k' s' c', ref_skip fuel data se al k rr s c = JOk (k', (s', c'))
    /\ k <= k' <= se + 1 /\ length c' = 64%nat /\ (forall j, 0 <= j < 64 -> ~ (k <= j < k') -> zat c' j = zat c j)
    /\ (forall j, k <= j < k' -> refd al (zat c j) (zat c' j) /\ aqs al c' j <> 1)
    /\ bri data p0 (U ++ hb (aqs al c') k (Z.to_nat (k' - k))) s' /\ nz (aqs al c') k (Z.to_nat (k' - k)) <= rr
    /\ (k' <= se -> nz (aqs al c') k (Z.to_nat (k' - k)) = rr /\ zat c k' = 0).
Proof.
  intros Y Hal Hse. induction fuel as [|f IH]; intros k rr s c U Hr Hk Hf L HH I; [lia|]. cbn [ref_skip].
  rewrite zz_get_ok by (lia || assumption). cbn [jbind]. destruct (Z.eqb_spec (zat c k) 0) as [E|E].
  - destruct (Z.ltb_spec (rr - 1) 0) as [H1|H1].
    + exists k, s, c. split; [reflexivity|]. split; [lia|]. split; [exact L|]. split; [auto|]. split; [lia|].
      replace (Z.to_nat (k - k)) with 0%nat by lia. cbn [hb nz]. rewrite app_nil_r. split; [exact I|]. split; [lia|]. intros _. split; [lia|exact E].
    + assert (A0 : aqs al c k = 0) by (unfold aqs; rewrite E; apply aq_zero; lia).
      destruct (Z.leb_spec (k + 1) se) as [H2|H2].
      * destruct (IH (k + 1) (rr - 1) s c U ltac:(lia) ltac:(lia) ltac:(lia) L ltac:(intros; apply HH; lia) I) as (k' & s' & c' & E' & K & L' & O & R & I' & N1 & N2).
        assert (Ek : zat c' k = zat c k) by (apply O; lia).
        exists k', s', c'. split; [exact E'|]. split; [lia|]. split; [exact L'|]. split; [intros j Hj HN; apply O; lia|]. split.
        { intros j Hj. destruct (Z.eq_dec j k) as [->|Nj]; [|apply R; lia]. split; [rewrite Ek; left; split; [exact E|left; exact E]|unfold aqs in *; rewrite Ek, A0; lia]. }
        replace (Z.to_nat (k' - k)) with (S (Z.to_nat (k' - (k + 1)))) by lia. cbn [hb nz].
        assert (A0' : aqs al c' k = 0) by (unfold aqs in *; rewrite Ek; exact A0). rewrite A0'. change (1 <? 0) with false. change (0 =? 0) with true. cbv iota. cbn [app].
        split; [exact I'|]. split; [lia|]. intros H. destruct (N2 H). split; [lia|assumption].
      * exists (k + 1), s, c. split; [reflexivity|]. split; [lia|]. split; [exact L|]. split; [auto|]. split.
        { intros j Hj. replace j with k by lia. split; [left; split; [exact E|left; exact E]|rewrite A0; lia]. }
        replace (Z.to_nat (k + 1 - k)) with 1%nat by lia. cbn [hb nz]. rewrite A0. change (1 <? 0) with false. change (0 =? 0) with true. cbv iota. cbn [app]. rewrite app_nil_r.
        split; [exact I|]. split; [lia|]. lia.
  - destruct (ref_coef_ok data p0 al (zat c k) s U Y Hal (HH k ltac:(lia)) E I) as (b & s1 & E1 & I1). rewrite E1. cbn [jbind].
    rewrite zz_set_ok by (lia || assumption). cbn [jbind]. set (t' := if b then zat c k + Z.sgn (zat c k) * 2 ^ al else zat c k) in *.
    destruct (aq_hist al (zat c k) b ltac:(lia) (HH k ltac:(lia)) E) as [A1 A2]. fold t' in A1, A2.
    set (c1 := zup c k t'). assert (L1 : length c1 = 64%nat) by (unfold c1; rewrite zup_length; exact L).
    assert (E1k : zat c1 k = t') by (apply zat_zup_same; [exact L|lia]).
    assert (RF : refd al (zat c k) t') by (right; split; [exact E|unfold t'; destruct b; auto]).
    destruct (Z.leb_spec (k + 1) se) as [H2|H2].
    + destruct (IH (k + 1) rr s1 c1 (U ++ [b]) Hr ltac:(lia) ltac:(lia) L1) as (k' & s' & c' & E' & K & L' & O & R & I' & N1 & N2).
      { intros j Hj. unfold c1. rewrite zat_zup_other by lia. apply HH. lia. } { exact I1. }
      assert (Ek : zat c' k = t') by (rewrite O by lia; exact E1k).
      exists k', s', c'. split; [exact E'|]. split; [lia|]. split; [exact L'|]. split; [intros j Hj HN; rewrite O by lia; apply zat_zup_other; lia|]. split.
      { intros j Hj. destruct (Z.eq_dec j k) as [->|Nj].
        - rewrite Ek. split; [exact RF|unfold aqs; rewrite Ek; lia].
        - destruct (R j ltac:(lia)) as [R1 R2]. split; [|exact R2]. unfold c1 in R1. rewrite zat_zup_other in R1 by lia. exact R1. }
      replace (Z.to_nat (k' - k)) with (S (Z.to_nat (k' - (k + 1)))) by lia. cbn [hb nz].
      assert (AA : aqs al c' k = aq al t') by (unfold aqs; rewrite Ek; reflexivity). rewrite AA.
      replace (1 <? aq al t') with true by lia. replace (aq al t' =? 0) with false by lia. cbv iota. rewrite A2. rewrite app_assoc.
      split; [exact I'|]. split; [lia|]. intros H. destruct (N2 H) as [N3 N4]. split; [lia|]. unfold c1 in N4. rewrite zat_zup_other in N4 by lia. exact N4.
    + exists (k + 1), s1, c1. split; [reflexivity|]. split; [lia|]. split; [exact L1|]. split; [intros j Hj HN; apply zat_zup_other; lia|]. split.
      { intros j Hj. replace j with k by lia. rewrite E1k. split; [exact RF|unfold aqs; rewrite E1k; lia]. }
      replace (Z.to_nat (k + 1 - k)) with 1%nat by lia. cbn [hb nz]. assert (AA : aqs al c1 k = aq al t') by (unfold aqs; rewrite E1k; reflexivity). rewrite AA.
      replace (1 <? aq al t') with true by lia. replace (aq al t' =? 0) with false by lia. cbv iota. rewrite A2. cbn [app].
      split; [exact I1|]. split; [lia|lia].
Qed.

Lemma ref_tail_ok data p0 se al : bytes data -> 0 <= al <= 10 -> se <= 63 -> forall fuel k s c U,
  0 <= k <= se + 1 -> se + 2 <= k + Z.of_nat fuel -> length c = 64%nat ->
  (forall j, k <= j <= se -> hist_ok al (zat c j)) -> bri data p0 U s ->
  exists s' c', ref_tail fuel data se al k s c = JOk (s', c')
    /\ length c' = 64%nat /\ (forall j, 0 <= j < 64 -> ~ (k <= j <= se) -> zat c' j = zat c j)
    /\ (forall j, k <= j <= se -> refd al (zat c j) (zat c' j) /\ aqs al c' j <> 1)
    /\ bri data p0 (U ++ hb (aqs al c') k (Z.to_nat (se + 1 - k))) s'.
Proof.
  intros Y Hal Hse. induction fuel as [|f IH]; intros k s c U Hk Hf L HH I; [lia|]. cbn [ref_tail].
  destruct (Z.ltb_spec se k) as [H|H].
  - exists s, c. split; [reflexivity|]. split; [exact L|]. split; [auto|]. split; [lia|]. replace (Z.to_nat (se + 1 - k)) with 0%nat by lia. cbn [hb]. rewrite app_nil_r. exact I.
  - rewrite zz_get_ok by (lia || assumption). cbn [jbind]. destruct (Z.eqb_spec (zat c k) 0) as [E|E].
    + destruct (IH (k + 1) s c U ltac:(lia) ltac:(lia) L ltac:(intros; apply HH; lia) I) as (s' & c' & E' & L' & O & R & I').
      assert (Ek : zat c' k = zat c k) by (apply O; lia).
      assert (A0' : aqs al c' k = 0) by (unfold aqs; rewrite Ek, E; apply aq_zero; lia).
      exists s', c'. split; [exact E'|]. split; [exact L'|]. split; [intros j Hj HN; apply O; lia|]. split.
      { intros j Hj. destruct (Z.eq_dec j k) as [->|Nj]; [|apply R; lia]. split; [rewrite Ek; left; split; [exact E|left; exact E]|lia]. }
      replace (Z.to_nat (se + 1 - k)) with (S (Z.to_nat (se + 1 - (k + 1)))) by lia. cbn [hb]. rewrite A0'. change (1 <? 0) with false. exact I'.
    + destruct (ref_coef_ok data p0 al (zat c k) s U Y Hal (HH k ltac:(lia)) E I) as (b & s1 & E1 & I1). rewrite E1. cbn [jbind].
      rewrite zz_set_ok by (lia || assumption). cbn [jbind]. set (t' := if b then zat c k + Z.sgn (zat c k) * 2 ^ al else zat c k) in *.
      destruct (aq_hist al (zat c k) b ltac:(lia) (HH k ltac:(lia)) E) as [A1 A2]. fold t' in A1, A2.
      set (c1 := zup c k t'). assert (L1 : length c1 = 64%nat) by (unfold c1; rewrite zup_length; exact L).
      assert (E1k : zat c1 k = t') by (apply zat_zup_same; [exact L|lia]).
      assert (RF : refd al (zat c k) t') by (right; split; [exact E|unfold t'; destruct b; auto]).
      destruct (IH (k + 1) s1 c1 (U ++ [b]) ltac:(lia) ltac:(lia) L1) as (s' & c' & E' & L' & O & R & I').
      { intros j Hj. unfold c1. rewrite zat_zup_other by lia. apply HH. lia. } { exact I1. }
      assert (Ek : zat c' k = t') by (rewrite O by lia; exact E1k).
      exists s', c'. split; [exact E'|]. split; [exact L'|]. split; [intros j Hj HN; rewrite O by lia; apply zat_zup_other; lia|]. split.
      { intros j Hj. destruct (Z.eq_dec j k) as [->|Nj].
        - rewrite Ek. split; [exact RF|unfold aqs; rewrite Ek; lia].
        - destruct (R j ltac:(lia)) as [R1 R2]. split; [|exact R2]. unfold c1 in R1. rewrite zat_zup_other in R1 by lia. exact R1. }
      replace (Z.to_nat (se + 1 - k)) with (S (Z.to_nat (se + 1 - (k + 1)))) by lia. cbn [hb].
      assert (AA : aqs al c' k = aq al t') by (unfold aqs; rewrite Ek; reflexivity). rewrite AA.
      replace (1 <? aq al t') with true by lia. rewrite A2, app_assoc. exact I'.
Qed.
