(** Progress masks: which bits of which coefficients the scans read so far have delivered. *)
From Coq Require Import ZArith List Bool Lia.
From Verif Require Import Base JpegModel LehmerModel CoefModel JBitModel JWriteProofs JReadProofs JHuffModel JHuffProofs JHuffPair
  JScanModel JScanProofs1 JScanProofs2 JScanProofs3 JScanProofs4 JScanProofs5 JScanProofs6 JScanProofs7 JScanProofs8.
Import ListNotations.
Local Open Scope Z_scope.

(** [l] is the lowest bit set in [m]. *)
Definition mlow (m l : Z) : Prop := 0 <= l /\ Z.testbit m l = true /\ forall i, 0 <= i < l -> Z.testbit m i = false.

Lemma mlow_fun m a b : mlow m a -> mlow m b -> a = b.
Proof.
  intros (A1 & A2 & A3) (B1 & B2 & B3). destruct (Z.lt_trichotomy a b) as [H|[H|H]]; [|exact H|].
  - rewrite (B3 a) in A2 by lia. discriminate.
  - rewrite (A3 b) in B2 by lia. discriminate.
Qed.

Lemma land0_bits a b i : Z.land a b = 0 -> Z.testbit b i = true -> Z.testbit a i = false.
Proof. intros H Hb. pose proof (Z.land_spec a b i) as S. rewrite H, Z.testbit_0_l, Hb, andb_true_r in S. auto. Qed.

Lemma prog_mark_ok ah al m m' : 0 <= al <= 15 -> 0 <= m < 65536 -> prog_mark ah al m = JOk m' ->
  0 <= m' < 65536 /\ mlow m' al /\ (ah = 0 -> m = 0) /\ forall l, mlow m l -> al < l.
Proof.
  intros Ha Hm E. unfold prog_mark in E.
  set (sb := if ah =? 0 then Z.shiftl 65535 al mod 65536 else 2 ^ al mod 65536) in *. cbv zeta in E.
  assert (P1 : 0 < 2 ^ al) by (apply Z.pow_pos_nonneg; lia).
  assert (P2 : 2 ^ al <= 2 ^ 15) by (apply Z.pow_le_mono_r; lia). change (2 ^ 15) with 32768 in P2.
  destruct (Z.eqb_spec (Z.land m sb) 0) as [L1|]; [|discriminate].
  destruct (Z.eqb_spec (Z.land m ((2 ^ al - 1) mod 65536)) 0) as [L2|]; [|discriminate].
  cbn [negb] in E. injection E as <-.
  rewrite (Z.mod_small (2 ^ al - 1)) in L2 by lia.
  assert (LOW : forall i, 0 <= i < al -> Z.testbit m i = false).
  { intros i Hi. apply (land0_bits _ _ _ L2). replace (2 ^ al - 1) with (Z.ones al) by (rewrite Z.ones_equiv; lia). apply Z.ones_spec_low. lia. }
  assert (SB : Z.testbit sb al = true /\ (forall i, 0 <= i < al -> Z.testbit sb i = false) /\ 0 <= sb < 65536).
  { unfold sb. change 65536 with (2 ^ 16). destruct (ah =? 0).
    - split; [|split].
      + rewrite Z.mod_pow2_bits_low by lia. rewrite Z.shiftl_spec, Z.sub_diag by lia. reflexivity.
      + intros i Hi. rewrite Z.mod_pow2_bits_low by lia. rewrite Z.shiftl_spec by lia. apply Z.testbit_neg_r. lia.
      + apply Z.mod_pos_bound. lia.
    - rewrite Z.mod_small by (change (2 ^ 16) with 65536; lia). split; [|split].
      + rewrite Z.pow2_bits_true by lia. reflexivity.
      + intros i Hi. apply Z.pow2_bits_false. lia.
      + change (2 ^ 16) with 65536. lia. }
  destruct SB as (SB1 & SB2 & SB3).
  assert (AT : Z.testbit m al = false) by (apply (land0_bits _ _ _ L1); exact SB1).
  split; [|split; [|split]].
  - split; [apply Z.lor_nonneg; lia|]. change 65536 with (2 ^ 16). destruct (Z.eq_dec (Z.lor m sb) 0) as [->|N]; [lia|].
    apply Z.log2_lt_pow2; [assert (0 <= Z.lor m sb) by (apply Z.lor_nonneg; lia); lia|]. rewrite Z.log2_lor by lia.
    assert (LG : forall x, 0 <= x < 65536 -> Z.log2 x < 16).
    { intros x Hx. destruct (Z.eq_dec x 0) as [->|]; [reflexivity|]. apply Z.log2_lt_pow2; [lia|]. change (2 ^ 16) with 65536. lia. }
    apply Z.max_lub_lt; apply LG; lia.
  - split; [lia|]. rewrite Z.lor_spec, SB1, orb_true_r. split; [reflexivity|]. intros i Hi. rewrite Z.lor_spec, LOW, SB2 by lia. reflexivity.
  - intros Ea. apply Z.bits_inj'. intros i Hi. rewrite Z.testbit_0_l.
    destruct (Z.ltb_spec i al); [apply LOW; lia|]. destruct (Z.leb_spec 16 i).
    + destruct (Z.eq_dec m 0) as [->|]; [apply Z.testbit_0_l|]. apply Z.bits_above_log2; [lia|].
      apply Z.lt_le_trans with 16; [|lia]. apply Z.log2_lt_pow2; [lia|]. change (2 ^ 16) with 65536. lia.
    + apply (land0_bits _ _ _ L1). unfold sb. rewrite Ea. change (0 =? 0) with true. cbv iota. change 65536 with (2 ^ 16).
      rewrite Z.mod_pow2_bits_low by lia. rewrite Z.shiftl_spec by lia. change 65535 with (Z.ones 16). apply Z.ones_spec_low. lia.
  - intros l (A1 & A2 & A3). destruct (Z.lt_trichotomy al l) as [H|[H|H]]; [exact H| |].
    + subst. congruence.
    + rewrite LOW in A2 by lia. discriminate.
Qed.

(** * Mask tables *)
Definition maskat (M : list (list Z)) (ci k : Z) : Z := nth (Z.to_nat k) (nth (Z.to_nat ci) M []) 0.
Definition masks_ok (M : list (list Z)) : Prop :=
  length M = 4%nat /\ Forall (fun l => length l = 64%nat /\ Forall (fun m => 0 <= m < 65536) l) M.

Lemma masks_get M ci : masks_ok M -> 0 <= ci < 4 -> aget M ci = JOk (nth (Z.to_nat ci) M []) /\ length (nth (Z.to_nat ci) M []) = 64%nat
  /\ Forall (fun m => 0 <= m < 65536) (nth (Z.to_nat ci) M []).
Proof.
  intros [L F] H. split; [apply aget_Some; split; [lia|]; apply nth_error_nth'; lia|].
  rewrite Forall_forall in F. apply F. apply nth_In. lia.
Qed.

Lemma maskat_range M ci k : masks_ok M -> 0 <= ci < 4 -> 0 <= k < 64 -> 0 <= maskat M ci k < 65536.
Proof.
  intros HM Hc Hk. destruct (masks_get M ci HM Hc) as (_ & L & F). rewrite Forall_forall in F. apply F. apply nth_In. lia.
Qed.

Lemma prog_band_ok ah al se : 0 <= al <= 15 -> se <= 63 -> forall fuel k l, 0 <= k -> (Z.to_nat (se + 1 - k) < fuel)%nat ->
  length l = 64%nat -> Forall (fun m => 0 <= m < 65536) l ->
  match prog_band fuel ah al k se l with
  | JUB => False
  | JErr => True
  | JOk l' => length l' = 64%nat /\ Forall (fun m => 0 <= m < 65536) l'
      /\ forall i, 0 <= i < 64 -> if (k <=? i) && (i <=? se) then prog_mark ah al (nth (Z.to_nat i) l 0) = JOk (nth (Z.to_nat i) l' 0)
                                  else nth (Z.to_nat i) l' 0 = nth (Z.to_nat i) l 0
  end.
Proof.
  intros Ha Hs. induction fuel as [|f IH]; intros k l Hk Hf L F; [lia|]. cbn [prog_band].
  destruct (Z.ltb_spec se k) as [H|H].
  - split; [exact L|]. split; [exact F|]. intros i Hi. destruct (Z.leb_spec k i); destruct (Z.leb_spec i se); cbn [andb]; try lia; reflexivity.
  - rewrite aget_nth by lia. cbn [jbind].
    assert (Hm : 0 <= nth (Z.to_nat k) l 0 < 65536) by (rewrite Forall_forall in F; apply F; apply nth_In; lia).
    destruct (prog_mark ah al (nth (Z.to_nat k) l 0)) as [m'| |] eqn:E; cbn [jbind]; [|exact Logic.I|].
    2:{ revert E. unfold prog_mark. cbv zeta. destruct (negb _); [discriminate|]. destruct (negb _); discriminate. }
    rewrite aset_ok by lia. cbn [jbind]. destruct (prog_mark_ok ah al _ m' Ha Hm E) as (R' & _).
    specialize (IH (k + 1) (upd l (Z.to_nat k) m') ltac:(lia) ltac:(lia) ltac:(rewrite upd_length; exact L) (Forall_upd _ _ _ _ F R')).
    destruct (prog_band f ah al (k + 1) se (upd l (Z.to_nat k) m')) as [l'| |]; [|exact Logic.I|exact IH].
    destruct IH as (L' & F' & H'). split; [exact L'|]. split; [exact F'|]. intros i Hi. specialize (H' i Hi).
    destruct (Z.eq_dec i k) as [->|N].
    + destruct (Z.leb_spec (k + 1) k); [lia|]. cbn [andb] in H'. rewrite nth_upd_same in H' by lia. rewrite H'.
      destruct (Z.leb_spec k k); [|lia]. destruct (Z.leb_spec k se); [|lia]. exact E.
    + rewrite nth_upd_other in H' by lia. destruct (Z.leb_spec (k + 1) i), (Z.leb_spec k i); try lia; exact H'.
Qed.

Lemma nth_upd_if {A} (l : list A) (i j : nat) v d : (i < length l)%nat -> nth j (upd l i v) d = if (i =? j)%nat then v else nth j l d.
Proof. intros H. destruct (Nat.eqb_spec i j) as [->|N]; [apply nth_upd_same; exact H|apply nth_upd_other; exact N]. Qed.

Lemma prog_check_ok p : 0 <= sp_al p <= 15 -> 0 <= sp_ss p <= sp_se p -> sp_se p <= 63 -> forall cs M, masks_ok M ->
  NoDup (map cs_comp cs) -> Forall (fun s => 0 <= cs_comp s < 4) cs ->
  match prog_check p cs M with
  | JUB => False
  | JErr => True
  | JOk M' => sp_al p <= 10 /\ masks_ok M' /\ forall ci k, 0 <= ci < 4 -> 0 <= k < 64 ->
      (In ci (map cs_comp cs) /\ sp_ss p <= k <= sp_se p /\ prog_mark (sp_ah p) (sp_al p) (maskat M ci k) = JOk (maskat M' ci k))
      \/ (~ (In ci (map cs_comp cs) /\ sp_ss p <= k <= sp_se p) /\ maskat M' ci k = maskat M ci k)
  end.
Proof.
  intros Ha Hs Hse. induction cs as [|si cs IH]; intros M HM ND CB; cbn [prog_check map].
  - destruct (Z.ltb_spec 10 (sp_al p)); [exact Logic.I|]. split; [lia|]. split; [exact HM|]. intros ci k Hc Hk. right. split; [intros [[] _]|reflexivity].
  - cbn [map] in ND. apply NoDup_cons_iff in ND as [N1 ND]. pose proof (Forall_inv CB) as C1. pose proof (Forall_inv_tail CB) as C2. cbv beta in C1.
    destruct (masks_get M _ HM C1) as (G & GL & GF). rewrite G. cbn [jbind].
    pose proof (prog_band_ok (sp_ah p) (sp_al p) (sp_se p) Ha Hse 65 (sp_ss p) (nth (Z.to_nat (cs_comp si)) M []) ltac:(lia) ltac:(lia) GL GF) as B.
    destruct (prog_band 65 (sp_ah p) (sp_al p) (sp_ss p) (sp_se p) (nth (Z.to_nat (cs_comp si)) M [])) as [l'| |]; cbn [jbind]; [|exact Logic.I|exact B].
    destruct B as (B1 & B2 & B3). pose proof HM as [LM FM]. rewrite aset_ok by lia. cbn [jbind].
    specialize (IH (upd M (Z.to_nat (cs_comp si)) l')).
    assert (HM1 : masks_ok (upd M (Z.to_nat (cs_comp si)) l')) by (split; [rewrite upd_length; exact LM|apply Forall_upd; auto]).
    specialize (IH HM1 ND C2). destruct (prog_check p cs (upd M (Z.to_nat (cs_comp si)) l')) as [M'| |]; [|exact Logic.I|exact IH].
    destruct IH as (I1 & I2 & I3). split; [exact I1|]. split; [exact I2|]. intros ci k Hc Hk. specialize (I3 ci k Hc Hk). specialize (B3 k Hk).
    assert (EM : maskat (upd M (Z.to_nat (cs_comp si)) l') ci k = if ci =? cs_comp si then nth (Z.to_nat k) l' 0 else maskat M ci k).
    { unfold maskat. rewrite nth_upd_if by lia. destruct (Nat.eqb_spec (Z.to_nat (cs_comp si)) (Z.to_nat ci)), (Z.eqb_spec ci (cs_comp si)); try lia; reflexivity. }
    rewrite EM in I3. destruct (Z.eqb_spec ci (cs_comp si)) as [->|N].
    + destruct I3 as [[H _]|[_ I3]]; [contradiction|].
      destruct (Z.leb_spec (sp_ss p) k), (Z.leb_spec k (sp_se p)); cbn [andb] in B3;
        [left; split; [left; reflexivity|]; split; [lia|]; rewrite I3; exact B3| | |]; right; (split; [intros [_ K]; lia|]); rewrite I3; exact B3.
    + destruct I3 as [(H & H2 & H3)|[H I3]]; [left; split; [right; exact H|]; auto|].
      right. split; [|exact I3]. intros [[K|K] K2]; [congruence|]. apply H. auto.
Qed.

(** * Coefficients and masks *)
Definition coef_inv (m k c : Z) : Prop :=
  (m = 0 -> c = 0) /\ (forall l, mlow m l -> (2 ^ l | c)) /\ (k = 0 -> i16 c) /\ (k <> 0 -> Z.abs c <= 2047).

Definition coefs_inv (M : list (list Z)) (comps : list component) : Prop :=
  forall cb, in_comps comps cb -> length (blk comps cb) = 64%nat
    /\ forall k, 0 <= k < 64 -> coef_inv (maskat M (fst cb) k) k (zat (blk comps cb) k).

Definition agree_at (k l x y : Z) : Prop := (k = 0 -> x / 2 ^ l = y / 2 ^ l) /\ (k <> 0 -> Z.quot x (2 ^ l) = Z.quot y (2 ^ l)).

(** [CF] refines [C]: the bits already delivered are the same. *)
Definition agreeM (M : list (list Z)) (C CF : list component) : Prop :=
  forall cb k l, in_comps C cb -> 0 <= k < 64 -> mlow (maskat M (fst cb) k) l -> agree_at k l (zat (blk CF cb) k) (zat (blk C cb) k).

Lemma agreeM_refl M C : agreeM M C C.
Proof. intros cb k l _ _ _. split; reflexivity. Qed.

Lemma agree_trans k l x y z : agree_at k l x y -> agree_at k l y z -> agree_at k l x z.
Proof. intros [A1 A2] [B1 B2]. split; intros H; [rewrite A1, B1|rewrite A2, B2]; auto. Qed.

Lemma agree_coarse k l l' x y : 0 <= l <= l' -> agree_at k l x y -> agree_at k l' x y.
Proof.
  intros H [A1 A2]. assert (E : 2 ^ l' = 2 ^ l * 2 ^ (l' - l)) by (rewrite <- Z.pow_add_r by lia; f_equal; lia).
  assert (P1 : 0 < 2 ^ l) by (apply Z.pow_pos_nonneg; lia). assert (P2 : 0 < 2 ^ (l' - l)) by (apply Z.pow_pos_nonneg; lia).
  split; intros K.
  - rewrite E, <- !Z.div_div by lia. rewrite A1 by exact K. reflexivity.
  - rewrite E, <- !Z.quot_quot by lia. rewrite A2 by exact K. reflexivity.
Qed.

Lemma mlow_ex m : 0 < m < 65536 -> exists l, mlow m l.
Proof.
  intros H.
  assert (K : forall n : nat, (exists l, mlow m l) \/ forall i, 0 <= i < Z.of_nat n -> Z.testbit m i = false).
  { induction n as [|n [IH|IH]]; [right; intros; lia|left; exact IH|].
    destruct (Z.testbit m (Z.of_nat n)) eqn:E.
    - left. exists (Z.of_nat n). split; [lia|]. split; [exact E|exact IH].
    - right. intros i Hi. destruct (Z.eq_dec i (Z.of_nat n)) as [->|]; [exact E|]. apply IH. lia. }
  destruct (K 16%nat) as [K1|K1]; [exact K1|]. exfalso. assert (m = 0); [|lia]. apply Z.bits_inj'. intros i Hi. rewrite Z.testbit_0_l.
  destruct (Z.ltb_spec i 16); [apply K1; lia|]. apply Z.bits_above_log2; [lia|]. apply Z.lt_le_trans with 16; [|lia]. apply Z.log2_lt_pow2; [lia|]. change (2 ^ 16) with 65536. lia.
Qed.

Lemma pow_divide a b : 0 <= a <= b -> (2 ^ a | 2 ^ b).
Proof. intros H. exists (2 ^ (b - a)). rewrite <- Z.pow_add_r by lia. f_equal. lia. Qed.

Section Masks.
  Variables (p : scanpar) (M M' : list (list Z)).
  Hypothesis Hal : 0 <= sp_al p <= 10.
  Hypothesis Hss : 0 <= sp_ss p <= sp_se p.
  Hypothesis Hse : sp_se p <= 63.
  Hypothesis HM : masks_ok M.
  Hypothesis HC : forall ci k, 0 <= ci < 4 -> 0 <= k < 64 ->
      (In ci (map cs_comp (sp_cs p)) /\ sp_ss p <= k <= sp_se p /\ prog_mark (sp_ah p) (sp_al p) (maskat M ci k) = JOk (maskat M' ci k))
      \/ (~ (In ci (map cs_comp (sp_cs p)) /\ sp_ss p <= k <= sp_se p) /\ maskat M' ci k = maskat M ci k).

  Lemma mask_marked ci k : 0 <= ci < 4 -> In ci (map cs_comp (sp_cs p)) -> 0 <= k < 64 -> sp_ss p <= k <= sp_se p ->
    mlow (maskat M' ci k) (sp_al p) /\ (sp_ah p = 0 -> maskat M ci k = 0) /\ (forall l, mlow (maskat M ci k) l -> sp_al p < l).
  Proof.
    intros Hc HI Hk Hb. destruct (HC ci k Hc Hk) as [(_ & _ & E)|[N _]]; [|tauto].
    destruct (prog_mark_ok (sp_ah p) (sp_al p) (maskat M ci k) (maskat M' ci k) ltac:(lia) (maskat_range M ci k HM Hc Hk) E) as (_ & A & B & C). auto.
  Qed.

  Lemma level_down ci k c : 0 <= ci < 4 -> In ci (map cs_comp (sp_cs p)) -> 0 <= k < 64 -> sp_ss p <= k <= sp_se p ->
    coef_inv (maskat M ci k) k c -> (2 ^ (sp_al p + 1) | c) /\ (sp_ah p = 0 -> c = 0).
  Proof.
    intros Hc HI Hk Hb (C1 & C2 & _ & _). destruct (mask_marked ci k Hc HI Hk Hb) as (_ & A & B).
    split; [|intros E; auto]. pose proof (maskat_range M ci k HM Hc Hk) as R.
    destruct (Z.eq_dec (maskat M ci k) 0) as [E|N]; [rewrite (C1 E); apply Z.divide_0_r|].
    destruct (mlow_ex (maskat M ci k) ltac:(lia)) as [l Hl]. specialize (B l Hl). specialize (C2 l Hl).
    eapply Z.divide_trans; [|exact C2]. apply pow_divide. lia.
  Qed.

  Lemma coefs_ready comps cb : coefs_inv M comps -> in_comps comps cb -> fst cb < 4 -> In (fst cb) (map cs_comp (sp_cs p)) -> ready p (blk comps cb).
  Proof.
    intros CI IC H4 HI. destruct (CI cb IC) as [L CK]. assert (Hc : 0 <= fst cb < 4) by (destruct IC; lia).
    split; [exact L|]. split.
    - intros Ea jj Hj. destruct (level_down (fst cb) jj _ Hc HI ltac:(lia) ltac:(lia) (CK jj ltac:(lia))) as [_ D]. exact (D Ea).
    - intros Ea. split.
      + intros jj Hj. destruct (level_down (fst cb) jj _ Hc HI ltac:(lia) ltac:(lia) (CK jj ltac:(lia))) as [D _]. split; [exact D|].
        destruct (CK jj ltac:(lia)) as (_ & _ & _ & B). apply B. lia.
      + intros E0. destruct (level_down (fst cb) 0 _ Hc HI ltac:(lia) ltac:(lia) (CK 0 ltac:(lia))) as [D _]. split; [|exact D].
        destruct (CK 0 ltac:(lia)) as (_ & _ & B & _). apply B. reflexivity.
  Qed.

  Variables (C C' : list component).
  Hypothesis SH : same_shape C C'.
  Hypothesis H4 : (length C <= 4)%nat.
  Variable vs : list (Z * Z).
  Hypothesis VI : forall cb, In cb vs -> In (fst cb) (map cs_comp (sp_cs p)).
  Hypothesis UN : forall cb, 0 <= fst cb -> 0 <= snd cb -> ~ In cb vs -> blk C' cb = blk C cb.
  Hypothesis ST : forall cb, In cb vs -> stepped p (blk C cb) (blk C' cb).

  Lemma in_dec_pos (cb : Z * Z) : In cb vs \/ ~ In cb vs.
  Proof. destruct (in_dec (fun a b : Z * Z => ltac:(decide equality; apply Z.eq_dec) : {a = b} + {a <> b}) cb vs); auto. Qed.

  Lemma coefs_after : coefs_inv M C -> coefs_inv M' C'.
  Proof.
    intros CI cb IC'. pose proof (in_comps_shape _ _ _ (same_shape_sym _ _ SH) IC') as IC. destruct (CI cb IC) as [L CK].
    assert (Hc : 0 <= fst cb < 4) by (destruct IC; lia).
    assert (KEEP : forall k c, 0 <= k < 64 -> coef_inv (maskat M (fst cb) k) k c -> coef_inv (maskat M' (fst cb) k) k c).
    { intros k c Hk (K1 & K2 & K3 & K4). destruct (HC (fst cb) k Hc Hk) as [(A1 & A2 & A3)|[_ ->]]; [|split; auto].
      destruct (mask_marked (fst cb) k Hc A1 Hk A2) as (B1 & B2 & B3).
      destruct (level_down (fst cb) k c Hc A1 Hk A2 (conj K1 (conj K2 (conj K3 K4)))) as [D _].
      split; [|split; [|split; auto]].
      - intros E. rewrite E in B1. destruct B1 as (_ & B1 & _). rewrite Z.testbit_0_l in B1. discriminate.
      - intros l Hl. rewrite <- (mlow_fun _ _ _ B1 Hl). eapply Z.divide_trans; [|exact D]. apply pow_divide. lia. }
    destruct (in_dec_pos cb) as [HI|HN].
    - destruct (ST cb HI) as (S1 & S2 & S3 & S4 & _). split; [exact S1|]. intros k Hk. specialize (VI cb HI).
      destruct (Z_le_dec (sp_ss p) k) as [K1|K1]; [destruct (Z_le_dec k (sp_se p)) as [K2|K2]|].
      + destruct (mask_marked (fst cb) k Hc VI Hk ltac:(lia)) as (B1 & B2 & B3).
        assert (NZ : maskat M' (fst cb) k <> 0) by (intros E; rewrite E in B1; destruct B1 as (_ & B1 & _); rewrite Z.testbit_0_l in B1; discriminate).
        split; [contradiction|]. destruct (Z.eq_dec k 0) as [->|N0].
        * destruct (S4 ltac:(lia)) as [Q1 Q2]. split; [intros l Hl; rewrite <- (mlow_fun _ _ _ B1 Hl); exact Q2|]. split; [auto|congruence].
        * destruct (S3 k ltac:(lia)) as [Q1 Q2]. split; [intros l Hl; rewrite <- (mlow_fun _ _ _ B1 Hl); exact Q1|]. split; [congruence|auto].
      + rewrite S2 by lia. apply KEEP; auto.
      + rewrite S2 by lia. apply KEEP; auto.
    - rewrite UN by (auto; destruct IC; lia). split; [exact L|]. intros k Hk. apply KEEP; auto.
  Qed.

  Lemma agree_before CF : coefs_inv M C -> agreeM M' C' CF -> agreeM M C CF.
  Proof.
    intros CI AG cb k l IC Hk Hl. pose proof (in_comps_shape _ _ _ SH IC) as IC'. assert (Hc : 0 <= fst cb < 4) by (destruct IC; lia).
    assert (Pal : 0 < 2 ^ sp_al p) by (apply Z.pow_pos_nonneg; lia).
    apply agree_trans with (zat (blk C' cb) k).
    - destruct (HC (fst cb) k Hc Hk) as [(A1 & A2 & A3)|[_ E]].
      + destruct (mask_marked (fst cb) k Hc A1 Hk A2) as (B1 & _ & B3). specialize (B3 l Hl).
        apply (agree_coarse k (sp_al p) l); [lia|]. apply AG; auto.
      + apply AG; auto. rewrite E. exact Hl.
    - destruct (in_dec_pos cb) as [HI|HN]; [|rewrite UN by (auto; destruct IC; lia); split; reflexivity].
      destruct (ST cb HI) as (S1 & S2 & _ & _ & S5). specialize (VI cb HI).
      destruct (Z_le_dec (sp_ss p) k) as [K1|K1]; [destruct (Z_le_dec k (sp_se p)) as [K2|K2]|]; [|rewrite S2 by lia; split; reflexivity..].
      destruct (mask_marked (fst cb) k Hc VI Hk ltac:(lia)) as (B1 & B2 & B3). specialize (B3 l Hl).
      destruct (Z.eq_dec (sp_ah p) 0) as [Ea|Ea].
      { rewrite (B2 Ea) in Hl. destruct Hl as (_ & Hl & _). rewrite Z.testbit_0_l in Hl. discriminate. }
      destruct (S5 Ea) as [Q1 Q2]. apply (agree_coarse k (sp_al p + 1) l); [lia|]. split; intros K; [subst k; apply Q2; lia|apply Q1; lia].
  Qed.

  Lemma views MF CF cb : In cb vs -> in_comps C cb -> same_shape C CF -> coefs_inv MF CF -> agreeM M' C' CF ->
    view (sp_ss p) (sp_se p) (sp_al p) (blk CF cb) (blk C' cb).
  Proof.
    intros HI IC SF CIF AG. specialize (VI cb HI). pose proof (in_comps_shape _ _ _ SF IC) as ICF. pose proof (in_comps_shape _ _ _ SH IC) as IC'.
    destruct (CIF cb ICF) as [LF CKF]. assert (Hc : 0 <= fst cb < 4) by (destruct IC; lia).
    split; [exact LF|]. split.
    - intros E0. destruct (mask_marked (fst cb) 0 Hc VI ltac:(lia) ltac:(lia)) as (B1 & _). apply (AG cb 0 _ IC' ltac:(lia) B1). reflexivity.
    - intros jj Hj. destruct (mask_marked (fst cb) jj Hc VI ltac:(lia) ltac:(lia)) as (B1 & _). split.
      + apply (AG cb jj _ IC' ltac:(lia) B1). lia.
      + destruct (CKF jj ltac:(lia)) as (_ & _ & _ & B). specialize (B ltac:(lia)). lia.
  Qed.
End Masks.
