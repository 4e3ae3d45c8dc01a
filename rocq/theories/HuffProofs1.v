(** Bit reversal and the key sequence of the prefix-code tables. *)
From Verif Require Import Base BitModel JBitModel JWriteProofs JReadProofs JHuffModel JHuffProofs HuffModel.

(** * Bit reversal *)

Fixpoint brev (n : nat) (x : Z) : Z :=
  match n with O => 0 | S m => (x mod 2) * 2 ^ Z.of_nat m + brev m (x / 2) end.

Lemma brev_range n : forall x, 0 <= brev n x < 2 ^ Z.of_nat n.
Proof.
  induction n as [|n IH]; intros x; cbn [brev]; [cbn; lia|]. rewrite pow2_S. specialize (IH (x / 2)).
  pose proof (Z.mod_pos_bound x 2 ltac:(lia)). pose proof (pow2_pos_nat n). nia.
Qed.

(** The low [a] bits of the argument become the high bits of the result. *)
Lemma brev_split a b : forall x, brev (a + b) x = brev a x * 2 ^ Z.of_nat b + brev b (x / 2 ^ Z.of_nat a).
Proof.
  induction a as [|a IH]; intros x.
  - cbn [Nat.add brev]. change (2 ^ Z.of_nat 0) with 1. rewrite Z.div_1_r. lia.
  - cbn [Nat.add brev]. rewrite IH, pow2_S, <- Z.div_div by (pose proof (pow2_pos_nat a); lia).
    rewrite Nat2Z.inj_add, Z.pow_add_r by lia. lia.
Qed.

Lemma brev_hi a b x : brev (a + b) x / 2 ^ Z.of_nat b = brev a x.
Proof.
  rewrite brev_split. pose proof (brev_range b (x / 2 ^ Z.of_nat a)). pose proof (pow2_pos_nat b).
  rewrite Z.div_add_l by lia. rewrite Z.div_small by lia. lia.
Qed.

Lemma brev_lo a b x : brev (a + b) x mod 2 ^ Z.of_nat b = brev b (x / 2 ^ Z.of_nat a).
Proof.
  rewrite brev_split. pose proof (brev_range b (x / 2 ^ Z.of_nat a)).
  rewrite Z.add_comm, Z_mod_plus_full. apply Z.mod_small. lia.
Qed.

Lemma brev_mod n : forall x, brev n (x mod 2 ^ Z.of_nat n) = brev n x.
Proof.
  induction n as [|n IH]; intros x; [reflexivity|]. cbn [brev]. rewrite pow2_S.
  pose proof (pow2_pos_nat n) as P.
  assert (E1 : (x mod (2 * 2 ^ Z.of_nat n)) mod 2 = x mod 2).
  { rewrite Z.rem_mul_r by lia. rewrite Z.mul_comm, Z_mod_plus_full. apply Z.mod_mod. lia. }
  assert (E2 : x mod (2 * 2 ^ Z.of_nat n) / 2 = (x / 2) mod 2 ^ Z.of_nat n).
  { rewrite Z.rem_mul_r by lia. rewrite Z.add_comm, Z.mul_comm, Z.div_add_l by lia.
    rewrite (Z.div_small (x mod 2)) by (apply Z.mod_pos_bound; lia). lia. }
  rewrite E1, E2, IH. reflexivity.
Qed.

Lemma brev_1 x : brev 1 x = x mod 2.
Proof. cbn [brev]. change (2 ^ Z.of_nat 0) with 1. lia. Qed.

Lemma brev_invol n : forall x, brev n (brev n x) = x mod 2 ^ Z.of_nat n.
Proof.
  induction n as [|n IH]; intros x; [cbn; rewrite Z.mod_1_r; reflexivity|].
  replace (S n) with (n + 1)%nat by lia.
  rewrite (brev_split n 1 (brev (n + 1) x)). replace (n + 1)%nat with (1 + n)%nat by lia.
  rewrite brev_hi, brev_1.
  rewrite <- (brev_mod n (brev (1 + n) x)), brev_lo, IH.
  change (2 ^ Z.of_nat 1) with 2. rewrite brev_1. cbn [Nat.add]. rewrite pow2_S. pose proof (pow2_pos_nat n).
  rewrite Z.rem_mul_r by lia. rewrite Z.mod_mod by lia. lia.
Qed.

Lemma brev_inj n x y : 0 <= x < 2 ^ Z.of_nat n -> 0 <= y < 2 ^ Z.of_nat n -> brev n x = brev n y -> x = y.
Proof. intros Hx Hy E. apply (f_equal (brev n)) in E. rewrite !brev_invol, !Z.mod_small in E by lia. exact E. Qed.

(** Adding zeros at the top. *)
Lemma brev_pad a b x : 0 <= x < 2 ^ Z.of_nat a -> brev (a + b) (x * 2 ^ Z.of_nat b) = brev a x.
Proof.
  intros H. replace (a + b)%nat with (b + a)%nat by lia. rewrite brev_split. pose proof (pow2_pos_nat b).
  rewrite Z.div_mul by lia. rewrite <- (brev_mod b), Z_mod_mult.
  assert (E : forall n, brev n 0 = 0) by (induction n as [|n IH]; [reflexivity|cbn [brev]; change (0 mod 2) with 0; change (0 / 2) with 0; rewrite IH; lia]).
  rewrite E. lia.
Qed.

(** * GetNextKey *)

Lemma land_pow2 key m : 0 <= m -> (Z.land key (2 ^ m) =? 0) = negb (Z.testbit key m).
Proof.
  intros Hm. destruct (Z.testbit key m) eqn:E; cbn [negb].
  - apply Z.eqb_neq. intros H. apply (f_equal (fun z => Z.testbit z m)) in H.
    rewrite Z.land_spec, E, Z.pow2_bits_true, Z.bits_0 in H by lia. discriminate.
  - apply Z.eqb_eq. apply Z.bits_inj'. intros k Hk. rewrite Z.land_spec, Z.bits_0.
    destruct (Z.eq_dec k m) as [->|N]; [rewrite E; reflexivity|]. rewrite Z.pow2_bits_false by lia. apply andb_false_r.
Qed.

Lemma next_key_loop_ok n : forall key, brev n key + 1 < 2 ^ Z.of_nat n ->
  next_key_loop n key = brev n (brev n key + 1).
Proof.
  induction n as [|n IH]; intros key Hn; [cbn in *; lia|].
  rewrite pow2_S in Hn. pose proof (pow2_pos_nat n) as P.
  cbn [next_key_loop]. rewrite land_pow2, land_ones_mod by lia.
  set (q := (key / 2 ^ Z.of_nat n) mod 2).
  assert (Hq : 0 <= q < 2) by (apply Z.mod_pos_bound; lia).
  assert (Tb : Z.testbit key (Z.of_nat n) = (q =? 1)).
  { unfold q. rewrite Z.testbit_eqb by lia. reflexivity. }
  assert (EB : brev (S n) key = 2 * brev n key + q).
  { replace (S n) with (n + 1)%nat by lia. rewrite brev_split, brev_1. fold q.
    change (2 ^ Z.of_nat 1) with 2. lia. }
  rewrite Tb. rewrite EB in Hn |- *. cbn [brev].
  destruct (Z.eqb_spec q 1) as [Q|Q]; cbn [negb].
  - rewrite IH by lia. replace (2 * brev n key + q + 1) with ((brev n key + 1) * 2) by lia.
    rewrite Z_mod_mult, Z.div_mul by lia. lia.
  - assert (q = 0) by lia. replace (2 * brev n key + q + 1) with (1 + brev n key * 2) by lia.
    rewrite Z_mod_plus_full. change (1 mod 2) with 1. rewrite Z.div_add by lia. change (1 / 2) with 0.
    rewrite Z.add_0_l, brev_invol. lia.
Qed.

(** * Keys as positions: the key of a symbol is the reversed Kraft position. *)

Lemma key_of_pos l p : 1 <= l <= 16 -> 0 <= p -> p * wgt l < 65536 -> brev 16 (p * wgt l) = brev (Z.to_nat l) p.
Proof.
  intros Hl Hp H. replace 16%nat with (Z.to_nat l + Z.to_nat (16 - l))%nat by lia.
  unfold wgt in *. replace (2 ^ (16 - l)) with (2 ^ Z.of_nat (Z.to_nat (16 - l))) in * by (rewrite Z2Nat.id by lia; reflexivity).
  apply brev_pad. split; [lia|]. change 65536 with (2 ^ 16) in H. replace 16 with (l + (16 - l)) in H at 2 by lia.
  rewrite Z.pow_add_r in H by lia. rewrite !Z2Nat.id in * by lia.
  pose proof (pow2_pos (16 - l) ltac:(lia)). nia.
Qed.

Lemma next_key_pos l p : 1 <= l <= 16 -> 0 <= p -> (p + 1) * wgt l < 65536 ->
  next_key (brev 16 (p * wgt l)) l = brev 16 ((p + 1) * wgt l).
Proof.
  intros Hl Hp H. pose proof (wgt_pos l ltac:(lia)) as W.
  rewrite !key_of_pos by (try lia; nia).
  assert (Hb : p + 1 < 2 ^ l).
  { unfold wgt in *. replace 65536 with (2 ^ (l + (16 - l))) in H by (replace (l + (16 - l)) with 16 by lia; reflexivity).
    rewrite Z.pow_add_r in H by lia. nia. }
  unfold next_key. rewrite next_key_loop_ok; rewrite brev_invol, Z2Nat.id, Z.mod_small by lia; [reflexivity|lia].
Qed.

(** A 16-bit window belongs to the symbol at position [p] of length [l] exactly when its
    low [l] bits are the key. *)
Lemma window_class l p w : 1 <= l <= 16 -> 0 <= p -> p * wgt l < 65536 -> 0 <= w < 65536 ->
  (p * wgt l <= brev 16 w < (p + 1) * wgt l <-> w mod 2 ^ l = brev 16 (p * wgt l)).
Proof.
  intros Hl Hp H Hw. rewrite key_of_pos by lia. pose proof (wgt_pos l ltac:(lia)) as W.
  assert (E : brev 16 w / wgt l = brev (Z.to_nat l) w).
  { replace 16%nat with (Z.to_nat l + Z.to_nat (16 - l))%nat by lia. unfold wgt.
    replace (16 - l) with (Z.of_nat (Z.to_nat (16 - l))) at 2 by lia. apply brev_hi. }
  assert (Pb : p < 2 ^ l).
  { unfold wgt in *. replace 65536 with (2 ^ (l + (16 - l))) in H by (replace (l + (16 - l)) with 16 by lia; reflexivity).
    rewrite Z.pow_add_r in H by lia. nia. }
  assert (Iff : p * wgt l <= brev 16 w < (p + 1) * wgt l <-> brev 16 w / wgt l = p).
  { split; intros X; [symmetry; apply (Z.div_unique_pos _ _ _ (brev 16 w - p * wgt l)); lia|].
    pose proof (Z.div_mod (brev 16 w) (wgt l) ltac:(lia)). pose proof (Z.mod_pos_bound (brev 16 w) (wgt l) ltac:(lia)). subst p. nia. }
  rewrite Iff, E. pose proof (Z.mod_pos_bound w (2 ^ l) ltac:(apply pow2_pos; lia)) as Wm.
  split; intros X.
  - rewrite <- X, brev_invol, Z2Nat.id by lia. reflexivity.
  - rewrite <- (brev_mod (Z.to_nat l) w), Z2Nat.id by lia. rewrite X, brev_invol, Z2Nat.id, Z.mod_small by lia. reflexivity.
Qed.

(** * Arrays *)

Lemma bh_replicate_ok : forall n base step e lut, 0 <= base -> 0 < step ->
  (n = 0%nat \/ base + step * (Z.of_nat n - 1) < Z.of_nat (length lut)) ->
  exists lut', bh_replicate n base step e lut = JOk lut' /\ length lut' = length lut
    /\ (forall k, 0 <= k < Z.of_nat n -> aget lut' (base + step * k) = JOk e)
    /\ (forall i, (forall k, 0 <= k < Z.of_nat n -> i <> base + step * k) -> aget lut' i = aget lut i).
Proof.
  induction n as [|n IH]; intros base step e lut Hb Hs Hn.
  - exists lut. split; [reflexivity|]. split; [reflexivity|]. split; [intros; lia|reflexivity].
  - cbn [bh_replicate]. rewrite aset_ok by nia. cbn [jbind].
    destruct (IH base step e (upd lut (Z.to_nat (base + step * Z.of_nat n)) e)) as (lut' & E & L & G1 & G2); [lia|lia|rewrite upd_length; destruct n; [left; reflexivity|right; nia]|].
    exists lut'. split; [exact E|]. split; [rewrite L, upd_length; reflexivity|]. split.
    + intros k Hk. destruct (Z.eq_dec k (Z.of_nat n)) as [->|N].
      * rewrite G2 by (intros k' Hk' E'; nia). apply aget_upd_same. nia.
      * apply G1. lia.
    + intros i Hi. rewrite G2 by (intros k Hk; apply Hi; lia). apply aget_upd_other; [nia|]. intros E'. apply (Hi (Z.of_nat n)); lia.
Qed.

(** All indices below [2^T] of a residue class are written, and nothing else. *)
Lemma bh_replicate_class T l base key e lut : 0 <= l <= T -> 0 <= key < 2 ^ l -> 0 <= base -> base + 2 ^ T <= Z.of_nat (length lut) ->
  exists lut', bh_replicate (Z.to_nat (2 ^ T / 2 ^ l)) (base + key) (2 ^ l) e lut = JOk lut' /\ length lut' = length lut
    /\ (forall i, 0 <= i < 2 ^ T -> i mod 2 ^ l = key -> aget lut' (base + i) = JOk e)
    /\ (forall i, ~ (0 <= i - base < 2 ^ T /\ (i - base) mod 2 ^ l = key) -> aget lut' i = aget lut i).
Proof.
  intros Hl Hk Hb Hn. pose proof (pow2_pos l ltac:(lia)) as Pl.
  assert (ET : 2 ^ T = 2 ^ l * 2 ^ (T - l)) by (rewrite <- Z.pow_add_r by lia; f_equal; lia).
  assert (EQ : 2 ^ T / 2 ^ l = 2 ^ (T - l)) by (rewrite ET, Z.mul_comm, Z.div_mul by lia; reflexivity).
  pose proof (pow2_pos (T - l) ltac:(lia)) as Pd.
  rewrite EQ.
  destruct (bh_replicate_ok (Z.to_nat (2 ^ (T - l))) (base + key) (2 ^ l) e lut) as (lut' & E & L & G1 & G2); [lia|lia|right; nia|].
  rewrite Z2Nat.id in G1, G2 by lia.
  exists lut'. split; [exact E|]. split; [exact L|]. split.
  - intros i Hi Em. pose proof (Z.div_mod i (2 ^ l) ltac:(lia)) as D. rewrite Em in D.
    replace (base + i) with (base + key + 2 ^ l * (i / 2 ^ l)) by lia. apply G1.
    split; [apply Z.div_pos; lia|]. apply Z.div_lt_upper_bound; lia.
  - intros i Hi. apply G2. intros k Hk' E'. apply Hi. subst i. replace (base + key + 2 ^ l * k - base) with (key + k * 2 ^ l) by lia.
    split; [nia|]. rewrite Z_mod_plus_full. apply Z.mod_small. lia.
Qed.
