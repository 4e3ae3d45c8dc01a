(** BuildHuffmanTable as a whole, continued: filling and the loops over the lengths. *)
From Verif Require Import Base BitModel BitProofs JBitModel JWriteProofs JReadProofs JHuffModel JHuffProofs JHuffPair
  HuffModel HuffProofs1 HuffProofs2 HuffProofs3 HuffProofs4.

Lemma aget_firstn {A} (l : list A) n i : 0 <= i < Z.of_nat n -> aget (firstn n l) i = aget l i.
Proof.
  intros H. unfold aget. destruct (Z.ltb_spec i 0); [lia|].
  replace (nth_error (firstn n l) (Z.to_nat i)) with (nth_error l (Z.to_nat i)); [reflexivity|].
  destruct (Nat.lt_ge_cases (Z.to_nat i) (length l)) as [Hl|Hl].
  - rewrite <- (firstn_skipn n l) at 1. rewrite nth_error_app1; [reflexivity|]. rewrite firstn_length. lia.
  - rewrite (proj2 (nth_error_None l _)) by lia. symmetry. apply nth_error_None. rewrite firstn_length. lia.
Qed.
Lemma aget_app1 {A} (a b : list A) i : i < Z.of_nat (length a) -> aget (a ++ b) i = aget a i.
Proof. intros H. unfold aget. destruct (Z.ltb_spec i 0); [reflexivity|]. rewrite nth_error_app1 by lia. reflexivity. Qed.
Lemma aget_app2 {A} (a b : list A) i : Z.of_nat (length a) <= i -> aget (a ++ b) i = aget b (i - Z.of_nat (length a)).
Proof.
  intros H. unfold aget. destruct (Z.ltb_spec i 0); [lia|]. destruct (Z.ltb_spec (i - Z.of_nat (length a)) 0); [lia|].
  rewrite nth_error_app2 by lia. replace (Z.to_nat i - length a)%nat with (Z.to_nat (i - Z.of_nat (length a))) by lia. reflexivity.
Qed.

Lemma bh_fill_ok : forall fuel T R lut, 0 <= T <= R -> R - T < Z.of_nat fuel -> 2 ^ R <= Z.of_nat (length lut) ->
  exists lut', bh_fill fuel (2 ^ T) (2 ^ R) lut = JOk lut' /\ length lut' = length lut
    /\ forall i, 0 <= i < 2 ^ R -> aget lut' i = aget lut (i mod 2 ^ T).
Proof.
  induction fuel as [|f IH]; intros T R lut HT Hf HL; [lia|]. cbn [bh_fill].
  destruct (Z.eqb_spec (2 ^ T) (2 ^ R)) as [E|N].
  - exists lut. split; [reflexivity|]. split; [reflexivity|]. intros i Hi. rewrite Z.mod_small by lia. reflexivity.
  - assert (HTR : T < R) by (destruct (Z.eq_dec T R); [subst; congruence|lia]).
    assert (P1 : 2 ^ (T + 1) = 2 ^ T * 2) by (rewrite Z.pow_add_r by lia; reflexivity).
    assert (P2 : 2 ^ (T + 1) <= 2 ^ R) by (apply Z.pow_le_mono_r; lia).
    pose proof (pow2_pos T ltac:(lia)) as PT.
    unfold bh_double. destruct (Nat.leb_spec (Z.to_nat (2 ^ T) + Z.to_nat (2 ^ T)) (length lut)); [|lia]. cbn [jbind].
    set (n := Z.to_nat (2 ^ T)) in *. set (lut1 := firstn n lut ++ firstn n lut ++ skipn (n + n) lut).
    assert (L1 : length lut1 = length lut) by (unfold lut1; rewrite !app_length, !firstn_length, skipn_length; lia).
    assert (G1 : forall i, 0 <= i < 2 ^ (T + 1) -> aget lut1 i = aget lut (i mod 2 ^ T)).
    { intros i Hi. unfold lut1. destruct (Z_lt_ge_dec i (2 ^ T)) as [H1|H1].
      - rewrite aget_app1 by (rewrite firstn_length; lia). rewrite Z.mod_small by lia. apply aget_firstn. lia.
      - rewrite aget_app2 by (rewrite firstn_length; lia). rewrite firstn_length. replace (Z.of_nat (Nat.min n (length lut))) with (2 ^ T) by lia.
        rewrite aget_app1 by (rewrite firstn_length; lia). rewrite aget_firstn by lia.
        f_equal. rewrite <- (Z_mod_plus_full i (-1)). symmetry. rewrite Z.mod_small by lia. lia. }
    rewrite <- P1. destruct (IH (T + 1) R lut1 ltac:(lia) ltac:(lia) ltac:(lia)) as (lut' & E' & L' & G').
    exists lut'. split; [exact E'|]. split; [congruence|]. intros i Hi. rewrite G' by exact Hi.
    rewrite G1 by (apply Z.mod_pos_bound; lia). f_equal. apply mod_mod_pow. lia.
Qed.

(** * The loops over the lengths *)

Lemma count_next syms done lens lo n st : binv syms done (run lens (zs lo (S n))) st -> 1 <= lo <= 15 ->
  Z.to_nat (nth (Z.to_nat lo) (b_cnt st) 0) = Z.to_nat (cnt lo lens).
Proof.
  intros ((_ & C) & _) Hl. rewrite C by lia. rewrite run_cnt.
  destruct (Z.leb_spec lo lo), (Z.ltb_spec lo (lo + Z.of_nat (S n))); cbn [andb]; lia.
Qed.

Lemma run_S lens lo n : run lens (zs lo (S n)) = repeat lo (Z.to_nat (cnt lo lens)) ++ run lens (zs (lo + 1) n).
Proof. rewrite zs_S. reflexivity. Qed.

Lemma root_loop R syms lens : forall n lo done st, 1 <= lo -> lo + Z.of_nat n - 1 <= b_tbits st -> lo + Z.of_nat n <= 16 ->
  broot R syms done (run lens (zs lo (Z.to_nat (16 - lo)))) st ->
  exists st', bh_len_loop (bh_root_step syms) (zs lo n) st = JOk st'
    /\ broot R syms (done ++ run lens (zs lo n)) (run lens (zs (lo + Z.of_nat n) (Z.to_nat (16 - lo - Z.of_nat n)))) st'
    /\ b_tbits st' = b_tbits st /\ length (b_lut st') = length (b_lut st) /\ b_total st' = b_total st.
Proof.
  induction n as [|n IH]; intros lo done st Hlo Hn H16 B.
  - exists st. split; [reflexivity|]. change (run lens (zs lo 0)) with (@nil Z). rewrite app_nil_r, Z.sub_0_r. replace (lo + Z.of_nat 0) with lo by lia. auto.
  - rewrite zs_S. cbn [bh_len_loop]. replace (Z.to_nat (16 - lo)) with (S (Z.to_nat (16 - (lo + 1)))) in B by lia.
    rewrite (count_next syms done lens lo _ st (proj1 B)) by lia. rewrite run_S in B.
    destruct (times_root R syms lo (Z.to_nat (cnt lo lens)) done _ st B ltac:(lia)) as (st1 & E1 & B1 & T1 & L1 & O1).
    rewrite E1. cbn [jbind]. destruct (IH (lo + 1) _ st1 ltac:(lia) ltac:(lia) ltac:(lia) B1) as (st2 & E2 & B2 & T2 & L2 & O2).
    exists st2. split; [exact E2|]. rewrite <- app_assoc in B2.
    change (run lens (lo :: zs (lo + 1) n)) with (repeat lo (Z.to_nat (cnt lo lens)) ++ run lens (zs (lo + 1) n)).
    replace (lo + Z.of_nat (S n)) with (lo + 1 + Z.of_nat n) by lia. replace (16 - lo - Z.of_nat (S n)) with (16 - (lo + 1) - Z.of_nat n) by lia.
    split; [exact B2|]. split; [congruence|]. split; congruence.
Qed.

Lemma sub_loop R syms lens : forall n lo done st, 1 <= lo -> lo + Z.of_nat n <= 16 ->
  bsub R syms done (run lens (zs lo (Z.to_nat (16 - lo)))) st ->
  exists st', bh_len_loop (bh_sub_step syms R) (zs lo n) st = JOk st'
    /\ bsub R syms (done ++ run lens (zs lo n)) (run lens (zs (lo + Z.of_nat n) (Z.to_nat (16 - lo - Z.of_nat n)))) st'
    /\ length (b_lut st') = length (b_lut st).
Proof.
  induction n as [|n IH]; intros lo done st Hlo H16 B.
  - exists st. split; [reflexivity|]. change (run lens (zs lo 0)) with (@nil Z). rewrite app_nil_r, Z.sub_0_r. replace (lo + Z.of_nat 0) with lo by lia. auto.
  - rewrite zs_S. cbn [bh_len_loop]. replace (Z.to_nat (16 - lo)) with (S (Z.to_nat (16 - (lo + 1)))) in B by lia.
    rewrite (count_next syms done lens lo _ st (proj1 B)) by lia. rewrite run_S in B.
    destruct (times_sub R syms lo (Z.to_nat (cnt lo lens)) done _ st B) as (st1 & E1 & B1 & L1).
    rewrite E1. cbn [jbind]. destruct (IH (lo + 1) _ st1 ltac:(lia) ltac:(lia) B1) as (st2 & E2 & B2 & L2).
    exists st2. split; [exact E2|]. rewrite <- app_assoc in B2.
    change (run lens (lo :: zs (lo + 1) n)) with (repeat lo (Z.to_nat (cnt lo lens)) ++ run lens (zs (lo + 1) n)).
    replace (lo + Z.of_nat (S n)) with (lo + 1 + Z.of_nat n) by lia. replace (16 - lo - Z.of_nat (S n)) with (16 - (lo + 1) - Z.of_nat n) by lia.
    split; [exact B2|]. congruence.
Qed.

(** * Facts about complete codes *)

Lemma complete_kraft lens : complete lens -> kraft (nz lens) = 65536 /\ kraft (run lens (zs 1 15)) = 65536.
Proof.
  intros [F K].
  assert (X : kraft (nz lens) = 2 * sumZ (map (fun l => if 0 <? l then 2 ^ (15 - l) else 0) lens)).
  { clear K. induction F as [|l r Hl F IH]; [reflexivity|]. cbn [map]. unfold nz in *. cbn [filter].
    change (sumZ (?a :: ?b)) with (a + sumZ b). destruct (Z.ltb_spec 0 l).
    - rewrite kraft_cons, IH. unfold wgt. replace (16 - l) with (Z.succ (15 - l)) by lia. rewrite Z.pow_succ_r by lia. lia.
    - rewrite IH. lia. }
  assert (E : kraft (nz lens) = 65536) by (rewrite X, K; reflexivity). split; [exact E|].
  rewrite run_kraft, kle_all; [exact E|]. apply Forall_forall. intros x H. apply filter_In in H as [H _]. rewrite Forall_forall in F. apply F in H. lia.
Qed.

Lemma run_all_length lens : Forall (fun l => 0 <= l <= 15) lens -> Z.of_nat (length (run lens (zs 1 15))) = bel 16 lens.
Proof. intros _. rewrite run_length. reflexivity. Qed.

(** A code with one symbol is not complete. *)
Lemma complete_many lens : complete lens -> 2 <= bel 16 lens.
Proof.
  intros C. pose proof (complete_kraft lens C) as [_ K]. destruct C as [F _]. rewrite <- run_all_length by exact F.
  pose proof (run_range lens 1 15) as RR.
  destruct (run lens (zs 1 15)) as [|x [|y r]]; [discriminate K| |cbn [length]; lia].
  rewrite kraft_cons, kraft_nil in K. pose proof (Forall_inv RR) as H. cbv beta in H.
  assert (wgt x <= wgt 1) by (unfold wgt; apply Z.pow_le_mono_r; lia). change (wgt 1) with 32768 in *. lia.
Qed.
