(** Blocks in zigzag order, emitted bits, the pending end-of-block run. *)
From Verif Require Import Base JpegModel LehmerModel LehmerProofs CoefModel JBitModel JWriteProofs JReadProofs
  JHuffModel JHuffProofs JHuffPair JScanModel.
From Coq Require Import ZifyBool ZifyNat.

(** * Zigzag access *)

Definition nat_at (k : Z) : Z := nth (Z.to_nat k) kNaturalOrder 0.
Definition zat (b : list Z) (k : Z) : Z := nth (Z.to_nat (nat_at k)) b 0.
Definition zup (b : list Z) (k v : Z) : list Z := upd b (Z.to_nat (nat_at k)) v.

Lemma nat_at_range k : 0 <= k < 64 -> 0 <= nat_at k < 64.
Proof. intros H. unfold nat_at. apply natural_zigzag. exact H. Qed.

Lemma nat_at_inj j k : 0 <= j < 64 -> 0 <= k < 64 -> nat_at j = nat_at k -> j = k.
Proof.
  intros Hj Hk E. unfold nat_at in E. destruct (natural_zigzag j Hj) as [Ej _], (natural_zigzag k Hk) as [Ek _]. congruence.
Qed.

Lemma nat_at_get k : 0 <= k < 64 -> aget kNaturalOrder k = JOk (nat_at k).
Proof. intros H. apply aget_Some. split; [lia|]. apply nth_error_nth'. vm_compute (length kNaturalOrder). lia. Qed.

Lemma aget_nth (b : list Z) i : 0 <= i < Z.of_nat (length b) -> aget b i = JOk (nth (Z.to_nat i) b 0).
Proof. intros H. apply aget_Some. split; [lia|]. apply nth_error_nth'. lia. Qed.

Lemma zz_get_ok b k : length b = 64%nat -> 0 <= k < 64 -> zz_get b k = JOk (zat b k).
Proof.
  intros L H. unfold zz_get. rewrite nat_at_get by exact H. cbn [jbind]. apply aget_nth. rewrite L. pose proof (nat_at_range k H). lia.
Qed.

Lemma zz_set_ok b k v : length b = 64%nat -> 0 <= k < 64 -> zz_set b k v = JOk (zup b k v).
Proof.
  intros L H. unfold zz_set. rewrite nat_at_get by exact H. cbn [jbind]. unfold aset, zup. pose proof (nat_at_range k H).
  destruct (Z.leb_spec 0 (nat_at k)); [|lia]. destruct (Z.ltb_spec (nat_at k) (Z.of_nat (length b))); [|lia]. reflexivity.
Qed.

Lemma zup_length b k v : length (zup b k v) = length b.
Proof. apply upd_length. Qed.

Lemma zat_zup_same b k v : length b = 64%nat -> 0 <= k < 64 -> zat (zup b k v) k = v.
Proof. intros L H. pose proof (nat_at_range k H). unfold zat, zup. apply nth_upd_same. lia. Qed.

Lemma zat_zup_other b k j v : 0 <= k < 64 -> 0 <= j < 64 -> j <> k -> zat (zup b k v) j = zat b j.
Proof.
  intros Hk Hj N. pose proof (nat_at_range k Hk). pose proof (nat_at_range j Hj). unfold zat, zup. apply nth_upd_other.
  intros E. apply N. apply nat_at_inj; [exact Hj|exact Hk|]. lia.
Qed.

Lemma zat_0 b : zat b 0 = nth 0 b 0.
Proof. reflexivity. Qed.

Lemma aget_0 b : length b = 64%nat -> aget b 0 = JOk (zat b 0).
Proof. intros L. rewrite aget_nth by lia. reflexivity. Qed.

Lemma aset_0 b v : length b = 64%nat -> aset b 0 v = JOk (zup b 0 v).
Proof. intros L. unfold aset. destruct (Z.leb_spec 0 0); [|lia]. destruct (Z.ltb_spec 0 (Z.of_nat (length b))); [|lia]. reflexivity. Qed.

Lemma to_i16_small v : -32768 <= v <= 32767 -> to_i16 v = v.
Proof. intros H. unfold to_i16. rewrite Z.mod_small by lia. lia. Qed.

(** * Emitted bits *)

Definition bitop (o : wop) : Prop := exists n v, o = WBitsOp n v /\ 0 < n <= 16 /\ 0 <= v < 2 ^ n.
Definition obits (l : list wop) : list bool :=
  flat_map (fun o => match o with WBitsOp n v => mbits (Z.to_nat n) v | _ => [] end) l.

Lemma obits_app l1 l2 : obits (l1 ++ l2) = obits l1 ++ obits l2.
Proof. apply flat_map_app. Qed.

(** [st'] is [st] after more calls, which write the bits [B]. *)
Definition wadv (st st' : wcs) (B : list bool) : Prop :=
  exists l, wc_ops st' = wc_ops st ++ l /\ Forall bitop l /\ obits l = B.

Lemma wadv_refl st : wadv st st [].
Proof. exists []. rewrite app_nil_r. repeat split. constructor. Qed.

Lemma wadv_trans a b c B1 B2 : wadv a b B1 -> wadv b c B2 -> wadv a c (B1 ++ B2).
Proof.
  intros (l1 & E1 & F1 & O1) (l2 & E2 & F2 & O2). exists (l1 ++ l2). rewrite E2, E1, app_assoc.
  split; [reflexivity|]. split; [apply Forall_app; auto|]. rewrite obits_app. congruence.
Qed.

Lemma wadv_same a b c B : wc_ops b = wc_ops c -> wadv a b B -> wadv a c B.
Proof. intros E (l & E1 & F). exists l. split; [congruence|exact F]. Qed.

Lemma wadv_from a b c B : wc_ops a = wc_ops b -> wadv a c B -> wadv b c B.
Proof. intros E (l & E1 & F). exists l. split; [congruence|exact F]. Qed.

Lemma put_adv n v st : 0 < n <= 16 -> 0 <= v < 2 ^ n -> wadv st (put (WBitsOp n v) st) (mbits (Z.to_nat n) v).
Proof.
  intros Hn Hv. exists [WBitsOp n v]. split; [reflexivity|]. split; [repeat constructor; exists n, v; auto|].
  cbn [obits flat_map]. apply app_nil_r.
Qed.

Definition sym_ok (tab : codetab) (v : Z) : Prop :=
  exists n c, aget (fst tab) v = JOk n /\ aget (snd tab) v = JOk c /\ 1 <= n <= 16 /\ 0 <= c < 2 ^ n.

Lemma put_sym_ok tab v st : sym_ok tab v ->
  exists o, put_sym tab v st = JOk (put o st) /\ wadv st (put o st) (code_of tab v).
Proof.
  intros (n & c & E1 & E2 & Hn & Hc). exists (WBitsOp n c). unfold put_sym, code_of. rewrite E1, E2. cbn [jbind].
  split; [reflexivity|]. apply put_adv; lia.
Qed.

Lemma code_of_nonempty tab v : sym_ok tab v -> code_of tab v <> [].
Proof.
  intros (n & c & E1 & E2 & Hn & Hc) E. unfold code_of in E. rewrite E1, E2 in E. apply (f_equal (@length bool)) in E.
  rewrite mbits_length in E. cbn [length] in E. lia.
Qed.

(** Reading a symbol, in the form used below. *)
Lemma read_sym data p0 U s lut tab : bytes data -> bri data p0 U s -> slot_ok lut tab ->
  exists v s', read_symbol data lut s = JOk (v, s') /\ 0 <= v
    /\ (v < 256 -> bri data p0 (U ++ code_of tab v) s' /\ sym_ok tab v).
Proof.
  intros Y I S. destruct (read_symbol_slot data p0 U s lut tab Y I S) as (v & s' & R & Hv & _ & K).
  exists v, s'. split; [exact R|]. split; [exact Hv|]. intros H. exact (K H).
Qed.

(** * Value bits *)

Lemma land_mask v n : 0 <= n -> Z.land v (2 ^ n - 1) = v mod 2 ^ n.
Proof. intros H. rewrite <- Z.land_ones by exact H. rewrite Z.ones_equiv. f_equal. Qed.

Lemma huff_extend_ok x s : 1 <= s -> 0 <= x < 2 ^ s ->
  let v := huff_extend x s in
  v <> 0 /\ 2 ^ (s - 1) <= Z.abs v < 2 ^ s /\ Z.log2 (Z.abs v) + 1 = s
  /\ Z.land (if v <? 0 then - Z.abs v - 1 else Z.abs v) (2 ^ s - 1) = x.
Proof.
  intros Hs Hx. cbv zeta.
  assert (E2 : 2 ^ s = 2 * 2 ^ (s - 1)) by (rewrite <- Z.pow_succ_r by lia; f_equal; lia).
  pose proof (Z.pow_pos_nonneg 2 (s - 1) ltac:(lia) ltac:(lia)) as P.
  assert (R : 2 ^ (s - 1) <= Z.abs (huff_extend x s) < 2 ^ s /\ ((0 < huff_extend x s /\ huff_extend x s = x) \/ (huff_extend x s < 0 /\ huff_extend x s = x - 2 ^ s + 1))).
  { unfold huff_extend. destruct (Z.leb_spec (2 ^ (s - 1)) x); split; try lia. }
  destruct R as [R C]. split; [lia|]. split; [exact R|]. split.
  - assert (Z.log2 (Z.abs (huff_extend x s)) = s - 1); [|lia]. apply Z.log2_unique; [lia|]. rewrite Z.pow_succ_r by lia. lia.
  - rewrite land_mask by lia. destruct C as [[C1 C2]|[C1 C2]].
    + destruct (Z.ltb_spec (huff_extend x s) 0); [lia|]. rewrite Z.abs_eq by lia. rewrite C2. apply Z.mod_small. lia.
    + destruct (Z.ltb_spec (huff_extend x s) 0); [|lia]. rewrite Z.abs_neq by lia. rewrite C2.
      replace (- - (x - 2 ^ s + 1) - 1) with (x + (-1) * 2 ^ s) by lia. rewrite Z_mod_plus_full. apply Z.mod_small. lia.
Qed.

(** * Buffered refinement bits *)

(** The words hold the bits in groups of 16; the last one may be shorter. *)
Definition repr (rb : list Z) (cnt : Z) (B : list bool) : Prop :=
  exists full tl, B = concat full ++ tl /\ Forall (fun w => length w = 16%nat) full /\ (length tl < 16)%nat
    /\ rb = map mval full ++ (match tl with [] => [] | _ => [mval tl] end) /\ cnt = Z.of_nat (length B).

Lemma repr_nil : repr [] 0 [].
Proof. exists [], []. repeat split; [constructor|cbn [length]; lia]. Qed.

Lemma concat16 (full : list (list bool)) : Forall (fun w => length w = 16%nat) full -> length (concat full) = (16 * length full)%nat.
Proof. induction 1 as [|w l H _ IH]; [reflexivity|]. cbn [concat length]. rewrite app_length, IH, H. lia. Qed.

Lemma join_bits_ok l : (length l <= 64)%nat -> join_bits (map b2z l) = mval l.
Proof.
  unfold join_bits.
  assert (X : forall l acc, (length acc + length l <= 64)%nat ->
    fold_left (fun x b => Z.lor (Z.shiftl x 1 mod 2 ^ 64) b) (map b2z l) (mval acc) = mval (acc ++ l)).
  { clear l. induction l as [|b l IH]; intros acc H; cbn [map fold_left]; [rewrite app_nil_r; reflexivity|].
    cbn [length] in H. assert (E : Z.lor (Z.shiftl (mval acc) 1 mod 2 ^ 64) (b2z b) = mval (acc ++ [b])).
    { rewrite mval_app, mval_one. cbn [length]. rewrite Z.shiftl_mul_pow2 by lia. pose proof (mval_range acc) as R.
      assert (2 ^ Z.of_nat (length acc) * 2 <= 2 ^ 64).
      { rewrite (Z.mul_comm _ 2), <- Z.pow_succ_r by lia. apply Z.pow_le_mono_r; lia. }
      change (2 ^ 1) with 2. change (2 ^ Z.of_nat 1) with 2. rewrite Z.mod_small by lia.
      replace (mval acc * 2) with (mval acc * 2 ^ 1) by lia. rewrite <- Z.shiftl_mul_pow2 by lia.
      destruct b; cbn [b2z]; [|rewrite Z.lor_0_r, Z.shiftl_mul_pow2 by lia; lia].
      rewrite Z.shiftl_mul_pow2 by lia. change (2 ^ 1) with 2. destruct (mval acc) as [|p|p]; [reflexivity| |lia]. rewrite (Z.mul_comm (Z.pos p)). reflexivity. }
    rewrite E, IH by (rewrite app_length; cbn [length]; lia). rewrite <- app_assoc. reflexivity. }
  intros H. apply (X l []). cbn [length]. lia.
Qed.

Lemma mval_suffix p q : mval (p ++ q) mod 2 ^ Z.of_nat (length q) = mval q.
Proof. rewrite mval_app, Z.add_comm, Z_mod_plus_full. apply Z.mod_small. apply mval_range. Qed.

Lemma mval_mid p w q : mval (p ++ w ++ q) / 2 ^ Z.of_nat (length q) mod 2 ^ Z.of_nat (length w) = mval w.
Proof.
  rewrite app_assoc, mval_app. pose proof (mval_range q). pose proof (pow2_pos_nat (length q)).
  rewrite Z.div_add_l by lia. rewrite (Z.div_small (mval q)) by lia. rewrite Z.add_0_r. apply mval_suffix.
Qed.

(** Words pushed for the last [n] bits of a number. *)
Lemma push_words_ok : forall fuel pre q full, (length q < 16 * fuel)%nat -> Forall (fun w => length w = 16%nat) full ->
  exists rb cnt, push_words fuel (mval (pre ++ q)) (Z.of_nat (length q)) (map mval full) (Z.of_nat (16 * length full)) = (rb, cnt)
    /\ repr rb cnt (concat full ++ q).
Proof.
  induction fuel as [|f IH]; intros pre q full L F; [lia|]. cbn [push_words].
  destruct (Z.leb_spec 16 (Z.of_nat (length q))) as [H|H].
  - set (w := firstn 16 q). set (q' := skipn 16 q).
    assert (Eq : q = w ++ q') by (symmetry; apply firstn_skipn).
    assert (Lw : length w = 16%nat) by (unfold w; rewrite firstn_length; lia).
    assert (Lq : length q' = (length q - 16)%nat) by (unfold q'; apply skipn_length).
    replace (Z.of_nat (length q) - 16) with (Z.of_nat (length q')) by lia.
    assert (Ew : Z.shiftr (mval (pre ++ q)) (Z.of_nat (length q')) mod 2 ^ 16 = mval w).
    { rewrite Z.shiftr_div_pow2 by lia. rewrite Eq at 1. change 16 with (Z.of_nat 16) at 1. rewrite <- Lw. apply mval_mid. }
    rewrite Ew.
    replace (mval (pre ++ q)) with (mval ((pre ++ w) ++ q')) by (rewrite <- app_assoc, <- Eq; reflexivity).
    replace (map mval full ++ [mval w]) with (map mval (full ++ [w])) by (rewrite map_app; reflexivity).
    replace (Z.of_nat (16 * length full) + 16) with (Z.of_nat (16 * length (full ++ [w]))) by (rewrite app_length; cbn [length]; lia).
    destruct (IH (pre ++ w) q' (full ++ [w])) as (rb & cnt & E & R); [lia|apply Forall_app; auto|].
    exists rb, cnt. split; [exact E|]. rewrite concat_app in R. cbn [concat] in R. rewrite app_nil_r, <- app_assoc in R.
    unfold w, q' in R. rewrite firstn_skipn in R. exact R.
  - destruct (Z.eqb_spec (Z.of_nat (length q)) 0) as [E0|E0]; cbn [negb].
    + destruct q; [|cbn [length] in E0; lia]. eexists; eexists. split; [reflexivity|]. exists full, [].
      rewrite !app_nil_r. split; [reflexivity|]. split; [exact F|]. split; [cbn [length]; lia|]. split; [reflexivity|].
      rewrite concat16 by exact F. lia.
    + eexists; eexists. split; [reflexivity|]. exists full, q. split; [reflexivity|]. split; [exact F|]. split; [lia|]. split.
      * f_equal. destruct q; [cbn [length] in E0; lia|]. f_equal.
        rewrite land_mask by lia. rewrite mval_suffix. apply Z.mod_small. pose proof (mval_range (b :: q)) as R.
        assert (2 ^ Z.of_nat (length (b :: q)) <= 2 ^ 16) by (apply Z.pow_le_mono_r; lia). lia.
      * rewrite app_length, concat16 by exact F. lia.
Qed.

Definition eob_sym (N : Z) : Z := Z.shiftl (Z.log2 N) 4.
Definition eob_bits (tab : codetab) (N : Z) : list bool :=
  code_of tab (eob_sym N) ++ mbits (Z.to_nat (Z.log2 N)) (N - 2 ^ Z.log2 N).

(** Writing out the buffered words. *)
Lemma put_words_ok : forall ws done st rest, wc_rb st = map mval (done ++ ws) ++ rest ->
  Forall (fun w => length w = 16%nat) ws ->
  exists st', put_words (length ws) (Z.of_nat (length done)) st = JOk st' /\ wadv st st' (concat ws)
    /\ wc_eob st' = wc_eob st /\ wc_tab st' = wc_tab st /\ wc_rb st' = wc_rb st /\ wc_rbn st' = wc_rbn st.
Proof.
  induction ws as [|w ws IH]; intros done st rest E F.
  - exists st. cbn [length put_words concat]. split; [reflexivity|]. split; [apply wadv_refl|]. auto.
  - inversion F as [|? ? Lw F']; subst. cbn [length put_words].
    assert (G : aget (wc_rb st) (Z.of_nat (length done)) = JOk (mval w)).
    { apply aget_Some. split; [lia|]. rewrite E, Nat2Z.id, map_app. rewrite <- app_assoc.
      rewrite nth_error_app2; rewrite map_length; [|lia]. rewrite Nat.sub_diag. reflexivity. }
    rewrite G. cbn [jbind].
    destruct (IH (done ++ [w]) (put (WBitsOp 16 (mval w)) st) rest) as (st' & R & A & E1 & E2 & E3 & E4).
    { cbn [put wc_rb]. rewrite <- app_assoc. exact E. }
    { exact F'. }
    exists st'. replace (Z.of_nat (length done) + 1) with (Z.of_nat (length (done ++ [w]))) by (rewrite app_length; cbn [length]; lia).
    split; [exact R|]. split; [|auto]. cbn [concat]. eapply wadv_trans; [|exact A].
    pose proof (mval_range w) as Rw. rewrite Lw in Rw.
    pose proof (put_adv 16 (mval w) st ltac:(lia) Rw) as PA. change (Z.to_nat 16) with 16%nat in PA.
    pose proof (mbits_mval w) as M. rewrite Lw in M. rewrite M in PA. exact PA.
Qed.

Definition clean (st : wcs) : Prop := wc_eob st = 0 /\ wc_rb st = [] /\ wc_rbn st = 0.

Lemma log2_le N : 0 < N -> 2 ^ Z.log2 N <= N < 2 ^ (Z.log2 N + 1) /\ 0 <= Z.log2 N.
Proof. intros H. pose proof (Z.log2_spec N H) as S. rewrite <- Z.add_1_r in S. split; [exact S|apply Z.log2_nonneg]. Qed.

Lemma flush_ok st B : repr (wc_rb st) (wc_rbn st) B -> 0 <= wc_eob st <= 32767 ->
  (0 < wc_eob st -> sym_ok (wc_tab st) (eob_sym (wc_eob st))) ->
  exists st', flush st = JOk st' /\ clean st'
    /\ wadv st st' ((if 0 <? wc_eob st then eob_bits (wc_tab st) (wc_eob st) else []) ++ B).
Proof.
  intros (full & tl & EB & F & Lt & ER & EC) He HS. unfold flush.
  match goal with |- exists st', jbind ?a _ = _ /\ _ =>
    assert (S1 : exists st1, a = JOk st1 /\ wc_eob st1 = 0 /\ wc_rb st1 = wc_rb st /\ wc_rbn st1 = wc_rbn st
      /\ wadv st st1 (if 0 <? wc_eob st then eob_bits (wc_tab st) (wc_eob st) else [])) end.
  { destruct (Z.ltb_spec 0 (wc_eob st)) as [H|H]; [|exists st; split; [reflexivity|]; split; [lia|]; split; [reflexivity|]; split; [reflexivity|apply wadv_refl]].
    cbv zeta. destruct (log2_le (wc_eob st) H) as [L1 L2]. set (nb := Z.log2 (wc_eob st)) in *.
    destruct (put_sym_ok (wc_tab st) (Z.shiftl nb 4) st (HS H)) as (o & R & A). rewrite R. cbn [jbind].
    eexists. split; [reflexivity|]. cbn [wc_eob wc_rb wc_rbn wc_ops].
    split; [reflexivity|]. split; [destruct (0 <? nb); reflexivity|]. split; [destruct (0 <? nb); reflexivity|].
    unfold eob_bits, eob_sym. fold nb. eapply wadv_trans; [exact A|].
    destruct (Z.ltb_spec 0 nb) as [Hn|Hn].
    - eapply wadv_same; [cbn [wc_ops]; reflexivity|].
      assert (N14 : nb <= 14) by (change 14 with (Z.log2 32767); apply Z.log2_le_mono; lia).
      cbn [put wc_eob]. rewrite land_mask by lia.
      assert (EM : wc_eob st mod 2 ^ nb = wc_eob st - 2 ^ nb).
      { rewrite Z.pow_add_r in L1 by lia. symmetry. apply (Z.mod_unique _ _ 1); lia. }
      rewrite EM. rewrite Z.pow_add_r in L1 by lia. eapply wadv_same; [|apply put_adv; lia]. reflexivity.
    - replace nb with 0 by lia. change (mbits (Z.to_nat 0) _) with (@nil bool). eapply wadv_same; [|apply wadv_refl]. reflexivity. }
  destruct S1 as (st1 & R1 & E1 & E2 & E3 & A1). rewrite R1. cbn [jbind].
  assert (LB : length B = (16 * length full + length tl)%nat) by (rewrite EB, app_length, concat16 by exact F; lia).
  rewrite E3, EC.
  assert (Ew : Z.to_nat (Z.shiftr (Z.of_nat (length B)) 4) = length full).
  { rewrite Z.shiftr_div_pow2 by lia. change (2 ^ 4) with 16. rewrite LB. dlia. }
  rewrite Ew.
  destruct (put_words_ok full [] st1 (match tl with [] => [] | _ => [mval tl] end)) as (st2 & R2 & A2 & F1 & F2 & F3 & F4).
  { cbn [app]. rewrite E2. exact ER. } { exact F. }
  cbn [length] in R2. change (Z.of_nat 0) with 0 in R2. rewrite R2. cbn [jbind].
  rewrite F4, E3, EC. change 15 with (2 ^ 4 - 1). rewrite land_mask by lia. change (2 ^ 4) with 16.
  assert (Et : Z.of_nat (length B) mod 16 = Z.of_nat (length tl)) by (rewrite LB; dlia). rewrite Et.
  destruct tl as [|t tl].
  - cbn [length]. change (Z.of_nat 0 =? 0) with true. cbn [negb jbind]. eexists. split; [reflexivity|].
    split; [repeat split; cbn [wc_eob]; congruence|]. eapply wadv_same; [cbn [wc_ops]; reflexivity|].
    eapply wadv_same; [|eapply wadv_trans; [exact A1|rewrite EB, app_nil_r; exact A2]]. reflexivity.
  - destruct (Z.eqb_spec (Z.of_nat (length (t :: tl))) 0) as [E0|_]; [cbn [length] in E0; lia|]. cbn [negb].
    assert (G : aget (wc_rb st2) (Z.of_nat (length (wc_rb st2)) - 1) = JOk (mval (t :: tl))).
    { apply aget_Some. rewrite F3, E2, ER, app_length, map_length. cbn [length]. split; [lia|].
      rewrite nth_error_app2; rewrite map_length; [|lia]. replace (Z.to_nat (Z.of_nat (length full + 1) - 1) - length full)%nat with 0%nat by lia. reflexivity. }
    rewrite G. cbn [jbind]. eexists. split; [reflexivity|]. split; [repeat split; cbn [put wc_eob]; congruence|].
    pose proof (mval_range (t :: tl)) as Rw.
    pose proof (put_adv (Z.of_nat (length (t :: tl))) (mval (t :: tl)) st2 ltac:(cbn [length] in *; lia) Rw) as PA.
    rewrite Nat2Z.id, mbits_mval in PA.
    eapply wadv_same; [cbn [wc_ops]; reflexivity|]. rewrite EB, app_assoc.
    eapply wadv_same; [|rewrite <- app_assoc; eapply wadv_trans; [exact A1|eapply wadv_trans; [exact A2|exact PA]]]. reflexivity.
Qed.

Lemma flush_clean st : clean st -> flush st = JOk (mkWC (wc_ops st) 0 (wc_tab st) [] 0).
Proof. destruct st as [o e t rb n]. intros (E1 & E2 & E3). cbn [wc_eob wc_rb wc_rbn] in *. subst. reflexivity. Qed.

(** Adding bits to the buffer. *)
Lemma buffer_bits rb cnt B nb : repr rb cnt B -> (length nb <= 64)%nat ->
  exists rb' cnt',
    (if negb (Z.of_nat (length (map b2z nb)) =? 0) then
       let x := join_bits (map b2z nb) in
       let tail := Z.land cnt 15 in
       if negb (tail =? 0) then
         let sn := Z.min (16 - tail) (Z.of_nat (length (map b2z nb))) in
         let sb := Z.land (Z.shiftr x (Z.of_nat (length (map b2z nb)) - sn) mod 2 ^ 16) (2 ^ sn - 1) in
         let at_ := Z.of_nat (length rb) - 1 in
         let* w := aget rb at_ in
         let* rb := aset rb at_ (Z.lor (Z.shiftl w sn) sb mod 2 ^ 16) in
         JOk (push_words 5 x (Z.of_nat (length (map b2z nb)) - sn) rb (cnt + sn))
       else JOk (push_words 5 x (Z.of_nat (length (map b2z nb))) rb cnt)
     else JOk (rb, cnt)) = JOk (rb', cnt') /\ repr rb' cnt' (B ++ nb).
Proof.
  intros (full & tl & EB & F & Lt & ER & EC) Ln. rewrite map_length.
  destruct (Z.eqb_spec (Z.of_nat (length nb)) 0) as [E0|E0]; cbn [negb].
  - destruct nb; [|cbn [length] in E0; lia]. exists rb, cnt. split; [reflexivity|]. rewrite app_nil_r. exists full, tl. auto.
  - cbv zeta. rewrite join_bits_ok by exact Ln. change 15 with (2 ^ 4 - 1). rewrite land_mask by lia. change (2 ^ 4) with 16.
    assert (LB : length B = (16 * length full + length tl)%nat) by (rewrite EB, app_length, concat16 by exact F; lia).
    assert (Et : cnt mod 16 = Z.of_nat (length tl)) by (rewrite EC, LB; dlia). rewrite Et.
    destruct tl as [|t0 tl0].
    + cbn [length]. change (Z.of_nat 0 =? 0) with true. cbn [negb]. cbn [app] in *. rewrite app_nil_r in EB, ER. subst rb. rewrite EC, LB.
      cbn [length]. rewrite Nat.add_0_r.
      destruct (push_words_ok 5 [] nb full) as (rb & c2 & E & R); [lia|exact F|]. exists rb, c2. rewrite <- EB in R. split; [f_equal; exact E|exact R].
    + set (tl := t0 :: tl0) in *. assert (Lt0 : (0 < length tl)%nat) by (unfold tl; cbn [length]; lia).
      destruct (Z.eqb_spec (Z.of_nat (length tl)) 0) as [Z0|_]; [lia|]. cbn [negb].
      assert (ER2 : rb = map mval full ++ [mval tl]) by (rewrite ER; reflexivity).
      assert (Lrb : length rb = S (length full)) by (rewrite ER2, app_length, map_length; cbn [length]; lia).
      assert (G : aget rb (Z.of_nat (length rb) - 1) = JOk (mval tl)).
      { apply aget_Some. rewrite Lrb. split; [lia|]. rewrite ER2. rewrite nth_error_app2; rewrite map_length; [|lia].
        replace (Z.to_nat (Z.of_nat (S (length full)) - 1) - length full)%nat with 0%nat by lia. reflexivity. }
      rewrite G. cbn [jbind]. set (sn := Z.min (16 - Z.of_nat (length tl)) (Z.of_nat (length nb))).
      set (w := firstn (Z.to_nat sn) nb). set (q := skipn (Z.to_nat sn) nb).
      assert (Lw : length w = Z.to_nat sn) by (unfold w; rewrite firstn_length; lia).
      assert (Lq : length q = (length nb - Z.to_nat sn)%nat) by (unfold q; apply skipn_length).
      assert (Enb : nb = w ++ q) by (unfold w, q; symmetry; apply firstn_skipn).
      replace (Z.of_nat (length nb) - sn) with (Z.of_nat (length q)) by lia.
      assert (S16 : 2 ^ sn <= 2 ^ 16) by (apply Z.pow_le_mono_r; lia).
      pose proof (mval_range w) as Rw. rewrite Lw, Z2Nat.id in Rw by lia.
      assert (Esb : Z.land (Z.shiftr (mval nb) (Z.of_nat (length q)) mod 2 ^ 16) (2 ^ sn - 1) = mval w).
      { rewrite land_mask by lia. rewrite Z.shiftr_div_pow2 by lia. rewrite Enb. rewrite mval_app. pose proof (mval_range q).
        pose proof (pow2_pos_nat (length q)). rewrite Z.div_add_l by lia. rewrite (Z.div_small (mval q)) by lia. rewrite Z.add_0_r.
        rewrite (Z.mod_small (mval w) (2 ^ 16)) by lia. apply Z.mod_small. exact Rw. }
      rewrite Esb.
      assert (Ewd : Z.lor (Z.shiftl (mval tl) sn) (mval w) mod 2 ^ 16 = mval (tl ++ w)).
      { rewrite Z.shiftl_mul_pow2 by lia. rewrite mval_app, Lw, Z2Nat.id by lia.
        assert (EL : Z.lor (mval tl * 2 ^ sn) (mval w) = mval tl * 2 ^ sn + mval w).
        { rewrite Z.lor_comm, lor_disjoint_add by (exact Rw || lia). apply Z.add_comm. }
        rewrite EL. apply Z.mod_small. pose proof (mval_range (tl ++ w)) as RR. rewrite mval_app, Lw, Z2Nat.id in RR by lia.
        assert (2 ^ Z.of_nat (length (tl ++ w)) <= 2 ^ 16) by (apply Z.pow_le_mono_r; rewrite ?app_length; lia). lia. }
      rewrite Ewd.
      assert (EA : aset rb (Z.of_nat (length rb) - 1) (mval (tl ++ w)) = JOk (map mval full ++ [mval (tl ++ w)])).
      { unfold aset. destruct (Z.leb_spec 0 (Z.of_nat (length rb) - 1)); [|lia]. destruct (Z.ltb_spec (Z.of_nat (length rb) - 1) (Z.of_nat (length rb))); [|lia].
        cbn [andb]. f_equal. rewrite Lrb. replace (Z.to_nat (Z.of_nat (S (length full)) - 1)) with (length full) by lia.
        rewrite ER2. clear. induction full as [|a l IH]; [reflexivity|]. cbn [map length app upd]. f_equal. exact IH. }
      rewrite EA. cbn [jbind].
      destruct (Z_le_gt_dec (Z.of_nat (length tl) + Z.of_nat (length nb)) 15) as [Hs|Hs].
      * assert (sn = Z.of_nat (length nb)) by lia. assert (Q0 : q = []) by (destruct q; [reflexivity|cbn [length] in Lq; lia]).
        rewrite Q0. cbn [length]. eexists; eexists. split; [reflexivity|].
        assert (w = nb) by (rewrite Q0, app_nil_r in Enb; congruence). subst w. rewrite H0 in *.
        exists full, (tl ++ nb). split; [rewrite EB, app_assoc; reflexivity|]. split; [exact F|]. split; [rewrite app_length; lia|].
        split; [|rewrite EC, app_length; lia]. f_equal.
      * assert (sn = 16 - Z.of_nat (length tl)) by lia.
        assert (L16 : length (tl ++ w) = 16%nat) by (rewrite app_length; lia).
        replace (map mval full ++ [mval (tl ++ w)]) with (map mval (full ++ [tl ++ w])) by (rewrite map_app; reflexivity).
        replace (cnt + sn) with (Z.of_nat (16 * length (full ++ [tl ++ w]))) by (rewrite EC, LB, app_length; cbn [length]; lia).
        rewrite Enb. destruct (push_words_ok 5 w q (full ++ [tl ++ w])) as (rb2 & c2 & E & R); [lia|apply Forall_app; auto|].
        exists rb2, c2. split; [f_equal; exact E|]. rewrite EB. rewrite concat_app in R. cbn [concat] in R. rewrite app_nil_r, <- !app_assoc in R.
        rewrite <- !app_assoc. exact R.
Qed.

(** * The pending end-of-block run against the reader's counter [R] *)

Definition pend (st : wcs) (R : Z) (P : list bool) : Prop :=
  exists B, repr (wc_rb st) (wc_rbn st) B /\ Z.of_nat (length B) <= 63 * wc_eob st
    /\ ((wc_eob st = 0 /\ R <= 0 /\ P = [])
        \/ (0 < wc_eob st /\ 0 <= R /\ wc_eob st + R <= 32767
            /\ sym_ok (wc_tab st) (eob_sym (wc_eob st + R)) /\ P = eob_bits (wc_tab st) (wc_eob st + R) ++ B)).

Lemma pend_clean st R : clean st -> R <= 0 -> pend st R [].
Proof. intros (E1 & E2 & E3) H. exists []. rewrite E2, E3, E1. split; [apply repr_nil|]. split; [cbn [length]; lia|]. left. auto. Qed.

Lemma repr_nil_inv rb cnt : repr rb cnt [] -> rb = [] /\ cnt = 0.
Proof.
  intros (full & tl & EB & F & Lt & ER & EC). symmetry in EB. apply app_eq_nil in EB as [E1 E2]. subst tl.
  destruct full as [|w full]; [cbn [map app] in ER; split; [exact ER|exact EC]|].
  cbn [concat] in E1. apply app_eq_nil in E1 as [E1 _]. inversion F; subst. discriminate.
Qed.

Lemma pend_zero st R P : pend st R P -> wc_eob st = 0 -> clean st /\ P = [] /\ R <= 0.
Proof.
  intros (B & RB & LB & [(E & HR & HP)|(E & _)]) Z0; [|lia].
  destruct B; [|rewrite E in LB; cbn [length] in LB; lia]. apply repr_nil_inv in RB as [E1 E2]. repeat split; auto.
Qed.

Lemma pend_neg st R P : pend st R P -> R < 0 -> clean st /\ P = [].
Proof.
  intros H HR. assert (E : wc_eob st = 0) by (destruct H as (B & _ & _ & [(E & _)|(_ & E & _)]); lia).
  destruct (pend_zero st R P H E) as (C & EP & _). auto.
Qed.

Lemma pend_flush st R P : pend st R P -> R <= 0 ->
  exists st', flush st = JOk st' /\ clean st' /\ wadv st st' P.
Proof.
  intros (B & RB & LB & C) HR.
  destruct (flush_ok st B RB) as (st' & E & CL & A).
  - lia.
  - intros H. destruct C as [(E & _)|(_ & HR0 & _ & S & _)]; [lia|]. replace (wc_eob st + R) with (wc_eob st) in S by lia. exact S.
  - exists st'. split; [exact E|]. split; [exact CL|]. destruct C as [(E0 & _ & EP)|(H0 & HR0 & _ & _ & EP)].
    + rewrite E0 in *. destruct B; [|cbn [length] in LB; lia]. subst P. exact A.
    + destruct (Z.ltb_spec 0 (wc_eob st)); [|lia]. replace (wc_eob st + R) with (wc_eob st) in EP by lia. subst P. exact A.
Qed.

(** One more block joins the run, bringing refinement bits [nb]. *)
Lemma buffer_eob_ok tab nb st B N : repr (wc_rb st) (wc_rbn st) B -> 0 <= wc_eob st -> Z.of_nat (length B) <= 63 * wc_eob st ->
  (length nb <= 63)%nat -> (wc_eob st = 0 -> B = []) ->
  wc_eob st < N <= 32767 ->
  let tab' := if wc_eob st =? 0 then tab else wc_tab st in
  sym_ok tab' (eob_sym N) ->
  exists st' X P', buffer_eob tab (map b2z nb) st = JOk st' /\ wadv st st' X /\ pend st' (N - wc_eob st - 1) P'
    /\ X ++ P' = eob_bits tab' N ++ B ++ nb.
Proof.
  intros RB He LB Ln HB HN tab' S. unfold buffer_eob. cbv zeta. fold tab'.
  destruct (buffer_bits _ _ B nb RB ltac:(lia)) as (rb & cnt & E & R2). cbv zeta in E. rewrite E. cbn [jbind].
  assert (Ec : cnt = Z.of_nat (length (B ++ nb))) by (destruct R2 as (? & ? & _ & _ & _ & _ & X); exact X).
  rewrite app_length in Ec. destruct (Z.ltb_spec (32767 * 63) cnt) as [H|H]; [exfalso; lia|].
  set (st1 := mkWC (wc_ops st) (wc_eob st + 1) tab' rb cnt).
  destruct (Z.eqb_spec (wc_eob st + 1) 32767) as [H1|H1].
  - assert (N = 32767) by lia. subst N.
    destruct (flush_ok st1 (B ++ nb) R2 ltac:(cbn [st1 wc_eob]; lia)) as (st' & Ef & CL & A).
    { intros _. cbn [st1 wc_eob wc_tab]. rewrite H1. exact S. }
    exists st', (eob_bits tab' 32767 ++ B ++ nb), []. split; [exact Ef|]. split.
    + cbn [st1 wc_eob wc_tab] in A. rewrite H1 in A. change (0 <? 32767) with true in A. eapply wadv_from; [|exact A]. reflexivity.
    + split; [apply pend_clean; [exact CL|lia]|]. apply app_nil_r.
  - exists st1, [], (eob_bits tab' N ++ B ++ nb). split; [reflexivity|]. split; [eapply wadv_same; [|apply wadv_refl]; reflexivity|].
    split; [|reflexivity]. exists (B ++ nb). cbn [st1 wc_rb wc_rbn wc_eob wc_tab]. split; [exact R2|]. split; [rewrite app_length; lia|].
    right. replace (wc_eob st + 1 + (N - wc_eob st - 1)) with N by lia. split; [lia|]. split; [lia|]. split; [lia|]. auto.
Qed.

Lemma pend_extend tab nb st R P : pend st R P -> 0 < R -> (length nb <= 63)%nat ->
  exists st' X P', buffer_eob tab (map b2z nb) st = JOk st' /\ wadv st st' X /\ pend st' (R - 1) P' /\ X ++ P' = P ++ nb.
Proof.
  intros (B & RB & LB & [(_ & H & _)|(He & HR & HS & S & EP)]) H0 Ln; [lia|].
  destruct (buffer_eob_ok tab nb st B (wc_eob st + R) RB ltac:(lia) LB Ln ltac:(lia) ltac:(lia)) as (st' & X & P' & E & A & PD & EX).
  - destruct (Z.eqb_spec (wc_eob st) 0); [lia|]. exact S.
  - exists st', X, P'. split; [exact E|]. split; [exact A|]. split; [replace (R - 1) with (wc_eob st + R - wc_eob st - 1) by lia; exact PD|].
    rewrite EX. destruct (Z.eqb_spec (wc_eob st) 0); [lia|]. rewrite EP, <- app_assoc. reflexivity.
Qed.

Lemma pend_new tab nb st N : clean st -> 0 < N <= 32767 -> sym_ok tab (eob_sym N) -> (length nb <= 63)%nat ->
  exists st' X P', buffer_eob tab (map b2z nb) st = JOk st' /\ wadv st st' X /\ pend st' (N - 1) P' /\ X ++ P' = eob_bits tab N ++ nb.
Proof.
  intros (E1 & E2 & E3) HN S Ln.
  destruct (buffer_eob_ok tab nb st [] N) as (st' & X & P' & E & A & PD & EX); try lia; auto.
  - rewrite E2, E3. apply repr_nil.
  - cbn [length]. lia.
  - rewrite E1. exact S.
  - exists st', X, P'. rewrite E1 in *. cbn [app Z.eqb] in EX. rewrite Z.sub_0_r in PD. auto.
Qed.
