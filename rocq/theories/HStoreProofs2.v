(** The description of a full prefix code is read back. *)
From Verif Require Import Base BitModel BitProofs CodesProofs JBitModel JReadProofs JHuffModel JHuffProofs HistProofs HuffModel HuffProofs3 HuffProofs4 HuffProofs5 HuffProofs6
  HTreeModel HTreeProofs1 HTreeProofs2 HTreeProofs3 HTreeProofs4 HStoreModel HStoreProofs1.

(** * Trailing zeros *)

Lemma drop_zeros_spec l : exists k, l = repeat 0 k ++ drop_zeros l /\ hd 1 (drop_zeros l) <> 0.
Proof.
  induction l as [|x l (k & E & H)]; [exists 0%nat; cbn; split; [reflexivity|lia]|]. cbn [drop_zeros].
  destruct (Z.eqb_spec x 0) as [->|N]; [exists (S k); cbn [repeat app]; split; [f_equal; exact E|exact H]|].
  exists 0%nat. cbn; auto.
Qed.
Lemma repeat_rev {A} (a : A) k : rev (repeat a k) = repeat a k.
Proof.
  induction k as [|k IH]; [reflexivity|]. cbn [repeat rev]. rewrite IH. change [a] with (repeat a 1). rewrite <- repeat_app, Nat.add_comm. reflexivity.
Qed.
Lemma trim_spec l : exists k, l = trim_zeros l ++ repeat 0 k /\ (trim_zeros l = [] \/ last (trim_zeros l) 0 <> 0).
Proof.
  unfold trim_zeros. destruct (drop_zeros_spec (rev l)) as (k & E & H). exists k. split.
  - rewrite <- (rev_involutive l) at 1. rewrite E at 1. rewrite rev_app_distr, repeat_rev. reflexivity.
  - destruct (drop_zeros (rev l)) as [|x r]; [left; reflexivity|right]. cbn [rev]. rewrite last_last. exact H.
Qed.

(** * Reading the entries *)

Definition ebits (cbits : Z -> list bool) (e : Z * Z) : list bool :=
  cbits (fst e) ++ (if fst e =? 16 then bits_of 2 (snd e) else if fst e =? 17 then bits_of 3 (snd e) else []).

Lemma ksum_app a b : ksum (a ++ b) = ksum a + ksum b.
Proof. unfold ksum. rewrite map_app, sumZ_app. reflexivity. Qed.
Lemma ksum_repeat v k : 1 <= v <= 15 -> ksum (repeat v k) = Z.of_nat k * 2 ^ (15 - v).
Proof.
  intros H. induction k as [|k IH]; [reflexivity|]. cbn [repeat]. change (v :: repeat v k) with ([v] ++ repeat v k). rewrite ksum_app, IH.
  unfold ksum. cbn [map]. unfold sumZ. cbn [fold_right]. destruct (Z.ltb_spec 0 v); lia.
Qed.
Lemma ksum_zeros k : ksum (repeat 0 k) = 0.
Proof. induction k as [|k IH]; [reflexivity|]. cbn [repeat]. change (0 :: repeat 0 k) with ([0] ++ repeat 0 k). rewrite ksum_app, IH. reflexivity. Qed.
Lemma ksum_nonneg l : 0 <= ksum l.
Proof. unfold ksum. apply sumZ_nonneg. rewrite Forall_map. apply Forall_forall. intros x _. destruct (0 <? x); [apply Z.pow_nonneg; lia|lia]. Qed.
Lemma ksum_last l : Forall (fun d => 0 <= d <= 15) l -> l <> [] -> last l 0 <> 0 -> 0 < ksum l.
Proof.
  intros F NE H. destruct (exists_last NE) as (a & x & ->). rewrite last_last in H. rewrite ksum_app.
  pose proof (ksum_nonneg a). apply Forall_app in F as [_ F]. apply Forall_inv in F. cbv beta in F.
  change [x] with (repeat x 1). rewrite ksum_repeat by lia. pose proof (pow2_pos (15 - x) ltac:(lia)). lia.
Qed.

Lemma div_pow v : 0 <= v <= 15 -> 2 ^ 15 / 2 ^ v = 2 ^ (15 - v).
Proof. intros H. rewrite <- Z.pow_sub_r by lia. reflexivity. Qed.
Lemma div_pow_mul d v : 0 <= v <= 15 -> (d * 2 ^ 15) / 2 ^ v = d * 2 ^ (15 - v).
Proof.
  intros H. replace (2 ^ 15) with (2 ^ (15 - v) * 2 ^ v) by (rewrite <- Z.pow_add_r by lia; f_equal; lia).
  rewrite Z.mul_assoc, Z.div_mul; [reflexivity|]. pose proof (pow2_pos v ltac:(lia)). lia.
Qed.

Lemma loop_ok strict t (lens L : list Z) cbits used : 
  (forall (A : Type) c rest (k : Z -> prog A), In c used -> arun strict (look 5 t 0 k) (cbits c ++ rest) = arun strict (k c) rest) ->
  Forall (fun d => 0 <= d <= 15) lens -> (exists z, lens = L ++ repeat 0 z) -> ksum L = 2 ^ 15 -> last L 0 <> 0 ->
  forall ents fuel acc prev rp rl rest, Forall ent_ok ents -> Forall (fun e => In (fst e) used) ents ->
    e_acc (fold_left estep ents (acc, prev, rp, rl)) = L -> (length lens - length acc <= fuel)%nat ->
    1 <= prev <= 15 -> (rp = 0 \/ 3 <= rp) ->
    arun strict (read_lens_loop fuel t (length lens) acc prev rp rl (2 ^ 15 - ksum acc)) (flat_map (ebits cbits) ents ++ rest) = Some (lens, rest).
Proof.
  intros LOOK FL (z & EL) KL LL. assert (LLen : length lens = (length L + z)%nat) by (rewrite EL, app_length, repeat_length; reflexivity).
  assert (FLL : Forall (fun d => 0 <= d <= 15) L) by (rewrite EL in FL; apply Forall_app in FL as [FL _]; exact FL).
  induction ents as [|[c x] ents IH]; intros fuel acc prev rp rl rest FE FU E Hf Hp Hr.
  - cbn [fold_left] in E. unfold e_acc in E. cbn [fst] in E. subst acc. rewrite KL, Z.sub_diag. cbn [flat_map app].
    assert (X : read_lens_loop fuel t (length lens) L prev rp rl 0 = Chk (Ret (L ++ repeat 0 (length lens - length L)))).
    { destruct fuel; cbn [read_lens_loop]; change (0 <? 0) with false; rewrite andb_false_r; reflexivity. }
    rewrite X. cbn [arun]. rewrite LLen. replace (length L + z - length L)%nat with z by lia. rewrite <- EL. reflexivity.
  - cbn [fold_left] in E. pose proof (Forall_inv FE) as HE. pose proof (Forall_inv FU) as HU. cbn [fst] in HU.
    destruct (estep_grows (c, x) acc prev rp rl HE Hr) as (tl & acc' & prev' & rp' & rl' & E1 & EA & NE & Hr'). rewrite E1 in E.
    destruct (fold_grows ents acc' prev' rp' rl' (Forall_inv_tail FE) Hr') as (tl2 & E2 & _). rewrite E in E2.
    assert (EL2 : L = acc ++ tl ++ tl2) by (rewrite E2, EA, <- app_assoc; reflexivity).
    assert (NT : tl ++ tl2 <> []) by (destruct tl; [congruence|discriminate]).
    assert (KT : 0 < ksum (tl ++ tl2)).
    { apply ksum_last; [rewrite EL2 in FLL; apply Forall_app in FLL as [_ FLL]; exact FLL|exact NT|].
      rewrite EL2 in LL. destruct (exists_last NT) as (a & y & Ey). rewrite Ey in *. rewrite app_assoc, last_last in LL. rewrite last_last. exact LL. }
    assert (Sp : 0 < 2 ^ 15 - ksum acc) by (rewrite EL2, ksum_app in KL; lia).
    assert (LA : (length acc + length tl <= length lens)%nat) by (rewrite LLen, EL2, !app_length; lia).
    assert (LT : (1 <= length tl)%nat) by (destruct tl; [congruence|cbn [length]; lia]).
    destruct fuel as [|fuel]; [lia|]. cbn [read_lens_loop].
    destruct (Nat.ltb_spec (length acc) (length lens)); [|lia]. destruct (Z.ltb_spec 0 (2 ^ 15 - ksum acc)); [|lia]. cbn [andb].
    cbn [flat_map]. unfold ebits at 1. cbn [fst snd]. rewrite <- !app_assoc, LOOK by exact HU.
    destruct HE as [Hc Hx]. cbn [fst snd] in Hc, Hx. unfold estep in E1. destruct (Z.ltb_spec c 16) as [H16|H16].
    + injection E1 as E1a E1b E1c E1d. destruct (Z.eqb_spec c 16); [lia|]. destruct (Z.eqb_spec c 17); [lia|]. cbn [app].
      rewrite <- E1a in *. destruct (Z.eqb_spec c 0) as [->|N0].
      * replace (2 ^ 15 - ksum acc) with (2 ^ 15 - ksum (acc ++ [0])) by (rewrite ksum_app; change (ksum [0]) with 0; lia).
        subst prev' rp' rl'. apply IH; [eapply Forall_inv_tail, FE|eapply Forall_inv_tail, FU|exact E|rewrite app_length; cbn [length]; lia|lia|auto].
      * rewrite div_pow by lia. replace (2 ^ 15 - ksum acc - 2 ^ (15 - c)) with (2 ^ 15 - ksum (acc ++ [c])).
        2:{ rewrite ksum_app. change [c] with (repeat c 1). rewrite ksum_repeat by lia. lia. }
        subst prev' rp' rl'. apply IH; [eapply Forall_inv_tail, FE|eapply Forall_inv_tail, FU|exact E|rewrite app_length; cbn [length]; lia|lia|auto].
    + specialize (Hx H16).
      assert (EX : (if c =? 16 then bits_of 2 x else if c =? 17 then bits_of 3 x else []) = bits_of (Z.to_nat (c - 14)) x).
      { destruct (Z.eqb_spec c 16) as [->|]; [reflexivity|]. destruct (Z.eqb_spec c 17) as [->|]; [reflexivity|lia]. }
      rewrite EX, arun_Read by (rewrite Z2Nat.id by lia; exact Hx).
      set (nl := if c =? 16 then prev else 0) in *. set (old := if rl =? nl then rp else 0) in *.
      set (base := if 0 <? old then (old - 2) * 2 ^ (c - 14) else old) in *. set (rep := base + x + 3) in *.
      injection E1 as E1a E1b E1c E1d. rewrite EA in E1a. apply app_inv_head in E1a.
      assert (LD : length tl = Z.to_nat (rep - old)) by (rewrite <- E1a, repeat_length; reflexivity).
      destruct (Z.ltb_spec (Z.of_nat (length lens)) (Z.of_nat (length acc) + (rep - old))); [lia|].
      rewrite E1a. subst prev' rp' rl'. rewrite <- EA.
      replace (if nl =? 0 then 2 ^ 15 - ksum acc else 2 ^ 15 - ksum acc - (rep - old) * 2 ^ 15 / 2 ^ nl) with (2 ^ 15 - ksum acc').
      * apply IH; [eapply Forall_inv_tail, FE|eapply Forall_inv_tail, FU|exact E|rewrite EA, app_length; lia|lia|exact Hr'].
      * rewrite EA, ksum_app, <- E1a. assert (NL : nl = prev \/ nl = 0) by (unfold nl; destruct (c =? 16); auto).
        destruct (Z.eqb_spec nl 0) as [->|Nn]; [rewrite ksum_zeros; lia|]. rewrite div_pow_mul by lia. rewrite ksum_repeat by lia. lia.
Qed.

(** * The lengths of the codes of code lengths *)

Lemma static_ok {A} strict l rest (k : Z -> prog A) : 0 <= l <= 5 ->
  exists n v, aget kStaticEnc l = JOk (n, v) /\ (n <= 4)%nat /\ 0 <= v < 2 ^ Z.of_nat n
    /\ arun strict (look 4 kStaticCode 0 k) (bits_of n v ++ rest) = arun strict (k l) rest.
Proof.
  intros Hl. assert (C : exists n v, aget kStaticEnc l = JOk (n, v) /\ (n <= 4)%nat /\ 0 <= v < 2 ^ Z.of_nat n /\
    forall w, 0 <= w < 16 -> w mod 2 ^ Z.of_nat n = v -> aget kStaticCode w = JOk (Z.of_nat n, l)).
  { assert (W : forall n v, (forall w, In w [0;1;2;3;4;5;6;7;8;9;10;11;12;13;14;15] -> w mod 2 ^ Z.of_nat n = v -> aget kStaticCode w = JOk (Z.of_nat n, l)) ->
      forall w, 0 <= w < 16 -> w mod 2 ^ Z.of_nat n = v -> aget kStaticCode w = JOk (Z.of_nat n, l)).
    { intros n v H w Hw. apply H. cbn [In]. lia. }
    assert (D : l = 0 \/ l = 1 \/ l = 2 \/ l = 3 \/ l = 4 \/ l = 5) by lia.
    destruct D as [->|[->|[->|[->|[->| ->]]]]]; (eexists; eexists; split; [reflexivity|]; split; [lia|]; split; [cbn; lia|]; apply W;
      intros w Hw; cbn [In] in Hw; repeat (destruct Hw as [<-|Hw]; [intros M; first [discriminate M|reflexivity]|]); contradiction). }
  destruct C as (n & v & E & Hn & Hv & T). exists n, v. split; [exact E|]. split; [exact Hn|]. split; [exact Hv|].
  unfold look. cbn [arun]. set (str := bits_of n v ++ rest). pose proof (peek_range 4 str) as PR. change (2 ^ Z.of_nat 4) with 16 in PR.
  assert (PM : peek 4 str mod 2 ^ Z.of_nat n = v).
  { rewrite peek_val. rewrite <- (peek_bits n v rest Hv). fold str. rewrite peek_val.
    rewrite <- (Znumtheory.Zmod_div_mod (2 ^ Z.of_nat n) (2 ^ Z.of_nat 4)); [reflexivity|apply pow2_pos_nat|apply pow2_pos_nat|].
    exists (2 ^ (Z.of_nat 4 - Z.of_nat n)). rewrite <- Z.pow_add_r by lia. f_equal. lia. }
  rewrite Z.add_0_l, (T _ PR PM). cbn [fst snd]. rewrite Nat2Z.id. unfold str. rewrite app_length, bits_of_length.
  destruct (Nat.leb_spec n (n + length rest)); [|lia]. rewrite skipn_app, skipn_all2 by (rewrite bits_of_length; lia).
  rewrite bits_of_length, Nat.sub_diag. reflexivity.
Qed.
