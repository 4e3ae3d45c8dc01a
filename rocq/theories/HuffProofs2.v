(** The two-level tables decode the canonical code and stay within the allocation. *)
From Verif Require Import Base BitModel JBitModel JWriteProofs JReadProofs JHuffModel JHuffProofs HuffModel HuffProofs1.

Definition bcounts_of (tmp rest : list Z) : Prop :=
  length tmp = 16%nat /\ forall l, 1 <= l <= 15 -> nth (Z.to_nat l) tmp 0 = cnt l rest.

Lemma bdec_ok tmp l rest : bcounts_of tmp (l :: rest) -> 1 <= l <= 15 -> bcounts_of (dec_count tmp l) rest.
Proof.
  intros [L H] Hl. split; [unfold dec_count; rewrite upd_length; exact L|].
  intros x Hx. unfold dec_count. pose proof (H x Hx) as E. rewrite cnt_cons in E.
  destruct (Z.eqb_spec l x) as [->|N].
  - rewrite nth_upd_same by lia. lia.
  - rewrite nth_upd_other by lia. lia.
Qed.

Lemma kle_all x ls : Forall (fun l => l <= x) ls -> kle x ls = kraft ls.
Proof.
  intros F. induction F as [|l r H F IH]; [reflexivity|]. rewrite kle_cons, kraft_cons, IH.
  destruct (Z.leb_spec l x); lia.
Qed.

(** * NextTableBitSize *)

Lemma bh_next_loop_ok tmp rest R : bcounts_of tmp rest -> 1 <= R -> forall fuel left len,
  R < len <= 15 -> 15 - len <= Z.of_nat fuel -> left * wgt len = wgt R - kle (len - 1) rest -> 0 < left ->
  exists t, bh_next_loop fuel tmp left len R = t /\ len - R <= t <= 15 - R
    /\ (t = 15 - R \/ wgt R <= kle (R + t) rest) /\ kle (R + t - 1) rest < wgt R.
Proof.
  intros [L C] HR. induction fuel as [|f IH]; intros left len Hl Hf E Pos.
  - assert (len = 15) by lia. subst. exists (15 - R). cbn [bh_next_loop]. split; [reflexivity|]. split; [lia|]. split; [left; reflexivity|].
    replace (R + (15 - R) - 1) with (15 - 1) by lia. pose proof (wgt_pos 15 ltac:(lia)). nia.
  - cbn [bh_next_loop]. pose proof (wgt_pos len ltac:(lia)) as W. change kMaxBits with 15.
    assert (K1 : kle (len - 1) rest < wgt R).
    { assert (0 < left * wgt len) by (apply Z.mul_pos_pos; lia). lia. }
    destruct (Z.ltb_spec len 15) as [H|H].
    + rewrite C by lia. pose proof (kle_step len rest) as KS.
      assert (E2 : (left - cnt len rest) * wgt len = wgt R - kle len rest) by lia.
      cbv zeta. destruct (Z.leb_spec left (cnt len rest)) as [B|B].
      * exists (len - R). split; [reflexivity|]. split; [lia|]. replace (R + (len - R)) with len by lia.
        split; [right|exact K1].
        assert ((left - cnt len rest) * wgt len <= 0) by (apply Z.mul_nonpos_nonneg; lia). lia.
      * destruct (IH ((left - cnt len rest) * 2) (len + 1)) as (t & Et & Ht & F & M); try lia.
        -- replace (len + 1 - 1) with len by lia. rewrite <- E2.
           pose proof (wgt_double (len + 1) ltac:(lia)) as D. replace (len + 1 - 1) with len in D by lia. rewrite D. lia.
        -- exists t. split; [exact Et|]. split; [lia|]. auto.
    + assert (len = 15) by lia. subst. exists (15 - R). split; [reflexivity|]. split; [lia|]. split; [left; reflexivity|].
      replace (R + (15 - R) - 1) with (15 - 1) by lia. exact K1.
Qed.

Lemma bh_next_ok tmp len rest R : bcounts_of tmp (len :: rest) -> ascending (len :: rest) -> 1 <= R -> R < len <= 15 ->
  exists t, bh_next_bits tmp len R = t /\ len - R <= t <= 15 - R
    /\ (t = 15 - R \/ wgt R <= kle (R + t) (len :: rest)) /\ kle (R + t - 1) (len :: rest) < wgt R.
Proof.
  intros C A HR Hl. apply (bh_next_loop_ok tmp (len :: rest) R C HR); [lia|lia| |apply pow2_pos; lia].
  assert (K0 : kle (len - 1) (len :: rest) = 0).
  { apply kle_none. cbn [ascending] in A. destruct A as [F _]. constructor; [lia|]. eapply Forall_impl; [|exact F]. cbv beta. intros; lia. }
  rewrite K0. unfold wgt. rewrite <- Z.pow_add_r by lia. replace (len - R + (16 - len)) with (16 - R) by lia. lia.
Qed.

(** * How many symbols a sub-table needs *)

Lemma filter_split_len u (ls : list Z) : Forall (fun l => u <= l) ls ->
  Z.of_nat (length ls) = cnt u ls + Z.of_nat (length (filter (fun l => u <? l) ls)).
Proof.
  intros F. induction F as [|l r H F IH]; [reflexivity|]. rewrite cnt_cons. cbn [length filter].
  destruct (Z.eqb_spec l u), (Z.ltb_spec u l); cbn [length]; lia.
Qed.

Lemma kle_filter_gt u x ls : Forall (fun l => u <= l) ls -> u <= x ->
  kle x ls = cnt u ls * wgt u + kle x (filter (fun l => u <? l) ls).
Proof.
  intros F Hx. induction F as [|l r H F IH]; [reflexivity|]. rewrite kle_cons, cnt_cons, IH. cbn [filter].
  destruct (Z.ltb_spec u l); [rewrite kle_cons|]; destruct (Z.leb_spec l x), (Z.eqb_spec l u); subst; lia.
Qed.

Lemma need_syms d : forall u v rest x, v = u + Z.of_nat d -> 1 <= u -> v <= 16 -> 1 <= x ->
  Forall (fun l => u <= l) rest -> x * wgt u <= kle v rest -> kle (v - 1) rest < x * wgt u ->
  x + (v - u) <= Z.of_nat (length rest).
Proof.
  induction d as [|d IH]; intros u v rest x Ev Hu Hv Hx F Lo Hi.
  - replace v with u in * by lia. pose proof (filter_split_len u rest F).
    rewrite (kle_filter_gt u u rest F ltac:(lia)) in Lo.
    rewrite (kle_none u (filter _ _)) in Lo.
    2: { apply Forall_forall. intros y Hy. apply filter_In in Hy as [_ Hy]. apply Z.ltb_lt in Hy. exact Hy. }
    pose proof (wgt_pos u ltac:(lia)). nia.
  - set (r' := filter (fun l => u <? l) rest).
    pose proof (filter_split_len u rest F) as EL. fold r' in EL.
    pose proof (kle_filter_gt u v rest F ltac:(lia)) as E1. pose proof (kle_filter_gt u (v - 1) rest F ltac:(lia)) as E2. fold r' in E1, E2.
    pose proof (wgt_double (u + 1) ltac:(lia)) as D. replace (u + 1 - 1) with u in D by lia.
    pose proof (wgt_pos u ltac:(lia)). pose proof (kle_nonneg (v - 1) r').
    assert (Cx : cnt u rest < x) by nia.
    assert (X : 2 * (x - cnt u rest) + (v - (u + 1)) <= Z.of_nat (length r')).
    { assert (Lo' : 2 * (x - cnt u rest) * wgt (u + 1) <= kle v r') by nia.
      assert (Hi' : kle (v - 1) r' < 2 * (x - cnt u rest) * wgt (u + 1)) by nia.
      apply (IH (u + 1) v r'); [lia|lia|lia|lia| |exact Lo'|exact Hi'].
      apply Forall_forall. intros y Hy. apply filter_In in Hy as [_ Hy]. apply Z.ltb_lt in Hy. lia. }
    lia.
Qed.

(** * Root table *)

Definition binv (syms done rest : list Z) (st : bst) : Prop :=
  bcounts_of (b_cnt st) rest /\ b_sym st = Z.of_nat (length done)
  /\ (length done + length rest <= length syms)%nat
  /\ Forall (fun l => 1 <= l <= 15) (done ++ rest) /\ ascending (done ++ rest)
  /\ kraft (done ++ rest) = 65536
  /\ (rest <> [] -> b_key st = brev 16 (kraft done)).

Definition broot (R : Z) (syms done rest : list Z) (st : bst) : Prop :=
  binv syms done rest st
  /\ 1 <= b_tbits st <= R /\ b_tsize st = 2 ^ b_tbits st /\ R <= 15 /\ b_table st = 0
  /\ Forall (fun l => l <= b_tbits st) done /\ 2 ^ R <= Z.of_nat (length (b_lut st))
  /\ (forall j w, (j < length done)%nat -> 0 <= w < 65536 -> kpos done j <= brev 16 w < kpos done (S j) ->
        aget (b_lut st) (w mod 2 ^ b_tbits st) = JOk (nth j done 0, nth j syms 0)).

Lemma mod_mod_pow w a b : 0 <= a <= b -> (w mod 2 ^ b) mod 2 ^ a = w mod 2 ^ a.
Proof.
  intros H. replace b with (a + (b - a)) by lia. rewrite Z.pow_add_r by lia.
  pose proof (pow2_pos a ltac:(lia)). pose proof (pow2_pos (b - a) ltac:(lia)).
  rewrite Z.rem_mul_r by lia. rewrite Z.mul_comm, Z_mod_plus_full. apply Z.mod_mod. lia.
Qed.

(** Facts shared by both phases about the next symbol. *)
Lemma next_symbol syms done l rest st : binv syms done (l :: rest) st ->
  1 <= l <= 15 /\ kraft done + wgt l <= 65536
  /\ (exists p, 0 <= p /\ kraft done = p * wgt l /\ b_key st = brev 16 (p * wgt l))
  /\ aget syms (b_sym st) = JOk (nth (length done) syms 0)
  /\ (forall w, 0 <= w < 65536 -> (kraft done <= brev 16 w < kraft done + wgt l <-> w mod 2 ^ l = b_key st))
  /\ 0 <= b_key st < 2 ^ l
  /\ (rest <> [] -> next_key (b_key st) l = brev 16 (kraft (done ++ [l]))).
Proof.
  intros (C & EI & LS & F & A & K & EK).
  assert (Hl : 1 <= l <= 15) by (rewrite Forall_forall in F; apply F, in_or_app; right; left; reflexivity).
  rewrite kraft_app, kraft_cons in K. pose proof (kraft_nonneg rest) as KR. pose proof (wgt_pos l ltac:(lia)) as W.
  assert (FD : Forall (fun x => x <= l) done).
  { clear - A. induction done as [|d r IH]; [constructor|]. cbn [app ascending] in A. destruct A as [F1 A].
    constructor; [|apply IH, A]. rewrite Forall_forall in F1. apply F1, in_or_app. right; left; reflexivity. }
  destruct (kraft_div done l FD ltac:(lia)) as [p Ep].
  pose proof (kraft_nonneg done) as KD.
  assert (Hp : 0 <= p) by nia.
  specialize (EK ltac:(discriminate)). rewrite Ep in EK.
  split; [exact Hl|]. split; [lia|]. split; [exists p; split; [exact Hp|split; [exact Ep|exact EK]]|].
  split. { rewrite EI. apply aget_Some. split; [lia|]. rewrite Nat2Z.id. apply nth_err_nth. cbn [length] in LS. lia. }
  assert (WC : forall w, 0 <= w < 65536 -> (kraft done <= brev 16 w < kraft done + wgt l <-> w mod 2 ^ l = b_key st)).
  { intros w Hw. rewrite EK, Ep. replace (p * wgt l + wgt l) with ((p + 1) * wgt l) by lia. apply window_class; lia. }
  split; [exact WC|]. split.
  - rewrite EK, key_of_pos by lia. pose proof (brev_range (Z.to_nat l) p) as X. rewrite Z2Nat.id in X by lia. exact X.
  - intros NR. rewrite EK, kraft_app, kraft_cons, kraft_nil, Ep. replace (p * wgt l + (wgt l + 0)) with ((p + 1) * wgt l) by lia.
    apply next_key_pos; [lia|lia|]. destruct rest as [|l2 r2]; [contradiction|]. rewrite kraft_cons in K.
    assert (l2 <= 15) by (rewrite Forall_forall in F; specialize (F l2); assert (1 <= l2 <= 15) by (apply F, in_or_app; right; right; left; reflexivity); lia).
    pose proof (wgt_pos l2 ltac:(lia)). pose proof (kraft_nonneg r2). lia.
Qed.

Lemma binv_step syms done l rest st st' : binv syms done (l :: rest) st ->
  b_cnt st' = dec_count (b_cnt st) l -> b_sym st' = b_sym st + 1 -> b_key st' = next_key (b_key st) l ->
  binv syms (done ++ [l]) rest st'.
Proof.
  intros B E1 E2 E3. pose proof (next_symbol _ _ _ _ _ B) as (Hl & _ & _ & _ & _ & _ & NK).
  destruct B as (C & EI & LS & F & A & K & EK).
  unfold binv. rewrite E1, E2, E3, app_length. cbn [length] in *. rewrite <- app_assoc. cbn [app].
  split; [apply bdec_ok; [exact C|lia]|]. split; [lia|]. split; [lia|]. split; [exact F|]. split; [exact A|]. split; [exact K|]. exact NK.
Qed.

Lemma kpos_snoc done l j x : (j < length (done ++ [l]))%nat -> kpos (done ++ [l]) j <= x < kpos (done ++ [l]) (S j) ->
  (j = length done /\ kraft done <= x < kraft done + wgt l) \/ ((j < length done)%nat /\ kpos done j <= x < kpos done (S j) /\ x < kraft done).
Proof.
  intros Hj H. rewrite app_length in Hj. cbn [length] in Hj.
  destruct (Nat.eq_dec j (length done)) as [->|N].
  - left. split; [reflexivity|]. rewrite kpos_S in H by (rewrite app_length; cbn [length]; lia).
    rewrite kpos_app, kpos_all, app_nth2, Nat.sub_diag in H by lia. exact H.
  - right. assert (Hj' : (j < length done)%nat) by lia. rewrite !kpos_app in H by lia. split; [lia|]. split; [exact H|].
    pose proof (kpos_le done (S j) (length done) ltac:(lia)) as X. rewrite kpos_all in X. lia.
Qed.

Lemma bh_root_step_ok R syms done l rest st : broot R syms done (l :: rest) st -> l <= b_tbits st ->
  exists st', bh_root_step syms l st = JOk st' /\ broot R syms (done ++ [l]) rest st' /\ b_tbits st' = b_tbits st
    /\ length (b_lut st') = length (b_lut st) /\ b_total st' = b_total st.
Proof.
  intros (B & HT & ET & HR & Etab & F8 & LL & LD) Hl.
  pose proof (next_symbol _ _ _ _ _ B) as (Hl1 & KB & _ & ES & WC & Hk & _).
  unfold bh_root_step. rewrite ES. cbn [jbind]. set (s := nth (length done) syms 0).
  assert (P : 2 ^ b_tbits st <= 2 ^ R) by (apply Z.pow_le_mono_r; lia).
  destruct (bh_replicate_class (b_tbits st) l 0 (b_key st) (l, s) (b_lut st)) as (lut' & ER & LR & G1 & G2); [lia|lia|lia|lia|].
  rewrite ET. rewrite Z.add_0_l in ER. rewrite ER. cbn [jbind]. eexists; split; [reflexivity|].
  split; [|split; [reflexivity|split; [exact LR|reflexivity]]].
  split; [eapply binv_step; [exact B|reflexivity|reflexivity|reflexivity]|]. cbn [b_tbits b_tsize b_table b_lut].
  split; [exact HT|]. split; [reflexivity|]. split; [exact HR|]. split; [exact Etab|].
  split; [apply Forall_app; split; [exact F8|repeat constructor; exact Hl]|]. split; [lia|].
  intros j w Hj Hw Hp. rewrite nth_snoc.
  pose proof (Z.mod_pos_bound w (2 ^ b_tbits st) ltac:(apply pow2_pos; lia)) as WT.
  destruct (kpos_snoc _ _ _ _ Hj Hp) as [[-> Hx]|(Hj' & Hx & Hx2)].
  - rewrite Nat.eqb_refl. apply (G1 (w mod 2 ^ b_tbits st)); [lia|]. rewrite mod_mod_pow by lia. apply WC; assumption.
  - destruct (Nat.eqb_spec j (length done)) as [N|N]; [lia|]. rewrite G2; [apply LD; assumption|].
    rewrite Z.sub_0_r. intros [_ E]. rewrite mod_mod_pow in E by lia. apply WC in E; [lia|exact Hw].
Qed.

(** [times] rounds of a step that consumes the symbols of one length. *)
Lemma repeat_snoc {A} (x : A) n : repeat x n ++ [x] = x :: repeat x n.
Proof. induction n as [|n IH]; [reflexivity|]. cbn [repeat app]. rewrite IH. reflexivity. Qed.

Lemma times_root R syms l : forall n done rest st, broot R syms done (repeat l n ++ rest) st -> l <= b_tbits st ->
  exists st', times n (bh_root_step syms l) st = JOk st' /\ broot R syms (done ++ repeat l n) rest st' /\ b_tbits st' = b_tbits st
    /\ length (b_lut st') = length (b_lut st) /\ b_total st' = b_total st.
Proof.
  induction n as [|n IH]; intros done rest st B Hl.
  - exists st. cbn [repeat app times] in *. rewrite app_nil_r. auto.
  - cbn [repeat app times] in *. destruct (bh_root_step_ok _ _ _ _ _ _ B Hl) as (st1 & E1 & B1 & T1 & L1 & TT1).
    rewrite E1. cbn [jbind]. destruct (IH (done ++ [l]) rest st1 B1 ltac:(lia)) as (st2 & E2 & B2 & T2 & L2 & TT2).
    exists st2. split; [exact E2|]. rewrite <- app_assoc in B2. cbn [app] in B2. split; [exact B2|]. split; [congruence|]. split; congruence.
Qed.

(** * Sub-tables *)

(** Window [w] leads to [(l, s)]; sub-table entries are below [tb] unless the root entry is
    [low]. *)
Definition bleads (lut : list (Z * Z)) (R tb low w l s : Z) : Prop :=
  (l <= R /\ aget lut (w mod 2 ^ R) = JOk (l, s))
  \/ (R < l <= 15 /\ exists t v, aget lut (w mod 2 ^ R) = JOk (t + R, v) /\ 1 <= t <= 15 - R /\
      let i := w mod 2 ^ R + v + (w / 2 ^ R) mod 2 ^ t in
      2 ^ R <= i /\ (w mod 2 ^ R <> low -> i < tb) /\ aget lut i = JOk (l - R, s)).

Definition blong (R : Z) (ls : list Z) : Z := Z.of_nat (length (filter (fun l => R <? l) ls)).

Definition bopen (R : Z) (done rest : list Z) (st : bst) : Prop :=
  let t := b_tbits st in
  exists B u x, 0 <= B < 2 ^ R /\ b_low st = brev (Z.to_nat R) B
    /\ B * wgt R <= kraft done <= (B + 1) * wgt R /\ 1 <= t <= 15 - R /\ b_tsize st = 2 ^ t
    /\ 2 ^ R <= b_table st /\ b_total st = b_table st + 2 ^ t /\ b_total st <= Z.of_nat (length (b_lut st))
    /\ aget (b_lut st) (b_low st) = JOk (t + R, b_table st - b_low st)
    /\ (let rem := (B + 1) * wgt R - kraft done in
        rem <= kle (R + t) rest /\ R < u <= R + t /\ Forall (fun l => u <= l) rest /\ rem = x * wgt u
        /\ (kle (R + t - 1) rest < rem \/ (rem = 0 /\ u = R + t)))
    /\ b_total st - 2 ^ R <= blong R done + (2 ^ t - t - 1) + x + (t - (u - R)).

Definition bsub (R : Z) (syms done rest : list Z) (st : bst) : Prop :=
  binv syms done rest st /\ 1 <= R < 15
  /\ Forall (fun l => R < l) rest
  /\ 2 ^ R + Z.of_nat (length (done ++ rest)) + (2 ^ (15 - R) - (15 - R) - 1) <= Z.of_nat (length (b_lut st)) <= 65535
  /\ (forall j w, (j < length done)%nat -> 0 <= w < 65536 -> kpos done j <= brev 16 w < kpos done (S j) ->
        bleads (b_lut st) R (b_table st) (b_low st) w (nth j done 0) (nth j syms 0))
  /\ ((b_low st = -1 /\ b_table st = 0 /\ b_tsize st = 2 ^ R /\ b_total st = 2 ^ R
       /\ blong R done = 0 /\ exists B, kraft done = B * wgt R)
      \/ bopen R done rest st).

Lemma blong_snoc R done l : R < l -> blong R (done ++ [l]) = blong R done + 1.
Proof. intros H. unfold blong. rewrite filter_app, app_length. cbn [filter]. destruct (Z.ltb_spec R l); [cbn [length]; lia|lia]. Qed.

Lemma blong_le R done : blong R done <= Z.of_nat (length done).
Proof. unfold blong. induction done as [|x d IH]; [cbn; lia|]. cbn [filter length]. destruct (R <? x); cbn [length]; lia. Qed.

(** [2^a - a] does not decrease. *)
Lemma gap_mono a b : 0 <= a <= b -> 2 ^ a - a <= 2 ^ b - b.
Proof.
  intros H. replace b with (a + (b - a)) by lia. rewrite Z.pow_add_r by lia.
  pose proof (pow2_pos a ltac:(lia)). assert (1 + (b - a) <= 2 ^ (b - a)).
  { replace (b - a) with (Z.of_nat (Z.to_nat (b - a))) by lia. generalize (Z.to_nat (b - a)). intros n. induction n as [|n IH]; [cbn; lia|]. rewrite pow2_S. lia. }
  nia.
Qed.

Lemma grow_mul x d : 1 <= x -> 0 <= d -> x + d <= x * 2 ^ d.
Proof. intros Hx Hd. pose proof (gap_mono 0 d ltac:(lia)) as G. change (2 ^ 0) with 1 in G. nia. Qed.

(** The root index of a window. *)
Lemma root_index R w : 1 <= R <= 15 -> 0 <= w < 65536 -> brev (Z.to_nat R) (w mod 2 ^ R) = brev 16 w / wgt R.
Proof.
  intros HR Hw. pose proof (brev_mod (Z.to_nat R) w) as E. rewrite Z2Nat.id in E by lia. rewrite E.
  replace 16%nat with (Z.to_nat R + Z.to_nat (16 - R))%nat by lia. unfold wgt.
  replace (16 - R) with (Z.of_nat (Z.to_nat (16 - R))) at 2 by lia. symmetry. apply brev_hi.
Qed.

Lemma wgt_full R : 0 <= R <= 16 -> 2 ^ R * wgt R = 65536.
Proof. intros H. unfold wgt. rewrite <- Z.pow_add_r by lia. replace (R + (16 - R)) with 16 by lia. reflexivity. Qed.

Lemma aget_range {A} (l : list A) i e : aget l i = JOk e -> 0 <= i < Z.of_nat (length l).
Proof.
  intros H. apply aget_Some in H as [H1 H2]. split; [lia|].
  assert (X : nth_error l (Z.to_nat i) <> None) by congruence. apply nth_error_Some in X. lia.
Qed.

Lemma bh_new_table_ok R syms done l rest st : bsub R syms done (l :: rest) st ->
  exists st', bh_new_table R l st = JOk st' /\ bsub R syms done (l :: rest) st' /\ bopen R done (l :: rest) st'
    /\ b_low st' = b_key st' mod 2 ^ R /\ kraft done < (kraft done / wgt R + 1) * wgt R
    /\ b_low st' = brev (Z.to_nat R) (kraft done / wgt R)
    /\ length (b_lut st') = length (b_lut st).
Proof.
  intros BS. pose proof BS as (B & HR & FR & SZ & LD & CS).
  pose proof (next_symbol _ _ _ _ _ B) as (Hl1 & KB & (p & Hp & EP & EKp) & ES & WC & Hk & _).
  pose proof B as (C & EI & LS & F & A & K & EK). specialize (EK ltac:(discriminate)).
  pose proof (Forall_inv FR) as HlR. cbv beta in HlR.
  pose proof (ascending_app _ _ A) as A2.
  pose proof (wgt_pos R ltac:(lia)) as WR. pose proof (wgt_pos l ltac:(lia)) as Wl. pose proof (pow2_pos R ltac:(lia)) as PR.
  pose proof (wgt_full R ltac:(lia)) as WF. pose proof (kraft_nonneg done) as KD.
  set (B' := kraft done / wgt R). set (low := b_key st mod 2 ^ R).
  assert (Hkey : 0 <= b_key st < 65536) by (rewrite EK; apply (brev_range 16)).
  assert (IV : brev 16 (b_key st) = kraft done).
  { rewrite EK, brev_invol. apply Z.mod_small. change (2 ^ Z.of_nat 16) with 65536. lia. }
  assert (EB : brev (Z.to_nat R) low = B').
  { unfold low. rewrite root_index by lia. rewrite IV. reflexivity. }
  pose proof (Z.mod_pos_bound (b_key st) (2 ^ R) PR) as Hlow. fold low in Hlow.
  assert (HB' : 0 <= B' < 2 ^ R) by (rewrite <- EB; pose proof (brev_range (Z.to_nat R) low) as X; rewrite Z2Nat.id in X by lia; exact X).
  assert (Elow : low = brev (Z.to_nat R) B').
  { rewrite <- EB, brev_invol, Z2Nat.id, Z.mod_small by lia. reflexivity. }
  pose proof (Z.div_mod (kraft done) (wgt R) ltac:(lia)) as DM. fold B' in DM.
  pose proof (Z.mod_pos_bound (kraft done) (wgt R) WR) as MB.
  unfold bh_new_table. fold low.
  destruct (Z.eqb_spec low (b_low st)) as [EL|NL].
  - exists st. split; [reflexivity|]. split; [exact BS|]. 
    destruct CS as [(E0 & _)|OP]; [exfalso; lia|]. split; [exact OP|]. split; [symmetry; exact EL|]. split; [lia|]. split; [congruence|reflexivity].
  - (* a new sub-table *)
    assert (FACT : kraft done = B' * wgt R /\ b_total st = b_table st + b_tsize st /\ 2 ^ R <= b_total st
       /\ exists tp, 0 <= tp <= l - R /\ b_total st - 2 ^ R <= blong R done + (2 ^ tp - tp - 1)).
    { destruct CS as [(E0 & E1 & E2 & E3 & E4 & Bq & E5)|(Bq & u & x & HB & ELo & HK & Ht & Ets & HT & ETot & HTot & GK & (FL & Hu & FU & EX & MN) & POT)].
      - assert (Bq = B') by (unfold B'; rewrite E5, Z.div_mul by lia; reflexivity). subst Bq.
        split; [exact E5|]. split; [lia|]. split; [lia|]. exists 0. split; [lia|]. rewrite E3, E4. change (2 ^ 0) with 1. lia.
      - assert (NE : Bq <> B') by (intros ->; congruence).
        assert (KE : kraft done = (Bq + 1) * wgt R).
        { destruct (Z.eq_dec (kraft done) ((Bq + 1) * wgt R)) as [E|N]; [exact E|]. exfalso. apply NE.
          unfold B'. apply (Z.div_unique_pos _ _ _ (kraft done - Bq * wgt R)); lia. }
        assert (B' = Bq + 1) by (unfold B'; rewrite KE, Z.div_mul by lia; reflexivity).
        split; [subst B'; rewrite H; exact KE|]. split; [lia|]. split; [pose proof (pow2_pos (b_tbits st) ltac:(lia)); lia|].
        destruct MN as [MN|[_ Eu]]; [pose proof (kle_nonneg (R + b_tbits st - 1) (l :: rest)); lia|].
        pose proof (wgt_pos u ltac:(lia)) as Wu. assert (x = 0) by nia. subst x.
        pose proof (Forall_inv FU) as Ful. cbv beta in Ful.
        exists (b_tbits st). split; [lia|]. lia. }
    destruct FACT as (KE & ETot & HTot & tp & Htp & POT).
    destruct (bh_next_ok (b_cnt st) l rest R C A2 ltac:(lia) ltac:(lia)) as (t & Et & Ht & Fill & Min).
    cbv zeta. rewrite Et.
    assert (K2 : kraft done + kraft (l :: rest) = 65536) by (rewrite <- kraft_app; exact K).
    assert (Fill' : wgt R <= kle (R + t) (l :: rest)).
    { destruct Fill as [Fi|Fi]; [|exact Fi]. rewrite kle_all; [assert ((B' + 1) * wgt R <= 2 ^ R * wgt R) by (apply Z.mul_le_mono_nonneg_r; lia); lia|]. apply Forall_app in F as [_ F].
      eapply Forall_impl; [|exact F]. cbv beta. intros; lia. }
    assert (Wl2 : 2 ^ (l - R) * wgt l = wgt R) by (unfold wgt; rewrite <- Z.pow_add_r by lia; f_equal; lia).
    pose proof (pow2_pos (l - R) ltac:(lia)) as Pr.
    assert (FL : Forall (fun y => l <= y) (l :: rest)) by (destruct A2 as [A3 _]; constructor; [lia|exact A3]).
    assert (NEED : 2 ^ (l - R) + (R + t - l) <= Z.of_nat (length (l :: rest))).
    { apply (need_syms (Z.to_nat (R + t - l)) l (R + t) (l :: rest)); [lia|lia|lia|lia|exact FL|lia|lia]. }
    pose proof (gap_mono tp (l - R) ltac:(lia)) as G1. pose proof (gap_mono t (15 - R) ltac:(lia)) as G2.
    pose proof (blong_le R done) as BL. rewrite app_length in SZ.
    pose proof (pow2_pos t ltac:(lia)) as Pt.
    assert (T2 : b_total st + 2 ^ t <= Z.of_nat (length (b_lut st))) by lia.
    rewrite aset_ok by lia. cbn [jbind]. eexists; split; [reflexivity|].
    rewrite <- ETot, (Z.mod_small (b_total st - low)) by lia.
    rewrite (Z.mod_small (t + R)) by (change (2 ^ 8) with 256; lia).
    assert (OP : bopen R done (l :: rest) (mkB (b_cnt st) (b_key st) (b_sym st) (upd (b_lut st) (Z.to_nat low) (t + R, b_total st - low)) (b_total st) t (2 ^ t) (b_total st + 2 ^ t) low)).
    { unfold bopen. cbn [b_tbits b_low b_tsize b_table b_total b_lut]. exists B', l, (2 ^ (l - R)). rewrite upd_length.
      split; [lia|]. split; [exact Elow|]. split; [lia|]. split; [lia|]. split; [reflexivity|]. split; [lia|]. split; [lia|]. split; [lia|].
      split; [apply aget_upd_same; lia|]. split; [|lia].
      replace ((B' + 1) * wgt R - kraft done) with (wgt R) by lia.
      split; [exact Fill'|]. split; [lia|]. split; [exact FL|]. split; [lia|]. left. lia. }
    split; [|split; [exact OP|]].
    + split; [unfold binv; cbn [b_cnt b_sym b_key]; exact B|]. split; [exact HR|]. split; [exact FR|]. cbn [b_lut b_table b_low]. rewrite upd_length, app_length.
      split; [exact SZ|]. split; [|right; exact OP].
      intros j w Hj Hw Hpw. specialize (LD j w Hj Hw Hpw).
      pose proof (kpos_le done (S j) (length done) ltac:(lia)) as KL. rewrite kpos_all in KL.
      assert (NLow : w mod 2 ^ R <> low).
      { intros E. pose proof (root_index R w ltac:(lia) Hw) as RI. rewrite E, EB in RI.
        pose proof (Z.div_mod (brev 16 w) (wgt R) ltac:(lia)) as D1. pose proof (Z.mod_pos_bound (brev 16 w) (wgt R) WR). rewrite <- RI in D1. lia. }
      pose proof (Z.mod_pos_bound w (2 ^ R) PR) as WM.
      destruct LD as [[H1 H2]|[H1 (t1 & v1 & H2 & H3 & H4 & H5 & H6)]].
      * left. split; [exact H1|]. rewrite aget_upd_other by lia. exact H2.
      * right. split; [exact H1|]. exists t1, v1. cbv zeta in *. rewrite !aget_upd_other by lia.
        split; [exact H2|]. split; [exact H3|]. split; [exact H4|]. split; [|exact H6].
        intros _. destruct (Z.eq_dec (w mod 2 ^ R) (b_low st)) as [E|N].
        -- destruct CS as [(E0 & _)|(Bq & u & x & HB & ELo & HK & Ht' & Ets & HT & ETot' & HTot' & GK & _)]; [exfalso; lia|].
           rewrite E in *. rewrite GK in H2. injection H2 as E1 E2.
           replace t1 with (b_tbits st) in * by lia. pose proof (Z.mod_pos_bound (w / 2 ^ R) (2 ^ b_tbits st) ltac:(apply pow2_pos; lia)). lia.
        -- specialize (H5 N). pose proof (Z.mod_pos_bound (w / 2 ^ R) (2 ^ t1) ltac:(apply pow2_pos; lia)).
           assert (0 <= b_tsize st); [|lia]. destruct CS as [(_ & _ & E2 & _)|(Bq & u & x & _ & _ & _ & Ht' & Ets & _)]; [lia|]. pose proof (pow2_pos (b_tbits st) ltac:(lia)). lia.
    + cbn [b_low b_key b_lut]. split; [reflexivity|]. split; [lia|]. split; [exact Elow|]. apply upd_length.
Qed.

Lemma mod_div_pow w a b : 0 <= a -> 0 <= b -> w mod 2 ^ (a + b) = w mod 2 ^ a + 2 ^ a * ((w / 2 ^ a) mod 2 ^ b).
Proof.
  intros Ha Hb. rewrite Z.pow_add_r by lia. pose proof (pow2_pos a Ha). pose proof (pow2_pos b Hb).
  apply Z.rem_mul_r; lia.
Qed.

Lemma bh_sub_step_ok R syms done l rest st : bsub R syms done (l :: rest) st ->
  exists st', bh_sub_step syms R l st = JOk st' /\ bsub R syms (done ++ [l]) rest st'
    /\ length (b_lut st') = length (b_lut st).
Proof.
  intros BS0. unfold bh_sub_step.
  destruct (bh_new_table_ok _ _ _ _ _ _ BS0) as (st1 & E1 & BS & OP & Elow & KLt & EloB & LL). rewrite E1. cbn [jbind].
  rewrite <- LL. clear BS0 E1 LL. clear st. rename st1 into st.
  pose proof BS as (B & HR & FR & SZ & LD & _).
  pose proof (next_symbol _ _ _ _ _ B) as (Hl1 & KB & (p & Hp & EP & EKp) & ES & WC & Hk & _).
  pose proof B as (C & EI & LS & F & A & K & EK). specialize (EK ltac:(discriminate)).
  pose proof (Forall_inv FR) as HlR. cbv beta in HlR.
  pose proof (ascending_app _ _ A) as A2.
  pose proof (wgt_pos R ltac:(lia)) as WR. pose proof (wgt_pos l ltac:(lia)) as Wl. pose proof (pow2_pos R ltac:(lia)) as PR.
  destruct OP as (Bq & u & x & HB & ELo & HK & Ht & Ets & HT & ETot & HTot & GK & (FL & Hu & FU & EX & MN) & POT).
  set (t := b_tbits st) in *.
  assert (EBq : Bq = kraft done / wgt R).
  { rewrite ELo in EloB. apply brev_inj in EloB; [exact EloB|rewrite Z2Nat.id by lia; exact HB|].
    rewrite Z2Nat.id by lia. pose proof (wgt_full R ltac:(lia)). pose proof (kraft_nonneg done). split; [apply Z.div_pos; lia|apply Z.div_lt_upper_bound; lia]. }
  rewrite <- EBq in *.
  assert (Hlt : l <= R + t).
  { destruct (Z_le_gt_dec l (R + t)) as [H|H]; [exact H|]. exfalso.
    rewrite kle_none in FL; [lia|]. destruct A2 as [A3 _]. constructor; [lia|]. eapply Forall_impl; [|exact A3]. cbv beta. intros; lia. }
  rewrite ES. cbn [jbind]. set (s := nth (length done) syms 0).
  assert (Hkq : 0 <= b_key st / 2 ^ R < 2 ^ (l - R)).
  { split; [apply Z.div_pos; lia|]. apply Z.div_lt_upper_bound; [lia|]. rewrite <- Z.pow_add_r by lia. replace (R + (l - R)) with l by lia. lia. }
  destruct (bh_replicate_class t (l - R) (b_table st) (b_key st / 2 ^ R) (l - R, s) (b_lut st)) as (lut' & ER & LR & G1 & G2); [lia|lia|lia|lia|].
  rewrite Ets, ER. cbn [jbind]. eexists; split; [reflexivity|]. split; [|exact LR].
  assert (Root : forall i, i < 2 ^ R -> aget lut' i = aget (b_lut st) i) by (intros i Hi; apply G2; lia).
  assert (Hlow : 0 <= b_low st < 2 ^ R) by (rewrite Elow; apply Z.mod_pos_bound; lia).
  assert (Class : forall w, w mod 2 ^ R = b_low st -> (w / 2 ^ R) mod 2 ^ (l - R) = b_key st / 2 ^ R -> w mod 2 ^ l = b_key st).
  { intros w X1 X2. replace l with (R + (l - R)) at 1 by lia. rewrite mod_div_pow, X1, X2, Elow by lia.
    pose proof (Z.div_mod (b_key st) (2 ^ R) ltac:(lia)). lia. }
  destruct A2 as [A3 A4].
  set (rem := (Bq + 1) * wgt R - kraft done) in *.
  assert (Wu : wgt u = 2 ^ (l - u) * wgt l).
  { pose proof (Forall_inv FU) as Ful. cbv beta in Ful. rewrite (wgt_mul u (l - u)) by lia. f_equal. f_equal. lia. }
  pose proof (Forall_inv FU) as Ful. cbv beta in Ful.
  pose proof (wgt_pos u ltac:(lia)) as Wup.
  assert (Hx : 1 <= x).
  { destruct (Z_le_gt_dec 1 x) as [H|H]; [exact H|]. exfalso. assert (x * wgt u <= 0) by (apply Z.mul_nonpos_nonneg; lia). clear - H0 EX KLt. lia. }
  pose proof (grow_mul x (l - u) Hx ltac:(lia)) as GM.
  split; [eapply binv_step; [exact B|reflexivity|reflexivity|reflexivity]|].
  split; [exact HR|]. split; [exact (Forall_inv_tail FR)|]. cbn [b_lut b_table b_low]. rewrite <- app_assoc. cbn [app].
  split; [rewrite LR, !app_length in *; cbn [length] in *; exact SZ|]. split.
  - intros j w Hj Hw Hpw. rewrite nth_snoc.
    destruct (kpos_snoc _ _ _ _ Hj Hpw) as [[-> Hx0]|(Hj' & Hx0 & Hx2)].
    + rewrite Nat.eqb_refl. right. split; [lia|]. exists t, (b_table st - b_low st).
      pose proof (proj1 (WC w Hw) Hx0) as WL.
      assert (WLow : w mod 2 ^ R = b_low st) by (rewrite <- (mod_mod_pow w R l) by lia; rewrite WL, Elow; reflexivity).
      assert (WQ : (w / 2 ^ R) mod 2 ^ (l - R) = b_key st / 2 ^ R).
      { replace l with (R + (l - R)) in WL at 1 by lia. rewrite mod_div_pow, WLow in WL by lia. rewrite <- WL.
        rewrite Z.mul_comm, Z.div_add by lia. rewrite (Z.div_small (b_low st)) by lia. lia. }
      rewrite WLow. rewrite Root by lia. split; [exact GK|]. split; [lia|]. cbv zeta.
      pose proof (Z.mod_pos_bound (w / 2 ^ R) (2 ^ t) ltac:(apply pow2_pos; lia)) as WM.
      replace (b_low st + (b_table st - b_low st) + (w / 2 ^ R) mod 2 ^ t) with (b_table st + (w / 2 ^ R) mod 2 ^ t) by lia.
      split; [clear - HT WM; lia|]. split; [congruence|]. apply G1; [exact WM|]. rewrite mod_mod_pow by (clear - Hlt HlR; lia). exact WQ.
    + destruct (Nat.eqb_spec j (length done)) as [N|N]; [lia|].
      specialize (LD j w Hj' Hw Hx0). pose proof (Z.mod_pos_bound w (2 ^ R) PR) as WM.
      destruct LD as [[H1 H2]|[H1 (t1 & v1 & H2 & H3 & H4 & H5 & H6)]].
      * left. split; [exact H1|]. rewrite Root by (clear - WM; lia). exact H2.
      * right. split; [exact H1|]. exists t1, v1. rewrite Root by (clear - WM; lia). split; [exact H2|]. split; [exact H3|]. cbv zeta in *.
        split; [exact H4|]. split; [exact H5|]. rewrite G2; [exact H6|]. intros [X1 X2].
        destruct (Z.eq_dec (w mod 2 ^ R) (b_low st)) as [E|NE]; [|specialize (H5 NE); clear - H5 X1; lia].
        rewrite E in *. rewrite GK in H2. injection H2 as E1 E2. replace t1 with t in * by (clear - E1; lia).
        replace (b_low st + v1 + (w / 2 ^ R) mod 2 ^ t - b_table st) with ((w / 2 ^ R) mod 2 ^ t) in X2 by (clear - E2; lia).
        rewrite mod_mod_pow in X2 by (clear - Hlt HlR; lia). specialize (Class w E X2). apply WC in Class; [clear - Class Hx2; lia|exact Hw].
  - right. unfold bopen. cbn [b_tbits b_low b_tsize b_table b_total b_lut]. fold t.
    exists Bq, l, (x * 2 ^ (l - u) - 1). rewrite LR, Root by lia.
    rewrite kraft_app, kraft_cons, kraft_nil.
    replace ((Bq + 1) * wgt R - (kraft done + (wgt l + 0))) with (rem - wgt l) by lia.
    rewrite kle_cons in FL. destruct (Z.leb_spec l (R + t)); [|lia].
    assert (Hrem : rem = x * 2 ^ (l - u) * wgt l) by (rewrite EX, Wu; lia).
    assert (Hrem2 : wgt l <= rem).
    { assert (G1' : 1 <= x * 2 ^ (l - u)) by (clear - GM Hx Ful; lia).
      assert (1 * wgt l <= x * 2 ^ (l - u) * wgt l) by (apply Z.mul_le_mono_nonneg_r; [clear - Wl; lia|exact G1']). lia. }
    split; [exact HB|]. split; [exact ELo|]. split; [lia|]. split; [exact Ht|]. split; [reflexivity|]. split; [exact HT|]. split; [exact ETot|]. split; [exact HTot|].
    split; [exact GK|]. rewrite blong_snoc by lia. split; [|lia].
    split; [lia|]. split; [lia|]. split; [exact A3|]. split; [clear - Hrem; lia|].
    destruct MN as [MN|[MN _]]; [|lia]. rewrite kle_cons in MN.
    destruct (Z.leb_spec l (R + t - 1)) as [H1|H1].
    + left. lia.
    + assert (El : l = R + t) by lia. rewrite (kle_none (R + t - 1) rest) in *.
      2, 3: (eapply Forall_impl; [|exact A3]; cbv beta; intros; lia).
      destruct (Z.eq_dec rem (wgt l)) as [E|N]; [right; split; [lia|exact El]|left; lia].
Qed.

Lemma times_sub R syms l : forall n done rest st, bsub R syms done (repeat l n ++ rest) st ->
  exists st', times n (bh_sub_step syms R l) st = JOk st' /\ bsub R syms (done ++ repeat l n) rest st'
    /\ length (b_lut st') = length (b_lut st).
Proof.
  induction n as [|n IH]; intros done rest st B.
  - exists st. cbn [repeat app times] in *. rewrite app_nil_r. auto.
  - cbn [repeat app times] in *. destruct (bh_sub_step_ok _ _ _ _ _ _ B) as (st1 & E1 & B1 & L1).
    rewrite E1. cbn [jbind]. destruct (IH (done ++ [l]) rest st1 B1) as (st2 & E2 & B2 & L2).
    exists st2. split; [exact E2|]. rewrite <- app_assoc in B2. cbn [app] in B2. split; [exact B2|]. congruence.
Qed.
