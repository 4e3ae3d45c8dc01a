(** The reader's lookup table decodes exactly the canonical code, inside 1024 entries. *)
From Verif Require Import Base JpegModel JBitModel JWriteProofs JReadProofs JHuffModel.

(** * Arrays *)

Lemma aset_ok {A} (l : list A) i v : 0 <= i < Z.of_nat (length l) -> aset l i v = JOk (upd l (Z.to_nat i) v).
Proof. intros H. unfold aset. destruct (Z.leb_spec 0 i); [|lia]. destruct (Z.ltb_spec i (Z.of_nat (length l))); [|lia]. reflexivity. Qed.

Lemma aget_upd_same {A} (l : list A) i v : 0 <= i < Z.of_nat (length l) -> aget (upd l (Z.to_nat i) v) i = JOk v.
Proof. intros H. apply aget_Some. split; [lia|]. apply nth_error_upd_same. lia. Qed.

Lemma aget_upd_other {A} (l : list A) i j v : 0 <= i -> i <> j -> aget (upd l (Z.to_nat i) v) j = aget l j.
Proof.
  intros H N. unfold aget. destruct (Z.ltb_spec j 0); [reflexivity|].
  rewrite nth_error_upd_other by lia. reflexivity.
Qed.

Lemma put_reps_ok : forall n at_ e lut, 0 <= at_ -> at_ + Z.of_nat n <= Z.of_nat (length lut) ->
  exists lut', put_reps n at_ e lut = JOk lut' /\ length lut' = length lut
    /\ (forall k, at_ <= k < at_ + Z.of_nat n -> aget lut' k = JOk e)
    /\ (forall k, ~ (at_ <= k < at_ + Z.of_nat n) -> aget lut' k = aget lut k).
Proof.
  induction n as [|n IH]; intros a e lut Ha Hn.
  - exists lut. split; [reflexivity|]. split; [reflexivity|]. split; [intros; lia|reflexivity].
  - cbn [put_reps]. rewrite aset_ok by lia. cbn [jbind].
    destruct (IH (a + 1) e (upd lut (Z.to_nat a) e)) as (lut' & E & L & G1 & G2); [lia|rewrite upd_length; lia|].
    exists lut'. split; [exact E|]. split; [rewrite L, upd_length; reflexivity|]. split.
    + intros k Hk. destruct (Z.eq_dec k a) as [->|N].
      * rewrite G2 by lia. apply aget_upd_same. lia.
      * apply G1. lia.
    + intros k Hk. rewrite G2 by lia. apply aget_upd_other; lia.
Qed.

(** * Kraft sums *)

Definition wgt (l : Z) : Z := 2 ^ (16 - l).
Definition kraft (ls : list Z) : Z := sumZ (map wgt ls).
Definition cnt (l : Z) (ls : list Z) : Z := Z.of_nat (length (filter (fun x => x =? l) ls)).
Definition kle (x : Z) (ls : list Z) : Z := kraft (filter (fun l => l <=? x) ls).

Lemma kraft_app a b : kraft (a ++ b) = kraft a + kraft b.
Proof. unfold kraft. rewrite map_app. unfold sumZ. rewrite fold_right_app. induction (map wgt a) as [|x l IH]; cbn [fold_right]; lia. Qed.
Lemma kraft_cons l r : kraft (l :: r) = wgt l + kraft r.
Proof. reflexivity. Qed.
Lemma kraft_nil : kraft [] = 0.
Proof. reflexivity. Qed.
Lemma wgt_pos l : l <= 16 -> 0 < wgt l.
Proof. intros. apply pow2_pos. lia. Qed.
Lemma kraft_nonneg ls : 0 <= kraft ls.
Proof. induction ls as [|l r IH]; [rewrite kraft_nil; lia|]. rewrite kraft_cons. assert (0 <= wgt l) by (apply Z.pow_nonneg; lia). lia. Qed.
Lemma kle_cons x l r : kle x (l :: r) = (if l <=? x then wgt l else 0) + kle x r.
Proof. unfold kle. cbn [filter]. destruct (l <=? x); [rewrite kraft_cons; lia|lia]. Qed.
Lemma kle_nonneg x ls : 0 <= kle x ls.
Proof. apply kraft_nonneg. Qed.
Lemma cnt_cons x l r : cnt x (l :: r) = (if l =? x then 1 else 0) + cnt x r.
Proof. unfold cnt. cbn [filter]. destruct (l =? x); cbn [length]; lia. Qed.
Lemma cnt_nonneg x r : 0 <= cnt x r.
Proof. unfold cnt. lia. Qed.
Lemma kle_step x ls : kle x ls = kle (x - 1) ls + cnt x ls * wgt x.
Proof.
  induction ls as [|l r IH]; [unfold kle, cnt; cbn [filter length]; rewrite kraft_nil; lia|]. rewrite !kle_cons, cnt_cons, IH.
  destruct (Z.leb_spec l x), (Z.leb_spec l (x - 1)), (Z.eqb_spec l x); subst; try lia.
Qed.
Lemma kle_none x ls : Forall (fun l => x < l) ls -> kle x ls = 0.
Proof.
  intros F. induction F as [|l r H F IH]; [reflexivity|]. rewrite kle_cons, IH. destruct (Z.leb_spec l x); lia.
Qed.
Lemma wgt_double l : l <= 16 -> wgt (l - 1) = 2 * wgt l.
Proof. intros. unfold wgt. replace (16 - (l - 1)) with (Z.succ (16 - l)) by lia. rewrite Z.pow_succ_r by lia. lia. Qed.
Lemma wgt_mul l k : 0 <= k -> l + k <= 16 -> wgt l = 2 ^ k * wgt (l + k).
Proof. intros. unfold wgt. rewrite <- Z.pow_add_r by lia. f_equal. lia. Qed.

Fixpoint ascending (ls : list Z) : Prop :=
  match ls with
  | [] => True
  | l :: r => Forall (fun x => l <= x) r /\ ascending r
  end.

Lemma ascending_app a b : ascending (a ++ b) -> ascending b.
Proof. induction a as [|x a IH]; cbn [app ascending]; [auto|]. intros [_ H]. auto. Qed.

Lemma kraft_div a l : Forall (fun x => x <= l) a -> l <= 16 -> exists q, kraft a = q * wgt l.
Proof.
  intros F Hl. induction F as [|x a Hx F IH]; [exists 0; reflexivity|]. destruct IH as [q E].
  rewrite kraft_cons, E. destruct (Z_le_gt_dec 0 (l - x)) as [H|H]; [|lia].
  exists (2 ^ (l - x) + q). rewrite (wgt_mul x (l - x)) by lia. replace (x + (l - x)) with l by lia. lia.
Qed.

(** * NextTableBitSize *)

Definition counts_of (tmp : list Z) (rest : list Z) : Prop :=
  length tmp = 17%nat /\ forall l, 1 <= l <= 16 -> nth (Z.to_nat l) tmp 0 = cnt l rest.

Lemma dec_count_ok tmp l rest : counts_of tmp (l :: rest) -> 1 <= l <= 16 -> counts_of (dec_count tmp l) rest.
Proof.
  intros [L H] Hl. split; [unfold dec_count; rewrite upd_length; exact L|].
  intros x Hx. unfold dec_count. pose proof (H x Hx) as E. rewrite cnt_cons in E.
  destruct (Z.eqb_spec l x) as [->|N].
  - rewrite nth_upd_same by lia. lia.
  - rewrite nth_upd_other by lia. lia.
Qed.

Lemma next_table_loop_ok tmp rest : counts_of tmp rest -> forall fuel left len,
  9 <= len <= 16 -> 16 - len <= Z.of_nat fuel -> left * wgt len = 256 - kle (len - 1) rest -> 0 < left ->
  exists t, next_table_loop fuel tmp left len = t /\ len - 8 <= t <= 8
    /\ (t = 8 \/ 256 <= kle (8 + t) rest) /\ kle (8 + t - 1) rest < 256.
Proof.
  intros [L C]. induction fuel as [|f IH]; intros left len Hl Hf E Pos.
  - assert (len = 16) by lia. subst. exists 8. cbn [next_table_loop]. split; [reflexivity|]. split; [lia|]. split; [left; reflexivity|].
    replace (8 + 8 - 1) with (16 - 1) by lia. pose proof (wgt_pos 16 ltac:(lia)). lia.
  - cbn [next_table_loop]. pose proof (wgt_pos len ltac:(lia)) as W.
    assert (K1 : kle (len - 1) rest < 256).
    { assert (0 < left * wgt len) by (apply Z.mul_pos_pos; lia). lia. }
    destruct (Z.ltb_spec len 16) as [H|H].
    + rewrite C by lia. pose proof (kle_step len rest) as KS.
      assert (E2 : (left - cnt len rest) * wgt len = 256 - kle len rest) by lia.
      cbv zeta. destruct (Z.leb_spec (left - cnt len rest) 0) as [B|B].
      * exists (len - 8). split; [reflexivity|]. split; [lia|]. replace (8 + (len - 8)) with len by lia.
        split; [right|exact K1].
        assert ((left - cnt len rest) * wgt len <= 0) by (apply Z.mul_nonpos_nonneg; lia). lia.
      * destruct (IH ((left - cnt len rest) * 2) (len + 1)) as (t & Et & Ht & F & M); try lia.
        -- replace (len + 1 - 1) with len by lia. rewrite <- E2.
           pose proof (wgt_double (len + 1) ltac:(lia)) as D. replace (len + 1 - 1) with len in D by lia. rewrite D. lia.
        -- exists t. split; [exact Et|]. split; [lia|]. auto.
    + assert (len = 16) by lia. subst. exists 8. split; [reflexivity|]. split; [lia|]. split; [left; reflexivity|].
      replace (8 + 8 - 1) with (16 - 1) by lia. exact K1.
Qed.

Lemma next_table_ok tmp len rest : counts_of tmp (len :: rest) -> ascending (len :: rest) -> 9 <= len <= 16 ->
  exists t, next_table_bits tmp len = t /\ len - 8 <= t <= 8
    /\ (t = 8 \/ 256 <= kle (8 + t) (len :: rest)) /\ kle (8 + t - 1) (len :: rest) < 256.
Proof.
  intros C A Hl. apply (next_table_loop_ok tmp (len :: rest) C); [lia|lia| |apply pow2_pos; lia].
  assert (K0 : kle (len - 1) (len :: rest) = 0).
  { apply kle_none. cbn [ascending] in A. destruct A as [F _]. constructor; [lia|]. eapply Forall_impl; [|exact F]. cbv beta. intros; lia. }
  rewrite K0. unfold wgt. rewrite <- Z.pow_add_r by lia. replace (len - 8 + (16 - len)) with 8 by lia. reflexivity.
Qed.

(** * The invariant *)

(** Position of symbol [j] on the line of 16-bit windows. *)
Definition kpos (ls : list Z) (j : nat) : Z := kraft (firstn j ls).

Lemma kpos_S ls j : (j < length ls)%nat -> kpos ls (S j) = kpos ls j + wgt (nth j ls 0).
Proof. intros H. unfold kpos. rewrite (firstn_S_nth ls j 0) by exact H. rewrite kraft_app, kraft_cons, kraft_nil. lia. Qed.

Lemma kpos_app done rest j : (j <= length done)%nat -> kpos (done ++ rest) j = kpos done j.
Proof. intros H. unfold kpos. rewrite firstn_app. replace (j - length done)%nat with 0%nat by lia. cbn [firstn]. rewrite app_nil_r. reflexivity. Qed.

Lemma kpos_all ls : kpos ls (length ls) = kraft ls.
Proof. unfold kpos. rewrite firstn_all. reflexivity. Qed.

Lemma firstn_plus {A} (l : list A) i k : firstn (i + k) l = firstn i l ++ firstn k (skipn i l).
Proof.
  revert l; induction i as [|i IH]; intros l; [reflexivity|]. destruct l as [|a l]; [cbn [Nat.add firstn skipn app]; rewrite firstn_nil; reflexivity|].
  cbn [Nat.add firstn skipn app]. rewrite IH. reflexivity.
Qed.

Lemma kpos_le ls i j : (i <= j)%nat -> kpos ls i <= kpos ls j.
Proof.
  intros H. unfold kpos. replace j with (i + (j - i))%nat by lia. rewrite firstn_plus, kraft_app.
  pose proof (kraft_nonneg (firstn (j - i) (skipn i ls))). lia.
Qed.

(** Window [w] leads to [(l, s)], using entries of the first [kk] roots and sub-table
    entries below [fr]. *)
Definition leads (lut : list (Z * Z)) (fr : Z) (w l s : Z) : Prop :=
  (1 <= l <= 8 /\ aget lut (w / 256) = JOk (l, s))
  \/ (9 <= l <= 16 /\ exists t v, aget lut (w / 256) = JOk (t + 8, v) /\ 1 <= t <= 8
      /\ 256 <= w / 256 + v + (w mod 256) / 2 ^ (8 - t) < fr
      /\ aget lut (w / 256 + v + (w mod 256) / 2 ^ (8 - t)) = JOk (l - 8, s)).

Definition common (lut0 : list (Z * Z)) (syms done rest : list Z) (key fr : Z) (st : hst) : Prop :=
  counts_of (h_tmp st) rest /\ h_idx st = Z.of_nat (length done)
  /\ length (h_lut st) = lut_size /\ length lut0 = lut_size
  /\ (length done + length rest <= length syms)%nat
  /\ (length done + length rest <= 257)%nat
  /\ Forall (fun l => 1 <= l <= 16) (done ++ rest) /\ ascending (done ++ rest)
  /\ kraft (done ++ rest) <= 65536
  /\ 0 <= key <= 256 /\ 256 <= fr
  /\ (forall k, key <= k < 256 \/ fr <= k -> aget (h_lut st) k = aget lut0 k)
  /\ (forall j w, (j < length done)%nat -> kpos done j <= w < kpos done (S j) -> 
        leads (h_lut st) fr w (nth j done 0) (nth j syms 0)).

Definition rinv lut0 syms done rest st : Prop :=
  common lut0 syms done rest (h_key st) 256 st /\ h_key st * 256 = kraft done
  /\ Forall (fun l => l <= 8) done.

Lemma nth_err_nth {A} (l : list A) i d : (i < length l)%nat -> nth_error l i = Some (nth i l d).
Proof. revert i; induction l as [|a l IH]; intros [|i] H; cbn [length] in H; try lia; [reflexivity|]. apply IH. lia. Qed.

Lemma leads_mono lut lut' fr fr' key w l s : leads lut fr w l s -> fr <= fr' ->
  0 <= w -> w / 256 < key -> key <= 256 ->
  (forall k, 0 <= k < key \/ 256 <= k < fr -> aget lut' k = aget lut k) -> leads lut' fr' w l s.
Proof.
  intros [[H E]|[H (t & v & E & Ht & Hx & E2)]] Hf Hw Hk Hk2 G.
  - left. split; [exact H|]. rewrite G; [exact E|]. left. split; [apply Z.div_pos; lia|exact Hk].
  - right. split; [exact H|]. exists t, v. rewrite !G.
    + split; [exact E|]. split; [exact Ht|]. split; [lia|exact E2].
    + right; lia.
    + left. split; [apply Z.div_pos; lia|exact Hk].
Qed.

Lemma nth_snoc {A} (l : list A) a j d : nth j (l ++ [a]) d = if (j =? length l)%nat then a else nth j l d.
Proof.
  destruct (Nat.eqb_spec j (length l)) as [->|N]; [rewrite app_nth2, Nat.sub_diag by lia; reflexivity|].
  destruct (Nat.lt_ge_cases j (length l)) as [H|H]; [apply app_nth1; exact H|].
  rewrite !nth_overflow; [reflexivity|lia|rewrite app_length; cbn [length]; lia].
Qed.

Lemma kpos_nonneg ls j : 0 <= kpos ls j.
Proof. apply kraft_nonneg. Qed.

Lemma root_step_ok lut0 syms done l rest st : rinv lut0 syms done (l :: rest) st -> l <= 8 ->
  exists st', root_step syms l st = JOk st' /\ rinv lut0 syms (done ++ [l]) rest st'.
Proof.
  intros [(C & EI & LL & L0 & LS & L257 & F & A & K & Hk & Hfr & UN & LD) [EK F8]] Hl.
  assert (Hl1 : 1 <= l <= 16) by (rewrite Forall_forall in F; apply F, in_or_app; right; left; reflexivity).
  unfold root_step. rewrite EI.
  cbn [length] in LS, L257.
  assert (ES : aget syms (Z.of_nat (length done)) = JOk (nth (length done) syms 0)).
  { apply aget_Some. split; [lia|]. rewrite Nat2Z.id. apply nth_err_nth. lia. }
  rewrite ES. cbn [jbind].
  set (s := nth (length done) syms 0).
  assert (W : wgt l = 2 ^ (8 - l) * 256) by (unfold wgt; change 256 with (2 ^ 8); rewrite <- Z.pow_add_r by lia; f_equal; lia).
  pose proof (pow2_pos (8 - l) ltac:(lia)) as P8.
  rewrite kraft_app, kraft_cons in K. pose proof (kraft_nonneg rest) as KR.
  assert (Kl : Z.of_nat (length (h_lut st)) = 1024) by (rewrite LL; reflexivity).
  destruct (put_reps_ok (Z.to_nat (2 ^ (8 - l))) (h_key st) (l, s) (h_lut st)) as (lut' & EP & LP & G1 & G2); [lia|lia|].
  rewrite EP. cbn [jbind]. eexists; split; [reflexivity|].
  rewrite Z2Nat.id in G1, G2 by lia.
  split; [|split].
  - unfold common. cbn [h_tmp h_idx h_lut h_key].
    split; [apply dec_count_ok; assumption|]. split; [rewrite app_length; cbn [length]; lia|].
    split; [congruence|]. split; [exact L0|]. rewrite app_length. cbn [length]. split; [lia|]. split; [lia|].
    rewrite <- app_assoc. cbn [app]. split; [exact F|]. split; [exact A|]. split; [rewrite kraft_app, kraft_cons; lia|].
    split; [lia|]. split; [lia|]. split.
    + intros k Hkk. rewrite G2 by lia. apply UN. lia.
    + intros j w Hj Hw. rewrite nth_snoc. destruct (Nat.eqb_spec j (length done)) as [->|N].
      * rewrite kpos_app, kpos_all in Hw by lia. rewrite kpos_S, kpos_app, kpos_all in Hw by (rewrite ?app_length; cbn [length]; lia).
        rewrite app_nth2, Nat.sub_diag in Hw by lia. cbn [nth] in Hw.
        left. split; [lia|]. apply G1.
        split; [apply Z.div_le_lower_bound; lia|apply Z.div_lt_upper_bound; lia].
      * rewrite !kpos_app in Hw by lia.
        pose proof (kpos_nonneg done j). pose proof (kpos_le done (S j) (length done) ltac:(lia)) as KL. rewrite kpos_all in KL.
        apply (leads_mono (h_lut st) lut' 256 256 (h_key st)); [apply LD; [lia|exact Hw]|lia|lia| |lia|].
        -- apply Z.div_lt_upper_bound; lia.
        -- intros k Hkk. apply G2. lia.
  - cbn [h_key]. rewrite kraft_app, kraft_cons, kraft_nil. lia.
  - apply Forall_app. split; [exact F8|]. repeat constructor. exact Hl.
Qed.

(** Second phase. *)
Definition msub (ls : list Z) : Z := Z.of_nat (length (filter (fun l => 9 <=? l) ls)).

Definition subtab (done rest : list Z) (st : hst) : Prop :=
  let t := h_tbits st in let low := h_low st in
  exists u, 0 <= u <= t /\ 1 <= t <= 8 /\ h_tsize st = 2 ^ t /\ 0 <= low <= 2 ^ t /\ 1 <= h_key st
    /\ (h_key st - 1) * 256 + low * 2 ^ (8 - t) = kraft done
    /\ 256 <= h_table st /\ h_table st + 2 ^ t <= 1024
    /\ aget (h_lut st) (h_key st - 1) = JOk (t + 8, h_table st - (h_key st - 1))
    /\ (t = 8 \/ 256 - low * 2 ^ (8 - t) <= kle (8 + t) rest)
    /\ (Forall (fun l => 8 + t <= l) rest \/ kle (8 + t - 1) rest < 256 - low * 2 ^ (8 - t))
    /\ Forall (fun l => 8 + u <= l) rest
    /\ (h_table st - 256) * 2 ^ t + low * 2 ^ u <= (msub done + 2 ^ u - 1) * 2 ^ t.

Definition sinv lut0 syms done rest st : Prop :=
  common lut0 syms done rest (h_key st) (h_table st + h_low st) st
  /\ Forall (fun l => 9 <= l) rest
  /\ ((h_tsize st = 0 /\ h_low st = 0 /\ h_key st * 256 = kraft done /\ h_table st = 256 /\ msub done = 0)
      \/ subtab done rest st).

Lemma msub_snoc done l : 9 <= l -> msub (done ++ [l]) = msub done + 1.
Proof. intros H. unfold msub. rewrite filter_app, app_length. cbn [filter]. destruct (Z.leb_spec 9 l); [cbn [length]; lia|lia]. Qed.

Lemma msub_le done : msub done <= Z.of_nat (length done).
Proof. unfold msub. induction done as [|x d IH]; [cbn; lia|]. cbn [filter length]. destruct (9 <=? x); cbn [length]; lia. Qed.

(** Opening a new sub-table when the previous one is full. *)
Lemma new_table_ok lut0 syms done l rest st : sinv lut0 syms done (l :: rest) st ->
  exists st', new_table l st = JOk st' /\ sinv lut0 syms done (l :: rest) st' /\ h_low st' < h_tsize st'.
Proof.
  intros [CM [F9 CS]]. unfold new_table.
  pose proof CM as (C & EI & LL & L0 & LS & L257 & F & A & K & Hk & Hfr & UN & LD).
  assert (Hl1 : 1 <= l <= 16) by (rewrite Forall_forall in F; apply F, in_or_app; right; left; reflexivity).
  pose proof (Forall_inv F9) as Hl9. cbv beta in Hl9.
  pose proof (ascending_app _ _ A) as A2.
  destruct (Z.leb_spec (h_tsize st) (h_low st)) as [Full|NF].
  2: { exists st. split; [reflexivity|]. split; [split; [exact CM|split; [exact F9|exact CS]]|exact NF]. }
  destruct (next_table_ok (h_tmp st) l rest C A2 ltac:(lia)) as (t & Et & Ht & Fill & Min).
  cbv zeta. rewrite Et. set (table := h_table st + h_tsize st).
  rewrite kraft_app, kraft_cons in K. pose proof (kraft_nonneg rest) as KR. pose proof (wgt_pos l ltac:(lia)) as WP.
  (* positions *)
  assert (FACT : h_key st * 256 = kraft done /\ 256 <= table
     /\ exists u, 0 <= u <= t /\ Forall (fun x => 8 + u <= x) (l :: rest) /\ table - 256 <= msub done + 2 ^ u - 1
     /\ table = h_table st + h_low st).
  { destruct CS as [(E0 & E1 & E2 & E3 & E4)|(u & Hu & Ht1 & Ets & Hlow & Hk1 & EK & HT & HT2 & GK & FL & MN & FU & SZ)].
    - split; [exact E2|]. split; [unfold table; lia|]. exists 0. split; [lia|]. split; [|split; [unfold table; rewrite E0, E3, E4; cbn; lia|unfold table; lia]].
      eapply Forall_impl; [|exact F9]. cbv beta. intros; lia.
    - assert (Elow : h_low st = 2 ^ h_tbits st) by lia.
      assert (P1 : 2 ^ h_tbits st * 2 ^ (8 - h_tbits st) = 256) by (rewrite <- Z.pow_add_r by lia; replace (h_tbits st + (8 - h_tbits st)) with 8 by lia; reflexivity).
      rewrite Elow in *. split; [lia|]. split; [unfold table; rewrite Ets; lia|].
      assert (MN' : Forall (fun x => 8 + h_tbits st <= x) (l :: rest)).
      { destruct MN as [MN|MN]; [exact MN|]. pose proof (kle_nonneg (8 + h_tbits st - 1) (l :: rest)). lia. }
      exists (h_tbits st).
      assert (Tt : h_tbits st <= t) by (pose proof (Forall_inv MN') as X; cbv beta in X; lia).
      split; [lia|]. split; [exact MN'|]. split; [|unfold table; lia].
      unfold table. rewrite Ets. pose proof (pow2_pos (h_tbits st) ltac:(lia)) as PT. nia. }
  destruct FACT as (EK & HT & u & Hu & FU & SZ & Tfr).
  assert (Kb : h_key st < 256) by lia.
  assert (Ps : 2 ^ u <= 256 /\ 2 ^ t <= 256 /\ 1 <= 2 ^ u).
  { change 256 with (2 ^ 8). split; [apply Z.pow_le_mono_r; lia|]. split; [apply Z.pow_le_mono_r; lia|]. pose proof (pow2_pos u ltac:(lia)). lia. }
  pose proof (msub_le done) as ML. cbn [length] in L257, LS.
  assert (T1024 : table + 2 ^ t <= 1024) by lia.
  assert (Kl : Z.of_nat (length (h_lut st)) = 1024) by (rewrite LL; reflexivity).
  rewrite aset_ok by lia. cbn [jbind]. eexists; split; [reflexivity|].
  rewrite (Z.mod_small (table - h_key st)) by lia.
  split; [|cbn [h_low h_tsize]; apply pow2_pos; lia].
  split; [|split; [exact F9|]].
  - unfold common. cbn [h_tmp h_idx h_lut h_key h_table h_low]. rewrite upd_length.
    split; [exact C|]. split; [exact EI|]. split; [exact LL|]. split; [exact L0|]. cbn [length].
    split; [lia|]. split; [lia|]. split; [exact F|]. split; [exact A|]. split; [rewrite kraft_app, kraft_cons; lia|].
    split; [lia|]. split; [lia|]. split.
    + intros k Hkk. rewrite aget_upd_other by lia. apply UN. lia.
    + intros j w Hj Hw. pose proof (kpos_nonneg done j). pose proof (kpos_le done (S j) (length done) ltac:(lia)) as KL. rewrite kpos_all in KL.
      apply (leads_mono (h_lut st) _ (h_table st + h_low st) (table + 0) (h_key st)); [apply LD; [exact Hj|exact Hw]|lia|lia| |lia|].
      * apply Z.div_lt_upper_bound; lia.
      * intros k Hkk. apply aget_upd_other; lia.
  - right. exists u. cbn [h_tbits h_low h_tsize h_key h_table h_lut].
    split; [lia|]. split; [lia|]. split; [reflexivity|]. split; [pose proof (pow2_pos t ltac:(lia)); lia|]. split; [lia|].
    split; [lia|]. split; [lia|]. split; [lia|]. split; [|split; [|split; [|split; [exact FU|]]]].
    + replace (h_key st + 1 - 1) with (h_key st) by lia. apply aget_upd_same. lia.
    + destruct Fill as [Fi|Fi]; [left; exact Fi|right; lia].
    + right. lia.
    + pose proof (pow2_pos t ltac:(lia)). nia.
Qed.

Lemma sub_step_ok lut0 syms done l rest st : sinv lut0 syms done (l :: rest) st ->
  exists st', sub_step syms l st = JOk st' /\ sinv lut0 syms (done ++ [l]) rest st'.
Proof.
  intros SI. destruct (new_table_ok _ _ _ _ _ _ SI) as (st1 & N1 & [CM [F9 CS]] & NF). clear SI.
  unfold sub_step. rewrite N1. cbn [jbind]. clear N1 st. rename st1 into st.
  pose proof CM as (C & EI & LL & L0 & LS & L257 & F & A & K & Hk & Hfr & UN & LD).
  assert (Hl1 : 1 <= l <= 16) by (rewrite Forall_forall in F; apply F, in_or_app; right; left; reflexivity).
  pose proof (Forall_inv F9) as Hl9. cbv beta in Hl9. pose proof (Forall_inv_tail F9) as F9'.
  pose proof (ascending_app _ _ A) as A2. cbn [ascending] in A2. destruct A2 as [AF A2].
  destruct CS as [(E0 & E1 & _)|(u & Hu & Ht1 & Ets & Hlow & Hk1 & EK & HT & HT2 & GK & FL & MN & FU & SZ)]; [lia|].
  set (t := h_tbits st) in *. set (low := h_low st) in *.
  cbn [length] in L257, LS.
  assert (ES : aget syms (h_idx st) = JOk (nth (length done) syms 0)).
  { rewrite EI. apply aget_Some. split; [lia|]. rewrite Nat2Z.id. apply nth_err_nth. lia. }
  rewrite ES. cbn [jbind]. set (s := nth (length done) syms 0).
  assert (P1 : 2 ^ t * 2 ^ (8 - t) = 256) by (rewrite <- Z.pow_add_r by lia; replace (t + (8 - t)) with 8 by lia; reflexivity).
  pose proof (pow2_pos (8 - t) ltac:(lia)) as P8. pose proof (pow2_pos t ltac:(lia)) as PT.
  (* the symbol fits the current table *)
  assert (Lt : l - 8 <= t).
  { destruct FL as [->|FL]; [lia|]. destruct (Z_le_gt_dec (l - 8) t) as [|G]; [assumption|exfalso].
    assert (kle (8 + t) (l :: rest) = 0); [|nia]. apply kle_none. constructor; [lia|]. eapply Forall_impl; [|exact AF]. cbv beta. intros; lia. }
  destruct (Z.ltb_spec t (l - 8)); [lia|]. cbv zeta.
  set (reps := 2 ^ (t - (l - 8))).
  assert (WR : wgt l = reps * 2 ^ (8 - t)) by (unfold wgt, reps; rewrite <- Z.pow_add_r by lia; f_equal; lia).
  assert (PR : 0 < reps) by (apply pow2_pos; lia).
  rewrite kraft_app, kraft_cons in K. pose proof (kraft_nonneg rest) as KR.
  (* alignment: the symbol does not cross the end of the table *)
  assert (AL : low + reps <= 2 ^ t).
  { destruct (kraft_div done l) as [q Eq]; [|lia|].
    - assert (X : forall d r, ascending (d ++ l :: r) -> Forall (fun x => x <= l) d).
      { clear. induction d as [|x d IH]; intros r AA; [constructor|]. cbn [app ascending] in AA. destruct AA as [FF AA].
        constructor; [|eapply IH; exact AA]. rewrite Forall_forall in FF. apply FF, in_or_app. right; left; reflexivity. }
      eapply X; exact A.
    - assert (D : 2 ^ t = 2 ^ (l - 8) * reps) by (unfold reps; rewrite <- Z.pow_add_r by lia; f_equal; lia).
      assert (E256 : 256 = 2 ^ (l - 8) * wgt l) by (rewrite WR; nia).
      assert (Elow : exists q2, low = q2 * reps).
      { exists (q - (h_key st - 1) * 2 ^ (l - 8)). rewrite E256, Eq, WR in EK. nia. }
      destruct Elow as [q2 El]. rewrite Ets in NF.
      assert (Q : q2 < 2 ^ (l - 8)) by (apply (Z.mul_lt_mono_pos_r reps); lia).
      assert ((q2 + 1) * reps <= 2 ^ (l - 8) * reps) by (apply Z.mul_le_mono_nonneg_r; lia). lia. }
  assert (Kl : Z.of_nat (length (h_lut st)) = 1024) by (rewrite LL; reflexivity).
  destruct (put_reps_ok (Z.to_nat reps) (h_table st + low) (l - 8, s) (h_lut st)) as (lut' & EP & LP & G1 & G2); [lia|lia|].
  rewrite EP. cbn [jbind]. eexists; split; [reflexivity|].
  rewrite Z2Nat.id in G1, G2 by lia.
  split; [|split; [exact F9'|]].
  - unfold common. cbn [h_tmp h_idx h_lut h_key h_table h_low].
    split; [apply dec_count_ok; assumption|]. split; [rewrite app_length; cbn [length]; lia|].
    split; [congruence|]. split; [exact L0|]. rewrite app_length. cbn [length]. split; [lia|]. split; [lia|].
    rewrite <- app_assoc. cbn [app]. split; [exact F|]. split; [exact A|]. split; [rewrite kraft_app, kraft_cons; lia|].
    split; [lia|]. split; [lia|]. split.
    + intros k Hkk. rewrite G2 by lia. apply UN. lia.
    + intros j w Hj Hw. rewrite nth_snoc. destruct (Nat.eqb_spec j (length done)) as [->|N].
      * rewrite kpos_app, kpos_all in Hw by lia. rewrite kpos_S, kpos_app, kpos_all in Hw by (rewrite ?app_length; cbn [length]; lia).
        rewrite app_nth2, Nat.sub_diag in Hw by lia. cbn [nth] in Hw.
        right. split; [lia|]. exists t, (h_table st - (h_key st - 1)).
        assert (W256 : w / 256 = h_key st - 1).
        { symmetry. apply (Z.div_unique w 256 _ (w - 256 * (h_key st - 1))); [|lia]. left. split; [lia|]. nia. }
        assert (Wm : w mod 256 = w - 256 * (h_key st - 1)) by (rewrite Z.mod_eq by lia; rewrite W256; reflexivity).
        assert (Wx : low <= w mod 256 / 2 ^ (8 - t) < low + reps).
        { split; [apply Z.div_le_lower_bound; [lia|]; rewrite Wm; lia|apply Z.div_lt_upper_bound; [lia|]; rewrite Wm; nia]. }
        rewrite W256. split; [rewrite G2 by lia; exact GK|]. split; [exact Ht1|]. split; [lia|]. apply G1. lia.
      * rewrite !kpos_app in Hw by lia.
        pose proof (kpos_nonneg done j). pose proof (kpos_le done (S j) (length done) ltac:(lia)) as KL. rewrite kpos_all in KL.
        apply (leads_mono (h_lut st) lut' (h_table st + low) _ (h_key st)); [apply LD; [lia|exact Hw]|lia|lia| |lia|].
        -- apply Z.div_lt_upper_bound; [lia|]. nia.
        -- intros k Hkk. apply G2. lia.
  - right. exists u. cbn [h_tbits h_low h_tsize h_key h_table h_lut]. fold t.
    split; [lia|]. split; [lia|]. split; [exact Ets|]. split; [lia|]. split; [lia|].
    rewrite kraft_app, kraft_cons, kraft_nil. split; [lia|]. split; [lia|]. split; [lia|].
    split; [rewrite G2 by lia; exact GK|].
    rewrite kle_cons in FL. destruct (Z.leb_spec l (8 + t)); [|lia].
    split; [destruct FL as [FL|FL]; [left; exact FL|right; lia]|].
    split.
    { destruct MN as [MN|MN]; [left; apply Forall_inv_tail in MN; exact MN|].
      rewrite kle_cons in MN. destruct (Z.leb_spec l (8 + t - 1)) as [H1|H1].
      - right. lia.
      - left. eapply Forall_impl; [|exact AF]. cbv beta. intros; lia. }
    split; [apply Forall_inv_tail in FU; exact FU|].
    rewrite msub_snoc by lia.
    assert (RU : reps * 2 ^ u <= 2 ^ t).
    { pose proof (Forall_inv FU) as U8. cbv beta in U8. unfold reps. rewrite <- Z.pow_add_r by lia. apply Z.pow_le_mono_r; lia. }
    nia.
Qed.

(** * The loops *)

Section Loop.
  Context (I : list Z -> list Z -> hst -> Prop) (step : Z -> hst -> jres hst) (good : Z -> Prop).
  Hypothesis I_counts : forall d r st, I d r st -> counts_of (h_tmp st) r.
  Hypothesis I_step : forall d l r st, I d (l :: r) st -> good l -> exists st', step l st = JOk st' /\ I (d ++ [l]) r st'.

  Lemma times_ok l : good l -> forall n d r st, I d (repeat l n ++ r) st ->
    exists st', times n (step l) st = JOk st' /\ I (d ++ repeat l n) r st'.
  Proof.
    intros G. induction n as [|n IH]; intros d r st H.
    - exists st. cbn [repeat]. rewrite app_nil_r. auto.
    - cbn [repeat app] in H. destruct (I_step d l _ st H G) as [st1 [E1 I1]].
      destruct (IH _ _ _ I1) as [st2 [E2 I2]]. exists st2. cbn [times]. rewrite E1. cbn [jbind].
      split; [exact E2|]. cbn [repeat]. rewrite <- app_assoc in I2. exact I2.
  Qed.

  Lemma len_loop_ok (f : Z -> nat) : forall lens d r st, Forall (fun l => 1 <= l <= 16 /\ good l) lens ->
    I d (flat_map (fun l => repeat l (f l)) lens ++ r) st -> ascending lens -> NoDup lens -> Forall (fun x => Forall (fun l => l < x) lens) r ->
    exists st', len_loop step lens st = JOk st' /\ I (d ++ flat_map (fun l => repeat l (f l)) lens) r st'.
  Proof.
    induction lens as [|l lens IH]; intros d r st H Hi A ND R.
    - exists st. cbn [flat_map]. rewrite app_nil_r. auto.
    - inversion H as [|? ? [Hl G] H']; subst. cbn [flat_map] in Hi. rewrite <- app_assoc in Hi. cbn [len_loop].
      assert (EC : Z.to_nat (nth (Z.to_nat l) (h_tmp st) 0) = f l).
      { destruct (I_counts _ _ _ Hi) as [_ CC]. rewrite CC by lia.
        assert (C1 : forall n rest, cnt l (repeat l n ++ rest) = Z.of_nat n + cnt l rest).
        { induction n as [|n IHn]; intros rest; [reflexivity|]. cbn [repeat app]. rewrite cnt_cons, Z.eqb_refl, IHn. lia. }
        assert (C0 : forall rest, ~ In l rest -> cnt l rest = 0).
        { induction rest as [|x rest IHr]; intros NI; [reflexivity|]. rewrite cnt_cons. destruct (Z.eqb_spec x l) as [->|]; [exfalso; apply NI; left; reflexivity|].
          rewrite IHr; [lia|]. intros X; apply NI; right; exact X. }
        rewrite C1, C0; [lia|]. intros X. apply in_app_or in X as [X|X].
        - apply in_flat_map in X as [y [Y1 Y2]]. apply repeat_spec in Y2. subst y. inversion ND; contradiction.
        - rewrite Forall_forall in R. specialize (R l X). apply Forall_inv in R. lia. }
      rewrite EC. destruct (times_ok l G (f l) d _ st Hi) as [st1 [E1 I1]]. rewrite E1. cbn [jbind].
      destruct (IH _ _ _ H' I1) as [st2 [E2 I2]].
      + cbn [ascending] in A. apply A.
      + inversion ND; assumption.
      + eapply Forall_impl; [|exact R]. cbv beta. intros x Hx. apply Forall_inv_tail in Hx. exact Hx.
      + exists st2. split; [exact E2|]. cbn [flat_map]. rewrite app_assoc. exact I2.
  Qed.
End Loop.

(** * The finished table *)

Definition lens_of (counts : list Z) : list Z := code_lens counts.

Lemma code_lens_split counts : code_lens counts =
  flat_map (fun l => repeat l (Z.to_nat (nth (Z.to_nat l) counts 0))) lens_1_8
  ++ flat_map (fun l => repeat l (Z.to_nat (nth (Z.to_nat l) counts 0))) lens_9_16.
Proof. unfold code_lens, lens_1_8, lens_9_16. cbn [seq flat_map]. cbn [Z.of_nat Z.to_nat Pos.of_succ_nat Pos.succ]. rewrite !app_nil_r, <- !app_assoc. reflexivity. Qed.

(** What ReadSymbol finds for window [w]: number of bits and value. *)
Definition lut_find (lut : list (Z * Z)) (w : Z) : jres (Z * Z) :=
  let* e := aget lut (w / 256) in
  if 16 <? fst e then JUB
  else if 0 <? fst e - 8 then
    let* e2 := aget lut (w / 256 + snd e + (w mod 256) / 2 ^ (16 - fst e)) in
    JOk (8 + fst e2, snd e2)
  else JOk e.

(** Counts, symbols and previous table as ProcessDHT hands them over. *)
Record dht_ok (counts syms : list Z) (lut0 : list (Z * Z)) : Prop := {
  dk_len : length counts = 17%nat;
  dk_nonneg : Forall (fun c => 0 <= c) counts;
  dk_n : (2 <= length (code_lens counts) <= 257)%nat;
  dk_syms : (length (code_lens counts) <= length syms)%nat;
  dk_kraft : kraft (code_lens counts) <= 65536;
  dk_lut : length lut0 = lut_size;
  dk_clean : kraft (code_lens counts) < 65536 -> lut0 = lut_init
}.

Lemma cnt_app l a b : cnt l (a ++ b) = cnt l a + cnt l b.
Proof. unfold cnt. rewrite filter_app, app_length. lia. Qed.
Lemma cnt_repeat l x n : cnt l (repeat x n) = if x =? l then Z.of_nat n else 0.
Proof. induction n as [|n IH]; [cbn; destruct (x =? l); reflexivity|]. cbn [repeat]. rewrite cnt_cons, IH. destruct (x =? l); lia. Qed.

Lemma cnt_code_lens counts l : Forall (fun c => 0 <= c) counts -> 1 <= l <= 16 -> cnt l (code_lens counts) = nth (Z.to_nat l) counts 0.
Proof.
  intros NN Hl. unfold code_lens.
  assert (X : forall a n, (a <= Z.to_nat l < a + n)%nat ->
     cnt l (flat_map (fun l0 => repeat (Z.of_nat l0) (Z.to_nat (nth l0 counts 0))) (seq a n)) = nth (Z.to_nat l) counts 0).
  { assert (P0 : forall n a, ~ (a <= Z.to_nat l < a + n)%nat -> cnt l (flat_map (fun l0 => repeat (Z.of_nat l0) (Z.to_nat (nth l0 counts 0))) (seq a n)) = 0).
    { induction n as [|n IH]; intros a H; [reflexivity|]. cbn [seq flat_map]. rewrite cnt_app, cnt_repeat, IH by lia.
      destruct (Z.eqb_spec (Z.of_nat a) l); lia. }
    intros a n; revert a; induction n as [|n IH]; intros a H; [lia|]. cbn [seq flat_map]. rewrite cnt_app, cnt_repeat.
    destruct (Z.eqb_spec (Z.of_nat a) l) as [E|N].
    - rewrite P0 by lia. replace (Z.to_nat l) with a by lia.
      assert (0 <= nth a counts 0); [|lia].
      destruct (Nat.lt_ge_cases a (length counts)) as [H1|H1]; [rewrite Forall_forall in NN; apply NN, nth_In, H1|rewrite nth_overflow by lia; lia].
    - rewrite IH by lia. lia. }
  apply X. lia.
Qed.

Lemma code_lens_range counts : Forall (fun l => 1 <= l <= 16) (code_lens counts).
Proof.
  apply Forall_forall. intros l H. unfold code_lens in H. apply in_flat_map in H as [x [Hx H]]. apply repeat_spec in H. apply in_seq in Hx. lia.
Qed.

Lemma ascending_join a b : ascending a -> ascending b -> (forall x y, In x a -> In y b -> x <= y) -> ascending (a ++ b).
Proof.
  intros Ha Hb H. induction a as [|x a IH]; [exact Hb|]. cbn [app ascending] in *. destruct Ha as [Fa Ha]. split.
  - apply Forall_app. split; [exact Fa|]. apply Forall_forall. intros y Hy. apply H; [left; reflexivity|exact Hy].
  - apply IH; [exact Ha|]. intros; apply H; [right|]; assumption.
Qed.

Lemma ascending_repeat x n : ascending (repeat x n).
Proof. induction n as [|n IH]; [exact I|]. cbn [repeat ascending]. split; [|exact IH]. apply Forall_forall. intros y Hy. apply repeat_spec in Hy. lia. Qed.

Lemma code_lens_ascending counts : ascending (code_lens counts).
Proof.
  unfold code_lens. assert (X : forall n a, ascending (flat_map (fun l => repeat (Z.of_nat l) (Z.to_nat (nth l counts 0))) (seq a n))); [|apply X].
  induction n as [|n IH]; intros a; [exact I|].
  cbn [seq flat_map]. apply ascending_join; [apply ascending_repeat|apply IH|].
  intros x y Hx Hy. apply repeat_spec in Hx. apply in_flat_map in Hy as [z [Hz Hy]]. apply repeat_spec in Hy. apply in_seq in Hz. lia.
Qed.

Lemma total_lens counts : Forall (fun c => 0 <= c) counts -> length counts = 17%nat -> sumZ (skipn 1 counts) = Z.of_nat (length (code_lens counts)).
Proof.
  intros NN L. destruct counts as [|c0 r]; [discriminate|]. cbn [length] in L. cbn [skipn].
  unfold code_lens. rewrite <- (seq_shift 16 0).
  assert (X : forall (n s : nat) r, length r = n -> Forall (fun c => 0 <= c) r ->
     forall q, (forall k, (k < n)%nat -> nth (s + k) q 0 = nth k r 0) ->
     sumZ r = Z.of_nat (length (flat_map (fun l => repeat (Z.of_nat l) (Z.to_nat (nth l q 0))) (seq s n)))).
  { induction n as [|n IH]; intros s r0 Lr Fr q Hq.
    - destruct r0; [reflexivity|discriminate].
    - destruct r0 as [|c r0]; [discriminate|]. cbn [length] in Lr. inversion Fr; subst.
      cbn [seq flat_map]. rewrite app_length, repeat_length. rewrite Nat2Z.inj_add.
      rewrite <- (IH (S s) r0) by (try assumption; try lia; intros k Hk; specialize (Hq (S k) ltac:(lia)); cbn [nth] in Hq; rewrite <- Hq; f_equal; lia).
      specialize (Hq 0%nat ltac:(lia)). rewrite Nat.add_0_r in Hq. cbn [nth] in Hq. rewrite Hq.
      change (sumZ (c :: r0)) with (c + sumZ r0). lia. }
  rewrite seq_shift. apply X; [lia|inversion NN; assumption|]. intros k Hk. reflexivity.
Qed.

Lemma leads_find lut fr w l s : leads lut fr w l s -> lut_find lut w = JOk (l, s).
Proof.
  unfold lut_find. intros [[H E]|[H (t & v & E & Ht & Hx & E2)]]; rewrite E; cbn [jbind fst snd].
  - destruct (Z.ltb_spec 16 l); [lia|]. destruct (Z.ltb_spec 0 (l - 8)); [lia|]. reflexivity.
  - destruct (Z.ltb_spec 16 (t + 8)); [lia|]. destruct (Z.ltb_spec 0 (t + 8 - 8)); [|lia]. replace (16 - (t + 8)) with (8 - t) by lia. rewrite E2. cbn [jbind fst snd].
    replace (8 + (l - 8)) with l by lia. reflexivity.
Qed.

Theorem build_lut_ok counts syms lut0 : dht_ok counts syms lut0 ->
  exists lut, build_lut counts syms lut0 = JOk lut /\ length lut = lut_size
    /\ (forall j w, (j < length (code_lens counts))%nat ->
          kpos (code_lens counts) j <= w < kpos (code_lens counts) (S j) ->
          lut_find lut w = JOk (nth j (code_lens counts) 0, nth j syms 0))
    /\ (forall w, kraft (code_lens counts) <= w < 65536 -> exists n, 0 <= n <= 16 /\ lut_find lut w = JOk (n, 65535))
    /\ (nth 0 syms 0 <> 65535 -> snd (nth 0 lut lut_none) <> 65535).
Proof.
  intros [DL DN Dn DS DK DLut DC]. unfold build_lut. set (ls := code_lens counts) in *.
  set (tmp := 0 :: skipn 1 counts).
  assert (ET : sumZ tmp = Z.of_nat (length ls)) by (unfold tmp; change (sumZ (0 :: ?x)) with (0 + sumZ x); rewrite total_lens by assumption; unfold ls; lia).
  rewrite ET. destruct (Z.eqb_spec (Z.of_nat (length ls)) 1); [lia|].
  set (f := fun l : Z => Z.to_nat (nth (Z.to_nat l) counts 0)).
  set (l1 := flat_map (fun l => repeat l (f l)) lens_1_8). set (l2 := flat_map (fun l => repeat l (f l)) lens_9_16).
  assert (SPL : ls = l1 ++ l2) by apply code_lens_split.
  assert (CO : counts_of tmp ls).
  { unfold tmp. split; [cbn [length]; rewrite skipn_length; lia|]. intros l Hl. unfold ls. rewrite cnt_code_lens by assumption.
    destruct counts as [|c0 r]; [discriminate|]. cbn [skipn].
    replace (Z.to_nat l) with (S (Z.to_nat (l - 1))) by lia. reflexivity. }
  assert (F1 : Forall (fun l => l <= 8) l1).
  { apply Forall_forall. intros x Hx. unfold l1 in Hx. apply in_flat_map in Hx as [y [Hy Hx]]. apply repeat_spec in Hx. subst. unfold lens_1_8 in Hy. cbn [In] in Hy. lia. }
  assert (F2 : Forall (fun l => 9 <= l) l2).
  { apply Forall_forall. intros x Hx. unfold l2 in Hx. apply in_flat_map in Hx as [y [Hy Hx]]. apply repeat_spec in Hx. subst. unfold lens_9_16 in Hy. cbn [In] in Hy. lia. }
  (* phase 1 *)
  destruct (len_loop_ok (rinv lut0 syms) (root_step syms) (fun l => l <= 8)
     ltac:(intros d r st [(C & _) _]; exact C) ltac:(intros; apply root_step_ok; assumption)
     f lens_1_8 [] l2 (mkHS tmp 0 0 lut0 0 8 256 0)) as [st1 [E1 I1]].
  { repeat constructor; lia. }
  { fold l1. rewrite <- SPL. split; [|split; [reflexivity|constructor]].
    unfold common. cbn [h_tmp h_idx h_lut h_key app length]. split; [exact CO|]. split; [reflexivity|].
    split; [exact DLut|]. split; [exact DLut|]. split; [unfold ls in *; lia|]. split; [unfold ls in *; lia|].
    split; [apply code_lens_range|]. split; [apply code_lens_ascending|]. split; [exact DK|]. split; [lia|]. split; [lia|].
    split; [reflexivity|]. intros j w Hj. lia. }
  { repeat constructor; lia. }
  { repeat constructor; cbn [In]; lia. }
  { eapply Forall_impl; [|exact F2]. cbv beta. intros x Hx. repeat constructor; lia. }
  rewrite E1. cbn [jbind]. fold l1 in I1. cbn [app] in I1.
  destruct I1 as [CM1 [EK1 F8]].
  (* phase 2 *)
  set (st1' := mkHS (h_tmp st1) (h_key st1) (h_idx st1) (h_lut st1) 256 (h_tbits st1) 0 0).
  destruct (len_loop_ok (sinv lut0 syms) (sub_step syms) (fun l => True)
     ltac:(intros d r st [(C & _) _]; exact C) ltac:(intros; apply sub_step_ok; assumption)
     f lens_9_16 l1 [] st1') as [st2 [E2 I2]].
  { repeat constructor; lia. }
  { fold l2. rewrite app_nil_r. split; [exact CM1|]. split; [exact F2|]. left. cbn [st1' h_tsize h_low h_key h_table].
    split; [reflexivity|]. split; [reflexivity|]. split; [exact EK1|]. split; [reflexivity|].
    unfold msub. replace (filter (fun l => 9 <=? l) l1) with (@nil Z); [reflexivity|].
    symmetry. clear - F1. induction F1 as [|x l Hx F IH]; [reflexivity|]. cbn [filter]. destruct (Z.leb_spec 9 x); [lia|exact IH]. }
  { repeat constructor; lia. }
  { repeat constructor; cbn [In]; lia. }
  { constructor. }
  rewrite E2. cbn [jbind]. fold l2 in I2. rewrite <- SPL in I2.
  exists (h_lut st2). split; [reflexivity|].
  destruct I2 as [(_ & _ & LL & _ & _ & _ & FA & _ & _ & Hk & Hfr & UN & LD) [_ CS]].
  rewrite app_nil_r in FA.
  split; [exact LL|].
  assert (FIND : forall j w, (j < length ls)%nat -> kpos ls j <= w < kpos ls (S j) -> lut_find (h_lut st2) w = JOk (nth j ls 0, nth j syms 0)).
  { intros j w Hj Hw. eapply leads_find. apply LD; [exact Hj|exact Hw]. }
  split; [exact FIND|]. split.
  - intros w Hw.
    assert (KL : kraft ls < 65536) by lia. specialize (DC KL).
    assert (INIT : forall k, 0 <= k < 1024 -> aget lut0 k = JOk lut_none).
    { intros k Hkk. rewrite DC. apply aget_Some. split; [lia|]. unfold lut_init. apply nth_error_repeat. unfold lut_size. lia. }
    assert (W0 : 0 <= w / 256 < 256).
    { split; [apply Z.div_pos; pose proof (kraft_nonneg ls); lia|apply Z.div_lt_upper_bound; lia]. }
    unfold lut_find.
    destruct (Z_le_gt_dec (h_key st2) (w / 256)) as [H|H].
    + rewrite UN, INIT by lia. cbn [jbind fst snd lut_none]. exists 0. split; [lia|reflexivity].
    + destruct CS as [(E0 & E3 & E4 & E5 & _)|(u & Hu & Ht1 & Ets & Hlow & Hk1 & EK & HT & HT2 & GK & _)].
      * exfalso. assert (w / 256 * 256 <= w) by (rewrite Z.mul_comm; apply Z.mul_div_le; lia).
        assert (w < w / 256 * 256 + 256) by (pose proof (Z.div_mod w 256 ltac:(lia)); pose proof (Z.mod_pos_bound w 256 ltac:(lia)); lia). lia.
      * set (t := h_tbits st2) in *. set (low := h_low st2) in *.
        assert (P1 : 2 ^ t * 2 ^ (8 - t) = 256) by (rewrite <- Z.pow_add_r by lia; replace (t + (8 - t)) with 8 by lia; reflexivity).
        pose proof (pow2_pos (8 - t) ltac:(lia)) as P8.
        assert (EKw : w / 256 = h_key st2 - 1).
        { assert (h_key st2 - 1 <= w / 256); [|lia]. apply Z.div_le_lower_bound; [lia|]. nia. }
        rewrite EKw, GK. cbn [jbind fst snd]. destruct (Z.ltb_spec 16 (t + 8)); [lia|]. destruct (Z.ltb_spec 0 (t + 8 - 8)); [|lia].
        replace (16 - (t + 8)) with (8 - t) by lia.
        assert (Wm : w mod 256 = w - 256 * (h_key st2 - 1)) by (rewrite Z.mod_eq by lia; rewrite EKw; reflexivity).
        pose proof (Z.mod_pos_bound w 256 ltac:(lia)) as MB.
        assert (Lx : low <= w mod 256 / 2 ^ (8 - t)) by (apply Z.div_le_lower_bound; [lia|]; rewrite Wm; nia).
        assert (Ux : w mod 256 / 2 ^ (8 - t) < 2 ^ t) by (apply Z.div_lt_upper_bound; [lia|]; nia).
        replace (h_key st2 - 1 + (h_table st2 - (h_key st2 - 1)) + w mod 256 / 2 ^ (8 - t)) with (h_table st2 + w mod 256 / 2 ^ (8 - t)) by lia.
        rewrite UN, INIT by lia. cbn [jbind fst snd lut_none]. exists (8 + 0). split; [lia|reflexivity].
  - intros N0.
    assert (L0 : leads (h_lut st2) (h_table st2 + h_low st2) 0 (nth 0 ls 0) (nth 0 syms 0)).
    { apply LD; [unfold ls in *; lia|]. split; [cbn; lia|]. rewrite kpos_S by (unfold ls in *; lia). pose proof (kpos_nonneg ls 0).
      assert (In (nth 0 ls 0) ls) as IN by (apply nth_In; unfold ls in *; lia). rewrite Forall_forall in FA. specialize (FA _ IN).
      pose proof (wgt_pos (nth 0 ls 0) ltac:(lia)). lia. }
    assert (NE : forall e, aget (h_lut st2) 0 = JOk e -> nth 0 (h_lut st2) lut_none = e).
    { intros e G. apply aget_Some in G as [_ G]. apply nth_error_nth with (d := lut_none) in G. exact G. }
    change (0 / 256) with 0 in L0. unfold leads in L0. change (0 / 256) with 0 in L0.
    destruct L0 as [[H E]|[H (t & v & E & Ht & Hx & E3)]]; rewrite (NE _ E); cbn [snd]; [exact N0|].
    change (0 mod 256) with 0 in *. rewrite Z.div_0_l in * by (pose proof (pow2_pos (8 - t) ltac:(lia)); lia).
    apply aget_bound in E3. rewrite LL in E3. change (Z.of_nat lut_size) with 1024 in E3. lia.
Qed.

(** * ReadSymbol *)

Lemma mval_firstn_div V n : (n <= length V)%nat -> mval (firstn n V) = mval V / 2 ^ Z.of_nat (length V - n).
Proof.
  intros H. rewrite <- (firstn_skipn n V) at 2. rewrite mval_app. pose proof (mval_range (skipn n V)) as R. rewrite skipn_length in *.
  pose proof (pow2_pos_nat (length V - n)). rewrite Z.div_add_l by lia. rewrite Z.div_small by lia. lia.
Qed.

Lemma field_eq data p0 U s n : bri data p0 U s -> 0 <= n <= br_left s -> br_left s - n < 64 ->
  exists L E V, source data p0 L E (br_pos s) (br_next s) /\ byte_bits (L ++ E) = U ++ V /\ br_left s = Z.of_nat (length V)
    /\ br_field s n = JOk (mval (firstn (Z.to_nat n) V))
    /\ bri data p0 (U ++ firstn (Z.to_nat n) V) (mkBR (br_pos s) (br_val s) (br_left s - n) (br_next s)).
Proof.
  intros I Hn Hs. destruct (field_ok data p0 U s n I Hn Hs) as (V1 & V2 & E & LV & K).
  destruct (K (mkBR (br_pos s) (br_val s) (br_left s - n) (br_next s)) eq_refl eq_refl eq_refl eq_refl) as (I2 & EL & L & E0 & SRC & EB).
  cbn [br_left] in EL. exists L, E0, (V1 ++ V2). split; [exact SRC|]. split; [rewrite app_assoc; exact EB|].
  split; [rewrite app_length; lia|]. rewrite <- LV, firstn_app_exact. auto.
Qed.

(** The first 16 unread bits decide. *)
Theorem read_symbol_ok data p0 U s lut : bytes data -> bri data p0 U s -> length lut = lut_size ->
  exists L E V, (exists pos next, source data p0 L E pos next) /\ byte_bits (L ++ E) = U ++ V /\ (17 <= length V)%nat
    /\ 0 <= mval (firstn 16 V) < 65536
    /\ forall n v, lut_find lut (mval (firstn 16 V)) = JOk (n, v) -> 0 <= n <= 16 ->
       exists s', read_symbol data lut s = JOk (v, s') /\ bri data p0 (U ++ firstn (Z.to_nat n) V) s'.
Proof.
  intros Y I LL. unfold read_symbol. destruct (fill_ok data p0 U s Y I) as [s1 [F [I1 L1]]]. rewrite F. cbn [jbind]. clear F I s.
  pose proof I1 as (L & E & V & SRC & EB & EL & LV & RV & EV).
  exists L, E, V. split; [eauto|]. split; [exact EB|]. split; [lia|].
  assert (L16 : length (firstn 16 V) = 16%nat) by (rewrite firstn_length; lia).
  pose proof (mval_range (firstn 16 V)) as R16. rewrite L16 in R16. change (2 ^ Z.of_nat 16) with 65536 in R16. split; [exact R16|].
  set (w := mval (firstn 16 V)) in *. intros n v FD Hn.
  (* generic field facts *)
  assert (FE : forall k, 0 <= k -> k <= br_left s1 -> br_left s1 - k < 64 ->
     bri data p0 (U ++ firstn (Z.to_nat k) V) (mkBR (br_pos s1) (br_val s1) (br_left s1 - k) (br_next s1))).
  { intros k H1 H2 H3. destruct (field_ok data p0 U s1 k I1 ltac:(lia) H3) as (V1 & V2 & E1 & LV1 & K).
    assert (V1 = firstn (Z.to_nat k) V).
    { clear K. unfold br_field in E1. destruct (Z.ltb_spec (br_left s1 - k) 0); [lia|]. destruct (Z.leb_spec 64 (br_left s1 - k)); [lia|].
      cbn [orb] in E1. injection E1 as E1. apply mval_inj; [rewrite firstn_length; lia|]. rewrite <- E1.
      rewrite mval_firstn_div by lia. rewrite <- EV.
      rewrite Z.shiftr_div_pow2, Z.shiftl_mul_pow2, Z.mul_1_l, land_ones_mod by lia.
      replace (Z.of_nat (length V - Z.to_nat k)) with (br_left s1 - k) by lia.
      set (d := br_left s1 - k) in *. replace (br_left s1) with (d + k) by lia.
      pose proof (pow2_pos d ltac:(lia)). pose proof (pow2_pos k ltac:(lia)).
      rewrite Z.pow_add_r by lia. rewrite Z.rem_mul_r by lia.
      replace (br_val s1 mod 2 ^ d + 2 ^ d * ((br_val s1 / 2 ^ d) mod 2 ^ k)) with ((br_val s1 / 2 ^ d) mod 2 ^ k * 2 ^ d + br_val s1 mod 2 ^ d) by ring.
      rewrite Z.div_add_l by lia. rewrite (Z.div_small (_ mod 2 ^ d)) by (apply Z.mod_pos_bound; lia). lia. }
    subst V1. apply K; reflexivity. }
  assert (FV : forall sx k d, br_val sx = br_val s1 -> br_left sx = br_left s1 - d -> 0 <= d -> 0 < k -> d + k <= 16 ->
     br_field sx k = JOk (mval (firstn (Z.to_nat k) (skipn (Z.to_nat d) V)))).
  { intros sx k d H1 H2 H3 H4 H5. unfold br_field. rewrite H1, H2.
    destruct (Z.ltb_spec (br_left s1 - d - k) 0); [lia|]. destruct (Z.leb_spec 64 (br_left s1 - d - k)) as [H64|H64].
    { exfalso. assert (d + k = 0) by lia. lia. }
    cbn [orb]. f_equal.
    rewrite mval_firstn_div by (rewrite skipn_length; lia). rewrite skipn_length.
    rewrite Z.shiftr_div_pow2, Z.shiftl_mul_pow2, Z.mul_1_l, land_ones_mod by lia.
    replace (Z.of_nat (length V - Z.to_nat d - Z.to_nat k)) with (br_left s1 - d - k) by lia.
    assert (MS : mval (skipn (Z.to_nat d) V) = br_val s1 mod 2 ^ (br_left s1 - d)).
    { pose proof (mval_range (skipn (Z.to_nat d) V)) as RS. rewrite skipn_length in RS.
      replace (Z.of_nat (length V - Z.to_nat d)) with (br_left s1 - d) in RS by lia.
      assert (MV : mval V = mval (firstn (Z.to_nat d) V) * 2 ^ (br_left s1 - d) + mval (skipn (Z.to_nat d) V)).
      { rewrite <- (firstn_skipn (Z.to_nat d) V) at 1. rewrite mval_app, skipn_length. do 3 f_equal. lia. }
      set (e := br_left s1 - d) in *. pose proof (pow2_pos e ltac:(lia)). pose proof (pow2_pos d ltac:(lia)).
      replace (br_val s1 mod 2 ^ e) with ((br_val s1 mod 2 ^ br_left s1) mod 2 ^ e).
      - rewrite EV, MV, Z.add_comm, Z.mod_add by lia. symmetry. apply Z.mod_small. exact RS.
      - replace (br_left s1) with (e + d) by lia. rewrite Z.pow_add_r by lia. rewrite Z.rem_mul_r by lia.
        rewrite (Z.mul_comm (2 ^ e) (_ mod _)), Z.mod_add by lia. apply Z.mod_mod. lia. }
    rewrite MS. set (g := br_left s1 - d - k) in *. replace (br_left s1 - d) with (g + k) by lia.
    pose proof (pow2_pos g ltac:(lia)). pose proof (pow2_pos k ltac:(lia)).
    rewrite Z.pow_add_r by lia. rewrite Z.rem_mul_r by lia.
    replace (br_val s1 mod 2 ^ g + 2 ^ g * ((br_val s1 / 2 ^ g) mod 2 ^ k)) with ((br_val s1 / 2 ^ g) mod 2 ^ k * 2 ^ g + br_val s1 mod 2 ^ g) by ring.
    rewrite Z.div_add_l by lia. rewrite (Z.div_small (_ mod 2 ^ g)) by (apply Z.mod_pos_bound; lia). lia. }
  assert (W8 : mval (firstn 8 V) = w / 256).
  { unfold w. replace (firstn 8 V) with (firstn 8 (firstn 16 V)) by (rewrite firstn_firstn; reflexivity).
    rewrite mval_firstn_div by lia. rewrite L16. reflexivity. }
  rewrite (FV s1 8 0) by lia. change (Z.to_nat 0) with 0%nat. cbn [skipn]. change (Z.to_nat 8) with 8%nat. rewrite W8. cbn [jbind].
  unfold lut_find in FD. destruct (aget lut (w / 256)) as [e| |]; cbn [jbind] in FD |- *; try discriminate.
  destruct (Z.ltb_spec 16 (fst e)); [discriminate|]. destruct (Z.ltb_spec 0 (fst e - 8)) as [H8|H8].
  - set (sx := mkBR (br_pos s1) (br_val s1) (br_left s1 - 8) (br_next s1)).
    rewrite (FV sx (fst e - 8) 8) by (cbn [sx br_val br_left]; lia).
    assert (W2 : mval (firstn (Z.to_nat (fst e - 8)) (skipn (Z.to_nat 8) V)) = w mod 256 / 2 ^ (16 - fst e)).
    { change (Z.to_nat 8) with 8%nat.
      assert (S8 : firstn 8 (skipn 8 V) = skipn 8 (firstn 16 V)) by (rewrite skipn_firstn_comm; reflexivity).
      replace (firstn (Z.to_nat (fst e - 8)) (skipn 8 V)) with (firstn (Z.to_nat (fst e - 8)) (firstn 8 (skipn 8 V))) by (rewrite firstn_firstn; f_equal; lia).
      rewrite S8. rewrite mval_firstn_div by (rewrite skipn_length; lia). rewrite skipn_length, L16.
      f_equal; [|f_equal; lia].
      unfold w. rewrite <- (firstn_skipn 8 (firstn 16 V)) at 2. rewrite mval_app. pose proof (mval_range (skipn 8 (firstn 16 V))) as RS.
      rewrite skipn_length, L16 in *. change (2 ^ Z.of_nat (16 - 8)) with 256 in *. rewrite Z.add_comm, Z.mod_add by lia. symmetry. apply Z.mod_small. lia. }
    rewrite W2. cbn [jbind]. destruct (aget lut (w / 256 + snd e + w mod 256 / 2 ^ (16 - fst e))) as [e2| |]; cbn [jbind] in FD |- *; try discriminate.
    injection FD as <- <-. cbn [fst snd sx br_pos br_val br_left br_next]. eexists; split; [reflexivity|].
    replace (br_left s1 - 8 - fst e2) with (br_left s1 - (8 + fst e2)) by lia.
    destruct (Z.eq_dec (8 + fst e2) 0) as [->|N0]; [|apply FE; lia].
    change (Z.to_nat 0) with 0%nat. cbn [firstn]. rewrite app_nil_r, Z.sub_0_r. destruct s1; exact I1.
  - injection FD as ->. cbn [fst snd]. cbn [jbind fst snd]. eexists; split; [reflexivity|].
    destruct (Z.eq_dec n 0) as [->|N0].
    + change (Z.to_nat 0) with 0%nat. cbn [firstn]. rewrite app_nil_r, Z.sub_0_r.
      destruct s1; exact I1.
    + apply FE; lia.
Qed.

(** * The writer's codes *)

Lemma gen_codes_ok : forall fuel sizes code si, ascending sizes -> Forall (fun l => si <= l <= 16) sizes -> 0 <= code ->
  (sizes = [] \/ (length sizes + Z.to_nat (16 - si) <= fuel)%nat) ->
  length (gen_codes fuel sizes code si) = length sizes
  /\ forall j, (j < length sizes)%nat -> 0 <= nth j (gen_codes fuel sizes code si) 0 /\ nth j (gen_codes fuel sizes code si) 0 * wgt (nth j sizes 0) = code * wgt si + kpos sizes j.
Proof.
  induction fuel as [|f IH]; intros sizes code si A F Hc Hf.
  - destruct sizes as [|l r]; [split; [reflexivity|intros j Hj; cbn [length] in Hj; lia]|]. destruct Hf as [Hf|Hf]; [discriminate|cbn [length] in Hf; lia].
  - destruct sizes as [|l r]; [split; [reflexivity|intros j Hj; cbn [length] in Hj; lia]|].
    cbn [gen_codes]. pose proof (Forall_inv F) as Hl. cbv beta in Hl. destruct Hf as [Hf|Hf]; [discriminate|]. cbn [length] in Hf.
    destruct A as [AF A]. destruct (Z.eqb_spec l si) as [->|N].
    + destruct (IH r (code + 1) si) as [L G]; [exact A|apply Forall_inv_tail in F; exact F|lia|right; lia|].
      split; [cbn [length]; lia|]. intros j Hj. cbn [length] in Hj. destruct j as [|j].
      * cbn [nth]. unfold kpos. cbn [firstn]. rewrite kraft_nil. lia.
      * cbn [nth]. destruct (G j ltac:(lia)) as [G0 G1]. split; [exact G0|]. rewrite G1. unfold kpos. cbn [firstn]. rewrite kraft_cons. lia.
    + destruct (IH (l :: r) (code * 2) (si + 1)) as [L G].
      * split; assumption.
      * constructor; [lia|]. eapply Forall_impl; [|apply Forall_inv_tail in F; apply (Forall_and AF F)]. cbv beta. intros; lia.
      * lia.
      * right. cbn [length]. lia.
      * split; [exact L|]. intros j Hj. destruct (G j Hj) as [G0 G1]. split; [exact G0|]. rewrite G1.
        pose proof (wgt_double (si + 1) ltac:(lia)) as D. replace (si + 1 - 1) with si in D by lia. lia.
Qed.

Lemma put_codes_ok : forall sizes codes values d k,
  length codes = length sizes -> (length sizes <= length values)%nat ->
  NoDup (firstn (length sizes) values) -> Forall (fun v => 0 <= v < 256) (firstn (length sizes) values) ->
  length d = 256%nat -> length k = 256%nat ->
  exists d' k', put_codes values sizes codes (d, k) = JOk (d', k') /\ length d' = 256%nat /\ length k' = 256%nat
    /\ (forall j, (j < length sizes)%nat -> aget d' (nth j values 0) = JOk (nth j sizes 0) /\ aget k' (nth j values 0) = JOk (nth j codes 0))
    /\ (forall v, ~ In v (firstn (length sizes) values) -> aget d' v = aget d v /\ aget k' v = aget k v).
Proof.
  induction sizes as [|l r IH]; intros codes values d k LC LV ND F Ld Lk.
  - exists d, k. split; [destruct values; reflexivity|]. split; [exact Ld|]. split; [exact Lk|]. split; [intros j Hj; cbn [length] in Hj; lia|auto].
  - destruct codes as [|c codes]; [discriminate|]. destruct values as [|v values]; [cbn [length] in LV; lia|].
    cbn [length firstn] in *. inversion ND as [|? ? NI ND']; subst. inversion F as [|? ? Hv F']; subst.
    cbn [put_codes fst snd]. rewrite aset_ok by lia. cbn [jbind]. rewrite aset_ok by lia. cbn [jbind].
    destruct (IH codes values (upd d (Z.to_nat v) l) (upd k (Z.to_nat v) c)) as (d' & k' & E & L1 & L2 & G1 & G2);
      [lia|lia|exact ND'|exact F'|rewrite upd_length; exact Ld|rewrite upd_length; exact Lk|].
    exists d', k'. split; [exact E|]. split; [exact L1|]. split; [exact L2|]. split.
    + intros [|j] Hj; cbn [nth].
      * destruct (G2 v NI) as [A1 A2]. rewrite A1, A2. rewrite !aget_upd_same by lia. auto.
      * apply G1. lia.
    + intros x Hx. cbn [In] in Hx. destruct (G2 x ltac:(tauto)) as [A1 A2]. rewrite A1, A2.
      rewrite !aget_upd_other by (try lia; intros X; apply Hx; left; lia). auto.
Qed.
