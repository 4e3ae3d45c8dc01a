(** The AC section: contexts in range, round trip, safety. *)
From Verif Require Import Base Prob EntropyModel EntropyProofs LehmerModel LehmerProofs CtxTables CoefModel CoefProofs DCProofs.
From Coq Require Import Permutation.

(** * Tables *)

Lemma kNonzeroBuckets_range i : 0 <= i < 64 -> exists v, zget kNonzeroBuckets i = Some v /\ 0 <= v <= 10.
Proof.
  intros H. destruct (zget_range kNonzeroBuckets i) as (v & E & I); [exact H|]. exists v. split; [exact E|].
  assert (forallb (fun v => (0 <=? v) && (v <=? 10)) kNonzeroBuckets = true) as F by (vm_compute; reflexivity).
  rewrite forallb_forall in F. specialize (F v I). lia.
Qed.
Lemma kContextAlgorithm_range i : 0 <= i < 128 -> exists v, zget kContextAlgorithm i = Some v.
Proof. intros H. destruct (zget_range kContextAlgorithm i) as (v & E & I); [exact H|]. exists v. exact E. Qed.

Definition skip_of (bits : Z) : Z := nth (Z.to_nat bits) kNumNonzeroContextSkip 0.
Definition density_check : bool :=
  forallb (fun bits => forallb (fun nz => forallb (fun k =>
    match zero_density (Z.of_nat nz) (Z.of_nat k) (Z.of_nat bits) with
    | Some d => (0 <=? d) && (d <? skip_of (Z.of_nat bits))
    | None => false end) (seq 0 (64 - nz))) (seq 0 63)) (seq 0 7).
Lemma zero_density_range nz k bits : 0 <= nz -> 1 <= k -> nz + k <= 63 -> 0 <= bits < 7 ->
  exists d, zero_density nz k bits = Some d /\ 0 <= d < skip_of bits.
Proof.
  intros H1 H2 H3 H4. assert (density_check = true) as C by (vm_compute; reflexivity). unfold density_check in C.
  rewrite forallb_forall in C. specialize (C (Z.to_nat bits)). rewrite forallb_forall in C.
  assert (In (Z.to_nat bits) (seq 0 7)) as I1 by (apply in_seq; lia).
  assert (In (Z.to_nat nz) (seq 0 63)) as I2 by (apply in_seq; lia). specialize (C I1 (Z.to_nat nz) I2). rewrite forallb_forall in C.
  assert (In (Z.to_nat k) (seq 0 (64 - Z.to_nat nz))) as I3 by (apply in_seq; lia). specialize (C _ I3).
  rewrite !Z2Nat.id in C by lia. destruct (zero_density nz k bits) as [d|]; [|discriminate]. exists d. split; [reflexivity|]. lia.
Qed.

(** * States *)

Definition acst_ok (w : nat) (st : acst) : Prop :=
  probs_ok 704 (ac_zero st) /\ probs_ok 1088 (ac_sign st) /\ probs_ok 2016 (ac_nnz st) /\ probs_ok 640 (ac_extra st) /\
  length (ac_pnnz st) = w /\ Forall (fun v => 0 <= v <= 63) (ac_pnnz st) /\
  Z.of_nat (length (ac_abs st)) = 128 * (Z.of_nat w + 3) /\ Forall (fun v => 0 <= v <= 2054) (ac_abs st) /\
  Z.of_nat (length (ac_sgn st)) = 64 * (Z.of_nat w + 1) /\ Forall (fun v => 0 <= v <= 2) (ac_sgn st).

Definition prob_okb (p : prob) : bool :=
  (0 <=? p_prob8 p) && (p_prob8 p <=? 255) && (3 <=? p_total p) && (p_total p <? 254) && (0 <=? p_count p) && (p_count p <=? 256 * p_total p - 1).
Lemma probs_okb n ps : (Z.of_nat (length ps) =? n) && forallb prob_okb ps = true -> probs_ok n ps.
Proof.
  intros H. apply andb_prop in H. destruct H as [H1 H2]. split; [lia|]. rewrite forallb_forall in H2. apply Forall_forall.
  intros p Hp. specialize (H2 p Hp). unfold prob_okb in H2. unfold prob_ok. lia.
Qed.

Lemma ac_init_ok w : acst_ok w (ac_init w).
Proof.
  unfold acst_ok, ac_init. cbn [ac_zero ac_sign ac_nnz ac_extra ac_pnnz ac_abs ac_sgn].
  split; [apply probs_okb; vm_compute; reflexivity|]. split; [apply probs_okb; vm_compute; reflexivity|].
  split; [apply probs_okb; vm_compute; reflexivity|]. split; [apply probs_okb; vm_compute; reflexivity|].
  rewrite !repeat_length. split; [reflexivity|]. split; [apply Forall_repeat; lia|]. split; [lia|].
  split; [apply Forall_repeat; lia|]. split; [lia|apply Forall_repeat; lia].
Qed.

(** Constants of a component: the order is a permutation of 0..63 keeping DC first. *)
Definition ak_ok (ak : accst) : Prop := order_ok (ak_order ak) /\ length (ak_mrow ak) = 64%nat /\ length (ak_mcol ak) = 64%nat.

Lemma order_get o k : order_ok o -> 0 <= k < 64 -> exists v, zget o k = Some v /\ 0 <= v < 64 /\ (1 <= k -> 1 <= v).
Proof.
  intros [P H0] Hk. pose proof (Permutation_length P) as L. change (length (iota 64)) with 64%nat in L.
  destruct (zget_range o k) as (v & E & I); [lia|]. exists v. split; [exact E|].
  assert (0 <= v < 64) as B. { apply (Permutation_in _ P) in I. unfold iota in I. apply in_map_iff in I. destruct I as (j & <- & Hj). apply in_seq in Hj. lia. }
  split; [exact B|]. intros K. destruct (Z.eq_dec v 0) as [->|]; [|lia]. exfalso.
  assert (NoDup o) as N. { eapply Permutation_NoDup; [apply Permutation_sym, P|]. unfold iota. apply FinFun.Injective_map_NoDup; [intros a b; lia|apply seq_NoDup]. }
  unfold zget in E. destruct (Z.ltb_spec k 0); [lia|].
  assert (nth_error o 0 = Some 0) as E0 by (destruct o as [|a o]; [discriminate|]; cbn in *; congruence).
  rewrite NoDup_nth_error in N. specialize (N O (Z.to_nat k)). rewrite E, E0 in N. specialize (N ltac:(lia) eq_refl). lia.
Qed.

Record bp_ok (bp : bpos) (w : nat) : Prop := {
  bp_hx : 0 <= bp_x bp < Z.of_nat w; bp_hy : 0 <= bp_y bp; bp_hw : bp_w bp = Z.of_nat w;
  bp_hup : 0 < bp_y bp -> length (bp_up bp) = 64%nat;
  bp_hleft : 0 < bp_x bp -> length (bp_left bp) = 64%nat }.

(** * Contexts *)

Lemma ac_predict_ctx_range p : 0 <= fst (ac_predict_ctx p) <= 8 /\ 0 <= snd (ac_predict_ctx p) <= 16.
Proof.
  unfold ac_predict_ctx. cbn [fst snd].
  assert (0 <= (if 256 <=? Z.abs p then 8 else Z.log2 (2 * Z.abs p + 1)) <= 8) as H.
  { destruct (Z.leb_spec 256 (Z.abs p)); [lia|]. split; [apply Z.log2_nonneg|]. apply (log2_bound _ 9); lia. }
  destruct (0 <=? p); lia.
Qed.

Lemma ac_predict_fold prev cur mult off step moff : length prev = 64%nat -> length cur = 64%nat -> length mult = 64%nat ->
  0 <= off -> 1 <= step -> off + step * 7 <= 63 -> 0 <= moff -> moff + 7 <= 63 ->
  forall js, Forall (fun j => 1 <= j <= 7) js ->
  exists s, fold_right (fun (j : Z) acc =>
      let? s := acc in
      let? c := zget cur (off + step * j) in
      let? p := zget prev (off + step * j) in
      let? m := zget mult (moff + j) in
      Some (to_i16 (if Z.odd j then c + p else c - p) * m + s)) (Some 0) js = Some s.
Proof.
  intros L1 L2 L3 H1 H2 H3 H4 H5. induction js as [|j js IH]; intros F; cbn [fold_right]; [exists 0; reflexivity|].
  destruct (IH (Forall_inv_tail F)) as (s & ->). pose proof (Forall_inv F) as Hj. cbv beta in Hj. unfold obind at 1.
  destruct (zget_range cur (off + step * j)) as (c & -> & _); [nia|]. unfold obind at 1.
  destruct (zget_range prev (off + step * j)) as (p & -> & _); [nia|]. unfold obind at 1.
  destruct (zget_range mult (moff + j)) as (m & -> & _); [nia|]. unfold obind. eexists. reflexivity.
Qed.

Lemma js_ok : Forall (fun j => 1 <= j <= 7) [1; 2; 3; 4; 5; 6; 7].
Proof. repeat (constructor; [lia|]). constructor. Qed.

Lemma ac_predict_total prev cur mult off step moff : length prev = 64%nat -> length cur = 64%nat -> length mult = 64%nat ->
  0 <= off -> 1 <= step -> off + step * 7 <= 63 -> 0 <= moff -> moff + 7 <= 63 ->
  exists a s, ac_predict prev cur mult off step moff = Some (a, s) /\ 0 <= a <= 8 /\ 0 <= s <= 16.
Proof.
  intros L1 L2 L3 H1 H2 H3 H4 H5. unfold ac_predict.
  destruct (ac_predict_fold prev cur mult off step moff L1 L2 L3 H1 H2 H3 H4 H5 _ js_ok) as (s & ->). unfold obind at 1.
  destruct (zget_range prev off) as (p0 & -> & _); [lia|]. unfold obind.
  pose proof (ac_predict_ctx_range (p0 - Z.quot s 8192)) as R. destruct (ac_predict_ctx (p0 - Z.quot s 8192)) as [a b].
  exists a, b. split; [reflexivity|exact R].
Qed.

Lemma ac_predict_ext prev cur cur' mult off step moff : 0 <= off -> 1 <= step -> (forall i, 1 <= i -> zget cur i = zget cur' i) ->
  ac_predict prev cur mult off step moff = ac_predict prev cur' mult off step moff.
Proof.
  intros H1 H2 E. unfold ac_predict. f_equal.
  assert (forall js, Forall (fun j => 1 <= j <= 7) js ->
    fold_right (fun (j : Z) acc => let? s := acc in let? c := zget cur (off + step * j) in let? p := zget prev (off + step * j) in
      let? m := zget mult (moff + j) in Some (to_i16 (if Z.odd j then c + p else c - p) * m + s)) (Some 0) js =
    fold_right (fun (j : Z) acc => let? s := acc in let? c := zget cur' (off + step * j) in let? p := zget prev (off + step * j) in
      let? m := zget mult (moff + j) in Some (to_i16 (if Z.odd j then c + p else c - p) * m + s)) (Some 0) js) as X.
  { induction js as [|j js IH]; intros F; cbn [fold_right]; [reflexivity|]. rewrite (IH (Forall_inv_tail F)).
    pose proof (Forall_inv F) as Hj. cbv beta in Hj. rewrite (E (off + step * j)) by nia. reflexivity. }
  apply X, js_ok.
Qed.

Lemma land7 k : 0 <= k < 64 -> 0 <= Z.land k 7 <= 7 /\ 0 <= k - Z.land k 7 <= 56.
Proof.
  intros H. assert (Z.land k 7 = k mod 8) as -> by (apply (land_ones_mod k 3); lia).
  pose proof (Z.mod_pos_bound k 8). pose proof (Z.div_mod k 8). split; [lia|]. assert (k / 8 <= 7) by (apply Z.lt_succ_r; apply Z.div_lt_upper_bound; lia).
  assert (0 <= k / 8) by (apply Z.div_pos; lia). lia.
Qed.

Lemma mod2 y : y mod 2 = 0 \/ y mod 2 = 1.
Proof. pose proof (Z.mod_pos_bound y 2). lia. Qed.

Lemma ac_avg_total w st bp k : acst_ok w st -> bp_ok bp w -> 0 <= k < 64 ->
  exists a, ac_avg_ctx (ac_abs st) (abs_base bp + k) (row_delta bp) = Some a /\ 0 <= a <= 8.
Proof.
  intros (_ & _ & _ & _ & _ & _ & L & F & _ & _) B Hk. rewrite Forall_forall in F.
  pose proof (bp_hx _ _ B) as Hx. pose proof (bp_hw _ _ B) as Hw.
  unfold ac_avg_ctx, abs_base, row_delta. rewrite Hw.
  destruct (zget_range (ac_abs st) ((bp_y bp mod 2 * (Z.of_nat w + 3) + 2 + bp_x bp) * 64 + k)) as (a & -> & Ia); [destruct (mod2 (bp_y bp)) as [-> | ->]; lia|].
  unfold obind at 1.
  destruct (zget_range (ac_abs st) ((bp_y bp mod 2 * (Z.of_nat w + 3) + 2 + bp_x bp) * 64 + k - 64)) as (b & -> & Ib); [destruct (mod2 (bp_y bp)) as [-> | ->]; lia|].
  unfold obind at 1.
  destruct (zget_range (ac_abs st) ((bp_y bp mod 2 * (Z.of_nat w + 3) + 2 + bp_x bp) * 64 + k + (1 - 2 * (bp_y bp mod 2)) * (Z.of_nat w + 3) * 64)) as (c & -> & Ic);
    [destruct (mod2 (bp_y bp)) as [-> | ->]; lia|]. unfold obind at 1.
  destruct (zget_range (ac_abs st) ((bp_y bp mod 2 * (Z.of_nat w + 3) + 2 + bp_x bp) * 64 + k - 128)) as (d & -> & Id); [destruct (mod2 (bp_y bp)) as [-> | ->]; lia|].
  unfold obind at 1.
  destruct (zget_range (ac_abs st) ((bp_y bp mod 2 * (Z.of_nat w + 3) + 2 + bp_x bp) * 64 + k + (1 - 2 * (bp_y bp mod 2)) * (Z.of_nat w + 3) * 64 - 64)) as (e & -> & Ie);
    [destruct (mod2 (bp_y bp)) as [-> | ->]; lia|]. unfold obind at 1.
  destruct (zget_range (ac_abs st) ((bp_y bp mod 2 * (Z.of_nat w + 3) + 2 + bp_x bp) * 64 + k + (1 - 2 * (bp_y bp mod 2)) * (Z.of_nat w + 3) * 64 + 64)) as (f & -> & If);
    [destruct (mod2 (bp_y bp)) as [-> | ->]; lia|]. unfold obind.
  eexists. split; [reflexivity|].
  pose proof (F _ Ia). pose proof (F _ Ib). pose proof (F _ Ic). pose proof (F _ Id). pose proof (F _ Ie). pose proof (F _ If). cbv beta in *.
  set (s := 4 + a + (b + c) * 2 + d + e + f) in *. assert (4 <= s) as Hs by lia. clearbody s.
  rewrite Z.shiftr_div_pow2 by lia. destruct (Z.eqb_spec (s / 2 ^ 10) 0) as [E4|]; cbn [negb]; [|lia].
  assert (s < 2 ^ 10). { apply Z.div_small_iff in E4; lia. }
  pose proof (log2_bound s 10 ltac:(lia) ltac:(lia) ltac:(lia)). assert (2 <= Z.log2 s) by (apply Z.log2_le_pow2; lia). lia.
Qed.

Lemma ac_ctx_total w legacy ak st bp cur k kn : ak_ok ak -> acst_ok w st -> bp_ok bp w -> length cur = 64%nat ->
  0 <= k < 64 -> 0 <= kn < 64 ->
  exists a s, ac_ctx legacy ak st bp cur k kn = Some (a, s) /\ 0 <= a <= 8 /\ 0 <= s <= 16.
Proof.
  intros (_ & L1 & L2) W B Lc Hk Hn. unfold ac_ctx. pose proof (land7 kn Hn) as [R1 R2].
  destruct (kContextAlgorithm_range (kn + (if legacy then 64 else 0))) as (ct & ->); [destruct legacy; lia|]. unfold obind at 1.
  destruct (negb (Z.land ct 1 =? 0) && (0 <? bp_y bp)) eqn:C1.
  - apply andb_prop in C1. destruct C1 as [_ C1]. apply ac_predict_total; try lia. apply (bp_hup _ _ B). lia.
  - destruct (negb (Z.land ct 2 =? 0) && (0 <? bp_x bp)) eqn:C2.
    + apply andb_prop in C2. destruct C2 as [_ C2]. apply ac_predict_total; try lia. apply (bp_hleft _ _ B). lia.
    + destruct (ct =? 0).
      * destruct (ac_avg_total w st bp k W B Hk) as (a & -> & Ha). unfold obind at 1.
        destruct W as (_ & _ & _ & _ & _ & _ & _ & _ & L & F). pose proof (bp_hx _ _ B) as Hx. unfold sgn_base. rewrite Forall_forall in F.
        destruct (zget_range (ac_sgn st) (64 + 64 * bp_x bp + k)) as (s0 & -> & I0); [lia|]. unfold obind at 1.
        destruct (zget_range (ac_sgn st) (64 + 64 * bp_x bp + k - 64)) as (s1 & -> & I1); [lia|]. unfold obind.
        pose proof (F _ I0). pose proof (F _ I1). cbv beta in *. exists a, (s0 * 3 + s1). split; [reflexivity|]. lia.
      * exists 0, 8. split; [reflexivity|]. lia.
Qed.

(** The contexts do not look at the DC entry of the block under construction. *)
Lemma ac_ctx_ext legacy ak st bp cur cur' k kn : 0 <= kn < 64 -> (forall i, 1 <= i -> zget cur i = zget cur' i) ->
  ac_ctx legacy ak st bp cur k kn = ac_ctx legacy ak st bp cur' k kn.
Proof.
  intros Hn E. unfold ac_ctx. destruct (zget kContextAlgorithm _) as [ct|]; [|reflexivity]. rewrite !(obind_eq (Some ct) _ ct eq_refl). pose proof (land7 kn Hn) as [R1 R2].
  destruct (negb (Z.land ct 1 =? 0) && (0 <? bp_y bp)); [apply ac_predict_ext; [lia|lia|exact E]|].
  destruct (negb (Z.land ct 2 =? 0) && (0 <? bp_x bp)); [apply ac_predict_ext; [lia|lia|exact E]|]. reflexivity.
Qed.

Lemma put_prev_total w st bp k sg ab : acst_ok w st -> bp_ok bp w -> 0 <= k < 64 -> 0 <= sg <= 2 -> 0 <= ab <= 2054 ->
  exists st', put_prev st bp k sg ab = Some st' /\ acst_ok w st'.
Proof.
  intros (P1 & P2 & P3 & P4 & L1 & F1 & L2 & F2 & L3 & F3) B Hk Hs Ha. unfold put_prev.
  pose proof (bp_hx _ _ B) as Hx. pose proof (bp_hw _ _ B) as Hw.
  unfold sgn_base. rewrite zset_range by lia. unfold obind at 1. unfold abs_base. rewrite Hw.
  rewrite zset_range by (destruct (mod2 (bp_y bp)) as [-> | ->]; lia). unfold obind. eexists. split; [reflexivity|].
  unfold acst_ok. cbn [ac_zero ac_sign ac_nnz ac_extra ac_pnnz ac_abs ac_sgn]. rewrite !upd_length.
  split; [exact P1|]. split; [exact P2|]. split; [exact P3|]. split; [exact P4|]. split; [exact L1|]. split; [exact F1|].
  split; [exact L2|]. split; [apply upd_Forall; [exact F2|lia]|]. split; [exact L3|]. apply upd_Forall; [exact F3|lia].
Qed.

Lemma clear_prev_total w bp : bp_ok bp w -> forall ks st, acst_ok w st -> Forall (fun k => 0 <= k < 64) ks ->
  exists st', clear_prev ks bp st = Some st' /\ acst_ok w st'.
Proof.
  intros B. induction ks as [|k ks IH]; intros st W F; cbn [clear_prev]; [exists st; auto|].
  destruct (put_prev_total w st bp k 0 0 W B (Forall_inv F)) as (st1 & -> & W1); [lia|lia|]. unfold obind. apply IH; [exact W1|apply (Forall_inv_tail F)].
Qed.
Lemma above_range k : (k <= 63)%nat -> Forall (fun k => 0 <= k < 64) (above k).
Proof. intros H. apply Forall_forall. intros z Hz. unfold above in Hz. apply in_map_iff in Hz. destruct Hz as (j & <- & Hj). apply in_seq in Hj. lia. Qed.

Lemma set_pnnz_total w st x v : acst_ok w st -> 0 <= x < Z.of_nat w -> 0 <= v <= 63 -> exists st', set_pnnz st x v = Some st' /\ acst_ok w st'.
Proof.
  intros (P1 & P2 & P3 & P4 & L1 & F1 & R) Hx Hv. unfold set_pnnz. rewrite zset_range by lia. unfold obind. eexists. split; [reflexivity|].
  unfold acst_ok. cbn [ac_zero ac_sign ac_nnz ac_extra ac_pnnz ac_abs ac_sgn]. rewrite !upd_length.
  split; [exact P1|]. split; [exact P2|]. split; [exact P3|]. split; [exact P4|]. split; [exact L1|]. split; [apply upd_Forall; [exact F1|lia]|exact R].
Qed.

Lemma nnz_ctx_total w st bp : acst_ok w st -> bp_ok bp w -> exists c, nnz_ctx (ac_pnnz st) (bp_x bp) (bp_y bp) = Some c /\ 0 <= c <= 31.
Proof.
  intros (_ & _ & _ & _ & L & F & _) B. pose proof (bp_hx _ _ B) as Hx. pose proof (bp_hy _ _ B) as Hy. rewrite Forall_forall in F.
  unfold nnz_ctx.
  assert (forall p, 0 <= p <= 63 -> 0 <= p / 2 <= 31) as D.
  { intros p Hp. split; [apply Z.div_pos; lia|]. assert (p / 2 < 32); [|lia]. apply Z.div_lt_upper_bound; lia. }
  destruct (Z.eqb_spec (bp_y bp) 0); destruct (Z.eqb_spec (bp_x bp) 0).
  - unfold obind. eexists. split; [reflexivity|]. apply D. lia.
  - destruct (zget_range (ac_pnnz st) (bp_x bp - 1)) as (a & -> & Ia); [lia|]. unfold obind. eexists. split; [reflexivity|]. apply D, F, Ia.
  - destruct (zget_range (ac_pnnz st) (bp_x bp)) as (a & -> & Ia); [lia|]. unfold obind. eexists. split; [reflexivity|]. apply D, F, Ia.
  - destruct (zget_range (ac_pnnz st) (bp_x bp - 1)) as (a & -> & Ia); [lia|]. unfold obind at 1 2.
    destruct (zget_range (ac_pnnz st) (bp_x bp)) as (b & -> & Ib); [lia|]. unfold obind. eexists. split; [reflexivity|].
    pose proof (F _ Ia). pose proof (F _ Ib). cbv beta in *. apply D. split; [apply Z.div_pos; lia|]. assert ((a + b + 1) / 2 < 64); [|lia]. apply Z.div_lt_upper_bound; lia.
Qed.

(** * Number of non-zeros *)

Lemma enc_nnz_run lim cmap codes base : 0 <= base -> base + 63 <= 2016 -> forall n val ctx ps, probs_ok 2016 ps ->
  (n <= 6)%nat -> 2 ^ (6 - Z.of_nat n) <= ctx < 2 ^ (7 - Z.of_nat n) ->
  exists its ps', enc_nnz n val ctx base ps = Some (its, ps') /\ probs_ok 2016 ps' /\ Forall (cshape lim) its /\
    elock cmap codes (dec_nnz n ctx base ps) its (ctx * 2 ^ Z.of_nat n + val mod 2 ^ Z.of_nat n - 64, ps').
Proof.
  intros Hb Hb2. induction n as [|n IH]; intros val ctx ps P Hn Hc.
  - exists [], ps. cbn [enc_nnz dec_nnz]. split; [reflexivity|]. split; [exact P|]. split; [constructor|].
    rewrite Z.mod_1_r. change (2 ^ Z.of_nat 0) with 1. rewrite Z.mul_1_r, Z.add_0_r. apply elock_ret.
  - cbn [enc_nnz dec_nnz]. set (bit := Z.testbit val (Z.of_nat n)).
    assert (ctx < 64) as H64. { assert (2 ^ (7 - Z.of_nat (S n)) <= 2 ^ 6) by (apply Z.pow_le_mono_r; lia). lia. }
    assert (0 < ctx) as H0. { assert (0 < 2 ^ (6 - Z.of_nat (S n))) by (apply Z.pow_pos_nonneg; lia). lia. }
    destruct (enc_bit_total lim 2016 ps (base + (ctx - 1)) bit P ltac:(lia)) as (i1 & p1 & E1 & P1 & S1).
    rewrite E1. unfold obind at 1. cbn [fst snd].
    replace (6 - Z.of_nat (S n)) with (5 - Z.of_nat n) in Hc by lia. replace (7 - Z.of_nat (S n)) with (6 - Z.of_nat n) in Hc by lia.
    assert (2 ^ (6 - Z.of_nat n) = 2 * 2 ^ (5 - Z.of_nat n)) as Pa by (rewrite <- Z.pow_succ_r by lia; f_equal; lia).
    assert (2 ^ (7 - Z.of_nat n) = 2 * 2 ^ (6 - Z.of_nat n)) as Pb by (rewrite <- Z.pow_succ_r by lia; f_equal; lia).
    pose proof (b2_01 bit) as Hbit.
    destruct (IH val (2 * ctx + b2 bit) p1 P1 ltac:(lia) ltac:(lia)) as (i2 & p2 & E2 & P2 & S2 & K2).
    rewrite E2. unfold obind. cbn [fst snd]. eexists; eexists. split; [reflexivity|]. split; [exact P2|]. split; [apply Forall_app; auto|].
    assert (ctx * 2 ^ Z.of_nat (S n) + val mod 2 ^ Z.of_nat (S n) - 64 = (2 * ctx + b2 bit) * 2 ^ Z.of_nat n + val mod 2 ^ Z.of_nat n - 64) as ->.
    { rewrite Nat2Z.inj_succ, Z.pow_succ_r by lia.
      assert (val mod (2 * 2 ^ Z.of_nat n) = val mod 2 ^ Z.of_nat n + 2 ^ Z.of_nat n * b2 bit) as M.
      { rewrite (Z.mul_comm 2), Z.rem_mul_r by lia. f_equal. f_equal. unfold bit, b2. rewrite Z.testbit_odd, Z.shiftr_div_pow2 by lia. rewrite Zmod_odd. reflexivity. }
      rewrite M. lia. }
    eapply elock_bind; [apply enc_bit_lock; exact E1|]. cbv beta iota. exact K2.
Qed.

Lemma dec_nnz_safe base : 0 <= base -> base + 63 <= 2016 -> forall n ctx ps, probs_ok 2016 ps ->
  (n <= 6)%nat -> 2 ^ (6 - Z.of_nat n) <= ctx < 2 ^ (7 - Z.of_nat n) ->
  esafe (fun r => 0 <= fst r <= 63 /\ probs_ok 2016 (snd r)) (dec_nnz n ctx base ps).
Proof.
  intros Hb Hb2. induction n as [|n IH]; intros ctx ps P Hn Hc; cbn [dec_nnz].
  - cbn [esafe fst snd]. change (2 ^ (6 - Z.of_nat 0)) with 64 in Hc. change (2 ^ (7 - Z.of_nat 0)) with 128 in Hc. split; [lia|exact P].
  - assert (ctx < 64) as H64. { assert (2 ^ (7 - Z.of_nat (S n)) <= 2 ^ 6) by (apply Z.pow_le_mono_r; lia). lia. }
    assert (0 < ctx) as H0. { assert (0 < 2 ^ (6 - Z.of_nat (S n))) by (apply Z.pow_pos_nonneg; lia). lia. }
    replace (6 - Z.of_nat (S n)) with (5 - Z.of_nat n) in Hc by lia. replace (7 - Z.of_nat (S n)) with (6 - Z.of_nat n) in Hc by lia.
    assert (2 ^ (6 - Z.of_nat n) = 2 * 2 ^ (5 - Z.of_nat n)) as Pa by (rewrite <- Z.pow_succ_r by lia; f_equal; lia).
    assert (2 ^ (7 - Z.of_nat n) = 2 * 2 ^ (6 - Z.of_nat n)) as Pb by (rewrite <- Z.pow_succ_r by lia; f_equal; lia).
    eapply esafe_bind; [apply (dec_bit_safe 2016); [exact P|lia]|]. intros [bit p1] P1. cbn [snd] in P1. cbv beta iota.
    pose proof (b2_01 bit) as Hbit. apply IH; [exact P1|lia|lia].
Qed.

(** * One block *)

Lemma zget_upd {A} (l : list A) i v j : 0 <= i < Z.of_nat (length l) -> zget (upd l (Z.to_nat i) v) j = if j =? i then Some v else zget l j.
Proof.
  intros H. unfold zget. destruct (Z.ltb_spec j 0); [destruct (Z.eqb_spec j i); [lia|reflexivity]|].
  destruct (Z.eqb_spec j i) as [->|N].
  - apply nth_error_upd_same. lia.
  - apply nth_error_upd_other. lia.
Qed.

Lemma order_NoDup o : order_ok o -> NoDup o.
Proof.
  intros [P _]. eapply Permutation_NoDup; [apply Permutation_sym, P|]. unfold iota.
  apply FinFun.Injective_map_NoDup; [intros a b; lia|apply seq_NoDup].
Qed.
Lemma order_length o : order_ok o -> length o = 64%nat.
Proof. intros [P _]. apply Permutation_length in P. exact P. Qed.
Lemma order_inj o k1 k2 v : order_ok o -> zget o k1 = Some v -> zget o k2 = Some v -> k1 = k2.
Proof.
  intros O H1 H2. pose proof (zget_some _ _ _ H1) as [R1 _]. pose proof (zget_some _ _ _ H2) as [R2 _].
  pose proof (order_NoDup o O) as N. rewrite NoDup_nth_error in N. unfold zget in H1, H2.
  destruct (Z.ltb_spec k1 0); [lia|]. destruct (Z.ltb_spec k2 0); [lia|].
  specialize (N (Z.to_nat k1) (Z.to_nat k2) ltac:(lia)). rewrite H1, H2 in N. specialize (N eq_refl). lia.
Qed.
Lemma order_surj o v : order_ok o -> 1 <= v < 64 -> exists k, 1 <= k <= 63 /\ zget o k = Some v.
Proof.
  intros O Hv. pose proof (order_length o O) as L. destruct O as [P H0].
  assert (In v o) as I. { apply (Permutation_in v (Permutation_sym P)). unfold iota. apply in_map_iff. exists (Z.to_nat v). split; [lia|apply in_seq; lia]. }
  apply In_nth_error in I. destruct I as [k E]. pose proof (nth_error_lt _ _ _ E) as Hk. exists (Z.of_nat k).
  split. 2:{ unfold zget. destruct (Z.ltb_spec (Z.of_nat k) 0); [lia|]. rewrite Nat2Z.id. exact E. }
  destruct k as [|k]; [|lia]. rewrite (nth_error_nth' o 0 v 1 E) in H0. lia.
Qed.

Definition loop_rel (ak : accst) (b : block) (k : nat) (cur dcur : block) : Prop :=
  length cur = 64%nat /\ length dcur = 64%nat /\ (forall i, 1 <= i -> zget cur i = zget dcur i) /\
  (forall k' kn, 1 <= k' <= 63 -> zget (ak_order ak) k' = Some kn -> zget dcur kn = if Z.of_nat k <? k' then zget b kn else Some 0) /\
  zget dcur 0 = zget b 0.

Lemma loop_rel_done ak b cur dcur : ak_ok ak -> length b = 64%nat -> loop_rel ak b 0 cur dcur -> dcur = b.
Proof.
  intros (O & _) Lb (_ & Ld & _ & H & H0). apply nth_error_ext. intros i.
  destruct (le_lt_dec 64 i) as [G|G]. { rewrite !(proj2 (nth_error_None _ _)) by lia. reflexivity. }
  assert (forall l : list Z, zget l (Z.of_nat i) = nth_error l i) as Z.
  { intros l. unfold zget. destruct (Z.ltb_spec (Z.of_nat i) 0); [lia|]. rewrite Nat2Z.id. reflexivity. }
  rewrite <- !Z. destruct i as [|i]; [exact H0|].
  destruct (order_surj (ak_order ak) (Z.of_nat (S i)) O ltac:(lia)) as (k & Hk & E).
  rewrite (H k _ Hk E). destruct (Z.ltb_spec (Z.of_nat 0) k); [reflexivity|lia].
Qed.

(** AC entries the encoder can code. *)
Definition ac_bounded (b : block) : Prop := forall i v, 1 <= i -> zget b i = Some v -> Z.abs v <= 2054.

Definition meta_fits (m : cmeta) (lim : Z) : Prop := 0 <= cm_off m /\ 0 <= cm_bits m < 7 /\ (cm_off m + skip_of (cm_bits m)) * 9 <= lim.

Lemma acst_ok_with w st z s e : acst_ok w st -> probs_ok 704 z -> probs_ok 1088 s -> probs_ok 640 e ->
  acst_ok w (mkAC z s (ac_nnz st) e (ac_pnnz st) (ac_abs st) (ac_sgn st)).
Proof.
  intros (P1 & P2 & P3 & P4 & R) Hz Hs He. unfold acst_ok. cbn [ac_zero ac_sign ac_nnz ac_extra ac_pnnz ac_abs ac_sgn].
  split; [exact Hz|]. split; [exact Hs|]. split; [exact P3|]. split; [exact He|exact R].
Qed.

Lemma enc_ac_loop_run w lim legacy ak m bp b last cmap codes : ak_ok ak -> bp_ok bp w -> length b = 64%nat -> ac_bounded b ->
  meta_fits m lim -> (last <= 63)%nat ->
  forall k nz cur dcur st, acst_ok w st -> (k <= last)%nat -> 0 <= nz <= Z.of_nat (last - k) -> ((k < last)%nat -> 1 <= nz) ->
  (k = last -> forall kn, zget (ak_order ak) (Z.of_nat k) = Some kn -> k <> O -> zget b kn <> Some 0) ->
  loop_rel ak b k cur dcur ->
  exists its nz' st', enc_ac_loop legacy ak m bp b last k nz cur st = Some (its, nz', st') /\ acst_ok w st' /\ 0 <= nz' <= Z.of_nat last /\
    Forall (cshape lim) its /\
    (Forall (has_table cmap codes) its -> elock cmap codes (dec_ac_loop cmap codes legacy ak m bp last k nz dcur st) its (b, nz', st')).
Proof.
  intros A B Lb Hb (M1 & M2 & M3) Hl. induction k as [|k IH]; intros nz cur dcur st W Hk Hz Hz1 Hlast R.
  - exists [], nz, st. cbn [enc_ac_loop dec_ac_loop]. split; [reflexivity|]. split; [exact W|]. split; [lia|]. split; [constructor|].
    intros _. rewrite (loop_rel_done ak b cur dcur A Lb R). apply elock_ret.
  - cbn [enc_ac_loop dec_ac_loop]. set (kz := Z.of_nat (S k)) in *.
    destruct (order_get (ak_order ak) kz (proj1 A)) as (kn & Ek & Hkn & Hkn1); [unfold kz; lia|]. specialize (Hkn1 ltac:(unfold kz; lia)).
    rewrite Ek. unfold obind at 1.
    destruct (zget_range b kn) as (coeff & Ec & _); [lia|]. rewrite Ec. unfold obind at 1.
    pose proof (Hb kn coeff Hkn1 Ec) as Hab.
    pose proof W as (P1 & P2 & P3 & P4 & _).
    assert (exists i1 z1, (if (S k <? last)%nat then let? bucket := zget kNonzeroBuckets (nz - 1) in enc_bit (ac_zero st) (bucket * 64 + kz) (coeff =? 0)
              else Some ([], ac_zero st)) = Some (i1, z1) /\ probs_ok 704 z1 /\ Forall (cshape lim) i1 /\
              elock cmap codes (if (S k <? last)%nat then eget (zget kNonzeroBuckets (nz - 1)) (fun bucket => dec_bit (ac_zero st) (bucket * 64 + kz))
              else ERet (false, ac_zero st)) i1 (coeff =? 0, z1)) as (i1 & z1 & E1 & Q1 & S1 & K1).
    { destruct (Nat.ltb_spec (S k) last) as [Hlt|Hge].
      - specialize (Hz1 Hlt). destruct (kNonzeroBuckets_range (nz - 1)) as (bu & Eb & Hbu); [lia|]. rewrite Eb. unfold obind. cbn [eget].
        destruct (enc_bit_total lim 704 (ac_zero st) (bu * 64 + kz) (coeff =? 0) P1) as (i1 & z1 & E1 & Q1 & S1); [unfold kz; lia|].
        exists i1, z1. split; [exact E1|]. split; [exact Q1|]. split; [exact S1|]. apply enc_bit_lock, E1.
      - exists [], (ac_zero st). split; [reflexivity|]. split; [exact P1|]. split; [constructor|].
        assert (S k = last) as Hkl by lia. specialize (Hlast Hkl kn Ek ltac:(lia)). rewrite Ec in Hlast.
        destruct (Z.eqb_spec coeff 0) as [->|]; [congruence|]. apply elock_ret. }
    rewrite E1. unfold obind at 1. cbn [fst snd].
    set (st1 := mkAC z1 (ac_sign st) (ac_nnz st) (ac_extra st) (ac_pnnz st) (ac_abs st) (ac_sgn st)).
    assert (acst_ok w st1) as W1 by (apply acst_ok_with; assumption).
    destruct R as (R1 & R2 & R3 & R4 & R5).
    assert (forall v, v = coeff -> loop_rel ak b k (if coeff =? 0 then cur else upd cur (Z.to_nat kn) v) (upd dcur (Z.to_nat kn) v)) as RR.
    { intros v ->. split; [destruct (coeff =? 0); [exact R1|rewrite upd_length; exact R1]|]. split; [rewrite upd_length; exact R2|]. split; [|split].
      - intros i Hi. rewrite zget_upd by lia. destruct (Z.eqb_spec coeff 0) as [->|Nc].
        + destruct (Z.eqb_spec i kn) as [->|]; [|apply R3, Hi]. rewrite (R3 kn Hi), (R4 kz kn ltac:(unfold kz; lia) Ek).
          destruct (Z.ltb_spec (Z.of_nat (S k)) kz); [unfold kz in *; lia|reflexivity].
        + rewrite zget_upd by lia. destruct (i =? kn); [reflexivity|apply R3, Hi].
      - intros k' kn' Hk' Ek'. rewrite zget_upd by lia. destruct (Z.eqb_spec kn' kn) as [->|Nn].
        + pose proof (order_inj _ _ _ _ (proj1 A) Ek Ek') as <-. destruct (Z.ltb_spec (Z.of_nat k) kz); [symmetry; exact Ec|unfold kz in *; lia].
        + rewrite (R4 k' kn' Hk' Ek'). destruct (Z.eq_dec k' kz) as [->|Nk]; [congruence|].
          destruct (Z.ltb_spec (Z.of_nat (S k)) k'), (Z.ltb_spec (Z.of_nat k) k'); try reflexivity; unfold kz in *; lia.
      - rewrite zget_upd by lia. destruct (Z.eqb_spec 0 kn); [lia|exact R5]. }
    destruct (Z.eqb_spec coeff 0) as [Zc|Nc].
    + destruct (put_prev_total w st1 bp kz 0 0 W1 B) as (st2 & E2 & W2); [unfold kz; lia|lia|lia|]. rewrite E2. unfold obind at 1.
      assert (S k < last)%nat as Hlt.
      { destruct (Nat.eq_dec (S k) last) as [Hkl|]; [|lia]. exfalso. apply (Hlast Hkl kn Ek); [lia|]. rewrite Ec, Zc. reflexivity. }
      destruct (IH nz cur (upd dcur (Z.to_nat kn) 0) st2 W2 ltac:(lia) ltac:(lia) ltac:(intros; apply Hz1; lia) ltac:(intros; lia)) as (its & nz' & st' & E3 & W3 & Hn' & S3 & K3).
      { apply (RR 0). symmetry; exact Zc. }
      rewrite E3. unfold obind. eexists; eexists; eexists. split; [reflexivity|]. split; [exact W3|]. split; [exact Hn'|]. split; [apply Forall_app; auto|].
      intros T. apply Forall_app in T. destruct T as [_ T2].
      eapply elock_bind; [exact K1|]. cbv beta iota. rewrite ?Ek. cbn [eget]. rewrite zset_range by lia. cbn [eget]. fold st1. rewrite E2. cbn [eget]. apply K3, T2.
    + set (sign := negb (0 <? coeff)) in *. set (absval := if sign then - coeff else coeff).
      assert (absval = Z.abs coeff /\ (1 - 2 * b2 sign) * absval = coeff) as [Va Vc].
      { unfold absval, sign. destruct (Z.ltb_spec 0 coeff); cbn [negb b2]; lia. }
      destruct (ac_ctx_total w legacy ak st1 bp cur kz kn A W1 B R1) as (av & sc & E2 & Hav & Hsc); [unfold kz; lia|lia|].
      rewrite E2. unfold obind at 1. cbn [fst snd]. change (ac_sign st1) with (ac_sign st). change (ac_extra st1) with (ac_extra st).
      destruct (enc_bit_total lim 1088 (ac_sign st) (sc * 64 + kz) sign P2) as (i2 & s2 & E3 & Q2 & S2); [unfold kz; lia|].
      rewrite E3. unfold obind at 1.
      destruct (zero_density_range nz kz (cm_bits m)) as (zd & E4 & Hzd); [lia|unfold kz; lia|unfold kz; lia|exact M2|].
      rewrite E4. unfold obind at 1.
      destruct (enc_abs_total lim 640 ((cm_off m + zd) * 9 + av) absval (ac_extra st) (fun n => kz * 10 + n) P4) as (i3 & e3 & E5 & Q3 & S3);
        [intros j Hj; unfold kz; lia|nia|lia|].
      rewrite E5. unfold obind at 1. rewrite zset_range by lia. unfold obind at 1. cbn [fst snd].
      set (st2 := mkAC (ac_zero st1) s2 (ac_nnz st1) e3 (ac_pnnz st1) (ac_abs st1) (ac_sgn st1)).
      assert (acst_ok w st2) as W2 by (apply (acst_ok_with w st1); assumption).
      pose proof (b2_01 sign) as Hsg.
      destruct (put_prev_total w st2 bp kz (b2 sign + 1) absval W2 B) as (st3 & E6 & W3); [unfold kz; lia|lia|lia|].
      rewrite E6. unfold obind at 1.
      destruct (IH (nz + 1) (upd cur (Z.to_nat kn) coeff) (upd dcur (Z.to_nat kn) coeff) st3 W3 ltac:(lia) ltac:(lia) ltac:(intros; lia) ltac:(intros; lia))
        as (its & nz' & st' & E7 & W4 & Hn' & S4 & K4); [apply (RR coeff eq_refl)|].
      rewrite E7. unfold obind. eexists; eexists; eexists. split; [reflexivity|]. split; [exact W4|]. split; [exact Hn'|].
      split; [apply Forall_app; split; [exact S1|]; apply Forall_app; split; [exact S2|]; apply Forall_app; auto|].
      intros T. apply Forall_app in T. destruct T as [_ T]. apply Forall_app in T. destruct T as [_ T]. apply Forall_app in T. destruct T as [T3 T4].
      eapply elock_bind; [exact K1|]. cbv beta iota. rewrite ?Ek. cbn [eget]. fold st1.
      rewrite <- (ac_ctx_ext legacy ak st1 bp cur dcur kz kn Hkn R3), E2. cbn [eget fst snd].
      change (ac_sign st1) with (ac_sign st). change (ac_extra st1) with (ac_extra st).
      eapply elock_bind; [apply enc_bit_lock; exact E3|]. cbv beta iota.
      eapply elock_bind; [apply enc_abs_lock with (absval := absval); [lia|exact E5|exact T3]|]. cbv beta iota.
      rewrite zset_range by lia. cbn [eget]. rewrite Vc, to_i16_id by (unfold i16; lia). fold st2. rewrite E6. cbn [eget]. apply K4, T4.
Qed.

Lemma dec_ac_loop_safe w lim legacy ak m bp last cmap codes : ak_ok ak -> bp_ok bp w -> meta_fits m lim -> (last <= 63)%nat -> tables_ok cmap codes lim ->
  forall k nz dcur st, acst_ok w st -> (k <= last)%nat -> 0 <= nz <= Z.of_nat (last - k) -> ((k < last)%nat -> 1 <= nz) ->
  length dcur = 64%nat -> ac_bounded dcur ->
  esafe (fun '(b', nz', st') => length b' = 64%nat /\ ac_bounded b' /\ zget b' 0 = zget dcur 0 /\ 0 <= nz' <= 63 /\ acst_ok w st')
    (dec_ac_loop cmap codes legacy ak m bp last k nz dcur st).
Proof.
  intros A B (M1 & M2 & M3) Hl T. induction k as [|k IH]; intros nz dcur st W Hk Hz Hz1 Ld Hd.
  - cbn [dec_ac_loop esafe]. split; [exact Ld|]. split; [exact Hd|]. split; [reflexivity|]. split; [lia|exact W].
  - cbn [dec_ac_loop]. set (kz := Z.of_nat (S k)) in *. pose proof W as (P1 & P2 & P3 & P4 & _).
    eapply (esafe_bind (fun '(iz, z1) => probs_ok 704 z1 /\ (S k = last -> iz = false))).
    { destruct (Nat.ltb_spec (S k) last) as [Hlt|Hge].
      - specialize (Hz1 Hlt). destruct (kNonzeroBuckets_range (nz - 1)) as (bu & -> & Hbu); [lia|]. cbn [eget].
        eapply esafe_mono; [apply (dec_bit_safe 704); [exact P1|unfold kz; lia]|]. intros [iz z1] Q. cbn [snd] in Q. split; [exact Q|lia].
      - cbn [esafe]. auto. }
    intros [iz z1] [Q1 Hiz]. cbv beta iota.
    set (st1 := mkAC z1 (ac_sign st) (ac_nnz st) (ac_extra st) (ac_pnnz st) (ac_abs st) (ac_sgn st)).
    assert (acst_ok w st1) as W1 by (apply acst_ok_with; assumption).
    destruct (order_get (ak_order ak) kz (proj1 A)) as (kn & -> & Hkn & Hkn1); [unfold kz; lia|]. specialize (Hkn1 ltac:(unfold kz; lia)). cbn [eget].
    assert (forall v, Z.abs v <= 2054 -> ac_bounded (upd dcur (Z.to_nat kn) v) /\ zget (upd dcur (Z.to_nat kn) v) 0 = zget dcur 0) as UB.
    { intros v Hv. split.
      - intros i u Hi. rewrite zget_upd by lia. destruct (i =? kn); [intros E; injection E as <-; exact Hv|apply Hd, Hi].
      - rewrite zget_upd by lia. destruct (Z.eqb_spec 0 kn); [lia|reflexivity]. }
    destruct iz.
    + rewrite zset_range by lia. cbn [eget].
      destruct (put_prev_total w st1 bp kz 0 0 W1 B) as (st2 & -> & W2); [unfold kz; lia|lia|lia|]. cbn [eget].
      destruct (UB 0 ltac:(lia)) as [U1 U2].
      assert (S k < last)%nat as Hlt. { destruct (Nat.eq_dec (S k) last) as [Hkl|]; [specialize (Hiz Hkl); discriminate|lia]. }
      eapply esafe_mono; [apply (IH nz _ st2 W2); [lia|lia|intros; apply Hz1; lia|rewrite upd_length; exact Ld|exact U1]|].
      intros [[b' nz'] st'] (H1 & H2 & H3 & H4 & H5). rewrite <- U2. auto.
    + destruct (ac_ctx_total w legacy ak st1 bp dcur kz kn A W1 B Ld) as (av & sc & -> & Hav & Hsc); [unfold kz; lia|lia|]. cbn [eget fst snd].
      eapply esafe_bind; [apply (dec_bit_safe 1088); [exact P2|unfold kz; lia]|]. intros [sb s2] Q2. cbn [snd] in Q2. cbv beta iota.
      destruct (zero_density_range nz kz (cm_bits m)) as (zd & -> & Hzd); [lia|unfold kz; lia|unfold kz; lia|exact M2|]. cbn [eget].
      eapply esafe_bind; [apply (dec_abs_safe cmap codes lim 640); [exact T|exact P4|intros j Hj; unfold kz; lia|nia]|].
      intros [absval e3] [Ha Q3]. cbn [fst snd] in Ha, Q3. cbv beta iota. rewrite zset_range by lia. cbn [eget].
      set (st2 := mkAC (ac_zero st1) s2 (ac_nnz st1) e3 (ac_pnnz st1) (ac_abs st1) (ac_sgn st1)).
      assert (acst_ok w st2) as W2 by (apply (acst_ok_with w st1); assumption). pose proof (b2_01 sb) as Hsb.
      destruct (put_prev_total w st2 bp kz (b2 sb + 1) absval W2 B) as (st3 & -> & W3); [unfold kz; lia|lia|lia|]. cbn [eget].
      destruct (UB (to_i16 ((1 - 2 * b2 sb) * absval))) as [U1 U2]. { rewrite to_i16_id; [nia|unfold i16; nia]. }
      eapply esafe_mono; [apply (IH (nz + 1) _ st3 W3); [lia|lia|intros; lia|rewrite upd_length; exact Ld|exact U1]|].
      intros [[b' nz'] st'] (H1 & H2 & H3 & H4 & H5). rewrite <- U2. auto.
Qed.

Lemma last_nonzero_spec o b : order_ok o -> length b = 64%nat -> forall k, (k <= 63)%nat ->
  exists l, last_nonzero o b k = Some l /\ (l <= k)%nat /\
    (forall k' kn, Z.of_nat l < k' <= Z.of_nat k -> zget o k' = Some kn -> zget b kn = Some 0) /\
    (forall kn, l <> 0%nat -> zget o (Z.of_nat l) = Some kn -> zget b kn <> Some 0).
Proof.
  intros Ho Lb. induction k as [|k IH]; intros Hk.
  - exists 0%nat. cbn [last_nonzero]. split; [reflexivity|]. split; [lia|]. split; [intros; lia|intros; congruence].
  - cbn [last_nonzero]. destruct (order_get o (Z.of_nat (S k)) Ho) as (kn & E & Hkn & _); [lia|]. rewrite E. unfold obind at 1.
    destruct (zget_range b kn) as (c & Ec & _); [lia|]. rewrite Ec. unfold obind. destruct (Z.eqb_spec c 0) as [->|N].
    + destruct (IH ltac:(lia)) as (l & El & Hl & H1 & H2). exists l. split; [exact El|]. split; [lia|]. split; [|exact H2].
      intros k' kn' Hk' E'. destruct (Z.eq_dec k' (Z.of_nat (S k))) as [->|]; [congruence|]. apply (H1 k'); [lia|exact E'].
    + exists (S k). split; [reflexivity|]. split; [lia|]. split; [intros; lia|]. intros kn' _ E'. rewrite E in E'. injection E' as <-. rewrite Ec. congruence.
Qed.

Lemma zget_dc_only b i : length b = 64%nat -> zget (dc_only b) i = if i =? 0 then zget b 0 else if (1 <=? i) && (i <? 64) then Some 0 else None.
Proof.
  intros L. destruct b as [|v b]; [discriminate|]. unfold zget, dc_only. destruct (Z.ltb_spec i 0).
  - destruct (Z.eqb_spec i 0); [lia|]. destruct (Z.leb_spec 1 i); [lia|reflexivity].
  - destruct (Z.eqb_spec i 0) as [->|]; [reflexivity|]. destruct (Z.leb_spec 1 i); [|lia]. cbn [andb].
    replace (Z.to_nat i) with (S (Z.to_nat (i - 1))) by lia. cbn [nth_error]. destruct (Z.ltb_spec i 64).
    + apply nth_error_repeat. lia.
    + apply nth_error_None. rewrite repeat_length. lia.
Qed.

Lemma loop_rel_start ak b last : ak_ok ak -> length b = 64%nat -> (last <= 63)%nat ->
  (forall k' kn, Z.of_nat last < k' <= 63 -> zget (ak_order ak) k' = Some kn -> zget b kn = Some 0) ->
  loop_rel ak b last (repeat 0 64) (dc_only b).
Proof.
  intros (O & _) Lb Hl H. split; [reflexivity|]. split; [reflexivity|]. split; [|split].
  - intros i Hi. rewrite zget_dc_only by exact Lb. destruct (Z.eqb_spec i 0); [lia|]. destruct (Z.leb_spec 1 i); [|lia]. cbn [andb].
    unfold zget. destruct (Z.ltb_spec i 0); [lia|]. destruct (Z.ltb_spec i 64).
    + apply nth_error_repeat. lia.
    + apply nth_error_None. rewrite repeat_length. lia.
  - intros k' kn Hk' E. destruct (order_get (ak_order ak) k' O) as (v & E' & Hv & Hv1); [lia|]. rewrite E in E'. injection E' as <-. specialize (Hv1 ltac:(lia)).
    rewrite zget_dc_only by exact Lb. destruct (Z.eqb_spec kn 0); [lia|]. destruct (Z.leb_spec 1 kn); [|lia]. destruct (Z.ltb_spec kn 64); [|lia]. cbn [andb].
    destruct (Z.ltb_spec (Z.of_nat last) k'); [|reflexivity]. symmetry. apply (H k'); [lia|exact E].
  - rewrite zget_dc_only by exact Lb. reflexivity.
Qed.

Lemma enc_ac_block_run w lim legacy ak m bp e b st cmap codes : ak_ok ak -> bp_ok bp w -> length b = 64%nat -> ac_bounded b ->
  meta_fits m lim -> acst_ok w st -> (e = true -> dc_only b = b) ->
  exists its st', enc_ac_block legacy ak m bp e b st = Some (its, st') /\ acst_ok w st' /\ Forall (cshape lim) its /\
    (Forall (has_table cmap codes) its -> elock cmap codes (dec_ac_block cmap codes legacy ak m bp e (dc_only b) st) its (b, st')).
Proof.
  intros A B Lb Hb M W He. unfold enc_ac_block, dec_ac_block. destruct e.
  - unfold obind at 1 2. cbn [snd fst].
    assert (mkAC (ac_zero st) (ac_sign st) (ac_nnz st) (ac_extra st) (ac_pnnz st) (ac_abs st) (ac_sgn st) = st) as -> by (destruct st; reflexivity).
    destruct (clear_prev_total w bp B (above 0) st W (above_range 0 ltac:(lia))) as (st1 & -> & W1). unfold obind at 1. cbn [enc_ac_loop]. unfold obind at 1.
    destruct (set_pnnz_total w st1 (bp_x bp) 0 W1 (bp_hx _ _ B)) as (st2 & E2 & W2); [lia|]. rewrite E2. unfold obind.
    eexists; eexists. split; [reflexivity|]. split; [exact W2|]. split; [constructor|]. intros _. cbn [eget]. rewrite E2. cbn [eget]. rewrite (He eq_refl). apply elock_ret.
  - destruct (last_nonzero_spec (ak_order ak) b (proj1 A) Lb 63 ltac:(lia)) as (last & El & Hl & H1 & H2). rewrite El. unfold obind at 1.
    destruct (nnz_ctx_total w st bp W B) as (c & Ec & Hc). rewrite Ec. unfold obind at 2.
    pose proof W as (P1 & P2 & P3 & P4 & R).
    destruct (enc_nnz_run lim cmap codes (63 * c) ltac:(lia) ltac:(lia) 6 (Z.of_nat last) 1 (ac_nnz st) P3 ltac:(lia)) as (i0 & n0 & E0 & Q0 & S0 & K0).
    { change (6 - Z.of_nat 6) with 0. change (7 - Z.of_nat 6) with 1. lia. }
    rewrite E0. unfold obind at 1. cbn [fst snd].
    set (st0 := mkAC (ac_zero st) (ac_sign st) n0 (ac_extra st) (ac_pnnz st) (ac_abs st) (ac_sgn st)).
    assert (acst_ok w st0) as W0. { unfold acst_ok. cbn [st0 ac_zero ac_sign ac_nnz ac_extra ac_pnnz ac_abs ac_sgn]. auto. }
    destruct (clear_prev_total w bp B (above last) st0 W0 (above_range last Hl)) as (st1 & E1 & W1). rewrite E1. unfold obind at 1.
    destruct (enc_ac_loop_run w lim legacy ak m bp b last cmap codes A B Lb Hb M Hl last 0 (repeat 0 64) (dc_only b) st1 W1 (le_n _)) as (its & nz & st2 & E2 & W2 & Hnz & S2 & K2).
    + lia.
    + lia.
    + intros _ kn E Hne. apply (H2 kn Hne E).
    + apply loop_rel_start; [exact A|exact Lb|exact Hl|exact H1].
    + rewrite E2. unfold obind at 1. destruct (set_pnnz_total w st2 (bp_x bp) nz W2 (bp_hx _ _ B)) as (st3 & E3 & W3); [lia|]. rewrite E3. unfold obind.
      eexists; eexists. split; [reflexivity|]. split; [exact W3|]. split; [apply Forall_app; auto|]. intros T. apply Forall_app in T. destruct T as [_ T].
      cbn [eget]. eapply elock_bind; [exact K0|]. cbv beta iota.
      replace (1 * 2 ^ Z.of_nat 6 + Z.of_nat last mod 2 ^ Z.of_nat 6 - 64) with (Z.of_nat last).
      2:{ change (2 ^ Z.of_nat 6) with 64. rewrite Z.mod_small by lia. lia. }
      rewrite Nat2Z.id. fold st0. rewrite E1. cbn [eget]. eapply elock_bind_ret; [apply K2, T|]. cbv beta iota. rewrite E3. reflexivity.
Qed.

Lemma dec_ac_block_safe w lim legacy ak m bp e b st cmap codes : ak_ok ak -> bp_ok bp w -> meta_fits m lim -> tables_ok cmap codes lim ->
  acst_ok w st -> length b = 64%nat -> ac_bounded b ->
  esafe (fun '(b', st') => length b' = 64%nat /\ ac_bounded b' /\ zget b' 0 = zget b 0 /\ acst_ok w st') (dec_ac_block cmap codes legacy ak m bp e b st).
Proof.
  intros A B M T W Lb Hb. unfold dec_ac_block. destruct e.
  - destruct (clear_prev_total w bp B (above 0) st W (above_range 0 ltac:(lia))) as (st1 & -> & W1). cbn [eget].
    destruct (set_pnnz_total w st1 (bp_x bp) 0 W1 (bp_hx _ _ B)) as (st2 & -> & W2); [lia|]. cbn [eget esafe]. auto.
  - destruct (nnz_ctx_total w st bp W B) as (c & -> & Hc). cbn [eget]. pose proof W as (P1 & P2 & P3 & P4 & R).
    eapply esafe_bind; [apply (dec_nnz_safe (63 * c) ltac:(lia) ltac:(lia) 6 1 (ac_nnz st) P3 ltac:(lia))|].
    { change (6 - Z.of_nat 6) with 0. change (7 - Z.of_nat 6) with 1. lia. }
    intros [last n0] [Hl Q0]. cbn [fst snd] in Hl, Q0. cbv beta iota.
    set (st0 := mkAC (ac_zero st) (ac_sign st) n0 (ac_extra st) (ac_pnnz st) (ac_abs st) (ac_sgn st)).
    assert (acst_ok w st0) as W0. { unfold acst_ok. cbn [st0 ac_zero ac_sign ac_nnz ac_extra ac_pnnz ac_abs ac_sgn]. auto. }
    destruct (clear_prev_total w bp B (above (Z.to_nat last)) st0 W0 (above_range (Z.to_nat last) ltac:(lia))) as (st1 & -> & W1). cbn [eget].
    eapply esafe_bind; [apply (dec_ac_loop_safe w lim legacy ak m bp (Z.to_nat last) cmap codes A B M ltac:(lia) T); [exact W1|lia|lia|lia|exact Lb|exact Hb]|].
    intros [[b' nz'] st'] (H1 & H2 & H3 & H4 & H5). cbv beta iota. destruct (set_pnnz_total w st' (bp_x bp) nz' H5 (bp_hx _ _ B) H4) as (st3 & -> & W3). cbn [eget esafe]. auto.
Qed.

(** * The section *)

Lemma mixed_nth_lt {A B} (f g : A -> B) c p j d a : (j < c)%nat -> nth_error p j = Some a -> nth j (mixed f g c p) d = f a.
Proof. intros H E. apply nth_error_nth'. rewrite mixed_nth, E. cbn [option_map]. destruct (Nat.ltb_spec j c); [reflexivity|lia]. Qed.

Section AC.
Variables (lim : Z) (legacy : bool) (ms : list cmeta) (aks : list accst) (planes : list plane) (flags : list (list bool)) (cmap : list Z) (codes : list (list Z)).

Definition ac_comp_ok (i : nat) (m : cmeta) : Prop :=
  exists ak p fl, nth_error aks i = Some ak /\ nth_error planes i = Some p /\ nth_error flags i = Some fl /\
    ak_ok ak /\ meta_fits m lim /\ length p = (cm_w m * cm_h m)%nat /\ length fl = (cm_w m * cm_h m)%nat /\
    Forall (fun b => length b = 64%nat /\ ac_bounded b) p /\
    (forall j b, nth_error fl j = Some true -> nth_error p j = Some b -> dc_only b = b).
Definition ac_inv (cnt : list nat) (sts : list acst) (dplanes : list plane) : Prop :=
  forall i m p, nth_error ms i = Some m -> nth_error planes i = Some p -> exists c st,
    nth_error cnt i = Some c /\ nth_error sts i = Some st /\ nth_error dplanes i = Some (mixed (fun b => b) dc_only c p) /\
    (c <= cm_w m * cm_h m)%nat /\ acst_ok (cm_w m) st.

Lemma neighbours_ok w h (p : plane) x y : (x < w)%nat -> (y < h)%nat -> length p = (w * h)%nat -> (forall j, (j < y * w + x)%nat -> length (nth j p []) = 64%nat) ->
  bp_ok (neighbours w p x y) w.
Proof.
  intros Hx Hy L F. constructor; cbn [neighbours bp_x bp_y bp_w bp_up bp_left]; try lia.
  - intros H. destruct (Nat.eqb_spec y 0); [lia|]. apply F. nia.
  - intros H. destruct (Nat.eqb_spec x 0); [lia|]. apply F. lia.
Qed.

Lemma ac_run : (forall i m, nth_error ms i = Some m -> ac_comp_ok i m) ->
  forall vs cnt cnt' sts dplanes, walk ms cnt vs = Some cnt' -> ac_inv cnt sts dplanes ->
  exists its, enc_ac legacy ms aks planes flags vs sts = Some its /\ Forall (cshape lim) its /\
    exists sts' dplanes', ac_inv cnt' sts' dplanes' /\ length dplanes' = length dplanes /\
      (Forall (has_table cmap codes) its -> elock cmap codes (dec_ac cmap codes legacy ms aks flags vs sts dplanes) its dplanes').
Proof.
  intros C. induction vs as [|[[i y] x] vs IH]; intros cnt cnt' sts dplanes Wk I.
  - cbn [walk] in Wk. injection Wk as <-. exists []. split; [reflexivity|]. split; [constructor|].
    exists sts, dplanes. split; [exact I|]. split; [reflexivity|]. intros _. apply elock_ret.
  - cbn [walk] in Wk. destruct (nth_error ms i) as [m|] eqn:Em; [|discriminate].
    destruct (C i m Em) as (ak & p & fl & Ea & Ep & Ef & Ak & Mf & Lp & Lf & Fp & Fe).
    destruct (I i m p Em Ep) as (c & st & Ec & Es & Ed & Hc & Ok).
    rewrite Ec in Wk. destruct (Nat.ltb_spec x (cm_w m)) as [Hx|]; [|discriminate].
    destruct (Nat.ltb_spec y (cm_h m)) as [Hy|]; [|discriminate]. destruct (Nat.eqb_spec (y * cm_w m + x) c) as [Ej|]; [|discriminate].
    cbn [andb] in Wk. assert (c < length p)%nat as Hcp by (rewrite Lp; nia).
    destruct (nth_error p c) as [b|] eqn:Eb; [|apply nth_error_None in Eb; lia].
    destruct (nth_error fl c) as [e|] eqn:Ee; [|apply nth_error_None in Ee; lia].
    pose proof Fp as Fp'. rewrite Forall_forall in Fp'. destruct (Fp' b (nth_error_In _ _ Eb)) as [Lb Hb].
    assert (forall j, (j < y * cm_w m + x)%nat -> length (nth j p []) = 64%nat) as Fl.
    { intros j Hj. apply Fp'. apply nth_In. lia. }
    pose proof (neighbours_ok (cm_w m) (cm_h m) p x y Hx Hy Lp Fl) as Bp.
    destruct (enc_ac_block_run (cm_w m) lim legacy ak m _ e b st cmap codes Ak Bp Lb Hb Mf Ok) as (bits & st' & T & Ok' & Sh & K).
    { intros ->. apply (Fe c b Ee Eb). }
    pose proof (nth_error_lt _ _ _ Es) as Li2. pose proof (nth_error_lt _ _ _ Ed) as Li5. pose proof (nth_error_lt _ _ _ Ec) as Li6.
    destruct (IH (upd cnt i (S c)) cnt' (upd sts i st') (upd dplanes i (mixed (fun b => b) dc_only (S c) p)) Wk) as (its & En & Shs & sts' & dplanes' & Inv & LL & Lk).
    { intros i' m' p' Em' Ep'. destruct (Nat.eq_dec i i') as [<-|N].
      - rewrite Em in Em'. injection Em' as <-. rewrite Ep in Ep'. injection Ep' as <-. exists (S c), st'.
        rewrite !nth_error_upd_same by assumption. split; [reflexivity|]. split; [reflexivity|]. split; [reflexivity|]. split; [lia|exact Ok'].
      - rewrite !nth_error_upd_other by exact N. apply I; assumption. }
    cbn [enc_ac]. rewrite Em. unfold obind at 1. rewrite Ea. unfold obind at 1. rewrite Es. unfold obind at 1. rewrite Ep. unfold obind at 1.
    rewrite Ef. unfold obind at 1. cbv zeta. rewrite Ej, Eb. unfold obind at 1. rewrite Ee. unfold obind at 1. rewrite T. unfold obind at 1. cbn [fst snd].
    rewrite En. unfold obind. eexists. split; [reflexivity|]. split; [apply Forall_app; auto|].
    exists sts', dplanes'. split; [exact Inv|]. rewrite upd_length in LL. split; [exact LL|].
    intros TT. apply Forall_app in TT. destruct TT as [T1 T2].
    cbn [dec_ac]. rewrite Em. cbn [eget]. rewrite Ea. cbn [eget]. rewrite Es. cbn [eget]. rewrite Ed. cbn [eget]. rewrite Ef. cbn [eget]. cbv zeta.
    rewrite Ej, mixed_nth, Eb. cbn [option_map]. destruct (Nat.ltb_spec c c); [lia|]. cbn [eget]. rewrite Ee. cbn [eget].
    assert (neighbours (cm_w m) (mixed (fun b => b) dc_only c p) x y = neighbours (cm_w m) p x y) as ->.
    { unfold neighbours. assert (forall j, (j < c)%nat -> nth j (mixed (fun b => b) dc_only c p) [] = nth j p []) as G.
      { intros j Hj. destruct (nth_error p j) as [bj|] eqn:Ebj; [|apply nth_error_None in Ebj; lia].
        etransitivity; [exact (mixed_nth_lt (fun b : block => b) dc_only c p j [] bj Hj Ebj)|]. symmetry. apply nth_error_nth', Ebj. }
      unfold plane, block in *. f_equal.
      - destruct (Nat.eqb_spec y 0); [reflexivity|]. apply G. nia.
      - destruct (Nat.eqb_spec x 0); [reflexivity|]. apply G. lia. }
    eapply elock_bind; [apply K, T1|]. cbv beta iota.
    pose proof (mixed_step (fun b : block => b) dc_only c p b Eb) as Ms. cbv beta in Ms. rewrite Ms. apply Lk, T2.
Qed.
End AC.

(** * Safety: any input *)

(** AC part of a plane under construction. *)
Definition ac_plane_ok (m : cmeta) (p0 p : plane) : Prop :=
  length p = (cm_w m * cm_h m)%nat /\
  (forall j b, nth_error p j = Some b -> length b = 64%nat /\ ac_bounded b) /\ (forall j, dc_at p j = dc_at p0 j).
Definition ac_dinv (ms : list cmeta) (planes0 : list plane) (cnt : list nat) (sts : list acst) (planes : list plane) : Prop :=
  forall i m, nth_error ms i = Some m -> exists c st p p0,
    nth_error cnt i = Some c /\ nth_error sts i = Some st /\ nth_error planes i = Some p /\ nth_error planes0 i = Some p0 /\
    (c <= cm_w m * cm_h m)%nat /\ acst_ok (cm_w m) st /\ ac_plane_ok m p0 p.

Lemma zget_0_nth b b' : length b = 64%nat -> length b' = 64%nat -> zget b' 0 = zget b 0 -> nth 0 b' 0 = nth 0 b 0.
Proof. intros L L' H. destruct b as [|v b]; [discriminate|]. destruct b' as [|v' b']; [discriminate|]. cbn in H. injection H as ->. reflexivity. Qed.

Lemma dec_ac_safe cmap codes lim legacy ms aks flags planes0 : tables_ok cmap codes lim ->
  (forall i m, nth_error ms i = Some m -> exists ak fl, nth_error aks i = Some ak /\ nth_error flags i = Some fl /\ ak_ok ak /\ meta_fits m lim /\
     length fl = (cm_w m * cm_h m)%nat) ->
  forall vs cnt cnt' sts planes, walk ms cnt vs = Some cnt' -> ac_dinv ms planes0 cnt sts planes ->
  esafe (fun planes' => exists sts', ac_dinv ms planes0 cnt' sts' planes' /\ length planes' = length planes)
        (dec_ac cmap codes legacy ms aks flags vs sts planes).
Proof.
  intros T C. induction vs as [|[[i y] x] vs IH]; intros cnt cnt' sts planes W I.
  - cbn [walk] in W. injection W as <-. cbn [dec_ac esafe]. exists sts. auto.
  - cbn [walk] in W. destruct (nth_error ms i) as [m|] eqn:Em; [|discriminate].
    destruct (C i m Em) as (ak & fl & Ea & Ef & Ak & Mf & Lf).
    destruct (I i m Em) as (c & st & p & p0 & Ec & Es & Ep & Ep0 & Hc & Ok & (Lp & Bp & Dp)).
    rewrite Ec in W. destruct (Nat.ltb_spec x (cm_w m)) as [Hx|]; [|discriminate].
    destruct (Nat.ltb_spec y (cm_h m)) as [Hy|]; [|discriminate]. destruct (Nat.eqb_spec (y * cm_w m + x) c) as [Ej|]; [|discriminate].
    cbn [andb] in W. assert (c < length p)%nat as Hcp by (rewrite Lp; nia).
    destruct (nth_error p c) as [b|] eqn:Eb; [|apply nth_error_None in Eb; lia].
    destruct (nth_error fl c) as [e|] eqn:Ee; [|apply nth_error_None in Ee; lia]. destruct (Bp c b Eb) as [Lb Hb].
    assert (forall j, (j < y * cm_w m + x)%nat -> length (nth j p []) = 64%nat) as Fl.
    { intros j Hj. destruct (nth_error p j) as [bj|] eqn:Ebj; [|apply nth_error_None in Ebj; lia].
      pose proof (nth_error_nth' _ _ _ [] Ebj) as R. unfold plane, block in *. rewrite R. apply (Bp j bj Ebj). }
    pose proof (neighbours_ok (cm_w m) (cm_h m) p x y Hx Hy Lp Fl) as Nb.
    pose proof (nth_error_lt _ _ _ Es) as Li2. pose proof (nth_error_lt _ _ _ Ep) as Li4. pose proof (nth_error_lt _ _ _ Ec) as Li5.
    cbn [dec_ac]. rewrite Em. cbn [eget]. rewrite Ea. cbn [eget]. rewrite Es. cbn [eget]. rewrite Ep. cbn [eget]. rewrite Ef. cbn [eget]. cbv zeta.
    rewrite Ej, Eb. cbn [eget]. rewrite Ee. cbn [eget].
    eapply esafe_bind; [apply (dec_ac_block_safe (cm_w m) lim); assumption|].
    intros [b' st'] (H1 & H2 & H3 & H4). cbv beta iota.
    eapply esafe_mono; [eapply (IH _ _ _ _ W)|].
    + intros i' m' Em'. destruct (Nat.eq_dec i i') as [<-|N].
      * rewrite Em in Em'. injection Em' as <-. exists (S c), st', (upd p c b'), p0.
        rewrite !nth_error_upd_same by assumption. split; [reflexivity|]. split; [reflexivity|]. split; [reflexivity|]. split; [exact Ep0|].
        split; [lia|]. split; [exact H4|]. split; [rewrite upd_length; exact Lp|]. split.
        -- intros j bj. destruct (Nat.eq_dec c j) as [<-|Nj].
           ++ rewrite nth_error_upd_same by exact Hcp. intros E. injection E as <-. auto.
           ++ rewrite nth_error_upd_other by exact Nj. apply Bp.
        -- intros j. destruct (Nat.eq_dec c j) as [<-|Nj].
           ++ rewrite <- Dp. unfold dc_at. pose proof (nth_error_nth' _ _ _ [] (nth_error_upd_same p c b' Hcp)) as R1.
              pose proof (nth_error_nth' _ _ _ [] Eb) as R2. unfold plane, block in *. rewrite R1, R2. apply zget_0_nth; assumption.
           ++ rewrite dc_at_upd_other by exact Nj. apply Dp.
      * rewrite !nth_error_upd_other by exact N. apply I, Em'.
    + intros planes' (sts' & D & L1). rewrite upd_length in L1. exists sts'. auto.
Qed.
