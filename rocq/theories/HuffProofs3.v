(** BuildHuffmanTable as a whole: counting sort, filling of the root table, sub-tables. *)
From Verif Require Import Base BitModel BitProofs JBitModel JWriteProofs JReadProofs JHuffModel JHuffProofs JHuffPair
  HuffModel HuffProofs1 HuffProofs2.

(** * Canonical codes (specification) *)

(** The value of the canonical code of symbol [s]: codes are assigned in the order of length,
    then symbol, each code being the next free one. *)
Definition code_value (lens : list Z) (s : nat) : Z :=
  let l := nth s lens 0 in
  sumZ (map (fun t => let m := nth t lens 0 in
                      if (0 <? m) && ((m <? l) || ((m =? l) && (t <? s)%nat)) then 2 ^ (l - m) else 0)
            (seq 0 (length lens))).

(** Its bits in the order of the stream: the most significant bit of the value first. *)
Definition code_bits (lens : list Z) (s : nat) : list bool :=
  rev (bits_of (Z.to_nat (nth s lens 0)) (code_value lens s)).

(** A complete code: lengths up to 15 (0: symbol not used) that fill the code space. *)
Definition complete (lens : list Z) : Prop :=
  Forall (fun l => 0 <= l <= 15) lens
  /\ sumZ (map (fun l => if 0 <? l then 2 ^ (15 - l) else 0) lens) = 2 ^ 15.

(** * Lists of lengths *)

Lemma nth_repeat_lt {A} (a d : A) m : forall n, (n < m)%nat -> nth n (repeat a m) d = a.
Proof. induction m as [|m IH]; intros [|n] H; cbn [repeat nth]; [lia|lia|reflexivity|apply IH; lia]. Qed.

Definition zs (lo : Z) (n : nat) : list Z := map (fun i => lo + Z.of_nat i) (seq 0 n).
Lemma zs_S lo n : zs lo (S n) = lo :: zs (lo + 1) n.
Proof.
  unfold zs. cbn [seq map]. f_equal; [lia|]. rewrite <- seq_shift, map_map. apply map_ext. intros i. lia.
Qed.
Lemma zs_app lo a b : zs lo (a + b) = zs lo a ++ zs (lo + Z.of_nat a) b.
Proof.
  revert lo; induction a as [|a IH]; intros lo; [cbn [Nat.add]; replace (lo + Z.of_nat 0) with lo by lia; reflexivity|].
  cbn [Nat.add]. rewrite !zs_S, IH. cbn [app]. replace (lo + 1 + Z.of_nat a) with (lo + Z.of_nat (S a)) by lia. reflexivity.
Qed.
Lemma zs_in lo n x : In x (zs lo n) <-> lo <= x < lo + Z.of_nat n.
Proof.
  unfold zs. rewrite in_map_iff. split.
  - intros (i & E & H). apply in_seq in H. lia.
  - intros H. exists (Z.to_nat (x - lo)). split; [lia|]. apply in_seq. lia.
Qed.
Lemma zspan_zs lo hi : zspan lo hi = zs lo (Z.to_nat (hi - lo + 1)).
Proof. reflexivity. Qed.

Definition run (lens ls : list Z) : list Z := flat_map (fun l => repeat l (Z.to_nat (cnt l lens))) ls.
Definition nz (lens : list Z) : list Z := filter (fun l => 0 <? l) lens.
(** Number of used symbols with a length below [l]. *)
Definition bel (l : Z) (lens : list Z) : Z := Z.of_nat (length (filter (fun x => (0 <? x) && (x <? l)) lens)).

Lemma run_app lens a b : run lens (a ++ b) = run lens a ++ run lens b.
Proof. unfold run. apply flat_map_app. Qed.
Lemma run_in lens ls x : In x (run lens ls) -> In x ls.
Proof. unfold run. intros H. apply in_flat_map in H as (y & Hy & H). apply repeat_spec in H. congruence. Qed.
Lemma run_cnt lens lo n x : cnt x (run lens (zs lo n)) = if (lo <=? x) && (x <? lo + Z.of_nat n) then cnt x lens else 0.
Proof.
  revert lo; induction n as [|n IH]; intros lo.
  - unfold zs, run. cbn [seq map flat_map]. destruct (Z.leb_spec lo x), (Z.ltb_spec x (lo + Z.of_nat 0)); cbn [andb]; try lia; reflexivity.
  - rewrite zs_S. unfold run. cbn [flat_map]. fold (run lens (zs (lo + 1) n)). rewrite cnt_app, cnt_repeat, IH.
    pose proof (cnt_nonneg lo lens).
    destruct (Z.eqb_spec lo x) as [->|N].
    + destruct (Z.leb_spec (x + 1) x), (Z.leb_spec x x), (Z.ltb_spec x (x + Z.of_nat (S n))); cbn [andb]; lia.
    + destruct (Z.leb_spec (lo + 1) x), (Z.leb_spec lo x), (Z.ltb_spec x (lo + 1 + Z.of_nat n)), (Z.ltb_spec x (lo + Z.of_nat (S n))); cbn [andb]; lia.
Qed.
Lemma run_ascending lens n : forall lo, ascending (run lens (zs lo n)).
Proof.
  induction n as [|n IH]; intros lo; [exact I|]. rewrite zs_S. unfold run. cbn [flat_map]. fold (run lens (zs (lo + 1) n)).
  apply ascending_join; [apply ascending_repeat|apply IH|].
  intros x y Hx Hy. apply repeat_spec in Hx. apply run_in, zs_in in Hy. lia.
Qed.
Lemma run_range lens lo n : Forall (fun x => lo <= x < lo + Z.of_nat n) (run lens (zs lo n)).
Proof. apply Forall_forall. intros x H. apply zs_in. eapply run_in, H. Qed.

Lemma cnt_nz l lens : 1 <= l -> cnt l (nz lens) = cnt l lens.
Proof.
  intros H. induction lens as [|x r IH]; [reflexivity|]. unfold nz in *. cbn [filter]. destruct (Z.ltb_spec 0 x).
  - rewrite !cnt_cons, IH. reflexivity.
  - rewrite cnt_cons, IH. destruct (Z.eqb_spec x l); lia.
Qed.

Lemma kraft_repeat l n : kraft (repeat l n) = Z.of_nat n * wgt l.
Proof. induction n as [|n IH]; [reflexivity|]. cbn [repeat]. rewrite kraft_cons, IH. lia. Qed.

Lemma run_one lens lo : run lens (zs lo 1) = repeat lo (Z.to_nat (cnt lo lens)).
Proof. rewrite zs_S. unfold run, zs. cbn [seq map flat_map]. rewrite app_nil_r. reflexivity. Qed.

Lemma run_kraft lens n : kraft (run lens (zs 1 n)) = kle (Z.of_nat n) (nz lens).
Proof.
  induction n as [|n IH].
  - unfold zs, run. cbn [seq map flat_map]. rewrite kraft_nil. symmetry. apply kle_none.
    apply Forall_forall. intros x H. apply filter_In in H as [_ H]. apply Z.ltb_lt in H. lia.
  - replace (S n) with (n + 1)%nat by lia. rewrite zs_app, run_app, kraft_app, IH, run_one, kraft_repeat.
    rewrite (kle_step (Z.of_nat (n + 1))), cnt_nz by lia. pose proof (cnt_nonneg (1 + Z.of_nat n) lens).
    replace (Z.of_nat (n + 1) - 1) with (Z.of_nat n) by lia. replace (Z.of_nat (n + 1)) with (1 + Z.of_nat n) by lia. rewrite Z2Nat.id by lia. reflexivity.
Qed.

Lemma bel_step l lens : 1 <= l -> bel (l + 1) lens = bel l lens + cnt l lens.
Proof.
  intros H. induction lens as [|x r IH]; [reflexivity|]. rewrite cnt_cons. unfold bel in *. cbn [filter].
  destruct (Z.ltb_spec 0 x), (Z.ltb_spec x (l + 1)), (Z.ltb_spec x l), (Z.eqb_spec x l); cbn [andb length]; lia.
Qed.
Lemma bel_1 lens : bel 1 lens = 0.
Proof.
  induction lens as [|x r IH]; [reflexivity|]. unfold bel in *. cbn [filter].
  destruct (Z.ltb_spec 0 x), (Z.ltb_spec x 1); cbn [andb length]; lia.
Qed.
Lemma bel_mono a b lens : a <= b -> bel a lens <= bel b lens.
Proof.
  intros H. induction lens as [|x r IH]; [reflexivity|]. unfold bel in *. cbn [filter].
  destruct (Z.ltb_spec 0 x), (Z.ltb_spec x a), (Z.ltb_spec x b); cbn [andb length]; lia.
Qed.
Lemma bel_le a lens : 0 <= bel a lens <= Z.of_nat (length lens).
Proof.
  induction lens as [|x r IH]; unfold bel in *; cbn [filter length]; [lia|].
  destruct (Z.ltb_spec 0 x), (Z.ltb_spec x a); cbn [andb length]; lia.
Qed.
Lemma run_length lens n : Z.of_nat (length (run lens (zs 1 n))) = bel (Z.of_nat n + 1) lens.
Proof.
  induction n as [|n IH]; [rewrite bel_1; reflexivity|].
  replace (S n) with (n + 1)%nat by lia. rewrite zs_app, run_app, app_length, run_one, repeat_length, Nat2Z.inj_add, IH.
  pose proof (cnt_nonneg (1 + Z.of_nat n) lens).
  replace (Z.of_nat (n + 1)) with (1 + Z.of_nat n) by lia. rewrite (bel_step (1 + Z.of_nat n)) by lia.
  replace (Z.of_nat n + 1) with (1 + Z.of_nat n) by lia. lia.
Qed.

Lemma run_split lens l : 1 <= l <= 15 ->
  run lens (zs 1 15) = run lens (zs 1 (Z.to_nat (l - 1))) ++ repeat l (Z.to_nat (cnt l lens)) ++ run lens (zs (l + 1) (Z.to_nat (15 - l))).
Proof.
  intros H. replace 15%nat with (Z.to_nat (l - 1) + (1 + Z.to_nat (15 - l)))%nat at 1 by lia.
  rewrite zs_app, run_app. f_equal. replace (1 + Z.of_nat (Z.to_nat (l - 1))) with l by lia.
  rewrite zs_app, run_app, run_one. do 2 f_equal. 
Qed.

(** The position of a symbol in the sorted order, its length and the start of its code. *)
Lemma run_pos lens l r : 1 <= l <= 15 -> 0 <= r < cnt l lens ->
  let j := Z.to_nat (bel l lens + r) in
  (j < length (run lens (zs 1 15)))%nat /\ nth j (run lens (zs 1 15)) 0 = l
  /\ kpos (run lens (zs 1 15)) j = kle (l - 1) (nz lens) + r * wgt l.
Proof.
  intros Hl Hr j. pose proof (bel_le l lens). rewrite (run_split lens l Hl).
  pose proof (run_length lens (Z.to_nat (l - 1))) as L. rewrite Z2Nat.id in L by lia. replace (l - 1 + 1) with l in L by lia.
  set (A := run lens (zs 1 (Z.to_nat (l - 1)))) in *.
  assert (Ej : j = (length A + Z.to_nat r)%nat) by lia. rewrite Ej.
  rewrite !app_length, repeat_length. split; [lia|]. split.
  - rewrite app_nth2_plus, app_nth1 by (rewrite repeat_length; lia). apply nth_repeat_lt. lia.
  - unfold kpos. rewrite firstn_app_2, kraft_app. unfold A. rewrite run_kraft, Z2Nat.id by lia. f_equal.
    rewrite firstn_app, repeat_length. replace (Z.to_nat r - Z.to_nat (cnt l lens))%nat with 0%nat by lia. cbn [firstn]. rewrite app_nil_r.
    replace (Z.to_nat (cnt l lens)) with (Z.to_nat r + (Z.to_nat (cnt l lens) - Z.to_nat r))%nat by lia.
    rewrite repeat_app. rewrite <- (repeat_length l (Z.to_nat r)) at 1. rewrite firstn_app_exact, kraft_repeat, Z2Nat.id by lia. reflexivity.
Qed.

(** * The canonical code and its position *)

Lemma firstn_snoc_nth (lens : list Z) n : (n < length lens)%nat -> firstn (S n) lens = firstn n lens ++ [nth n lens 0].
Proof. intros H. apply firstn_S_nth. exact H. Qed.

Lemma sumZ_app a b : sumZ (a ++ b) = sumZ a + sumZ b.
Proof. induction a as [|x a IH]; cbn [app]; [reflexivity|]. change (sumZ (x :: a ++ b)) with (x + sumZ (a ++ b)). change (sumZ (x :: a)) with (x + sumZ a). lia. Qed.

Lemma nz_app a b : nz (a ++ b) = nz a ++ nz b.
Proof. apply filter_app. Qed.
Lemma kle_app x a b : kle x (a ++ b) = kle x a + kle x b.
Proof. unfold kle. rewrite filter_app, kraft_app. reflexivity. Qed.

Lemma code_value_pos lens s : (s < length lens)%nat -> Forall (fun l => 0 <= l <= 15) lens -> 1 <= nth s lens 0 ->
  code_value lens s * wgt (nth s lens 0) = kle (nth s lens 0 - 1) (nz lens) + cnt (nth s lens 0) (firstn s lens) * wgt (nth s lens 0).
Proof.
  intros Hs F Hl. set (l := nth s lens 0) in *. assert (Hl15 : l <= 15) by (rewrite Forall_forall in F; apply F, nth_In, Hs).
  unfold code_value. fold l.
  set (g := fun t => let m := nth t lens 0 in if (0 <? m) && ((m <? l) || ((m =? l) && (t <? s)%nat)) then 2 ^ (l - m) else 0).
  assert (X : forall n, (n <= length lens)%nat ->
    sumZ (map g (seq 0 n)) * wgt l = kle (l - 1) (nz (firstn n lens)) + cnt l (firstn (Nat.min n s) lens) * wgt l).
  { induction n as [|n IH]; intros Hn; [cbn [seq map Nat.min firstn]; reflexivity|].
    rewrite seq_S, map_app, sumZ_app, Z.mul_add_distr_r, IH by lia. cbn [map Nat.add]. change (sumZ [g n]) with (g n + 0).
    rewrite firstn_snoc_nth, nz_app, kle_app by lia. set (m := nth n lens 0).
    assert (Hm : 0 <= m <= 15) by (rewrite Forall_forall in F; apply F, nth_In; lia).
    assert (E : kle (l - 1) (nz [m]) = if (0 <? m) && (m <? l) then wgt m else 0).
    { unfold nz. cbn [filter]. destruct (Z.ltb_spec 0 m); cbn [andb]; [|reflexivity]. rewrite kle_cons.
      change (kle (l - 1) []) with 0. destruct (Z.leb_spec m (l - 1)), (Z.ltb_spec m l); lia. }
    rewrite E. unfold g. cbv zeta. fold m.
    destruct (Nat.ltb_spec n s) as [Hns|Hns].
    - replace (Nat.min (S n) s) with (S n) by lia. replace (Nat.min n s) with n by lia.
      rewrite firstn_snoc_nth, cnt_app by lia. fold m. rewrite cnt_cons. change (cnt l []) with 0.
      destruct (Z.ltb_spec 0 m), (Z.ltb_spec m l), (Z.eqb_spec m l) as [Em|Em]; cbn [andb orb]; try lia.
      + rewrite (wgt_mul m (l - m)) by lia. replace (m + (l - m)) with l by lia. lia.
      + rewrite Em, Z.sub_diag. change (2 ^ 0) with 1. lia.
    - replace (Nat.min (S n) s) with s by lia. replace (Nat.min n s) with s by lia. rewrite andb_false_r, orb_false_r.
      destruct (Z.ltb_spec 0 m), (Z.ltb_spec m l); cbn [andb]; try lia.
      rewrite (wgt_mul m (l - m)) by lia. replace (m + (l - m)) with l by lia. lia. }
  rewrite X by lia. rewrite firstn_all, Nat.min_r by lia. reflexivity.
Qed.

(** * Counting *)

Lemma aget_nthZ (b : list Z) i : 0 <= i < Z.of_nat (length b) -> aget b i = JOk (nth (Z.to_nat i) b 0).
Proof. intros H. apply aget_Some. split; [lia|]. apply nth_err_nth. lia. Qed.

Lemma count_lens_ok lens : forall counts, Forall (fun l => 0 <= l <= 15) lens -> length counts = 16%nat ->
  (forall l, 0 <= l <= 15 -> 0 <= nth (Z.to_nat l) counts 0 /\ nth (Z.to_nat l) counts 0 + Z.of_nat (length lens) < 65536) ->
  exists counts', count_lens lens counts = JOk counts' /\ length counts' = 16%nat
    /\ forall l, 0 <= l <= 15 -> nth (Z.to_nat l) counts' 0 = nth (Z.to_nat l) counts 0 + cnt l lens.
Proof.
  induction lens as [|x r IH]; intros counts F L C.
  - exists counts. split; [reflexivity|]. split; [exact L|]. intros l Hl. change (cnt l []) with 0. lia.
  - pose proof (Forall_inv F) as Hx. pose proof (Forall_inv_tail F) as Fr. cbv beta in Hx. cbn [length] in C. cbn [count_lens].
    rewrite (aget_nthZ counts x) by lia. cbn [jbind].
    rewrite aset_ok by lia. cbn [jbind]. rewrite Z.mod_small by (specialize (C x Hx); change (2 ^ 16) with 65536; lia).
    set (c1 := upd counts (Z.to_nat x) (nth (Z.to_nat x) counts 0 + 1)).
    assert (N1 : forall l, 0 <= l <= 15 -> nth (Z.to_nat l) c1 0 = nth (Z.to_nat l) counts 0 + (if x =? l then 1 else 0)).
    { intros l Hl. unfold c1. destruct (Z.eqb_spec x l) as [<-|N]; [rewrite nth_upd_same by lia; reflexivity|rewrite nth_upd_other by lia; lia]. }
    destruct (IH c1 Fr) as (c' & E & L' & H').
    + unfold c1. rewrite upd_length. exact L.
    + intros l Hl. rewrite N1 by exact Hl. specialize (C l Hl). destruct (x =? l); lia.
    + exists c'. split; [exact E|]. split; [exact L'|]. intros l Hl. rewrite H', N1, cnt_cons by exact Hl. lia.
Qed.
