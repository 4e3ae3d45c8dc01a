(** BuildHuffmanTable as a whole, continued. *)
From Verif Require Import Base BitModel BitProofs JBitModel JWriteProofs JReadProofs JHuffModel JHuffProofs JHuffPair
  HuffModel HuffProofs1 HuffProofs2 HuffProofs3.

(** * Counting sort *)

Lemma bh_offsets_nth cs : forall k sum, Forall (fun c => 0 <= c) cs -> 0 <= sum -> sum + sumZ cs < 65536 -> (k < length cs)%nat ->
  nth k (bh_offsets cs sum) 0 = sum + sumZ (firstn k cs).
Proof.
  induction cs as [|c r IH]; intros k sum F Hs Hb Hk; [cbn [length] in Hk; lia|].
  pose proof (Forall_inv F) as Hc. pose proof (Forall_inv_tail F) as Fr. cbv beta in Hc.
  change (sumZ (c :: r)) with (c + sumZ r) in Hb. cbn [bh_offsets length] in *.
  assert (N : 0 <= sumZ r) by (clear - Fr; induction Fr as [|x l H _ IH]; [cbn; lia|change (sumZ (x :: l)) with (x + sumZ l); lia]).
  assert (E : (if c =? 0 then sum else (sum + c) mod 2 ^ 16) = sum + c).
  { destruct (Z.eqb_spec c 0); [lia|]. apply Z.mod_small. change (2 ^ 16) with 65536. lia. }
  rewrite E. destruct k as [|k]; cbn [nth firstn]; [change (sumZ []) with 0; lia|].
  rewrite IH by (try assumption; lia). change (sumZ (c :: firstn k r)) with (c + sumZ (firstn k r)). lia.
Qed.

Lemma bh_offsets_len cs : forall sum, length (bh_offsets cs sum) = length cs.
Proof. induction cs as [|c r IH]; intros sum; [reflexivity|]. cbn [bh_offsets length]. rewrite IH. reflexivity. Qed.

(** What the counts say about [lens]. *)
Definition counts_lens (lens count : list Z) : Prop :=
  length count = 16%nat /\ forall l, 1 <= l <= 15 -> nth (Z.to_nat l) count 0 = cnt l lens.

Lemma skipn1_nth (count : list Z) k : nth k (skipn 1 count) 0 = nth (S k) count 0.
Proof. destruct count as [|c r]; [destruct k; reflexivity|reflexivity]. Qed.

Lemma counts_sum lens count : counts_lens lens count -> forall k, (k <= 15)%nat -> sumZ (firstn k (skipn 1 count)) = bel (Z.of_nat k + 1) lens.
Proof.
  intros [L C]. induction k as [|k IH]; intros Hk; [rewrite bel_1; reflexivity|].
  rewrite firstn_snoc_nth, sumZ_app, IH by (try lia; rewrite skipn_length; lia).
  change (sumZ [nth k (skipn 1 count) 0]) with (nth k (skipn 1 count) 0 + 0). rewrite skipn1_nth.
  specialize (C (Z.of_nat (S k)) ltac:(lia)). rewrite Nat2Z.id in C. rewrite C.
  rewrite (bel_step (Z.of_nat (S k))) by lia. replace (Z.of_nat k + 1) with (Z.of_nat (S k)) by lia. lia.
Qed.

Lemma bh_sort_ok (all : list Z) : Forall (fun l => 0 <= l <= 15) all -> forall lens done offset sorted,
  all = done ++ lens -> length offset = 16%nat -> length sorted = length all ->
  (forall l, 1 <= l <= 15 -> nth (Z.to_nat l) offset 0 = bel l all + cnt l done) ->
  (forall s, (s < length done)%nat -> 1 <= nth s all 0 ->
     aget sorted (bel (nth s all 0) all + cnt (nth s all 0) (firstn s all)) = JOk (Z.of_nat s)) ->
  exists offset' sorted', bh_sort (Z.of_nat (length done)) lens offset sorted = JOk (offset', sorted')
    /\ length sorted' = length all
    /\ (forall l, 1 <= l <= 15 -> nth (Z.to_nat l) offset' 0 = bel (l + 1) all)
    /\ (forall s, (s < length all)%nat -> 1 <= nth s all 0 ->
         aget sorted' (bel (nth s all 0) all + cnt (nth s all 0) (firstn s all)) = JOk (Z.of_nat s)).
Proof.
  intros F. induction lens as [|x r IH]; intros done offset sorted E LO LS HO HS.
  - exists offset, sorted. split; [reflexivity|]. rewrite app_nil_r in E. subst done. split; [exact LS|]. split; [|exact HS].
    intros l Hl. rewrite HO, bel_step by lia. reflexivity.
  - cbn [bh_sort].
    assert (Es : Z.of_nat (length done) + 1 = Z.of_nat (length (done ++ [x]))) by (rewrite app_length; cbn [length]; lia).
    assert (E' : all = (done ++ [x]) ++ r) by (rewrite <- app_assoc; exact E).
    assert (Nx : nth (length done) all 0 = x) by (rewrite E, app_nth2, Nat.sub_diag by lia; reflexivity).
    assert (Ld : (length done < length all)%nat) by (rewrite E, app_length; cbn [length]; lia).
    assert (Hx : 0 <= x <= 15) by (rewrite Forall_forall in F; rewrite <- Nx; apply F, nth_In, Ld).
    assert (Fd : firstn (length done) all = done) by (rewrite E; apply firstn_app_exact).
    destruct (Z.eqb_spec x 0) as [->|N].
    + rewrite Es. apply IH; try assumption.
      * intros l Hl. rewrite HO by exact Hl. rewrite cnt_app, cnt_cons. change (cnt l []) with 0.
        destruct (Z.eqb_spec 0 l); lia.
      * intros s Hs Hn. apply HS; [|exact Hn]. rewrite app_length in Hs. cbn [length] in Hs.
        assert (s <> length done) by (intros ->; lia). lia.
    + rewrite (aget_nthZ offset x) by lia. cbn [jbind]. rewrite HO by lia.
      set (o := bel x all + cnt x done).
      assert (Cx : forall l, cnt l done + (if x =? l then 1 else 0) + cnt l r = cnt l all).
      { intros l. rewrite E, cnt_app, cnt_cons. lia. }
      assert (Ho : 0 <= o < Z.of_nat (length all)).
      { unfold o. pose proof (bel_le x all). pose proof (cnt_nonneg x done). pose proof (bel_step x all ltac:(lia)).
        pose proof (bel_le (x + 1) all). specialize (Cx x). rewrite Z.eqb_refl in Cx. pose proof (cnt_nonneg x r). lia. }
      rewrite aset_ok by lia. cbn [jbind]. rewrite aset_ok by lia. cbn [jbind]. rewrite Es.
      apply IH; try assumption.
      * rewrite upd_length. exact LO.
      * rewrite upd_length. exact LS.
      * intros l Hl. rewrite cnt_app, cnt_cons. change (cnt l []) with 0.
        destruct (Z.eqb_spec x l) as [<-|N2]; [rewrite nth_upd_same by lia; unfold o; lia|].
        rewrite nth_upd_other by lia. rewrite HO by exact Hl. lia.
      * intros s Hs Hn. rewrite app_length in Hs. cbn [length] in Hs.
        destruct (Nat.eq_dec s (length done)) as [->|Ns].
        -- rewrite Nx, Fd. fold o. apply aget_upd_same. lia.
        -- assert (Hs' : (s < length done)%nat) by lia. specialize (HS s Hs' Hn). 
           set (l := nth s all 0) in *. rewrite aget_upd_other; [exact HS|lia|].
           assert (C1 : cnt l (firstn s all) + 1 <= cnt l done).
           { rewrite <- Fd. replace (length done) with (s + (length done - s))%nat by lia. rewrite firstn_plus, cnt_app.
             assert (X : (s < length all)%nat) by lia. rewrite (nth_error_skipn_cons all s l (nth_err_nth all s 0 X)).
             replace (length done - s)%nat with (S (length done - s - 1)) by lia. cbn [firstn]. rewrite cnt_cons.
             rewrite Z.eqb_refl. pose proof (cnt_nonneg l (firstn (length done - s - 1) (skipn (S s) all))). lia. }
           destruct (Z_lt_ge_dec l x) as [H1|H1].
           ++ pose proof (bel_step l all ltac:(lia)). pose proof (bel_mono (l + 1) x all ltac:(lia)).
              pose proof (Cx l). pose proof (cnt_nonneg l r). pose proof (cnt_nonneg x done). unfold o. destruct (x =? l); lia.
           ++ destruct (Z.eq_dec l x) as [->|H2]; [unfold o; lia|].
              pose proof (bel_step x all ltac:(lia)). pose proof (bel_mono (x + 1) l all ltac:(lia)).
              pose proof (Cx x) as CX. rewrite Z.eqb_refl in CX. pose proof (cnt_nonneg x r).
              pose proof (cnt_nonneg l (firstn s all)). unfold o. lia.
Qed.

Lemma bh_max_length_ok cs : forall len best, 0 <= len ->
  let M := bh_max_length len cs best in
  (forall k, (k < length cs)%nat -> nth k cs 0 <> 0 -> len + Z.of_nat k <= M)
  /\ (M = best \/ exists k, (k < length cs)%nat /\ nth k cs 0 <> 0 /\ M = len + Z.of_nat k)
  /\ (best < len -> best <= M).
Proof.
  induction cs as [|c r IH]; intros len best Hl M; subst M; cbn [bh_max_length].
  - split; [intros k Hk; cbn [length] in Hk; lia|]. split; [left; reflexivity|]. lia.
  - specialize (IH (len + 1) (if c =? 0 then best else len) ltac:(lia)). cbv zeta in IH. destruct IH as (A & B & C).
    split; [|split].
    + intros [|k] Hk Hn; cbn [nth length] in *.
      * destruct (Z.eqb_spec c 0); [lia|]. specialize (C ltac:(lia)). lia.
      * specialize (A k ltac:(lia) Hn). lia.
    + destruct B as [B|(k & Hk & Hn & B)].
      * rewrite B. destruct (Z.eqb_spec c 0); [left; reflexivity|]. right. exists 0%nat. cbn [length nth]. split; [lia|]. split; [assumption|lia].
      * right. exists (S k). cbn [length nth]. split; [lia|]. split; [assumption|lia].
    + intros H. destruct (c =? 0); specialize (C ltac:(lia)); lia.
Qed.
