(** ConvertBitDepthsToSymbols gives the canonical code. *)
From Verif Require Import Base JBitModel JWriteProofs JReadProofs JHuffModel JHuffProofs HistProofs HuffModel HuffProofs1 HuffProofs3 HuffProofs5 HuffProofs6 HTreeModel HTreeProofs1 HTreeProofs2 HTreeProofs3.

Lemma create_tree_ok data tree_limit : Forall (fun c => 0 <= c) data -> (2 <= length (used data))%nat -> Z.of_nat (length data) < 2 ^ 14 ->
  Z.of_nat (length (used data)) * (2 * max_elem data) < 2 ^ 32 - 1 -> 0 <= tree_limit <= 15 ->
  Z.of_nat (length (used data)) < fa (Z.to_nat (tree_limit + 1)) ->
  exists depth, create_tree data tree_limit (repeat 0 (length data)) = JOk depth /\ good_lens data tree_limit depth.
Proof.
  intros F0 Hu HL HB HT HF. unfold create_tree. change 1 with (2 ^ Z.of_nat 0). apply create_loop_ok; try assumption.
  - split; [apply repeat_length|]. intros i Hi _. apply nth_repeat_lt, Hi.
  - reflexivity.
  - destruct (used data) as [|i u] eqn:EU; [cbn [length] in Hu; lia|].
    assert (Hi : In i (used data)) by (rewrite EU; left; reflexivity). apply used_in in Hi as [Hi Hn].
    pose proof (max_elem_ge data (nth i data 0) (nth_In _ _ Hi)). pose proof (proj1 (Forall_forall _ _) F0 (nth i data 0) (nth_In _ _ Hi)). cbv beta in *.
    change (2 ^ Z.of_nat 0) with 1. lia.
Qed.

Lemma create_tree_single data tree_limit i : Z.of_nat (length data) < 2 ^ 15 -> used data = [i] ->
  create_tree data tree_limit (repeat 0 (length data)) = JOk (upd (repeat 0 (length data)) i 1).
Proof.
  intros HL HU. unfold create_tree. cbn [create_loop]. rewrite leaf_nodes_used, HU by exact HL. cbn [map mk_leaf snd].
  assert (Hi : In i (used data)) by (rewrite HU; left; reflexivity). apply used_in in Hi as [Hi _].
  rewrite aset_ok by (rewrite repeat_length; lia). rewrite Nat2Z.id. reflexivity.
Qed.

(** * Bit reversal *)

Fixpoint zrange (n : nat) (lo : Z) : list Z := match n with O => [] | S m => lo :: zrange m (lo + 1) end.
Lemma zrange_in n : forall lo x, lo <= x < lo + Z.of_nat n -> In x (zrange n lo).
Proof. induction n as [|n IH]; intros lo x H; [lia|]. cbn [zrange]. destruct (Z.eq_dec lo x); [left; assumption|right; apply IH; lia]. Qed.
Lemma reverse_check : forallb (fun d => forallb (fun c => reverse_bits d c =? brev (Z.to_nat d) c) (zrange (Z.to_nat (2 ^ d)) 0)) (zrange 15 1) = true.
Proof. vm_compute. reflexivity. Qed.
Lemma reverse_ok d c : 1 <= d <= 15 -> 0 <= c < 2 ^ d -> reverse_bits d c = brev (Z.to_nat d) c.
Proof.
  intros Hd Hc. pose proof reverse_check as C. rewrite forallb_forall in C. specialize (C d). cbv beta in C.
  assert (I : In d (zrange 15 1)) by (apply zrange_in; lia). apply C in I. rewrite forallb_forall in I. apply Z.eqb_eq, I. apply zrange_in. lia.
Qed.

(** * First codes *)

Lemma next_codes_len cs : forall code, length (next_codes code cs) = length cs.
Proof. induction cs as [|c cs IH]; intros code; [reflexivity|]. cbn [next_codes length]. rewrite IH. reflexivity. Qed.

Lemma next_codes_ok lens cs : forall l code, 0 <= l -> l + Z.of_nat (length cs) <= 15 -> 0 <= code ->
  (forall k, (k < length cs)%nat -> nth k cs 0 = if l + Z.of_nat k =? 0 then 0 else cnt (l + Z.of_nat k) lens) ->
  Forall (fun x => 0 <= x <= 15) lens -> kraft (nz lens) <= 65536 ->
  code * wgt l = kle (l - 1) (nz lens) ->
  forall k, (k < length cs)%nat -> 
  nth k (next_codes code cs) 0 * wgt (l + 1 + Z.of_nat k) = kle (l + Z.of_nat k) (nz lens).
Proof.
  induction cs as [|c cs IH]; intros l code Hl Hb H0 C F K E k Hk; [cbn [length] in Hk; lia|].
  pose proof (C 0%nat ltac:(cbn [length]; lia)) as Ec. cbn [nth] in Ec. rewrite Z.add_0_r in Ec. cbn [length] in Hb.
  assert (Ec2 : c * wgt l = cnt l (nz lens) * wgt l).
  { rewrite Ec. destruct (Z.eqb_spec l 0) as [->|]; [|rewrite cnt_nz by lia; reflexivity].
    replace (cnt 0 (nz lens)) with 0; [reflexivity|]. symmetry. unfold cnt, nz. clear. induction lens as [|x r IH]; [reflexivity|].
    cbn [filter]. destruct (Z.ltb_spec 0 x); [|exact IH]. cbn [filter]. destruct (Z.eqb_spec x 0); [lia|exact IH]. }
  assert (E2 : ((code + c) * 2) * wgt (l + 1) = kle l (nz lens)).
  { rewrite (kle_step l), <- E, <- Ec2. replace (wgt l) with (2 * wgt (l + 1)); [lia|]. pose proof (wgt_double (l + 1) ltac:(lia)) as W.
    replace (l + 1 - 1) with l in W by lia. lia. }
  assert (C0 : 0 <= c) by (rewrite Ec; destruct (l =? 0); [lia|apply cnt_nonneg]).
  assert (KL : kle l (nz lens) <= 65536).
  { eapply Z.le_trans; [|exact K]. unfold kle. generalize (nz lens). induction l0 as [|x r IHr]; [cbn; lia|]. cbn [filter].
    destruct (x <=? l); rewrite ?kraft_cons; [lia|]. assert (0 <= wgt x) by (apply Z.pow_nonneg; lia). lia. }
  cbn [next_codes]. destruct k as [|k].
  - cbn [nth]. rewrite !Z.add_0_r. rewrite Z.mod_small; [exact E2|].
    assert (2 <= wgt (l + 1)) by (unfold wgt; change 2 with (2 ^ 1) at 1; apply Z.pow_le_mono_r; lia). split; [lia|]. change (2 ^ 16) with 65536. nia.
  - cbn [nth]. replace (l + 1 + Z.of_nat (S k)) with (l + 1 + 1 + Z.of_nat k) by lia. replace (l + Z.of_nat (S k)) with (l + 1 + Z.of_nat k) by lia.
    apply IH; try assumption; [lia|lia|lia| | |cbn [length] in Hk; lia].
    + intros q Hq. pose proof (C (S q) ltac:(cbn [length]; lia)) as Q. cbn [nth] in Q. replace (l + 1 + Z.of_nat q) with (l + Z.of_nat (S q)) by lia. exact Q.
    + replace (l + 1 - 1) with l by lia. exact E2.
Qed.

(** * All symbols *)

Lemma assign_ok all : complete all -> forall depth done bits next, all = done ++ depth -> length bits = length depth -> length next = 16%nat ->
  (forall l, 1 <= l <= 15 -> nth (Z.to_nat l) next 0 = (nth (Z.to_nat l) next 0) mod 2 ^ 16 /\
     nth (Z.to_nat l) next 0 * wgt l = kle (l - 1) (nz all) + cnt l done * wgt l) ->
  exists codes, assign_codes depth bits next = JOk codes /\ length codes = length depth
    /\ forall s, (s < length depth)%nat -> 
         nth s codes 0 = if nth s depth 0 =? 0 then nth s bits 0 else brev (Z.to_nat (nth s depth 0)) (code_value all (length done + s)).
Proof.
  intros CO. pose proof CO as [F _]. induction depth as [|d depth IH]; intros done bits next EA LB LN H.
  - destruct bits; [|cbn [length] in LB; lia]. exists []. split; [reflexivity|]. split; [reflexivity|]. cbn [length]. intros; lia.
  - destruct bits as [|b bits]; [cbn [length] in LB; lia|]. cbn [length] in LB. cbn [assign_codes].
    assert (Hd : 0 <= d <= 15) by (rewrite Forall_forall in F; apply F; rewrite EA; apply in_or_app; right; left; reflexivity).
    assert (EA2 : all = (done ++ [d]) ++ depth) by (rewrite <- app_assoc; exact EA).
    destruct (Z.eqb_spec d 0) as [->|Nd].
    + destruct (IH (done ++ [0]) bits next EA2 ltac:(lia) LN) as (codes & E & LC & HC).
      { intros l Hl. destruct (H l Hl) as [A B]. split; [exact A|]. rewrite B, cnt_app. replace (cnt l [0]) with 0; [lia|].
        rewrite cnt_cons. destruct (Z.eqb_spec 0 l); [lia|reflexivity]. }
      rewrite E. cbn [jbind]. exists (b :: codes). split; [reflexivity|]. split; [cbn [length]; lia|].
      intros [|s] Hs; [reflexivity|]. cbn [nth]. rewrite HC by (cbn [length] in Hs; lia). rewrite app_length. cbn [length].
      replace (length done + 1 + s)%nat with (length done + S s)%nat by lia. reflexivity.
    + destruct (H d ltac:(lia)) as [A B]. rewrite aget_nthZ by lia. cbn [jbind]. rewrite aset_ok by lia. cbn [jbind].
      set (c := nth (Z.to_nat d) next 0) in *.
      assert (Hs : (length done < length all)%nat) by (rewrite EA, app_length; cbn [length]; lia).
      assert (Nd2 : nth (length done) all 0 = d) by (rewrite EA, app_nth2, Nat.sub_diag by lia; reflexivity).
      pose proof (code_value_pos all (length done) Hs F ltac:(lia)) as V. rewrite Nd2 in V.
      replace (firstn (length done) all) with done in V by (rewrite EA, firstn_app, Nat.sub_diag, firstn_O, app_nil_r, firstn_all; reflexivity).
      pose proof (wgt_pos d ltac:(lia)) as W.
      assert (CV : c = code_value all (length done)) by nia.
      destruct (symbol_place all (length done) CO Hs ltac:(lia)) as (_ & _ & RV & _). rewrite Nd2 in RV.
      assert (P15 : 2 ^ d <= 2 ^ 15) by (apply Z.pow_le_mono_r; lia).
      destruct (IH (done ++ [d]) bits (upd next (Z.to_nat d) ((c + 1) mod 2 ^ 16)) EA2 ltac:(lia)) as (codes & E & LC & HC).
      { rewrite upd_length. exact LN. }
      { intros l Hl. rewrite cnt_app, cnt_cons. change (cnt l []) with 0. destruct (Z.eqb_spec d l) as [<-|Nl].
        - rewrite nth_upd_same by lia. rewrite Z.mod_mod by lia. split; [reflexivity|]. rewrite Z.mod_small by lia. lia.
        - rewrite nth_upd_other by lia. destruct (H l Hl) as [A2 B2]. split; [exact A2|]. lia. }
      rewrite E. cbn [jbind]. eexists. split; [reflexivity|]. split; [cbn [length]; lia|].
      intros [|s] Hs2.
      * cbn [nth]. destruct (Z.eqb_spec d 0); [lia|]. rewrite Nat.add_0_r, CV. apply reverse_ok; lia.
      * cbn [nth]. rewrite HC by (cbn [length] in Hs2; lia). rewrite app_length. cbn [length].
        replace (length done + 1 + s)%nat with (length done + S s)%nat by lia. reflexivity.
Qed.

Lemma bl_count_eq depth : forall counts, bl_count depth counts = count_lens depth counts.
Proof. reflexivity. Qed.

Lemma depths_to_codes_ok depth bits : complete depth -> length bits = length depth -> Z.of_nat (length depth) < 65536 ->
  exists codes, depths_to_codes depth bits = JOk codes /\ length codes = length depth
    /\ forall s, (s < length depth)%nat ->
         if nth s depth 0 =? 0 then nth s codes 0 = nth s bits 0
         else bits_of (Z.to_nat (nth s depth 0)) (nth s codes 0) = code_bits depth s /\ 0 <= nth s codes 0 < 2 ^ nth s depth 0.
Proof.
  intros C LB HL. pose proof C as [F _]. pose proof (complete_kraft depth C) as [K _].
  unfold depths_to_codes. rewrite bl_count_eq.
  destruct (count_lens_ok depth (repeat 0 16) F ltac:(reflexivity)) as (counts & E & LC & HC).
  { intros l Hl. rewrite nth_repeat_lt by lia. lia. }
  rewrite E. cbn [jbind].
  assert (HC' : forall l, 0 <= l <= 15 -> nth (Z.to_nat l) counts 0 = cnt l depth).
  { intros l Hl. rewrite HC by exact Hl. rewrite nth_repeat_lt by lia. lia. }
  set (cs := firstn 15 (upd counts 0 0)). 
  assert (Lcs : length cs = 15%nat) by (unfold cs; rewrite firstn_length, upd_length, LC; reflexivity).
  assert (Hcs : forall k, (k < length cs)%nat -> nth k cs 0 = if 0 + Z.of_nat k =? 0 then 0 else cnt (0 + Z.of_nat k) depth).
  { intros k Hk. rewrite Lcs in Hk. unfold cs. rewrite nth_firstn by lia. rewrite Z.add_0_l. destruct k as [|k].
    - rewrite nth_upd_same by lia. reflexivity.
    - rewrite nth_upd_other by lia. destruct (Z.eqb_spec (Z.of_nat (S k)) 0); [lia|]. rewrite <- HC' by lia. rewrite Nat2Z.id. reflexivity. }
  assert (K0 : 0 * wgt 0 = kle (0 - 1) (nz depth)).
  { symmetry. apply kle_none. apply Forall_forall. intros x H. apply filter_In in H as [_ H]. apply Z.ltb_lt in H. lia. }
  assert (NC := next_codes_ok depth cs 0 0 ltac:(lia) ltac:(lia) ltac:(lia) Hcs F ltac:(lia) K0).
  destruct (assign_ok depth C depth [] bits (0 :: next_codes 0 cs) eq_refl LB) as (codes & EC & LCo & H).
  { cbn [length]. rewrite next_codes_len, Lcs. reflexivity. }
  { intros l Hl. assert (NE : nth (Z.to_nat l) (0 :: next_codes 0 cs) 0 = nth (Z.to_nat (l - 1)) (next_codes 0 cs) 0).
    { replace (Z.to_nat l) with (S (Z.to_nat (l - 1))) by lia. reflexivity. }
    rewrite NE. specialize (NC (Z.to_nat (l - 1)) ltac:(lia)). rewrite Z2Nat.id in NC by lia.
    replace (0 + 1 + (l - 1)) with l in NC by lia. replace (0 + (l - 1)) with (l - 1) in NC by lia. split.
    - symmetry. apply Z.mod_small. assert (2 <= wgt l) by (unfold wgt; change 2 with (2 ^ 1) at 1; apply Z.pow_le_mono_r; lia).
      assert (kle (l - 1) (nz depth) <= 65536).
      { rewrite <- K. unfold kle. generalize (nz depth). induction l0 as [|x r IHr]; [cbn; lia|]. cbn [filter].
        destruct (x <=? l - 1); rewrite ?kraft_cons; [lia|]. assert (0 <= wgt x) by (apply Z.pow_nonneg; lia). lia. }
      pose proof (kle_nonneg (l - 1) (nz depth)). change (2 ^ 16) with 65536. nia.
    - rewrite NC. change (cnt l []) with 0. lia. }
  exists codes. split; [exact EC|]. split; [exact LCo|]. intros s Hs. specialize (H s Hs). cbn [length Nat.add] in H.
  destruct (Z.eqb_spec (nth s depth 0) 0) as [|Nz]; [exact H|]. rewrite H.
  assert (Hd : 0 <= nth s depth 0 <= 15) by (rewrite Forall_forall in F; apply F, nth_In, Hs).
  split.
  - rewrite <- val_rev_bits. fold (code_bits depth s). rewrite <- (code_bits_len depth s) at 1. apply bits_of_val_of.
  - pose proof (brev_range (Z.to_nat (nth s depth 0)) (code_value depth s)) as B. rewrite Z2Nat.id in B by lia. exact B.
Qed.

Definition used_count (data : list Z) : Z := Z.of_nat (length (filter (fun c => negb (c =? 0)) data)).
Lemma used_count_len data : Z.of_nat (length (used data)) = used_count data.
Proof.
  unfold used, used_count. f_equal.
  assert (R : forall (f : nat -> bool) l, length (filter f (rev l)) = length (filter f l)).
  { intros f l. induction l as [|x l IH]; [reflexivity|]. cbn [rev]. rewrite filter_app, app_length, IH. cbn [filter]. destruct (f x); cbn [length]; lia. }
  rewrite R. clear R.
  assert (G : forall l pre, length (filter (fun i => negb (nth i (pre ++ l) 0 =? 0)) (seq (length pre) (length l))) = length (filter (fun c => negb (c =? 0)) l)).
  { induction l as [|c l IH]; intros pre; [reflexivity|]. cbn [length seq filter].
    replace (nth (length pre) (pre ++ c :: l) 0) with c by (rewrite app_nth2, Nat.sub_diag by lia; reflexivity).
    specialize (IH (pre ++ [c])). rewrite <- app_assoc in IH. cbn [app] in IH. rewrite app_length in IH. cbn [length] in IH.
    replace (length pre + 1)%nat with (S (length pre)) in IH by lia. destruct (c =? 0); cbn [negb length]; rewrite IH; reflexivity. }
  exact (G data []).
Qed.
