(** CreateHuffmanTree: the code lengths. *)
From Coq Require Import Permutation.
From Verif Require Import Base JBitModel JWriteProofs JReadProofs JHuffModel JHuffProofs HistProofs HuffModel HuffProofs3 HuffProofs5 HTreeModel HTreeProofs1 HTreeProofs2.

(** * The sort *)

Lemma insert_perm x l : Permutation (insert_node x l) (x :: l).
Proof.
  induction l as [|y l IH]; [reflexivity|]. cbn [insert_node]. destruct (h_count x <=? h_count y); [reflexivity|].
  rewrite IH. apply perm_swap.
Qed.
Lemma sort_perm l : Permutation (sort_nodes l) l.
Proof. induction l as [|x l IH]; [reflexivity|]. unfold sort_nodes in *. cbn [fold_right]. rewrite insert_perm, IH. reflexivity. Qed.
Lemma insert_sorted x l : ascending (map h_count l) -> ascending (map h_count (insert_node x l)).
Proof.
  induction l as [|y l IH]; intros H; [cbn; auto|]. cbn [insert_node]. destruct (Z.leb_spec (h_count x) (h_count y)) as [A|A].
  - cbn [map ascending] in *. destruct H as [H1 H2]. split; [|auto]. constructor; [exact A|]. eapply Forall_impl; [|exact H1]. cbv beta. intros; lia.
  - cbn [map ascending] in *. destruct H as [H1 H2]. split; [|apply IH, H2].
    rewrite Forall_map in *. apply (Permutation_Forall (Permutation_sym (insert_perm x l))). constructor; [lia|exact H1].
Qed.
Lemma sort_sorted l : ascending (map h_count (sort_nodes l)).
Proof. induction l as [|x l IH]; [exact I|]. unfold sort_nodes in *. cbn [fold_right]. apply insert_sorted, IH. Qed.

(** * Leaves *)

(** Indices of the used symbols, from the last to the first. *)
Definition used (data : list Z) : list nat := filter (fun i => negb (nth i data 0 =? 0)) (rev (seq 0 (length data))).
Lemma used_in data i : In i (used data) <-> (i < length data)%nat /\ nth i data 0 <> 0.
Proof.
  unfold used. rewrite filter_In, <- in_rev, in_seq. destruct (Z.eqb_spec (nth i data 0) 0); cbn [negb]; split; intros H; try (split; [lia|congruence]); try lia.
Qed.
Lemma used_nodup data : NoDup (used data).
Proof. apply NoDup_filter. apply (Permutation_NoDup (Permutation_rev (seq 0 (length data)))), seq_NoDup. Qed.
Lemma filter_len {A} (f : A -> bool) l : (length (filter f l) <= length l)%nat.
Proof. induction l as [|x l IH]; [cbn; lia|]. cbn [filter]. destruct (f x); cbn [length]; lia. Qed.
Lemma used_len data : (length (used data) <= length data)%nat.
Proof. unfold used. eapply Nat.le_trans; [apply filter_len|]. rewrite rev_length, seq_length. lia. Qed.

Definition to_leaf (h : hnode) : ht := HL (fst h) (snd (snd h)).
Definition mk_leaf (limit : Z) (data : list Z) (i : nat) : hnode := (Z.max (nth i data 0) (limit - 1), (-1, Z.of_nat i)).

Lemma leaf_nodes_used limit data : Z.of_nat (length data) < 2 ^ 15 -> leaf_nodes limit data = map (mk_leaf limit data) (used data).
Proof.
  intros HL. unfold leaf_nodes, used, mk_leaf.
  assert (F : Forall (fun i => (i < length data)%nat) (rev (seq 0 (length data)))).
  { apply Forall_forall. intros i Hi. rewrite <- in_rev, in_seq in Hi. lia. }
  induction (rev (seq 0 (length data))) as [|i l IH]; [reflexivity|]. cbn [flat_map filter]. pose proof (Forall_inv F) as Hi. cbv beta in Hi.
  destruct (nth i data 0 =? 0); cbn [negb app map]; rewrite IH by (eapply Forall_inv_tail, F); [reflexivity|].
  rewrite i16_small by lia. reflexivity.
Qed.

Lemma reprs_nodes pre nodes post b : Forall (fun h : hnode => fst (snd h) = -1) nodes ->
  b >= Z.of_nat (length pre) + Z.of_nat (length nodes) ->
  reprs (pre ++ nodes ++ post) b (Z.of_nat (length pre)) (map to_leaf nodes).
Proof.
  revert pre; induction nodes as [|[c [l s]] nodes IH]; intros pre F Hb; [exact I|]. cbn [map reprs].
  pose proof (Forall_inv F) as E. cbn [fst snd] in E. subst l. cbn [length] in Hb. split.
  - cbn [to_leaf repr fst snd]. split; [lia|]. rewrite aget_app2 by lia. rewrite Z.sub_diag. reflexivity.
  - specialize (IH (pre ++ [(c, (-1, s))]) (Forall_inv_tail F)). rewrite <- app_assoc in IH. cbn [app] in IH.
    rewrite app_length in IH. cbn [length] in IH. replace (Z.of_nat (length pre + 1)) with (Z.of_nat (length pre) + 1) in IH by lia.
    apply IH. lia.
Qed.

(** * One attempt *)

Lemma fa_pow k : 2 ^ Z.of_nat k <= fa (2 * k).
Proof.
  induction k as [|k IH]; [cbn; lia|]. replace (2 * S k)%nat with (S (S (2 * k))) by lia. rewrite fa_SS, pow2_S.
  pose proof (fa_mono (2 * k) (S (2 * k)) ltac:(lia)). lia.
Qed.


Definition depth_inv (data depth : list Z) : Prop :=
  length depth = length data /\ (forall i, (i < length data)%nat -> nth i data 0 = 0 -> nth i depth 0 = 0).

Lemma map_snd_leaves limit data l : map snd (flat_map lvs (map to_leaf (map (mk_leaf limit data) l))) = map Z.of_nat l.
Proof. induction l as [|i l IH]; [reflexivity|]. cbn [map flat_map to_leaf mk_leaf lvs fst snd app]. rewrite IH. reflexivity. Qed.

Lemma tot_leaves limit data l B : Forall (fun i => Z.max (nth i data 0) (limit - 1) <= B) l ->
  tot (map to_leaf (map (mk_leaf limit data) l)) <= Z.of_nat (length l) * B.
Proof.
  induction l as [|i l IH]; intros F; [cbn; lia|]. cbn [map]. rewrite tot_cons. cbn [to_leaf mk_leaf wt fst].
  pose proof (Forall_inv F) as H. cbv beta in H. specialize (IH (Forall_inv_tail F)). cbn [length]. lia.
Qed.

Lemma attempt_ok limit data depth B : Forall (fun c => 0 <= c) data -> depth_inv data depth ->
  (2 <= length (used data))%nat -> Z.of_nat (length data) < 2 ^ 14 ->
  Forall (fun i => Z.max (nth i data 0) (limit - 1) <= B) (used data) -> Z.of_nat (length (used data)) * B < 2 ^ 32 - 1 ->
  let leaves := leaf_nodes limit data in let n := length leaves in
  exists pool t, merge_nodes (n - 1) (sort_nodes leaves ++ [sentinel; sentinel]) 0 (Z.of_nat n + 1) = JOk pool
    /\ set_depth (length pool) pool (2 * Z.of_nat n - 1) depth 0 = JOk (fold_left put (levels 0 t) depth)
    /\ fa (hgt t) * Z.max 1 (limit - 1) <= Z.of_nat (length (used data)) * B
    /\ Permutation (map Z.of_nat (used data)) (map fst (levels 0 t)) /\ (1 <= hgt t)%nat.
Proof.
  intros F0 [DL DZ] Hu HL FB HB leaves n.
  assert (EL : leaves = map (mk_leaf limit data) (used data)) by (apply leaf_nodes_used; lia).
  assert (En : n = length (used data)) by (unfold n; rewrite EL, map_length; reflexivity).
  pose proof (used_len data) as UL.
  set (srtd := sort_nodes leaves). assert (PS := sort_perm leaves). fold srtd in PS.
  assert (FL : Forall (fun h : hnode => fst (snd h) = -1) srtd).
  { apply (Permutation_Forall (Permutation_sym PS)). rewrite EL, Forall_map. apply Forall_forall. reflexivity. }
  assert (Ls : length srtd = n) by (rewrite (Permutation_length PS); reflexivity).
  set (L := map to_leaf srtd).
  assert (PL : Permutation L (map to_leaf (map (mk_leaf limit data) (used data)))) by (unfold L; rewrite <- EL; apply Permutation_map, PS).
  assert (Wm : map wt L = map h_count srtd).
  { unfold L. rewrite map_map. apply map_ext. intros [c [a s]]. reflexivity. }
  assert (FH : Forall (hok (Z.max 1 (limit - 1))) L).
  { apply (Permutation_Forall (Permutation_sym PL)). rewrite !Forall_map. apply Forall_forall. intros i Hi. cbn [to_leaf mk_leaf hok fst].
    apply used_in in Hi as [Hi1 Hi2]. pose proof (proj1 (Forall_forall _ _) F0 (nth i data 0) (nth_In _ _ Hi1)). cbv beta in *. lia. }
  assert (FI : finv (Z.max 1 (limit - 1)) (Z.max 1 (limit - 1)) L []).
  { unfold finv. split; [lia|]. split; [lia|]. split; [unfold srt; rewrite Wm; apply sort_sorted|]. split; [exact I|].
    rewrite app_nil_r. split; [|split; [constructor|split; [exact FH|]]].
    - eapply Forall_impl; [|exact FH]. intros t Ht. apply hok_min; [lia|exact Ht].
    - unfold L. rewrite Forall_map. apply Forall_forall. intros; exact I. }
  assert (T : tot (L ++ []) <= Z.of_nat n * B).
  { rewrite app_nil_r, (tot_perm _ _ PL), En. apply tot_leaves, FB. }
  assert (PST : pstate (Z.of_nat n) (srtd ++ [sentinel; sentinel]) (Z.of_nat n + 1) 0 (Z.of_nat n + 1) L []).
  { assert (Lp : Z.of_nat (length (srtd ++ [sentinel; sentinel])) = Z.of_nat n + 1 + 1) by (rewrite app_length, Ls; cbn [length]; lia).
    unfold pstate. split; [exact Lp|]. split; [rewrite aget_app2 by lia; rewrite Ls; replace (Z.of_nat n + 1 - Z.of_nat n) with 1 by lia; reflexivity|].
    split; [rewrite aget_app2 by lia; rewrite Ls, Z.sub_diag; reflexivity|]. split; [lia|].
    split; [unfold L; rewrite map_length, Ls; lia|]. split; [lia|]. split; [cbn [length]; lia|]. split; [|exact I].
    pose proof (reprs_nodes [] srtd [sentinel; sentinel] (Z.of_nat n + 1) FL) as R. cbn [length app] in R. apply R. lia. }
  destruct (merge_ok (Z.max 1 (limit - 1)) (Z.of_nat n) (n - 1) _ _ _ _ _ _ _ FI PST) as (pool & idx & t & E & LP & R & HK & W & PM & IX).
  { unfold L. rewrite map_length, Ls. cbn [length]. lia. }
  { rewrite En in T. lia. }
  { lia. }
  assert (IX' : idx = 2 * Z.of_nat n - 1) by (rewrite IX by (right; lia); lia).
  rewrite app_nil_r in PM.
  assert (SY : Permutation (map Z.of_nat (used data)) (map snd (lvs t))).
  { rewrite <- (map_snd_leaves limit data), <- PM. apply Permutation_map. apply Permutation_flat_map. symmetry. exact PL. }
  assert (Lt : length (lvs t) = n).
  { pose proof (Permutation_length SY) as P. rewrite !map_length in P. lia. }
  pose proof (hgt_leaves t) as HG. pose proof (hok_wt _ _ HK) as HW.
  assert (H48 : (hgt t < 64)%nat).
  { destruct (Nat.lt_ge_cases (hgt t) 64) as [|H]; [assumption|exfalso]. pose proof (fa_mono _ _ H) as M.
    pose proof (fa_pow 32) as V. change (2 * 32)%nat with 64%nat in V. change (Z.of_nat 32) with 32 in V.
    assert (fa (hgt t) * 1 <= fa (hgt t) * Z.max 1 (limit - 1)) by (apply Z.mul_le_mono_nonneg_l; lia). rewrite En in T. lia. }
  exists pool, t. split; [exact E|]. split; [|split; [|split]].
  - rewrite <- IX'. apply (set_depth_ok _ _ _ _ _ _ _ R); [lia|lia|lia|].
    apply (Permutation_Forall SY). rewrite Forall_map. apply Forall_forall. intros i Hi. apply used_in in Hi as [Hi _]. lia.
  - rewrite En in T. lia.
  - rewrite levels_syms. exact SY.
  - destruct t as [c s|]; [cbn [lvs length] in Lt; lia|cbn [hgt]; lia].
Qed.

(** * The loop *)

Lemma max_elem_ge l x : In x l -> x <= max_elem l.
Proof. induction l as [|y l IH]; intros []; unfold max_elem in *; cbn [fold_right]; [lia|]. apply IH in H. lia. Qed.
Lemma max_elem_le l B : 0 <= B -> Forall (fun x => x <= B) l -> max_elem l <= B.
Proof. intros HB F. unfold max_elem. induction F as [|x l Hx F IH]; cbn [fold_right]; lia. Qed.

(** Code lengths good for the counts [data]. *)
Definition good_lens (data : list Z) (tree_limit : Z) (depth : list Z) : Prop :=
  length depth = length data
  /\ (forall i, (i < length data)%nat -> (nth i depth 0 = 0 <-> nth i data 0 = 0))
  /\ Forall (fun d => 0 <= d <= tree_limit) depth /\ complete depth.

Lemma put_ext x d1 d2 : length d1 = length d2 -> NoDup (map fst x) -> Forall (fun sd => 0 <= fst sd) x ->
  (forall s, (s < length d1)%nat -> ~ In (Z.of_nat s) (map fst x) -> nth s d1 0 = nth s d2 0) -> fold_left put x d1 = fold_left put x d2.
Proof.
  intros L ND F H. apply nth_ext with (d := 0) (d' := 0); [rewrite !put_length; exact L|]. intros s Hs. rewrite put_length in Hs.
  destruct (in_dec Z.eq_dec (Z.of_nat s) (map fst x)) as [I|I].
  - apply in_map_iff in I as ([a v] & E & I). cbn [fst] in E. subst a.
    rewrite (put_in x d1 s v), (put_in x d2 s v); try assumption; [reflexivity|lia].
  - rewrite !put_out by assumption. apply H; assumption.
Qed.

Lemma levels_good data tree_limit depth t : depth_inv data depth -> Permutation (map Z.of_nat (used data)) (map fst (levels 0 t)) -> (1 <= hgt t)%nat ->
  let depth' := fold_left put (levels 0 t) depth in
  max_elem depth' = Z.of_nat (hgt t) /\ depth_inv data depth'
  /\ (tree_limit <= 15 -> Z.of_nat (hgt t) <= tree_limit -> good_lens data tree_limit depth').
Proof.
  intros [DL DZ] P Hh depth'.
  assert (ND : NoDup (map fst (levels 0 t))).
  { apply (Permutation_NoDup P). apply FinFun.Injective_map_NoDup; [intros a b; lia|apply used_nodup]. }
  assert (SY : forall i, In (Z.of_nat i) (map fst (levels 0 t)) <-> (i < length data)%nat /\ nth i data 0 <> 0).
  { intros i. rewrite <- used_in. split; intros H.
    - apply (Permutation_in _ (Permutation_sym P)) in H. apply in_map_iff in H as (k & E & H). replace i with k by lia. exact H.
    - apply (Permutation_in _ P). apply in_map, H. }
  assert (FN : Forall (fun sd => 0 <= fst sd) (levels 0 t)).
  { rewrite <- Forall_map. apply (Permutation_Forall P). rewrite Forall_map. apply Forall_forall. intros; lia. }
  pose proof (levels_range t 0) as LR.
  assert (L1 : Forall (fun sd => 1 <= snd sd) (levels 0 t)).
  { destruct t as [|l r]; [cbn [hgt] in Hh; lia|]. cbn [levels]. rewrite Forall_app. split; (eapply Forall_impl; [|apply levels_range]); cbv beta; intros; lia. }
  assert (LD : length depth' = length data) by (unfold depth'; rewrite put_length; exact DL).
  assert (EXT : depth' = fold_left put (levels 0 t) (repeat 0 (length data))).
  { apply put_ext; [rewrite repeat_length; exact DL|exact ND|exact FN|]. intros s Hs N. rewrite nth_repeat_lt by lia.
    apply DZ; [lia|]. destruct (Z.eq_dec (nth s data 0) 0) as [|NE]; [assumption|]. exfalso. apply N, SY. split; [lia|exact NE]. }
  assert (USED : forall s, (s < length data)%nat -> nth s data 0 <> 0 -> exists v, In (Z.of_nat s, v) (levels 0 t) /\ nth s depth' 0 = v).
  { intros s Hs Hd. assert (I : In (Z.of_nat s) (map fst (levels 0 t))) by (apply SY; auto). apply in_map_iff in I as ([a v] & E & I). cbn [fst] in E. subst a.
    exists v. split; [exact I|]. apply put_in; try assumption. lia. }
  assert (UNUSED : forall s, (s < length data)%nat -> nth s data 0 = 0 -> nth s depth' 0 = 0).
  { intros s Hs Hd. unfold depth'. rewrite put_out; [apply DZ; assumption| |exact FN]. intros H. apply SY in H as [_ H]. congruence. }
  assert (RG : Forall (fun d => 0 <= d <= Z.of_nat (hgt t)) depth').
  { apply Forall_forall. intros d Hd. apply (In_nth _ _ 0) in Hd as (s & Hs & <-). destruct (Z.eq_dec (nth s data 0) 0) as [E|E].
    - rewrite UNUSED by (first [exact E|lia]). lia.
    - destruct (USED s ltac:(lia) E) as (v & I & ->). rewrite Forall_forall in LR. apply LR in I. cbn [snd] in I. lia. }
  split; [|split].
  - apply Z.le_antisymm; [apply max_elem_le; [lia|]; eapply Forall_impl; [|exact RG]; cbv beta; intros; lia|].
    destruct (levels_max t 0) as [s H]. rewrite Z.add_0_l in H. apply max_elem_ge.
    assert (I : In s (map fst (levels 0 t))) by (apply (in_map fst) in H; exact H).
    assert (0 <= s) by (rewrite Forall_forall in FN; apply FN in H; exact H).
    assert (I2 : In (Z.of_nat (Z.to_nat s)) (map fst (levels 0 t))) by (rewrite Z2Nat.id by lia; exact I). apply SY in I2 as [I2 _].
    rewrite <- (put_in (levels 0 t) depth (Z.to_nat s) (Z.of_nat (hgt t))); [apply nth_In; lia|exact ND|exact FN|rewrite Z2Nat.id by lia; exact H|lia].
  - split; [exact LD|exact UNUSED].
  - intros H15 HT. unfold good_lens. split; [exact LD|]. split; [|split; [|split]].
    + intros i Hi. split; [|apply UNUSED, Hi]. intros E. destruct (Z.eq_dec (nth i data 0) 0) as [|NE]; [assumption|exfalso].
      destruct (USED i Hi NE) as (v & I & E2). rewrite Forall_forall in L1. apply L1 in I. cbn [snd] in I. lia.
    + eapply Forall_impl; [|exact RG]. cbv beta. intros; lia.
    + eapply Forall_impl; [|exact RG]. cbv beta. intros; lia.
    + fold (ksum depth'). rewrite EXT. rewrite ksum_put; [|exact ND|].
      * rewrite levels_kraft by lia. assert (Z0 : ksum (repeat 0 (length data)) = 0).
        { unfold ksum. generalize (length data). induction n as [|n IH]; [reflexivity|]. cbn [repeat map]. unfold sumZ in *. cbn [fold_right].
          rewrite IH. reflexivity. }
        rewrite Z0. reflexivity.
      * apply Forall_forall. intros [a v] I. cbn [fst snd]. rewrite repeat_length.
        assert (0 <= a) by (rewrite Forall_forall in FN; apply FN in I; exact I).
        assert (I2 : In (Z.of_nat (Z.to_nat a)) (map fst (levels 0 t))) by (rewrite Z2Nat.id by lia; apply (in_map fst) in I; exact I).
        apply SY in I2 as [I2 _]. split; [lia|]. split; [rewrite Forall_forall in L1; apply L1 in I; exact I|]. apply nth_repeat_lt. lia.
Qed.

Lemma create_loop_ok data tree_limit : Forall (fun c => 0 <= c) data -> (2 <= length (used data))%nat -> Z.of_nat (length data) < 2 ^ 14 ->
  Z.of_nat (length (used data)) * (2 * max_elem data) < 2 ^ 32 - 1 -> 0 <= tree_limit <= 15 ->
  Z.of_nat (length (used data)) < fa (Z.to_nat (tree_limit + 1)) ->
  forall fuel k depth, depth_inv data depth -> (fuel + k = 33)%nat -> 2 ^ Z.of_nat k <= 2 * max_elem data ->
  exists depth', create_loop fuel data tree_limit depth (2 ^ Z.of_nat k) = JOk depth' /\ good_lens data tree_limit depth'.
Proof.
  intros F0 Hu HL HB HT HF. assert (N : 2 <= Z.of_nat (length (used data))) by lia.
  assert (HM : max_elem data < 2 ^ 31).
  { assert (2 * (2 * max_elem data) <= Z.of_nat (length (used data)) * (2 * max_elem data) \/ max_elem data <= 0) by nia. lia. }
  induction fuel as [|fuel IH]; intros k depth DI Hk H2.
  - exfalso. replace k with 33%nat in H2 by lia. change (2 ^ Z.of_nat 33) with (4 * 2 ^ 31) in H2. lia.
  - cbn [create_loop].
    assert (FB : Forall (fun i => Z.max (nth i data 0) (2 ^ Z.of_nat k - 1) <= 2 * max_elem data) (used data)).
    { apply Forall_forall. intros i Hi. apply used_in in Hi as [Hi Hn]. pose proof (max_elem_ge data (nth i data 0) (nth_In _ _ Hi)).
      pose proof (proj1 (Forall_forall _ _) F0 (nth i data 0) (nth_In _ _ Hi)). cbv beta in *. lia. }
    destruct (attempt_ok (2 ^ Z.of_nat k) data depth _ F0 DI Hu HL FB HB) as (pool & t & E1 & E2 & HW & P & Hh).
    assert (EL : leaf_nodes (2 ^ Z.of_nat k) data = map (mk_leaf (2 ^ Z.of_nat k) data) (used data)) by (apply leaf_nodes_used; lia).
    assert (Len : length (leaf_nodes (2 ^ Z.of_nat k) data) = length (used data)) by (rewrite EL, map_length; reflexivity).
    destruct (leaf_nodes (2 ^ Z.of_nat k) data) as [|x0 [|x1 xs]] eqn:EL2; [cbn [length] in Len; lia|cbn [length] in Len; lia|].
    rewrite E1. cbn [jbind]. rewrite E2. cbn [jbind].
    destruct (levels_good data tree_limit depth t DI P Hh) as (ME & DI' & G). rewrite ME.
    destruct (Z.leb_spec (Z.of_nat (hgt t)) tree_limit) as [A|A].
    + eexists. split; [reflexivity|]. apply G; lia.
    + (* the counts are not all equal yet *)
      assert (Hlt : 2 ^ Z.of_nat k <= max_elem data).
      { destruct (Z.le_gt_cases (2 ^ Z.of_nat k) (max_elem data)) as [|C]; [assumption|exfalso].
        assert (FB2 : Forall (fun i => Z.max (nth i data 0) (2 ^ Z.of_nat k - 1) <= 2 ^ Z.of_nat k - 1) (used data)).
        { apply Forall_forall. intros i Hi. apply used_in in Hi as [Hi Hn]. pose proof (max_elem_ge data (nth i data 0) (nth_In _ _ Hi)). lia. }
        assert (K1 : (1 <= k)%nat).
        { destruct k; [|lia]. exfalso. change (2 ^ Z.of_nat 0) with 1 in C. destruct (used data) as [|i u] eqn:EU; [cbn [length] in Hu; lia|].
          assert (Hi : In i (used data)) by (rewrite EU; left; reflexivity). apply used_in in Hi as [Hi Hn].
          pose proof (max_elem_ge data (nth i data 0) (nth_In _ _ Hi)). pose proof (proj1 (Forall_forall _ _) F0 (nth i data 0) (nth_In _ _ Hi)). cbv beta in *. lia. }
        assert (K2 : 2 <= 2 ^ Z.of_nat k) by (change 2 with (2 ^ 1) at 1; apply Z.pow_le_mono_r; lia).
        assert (HB2 : Z.of_nat (length (used data)) * (2 ^ Z.of_nat k - 1) < 2 ^ 32 - 1).
        { eapply Z.le_lt_trans; [|exact HB]. apply Z.mul_le_mono_nonneg_l; lia. }
        destruct (attempt_ok (2 ^ Z.of_nat k) data depth _ F0 DI Hu HL FB2 HB2) as (pool2 & t2 & E12 & E22 & HW2 & P2 & Hh2).
        rewrite EL2 in E12, E22. rewrite E1 in E12. injection E12 as <-. rewrite E2 in E22. injection E22 as E22.
        destruct (levels_good data tree_limit depth t2 DI P2 Hh2) as (ME2 & _ & _). rewrite <- E22, ME in ME2.
        assert (Hft : fa (hgt t2) <= Z.of_nat (length (used data))).
        { rewrite Z.max_r in HW2 by lia. apply Z.mul_le_mono_pos_r in HW2; lia. }
        assert (fa (Z.to_nat (tree_limit + 1)) <= fa (hgt t2)) by (apply fa_mono; lia). lia. }
      replace ((2 ^ Z.of_nat k * 2) mod 2 ^ 32) with (2 ^ Z.of_nat (S k)).
      * apply IH; [exact DI'|lia|]. rewrite pow2_S. lia.
      * rewrite pow2_S. rewrite Z.mod_small; lia.
Qed.
