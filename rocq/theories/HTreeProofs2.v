(** CreateHuffmanTree: merging and the depths written. *)
From Coq Require Import Permutation.
From Verif Require Import Base JBitModel JWriteProofs JReadProofs JHuffModel JHuffProofs HistProofs HuffModel HuffProofs3 HuffProofs5 HTreeModel HTreeProofs1.

Lemma tot_perm a b : Permutation a b -> tot a = tot b.
Proof. unfold tot. induction 1; cbn [map]; unfold sumZ in *; cbn [fold_right] in *; lia. Qed.
Lemma tot_cons t l : tot (t :: l) = wt t + tot l.
Proof. reflexivity. Qed.
Lemma tot_nonneg l : Forall (fun t => 0 <= wt t) l -> 0 <= tot l.
Proof. intros F. unfold tot. apply sumZ_nonneg. rewrite Forall_map. exact F. Qed.
Lemma tot_each B l : Forall (fun t => 0 <= wt t) l -> tot l < B -> Forall (fun t => wt t < B) l.
Proof.
  intros F H. apply Forall_forall. intros t Ht. apply in_split in Ht as (a & b & ->).
  rewrite (tot_perm _ (t :: a ++ b)) in H by (symmetry; apply Permutation_middle).
  rewrite tot_cons in H. apply (Permutation_Forall (Permutation_sym (Permutation_middle a b t))) in F.
  pose proof (tot_nonneg _ (Forall_inv_tail F)). lia.
Qed.

Lemma i16_small v : 0 <= v < 2 ^ 15 -> i16 v = v.
Proof. intros H. unfold i16. rewrite Z.mod_small; [lia|]. change (2 ^ 16) with (2 * 2 ^ 15). lia. Qed.

Lemma merge_ok m n k : forall pool i j L Q p b, finv m p L Q -> pstate n pool b i j L Q ->
  (length L + length Q = S k)%nat -> tot (L ++ Q) < 2 ^ 32 - 1 -> b + Z.of_nat k < 2 ^ 15 ->
  exists pool' idx t, merge_nodes k pool i j = JOk pool' /\ Z.of_nat (length pool') = b + Z.of_nat k + 1
    /\ repr pool' (b + Z.of_nat k) idx t /\ hok m t /\ wt t = tot (L ++ Q)
    /\ Permutation (flat_map lvs (L ++ Q)) (lvs t)
    /\ (Q <> [] \/ (1 <= k)%nat -> idx = b + Z.of_nat k - 1).
Proof.
  induction k as [|k IH]; intros pool i j L Q p b FI PS HL HT Hb.
  - destruct FI as (Hm & Hp & SL & SQ & FP & F2 & FH & FK). destruct PS as (LP & Sb & Sn & Hi & Ei & Hj & Ej & RL & RQ).
    destruct L as [|t [|? ?]].
    + destruct Q as [|t [|? ?]]; cbn [length] in HL; [lia| |lia]. cbn [reprs] in RQ. destruct RQ as [Rt _].
      exists pool, j, t. split; [reflexivity|]. split; [lia|]. rewrite Z.add_0_r. split; [exact Rt|].
      split; [exact (Forall_inv FH)|]. split; [unfold tot; cbn; lia|]. split; [cbn [app flat_map]; rewrite app_nil_r; reflexivity|].
      intros _. cbn [length] in Ej. lia.
    + destruct Q as [|? ?]; cbn [length] in HL; [|lia]. destruct RL as [Rt _].
      exists pool, i, t. split; [reflexivity|]. split; [lia|]. rewrite Z.add_0_r. split; [exact Rt|].
      split; [exact (Forall_inv FH)|]. split; [unfold tot; cbn; lia|]. split; [cbn [app flat_map]; rewrite app_nil_r; reflexivity|].
      intros [H|H]; [congruence|lia].
    + cbn [length] in HL. lia.
  - pose proof FI as (Hm & Hp & SL & SQ & FP & F2 & FH & FK).
    assert (FN : Forall (fun t => 0 <= wt t) (L ++ Q)) by (eapply Forall_impl; [|exact FP]; cbv beta; intros; lia).
    assert (FB := tot_each _ _ FN HT).
    destruct (pick_ok _ _ _ _ _ _ _ _ _ FI PS FB ltac:(lia)) as (x & i1 & j1 & a & L1 & Q1 & E1 & T1 & R1 & PS1 & M1).
    assert (P1 := taken_perm _ _ _ _ _ T1).
    assert (Len1 : (length L1 + length Q1 = S k)%nat).
    { pose proof (Permutation_length P1) as PL. cbn [length] in PL. rewrite !app_length in PL. lia. }
    assert (FN1 : Forall (fun t => 0 <= wt t) (L1 ++ Q1)) by (exact (Forall_inv_tail (Permutation_Forall P1 FN))).
    assert (FB1 : Forall (fun t => wt t < 2 ^ 32 - 1) (L1 ++ Q1)) by (exact (Forall_inv_tail (Permutation_Forall P1 FB))).
    (* the second tree: the queues are still sorted *)
    assert (FI1 : finv m p L1 Q1).
    { assert (SUB : (forall u, In u Q1 -> In u Q) /\ srt Q1 /\ srt L1).
      { destruct T1 as [[-> ->]|[-> ->]].
        - split; [auto|]. split; [exact SQ|]. apply srt_tl in SL as [SL _]. exact SL.
        - split; [intros; right; assumption|]. apply srt_tl in SQ as [SQ _]. auto. }
      destruct SUB as (SUB & S1 & S2). unfold finv. do 4 (split; [assumption|]).
      split; [exact (Forall_inv_tail (Permutation_Forall P1 FP))|].
      split; [apply Forall_forall; intros u Hu; rewrite Forall_forall in F2; apply F2, SUB, Hu|].
      split; [exact (Forall_inv_tail (Permutation_Forall P1 FH))|exact (Forall_inv_tail (Permutation_Forall P1 FK))]. }
    destruct (pick_ok _ _ _ _ _ _ _ _ _ FI1 PS1 FB1 ltac:(lia)) as (y & i2 & j2 & c & L2 & Q2 & E2 & T2 & R2 & PS2 & M2).
    assert (P2 := taken_perm _ _ _ _ _ T2).
    assert (Len2 : (length L2 + length Q2 = k)%nat).
    { pose proof (Permutation_length P2) as PL. cbn [length] in PL. rewrite !app_length in PL. lia. }
    assert (FI2 := finv_step _ _ _ _ _ _ _ _ _ _ FI T1 M1 T2 M2).
    assert (TT : tot (L ++ Q) = wt a + (wt c + tot (L2 ++ Q2))).
    { rewrite (tot_perm _ _ P1), tot_cons, (tot_perm _ _ P2), tot_cons. reflexivity. }
    assert (FN2 := Forall_inv_tail (Permutation_Forall P2 FN1)). pose proof (tot_nonneg _ FN2) as TN.
    pose proof (Forall_inv (Permutation_Forall P1 FN)) as Na. pose proof (Forall_inv (Permutation_Forall P2 FN1)) as Nc. cbv beta in Na, Nc.
    cbn [merge_nodes]. rewrite E1. cbn [jbind fst snd]. rewrite E2. cbn [jbind fst snd].
    destruct (repr_count _ _ _ _ R1) as (ha & Ea & Ca). destruct (repr_count _ _ _ _ R2) as (hc & Ec & Cc).
    rewrite Ea. cbn [jbind]. rewrite Ec. cbn [jbind]. rewrite Ca, Cc.
    pose proof (repr_range _ _ _ _ R1) as Rx. pose proof (repr_range _ _ _ _ R2) as Ry.
    rewrite !i16_small by lia. rewrite Z.mod_small by lia.
    destruct PS2 as (LP & Sb & Sn & Hi & Ei & Hj & Ej & RL & RQ).
    replace (Z.of_nat (length pool) - 1) with b by lia. rewrite aset_ok by lia. cbn [jbind].
    set (node := (wt a + wt c, (x, y))). set (pool1 := upd pool (Z.to_nat b) node ++ [sentinel]).
    assert (L1' : Z.of_nat (length pool1) = b + 1 + 1) by (unfold pool1; rewrite app_length, upd_length; cbn [length]; lia).
    assert (Old : forall q, 0 <= q < b -> aget pool1 q = aget pool q).
    { intros q Hq. unfold pool1. rewrite aget_app1 by (rewrite upd_length; lia). apply aget_upd_other; lia. }
    assert (New : aget pool1 b = JOk node).
    { unfold pool1. rewrite aget_app1 by (rewrite upd_length; lia). apply aget_upd_same. lia. }
    assert (Nsen : aget pool1 (b + 1) = JOk sentinel).
    { unfold pool1. rewrite aget_app2 by (rewrite upd_length; lia). rewrite upd_length. replace (b + 1 - Z.of_nat (length pool)) with 0 by lia. reflexivity. }
    assert (Rn : repr pool1 (b + 1) b (HN a c)).
    { split; [lia|]. exists x, y. split; [exact New|]. split; (eapply repr_ext; [|exact Old|eassumption]; lia). }
    assert (PS' : pstate n pool1 (b + 1) i2 j2 L2 (Q2 ++ [HN a c])).
    { unfold pstate. split; [exact L1'|]. split; [exact Nsen|]. split; [rewrite Old by lia; exact Sn|].
      split; [lia|]. split; [lia|]. split; [lia|]. split; [rewrite app_length; cbn [length]; lia|].
      split; [eapply reprs_ext; [|exact Old|eassumption]; lia|].
      apply reprs_snoc; [eapply reprs_ext; [|exact Old|eassumption]; lia|]. rewrite Ej. exact Rn. }
    assert (TT2 : tot (L2 ++ Q2 ++ [HN a c]) = tot (L ++ Q)).
    { rewrite TT. rewrite app_assoc. unfold tot. rewrite map_app, sumZ_app. cbn [map wt]. unfold sumZ; cbn [fold_right]; lia. }
    destruct (IH pool1 i2 j2 L2 (Q2 ++ [HN a c]) (wt c) (b + 1) FI2 PS') as (pool' & idx & t & E & LP' & R & HK & W & PM & IX).
    { rewrite app_length. cbn [length]. lia. }
    { rewrite TT2. exact HT. }
    { lia. }
    exists pool', idx, t. split; [exact E|]. split; [lia|].
    replace (b + Z.of_nat (S k)) with (b + 1 + Z.of_nat k) by lia. split; [exact R|]. split; [exact HK|].
    split; [rewrite W; exact TT2|]. split.
    + rewrite <- PM. rewrite (Permutation_flat_map lvs P1). cbn [flat_map]. rewrite (Permutation_flat_map lvs P2). cbn [flat_map].
      transitivity (flat_map lvs (L2 ++ Q2) ++ (lvs a ++ lvs c)); [rewrite app_assoc; apply Permutation_app_comm|].
      rewrite (app_assoc L2 Q2). rewrite (flat_map_app lvs (L2 ++ Q2)). cbn [flat_map lvs]. rewrite app_nil_r. reflexivity.
    + intros _. apply IX. left. destruct Q2; discriminate.
Qed.

(** * Depths *)

Definition put (d : list Z) (sd : Z * Z) : list Z := upd d (Z.to_nat (fst sd)) (snd sd).

Lemma levels_syms t : forall d, map fst (levels d t) = map snd (lvs t).
Proof. induction t as [c s|l IHl r IHr]; intros d; [reflexivity|]. cbn [levels lvs]. rewrite !map_app, IHl, IHr. reflexivity. Qed.

Lemma set_depth_ok pool b t : forall fuel p depth level, repr pool b p t -> (hgt t < fuel)%nat -> 0 <= level -> level + Z.of_nat (hgt t) < 256 ->
  Forall (fun s => 0 <= s < Z.of_nat (length depth)) (map snd (lvs t)) ->
  set_depth fuel pool p depth level = JOk (fold_left put (levels level t) depth).
Proof.
  induction t as [c s|l IHl r IHr]; intros fuel p depth level R Hf Hl Hb F; (destruct fuel as [|fuel]; [lia|]); cbn [set_depth].
  - destruct R as [_ E]. rewrite E. cbn [jbind snd]. change (0 <=? -1) with false. cbv iota.
    apply Forall_inv in F. cbv beta in F. cbn [snd] in F. rewrite aset_ok by lia. reflexivity.
  - destruct R as [_ (li & ri & E & Rl & Rr)]. rewrite E. cbn [jbind snd].
    pose proof (repr_range _ _ _ _ Rl). destruct (Z.leb_spec 0 li); [|lia]. cbn [hgt] in Hf, Hb.
    rewrite Z.mod_small by lia. cbn [lvs] in F. rewrite map_app in F. apply Forall_app in F as [Fl Fr].
    rewrite (IHl fuel) by (first [assumption|lia]). cbn [jbind].
    assert (LL : forall x d, length (fold_left put x d) = length d).
    { induction x as [|y x IHx]; intros d; [reflexivity|]. cbn [fold_left]. rewrite IHx. apply upd_length. }
    rewrite (IHr fuel); [|assumption|lia|lia|lia|rewrite LL; assumption].
    cbn [levels]. rewrite fold_left_app. reflexivity.
Qed.

Lemma put_length x : forall d, length (fold_left put x d) = length d.
Proof. induction x as [|y x IHx]; intros d; [reflexivity|]. cbn [fold_left]. rewrite IHx. apply upd_length. Qed.

Lemma put_out x : forall d s, ~ In (Z.of_nat s) (map fst x) -> Forall (fun sd => 0 <= fst sd) x -> nth s (fold_left put x d) 0 = nth s d 0.
Proof.
  induction x as [|[a v] x IH]; intros d s N F; [reflexivity|]. cbn [fold_left]. rewrite IH.
  - unfold put. cbn [fst snd]. apply nth_upd_other. intros E. apply N. left. cbn [fst]. apply Forall_inv in F. cbn [fst] in F. lia.
  - intros H. apply N. right. exact H.
  - eapply Forall_inv_tail, F.
Qed.

Lemma put_in x : forall d s v, NoDup (map fst x) -> Forall (fun sd => 0 <= fst sd) x -> In (Z.of_nat s, v) x -> (s < length d)%nat ->
  nth s (fold_left put x d) 0 = v.
Proof.
  induction x as [|[a w] x IH]; intros d s v ND F H Hs; [contradiction|]. cbn [map] in ND. apply NoDup_cons_iff in ND as [N1 N2].
  cbn [fold_left]. destruct H as [H|H].
  - injection H as -> ->. cbn [fst] in N1. rewrite put_out by (first [exact N1|eapply Forall_inv_tail, F]).
    unfold put. cbn [fst snd]. rewrite Nat2Z.id. apply nth_upd_same. exact Hs.
  - apply IH; [exact N2|eapply Forall_inv_tail, F|exact H|]. unfold put. rewrite upd_length. exact Hs.
Qed.

Definition ksum (lens : list Z) : Z := sumZ (map (fun l => if 0 <? l then 2 ^ (15 - l) else 0) lens).

Lemma ksum_put x : forall d, NoDup (map fst x) -> Forall (fun sd => 0 <= fst sd < Z.of_nat (length d) /\ 1 <= snd sd /\ nth (Z.to_nat (fst sd)) d 0 = 0) x ->
  ksum (fold_left put x d) = ksum d + sumZ (map (fun sd => 2 ^ (15 - snd sd)) x).
Proof.
  induction x as [|[a v] x IH]; intros d ND F; [cbn [fold_left map]; unfold sumZ; cbn [fold_right]; lia|].
  cbn [map] in ND. apply NoDup_cons_iff in ND as [N1 N2]. cbn [fst] in N1. pose proof (Forall_inv F) as (Ha & Hv & Hz). cbn [fst snd] in Ha, Hv, Hz.
  cbn [fold_left]. rewrite IH.
  - unfold put at 1. cbn [fst snd]. cbn [map snd].
    assert (E : ksum (upd d (Z.to_nat a) v) = ksum d + 2 ^ (15 - v)).
    { unfold ksum. set (f := fun l : Z => if 0 <? l then 2 ^ (15 - l) else 0).
      assert (M : map f (upd d (Z.to_nat a) v) = upd (map f d) (Z.to_nat a) (f v)).
      { generalize (Z.to_nat a). clear. induction d as [|h d IHd]; intros k; [reflexivity|]. destruct k as [|k]; [reflexivity|].
        cbn [upd map]. rewrite IHd. reflexivity. }
      rewrite M, sumZ_upd by (rewrite map_length; lia).
      replace (nth (Z.to_nat a) (map f d) 0) with (f (nth (Z.to_nat a) d 0)) by (symmetry; change 0 with (f 0) at 1; apply map_nth).
      rewrite Hz. change (f 0) with 0. replace (f v) with (2 ^ (15 - v)) by (unfold f; destruct (Z.ltb_spec 0 v); [reflexivity|lia]). lia. }
    rewrite E. unfold sumZ. cbn [fold_right]. lia.
  - exact N2.
  - unfold put. cbn [fst snd]. apply Forall_forall. intros [a2 v2] H2. pose proof (proj1 (Forall_forall _ _) F (a2, v2) (or_intror H2)) as (B1 & B2 & B3).
    cbn [fst snd] in *. rewrite upd_length. split; [exact B1|]. split; [exact B2|].
    rewrite nth_upd_other; [exact B3|]. intros E. apply N1. replace a with a2 by lia. apply (in_map fst) in H2. exact H2.
Qed.

Lemma levels_kraft t : forall d, 0 <= d -> d + Z.of_nat (hgt t) <= 15 -> sumZ (map (fun sd => 2 ^ (15 - snd sd)) (levels d t)) = 2 ^ (15 - d).
Proof.
  induction t as [c s|l IHl r IHr]; intros d H0 Hd.
  - cbn [levels map snd]. unfold sumZ. cbn [fold_right]. lia.
  - cbn [levels hgt] in *. rewrite map_app, sumZ_app, IHl, IHr by lia.
    replace (15 - d) with (15 - (d + 1) + 1) by lia. rewrite Z.pow_add_r by lia. lia.
Qed.

Lemma levels_range t : forall d, Forall (fun sd => d <= snd sd <= d + Z.of_nat (hgt t)) (levels d t).
Proof.
  induction t as [c s|l IHl r IHr]; intros d; [cbn [levels hgt]; constructor; [cbn [snd]; lia|constructor]|].
  cbn [levels hgt]. rewrite Forall_app. split; [eapply Forall_impl; [|apply (IHl (d + 1))]|eapply Forall_impl; [|apply (IHr (d + 1))]]; cbv beta; intros; lia.
Qed.
Lemma levels_max t : forall d, exists s, In (s, d + Z.of_nat (hgt t)) (levels d t).
Proof.
  induction t as [c s|l IHl r IHr]; intros d; [exists s; cbn; left; f_equal; lia|]. cbn [levels hgt].
  destruct (Nat.max_spec (hgt l) (hgt r)) as [[_ ->]|[_ ->]].
  - destruct (IHr (d + 1)) as [s H]. exists s. apply in_or_app. right. replace (d + Z.of_nat (S (hgt r))) with (d + 1 + Z.of_nat (hgt r)) by lia. exact H.
  - destruct (IHl (d + 1)) as [s H]. exists s. apply in_or_app. left. replace (d + Z.of_nat (S (hgt l))) with (d + 1 + Z.of_nat (hgt l)) by lia. exact H.
Qed.
Lemma hgt_leaves t : (hgt t < length (lvs t))%nat.
Proof. induction t as [c s|l IHl r IHr]; [cbn; lia|]. cbn [hgt lvs]. rewrite app_length. lia. Qed.
