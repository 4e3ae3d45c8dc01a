(** The description of a full prefix code is read back. *)
From Coq Require Import Permutation.
From Verif Require Import Base BitModel BitProofs CodesProofs JBitModel JReadProofs JHuffModel JHuffProofs HistProofs HuffModel HuffProofs1 HuffProofs3 HuffProofs4 HuffProofs5 HuffProofs6
  HTreeModel HTreeProofs1 HTreeProofs2 HTreeProofs3 HTreeProofs4 HStoreModel HStoreProofs1 HStoreProofs2 HStoreProofs3.

(** * Counting the codes *)

Lemma count_codes_ok cs : forall hist, Forall (fun c => 0 <= c < Z.of_nat (length hist)) cs -> Forall (fun h => 0 <= h) hist ->
  (forall i, (i < length hist)%nat -> nth i hist 0 + Z.of_nat (length cs) < 2 ^ 32) ->
  exists hist', count_codes cs hist = JOk hist' /\ length hist' = length hist
    /\ forall i, (i < length hist)%nat -> nth i hist' 0 = nth i hist 0 + cnt (Z.of_nat i) cs.
Proof.
  induction cs as [|c cs IH]; intros hist F FN HB.
  - exists hist. split; [reflexivity|]. split; [reflexivity|]. intros i _. change (cnt (Z.of_nat i) []) with 0. lia.
  - pose proof (Forall_inv F) as Hc. cbv beta in Hc. cbn [count_codes]. rewrite aget_nthZ by lia. cbn [jbind]. rewrite aset_ok by lia. cbn [jbind].
    assert (NN : 0 <= nth (Z.to_nat c) hist 0) by (rewrite Forall_forall in FN; apply FN, nth_In; lia).
    assert (HBc := HB (Z.to_nat c) ltac:(lia)). cbn [length] in HBc. rewrite Z.mod_small by lia.
    destruct (IH (upd hist (Z.to_nat c) (nth (Z.to_nat c) hist 0 + 1))) as (hist' & E & L & H).
    + rewrite upd_length. eapply Forall_inv_tail, F.
    + apply Forall_forall. intros x Hx. apply (In_nth _ _ 0) in Hx as (k & Hk & <-). rewrite upd_length in Hk.
      destruct (Nat.eq_dec k (Z.to_nat c)) as [->|N]; [rewrite nth_upd_same by lia; lia|]. rewrite nth_upd_other by lia. rewrite Forall_forall in FN. apply FN, nth_In, Hk.
    + intros k Hk. rewrite upd_length in Hk. pose proof (HB k Hk) as HBk. cbn [length] in HBk.
      destruct (Nat.eq_dec k (Z.to_nat c)) as [->|N]; [rewrite nth_upd_same by lia; lia|]. rewrite nth_upd_other by lia. lia.
    + exists hist'. split; [exact E|]. rewrite upd_length in L, H. split; [exact L|]. intros i Hi. rewrite (H i Hi), cnt_cons.
      destruct (Nat.eq_dec i (Z.to_nat c)) as [->|N].
      * rewrite nth_upd_same by lia. rewrite Z2Nat.id by lia. rewrite Z.eqb_refl. lia.
      * rewrite nth_upd_other by lia. destruct (Z.eqb_spec c (Z.of_nat i)); lia.
Qed.

Lemma cnt_in c cs : In c cs <-> cnt c cs <> 0.
Proof.
  induction cs as [|x cs IH]; [cbn; split; [contradiction|intros H; apply H; reflexivity]|]. rewrite cnt_cons. pose proof (cnt_nonneg c cs).
  destruct (Z.eqb_spec x c) as [->|N]; [split; [lia|intros; left; reflexivity]|]. cbn [In]. rewrite IH. split; [intros [?|?]; [congruence|lia]|intros; right; lia].
Qed.
Lemma cnt_len c cs : cnt c cs <= Z.of_nat (length cs).
Proof. unfold cnt. pose proof (filter_len (fun x => x =? c) cs). lia. Qed.

(** * A single code *)

Definition single_ok (i : nat) : bool :=
  let cl := upd (repeat 0 18) i 1 in
  match depths_to_codes cl (repeat 0 18), (let* counts := count_lens cl (repeat 0 16) in build_table (repeat (0, 0) 32) 5 cl counts) with
  | JOk syms, JOk (t, _) => (nth i syms 9 =? 0) && (length syms =? 18)%nat && forallb (fun e => (fst e =? 0) && (snd e =? Z.of_nat i)) t && (length t =? 32)%nat
      && (sp5 cl =? 16) && (nnz cl =? 1)
  | _, _ => false
  end.
Lemma single_check : forallb single_ok (seq 0 18) = true.
Proof. vm_compute. reflexivity. Qed.
Lemma single_tab i : (i < 18)%nat -> let cl := upd (repeat 0 18) i 1 in
  (exists syms, depths_to_codes cl (repeat 0 18) = JOk syms /\ nth i syms 9 = 0 /\ length syms = 18%nat)
  /\ (exists t s, (let* counts := count_lens cl (repeat 0 16) in build_table (repeat (0, 0) 32) 5 cl counts) = JOk (t, s)
        /\ length t = 32%nat /\ Forall (fun e => e = (0, Z.of_nat i)) t) /\ sp5 cl = 16 /\ nnz cl = 1.
Proof.
  intros Hi cl. pose proof single_check as C. rewrite forallb_forall in C. specialize (C i). rewrite in_seq in C. specialize (C ltac:(lia)).
  unfold single_ok in C. fold cl in C. cbv zeta in C. destruct (depths_to_codes cl (repeat 0 18)) as [syms| |]; try discriminate.
  destruct (let* counts := count_lens cl (repeat 0 16) in build_table (repeat (0, 0) 32) 5 cl counts) as [[t s]| |]; try discriminate.
  rewrite !andb_true_iff in C. destruct C as [[[[[C1 C2] C3] C4] C5] C6].
  split; [exists syms; split; [reflexivity|]; split; [apply Z.eqb_eq, C1|apply Nat.eqb_eq, C2]|]. split.
  - exists t, s. split; [reflexivity|]. split; [apply Nat.eqb_eq, C4|]. apply Forall_forall. intros [a b] H. rewrite forallb_forall in C3. apply C3 in H.
    cbn [fst snd] in H. apply andb_true_iff in H as [H1 H2]. apply Z.eqb_eq in H1, H2. congruence.
  - split; [apply Z.eqb_eq, C5|apply Z.eqb_eq, C6].
Qed.

Lemma look_single {A} strict t i rest (k : Z -> prog A) : length t = 32%nat -> Forall (fun e => e = (0, i)) t ->
  arun strict (look 5 t 0 k) rest = arun strict (k i) rest.
Proof.
  intros L F. unfold look. cbn [arun]. pose proof (peek_range 5 rest) as P. change (2 ^ Z.of_nat 5) with 32 in P.
  assert (E : aget t (0 + peek 5 rest) = JOk (0, i)).
  { apply aget_Some. split; [lia|]. destruct (nth_error t (Z.to_nat (0 + peek 5 rest))) as [e|] eqn:E.
    - rewrite Forall_forall in F. rewrite <- (F e); [reflexivity|]. eapply nth_error_In, E.
    - apply nth_error_None in E. lia. }
  rewrite E. cbn [fst snd Z.to_nat skipn]. reflexivity.
Qed.

(** * Writing the entries *)

Lemma store_entries_ok cl syms cbits ents : Forall ent_ok ents ->
  Forall (fun e => exists n s, aget cl (fst e) = JOk n /\ aget syms (fst e) = JOk s /\ 0 <= n <= 15 /\ 0 <= s < 2 ^ n /\ bits_of (Z.to_nat n) s = cbits (fst e)) ents ->
  exists fs, store_entries ents cl syms = JOk fs /\ fields_ok fs /\ fields_bits fs = flat_map (ebits cbits) ents.
Proof.
  induction ents as [|[c x] ents IH]; intros FO F; [exists []; repeat split; constructor|].
  destruct (IH (Forall_inv_tail FO) (Forall_inv_tail F)) as (fs & E & FF & EB). pose proof (Forall_inv F) as (n & s & E1 & E2 & Hn & Hs & B). cbn [fst] in *.
  pose proof (Forall_inv FO) as [H1 H2]. cbn [fst snd] in H1, H2.
  cbn [store_entries]. rewrite E1. cbn [jbind]. rewrite E2. cbn [jbind]. rewrite E. cbn [jbind]. eexists. split; [reflexivity|]. split.
  - apply fields_ok_cons. split; [split; [lia|rewrite Z2Nat.id by lia; exact Hs]|]. apply fields_ok_app. split; [|exact FF].
    destruct (Z.eqb_spec c 16) as [->|]; [apply fields_ok_cons; split; [split; [lia|cbn; specialize (H2 ltac:(lia)); cbn in H2; lia]|constructor]|].
    destruct (Z.eqb_spec c 17) as [->|]; [apply fields_ok_cons; split; [split; [lia|cbn; specialize (H2 ltac:(lia)); cbn in H2; lia]|constructor]|constructor].
  - cbn [fields_bits flat_map]. rewrite fields_bits_app, EB. unfold ebits at 2. cbn [fst snd]. rewrite B, <- app_assoc. f_equal. f_equal.
    destruct (c =? 16); [cbn [fields_bits]; rewrite app_nil_r; reflexivity|]. destruct (c =? 17); [cbn [fields_bits]; rewrite app_nil_r; reflexivity|reflexivity].
Qed.

(** * The whole description *)

Lemma write_tree_ok depth : complete depth -> Z.of_nat (length depth) < 2 ^ 50 ->
  e_acc (fold_left estep (write_tree depth) ([], 8, 0, 0)) = trim_zeros depth /\ Forall ent_ok (write_tree depth)
  /\ (length (write_tree depth) <= length depth)%nat.
Proof.
  intros [F K] HL. unfold write_tree. set (p := if 50 <? Z.of_nat (length depth) then _ else _). destruct p as [nz z].
  destruct (trim_spec depth) as (k & E & _). set (L := trim_zeros depth) in *.
  assert (FL : Forall (fun d => 0 <= d <= 15) L) by (rewrite E in F; apply Forall_app in F as [F _]; exact F).
  assert (LL : (length L <= length depth)%nat) by (rewrite E, app_length; lia).
  destruct (write_lens_ok nz z (length L) L [] 8 0 0) as [E2 FO]; [lia|lia|exact FL|unfold einv; lia|]. split; [exact E2|]. split; [exact FO|].
  destruct (fold_grows _ [] 8 0 0 FO ltac:(auto)) as (tl & E3 & H). rewrite E2 in E3. cbn [app] in E3. rewrite <- E3 in H. lia.
Qed.

Lemma first_code_spec hist : let '(num, code) := first_code hist in
  (num = 0 /\ used hist = []) \/ (num = 1 /\ used hist = [code]) \/ (num = 2 /\ (2 <= length (used hist))%nat).
Proof.
  unfold first_code, used. set (f := fun i => negb (nth i hist 0 =? 0)).
  assert (R : forall l, filter f (rev l) = rev (filter f l)).
  { induction l as [|x l IH]; [reflexivity|]. cbn [rev filter]. rewrite filter_app, IH. cbn [filter]. destruct (f x); [reflexivity|apply app_nil_r]. }
  rewrite R. destruct (filter f (seq 0 (length hist))) as [|a [|b l]]; cbn [rev app length]; [auto|auto|].
  right; right. split; [reflexivity|]. rewrite !app_length. cbn [length]. lia.
Qed.

Lemma ksum_sp5 cl : Forall (fun v => 0 <= v <= 5) cl -> ksum cl = 2 ^ 10 * sp5 cl.
Proof.
  induction 1 as [|v l H F IH]; [reflexivity|]. change (v :: l) with ([v] ++ l). rewrite ksum_app, IH. cbn [app]. rewrite sp5_cons.
  rewrite Z.mul_add_distr_l. f_equal.
  assert (D : v = 0 \/ v = 1 \/ v = 2 \/ v = 3 \/ v = 4 \/ v = 5) by lia. destruct D as [->|[->|[->|[->|[->| ->]]]]]; reflexivity.
Qed.

Lemma store_tree_ok depth : complete depth -> Z.of_nat (length depth) < 2 ^ 14 ->
  exists fs, store_tree depth = JOk fs /\ fields_ok fs
    /\ forall strict arena rest, Z.of_nat (length depth) + 376 <= Z.of_nat (length arena) <= 65535 ->
       exists lut total, arun strict (read_code arena (length depth)) (fields_bits fs ++ rest) = Some (firstn (Z.to_nat total) lut, rest)
         /\ table_ok depth 8 lut total /\ length lut = length arena.
Proof.
  intros CO HL. pose proof CO as [F K].
  destruct (write_tree_ok depth CO ltac:(lia)) as (EA & FO & LE). unfold store_tree. set (ents := write_tree depth) in *.
  destruct (Z.ltb_spec (Z.of_nat (length depth)) (Z.of_nat (length ents))); [lia|].
  destruct (count_codes_ok (map fst ents) (repeat 0 18)) as (hist & EH & LH & HH).
  { rewrite Forall_map. eapply Forall_impl; [|exact FO]. intros e [H1 _]. rewrite repeat_length. cbn. lia. }
  { apply Forall_forall. intros x Hx. apply repeat_spec in Hx. lia. }
  { intros i Hi. rewrite nth_repeat, map_length. lia. }
  rewrite EH. cbn [jbind]. rewrite repeat_length in LH, HH.
  assert (HH' : forall i, (i < 18)%nat -> nth i hist 0 = cnt (Z.of_nat i) (map fst ents)) by (intros i Hi; rewrite HH by exact Hi; rewrite nth_repeat; lia).
  assert (USE : forall e, In e ents -> 0 <= fst e < 18 /\ In (Z.to_nat (fst e)) (used hist)).
  { intros e He. rewrite Forall_forall in FO. destruct (FO e He) as [H1 _]. split; [lia|]. apply used_in. split; [lia|]. rewrite HH' by lia. rewrite Z2Nat.id by lia.
    apply cnt_in. apply in_map, He. }
  destruct (trim_spec depth) as (kz & ED & LT). set (L := trim_zeros depth) in *.
  assert (KL : ksum L = 2 ^ 15).
  { fold (ksum depth) in K. rewrite ED, ksum_app, ksum_zeros in K. lia. }
  assert (LT2 : last L 0 <> 0) by (destruct LT as [LT|LT]; [rewrite LT in KL; discriminate KL|exact LT]).
  assert (NE : ents <> []) by (intros C; rewrite C in EA; cbn in EA; rewrite <- EA in LT2; cbn in LT2; congruence).
  pose proof (first_code_spec hist) as FC. destruct (first_code hist) as [num code].
  assert (NU : used hist <> []).
  { destruct ents as [|e es]; [congruence|]. destruct (USE e (or_introl eq_refl)) as [_ H1]. intros C. rewrite C in H1. contradiction. }
  (* what both cases need *)
  assert (G : forall cl syms cl2 cbits, length cl = 18%nat -> Forall (fun v => 0 <= v <= 5) cl ->
    create_tree hist 5 (repeat 0 18) = JOk cl -> depths_to_codes cl (repeat 0 18) = JOk syms -> (if num =? 1 then upd cl code 0 else cl) = cl2 ->
    (1 < num /\ sp5 cl = 32 \/ num = 1 /\ sp5 cl < 32 /\ nnz cl = 1) ->
    Forall (fun e => exists n s, aget cl2 (fst e) = JOk n /\ aget syms (fst e) = JOk s /\ 0 <= n <= 15 /\ 0 <= s < 2 ^ n /\ bits_of (Z.to_nat n) s = cbits (fst e)) ents ->
    (exists t s, (let* counts := count_lens cl (repeat 0 16) in build_table (repeat (0, 0) 32) 5 cl counts) = JOk (t, s)
       /\ forall strict (A : Type) c rest (k : Z -> prog A), In c (map fst ents) -> arun strict (look 5 t 0 k) (cbits c ++ rest) = arun strict (k c) rest) ->
    exists fs, (let* cl := create_tree hist 5 (repeat 0 18) in
      let* syms := depths_to_codes cl (repeat 0 18) in
      let* f1 := store_clcl num cl in
      let cl0 := if num =? 1 then upd cl code 0 else cl in let* f2 := store_entries ents cl0 syms in JOk (f1 ++ f2)) = JOk fs
      /\ fields_ok fs
      /\ forall strict arena rest, Z.of_nat (length depth) + 376 <= Z.of_nat (length arena) <= 65535 ->
       exists lut total, arun strict (read_code arena (length depth)) (fields_bits fs ++ rest) = Some (firstn (Z.to_nat total) lut, rest)
         /\ table_ok depth 8 lut total /\ length lut = length arena).
  { intros cl syms cl2 cbits L18 F5 E1 E2 E3 HN FE (t & s & ET & LOOK).
    rewrite E1. cbn [jbind]. rewrite E2. cbn [jbind].
    assert (HN2 : 1 < num /\ sp5 cl = 32 \/ num = 1 /\ sp5 cl < 32) by (destruct HN as [HN|(A & B & _)]; auto).
    destruct (store_clcl_ok true cl num L18 F5 HN2) as (skip & f1 & EC & HS & FF1 & _). rewrite EC. cbn [jbind]. rewrite E3.
    destruct (store_entries_ok cl2 syms cbits ents FO FE) as (f2 & EF2 & FF2 & EB). rewrite EF2. cbn [jbind].
    eexists. split; [reflexivity|]. split.
    { apply fields_ok_cons. split; [split; [lia|change (2 ^ Z.of_nat 2) with 4; lia]|]. apply fields_ok_app. split; assumption. }
    intros strict arena rest HA. cbn [app fields_bits]. rewrite fields_bits_app, EB, <- !app_assoc.
    unfold read_code. change (2 ^ kMaxBits) with (2 ^ 15). destruct (Z.ltb_spec (2 ^ 15) (Z.of_nat (length depth))); [lia|].
    rewrite arun_Read by (change (2 ^ Z.of_nat 2) with 4; lia). destruct (Z.eqb_spec skip 1); [lia|]. rewrite arun_bind.
    destruct (store_clcl_ok strict cl num L18 F5 HN2) as (skip' & f1' & EC' & _ & _ & R). rewrite EC in EC'. injection EC' as <- <-.
    destruct (R (flat_map (ebits cbits) ents ++ rest)) as (nn & ER & Hn). rewrite ER.
    assert (COND : ((nn =? 1) || (32 - sp5 cl =? 0))%bool = true).
    { destruct HN as [[_ HN]|(HN1 & _ & HN2')]; [rewrite HN; apply orb_true_r|]. rewrite Hn by exact HN1. rewrite HN2'. reflexivity. }
    rewrite COND. rewrite arun_bind. unfold read_lens. rewrite ET.
    pose proof (loop_ok strict t depth L cbits (map fst ents) (LOOK strict) F (ex_intro _ kz ED) KL LT2 ents (length depth) [] 8 0 0 rest FO) as LO.
    change (2 ^ 15 - ksum []) with (2 ^ 15) in LO. rewrite LO; [|apply Forall_forall; intros e He; apply in_map, He|exact EA|cbn [length]; lia|lia|auto].
    cbn [arun].
    destruct (count_lens_ok depth (repeat 0 16) F eq_refl) as (counts & ECo & LC & HC).
    { intros l Hl. rewrite nth_repeat. lia. }
    destruct (build_main arena 8 depth counts CO ltac:(lia)) as (lut & total & EBt & LB & _ & TO).
    { split; [exact LC|]. intros l Hl. rewrite HC, nth_repeat by lia. lia. }
    { lia. }
    { change (2 ^ 8) with 256. change (2 ^ (15 - 8)) with 128. lia. }
    exists lut, total. rewrite ECo. cbn [jbind]. change kRootBits with 8. rewrite EBt. cbn [arun]. split; [reflexivity|]. split; assumption. }
  destruct FC as [[_ C]|[[HN HU]|[HN HU]]]; [contradiction| |].
  - (* all entries have the same code *)
    assert (Hc : (code < 18)%nat).
    { assert (In code (used hist)) by (rewrite HU; left; reflexivity). apply used_in in H0 as [H0 _]. lia. }
    destruct (single_tab code Hc) as ((syms & ES & S0 & LS) & (t & s & ET & LTt & FT) & P5 & PN).
    assert (ONE : forall c, In c (map fst ents) -> c = Z.of_nat code).
    { intros c Hcin. apply in_map_iff in Hcin as (e & <- & He). destruct (USE e He) as [H1 H2]. rewrite HU in H2. destruct H2 as [H2|[]]. lia. }
    apply (G (upd (repeat 0 18) code 1) syms (upd (repeat 0 18) code 0) (fun _ => [])).
    + rewrite upd_length. reflexivity.
    + apply Forall_forall. intros x Hx. apply (In_nth _ _ 0) in Hx as (i & Hi & <-). destruct (Nat.eq_dec i code) as [->|N].
      * rewrite nth_upd_same by (cbn; lia). lia.
      * rewrite nth_upd_other by lia. rewrite nth_repeat. lia.
    + assert (HL15 : Z.of_nat (length hist) < 2 ^ 15) by (rewrite LH; reflexivity). pose proof (create_tree_single hist 5 code HL15 HU) as X. rewrite LH in X. exact X.
    + exact ES.
    + rewrite HN. cbn [Z.eqb Pos.eqb]. clear. assert (E : forall l i (a b : Z), upd (upd l i a) i b = upd l i b).
      { induction l as [|x l IH]; intros i a b; [reflexivity|]. destruct i; cbn [upd]; [reflexivity|]. rewrite IH. reflexivity. }
      apply E.
    + right. split; [exact HN|]. split; [lia|exact PN].
    + apply Forall_forall. intros e He. pose proof (ONE (fst e) (in_map fst _ _ He)) as EQ. rewrite EQ. exists 0, 0.
      split; [|split; [|split; [lia|split; [cbn; lia|reflexivity]]]].
      * rewrite aget_nthZ by (rewrite upd_length; cbn; lia). rewrite Nat2Z.id, nth_upd_same by (cbn; lia). reflexivity.
      * rewrite aget_nthZ by lia. rewrite Nat2Z.id. rewrite (nth_indep _ 0 9) by lia. rewrite S0. reflexivity.
    + exists t, s. split; [exact ET|]. intros strict A c rest k Hcin. rewrite (ONE c Hcin). cbn [app]. apply look_single; assumption.
  - (* a complete code of code lengths *)
    assert (FH : Forall (fun c => 0 <= c) hist).
    { apply Forall_forall. intros x Hx. apply (In_nth _ _ 0) in Hx as (i & Hi & <-). rewrite HH' by lia. apply cnt_nonneg. }
    assert (ME : max_elem hist <= Z.of_nat (length ents)).
    { apply max_elem_le; [lia|]. apply Forall_forall. intros x Hx. apply (In_nth _ _ 0) in Hx as (i & Hi & <-). rewrite HH' by lia. rewrite <- (map_length fst). apply cnt_len. }
    assert (M0 : 0 <= max_elem hist).
    { unfold max_elem. clear. induction hist as [|x l IH]; cbn [fold_right]; lia. }
    pose proof (used_len hist) as UL.
    destruct (create_tree_ok hist 5 FH HU ltac:(lia) ltac:(nia) ltac:(lia)) as (cl & ECT & (LCl & UCl & F5 & CCl)).
    { change (fa (Z.to_nat (5 + 1))) with 21. lia. }
    rewrite LH in ECT. assert (L18 : length cl = 18%nat) by lia.
    destruct (depths_to_codes_ok cl (repeat 0 18) CCl) as (syms & ES & LS & HSy); [rewrite repeat_length; lia|lia|].
    destruct (count_lens_ok cl (repeat 0 16) (proj1 CCl) eq_refl) as (counts & ECo & LC & HC).
    { intros l Hl. rewrite nth_repeat. lia. }
    destruct (build_small (repeat (0, 0) 32) 5 cl counts CCl) as (t & EBt & LTt & TO); [lia|split; [exact LC|intros l Hl; rewrite HC, nth_repeat by lia; lia]|lia|cbn; lia| |].
    { eapply Forall_impl; [|exact F5]. cbv beta. intros; lia. }
    assert (CLpos : forall c, In c (map fst ents) -> 0 <= c < 18 /\ 1 <= nth (Z.to_nat c) cl 0 <= 5).
    { intros c Hcin. apply in_map_iff in Hcin as (e & <- & He). destruct (USE e He) as [H1 H2]. split; [lia|]. apply used_in in H2 as [H2 H3].
      assert (nth (Z.to_nat (fst e)) cl 0 <> 0) by (rewrite UCl by exact H2; exact H3).
      rewrite Forall_forall in F5. pose proof (F5 _ (nth_In cl 0 (ltac:(lia) : (Z.to_nat (fst e) < length cl)%nat))). cbv beta in *. lia. }
    apply (G cl syms cl (fun c => code_bits cl (Z.to_nat c))).
    + exact L18.
    + exact F5.
    + exact ECT.
    + exact ES.
    + rewrite HN. reflexivity.
    + left. split; [lia|]. destruct CCl as [_ KC]. fold (ksum cl) in KC. rewrite ksum_sp5 in KC by exact F5. lia.
    + apply Forall_forall. intros e He. destruct (CLpos (fst e) (in_map fst _ _ He)) as [H1 H2].
      exists (nth (Z.to_nat (fst e)) cl 0), (nth (Z.to_nat (fst e)) syms 0).
      rewrite !aget_nthZ by lia. split; [reflexivity|]. split; [reflexivity|]. split; [lia|].
      specialize (HSy (Z.to_nat (fst e)) ltac:(lia)). destruct (Z.eqb_spec (nth (Z.to_nat (fst e)) cl 0) 0); [lia|]. destruct HSy as [B R]. split; assumption.
    + exists t, (2 ^ 5). rewrite ECo. cbn [jbind]. split; [exact EBt|]. intros strict A c rest k Hcin. destruct (CLpos c Hcin) as [H1 H2].
      rewrite (look_ok strict cl 5 t (2 ^ 5) (Z.to_nat c) rest k TO) by lia. rewrite Z2Nat.id by lia. reflexivity.
Qed.
