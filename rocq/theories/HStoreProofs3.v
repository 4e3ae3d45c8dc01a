(** The description of a full prefix code is read back: codes of the code lengths. *)
From Coq Require Import Permutation.
From Verif Require Import Base BitModel BitProofs CodesProofs JBitModel JReadProofs JHuffModel JHuffProofs HistProofs HuffModel HuffProofs3 HuffProofs4 HuffProofs5 HuffProofs6
  HTreeModel HTreeProofs1 HTreeProofs2 HTreeProofs3 HTreeProofs4 HStoreModel HStoreProofs1 HStoreProofs2.

Definition sp5 (l : list Z) : Z := sumZ (map (fun v => if v =? 0 then 0 else 2 ^ 5 / 2 ^ v) l).
Definition nnz (l : list Z) : Z := Z.of_nat (length (filter (fun v => negb (v =? 0)) l)).

Lemma sp5_cons v l : sp5 (v :: l) = (if v =? 0 then 0 else 2 ^ 5 / 2 ^ v) + sp5 l.
Proof. reflexivity. Qed.
Lemma term5 v : 0 <= v <= 5 -> 0 <= (if v =? 0 then 0 else 2 ^ 5 / 2 ^ v) /\ (v <> 0 -> 0 < 2 ^ 5 / 2 ^ v).
Proof. intros H. assert (D : v = 0 \/ v = 1 \/ v = 2 \/ v = 3 \/ v = 4 \/ v = 5) by lia. destruct D as [->|[->|[->|[->|[->| ->]]]]]; (split; [vm_compute; discriminate|intros _; vm_compute; reflexivity]). Qed.
Lemma sp5_nonneg l : Forall (fun v => 0 <= v <= 5) l -> 0 <= sp5 l.
Proof. induction 1 as [|v l H F IH]; [cbn; lia|]. rewrite sp5_cons. pose proof (term5 v H). lia. Qed.
Lemma sp5_last l : Forall (fun v => 0 <= v <= 5) l -> l <> [] -> last l 0 <> 0 -> 0 < sp5 l.
Proof.
  intros F. induction F as [|v l H F IH]; intros NE HL; [congruence|]. rewrite sp5_cons. pose proof (term5 v H) as [A B].
  destruct l as [|w l]; [cbn [last] in HL; specialize (B HL); destruct (Z.eqb_spec v 0); [lia|]; change (sp5 []) with 0; lia|].
  assert (0 < sp5 (w :: l)); [|lia]. apply IH; [discriminate|]. exact HL.
Qed.

Lemma order_nodup : NoDup kCodeOrder.
Proof. unfold kCodeOrder. repeat (constructor; [cbn [In]; lia|]). constructor. Qed.
Lemma order_perm : Permutation kCodeOrder (seq 0 18).
Proof.
  apply NoDup_Permutation; [apply order_nodup|apply seq_NoDup|]. intros x. rewrite in_seq. unfold kCodeOrder. cbn [In]. lia.
Qed.

(** [acc] holds the lengths of the positions in [pre]. *)
Definition cinv (cl acc : list Z) (pre : list nat) : Prop :=
  length acc = 18%nat /\ (forall i, In i pre -> nth i acc 0 = nth i cl 0) /\ (forall i, ~ In i pre -> nth i acc 0 = 0).

Lemma clcl_loop strict cl : length cl = 18%nat -> Forall (fun v => 0 <= v <= 5) cl ->
  forall kept r pre acc space num z rest, kCodeOrder = pre ++ r -> map (fun i => nth i cl 0) r = kept ++ repeat 0 z ->
    cinv cl acc pre -> (space = sp5 kept /\ (kept = [] \/ last kept 0 <> 0) \/ sp5 kept < space /\ z = 0%nat) ->
    exists fs, static_fields kept = JOk fs /\ fields_ok fs
      /\ arun strict (read_clcl r acc space num) (fields_bits fs ++ rest) = Some ((cl, space - sp5 kept, num + nnz kept), rest).
Proof.
  intros L18 F5. induction kept as [|v kept IH]; intros r pre acc space num z rest EO EV (LA & I1 & I2) HS.
  - exists []. split; [reflexivity|]. split; [constructor|]. cbn [fields_bits app]. change (sp5 []) with 0 in *. change (nnz []) with 0. rewrite Z.sub_0_r, Z.add_0_r.
    assert (EQ : acc = cl).
    { apply nth_ext with (d := 0) (d' := 0); [lia|]. intros i Hi. destruct (in_dec Nat.eq_dec i pre) as [I|I]; [apply I1, I|].
      rewrite I2 by exact I. cbn [app] in EV. assert (IR : In i r).
      { assert (In i kCodeOrder) by (apply (Permutation_in _ (Permutation_sym order_perm)), in_seq; lia). rewrite EO in H. apply in_app_or in H as [H|H]; [contradiction|exact H]. }
      apply (in_map (fun i => nth i cl 0)) in IR. rewrite EV in IR. apply repeat_spec in IR. rewrite IR. reflexivity. }
    destruct r as [|i r]; [cbn [read_clcl arun]; rewrite EQ; reflexivity|]. cbn [read_clcl].
    destruct HS as [[-> _]|[HS Hz]]; [change (0 <? 0) with false; cbv iota; cbn [arun]; rewrite EQ; reflexivity|].
    subst z. discriminate EV.
  - destruct r as [|i r]; [discriminate EV|]. cbn [map app] in EV. injection EV as Ev EV.
    assert (Hi : (i < 18)%nat).
    { assert (H : In i kCodeOrder) by (rewrite EO; apply in_or_app; right; left; reflexivity). apply (Permutation_in _ order_perm), in_seq in H. lia. }
    assert (Hv : 0 <= v <= 5) by (rewrite <- Ev; rewrite Forall_forall in F5; apply F5, nth_In; lia).
    assert (FV : Forall (fun v => 0 <= v <= 5) (v :: kept)).
    { constructor; [exact Hv|]. apply Forall_forall. intros w Hw. assert (Hw2 : In w (kept ++ repeat 0 z)) by (apply in_or_app; left; exact Hw).
      rewrite <- EV in Hw2. apply in_map_iff in Hw2 as (j & <- & Hj). rewrite Forall_forall in F5. apply F5, nth_In.
      assert (H : In j kCodeOrder) by (rewrite EO; apply in_or_app; right; right; exact Hj). apply (Permutation_in _ order_perm), in_seq in H. lia. }
    assert (SP : 0 < space).
    { destruct HS as [[-> [HS|HS]]|[HS _]]; [discriminate|apply sp5_last; [exact FV|discriminate|exact HS]|]. pose proof (sp5_nonneg _ FV). lia. }
    rewrite sp5_cons in HS.
    destruct (static_ok strict v (fields_bits (match static_fields kept with JOk fs => fs | _ => [] end) ++ rest)
       (fun v => if v =? 0 then read_clcl r (upd acc i v) space num else read_clcl r (upd acc i v) (space - 2 ^ 5 / 2 ^ v) (num + 1)) Hv) as (n & w & E1 & Hn & Hw & E2).
    assert (CI : cinv cl (upd acc i v) (pre ++ [i])).
    { pose proof order_nodup as ND. rewrite EO in ND. apply NoDup_remove_2 in ND. split; [rewrite upd_length; exact LA|]. split.
      - intros k Hk. destruct (Nat.eq_dec k i) as [->|Nk]; [rewrite nth_upd_same by lia; congruence|]. rewrite nth_upd_other by lia.
        apply I1. apply in_app_or in Hk as [Hk|[Hk|[]]]; [exact Hk|congruence].
      - intros k Hk. destruct (Nat.eq_dec k i) as [->|Nk]; [exfalso; apply Hk, in_or_app; right; left; reflexivity|]. rewrite nth_upd_other by lia.
        apply I2. intros H. apply Hk, in_or_app. left; exact H. }
    assert (EO2 : kCodeOrder = (pre ++ [i]) ++ r) by (rewrite <- app_assoc; exact EO).
    set (space' := if v =? 0 then space else space - 2 ^ 5 / 2 ^ v).
    set (num' := if v =? 0 then num else num + 1).
    destruct (IH r (pre ++ [i]) (upd acc i v) space' num' z rest EO2 EV CI) as (fs & EF & FO & ER).
    { unfold space'. pose proof (term5 v Hv) as [T1 T2]. destruct HS as [[HS1 HS2]|[HS1 HS2]].
      - left. split; [destruct (v =? 0); lia|]. destruct HS2 as [HS2|HS2]; [discriminate|]. destruct kept as [|w0 kept]; [left; reflexivity|right; exact HS2].
      - right. split; [destruct (v =? 0); lia|exact HS2]. }
    cbn [static_fields]. rewrite E1. cbn [jbind]. rewrite EF in *. cbn [jbind]. exists ((n, w) :: fs). split; [reflexivity|].
    split; [apply fields_ok_cons; split; [split; [lia|exact Hw]|exact FO]|].
    cbn [read_clcl fields_bits]. destruct (Z.ltb_spec 0 space); [|lia]. rewrite <- app_assoc, E2.
    replace (if v =? 0 then read_clcl r (upd acc i v) space num else read_clcl r (upd acc i v) (space - 2 ^ 5 / 2 ^ v) (num + 1)) with (read_clcl r (upd acc i v) space' num')
      by (unfold space', num'; destruct (v =? 0); reflexivity).
    rewrite ER. rewrite sp5_cons. unfold space', num', nnz. cbn [filter]. destruct (v =? 0); cbn [negb length]; f_equal; f_equal; (f_equal; [f_equal; lia|lia]).
Qed.

(** The lengths with all that is left out in front: the first two or three are zero. *)
Lemma store_clcl_ok strict cl num : length cl = 18%nat -> Forall (fun v => 0 <= v <= 5) cl ->
  (1 < num /\ sp5 cl = 32 \/ num = 1 /\ sp5 cl < 32) ->
  exists skip fs, store_clcl num cl = JOk ((2%nat, skip) :: fs) /\ (skip = 0 \/ skip = 2 \/ skip = 3) /\ fields_ok fs
    /\ forall rest, exists n, arun strict (read_clcl (skipn (Z.to_nat skip) kCodeOrder) (repeat 0 18) 32 0) (fields_bits fs ++ rest)
       = Some ((cl, 32 - sp5 cl, n), rest) /\ (num = 1 -> n = nnz cl).
Proof.
  intros L18 F5 HN. unfold store_clcl. cbv zeta. set (vals := map (fun i => nth i cl 0) kCodeOrder).
  assert (PV : Permutation vals cl).
  { unfold vals. rewrite (Permutation_map _ order_perm). replace (map (fun i => nth i cl 0) (seq 0 18)) with cl; [reflexivity|].
    apply nth_ext with (d := 0) (d' := 0); [rewrite map_length, seq_length; exact L18|]. intros k Hk.
    set (f := fun i => nth i cl 0). rewrite (nth_indep (map f (seq 0 18)) 0 (f 0%nat)) by (rewrite map_length, seq_length; lia).
    rewrite map_nth, seq_nth by lia. reflexivity. }
  assert (Lv : length vals = 18%nat) by (unfold vals; rewrite map_length; reflexivity).
  set (skip := if (nth 0 vals 0 =? 0) && (nth 1 vals 0 =? 0) then if nth 2 vals 0 =? 0 then 3 else 2 else 0).
  set (kept := if 1 <? num then trim_zeros vals else vals).
  assert (HK : skip = 0 \/ skip = 2 \/ skip = 3) by (unfold skip; destruct (_ && _)%bool; [destruct (_ =? 0)|]; auto).
  assert (SZ : firstn (Z.to_nat skip) vals = repeat 0 (Z.to_nat skip)).
  { unfold skip. clear - Lv. clearbody vals. destruct vals as [|a [|b [|c l]]]; cbn [length] in Lv; try lia. cbn [nth].
    destruct (Z.eqb_spec a 0) as [->|]; [|reflexivity]. destruct (Z.eqb_spec b 0) as [->|]; [|reflexivity]. destruct (Z.eqb_spec c 0) as [->|]; reflexivity. }
  assert (SPERM : forall a b, Permutation a b -> sp5 a = sp5 b).
  { unfold sp5. induction 1; cbn [map]; unfold sumZ in *; cbn [fold_right] in *; lia. }
  assert (NPERM : forall a b, Permutation a b -> nnz a = nnz b).
  { unfold nnz. intros a b P. f_equal. apply Permutation_length. clear - P. induction P; cbn [filter]; [reflexivity| | |].
    - destruct (negb (x =? 0)); [constructor; exact IHP|exact IHP].
    - destruct (negb (x =? 0)), (negb (y =? 0)); try reflexivity. apply perm_swap.
    - eapply perm_trans; eassumption. }
  assert (SAPP : forall a b, sp5 (a ++ b) = sp5 a + sp5 b) by (intros; unfold sp5; rewrite map_app, sumZ_app; reflexivity).
  assert (NAPP : forall a b, nnz (a ++ b) = nnz a + nnz b) by (intros; unfold nnz; rewrite filter_app, app_length; lia).
  assert (SZERO : forall k, sp5 (repeat 0 k) = 0) by (induction k as [|k IH]; [reflexivity|cbn [repeat]; rewrite sp5_cons, IH; reflexivity]).
  assert (NZERO : forall k, nnz (repeat 0 k) = 0) by (induction k as [|k IH]; [reflexivity|exact IH]).
  (* what is kept *)
  assert (KZ : exists z, vals = kept ++ repeat 0 z /\ (1 < num /\ (kept = [] \/ last kept 0 <> 0) \/ num = 1 /\ z = 0%nat)).
  { unfold kept. destruct (Z.ltb_spec 1 num).
    - destruct (trim_spec vals) as (z & E & H1). exists z. split; [exact E|]. left; auto.
    - exists 0%nat. rewrite app_nil_r. split; [reflexivity|]. right. lia. }
  destruct KZ as (z & EK & HZ).
  assert (SV : sp5 kept = sp5 cl) by (rewrite <- (SPERM _ _ PV), EK, SAPP, SZERO; lia).
  assert (NV : nnz kept = nnz cl) by (rewrite <- (NPERM _ _ PV), EK, NAPP, NZERO; lia).
  (* skipping *)
  assert (SKL : (Z.to_nat skip <= length kept)%nat).
  { destruct HZ as [[H1 H2]|[_ Hz]].
    - destruct (Nat.le_gt_cases (Z.to_nat skip) (length kept)) as [|C]; [assumption|exfalso].
      assert (KZ : kept = repeat 0 (length kept)).
      { pose proof SZ as SZ2. rewrite EK in SZ2. rewrite firstn_app, firstn_all2 in SZ2 by lia. 
        apply (f_equal (firstn (length kept))) in SZ2. rewrite firstn_app, firstn_all, Nat.sub_diag, firstn_O, app_nil_r in SZ2. rewrite SZ2 at 1.
        clear - C. revert C. generalize (Z.to_nat skip), (length kept). intros a b H. revert a H. induction b as [|b IH]; intros a H; [reflexivity|].
        destruct a as [|a]; [lia|]. cbn [repeat firstn]. rewrite IH by lia. reflexivity. }
      rewrite KZ in SV. rewrite SZERO in SV. destruct HN as [[_ HN]|[HN _]]; lia.
    - rewrite EK, Hz, app_nil_r in Lv. destruct HK as [->|[->| ->]]; cbn; lia. }
  set (kept2 := skipn (Z.to_nat skip) kept).
  assert (FK : firstn (Z.to_nat skip) kept = repeat 0 (Z.to_nat skip)).
  { rewrite EK in SZ. rewrite firstn_app in SZ. replace (Z.to_nat skip - length kept)%nat with 0%nat in SZ by lia. rewrite firstn_O, app_nil_r in SZ. exact SZ. }
  assert (S2 : sp5 kept2 = sp5 cl) by (rewrite <- SV, <- (firstn_skipn (Z.to_nat skip) kept), FK, SAPP, SZERO; reflexivity).
  assert (N2 : nnz kept2 = nnz cl) by (rewrite <- NV, <- (firstn_skipn (Z.to_nat skip) kept), FK, NAPP, NZERO; reflexivity).
  assert (HS : 32 = sp5 kept2 /\ (kept2 = [] \/ last kept2 0 <> 0) \/ sp5 kept2 < 32 /\ z = 0%nat).
  { destruct HN as [[N1 HN]|[N1 HN]].
    - left. split; [lia|]. destruct HZ as [[_ HZ]|[HZ _]]; [|lia]. unfold kept2. destruct (list_eq_dec Z.eq_dec (skipn (Z.to_nat skip) kept) []) as [|NE]; [left; assumption|right].
      destruct HZ as [HZ|HZ]; [rewrite HZ in NE; destruct (Z.to_nat skip); cbn in NE; congruence|].
      intros H. apply HZ. rewrite <- (firstn_skipn (Z.to_nat skip) kept). destruct (exists_last NE) as (a & x & E). rewrite E in *. rewrite app_assoc, last_last. rewrite last_last in H. exact H.
    - right. split; [lia|]. destruct HZ as [[HZ _]|[_ HZ]]; [lia|exact HZ]. }
  assert (EV2 : map (fun i => nth i cl 0) (skipn (Z.to_nat skip) kCodeOrder) = kept2 ++ repeat 0 z).
  { rewrite <- skipn_map. fold vals. rewrite EK. rewrite skipn_app. replace (Z.to_nat skip - length kept)%nat with 0%nat by lia. reflexivity. }
  assert (CI : cinv cl (repeat 0 18) (firstn (Z.to_nat skip) kCodeOrder)).
  { split; [reflexivity|]. assert (R0 : forall i, nth i (repeat 0 18) 0 = 0) by (intros; apply nth_repeat). split; [|intros; apply R0].
    intros i Hi. rewrite R0. apply (in_map (fun i => nth i cl 0)) in Hi. rewrite <- firstn_map in Hi. fold vals in Hi. rewrite SZ in Hi. apply repeat_spec in Hi. symmetry; exact Hi. }
  assert (EO : kCodeOrder = firstn (Z.to_nat skip) kCodeOrder ++ skipn (Z.to_nat skip) kCodeOrder) by (symmetry; apply firstn_skipn).
  destruct (clcl_loop strict cl L18 F5 kept2 _ _ _ 32 0 z [] EO EV2 CI HS) as (fs & EF & FO & _).
  exists skip, fs. split; [rewrite EF; reflexivity|]. split; [exact HK|]. split; [exact FO|].
  intros rest. exists (0 + nnz kept2). destruct (clcl_loop strict cl L18 F5 kept2 _ _ _ 32 0 z rest EO EV2 CI HS) as (fs2 & EF2 & _ & ER).
  rewrite EF in EF2. injection EF2 as <-. rewrite ER, S2. split; [reflexivity|]. intros _. lia.
Qed.
