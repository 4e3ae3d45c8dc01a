(** Prefix codes and context maps the decoder accepts, whatever the bits. *)
From Coq Require Import Permutation.
From Verif Require Import Base BitModel BitProofs CodesModel CodesProofs ProgLogic JBitModel JReadProofs JHuffModel JHuffProofs HistProofs HuffModel HuffProofs1 HuffProofs3 HuffProofs4 HuffProofs5 HuffProofs6
  HTreeModel HTreeProofs1 HTreeProofs2 HTreeProofs3 HTreeProofs4 HStoreModel HStoreProofs1 HStoreProofs2 HStoreProofs3 HStoreProofs4 HStoreProofs5 HStoreProofs6 CMapModel CMapProofs1.

(** * Every lookup of a table stays inside and gives a symbol of the alphabet *)

Definition tab_total (n : nat) (t : list (Z * Z)) : Prop := forall v, 0 <= v < 256 -> exists e, aget t v = JOk e /\
  ((0 <= fst e <= 8 /\ 0 <= snd e < Z.of_nat n) \/
   (8 < fst e <= 15 /\ forall x, 0 <= x < 2 ^ (fst e - 8) -> exists e2, aget t (v + snd e + x) = JOk e2 /\ 0 <= fst e2 <= fst e - 8 /\ 0 <= snd e2 < Z.of_nat n)).

Lemma read_sym_pub n t : tab_total n t -> pub 15 (fun s => 0 <= s < Z.of_nat n) (read_sym t).
Proof.
  intros T. unfold read_sym. cbn [pub]. split; [lia|]. split; [lia|]. intros v Hv. change (2 ^ Z.of_nat 8) with 256 in Hv.
  destruct (T v Hv) as (e & E & D). rewrite E. change kRootBits with 8. destruct D as [[H1 H2]|[H1 H2]].
  - destruct (Z.ltb_spec 8 (fst e)); [lia|]. split; [lia|]. exact H2.
  - destruct (Z.ltb_spec 8 (fst e)); [|lia]. split; [lia|]. unfold look. cbn [pub]. split; [lia|]. split; [lia|]. intros x Hx.
    rewrite Z2Nat.id in Hx by lia. destruct (H2 x Hx) as (e2 & E2 & H3 & H4). rewrite E2. split; [lia|exact H4].
Qed.

Lemma word_sym lens w : complete lens -> 0 <= w < 65536 ->
  exists s, (s < length lens)%nat /\ 1 <= nth s lens 0 <= 15 /\ w mod 2 ^ nth s lens 0 = brev (Z.to_nat (nth s lens 0)) (code_value lens s).
Proof.
  intros CO Hw. destruct (code_prefix lens (bits_of 16 w) CO) as (s & rest & Hs & Hl & E); [rewrite bits_of_length; lia|].
  exists s. split; [exact Hs|]. assert (L : nth s lens 0 <= 15) by (destruct CO as [F _]; rewrite Forall_forall in F; apply F, nth_In, Hs). split; [lia|].
  pose proof (val_code lens s rest) as V. rewrite <- E in V. rewrite Z2Nat.id in V by lia. rewrite <- V. rewrite val_of_bits_of_small by exact Hw. reflexivity.
Qed.

Lemma table_total lens lut total : complete lens -> table_ok lens 8 lut total -> tab_total (length lens) (firstn (Z.to_nat total) lut).
Proof.
  intros CO [HT TD]. change (2 ^ 8) with 256 in HT. assert (G : forall i e, 0 <= i < total -> aget lut i = JOk e -> aget (firstn (Z.to_nat total) lut) i = JOk e).
  { intros i e Hi E. rewrite aget_firstn by lia. exact E. }
  intros v Hv. destruct (word_sym lens v CO ltac:(lia)) as (s & Hs & Hl & B).
  destruct (TD s v Hs ltac:(lia) ltac:(lia) B) as [[H1 H2]|[H1 (t & u & H2 & H3 & _)]]; change (2 ^ 8) with 256 in *.
  - rewrite Z.mod_small in H2 by lia. exists (nth s lens 0, Z.of_nat s). split; [apply G; [lia|exact H2]|]. left. cbn [fst snd]. lia.
  - rewrite Z.mod_small in H2 by lia. exists (t + 8, u). split; [apply G; [lia|exact H2]|]. right. cbn [fst snd]. split; [lia|]. intros x Hx.
    replace (t + 8 - 8) with t in * by lia. assert (P7 : 2 ^ t <= 2 ^ 7) by (apply Z.pow_le_mono_r; lia). change (2 ^ 7) with 128 in P7.
    assert (SUB : forall w, 0 <= w < 65536 -> w mod 256 = v -> (w / 256) mod 2 ^ t = x ->
      exists s, (s < length lens)%nat /\ 8 < nth s lens 0 <= 15 /\ w mod 2 ^ nth s lens 0 = brev (Z.to_nat (nth s lens 0)) (code_value lens s)
        /\ 0 <= v + u + x < total /\ aget lut (v + u + x) = JOk (nth s lens 0 - 8, Z.of_nat s)).
    { intros w Hw M D. destruct (word_sym lens w CO Hw) as (s' & Hs' & Hl' & B'). exists s'.
      destruct (TD s' w Hs' ltac:(lia) Hw B') as [[X1 X2]|[X1 (t' & u' & X2 & X3 & X4 & X5)]]; change (2 ^ 8) with 256 in *; rewrite M in *; rewrite H2 in X2.
      - injection X2 as X2 _. lia.
      - injection X2 as X2 X2'. assert (t' = t) by lia. subst t' u'. rewrite D in *. split; [exact Hs'|]. split; [lia|]. split; [exact B'|]. split; [lia|exact X5]. }
    assert (HW : 0 <= v + 256 * x < 2 ^ (8 + t)) by (rewrite Z.pow_add_r by lia; change (2 ^ 8) with 256; nia).
    assert (P8 : 2 ^ (8 + t) <= 2 ^ 15) by (apply Z.pow_le_mono_r; lia). change (2 ^ 15) with 32768 in P8.
    destruct (SUB (v + 256 * x)) as (s1 & Hs1 & L1 & B1 & R1 & E1).
    { lia. }
    { rewrite Z.mul_comm, Z_mod_plus_full. apply Z.mod_small, Hv. }
    { rewrite Z.mul_comm, Z.div_add by lia. rewrite (Z.div_small v) by lia. apply Z.mod_small. lia. }
    exists (nth s1 lens 0 - 8, Z.of_nat s1). split; [apply G; assumption|]. cbn [fst snd]. split; [|lia]. split; [lia|].
    (* a longer code would not fit this place *)
    destruct (Z_le_gt_dec (nth s1 lens 0 - 8) t) as [LE|GT]; [exact LE|exfalso].
    assert (E8 : 2 ^ (8 + t) = 256 * 2 ^ t) by (rewrite Z.pow_add_r by lia; reflexivity).
    destruct (SUB (v + 256 * x + 2 ^ (8 + t))) as (s2 & Hs2 & L2 & B2 & R2 & E2).
    { lia. }
    { rewrite E8. replace (v + 256 * x + 256 * 2 ^ t) with (v + (x + 2 ^ t) * 256) by lia. rewrite Z_mod_plus_full. apply Z.mod_small, Hv. }
    { rewrite E8. replace (v + 256 * x + 256 * 2 ^ t) with (v + (x + 2 ^ t) * 256) by lia. rewrite Z.div_add by lia. rewrite (Z.div_small v) by lia.
      rewrite Z.add_0_l. replace (x + 2 ^ t) with (x + 1 * 2 ^ t) by lia. rewrite Z_mod_plus_full. apply Z.mod_small. lia. }
    rewrite E1 in E2. injection E2 as _ E2. assert (s2 = s1) by lia. subst s2. rewrite <- B1 in B2.
    assert (P9 : 2 ^ (8 + t + 1) <= 2 ^ nth s1 lens 0) by (apply Z.pow_le_mono_r; lia). rewrite Z.pow_add_r in P9 by lia. change (2 ^ 1) with 2 in P9.
    rewrite !Z.mod_small in B2 by lia. lia.
Qed.

(** * Simple codes *)

Lemma swap_if_all (P : Z -> Prop) i j s : (i < length s)%nat -> (j < length s)%nat -> Forall P s -> Forall P (swap_if i j s) /\ length (swap_if i j s) = length s.
Proof.
  intros Hi Hj F. unfold swap_if. destruct (_ <? _); [|auto]. rewrite !upd_length. split; [|reflexivity].
  assert (U : forall l k v, Forall P l -> P v -> Forall P (upd l k v)).
  { clear. induction l as [|x l IH]; intros k v F H; [constructor|]. pose proof (Forall_inv F). pose proof (Forall_inv_tail F). destruct k; cbn [upd]; constructor; auto. }
  rewrite Forall_forall in F. apply U; [apply U|]; [apply Forall_forall; exact F| |]; apply F, nth_In; assumption.
Qed.
Lemma simple_total (P : Z -> Prop) kind s e : 1 <= kind <= 5 -> length s = kind_len kind -> Forall P s -> simple_entries kind s = Some e ->
  Forall (fun x => 0 <= fst x <= 8 /\ P (snd x)) e /\ (256 mod length e = 0)%nat /\ length e <> 0%nat.
Proof.
  intros K L F. assert (N : forall s i, Forall P s -> (i < length s)%nat -> P (nth i s 0)) by (intros s' i F' H; rewrite Forall_forall in F'; apply F', nth_In, H).
  assert (D : kind = 1 \/ kind = 2 \/ kind = 3 \/ kind = 4 \/ kind = 5) by lia. unfold simple_entries.
  destruct D as [->|[->|[->|[->| ->]]]]; cbv - [length] in L; cbn [Z.eqb Pos.eqb]; cbv zeta; intros E; injection E as <-; (split; [|split; [reflexivity|discriminate]]).
  - repeat (apply Forall_cons; [cbn [fst snd]; split; [lia|apply N; [assumption|lia]]|]). constructor.
  - destruct (swap_if_all P 0 1 s) as [F1 L1]; [lia|lia|exact F|].
    repeat (apply Forall_cons; [cbn [fst snd]; split; [lia|apply N; [assumption|lia]]|]). constructor.
  - destruct (swap_if_all P 1 2 s) as [F1 L1]; [lia|lia|exact F|].
    repeat (apply Forall_cons; [cbn [fst snd]; split; [lia|apply N; [assumption|lia]]|]). constructor.
  - destruct (swap_if_all P 0 1 s) as [F1 L1]; [lia|lia|exact F|]. destruct (swap_if_all P 0 2 _ ltac:(rewrite L1, L; lia) ltac:(rewrite L1, L; lia) F1) as [F2 L2].
    destruct (swap_if_all P 0 3 _ ltac:(rewrite L2, L1, L; lia) ltac:(rewrite L2, L1, L; lia) F2) as [F3 L3].
    destruct (swap_if_all P 1 2 _ ltac:(rewrite L3, L2, L1, L; lia) ltac:(rewrite L3, L2, L1, L; lia) F3) as [F4 L4].
    destruct (swap_if_all P 1 3 _ ltac:(rewrite L4, L3, L2, L1, L; lia) ltac:(rewrite L4, L3, L2, L1, L; lia) F4) as [F5 L5].
    destruct (swap_if_all P 2 3 _ ltac:(rewrite L5, L4, L3, L2, L1, L; lia) ltac:(rewrite L5, L4, L3, L2, L1, L; lia) F5) as [F6 L6].
    repeat (apply Forall_cons; [cbn [fst snd]; split; [lia|apply N; [assumption|lia]]|]). constructor.
  - destruct (swap_if_all P 2 3 s) as [F1 L1]; [lia|lia|exact F|].
    repeat (apply Forall_cons; [cbn [fst snd]; split; [lia|apply N; [assumption|lia]]|]). constructor.
Qed.
Lemma tile_total n e : Forall (fun x => 0 <= fst x <= 8 /\ 0 <= snd x < Z.of_nat n) e -> (256 mod length e = 0)%nat -> length e <> 0%nat -> tab_total n (tile 256 e).
Proof.
  intros F M N v Hv. destruct (tile_spec e M N) as [_ T]. rewrite T by exact Hv. eexists. split; [reflexivity|]. left.
  rewrite Forall_forall in F. apply F, nth_In, Nat.mod_upper_bound, N.
Qed.

Lemma read_syms_pub n bits alphabet : (bits <= 24)%nat -> pub (n * bits) (fun l => length l = n /\ Forall (fun s => 0 <= s < alphabet) l) (read_syms n bits alphabet).
Proof.
  intros HB. induction n as [|n IH]; [cbn; split; [reflexivity|constructor]|]. cbn [read_syms Nat.mul]. apply pub_Read; [exact HB|]. intros v Hv.
  destruct (Z.leb_spec alphabet (v mod 2 ^ 16)); [exact Logic.I|]. rewrite <- (Nat.add_0_r (n * bits)). eapply pub_bind; [exact IH|]. intros l [L F]. cbn [pub].
  split; [cbn [length]; lia|]. constructor; [|exact F]. split; [apply Z.mod_pos_bound; reflexivity|lia].
Qed.

Lemma read_simple_pub n : (1 <= n)%nat -> Z.of_nat n <= 2 ^ 15 -> pub 67 (tab_total n) (read_simple (Z.of_nat n mod 2 ^ 16)).
Proof.
  intros H1 H2. rewrite Z.mod_small by lia. unfold read_simple. destruct (max_bits_ok (Z.of_nat n) ltac:(lia)) as (_ & MB & _).
  apply (pub_Read 65 2); [lia|]. intros ns Hns. change (2 ^ Z.of_nat 2) with 4 in Hns.
  eapply (pub_mono (tab_total n) (tab_total n)); [|auto|eapply (pub_bind _ (tab_total n) _ _ 1); [apply read_syms_pub with (bits := sym_bits (Z.of_nat n)); lia|]].
  { assert (Z.to_nat (ns + 1) <= 4)%nat by lia. assert (SB : (sym_bits (Z.of_nat n) <= 16)%nat) by exact MB. nia. }
  intros syms [L F]. destruct (distinct syms); [|exact Logic.I].
  assert (FIN : forall kind, 1 <= kind <= 5 -> kind_len kind = Z.to_nat (ns + 1) -> pub 0 (tab_total n) (match simple_entries kind syms with Some e => Chk (Ret (tile 256 e)) | None => Fail end)).
  { intros kind K KL. destruct (simple_entries kind syms) as [e|] eqn:E; [|exact Logic.I]. cbn [pub].
    destruct (simple_total _ kind syms e K ltac:(lia) F E) as (A & B & C). apply tile_total; assumption. }
  destruct (Z.eqb_spec ns 3) as [->|N3].
  - apply (pub_Read 0 1); [lia|]. intros sel Hsel. change (2 ^ Z.of_nat 1) with 2 in Hsel. assert (D : sel = 0 \/ sel = 1) by lia. apply FIN; [lia|]. destruct D as [-> | ->]; reflexivity.
  - eapply pub_mono; [|intros a Ha; exact Ha|apply FIN; [lia|]]; [lia|]. unfold kind_len. destruct (Z.eqb_spec (ns + 1) 5); [lia|reflexivity].
Qed.

(** * Code lengths of the code lengths *)

Definition sum5 (l : list Z) i v := sp5 (upd l i v) = sp5 l + (if v =? 0 then 0 else 2 ^ 5 / 2 ^ v) /\ nnz (upd l i v) = nnz l + (if v =? 0 then 0 else 1).
Lemma nnz_cons v l : nnz (v :: l) = (if v =? 0 then 0 else 1) + nnz l.
Proof. unfold nnz. cbn [filter]. destruct (v =? 0); cbn [negb length]; lia. Qed.
Lemma sum5_ok l : forall i v, (i < length l)%nat -> nth i l 0 = 0 -> sum5 l i v.
Proof.
  unfold sum5. induction l as [|x l IH]; intros i v Hi E; [cbn in Hi; lia|]. cbn [length] in Hi. destruct i as [|i]; cbn [nth] in E; cbn [upd]; rewrite !sp5_cons, !nnz_cons.
  - subst x. change (0 =? 0) with true. cbv iota. lia.
  - destruct (IH i v ltac:(lia) E) as [A B]. rewrite A, B. lia.
Qed.

Definition clinv (r : list nat) (cl : list Z) (space num : Z) : Prop :=
  length cl = 18%nat /\ Forall (fun v => 0 <= v <= 5) cl /\ sp5 cl = 32 - space /\ nnz cl = num /\ (forall i, In i r -> (i < 18)%nat /\ nth i cl 0 = 0).
Definition clres (c : list Z * Z * Z) : Prop := let '(cl, space, num) := c in length cl = 18%nat /\ Forall (fun v => 0 <= v <= 5) cl /\ sp5 cl = 32 - space /\ nnz cl = num.

Lemma static_total v : 0 <= v < 16 -> exists e, aget kStaticCode (0 + v) = JOk e /\ 0 <= fst e <= 4 /\ 0 <= snd e <= 5.
Proof.
  intros H. assert (C : forallb (fun i => match aget kStaticCode (0 + Z.of_nat i) with JOk e => (0 <=? fst e) && (fst e <=? 4) && (0 <=? snd e) && (snd e <=? 5) | _ => false end) (seq 0 16) = true) by reflexivity.
  rewrite forallb_forall in C. specialize (C (Z.to_nat v)). rewrite in_seq, Z2Nat.id in C by lia. specialize (C ltac:(lia)).
  destruct (aget kStaticCode (0 + v)) as [e| |]; try discriminate. exists e. rewrite !andb_true_iff in C. split; [reflexivity|]. lia.
Qed.
Lemma read_clcl_pub : forall r cl space num, NoDup r -> clinv r cl space num -> pub (4 * length r) clres (read_clcl r cl space num).
Proof.
  induction r as [|i r IH]; intros cl space num ND (L & F & S5 & NN & Z0).
  - cbn [read_clcl pub clres]. auto.
  - cbn [read_clcl]. destruct (0 <? space); [|cbn [pub clres]; auto]. unfold look. cbn [pub length]. split; [lia|]. split; [lia|]. intros v Hv. change (2 ^ Z.of_nat 4) with 16 in Hv.
    destruct (static_total v Hv) as (e & E & H1 & H2). rewrite E. split; [lia|]. destruct (Z0 i (or_introl eq_refl)) as [Hi Ei].
    destruct (sum5_ok cl i (snd e) ltac:(lia) Ei) as [A B]. apply NoDup_cons_iff in ND as [NI ND].
    assert (F' : Forall (fun v => 0 <= v <= 5) (upd cl i (snd e))).
    { apply Forall_forall. intros x Hx. apply (In_nth _ _ 0) in Hx as (k & Hk & <-). rewrite upd_length in Hk. destruct (Nat.eq_dec k i) as [->|N]; [rewrite nth_upd_same by lia; exact H2|].
      rewrite nth_upd_other by lia. rewrite Forall_forall in F. apply F, nth_In, Hk. }
    assert (Z' : forall j, In j r -> (j < 18)%nat /\ nth j (upd cl i (snd e)) 0 = 0).
    { intros j Hj. destruct (Z0 j (or_intror Hj)) as [J1 J2]. split; [exact J1|]. rewrite nth_upd_other; [exact J2|]. intros ->. contradiction. }
    destruct (Z.eqb_spec (snd e) 0) as [E0|E0].
    + eapply pub_mono; [|intros a Ha; exact Ha|apply IH; [exact ND|]]; [lia|]. split; [rewrite upd_length; exact L|]. split; [exact F'|]. split; [lia|]. split; [lia|exact Z'].
    + eapply pub_mono; [|intros a Ha; exact Ha|apply IH; [exact ND|]]; [lia|]. split; [rewrite upd_length; exact L|]. split; [exact F'|]. split; [lia|]. split; [lia|exact Z'].
Qed.

(** The table of the code lengths. *)
Definition tab5 (t : list (Z * Z)) : Prop := forall v, 0 <= v < 32 -> exists e, aget t (0 + v) = JOk e /\ 0 <= fst e <= 5 /\ 0 <= snd e < 18.

Definition single5_ok (iv : nat * Z) : bool :=
  let cl := upd (repeat 0 18) (fst iv) (snd iv) in
  match (let* counts := count_lens cl (repeat 0 16) in build_table (repeat (0, 0) 32) 5 cl counts) with
  | JOk (t, _) => forallb (fun i => match aget t (0 + Z.of_nat i) with JOk e => (fst e =? 0) && (snd e =? Z.of_nat (fst iv)) | _ => false end) (seq 0 32)
  | _ => false
  end.
Lemma single5_check : forallb (fun i => forallb (fun v => single5_ok (i, v)) [1; 2; 3; 4; 5]) (seq 0 18) = true.
Proof. vm_compute. reflexivity. Qed.

Lemma nnz_one l : nnz l = 1 -> exists i, (i < length l)%nat /\ nth i l 0 <> 0 /\ l = upd (repeat 0 (length l)) i (nth i l 0).
Proof.
  assert (Z0 : forall l, nnz l = 0 -> l = repeat 0 (length l)).
  { clear. induction l as [|x l IH]; intros H; [reflexivity|]. rewrite nnz_cons in H. assert (0 <= nnz l) by (unfold nnz; lia). destruct (Z.eqb_spec x 0) as [->|]; [|lia]. cbn [length repeat]. f_equal. apply IH. lia. }
  induction l as [|x l IH]; intros H; [discriminate H|]. rewrite nnz_cons in H. destruct (Z.eqb_spec x 0) as [->|N].
  - destruct (IH ltac:(lia)) as (i & Hi & Hn & E). exists (S i). cbn [length nth repeat upd]. split; [lia|]. split; [exact Hn|]. f_equal. exact E.
  - exists 0%nat. cbn [length nth repeat upd]. split; [lia|]. split; [exact N|]. f_equal. apply Z0. lia.
Qed.

Lemma cl_table cl space num : length cl = 18%nat -> Forall (fun v => 0 <= v <= 5) cl -> sp5 cl = 32 - space -> nnz cl = num -> ((num =? 1) || (space =? 0))%bool = true ->
  exists t s, (let* counts := count_lens cl (repeat 0 16) in build_table (repeat (0, 0) 32) 5 cl counts) = JOk (t, s) /\ tab5 t.
Proof.
  intros L F S5 NN C. apply orb_true_iff in C as [C|C]; apply Z.eqb_eq in C.
  - rewrite C in NN. destruct (nnz_one cl NN) as (i & Hi & Hn & E). rewrite L in E, Hi. pose proof single5_check as K. rewrite forallb_forall in K. specialize (K i). rewrite in_seq in K. specialize (K ltac:(lia)).
    rewrite forallb_forall in K. specialize (K (nth i cl 0)).
    assert (V : 0 <= nth i cl 0 <= 5) by (rewrite Forall_forall in F; apply F, nth_In; lia).
    specialize (K ltac:(cbn [In]; lia)). unfold single5_ok in K. cbn [fst snd] in K. rewrite <- E in K.
    destruct (let* counts := count_lens cl (repeat 0 16) in build_table (repeat (0, 0) 32) 5 cl counts) as [[t s]| |]; try discriminate. exists t, s. split; [reflexivity|].
    intros v Hv. rewrite forallb_forall in K. specialize (K (Z.to_nat v)). rewrite in_seq, Z2Nat.id in K by lia. specialize (K ltac:(lia)).
    destruct (aget t (0 + v)) as [e| |]; try discriminate. exists e. split; [reflexivity|]. apply andb_true_iff in K. lia.
  - assert (CO : complete cl).
    { split; [eapply Forall_impl; [|exact F]; cbv beta; intros; lia|]. fold (ksum cl). rewrite ksum_sp5 by exact F. rewrite S5, C. reflexivity. }
    destruct (count_lens_ok cl (repeat 0 16) (proj1 CO) eq_refl) as (counts & ECo & LC & HC).
    { intros l Hl. rewrite nth_repeat. lia. }
    destruct (build_small (repeat (0, 0) 32) 5 cl counts CO) as (t & EBt & LTt & TO); [lia|split; [exact LC|intros l Hl; rewrite HC, nth_repeat by lia; lia]|lia|cbn; lia| |].
    { eapply Forall_impl; [|exact F]. cbv beta. intros; lia. }
    exists t, (2 ^ 5). rewrite ECo. cbn [jbind]. split; [exact EBt|]. intros v Hv.
    destruct (word_sym cl v CO ltac:(lia)) as (s & Hs & Hl & B). destruct TO as [_ TD].
    assert (L5 : nth s cl 0 <= 5) by (rewrite Forall_forall in F; apply F, nth_In, Hs).
    destruct (TD s v Hs ltac:(lia) ltac:(lia) B) as [[H1 H2]|[H1 _]]; [|lia]. change (2 ^ 5) with 32 in H2. rewrite Z.mod_small in H2 by lia.
    exists (nth s cl 0, Z.of_nat s). split; [exact H2|]. cbn [fst snd]. lia.
Qed.

(** * Code lengths *)

Lemma read_lens_pub t n : tab5 t -> forall fuel acc prev rp rl, (length acc <= n)%nat -> Forall (fun d => 0 <= d <= 15) acc -> 1 <= prev <= 15 -> (rp = 0 \/ 3 <= rp) ->
  pub (5 * (n - length acc) + 3) (fun lens => length lens = n /\ complete lens) (read_lens_loop fuel t n acc prev rp rl (2 ^ 15 - ksum acc)).
Proof.
  intros T5. induction fuel as [|f IH]; intros acc prev rp rl HA FA HP HR; cbn [read_lens_loop];
  assert (END : pub (5 * (n - length acc) + 3) (fun lens => length lens = n /\ complete lens) (if 2 ^ 15 - ksum acc =? 0 then Chk (Ret (acc ++ repeat 0 (n - length acc))) else Fail)).
  1, 3: destruct (Z.eqb_spec (2 ^ 15 - ksum acc) 0) as [E|E]; [cbn [pub]|exact Logic.I];
    (split; [rewrite app_length, repeat_length; lia|]); (split; [apply Forall_app; split; [exact FA|apply Forall_forall; intros x Hx; apply repeat_spec in Hx; lia]|]);
    change (ksum (acc ++ repeat 0 (n - length acc)) = 2 ^ 15); rewrite ksum_app, ksum_zeros; lia.
  - destruct (_ && _)%bool; [exact Logic.I|exact END].
  - destruct (Nat.ltb_spec (length acc) n) as [HL|HL]; [|exact END]. destruct (Z.ltb_spec 0 (2 ^ 15 - ksum acc)) as [HS|HS]; [|exact END]. cbn [andb]. clear END.
    unfold look. cbn [pub]. split; [lia|]. split; [lia|]. intros v Hv. change (2 ^ Z.of_nat 5) with 32 in Hv. destruct (T5 v Hv) as (e & E & H1 & H2). rewrite E. split; [lia|].
    set (c := snd e) in *. destruct (Z.ltb_spec c 16) as [H16|H16].
    + assert (LA : length (acc ++ [c]) = S (length acc)) by (rewrite app_length; cbn [length]; lia).
      assert (FA' : Forall (fun d => 0 <= d <= 15) (acc ++ [c])) by (apply Forall_app; split; [exact FA|constructor; [lia|constructor]]).
      destruct (Z.eqb_spec c 0) as [E0|E0].
      * replace (2 ^ 15 - ksum acc) with (2 ^ 15 - ksum (acc ++ [c])) by (rewrite ksum_app, E0; change (ksum [0]) with 0; lia).
        eapply pub_mono; [|intros a Ha; exact Ha|apply IH; [lia|exact FA'|exact HP|left; reflexivity]]. lia.
      * rewrite div_pow by lia. replace (2 ^ 15 - ksum acc - 2 ^ (15 - c)) with (2 ^ 15 - ksum (acc ++ [c])).
        2:{ rewrite ksum_app. change [c] with (repeat c 1). rewrite ksum_repeat by lia. lia. }
        eapply pub_mono; [|intros a Ha; exact Ha|apply IH; [lia|exact FA'|lia|left; reflexivity]]. lia.
    + assert (DC : c = 16 \/ c = 17) by lia.
      set (nl := if c =? 16 then prev else 0). set (old := if rl =? nl then rp else 0).
      assert (HO : old = 0 \/ 3 <= old) by (unfold old; destruct (rl =? nl); lia).
      assert (HNL : 0 <= nl <= 15) by (unfold nl; destruct (c =? 16); lia).
      set (base := if 0 <? old then (old - 2) * 2 ^ (c - 14) else old).
      eapply pub_mono; [|intros a Ha; exact Ha|apply pub_Read with (c := (5 * (n - length acc) + 3 - 8)%nat); [lia|]]; [lia|].
      intros x Hx. rewrite Z2Nat.id in Hx by lia. set (rep := base + x + 3). cbv zeta. fold rep.
      assert (P4 : 4 <= 2 ^ (c - 14)) by (destruct DC as [-> | ->]; vm_compute; discriminate).
      assert (HD : 3 <= rep - old /\ 3 <= rep).
      { unfold rep, base. destruct (Z.ltb_spec 0 old); [|lia]. nia. }
      destruct (Z.ltb_spec (Z.of_nat n) (Z.of_nat (length acc) + (rep - old))) as [OV|OV]; [exact Logic.I|].
      set (acc' := acc ++ repeat nl (Z.to_nat (rep - old))).
      assert (LA : length acc' = (length acc + Z.to_nat (rep - old))%nat) by (unfold acc'; rewrite app_length, repeat_length; reflexivity).
      replace (if nl =? 0 then 2 ^ 15 - ksum acc else 2 ^ 15 - ksum acc - (rep - old) * 2 ^ 15 / 2 ^ nl) with (2 ^ 15 - ksum acc').
      2:{ unfold acc'. rewrite ksum_app. destruct (Z.eqb_spec nl 0) as [EN|EN]; [rewrite EN, ksum_zeros; lia|]. rewrite ksum_repeat by lia. rewrite div_pow_mul by lia. rewrite Z2Nat.id by lia. lia. }
      eapply pub_mono; [|intros a Ha; exact Ha|apply IH].
      * lia.
      * lia.
      * unfold acc'. apply Forall_app. split; [exact FA|]. apply Forall_forall. intros y Hy. apply repeat_spec in Hy. subst y. exact HNL.
      * exact HP.
      * right. lia.
Qed.

(** * The whole description *)

Lemma nodup_suffix {A} (a b : list A) : NoDup (a ++ b) -> NoDup b.
Proof. induction a as [|x a IH]; [auto|]. cbn [app]. intros H. apply NoDup_cons_iff in H as [_ H]. auto. Qed.

Lemma read_code_pub arena n : (1 <= n)%nat -> Z.of_nat n <= 2 ^ 15 -> Z.of_nat n + 376 <= Z.of_nat (length arena) <= 65535 ->
  pub (77 + 5 * n) (tab_total n) (read_code arena n).
Proof.
  intros H1 H2 HA. unfold read_code. change (2 ^ kMaxBits) with (2 ^ 15). destruct (Z.ltb_spec (2 ^ 15) (Z.of_nat n)); [lia|].
  apply (pub_Read (75 + 5 * n) 2); [lia|]. intros kind HK. change (2 ^ Z.of_nat 2) with 4 in HK. destruct (Z.eqb_spec kind 1) as [->|N1].
  - eapply pub_mono; [|intros a Ha; exact Ha|apply read_simple_pub; assumption]. lia.
  - replace (75 + 5 * n)%nat with (72 + (5 * n + 3))%nat by lia. eapply pub_bind with (P := clres).
    + eapply pub_mono; [|intros a Ha; exact Ha|apply read_clcl_pub].
      * rewrite skipn_length. change (length kCodeOrder) with 18%nat. lia.
      * pose proof order_nodup as ND. rewrite <- (firstn_skipn (Z.to_nat kind) kCodeOrder) in ND. exact (nodup_suffix _ _ ND).
      * split; [reflexivity|]. split; [apply Forall_forall; intros x Hx; apply repeat_spec in Hx; lia|]. split; [reflexivity|]. split; [reflexivity|].
        intros i Hi. assert (HI : In i kCodeOrder) by (rewrite <- (firstn_skipn (Z.to_nat kind) kCodeOrder); apply in_or_app; right; exact Hi).
        apply (Permutation_in _ order_perm), in_seq in HI. split; [lia|]. apply nth_repeat.
    + intros [[cl space] num] (L & F & S5 & NN). destruct ((num =? 1) || (space =? 0))%bool eqn:C; [|exact Logic.I].
      destruct (cl_table cl space num L F S5 NN C) as (t & s & ET & T5).
      rewrite <- (Nat.add_0_r (5 * n + 3)). eapply pub_bind with (P := fun lens => length lens = n /\ complete lens).
      * unfold read_lens. rewrite ET. pose proof (read_lens_pub t n T5 n [] 8 0 0) as X. cbn [length] in X. change (2 ^ 15 - ksum []) with (2 ^ 15) in X. rewrite Nat.sub_0_r in X.
        apply X; [lia|constructor|lia|left; reflexivity].
      * intros lens [LL CO]. cbn [pub].
        destruct (count_lens_ok lens (repeat 0 16) (proj1 CO) eq_refl) as (counts & ECo & LC & HC).
        { intros l Hl. rewrite nth_repeat. lia. }
        destruct (build_main arena 8 lens counts CO ltac:(lia)) as (lut & total & EBt & LB & _ & TO).
        { split; [exact LC|]. intros l Hl. rewrite HC, nth_repeat by lia. lia. }
        { lia. }
        { change (2 ^ 8) with 256. change (2 ^ (15 - 8)) with 128. lia. }
        rewrite ECo. cbn [jbind]. change kRootBits with 8. rewrite EBt. cbn [pub]. rewrite <- LL. apply table_total; assumption.
Qed.

(** * Context maps *)

Lemma nth_skipn' {A} (l : list A) d : forall k i, nth i (skipn k l) d = nth (k + i) l d.
Proof. induction l as [|x l IH]; intros [|k] i; try reflexivity; [destruct i; reflexivity|]. cbn [skipn Nat.add nth]. apply IH. Qed.

Lemma imtf_range nh v : forall m, (nh <= length m)%nat -> (forall i, (i < nh)%nat -> 0 <= nth i m 0 < Z.of_nat nh) -> Forall (fun x => 0 <= x < Z.of_nat nh) v ->
  Forall (fun x => 0 <= x < Z.of_nat nh) (imtf_loop m v).
Proof.
  induction v as [|x v IH]; intros m HL HM F; [constructor|]. pose proof (Forall_inv F) as HX. cbv beta in HX. cbn [imtf_loop].
  assert (HI : (Z.to_nat x < nh)%nat) by lia. constructor; [apply HM, HI|]. apply IH; [| |eapply Forall_inv_tail, F].
  - destruct (x =? 0); [exact HL|]. rewrite move_len by lia. exact HL.
  - destruct (x =? 0); [exact HM|]. intros i Hi. unfold move_to_front. destruct i as [|i]; [cbn [nth]; apply HM, HI|]. cbn [nth].
    destruct (Nat.lt_ge_cases i (Z.to_nat x)) as [C|C].
    + rewrite app_nth1 by (rewrite firstn_length; lia). rewrite nth_firstn_lt by exact C. apply HM. lia.
    + rewrite app_nth2 by (rewrite firstn_length; lia). rewrite firstn_length, Nat.min_l by lia.
      rewrite nth_skipn'. replace (S (Z.to_nat x) + (i - Z.to_nat x))%nat with (S i) by lia. apply HM. lia.
Qed.
Lemma imtf_len v : forall m, length (imtf_loop m v) = length v.
Proof. induction v as [|x v IH]; intros m; [reflexivity|]. cbn [imtf_loop length]. rewrite IH. reflexivity. Qed.

Definition map_ok (nh n : nat) (m : list Z) : Prop := length m = n /\ Forall (fun x => 0 <= x < Z.of_nat nh) m.

Lemma read_cmap_total nh table mp n : (1 <= nh <= 256)%nat -> 0 <= mp <= 16 -> tab_total (nh + Z.to_nat mp) table ->
  forall fuel acc, (length acc <= n)%nat -> Forall (fun x => 0 <= x < Z.of_nat nh) acc ->
  bok (if (n <=? length acc)%nat then 1 else 0) (read_cmap fuel table mp n acc) /\ pall (map_ok nh n) (read_cmap fuel table mp n acc).
Proof.
  intros HN HM T. pose proof (read_sym_pub _ table T) as RS. pose proof (pub_pall _ _ _ RS) as RA.
  assert (END : forall acc, length acc = n -> Forall (fun x => 0 <= x < Z.of_nat nh) acc ->
    bok 1 (Read 1 (fun b => Chk (Ret (if b =? 0 then acc else imtf acc)))) /\ pall (map_ok nh n) (Read 1 (fun b => Chk (Ret (if b =? 0 then acc else imtf acc))))).
  { intros acc L F. split; [cbn [Read bok]; repeat split; lia|]. cbn [Read pall]. intros b _. destruct (b =? 0); [split; assumption|]. unfold imtf. split; [rewrite imtf_len; exact L|].
    apply imtf_range; [rewrite map_length, seq_length; lia| |exact F]. intros i Hi. rewrite (nth_indep _ 0 (Z.of_nat 0)) by (rewrite map_length, seq_length; lia). rewrite map_nth, seq_nth by lia. lia. }
  assert (MONO : forall fuel acc, bok (if (n <=? length acc)%nat then 1 else 0) (read_cmap fuel table mp n acc) -> bok 1 (read_cmap fuel table mp n acc)).
  { intros fuel acc. apply bok_mono. destruct (_ <=? _)%nat; lia. }
  induction fuel as [|f IH]; intros acc HA F.
  - cbn [read_cmap]. destruct (Nat.ltb_spec (length acc) n); [split; exact Logic.I|]. destruct (Nat.leb_spec n (length acc)); [|lia]. apply END; [lia|exact F].
  - cbn [read_cmap]. destruct (Nat.ltb_spec (length acc) n) as [HL|HL]; [|destruct (Nat.leb_spec n (length acc)); [|lia]; apply END; [lia|exact F]].
    destruct (Nat.leb_spec n (length acc)); [lia|]. cbn [bok pall]. rewrite Nat.max_0_l.
    assert (ONE : forall c, 0 <= c < Z.of_nat nh -> bok (Z.to_nat mp + 1) (read_cmap f table mp n (acc ++ [c])) /\ pall (map_ok nh n) (read_cmap f table mp n (acc ++ [c]))).
    { intros c Hc. destruct (IH (acc ++ [c])) as [B P]; [rewrite app_length; cbn [length]; lia|apply Forall_app; split; [exact F|constructor; [exact Hc|constructor]]|].
      split; [|exact P]. eapply bok_mono; [|apply MONO, B]. lia. }
    assert (STEP : forall code, 0 <= code < Z.of_nat (nh + Z.to_nat mp) ->
      let q := if code =? 0 then read_cmap f table mp n (acc ++ [0]) else if code <=? mp then
               Read (Z.to_nat code) (fun x => let reps := 2 ^ code + x in
                 if Z.of_nat n <? Z.of_nat (length acc) + reps then Fail else read_cmap f table mp n (acc ++ repeat 0 (Z.to_nat reps)))
             else read_cmap f table mp n (acc ++ [(code - mp) mod 256]) in
      bok (Z.to_nat mp + 1) q /\ pall (map_ok nh n) q).
    { intros code Hc. cbv zeta. destruct (Z.eqb_spec code 0) as [->|N0]; [apply ONE; lia|]. destruct (Z.leb_spec code mp) as [HC|HC]; [|apply ONE; rewrite Z.mod_small by lia; lia].
      assert (P2 : 0 < 2 ^ code) by (apply Z.pow_pos_nonneg; lia).
      assert (R : forall x, 0 <= x < 2 ^ code -> let q := if Z.of_nat n <? Z.of_nat (length acc) + (2 ^ code + x) then Fail else read_cmap f table mp n (acc ++ repeat 0 (Z.to_nat (2 ^ code + x))) in
        bok 1 q /\ pall (map_ok nh n) q).
      { intros x Hx. cbv zeta. destruct (Z.ltb_spec (Z.of_nat n) (Z.of_nat (length acc) + (2 ^ code + x))) as [O|O]; [split; exact Logic.I|].
        destruct (IH (acc ++ repeat 0 (Z.to_nat (2 ^ code + x)))) as [B P]; [rewrite app_length, repeat_length; lia| |split; [apply MONO, B|exact P]].
        apply Forall_app. split; [exact F|]. apply Forall_forall. intros y Hy. apply repeat_spec in Hy. lia. }
      split.
      - cbn [Read bok]. split; [lia|]. split; [lia|]. intros x Hx. rewrite Z2Nat.id in Hx by lia. split; [lia|]. eapply bok_mono; [|apply R, Hx]. lia.
      - cbn [Read pall]. intros x Hx. rewrite Z2Nat.id in Hx by lia. apply R, Hx. }
    split.
    + replace (15 + Z.to_nat mp + 1)%nat with (15 + (Z.to_nat mp + 1))%nat by lia. eapply bok_bind_pub; [exact RS|]. intros c Hc. apply STEP, Hc.
    + eapply pall_bind; [exact RA|]. intros c Hc. apply STEP, Hc.
Qed.

Lemma read_context_map_total arena nh n : (1 <= nh <= 256)%nat -> (1 <= n)%nat -> 648 <= Z.of_nat (length arena) <= 65535 ->
  bok 0 (read_context_map arena nh n) /\ pall (map_ok nh n) (read_context_map arena nh n).
Proof.
  intros HN Hn HA. set (P := fun c : Z * list (Z * Z) => 0 <= fst c <= 16 /\ tab_total (nh + Z.to_nat (fst c)) (snd c)).
  set (go := fun mp => bind (read_code arena (nh + Z.to_nat mp)) (fun t => Ret (mp, t))).
  assert (GO : forall mp, 0 <= mp <= 16 -> pub (77 + 5 * (nh + 16)) P (go mp)).
  { intros mp HM. replace (77 + 5 * (nh + 16))%nat with (77 + 5 * (nh + 16) + 0)%nat by lia. eapply pub_bind.
    - eapply pub_mono; [|intros a Ha; exact Ha|apply read_code_pub]; lia.
    - intros t Ht. cbn [pub]. split; [exact HM|exact Ht]. }
  assert (Q : pub (207 + nh * 8) P (Read 1 (fun u => if u =? 0 then go 0 else Read 4 (fun m => go (m + 1))))).
  { eapply pub_mono; [|intros a Ha; exact Ha|apply (pub_Read (4 + (77 + 5 * (nh + 16))) 1)]; [lia|lia|].
    intros u Hu. destruct (u =? 0); [eapply pub_mono; [|intros a Ha; exact Ha|apply GO; lia]; lia|]. apply pub_Read; [lia|]. intros m Hm. change (2 ^ Z.of_nat 4) with 16 in Hm. apply GO. lia. }
  assert (K : forall c, P c -> bok 0 (read_cmap n (snd c) (fst c) n []) /\ pall (map_ok nh n) (read_cmap n (snd c) (fst c) n [])).
  { intros c [H1 H2]. destruct (read_cmap_total nh (snd c) (fst c) n HN H1 H2 n []) as [B A]; [cbn; lia|constructor|]. split; [|exact A]. cbn [length] in B.
    destruct n as [|n']; [lia|]. exact B. }
  unfold read_context_map, read_cmap_code. fold go. split.
  - cbn [bind bok]. rewrite Nat.max_0_l. rewrite <- (Nat.add_0_r (207 + nh * 8)). eapply (bok_bind_pub P); [exact Q|]. intros c Hc. apply K, Hc.
  - eapply (pall_bind P); [cbn [pall]; apply (pub_pall _ _ _ Q)|]. intros c Hc. apply K, Hc.
Qed.
