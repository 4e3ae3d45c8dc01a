(** The encoder describes every JPEGData that the reader returns: section 4 (JPEG internals). *)
From Verif Require Import Base Tables JpegModel LehmerModel LehmerProofs CodesModel HeaderModel JSegProofs1 JFileModel
  JSegProofs2 InternalsModel InternalsProofs InternalsProofs2 MetaProofs QuantProofs Encoder JpegSpec ReaderProofs1 ReaderProofs3 ReaderProofs6.

Lemma encode_counts_some max : forall cs i total space, Forall (fun c => 0 <= c) cs -> (i + length cs <= 17)%nat ->
  total + sumZ cs <= max -> weight (Z.of_nat i) cs <= space -> exists fs, encode_counts i cs total space max = Some (fs, total + sumZ cs).
Proof.
  induction cs as [|c r IH]; intros i total space F L T W; cbn [encode_counts].
  - eexists. change (sumZ []) with 0. rewrite Z.add_0_r. reflexivity.
  - cbv zeta. pose proof (Forall_inv F) as F0. cbv beta in F0. pose proof (Forall_inv_tail F) as FR. rewrite sumZ_cons in *. cbn [weight length] in *.
    set (s := 16 - Z.of_nat i) in *. assert (S0 : 0 <= s) by (subst s; lia). pose proof (Z.pow_pos_nonneg 2 s ltac:(lia) S0) as P2.
    pose proof (weight_nonneg r (Z.of_nat i + 1) FR) as WR. assert (SR : 0 <= sumZ r) by (apply sumZ_nonneg; exact FR).
    rewrite Z.shiftr_div_pow2 by lia.
    assert (CS : c <= space / 2 ^ s) by (apply Z.div_le_lower_bound; nia).
    destruct (Z.ltb_spec (Z.min (max - total) (space / 2 ^ s)) c) as [H|H]; [lia|].
    replace (Z.of_nat i + 1) with (Z.of_nat (S i)) in * by lia.
    destruct (Z.ltb_spec 0 (Z.min (max - total) (space / 2 ^ s))) as [H2|H2].
    + destruct (IH (S i) (total + c) (space - c * 2 ^ s) FR ltac:(lia) ltac:(lia) ltac:(lia)) as [fs E]. rewrite E. cbn [obind fst snd]. rewrite Z.add_assoc. eexists. reflexivity.
    + assert (c = 0) by lia. subst c. destruct (IH (S i) total space FR ltac:(lia) ltac:(lia) ltac:(lia)) as [fs E]. rewrite E. rewrite Z.add_0_l. eexists. reflexivity.
Qed.

Lemma encode_perm_some : forall vs values, NoDup values -> NoDup vs -> (forall v, In v vs -> In v values) -> exists p, encode_perm vs values = Some p.
Proof.
  intros vs values N1 N2 I. destruct (proj2 (pc_encode_iff vs values N1) (conj N2 I)) as [codes E]. clear N1 N2 I. revert values codes E.
  induction vs as [|v vs IH]; intros values codes E; cbn [encode_perm pc_encode] in *; [eauto|].
  destruct (pc_remove_value v values) as [[[c nb] values']|]; [|discriminate]. destruct (pc_encode vs values') as [l|] eqn:E1; [|discriminate].
  destruct (IH _ _ E1) as [p Ep]. rewrite Ep. cbn [obind]. eexists. reflexivity.
Qed.

Fixpoint nodupb (l : list Z) : bool := match l with [] => true | x :: r => negb (existsb (Z.eqb x) r) && nodupb r end.
Lemma nodupb_true l : nodupb l = true -> NoDup l.
Proof.
  induction l as [|x r IH]; cbn [nodupb]; [constructor|]. intros H. apply andb_true_iff in H as [H1 H2]. constructor; [|auto].
  intros I. apply negb_true_iff in H1. rewrite <- not_true_iff_false in H1. apply H1. apply existsb_exists. exists x. split; [exact I|apply Z.eqb_refl].
Qed.
Lemma default_nodup is_dc : NoDup (default_values is_dc).
Proof. apply nodupb_true. destruct is_dc; vm_compute; reflexivity. Qed.
Lemma default_dc v : 0 <= v <= 11 -> In v (default_values true).
Proof.
  intros H. assert (X : forallb (fun v => existsb (Z.eqb v) (default_values true)) (map Z.of_nat (seq 0 12)) = true) by (vm_compute; reflexivity).
  rewrite forallb_forall in X. specialize (X v). rewrite existsb_exists in X. destruct X as (x & I & E).
  - apply in_map_iff. exists (Z.to_nat v). split; [lia|apply in_seq; lia].
  - apply Z.eqb_eq in E. subst. exact I.
Qed.
Lemma default_ac v : is_byte v -> In v (default_values false).
Proof.
  unfold is_byte. intros H. assert (X : forallb (fun v => existsb (Z.eqb v) (default_values false)) (map Z.of_nat (seq 0 256)) = true) by (vm_compute; reflexivity).
  rewrite forallb_forall in X. specialize (X v). rewrite existsb_exists in X. destruct X as (x & I & E).
  - apply in_map_iff. exists (Z.to_nat v). split; [lia|apply in_seq; lia].
  - apply Z.eqb_eq in E. subst. exact I.
Qed.

Lemma nodup_range l n : NoDup l -> Forall (fun v => 0 <= v < Z.of_nat n) l -> (length l <= n)%nat.
Proof.
  intros N F. assert (L : (length l <= length (map Z.of_nat (seq 0 n)))%nat).
  { apply NoDup_incl_length; [exact N|]. intros v I. rewrite Forall_forall in F. specialize (F v I). apply in_map_iff. exists (Z.to_nat v). split; [lia|apply in_seq; lia]. }
  rewrite map_length, seq_length in L. exact L.
Qed.

Lemma max_len_unique n counts d : (1 <= d <= n)%nat -> nth d counts 0 <> 0 -> (forall i, (d < i)%nat -> nth i counts 0 = 0) -> huff_max_len n counts = d.
Proof.
  intros D ND T. destruct (huff_max_len_spec n counts) as (M1 & M2 & M3). destruct (Nat.lt_trichotomy (huff_max_len n counts) d) as [H|[H|H]]; [|exact H|].
  - exfalso. apply ND. apply M3. lia.
  - exfalso. apply M2; [lia|]. apply T. exact H.
Qed.

Lemma weight_firstn d : forall l i, Forall (fun c => 0 <= c) l -> weight i (firstn d l) <= weight i l.
Proof.
  induction d as [|d IH]; intros l i F; cbn [firstn weight]; [apply weight_nonneg; exact F|]. destruct l as [|c l]; cbn [weight]; [lia|]. specialize (IH l (i + 1) (Forall_inv_tail F)). lia.
Qed.
Lemma sumZ_firstn d : forall l, (forall i, (d <= i)%nat -> nth i l 0 = 0) -> sumZ (firstn d l) = sumZ l.
Proof.
  induction d as [|d IH]; intros l T; cbn [firstn].
  - change (sumZ []) with 0. induction l as [|c l IHl]; [reflexivity|]. rewrite sumZ_cons. pose proof (T 0%nat ltac:(lia)) as T0. cbn [nth] in T0. rewrite <- IHl; [lia|]. intros i _. apply (T (S i)). lia.
  - destruct l as [|c l]; [reflexivity|]. rewrite !sumZ_cons. rewrite IH; [reflexivity|]. intros i Hi. apply (T (S i)). lia.
Qed.

(** EncodeHuffmanCode never refuses a code that the reader returned. *)
Lemma fit_encodable h known : fit h -> (known = true -> hc_last h = true) -> exists fs, encode_huff h known = Some fs.
Proof.
  intros (cl & vl & d & [FL FB FD FT FC FS FTT FV FE FN FSL]) K. unfold encode_huff. cbv zeta.
  assert (K0 : known && negb (hc_last h) = false) by (destruct known; [rewrite K by reflexivity|]; reflexivity). rewrite K0.
  assert (DC : exists is_dc, (Z.shiftr (hc_slot h) 4 =? 0) = is_dc /\ Forall (fun v => In v (default_values is_dc)) vl /\ Z.of_nat (length vl) <= max_values is_dc).
  { destruct FSL as (i & Hi & [(-> & F)|(-> & F)]).
    - exists true. split; [assert (X : Z.shiftr i 4 = 0) by (rewrite Z.shiftr_div_pow2 by lia; change (2 ^ 4) with 16; dlia); rewrite X; reflexivity|]. split; [eapply Forall_impl; [|exact F]; intros v; apply default_dc|].
      pose proof (nodup_range vl 12 FN) as X. cbn [max_values]. enough (length vl <= 12)%nat by lia. apply X. eapply Forall_impl; [|exact F]. cbv beta. intros; lia.
    - exists false. split; [assert (X : Z.shiftr (16 + i) 4 = 1) by (rewrite Z.shiftr_div_pow2 by lia; change (2 ^ 4) with 16; dlia); rewrite X; reflexivity|]. split; [eapply Forall_impl; [|exact F]; intros v; apply default_ac|].
      pose proof (nodup_range vl 256 FN) as X. cbn [max_values]. enough (length vl <= 256)%nat by lia. apply X. eapply Forall_impl; [|exact F]. unfold is_byte. cbv beta. intros; lia. }
  destruct DC as (is_dc & -> & FI & MX). destruct (find_stock is_dc (hc_counts h) (hc_values h)); [eauto|].
  assert (BD : 0 <= nth d (0 :: cl) 0). { destruct d as [|d]; [lia|]. cbn [nth]. destruct (Nat.lt_ge_cases d (length cl)) as [L|L]; [|rewrite nth_overflow by exact L; lia]. rewrite Forall_forall in FB. apply (FB (nth d cl 0)). apply nth_In. exact L. }
  assert (ND : nth d (hc_counts h) 0 = nth d (0 :: cl) 0 + 1) by (rewrite FC; apply nth_upd_same; cbn [length]; lia).
  assert (OTH : forall i, i <> d -> nth i (hc_counts h) 0 = nth i (0 :: cl) 0) by (intros i Hi; rewrite FC; apply nth_upd_other; lia).
  assert (ML : huff_max_len 16 (hc_counts h) = d).
  { apply max_len_unique; [exact FD|lia|]. intros i Hi. rewrite OTH by lia. apply FT. exact Hi. }
  rewrite ML. assert (N0 : nth 0 (hc_counts h) 0 = 0) by (rewrite OTH by lia; reflexivity). rewrite N0. change (negb (0 =? 0)) with false. cbn [orb].
  destruct (Nat.eqb_spec d 0) as [D0|D0]; [lia|].
  assert (CS : upd (firstn d (skipn 1 (hc_counts h))) (d - 1) (nth d (hc_counts h) 0 - 1) = firstn d cl).
  { rewrite ND. replace (nth d (0 :: cl) 0 + 1 - 1) with (nth d (0 :: cl) 0) by lia. rewrite FC. destruct d as [|d]; [lia|]. cbn [upd skipn nth]. replace (S d - 1)%nat with d by lia.
    apply nth_ext with (d := 0) (d' := 0); [rewrite upd_length, !firstn_length, upd_length; reflexivity|]. intros n Hn. rewrite upd_length, firstn_length, upd_length in Hn.
    assert (NF : forall l : list Z, (n < S d)%nat -> nth n (firstn (S d) l) 0 = nth n l 0). { intros l L. rewrite <- (firstn_skipn (S d) l) at 2. destruct (Nat.lt_ge_cases n (length (firstn (S d) l))) as [A|A]; [rewrite app_nth1 by exact A; reflexivity|]. rewrite firstn_length in A. rewrite !nth_overflow; [reflexivity|rewrite app_length, firstn_length, skipn_length; lia|rewrite firstn_length; lia]. }
    destruct (Nat.eq_dec n d) as [->|NE].
    - rewrite nth_upd_same by (rewrite firstn_length, upd_length; lia). rewrite NF by lia. reflexivity.
    - rewrite nth_upd_other by lia. rewrite !NF by lia. apply nth_upd_other. lia. }
  rewrite CS. assert (NN : Forall (fun c => 0 <= c) cl) by (eapply Forall_impl; [|exact FB]; unfold is_byte; intros; lia).
  assert (SF : sumZ (firstn d cl) = sumZ cl). { apply sumZ_firstn. intros i Hi. apply (FT (S i)). lia. }
  destruct (encode_counts_some (max_values is_dc) (firstn d cl) 1 0 (2 ^ 16 - 2 ^ (16 - Z.of_nat d))) as [fs E].
  - apply Forall_forall. intros x I. rewrite Forall_forall in NN. apply NN. rewrite <- (firstn_skipn d cl). apply in_or_app. left. exact I.
  - rewrite firstn_length. lia.
  - rewrite SF. lia.
  - change (2 ^ 16) with 65536. change (Z.of_nat 1) with 1. pose proof (weight_firstn d cl 1 NN). lia.
  - rewrite E. unfold obind. cbv beta iota. rewrite SF, FTT, Z.add_0_l, Nat2Z.id, FE. change (negb (256 =? 256)) with false. cbv iota. rewrite FV.
    destruct (encode_perm_some vl (default_values is_dc) (default_nodup is_dc) FN) as [p Ep]; [rewrite Forall_forall in FI; exact FI|]. rewrite Ep. cbn [obind]. eexists. reflexivity.
Qed.

Lemma ends_tail {A} (f : A -> bool) x l : ends f (x :: l) -> ends f l.
Proof. intros H a y E. apply (H (x :: a) y). rewrite E. reflexivity. Qed.

Lemma huffs_encodable : forall l, Forall fit l -> ends hc_last l -> exists fs, encode_huffs l = Some fs.
Proof.
  induction l as [|h l IH]; intros F E; cbn [encode_huffs]; [eauto|]. cbv zeta.
  destruct (fit_encodable h (match l with [] => true | _ => false end) (Forall_inv F)) as [a Ea].
  - destruct l; [|discriminate]. intros _. apply (E [] h). reflexivity.
  - rewrite Ea. cbn [obind]. destruct (IH (Forall_inv_tail F) (ends_tail _ _ _ E)) as [b Eb]. rewrite Eb. cbn [obind]. eexists. reflexivity.
Qed.

Lemma quant_heads_encodable : forall l : list (Z * bool * Z), ends (fun x => snd (fst x)) l -> exists fs, encode_quant_heads l = Some fs.
Proof.
  induction l as [|[[ix la] pr] l IH]; intros E; cbn [encode_quant_heads]; [eauto|]. destruct l as [|y l].
  - pose proof (E [] (ix, la, pr) eq_refl) as H. cbn [fst snd] in H. rewrite H. eauto.
  - destruct (IH (ends_tail _ _ _ E)) as [b Eb]. rewrite Eb. cbn [obind]. eexists. reflexivity.
Qed.

Lemma ends_map {A B} (f : B -> bool) (g : A -> B) l : ends (fun x => f (g x)) l -> ends f (map g l).
Proof.
  intros H a y E. destruct l as [|x l] using rev_ind; [destruct a; discriminate|]. rewrite map_app in E. cbn [map] in E. apply app_inj_tail in E as [_ <-]. apply (H l x). reflexivity.
Qed.

Lemma markers_last m : markers_ok m -> last m 0 = 217 /\ forallb (fun y => 192 <=? y) m = true.
Proof.
  intros (body & -> & F). split; [apply last_last|]. rewrite forallb_app. cbn [forallb]. rewrite andb_true_iff. split; [|reflexivity]. apply forallb_forall. intros x I. rewrite Forall_forall in F. specialize (F x I). apply Z.leb_le. lia.
Qed.
