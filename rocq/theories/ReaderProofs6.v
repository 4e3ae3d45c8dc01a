(** What the JPEG reader puts into a JPEGData: everything it accepts can be described by the encoder. *)
From Verif Require Import Base Tables JpegModel LehmerModel LehmerProofs HeaderModel HeaderProofs JBitModel JReadProofs JHuffModel JScanModel JScanProofs1 JScanProofs8 JSegModel JSegProofs1 JSegProofs2 JFileModel JFileProofs
  InternalsModel InternalsProofs MetaProofs QuantProofs ReaderProofs1 ReaderProofs2 ReaderProofs3.
Local Notation between := JSegModel.between.

(** * One Huffman code *)

(** Space taken by [l] codes of the lengths i, i+1, ..., in units of 2^-16. *)
Fixpoint weight (i : Z) (l : list Z) : Z := match l with [] => 0 | c :: r => c * 2 ^ (16 - i) + weight (i + 1) r end.

(** A Huffman code with the sixteen counts [cl] and the values [vl], to which a last
    code word of the greatest length, with the value 256, was added. *)
Record fits (h : huffcode) (cl vl : list Z) (d : nat) : Prop := {
  ft_len : length cl = 16%nat; ft_bytes : Forall is_byte cl;
  ft_depth : (1 <= d <= 16)%nat; ft_top : forall i, (d < i)%nat -> nth i (0 :: cl) 0 = 0;
  ft_counts : hc_counts h = upd (0 :: cl) d (nth d (0 :: cl) 0 + 1);
  ft_space : weight 1 cl + 2 ^ (16 - Z.of_nat d) <= 65536;
  ft_total : sumZ cl = Z.of_nat (length vl);
  ft_values : firstn (length vl) (hc_values h) = vl; ft_end : nth (length vl) (hc_values h) 0 = 256;
  ft_distinct : NoDup vl;
  ft_slot : exists i, 0 <= i <= 3 /\ ((hc_slot h = i /\ Forall (fun v => 0 <= v <= 11) vl) \/ (hc_slot h = 16 + i /\ Forall is_byte vl)) }.
Definition fit (h : huffcode) : Prop := exists cl vl d, fits h cl vl d.

Lemma dht_counts_more data : bytes data -> forall n pos i total depth space,
  jpart (dht_counts n data pos i total depth space) (fun r => snd (snd (snd r)) = space - weight i (fst r)
    /\ ((fst (snd (snd r)) = depth /\ Forall (fun c => c = 0) (fst r))
        \/ exists k, (k < n)%nat /\ fst (snd (snd r)) = i + Z.of_nat k /\ forall m, (k < m)%nat -> nth m (fst r) 0 = 0)).
Proof.
  intros Y. induction n as [|n IH]; intros pos i total depth space; cbn [dht_counts].
  - cbn [jpart fst snd weight]. split; [lia|]. left. auto.
  - eapply jpart_bind; [apply (jpart_byte data _ Y)|]. intros c B. eapply jpart_bind; [apply IH|]. intros [l [t [d s]]] (K1 & K2). cbn [fst snd] in *. cbn [jpart fst snd weight].
    split; [lia|]. destruct K2 as [[K2 K3]|(k & K2 & K3 & K4)].
    + destruct (Z.eqb_spec c 0) as [E|E].
      * left. split; [exact K2|]. constructor; assumption.
      * right. exists 0%nat. split; [lia|]. split; [lia|]. intros m Hm. destruct m as [|m]; [lia|]. cbn [nth]. rewrite Forall_forall in K3.
        destruct (Nat.lt_ge_cases m (length l)) as [L|L]; [apply K3; apply nth_In; exact L|apply nth_overflow; exact L].
    + right. exists (S k). split; [lia|]. split; [lia|]. intros m Hm. destruct m as [|m]; [lia|]. cbn [nth]. apply K4. lia.
Qed.

Lemma dht_values_more data is_ac : bytes data -> forall n pos seen,
  jpart (dht_values n data pos is_ac seen) (fun l => NoDup l /\ (forall v, In v l -> ~ In v seen) /\ Forall (fun v => is_byte v /\ (is_ac = false -> 0 <= v <= 11)) l).
Proof.
  intros Y. induction n as [|n IH]; intros pos seen; cbn [dht_values].
  - cbn [jpart]. split; [constructor|]. split; [intros v []|constructor].
  - eapply jpart_bind; [apply (jpart_byte data _ Y)|]. intros v B. apply jpart_guard. intros G1. apply jpart_guard. intros G2. apply memZ_not in G2.
    eapply jpart_bind; [apply IH|]. intros l (K1 & K2 & K3). cbn [jpart]. split; [|split].
    + constructor; [|exact K1]. intros I. apply (K2 v I). left. reflexivity.
    + intros w [<-|I]; [exact G2|]. intros I2. apply (K2 w I). right. exact I2.
    + constructor; [|exact K3]. split; [exact B|]. intros ->. cbn [orb] in G1. apply between_true in G1. lia.
Qed.

Lemma weight_nonneg l : forall i, Forall (fun c => 0 <= c) l -> 0 <= weight i l.
Proof. induction l as [|c l IH]; intros i F; cbn [weight]; [lia|]. pose proof (Forall_inv F) as F1. cbv beta in F1. specialize (IH (i + 1) (Forall_inv_tail F)). pose proof (Z.pow_nonneg 2 (16 - i)). nia. Qed.

Lemma slot_cases slot : is_byte slot -> between (if negb (Z.land slot 16 =? 0) then slot - 16 else slot) 0 3 = true ->
  exists i, 0 <= i <= 3 /\ ((negb (Z.land slot 16 =? 0) = false /\ slot = i) \/ (negb (Z.land slot 16 =? 0) = true /\ slot = 16 + i)).
Proof.
  intros B H. destruct (negb (Z.land slot 16 =? 0)); apply between_true in H.
  - exists (slot - 16). split; [lia|right; split; [reflexivity|lia]].
  - exists slot. split; [lia|left; auto].
Qed.

Lemma upd_end_firstn (a b : list Z) x : firstn (length a) (upd (a ++ b) (length a) x) = a.
Proof. induction a as [|y a IH]; [reflexivity|]. cbn [length app upd firstn]. f_equal. exact IH. Qed.

Lemma dht_table_more full data fin pos t : bytes data ->
  jpart (dht_table full data fin pos t) (fun r => exists h, tb_huff (fst r) = tb_huff t ++ [h] /\ fit h /\ hc_last h = (snd r =? fin)).
Proof.
  intros Y. unfold dht_table. apply jpart_guard. intros _. eapply jpart_bind; [apply (jpart_byte data _ Y)|]. intros slot B. cbv zeta.
  apply jpart_guard. intros G1. apply (slot_cases slot B) in G1. eapply jpart_bind; [apply jpart_eq|]. intros lut _.
  eapply jpart_bind; [apply jpart_conj; [apply (dht_counts_part data Y)|apply (dht_counts_more data Y)]|]. intros [cl [total [depth space]]] [(C1 & C2 & C3 & C4) (C5 & C6)]. cbn [fst snd] in *.
  apply jpart_guard. intros G2. apply between_true in G2. apply jpart_guard. intros _.
  eapply jpart_bind; [apply jpart_conj; [apply (dht_values_part data _ Y)|apply (dht_values_more data _ Y)]|]. intros vl [V1 (V2 & _ & V3)]. cbv beta in V1.
  eapply jpart_bind; [apply jpart_eq|]. intros cd ECD.
  eapply jpart_bind; [apply jpart_aset|]. intros counts [D1 EC]. eapply jpart_bind; [apply jpart_aset|]. intros values [D2 EV].
  apply jpart_guard. intros G3. apply Z.leb_le in G3. eapply jpart_bind; [apply jpart_eq|]. intros lut' _. eapply jpart_bind; [apply jpart_eq|]. intros luts _.
  cbn [jpart fst snd tb_huff]. eexists. split; [reflexivity|]. split; [|reflexivity]. exists cl, vl, (Z.to_nat depth).
  assert (DP : 1 <= depth <= 16) by (destruct C4; lia).
  assert (TOP : forall i, (Z.to_nat depth < i)%nat -> nth i (0 :: cl) 0 = 0).
  { intros i Hi. destruct i as [|i]; [lia|]. cbn [nth]. destruct C6 as [[E F]|(k & K1 & K2 & K3)].
    - rewrite Forall_forall in F. destruct (Nat.lt_ge_cases i (length cl)) as [L|L]; [apply F; apply nth_In; exact L|apply nth_overflow; exact L].
    - apply K3. lia. }
  assert (TZ : Z.of_nat (length vl) = total) by lia.
  constructor; cbn [hc_counts hc_values hc_slot hc_last]; auto; try lia.
  - rewrite EC. f_equal. f_equal. unfold aget in ECD. destruct (depth <? 0); [discriminate|]. destruct (nth_error (0 :: cl) (Z.to_nat depth)) as [x|] eqn:EN; [|discriminate]. injection ECD as <-.
    symmetry. apply nth_error_nth. exact EN.
  - rewrite Z2Nat.id by lia. lia.
  - rewrite EV, <- TZ, Nat2Z.id. apply upd_end_firstn.
  - rewrite EV, <- TZ, Nat2Z.id. apply nth_upd_same. lia.
  - destruct G1 as (i & Hi & [(E & ->)|(E & ->)]); exists i; (split; [exact Hi|]).
    + left. split; [reflexivity|]. eapply Forall_impl; [|exact V3]. intros v (_ & H). apply H. exact E.
    + right. split; [reflexivity|]. eapply Forall_impl; [|exact V3]. intros v (H & _). exact H.
Qed.

(** * Whole files *)
(** The last element, if any, has the flag. *)
Definition ends {A} (f : A -> bool) (l : list A) : Prop := forall a x, l = a ++ [x] -> f x = true.
Lemma ends_snoc {A} (f : A -> bool) l x : f x = true -> ends f (l ++ [x]).
Proof. intros H a y E. apply app_inj_tail in E as [_ <-]. exact H. Qed.

Lemma dht_loop_more full data fin : bytes data -> forall fuel pos t,
  jpart (dht_loop fuel full data fin pos t) (fun r => (Forall fit (tb_huff t) -> Forall fit (tb_huff (fst r)))
    /\ (snd r = pos \/ exists l h, tb_huff (fst r) = l ++ [h] /\ hc_last h = (snd r =? fin))).
Proof.
  intros Y. induction fuel as [|fuel IH]; intros pos t; cbn [dht_loop]; [exact Logic.I|].
  destruct (Z.ltb_spec pos fin) as [H|H]; [|cbn [jpart fst snd]; auto].
  eapply jpart_bind; [apply (dht_table_more full data fin pos t Y)|]. intros [t1 pos1] (h & E & HO & HL). cbn [fst snd] in *.
  eapply jpart_weaken; [apply (jpart_conj _ _ _ (IH pos1 t1) (jpart_eq _))|]. intros [t2 pos2] [(K1 & K2) EQ]. cbn [fst snd] in *.
  split; [intros F; apply K1; rewrite E; apply Forall_app; split; [exact F|constructor; [exact HO|constructor]]|].
  right. destruct K2 as [K2|K2]; [|exact K2]. subst pos2. destruct fuel as [|fuel]; [discriminate EQ|]. cbn [dht_loop] in EQ. destruct (Z.ltb_spec pos1 fin) as [L|L].
  - exfalso. destruct (dht_table full data fin pos1 t1) as [[t3 pos3]| |] eqn:E3; cbn [jbind] in EQ; try discriminate EQ.
    pose proof (jpart_get _ _ _ (dht_table_part full data fin pos1 t1 Y) E3) as (P3 & _). cbn [snd] in P3.
    pose proof (jpart_get _ _ _ (dht_loop_part full data fin Y fuel pos3 t3) EQ) as (P4 & _). cbn [snd] in P4. lia.
  - injection EQ as <-. exists (tb_huff t), h. auto.
Qed.

Lemma read_dht_more full data pos t : bytes data ->
  jpart (read_dht full data pos t) (fun r => (Forall fit (tb_huff t) -> Forall fit (tb_huff (fst r))) /\ ends hc_last (tb_huff (fst r))).
Proof.
  intros Y. unfold read_dht. apply jpart_guard. intros _. eapply jpart_bind; [apply (jpart_u16 data _ Y)|]. intros mlen M. apply jpart_guard. intros N.
  eapply jpart_bind; [apply (dht_loop_more full data (pos + mlen) Y)|]. intros [t' pos'] (K1 & K2). cbn [fst snd] in *. apply jpart_guard. intros G. apply Z.eqb_eq in G.
  cbn [jpart fst snd]. split; [exact K1|]. apply negb_true_iff, Z.eqb_neq in N. destruct K2 as [K2|(l & h & -> & E)]; [lia|]. apply ends_snoc. rewrite E. apply Z.eqb_eq. lia.
Qed.

Lemma dqt_loop_more data fin : forall fuel pos q,
  jpart (dqt_loop fuel data fin pos q) (fun r => pos <= snd r /\ (snd r = pos \/ exists l x, fst r = l ++ [x] /\ q_last x = (snd r =? fin))).
Proof.
  induction fuel as [|fuel IH]; intros pos q; cbn [dqt_loop]; [exact Logic.I|].
  destruct ((pos <? fin) && (Z.of_nat (length q) <? 4)) eqn:H; [|cbn [jpart fst snd]; split; [lia|auto]].
  apply jpart_guard. intros _. eapply jpart_bind; [apply jpart_eq|]. intros b _. cbv zeta. apply jpart_guard. intros P. apply between_true in P. apply jpart_guard. intros _. apply jpart_guard. intros _.
  eapply jpart_bind; [apply jpart_eq|]. intros values _. set (pos1 := pos + 1 + (Z.shiftr b 4 + 1) * 64). set (q1 := q ++ [_]).
  eapply jpart_weaken; [apply (jpart_conj _ _ _ (IH pos1 q1) (jpart_eq _))|]. intros [q2 pos2] [(K1 & K2) EQ]. cbn [fst snd] in *.
  split; [lia|]. right. destruct K2 as [K2|K2]; [|exact K2]. subst pos2. destruct fuel as [|fuel]; [discriminate EQ|]. cbn [dqt_loop] in EQ. destruct ((pos1 <? fin) && (Z.of_nat (length q1) <? 4)).
  - exfalso. match type of EQ with ?m = _ => assert (X : jpart m (fun r => pos1 + 1 <= snd r)) end; [|rewrite EQ in X; cbn [jpart snd] in X; lia].
    apply jpart_guard. intros _. eapply jpart_bind; [apply jpart_eq|]. intros b1 _. cbv zeta. apply jpart_guard. intros P1. apply between_true in P1. apply jpart_guard. intros _. apply jpart_guard. intros _.
    eapply jpart_bind; [apply jpart_eq|]. intros values1 _. clear - P1. rename b into b0.
    assert (MONO : forall f p l, jpart (dqt_loop f data fin p l) (fun r => p <= snd r)).
    { induction f as [|f IHf]; intros p l; cbn [dqt_loop]; [exact Logic.I|]. destruct (_ && _); [|cbn [jpart snd]; lia].
      apply jpart_guard. intros _. eapply jpart_bind; [apply jpart_eq|]. intros b2 _. cbv zeta. apply jpart_guard. intros P. apply between_true in P. apply jpart_guard. intros _. apply jpart_guard. intros _.
      eapply jpart_bind; [apply jpart_eq|]. intros v _. eapply jpart_weaken; [apply IHf|]. cbv beta. intros r. lia. }
    eapply jpart_weaken; [apply MONO|]. cbv beta. intros r. lia.
  - injection EQ as <-. exists q. eexists. split; [reflexivity|reflexivity].
Qed.

Lemma read_dqt_more data pos q : jpart (read_dqt data pos q) (fun r => ends q_last (fst r)).
Proof.
  unfold read_dqt. apply jpart_guard. intros _. eapply jpart_bind; [apply jpart_eq|]. intros mlen M. apply jpart_guard. intros N.
  eapply jpart_bind; [apply (dqt_loop_more data (pos + mlen))|]. intros [q' pos'] (K1 & K2). cbn [fst snd] in *. apply jpart_guard. intros G. apply Z.eqb_eq in G.
  cbn [jpart fst]. apply negb_true_iff, Z.eqb_neq in N. destruct K2 as [K2|(l & h & -> & E)]; [lia|]. apply ends_snoc. rewrite E. apply Z.eqb_eq. lia.
Qed.

Record more (j : jpeg) : Prop := {
  mr_huff : Forall fit (j_huff j); mr_huff_end : ends hc_last (j_huff j); mr_quant_end : ends q_last (j_quant j) }.

Lemma read_sof_more full data pos j : jpart (read_sof full data pos j) (fun r => exists w h mh mv rows cols comps, fst r = with_frame j w h mh mv rows cols comps).
Proof.
  unfold read_sof. repeat first [apply jpart_guard; intros _ | eapply jpart_bind; [apply jpart_eq|]; (intros [? [? ?]] _ || intros ? _) | progress cbv beta zeta].
  cbn [jpart fst]. do 7 eexists. reflexivity.
Qed.

Lemma read_segment_more data marker p st : bytes data -> more (rf_j st) ->
  jpart (read_segment RAll data marker p st) (fun r => more (rf_j (fst r)) /\ j_markers (rf_j (fst r)) = j_markers (rf_j st)
    /\ length (j_scans (rf_j (fst r))) = (length (j_scans (rf_j st)) + if (218 =? marker)%Z then 1 else 0)%nat).
Proof.
  intros Y M. pose proof M as [M1 M2 M3]. unfold read_segment. cbn [is_all is_tables]. rewrite (Z.eqb_sym 218).
  assert (NB : forall a b, between marker a b = true -> a <= marker <= b) by (intros a b H; apply between_true; exact H).
  destruct (between marker 192 194) eqn:B1.
  { apply NB in B1. eapply jpart_bind; [apply read_sof_more|]. intros [j' p'] (w & h & mh & mv & rows & cols & comps & E). fields. subst j'.
    destruct (Z.eqb_spec marker 218); [lia|]. split; [constructor; fields; assumption|]. split; [reflexivity|]. fields. lia. }
  destruct (Z.eqb_spec marker 196) as [E2|N2].
  { subst marker. change (196 =? 218) with false. cbv iota. eapply jpart_bind; [apply (read_dht_more true data p _ Y)|]. intros [t' p'] (HF & HL). fields. cbn [tb_huff] in *.
    split; [constructor; fields; auto|]. split; [reflexivity|fields; lia]. }
  destruct (between marker 208 215) eqn:B3. { apply NB in B3. fields. destruct (Z.eqb_spec marker 218); [lia|]. split; [exact M|]. split; [reflexivity|fields; lia]. }
  destruct (Z.eqb_spec marker 217) as [E4|N4]. { subst marker. change (217 =? 218) with false. cbv iota. fields. split; [exact M|]. split; [reflexivity|fields; lia]. }
  destruct (Z.eqb_spec marker 218) as [E5|N5].
  { unfold read_scan. eapply jpart_bind; [apply jpart_eq|]. intros [si p1] _. cbv zeta. eapply jpart_bind; [apply jpart_eq|]. intros masks _.
    eapply jpart_bind; [apply jpart_eq|]. intros [r p2] _. fields. split; [constructor; fields; assumption|]. split; [reflexivity|]. fields. rewrite app_length. reflexivity. }
  destruct (Z.eqb_spec marker 219) as [E6|N6].
  { eapply jpart_bind; [apply read_dqt_more|]. intros [q p'] QE. fields. split; [constructor; fields; assumption|]. split; [reflexivity|fields; lia]. }
  destruct (Z.eqb_spec marker 221) as [E7|N7].
  { eapply jpart_bind; [apply jpart_eq|]. intros [rr p'] _. fields. split; [constructor; fields; assumption|]. split; [reflexivity|fields; lia]. }
  destruct (between marker 224 239) eqn:B8.
  { eapply jpart_bind; [apply jpart_eq|]. intros [s p'] _. fields. split; [constructor; fields; assumption|]. split; [reflexivity|fields; lia]. }
  destruct (Z.eqb_spec marker 254) as [E9|N9]; [|exact Logic.I].
  eapply jpart_bind; [apply jpart_eq|]. intros [s p'] _. fields. split; [constructor; fields; assumption|]. split; [reflexivity|fields; lia].
Qed.

Lemma read_loop_more data : bytes data -> forall fuel pos st, more (rf_j st) -> length (j_scans (rf_j st)) = count_marker 218 (j_markers (rf_j st)) ->
  jpart (read_loop fuel RAll data pos st) (fun r => more (rf_j (fst r)) /\ length (j_scans (rf_j (fst r))) = count_marker 218 (j_markers (rf_j (fst r)))).
Proof.
  intros Y. induction fuel as [|fuel IH]; intros pos st M C; cbn [read_loop]; [exact Logic.I|].
  apply jpart_bind with (Q := fun r => more (rf_j (fst r)) /\ length (j_scans (rf_j (fst r))) = count_marker 218 (j_markers (rf_j (fst r)))).
  { unfold JFileModel.read_inter. eapply jpart_bind; [apply jpart_eq|]. intros n _. destruct (0 <? n); [|cbn [jpart fst]; auto].
    eapply jpart_bind; [apply jpart_eq|]. intros s _. destruct M. cbn [jpart]. fields. split; [constructor; fields; assumption|]. rewrite count_snoc. change (218 =? 255) with false. cbv iota. lia. }
  intros [st1 pos1] [M1 C1]. cbn [fst] in M1, C1. eapply jpart_bind; [apply jpart_eq|]. intros m _.
  eapply jpart_bind; [apply (read_segment_more data m (pos1 + 2) st1 Y M1)|]. intros [st2 pos2] (M2 & E2 & C2). fields. cbv zeta.
  assert (M3 : more (rf_j (with_j st2 (add_marker (rf_j st2) m)))) by (destruct M2; constructor; fields; assumption).
  assert (C3 : length (j_scans (rf_j (with_j st2 (add_marker (rf_j st2) m)))) = count_marker 218 (j_markers (rf_j (with_j st2 (add_marker (rf_j st2) m))))).
  { fields. rewrite count_snoc, E2. lia. }
  cbn [is_header andb orb]. destruct (m =? 217); [cbn [jpart fst]; auto|]. apply IH; assumption.
Qed.

(** Everything the reader accepts: Huffman codes, flags and scans that the encoder can describe,
    and quantization table indices that exist. *)
Theorem reader_more data J : bytes data -> read_jpeg RAll data = JOk J ->
  more J /\ length (j_scans J) = count_marker 218 (j_markers J)
  /\ Forall (fun c => 0 <= c_quant c < Z.of_nat (length (j_quant J))) (j_comps J).
Proof.
  intros Y. cut (jpart (read_jpeg RAll data) (fun J => more J /\ length (j_scans J) = count_marker 218 (j_markers J)
    /\ Forall (fun c => 0 <= c_quant c < Z.of_nat (length (j_quant J))) (j_comps J))). { intros H E. exact (jpart_get _ _ _ H E). }
  unfold read_jpeg. eapply jpart_bind; [apply jpart_eq|]. intros m _. apply jpart_guard. intros _. cbv zeta.
  eapply jpart_bind; [apply (read_loop_more data Y)|].
  { constructor; cbn [rf_j empty_jpeg j_huff j_quant]; [constructor|intros [|? ?] x E; discriminate|intros [|? ?] x E; discriminate]. }
  { reflexivity. }
  intros [st pos] [M C]. cbn [fst is_all] in *. apply jpart_guard. intros _.
  apply jpart_bind with (Q := fun j => more j /\ length (j_scans j) = count_marker 218 (j_markers j)).
  { destruct (pos <? _); [|cbn [jpart]; auto]. eapply jpart_bind; [apply jpart_eq|]. intros s _. cbn [jpart]. destruct M. split; [constructor; assumption|exact C]. }
  intros j [MJ CJ]. eapply jpart_bind; [apply jpart_of_post; apply fixup_ok|]. intros comps FX. apply jpart_guard. intros _. apply jpart_guard. intros _. cbn [jpart].
  destruct MJ. split; [constructor; assumption|]. split; [exact CJ|]. cbn [set_comps j_quant j_comps]. clear - FX. induction FX as [|c c' l l' [F _] FX IH]; constructor; [|exact IH].
  destruct F as (_ & _ & _ & q & E & _). unfold aget in E. destruct (Z.ltb_spec (c_quant c') 0) as [L|L]; [discriminate|]. destruct (nth_error (j_quant j) (Z.to_nat (c_quant c'))) eqn:N; [|discriminate].
  assert (X : nth_error (j_quant j) (Z.to_nat (c_quant c')) <> None) by congruence. apply nth_error_Some in X. lia.
Qed.
