(** C63: the scans of a file that the JPEG reader accepts. *)
From Verif Require Import Base JpegModel LehmerModel CoefModel HeaderModel HeaderProofs PropsHeader JBitModel JReadProofs JHuffModel JScanModel JScanProofs1 JScanProofs6 JScanProofs8 JScanProofs9 JSegModel JSegProofs1 JSegProofs2 JFileModel JFileProofs
  InternalsModel InternalsProofs InternalsProofs2 MetaProofs QuantProofs Encoder JpegSpec ReaderProofs1 ReaderProofs2 ReaderProofs3 ReaderProofs4 PropsJpegFile.
Local Notation between := JSegModel.between.

(** * Specification *)

(** The frame header is an SOF2 (0xc2). *)
Definition progressive (j : jpeg) : Prop := In 194 (j_markers j).

(** The tables that a scan needs are in the file: one for DC if the scan starts at 0, one for AC (class 1, 0x10 in the slot) if it goes
    beyond 0. *)
Definition tables_defined (huff : list huffcode) (s : scaninfo) : Prop := forall c, In c (si_comps s) ->
  (si_ss s = 0 -> exists h, In h huff /\ hc_slot h = cs_dc c) /\ (0 < si_se s -> exists h, In h huff /\ hc_slot h = cs_ac c + 16).

(** Scan [s] codes coefficient [k] (zig-zag) of component [ci]: in a sequential file all 64. *)
Definition codes (j : jpeg) (s : scaninfo) (ci k : Z) : Prop := In ci (map cs_comp (si_comps s)) /\ 0 <= k <= 63 /\ (progressive j -> si_ss s <= k <= si_se s).

(** * Proofs *)
Definition range (prog : bool) (s : scaninfo) (k : Z) : Prop := (if prog then si_ss s else 0) <= k <= (if prog then si_se s else 63).
Definition low (prog : bool) (s : scaninfo) : Z := if prog then si_al s else 0.

Record script (st : rfile) : Prop := {
  sc_nosof : rf_sof st = false -> rf_prog st = false /\ j_scans (rf_j st) = [];
  sc_tables : Forall (tables_defined (j_huff (rf_j st))) (j_scans (rf_j st));
  sc_bits : forall s ci k, In s (j_scans (rf_j st)) -> In ci (map cs_comp (si_comps s)) -> range (rf_prog st) s k ->
    0 <= ci < 4 /\ 0 <= k < 64 /\ exists l, mlow (maskat (rf_masks st) ci k) l /\ l <= low (rf_prog st) s;
  sc_al : Forall (fun s => 0 <= low (rf_prog st) s <= 10 /\ NoDup (map cs_comp (si_comps s))) (j_scans (rf_j st));
  sc_order : forall i n s t ci k, (i < n)%nat -> nth_error (j_scans (rf_j st)) i = Some s -> nth_error (j_scans (rf_j st)) n = Some t ->
    In ci (map cs_comp (si_comps s)) -> In ci (map cs_comp (si_comps t)) -> range (rf_prog st) s k -> range (rf_prog st) t k ->
    rf_prog st = true /\ si_ah t <> 0 /\ si_al t < si_al s }.

(** What the scans depend on. *)
Lemma script_same st st' : rf_masks st' = rf_masks st -> rf_prog st' = rf_prog st -> rf_sof st' = rf_sof st -> j_scans (rf_j st') = j_scans (rf_j st) ->
  incl (j_huff (rf_j st)) (j_huff (rf_j st')) -> script st -> script st'.
Proof.
  intros E1 E2 E3 E4 E5 [S1 S2 S3 S4 S5]. constructor; rewrite ?E1, ?E2, ?E3, ?E4; auto. eapply Forall_impl; [|exact S2]. intros s H c I. destruct (H c I) as [H1 H2].
  split; intros X; [destruct (H1 X) as (h & I1 & I2)|destruct (H2 X) as (h & I1 & I2)]; exists h; split; auto.
Qed.

Lemma dht_loop_incl full data fin : bytes data -> forall fuel pos t, jpart (dht_loop fuel full data fin pos t) (fun r => incl (tb_huff t) (tb_huff (fst r))).
Proof.
  intros Y. induction fuel as [|fuel IH]; intros pos t; cbn [dht_loop]; [exact Logic.I|]. destruct (pos <? fin); [|apply incl_refl].
  eapply jpart_bind; [apply (dht_table_part full data fin pos t Y)|]. intros [t1 pos1] (_ & h & E & _). cbn [fst snd] in *. eapply jpart_weaken; [apply IH|]. intros r H. cbv beta in H. rewrite E in H.
  intros x I. apply H, in_or_app. auto.
Qed.

Lemma read_dht_incl full data pos t : bytes data -> jpart (read_dht full data pos t) (fun r => incl (tb_huff t) (tb_huff (fst r))).
Proof.
  intros Y. unfold read_dht. apply jpart_guard. intros _. eapply jpart_bind; [apply jpart_eq|]. intros mlen _. apply jpart_guard. intros _.
  eapply jpart_bind; [apply (dht_loop_incl full data (pos + mlen) Y)|]. intros [t' pos'] H. apply jpart_guard. intros _. exact H.
Qed.

Lemma read_sos_tables data pos j : jpart (read_sos data pos j) (fun r => tables_defined (j_huff j) (fst r)).
Proof.
  unfold read_sos. apply jpart_guard. intros _. eapply jpart_bind; [apply jpart_eq|]. intros mlen _. eapply jpart_bind; [apply jpart_eq|]. intros n _. apply jpart_guard. intros _. apply jpart_guard. intros _.
  eapply jpart_bind; [apply jpart_eq|]. intros cs _. cbv zeta. apply jpart_guard. intros _. eapply jpart_bind; [apply jpart_eq|]. intros ss _. eapply jpart_bind; [apply jpart_eq|]. intros se _.
  apply jpart_guard. intros _. apply jpart_guard. intros _. eapply jpart_bind; [apply jpart_eq|]. intros c _. apply jpart_guard. intros G. apply jpart_guard. intros _. cbn [jpart fst].
  intros d I. cbn [si_ss si_se si_comps] in *. rewrite forallb_forall in G. specialize (G d I). unfold has_tables in G. cbv zeta in G. apply andb_true_iff in G as [G1 G2]. split; intros X.
  - subst ss. change (0 =? 0) with true in G1. cbn [andb] in G1. rewrite negb_involutive in G1. apply existsb_exists in G1 as (h & I1 & I2). exists h. split; [exact I1|]. apply Z.eqb_eq, I2.
  - destruct (Z.ltb_spec 0 se); [|lia]. cbn [andb] in G2. rewrite negb_involutive in G2. apply existsb_exists in G2 as (h & I1 & I2). apply andb_true_iff in I2 as [_ I2]. exists h. split; [exact I1|]. apply Z.eqb_eq, I2.
Qed.

Lemma nth_error_snoc {A} (l : list A) x i y : nth_error (l ++ [x]) i = Some y -> nth_error l i = Some y /\ (i < length l)%nat \/ i = length l /\ y = x.
Proof.
  intros H. destruct (Nat.lt_ge_cases i (length l)) as [L|L]; [rewrite nth_error_app1 in H by exact L; auto|]. rewrite nth_error_app2 in H by exact L.
  destruct (i - length l)%nat as [|m] eqn:E; [|destruct m; discriminate]. injection H as <-. right. split; [lia|reflexivity].
Qed.

Lemma read_scan_script data p st : bytes data -> 2 <= p -> rinv true st -> script st ->
  jpart (JFileModel.read_scan data p st) (fun r => script (fst r) /\ rf_prog (fst r) = rf_prog st).
Proof.
  intros Y Hp RI SC. pose proof SC as [S1 S2 S3 S4 S5]. destruct RI as (_ & RM & _ & _ & _ & RN & RF & _). unfold JFileModel.read_scan. cbv zeta.
  eapply jpart_bind; [apply jpart_conj; [apply (read_sos_tables data p (rf_j st))|apply jpart_of_post; apply (read_sos_ok data p (rf_j st) Y Hp)]|].
  intros [si p1] (TB & _ & (NE & ND & CB) & _ & HS & HE & _ & HA & _). cbn [fst snd] in *.
  assert (SF : rf_sof st = true). { destruct (rf_sof st) eqn:E; [reflexivity|]. destruct (RN eq_refl) as [N _]. rewrite N in CB. cbn [length] in CB. destruct (si_comps si); [contradiction|]. pose proof (Forall_inv CB) as K. cbv beta in K. lia. }
  destruct (RF eq_refl SF) as [FR _]. pose proof (fr_n _ FR) as N4.
  assert (CB4 : Forall (fun s => 0 <= cs_comp s < 4) (si_comps si)) by (eapply Forall_impl; [|exact CB]; cbv beta; intros; lia).
  set (p0 := scan_params (rf_prog st) si (j_restart (rf_j st))).
  assert (Q : sp_ss p0 = (if rf_prog st then si_ss si else 0) /\ sp_se p0 = (if rf_prog st then si_se si else 63) /\ sp_ah p0 = (if rf_prog st then si_ah si else 0) /\ sp_al p0 = low (rf_prog st) si) by (repeat split).
  destruct Q as (Q1 & Q2 & Q3 & Q4).
  pose proof (prog_check_ok p0 ltac:(rewrite Q4; unfold low; destruct (rf_prog st); lia) ltac:(rewrite Q1, Q2; destruct (rf_prog st); lia) ltac:(rewrite Q2; destruct (rf_prog st); lia) (si_comps si) (rf_masks st) RM ND CB4) as PK.
  eapply jpart_bind; [apply jpart_eq|]. intros masks EM. rewrite EM in PK. destruct PK as (A10 & MK & PK).
  eapply jpart_bind; [apply jpart_eq|]. intros [r p2] _. cbn [jpart fst]. split; [|reflexivity].
  set (snew := mkSI (si_ss si) (si_se si) (si_ah si) (si_al si) (si_comps si) (rs_resets r) (rs_zruns r)).
  assert (RG : forall k, range (rf_prog st) snew k <-> sp_ss p0 <= k <= sp_se p0) by (intros k; rewrite Q1, Q2; reflexivity).
  assert (CC : forall ci, In ci (map cs_comp (si_comps si)) -> 0 <= ci < 4) by (intros ci I; apply in_map_iff in I as (c & <- & I); rewrite Forall_forall in CB4; exact (CB4 c I)).
  assert (RK : forall k, sp_ss p0 <= k <= sp_se p0 -> 0 <= k < 64) by (intros k K; rewrite Q1, Q2 in K; destruct (rf_prog st); lia).
  assert (AL : 0 <= sp_al p0 <= 15) by (rewrite Q4; unfold low; destruct (rf_prog st); lia).
  constructor; cbn [rf_sof rf_prog rf_masks rf_j add_scan j_scans j_huff].
  - rewrite SF. discriminate.
  - apply Forall_app. split; [exact S2|]. constructor; [|constructor]. exact TB.
  - intros s ci k I IC K. apply in_app_iff in I as [I|[<-|[]]].
    + destruct (S3 s ci k I IC K) as (C1 & C2 & l & ML & LL). split; [exact C1|]. split; [exact C2|]. destruct (PK ci k C1 C2) as [(_ & _ & PM)|(_ & ->)]; [|eauto].
      destruct (prog_mark_ok _ _ _ _ AL (maskat_range _ _ _ RM C1 C2) PM) as (_ & M2 & _ & M4). specialize (M4 l ML). exists (sp_al p0). split; [exact M2|lia].
    + apply RG in K. cbn [si_comps snew] in IC. pose proof (CC ci IC) as C1. pose proof (RK k K) as C2. split; [exact C1|]. split; [exact C2|]. destruct (PK ci k C1 C2) as [(_ & _ & PM)|(NN & _)]; [|destruct NN; auto].
      destruct (prog_mark_ok _ _ _ _ AL (maskat_range _ _ _ RM C1 C2) PM) as (_ & M2 & _). exists (sp_al p0). split; [exact M2|]. rewrite Q4. apply Z.le_refl.
  - apply Forall_app. split; [exact S4|]. constructor; [|constructor]. cbn [snew si_comps]. split; [|exact ND]. change (0 <= low (rf_prog st) si <= 10). lia.
  - intros i n s t ci k L Es Et I1 I2 K1 K2. apply nth_error_snoc in Es, Et. destruct Et as [[Et Lt]|[-> ->]].
    + destruct Es as [[Es _]|[-> _]]; [|lia]. exact (S5 i n s t ci k L Es Et I1 I2 K1 K2).
    + destruct Es as [[Es _]|[-> _]]; [|lia]. apply nth_error_In in Es. destruct (S3 s ci k Es I1 K1) as (C1 & C2 & l & ML & LL). apply RG in K2. cbn [si_comps snew] in I2.
      destruct (PK ci k C1 C2) as [(_ & _ & PM)|(NN & _)]; [|destruct NN; auto]. destruct (prog_mark_ok _ _ _ _ AL (maskat_range _ _ _ RM C1 C2) PM) as (_ & _ & M3 & M4). specialize (M4 l ML).
      assert (AH : sp_ah p0 <> 0). { intros Z0. specialize (M3 Z0). rewrite M3 in ML. destruct ML as (_ & T & _). rewrite Z.testbit_0_l in T. discriminate. }
      rewrite Q3 in AH. rewrite Q4 in M4. unfold low in *. cbn [snew si_ah si_al]. destruct (rf_prog st); [|congruence]. split; [reflexivity|]. split; [exact AH|lia].
Qed.

Lemma read_segment_script data marker p st : bytes data -> 2 <= p -> rinv true st -> script st ->
  jpart (read_segment RAll data marker p st) (fun r => script (fst r) /\ (rf_prog (fst r) = true <-> rf_prog st = true \/ marker = 194)).
Proof.
  intros Y Hp RI SC. pose proof SC as [S1 S2 S3 S4 S5]. unfold read_segment. cbn [is_all is_tables].
  destruct (between marker 192 194) eqn:B1.
  { apply between_true in B1. destruct (rf_sof st) eqn:SF.
    { eapply jpart_bind with (Q := fun _ => False); [|contradiction]. unfold read_sof. apply jpart_guard. intros G. apply Z.eqb_eq in G. destruct RI as (_ & _ & _ & _ & _ & _ & RF & _). destruct (RF eq_refl SF) as [FR _]. pose proof (fr_w _ FR). lia. }
    destruct (S1 eq_refl) as [E1 E2]. eapply jpart_bind with (Q := fun r => j_scans (fst r) = j_scans (rf_j st)).
    { eapply jpart_weaken; [apply jpart_eq|]. intros [j' p'] E. unfold read_sof in E. revert E.
      match goal with |- ?m = _ -> _ => enough (K : jpart m (fun r => j_scans (fst r) = j_scans (rf_j st))) by (intros E; exact (jpart_get _ _ _ K E)) end.
      apply jpart_guard. intros _. apply jpart_guard. intros _. do 4 (eapply jpart_bind; [apply jpart_eq|]; intros ? _).
      repeat (apply jpart_guard; intros _). repeat first [eapply jpart_bind; [apply jpart_eq|]; intros ? _ | apply jpart_guard; intros _ | match goal with |- jpart (let '(_, _) := ?x in _) _ => destruct x end]; try reflexivity. }
    intros [j' p'] E. cbn [fst snd] in *. rewrite E2 in E. cbn [jpart fst]. split.
    - constructor; cbn [rf_sof rf_prog rf_masks rf_j]; rewrite ?E; try discriminate; auto. + intros s ci k []. + intros i n s t ci k _ K. destruct i; discriminate.
    - cbn [rf_prog]. rewrite E1. destruct (Z.eqb_spec marker 194); split; try tauto; try discriminate. }
  assert (N194 : marker = 194 -> False). { intros ->. discriminate. }
  assert (KEEP : forall st', rf_prog st' = rf_prog st -> (rf_prog st' = true <-> rf_prog st = true \/ marker = 194)) by (intros st' ->; tauto).
  destruct (Z.eqb_spec marker 196) as [E2|N2].
  { eapply jpart_bind; [apply (read_dht_incl true data p _ Y)|]. intros [t' p'] HI. cbn [fst tb_huff] in HI. cbn [jpart fst]. split; [|apply KEEP; reflexivity]. eapply script_same; [| | | | |exact SC]; try reflexivity. exact HI. }
  destruct (between marker 208 215). { cbn [jpart fst]. split; [exact SC|apply KEEP; reflexivity]. }
  destruct (marker =? 217). { cbn [jpart fst]. split; [exact SC|apply KEEP; reflexivity]. }
  destruct (marker =? 218). { eapply jpart_weaken; [apply (read_scan_script data p st Y Hp RI SC)|]. intros [st' p'] [K1 K2]. split; [exact K1|apply KEEP, K2]. }
  assert (SAME : forall st', rf_masks st' = rf_masks st -> rf_prog st' = rf_prog st -> rf_sof st' = rf_sof st -> j_scans (rf_j st') = j_scans (rf_j st) -> j_huff (rf_j st') = j_huff (rf_j st) ->
    script st' /\ (rf_prog st' = true <-> rf_prog st = true \/ marker = 194)).
  { intros st' H1 H2 H3 H4 H5. split; [|apply KEEP, H2]. eapply script_same; [| | | | |exact SC]; auto. rewrite H5. apply incl_refl. }
  destruct (marker =? 219). { eapply jpart_bind; [apply jpart_eq|]. intros [q p'] _. apply SAME; reflexivity. }
  destruct (marker =? 221). { eapply jpart_bind; [apply jpart_eq|]. intros [q p'] _. apply SAME; reflexivity. }
  destruct (between marker 224 239). { eapply jpart_bind; [apply jpart_eq|]. intros [q p'] _. apply SAME; reflexivity. }
  destruct (marker =? 254); [|exact Logic.I]. eapply jpart_bind; [apply jpart_eq|]. intros [q p'] _. apply SAME; reflexivity.
Qed.

Lemma read_loop_script data : bytes data -> forall fuel pos st, 0 <= pos <= len data -> rinv true st -> script st -> (rf_prog st = true <-> progressive (rf_j st)) ->
  jpart (read_loop fuel RAll data pos st) (fun r => script (fst r) /\ (rf_prog (fst r) = true <-> progressive (rf_j (fst r)))).
Proof.
  intros Y. induction fuel as [|fuel IH]; intros pos st HP RI SC PR; cbn [read_loop]; [exact Logic.I|].
  apply jpart_bind with (Q := fun r => pos <= snd r <= len data /\ rinv true (fst r) /\ script (fst r) /\ (rf_prog (fst r) = true <-> progressive (rf_j (fst r)))).
  { eapply jpart_weaken; [apply (read_inter_part data pos st); lia|]. intros [st1 pos1] [(E1 & E2)|(s & E1 & SL & LS & E2)]; cbn [fst snd] in *; subst st1.
    - subst. split; [lia|auto].
    - pose proof (sl_bound _ _ _ SL) as SB. fold (len s) (len data) in SB. split; [lia|]. split; [apply rinv_same; auto|]. split.
      + eapply script_same; [| | | | |exact SC]; try reflexivity. apply incl_refl.
      + cbn [with_j rf_prog rf_j]. unfold progressive in *. cbn [add_inter add_marker j_markers]. rewrite in_app_iff, PR. cbn [In]. intuition lia. }
  intros [st1 pos1] (Q1 & RI1 & SC1 & PR1). cbn [fst snd] in *.
  eapply jpart_bind; [apply jpart_of_post; apply (expect_marker_ok data pos1); lia|]. intros m (P2 & M1 & M2).
  eapply jpart_bind; [apply jpart_conj|].
  { apply (read_segment_script data m (pos1 + 2) st1 Y); [lia|exact RI1|exact SC1]. }
  { apply jpart_of_post. apply (read_segment_ok RAll data m (pos1 + 2) st1 Y); [lia|replace (pos1 + 2 - 2) with pos1 by lia; exact M1|replace (pos1 + 2 - 1) with (pos1 + 1) by lia; exact M2|exact RI1]. }
  intros [st2 pos2] [[SC2 PR2] (RI2 & PB & MK & _)]. cbn [fst snd] in *.
  assert (SC3 : script (with_j st2 (add_marker (rf_j st2) m))) by (eapply script_same; [| | | | |exact SC2]; try reflexivity; apply incl_refl).
  assert (PR3 : rf_prog (with_j st2 (add_marker (rf_j st2) m)) = true <-> progressive (rf_j (with_j st2 (add_marker (rf_j st2) m)))).
  { cbn [with_j rf_prog rf_j]. unfold progressive in *. cbn [add_marker j_markers]. rewrite MK, in_app_iff, PR2, PR1. cbn [In]. tauto. }
  cbv zeta. cbn [is_header andb orb]. destruct (Z.eqb_spec m 217) as [E7|N7]; [split; assumption|].
  apply IH; [unfold len in *; lia|apply rinv_same; auto|exact SC3|exact PR3].
Qed.

Lemma read_jpeg_script data J : bytes data -> read_jpeg RAll data = JOk J ->
  exists st, script st /\ (rf_prog st = true <-> progressive J) /\ j_scans J = j_scans (rf_j st) /\ j_huff J = j_huff (rf_j st).
Proof.
  intros Y. cut (jpart (read_jpeg RAll data) (fun J => exists st, script st /\ (rf_prog st = true <-> progressive J) /\ j_scans J = j_scans (rf_j st) /\ j_huff J = j_huff (rf_j st))).
  { intros H E. exact (jpart_get _ _ _ H E). }
  unfold read_jpeg. eapply jpart_bind; [apply jpart_of_post; apply (expect_marker_ok data 0); lia|]. intros m (P & M1 & M2).
  apply jpart_guard. intros G. cbv zeta. fold start. eapply jpart_bind.
  { apply (read_loop_script data Y (S (length data)) 2 start); [unfold len; lia|apply start_inv| |].
    - unfold start. split; cbn [rf_sof rf_prog rf_masks rf_j empty_jpeg j_scans j_huff]; [auto|constructor|intros s ci k []|constructor|intros i n s t ci k _ K; destruct i; discriminate].
    - unfold start. cbn [rf_prog rf_j empty_jpeg]. unfold progressive. cbn [j_markers In]. split; [discriminate|intros []]. }
  intros [st pos] [SC PR]. cbn [fst snd is_all] in *. apply jpart_guard. intros _.
  apply jpart_bind with (Q := fun j => exists tail, j = set_tail (rf_j st) tail \/ j = rf_j st).
  { destruct (pos <? _); [eapply jpart_bind; [apply jpart_eq|]; intros s _; exists s; left; reflexivity|exists []; right; reflexivity]. }
  intros j (tail & Ej). eapply jpart_bind; [apply jpart_eq|]. intros comps _. apply jpart_guard. intros _. apply jpart_guard. intros _. cbn [jpart]. exists st. split; [exact SC|].
  unfold progressive in *. cbn [set_comps j_markers j_scans j_huff]. destruct Ej as [-> | ->]; cbn [set_tail j_markers j_scans j_huff]; auto.
Qed.

(** * Theorems *)

(** For every file that the reader accepts: a scan uses only Huffman tables that are in the file, and names no component twice. *)
Theorem C63_scans_use_defined_tables : forall file j s, bytes file -> read_jpeg RAll file = JOk j -> In s (j_scans j) ->
  tables_defined (j_huff j) s /\ NoDup (map cs_comp (si_comps s)).
Proof.
  intros file j s Y E I. destruct (read_jpeg_script file j Y E) as (st & [S1 S2 S3 S4 S5] & _ & E1 & E2). rewrite E1 in I. rewrite E2. rewrite Forall_forall in S2, S4. split; [exact (S2 s I)|exact (proj2 (S4 s I))].
Qed.
Print Assumptions C63_scans_use_defined_tables.

(** No bit of a coefficient is coded twice, or after a lower one: when two scans code the same coefficient, the file is progressive, the
    later scan is a refinement (Ah <> 0) and its bit Al is lower. *)
Theorem C63_scans_refine : forall file j i n s t ci k, bytes file -> read_jpeg RAll file = JOk j -> (i < n)%nat ->
  nth_error (j_scans j) i = Some s -> nth_error (j_scans j) n = Some t -> codes j s ci k -> codes j t ci k ->
  progressive j /\ si_ah t <> 0 /\ si_al t < si_al s <= 10.
Proof.
  intros file j i n s t ci k Y E L Es Et (C1 & K1 & R1) (C2 & K2 & R2). destruct (read_jpeg_script file j Y E) as (st & [S1 S2 S3 S4 S5] & PR & E1 & E2). rewrite E1 in Es, Et.
  assert (X : forall u, (progressive j -> si_ss u <= k <= si_se u) -> range (rf_prog st) u k). { intros u H. unfold range. destruct (rf_prog st); [apply H, PR; reflexivity|lia]. }
  destruct (S5 i n s t ci k L Es Et C1 C2 (X s R1) (X t R2)) as (P & A & B). split; [apply PR, P|]. split; [exact A|]. split; [exact B|].
  rewrite Forall_forall in S4. destruct (S4 s (nth_error_In _ _ Es)) as [Q _]. unfold low in Q. rewrite P in Q. lia.
Qed.
Print Assumptions C63_scans_refine.

(** A progressive file of four scans; the first and third code the DC coefficient, the second and fourth the others. *)
Example C63_case : bytes ex_pfile /\ exists j s t, read_jpeg RAll ex_pfile = JOk j /\ nth_error (j_scans j) 1 = Some s /\ nth_error (j_scans j) 3 = Some t /\
  codes j s 0 5 /\ codes j t 0 5 /\ (si_ah t, si_al t, si_al s) = (1, 0, 1).
Proof.
  split; [apply C46_case|]. destruct (read_jpeg RAll ex_pfile) as [j| |] eqn:E; [|vm_compute in E; discriminate|vm_compute in E; discriminate].
  assert (X : match read_jpeg RAll ex_pfile with
    | JOk j => match nth_error (j_scans j) 1, nth_error (j_scans j) 3 with
               | Some s, Some t => (map cs_comp (si_comps s), map cs_comp (si_comps t), (si_ss s, si_se s), (si_ss t, si_se t), (si_ah t, si_al t, si_al s)) = ([0], [0], (1, 63), (1, 63), (1, 0, 1))
               | _, _ => False
               end
    | _ => False
    end) by (vm_compute; reflexivity).
  rewrite E in X. destruct (nth_error (j_scans j) 1) as [s|] eqn:E1; [|contradiction]. destruct (nth_error (j_scans j) 3) as [t|] eqn:E3; [|contradiction]. injection X as X1 X2 X3 X4 X5 X6 X7 X8 X9.
  exists j, s, t. split; [reflexivity|]. split; [exact E1|]. split; [exact E3|]. unfold codes. rewrite X1, X2, X3, X4, X5, X6, X7, X8, X9. cbn [In]. repeat split; auto; lia.
Qed.

(** With the refinement first, or with a table that is not there, the file is rejected. *)
Example C63_case_rejected :
  rejects (read_jpeg RAll (ex_soi ++ ex_dqt ++ ex_sof 194 ++ ex_dht ++ ex_sos 0 0 0 ++ [94; 51; 32; 31] ++ ex_sos 0 0 1 ++ [94; 51; 32; 31] ++ [255; 217])) = true /\
  rejects (read_jpeg RAll (ex_soi ++ ex_dqt ++ ex_sof 192 ++ ex_sos 0 63 0 ++ [110; 72; 102; 107; 221; 146; 138; 0; 102; 0; 5] ++ [255; 217])) = true.
Proof. vm_compute. auto. Qed.
