(** What the JPEG reader puts into a JPEGData: whole files. *)
From Verif Require Import Base JpegModel LehmerModel LehmerProofs CoefModel DCProofs HeaderModel HeaderProofs PropsHeader JBitModel JReadProofs JHuffModel JScanModel JScanProofs1 JScanProofs6 JScanProofs8 JScanProofs9 JSegModel JSegProofs1 JSegProofs2 JFileModel JFileProofs
  InternalsModel InternalsProofs InternalsProofs2 MetaProofs QuantProofs Encoder JpegSpec ReaderProofs1 ReaderProofs2.
Local Notation between := JSegModel.between.

Definition len {A} (l : list A) : Z := Z.of_nat (length l).
Lemma len_app {A} (a b : list A) : len (a ++ b) = len a + len b.
Proof. unfold len. rewrite app_length. lia. Qed.
Lemma len_nonneg {A} (l : list A) : 0 <= len l.
Proof. unfold len. lia. Qed.

Record parts (pos : Z) (st : rfile) : Prop := {
  pt_version : j_version (rf_j st) = 2;
  pt_nosof : rf_sof st = false -> j_max_h (rf_j st) = 1 /\ j_max_v (rf_j st) = 1 /\ j_comps (rf_j st) = [];
  pt_frame : rf_sof st = true -> frame_in (rf_j st);
  pt_huff : Forall huff_ok (j_huff (rf_j st));
  pt_quant : Forall quant_in (j_quant (rf_j st)); pt_nquant : (length (j_quant (rf_j st)) <= 4)%nat;
  pt_scans : Forall scan_ok (j_scans (rf_j st));
  pt_scan_size : Forall (fun s => len (si_resets s) <= 2 ^ 23 /\ len (si_zero_runs s) <= 2 ^ 23 /\ Forall (fun e => fst e < 2 ^ 23 /\ snd e <= 4) (si_zero_runs s)) (j_scans (rf_j st));
  pt_nscans : len (j_scans (rf_j st)) <= pos;
  pt_restart : 0 <= j_restart (rf_j st) < 65536; pt_nodri : rf_dri st = false -> j_restart (rf_j st) = 0;
  pt_pad : pad_ok (j_zero_pad (rf_j st)) (j_padding (rf_j st));
  pt_app : Forall (segment_ok 224 239) (j_app (rf_j st)); pt_com : Forall (segment_ok 254 254) (j_com (rf_j st));
  pt_size : len (concat (j_app (rf_j st))) + len (concat (j_com (rf_j st))) <= pos;
  pt_tail : j_tail (rf_j st) = [] }.

Lemma parts_later p q st : parts p st -> p <= q -> parts q st.
Proof. intros [] H. constructor; auto; lia. Qed.

Lemma frame_geo j j' : map geo (j_comps j') = map geo (j_comps j) -> j_width j' = j_width j -> j_height j' = j_height j -> j_max_h j' = j_max_h j -> j_max_v j' = j_max_v j ->
  j_mcu_cols j' = j_mcu_cols j -> j_mcu_rows j' = j_mcu_rows j -> frame_in j -> frame_in j'.
Proof.
  intros G E1 E2 E3 E4 E5 E6 [FW FH FN FI FS FMH FMV FC FR FB].
  assert (ES : samps (j_comps j') = samps (j_comps j)).
  { unfold samps. transitivity (map (fun c => (c_h c, c_v c)) (map geo (j_comps j'))); [rewrite map_map; reflexivity|]. rewrite G, map_map. reflexivity. }
  assert (EI : ids (j_comps j') = ids (j_comps j)).
  { unfold ids. transitivity (map c_id (map geo (j_comps j'))); [rewrite map_map; reflexivity|]. rewrite G, map_map. reflexivity. }
  assert (EL : length (j_comps j') = length (j_comps j)) by (rewrite <- (map_length geo), G; apply map_length).
  constructor; rewrite ?ES, ?EI, ?EL, ?E1, ?E2, ?E3, ?E4, ?E5, ?E6; auto.
  apply Forall_forall. intros c I. rewrite Forall_forall in FB. apply (in_map geo) in I. rewrite G in I. apply in_map_iff in I as (c' & E & I). specialize (FB _ I).
  injection E as H1 H2 H3 H4 H5 H6. rewrite <- H2, <- H3, <- H5, <- H6. exact FB.
Qed.

Lemma segment_wider a b lo hi s : segment_ok a b s -> lo <= a -> b <= hi -> segment_ok lo hi s.
Proof. intros (Y & m & h & l & p & E & H & H2) L1 L2. split; [exact Y|]. exists m, h, l, p. split; [exact E|]. split; [lia|exact H2]. Qed.

Lemma concat_snoc_len (l : list (list Z)) s : len (concat (l ++ [s])) = len (concat l) + len s.
Proof. rewrite concat_app, len_app. cbn [concat]. rewrite app_nil_r. reflexivity. Qed.

Ltac fields := cbn [rf_j rf_sof rf_dri rf_masks rf_prog with_j set_huff set_quant set_restart add_app add_com add_marker add_inter add_scan with_frame
  j_width j_height j_version j_max_h j_max_v j_mcu_rows j_mcu_cols j_restart j_app j_com j_quant j_huff j_comps j_scans j_markers j_inter j_tail j_zero_pad j_padding fst snd] in *.

Definition seg_rel (marker : Z) (st st' : rfile) : Prop :=
  j_markers (rf_j st') = j_markers (rf_j st) /\ j_inter (rf_j st') = j_inter (rf_j st)
  /\ lasts (j_huff (rf_j st')) = (lasts (j_huff (rf_j st)) + if (marker =? 196)%Z then 1 else 0)%nat
  /\ (rf_dri st' = true -> rf_dri st = true \/ marker = 221) /\ 192 <= marker <= 254.

Lemma read_segment_part data marker p st : bytes data -> 2 <= p -> aget data (p - 1) = JOk marker -> parts (p - 2) st ->
  jpart (read_segment RAll data marker p st) (fun r => p <= snd r -> parts (snd r) (fst r) /\ seg_rel marker st (fst r)).
Proof.
  intros Y Hp EM P. pose proof P as [P1 P2 P3 P4 P5 P6 P7 P8 P9 P10 P11 P12 P13 P14 P15 P16]. unfold read_segment. cbn [is_all is_tables].
  assert (NB : forall a b, between marker a b = true -> a <= marker <= b) by (intros a b H; apply between_true; exact H).
  destruct (between marker 192 194) eqn:B1.
  { apply NB in B1.
    assert (SF : rf_sof st = true \/ rf_sof st = false) by (destruct (rf_sof st); auto). destruct SF as [SF|SF].
    { eapply jpart_bind with (Q := fun _ => False); [|contradiction]. unfold read_sof. apply jpart_guard. intros G. apply Z.eqb_eq in G. destruct (P3 SF). lia. }
    destruct (P2 SF) as (M1 & M2 & M3). eapply jpart_bind; [apply (read_sof_part true data p (rf_j st) Y M1 M2)|].
    intros [j' p'] (W0 & PP & w & h & mh & mv & rows & cols & comps & E & FI). fields. subst j'. intros L. split.
    - constructor; fields; auto; try lia; try discriminate.
    - unfold seg_rel. fields. destruct (Z.eqb_spec marker 196); [lia|]. repeat split; auto; lia. }
  destruct (Z.eqb_spec marker 196) as [E2|N2].
  { eapply jpart_bind; [apply (read_dht_part true data p _ Y)|]. intros [t' p'] (PP & HF & HL). fields. cbn [tb_huff] in *. intros L. split.
    - constructor; fields; auto; try lia. intros S. eapply frame_geo; [| | | | | | |exact (P3 S)]; reflexivity.
    - unfold seg_rel. fields. subst marker. change (196 =? 196) with true. cbv iota. rewrite HL. repeat split; auto; lia. }
  assert (SAME : forall p', p <= p' -> 192 <= marker <= 254 -> parts p' st /\ seg_rel marker st st).
  { intros p' H H2. split; [eapply parts_later; [exact P|lia]|]. unfold seg_rel. destruct (Z.eqb_spec marker 196); [lia|]. repeat split; auto; lia. }
  destruct (between marker 208 215) eqn:B3. { apply NB in B3. fields. intros L. apply SAME; lia. }
  destruct (Z.eqb_spec marker 217) as [E4|N4]. { fields. intros L. apply SAME; lia. }
  destruct (Z.eqb_spec marker 218) as [E5|N5].
  { unfold read_scan. 
    assert (SF : rf_sof st = true \/ rf_sof st = false) by (destruct (rf_sof st); auto). destruct SF as [SF|SF].
    2:{ eapply jpart_bind with (Q := fun _ => False); [|intros []; contradiction]. destruct (P2 SF) as (_ & _ & M3). unfold read_sos. apply jpart_guard. intros _.
        eapply jpart_bind; [apply jpart_eq|]. intros mlen _. eapply jpart_bind; [apply jpart_eq|]. intros n _. apply jpart_guard. intros G. apply between_true in G. rewrite M3 in G. cbn [length] in G. lia. }
    pose proof (P3 SF) as FI. eapply jpart_bind; [apply (read_sos_part data p (rf_j st) Y); apply FI|]. intros [si p1] [HO HP]. cbn [fst snd] in HO, HP.
    cbv zeta. eapply jpart_bind; [apply jpart_eq|]. intros masks _.
    destruct HO as (O1 & O2 & O3 & O4 & O5 & O6 & O7).
    eapply jpart_bind; [apply (read_scan_data_part data _ _ (rf_j st) _ p1 FI); [exact O5|reflexivity|exact O7|exact P12|unfold scan_params; cbn [sp_ss]; destruct (rf_prog st); lia|unfold scan_params; cbn [sp_se]; destruct (rf_prog st); lia]|].
    intros [r p2] ([R1 R2 R3 R4 R5 R6 R7] & RB & RG). fields. intros L. split.
    - constructor; fields; auto; try lia.
      + intros _. eapply frame_geo; [| | | | | | |exact FI]; fields; auto.
      + apply Forall_app. split; [exact P7|]. constructor; [|constructor]. unfold scan_ok. cbn [si_ss si_se si_ah si_al si_comps si_resets si_zero_runs]. repeat split; auto; lia.
      + apply Forall_app. split; [exact P8|]. constructor; [|constructor]. cbn [si_resets si_zero_runs]. unfold len. split; [lia|]. split; [lia|]. eapply Forall_impl; [|exact R4]. cbv beta. intros e [Q1 Q2]. lia.
      + rewrite len_app. unfold len at 2. cbn [length]. lia.
    - unfold seg_rel. fields. destruct (Z.eqb_spec marker 196); [lia|]. repeat split; auto; lia. }
  destruct (Z.eqb_spec marker 219) as [E6|N6].
  { eapply jpart_bind; [apply (read_dqt_part data p _ Y P6)|]. intros [q p'] (PP & L4 & QF). fields. intros L. split.
    - constructor; fields; auto; try lia. intros S. eapply frame_geo; [| | | | | | |exact (P3 S)]; reflexivity.
    - unfold seg_rel. fields. destruct (Z.eqb_spec marker 196); [lia|]. repeat split; auto; lia. }
  destruct (Z.eqb_spec marker 221) as [E7|N7].
  { eapply jpart_bind; [apply (read_dri_part data p _ Y)|]. intros [rr p'] (PP & EP). fields. intros L. split.
    - constructor; fields; auto; try lia; try discriminate. intros S. eapply frame_geo; [| | | | | | |exact (P3 S)]; reflexivity.
    - unfold seg_rel. fields. destruct (Z.eqb_spec marker 196); [lia|]. repeat split; auto; lia. }
  destruct (between marker 224 239) eqn:B8.
  { apply NB in B8. eapply jpart_bind; [apply (read_blob_part data p marker Y Hp EM)|]. intros [s p'] (SO & EP & PP). fields. intros L. split.
    - constructor; fields; auto; try lia.
      + intros S. eapply frame_geo; [| | | | | | |exact (P3 S)]; reflexivity.
      + apply Forall_app. split; [exact P13|]. constructor; [|constructor]. eapply segment_wider; [exact SO|lia|lia].
      + rewrite concat_snoc_len. unfold len at 2. lia.
    - unfold seg_rel. fields. destruct (Z.eqb_spec marker 196); [lia|]. repeat split; auto; lia. }
  destruct (Z.eqb_spec marker 254) as [E9|N9]; [|exact Logic.I].
  eapply jpart_bind; [apply (read_blob_part data p marker Y Hp EM)|]. intros [s p'] (SO & EP & PP). fields. intros L. split.
  - constructor; fields; auto; try lia.
    + intros S. eapply frame_geo; [| | | | | | |exact (P3 S)]; reflexivity.
    + apply Forall_app. split; [exact P14|]. constructor; [|constructor]. eapply segment_wider; [exact SO|lia|lia].
    + rewrite concat_snoc_len. unfold len at 3. lia.
  - unfold seg_rel. fields. destruct (Z.eqb_spec marker 196); [lia|]. repeat split; auto; lia.
Qed.

(** * The loop *)
Lemma count_snoc m l x : count_marker m (l ++ [x]) = (count_marker m l + if (m =? x)%Z then 1 else 0)%nat.
Proof. unfold count_marker. rewrite filter_app, app_length. cbn [filter]. destruct (m =? x); reflexivity. Qed.

Record counts (pos : Z) (st : rfile) : Prop := {
  ct_inter : length (j_inter (rf_j st)) = count_marker 255 (j_markers (rf_j st));
  ct_bytes : Forall (fun s => bytes s /\ 1 <= len s) (j_inter (rf_j st));
  ct_size : len (concat (j_inter (rf_j st))) <= pos;
  ct_dht : lasts (j_huff (rf_j st)) = count_marker 196 (j_markers (rf_j st));
  ct_dri : rf_dri st = true -> (0 < count_marker 221 (j_markers (rf_j st)))%nat;
  ct_len : len (j_markers (rf_j st)) <= pos }.

Lemma parts_marker pos st m : parts pos st -> parts pos (with_j st (add_marker (rf_j st) m)).
Proof. intros []. constructor; fields; auto. intros S. eapply frame_geo; [| | | | | | |eauto]; reflexivity. Qed.
Lemma parts_inter pos st s : parts pos st -> parts pos (with_j st (add_inter (rf_j st) s)).
Proof. intros []. constructor; fields; auto. intros S. eapply frame_geo; [| | | | | | |eauto]; reflexivity. Qed.

Lemma read_inter_part data pos st : 0 <= pos -> pos <= len data ->
  jpart (JFileModel.read_inter data pos st) (fun r => (fst r = st /\ snd r = pos)
    \/ exists s, fst r = with_j st (add_inter (add_marker (rf_j st) 255) s) /\ sl data pos s /\ 1 <= len s /\ snd r = pos + len s).
Proof.
  intros H0 H1. unfold JFileModel.read_inter. eapply jpart_bind; [apply jpart_eq|]. intros n _. destruct (Z.ltb_spec 0 n) as [Hn|Hn]; [|cbn [jpart fst snd]; auto].
  eapply jpart_bind; [apply jpart_eq|]. intros s E. apply slice_sl in E as [S1 S2]. cbn [jpart fst snd]. right. exists s. unfold len. split; [reflexivity|]. split; [exact S1|]. lia.
Qed.

Lemma rinv_same st j : j_huff j = j_huff (rf_j st) -> j_quant j = j_quant (rf_j st) -> j_max_h j = j_max_h (rf_j st) -> j_max_v j = j_max_v (rf_j st) ->
  j_comps j = j_comps (rf_j st) -> j_restart j = j_restart (rf_j st) -> j_version j = j_version (rf_j st) -> j_tail j = j_tail (rf_j st) ->
  j_width j = j_width (rf_j st) -> j_height j = j_height (rf_j st) -> j_mcu_rows j = j_mcu_rows (rf_j st) -> j_mcu_cols j = j_mcu_cols (rf_j st) ->
  rinv true st -> rinv true (with_j st j).
Proof.
  intros E1 E2 E3 E4 E5 E6 E7 E8 E9 E10 E11 E12 (RS & RM & RQ & RH & RV & RN & RF & RD & RP & RVE & RT). unfold rinv, tb_of. fields. rewrite E1, E2, E3, E4, E5, E6, E7, E8.
  split; [exact RS|]. split; [exact RM|]. split; [exact RQ|]. split; [exact RH|]. split; [exact RV|]. split; [exact RN|].
  split; [intros A B; destruct (RF A B) as [FR CI]; split; [|exact CI]; destruct FR; constructor; rewrite ?E3, ?E4, ?E5, ?E9, ?E10, ?E11, ?E12; auto|].
  split; [exact RD|]. split; [exact RP|]. split; [exact RVE|exact RT].
Qed.

Lemma read_loop_part data : bytes data -> forall fuel pos st, 0 <= pos <= len data -> rinv true st -> parts pos st -> counts pos st ->
  Forall (fun x => 192 <= x <= 255 /\ x <> 217) (j_markers (rf_j st)) ->
  jpart (read_loop fuel RAll data pos st) (fun r => parts (snd r) (fst r) /\ counts (snd r) (fst r) /\ markers_ok (j_markers (rf_j (fst r)))).
Proof.
  intros Y. induction fuel as [|fuel IH]; intros pos st HP RI PA CT MK; cbn [read_loop]; [exact Logic.I|].
  apply jpart_bind with (Q := fun r => pos <= snd r <= len data /\ rinv true (fst r) /\ parts (snd r) (fst r) /\ counts (snd r) (fst r)
    /\ Forall (fun x => 192 <= x <= 255 /\ x <> 217) (j_markers (rf_j (fst r)))).
  { eapply jpart_weaken; [apply (read_inter_part data pos st); lia|]. intros [st1 pos1] [(E1 & E2)|(s & E1 & SL & LS & E2)]; cbn [fst snd] in *; subst st1.
    - subst. split; [lia|auto].
    - pose proof (sl_bound _ _ _ SL) as SB. fold (len s) (len data) in SB. split; [lia|]. split; [apply rinv_same; auto|].
      split. { apply (parts_inter pos1 (with_j st (add_marker (rf_j st) 255)) s). apply parts_marker. eapply parts_later; [exact PA|lia]. }
      destruct CT as [C1 C2 C3 C4 C5 C6]. split.
      + constructor; fields.
        * rewrite app_length, count_snoc. cbn [length]. change (255 =? 255) with true. cbv iota. lia.
        * apply Forall_app. split; [exact C2|]. constructor; [|constructor]. split; [eapply sl_bytes; eauto|exact LS].
        * rewrite concat_snoc_len. lia.
        * rewrite count_snoc. change (196 =? 255) with false. cbv iota. lia.
        * intros D. rewrite count_snoc. specialize (C5 D). lia.
        * rewrite len_app. change (len [255]) with 1. lia.
      + fields. apply Forall_app. split; [exact MK|]. constructor; [lia|constructor]. }
  intros [st1 pos1] (Q1 & RI1 & PA1 & CT1 & MK1). cbn [fst snd] in *.
  eapply jpart_bind; [apply jpart_of_post; apply (expect_marker_ok data pos1); lia|]. intros m (P2 & M1 & M2).
  eapply jpart_bind; [apply jpart_conj|].
  { apply (read_segment_part data m (pos1 + 2) st1 Y); [lia|replace (pos1 + 2 - 1) with (pos1 + 1) by lia; exact M2|replace (pos1 + 2 - 2) with pos1 by lia; exact PA1]. }
  { apply jpart_of_post. apply (read_segment_ok RAll data m (pos1 + 2) st1 Y); [lia|replace (pos1 + 2 - 2) with pos1 by lia; exact M1|replace (pos1 + 2 - 1) with (pos1 + 1) by lia; exact M2|exact RI1]. }
  intros [st2 pos2] [SP (RI2 & PB & _ & _ & _)]. cbn [fst snd] in *. destruct (SP ltac:(lia)) as [PA2 (R1 & R2 & R3 & R4 & R5)].
  destruct CT1 as [C1 C2 C3 C4 C5 C6].
  assert (CT2 : counts pos2 (with_j st2 (add_marker (rf_j st2) m))).
  { constructor; fields.
    - rewrite R1, R2, count_snoc. destruct (Z.eqb_spec 255 m); [lia|]. lia.
    - rewrite R2. exact C2.
    - rewrite R2. lia.
    - rewrite R1, R3, count_snoc, (Z.eqb_sym 196 m). lia.
    - intros D. rewrite R1, count_snoc. destruct (R4 D) as [D1|D1]; [specialize (C5 D1); lia|]. subst m. change (221 =? 221) with true. cbv iota. lia.
    - rewrite R1, len_app. change (len [m]) with 1. lia. }
  assert (PA3 : parts pos2 (with_j st2 (add_marker (rf_j st2) m))) by (apply parts_marker; exact PA2).
  cbv zeta. cbn [is_header andb orb]. destruct (Z.eqb_spec m 217) as [E7|N7].
  - cbn [jpart fst snd]. split; [exact PA3|]. split; [exact CT2|]. fields. rewrite R1, E7. exists (j_markers (rf_j st1)). auto.
  - apply IH; [unfold len; lia|apply rinv_same; auto|exact PA3|exact CT2|]. fields. rewrite R1. apply Forall_app. split; [exact MK1|]. constructor; [lia|constructor].
Qed.
