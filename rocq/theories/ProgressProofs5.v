(** The streaming decoder as a whole: what Decode delivers is the file. *)
From Verif Require Import Base CodesModel JpegModel EntropyModel LehmerModel QuantModel InternalsModel MetaModel HeaderModel HeaderProofs Stream BitSteady Machine ContainerModel GrammarProofs HSecModel CoefModel CoefProofs DCProofs WordModel Decoder DecoderProofs2 DriverModel DriverProofs OutputModel OutputProofs JBitModel JScanModel JFileModel SerialModel SerialSpec SerialProofs4 ProgressModel ProgressSpec ProgressProofs1 ProgressProofs2 ProgressProofs3 ProgressProofs4.

Lemma some_inj {A} (a b : A) : Some a = Some b -> a = b.
Proof. congruence. Qed.

Section Drive.
  Context (B : brotli) (D : list Z) (HD : bytes D) (MF : metadata_first D).
  Notation N := (length D).
  Notation XP := (x_parser B D).
  Notation SP := (stream_parser (outcome picture) D).
  Notation p0 := (decode_stream (real_bodies B)).
  Notation st_of := (state_of B).
  Notation sees := (means D p0).

  Lemma means_at x T : sees (st_of x) T -> pa_failed XP x = false -> (x_at B x <= T)%nat.
  Proof. intros M F. destruct x; cbn [state_of means pa_failed x_parser] in *; try discriminate; try exact (proj1 M). Qed.

  (** One call of the parser. *)
  Lemma xcall x a b r c x' : sees (st_of x) a -> (a <= b <= N)%nat -> pa_failed XP x = false -> xinv B D x -> pa_run XP x (slice D (x_at B x) b) = (r, c, x') -> r <> StInvalid ->
    xinv B D x' /\ (ann B x = true -> ann B x' = true) /\ sees (st_of x') b /\ (r = StNeed -> x_at B x' = (x_at B x + c)%nat /\ (x_at B x' <= b)%nat /\ pa_failed XP x' = false).
  Proof.
    intros M Hb F I E NR. pose proof (means_at _ _ M F) as HA.
    destruct (parser_call D p0 HD (st_of x) a b M Hb ltac:(rewrite failed_of; exact F)) as (r1 & c1 & s1 & E1 & M1 & R1).
    rewrite at_of, run_of, E in E1. injection E1 as <- <- <-.
    assert (K : xinv B D x' /\ (ann B x = true -> ann B x' = true)).
    { cbn [pa_run x_parser] in E. rewrite slice_len in E by lia. replace (x_at B x + (b - x_at B x))%nat with b in E by lia. rewrite list_eqb_refl in E.
      destruct (x_process B D x b) as [r2 x2] eqn:EP. injection E as -> <- ->. unfold x_process in EP.
      assert (EP' : match x_run B D x b with RDone o q => if (q =? b)%nat then (StOk, XDone o q) else (StInvalid, XErr) | RFail => (StInvalid, XErr) | RMore x' => (StNeed, x') end = (r, x')) by (destruct x; try exact EP; discriminate). clear EP.
      destruct (x_run B D x b) as [o q| |y] eqn:ER.
      - destruct (q =? b)%nat; injection EP' as <- <-; [|congruence]. split; [exact Logic.I|]. intros _. destruct o; reflexivity.
      - injection EP' as <- <-. congruence.
      - injection EP' as <- <-. apply (run_keeps B D HD MF x b y I ltac:(lia) ER). }
    destruct K as [K1 K2]. split; [exact K1|]. split; [exact K2|]. split; [exact M1|]. intros ->. destruct R1 as ((p & R1) & R2 & _).
    assert (AT : x_at B x' = (x_at B x + c)%nat) by (rewrite <- at_of, R1; rewrite at_of; reflexivity).
    split; [exact AT|]. split; [rewrite AT; rewrite at_of in R2; exact R2|]. rewrite <- failed_of, R1. reflexivity.
  Qed.

  Lemma external_keeps x T m p a r c d : sees (st_of x) a -> pa_failed XP x = false -> xinv B D x -> (T + m <= N)%nat -> (p <= m)%nat -> x_at B x = (T + p)%nat -> (a <= T + m)%nat ->
    drive_external XP x (slice D T (T + m)) p = Some (r, c, d) -> r <> StInvalid -> xinv B D (d_st d) /\ (ann B x = true -> ann B (d_st d) = true).
  Proof.
    intros M F I Hm Hp Hx Ha E NR. unfold drive_external in E. rewrite slice_skip in E by lia. rewrite <- Hx in E.
    destruct (pa_run XP x (slice D (x_at B x) (T + m))) as [[r1 c1] x1] eqn:E1.
    assert (NR1 : r1 <> StInvalid) by (intros ->; injection E as <- _ _; congruence).
    destruct (xcall x a (T + m)%nat r1 c1 x1 M ltac:(lia) F I E1 NR1) as (K1 & K2 & _).
    destruct r1; [injection E as <- <- <-; auto| |congruence]. destruct (store _) as [bb|]; [|discriminate]. unfold obind in E. apply some_inj in E. injection E as <- <- <-. auto.
  Qed.

  Lemma drive_keeps (d : DriverModel.dstate XP) T m r c d' : inv D p0 (drv_of B D d) T -> (T + m <= N)%nat -> xinv B D (d_st d) -> drive XP d (slice D T (T + m)) = Some (r, c, d') -> r <> StInvalid ->
    xinv B D (d_st d') /\ (ann B (d_st d) = true -> ann B (d_st d') = true).
  Proof.
    intros (I1 & I2 & I3) Hm I E NR. unfold drive in E. destruct (pa_failed XP (d_st d)) eqn:F; [injection E as <- _ _; congruence|].
    destruct (I3 ltac:(cbn [drv_of d_st]; rewrite failed_of; exact F)) as [I4 I5]. cbn [drv_of d_st d_buf] in I2, I4, I5. rewrite at_of in I4, I5. destruct d as [buf x]. cbn [d_st d_buf] in *.
    pose proof (means_at _ _ I2 F) as HA. destruct buf as [|b0 bt] eqn:Eb.
    { assert (EQ : x_at B x = T). { apply f_equal with (f := @length Z) in I4. rewrite slice_len in I4 by lia. cbn in I4. lia. }
      apply (external_keeps x T m 0 T r c d'); auto; lia. }
    rewrite <- Eb in *. assert (LB : length buf = (T - x_at B x)%nat) by (rewrite I4; apply slice_len; lia). clear Eb b0 bt.
    set (k := Nat.min read_ahead m) in *.
    assert (EB : firstn read_ahead (slice D T (T + m)) = slice D T (T + k)) by (unfold slice; rewrite firstn_firstn; f_equal; unfold k; lia). cbv zeta in E. rewrite EB in E.
    assert (EW : buf ++ slice D T (T + k) = slice D (x_at B x) (T + k)) by (rewrite I4; apply slice_cat; lia). rewrite EW in E.
    destruct (store (slice D (x_at B x) (T + k))) as [w|] eqn:ES; [|discriminate]. unfold store in ES. destruct (_ <=? _)%nat; [|discriminate]. injection ES as <-. unfold obind in E. cbv beta iota in E.
    destruct (pa_run XP x (slice D (x_at B x) (T + k))) as [[r1 c1] x1] eqn:E1.
    assert (NR1 : r1 <> StInvalid) by (intros ->; destruct (_ <=? _)%nat; apply some_inj in E; injection E as <- _ _; congruence).
    destruct (xcall x T (T + k)%nat r1 c1 x1 I2 ltac:(lia) F I E1 NR1) as (K1 & K2 & K3 & K4).
    destruct (Nat.leb_spec (length buf) c1) as [L|L]; destruct r1; try congruence; try (apply some_inj in E; injection E as <- <- <-; cbn [d_st]; auto; fail).
    destruct (K4 eq_refl) as (A1 & A2 & A3).
    destruct (external_keeps x1 T m (c1 - length buf) (T + k) r c d' K3 A3 K1 Hm ltac:(lia) ltac:(lia) ltac:(lia) E NR) as [J1 J2]. split; [exact J1|]. auto.
  Qed.

  (** * Until the file is written *)
  Section Good.
    Context (P : picture) (J : jpeg) (metP : list Z) (HP : pic_ok metP P) (EJ : picture_jpeg P = Some J) (out : list Z) (HW : JFileModel.write_jpeg J = JOk out).
    Context (HR : mrun D p0 0 N = RDone (OImage P) N).

    Lemma not_bad : ~ bad D p0.
    Proof. unfold bad. rewrite HR. congruence. Qed.

    Lemma state_runs x T : sees (st_of x) T -> exists q, x_run B D x N = RDone (OImage P) q.
    Proof.
      intros M. destruct (pa_failed XP x) eqn:F; [destruct x; try discriminate; elim not_bad; exact M|].
      assert (NE : x <> XErr) by (intros ->; discriminate). pose proof (x_run_ok B D x N NE) as R.
      assert (Q : mrun D (prog_of B x) (x_at B x) N = RDone (OImage P) N).
      { destruct x; try discriminate; cbn [state_of means] in M; 
          try (apply verd_done; destruct M as (_ & _ & _ & _ & M); etransitivity; [exact M|]; rewrite HR; reflexivity).
        destruct M as (_ & M). rewrite HR in M. injection M as <- <-. reflexivity. }
      rewrite Q in R. destruct (x_run B D x N) as [o q| |]; cbn [sim] in R; try discriminate. injection R as <- <-. eauto.
    Qed.

    Lemma picture_shaped : shaped J.
    Proof.
      pose proof HP as (HH & _). cbn [header_valid] in HH. destruct HH as (V1 & V2 & V3 & V4 & V5 & V6 & V7).
      destruct (grid_pos (pi_w P) (pi_h P) (pi_samp P) (pi_grid P) ltac:(lia) ltac:(lia) V6 ltac:(lia) V7) as [GC GR]. destruct V7 as (G1 & G2 & G3 & G4 & G5 & G6 & G7).
      assert (MH : 0 < g_max_h (pi_grid P)) by (destruct G4 as (s & S1 & S2); pose proof (proj1 (Forall_forall _ _) V6 s S1) as Q; unfold samp_ok in Q; lia).
      assert (MV : 0 < g_max_v (pi_grid P)) by (destruct G5 as (s & S1 & S2); pose proof (proj1 (Forall_forall _ _) V6 s S1) as Q; unfold samp_ok in Q; lia).
      assert (DC : JScanModel.div_ceil (pi_w P) (8 * g_max_h (pi_grid P)) = g_mcu_cols (pi_grid P)).
      { unfold JScanModel.div_ceil. symmetry. apply Z.div_unique with (r := pi_w P - 1 - (g_mcu_cols (pi_grid P) - 1) * (8 * g_max_h (pi_grid P))); lia. }
      unfold picture_jpeg in EJ. destruct (pi_int P) as [[x inter]|]; [|discriminate]. destruct (pi_quant P) as [[ts idx]|]; [|discriminate]. destruct (pi_ac P) as [pl|]; [|discriminate]. injection EJ as <-.
      unfold shaped. cbn [j_max_h j_max_v j_width j_comps]. split; [exact MH|]. split; [exact MV|]. split; [lia|]. rewrite DC, G6.
      clear - V6. generalize (in_ids x) as ids, idx, pl. induction (pi_samp P) as [|s samp IH]; intros [|i ids] [|q idx'] [|a pl']; cbn [map make_comps]; try constructor.
      - cbn. pose proof (Forall_inv V6) as Q. unfold samp_ok in Q. lia.
      - apply IH. exact (Forall_inv_tail V6).
    Qed.

    (** What holds between calls: [T] bytes taken, [o] delivered. *)
    Definition live (d : xdecoder B D) (T : nat) (o : list Z) : Prop :=
      inv D p0 (drv_of B D (fst d)) T /\ xinv B D (d_st (fst d)) /\ (ann B (d_st (fst d)) = false -> snd d = mkSS GInit []) /\
      sinv J out (ss_stage (snd d)) (o ++ concat (ss_queue (snd d))) /\ (T = N -> ss_stage (snd d) = GDone).

    Lemma live_step d T o k cap : live d T o -> exists s c o1 d1, xdecode B D d (firstn k (skipn T D)) cap = Some (s, c, o1, d1) /\ live d1 (T + c) (o ++ o1) /\ s <> Err /\
      (s = Done -> ss_stage (snd d1) = GDone /\ ss_queue (snd d1) = []) /\ (Nat.min N (T + k) <= T + c)%nat.
    Proof.
      intros (L1 & L2 & L3 & L4 & L5). destruct d as [d ss]. cbn [fst snd] in *. pose proof L1 as (LT & _). set (m := Nat.min k (N - T)).
      assert (EX : firstn k (skipn T D) = slice D T (T + m)).
      { unfold slice. replace (T + m - T)%nat with m by lia. unfold m. destruct (Nat.le_gt_cases k (N - T)); [rewrite Nat.min_l by lia; reflexivity|]. rewrite Nat.min_r by lia. rewrite !firstn_all2; [reflexivity| |]; rewrite skipn_length; lia. }
      rewrite EX. destruct (drive_stream D p0 HD (drv_of B D d) T m L1 ltac:(lia)) as (r & c & d' & E & C1 & C2 & C3 & C4 & C5).
      rewrite drive_of in E. unfold xdecode. cbn [fst snd]. destruct (drive XP d (slice D T (T + m))) as [[[r2 c2] dx]|] eqn:ED; [|discriminate]. cbn [res_of] in E. apply some_inj in E. injection E as -> -> <-.
      assert (NR : r <> StInvalid).
      { intros ->. destruct (C4 eq_refl) as (_ & M & _). cbn [says] in C5. rewrite C5 in M. exact (not_bad M). }
      destruct (drive_keeps d T m r c dx L1 ltac:(lia) L2 ED NR) as [K1 K2]. specialize (C3 NR). unfold obind. cbv beta iota.
      assert (AT : (T + c = N)%nat -> exists o q, d_st dx = XDone o q).
      { intros Q. destruct r; [| |congruence]; cbn [says drv_of d_st] in C5.
        - destruct C5 as (y & C5). destruct (d_st dx); cbn [state_of] in C5; try discriminate. eauto.
        - destruct C5 as [_ C5]. destruct (C5 Q) as (t & C6). rewrite HR in C6. discriminate. }
      assert (LE : (Nat.min N (T + k) <= T + c)%nat).
      { destruct r; [| |congruence].
        - cbn [says drv_of d_st] in C5. destruct C5 as (y & C5). destruct C3 as (_ & M & _). cbn [drv_of d_st] in M. rewrite C5 in M. destruct M as [_ M]. rewrite HR in M. injection M as _ ->. lia.
        - rewrite (C2 eq_refl). unfold m. lia. }
      assert (SE : exists s o1 ss1, serialize real_serializer (look (d_st dx)) ss cap = (s, o1, ss1) /\ (ann B (d_st dx) = false -> ss1 = mkSS GInit []) /\ sinv J out (ss_stage ss1) ((o ++ o1) ++ concat (ss_queue ss1)) /\
        (T + c = N -> ss_stage ss1 = GDone)%nat /\ s <> Err /\ (s = Done -> ss_stage ss1 = GDone /\ ss_queue ss1 = [])).
      { destruct (ann B (d_st dx)) eqn:A.
        - destruct C3 as (C3 & M & CB). cbn [drv_of d_st] in M. destruct (state_runs _ _ M) as (q & XR).
          assert (XA : (x_at B (d_st dx) <= N)%nat).
          { destruct (pa_failed XP (d_st dx)) eqn:F; [destruct (d_st dx); try discriminate; elim not_bad; exact M|]. pose proof (means_at _ _ M F). lia. }
          pose proof (look_ok P J metP HP EJ B D HD MF _ _ K1 XA XR A) as CO. destruct (serialize real_serializer (look (d_st dx)) ss cap) as [[s o1] ss1] eqn:ES.
          assert (EC : serialize_calls real_serializer ss NeedsInput [(look (d_st dx), cap)] = (s, o1, ss1)) by (cbn [serialize_calls]; rewrite ES, app_nil_r; reflexivity).
          destruct (calls_views J out picture_shaped HW [(look (d_st dx), cap)] ss NeedsInput o ltac:(constructor; [exact CO|constructor]) L4 ltac:(discriminate) ltac:(discriminate) _ _ _ EC) as (V1 & V2 & V3 & V4 & _).
          exists s, o1, ss1. split; [reflexivity|]. split; [discriminate|]. split; [rewrite <- app_assoc; exact V2|]. split; [|split; [exact V1|exact V3]].
          intros Q. apply V4. left. exists (look (d_st dx), cap). split; [left; reflexivity|]. destruct (AT Q) as (oo & qq & AQ). cbn [fst]. rewrite AQ. destruct oo; reflexivity.
        - assert (A0 : ann B (d_st d) = false) by (destruct (ann B (d_st d)); [specialize (K2 eq_refl); discriminate|reflexivity]). pose proof (L3 A0) as SS0. subst ss.
          assert (WT : waiting (look (d_st dx))) by (unfold ann in A; cbv zeta in A; apply orb_false_iff in A as [A A3]; apply orb_false_iff in A as [A1 A2]; repeat split; assumption).
          pose proof (calls_waiting [(look (d_st dx), cap)] NeedsInput ltac:(constructor; [exact WT|constructor]) eq_refl) as CW. cbn [serialize_calls] in CW.
          destruct (serialize real_serializer (look (d_st dx)) (mkSS GInit []) cap) as [[s o1] ss1]. injection CW as -> E1 ->. rewrite app_nil_r in E1. subst o1.
          exists NeedsInput, [], (mkSS GInit []). split; [reflexivity|]. split; [reflexivity|]. split; [rewrite (app_nil_r o); exact L4|]. split; [|split; discriminate].
          intros Q. destruct (AT Q) as (oo & qq & AQ). rewrite AQ in A. destruct oo; discriminate. }
      destruct SE as (s & o1 & ss1 & E1 & S1 & S2 & S3 & S4 & S5). rewrite E1. exists s, c, o1, (dx, ss1).
      split; [destruct r; [reflexivity|reflexivity|congruence]|]. split; [|split; [exact S4|split; [exact S5|exact LE]]]. split; [exact C3|]. split; [exact K1|]. split; [exact S1|]. split; [exact S2|exact S3].
    Qed.

    Lemma live_calls : forall calls d T st o, live d T o -> st <> Err -> (st = Done -> ss_stage (snd d) = GDone /\ ss_queue (snd d) = []) ->
      exists s T' o1 d1, xdecode_calls B D d T st calls = Some (s, T', o1, d1) /\ live d1 T' (o ++ o1) /\ s <> Err /\ (s = Done -> ss_stage (snd d1) = GDone /\ ss_queue (snd d1) = []) /\
        (Nat.min N (T + list_sum (map fst calls)) <= T')%nat.
    Proof.
      induction calls as [|[k cap] calls IH]; intros d T st o L N1 N2; cbn [xdecode_calls].
      - exists st, T, [], d. rewrite app_nil_r. split; [reflexivity|]. split; [exact L|]. split; [exact N1|]. split; [exact N2|]. cbn. lia.
      - destruct (live_step d T o k cap L) as (s & c & o1 & d1 & E & L' & A1 & A2 & A3). rewrite E. unfold obind. cbv beta iota.
        destruct (IH d1 (T + c)%nat s (o ++ o1) L' A1 A2) as (s2 & T2 & o2 & d2 & E2 & L2 & B1 & B2 & B3). rewrite E2. exists s2, T2, (o1 ++ o2), d2. split; [reflexivity|].
        split; [rewrite app_assoc; exact L2|]. split; [exact B1|]. split; [exact B2|]. cbn [map fst list_sum fold_right] in *. fold (list_sum (map fst calls)). lia.
    Qed.

    Lemma live_start (G : good_bodies (real_bodies B)) : live (xdecoder_start B D) 0 [].
    Proof.
      destruct (decode_stream_good _ D G HD) as [G1 G2]. split; [exact (stream_start_inv D p0 G1 G2)|]. split; [reflexivity|]. split; [reflexivity|]. split; [reflexivity|].
      cbn [fst]. intros Q. exfalso. pose proof HR as HR'. rewrite <- Q in HR'. unfold decode_stream in HR'. cbn [mrun] in HR'. change (0 + 6 <=? 0)%nat with false in HR'. cbv iota in HR'. discriminate.
    Qed.

    Lemma live_out d T o : live d T o -> undefined (snd d) = false /\ (exists rest, out = o ++ rest) /\ (T = N -> o ++ concat (ss_queue (snd d)) = out).
    Proof.
      intros (_ & _ & _ & L & LN). split; [|split].
      - unfold undefined. pose proof (sinv_defined _ _ _ _ L) as K. destruct (ss_stage (snd d)) as [|i [| |]| |]; try reflexivity. contradiction.
      - destruct (ss_stage (snd d)) as [|i st| |]; cbn [sinv] in L; [|destruct L as (_ & rest & _ & <-)|subst out|contradiction].
        + apply app_eq_nil in L as [-> _]. exists out. reflexivity.
        + exists (concat (ss_queue (snd d)) ++ rest). rewrite app_assoc. reflexivity.
        + exists (concat (ss_queue (snd d))). reflexivity.
      - intros Q. rewrite (LN Q) in L. exact L.
    Qed.
  End Good.
End Drive.
