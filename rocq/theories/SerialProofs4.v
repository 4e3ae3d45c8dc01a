(** All coefficients being there, the serializer writes what WriteJpeg writes; a run over
    partial views delivers the same bytes. *)
From Verif Require Import Base JpegModel JBitModel JHuffModel JSegModel JScanModel JFileModel JReadProofs OutputModel OutputProofs SerialModel SerialSpec SerialProofs1 SerialProofs2 SerialProofs3.

Definition suf {A} (l L : list A) : Prop := exists k, L = k ++ l.
Lemma suf_skipn {A} (L : list A) n : suf (skipn n L) L.
Proof. exists (firstn n L). symmetry. apply firstn_skipn. Qed.
Lemma suf_tl {A} (x : A) l L : suf (x :: l) L -> suf l L.
Proof. intros [k ->]. exists (k ++ [x]). rewrite <- app_assoc. reflexivity. Qed.
Lemma suf_trans {A} (a b c : list A) : suf a b -> suf b c -> suf a c.
Proof. intros [k ->] [k' ->]. exists (k' ++ k). rewrite app_assoc. reflexivity. Qed.
Lemma suf_idx {A} (l L : list A) : suf l L -> skipn (length L - length l) L = l.
Proof. intros [k ->]. rewrite app_length. replace (length k + length l - length l)%nat with (length k) by lia. rewrite skipn_app, skipn_all, Nat.sub_diag. reflexivity. Qed.

Definition wsuf (J : jpeg) (w : wfile) : Prop :=
  suf (wf_huff w) (j_huff J) /\ suf (wf_quant w) (j_quant J) /\ suf (wf_app w) (j_app J) /\ suf (wf_com w) (j_com J) /\ suf (wf_inter w) (j_inter J) /\ suf (wf_scans w) (j_scans J).
Lemma wfile_wsuf J s : wsuf J (wfile_of J s).
Proof. unfold wsuf, wfile_of. cbn. repeat split; apply suf_skipn. Qed.
Lemma wfile_back J w : wsuf J w -> wfile_of J (sfile_of J w) = w.
Proof.
  intros (A & B & C & D & E & F). unfold wfile_of, sfile_of. cbn [sf_dht sf_dqt sf_app sf_com sf_inter sf_scan sf_tabs sf_dri sf_prog sf_pads].
  rewrite (suf_idx _ _ A), (suf_idx _ _ B), (suf_idx _ _ C), (suf_idx _ _ D), (suf_idx _ _ E), (suf_idx _ _ F). destruct w; reflexivity.
Qed.
Lemma dht_suf : forall l t b l' t', dht_entries l t = JOk (b, (l', t')) -> suf l' l.
Proof.
  induction l as [|h l IH]; intros t b l' t' E; cbn [dht_entries] in E; [discriminate|]. apply jbind_ok in E as ([b1 t1] & _ & E). destruct (hc_last h).
  - injection E as _ <- _. exists [h]. reflexivity.
  - apply jbind_ok in E as ([b2 s2] & E2 & E). destruct s2 as [l2 t2]. injection E as _ <- _. destruct (IH _ _ _ _ E2) as [k ->]. exists (h :: k). reflexivity.
Qed.
Lemma dqt_suf : forall l b l', dqt_entries l = JOk (b, l') -> suf l' l.
Proof.
  induction l as [|h l IH]; intros b l' E; cbn [dqt_entries] in E; [discriminate|]. apply jbind_ok in E as (b1 & _ & E). cbv zeta in E. destruct (q_last h).
  - injection E as _ <-. exists [h]. reflexivity.
  - apply jbind_ok in E as ([b2 s2] & E2 & E). injection E as _ <-. destruct (IH _ _ E2) as [k ->]. exists (h :: k). reflexivity.
Qed.
Lemma section_wsuf J m w out w' : write_section J m w = JOk (out, w') -> wsuf J w -> wsuf J w'.
Proof.
  intros E (A & B & C & D & F & G). unfold write_section in E.
  assert (K : forall h q a c i s tt d p pp, mkWF h q a c i s tt d p pp = w' -> suf h (j_huff J) -> suf q (j_quant J) -> suf a (j_app J) -> suf c (j_com J) -> suf i (j_inter J) -> suf s (j_scans J) -> wsuf J w').
  { intros. subst w'. unfold wsuf. cbn. auto 10. }
  destruct (between m 192 194 || between m 201 202). { apply jbind_ok in E as (o & _ & E). injection E as _ E. exact (K _ _ _ _ _ _ _ _ _ _ E A B C D F G). }
  destruct (m =? 196). { apply jbind_ok in E as ([o [l t]] & E1 & E). injection E as _ E. unfold write_dht in E1. cbv zeta in E1. apply jbind_ok in E1 as ([b s] & E2 & E1). apply jbind_ok in E1 as (o2 & _ & E1).
    injection E1 as _ ->. apply dht_suf in E2. cbn [fst snd] in E. exact (K _ _ _ _ _ _ _ _ _ _ E (suf_trans _ _ _ E2 A) B C D F G). }
  destruct (between m 208 215). { injection E as _ <-. unfold wsuf. auto 10. }
  destruct (m =? 217). { injection E as _ <-. unfold wsuf. auto 10. }
  destruct (m =? 218). { unfold write_scan in E. destruct (wf_scans w) as [|si l] eqn:Es; [discriminate|]. cbv zeta in E. apply jbind_ok in E as (h & _ & E). apply jbind_ok in E as ([b p] & _ & E). injection E as _ E.
    exact (K _ _ _ _ _ _ _ _ _ _ E A B C D F (suf_tl _ _ _ G)). }
  destruct (m =? 219). { apply jbind_ok in E as ([o l] & E1 & E). injection E as _ E. unfold write_dqt in E1. cbv zeta in E1. apply jbind_ok in E1 as ([b s] & E2 & E1). apply jbind_ok in E1 as (o2 & _ & E1).
    injection E1 as _ ->. apply dqt_suf in E2. exact (K _ _ _ _ _ _ _ _ _ _ E A (suf_trans _ _ _ E2 B) C D F G). }
  destruct (m =? 221). { injection E as _ E. exact (K _ _ _ _ _ _ _ _ _ _ E A B C D F G). }
  destruct (between m 224 239). { destruct (wf_app w) as [|x l]; [discriminate|]. injection E as _ E. exact (K _ _ _ _ _ _ _ _ _ _ E A B (suf_tl _ _ _ C) D F G). }
  destruct (m =? 254). { destruct (wf_com w) as [|x l]; [discriminate|]. injection E as _ E. exact (K _ _ _ _ _ _ _ _ _ _ E A B C (suf_tl _ _ _ D) F G). }
  destruct (m =? 255); [|discriminate]. destruct (wf_inter w) as [|x l]; [discriminate|]. injection E as _ E. exact (K _ _ _ _ _ _ _ _ _ _ E A B C D (suf_tl _ _ _ F) G).
Qed.

(** A whole scan. *)
Lemma scan_data_finish J t prog si restart pads body padsF : write_scan_data J (wt_dc t) (wt_ac t) prog si restart pads = JOk (body, padsF) ->
  exists l, finish J t prog (scan_params prog si restart) pads
    (mkSC (mkWS (mkWC [] 0 ([], []) [] 0) (repeat 0 4) 0 restart 0 (fst (pop_reset (si_resets si))) (snd (pop_reset (si_resets si))) (si_zero_runs si)) bw_init 0) = JOk (l, padsF) /\ concat l = body.
Proof.
  intros E. unfold write_scan_data in E. apply jbind_ok in E as (ops & E1 & E). unfold write_scan_ops in E1. cbv zeta in E1. destruct (pop_reset (si_resets si)) as [nr resets].
  apply jbind_ok in E1 as (w & E1 & E2). apply jbind_ok in E2 as (st & E2 & E3). injection E3 as <-. cbn [fst snd]. unfold finish, scan_rows. cbn [sc_y sc_w sc_bw]. rewrite <- mcus_zero, E1. cbn [jbind].
  assert (W : ws_c w = pre (wc_ops (ws_c w)) (ws_c (drop_ops w))) by (destruct w as [[? ? ? ? ?] ? ? ? ? ? ? ?]; unfold pre; cbn; rewrite app_nil_r; reflexivity).
  rewrite W, flush_pre in E2. destruct (flush (ws_c (drop_ops w))) as [st2| |] eqn:E4; cbn [jmap] in E2; try discriminate. injection E2 as <-.
  cbn [pre wc_ops] in E. rewrite <- app_assoc, bw_run_app in E. unfold run_ops at 1. destruct (bw_run (wc_ops (ws_c w)) pads bw_init) as [[bw1 p1]| |]; try discriminate. cbn [jbind].
  unfold scan_end. cbn [sc_w sc_bw]. rewrite E4. cbn [jbind]. unfold run_ops. destruct (bw_run (wc_ops st2 ++ [WJumpOp]) p1 bw1) as [[bw2 p2]| |]; try discriminate. cbn [jbind].
  destruct (bw_ok bw2); [|discriminate]. injection E as <- <-. eexists. split; [reflexivity|]. unfold bw_finish. rewrite concat_app. cbn [concat]. rewrite app_nil_r. reflexivity.
Qed.

Lemma done_section J m s out w' : sf_cur s = None -> write_section J m (wfile_of J s) = JOk (out, w') ->
  exists cs s', encode_section (done_view J) s m = JOk (cs, (s', true)) /\ concat cs = out /\ sf_cur s' = None /\ wfile_of J s' = w'.
Proof.
  intros Hc E. unfold encode_section. cbn [v_jpeg done_view]. destruct (Z.eqb_spec m 218) as [->|Hm].
  - unfold write_section in E. cbn [between Z.leb Z.compare Pos.compare Pos.compare_cont andb orb Z.eqb Pos.eqb] in E. unfold write_scan in E. cbn [wf_scans wfile_of] in E. rewrite done_scan. fold (done_view J).
    destruct (skipn (sf_scan s) (j_scans J)) as [|si l] eqn:Es; [discriminate|].
    assert (N : nth_error (j_scans J) (sf_scan s) = Some si /\ skipn (S (sf_scan s)) (j_scans J) = l).
    { clear - Es. revert Es. generalize (sf_scan s) as n, (j_scans J) as L. induction n as [|n IH]; intros [|x L] E; cbn [skipn nth_error] in *; try discriminate; [injection E as -> ->; auto|]. apply IH in E. exact E. }
    destruct N as [N1 N2]. rewrite N1. cbv zeta in *. cbn [wf_dri wf_tabs wf_prog wf_pads wfile_of] in E. set (restart := if sf_dri s then j_restart J else 0) in *.
    apply jbind_ok in E as (head & EH & E). apply jbind_ok in E as ([body pads] & EB & E). injection E as <- <-. unfold scan_open. rewrite Hc. unfold scan_head. rewrite EH. cbn [jbind].
    destruct (scan_data_finish _ _ _ _ _ _ _ _ EB) as (l' & EF & EL). destruct (pop_reset (si_resets si)) as [nr resets]. cbn [jbind fst snd] in *. rewrite EF. cbn [jbind].
    eexists _, _. split; [reflexivity|]. split; [cbn [Datatypes.app concat]; rewrite EL; reflexivity|]. split; [reflexivity|].
    unfold wfile_of, with_scan. cbn [sf_dht sf_dqt sf_app sf_com sf_inter sf_scan sf_tabs sf_dri sf_prog sf_pads]. rewrite N2. reflexivity.
  - rewrite E. cbn [jbind]. eexists _, _. split; [reflexivity|]. split; [cbn [concat]; apply app_nil_r|]. split; [reflexivity|]. apply wfile_back. apply (section_wsuf _ _ _ _ _ E). apply wfile_wsuf.
Qed.

Lemma done_sections J : forall ms idx s outs, sf_cur s = None -> write_sections J ms (wfile_of J s) = JOk outs ->
  emit_sections real_serializer (done_view J) ms idx (SRun s) = (KEnd, outs, GDone).
Proof.
  induction ms as [|m ms IH]; intros idx s outs Hc E; cbn [write_sections] in E; [injection E as <-; reflexivity|].
  apply jbind_ok in E as ([out w'] & E1 & E). apply jbind_ok in E as (o2 & E2 & E). injection E as <-.
  destruct (done_section _ _ _ _ _ Hc E1) as (cs & s' & F1 & F2 & F3 & F4). cbn [emit_sections sr_section real_serializer]. unfold real_section. rewrite F1.
  rewrite <- F4 in E2. rewrite (IH (S idx) s' o2 F3 E2), F2. reflexivity.
Qed.

(** The whole file at once. *)
Lemma done_emit J out : JFileModel.write_jpeg J = JOk out -> real_start (done_view J) = SrMarkers /\
  exists outs, out = [255; 216] ++ outs /\ emit_sections real_serializer (done_view J) (j_markers J) 0 SFresh = (KEnd, outs, GDone).
Proof.
  intros E. unfold JFileModel.write_jpeg in E. unfold real_start. cbn [v_done v_dc v_ac v_jpeg done_view orb negb]. destruct (Z.eqb_spec (Z.land (j_version J) 1) 1) as [|NV]; [discriminate|].
  destruct (Z.eqb_spec (Z.of_nat (length (j_markers J))) 0) as [|NM]; [discriminate|]. cbv zeta in E. apply jbind_ok in E as (outs & E & E2). injection E2 as <-. split.
  - destruct (Z.eqb_spec (j_version J) 1) as [V|_]; [exfalso; apply NV; rewrite V; reflexivity|]. destruct (j_markers J); [cbn in NM; lia|reflexivity].
  - exists outs. split; [reflexivity|]. change (mkWF (j_huff J) (j_quant J) (j_app J) (j_com J) (j_inter J) (j_scans J) (mkWT (repeat (repeat 0 256, repeat 0 256) 4) (repeat (repeat 0 256, repeat 0 256) 4)) false false
               (if j_zero_pad J then Some (j_padding J) else None)) with (wfile_of J (sfile_init J)) in E.
    pose proof (done_sections J (j_markers J) 0 (sfile_init J) outs eq_refl E) as D. destruct (j_markers J) as [|m ms]; [cbn in NM; lia|]. exact D.
Qed.

(** * Runs over partial views *)

(** What has been produced ([P]) and what is still to come. *)
Definition sinv (J : jpeg) (out : list Z) (g : stage sst) (P : list Z) : Prop :=
  match g with
  | GInit => P = []
  | GSection idx st => (idx < length (j_markers J))%nat /\ exists rest, emit_sections real_serializer (done_view J) (skipn idx (j_markers J)) idx st = (KEnd, rest, GDone) /\ P ++ rest = out
  | GDone => P = out
  | GError => False
  end.

Lemma sinv_defined J out g P : sinv J out g P -> match g with GSection _ SUndef => False | _ => True end.
Proof.
  destruct g as [|idx [|s|]| |]; try exact (fun _ => I). intros (H & rest & E & _). destruct (skipn idx (j_markers J)) as [|m l] eqn:Es; [|discriminate].
  apply (f_equal (@length Z)) in Es. rewrite skipn_length in Es. cbn in Es. lia.
Qed.

Lemma skipn_skipn' {A} : forall a b (l : list A), skipn a (skipn b l) = skipn (b + a) l.
Proof. intros a b. induction b as [|b IH]; intros l; [reflexivity|]. destruct l; [destruct a; reflexivity|]. cbn. apply IH. Qed.

Lemma step_sections J out v : shaped J -> consistent J v -> forall ms idx st P rest,
  emit_sections real_serializer (done_view J) (skipn idx ms) idx st = (KEnd, rest, GDone) -> P ++ rest = out -> ms = j_markers J -> (idx <= length ms)%nat ->
  forall k p g, emit_sections real_serializer v (skipn idx ms) idx st = (k, p, g) -> k <> KErr /\ sinv J out g (P ++ p) /\ (v_done v = true -> g = GDone).
Proof.
  intros HS HC ms idx st P rest E1 E2 -> L k p g E.
  assert (DN : v_done v = true -> emit_sections real_serializer v (skipn idx (j_markers J)) idx st = (KEnd, rest, GDone)).
  { intros D. destruct HC as (_ & _ & HD & _). specialize (HD D).
    assert (X : forall l i s, emit_sections real_serializer v l i s = emit_sections real_serializer (done_view J) l i s).
    { assert (Y : forall s m, real_section v s m = real_section (done_view J) s m).
      { intros s m. unfold real_section. cbn [v_jpeg done_view]. rewrite HD.
        assert (Z : forall f, encode_section v f m = encode_section (done_view J) f m).
        { intros f. unfold encode_section, encode_scan. cbn [v_jpeg v_done v_ac v_row done_view]. rewrite HD, D. cbn [orb]. cbv zeta.
          destruct (m =? 218); [|reflexivity]. destruct (nth_error _ _); [|reflexivity]. destruct (match sf_cur f with Some _ => _ | None => _ end) as [[h sc]| |]; cbn [jbind]; try reflexivity.
          change (negb true) with false. rewrite !andb_false_r. match goal with |- context [if ?b then true else true] => destruct b end; reflexivity. }
        destruct s; rewrite ?Z; reflexivity. }
      induction l as [|m l IH]; intros i s; [reflexivity|]. cbn [emit_sections sr_section real_serializer]. rewrite Y. destruct (real_section (done_view J) s m) as [[cs s'] [| |]]; try reflexivity. rewrite IH. reflexivity. }
    rewrite X. exact E1. }
  destruct (emit_two J v HS HC _ _ _ _ E1) as [F|(p1 & n & st1 & p2 & F & Ln & F2 & F3)].
  - rewrite F in E. injection E as <- <- <-. split; [discriminate|]. split; [exact E2|reflexivity].
  - destruct (v_done v) eqn:D; [rewrite (DN eq_refl) in F; discriminate|]. rewrite F in E. injection E as <- <- <-. split; [discriminate|]. split; [|discriminate].
    rewrite skipn_length in Ln. rewrite skipn_skipn' in F2. split; [lia|]. exists p2. split; [exact F2|]. rewrite <- app_assoc, F3. exact E2.
Qed.

Lemma step_view J out v g P : shaped J -> JFileModel.write_jpeg J = JOk out -> consistent J v -> sinv J out g P ->
  forall k p g', emit real_serializer v g = (k, p, g') -> k <> KErr /\ sinv J out g' (P ++ p) /\ g' <> GInit /\ (v_done v = true -> g' = GDone).
Proof.
  intros HS HW HC HI k p g' E. pose proof HC as (ST & HF & _). fe HF j_markers. fe HF j_version. destruct g as [|idx st| |]; cbn [emit] in E.
  - cbn in HI. subst P. destruct (done_emit J out HW) as (S0 & outs & EO & D).
    assert (SV : sr_start real_serializer v = SrMarkers).
    { cbn [sr_start real_serializer]. unfold real_start in *. cbn [v_done v_dc v_ac v_jpeg done_view orb negb] in S0. rewrite ST, FE, FE0. cbn [negb].
      destruct (j_version J =? 1); [discriminate|]. exact S0. }
    rewrite SV in E. cbn [sr_markers sr_init real_serializer] in E. rewrite FE in E. change (j_markers J) with (skipn 0 (j_markers J)) in D, E. fold real_serializer in E.
    destruct (emit_sections real_serializer v (skipn 0 (j_markers J)) 0 SFresh) as [[k0 o0] g0] eqn:E0. injection E as <- <- <-.
    destruct (step_sections J out v HS HC (j_markers J) 0 SFresh [255; 216] outs D (eq_sym EO) eq_refl ltac:(lia) _ _ _ E0) as (A & B & C). split; [exact A|]. split; [exact B|]. split; [|exact C].
    intros ->. cbn in B. discriminate.
  - destruct HI as (L & rest & E1 & E2). cbn [sr_markers real_serializer] in E. rewrite FE in E. fold real_serializer in E.
    destruct (step_sections J out v HS HC (j_markers J) idx st P rest E1 E2 eq_refl (Nat.lt_le_incl _ _ L) _ _ _ E) as (A & B & C). split; [exact A|]. split; [exact B|]. split; [|exact C].
    intros ->. destruct (emit_two J v HS HC _ _ _ _ E1) as [F|(p1 & n & st1 & p2 & F & _)]; rewrite F in E; discriminate.
  - injection E as <- <- <-. rewrite app_nil_r. split; [discriminate|]. split; [exact HI|]. split; [discriminate|reflexivity].
  - contradiction.
Qed.

(** * Sequences of calls *)
Lemma calls_views J out : shaped J -> JFileModel.write_jpeg J = JOk out -> forall calls (ss : sstate real_serializer) st P,
  Forall (fun c => consistent J (fst c)) calls -> sinv J out (ss_stage ss) (P ++ concat (ss_queue ss)) -> st <> Err -> (st = Done -> ss_stage ss = GDone /\ ss_queue ss = []) ->
  forall s o ss', serialize_calls real_serializer ss st calls = (s, o, ss') ->
  s <> Err /\ sinv J out (ss_stage ss') (P ++ o ++ concat (ss_queue ss')) /\ (s = Done -> ss_stage ss' = GDone /\ ss_queue ss' = []) /\
  ((exists c, In c calls /\ v_done (fst c) = true) \/ ss_stage ss = GDone -> ss_stage ss' = GDone) /\ (calls <> [] -> ss_stage ss' <> GInit).
Proof.
  intros HS HW. induction calls as [|[v cap] calls IH]; intros ss st P HC HI H1 H2 s o ss' E; cbn [serialize_calls] in E.
  - injection E as <- <- <-. split; [exact H1|]. split; [exact HI|]. split; [exact H2|]. split; [|congruence]. intros [(c & [] & _)|H]; exact H.
  - inversion HC as [|? ? Hv Hc]; subst. cbn [fst] in Hv. destruct (serialize real_serializer v ss cap) as [[s1 o1] ss1] eqn:E1. destruct (serialize_calls real_serializer ss1 s1 calls) as [[s2 o2] ss2] eqn:E2.
    injection E as <- <- <-. destruct (serialize_spec _ _ _ _ _ _ _ E1) as (k & p & g & F1 & F2 & F3 & F4 & _ & F6).
    destruct (step_view J out v (ss_stage ss) _ HS HW Hv HI _ _ _ F1) as (A & B & NI & C). subst k g.
    rewrite <- (app_assoc P (concat (ss_queue ss)) p), <- F4, app_assoc in B.
    assert (A1 : s1 <> Err) by (intros ->; apply A; reflexivity).
    assert (A2 : s1 = Done -> ss_stage ss1 = GDone /\ ss_queue ss1 = []).
    { intros ->. split; [exact (emit_end _ _ _ _ _ _ F1 eq_refl)|]. apply (F6 eq_refl). reflexivity. }
    destruct (IH ss1 s1 (P ++ o1) Hc B A1 A2 _ _ _ E2) as (I1 & I2 & I3 & I4 & I5). split; [exact I1|]. split; [rewrite <- !app_assoc in *; exact I2|]. split; [exact I3|]. split.
    + intros H. apply I4. destruct H as [(c & [<-|Hin] & Hd)|H]; [right; exact (C Hd)|left; eauto|]. right. rewrite H in F1. cbn [emit] in F1. injection F1 as _ _ F. symmetry. exact F.
    + intros _. destruct calls as [|c0 cs]; [|apply I5; discriminate]. cbn [serialize_calls] in E2. injection E2 as _ _ <-. exact NI.
Qed.

Lemma calls_waiting : forall calls st, Forall (fun c => waiting (fst c)) calls -> st = NeedsInput ->
  serialize_calls real_serializer (mkSS GInit []) st calls = (NeedsInput, [], mkSS GInit []).
Proof.
  induction calls as [|[v cap] calls IH]; intros st H ->; [reflexivity|]. inversion H as [|? ? (D & A & B) Hc]; subst. cbn [fst] in *. cbn [serialize_calls]. unfold serialize. cbn [ss_stage ss_queue push_output].
  cbn [sr_start real_serializer]. unfold real_start. rewrite D, A, B. cbn [orb negb]. fold real_serializer. rewrite IH; auto.
Qed.

Lemma calls_app R : forall a b ss st, serialize_calls R ss st (a ++ b) =
  let '(s1, o1, ss1) := serialize_calls R ss st a in let '(s2, o2, ss2) := serialize_calls R ss1 s1 b in (s2, o1 ++ o2, ss2).
Proof.
  induction a as [|[i n] a IH]; intros b ss st; cbn [serialize_calls Datatypes.app]; [destruct (serialize_calls R ss st b) as [[? ?] ?]; reflexivity|].
  destruct (serialize R i ss n) as [[s1 o1] ss1]. rewrite IH. destruct (serialize_calls R ss1 s1 a) as [[s2 o2] ss2]. destruct (serialize_calls R ss2 s2 b) as [[s3 o3] ss3]. rewrite app_assoc. reflexivity.
Qed.
