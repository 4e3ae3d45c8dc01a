(** The scan writers only append to the calls on the bit writer, and the bit writer only
    appends to its chunks. *)
From Verif Require Import Base JpegModel JBitModel JHuffModel JSegModel JScanModel JFileModel OutputModel SerialModel.

Definition jmap {A B} (f : A -> B) (o : jres A) : jres B := match o with JOk a => JOk (f a) | JErr => JErr | JUB => JUB end.
Definition snd' {A B C} (f : B -> C) (x : A * B) : A * C := (fst x, f (snd x)).

Definition pre (P : list wop) (st : wcs) : wcs := mkWC (P ++ wc_ops st) (wc_eob st) (wc_tab st) (wc_rb st) (wc_rbn st).

Lemma jbind_map {A B C D} (f : A -> B) (g : C -> D) o k k' : (forall x, k' (f x) = jmap g (k x)) -> jbind (jmap f o) k' = jmap g (jbind o k).
Proof. intros H. destruct o; cbn; auto. Qed.
Lemma jbind_same {A C D} (g : C -> D) (o : jres A) k k' : (forall x, k' x = jmap g (k x)) -> jbind o k' = jmap g (jbind o k).
Proof. intros H. destruct o; cbn; auto. Qed.

Lemma put_pre P o st : put o (pre P st) = pre P (put o st).
Proof. unfold put, pre. cbn. rewrite app_assoc. reflexivity. Qed.
Lemma put_sym_pre P t v st : put_sym t v (pre P st) = jmap (pre P) (put_sym t v st).
Proof. unfold put_sym. apply jbind_same. intros n. apply jbind_same. intros c. rewrite put_pre. reflexivity. Qed.
Lemma put_words_pre P : forall n i st, put_words n i (pre P st) = jmap (pre P) (put_words n i st).
Proof. induction n as [|n IH]; intros i st; [reflexivity|]. cbn [put_words]. apply jbind_same. intros w. rewrite put_pre. apply IH. Qed.
Lemma flush_pre P st : flush (pre P st) = jmap (pre P) (flush st).
Proof.
  unfold flush. cbn [wc_eob pre]. 
  replace (if 0 <? wc_eob st then _ else JOk (pre P st)) with
    (jmap (pre P) (if 0 <? wc_eob st then
       let nbits := Z.log2 (wc_eob st) in
       let* st := put_sym (wc_tab st) (Z.shiftl nbits 4) st in
       let st := if 0 <? nbits then put (WBitsOp nbits (Z.land (wc_eob st) (2 ^ nbits - 1))) st else st in
       JOk (mkWC (wc_ops st) 0 (wc_tab st) (wc_rb st) (wc_rbn st))
     else JOk st)).
  2:{ destruct (0 <? wc_eob st); [|reflexivity]. cbv zeta. symmetry. change (wc_tab (pre P st)) with (wc_tab st). rewrite put_sym_pre. apply jbind_map. intros x.
      cbn [wc_eob pre]. destruct (0 <? Z.log2 (wc_eob st)); [rewrite put_pre|]; reflexivity. }
  apply jbind_map. intros s1. cbn [wc_rbn pre]. rewrite put_words_pre. apply jbind_map. intros s2. cbn [wc_rbn wc_rb pre].
  destruct (negb (Z.land (wc_rbn s2) 15 =? 0)); [|reflexivity]. destruct (aget (wc_rb s2) _); cbn [jbind jmap]; [|reflexivity..]. rewrite put_pre. reflexivity.
Qed.
Lemma buffer_eob_pre P t bits st : buffer_eob t bits (pre P st) = jmap (pre P) (buffer_eob t bits st).
Proof.
  unfold buffer_eob. cbn [wc_eob wc_tab wc_rb wc_rbn wc_ops pre]. apply jbind_same. intros [rb cnt]. destruct (32767 * 63 <? cnt); [reflexivity|].
  destruct (wc_eob st + 1 =? 32767); [|reflexivity]. cbv zeta. rewrite <- flush_pre. reflexivity.
Qed.
Lemma put_dc_pre P tab t last st : put_dc tab t last (pre P st) = jmap (snd' (pre P)) (put_dc tab t last st).
Proof.
  unfold put_dc. cbv zeta. destruct (if _ <? 0 then _ else _) as [a v]. apply jbind_same. intros n. rewrite put_sym_pre. apply jbind_map. intros s.
  destruct (0 <? n); cbn; [rewrite put_pre|]; reflexivity.
Qed.
Lemma put_zrl_pre P tab : forall f r st, put_zrl f tab r (pre P st) = jmap (snd' (pre P)) (put_zrl f tab r st).
Proof. induction f as [|f IH]; intros r st; [reflexivity|]. cbn [put_zrl]. destruct (15 <? r); [|reflexivity]. rewrite put_sym_pre. apply jbind_map. intros s. apply IH. Qed.
Lemma put_extra_pre P tab : forall n st, put_extra n tab (pre P st) = jmap (pre P) (put_extra n tab st).
Proof. induction n as [|n IH]; intros st; [reflexivity|]. cbn [put_extra]. rewrite put_sym_pre. apply jbind_map. intros s. apply IH. Qed.
Lemma put_coef_pre P tab neg a r st : put_coef tab neg a r (pre P st) = jmap (pre P) (put_coef tab neg a r st).
Proof.
  unfold put_coef. rewrite put_zrl_pre. apply jbind_map. intros [r1 s]. cbn [snd' fst snd]. apply jbind_same. intros l. cbv zeta. rewrite put_sym_pre. apply jbind_map. intros s2.
  rewrite put_pre. reflexivity.
Qed.
Lemma seq_ac_pre P b tab : forall f k r st, seq_ac f b tab k r (pre P st) = jmap (snd' (pre P)) (seq_ac f b tab k r st).
Proof.
  induction f as [|f IH]; intros k r st; [reflexivity|]. cbn [seq_ac]. destruct (64 <=? k); [reflexivity|]. apply jbind_same. intros t. destruct (t =? 0); [apply IH|].
  rewrite put_coef_pre. apply jbind_map. intros s. apply IH.
Qed.
Lemma encode_seq_pre P b dct act nzr last st : encode_seq b dct act nzr last (pre P st) = jmap (snd' (pre P)) (encode_seq b dct act nzr last st).
Proof.
  unfold encode_seq. apply jbind_same. intros t. rewrite put_dc_pre. apply jbind_map. intros [l s]. cbn [snd' fst snd]. rewrite seq_ac_pre. apply jbind_map. intros [r s2]. cbn [snd' fst snd].
  rewrite put_extra_pre. apply jbind_map. intros s3. cbv zeta. destruct (0 <? _); [|reflexivity]. rewrite put_sym_pre. apply jbind_map. reflexivity.
Qed.
Lemma prog_ac_pre P b tab se al : forall f k r st, prog_ac f b tab se al k r (pre P st) = jmap (snd' (pre P)) (prog_ac f b tab se al k r st).
Proof.
  induction f as [|f IH]; intros k r st; [reflexivity|]. cbn [prog_ac]. destruct (se <? k); [reflexivity|]. apply jbind_same. intros t. destruct (t =? 0); [apply IH|]. cbv zeta.
  destruct (_ =? 0); [apply IH|]. rewrite flush_pre. apply jbind_map. intros s. rewrite put_coef_pre. apply jbind_map. intros s2. apply IH.
Qed.
Lemma encode_prog_pre P b dct act ss se al nzr last st :
  encode_prog b dct act ss se al nzr last (pre P st) = jmap (snd' (pre P)) (encode_prog b dct act ss se al nzr last st).
Proof.
  unfold encode_prog. cbv zeta.
  replace (if ss =? 0 then let* t := aget b 0 in put_dc dct (Z.shiftr t al) last (pre P st) else JOk (last, pre P st)) with
    (jmap (snd' (pre P)) (if ss =? 0 then let* t := aget b 0 in put_dc dct (Z.shiftr t al) last st else JOk (last, st))).
  2:{ destruct (ss =? 0); [|reflexivity]. symmetry. apply jbind_same. intros t. apply put_dc_pre. }
  apply jbind_map. intros [l s]. cbn [snd' fst snd]. destruct (se <? _); [reflexivity|]. rewrite prog_ac_pre. apply jbind_map. intros [r s2]. cbn [snd' fst snd].
  replace (if 0 <? nzr then let* st0 := flush (pre P s2) in put_extra (Z.to_nat nzr) act st0 else JOk (pre P s2)) with
    (jmap (pre P) (if 0 <? nzr then let* st0 := flush s2 in put_extra (Z.to_nat nzr) act st0 else JOk s2)).
  2:{ destruct (0 <? nzr); [|reflexivity]. symmetry. rewrite flush_pre. apply jbind_map. intros x. apply put_extra_pre. }
  apply jbind_map. intros s3. destruct (0 <? (if 0 <? nzr then r - 16 * nzr else r)); [|reflexivity]. rewrite buffer_eob_pre. apply jbind_map. intros s4.
  replace (if 0 <? ss then JOk (pre P s4) else flush (pre P s4)) with (jmap (pre P) (if 0 <? ss then JOk s4 else flush s4)); [apply jbind_map; reflexivity|].
  destruct (0 <? ss); [reflexivity|symmetry; apply flush_pre].
Qed.
Lemma put_each_pre P : forall bits st, put_each bits (pre P st) = pre P (put_each bits st).
Proof. unfold put_each. induction bits as [|b l IH]; intros st; [reflexivity|]. cbn [fold_left]. rewrite put_pre. apply IH. Qed.
Lemma ref_zrl_pre P tab k eob : forall f r bits st, ref_zrl f tab k eob r bits (pre P st) = jmap (snd' (snd' (pre P))) (ref_zrl f tab k eob r bits st).
Proof.
  induction f as [|f IH]; intros r bits st; [reflexivity|]. cbn [ref_zrl]. destruct ((15 <? r) && (k <=? eob)); [|reflexivity]. rewrite flush_pre. apply jbind_map. intros s.
  rewrite put_sym_pre. apply jbind_map. intros s2. rewrite put_each_pre. apply IH.
Qed.
Lemma refw_ac_pre P b tab se al eob : forall f k r bits st,
  refw_ac f b tab se al eob k r bits (pre P st) = jmap (snd' (snd' (pre P))) (refw_ac f b tab se al eob k r bits st).
Proof.
  induction f as [|f IH]; intros k r bits st; [reflexivity|]. cbn [refw_ac]. destruct (se <? k); [reflexivity|]. apply jbind_same. intros a. destruct (a =? 0); [apply IH|].
  rewrite ref_zrl_pre. apply jbind_map. intros [r1 [b1 s]]. cbn [snd' fst snd]. destruct (1 <? a); [apply IH|]. rewrite flush_pre. apply jbind_map. intros s1. apply jbind_same. intros t.
  rewrite put_sym_pre. apply jbind_map. intros s2. cbv zeta. rewrite put_pre, put_each_pre. apply IH.
Qed.
Lemma encode_refine_pre P b act ss se al st : encode_refine b act ss se al (pre P st) = jmap (pre P) (encode_refine b act ss se al st).
Proof.
  unfold encode_refine. cbv zeta.
  replace (if ss =? 0 then let* t := aget b 0 in JOk (put (WBitsOp 1 (Z.land (Z.shiftr t al) 1)) (pre P st)) else JOk (pre P st)) with
    (jmap (pre P) (if ss =? 0 then let* t := aget b 0 in JOk (put (WBitsOp 1 (Z.land (Z.shiftr t al) 1)) st) else JOk st)).
  2:{ destruct (ss =? 0); [|reflexivity]. symmetry. apply jbind_same. intros t. rewrite put_pre. reflexivity. }
  apply jbind_map. intros s. destruct (se <? _); [reflexivity|]. apply jbind_same. intros eob. rewrite refw_ac_pre. apply jbind_map. intros [r [bits s2]]. cbn [snd' fst snd].
  destruct ((0 <? r) || _); [|reflexivity]. rewrite buffer_eob_pre. apply jbind_map. intros s3. destruct (0 <? ss); [reflexivity|apply flush_pre].
Qed.

(** * Scan level *)
Definition spre (P : list wop) (w : wscan) : wscan :=
  mkWS (pre P (ws_c w)) (ws_last w) (ws_bsi w) (ws_togo w) (ws_next w) (ws_nr w) (ws_resets w) (ws_zruns w).

Lemma write_visit_pre P comps dct act mode p v w : write_visit comps dct act mode p v (spre P w) = jmap (spre P) (write_visit comps dct act mode p v w).
Proof.
  unfold write_visit. cbn [ws_c ws_last ws_bsi ws_togo ws_next ws_nr ws_resets ws_zruns spre]. do 3 (apply jbind_same; intros ?).
  replace (if ws_bsi w =? ws_nr w then let* st := flush (pre P (ws_c w)) in JOk (st, pop_reset (ws_resets w)) else JOk (pre P (ws_c w), (ws_nr w, ws_resets w))) with
    (jmap (fun x => (pre P (fst x), snd x)) (if ws_bsi w =? ws_nr w then let* st := flush (ws_c w) in JOk (st, pop_reset (ws_resets w)) else JOk (ws_c w, (ws_nr w, ws_resets w)))).
  2:{ destruct (ws_bsi w =? ws_nr w); [|reflexivity]. symmetry. rewrite flush_pre. apply jbind_map. reflexivity. }
  apply jbind_map. intros [st [nr resets]]. cbn [fst snd]. destruct (if ws_bsi w =? next_zrun (ws_zruns w) then _ else _) as [nzr zruns].
  apply jbind_same. intros b. apply jbind_same. intros last.
  match goal with |- jbind ?a _ = jmap _ (jbind ?b _) => replace a with (jmap (snd' (pre P)) b) end.
  2:{ destruct (mode =? 0); [symmetry; apply encode_seq_pre|]. destruct (mode =? 1); [symmetry; apply encode_prog_pre|]. rewrite encode_refine_pre. symmetry. apply jbind_map. reflexivity. }
  apply jbind_map. intros [l s]. cbn [snd' fst snd]. apply jbind_same. reflexivity.
Qed.
Lemma write_visits_pre P comps dct act mode p : forall vs w, write_visits comps dct act mode p vs (spre P w) = jmap (spre P) (write_visits comps dct act mode p vs w).
Proof. induction vs as [|v vs IH]; intros w; [reflexivity|]. cbn [write_visits]. rewrite write_visit_pre. apply jbind_map. exact IH. Qed.
Lemma write_restart_pre P p w : write_restart p (spre P w) = jmap (spre P) (write_restart p w).
Proof.
  unfold write_restart. cbn [ws_c ws_last ws_bsi ws_togo ws_next ws_nr ws_resets ws_zruns spre]. destruct ((0 <? sp_restart p) && (ws_togo w =? 0)); [|reflexivity].
  rewrite flush_pre. apply jbind_map. intros s. rewrite !put_pre. reflexivity.
Qed.
Lemma write_mcu_pre P comps dct act mode p yx w : write_mcu comps dct act mode p yx (spre P w) = jmap (spre P) (write_mcu comps dct act mode p yx w).
Proof. unfold write_mcu. rewrite write_restart_pre. apply jbind_map. intros w1. rewrite write_visits_pre. apply jbind_map. reflexivity. Qed.
Lemma write_mcus_pre P comps dct act mode p : forall ms w, write_mcus comps dct act mode p ms (spre P w) = jmap (spre P) (write_mcus comps dct act mode p ms w).
Proof. induction ms as [|v vs IH]; intros w; [reflexivity|]. cbn [write_mcus]. rewrite write_mcu_pre. apply jbind_map. exact IH. Qed.

Lemma write_mcus_app comps dct act mode p : forall a b w, write_mcus comps dct act mode p (a ++ b) w = jbind (write_mcus comps dct act mode p a w) (write_mcus comps dct act mode p b).
Proof. induction a as [|x a IH]; intros b w; [reflexivity|]. cbn [write_mcus Datatypes.app]. destruct (write_mcu comps dct act mode p x w); cbn [jbind]; auto. Qed.

Lemma drop_spre w : spre (wc_ops (ws_c w)) (drop_ops w) = w.
Proof. destruct w as [[? ? ? ? ?] ? ? ? ? ? ? ?]. unfold spre, drop_ops, pre. cbn. rewrite app_nil_r. reflexivity. Qed.

(** The rows in two steps. *)
Lemma write_mcus_two comps dct act mode p a b w : write_mcus comps dct act mode p (a ++ b) w =
  let* w1 := write_mcus comps dct act mode p a w in
  jmap (spre (wc_ops (ws_c w1))) (write_mcus comps dct act mode p b (drop_ops w1)).
Proof.
  rewrite write_mcus_app. destruct (write_mcus comps dct act mode p a w) as [w1| |]; cbn [jbind]; try reflexivity.
  rewrite <- write_mcus_pre, drop_spre. reflexivity.
Qed.

(** * The bit writer *)
Definition bpre (C : list (list Z)) (s : bitw) : bitw := mkBW (C ++ bw_chunks s) (bw_cur s) (bw_buf s) (bw_free s) (bw_ok s).
Definition omap {A B} (f : A -> B) (o : option A) : option B := match o with Some a => Some (f a) | None => None end.
Lemma obind_map {A B C D} (f : A -> B) (g : C -> D) o k k' : (forall x, k' (f x) = omap g (k x)) -> obind (omap f o) k' = omap g (obind o k).
Proof. intros H. destruct o as [a|]; [exact (H a)|reflexivity]. Qed.
Lemma reserve_pre C n s : bw_reserve n (bpre C s) = bpre C (bw_reserve n s).
Proof. unfold bw_reserve. cbn [bw_cur bpre]. destruct (_ <? _); [|reflexivity]. unfold bpre. cbn. rewrite app_assoc. reflexivity. Qed.
Lemma bput_pre C b s : bw_put b (bpre C s) = omap (bpre C) (bw_put b s).
Proof. unfold bw_put. cbn [bw_cur bpre]. destruct (_ <? _); reflexivity. Qed.
Lemma bemit_pre C b s : bw_emit b (bpre C s) = omap (bpre C) (bw_emit b s).
Proof. unfold bw_emit. rewrite bput_pre. apply obind_map. intros x. destruct (b =? 255); [apply bput_pre|reflexivity]. Qed.
Lemma bbytes_pre C f buf s : (forall b s, f b (bpre C s) = omap (bpre C) (f b s)) -> bw_bytes f buf (bpre C s) = omap (bpre C) (bw_bytes f buf s).
Proof. intros H. unfold bw_bytes. rewrite H. do 4 (apply obind_map; intros ?; rewrite H). apply obind_map. intros ?. apply H. Qed.
Lemma discharge_pre C s : bw_discharge (bpre C s) = omap (bpre C) (bw_discharge s).
Proof.
  unfold bw_discharge. rewrite reserve_pre. cbv zeta. cbn [bw_buf bpre]. set (x := bw_reserve 12 s).
  destruct (has_zero_byte _); (rewrite bbytes_pre; [|intros; first [apply bemit_pre|apply bput_pre]]); apply obind_map; reflexivity.
Qed.
Lemma bwrite_pre C n v s : bw_write n v (bpre C s) = omap (bpre C) (bw_write n v s).
Proof.
  unfold bw_write. cbn [bw_chunks bw_cur bw_buf bw_free bw_ok bpre]. destruct (n =? 0); [reflexivity|]. cbv zeta. destruct (_ || _); [reflexivity|].
  destruct (_ <=? 16); [|reflexivity]. rewrite <- discharge_pre. reflexivity.
Qed.
Lemma marker_pre C m s : bw_marker m (bpre C s) = omap (bpre C) (bw_marker m s).
Proof. unfold bw_marker. rewrite reserve_pre. cbv zeta. rewrite bput_pre. apply obind_map. intros x. apply bput_pre. Qed.
Lemma drain_pre C : forall f s, bw_drain f (bpre C s) = omap (bpre C) (bw_drain f s).
Proof.
  induction f as [|f IH]; intros s; [reflexivity|]. cbn [bw_drain]. cbn [bw_free bw_buf bpre]. destruct (bw_free s <=? 56); [|reflexivity].
  rewrite bemit_pre. apply obind_map. intros x. rewrite <- IH. reflexivity.
Qed.
Definition wmap {A B} (f : A -> B) (o : wres A) : wres B := match o with WOk a => WOk (f a) | WFail => WFail | WUB => WUB end.
Definition fst' {A B C} (f : A -> C) (x : A * B) : C * B := (f (fst x), snd x).
Lemma jump_pre C pads s : bw_jump pads (bpre C s) = wmap (fst' (bpre C)) (bw_jump pads s).
Proof.
  unfold bw_jump. cbn [bw_free bpre]. cbv zeta. destruct (match pads with None => _ | Some _ => _ end) as [[pat pads']|]; [|reflexivity].
  rewrite reserve_pre, drain_pre. destruct (bw_drain 8 (bw_reserve 16 s)) as [s1|]; cbn [omap]; unfold obind; cbv beta iota; [|reflexivity]. cbn [bw_free bw_buf bpre]. destruct (bw_free s1 <? 64).
  - rewrite bemit_pre. destruct (bw_emit _ s1); reflexivity.
  - reflexivity.
Qed.
Lemma bw_run_pre C : forall ops pads s, bw_run ops pads (bpre C s) = wmap (fst' (bpre C)) (bw_run ops pads s).
Proof.
  induction ops as [|[n v| |m] ops IH]; intros pads s; cbn [bw_run].
  - reflexivity.
  - rewrite bwrite_pre. destruct (bw_write n v s); cbn [omap]; [apply IH|reflexivity].
  - rewrite jump_pre. destruct (bw_jump pads s) as [[s' p']| |]; cbn [wmap fst' fst snd]; auto.
  - rewrite marker_pre. destruct (bw_marker m s); cbn [omap]; [apply IH|reflexivity].
Qed.
Lemma bw_run_app : forall a b pads s, bw_run (a ++ b) pads s = match bw_run a pads s with WOk (s', p') => bw_run b p' s' | WFail => WFail | WUB => WUB end.
Proof.
  induction a as [|[n v| |m] a IH]; intros b pads s; cbn [bw_run Datatypes.app]; [reflexivity|..].
  - destruct (bw_write n v s); [apply IH|reflexivity].
  - destruct (bw_jump pads s) as [[s' p']| |]; auto.
  - destruct (bw_marker m s); [apply IH|reflexivity].
Qed.
Lemma run_ops_app a b pads s : run_ops (a ++ b) pads s = let* (s', p') := run_ops a pads s in run_ops b p' s'.
Proof. unfold run_ops. rewrite bw_run_app. destruct (bw_run a pads s) as [[s' p']| |]; reflexivity. Qed.
Lemma run_ops_pre C ops pads s : run_ops ops pads (bpre C s) = jmap (fst' (bpre C)) (run_ops ops pads s).
Proof. unfold run_ops. rewrite bw_run_pre. destruct (bw_run ops pads s) as [[s' p']| |]; reflexivity. Qed.

(** The health flag is never set again. *)
Definition okle (s s' : bitw) : Prop := bw_ok s' = true -> bw_ok s = true.
Lemma reserve_ok n s : bw_ok (bw_reserve n s) = bw_ok s.
Proof. unfold bw_reserve. destruct (_ <? _); reflexivity. Qed.
Lemma bput_okf b s s' : bw_put b s = Some s' -> bw_ok s' = bw_ok s.
Proof. unfold bw_put. destruct (_ <? _); [|discriminate]. intros E. injection E as <-. reflexivity. Qed.
Lemma bemit_okf b s s' : bw_emit b s = Some s' -> bw_ok s' = bw_ok s.
Proof.
  unfold bw_emit. destruct (bw_put b s) as [s1|] eqn:E; [|discriminate]. unfold obind; cbv beta iota. intros E2. rewrite <- (bput_okf _ _ _ E).
  destruct (b =? 255); [exact (bput_okf _ _ _ E2)|congruence].
Qed.
Lemma bbytes_okf f buf s s' : (forall b s s', f b s = Some s' -> bw_ok s' = bw_ok s) -> bw_bytes f buf s = Some s' -> bw_ok s' = bw_ok s.
Proof.
  intros H. unfold bw_bytes. repeat (let y := fresh "y" in let E := fresh "E" in match goal with |- obind ?e _ = _ -> _ => destruct e as [y|] eqn:E; [|discriminate]; unfold obind at 1; cbv beta iota; apply H in E end).
  intros E'. apply H in E'. congruence.
Qed.
Lemma discharge_okf s s' : bw_discharge s = Some s' -> bw_ok s' = bw_ok s.
Proof.
  unfold bw_discharge. cbv zeta. intros E. rewrite <- (reserve_ok 12 s). set (x := bw_reserve 12 s) in *.
  destruct (if has_zero_byte _ then _ else _) as [y|] eqn:Ey; [|discriminate]. unfold obind in E; cbv beta iota in E. injection E as <-. cbn [bw_ok].
  destruct (has_zero_byte _); [exact (bbytes_okf _ _ _ _ bemit_okf Ey)|exact (bbytes_okf _ _ _ _ bput_okf Ey)].
Qed.
Lemma drain_okf : forall f s s', bw_drain f s = Some s' -> bw_ok s' = bw_ok s.
Proof.
  induction f as [|f IH]; intros s s' E; cbn [bw_drain] in E; [congruence|]. destruct (bw_free s <=? 56); [|congruence].
  destruct (bw_emit _ s) as [s1|] eqn:E1; [|discriminate]. unfold obind in E; cbv beta iota in E. apply IH in E. rewrite E. exact (bemit_okf _ _ _ E1).
Qed.
Lemma jump_okf pads s s' p' : bw_jump pads s = WOk (s', p') -> bw_ok s' = bw_ok s.
Proof.
  unfold bw_jump. cbv zeta. destruct (match pads with None => _ | Some _ => _ end) as [[pat pads']|]; [|discriminate].
  destruct (bw_drain 8 (bw_reserve 16 s)) as [s1|] eqn:E1; unfold obind; cbv beta iota; [|discriminate]. apply drain_okf in E1. rewrite reserve_ok in E1.
  destruct (if bw_free s1 <? 64 then _ else Some s1) as [s2|] eqn:E2; unfold obind; cbv beta iota; [|discriminate]. intros E. injection E as <- <-. cbn [bw_ok]. rewrite <- E1.
  destruct (bw_free s1 <? 64); [exact (bemit_okf _ _ _ E2)|congruence].
Qed.
Lemma bw_run_okle : forall ops pads s s' p', bw_run ops pads s = WOk (s', p') -> okle s s'.
Proof.
  unfold okle. induction ops as [|[n v| |m] ops IH]; intros pads s s' p' E H; cbn [bw_run] in E.
  - injection E as -> _. exact H.
  - destruct (bw_write n v s) as [s1|] eqn:E1; [|discriminate]. specialize (IH _ _ _ _ E H). revert E1 IH. clear. unfold bw_write. destruct (n =? 0).
    + intros E. injection E as <-. cbn. discriminate.
    + cbv zeta. destruct (_ || _); [discriminate|]. destruct (_ <=? 16); intros E.
      * apply discharge_okf in E. cbn [bw_ok] in E. congruence.
      * injection E as <-. auto.
  - destruct (bw_jump pads s) as [[s1 p1]| |] eqn:E1; try discriminate. rewrite <- (jump_okf _ _ _ _ E1). exact (IH _ _ _ _ E H).
  - destruct (bw_marker m s) as [s1|] eqn:E1; [|discriminate]. specialize (IH _ _ _ _ E H). revert E1 IH. clear. unfold bw_marker. cbv zeta.
    rewrite <- (reserve_ok 2 s). destruct (bw_put 255 _) as [y|] eqn:Ey; [|discriminate]. unfold obind; cbv beta iota. intros E2. apply bput_okf in Ey. apply bput_okf in E2. congruence.
Qed.
Lemma run_ops_okle ops pads s s' p' : run_ops ops pads s = JOk (s', p') -> bw_ok s' = true -> bw_ok s = true.
Proof. unfold run_ops. destruct (bw_run ops pads s) as [r| |] eqn:E; try discriminate. intros E2. injection E2 as ->. exact (bw_run_okle _ _ _ _ _ E). Qed.
