(** A scan, a section and a whole run in two steps. *)
From Verif Require Import Base JpegModel JBitModel JHuffModel JSegModel JScanModel JFileModel JReadProofs OutputModel OutputProofs SerialModel SerialSpec SerialProofs1 SerialProofs2.

Lemma jbind_ok {A B} (o : jres A) (f : A -> jres B) b : jbind o f = JOk b -> exists a, o = JOk a /\ f a = JOk b.
Proof. destruct o; try discriminate. eauto. Qed.

Lemma ready_block full n c C i B b' : ready full n c C -> i < n -> aget (c_coeffs C) i = JOk B -> b' = full ->
  exists b, aget (c_coeffs c) i = JOk b /\ same_block b' b B.
Proof.
  intros R Hi E ->. apply aget_Some in E as [H0 E]. destruct (R i B ltac:(lia) E) as (b & Eb & H). exists b. split; [apply aget_Some; auto|exact H].
Qed.
Lemma Forall2_aget {A B} (P : A -> B -> Prop) l L i c C : Forall2 P l L -> aget l i = JOk c -> aget L i = JOk C -> P c C.
Proof.
  intros F E1 E2. apply aget_Some in E1 as [H0 E1]. apply aget_Some in E2 as [_ E2]. revert E1 E2. generalize (Z.to_nat i) as k. clear H0.
  induction F as [|x y l L H F IH]; intros [|k] E1 E2; cbn [nth_error] in *; try discriminate; [congruence|eauto].
Qed.

Lemma scan_mode_dc prog p : ((if prog : bool then True else sp_se p = 63) : Prop) -> want p = false -> scan_mode prog p <> 0.
Proof.
  intros H W. unfold want in W. apply orb_false_iff in W as [W1 W2]. apply negb_false_iff, Z.eqb_eq in W1, W2. unfold scan_mode. destruct prog; [|lia]. cbn [negb orb].
  rewrite W2. change (0 =? 63) with false. rewrite !andb_false_r. destruct (sp_ah p =? 0); discriminate.
Qed.

(** The rows a view allows to be written are the final ones. *)
Lemma rows_same J v prog si restart a last w w' dct act : shaped J -> consistent J v ->
  let p := scan_params prog si restart in
  last = (if (if want p then v_done v else v_done v || v_ac v) then fst (write_dims J p)
          else v_row v * (if sp_inter p then 1 else c_v (base (j_comps J) p))) ->
  (want p = true -> v_done v || v_ac v = true) ->
  write_mcus (j_comps J) dct act (scan_mode prog p) p (mcus_between a last (snd (write_dims J p))) w = JOk w' ->
  write_mcus (j_comps (v_jpeg v)) dct act (scan_mode prog p) p (mcus_between a last (snd (write_dims J p))) w = JOk w'.
Proof.
  intros HS (_ & HF & HD & HN) p Hl Hw. destruct (v_done v) eqn:Dn; [rewrite (HD eq_refl); auto|]. destruct (HN eq_refl) as (R0 & R1 & R2). cbn [orb] in *. fe HF j_comps.
  apply mcus_same; [exact FE|apply scan_mode_dc; destruct prog; [exact I|reflexivity]|].
  intros [y x] Hyx u Hu c C B Ec EC EB. apply in_mcus_between in Hyx as [Hy Hx].
  pose proof (Forall2_aget _ _ _ _ _ _ R2 Ec EC) as H. cbv beta in H.
  assert (BD : fst (y, x) < v_row v * (if sp_inter p then 1 else c_v (base (j_comps J) p)) -> snd u < v_row v * c_v C * c_wb C).
  { intros K. apply (visit_bound J p (v_row v) (y, x) u C); auto. intros I. unfold p, scan_params in I. cbn [sp_inter] in I. unfold p. cbn [scan_params sp_cs]. lia. }
  cbn [fst] in BD. destruct (want p) eqn:W.
  - specialize (Hw eq_refl). rewrite Hw in H. apply (ready_block true _ _ _ _ _ _ (proj2 H)); auto. apply BD. lia.
  - destruct (v_ac v).
    + apply (ready_block false _ _ _ _ _ _ (proj1 H)); auto. exact (proj2 (aget_bound _ _ _ EB)).
    + apply (ready_block false _ _ _ _ _ _ H); auto. apply BD. lia.
Qed.

Lemma rows_below J v p : consistent J v -> shaped J -> v_done v = false -> (sp_inter p = false -> In (base (j_comps J) p) (j_comps J) \/ base (j_comps J) p = no_comp) ->
  v_row v * (if sp_inter p then 1 else c_v (base (j_comps J) p)) <= fst (write_dims J p).
Proof.
  intros (_ & _ & _ & HN) (S1 & S2 & S3 & S4) Dn Hb. destruct (HN Dn) as (R0 & R1 & _). unfold write_dims. cbv zeta. cbn [fst]. fold (base (j_comps J) p). unfold div_ceil.
  destruct (sp_inter p).
  - rewrite !Z.mul_1_r. apply Z.div_le_lower_bound; [lia|]. nia.
  - assert (0 <= c_v (base (j_comps J) p)). { destruct (Hb eq_refl) as [Hi| ->]; [|cbn; lia]. rewrite Forall_forall in S4. destruct (S4 _ Hi) as (_ & K & _). lia. }
    apply Z.div_le_lower_bound; [lia|]. nia.
Qed.
Lemma base_in comps p : In (base comps p) comps \/ base comps p = no_comp.
Proof. unfold base, comp_at. match goal with |- In (nth ?n _ _) _ \/ _ => destruct (Nat.ltb_spec n (length comps)) as [H|H] end; [left; apply nth_In; exact H|right; apply nth_overflow; exact H]. Qed.

Definition rows_done (J : jpeg) (t : wtables) prog p pads sc := scan_rows J t prog p (snd (write_dims J p)) (fst (write_dims J p)) pads sc.

(** Rows in two steps. *)
Lemma scan_rows_two J t prog p cols pads a b sc scF padsF : sc_y sc <= b -> b <= a ->
  scan_rows J t prog p cols a pads sc = JOk (scF, padsF) ->
  exists sc1 pads1 bw, scan_rows J t prog p cols b pads sc = JOk (sc1, pads1) /\ sc_y sc1 = b /\
    scan_rows J t prog p cols a pads1 (drop_chunks sc1) = JOk (mkSC (sc_w scF) bw a, padsF) /\ sc_y scF = a /\
    sc_bw scF = bpre (bw_chunks (sc_bw sc1)) bw /\ (bw_ok (sc_bw scF) = true -> bw_ok (sc_bw sc1) = true).
Proof.
  intros H1 H2 E. unfold scan_rows in *. rewrite (mcus_between_split _ b _ _ H1 H2), write_mcus_two in E.
  destruct (write_mcus _ _ _ _ _ (mcus_between (sc_y sc) b cols) (sc_w sc)) as [w1| |]; cbn [jbind] in *; try discriminate.
  destruct (write_mcus _ _ _ _ _ (mcus_between b a cols) (drop_ops w1)) as [w2| |] eqn:E2; cbn [jmap jbind] in E; try discriminate.
  change (wc_ops (ws_c (spre (wc_ops (ws_c w1)) w2))) with (wc_ops (ws_c w1) ++ wc_ops (ws_c w2)) in E. rewrite run_ops_app in E.
  destruct (run_ops (wc_ops (ws_c w1)) pads (sc_bw sc)) as [[bw1 pads1]| |]; cbn [jbind] in *; try discriminate.
  destruct (run_ops (wc_ops (ws_c w2)) pads1 bw1) as [[bw2 pads2]| |] eqn:E3; cbn [jbind] in *; try discriminate.
  injection E as <- <-. set (bw1' := mkBW [] (bw_cur bw1) (bw_buf bw1) (bw_free bw1) (bw_ok bw1)).
  assert (B1 : bw1 = bpre (bw_chunks bw1) bw1') by (destruct bw1; unfold bpre, bw1'; cbn; rewrite app_nil_r; reflexivity).
  pose proof E3 as E3'. rewrite B1, run_ops_pre in E3'. destruct (run_ops (wc_ops (ws_c w2)) pads1 bw1') as [[bw2' p2]| |] eqn:E4; cbn [jmap fst' fst snd] in E3'; try discriminate.
  injection E3' as <- <-. exists (mkSC (drop_ops w1) bw1 (Z.max (sc_y sc) b)), pads1, bw2'. replace (Z.max (sc_y sc) b) with b by lia. replace (Z.max (sc_y sc) a) with a by lia.
  cbn [sc_y sc_bw sc_w drop_chunks]. split; [reflexivity|]. split; [reflexivity|]. fold bw1'. rewrite E2. cbn [jbind]. rewrite E4. cbn [jbind]. replace (Z.max b a) with a by lia.
  split; [reflexivity|]. split; [reflexivity|]. split; [reflexivity|]. exact (run_ops_okle _ _ _ _ _ E3).
Qed.

Lemma scan_end_pre C pads sc bw : sc_bw sc = bpre C bw -> scan_end pads sc = jmap (fst' (bpre C)) (scan_end pads (mkSC (sc_w sc) bw (sc_y sc))).
Proof. intros H. unfold scan_end. cbn [sc_w sc_bw]. rewrite H. destruct (flush _); cbn [jbind jmap]; try reflexivity. apply run_ops_pre. Qed.
Lemma scan_end_okle pads sc bw pads' : scan_end pads sc = JOk (bw, pads') -> bw_ok bw = true -> bw_ok (sc_bw sc) = true.
Proof. unfold scan_end. intros E. apply jbind_ok in E as (st & _ & E). exact (run_ops_okle _ _ _ _ _ E). Qed.

(** The rest of a scan, all coefficients being there. *)
Definition finish (J : jpeg) (t : wtables) (prog : bool) (p : scanpar) (pads : option (list Z)) (sc : scanst) : jres (list (list Z) * option (list Z)) :=
  let* (sc, pads) := scan_rows J t prog p (snd (write_dims J p)) (fst (write_dims J p)) pads sc in
  let* (bw, pads) := scan_end pads sc in
  if negb (bw_ok bw) then JErr else JOk (bw_chunks bw ++ [bw_cur bw], pads).

Definition scan_open (J : jpeg) (s : sfile) (si : scaninfo) (restart : Z) : jres (list (list Z) * scanst) :=
  match sf_cur s with
  | Some sc => JOk ([], sc)
  | None => let* (h, sc) := scan_head J si restart in JOk ([h], sc)
  end.

Lemma rows_y J t prog p cols last pads sc sc1 pads1 : scan_rows J t prog p cols last pads sc = JOk (sc1, pads1) -> sc_y sc1 = Z.max (sc_y sc) last.
Proof. unfold scan_rows. intros E. apply jbind_ok in E as (w & _ & E). apply jbind_ok in E as ([bw q] & _ & E). injection E as <- _. reflexivity. Qed.

Lemma done_scan J s : encode_scan (done_view J) s =
  match nth_error (j_scans J) (sf_scan s) with
  | None => JUB
  | Some si =>
      let restart := if sf_dri s then j_restart J else 0 in
      let p := scan_params (sf_prog s) si restart in
      let* (head, sc) := scan_open J s si restart in
      let* (l, pads) := finish J (sf_tabs s) (sf_prog s) p (sf_pads s) sc in
      JOk (head ++ l, (with_scan s (S (sf_scan s)) pads None, true))
  end.
Proof.
  unfold encode_scan. cbv zeta. cbn [v_jpeg v_done v_ac v_row done_view orb]. destruct (nth_error (j_scans J) (sf_scan s)) as [si|]; [|reflexivity].
  set (restart := if sf_dri s then j_restart J else 0). set (p := scan_params (sf_prog s) si restart). fold (scan_open J s si restart).
  destruct (scan_open J s si restart) as [[head sc]| |]; cbn [jbind]; try reflexivity. change (negb true) with false. rewrite andb_false_r. fold (want p).
  replace (if want p then true else true) with true by (destruct (want p); reflexivity). unfold finish.
  destruct (scan_rows J _ _ p _ _ _ sc) as [[sc1 pads1]| |] eqn:ER; cbn [jbind]; try reflexivity. apply rows_y in ER.
  assert (sc_y sc1 <? fst (write_dims J p) = false) as -> by lia. destruct (scan_end pads1 sc1) as [[bw pads2]| |]; cbn [jbind]; try reflexivity.
  destruct (negb (bw_ok bw)); reflexivity.
Qed.

Lemma finish_two J t prog p pads b sc l padsF : sc_y sc <= b -> b <= fst (write_dims J p) -> finish J t prog p pads sc = JOk (l, padsF) ->
  exists sc1 pads1 l2, scan_rows J t prog p (snd (write_dims J p)) b pads sc = JOk (sc1, pads1) /\ sc_y sc1 = b /\ bw_ok (sc_bw sc1) = true /\
    finish J t prog p pads1 (drop_chunks sc1) = JOk (l2, padsF) /\ concat (bw_chunks (sc_bw sc1)) ++ concat l2 = concat l.
Proof.
  intros H1 H2 E. unfold finish in E. apply jbind_ok in E as ([scF pF] & ER & E). apply jbind_ok in E as ([bw pE] & EE & E). destruct (bw_ok bw) eqn:Ok; cbn [negb] in E; [|discriminate].
  injection E as <- <-. destruct (scan_rows_two _ _ _ _ _ _ _ _ _ _ _ H1 H2 ER) as (sc1 & pads1 & bw1 & A & B & C & D & F & G).
  pose proof (scan_end_okle _ _ _ _ EE Ok) as OkF. rewrite (scan_end_pre _ _ _ _ F) in EE.
  destruct (scan_end pF (mkSC (sc_w scF) bw1 (sc_y scF))) as [[bw2 p2]| |] eqn:E2; cbn [jmap] in EE; try discriminate. cbv beta delta [fst'] in EE. cbn [fst snd] in EE. injection EE as <- <-.
  exists sc1, pads1, (bw_chunks bw2 ++ [bw_cur bw2]). split; [exact A|]. split; [exact B|]. split; [exact (G OkF)|]. split.
  - unfold finish. rewrite C. cbn [jbind]. rewrite <- D, E2. cbn [jbind]. change (bw_ok bw2) with (bw_ok (bpre (bw_chunks (sc_bw sc1)) bw2)). rewrite Ok. reflexivity.
  - cbn [bpre bw_chunks bw_cur]. rewrite !concat_app, app_assoc. reflexivity.
Qed.

Lemma rows_past J t prog p cols last last' pads sc : last <= sc_y sc -> last' <= sc_y sc -> scan_rows J t prog p cols last pads sc = scan_rows J t prog p cols last' pads sc.
Proof. intros H H'. unfold scan_rows. rewrite !mcus_between_nil by assumption. replace (Z.max (sc_y sc) last') with (Z.max (sc_y sc) last) by lia. reflexivity. Qed.

Lemma scan_two J v s cs s' : shaped J -> consistent J v -> encode_scan (done_view J) s = JOk (cs, (s', true)) ->
  (encode_scan v s = JOk (cs, (s', true))) \/
  exists cs1 s1 cs2, encode_scan v s = JOk (cs1, (s1, false)) /\ encode_scan (done_view J) s1 = JOk (cs2, (s', true)) /\ concat cs1 ++ concat cs2 = concat cs.
Proof.
  intros HS HC E. pose proof HC as (_ & HF & HD & _). rewrite done_scan in E. unfold encode_scan at 1 2. cbv zeta in *.
  fe HF j_scans. rewrite FE. destruct (nth_error (j_scans J) (sf_scan s)) as [si|] eqn:ES; [|discriminate]. fe HF j_restart. rewrite FE0.
  set (restart := if sf_dri s then j_restart J else 0) in *. set (p := scan_params (sf_prog s) si restart) in *.
  replace (scan_head (v_jpeg v) si restart) with (scan_head J si restart); [|unfold scan_head; rewrite (write_sos_frame _ _ _ HF); reflexivity].
  fold (scan_open J s si restart). apply jbind_ok in E as ([head sc] & EH & E). rewrite EH. cbn [jbind] in *. apply jbind_ok in E as ([l padsF] & EF & E). injection E as <- <-.
  rewrite (write_dims_frame _ _ _ HF). fold (base (j_comps (v_jpeg v)) p) (want p). fe HF j_comps.
  assert (BV : c_v (base (j_comps (v_jpeg v)) p) = c_v (base (j_comps J) p)). { pose proof (frame_comp_at _ _ (match sp_cs p with x :: _ => cs_comp x | [] => 0 end) FE1) as K. apply comp_frame_inj in K as (_ & _ & K & _). exact K. }
  rewrite BV. destruct (want p && negb (v_done v || v_ac v)) eqn:WN.
  { right. eexists head, _, l. split; [reflexivity|]. split; [|rewrite concat_app; reflexivity]. rewrite done_scan. cbn [with_scan sf_scan sf_dri sf_prog sf_tabs sf_pads]. rewrite ES. fold restart. cbv zeta. fold p.
    unfold scan_open. cbn [with_scan sf_cur jbind]. fold p. rewrite EF. reflexivity. }
  set (last := if (if want p then v_done v else v_done v || v_ac v) then fst (write_dims J p) else v_row v * (if sp_inter p then 1 else c_v (base (j_comps J) p))).
  assert (LL : last <= fst (write_dims J p)).
  { unfold last. destruct (if want p then v_done v else v_done v || v_ac v) eqn:CC; [lia|]. apply rows_below; auto; [|intros _; apply base_in].
    destruct (want p); [exact CC|]. apply orb_false_iff in CC. tauto. }
  assert (LIFT : forall r, scan_rows J (sf_tabs s) (sf_prog s) p (snd (write_dims J p)) last (sf_pads s) sc = JOk r -> scan_rows (v_jpeg v) (sf_tabs s) (sf_prog s) p (snd (write_dims J p)) last (sf_pads s) sc = JOk r).
  { intros r ER. unfold scan_rows in *. apply jbind_ok in ER as (w & ER & ER2).
    pose proof (rows_same J v (sf_prog s) si restart (sc_y sc) last (sc_w sc) w (wt_dc (sf_tabs s)) (wt_ac (sf_tabs s)) HS HC eq_refl) as K. cbv zeta in K. fold p in K.
    rewrite K; [exact ER2| |exact ER]. intros W. rewrite W in WN. destruct (v_done v || v_ac v); [reflexivity|discriminate]. }
  assert (END : scan_rows J (sf_tabs s) (sf_prog s) p (snd (write_dims J p)) last (sf_pads s) sc = scan_rows J (sf_tabs s) (sf_prog s) p (snd (write_dims J p)) (fst (write_dims J p)) (sf_pads s) sc ->
     fst (write_dims J p) <= Z.max (sc_y sc) last ->
     (let* (sc0, pads) := scan_rows (v_jpeg v) (sf_tabs s) (sf_prog s) p (snd (write_dims J p)) last (sf_pads s) sc in
       if sc_y sc0 <? fst (write_dims J p) then if negb (bw_ok (sc_bw sc0)) then JErr else JOk (head ++ bw_chunks (sc_bw sc0), (with_scan s (sf_scan s) pads (Some (drop_chunks sc0)), false))
       else let* (bw, pads0) := scan_end pads sc0 in if negb (bw_ok bw) then JErr else JOk (head ++ bw_chunks bw ++ [bw_cur bw], (with_scan s (S (sf_scan s)) pads0 None, true)))
      = JOk (head ++ l, (with_scan s (S (sf_scan s)) padsF None, true))).
  { intros EQ GE. unfold finish in EF. rewrite <- EQ in EF. apply jbind_ok in EF as ([sc1 pads1] & ER & EF). rewrite (LIFT _ ER). cbn [jbind]. apply rows_y in ER.
    assert (sc_y sc1 <? fst (write_dims J p) = false) as -> by lia. apply jbind_ok in EF as ([bw pads2] & EE & EF). rewrite EE. cbn [jbind]. destruct (negb (bw_ok bw)); [discriminate|]. injection EF as <- <-. reflexivity. }
  destruct (Z_le_gt_dec (fst (write_dims J p)) (sc_y sc)) as [GE|LT].
  { left. apply END; [apply rows_past; lia|lia]. }
  destruct (Z.eq_dec last (fst (write_dims J p))) as [EL|NL].
  { left. apply END; [rewrite EL; reflexivity|lia]. }
  right. destruct (finish_two J (sf_tabs s) (sf_prog s) p (sf_pads s) (Z.max (sc_y sc) last) sc l padsF ltac:(lia) ltac:(lia) EF) as (sc1 & pads1 & l2 & A & B & C & D & F).
  assert (A' : scan_rows J (sf_tabs s) (sf_prog s) p (snd (write_dims J p)) last (sf_pads s) sc = JOk (sc1, pads1)).
  { destruct (Z_le_gt_dec last (sc_y sc)); [rewrite (rows_past _ _ _ _ _ last (Z.max (sc_y sc) last)) by lia; exact A|]. replace (Z.max (sc_y sc) last) with last in A by lia. exact A. }
  rewrite (LIFT _ A'). cbn [jbind]. assert (sc_y sc1 <? fst (write_dims J p) = true) as -> by lia. rewrite C. cbn [negb]. eexists _, _, l2. split; [reflexivity|]. split.
  - rewrite done_scan. cbn [with_scan sf_scan sf_dri sf_prog sf_tabs sf_pads]. rewrite ES. fold restart. cbv zeta. fold p. unfold scan_open. cbn [with_scan sf_cur jbind]. rewrite D. reflexivity.
  - rewrite concat_app, <- app_assoc, F, concat_app. reflexivity.
Qed.

Lemma encode_two J v s m cs s' : shaped J -> consistent J v -> encode_section (done_view J) s m = JOk (cs, (s', true)) ->
  (encode_section v s m = JOk (cs, (s', true))) \/
  exists cs1 s1 cs2, encode_section v s m = JOk (cs1, (s1, false)) /\ encode_section (done_view J) s1 m = JOk (cs2, (s', true)) /\ concat cs1 ++ concat cs2 = concat cs.
Proof.
  intros HS HC E. unfold encode_section in *. destruct (Z.eqb_spec m 218) as [->|Hm]; [apply scan_two; auto|]. left. pose proof HC as (_ & HF & _).
  cbn [v_jpeg done_view] in E. rewrite (wfile_of_frame _ _ _ HF), (section_frame _ _ _ _ HF Hm). apply jbind_ok in E as ([out w] & E1 & E). rewrite E1. cbn [jbind]. rewrite (sfile_of_frame _ _ _ HF). exact E.
Qed.

Lemma real_two J v st m cs st' : shaped J -> consistent J v -> real_section (done_view J) st m = (cs, st', SecDone) ->
  (real_section v st m = (cs, st', SecDone)) \/
  exists cs1 st1 cs2, real_section v st m = (cs1, st1, SecNeedInput) /\ real_section (done_view J) st1 m = (cs2, st', SecDone) /\ concat cs1 ++ concat cs2 = concat cs.
Proof.
  intros HS HC E. unfold real_section in *. destruct st as [|s|]; [| |discriminate]; cbn [v_jpeg done_view] in E; pose proof HC as (_ & HF & _).
  - rewrite (sfile_init_frame _ _ HF). destruct (encode_section (done_view J) (sfile_init J) m) as [[c [s1 [|]]]| |] eqn:E1; try discriminate. injection E as <- <-.
    destruct (encode_two _ _ _ _ _ _ HS HC E1) as [->|(c1 & s2 & c2 & -> & B & C)]; [left; reflexivity|]. right. exists c1, (SRun s2), c2. rewrite B. auto.
  - destruct (encode_section (done_view J) s m) as [[c [s1 [|]]]| |] eqn:E1; try discriminate. injection E as <- <-.
    destruct (encode_two _ _ _ _ _ _ HS HC E1) as [->|(c1 & s2 & c2 & -> & B & C)]; [left; reflexivity|]. right. exists c1, (SRun s2), c2. rewrite B. auto.
Qed.

Lemma emit_two J v : shaped J -> consistent J v -> forall ms idx st p, emit_sections real_serializer (done_view J) ms idx st = (KEnd, p, GDone) ->
  (emit_sections real_serializer v ms idx st = (KEnd, p, GDone)) \/
  exists p1 k st1 p2, emit_sections real_serializer v ms idx st = (KNeed, p1, GSection (idx + k) st1) /\ (k < length ms)%nat /\
    emit_sections real_serializer (done_view J) (skipn k ms) (idx + k) st1 = (KEnd, p2, GDone) /\ p1 ++ p2 = p.
Proof.
  intros HS HC. induction ms as [|m ms IH]; intros idx st p E; cbn [emit_sections] in *; [left; exact E|]. cbn [sr_section real_serializer] in *.
  destruct (real_section (done_view J) st m) as [[cs st'] [| |]] eqn:E1; try discriminate.
  destruct (emit_sections real_serializer (done_view J) ms (S idx) st') as [[k0 o0] g0] eqn:E2. injection E as -> <- ->.
  destruct (real_two _ _ _ _ _ _ HS HC E1) as [E3|(cs1 & st1 & cs2 & E3 & E4 & E5)]; rewrite E3.
  - destruct (IH _ _ _ E2) as [F|(p1 & k & st1 & p2 & F & L & F2 & F3)]; rewrite F; [left; reflexivity|]. right. exists (concat cs ++ p1), (S k), st1, p2.
    rewrite Nat.add_succ_r. split; [reflexivity|]. split; [cbn; lia|]. split; [exact F2|]. rewrite <- app_assoc, F3. reflexivity.
  - right. exists (concat cs1), 0%nat, st1, (concat cs2 ++ o0). rewrite Nat.add_0_r. split; [reflexivity|]. split; [cbn; lia|]. split; [|rewrite app_assoc, E5; reflexivity].
    cbn [skipn emit_sections sr_section real_serializer]. rewrite E4, E2. reflexivity.
Qed.
