(** Whole files: reading never leaves an array, and what was read is written back. *)
From Coq Require Import ZArith List Bool Lia.
From Verif Require Import Base JpegModel LehmerModel CoefModel JBitModel JWriteProofs JReadProofs JHuffModel JHuffProofs JHuffPair
  JScanModel JScanProofs1 JScanProofs2 JScanProofs3 JScanProofs4 JScanProofs5 JScanProofs6 JScanProofs7 JScanProofs8 JScanProofs9 JScanProofs10
  PropsJpegScan JSegModel JSegProofs1 JSegProofs2 JFileModel.
Import ListNotations.
Local Open Scope Z_scope.

(** * The writer does not look at the quantization table indices in a scan *)
Definition fixed_data (c c' : component) : Prop :=
  c_h c' = c_h c /\ c_v c' = c_v c /\ c_wb c' = c_wb c /\ c_hb c' = c_hb c /\ c_coeffs c' = c_coeffs c.

Lemma Forall2_aget {A B} (R : A -> B -> Prop) a b i : Forall2 R a b ->
  match aget a i, aget b i with JOk x, JOk y => R x y | JUB, JUB => True | _, _ => False end.
Proof.
  intros F. unfold aget. destruct (i <? 0); [exact Logic.I|]. generalize (Z.to_nat i). clear i.
  induction F as [|x y a b H F IH]; intros [|n]; cbn [nth_error]; auto; exact (IH n).
Qed.

Lemma fixed_comp_at a b i : Forall2 fixed_data a b -> fixed_data (comp_at a i) (comp_at b i).
Proof.
  intros F. unfold comp_at. generalize (Z.to_nat i). clear i. induction F as [|x y a b H F IH]; intros [|n]; cbn [nth]; auto; repeat split.
Qed.

Lemma mcu_visits_fixed a b cs i yx : Forall2 fixed_data a b -> mcu_visits b cs i yx = mcu_visits a cs i yx.
Proof.
  intros F. unfold mcu_visits. destruct yx as [y x]. apply flat_map_ext_all. intros si.
  destruct (fixed_comp_at a b (cs_comp si) F) as (E1 & E2 & E3 & _). rewrite E1, E2, E3. reflexivity.
Qed.

Lemma write_visits_fixed a b dct act mode p : Forall2 fixed_data a b -> forall vs w, write_visits b dct act mode p vs w = write_visits a dct act mode p vs w.
Proof.
  intros F. induction vs as [|v vs IH]; intros w; [reflexivity|]. cbn [write_visits].
  replace (write_visit b dct act mode p v w) with (write_visit a dct act mode p v w).
  - destruct (write_visit a dct act mode p v w); cbn [jbind]; [apply IH|reflexivity|reflexivity].
  - unfold write_visit. cbv zeta. pose proof (Forall2_aget _ _ _ (cs_comp (fst v)) F) as H. destruct (aget a (cs_comp (fst v))), (aget b (cs_comp (fst v))); try contradiction; cbn [jbind]; [|reflexivity].
    destruct H as (_ & _ & _ & _ & H). rewrite H. reflexivity.
Qed.

Lemma write_mcus_fixed a b dct act mode p : Forall2 fixed_data a b -> forall ms w, write_mcus b dct act mode p ms w = write_mcus a dct act mode p ms w.
Proof.
  intros F. Transparent write_mcus. induction ms as [|m ms IH]; intros w; [reflexivity|]. cbn [write_mcus].
  replace (write_mcu b dct act mode p m w) with (write_mcu a dct act mode p m w).
  - destruct (write_mcu a dct act mode p m w); cbn [jbind]; [apply IH|reflexivity|reflexivity].
  - unfold write_mcu. destruct (write_restart p w); cbn [jbind]; [|reflexivity|reflexivity].
    rewrite (mcu_visits_fixed _ _ _ _ _ F), (write_visits_fixed _ _ _ _ _ _ F). reflexivity.
Qed.

Lemma write_scan_data_fixed jF J dct act pr si restart pads : Forall2 fixed_data (j_comps jF) (j_comps J) ->
  j_width J = j_width jF -> j_height J = j_height jF -> j_max_h J = j_max_h jF -> j_max_v J = j_max_v jF ->
  write_scan_data J dct act pr si restart pads = write_scan_data jF dct act pr si restart pads.
Proof.
  intros F E1 E2 E3 E4. unfold write_scan_data, write_scan_ops. cbv zeta.
  replace (write_dims J (scan_params pr si restart)) with (write_dims jF (scan_params pr si restart)).
  - destruct (pop_reset (si_resets si)) as [nr resets]. rewrite (write_mcus_fixed _ _ _ _ _ _ F). reflexivity.
  - unfold write_dims. cbv zeta. destruct (fixed_comp_at _ _ (match sp_cs (scan_params pr si restart) with s :: _ => cs_comp s | [] => 0 end) F) as (G1 & G2 & _).
    rewrite G1, G2, E1, E2, E3, E4. reflexivity.
Qed.

(** * Markers *)
Lemma find_marker_ok data : forall fuel pos sk, 0 <= pos <= Z.of_nat (length data) -> Z.of_nat (length data) < pos + Z.of_nat fuel ->
  jpost (find_marker fuel data pos sk) (fun n => sk <= n /\ pos + (n - sk) <= Z.of_nat (length data)
    /\ (no_marker data pos -> Z.of_nat (length data) < pos + (n - sk) + 2)).
Proof.
  induction fuel as [|fuel IH]; intros pos sk Hp Hf; [lia|]. cbn [find_marker].
  destruct (Z.ltb_spec (pos + 1) (Z.of_nat (length data))) as [Hl|Hl]; [|cbn [jpost]; split; [lia|]; split; [lia|]; intros; lia].
  apply jpost_aget; [lia|]. intros a EA. apply jpost_aget; [lia|]. intros b EB.
  destruct (Z.eqb_spec a 255) as [->|NA]; cbn [negb orb].
  - destruct (valid_marker b) eqn:V; cbn [negb].
    + cbn [jpost]. split; [lia|]. split; [lia|]. intros NM. specialize (NM pos b ltac:(lia) EA EB). subst b. discriminate V.
    + eapply jpost_weaken; [apply IH; lia|]. intros n (H1 & H2 & H3). split; [lia|]. split; [lia|]. intros NM.
      assert (NM' : no_marker data (pos + 1)) by (intros i m Hi; apply NM; lia). specialize (H3 NM'). lia.
  - eapply jpost_weaken; [apply IH; lia|]. intros n (H1 & H2 & H3). split; [lia|]. split; [lia|]. intros NM.
    assert (NM' : no_marker data (pos + 1)) by (intros i m Hi; apply NM; lia). specialize (H3 NM'). lia.
Qed.

Lemma read_inter_ok data pos st : 0 <= pos <= Z.of_nat (length data) ->
  jpost (read_inter data pos st) (fun r => pos <= snd r <= Z.of_nat (length data) /\ (no_marker data pos -> Z.of_nat (length data) < snd r + 2)
    /\ ((fst r = st /\ snd r = pos) \/ exists s, fst r = with_j st (add_inter (add_marker (rf_j st) 255) s) /\ sl data pos s /\ snd r = pos + Z.of_nat (length s))).
Proof.
  intros Hp. unfold read_inter. eapply jpost_bind; [apply (find_marker_ok data (S (length data)) pos 0); lia|]. intros n (H1 & H2 & H3).
  destruct (Z.ltb_spec 0 n) as [Hn|Hn].
  - assert (E : exists s, slice data pos n = JOk s).
    { unfold slice. destruct (Z.leb_spec 0 pos); [|lia]. destruct (Z.leb_spec 0 n); [|lia]. destruct (Z.leb_spec (pos + n) (Z.of_nat (length data))); [|lia]. cbn [andb]. eauto. }
    destruct E as [s E]. rewrite E. cbn [jbind jpost fst snd]. apply slice_sl in E as [S1 S2]. split; [lia|]. split; [intros NM; specialize (H3 NM); lia|].
    right. exists s. split; [reflexivity|]. split; [exact S1|lia].
  - cbn [jpost fst snd]. split; [lia|]. split; [intros NM; specialize (H3 NM); lia|]. left. auto.
Qed.

Lemma expect_marker_ok data pos : 0 <= pos ->
  jpost (expect_marker data pos) (fun m => pos + 2 <= Z.of_nat (length data) /\ aget data pos = JOk 255 /\ aget data (pos + 1) = JOk m).
Proof.
  intros Hp. unfold expect_marker. apply jpost_guard. intros G. apply has_len_true in G. apply jpost_aget; [lia|]. intros a EA.
  apply jpost_guard. intros G2. apply Z.eqb_eq in G2. subst a.
  rewrite (aget_nth data (pos + 1)) by lia. cbn [jpost]. auto.
Qed.

(** * Invariants *)
Definition tb_of (st : rfile) : tables := mkTB (rf_dcl st) (rf_acl st) (j_huff (rf_j st)).

Definition rinv (full : bool) (st : rfile) : Prop :=
  saneT (tb_of st) /\ masks_ok (rf_masks st) /\ (length (j_quant (rf_j st)) <= 4)%nat
  /\ 1 <= j_max_h (rf_j st) /\ 1 <= j_max_v (rf_j st)
  /\ (rf_sof st = false -> j_comps (rf_j st) = [] /\ rf_masks st = nothing_read)
  /\ (full = true -> rf_sof st = true -> frame_ok (rf_j st) /\ coefs_inv (rf_masks st) (j_comps (rf_j st)))
  /\ (rf_dri st = false -> j_restart (rf_j st) = 0)
  /\ (full = true -> exists w, paired (tb_of st) w)
  /\ j_version (rf_j st) = 2 /\ j_tail (rf_j st) = [].

(** [jF] is a possible result of reading on from [st]. *)
Definition ext (st : rfile) (jF : jpeg) : Prop :=
  (exists l, j_huff jF = j_huff (rf_j st) ++ l) /\ (exists l, j_quant jF = j_quant (rf_j st) ++ l)
  /\ (exists l, j_app jF = j_app (rf_j st) ++ l) /\ (exists l, j_com jF = j_com (rf_j st) ++ l)
  /\ (exists l, j_inter jF = j_inter (rf_j st) ++ l) /\ (exists l, j_scans jF = j_scans (rf_j st) ++ l)
  /\ (exists pb, j_padding jF = j_padding (rf_j st) ++ map b2z pb
        /\ j_zero_pad jF = (j_zero_pad (rf_j st) || negb (forallb (fun b => b) pb))%bool)
  /\ (rf_dri st = true -> j_restart jF = j_restart (rf_j st))
  /\ (rf_sof st = true -> same_image (rf_j st) jF /\ same_shape (j_comps (rf_j st)) (j_comps jF)
        /\ agreeM (rf_masks st) (j_comps (rf_j st)) (j_comps jF)).

(** The writer, having written what was read up to [st]. *)
Definition wmatch (jF : jpeg) (st : rfile) (w : wfile) : Prop :=
  j_huff jF = j_huff (rf_j st) ++ wf_huff w /\ j_quant jF = j_quant (rf_j st) ++ wf_quant w
  /\ j_app jF = j_app (rf_j st) ++ wf_app w /\ j_com jF = j_com (rf_j st) ++ wf_com w
  /\ j_inter jF = j_inter (rf_j st) ++ wf_inter w /\ j_scans jF = j_scans (rf_j st) ++ wf_scans w
  /\ paired (tb_of st) (wf_tabs w) /\ wf_dri w = rf_dri st /\ wf_prog w = rf_prog st
  /\ exists pb, j_padding jF = j_padding (rf_j st) ++ map b2z pb /\ wf_pads w = padsof (j_zero_pad jF) (map b2z pb).

(** What ReadJpeg does at the end. *)
Definition final (jF J : jpeg) (tail : list Z) : Prop :=
  exists comps, J = set_comps (set_tail jF tail) comps
    /\ Forall2 (fun c c' => fixed (j_quant jF) c c' /\ fixed_data c c') (j_comps jF) comps.

Lemma fixed_shape q a b c : map geo a = map geo b -> Forall2 (fixed q) b c -> Forall2 (fixed q) a c.
Proof.
  intros E F. revert a E. induction F as [|x y b c H F IH]; intros [|z a] E; cbn [map] in E; try discriminate; [constructor|].
  injection E as E1 E2 E3 E4 E5 E6 E7. constructor; [|apply IH; assumption].
  destruct H as (H1 & H2 & H3 & q0 & H4 & H5). split; [congruence|]. split; [congruence|]. split; [congruence|]. exists q0. split; congruence.
Qed.

Lemma final_fixed jF J tail : final jF J tail -> Forall2 (fixed (j_quant jF)) (j_comps jF) (j_comps J) /\ Forall2 fixed_data (j_comps jF) (j_comps J).
Proof.
  intros (comps & -> & F). cbn [set_comps j_comps]. split.
  - clear - F. induction F as [|x y a b [H1 H2] F IH]; constructor; auto.
  - clear - F. induction F as [|x y a b [H1 H2] F IH]; constructor; auto.
Qed.

Lemma fixed_ids q a b : Forall2 (fixed q) a b -> map c_id b = map c_id a.
Proof. intros F. induction F as [|x y a b (H & _) F IH]; [reflexivity|]. cbn [map]. congruence. Qed.

Lemma geo_ids a b : map geo a = map geo b -> map c_id a = map c_id b.
Proof. revert b. induction a as [|x a IH]; intros [|y b] E; cbn [map] in *; try discriminate; [reflexivity|]. injection E as E1 E2 E3 E4 E5 E6 E7. f_equal; auto. Qed.

Lemma paired_tabs st w p cs : paired (tb_of st) w -> Forall (fun c => 0 <= cs_dc c <= 3 /\ 0 <= cs_ac c <= 3) cs ->
  Forall (tabs_ok (rf_dcl st) (rf_acl st) (wt_dc w) (wt_ac w) p) cs.
Proof.
  intros [[_ D] [_ A]] F. eapply Forall_impl; [|exact F]. intros c [H1 H2].
  destruct (D _ H1) as (l1 & t1 & D1 & D2 & D3 & _). destruct (A _ H2) as (l2 & t2 & A1 & A2 & A3 & _). exists l1, l2, t1, t2. auto 10.
Qed.

(** * One segment *)

Lemma blank_comps_inv w h mh mv comps : sof_spec true w h mh mv comps -> coefs_inv nothing_read comps.
Proof.
  intros [_ _ _ _ _ F] cb [H1 H2].
  assert (E : blk comps cb = repeat 0 64).
  { rewrite Forall_forall in F. assert (HI : In (comp_at comps (fst cb)) comps) by (apply nth_In; lia).
    destruct (F _ HI) as (_ & _ & _ & _ & EC). unfold blk. rewrite EC in *. rewrite repeat_length in H2. 
    apply (repeat_spec (Z.to_nat (c_wb (comp_at comps (fst cb)) * c_hb (comp_at comps (fst cb))))). apply nth_In. rewrite repeat_length. lia. }
  rewrite E. split; [reflexivity|]. intros k Hk. rewrite mask_nothing, zat_zero. split; [reflexivity|]. split; [intros; apply Z.divide_0_r|].
  unfold i16. split; lia.
Qed.

Lemma sof_frame j w h mh mv comps : sof_spec true w h mh mv comps ->
  frame_ok (with_frame j w h mh mv (div_ceil h (mv * 8)) (div_ceil w (mh * 8)) comps).
Proof.
  intros [W H MH MV N F]. constructor; cbn [with_frame j_width j_height j_comps j_max_h j_max_v j_mcu_rows j_mcu_cols]; try lia.
  - f_equal. lia.
  - f_equal. lia.
  - intros c HI. rewrite Forall_forall in F. destruct (F c HI) as (A1 & A2 & A3 & A4 & A5). split; [exact A1|]. split; [exact A2|]. split; [exact A3|]. split; [exact A4|].
    rewrite A5, repeat_length, Z2Nat.id; [reflexivity|]. rewrite A3, A4. 
    assert (0 <= div_ceil w (mh * 8)) by (unfold div_ceil; apply Z.div_pos; lia). assert (0 <= div_ceil h (mv * 8)) by (unfold div_ceil; apply Z.div_pos; lia). nia.
Qed.

Lemma write_app J marker w : 224 <= marker <= 239 -> write_section J marker w =
  match wf_app w with
  | [] => JErr
  | s :: l => JOk (255 :: s, mkWF (wf_huff w) (wf_quant w) l (wf_com w) (wf_inter w) (wf_scans w) (wf_tabs w) (wf_dri w) (wf_prog w) (wf_pads w))
  end.
Proof.
  intros H. assert (B : forall a b, b < 224 -> between marker a b = false).
  { intros a b Hb. unfold between. destruct (Z.leb_spec marker b); [lia|]. apply andb_false_r. }
  assert (Q : forall k, k < 224 -> (marker =? k) = false) by (intros; apply Z.eqb_neq; lia).
  unfold write_section. rewrite !B, !Q by lia. cbn [orb]. unfold between. destruct (Z.leb_spec 224 marker); [|lia]. destruct (Z.leb_spec marker 239); [|lia]. reflexivity.
Qed.

Lemma write_inter J w s l : wf_inter w = s :: l -> write_section J 255 w =
  JOk (s, mkWF (wf_huff w) (wf_quant w) (wf_app w) (wf_com w) l (wf_scans w) (wf_tabs w) (wf_dri w) (wf_prog w) (wf_pads w)).
Proof. intros E. transitivity (match wf_inter w with [] => JErr | s :: l => JOk (s, mkWF (wf_huff w) (wf_quant w) (wf_app w) (wf_com w) l (wf_scans w) (wf_tabs w) (wf_dri w) (wf_prog w) (wf_pads w)) end); [reflexivity|rewrite E; reflexivity]. Qed.

Lemma read_segment_ok mode data marker pos st : bytes data -> 2 <= pos <= Z.of_nat (length data) ->
  aget data (pos - 2) = JOk 255 -> aget data (pos - 1) = JOk marker -> rinv (is_all mode) st ->
  jpost (read_segment mode data marker pos st) (fun r => rinv (is_all mode) (fst r) /\ pos <= snd r <= Z.of_nat (length data)
    /\ j_markers (rf_j (fst r)) = j_markers (rf_j st)
    /\ (is_all mode = true -> marker <> 217 -> ~ no_marker data (snd r) ->
        forall jF MF, coefs_inv MF (j_comps jF) -> ext (fst r) jF -> ext st jF
          /\ forall J tail w, final jF J tail -> wmatch jF st w ->
             exists out w', write_section J marker w = JOk (out, w') /\ wmatch jF (fst r) w'
               /\ sl data (pos - 2) out /\ snd r = pos - 2 + Z.of_nat (length out))
    /\ (marker = 217 -> fst r = st /\ snd r = pos)).
Proof.
  intros Y Hp M1 M2 RI. pose proof RI as (RS & RM & RQ & RH & RV & RN & RF & RD & RP & RVE & RT). unfold read_segment. cbv zeta.
  (* SOF *)
  destruct (between marker 192 194) eqn:BM.
  { eapply jpost_bind; [apply (read_sof_ok (is_all mode) data pos (rf_j st) Y); lia|].
    intros [j' pos'] (P1 & W0 & w & h & mh & mv & comps & EJ & SS & WR). cbn [fst snd] in *. cbn [jpost fst snd]. pose proof BM as BM0. apply between_true in BM.
    assert (NSOF : is_all mode = true -> rf_sof st = false).
    { intros Fu. destruct (rf_sof st) eqn:E; [|reflexivity]. destruct (RF Fu eq_refl) as [FR _]. pose proof (fr_w _ FR). lia. }
    split; [|split; [lia|split; [rewrite EJ; reflexivity|split; [|lia]]]].
    - subst j'. split; [exact RS|]. split; [exact RM|]. split; [exact RQ|]. split; [exact (ss_mh _ _ _ _ _ _ SS)|]. split; [exact (ss_mv _ _ _ _ _ _ SS)|].
      split; [discriminate|]. split; [|split; [exact RD|split; [exact RP|split; [exact RVE|exact RT]]]].
      intros Fu _. rewrite Fu in SS. cbn [rf_j]. split; [apply sof_frame; exact SS|]. cbn [rf_masks]. destruct (RN (NSOF Fu)) as [_ ->].
      exact (blank_comps_inv _ _ _ _ _ SS).
    - intros Fu _ _ jF MF CI (X1 & X2 & X3 & X4 & X5 & X6 & X7 & X8 & X9). subst j'. specialize (NSOF Fu). split.
      { split; [exact X1|]. split; [exact X2|]. split; [exact X3|]. split; [exact X4|]. split; [exact X5|]. split; [exact X6|]. split; [exact X7|]. split; [exact X8|]. congruence. }
      intros J tail wf FI (W1 & W2 & W3 & W4 & W5 & W6 & W7 & W8 & W9 & W10). destruct (X9 eq_refl) as ((I1 & I2 & _) & [SG _] & _).
      destruct (final_fixed _ _ _ FI) as [FX _]. destruct FI as (cF & -> & _).
      destruct (WR marker (set_comps (set_tail jF tail) cF) M1 M2) as (out & E & S1 & S2); [symmetry; exact I1|symmetry; exact I2|exact (fixed_shape _ _ _ _ SG FX)|].
      eexists out, _. split; [unfold write_section; rewrite BM0; cbn [orb]; rewrite E; cbn [jbind]; reflexivity|].
      destruct (Z.leb_spec marker 194) as [_|NLE]; [|exfalso; clear - NLE BM; lia]. split; [|split; [exact S1|exact S2]].
      split; [exact W1|]. split; [exact W2|]. split; [exact W3|]. split; [exact W4|]. split; [exact W5|]. split; [exact W6|]. split; [exact W7|]. split; [exact W8|]. split; [reflexivity|]. exact W10. }
  (* DHT *)
  destruct (Z.eqb_spec marker 196) as [EM|NM196].
  { subst marker. eapply jpost_bind; [apply (read_dht_ok (is_all mode) data pos (tb_of st) Y); [lia|exact RS]|].
    intros [t' pos'] (P1 & S' & hs & EH & WR). cbn [fst snd] in *. cbn [jpost fst snd].
    assert (ET : t' = tb_of (mkRF (set_huff (rf_j st) (tb_huff t')) (tb_dc t') (tb_ac t') (rf_sof st) (rf_dri st) (rf_masks st) (rf_prog st))) by (destruct t'; reflexivity).
    split; [|split; [lia|split; [reflexivity|split; [|discriminate]]]].
    - split; [rewrite <- ET; exact S'|]. split; [exact RM|]. split; [exact RQ|]. split; [exact RH|]. split; [exact RV|]. split; [exact RN|]. 
      split; [intros A B; destruct (RF A B) as [FR CI]; split; [|exact CI]; apply (frame_shape (rf_j st)); auto; apply same_shape_refl|].
      split; [exact RD|]. split; [|split; [exact RVE|exact RT]]. intros Fu. destruct (RP Fu) as [w PW].
      destruct (WR Fu M1 M2 w [] PW) as (out & w' & _ & PW' & _). exists w'. rewrite <- ET. exact PW'.
    - intros Fu _ _ jF MF CI ([l X1] & X2 & X3 & X4 & X5 & X6 & X7 & X8 & X9). cbn [rf_j set_huff j_huff] in X1. split.
      { split; [exists (hs ++ l); rewrite X1, EH, <- app_assoc; reflexivity|]. split; [exact X2|]. split; [exact X3|]. split; [exact X4|]. split; [exact X5|]. split; [exact X6|]. split; [exact X7|]. split; [exact X8|]. exact X9. }
      intros J tail wf FI (W1 & W2 & W3 & W4 & W5 & W6 & W7 & W8 & W9 & W10).
      assert (EW : wf_huff wf = hs ++ l).
      { rewrite X1, EH, <- app_assoc in W1. apply app_inv_head in W1. symmetry. exact W1. }
      destruct (WR Fu M1 M2 (wf_tabs wf) l W7) as (out & w' & E & PW' & S1 & S2).
      eexists out, _. split; [unfold write_section; cbn [between Z.leb andb orb Z.eqb Z.compare Pos.compare Pos.compare_cont Pos.eqb]; rewrite EW, E; cbn [jbind]; reflexivity|].
      cbn [fst snd]. split; [|split; [exact S1|exact S2]].
      split; [exact X1|]. split; [exact W2|]. split; [exact W3|]. split; [exact W4|]. split; [exact W5|]. split; [exact W6|]. split; [rewrite <- ET; exact PW'|]. split; [exact W8|]. split; [exact W9|]. exact W10. }
  (* RST *)
  destruct (between marker 208 215) eqn:BR.
  { cbn [jpost fst snd]. apply between_true in BR as BR'. split; [exact RI|]. split; [lia|]. split; [reflexivity|]. split; [|auto].
    intros Fu _ _ jF MF CI X. split; [exact X|]. intros J tail wf FI W. exists [255; marker], wf.
    split; [unfold write_section; rewrite BM, BR; destruct (Z.eqb_spec marker 196); [lia|]; destruct (between marker 201 202) eqn:B2; [apply between_true in B2; lia|]; reflexivity|].
    split; [exact W|]. split; [|cbn [length]; lia]. apply sl_cons; [exact M1|]. replace (pos - 2 + 1) with (pos - 1) by lia. apply sl_one. exact M2. }
  (* EOI *)
  destruct (Z.eqb_spec marker 217) as [EM|NM217].
  { cbn [jpost fst snd]. split; [exact RI|]. split; [lia|]. split; [reflexivity|]. split; [congruence|]. auto. }
  (* SOS *)
  destruct (Z.eqb_spec marker 218) as [EM|NM218].
  { subst marker. destruct (is_all mode) eqn:Fu.
    2:{ cbn [jpost fst snd]. split; [exact RI|]. split; [lia|]. split; [reflexivity|]. split; [congruence|]. auto. }
    unfold read_scan. cbv zeta. eapply jpost_bind; [apply (read_sos_ok data pos (rf_j st) Y); lia|].
    intros [si p1] (P1 & SC & SLT & B1 & B2 & B3 & B4 & WS). cbn [fst snd] in *.
    assert (SOF : rf_sof st = true).
    { destruct (rf_sof st) eqn:E; [reflexivity|]. destruct (RN eq_refl) as [EC _]. destruct SC as (C1 & _ & C3). rewrite EC in C3. destruct (si_comps si) as [|c l]; [congruence|].
      apply Forall_inv in C3. cbn [length] in C3. lia. }
    destruct (RF eq_refl SOF) as [FR CI0].
    set (p := scan_params (rf_prog st) si (j_restart (rf_j st))).
    assert (Hs : 0 <= sp_ss p <= sp_se p /\ sp_se p <= 63) by (unfold p; destruct (rf_prog st); cbn [scan_params sp_ss sp_se]; lia).
    assert (Hal : 0 <= sp_al p <= 15) by (unfold p; destruct (rf_prog st); cbn [scan_params sp_al]; lia).
    assert (CB4 : Forall (fun s => 0 <= cs_comp s < 4) (si_comps si)).
    { eapply Forall_impl; [|exact (proj2 (proj2 SC))]. intros c H. cbv beta in H. pose proof (fr_n _ FR). lia. }
    pose proof (prog_check_ok p Hal (proj1 Hs) (proj2 Hs) (si_comps si) (rf_masks st) RM (proj1 (proj2 SC)) CB4) as PK.
    destruct (prog_check p (si_comps si) (rf_masks st)) as [M'| |] eqn:PC; cbn [jbind]; [|exact Logic.I|exact PK]. clear PK.
    assert (RK : forall w, paired (tb_of st) w -> _) by
      exact (fun w PW => read_scan_ok data (rf_dcl st) (rf_acl st) (wt_dc w) (wt_ac w) (rf_prog st) si (j_restart (rf_j st)) (rf_j st) p1 (rf_masks st) M'
        Y ltac:(lia) FR SC (proj1 Hs) (proj2 Hs) Hal RM CI0 PC (paired_tabs st w p (si_comps si) PW SLT)).
    fold p in RK. destruct (RP eq_refl) as [w0 PW0]. pose proof (RK w0 PW0) as R0.
    destruct (read_scan_data data (rf_dcl st) (rf_acl st) (rf_j st) p p1) as [[r p2]| |]; cbn [jbind]; [|exact Logic.I|exact R0].
    cbn [jpost fst snd]. destruct R0 as (pb & EP & EZ & Hpos & SH & HM' & CI' & BACK & _).
    split; [|split; [lia|split; [reflexivity|split; [|discriminate]]]].
    - split; [exact RS|]. split; [exact HM'|]. split; [exact RQ|]. split; [exact RH|]. split; [exact RV|]. split; [cbn [rf_sof]; congruence|].
      split; [intros _ _; split; [apply (frame_shape (rf_j st)); auto|exact CI']|]. split; [exact RD|]. split; [exact RP|]. split; [exact RVE|exact RT].
    - intros _ _ NNM jF MF CIF (X1 & X2 & X3 & X4 & X5 & [l X6] & X7 & X8 & X9).
      destruct X7 as (pb2 & EP2 & EZ2). destruct (X9 SOF) as (SI & SHF & AG). cbn [rf_j add_scan j_padding j_zero_pad j_scans j_comps rf_masks] in *. split.
      { split; [exact X1|]. split; [exact X2|]. split; [exact X3|]. split; [exact X4|]. split; [exact X5|]. split; [rewrite <- app_assoc in X6; eauto|].
        split; [exists (pb ++ pb2); rewrite EP2, EP, map_app, app_assoc; split; [reflexivity|]; rewrite EZ2, EZ, forallb_app; destruct (j_zero_pad (rf_j st)), (forallb _ pb), (forallb _ pb2); reflexivity|].
        split; [exact X8|]. intros _. split; [exact SI|]. split; [exact (same_shape_trans _ _ _ SH SHF)|]. apply BACK. exact AG. }
      intros J tail wf FI (W1 & W2 & W3 & W4 & W5 & W6 & W7 & W8 & W9 & pb3 & W10 & W11).
      assert (EPB : map b2z pb3 = map b2z pb ++ map b2z pb2) by (rewrite EP2, EP, <- app_assoc in W10; apply app_inv_head in W10; symmetry; exact W10).
      rewrite EPB in W11. rewrite X6, <- app_assoc in W6. apply app_inv_head in W6. cbn [app] in W6.
      destruct (RK (wf_tabs wf) W7) as (pb' & EP' & EZ' & _ & _ & _ & _ & _ & WR).
      assert (EPP : map b2z pb' = map b2z pb) by (rewrite EP in EP'; apply app_inv_head in EP'; symmetry; exact EP').
      destruct WR as [NMK|WR]; [contradiction|].
      assert (HZ : j_zero_pad jF = false -> forallb (fun b => b) pb' = true).
      { intros EF. assert (EB : pb' = pb) by (clear - EPP; revert pb EPP; induction pb' as [|b pb' IH]; intros [|b2 pb] E; cbn [map] in E; try discriminate; [reflexivity|]; injection E as E1 E2; f_equal; [destruct b, b2; cbn [b2z] in E1; congruence|auto]).
        rewrite EB. rewrite EZ2, EZ in EF. destruct (j_zero_pad (rf_j st)), (forallb _ pb), (forallb _ pb2); cbn in EF; congruence. }
      destruct (WR jF MF (j_zero_pad jF) (map b2z pb2) _ SI SHF CIF AG HZ eq_refl) as (out & E & S1 & S2).
      destruct (final_fixed _ _ _ FI) as [FX FD].
      destruct (WS J (rs_resets r) (rs_zruns r) M1 M2) as (hd & EH & HS1 & HS2).
      { rewrite (fixed_ids _ _ _ FX). symmetry. apply geo_ids. exact (proj1 (same_shape_trans _ _ _ SH SHF)). }
      assert (ER : (if wf_dri wf then j_restart J else 0) = j_restart (rf_j st)).
      { rewrite W8. destruct FI as (cF & -> & _). cbn [set_comps set_tail j_restart]. destruct (rf_dri st) eqn:ED; [apply X8; reflexivity|symmetry; apply RD; reflexivity]. }
      eexists (hd ++ out), _. split.
      + unfold write_section. cbn [between Z.leb andb orb Z.eqb Z.compare Pos.compare Pos.compare_cont Pos.eqb]. unfold write_scan. rewrite <- W6. cbv zeta. rewrite EH. cbn [jbind].
        rewrite ER, W9, W11. destruct FI as (cF & -> & _). rewrite <- EPP. rewrite (write_scan_data_fixed jF) by (auto; exact FD). rewrite E. cbn [jbind]. reflexivity.
      + split; [|split; [apply sl_join; [exact HS1|rewrite <- HS2; exact S1]|rewrite app_length; clear - HS2 S2; lia]].
        split; [exact W1|]. split; [exact W2|]. split; [exact W3|]. split; [exact W4|]. split; [exact W5|]. split; [exact X6|]. split; [exact W7|]. split; [exact W8|]. split; [reflexivity|].
        exists pb2. split; [exact EP2|reflexivity]. }
  (* DQT *)
  destruct (Z.eqb_spec marker 219) as [EM|NM219].
  { subst marker. eapply jpost_bind; [apply (read_dqt_ok data pos (j_quant (rf_j st)) Y); [lia|exact RQ]|].
    intros [q' pos'] (P1 & LQ & qs & EQ & _ & WR). cbn [fst snd] in *. cbn [jpost fst snd].
    split; [|split; [lia|split; [reflexivity|split; [|discriminate]]]].
    - split; [exact RS|]. split; [exact RM|]. split; [exact LQ|]. split; [exact RH|]. split; [exact RV|]. split; [exact RN|].
      split; [intros A B; destruct (RF A B) as [FR CI]; split; [|exact CI]; apply (frame_shape (rf_j st)); auto; apply same_shape_refl|].
      split; [exact RD|]. split; [exact RP|]. split; [exact RVE|exact RT].
    - intros Fu _ _ jF MF CI (X1 & [l X2] & X3 & X4 & X5 & X6 & X7 & X8 & X9). cbn [with_j rf_j set_quant j_quant] in X2. split.
      { split; [exact X1|]. split; [exists (qs ++ l); rewrite X2, EQ, <- app_assoc; reflexivity|]. split; [exact X3|]. split; [exact X4|]. split; [exact X5|]. split; [exact X6|]. split; [exact X7|]. split; [exact X8|]. exact X9. }
      intros J tail wf FI (W1 & W2 & W3 & W4 & W5 & W6 & W7 & W8 & W9 & W10).
      assert (EW : wf_quant wf = qs ++ l).
      { rewrite X2, EQ, <- app_assoc in W2. apply app_inv_head in W2. symmetry. exact W2. }
      destruct (WR M1 M2 l) as (out & E & S1 & S2).
      eexists out, _. split; [unfold write_section; cbn [between Z.leb andb orb Z.eqb Z.compare Pos.compare Pos.compare_cont Pos.eqb]; rewrite EW, E; cbn [jbind]; reflexivity|].
      cbn [fst snd]. split; [|split; [exact S1|exact S2]].
      split; [exact W1|]. split; [exact X2|]. split; [exact W3|]. split; [exact W4|]. split; [exact W5|]. split; [exact W6|]. split; [exact W7|]. split; [exact W8|]. split; [exact W9|]. exact W10. }
  (* DRI *)
  destruct (Z.eqb_spec marker 221) as [EM|NM221].
  { subst marker. eapply jpost_bind; [apply (read_dri_ok data pos (rf_dri st) Y); lia|].
    intros [r pos'] (P0 & P1 & P2 & P3 & WR). cbn [fst snd] in *. cbn [jpost fst snd]. subst pos'.
    split; [|split; [lia|split; [reflexivity|split; [|discriminate]]]].
    - split; [exact RS|]. split; [exact RM|]. split; [exact RQ|]. split; [exact RH|]. split; [exact RV|]. split; [exact RN|].
      split; [intros A B; destruct (RF A B) as [FR CI]; split; [|exact CI]; apply (frame_shape (rf_j st)); auto; apply same_shape_refl|].
      split; [discriminate|]. split; [exact RP|]. split; [exact RVE|exact RT].
    - intros Fu _ _ jF MF CI (X1 & X2 & X3 & X4 & X5 & X6 & X7 & X8 & X9). split.
      { split; [exact X1|]. split; [exact X2|]. split; [exact X3|]. split; [exact X4|]. split; [exact X5|]. split; [exact X6|]. split; [exact X7|]. split; [congruence|]. exact X9. }
      intros J tail wf FI (W1 & W2 & W3 & W4 & W5 & W6 & W7 & W8 & W9 & W10).
      eexists _, _. split; [unfold write_section; cbn [between Z.leb andb orb Z.eqb Z.compare Pos.compare Pos.compare_cont Pos.eqb]; reflexivity|].
      split; [|split; [apply (WR M1 M2); destruct FI as (cF & -> & _); exact (X8 eq_refl)|cbn [write_dri length]; clear; lia]].
      split; [exact W1|]. split; [exact W2|]. split; [exact W3|]. split; [exact W4|]. split; [exact W5|]. split; [exact W6|]. split; [exact W7|]. split; [reflexivity|]. split; [exact W9|]. exact W10. }
  (* APP *)
  destruct (between marker 224 239) eqn:BA.
  { apply between_true in BA as BA'. destruct (is_tables mode) eqn:TM.
    { cbn [jpost fst snd]. split; [exact RI|]. split; [lia|]. split; [reflexivity|]. split; [destruct mode; discriminate|lia]. }
    eapply jpost_bind; [apply (read_blob_ok data pos Y); lia|]. intros [s pos'] (P1 & WR & P2). cbn [fst snd] in *. cbn [jpost fst snd].
    split; [|split; [lia|split; [reflexivity|split; [|lia]]]].
    - split; [exact RS|]. split; [exact RM|]. split; [exact RQ|]. split; [exact RH|]. split; [exact RV|]. split; [exact RN|].
      split; [intros A B; destruct (RF A B) as [FR CI]; split; [|exact CI]; apply (frame_shape (rf_j st)); auto; apply same_shape_refl|].
      split; [exact RD|]. split; [exact RP|]. split; [exact RVE|exact RT].
    - intros Fu _ _ jF MF CI (X1 & X2 & [l X3] & X4 & X5 & X6 & X7 & X8 & X9). cbn [with_j rf_j add_app j_app] in X3. split.
      { split; [exact X1|]. split; [exact X2|]. split; [rewrite <- app_assoc in X3; eauto|]. split; [exact X4|]. split; [exact X5|]. split; [exact X6|]. split; [exact X7|]. split; [exact X8|]. exact X9. }
      intros J tail wf FI (W1 & W2 & W3 & W4 & W5 & W6 & W7 & W8 & W9 & W10).
      rewrite X3, <- app_assoc in W3. apply app_inv_head in W3. cbn [app] in W3.
      eexists (255 :: s), _. split.
      + rewrite (write_app J marker wf BA'), <- W3. reflexivity.
      + split; [|split; [apply WR; exact M1|cbn [length]; clear - P2; lia]].
        split; [exact W1|]. split; [exact W2|]. split; [exact X3|]. split; [exact W4|]. split; [exact W5|]. split; [exact W6|]. split; [exact W7|]. split; [exact W8|]. split; [exact W9|]. exact W10. }
  (* COM *)
  destruct (Z.eqb_spec marker 254) as [EM|NM254]; [|exact Logic.I].
  { subst marker. destruct (is_tables mode) eqn:TM.
    { cbn [jpost fst snd]. split; [exact RI|]. split; [lia|]. split; [reflexivity|]. split; [destruct mode; discriminate|lia]. }
    eapply jpost_bind; [apply (read_blob_ok data pos Y); lia|]. intros [s pos'] (P1 & WR & P2). cbn [fst snd] in *. cbn [jpost fst snd].
    split; [|split; [lia|split; [reflexivity|split; [|lia]]]].
    - split; [exact RS|]. split; [exact RM|]. split; [exact RQ|]. split; [exact RH|]. split; [exact RV|]. split; [exact RN|].
      split; [intros A B; destruct (RF A B) as [FR CI]; split; [|exact CI]; apply (frame_shape (rf_j st)); auto; apply same_shape_refl|].
      split; [exact RD|]. split; [exact RP|]. split; [exact RVE|exact RT].
    - intros Fu _ _ jF MF CI (X1 & X2 & X3 & [l X4] & X5 & X6 & X7 & X8 & X9). cbn [with_j rf_j add_com j_com] in X4. split.
      { split; [exact X1|]. split; [exact X2|]. split; [exact X3|]. split; [rewrite <- app_assoc in X4; eauto|]. split; [exact X5|]. split; [exact X6|]. split; [exact X7|]. split; [exact X8|]. exact X9. }
      intros J tail wf FI (W1 & W2 & W3 & W4 & W5 & W6 & W7 & W8 & W9 & W10).
      rewrite X4, <- app_assoc in W4. apply app_inv_head in W4. cbn [app] in W4.
      eexists (255 :: s), _. split.
      + unfold write_section. cbn [between Z.leb andb orb Z.eqb Z.compare Pos.compare Pos.compare_cont Pos.eqb]. rewrite <- W4. reflexivity.
      + split; [|split; [apply WR; exact M1|cbn [length]; clear - P2; lia]].
        split; [exact W1|]. split; [exact W2|]. split; [exact W3|]. split; [exact X4|]. split; [exact W5|]. split; [exact W6|]. split; [exact W7|]. split; [exact W8|]. split; [exact W9|]. exact W10. }
Qed.

(** * The loop *)
Lemma no_marker_loop mode data : forall fuel pos st, 0 <= pos <= Z.of_nat (length data) -> no_marker data pos -> forall r, read_loop fuel mode data pos st <> JOk r.
Proof.
  intros [|fuel] pos st Hp NM r; [discriminate|]. cbn [read_loop].
  pose proof (read_inter_ok data pos st Hp) as H. destruct (read_inter data pos st) as [[st1 pos1]| |]; cbn [jbind]; [|discriminate|discriminate].
  destruct H as (_ & H & _). specialize (H NM). cbn [snd] in H. unfold expect_marker, has_len. destruct (Z.leb_spec (pos1 + 2) (Z.of_nat (length data))); [lia|]. discriminate.
Qed.

Lemma rinv_coefs st : rinv true st -> exists MF, coefs_inv MF (j_comps (rf_j st)).
Proof.
  intros (_ & _ & _ & _ & _ & RN & RF & _). destruct (rf_sof st).
  - exists (rf_masks st). apply RF; reflexivity.
  - exists []. destruct (RN eq_refl) as [-> _]. intros cb [H _]. cbn [length] in H. lia.
Qed.

Lemma ext_refl st : ext st (rf_j st).
Proof.
  repeat (split; [exists []; rewrite app_nil_r; reflexivity|]).
  split; [exists []; cbn [map forallb negb]; rewrite app_nil_r, orb_false_r; auto|].
  split; [auto|]. intros _. split; [repeat split|]. split; [apply same_shape_refl|apply agreeM_refl].
Qed.

Lemma read_loop_ok mode data : bytes data -> forall fuel pos st, 0 <= pos <= Z.of_nat (length data) -> Z.of_nat (length data) < pos + Z.of_nat fuel ->
  rinv (is_all mode) st ->
  jpost (read_loop fuel mode data pos st) (fun r => rinv (is_all mode) (fst r) /\ pos <= snd r <= Z.of_nat (length data)
    /\ exists ms, j_markers (rf_j (fst r)) = j_markers (rf_j st) ++ ms
       /\ (is_all mode = true -> ms <> [] /\ ext st (rf_j (fst r))
           /\ forall J tail w, final (rf_j (fst r)) J tail -> wmatch (rf_j (fst r)) st w ->
              exists out, write_sections J ms w = JOk (out ++ tail) /\ sl data pos out /\ snd r = pos + Z.of_nat (length out))).
Proof.
  intros Y. induction fuel as [|fuel IH]; intros pos st Hp Hf RI; [lia|]. cbn [read_loop].
  eapply jpost_bind; [apply (read_inter_ok data pos st Hp)|]. intros [st1 pos1] (P1 & _ & INT). cbn [fst snd] in *.
  eapply jpost_bind; [apply (expect_marker_ok data pos1); lia|]. intros m (P2 & M1 & M2).
  assert (RI1 : rinv (is_all mode) st1).
  { destruct INT as [[-> _]|(s & -> & _)]; [exact RI|]. destruct RI as (RS & RM & RQ & RH & RV & RN & RF & RD & RP & RVE & RT).
    split; [exact RS|]. split; [exact RM|]. split; [exact RQ|]. split; [exact RH|]. split; [exact RV|]. split; [exact RN|].
    split; [intros A B; destruct (RF A B) as [FR CI]; split; [|exact CI]; apply (frame_shape (rf_j st)); auto; apply same_shape_refl|].
    split; [exact RD|]. split; [exact RP|]. split; [exact RVE|exact RT]. }
  eapply jpost_bind; [apply (read_segment_ok mode data m (pos1 + 2) st1 Y); [lia|replace (pos1 + 2 - 2) with pos1 by lia; exact M1|replace (pos1 + 2 - 1) with (pos1 + 1) by lia; exact M2|exact RI1]|].
  intros [st2 pos2] (RI2 & P3 & EM & STEP & EOI). cbn [fst snd] in *. cbv zeta.
  set (st3 := with_j st2 (add_marker (rf_j st2) m)).
  assert (RI3 : rinv (is_all mode) st3).
  { destruct RI2 as (RS & RM & RQ & RH & RV & RN & RF & RD & RP & RVE & RT).
    split; [exact RS|]. split; [exact RM|]. split; [exact RQ|]. split; [exact RH|]. split; [exact RV|]. split; [exact RN|].
    split; [intros A B; destruct (RF A B) as [FR CI]; split; [|exact CI]; apply (frame_shape (rf_j st2)); auto; apply same_shape_refl|].
    split; [exact RD|]. split; [exact RP|]. split; [exact RVE|exact RT]. }
  (* what the bytes in front of the marker contribute *)
  assert (HEAD : exists pre, j_markers (rf_j st1) = j_markers (rf_j st) ++ pre
    /\ forall jF, ext st1 jF -> ext st jF /\ forall J tail w, final jF J tail -> wmatch jF st w ->
        exists b w1, sl data pos b /\ pos1 = pos + Z.of_nat (length b) /\ wmatch jF st1 w1
          /\ forall ms out, write_sections J ms w1 = JOk out -> write_sections J (pre ++ ms) w = JOk (b ++ out)).
  { destruct INT as [[-> ->]|(s & -> & S1 & ->)].
    - exists []. rewrite app_nil_r. split; [reflexivity|]. intros jF X. split; [exact X|]. intros J tail w _ W. exists [], w.
      split; [apply sl_nil; lia|]. split; [cbn [length]; lia|]. split; [exact W|]. intros ms out E. exact E.
    - exists [255]. split; [reflexivity|]. intros jF (X1 & X2 & X3 & X4 & [l X5] & X6 & X7 & X8 & X9). cbn [with_j rf_j add_inter j_inter add_marker] in X5. split.
      { split; [exact X1|]. split; [exact X2|]. split; [exact X3|]. split; [exact X4|]. split; [rewrite <- app_assoc in X5; eauto|]. split; [exact X6|]. split; [exact X7|]. split; [exact X8|]. exact X9. }
      intros J tail w FI (W1 & W2 & W3 & W4 & W5 & W6 & W7 & W8 & W9 & W10). rewrite X5, <- app_assoc in W5. apply app_inv_head in W5. cbn [app] in W5.
      exists s, (mkWF (wf_huff w) (wf_quant w) (wf_app w) (wf_com w) l (wf_scans w) (wf_tabs w) (wf_dri w) (wf_prog w) (wf_pads w)).
      split; [exact S1|]. split; [reflexivity|]. split.
      { split; [exact W1|]. split; [exact W2|]. split; [exact W3|]. split; [exact W4|]. split; [exact X5|]. split; [exact W6|]. split; [exact W7|]. split; [exact W8|]. split; [exact W9|]. exact W10. }
      intros ms out E. cbn [app write_sections]. rewrite (write_inter J w s l) by (symmetry; exact W5). cbn [jbind]. rewrite E. reflexivity. }
  destruct HEAD as (pre & EPRE & HEAD).
  destruct (is_header mode && rf_sof st3 || (m =? 217)) eqn:STOP.
  - cbn [jpost fst snd]. split; [exact RI3|]. split; [lia|]. exists (pre ++ [m]).
    split; [change (j_markers (rf_j st3)) with (j_markers (rf_j st2) ++ [m]); rewrite EM, EPRE, app_assoc; reflexivity|].
    intros Fu. split; [destruct pre; discriminate|]. assert (E217 : m = 217) by (destruct mode; [discriminate|discriminate|]; cbn [is_header andb orb] in STOP; apply Z.eqb_eq; exact STOP).
    destruct (EOI E217) as [E2 E3]. subst st2 pos2.
    destruct (HEAD (rf_j st3)) as [X HW].
    { apply (ext_refl st3). }
    split; [exact X|]. intros J tail w FI W. destruct (HW J tail w FI W) as (b & w1 & S1 & L1 & _ & WS).
    exists (b ++ [255; 217]). split; [|split; [apply sl_join; [exact S1|]|rewrite app_length; cbn [length]; lia]].
    + rewrite <- app_assoc. apply WS. subst m. cbn [write_sections]. change (write_section J 217 w1) with (JOk ([255; 217] ++ j_tail J, w1)). cbn [jbind].
      destruct FI as (cF & -> & _). cbn [set_comps set_tail j_tail]. rewrite app_nil_r. reflexivity.
    + rewrite <- L1. apply sl_cons; [exact M1|]. apply sl_one. subst m. exact M2.
  - pose proof (IH pos2 st3 ltac:(lia) ltac:(lia) RI3) as HI. destruct (read_loop fuel mode data pos2 st3) as [[stF posF]| |] eqn:ELOOP; cbn [jpost] in HI |- *; [|exact Logic.I|exact HI].
    destruct HI as (RIF & PF & ms & EMS & REST). cbn [fst snd] in *. split; [exact RIF|]. split; [lia|]. exists (pre ++ m :: ms).
    split; [rewrite EMS; change (j_markers (rf_j st3)) with (j_markers (rf_j st2) ++ [m]); rewrite EM, EPRE, <- !app_assoc; reflexivity|].
    intros Fu. split; [destruct pre; discriminate|]. destruct (REST Fu) as (_ & XF & WF).
    assert (NM : ~ no_marker data pos2) by (intros NM; exact (no_marker_loop mode data fuel pos2 st3 ltac:(lia) NM _ ELOOP)).
    assert (N217 : m <> 217) by (intros ->; rewrite orb_true_r in STOP; discriminate).
    rewrite Fu in RIF. destruct (rinv_coefs _ RIF) as [MF CIF].
    destruct (STEP Fu N217 NM (rf_j stF) MF CIF XF) as [X1 WSEG]. destruct (HEAD (rf_j stF) X1) as [X0 WH].
    split; [exact X0|]. intros J tail w FI W. destruct (WH J tail w FI W) as (b & w1 & S1 & L1 & W1 & WS).
    destruct (WSEG J tail w1 FI W1) as (out & w2 & E & W2 & S2 & L2).
    destruct (WF J tail w2 FI W2) as (out2 & E2 & S3 & L3).
    replace (pos1 + 2 - 2) with pos1 in * by lia.
    exists (b ++ out ++ out2). split; [rewrite <- !app_assoc; apply WS; cbn [write_sections]; rewrite E; cbn [jbind]; rewrite E2; reflexivity|].
    split; [|rewrite !app_length; lia]. apply sl_join; [exact S1|]. apply sl_join; [rewrite <- L1; exact S2|]. replace (pos + Z.of_nat (length b) + Z.of_nat (length out)) with pos2 by lia. exact S3.
Qed.

(** * Files *)
Lemma find_quant_ok idx : forall l i r, find_quant idx i l = Some r -> i <= r /\ exists q, aget l (r - i) = JOk q /\ q_index q = idx.
Proof.
  induction l as [|q l IH]; intros i r E; cbn [find_quant] in E; [discriminate|]. destruct (Z.eqb_spec (q_index q) idx) as [H|H].
  - injection E as <-. split; [lia|]. exists q. rewrite Z.sub_diag. split; [reflexivity|exact H].
  - apply IH in E as (H1 & q' & H2 & H3). split; [lia|]. exists q'. split; [|exact H3]. apply aget_Some in H2 as [B E]. apply aget_Some. split; [lia|].
    replace (Z.to_nat (r - i)) with (S (Z.to_nat (r - (i + 1)))) by lia. exact E.
Qed.

Lemma fixup_ok q : forall l, jpost (fixup q l) (Forall2 (fun c c' => fixed q c c' /\ fixed_data c c') l).
Proof.
  induction l as [|c l IH]; cbn [fixup]; [constructor|]. destruct (find_quant (c_quant c) 0 q) as [i|] eqn:E; [|exact Logic.I].
  eapply jpost_bind; [exact IH|]. intros r F. cbn [jpost]. constructor; [|exact F]. apply find_quant_ok in E as (H1 & q' & H2 & H3). rewrite Z.sub_0_r in H2.
  split; [|repeat split]. split; [reflexivity|]. split; [reflexivity|]. split; [reflexivity|]. exists q'. auto.
Qed.

Definition start : rfile := mkRF empty_jpeg (repeat lut_init 4) (repeat lut_init 4) false false (repeat (repeat 0 64) 4) false.
Definition fresh_tabs : list codetab := repeat (repeat 0 256, repeat 0 256) 4.

Lemma fresh_paired : tabs4 (repeat lut_init 4) fresh_tabs.
Proof.
  split; [reflexivity|]. intros i Hi. exists lut_init, (repeat 0 256, repeat 0 256). 
  assert (C : i = 0 \/ i = 1 \/ i = 2 \/ i = 3) by lia. 
  split; [destruct C as [->|[->|[->| ->]]]; reflexivity|]. split; [destruct C as [->|[->|[->| ->]]]; reflexivity|]. split; [apply slot_init|]. split; apply repeat_length.
Qed.

Lemma start_inv full : rinv full start.
Proof.
  assert (L4 : luts4 (repeat lut_init 4)).
  { split; [reflexivity|]. apply Forall_forall. intros l H. apply repeat_spec in H. subst l. split; [apply repeat_length|reflexivity]. }
  split; [split; exact L4|]. split; [exact masks_nothing|]. split; [cbn; lia|]. split; [cbn; lia|]. split; [cbn; lia|].
  split; [intros _; split; reflexivity|]. split; [discriminate|]. split; [reflexivity|]. split; [|split; reflexivity].
  intros _. exists (mkWT fresh_tabs fresh_tabs). split; exact fresh_paired.
Qed.

Lemma set_tail_id j : j_tail j = [] -> set_tail j [] = j.
Proof. intros E. unfold set_tail. rewrite <- E. destruct j. reflexivity. Qed.

Lemma read_jpeg_ok mode data : bytes data -> jpost (read_jpeg mode data) (fun J => is_all mode = true -> write_jpeg J = JOk data).
Proof.
  intros Y. unfold read_jpeg. eapply jpost_bind; [apply (expect_marker_ok data 0); lia|]. intros m (P & M1 & M2).
  apply jpost_guard. intros G. apply Z.eqb_eq in G. subst m. cbv zeta. fold start.
  eapply jpost_bind; [apply (read_loop_ok mode data Y (S (length data)) 2 start); [lia|lia|apply start_inv]|].
  intros [stF posF] (RI & PF & ms & EMS & REST). cbn [fst snd] in *. apply jpost_guard. intros SOF.
  destruct (is_all mode) eqn:Fu; [|cbn [jpost]; congruence]. destruct (REST eq_refl) as (NE & X & WF).
  assert (TL : exists tail, (if posF <? Z.of_nat (length data) then let* s := slice data posF (Z.of_nat (length data) - posF) in JOk (set_tail (rf_j stF) s) else JOk (rf_j stF))
      = JOk (set_tail (rf_j stF) tail) /\ sl data posF tail /\ posF + Z.of_nat (length tail) = Z.of_nat (length data)).
  { destruct (Z.ltb_spec posF (Z.of_nat (length data))) as [H|H].
    - assert (E : exists s, slice data posF (Z.of_nat (length data) - posF) = JOk s).
      { unfold slice. destruct (Z.leb_spec 0 posF); [|lia]. destruct (Z.leb_spec 0 (Z.of_nat (length data) - posF)); [|lia]. destruct (Z.leb_spec (posF + (Z.of_nat (length data) - posF)) (Z.of_nat (length data))); [|lia]. cbn [andb]. eauto. }
      destruct E as [s E]. rewrite E. cbn [jbind]. exists s. apply slice_sl in E as [S1 S2]. split; [reflexivity|]. split; [exact S1|lia].
    - exists []. split; [|split; [apply sl_nil; lia|cbn [length]; lia]].
      destruct RI as (_ & _ & _ & _ & _ & _ & _ & _ & _ & _ & RT). rewrite set_tail_id by exact RT. reflexivity. }
  destruct TL as (tail & ET & ST & LT). rewrite ET. cbn [jbind].
  cbn [set_tail j_quant j_comps j_huff]. eapply jpost_bind; [apply fixup_ok|]. intros comps FC.
  apply jpost_guard. intros _. apply jpost_guard. intros _. cbn [jpost]. intros _.
  fold (set_tail (rf_j stF) tail). set (J := set_comps (set_tail (rf_j stF) tail) comps).
  assert (FI : final (rf_j stF) J tail) by (exists comps; split; [reflexivity|exact FC]).
  destruct X as (_ & _ & _ & _ & _ & _ & (pb & EP & EZ) & _). cbn [start rf_j empty_jpeg j_padding j_zero_pad] in EP, EZ. cbn [app orb] in EP.
  set (w := mkWF (j_huff J) (j_quant J) (j_app J) (j_com J) (j_inter J) (j_scans J) (mkWT fresh_tabs fresh_tabs) false false (if j_zero_pad J then Some (j_padding J) else None)).
  assert (WM : wmatch (rf_j stF) start w).
  { repeat (split; [reflexivity|]). split; [split; exact fresh_paired|]. split; [reflexivity|]. split; [reflexivity|].
    exists pb. split; [exact EP|]. rewrite <- EP. reflexivity. }
  destruct (WF J tail w FI WM) as (out & E & S1 & L1).
  unfold write_jpeg. replace (j_version J) with 2 by (symmetry; apply RI). change (Z.land 2 1 =? 1) with false. cbv iota.
  assert (EMJ : j_markers J = ms) by exact EMS. rewrite EMJ. destruct (Z.eqb_spec (Z.of_nat (length ms)) 0) as [H0|_]; [destruct ms; [congruence|cbn [length] in H0; lia]|].
  cbv zeta. fold fresh_tabs w. rewrite E. cbn [jbind]. f_equal.
  apply (sl_all data). 2:{ cbn [app length]. rewrite app_length. lia. }
  apply (sl_join data 0 [255; 216]); [apply sl_cons; [exact M1|apply sl_one; exact M2]|]. apply sl_join; [exact S1|]. cbn [length].
  replace (0 + Z.of_nat 2 + Z.of_nat (length out)) with posF by lia. exact ST.
Qed.
