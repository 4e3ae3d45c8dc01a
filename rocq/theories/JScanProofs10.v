(** A whole scan: the entropy-coded bytes that were read are the bytes written. *)
From Coq Require Import ZArith List Bool Lia.
From Verif Require Import Base JpegModel LehmerModel CoefModel JBitModel JWriteProofs JReadProofs JHuffModel JHuffProofs JHuffPair
  JScanModel JScanProofs1 JScanProofs2 JScanProofs3 JScanProofs4 JScanProofs5 JScanProofs6 JScanProofs7 JScanProofs8 JScanProofs9.
Import ListNotations.
Local Open Scope Z_scope.

Definition same_image (j jF : jpeg) : Prop :=
  j_width j = j_width jF /\ j_height j = j_height jF /\ j_max_h j = j_max_h jF /\ j_max_v j = j_max_v jF.

Lemma scan_mode_ok progressive si restart : mode_ok (scan_params progressive si restart) (scan_mode progressive (scan_params progressive si restart)).
Proof.
  unfold mode_ok, scan_mode. set (p := scan_params progressive si restart). destruct progressive; cbn [negb orb].
  - destruct (Z.eqb_spec (sp_ah p) 0) as [E1|E1]; cbn [andb]; [|right; right; auto].
    destruct (Z.eqb_spec (sp_al p) 0) as [E2|E2]; cbn [andb]; [|right; left; auto].
    destruct (Z.eqb_spec (sp_ss p) 0) as [E3|E3]; cbn [andb]; [|right; left; auto].
    destruct (Z.eqb_spec (sp_se p) 63) as [E4|E4]; [|right; left; auto]. left. auto.
  - left. repeat split.
Qed.

Lemma inter_single progressive si restart : si_comps si <> [] -> sp_inter (scan_params progressive si restart) = false ->
  exists s, sp_cs (scan_params progressive si restart) = [s].
Proof.
  cbn [scan_params sp_inter sp_cs]. destruct (si_comps si) as [|s [|s2 l]]; [congruence|eauto|]. intros _ H. cbn [length] in H. apply Z.ltb_ge in H. lia.
Qed.

Opaque read_mcus write_mcus mcus.

Lemma read_scan_ok data dc_luts ac_luts dc_tabs ac_tabs progressive si restart j pos M M' :
  let p := scan_params progressive si restart in
  bytes data -> 1 <= pos <= Z.of_nat (length data) -> frame_ok j -> scan_comps_ok (j_comps j) (si_comps si) ->
  0 <= sp_ss p <= sp_se p -> sp_se p <= 63 -> 0 <= sp_al p <= 15 -> masks_ok M -> coefs_inv M (j_comps j) ->
  prog_check p (si_comps si) M = JOk M' ->
  Forall (tabs_ok dc_luts ac_luts dc_tabs ac_tabs p) (si_comps si) ->
  match read_scan_data data dc_luts ac_luts j p pos with
  | JUB => False
  | JErr => True
  | JOk (r, pos') => exists pb, rs_padding r = j_padding j ++ map b2z pb
      /\ rs_zero_pad r = (j_zero_pad j || negb (forallb (fun b => b) pb))%bool /\ pos <= pos' <= Z.of_nat (length data)
      /\ same_shape (j_comps j) (rs_comps r) /\ masks_ok M' /\ coefs_inv M' (rs_comps r)
      /\ (forall CF, agreeM M' (rs_comps r) CF -> agreeM M (j_comps j) CF)
      /\ (no_marker data pos' \/
          forall jF MF zp tail siF, same_image j jF -> same_shape (rs_comps r) (j_comps jF) -> coefs_inv MF (j_comps jF) ->
            agreeM M' (rs_comps r) (j_comps jF) -> (zp = false -> forallb (fun b => b) pb = true) ->
            siF = mkSI (si_ss si) (si_se si) (si_ah si) (si_al si) (si_comps si) (rs_resets r) (rs_zruns r) ->
            exists out, write_scan_data jF dc_tabs ac_tabs progressive siF restart (padsof zp (map b2z pb ++ tail)) = JOk (out, padsof zp tail)
              /\ sl data pos out /\ pos' = pos + Z.of_nat (length out))
  end.
Proof.
  intros p Y Hpos FR SC Hs Hse Hal HM CI PC TA.
  assert (SI1 : sp_inter p = false -> exists s, sp_cs p = [s]) by (apply inter_single; apply SC).
  pose proof SC as (NE & NDC & CB).
  assert (CB4 : Forall (fun s => 0 <= cs_comp s < 4) (si_comps si)).
  { eapply Forall_impl; [|exact CB]. intros s H. cbv beta in H. pose proof (fr_n _ FR). lia. }
  pose proof (prog_check_ok p Hal Hs Hse (si_comps si) M HM NDC CB4) as PK. rewrite PC in PK. destruct PK as (Hal2 & HM' & HC).
  pose proof (scan_mode_ok progressive si restart) as MO. fold p in MO.
  unfold read_scan_data. destruct (reset_ok data pos Y Hpos) as (s & ER & IR). rewrite ER. cbn [jbind].
  set (ms := mcus (fst (read_dims j p)) (snd (read_dims j p))).
  set (r0 := mkRS s (-1) (repeat 0 4) 0 (sp_restart p) 0 (j_comps j) [] [] (j_zero_pad j) (j_padding j)).
  assert (RS0 : rstate data p pos [] r0).
  { split; [exact IR|]. split; [exact Hpos|]. split; [left; split; [reflexivity|cbn [r0 rs_eob]; lia]|]. cbn [r0 rs_bsi rs_last rs_eob rs_next].
    split; [lia|]. split; [exact lasts_zero|]. split; [lia|lia]. }
  pose proof (visits_in j p FR SC SI1) as VIN. fold ms in VIN.
  pose proof (read_mcus_ok data dc_luts ac_luts dc_tabs ac_tabs (scan_mode progressive p) p Y (conj Hs (conj Hse (conj (proj1 Hal) Hal2))) MO ms r0 pos [] RS0) as D.
  change (rs_comps r0) with (j_comps j) in D. change (rs_togo r0) with (sp_restart p) in D.
  specialize (D ltac:(intros; lia)).
  assert (D1 : Forall (fun v => tabs_ok dc_luts ac_luts dc_tabs ac_tabs p (fst v)) (visits_of (j_comps j) p ms)).
  { eapply Forall_impl; [|exact VIN]. intros v (_ & _ & H). rewrite Forall_forall in TA. apply TA. exact H. }
  assert (D2 : Forall (fun v => in_comps (j_comps j) (pos_of v) /\ fst (pos_of v) < 4) (visits_of (j_comps j) p ms)).
  { eapply Forall_impl; [|exact VIN]. intros v (H1 & H2 & _). auto. }
  assert (D3 : Forall (fun v => ready p (blk (j_comps j) (pos_of v))) (visits_of (j_comps j) p ms)).
  { eapply Forall_impl; [|exact VIN]. intros v (H1 & H2 & H3). apply (coefs_ready p M M'); auto; try lia. exact (in_map cs_comp _ _ H3). }
  specialize (D D1 D2 D3 (visits_nodup j p FR SC SI1) (visits_nonempty j p FR SC SI1)).
  destruct (read_mcus data dc_luts ac_luts p ms r0) as [r| |]; cbn [jbind]; [|exact Logic.I|exact D].
  destruct D as (p1 & U & rst & zr & pb & RS & RC & EB & SH & UN & ST & WR).
  destruct (Z.ltb_spec 0 (rs_eob r)) as [|HR]; [exact Logic.I|].
  destruct RS as (I1 & Hp1 & HF & Hb1 & HL1 & HE1 & HN1).
  assert (NV : rs_bsi r <> 0).
  { rewrite EB. cbn [r0 rs_bsi]. pose proof (visits_nonempty j p FR SC SI1) as VN. pose proof (mcus_nonempty j p FR SC SI1) as MN. fold ms in VN, MN.
    change (rs_comps r0) with (j_comps j). destruct ms as [|m ms']; [congruence|]. apply Forall_inv in VN. cbn [visits_of flat_map]. rewrite app_length.
    destruct (mcu_visits (j_comps j) (sp_cs p) (sp_inter p) m); [congruence|]. cbn [length]. lia. }
  assert (HF' : U <> [] \/ aget data (p1 - 1) <> JOk 255) by (destruct HF as [[H _]|H]; [contradiction|exact H]).
  destruct (finish_unhinted data p1 U (rs_s r) Y I1 HF') as [E|(z & pads & pos' & bs & pb2 & E & Yb & EBb & LP & EP & EZ & Hpos' & CC)]; rewrite E; cbn [jbind]; [exact Logic.I|].
  destruct (Z.ltb_spec (Z.of_nat (length data)) pos'); [exact Logic.I|]. cbn [fst snd].
  destruct RC as (RC1 & RC2 & RC3 & RC4 & RC5). cbn [r0 rs_resets rs_zruns rs_padding rs_zero_pad app] in RC1, RC2, RC4, RC5. cbn [r0 rs_comps] in *.
  set (vs := map pos_of (visits_of (j_comps j) p ms)).
  assert (VI : forall cb, In cb vs -> In (fst cb) (map cs_comp (sp_cs p))).
  { intros cb Hcb. apply in_map_iff in Hcb as (v & <- & Hv). rewrite Forall_forall in VIN. destruct (VIN v Hv) as (_ & _ & H3). exact (in_map cs_comp _ _ H3). }
  assert (ST' : forall cb, In cb vs -> stepped p (blk (j_comps j) cb) (blk (rs_comps r) cb)).
  { intros cb Hcb. apply in_map_iff in Hcb as (v & <- & Hv). rewrite Forall_forall in ST. auto. }
  exists (pb ++ pb2). cbn [rs_padding rs_zero_pad rs_comps rs_resets rs_zruns].
  split; [rewrite RC4, EP, map_app, app_assoc; reflexivity|].
  split; [rewrite RC5, EZ, forallb_app; destruct (j_zero_pad j), (forallb _ pb), (forallb _ pb2); reflexivity|].
  assert (Hge : pos <= p1).
  { destruct (WR (rs_comps r) SH) with (zp := true) (pads0 := Some (map b2z pb)) (pos0 := pos) (tail := @nil Z) (rest := @nil Z) (zrest := @nil (Z * Z))
      (w := mkWS (mkWC [] 0 ([], []) [] 0) (repeat 0 4) 0 restart 0 (fst (pop_reset rst)) (snd (pop_reset rst)) zr) as (w' & _ & LK).
    - rewrite Forall_forall. intros v Hv. apply (views p M M') with (C := j_comps j) (vs := vs) (MF := M'); auto; try lia.
      + apply (fr_n _ FR).
      + unfold vs. apply in_map. exact Hv.
      + rewrite Forall_forall in D2. apply D2. exact Hv.
      + apply (coefs_after p M M') with (C := j_comps j) (vs := vs); auto; try lia. apply (fr_n _ FR).
      + apply agreeM_refl.
    - discriminate.
    - split; constructor.
    - exists [], [], []. rewrite !app_nil_r. cbn [ws_bsi ws_last ws_next ws_togo ws_c wc_ops r0 rs_bsi rs_last rs_next rs_togo rs_eob render length padsof app].
      split; [reflexivity|]. split; [reflexivity|]. split; [reflexivity|]. split; [reflexivity|].
      split; [split; cbn [ws_nr ws_resets ws_zruns]; [destruct (pop_reset rst); reflexivity|reflexivity]|].
      split; [constructor|]. split; [reflexivity|]. split; [apply sl_nil; lia|]. split; [lia|]. split; [reflexivity|].
      split; [apply pend_clean; [repeat split|lia]|intros _; repeat split].
    - destruct LK as (out & W & P & _ & _ & _ & _ & _ & _ & _ & _ & L9 & _). lia. }
  split; [lia|]. split; [exact SH|]. split; [exact HM'|].
  split; [apply (coefs_after p M M') with (C := j_comps j) (vs := vs); auto; try lia; apply (fr_n _ FR)|].
  split; [intros CF AG; apply (agree_before p M M') with (C' := rs_comps r) (vs := vs); auto; try lia; apply (fr_n _ FR)|].
  destruct CC as [[SL EPos]|NM]; [right|left; exact NM].
  intros jF MF zp tail siF (G1 & G2 & G3 & G4) SF CIF AG HZ ->.
  rewrite forallb_app in HZ. pose proof (same_shape_trans _ _ _ SH SF) as SHF.
  unfold write_scan_data, write_scan_ops. cbn [si_resets si_zero_runs].
  change (scan_params progressive (mkSI (si_ss si) (si_se si) (si_ah si) (si_al si) (si_comps si) (rs_resets r) (rs_zruns r)) restart) with p. cbv zeta.
  rewrite <- (write_dims_geo j jF p (proj1 SHF) G1 G2 G3 G4), <- (read_write_dims j p FR). fold ms. rewrite RC1, RC2.
  destruct (pop_reset rst) as [nr resets] eqn:EQ.
  destruct (WR (j_comps jF) SHF) with (zp := zp) (pads0 := padsof zp (map b2z (pb ++ pb2) ++ tail)) (pos0 := pos) (tail := map b2z pb2 ++ tail) (rest := @nil Z) (zrest := @nil (Z * Z))
      (w := mkWS (mkWC [] 0 ([], []) [] 0) (repeat 0 4) 0 restart 0 nr resets zr) as (w' & EW & LK).
  - rewrite Forall_forall. intros v Hv. apply (views p M M') with (C := j_comps j) (vs := vs) (MF := MF); auto; try lia.
    + apply (fr_n _ FR).
    + unfold vs. apply in_map. exact Hv.
    + rewrite Forall_forall in D2. apply D2. exact Hv.
  - intros Ez. specialize (HZ Ez). apply andb_true_iff in HZ. tauto.
  - split; constructor.
  - exists [], [], []. rewrite !app_nil_r. cbn [ws_bsi ws_last ws_next ws_togo ws_c wc_ops r0 rs_bsi rs_last rs_next rs_togo rs_eob render length app].
    split; [reflexivity|]. split; [reflexivity|]. split; [reflexivity|]. split; [reflexivity|].
    split; [split; cbn [ws_nr ws_resets ws_zruns]; [rewrite EQ; reflexivity|reflexivity]|].
    split; [constructor|]. split; [rewrite map_app, <- app_assoc; reflexivity|]. split; [apply sl_nil; lia|]. split; [lia|]. split; [reflexivity|].
    split; [apply pend_clean; [repeat split|lia]|intros _; repeat split].
  - rewrite EW. cbn [jbind]. destruct LK as (out & W & P & L1 & L2 & L3 & L4 & L5 & L6 & L7 & L8 & L9 & L10 & L11 & L12).
    destruct (pend_flush _ _ _ L11 HR) as (st & EF & CL & AD). rewrite EF. cbn [jbind].
    pose proof (render_adv _ _ _ _ _ _ _ AD L7) as R1. rewrite <- L10 in R1.
    assert (HZ2 : zp = false -> forallb (fun b : bool => b) pb2 = true) by (intros Ez; specialize (HZ Ez); apply andb_true_iff in HZ; tauto).
    pose proof (render_jump _ _ _ _ bs pb2 zp tail R1 Yb EBb LP HZ2) as R2.
    assert (OK : Forall op_ok (wc_ops st ++ [WJumpOp])) by (apply Forall_app; split; [eapply wadv_ops_ok; eauto|repeat constructor]).
    destruct (run_render (wc_ops st ++ [WJumpOp]) (padsof zp (map b2z (pb ++ pb2) ++ tail)) bw_init [] [] (out ++ stuff bs) [] (padsof zp tail) OK) as (s' & done & P' & RR & EO & IB & Yd & EA & BO).
    + repeat split. cbn [length]. lia.
    + cbn [length]; lia.
    + constructor.
    + exact R2.
    + rewrite RR. rewrite EO. cbn [bw_init bw_ok].
      symmetry in EA. apply app_eq_nil in EA as [EA1 EA2]. apply byte_bits_nil in EA1.
      specialize (BO [] eq_refl). cbn [app] in BO. rewrite EA1 in BO. cbn [stuff flat_map] in BO. rewrite app_nil_r in BO.
      exists (out ++ stuff bs). split; [f_equal; f_equal; exact BO|].
      split; [apply sl_join; [exact L8|]; rewrite <- L9; exact SL|]. rewrite app_length. lia.
Qed.
Transparent read_mcus write_mcus mcus.
