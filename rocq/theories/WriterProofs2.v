(** The JPEG writer stays inside its arrays: bit writer, scans, segments, the whole file. *)
From Verif Require Import Base JpegModel HeaderModel HeaderProofs PropsHeader Tables LehmerModel QuantModel QuantProofs InternalsModel InternalsProofs InternalsProofs4 CoefModel JBitModel JWriteProofs JHuffModel JHuffProofs JSegModel JSegProofs1 JScanModel JFileModel
  JpegSpec DecodedSpec WriterProofs1.

(** * Bit writer *)
Definition bw_fine (s : bitw) : Prop := 17 <= bw_free s <= 64.

Lemma discharge_fine s : exists s', bw_discharge s = Some s' /\ bw_free s' = bw_free s + 48.
Proof.
  unfold bw_discharge. destruct (reserve_fields 12 s) as (_ & F & _). pose proof (reserve_room 12 s ltac:(unfold chunk_size; lia)) as R.
  destruct (has_zero_byte _); [rewrite bytes_emit by exact R|rewrite bytes_put by exact R]; cbn [obind]; eexists; (split; [reflexivity|]); cbn [app_cur bw_free]; rewrite F; reflexivity.
Qed.

Lemma write_fine n v s : 0 <= n <= 16 -> bw_fine s -> exists s', bw_write n v s = Some s' /\ bw_fine s'.
Proof.
  unfold bw_fine. intros Hn F. unfold bw_write. destruct (Z.eqb_spec n 0); [eexists; split; [reflexivity|exact F]|].
  destruct (Z.ltb_spec (bw_free s - n) 0); [lia|]. destruct (Z.leb_spec 64 (bw_free s - n)); [lia|]. cbn [orb]. cbv zeta.
  destruct (Z.leb_spec (bw_free s - n) 16).
  - edestruct discharge_fine as (s' & E & G). rewrite E. exists s'. split; [reflexivity|]. rewrite G. cbn [bw_free]. lia.
  - eexists. split; [reflexivity|]. cbn [bw_free]. lia.
Qed.

Lemma marker_fine m s : bw_fine s -> exists s', bw_marker m s = Some s' /\ bw_fine s'.
Proof.
  intros F. unfold bw_marker. destruct (reserve_fields 2 s) as (_ & E & _). pose proof (reserve_room 2 s ltac:(unfold chunk_size; lia)) as R.
  rewrite put_ok by (unfold room in *; lia). unfold obind. rewrite put_ok by (eapply app_cur_room; [exact R|cbn [length]; lia]).
  eexists. split; [reflexivity|]. unfold bw_fine. cbn [app_cur bw_free]. rewrite E. exact F.
Qed.

Lemma drain_fine : forall fuel s m, bw_free s <= 64 -> 64 - bw_free s <= 8 * m -> room (2 * m + 2) s -> exists s', bw_drain fuel s = Some s' /\ room 2 s'.
Proof.
  induction fuel as [|f IH]; intros s m F M R; cbn [bw_drain].
  - exists s. split; [reflexivity|]. unfold room in *. lia.
  - destruct (Z.leb_spec (bw_free s) 56); [|exists s; split; [reflexivity|unfold room in *; lia]].
    rewrite emit_ok by (unfold room in *; lia). cbn [obind]. apply (IH _ (m - 1)); cbn [bw_free]; [lia|lia|].
    pose proof (stuff_len1 (buf_byte (bw_buf s) 56)) as L. unfold room in *. cbn [bw_cur app_cur]. rewrite app_length. lia.
Qed.

Lemma jump_fine pads s : bw_fine s -> match bw_jump pads s with WOk (s', _) => bw_fine s' | WFail => True | WUB => False end.
Proof.
  unfold bw_fine. intros F. unfold bw_jump. destruct (reserve_fields 16 s) as (_ & E & _). pose proof (reserve_room 16 s ltac:(unfold chunk_size; lia)) as R.
  assert (K : forall pat, exists s2, (let? s1 := bw_drain 8 (bw_reserve 16 s) in
             let? s2 :=
               (if bw_free s1 <? 64 then
                  let mask := Z.shiftr 255 (64 - bw_free s1) in
                  let c := Z.lor (Z.land (Z.shiftr (bw_buf s1) 56) (Z.lnot mask)) pat in
                  bw_emit c s1
                else Some s1) in
             Some (mkBW (bw_chunks s2) (bw_cur s2) 0 64 (bw_ok s2))) = Some s2 /\ bw_free s2 = 64).
  { intros pat. destruct (drain_fine 8 (bw_reserve 16 s) 6) as (s1 & D & R1); [rewrite E; lia|rewrite E; lia|unfold room in *; lia|].
    rewrite D. unfold obind. cbv zeta. destruct (bw_free s1 <? 64); [rewrite emit_ok by exact R1|]; cbn [obind]; eexists; split; reflexivity. }
  destruct pads as [src|].
  - destruct (pad_pattern _ 0 src) as [[p src']|]; [|exact I]. destruct (K p) as (s2 & X & Y). unfold obind in *. cbv zeta in *. rewrite X. rewrite Y. lia.
  - match goal with |- context [Z.shiftl 1 ?n - 1] => destruct (K (Z.shiftl 1 n - 1)) as (s2 & X & Y) end. unfold obind in *. cbv zeta in *. rewrite X. rewrite Y. lia.
Qed.

Lemma bw_run_fine : forall ops pads s, Forall op_ok ops -> bw_fine s -> bw_run ops pads s <> WUB.
Proof.
  induction ops as [|o ops IH]; intros pads s F S; cbn [bw_run]; [discriminate|]. pose proof (Forall_inv F) as O. pose proof (Forall_inv_tail F) as F'. destruct o as [n v| |m].
  - destruct (write_fine n v s O S) as (s' & -> & S'). apply IH; assumption.
  - pose proof (jump_fine pads s S) as J. destruct (bw_jump pads s) as [[s' p]| |]; [apply IH; assumption|discriminate|contradiction].
  - destruct (marker_fine m s S) as (s' & -> & S'). apply IH; assumption.
Qed.

(** * Scans *)
Definition ws_ok (w : wscan) : Prop := wc_ok (ws_c w) /\ length (ws_last w) = 4%nat /\ Forall dc15 (ws_last w).
Definition tabs_ok (l : list codetab) : Prop := length l = 4%nat /\ Forall tab_ok l.
Definition coefs_ok (c : component) : Prop := Z.of_nat (length (c_coeffs c)) = c_wb c * c_hb c /\ Forall blk_ok (c_coeffs c).
Definition par_ok (p : scanpar) : Prop := 0 <= sp_ss p /\ sp_se p <= 63 /\ 0 <= sp_al p.
Definition visit_ok (comps : list component) (v : compscan * Z) : Prop :=
  comp_ok (fst v) /\ cs_comp (fst v) < Z.of_nat (length comps) /\
  0 <= snd v < c_wb (comp_at comps (cs_comp (fst v))) * c_hb (comp_at comps (cs_comp (fst v))).

Lemma aget_comp comps i : 0 <= i < Z.of_nat (length comps) -> aget comps i = JOk (comp_at comps i).
Proof.
  intros H. unfold aget, comp_at. destruct (Z.ltb_spec i 0); [lia|]. rewrite (nth_error_nth' comps no_comp) by lia. reflexivity.
Qed.

Lemma write_visit_ok comps dcs acs mode p v w : (length comps <= 4)%nat -> Forall coefs_ok comps -> tabs_ok dcs -> tabs_ok acs -> par_ok p -> visit_ok comps v -> ws_ok w ->
  jpost (write_visit comps dcs acs mode p v w) ws_ok.
Proof.
  intros L4 FC [Ld Fd] [La Fa] (P1 & P2 & P3) ((V1 & V2 & V3) & V4 & V5) (W1 & W2 & W3). unfold write_visit. cbv zeta.
  rewrite aget_comp by lia. cbn [jbind]. rewrite Forall_forall in Fd, Fa, FC.
  set (c := comp_at comps (cs_comp (fst v))) in *. assert (Cc : coefs_ok c) by (apply FC; apply nth_In; lia). destruct Cc as [Cl Cb]. rewrite Forall_forall in Cb.
  destruct (aget_in dcs (cs_dc (fst v)) ltac:(lia)) as (dct & -> & Id). destruct (aget_in acs (cs_ac (fst v)) ltac:(lia)) as (act & -> & Ia). cbn [jbind].
  apply Fd in Id. apply Fa in Ia.
  eapply jpost_bind with (Q := fun x => wc_ok (fst x)).
  { destruct (_ =? _); [|exact W1]. eapply jpost_bind; [apply (flush_wc _ W1)|]. intros st [H _]. exact H. }
  intros [st [nr resets]] H. cbn [fst] in H.
  match goal with |- jpost (let '(nzr, zruns) := ?e in _) _ => destruct e as [nzr zruns] end.
  destruct (aget_in (c_coeffs c) (snd v) ltac:(lia)) as (b & -> & Ib). apply Cb in Ib. cbn [jbind].
  destruct (aget_in (ws_last w) (cs_comp (fst v)) ltac:(lia)) as (last & -> & Il). rewrite Forall_forall in W3. pose proof (W3 _ Il) as Dl. cbn [jbind].
  eapply jpost_bind with (Q := fun x => dc15 (fst x) /\ wc_ok (snd x)).
  { destruct (mode =? 0); [apply encode_seq_wc; assumption|]. destruct (mode =? 1); [apply encode_prog_wc; assumption|].
    eapply jpost_bind; [apply (encode_refine_wc b act (sp_ss p) (sp_se p) (sp_al p) st); assumption|]. intros st' H'. cbn [jpost fst snd]. auto. }
  intros [l st'] [D' H']. cbn [fst snd] in D', H'. destruct (aset_in (ws_last w) (cs_comp (fst v)) l ltac:(lia)) as (ls & -> & L & In'). cbn [jbind jpost].
  unfold ws_ok. cbn [ws_c ws_last]. split; [exact H'|]. split; [lia|]. apply Forall_forall. intros x I. destruct (In' x I) as [->|I']; [exact D'|apply W3, I'].
Qed.

Lemma write_visits_ok comps dcs acs mode p : (length comps <= 4)%nat -> Forall coefs_ok comps -> tabs_ok dcs -> tabs_ok acs -> par_ok p ->
  forall vs w, Forall (visit_ok comps) vs -> ws_ok w -> jpost (write_visits comps dcs acs mode p vs w) ws_ok.
Proof.
  intros L4 FC Td Ta P. induction vs as [|v vs IH]; intros w F W; cbn [write_visits]; [exact W|].
  eapply jpost_bind; [apply (write_visit_ok comps dcs acs mode p v w L4 FC Td Ta P (Forall_inv F) W)|]. intros w' W'. apply IH; [exact (Forall_inv_tail F)|exact W'].
Qed.

Lemma write_mcus_ok comps dcs acs mode p : (length comps <= 4)%nat -> Forall coefs_ok comps -> tabs_ok dcs -> tabs_ok acs -> par_ok p ->
  forall ms w, Forall (fun yx => Forall (visit_ok comps) (mcu_visits comps (sp_cs p) (sp_inter p) yx)) ms -> ws_ok w -> jpost (write_mcus comps dcs acs mode p ms w) ws_ok.
Proof.
  intros L4 FC Td Ta P. induction ms as [|m ms IH]; intros w F W; cbn [write_mcus]; [exact W|].
  eapply jpost_bind with (Q := ws_ok); [|intros w' W'; apply IH; [exact (Forall_inv_tail F)|exact W']].
  unfold write_mcu. eapply jpost_bind with (Q := ws_ok).
  - unfold write_restart. destruct (_ && _); [|exact W]. destruct W as (W1 & W2 & W3). eapply jpost_bind; [apply (flush_wc _ W1)|]. intros st [H _]. cbn [jpost]. unfold ws_ok. cbn [ws_c ws_last].
    split; [apply wc_put; [exact I|apply wc_put; [exact I|exact H]]|]. split; [reflexivity|]. repeat (constructor; [unfold dc15; lia|]). constructor.
  - intros w1 W1. eapply jpost_bind; [apply (write_visits_ok comps dcs acs mode p L4 FC Td Ta P _ w1 (Forall_inv F) W1)|]. intros w2 (A1 & A2 & A3). cbn [jpost]. split; [exact A1|]. split; [exact A2|exact A3].
Qed.

(** ** Blocks of a scan *)
Lemma iota_in x n : In x (iotaZ n) -> 0 <= x < n.
Proof. unfold iotaZ. intros H. apply in_map_iff in H. destruct H as (k & <- & H). apply in_seq in H. lia. Qed.

(** The grid of a component. *)
Definition comp_grid (j : jpeg) (c : component) : Prop :=
  1 <= c_h c /\ 1 <= c_v c /\ c_wb c = j_mcu_cols j * c_h c /\ c_hb c = j_mcu_rows j * c_v c.
Definition grid_covers (j : jpeg) : Prop :=
  1 <= j_max_h j /\ 1 <= j_max_v j /\ j_width j <= j_mcu_cols j * (8 * j_max_h j) /\ j_height j <= j_mcu_rows j * (8 * j_max_v j).

Lemma ceil_le a m r v : 1 <= m -> 1 <= v -> a <= r * (8 * m) -> JScanModel.div_ceil (a * v) (8 * m) <= r * v.
Proof.
  intros Hm Hv Ha. unfold JScanModel.div_ceil. apply Z.lt_succ_r. apply Z.div_lt_upper_bound; [lia|]. nia.
Qed.

Lemma mcu_visits_ok j p : Forall (comp_grid j) (j_comps j) -> grid_covers j -> Forall comp_ok (sp_cs p) -> Forall (fun s => cs_comp s < Z.of_nat (length (j_comps j))) (sp_cs p) ->
  (sp_inter p = false -> (length (sp_cs p) <= 1)%nat) ->
  Forall (fun yx => Forall (visit_ok (j_comps j)) (mcu_visits (j_comps j) (sp_cs p) (sp_inter p) yx)) (mcus (fst (write_dims j p)) (snd (write_dims j p))).
Proof.
  intros FG (G1 & G2 & G3 & G4) FO FL HI. apply Forall_forall. intros [y x] I. unfold mcus in I. apply in_flat_map in I. destruct I as (y' & Iy & I). apply in_map_iff in I. destruct I as (x' & [= -> ->] & Ix).
  apply iota_in in Iy. apply iota_in in Ix. apply Forall_forall. intros [s i] I. unfold mcu_visits in I. apply in_flat_map in I. destruct I as (s' & Is & I).
  cbv zeta in I. apply in_flat_map in I. destruct I as (iy & Iiy & I). apply in_map_iff in I. destruct I as (ix & [= -> <-] & Iix). apply iota_in in Iiy. apply iota_in in Iix. cbn [fst snd].
  rewrite Forall_forall in FO, FL, FG. pose proof (FO _ Is) as O. pose proof (FL _ Is) as L. destruct O as (O1 & O2 & O3).
  unfold visit_ok. cbn [fst snd]. split; [split; [exact O1|split; assumption]|]. split; [exact L|].
  set (c := comp_at (j_comps j) (cs_comp s)) in *. assert (CG : comp_grid j c) by (apply FG, nth_In; lia). destruct CG as (C1 & C2 & C3 & C4).
  unfold write_dims in Iy, Ix. cbn [fst snd] in Iy, Ix.
  assert (B : 0 <= y * (if sp_inter p then c_v c else 1) + iy < c_hb c /\ 0 <= x * (if sp_inter p then c_h c else 1) + ix < c_wb c).
  { destruct (sp_inter p).
    - pose proof (ceil_le (j_height j) (j_max_v j) (j_mcu_rows j) 1 G2 ltac:(lia) G4). pose proof (ceil_le (j_width j) (j_max_h j) (j_mcu_cols j) 1 G1 ltac:(lia) G3). rewrite C3, C4. nia.
    - assert (S1 : sp_cs p = [s]). { specialize (HI eq_refl). destruct (sp_cs p) as [|a [|b l]]; cbn [length] in HI; [destruct Is|destruct Is as [->|[]]; reflexivity|lia]. }
      rewrite S1 in Iy, Ix. fold c in Iy, Ix.
      pose proof (ceil_le (j_height j) (j_max_v j) (j_mcu_rows j) (c_v c) G2 C2 G4). pose proof (ceil_le (j_width j) (j_max_h j) (j_mcu_cols j) (c_h c) G1 C1 G3). rewrite C3, C4. lia. }
  destruct B as [B1 B2]. nia.
Qed.

(** ** A whole scan *)
(** What the writer relies on. *)
Record writer_ok (j : jpeg) : Prop := {
  wo_ncomp : (length (j_comps j) <= 4)%nat;
  wo_comps : Forall (fun c => comp_grid j c /\ coefs_ok c /\ 0 <= c_quant c) (j_comps j);
  wo_grid : grid_covers j;
  wo_huff : Forall huff_valid (j_huff j);
  wo_quant : Forall (fun q => length (q_values q) = 64%nat) (j_quant j);
  wo_scans : Forall scan_valid (j_scans j) }.

Lemma sos_entries_ok comps : forall l, Forall comp_ok l -> jpost (sos_entries comps l) (fun b => length b = (2 * length l)%nat /\ Forall (fun s => cs_comp s < Z.of_nat (length comps)) l).
Proof.
  induction l as [|s l IH]; intros F; cbn [sos_entries]; [cbn; auto|]. destruct (Z.leb_spec (Z.of_nat (length comps)) (cs_comp s)) as [|L]; [exact I|].
  pose proof (Forall_inv F) as (F1 & _). rewrite aget_comp by lia. cbn [jbind]. eapply jpost_bind; [apply (IH (Forall_inv_tail F))|]. intros r [R1 R2]. cbn [jpost length].
  split; [lia|]. constructor; assumption.
Qed.

Lemma buffer_ok n l : Z.of_nat (length l) <= n -> jpost (buffer n l) (fun _ => True).
Proof. intros H. unfold buffer. destruct (Z.leb_spec (Z.of_nat (length l)) n); [exact I|lia]. Qed.

Lemma write_sos_ok j si : Forall comp_ok (si_comps si) -> jpost (write_sos j si) (fun _ => Forall (fun s => cs_comp s < Z.of_nat (length (j_comps j))) (si_comps si)).
Proof.
  intros F. unfold write_sos. cbv zeta. eapply jpost_bind; [apply (sos_entries_ok (j_comps j) _ F)|]. intros l [L FL].
  eapply jpost_weaken; [apply buffer_ok|auto]. rewrite !app_length. cbn [length]. lia.
Qed.

Lemma write_scan_data_ok j dcs acs progressive si restart pads : writer_ok j -> tabs_ok dcs -> tabs_ok acs -> scan_valid si ->
  Forall (fun s => cs_comp s < Z.of_nat (length (j_comps j))) (si_comps si) ->
  jpost (write_scan_data j dcs acs progressive si restart pads) (fun _ => True).
Proof.
  intros W Td Ta (S1 & S2 & S3 & S4 & S5 & S6 & _) FL. unfold write_scan_data. eapply jpost_bind with (Q := Forall op_ok).
  - unfold write_scan_ops. cbv zeta. set (p := scan_params progressive si restart). destruct (pop_reset (si_resets si)) as [nr resets].
    assert (P : par_ok p) by (unfold par_ok, p, scan_params; cbn [sp_ss sp_se sp_al]; destruct progressive; lia).
    eapply jpost_bind; [apply (write_mcus_ok (j_comps j) dcs acs (scan_mode progressive p) p)|].
    + apply (wo_ncomp j W).
    + eapply Forall_impl; [|apply (wo_comps j W)]. cbv beta. tauto.
    + exact Td.
    + exact Ta.
    + exact P.
    + apply mcu_visits_ok.
      * eapply Forall_impl; [|apply (wo_comps j W)]. cbv beta. tauto.
      * apply (wo_grid j W).
      * exact S6.
      * exact FL.
      * unfold p, scan_params. cbn [sp_inter sp_cs]. intros H. apply Z.ltb_ge in H. lia.
    + unfold ws_ok. cbn [ws_c ws_last]. split; [|split; [reflexivity|repeat (constructor; [unfold dc15; lia|]); constructor]].
      unfold wc_ok, wc_upto. cbn [wc_ops wc_eob wc_tab wc_rb wc_rbn]. split; [constructor|]. split; [lia|]. split; [lia|]. split; [lia|reflexivity].
    + intros w (A & _). eapply jpost_bind; [apply (flush_wc _ A)|]. intros st [(O & _) _]. cbn [jpost]. apply Forall_app. split; [exact O|]. constructor; [exact I|constructor].
  - intros ops F. pose proof (bw_run_fine ops pads bw_init F) as B. destruct (bw_run ops pads bw_init) as [[s p]| |].
    + destruct (bw_ok s); exact I.
    + exact I.
    + exfalso. apply B; [unfold bw_fine, bw_init; cbn [bw_free]; lia|reflexivity].
Qed.

(** * Segments *)
Lemma sof_entries_ok quant : forall l, Forall (fun c => 0 <= c_quant c) l -> jpost (sof_entries quant l) (fun b => length b = (3 * length l)%nat).
Proof.
  induction l as [|c l IH]; intros F; cbn [sof_entries]; [reflexivity|]. pose proof (Forall_inv F) as F0. cbv beta in F0. destruct (Z.leb_spec (Z.of_nat (length quant)) (c_quant c)); [exact I|].
  destruct (aget_in quant (c_quant c) ltac:(lia)) as (q & -> & _). cbn [jbind]. eapply jpost_bind; [apply (IH (Forall_inv_tail F))|]. intros r R. cbn [jpost length]. cbv beta in R. lia.
Qed.
Lemma write_sof_ok j m : writer_ok j -> jpost (write_sof j m) (fun _ => True).
Proof.
  intros W. unfold write_sof. cbv zeta. eapply jpost_bind; [apply sof_entries_ok; eapply Forall_impl; [|apply (wo_comps j W)]; cbv beta; tauto|].
  intros l L. cbv beta in L. apply buffer_ok. rewrite app_length. cbn [length]. lia.
Qed.

Lemma dqt_bytes_ok q : length (q_values q) = 64%nat -> forall n i, 0 <= i -> i + Z.of_nat n <= 64 ->
  jpost (dqt_bytes n q i) (fun b => Z.of_nat (length b) = (if q_precision q =? 0 then 1 else 2) * Z.of_nat n).
Proof.
  intros Q. induction n as [|n IH]; intros i Hi Hn; cbn [dqt_bytes]; [cbn [jpost length]; lia|].
  destruct (aget_in kNaturalOrder i) as (k & -> & Ik); [change (length kNaturalOrder) with 64%nat; lia|]. cbn [jbind]. apply natural_in_range in Ik.
  destruct (aget_in (q_values q) k ltac:(lia)) as (v & -> & _). cbn [jbind]. eapply jpost_bind; [apply (IH (i + 1)); lia|]. intros r R. cbv beta in R. cbn [jpost].
  rewrite app_length. cbn [length]. destruct (q_precision q =? 0); cbn [length]; lia.
Qed.
Lemma dqt_entries_ok : forall l, Forall (fun q => length (q_values q) = 64%nat) l ->
  jpost (dqt_entries l) (fun x => Z.of_nat (length (fst x)) = dqt_len l /\ Forall (fun q => length (q_values q) = 64%nat) (snd x)).
Proof.
  induction l as [|q l IH]; intros F; cbn [dqt_entries dqt_len]; [exact I|]. eapply jpost_bind; [apply (dqt_bytes_ok q (Forall_inv F) 64 0); lia|]. intros b B. cbv beta in B. cbv zeta.
  destruct (q_last q).
  - cbn [jpost fst snd length]. split; [lia|exact (Forall_inv_tail F)].
  - eapply jpost_bind; [apply (IH (Forall_inv_tail F))|]. intros [r s] [R1 R2]. cbn [jpost fst snd] in *. split; [|exact R2]. rewrite app_length. cbn [length]. lia.
Qed.
Lemma write_dqt_ok l : Forall (fun q => length (q_values q) = 64%nat) l -> jpost (write_dqt l) (fun x => Forall (fun q => length (q_values q) = 64%nat) (snd x)).
Proof.
  intros F. unfold write_dqt. cbv zeta. eapply jpost_bind; [apply (dqt_entries_ok l F)|]. intros [b s] [B S]. cbn [fst snd] in B, S.
  eapply jpost_bind; [apply buffer_ok; rewrite app_length; cbn [length]; lia|]. intros out _. exact S.
Qed.

Definition wt_ok (t : wtables) : Prop := tabs_ok (wt_dc t) /\ tabs_ok (wt_ac t).

Lemma put_codes_ok : forall sizes values codes t, (length sizes <= length values)%nat -> Forall (fun v => 0 <= v < 256) (firstn (length sizes) values) -> Forall (fun l => 1 <= l <= 16) sizes -> tab_ok t ->
  jpost (put_codes values sizes codes t) tab_ok.
Proof.
  induction sizes as [|l sizes IH]; intros values codes t L FV FS T; [destruct values; exact T|]. destruct codes as [|c codes]; [destruct values; exact T|].
  destruct values as [|v values]; [cbn [length] in L; lia|]. cbn [put_codes]. cbn [length firstn] in FV. destruct T as (T1 & T2 & T3). pose proof (Forall_inv FV) as Hv. cbv beta in Hv.
  destruct (aset_in (fst t) v l ltac:(lia)) as (d & -> & D1 & D2). cbn [jbind]. destruct (aset_in (snd t) v c ltac:(lia)) as (k & -> & K1 & _). cbn [jbind].
  apply IH; [cbn [length] in L; lia|exact (Forall_inv_tail FV)|exact (Forall_inv_tail FS)|]. unfold tab_ok. cbn [fst snd]. split; [lia|]. split; [lia|].
  apply Forall_forall. intros x Ix. destruct (D2 x Ix) as [->|I2]; [pose proof (Forall_inv FS) as X; cbv beta in X; lia|]. rewrite Forall_forall in T3. apply T3, I2.
Qed.

Lemma removelast_len {A} (l : list A) : length (removelast l) = (length l - 1)%nat.
Proof. induction l as [|a [|b l] IH]; [reflexivity|reflexivity|]. cbn [removelast length] in *. lia. Qed.
Lemma removelast_in {A} (l : list A) x : In x (removelast l) -> In x l.
Proof. induction l as [|a [|b l] IH]; [auto|intros []|]. cbn [removelast]. intros [->|I]; [left; reflexivity|right; apply IH, I]. Qed.

Lemma huff_total h : huff_valid h -> sumZ (hc_counts h) = Z.of_nat (length (code_lens (hc_counts h))) /\ 1 <= sumZ (hc_counts h) <= 257.
Proof.
  intros (H1 & _ & H3 & H4 & _ & H6 & _). pose proof (total_lens _ H3 H1) as T.
  assert (E : sumZ (hc_counts h) = sumZ (skipn 1 (hc_counts h))).
  { destruct (hc_counts h) as [|a r]; [discriminate|]. cbn [nth] in H4. subst a. reflexivity. }
  split; [lia|]. rewrite E in *. lia.
Qed.

Lemma build_codes_ok h t : huff_valid h -> tab_ok t -> jpost (build_codes h t) tab_ok.
Proof.
  intros H T. pose proof (huff_total h H) as [E R]. destruct H as (H1 & H2 & H3 & H4 & H5 & H6 & H7 & H8 & _). unfold build_codes. cbv zeta. destruct (_ <? _); [exact I|].
  destruct (code_lens (hc_counts h)) as [|a r] eqn:C; [exact T|]. rewrite <- C in *. pose proof (removelast_len (code_lens (hc_counts h))) as RL.
  apply put_codes_ok; [lia| |apply Forall_forall; intros x Ix; pose proof (code_lens_range (hc_counts h)) as G; rewrite Forall_forall in G; apply G, removelast_in, Ix|exact T].
  rewrite RL, <- (Nat2Z.id (length (code_lens (hc_counts h)))), <- E. exact H8.
Qed.

Lemma aset_tabs l i t : tabs_ok l -> tab_ok t -> 0 <= i < 4 -> exists l', aset l i t = JOk l' /\ tabs_ok l'.
Proof.
  intros [L F] T Hi. destruct (aset_in l i t ltac:(lia)) as (l' & E & L' & I'). exists l'. split; [exact E|]. split; [lia|]. apply Forall_forall. intros x Ix. destruct (I' x Ix) as [->|I2]; [exact T|].
  rewrite Forall_forall in F. apply F, I2.
Qed.

Lemma dht_entry_ok h t : huff_valid h -> wt_ok t -> jpost (dht_entry h t) (fun x => Z.of_nat (length (fst x)) = 16 + sumZ (hc_counts h) /\ wt_ok (snd x)).
Proof.
  intros H T. pose proof (huff_total h H) as [E R]. pose proof H as (H1 & H2 & _ & _ & _ & _ & _ & _ & _ & _ & HS). unfold dht_entry. cbv zeta.
  set (is_ac := negb (Z.land (hc_slot h) 16 =? 0)). set (idx := if is_ac then hc_slot h - 16 else hc_slot h).
  assert (HI : 0 <= idx < 4).
  { assert (X : In (hc_slot h) [0; 1; 2; 3; 16; 17; 18; 19]) by (clear - HS; cbn [In]; lia). unfold idx, is_ac. clear - X. cbn [In] in X.
    decompose [or] X; subst; try contradiction; match goal with E : _ = hc_slot h |- _ => rewrite <- E end; vm_compute; split; (discriminate || reflexivity). }
  assert (TA : tabs_ok (if is_ac then wt_ac t else wt_dc t)) by (destruct T; destruct is_ac; assumption).
  pose proof TA as [TL TF]. rewrite Forall_forall in TF. destruct (aget_in _ idx ltac:(rewrite TL; lia)) as (tab & -> & It). cbn [jbind].
  eapply jpost_bind; [apply (build_codes_ok h tab H (TF _ It))|]. intros tab' T'. destruct (aset_tabs _ idx tab' TA T' HI) as (tabs & -> & TT). cbn [jbind].
  unfold slice. destruct (Z.leb_spec 0 0); [|lia]. destruct (Z.leb_spec 0 (sumZ (hc_counts h) - 1)); [|lia]. destruct (Z.leb_spec (0 + (sumZ (hc_counts h) - 1)) (Z.of_nat (length (hc_values h)))); [|rewrite H2 in *; lia].
  cbn [andb jbind jpost fst snd]. split.
  - cbn [length]. rewrite app_length, !map_length, seq_length, firstn_length, skipn_length, H2. cbn [Z.to_nat]. lia.
  - destruct T as [Td Ta]. unfold wt_ok. cbn [wt_dc wt_ac]. destruct is_ac; auto.
Qed.

Lemma dht_entries_ok : forall l t, Forall huff_valid l -> wt_ok t ->
  jpost (dht_entries l t) (fun x => Z.of_nat (length (fst x)) = dht_len l /\ Forall huff_valid (fst (snd x)) /\ wt_ok (snd (snd x))).
Proof.
  induction l as [|h l IH]; intros t F T; cbn [dht_entries dht_len]; [exact I|]. eapply jpost_bind; [apply (dht_entry_ok h t (Forall_inv F) T)|]. intros [b t'] [B T']. cbn [fst snd] in B, T'.
  destruct (hc_last h).
  - cbn [jpost fst snd]. split; [lia|]. split; [exact (Forall_inv_tail F)|exact T'].
  - eapply jpost_bind; [apply (IH t' (Forall_inv_tail F) T')|]. intros [r s] (R1 & R2 & R3). cbn [jpost fst snd] in *. split; [rewrite app_length; lia|]. auto.
Qed.
Lemma write_dht_ok l t : Forall huff_valid l -> wt_ok t -> jpost (write_dht l t) (fun x => Forall huff_valid (fst (snd x)) /\ wt_ok (snd (snd x))).
Proof.
  intros F T. unfold write_dht. cbv zeta. eapply jpost_bind; [apply (dht_entries_ok l t F T)|]. intros [b s] (B & S1 & S2). cbn [fst snd] in B, S1, S2.
  eapply jpost_bind; [apply buffer_ok; rewrite app_length; cbn [length]; lia|]. intros out _. cbn [jpost snd]. auto.
Qed.

(** * The file *)
(** As many scan scripts are left as SOS markers. *)
Definition wf_ok (ms : list Z) (w : wfile) : Prop :=
  Forall huff_valid (wf_huff w) /\ Forall (fun q => length (q_values q) = 64%nat) (wf_quant w) /\ Forall scan_valid (wf_scans w) /\
  (count_marker 218 ms <= length (wf_scans w))%nat /\ wt_ok (wf_tabs w).

Lemma count_cons v m ms : count_marker v (m :: ms) = ((if Z.eqb v m then 1 else 0) + count_marker v ms)%nat.
Proof. unfold count_marker. cbn [filter]. destruct (Z.eqb v m); reflexivity. Qed.

Lemma write_section_ok j m ms w : writer_ok j -> wf_ok (m :: ms) w -> jpost (write_section j m w) (fun x => wf_ok ms (snd x)).
Proof.
  intros W (A1 & A2 & A3 & A4 & A5). rewrite count_cons in A4. unfold write_section.
  assert (K : forall w', wf_huff w' = wf_huff w -> wf_quant w' = wf_quant w -> wf_scans w' = wf_scans w -> wf_tabs w' = wf_tabs w -> wf_ok ms w').
  { intros w' E1 E2 E3 E4. unfold wf_ok. rewrite E1, E2, E3, E4. split; [exact A1|]. split; [exact A2|]. split; [exact A3|]. split; [destruct (218 =? m); lia|exact A5]. }
  destruct (_ || _).
  { eapply jpost_bind; [apply (write_sof_ok j m W)|]. intros out _. cbn [jpost snd]. apply K; reflexivity. }
  destruct (m =? 196).
  { eapply jpost_bind; [apply (write_dht_ok _ _ A1 A5)|]. intros [out s] [S1 S2]. cbn [jpost snd] in *. unfold wf_ok. cbn [wf_huff wf_quant wf_scans wf_tabs].
    split; [exact S1|]. split; [exact A2|]. split; [exact A3|]. split; [destruct (218 =? m); lia|exact S2]. }
  destruct (between m 208 215); [cbn [jpost snd]; apply K; reflexivity|].
  destruct (m =? 217); [cbn [jpost snd]; apply K; reflexivity|].
  destruct (Z.eqb_spec m 218) as [->|N].
  { unfold write_scan. rewrite Z.eqb_refl in A4. destruct (wf_scans w) as [|si l]; [cbn [length] in A4; lia|]. pose proof (Forall_inv A3) as S. cbv zeta.
    eapply jpost_bind; [apply (write_sos_ok j si); apply S|]. intros head FL.
    eapply jpost_bind; [apply (write_scan_data_ok j (wt_dc (wf_tabs w)) (wt_ac (wf_tabs w)) (wf_prog w) si _ (wf_pads w) W (proj1 A5) (proj2 A5) S FL)|].
    intros [body pads] _. cbn [jpost snd]. unfold wf_ok. cbn [wf_huff wf_quant wf_scans wf_tabs]. cbn [length] in A4.
    split; [exact A1|]. split; [exact A2|]. split; [exact (Forall_inv_tail A3)|]. split; [lia|exact A5]. }
  destruct (m =? 219).
  { eapply jpost_bind; [apply (write_dqt_ok _ A2)|]. intros [out s] S. cbn [jpost snd] in *. unfold wf_ok. cbn [wf_huff wf_quant wf_scans wf_tabs].
    split; [exact A1|]. split; [exact S|]. split; [exact A3|]. split; [destruct (218 =? m); lia|exact A5]. }
  destruct (m =? 221); [cbn [jpost snd]; apply K; reflexivity|].
  destruct (between m 224 239); [destruct (wf_app w); [exact I|]; cbn [jpost snd]; apply K; reflexivity|].
  destruct (m =? 254); [destruct (wf_com w); [exact I|]; cbn [jpost snd]; apply K; reflexivity|].
  destruct (m =? 255); [destruct (wf_inter w); [exact I|]; cbn [jpost snd]; apply K; reflexivity|]. exact I.
Qed.

Lemma write_sections_ok j : writer_ok j -> forall ms w, wf_ok ms w -> jpost (write_sections j ms w) (fun _ => True).
Proof.
  intros W. induction ms as [|m ms IH]; intros w H; cbn [write_sections]; [exact I|]. eapply jpost_bind; [apply (write_section_ok j m ms w W H)|]. intros [out w'] H'. cbn [snd] in H'.
  eapply jpost_bind; [apply (IH w' H')|]. intros outs _. exact I.
Qed.

Lemma write_jpeg_ok j : writer_ok j -> (count_marker 218 (j_markers j) <= length (j_scans j))%nat -> write_jpeg j <> JUB.
Proof.
  intros W H. enough (jpost (write_jpeg j) (fun _ => True)) by (destruct (write_jpeg j); [discriminate|discriminate|contradiction]).
  unfold write_jpeg. destruct (_ =? 1); [exact I|]. destruct (_ =? 0); [exact I|]. cbv zeta.
  eapply jpost_bind; [apply (write_sections_ok j W)|intros; exact I].
  assert (T : tabs_ok (repeat (repeat 0 256, repeat 0 256) 4)).
  { split; [reflexivity|]. apply Forall_forall. intros x Ix. apply repeat_spec in Ix. subst x. unfold tab_ok. cbn [fst snd]. rewrite repeat_length. split; [reflexivity|]. split; [reflexivity|].
    apply Forall_forall. intros d Id. apply repeat_spec in Id. lia. }
  unfold wf_ok. cbn [wf_huff wf_quant wf_scans wf_tabs]. split; [apply (wo_huff j W)|]. split; [apply (wo_quant j W)|]. split; [apply (wo_scans j W)|]. split; [exact H|]. split; exact T.
Qed.

(** * What a decoder hands out *)
Lemma decoded_writer_ok j : decoded_ok j -> Forall (fun c => Forall (fun b => -16384 <= nth 0 b 0 <= 16383) (c_coeffs c)) (j_comps j) ->
  writer_ok j /\ (count_marker 218 (j_markers j) <= length (j_scans j))%nat.
Proof.
  intros D HD. destruct (do_picture j D) as (P1 & P2 & P3 & P4 & P5 & P6). rewrite map_length in P4.
  destruct P6 as ((_ & G1) & (_ & G2) & G3 & (c1 & I1 & M1) & (c2 & I2 & M2) & G6 & _). cbn [grid_of g_max_h g_max_v g_mcu_rows g_mcu_cols g_blocks] in *.
  rewrite Forall_forall in P5. pose proof (P5 _ I1) as [S1 _]. pose proof (P5 _ I2) as [_ S2].
  split; [|destruct (do_scans j D) as [_ E]; lia]. constructor.
  - lia.
  - rewrite map_map in G6. pose proof (do_comps j D) as DC. rewrite Forall_forall in DC, HD. apply Forall_forall. intros c I. destruct (DC c I) as (A1 & A2 & A3 & A4).
    split; [|split; [split; [exact A3|]|lia]].
    + destruct (P5 (c_h c, c_v c)) as [B1 B2]; [apply in_map_iff; exists c; auto|]. cbn [fst snd] in *. unfold comp_grid. split; [lia|]. split; [lia|].
      assert (X : (c_wb c, c_hb c) = (j_mcu_cols j * c_h c, j_mcu_rows j * c_v c)).
      { clear - I G6. induction (j_comps j) as [|a l IH]; [destruct I|]. cbn [map fst snd] in G6. injection G6 as E1 E2 E3. destruct I as [->|I]; [congruence|apply IH; assumption]. }
      injection X as -> ->. auto.
    + pose proof (HD c I) as HC. rewrite Forall_forall in HC, A4. apply Forall_forall. intros b Ib. destruct (A4 b Ib) as (B1 & _ & B3). split; [exact B1|]. split; [exact (HC b Ib)|exact B3].
  - unfold grid_covers. split; [lia|]. split; [lia|]. auto.
  - apply (do_huff j D).
  - eapply Forall_impl; [|apply (proj2 (do_quant j D))]. cbv beta. intros q (_ & _ & (L & _)). exact L.
  - apply (do_scans j D).
Qed.
