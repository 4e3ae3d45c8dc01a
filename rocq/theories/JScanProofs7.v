(** The entropy-coded data of a scan: what is read from it is written back to the byte. *)
From Coq Require Import ZArith List Bool Lia.
From Verif Require Import Base JpegModel LehmerModel CoefModel JBitModel JWriteProofs JReadProofs JHuffModel JHuffProofs JHuffPair
  JScanModel JScanProofs1 JScanProofs2 JScanProofs3 JScanProofs4 JScanProofs5 JScanProofs6.
Import ListNotations.
Local Open Scope Z_scope.

Lemma render_app ops2 : forall ops1 acc pads,
  render acc (ops1 ++ ops2) pads =
  match render acc ops1 pads with
  | None => None
  | Some (o1, a1, p1) => match render a1 ops2 p1 with None => None | Some (o2, a2, p2) => Some (o1 ++ o2, a2, p2) end
  end.
Proof.
  induction ops1 as [|o ops1 IH]; intros acc pads; cbn [app render].
  - destruct (render acc ops2 pads) as [[[o2 a2] p2]|]; reflexivity.
  - destruct o as [n v| |m].
    + apply IH.
    + destruct (padding (pad_need (length acc)) pads) as [[pb pads']|]; [|reflexivity]. rewrite IH.
      destruct (render [] ops1 pads') as [[[o1 a1] p1]|]; [|reflexivity]. destruct (render a1 ops2 p1) as [[[o2 a2] p2]|]; [|reflexivity].
      rewrite app_assoc. reflexivity.
    + destruct acc; [|reflexivity]. rewrite IH.
      destruct (render [] ops1 pads) as [[[o1 a1] p1]|]; [|reflexivity]. destruct (render a1 ops2 p1) as [[[o2 a2] p2]|]; reflexivity.
Qed.

Lemma render_bitops l : Forall bitop l -> forall acc pads, render acc l pads = Some ([], acc ++ obits l, pads).
Proof.
  induction 1 as [|o l (n & v & E & H) F IH]; intros acc pads; cbn [render].
  - cbn [obits flat_map]. rewrite app_nil_r. reflexivity.
  - subst o. rewrite IH. cbn [obits flat_map]. rewrite <- app_assoc. reflexivity.
Qed.

Lemma render_adv st st' X pads0 out W left : wadv st st' X -> render [] (wc_ops st) pads0 = Some (out, W, left) ->
  render [] (wc_ops st') pads0 = Some (out, W ++ X, left).
Proof.
  intros (l & E & F & O) R. rewrite E, render_app, R, render_bitops by exact F. rewrite app_nil_r, O. reflexivity.
Qed.

Lemma wadv_ops_ok st st' X : wadv st st' X -> Forall op_ok (wc_ops st) -> Forall op_ok (wc_ops st').
Proof.
  intros (l & E & F & _) H. rewrite E. apply Forall_app. split; [exact H|]. eapply Forall_impl; [|exact F]. intros o (n & v & -> & A & B). split; assumption.
Qed.

(** The padding source: the recorded bits, or none when all of them are ones. *)
Definition padsof (zp : bool) (l : list Z) : option (list Z) := if zp then Some l else None.

Lemma padding_ok zp pb tail : (zp = false -> forallb (fun b => b) pb = true) ->
  padding (length pb) (padsof zp (map b2z pb ++ tail)) = Some (pb, padsof zp tail).
Proof.
  intros H. destruct zp; cbn [padsof padding].
  - replace (length pb <=? length (map b2z pb ++ tail))%nat with true by (rewrite app_length, map_length; symmetry; apply Nat.leb_le; lia).
    rewrite <- (map_length b2z pb), firstn_app_exact, skipn_app_exact.
    f_equal. f_equal. rewrite map_map. rewrite <- (map_id pb) at 2. apply map_ext. intros []; reflexivity.
  - f_equal. f_equal. specialize (H eq_refl). clear tail. induction pb as [|b pb IH]; [reflexivity|]. cbn [forallb] in H. apply andb_true_iff in H as [-> H].
    cbn [length repeat]. rewrite IH by exact H. reflexivity.
Qed.

(** Writing [bs] at a byte boundary. *)
Lemma render_jump ops pads0 out U bs pb zp tail : render [] ops pads0 = Some (out, U, padsof zp (map b2z pb ++ tail)) ->
  bytes bs -> byte_bits bs = U ++ pb -> length pb = pad_need (length U) -> (zp = false -> forallb (fun b => b) pb = true) ->
  render [] (ops ++ [WJumpOp]) pads0 = Some (out ++ stuff bs, [], padsof zp tail).
Proof.
  intros R Yb EB LP HZ. rewrite render_app, R. cbn [render]. rewrite <- LP, padding_ok by exact HZ. cbv zeta.
  replace (packm (length (U ++ pb) / 8) (U ++ pb)) with bs; [rewrite app_nil_r; reflexivity|].
  rewrite <- EB. assert (L : length (byte_bits bs) = (8 * length bs)%nat) by apply byte_bits_length.
  replace (length (byte_bits bs) / 8)%nat with (length bs) by (rewrite L, Nat.mul_comm, Nat.div_mul; lia).
  apply byte_bits_inj; [exact Yb|apply packm_bytes; lia|]. symmetry. apply packm_bits. exact L.
Qed.

(** The writer stands where the reader stands: [out] is written, [W] are the bits behind it, and
    the bits of the current end-of-band run are still to come. *)
Definition linked (data : list Z) (pos0 : Z) (pads0 left : option (list Z)) (p : scanpar) (p0 : Z) (U : list bool) (r : rscan)
    (rest : list Z) (zrest : list (Z * Z)) (w : wscan) : Prop :=
  exists out W P, ws_bsi w = rs_bsi r /\ ws_last w = rs_last r /\ ws_next w = rs_next r /\ (0 < sp_restart p -> ws_togo w = rs_togo r)
    /\ queues w rest zrest /\ Forall op_ok (wc_ops (ws_c w)) /\ render [] (wc_ops (ws_c w)) pads0 = Some (out, W, left)
    /\ sl data pos0 out /\ p0 = pos0 + Z.of_nat (length out) /\ U = W ++ P /\ pend (ws_c w) (rs_eob r) P /\ (sp_ss p = 0 -> clean (ws_c w)).

(** The reader's state between two MCUs. *)
Definition rstate (data : list Z) (p : scanpar) (p0 : Z) (U : list bool) (r : rscan) : Prop :=
  bri data p0 U (rs_s r) /\ 1 <= p0 <= Z.of_nat (length data) /\ ((rs_bsi r = 0 /\ rs_eob r <= 0) \/ U <> [] \/ aget data (p0 - 1) <> JOk 255)
  /\ 0 <= rs_bsi r /\ lasts_ok (rs_last r) /\ (sp_ss p = 0 -> rs_eob r <= 0) /\ 0 <= rs_next r <= 7.

Lemma finish_unhinted data p0 U s : bytes data -> bri data p0 U s -> (U <> [] \/ aget data (p0 - 1) <> JOk 255) ->
  br_finish data s = JErr \/ exists z pads pos bs pb, br_finish data s = JOk (z, pads, pos)
     /\ bytes bs /\ byte_bits bs = U ++ pb /\ length pb = pad_need (length U)
     /\ pads = map b2z pb /\ z = negb (forallb (fun b => b) pb)
     /\ p0 <= pos <= Z.of_nat (length data)
     /\ ((sl data p0 (stuff bs) /\ pos = p0 + Z.of_nat (length (stuff bs))) \/ no_marker data pos).
Proof. intros Y I H. destruct (finish_ok data p0 U s Y I H) as [[E _]|K]; [left; exact E|right; exact K]. Qed.

Lemma zero_pad_or a pb : (a || negb (forallb (fun b => b) pb) = false)%bool -> a = false /\ forallb (fun b : bool => b) pb = true.
Proof. destruct a, (forallb _ pb); auto; discriminate. Qed.

Lemma lasts_zero : lasts_ok (repeat 0 4).
Proof. split; [reflexivity|]. repeat constructor; unfold i16; lia. Qed.

(** What one or more MCUs do to the reader's record, apart from the coefficients. *)
Definition recorded (r r' : rscan) (rst : list Z) (zr : list (Z * Z)) (pb : list bool) : Prop :=
  rs_resets r' = rs_resets r ++ rst /\ rs_zruns r' = rs_zruns r ++ zr /\ coming (rs_bsi r) rst zr
  /\ rs_padding r' = rs_padding r ++ map b2z pb /\ rs_zero_pad r' = (rs_zero_pad r || negb (forallb (fun b => b) pb))%bool.

Lemma recorded_refl r r' : rs_resets r' = rs_resets r -> rs_zruns r' = rs_zruns r -> rs_padding r' = rs_padding r -> rs_zero_pad r' = rs_zero_pad r ->
  recorded r r' [] [] [].
Proof.
  intros E1 E2 E3 E4. unfold recorded, coming. cbn [map forallb negb]. rewrite !app_nil_r, orb_false_r. repeat split; auto.
Qed.

Lemma read_restart_ok data p p0 U r : bytes data -> rstate data p p0 U r ->
  (0 < sp_restart p -> rs_togo r = 0 -> rs_bsi r <> 0) ->
  match read_restart data p r with
  | JUB => False
  | JErr => True
  | JOk r' => exists p0' U' pb, rstate data p p0' U' r' /\ recorded r r' [] [] pb /\ rs_comps r' = rs_comps r /\ rs_bsi r' = rs_bsi r
     /\ (r' = r \/ rs_eob r' <= 0)
     /\ (0 < sp_restart p -> rs_togo r' = if rs_togo r =? 0 then sp_restart p else rs_togo r)
     /\ forall zp pads0 pos0 tail rest zrest w, (zp = false -> forallb (fun b => b) pb = true) ->
        linked data pos0 pads0 (padsof zp (map b2z pb ++ tail)) p p0 U r rest zrest w ->
        exists w', write_restart p w = JOk w' /\ linked data pos0 pads0 (padsof zp tail) p p0' U' r' rest zrest w'
  end.
Proof.
  intros Y (I & Hp & HF & Hb & HL & HE & HN) HT. unfold read_restart.
  destruct (Z.ltb_spec 0 (sp_restart p)) as [H0|H0]; [destruct (Z.eqb_spec (rs_togo r) 0) as [T0|T0]|]; cbn [andb].
  2,3: (exists p0, U, []; split; [exact (conj I (conj Hp (conj HF (conj Hb (conj HL (conj HE HN))))))|]; split; [apply recorded_refl; reflexivity|]; split; [reflexivity|]; split; [reflexivity|]; split; [left; reflexivity|]; split; [intros; try lia; (destruct (Z.eqb_spec (rs_togo r) 0); [lia|reflexivity])|]; intros zp pads0 pos0 tail rest zrest w _ LK; exists w; split; [|exact LK]; destruct LK as (out & W & P & _ & _ & _ & LT & _); unfold write_restart).
  2: (rewrite (LT H0); destruct (Z.eqb_spec (rs_togo r) 0); [lia|]; rewrite andb_false_r; reflexivity).
  2: (destruct (Z.ltb_spec 0 (sp_restart p)); [lia|]; reflexivity).
  assert (HF' : U <> [] \/ aget data (p0 - 1) <> JOk 255) by (specialize (HT H0 T0); intuition).
  destruct (finish_unhinted data p0 U (rs_s r) Y I HF') as [E|(z & pads & pos & bs & pb & E & Yb & EB & LP & EP & EZ & Hpos & C)]; rewrite E; cbn [jbind]; [exact Logic.I|].
  destruct (Z.ltb_spec (Z.of_nat (length data)) (pos + 2)) as [|HL2]; [exact Logic.I|].
  destruct (aget data pos) as [a| |] eqn:Ea; cbn [jbind]; [|exact Logic.I|destruct (aget_in data pos) as [x Ex]; [lia|congruence]].
  destruct (Z.eqb_spec a 255) as [->|]; cbn [negb]; [|exact Logic.I].
  destruct (aget data (pos + 1)) as [m| |] eqn:Em; cbn [jbind]; [|exact Logic.I|destruct (aget_in data (pos + 1)) as [x Ex]; [lia|congruence]].
  destruct (Z.eqb_spec m (208 + rs_next r)) as [->|]; cbn [negb]; [|exact Logic.I].
  destruct C as [[SL EPos]|NM]; [|specialize (NM pos _ ltac:(lia) Ea Em); lia].
  destruct (reset_ok data (pos + 2) Y ltac:(lia)) as (s & ER & IR). rewrite ER. cbn [jbind].
  destruct (Z.ltb_spec 0 (rs_eob r)) as [|HR]; [exact Logic.I|].
  exists (pos + 2), [], pb.
  split. { split; [exact IR|]. split; [lia|]. split; [right; right; replace (pos + 2 - 1) with (pos + 1) by lia; rewrite Em; intros Q; injection Q; lia|].
    cbn [rs_bsi rs_last rs_eob rs_next]. split; [exact Hb|]. split; [exact lasts_zero|]. split; [lia|].
    change 7 with (Z.ones 3). rewrite Z.land_ones by lia. change (2 ^ 3) with 8. pose proof (Z.mod_pos_bound (rs_next r + 1) 8). change (Z.ones 3) with 7. lia. }
  split. { cbn [fst snd]. unfold recorded. cbn [rs_resets rs_zruns rs_bsi rs_padding rs_zero_pad]. rewrite !app_nil_r, EP, EZ. repeat split; constructor. }
  split; [reflexivity|]. split; [reflexivity|]. split; [right; cbn [rs_eob]; lia|].
  split; [reflexivity|].
  intros zp pads0 pos0 tail rest zrest w HZ (out & W & P & L1 & L2 & L3 & L4 & L5 & L6 & L7 & L8 & L9 & L10 & L11 & L12).
  unfold write_restart. rewrite (L4 H0). destruct (Z.ltb_spec 0 (sp_restart p)); [|lia]. rewrite T0, Z.eqb_refl. cbn [andb].
  destruct (pend_flush _ _ _ L11 HR) as (st & EF & CL & AD). rewrite EF. cbn [jbind].
  eexists. split; [reflexivity|]. pose proof (render_adv _ _ _ _ _ _ _ AD L7) as R1. rewrite <- L10 in R1.
  pose proof (render_jump _ _ _ _ bs pb zp tail R1 Yb EB LP HZ) as R2.
  exists (out ++ stuff bs ++ [255; 208 + rs_next r]), [], []. cbn [ws_bsi ws_last ws_next ws_togo ws_c rs_bsi rs_last rs_next rs_togo rs_eob].
  split; [exact L1|]. split; [reflexivity|]. split; [rewrite L3; reflexivity|]. split; [reflexivity|]. split; [exact L5|].
  split. { cbn [put wc_ops]. apply Forall_app; split; [apply Forall_app; split; [eapply wadv_ops_ok; eauto|repeat constructor]|repeat constructor]. }
  split. { cbn [put wc_ops]. rewrite render_app, R2. cbn [render]. rewrite L3, <- app_assoc. reflexivity. }
  split. { apply sl_join; [exact L8|]. rewrite <- L9. apply sl_join; [exact SL|]. rewrite <- EPos.
    change ([255; 208 + rs_next r]) with (([] ++ [255]) ++ [208 + rs_next r]). apply sl_snoc; [apply sl_snoc; [apply sl_nil; lia|]|]; cbn [app length]; [replace (pos + Z.of_nat 0) with pos by lia; exact Ea|exact Em]. }
  split; [rewrite !app_length; cbn [length]; lia|]. split; [reflexivity|].
  assert (CL2 : clean (put (WMarkerOp (208 + ws_next w)) (put WJumpOp st))) by exact CL.
  split; [apply pend_clean; [exact CL2|lia]|intros _; exact CL2].
Qed.

Lemma coming_app b b' rst zr rest zrest : coming b rst zr -> coming b' rest zrest -> b <= b' -> coming b (rst ++ rest) (zr ++ zrest).
Proof.
  intros [A B] [A' B'] H. split; apply Forall_app; (split; [assumption|]);
    [eapply Forall_impl; [|exact A']|eapply Forall_impl; [|exact B']]; intros ? K; cbv beta in K |- *; lia.
Qed.

Lemma recorded_trans a b c rst zr pb rst2 zr2 pb2 : rs_bsi a <= rs_bsi b -> recorded a b rst zr pb -> recorded b c rst2 zr2 pb2 ->
  recorded a c (rst ++ rst2) (zr ++ zr2) (pb ++ pb2).
Proof.
  intros H (A1 & A2 & A3 & A4 & A5) (B1 & B2 & B3 & B4 & B5). unfold recorded.
  rewrite B1, A1, B2, A2, B4, A4, map_app, <- !app_assoc. do 2 (split; [reflexivity|]). split; [eapply coming_app; eauto|]. split; [reflexivity|].
  rewrite B5, A5, forallb_app. destruct (rs_zero_pad a), (forallb _ pb), (forallb _ pb2); reflexivity.
Qed.

Definition minus_one (p : scanpar) (r : rscan) : rscan :=
  if 0 <? sp_restart p
  then mkRS (rs_s r) (rs_eob r) (rs_last r) (rs_bsi r) (rs_togo r - 1) (rs_next r) (rs_comps r)
         (rs_resets r) (rs_zruns r) (rs_zero_pad r) (rs_padding r) else r.

Lemma minus_one_fields p r : rs_s (minus_one p r) = rs_s r /\ rs_eob (minus_one p r) = rs_eob r /\ rs_last (minus_one p r) = rs_last r
  /\ rs_bsi (minus_one p r) = rs_bsi r /\ rs_next (minus_one p r) = rs_next r /\ rs_comps (minus_one p r) = rs_comps r
  /\ rs_resets (minus_one p r) = rs_resets r /\ rs_zruns (minus_one p r) = rs_zruns r /\ rs_zero_pad (minus_one p r) = rs_zero_pad r
  /\ rs_padding (minus_one p r) = rs_padding r /\ (0 < sp_restart p -> rs_togo (minus_one p r) = rs_togo r - 1).
Proof. unfold minus_one. destruct (Z.ltb_spec 0 (sp_restart p)); repeat split; intros; lia. Qed.

Definition visits_of (comps : list component) (p : scanpar) (ms : list (Z * Z)) : list (compscan * Z) :=
  flat_map (mcu_visits comps (sp_cs p) (sp_inter p)) ms.

Lemma visits_of_geo a b p ms : map geo a = map geo b -> visits_of a p ms = visits_of b p ms.
Proof. intros E. apply flat_map_ext_all. intros m. apply mcu_visits_geo. exact E. Qed.

Opaque read_visits write_visits read_restart write_restart.

Lemma read_mcus_ok data dc_luts ac_luts dc_tabs ac_tabs mode p : bytes data -> par_ok p -> mode_ok p mode ->
  forall ms r p0 U, rstate data p p0 U r -> (0 < sp_restart p -> rs_togo r = 0 -> rs_bsi r <> 0) ->
  Forall (fun v => tabs_ok dc_luts ac_luts dc_tabs ac_tabs p (fst v)) (visits_of (rs_comps r) p ms) ->
  Forall (fun v => in_comps (rs_comps r) (pos_of v) /\ fst (pos_of v) < 4) (visits_of (rs_comps r) p ms) ->
  Forall (fun v => ready p (blk (rs_comps r) (pos_of v))) (visits_of (rs_comps r) p ms) ->
  NoDup (map pos_of (visits_of (rs_comps r) p ms)) ->
  Forall (fun m => mcu_visits (rs_comps r) (sp_cs p) (sp_inter p) m <> []) ms ->
  match read_mcus data dc_luts ac_luts p ms r with
  | JUB => False
  | JErr => True
  | JOk r' => exists p0' U' rst zr pb, rstate data p p0' U' r' /\ recorded r r' rst zr pb
      /\ rs_bsi r' = rs_bsi r + Z.of_nat (length (visits_of (rs_comps r) p ms)) /\ same_shape (rs_comps r) (rs_comps r')
      /\ (forall cb, 0 <= fst cb -> 0 <= snd cb -> ~ In cb (map pos_of (visits_of (rs_comps r) p ms)) -> blk (rs_comps r') cb = blk (rs_comps r) cb)
      /\ Forall (fun v => stepped p (blk (rs_comps r) (pos_of v)) (blk (rs_comps r') (pos_of v))) (visits_of (rs_comps r) p ms)
      /\ forall CF, same_shape (rs_comps r) CF ->
          Forall (fun v => view (sp_ss p) (sp_se p) (sp_al p) (blk CF (pos_of v)) (blk (rs_comps r') (pos_of v))) (visits_of (rs_comps r) p ms) ->
          forall zp pads0 pos0 tail rest zrest w, (zp = false -> forallb (fun b => b) pb = true) -> coming (rs_bsi r') rest zrest ->
            linked data pos0 pads0 (padsof zp (map b2z pb ++ tail)) p p0 U r (rst ++ rest) (zr ++ zrest) w ->
            exists w', write_mcus CF dc_tabs ac_tabs mode p ms w = JOk w'
              /\ linked data pos0 pads0 (padsof zp tail) p p0' U' r' rest zrest w'
  end.
Proof.
  intros Y PO M. induction ms as [|m ms IH]; intros r p0 U RS HT TA IC RD ND NE.
  - cbn [read_mcus]. exists p0, U, [], [], []. split; [exact RS|]. split; [apply recorded_refl; reflexivity|].
    cbn [visits_of flat_map length map]. split; [lia|]. split; [apply same_shape_refl|]. split; [reflexivity|]. split; [constructor|].
    intros CF _ _ zp pads0 pos0 tail rest zrest w _ _ LK. exists w. split; [reflexivity|exact LK].
  - cbn [visits_of flat_map] in *. fold (visits_of (rs_comps r) p ms) in *. set (vs := mcu_visits (rs_comps r) (sp_cs p) (sp_inter p) m) in *.
    apply Forall_app in TA as [TA1 TA2]. apply Forall_app in IC as [IC1 IC2]. apply Forall_app in RD as [RD1 RD2].
    rewrite map_app in ND. pose proof (Forall_inv NE) as NE1. pose proof (Forall_inv_tail NE) as NE2. cbv beta in NE1. fold vs in NE1.
    cbn [read_mcus]. unfold read_mcu.
    pose proof (read_restart_ok data p p0 U r Y RS HT) as R.
    destruct (read_restart data p r) as [r1| |]; cbn [jbind]; [|exact Logic.I|exact R].
    destruct R as (p1 & U1 & pb1 & RS1 & RC1 & EC1 & EB1 & HE1 & HT1 & W1).
    cbv zeta. fold (minus_one p r1). destruct (minus_one_fields p r1) as (F1 & F2 & F3 & F4 & F5 & F6 & F7 & F8 & F9 & F10 & F11).
    set (r2 := minus_one p r1) in *. destruct (br_unhealthy (rs_s r2)); [exact Logic.I|].
    destruct RS1 as (I1 & Hp1 & HF1 & Hb1 & HL1 & HEo1 & HN1).
    assert (EC : rs_comps r2 = rs_comps r) by congruence.
    pose proof (read_visits_ok data p1 dc_luts ac_luts dc_tabs ac_tabs mode p Y PO M vs r2 U1 TA1) as V.
    rewrite EC in V. fold vs in V. specialize (V IC1 RD1).
    assert (ND1 : NoDup (map pos_of vs) /\ NoDup (map pos_of (visits_of (rs_comps r) p ms)) /\ forall x, In x (map pos_of vs) -> ~ In x (map pos_of (visits_of (rs_comps r) p ms))).
    { clear - ND. induction (map pos_of vs) as [|a l IHl]; cbn [app] in ND; [split; [constructor|]; split; [exact ND|]; intros x []|].
      apply NoDup_cons_iff in ND as [N1 N2]. destruct (IHl N2) as (A & B & C). split; [constructor; [|exact A]|split; [exact B|]].
      - intros H. apply N1. apply in_or_app. left. exact H.
      - intros x [->|H]; [|auto]. intros H. apply N1. apply in_or_app. right. exact H. }
    destruct ND1 as (ND1 & ND2 & NDX).
    specialize (V ND1 ltac:(rewrite F4; exact Hb1) ltac:(rewrite F3; exact HL1) ltac:(rewrite F2; exact HEo1) ltac:(rewrite F1; exact I1)).
    rewrite EC. fold vs.
    destruct (read_visits data dc_luts ac_luts p vs r2) as [r3| |]; cbn [jbind]; [|exact Logic.I|exact V].
    destruct V as (V1 & V2 & V3 & V4 & V5 & V6 & V7 & V8 & V9 & V10 & rst & zr & Y1 & V11 & V12 & V13 & V14 & V15 & V16).
    rewrite F4, EB1 in V1. assert (LN : (0 < length vs)%nat) by (destruct vs; [congruence|cbn [length]; lia]).
    assert (KEEP : forall v, In v (visits_of (rs_comps r) p ms) -> blk (rs_comps r3) (pos_of v) = blk (rs_comps r) (pos_of v)).
    { intros v Hv. rewrite Forall_forall in IC2. destruct (IC2 v Hv) as [[IA IB] _]. apply V9; [lia|lia|]. intros H.
      apply (NDX _ H). apply in_map. exact Hv. }
    assert (EV : visits_of (rs_comps r3) p ms = visits_of (rs_comps r) p ms) by (apply visits_of_geo; symmetry; apply V8).
    specialize (IH r3 p1 (U1 ++ Y1)). rewrite EV in IH.
    assert (RS3 : rstate data p p1 (U1 ++ Y1) r3).
    { split; [exact V14|]. split; [exact Hp1|]. split.
      - right. destruct HF1 as [[B0 E0]|[H|H]]; [left|left|right; exact H].
        + intros E. apply app_eq_nil in E as [_ E]. revert E. apply V15; [exact NE1|rewrite F2; exact E0].
        + intros E. apply app_eq_nil in E as [E _]. exact (H E).
      - split; [lia|]. split; [exact V6|]. split; [exact V7|]. rewrite V3, F5. exact HN1. }
    specialize (IH RS3 ltac:(intros; lia) TA2).
    assert (IC2' : Forall (fun v => in_comps (rs_comps r3) (pos_of v) /\ fst (pos_of v) < 4) (visits_of (rs_comps r) p ms)).
    { rewrite Forall_forall in IC2 |- *. intros v' Hv. destruct (IC2 v' Hv) as [A B]. split; [eapply in_comps_shape; eauto|exact B]. }
    assert (RD2' : Forall (fun v => ready p (blk (rs_comps r3) (pos_of v))) (visits_of (rs_comps r) p ms)).
    { rewrite Forall_forall in RD2 |- *. intros v' Hv. rewrite (KEEP v' Hv). auto. }
    assert (NE2' : Forall (fun m => mcu_visits (rs_comps r3) (sp_cs p) (sp_inter p) m <> []) ms).
    { eapply Forall_impl; [|exact NE2]. intros m' Hm. rewrite (mcu_visits_geo (rs_comps r3) (rs_comps r)); [exact Hm|symmetry; apply V8]. }
    specialize (IH IC2' RD2' ND2 NE2').
    destruct (read_mcus data dc_luts ac_luts p ms r3) as [r'| |]; [|exact Logic.I|exact IH].
    destruct IH as (p3 & U3 & rst3 & zr3 & pb3 & J1 & J2 & J3 & J4 & J5 & J6 & J7).
    assert (RC3 : recorded r1 r3 rst zr []).
    { unfold recorded. rewrite V11, V12, V5, V4, F7, F8, F9, F10. cbn [map forallb negb]. rewrite app_nil_r, orb_false_r.
      do 2 (split; [reflexivity|]). split; [rewrite <- F4; exact V13|]. split; reflexivity. }
    exists p3, U3, (rst ++ rst3), (zr ++ zr3), (pb1 ++ pb3).
    split; [exact J1|]. split.
    { pose proof (recorded_trans r r3 r' _ _ _ _ _ _ ltac:(lia) (recorded_trans r r1 r3 _ _ _ _ _ _ ltac:(lia) RC1 RC3) J2) as RT. cbn [app] in RT. rewrite app_nil_r in RT. exact RT. }
    split; [rewrite J3, V1, app_length; lia|]. split; [eapply same_shape_trans; eauto|].
    assert (VB : forall v, In v vs -> blk (rs_comps r') (pos_of v) = blk (rs_comps r3) (pos_of v)).
    { intros v Hv. rewrite Forall_forall in IC1. destruct (IC1 v Hv) as [[IA IB] _]. apply J5; [lia|lia|]. apply NDX, in_map. exact Hv. }
    split. { intros cb H1 H2 N. rewrite map_app in N. rewrite J5 by (auto; intros H; apply N, in_or_app; auto). apply V9; auto. intros H; apply N, in_or_app; auto. }
    split. { apply Forall_app. split; rewrite Forall_forall in *; intros v Hv; [rewrite (VB v Hv); auto|rewrite <- (KEEP v Hv); auto]. }
    intros CF SF VF zp pads0 pos0 tail rest zrest w HZ CM LK. apply Forall_app in VF as [VF1 VF2].
    rewrite forallb_app in HZ. rewrite map_app, <- !app_assoc in LK.
    assert (HZ1 : zp = false -> forallb (fun b : bool => b) pb1 = true) by (intros E; specialize (HZ E); apply andb_true_iff in HZ; tauto).
    assert (HZ3 : zp = false -> forallb (fun b : bool => b) pb3 = true) by (intros E; specialize (HZ E); apply andb_true_iff in HZ; tauto).
    destruct (W1 zp pads0 pos0 _ _ _ w HZ1 LK) as (w1 & EW1 & LK1).
    cbn [write_mcus]. unfold write_mcu. rewrite EW1. cbn [jbind].
    rewrite (mcu_visits_geo CF (rs_comps r)) by (symmetry; apply SF). fold vs.
    destruct LK1 as (out & W & P & L1 & L2 & L3 & L4 & L5 & L6 & L7 & L8 & L9 & L10 & L11 & L12).
    assert (VF1' : Forall (fun v => view (sp_ss p) (sp_se p) (sp_al p) (blk CF (pos_of v)) (blk (rs_comps r3) (pos_of v))) vs).
    { rewrite Forall_forall in VF1 |- *. intros v Hv. rewrite <- (VB v Hv). auto. }
    destruct (V16 CF SF VF1' w1 P (rst3 ++ rest) (zr3 ++ zrest)) as (w2 & X & P2 & EW2 & A1 & A2 & A3 & A4 & A5 & A6 & A7 & A8 & A9).
    { congruence. } { congruence. } { exact L5. } { eapply coming_app; [|exact CM|lia]. apply J2. } { rewrite F2. exact L11. } { exact L12. }
    rewrite EW2. cbn [jbind].
    match goal with |- context [mkWS ?a ?b ?c ?d ?e ?f ?g ?h] => set (w3 := mkWS a b c d e f g h) end.
    destruct (J7 CF (same_shape_trans _ _ _ (same_shape_sym _ _ V8) SF) VF2 zp pads0 pos0 tail rest zrest w3 HZ3 CM) as (w4 & EW4 & LK4).
    { exists out, (W ++ X), P2. unfold w3. cbn [ws_bsi ws_last ws_next ws_togo ws_c].
      split; [exact A1|]. split; [exact A2|]. split; [congruence|].
      split; [intros H0; rewrite A4, (L4 H0), V2, (F11 H0); reflexivity|]. split; [exact A3|].
      split; [eapply wadv_ops_ok; eauto|]. split; [eapply render_adv; eauto|]. split; [exact L8|]. split; [exact L9|].
      split; [rewrite L10, <- !app_assoc, A9; reflexivity|]. split; [exact A7|exact A8]. }
    exists w4. split; [exact EW4|exact LK4].
Qed.
Transparent read_visits write_visits read_restart write_restart.
