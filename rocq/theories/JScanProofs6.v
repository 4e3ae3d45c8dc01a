(** The blocks of a scan: every block read is written again, in a run of blocks without a restart marker. *)
From Coq Require Import ZArith List Bool Lia.
From Verif Require Import Base JpegModel LehmerModel CoefModel JBitModel JWriteProofs JReadProofs JHuffModel JHuffProofs JHuffPair
  JScanModel JScanProofs1 JScanProofs2 JScanProofs3 JScanProofs4 JScanProofs5.
Import ListNotations.
Local Open Scope Z_scope.

Definition pos_of (v : compscan * Z) : Z * Z := (cs_comp (fst v), snd v).
Definition blk (comps : list component) (cb : Z * Z) : list Z :=
  nth (Z.to_nat (snd cb)) (c_coeffs (comp_at comps (fst cb))) [].

(** The block exists. *)
Definition in_comps (comps : list component) (cb : Z * Z) : Prop :=
  0 <= fst cb < Z.of_nat (length comps) /\ 0 <= snd cb < Z.of_nat (length (c_coeffs (comp_at comps (fst cb)))).

(** Everything but the coefficients. *)
Definition geo (c : component) : component := set_coeffs c [].
Definition same_shape (a b : list component) : Prop :=
  map geo a = map geo b /\ forall i, length (c_coeffs (comp_at a i)) = length (c_coeffs (comp_at b i)).

Lemma same_shape_refl a : same_shape a a.
Proof. split; auto. Qed.
Lemma same_shape_trans a b c : same_shape a b -> same_shape b c -> same_shape a c.
Proof. intros [A1 A2] [B1 B2]. split; [congruence|]. intros i. rewrite A2. apply B2. Qed.
Lemma same_shape_sym a b : same_shape a b -> same_shape b a.
Proof. intros [A1 A2]. split; [congruence|]. intros i. auto. Qed.
Lemma same_shape_length a b : same_shape a b -> length a = length b.
Proof. intros [E _]. apply (f_equal (@length _)) in E. rewrite !map_length in E. exact E. Qed.

Lemma comp_at_geo a i : geo (comp_at a i) = nth (Z.to_nat i) (map geo a) no_comp.
Proof. unfold comp_at. change no_comp with (geo no_comp) at 2. symmetry. apply map_nth. Qed.

Lemma same_geo a b i : map geo a = map geo b -> geo (comp_at a i) = geo (comp_at b i).
Proof. intros E. rewrite !comp_at_geo, E. reflexivity. Qed.

Lemma flat_map_ext_all {A B} (f g : A -> list B) l : (forall a, f a = g a) -> flat_map f l = flat_map g l.
Proof. intros H. induction l; cbn [flat_map]; [reflexivity|]. rewrite H, IHl. reflexivity. Qed.

Lemma mcu_visits_geo a b cs i yx : map geo a = map geo b -> mcu_visits a cs i yx = mcu_visits b cs i yx.
Proof.
  intros E. unfold mcu_visits. apply flat_map_ext_all. intros si.
  pose proof (same_geo a b (cs_comp si) E) as G. unfold geo, set_coeffs in G. injection G as G1 G2 G3 G4 G5 G6.
  cbv zeta. rewrite G2, G3, G5. reflexivity.
Qed.

Lemma in_comps_shape a b cb : same_shape a b -> in_comps a cb -> in_comps b cb.
Proof. intros S [H1 H2]. pose proof (same_shape_length _ _ S) as L. destruct S as [_ SL]. split; [lia|]. rewrite <- SL. exact H2. Qed.

Lemma in_comps_get comps cb : in_comps comps cb ->
  aget comps (fst cb) = JOk (comp_at comps (fst cb))
  /\ aget (c_coeffs (comp_at comps (fst cb))) (snd cb) = JOk (blk comps cb).
Proof.
  intros [H1 H2]. split; apply aget_Some; (split; [lia|]); apply nth_error_nth'; lia.
Qed.

(** Replace one block. *)
Definition put_blk (comps : list component) (cb : Z * Z) (b : list Z) : list component :=
  let c := comp_at comps (fst cb) in
  upd comps (Z.to_nat (fst cb)) (set_coeffs c (upd (c_coeffs c) (Z.to_nat (snd cb)) b)).

Lemma put_blk_at comps cb b i : in_comps comps cb -> 0 <= i ->
  comp_at (put_blk comps cb b) i =
  if i =? fst cb then set_coeffs (comp_at comps i) (upd (c_coeffs (comp_at comps i)) (Z.to_nat (snd cb)) b)
  else comp_at comps i.
Proof.
  intros [H1 H2] Hi. unfold put_blk, comp_at. cbv zeta. destruct (Z.eqb_spec i (fst cb)) as [->|N].
  - rewrite nth_upd_same by lia. reflexivity.
  - rewrite nth_upd_other by lia. reflexivity.
Qed.

Lemma map_upd {A B} (f : A -> B) l i v : map f (upd l i v) = upd (map f l) i (f v).
Proof. revert i; induction l as [|a l IH]; intros [|i]; cbn [upd map]; try reflexivity. rewrite IH. reflexivity. Qed.

Lemma upd_same_val {A} (l : list A) i d : (i < length l)%nat -> upd l i (nth i l d) = l.
Proof. revert i; induction l as [|a l IH]; intros [|i] H; cbn [upd nth length] in *; try reflexivity; try lia. rewrite IH by lia. reflexivity. Qed.

Lemma put_blk_shape comps cb b : in_comps comps cb -> same_shape comps (put_blk comps cb b).
Proof.
  intros H. split.
  - unfold put_blk. cbv zeta. rewrite map_upd.
    change (geo (set_coeffs (comp_at comps (fst cb)) (upd (c_coeffs (comp_at comps (fst cb))) (Z.to_nat (snd cb)) b))) with (geo (comp_at comps (fst cb))).
    rewrite comp_at_geo. symmetry. apply upd_same_val. rewrite map_length. destruct H as [H _]. lia.
  - intros i. destruct (Z.leb_spec 0 i) as [Hi|Hi].
    + rewrite (put_blk_at _ _ _ _ H Hi). destruct (i =? fst cb); [|reflexivity]. cbn [set_coeffs c_coeffs]. rewrite upd_length. reflexivity.
    + assert (E : forall a, comp_at a i = comp_at a 0) by (intros a; unfold comp_at; replace (Z.to_nat i) with (Z.to_nat 0) by lia; reflexivity).
      rewrite !E. rewrite (put_blk_at _ _ _ _ H (Z.le_refl 0)). destruct (0 =? fst cb); [|reflexivity]. cbn [set_coeffs c_coeffs]. rewrite upd_length. reflexivity.
Qed.

Lemma blk_put_same comps cb b : in_comps comps cb -> blk (put_blk comps cb b) cb = b.
Proof.
  intros H. unfold blk. rewrite (put_blk_at _ _ _ _ H) by (destruct H; lia). rewrite Z.eqb_refl. cbn [set_coeffs c_coeffs].
  apply nth_upd_same. destruct H. lia.
Qed.

Lemma blk_put_other comps cb b cb' : in_comps comps cb -> 0 <= fst cb' -> 0 <= snd cb' -> cb' <> cb -> blk (put_blk comps cb b) cb' = blk comps cb'.
Proof.
  intros H H1 H2 N. unfold blk. rewrite (put_blk_at _ _ _ _ H) by lia. destruct (Z.eqb_spec (fst cb') (fst cb)) as [E|E]; [|reflexivity].
  cbn [set_coeffs c_coeffs]. apply nth_upd_other. destruct cb as [x y], cb' as [x' y']. cbn [fst snd] in *. destruct H as [H3 H4]. cbn [fst snd] in *.
  intros E2. apply N. f_equal; lia.
Qed.

(** * What a scan may find in a block, and what it does to it *)
Definition ready (p : scanpar) (b : list Z) : Prop :=
  length b = 64%nat
  /\ (sp_ah p = 0 -> forall j, Z.max 1 (sp_ss p) <= j <= sp_se p -> zat b j = 0)
  /\ (sp_ah p <> 0 -> (forall j, Z.max 1 (sp_ss p) <= j <= sp_se p -> hist_ok (sp_al p) (zat b j))
      /\ (sp_ss p = 0 -> i16 (zat b 0) /\ (2 ^ (sp_al p + 1) | zat b 0))).

Definition stepped (p : scanpar) (b b' : list Z) : Prop :=
  length b' = 64%nat
  /\ (forall j, 0 <= j < 64 -> ~ (sp_ss p <= j <= sp_se p) -> zat b' j = zat b j)
  /\ (forall j, Z.max 1 (sp_ss p) <= j <= sp_se p -> ac_level (sp_al p) (zat b' j))
  /\ (sp_ss p = 0 -> i16 (zat b' 0) /\ (2 ^ sp_al p | zat b' 0))
  /\ (sp_ah p <> 0 -> (forall j, Z.max 1 (sp_ss p) <= j <= sp_se p -> Z.quot (zat b' j) (2 ^ (sp_al p + 1)) = Z.quot (zat b j) (2 ^ (sp_al p + 1)))
      /\ (sp_ss p = 0 -> zat b' 0 / 2 ^ (sp_al p + 1) = zat b 0 / 2 ^ (sp_al p + 1))).

Definition par_ok (p : scanpar) : Prop := 0 <= sp_ss p <= sp_se p /\ sp_se p <= 63 /\ 0 <= sp_al p <= 10.

(** The tables for one component of the scan. *)
Definition tabs_ok (dc_luts ac_luts : list (list (Z * Z))) (dc_tabs ac_tabs : list codetab) (p : scanpar) (si : compscan) : Prop :=
  exists dcl acl dct act, aget dc_luts (cs_dc si) = JOk dcl /\ aget ac_luts (cs_ac si) = JOk acl
    /\ aget dc_tabs (cs_dc si) = JOk dct /\ aget ac_tabs (cs_ac si) = JOk act
    /\ (sp_ss p = 0 -> slot_ok dcl dct) /\ (0 < sp_se p -> slot_ok acl act).

Definition mode_ok (p : scanpar) (mode : Z) : Prop :=
  (mode = 0 /\ sp_ss p = 0 /\ sp_se p = 63 /\ sp_al p = 0 /\ sp_ah p = 0) \/ (mode = 1 /\ sp_ah p = 0) \/ (mode = 2 /\ sp_ah p <> 0).

(** The writer's view of the recorded reset points and zero runs that are still to come. *)
Definition queues (w : wscan) (rest : list Z) (zrest : list (Z * Z)) : Prop :=
  (ws_nr w, ws_resets w) = pop_reset rest /\ ws_zruns w = zrest.
Definition coming (bsi : Z) (rest : list Z) (zrest : list (Z * Z)) : Prop :=
  Forall (fun i => bsi <= i) rest /\ Forall (fun e => bsi <= fst e) zrest.

Definition lasts_ok (l : list Z) : Prop := length l = 4%nat /\ Forall i16 l.

Lemma lasts_get l i : lasts_ok l -> 0 <= i < 4 -> exists a, aget l i = JOk a /\ i16 a.
Proof.
  intros [L F] H. destruct (aget_in l i ltac:(lia)) as [a E]. exists a. split; [exact E|]. rewrite Forall_forall in F. apply F. eapply aget_In; eauto.
Qed.
Lemma Forall_upd {A} (P : A -> Prop) l i v : Forall P l -> P v -> Forall P (upd l i v).
Proof. intros F Hv. revert i; induction F; intros [|i]; cbn [upd]; constructor; auto. Qed.

Definition written (CF : list component) (dc_tabs ac_tabs : list codetab) (mode : Z) (p : scanpar) (vs : list (compscan * Z))
    (r r' : rscan) (rst : list Z) (zr : list (Z * Z)) (Y : list bool) : Prop :=
  forall w P rest zrest, ws_bsi w = rs_bsi r -> ws_last w = rs_last r -> queues w (rst ++ rest) (zr ++ zrest) ->
    coming (rs_bsi r') rest zrest -> pend (ws_c w) (rs_eob r) P -> (sp_ss p = 0 -> clean (ws_c w)) ->
    exists w' X P', write_visits CF dc_tabs ac_tabs mode p vs w = JOk w'
      /\ ws_bsi w' = rs_bsi r' /\ ws_last w' = rs_last r' /\ queues w' rest zrest /\ ws_togo w' = ws_togo w /\ ws_next w' = ws_next w
      /\ wadv (ws_c w) (ws_c w') X /\ pend (ws_c w') (rs_eob r') P' /\ (sp_ss p = 0 -> clean (ws_c w')) /\ P ++ Y = X ++ P'.


Lemma queue_reset w (rst : bool) rest bsi zrest zr n : ws_bsi w = bsi -> 0 <= bsi -> 0 <= n ->
  queues w ((if rst then [bsi] else []) ++ rest) (zr ++ zrest) -> zr = (if 0 <? n then [(bsi, n)] else []) -> coming (bsi + 1) rest zrest ->
  (if ws_bsi w =? ws_nr w then let* st := flush (ws_c w) in JOk (st, pop_reset (ws_resets w)) else JOk (ws_c w, (ws_nr w, ws_resets w)))
    = (let* st := (if rst then flush (ws_c w) else JOk (ws_c w)) in JOk (st, pop_reset rest))
  /\ (if ws_bsi w =? next_zrun (ws_zruns w) then match ws_zruns w with (_, n) :: l => (n, l) | [] => (0, []) end else (0, ws_zruns w)) = (n, zrest).
Proof.
  intros Eb Hb Hn [Q1 Q2] Ez [C1 C2]. rewrite Eb. split.
  - destruct rst; cbn [app pop_reset] in Q1.
    + injection Q1 as N1 N2. rewrite N1, N2, Z.eqb_refl. reflexivity.
    + destruct rest as [|i rest]; cbn [pop_reset] in Q1; injection Q1 as N1 N2; rewrite N1, N2.
      * replace (bsi =? -1) with false by lia. reflexivity.
      * apply Forall_inv in C1. replace (bsi =? i) with false by lia. reflexivity.
  - rewrite Q2, Ez. destruct (Z.ltb_spec 0 n) as [H|H]; cbn [app next_zrun].
    + rewrite Z.eqb_refl. reflexivity.
    + replace n with 0 by lia. destruct zrest as [|[i m] zrest]; cbn [next_zrun].
      * replace (bsi =? -1) with false by lia. reflexivity.
      * apply Forall_inv in C2. cbn [fst] in C2. replace (bsi =? i) with false by lia. reflexivity.
Qed.

Opaque decode_block refine_block encode_seq encode_prog encode_refine flush.

Lemma read_visit_ok data p0 dc_luts ac_luts dc_tabs ac_tabs mode p v r U : bytes data -> par_ok p -> mode_ok p mode ->
  tabs_ok dc_luts ac_luts dc_tabs ac_tabs p (fst v) -> in_comps (rs_comps r) (pos_of v) -> fst (pos_of v) < 4 ->
  ready p (blk (rs_comps r) (pos_of v)) ->
  0 <= rs_bsi r -> lasts_ok (rs_last r) -> (sp_ss p = 0 -> rs_eob r <= 0) -> bri data p0 U (rs_s r) ->
  match read_visit data dc_luts ac_luts p v r with
  | JUB => False
  | JErr => True
  | JOk r' =>
      rs_bsi r' = rs_bsi r + 1 /\ rs_togo r' = rs_togo r /\ rs_next r' = rs_next r
      /\ rs_zero_pad r' = rs_zero_pad r /\ rs_padding r' = rs_padding r
      /\ lasts_ok (rs_last r') /\ (sp_ss p = 0 -> rs_eob r' <= 0)
      /\ exists b' rst zr Y, rs_comps r' = put_blk (rs_comps r) (pos_of v) b' /\ stepped p (blk (rs_comps r) (pos_of v)) b'
         /\ rs_resets r' = rs_resets r ++ rst /\ rs_zruns r' = rs_zruns r ++ zr /\ coming (rs_bsi r) rst zr
         /\ bri data p0 (U ++ Y) (rs_s r') /\ (rs_eob r <= 0 -> Y <> [])
         /\ forall CF, same_shape (rs_comps r) CF ->
             view (sp_ss p) (sp_se p) (sp_al p) (blk CF (pos_of v)) b' ->
             forall w P rest zrest, ws_bsi w = rs_bsi r -> ws_last w = rs_last r -> queues w (rst ++ rest) (zr ++ zrest) ->
               coming (rs_bsi r') rest zrest -> pend (ws_c w) (rs_eob r) P -> (sp_ss p = 0 -> clean (ws_c w)) ->
               exists w' X P', write_visit CF dc_tabs ac_tabs mode p v w = JOk w'
                 /\ ws_bsi w' = rs_bsi r' /\ ws_last w' = rs_last r' /\ queues w' rest zrest /\ ws_togo w' = ws_togo w /\ ws_next w' = ws_next w
                 /\ wadv (ws_c w) (ws_c w') X /\ pend (ws_c w') (rs_eob r') P' /\ (sp_ss p = 0 -> clean (ws_c w')) /\ P ++ Y = X ++ P'
  end.
Proof.
  intros Y (Hs & Hse & Hal) M (dcl & acl & dct & act & T1 & T2 & T3 & T4 & SD & SA) IC H4 (L & RF & RR) Hb HL HE I.
  unfold read_visit. pose proof IC as IC0. destruct (in_comps_get _ _ IC) as [G1 G2].
  unfold pos_of in G1, G2, H4. cbn [fst snd] in G1, G2, H4.
  assert (Hci : 0 <= cs_comp (fst v) < 4) by (destruct IC as [[H _] _]; unfold pos_of in H; cbn [fst] in H; lia).
  destruct (lasts_get _ (cs_comp (fst v)) HL Hci) as (last & GL & Il).
  cbv zeta. rewrite G1. cbn [jbind]. rewrite G2. cbn [jbind]. rewrite T1. cbn [jbind]. rewrite T2. cbn [jbind]. rewrite GL. cbn [jbind].
  change (cs_comp (fst v), snd v) with (pos_of v) in *. set (b := blk (rs_comps r) (pos_of v)) in *.
  set (rb0 := mkRB (rs_s r) (rs_eob r) false 0 b).
  assert (K : match (if sp_ah p =? 0 then decode_block data dcl acl (sp_ss p) (sp_se p) (sp_al p) last rb0
     else let* rb := refine_block data acl (sp_ss p) (sp_se p) (sp_al p) rb0 in JOk (rb, last)) with
     | JUB => False | JErr => True
     | JOk (rb, last') => i16 last' /\ stepped p b (rb_c rb) /\ 0 <= rb_nzr rb /\ (sp_ss p = 0 -> rb_eob rb <= 0)
         /\ exists Y', bri data p0 (U ++ Y') (rb_s rb) /\ (rs_eob r <= 0 -> Y' <> [])
           /\ forall bF st P, view (sp_ss p) (sp_se p) (sp_al p) bF (rb_c rb) -> pend st (rs_eob r) P -> (sp_ss p = 0 -> clean st) ->
              exists st1 st' X P', (if rb_reset rb then flush st else JOk st) = JOk st1
              /\ (if mode =? 0 then encode_seq bF dct act (rb_nzr rb) last st1
                  else if mode =? 1 then encode_prog bF dct act (sp_ss p) (sp_se p) (sp_al p) (rb_nzr rb) last st1
                  else let* st := encode_refine bF act (sp_ss p) (sp_se p) (sp_al p) st1 in JOk (last, st)) = JOk (last', st')
              /\ wadv st st' X /\ pend st' (rb_eob rb) P' /\ (sp_ss p = 0 -> clean st') /\ P ++ Y' = X ++ P'
     end).
  { destruct (Z.eqb_spec (sp_ah p) 0) as [Ea|Ea].
    - pose proof (decode_block_ok data p0 dcl acl dct act (sp_ss p) (sp_se p) (sp_al p) last rb0 U Y SD SA Hs Hse Hal Il L (RF Ea) eq_refl eq_refl HE I) as D.
      destruct (decode_block data dcl acl (sp_ss p) (sp_se p) (sp_al p) last rb0) as [[rb last']| |]; [|exact Logic.I|exact D].
      destruct D as (D1 & D2 & D3 & D4 & D5 & D6 & D7 & Y' & D8 & D9 & D10).
      split; [exact D1|]. split; [split; [exact D2|]; split; [exact D3|]; split; [exact D4|]; split; [exact D5|]; intros N; contradiction|].
      split; [exact D6|]. split; [exact D7|]. exists Y'. split; [exact D8|]. split; [exact D9|].
      intros bF st P V PE CL. destruct (D10 bF st P V PE CL) as (st1 & st' & X & P' & E1 & E2 & A1 & A2 & A3 & A4).
      cbn [rb_eob] in *.
      destruct M as [(Em & M1 & M2 & M3 & _)|[[Em _]|[Em M1]]]; [| |contradiction].
      + rewrite Em. change (0 =? 0) with true. cbv iota.
        assert (C1 : clean st1).
        { specialize (CL M1). destruct (rb_reset rb); [rewrite clean_flush in E1 by exact CL|]; injection E1 as <-; exact CL. }
        assert (O1 : wc_ops st1 = wc_ops st).
        { specialize (CL M1). destruct (rb_reset rb); [rewrite clean_flush in E1 by exact CL|]; injection E1 as <-; reflexivity. }
        rewrite M1, M2, M3 in E2.
        destruct (seq_from_prog bF dct act (rb_nzr rb) last st1 last' st') as (st2 & S1 & S2 & S3).
        * destruct V as [V _]. exact V.
        * destruct V as (_ & _ & V). intros j Hj. apply V. lia.
        * exact C1.
        * exact D6.
        * exact E2.
        * exists st1, st2, X, P'. split; [exact E1|]. split; [exact S1|].
          split; [eapply wadv_same; [|exact A1]; symmetry; exact S2|].
          pose proof (A4 M1) as C'. pose proof (proj1 C') as Z0. destruct (pend_zero _ _ _ A2 Z0) as (_ & EP & HR).
          split; [rewrite EP; apply pend_clean; assumption|]. split; [intros _; exact S3|exact A3].
      + rewrite Em. change (1 =? 0) with false. change (1 =? 1) with true. cbv iota.
        exists st1, st', X, P'. split; [exact E1|]. split; [exact E2|]. split; [exact A1|]. split; [exact A2|]. split; [exact A4|exact A3].
    - destruct (RR Ea) as [R1 R2].
      pose proof (refine_block_ok data p0 acl act (sp_ss p) (sp_se p) (sp_al p) rb0 U Y SA Hs Hse Hal L R1 R2 eq_refl eq_refl HE I) as D.
      destruct (refine_block data acl (sp_ss p) (sp_se p) (sp_al p) rb0) as [rb| |]; cbn [jbind]; [|exact Logic.I|exact D].
      destruct D as (D2 & D3 & D4 & D5 & D6 & D7 & Y' & D8 & D9 & D10).
      split; [exact Il|]. split.
      { split; [exact D2|]. split; [exact D3|]. split; [intros j Hj; eapply refd_level; [lia|exact (R1 j Hj)|exact (D4 j Hj)]|].
        split; [intros E0; destruct (D5 E0) as (Q1 & Q2 & _); auto|]. intros _.
        split; [intros j Hj; eapply refd_quot; [lia|exact (R1 j Hj)|exact (D4 j Hj)]|]. intros E0; destruct (D5 E0) as (_ & _ & Q); exact Q. }
      split; [rewrite D6; lia|]. split; [exact D7|]. exists Y'. split; [exact D8|]. split; [exact D9|].
      intros bF st P V PE CL. destruct (D10 bF st P V PE CL) as (st1 & st' & X & P' & E1 & E2 & A1 & A2 & A3 & A4).
      destruct M as [(Em & M1 & M2 & M3 & M4)|[[Em M1]|[Em M1]]]; [contradiction|contradiction|].
      rewrite Em. change (2 =? 0) with false. change (2 =? 1) with false. cbv iota.
      exists st1, st', X, P'. split; [exact E1|]. rewrite E2. cbn [jbind]. split; [reflexivity|]. split; [exact A1|]. split; [exact A2|]. split; [exact A4|exact A3]. }
  destruct (if sp_ah p =? 0 then decode_block data dcl acl (sp_ss p) (sp_se p) (sp_al p) last rb0
     else let* rb := refine_block data acl (sp_ss p) (sp_se p) (sp_al p) rb0 in JOk (rb, last)) as [[rb last']| |]; [|exact Logic.I|exact K].
  cbn [jbind]. destruct K as (K1 & K2 & K3 & K4 & Y' & K5 & K6 & K7).
  pose proof HL as [LL LF].
  rewrite (aset_ok (rs_last r)) by lia. cbn [jbind].
  rewrite (aset_ok (c_coeffs _)) by (destruct IC as [_ IC]; exact IC). cbn [jbind].
  rewrite (aset_ok (rs_comps r)) by (destruct IC as [IC _]; exact IC). cbn [jbind].
  cbn [rs_bsi rs_togo rs_next rs_zero_pad rs_padding rs_last rs_eob rs_comps rs_resets rs_zruns rs_s].
  split; [reflexivity|]. split; [reflexivity|]. split; [reflexivity|]. split; [reflexivity|]. split; [reflexivity|].
  split; [split; [rewrite upd_length; exact LL|apply Forall_upd; assumption]|]. split; [exact K4|].
  exists (rb_c rb), (if rb_reset rb then [rs_bsi r] else []), (if 0 <? rb_nzr rb then [(rs_bsi r, rb_nzr rb)] else []), Y'.
  split; [reflexivity|]. split; [exact K2|].
  split; [destruct (rb_reset rb); [reflexivity|rewrite app_nil_r; reflexivity]|].
  split; [destruct (0 <? rb_nzr rb); [reflexivity|rewrite app_nil_r; reflexivity]|].
  split; [split; [destruct (rb_reset rb)|destruct (0 <? rb_nzr rb)]; repeat constructor; cbn [fst]; lia|].
  split; [exact K5|]. split; [exact K6|].
  intros CF SH V w P rest zrest Eb El Q CM PE CL.
  pose proof (in_comps_shape _ _ _ SH IC) as ICF. destruct (in_comps_get _ _ ICF) as [F1 F2].
  unfold write_visit. cbv zeta. change (cs_comp (fst v)) with (fst (pos_of v)). rewrite F1. cbn [jbind]. rewrite T3. cbn [jbind]. rewrite T4. cbn [jbind].
  destruct (queue_reset w (rb_reset rb) rest (rs_bsi r) zrest _ (rb_nzr rb) Eb Hb K3 Q eq_refl CM) as [Q1 Q2].
  rewrite Q1, Q2. destruct (K7 (blk CF (pos_of v)) (ws_c w) P V PE CL) as (st1 & st' & X & P' & W1 & W2 & W3 & W4 & W5 & W6).
  rewrite W1. cbn [jbind]. destruct (pop_reset rest) as [nr resets] eqn:EPR. cbv iota.
  change (snd v) with (snd (pos_of v)). rewrite F2. cbn [jbind]. rewrite El. change (fst (pos_of v)) with (cs_comp (fst v)). rewrite GL. cbn [jbind].
  match goal with |- context [if mode =? 0 then ?a else ?b] => set (G := if mode =? 0 then a else b) end.
  assert (EG : G = JOk (last', st')) by exact W2. rewrite EG. cbn [jbind]. rewrite (aset_ok (rs_last r)) by lia. cbn [jbind].
  eexists _, X, P'. split; [reflexivity|]. cbn [ws_bsi ws_last ws_togo ws_next ws_c].
  split; [lia|]. split; [reflexivity|]. split; [split; cbn [ws_nr ws_resets ws_zruns]; [rewrite EPR; reflexivity|reflexivity]|].
  split; [reflexivity|]. split; [reflexivity|]. split; [exact W3|]. split; [exact W4|]. split; [exact W5|exact W6].
Qed.

Lemma read_visits_ok data p0 dc_luts ac_luts dc_tabs ac_tabs mode p : bytes data -> par_ok p -> mode_ok p mode ->
  forall vs r U,
  Forall (fun v => tabs_ok dc_luts ac_luts dc_tabs ac_tabs p (fst v)) vs ->
  Forall (fun v => in_comps (rs_comps r) (pos_of v) /\ fst (pos_of v) < 4) vs ->
  Forall (fun v => ready p (blk (rs_comps r) (pos_of v))) vs ->
  NoDup (map pos_of vs) -> 0 <= rs_bsi r -> lasts_ok (rs_last r) -> (sp_ss p = 0 -> rs_eob r <= 0) -> bri data p0 U (rs_s r) ->
  match read_visits data dc_luts ac_luts p vs r with
  | JUB => False
  | JErr => True
  | JOk r' =>
      rs_bsi r' = rs_bsi r + Z.of_nat (length vs) /\ rs_togo r' = rs_togo r /\ rs_next r' = rs_next r
      /\ rs_zero_pad r' = rs_zero_pad r /\ rs_padding r' = rs_padding r
      /\ lasts_ok (rs_last r') /\ (sp_ss p = 0 -> rs_eob r' <= 0) /\ same_shape (rs_comps r) (rs_comps r')
      /\ (forall cb, 0 <= fst cb -> 0 <= snd cb -> ~ In cb (map pos_of vs) -> blk (rs_comps r') cb = blk (rs_comps r) cb)
      /\ Forall (fun v => stepped p (blk (rs_comps r) (pos_of v)) (blk (rs_comps r') (pos_of v))) vs
      /\ exists rst zr Y, rs_resets r' = rs_resets r ++ rst /\ rs_zruns r' = rs_zruns r ++ zr /\ coming (rs_bsi r) rst zr
         /\ bri data p0 (U ++ Y) (rs_s r') /\ (vs <> [] -> rs_eob r <= 0 -> Y <> [])
         /\ forall CF, same_shape (rs_comps r) CF ->
             Forall (fun v => view (sp_ss p) (sp_se p) (sp_al p) (blk CF (pos_of v)) (blk (rs_comps r') (pos_of v))) vs ->
             written CF dc_tabs ac_tabs mode p vs r r' rst zr Y
  end.
Proof.
  intros Y PO M. induction vs as [|v vs IH]; intros r U TA IC RD ND Hb HL HE I.
  - cbn [read_visits length map]. split; [lia|]. do 4 (split; [reflexivity|]). split; [exact HL|]. split; [exact HE|]. split; [apply same_shape_refl|].
    split; [reflexivity|]. split; [constructor|]. exists [], [], []. rewrite !app_nil_r. split; [reflexivity|]. split; [reflexivity|].
    split; [split; constructor|]. split; [exact I|]. split; [congruence|].
    intros CF _ _ w P rest zrest Eb El Q CM PE CL. cbn [write_visits app] in *. exists w, [], P. rewrite app_nil_r.
    do 3 (split; [auto|]). split; [exact Q|]. do 2 (split; [reflexivity|]). split; [apply wadv_refl|]. auto.
  - inversion TA as [|? ? TA1 TA2]; subst. inversion IC as [|? ? [IC1 H4] IC2]; subst. inversion RD as [|? ? RD1 RD2]; subst.
    cbn [map] in ND. inversion ND as [|? ? ND1 ND2]; subst.
    cbn [read_visits]. pose proof (read_visit_ok data p0 dc_luts ac_luts dc_tabs ac_tabs mode p v r U Y PO M TA1 IC1 H4 RD1 Hb HL HE I) as D.
    destruct (read_visit data dc_luts ac_luts p v r) as [r1| |]; cbn [jbind]; [|exact Logic.I|exact D].
    destruct D as (D1 & D2 & D3 & D4 & D5 & D6 & D7 & b' & rst & zr & Y1 & D8 & D9 & D10 & D11 & D12 & D13 & D14 & D15).
    pose proof (put_blk_shape (rs_comps r) (pos_of v) b' IC1) as SH. rewrite <- D8 in SH.
    assert (KEEP : forall v', In v' vs -> blk (rs_comps r1) (pos_of v') = blk (rs_comps r) (pos_of v')).
    { intros v' Hv. rewrite D8. rewrite Forall_forall in IC2. destruct (IC2 v' Hv) as [[IA IB] _]. apply blk_put_other; [exact IC1|lia|lia|].
      intros E. apply ND1. rewrite <- E. apply in_map. exact Hv. }
    specialize (IH r1 (U ++ Y1) TA2).
    assert (IC2' : Forall (fun v => in_comps (rs_comps r1) (pos_of v) /\ fst (pos_of v) < 4) vs).
    { rewrite Forall_forall in IC2 |- *. intros v' Hv. destruct (IC2 v' Hv) as [A B]. split; [eapply in_comps_shape; eauto|exact B]. }
    assert (RD2' : Forall (fun v => ready p (blk (rs_comps r1) (pos_of v))) vs).
    { rewrite Forall_forall in RD2 |- *. intros v' Hv. rewrite (KEEP v' Hv). auto. }
    specialize (IH IC2' RD2' ND2 ltac:(lia) D6 D7 D13).
    destruct (read_visits data dc_luts ac_luts p vs r1) as [r'| |]; [|exact Logic.I|exact IH].
    destruct IH as (J1 & J2 & J3 & J4 & J5 & J6 & J7 & J8 & J9 & J10 & rst2 & zr2 & Y2 & J11 & J12 & J13 & J14 & J15 & J16).
    assert (VB : blk (rs_comps r') (pos_of v) = b').
    { rewrite J9; [rewrite D8; apply blk_put_same; exact IC1| | |exact ND1]; destruct IC1; lia. }
    split; [rewrite J1, D1; cbn [length]; lia|]. split; [congruence|]. split; [congruence|]. split; [congruence|]. split; [congruence|].
    split; [exact J6|]. split; [exact J7|]. split; [eapply same_shape_trans; eauto|].
    split. { intros cb H1 H2 N. cbn [map In] in N. rewrite J9 by (auto || tauto). rewrite D8. apply blk_put_other; auto. }
    split. { constructor; [rewrite VB; exact D9|]. rewrite Forall_forall in J10 |- *. intros v' Hv. rewrite <- (KEEP v' Hv). auto. }
    exists (rst ++ rst2), (zr ++ zr2), (Y1 ++ Y2). split; [rewrite J11, D10, app_assoc; reflexivity|]. split; [rewrite J12, D11, app_assoc; reflexivity|].
    assert (CM2 : coming (rs_bsi r) rst2 zr2).
    { destruct J13 as [A B]. split; [eapply Forall_impl; [|exact A]|eapply Forall_impl; [|exact B]]; intros ? H; cbv beta in H |- *; lia. }
    split. { destruct D12, CM2. split; apply Forall_app; auto. }
    split; [rewrite app_assoc; exact J14|].
    split. { intros _ HR E. apply app_eq_nil in E as [E _]. exact (D14 HR E). }
    intros CF SF VF. pose proof (Forall_inv VF) as VF1; pose proof (Forall_inv_tail VF) as VF2; cbv beta in VF1. specialize (J16 CF (same_shape_trans _ _ _ (same_shape_sym _ _ SH) SF) VF2).
    rewrite VB in VF1. specialize (D15 CF SF VF1).
    intros w P rest zrest Eb El Q CM PE CL. rewrite <- !app_assoc in Q.
    assert (CMT : coming (rs_bsi r1) (rst2 ++ rest) (zr2 ++ zrest)).
    { destruct J13 as [A B], CM as [A' B']. split; apply Forall_app; (split; [assumption|]);
        [eapply Forall_impl; [|exact A']|eapply Forall_impl; [|exact B']]; intros ? H; cbv beta in H |- *; lia. }
    destruct (D15 w P _ _ Eb El Q CMT PE CL) as (w1 & X1 & P1 & E1 & W1 & W2 & W3 & W4 & W5 & W6 & W7 & W8 & W9).
    destruct (J16 w1 P1 rest zrest W1 W2 W3 CM W7 W8) as (w2 & X2 & P2 & E2 & V1 & V2 & V3 & V4 & V5 & V6 & V7 & V8 & V9).
    exists w2, (X1 ++ X2), P2. cbn [write_visits]. rewrite E1. cbn [jbind]. split; [exact E2|]. split; [exact V1|]. split; [exact V2|]. split; [exact V3|].
    split; [congruence|]. split; [congruence|]. split; [eapply wadv_trans; eauto|]. split; [exact V7|]. split; [exact V8|].
    rewrite app_assoc, W9, <- app_assoc, V9, app_assoc. reflexivity.
Qed.
Transparent decode_block refine_block encode_seq encode_prog encode_refine flush.
