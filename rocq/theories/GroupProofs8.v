(** What DecodeGroups leaves, whatever the bytes. *)
From Verif Require Import Base JpegModel CodesModel CodesProofs HeaderModel HeaderProofs BitProofs Stream EntropyModel CoefModel CoefProofs DCProofs PropsCoef HSecModel MetaModel InternalsModel InternalsProofs QuantModel
  Machine ContainerModel DriverModel GrammarProofs Decoder DecoderProofs1 DecoderProofs2 DecodedSpec PropsDecoder ProgressModel ProgressProofs1 JpegSpec GroupModel GroupProofs1 GroupProofs2 GroupProofs3 GroupProofs5 GroupProofs7.
From Coq Require Import Permutation.

Lemma run_tasks_keeps {S R} (task : nat -> S -> option (R * S)) (Inv : list nat -> S -> Prop) :
  (forall done i s r s', Inv done s -> ~ In i done -> task i s = Some (r, s') -> Inv (i :: done) s') ->
  forall order done s rs t, NoDup order -> (forall i, In i order -> ~ In i done) -> Inv done s -> run_tasks task order s = Some (rs, t) -> exists done', Inv done' t.
Proof.
  intros St. induction order as [|i order IH]; intros done s rs t ND HD HI E; cbn [run_tasks] in E.
  - injection E as _ <-. eauto.
  - apply obind_some in E. destruct E as ([r s1] & E1 & E). apply obind_some in E. destruct E as ([r1 t1] & E2 & E). injection E as _ <-. cbn [fst snd] in *.
    apply NoDup_cons_iff in ND. destruct ND as [N1 N2]. apply (IH (i :: done) s1 r1 t1 N2); [|eapply St; [exact HI| |exact E1]|exact E2].
    + intros k Hk [->|Hd]; [contradiction|]. apply (HD k); [right; exact Hk|exact Hd].
    + apply HD. left. reflexivity.
Qed.

Definition blk_dc (b : block) : Prop := exists v, b = v :: repeat 0 63 /\ -32768 <= v <= 32767.
Definition blk_valid (b : block) : Prop := length b = 64%nat /\ -32768 <= nth 0 b 0 <= 32767 /\ forall v, In v (tl b) -> Z.abs v <= 2054.
Lemma blk_dc_valid b : blk_dc b -> blk_valid b.
Proof.
  intros (v & -> & H). split; [cbn [length]; rewrite repeat_length; reflexivity|]. split; [exact H|]. cbn [tl]. intros x Hx. apply repeat_spec in Hx. subst x. cbn. lia.
Qed.

Lemma upd_Forall {A} (P : A -> Prop) : forall (l : list A) i v, Forall P l -> P v -> Forall P (upd l i v).
Proof. induction l as [|a l IH]; intros [|i] v H V; cbn [upd]; try assumption; inversion H; subst; constructor; auto. Qed.
Lemma scatter_Forall {A} (P : A -> Prop) : forall cs p vs q, scatter p cs vs = Some q -> Forall P p -> Forall P vs -> Forall P q.
Proof.
  induction cs as [|c cs IH]; intros p [|v vs] q E Hp Hv; cbn [scatter] in E; try discriminate; [injection E as <-; exact Hp|].
  destruct (_ <? _)%nat; [|discriminate]. eapply IH; [exact E|apply upd_Forall; [exact Hp|exact (Forall_inv Hv)]|exact (Forall_inv_tail Hv)].
Qed.
Lemma scatter_all_Forall {A} (P : A -> Prop) : forall p cs vs q, scatter_all p cs vs = Some q -> Forall (Forall P) p -> Forall (Forall P) vs -> Forall (Forall P) q.
Proof.
  induction p as [|a p IH]; intros [|c cs] [|v vs] q E Hp Hv; cbn [scatter_all] in E; try discriminate; [injection E as <-; exact Hp|].
  apply obind_some in E. destruct E as (x & Ex & E). apply obind_some in E. destruct E as (t & Et & E). injection E as <-. inversion Hp; inversion Hv; subst.
  constructor; [eapply scatter_Forall; eassumption|eapply IH; eassumption].
Qed.
Lemma scatter_all_sized {A} L samp : forall (p : list (list A)) cs vs q, scatter_all p cs vs = Some q -> sized L samp p -> sized L samp q.
Proof.
  intros p cs vs q E [S1 S2]. apply scatter_all_iff in E. destruct E as (L1 & L2 & L3 & H). split; [lia|]. intros i s Es. destruct (S2 i s Es) as (a & Ea & La).
  destruct (nth_error cs i) as [c|] eqn:Ec; [|apply nth_error_None in Ec; pose proof (nth_error_lt _ _ _ Ea); lia].
  destruct (nth_error vs i) as [v|] eqn:Ev; [|apply nth_error_None in Ev; pose proof (nth_error_lt _ _ _ Ea); lia].
  destruct (H i a c v Ea Ec Ev) as (w & Ew & Sc). exists w. split; [exact Ew|]. rewrite (scatter_length _ _ _ _ Sc). exact La.
Qed.
Lemma gather_from {A} (p : list A) : forall cs vs, gather p cs = Some vs -> forall v, In v vs -> exists c, In c cs /\ nth_error p c = Some v.
Proof.
  induction cs as [|c cs IH]; intros vs E v Hv; cbn [gather] in E; [injection E as <-; destruct Hv|]. apply obind_some in E. destruct E as (a & Ea & E).
  apply obind_some in E. destruct E as (t & Et & E). injection E as <-. destruct Hv as [<-|Hv]; [exists c; split; [left; reflexivity|exact Ea]|].
  destruct (IH t Et v Hv) as (d & D1 & D2). exists d. split; [right; exact D1|exact D2].
Qed.

Lemma dc_planes_blocks ms planes flags : dc_planes_ok ms planes flags -> Forall (Forall blk_dc) planes.
Proof.
  intros (L1 & L2 & H). apply Forall_forall. intros q Hq. apply In_nth_error in Hq. destruct Hq as [i Ei].
  destruct (nth_error ms i) as [m|] eqn:Em; [|apply nth_error_None in Em; pose proof (nth_error_lt _ _ _ Ei); unfold plane, block in *; lia].
  destruct (H i m Em) as (q' & fl & E1 & _ & _ & _ & F). unfold plane, block in *. rewrite Ei in E1. injection E1 as <-. exact F.
Qed.

Section Keep.
  Context (p : picture) (ms : list cmeta) (cmap : list Z) (codes : list (list Z)) (ac dc : nat) (R : ready p ms cmap codes ac dc).
  Notation L := (layout_of (pi_grid p)).
  Notation samp := (psamp p).

  Lemma comp_nth i s m : nth_error samp i = Some s -> nth_error ms i = Some m -> (cm_w m * cm_h m)%nat = blocks_of L s.
  Proof.
    intros Es Em. pose proof (rd_comp _ _ _ _ _ _ R) as C. assert (C0 : comp_ok L s m).
    { clear R. revert i Es Em. induction C as [|s0 m0 l l' C0 C IH]; intros [|i] Es Em; cbn [nth_error] in *; try discriminate; [injection Es as <-; injection Em as <-; exact C0|eauto]. }
    destruct C0 as (_ & _ & -> & -> & _). reflexivity.
  Qed.
  Lemma comp_len : length ms = length samp.
  Proof. pose proof (rd_comp _ _ _ _ _ _ R) as C. clear - C; symmetry; revert C; generalize samp; intros l C; induction C as [|a b l1 l2 H C IH]; cbn [length]; [reflexivity|rewrite IH; reflexivity]. Qed.

  Definition dc_inv (s : list plane * list (list bool)) : Prop := sized L samp (fst s) /\ sized L samp (snd s) /\ Forall (Forall blk_dc) (fst s).
  Lemma sized_ms {A} (f : cmeta -> list A) : (forall m, length (f m) = (cm_w m * cm_h m)%nat) -> sized L samp (map f ms).
  Proof.
    intros H. split; [rewrite map_length; apply comp_len|]. intros i s Es. destruct (nth_error ms i) as [m|] eqn:Em; [|apply nth_error_None in Em; pose proof (nth_error_lt _ _ _ Es); pose proof comp_len; lia].
    exists (f m). split; [apply map_nth_error, Em|]. rewrite H. apply (comp_nth i); assumption.
  Qed.
  Lemma dc_inv_start : dc_inv (map (fun m => repeat (repeat 0 64) (cm_w m * cm_h m)) ms, map (fun m => repeat false (cm_w m * cm_h m)) ms).
  Proof.
    split; [apply sized_ms; intros; apply repeat_length|]. split; [apply sized_ms; intros; apply repeat_length|]. cbn [fst]. rewrite Forall_map. apply Forall_forall. intros m _.
    apply Forall_forall. intros b Hb. apply repeat_spec in Hb. subst b. exists 0. split; [reflexivity|lia].
  Qed.
  Lemma tables_small : tables_ok cmap codes (9 * Z.of_nat (length ms)).
  Proof. eapply tables_ok_mono; [|exact (rd_tab _ _ _ _ _ _ R)]. pose proof (num_contexts_ge _ _ (rd_lay _ _ _ _ _ _ R)). lia. Qed.
  Lemma dc_inv_step chunks i s r s' : length chunks = groups L dc -> dc_inv s -> dec_dc_task L dc samp ms cmap codes chunks i s = Some (r, s') -> dc_inv s'.
  Proof.
    intros Lc (I1 & I2 & I3) E. unfold dec_dc_task in E. apply obind_some in E. destruct E as (g & G & E). apply obind_some in E. destruct E as (c & C & E). apply obind_some in E. destruct E as (y & Y & E).
    apply obind_some in E. destruct E as ([pr fr] & Ed & E). apply obind_some in E. destruct E as (pl & P & E). apply obind_some in E. destruct E as (fl & F & E). injection E as _ <-. cbn [fst snd] in *.
    assert (Hi : (i < groups L dc)%nat) by (rewrite <- Lc; apply (nth_error_lt _ _ _ C)).
    destruct (parts_in _ _ _ _ _ _ R dc i (rd_dc _ _ _ _ _ _ R) Hi) as (g' & G' & _ & SC & MO & _). rewrite G in G'. apply some_inj in G'. subst g'. destruct (contexts_same _ _ SC) as [_ Lg].
    destruct (C42_decoded_dc_bounded cmap codes (map fst g) _ MO ltac:(rewrite Lg; exact tables_small) pr fr Ed) as [DP _].
    split; [eapply scatter_all_sized; eassumption|]. split; [eapply scatter_all_sized; eassumption|]. eapply scatter_all_Forall; [exact P|exact I3|exact (dc_planes_blocks _ _ _ DP)].
  Qed.

  Definition ac_inv (done : list nat) (planes : list plane) : Prop := sized L samp planes /\ Forall (Forall blk_valid) planes /\ (forall g, In g done -> (g < groups L ac)%nat) /\
    forall i s q, nth_error samp i = Some s -> nth_error planes i = Some q -> forall d b, nth_error q d = Some b -> (forall g, In g done -> ~ In d (cells_of L ac s g)) -> blk_dc b.
  Lemma ac_inv_start planes : sized L samp planes -> Forall (Forall blk_dc) planes -> ac_inv [] planes.
  Proof.
    intros S F. split; [exact S|]. split; [eapply Forall_impl; [|exact F]; cbv beta; intros q Hq; eapply Forall_impl; [exact blk_dc_valid|exact Hq]|]. split; [intros g []|].
    intros i s q _ Eq d b Eb _. rewrite Forall_forall in F. specialize (F q (nth_error_In _ _ Eq)). rewrite Forall_forall in F. apply F, (nth_error_In _ _ Eb).
  Qed.
  Lemma ac_inv_step chunks flags done i planes r planes' : length chunks = groups L ac -> sized L samp flags -> ac_inv done planes -> ~ In i done ->
    dec_ac_task L ac samp ms cmap codes chunks flags i planes = Some (r, planes') -> ac_inv (i :: done) planes'.
  Proof.
    intros Lc SF (I1 & I2 & I3 & I4) ND E. unfold dec_ac_task in E. apply obind_some in E. destruct E as (g & G & E). apply obind_some in E. destruct E as (c & C & E). apply obind_some in E. destruct E as (y & Y & E).
    apply obind_some in E. destruct E as (ps & Ep & E). apply obind_some in E. destruct E as (fs & Ef & E). apply obind_some in E. destruct E as (res & Ed & E). apply obind_some in E. destruct E as (pl & P & E). injection E as _ <-.
    assert (Hi : (i < groups L ac)%nat) by (rewrite <- Lc; apply (nth_error_lt _ _ _ C)). pose proof (rd_ac _ _ _ _ _ _ R) as FA. pose proof (rd_pos _ _ _ _ _ _ R) as SP.
    destruct (parts_in _ _ _ _ _ _ R ac i FA Hi) as (g' & G' & M & SC & MO & SZ). rewrite G in G'. apply some_inj in G'. subst g'. destruct (contexts_same _ _ SC) as [Nc Lg].
    rewrite M in *. apply (gather_all_spec L ac samp) in Ep; [|exact I1]. destruct Ep as [Lp Hp]. apply (gather_all_spec L ac samp) in Ef; [|exact SF]. destruct Ef as [Lf Hf].
    pose proof comp_len as CLn.
    assert (DP : dc_planes_ok (map fst g) ps fs).
    { unfold plane, block in *. split; [exact (eq_trans Lp (eq_sym (eq_trans Lg CLn)))|]. split; [exact (eq_trans Lf (eq_sym (eq_trans Lg CLn)))|]. intros k m Em.
      destruct (nth_error samp k) as [s|] eqn:Es; [|apply nth_error_None in Es; pose proof (nth_error_lt _ _ _ Em); lia].
      destruct I1 as [_ I1]. destruct SF as [_ SF]. destruct (I1 k s Es) as (a & Ea & _). destruct (SF k s Es) as (fa & Efa & _).
      destruct (Hp k s a Es Ea) as (v & Ev & Gv). destruct (Hf k s fa Es Efa) as (w & Ew & Gw). exists v, w.
      assert (SZk : length (cells_of L ac s i) = (cm_w m * cm_h m)%nat).
      { clear - SZ Es Em. revert k Es Em. induction SZ as [|s0 m0 l l' Z0 Z IH]; intros [|k] Es Em; cbn [nth_error] in *; try discriminate; [injection Es as <-; injection Em as <-; exact Z0|eauto]. }
      split; [exact Ev|]. split; [exact Ew|]. split; [exact (eq_trans (gather_length _ _ _ Gv) SZk)|]. split; [exact (eq_trans (gather_length _ _ _ Gw) SZk)|].
      apply Forall_forall. intros b Hb. destruct (gather_from _ _ _ Gv b Hb) as (d & Hd & Ebd). apply (I4 k s a Es Ea d b Ebd). intros g0 Hg0 Hin.
      apply ND. rewrite <- (pa_one _ _ _ (part L ac FA samp SP k s Es) g0 i d (I3 g0 Hg0) Hi Hin Hd). exact Hg0. }
    destruct (C42_decoded_ac_bounded cmap codes false (map fst g) fs ps _ MO ltac:(rewrite Lg; exact (layout_same _ _ SC _ (rd_lay _ _ _ _ _ _ R))) ltac:(rewrite Nc; exact (rd_tab _ _ _ _ _ _ R)) DP res Ed) as [Lr Hr].
    assert (VR : Forall (Forall blk_valid) res).
    { apply Forall_forall. intros q Hq. apply In_nth_error in Hq. destruct Hq as [k Ek].
      destruct (nth_error (map fst g) k) as [m|] eqn:Em; [|apply nth_error_None in Em; pose proof (nth_error_lt _ _ _ Ek); unfold plane, block in *; lia].
      destruct (proj2 (proj2 DP) k m Em) as (p0 & fl & E0 & _ & L0 & _ & B0). destruct (Hr k m p0 Em E0) as (q' & Eq & Lq & Bq & Dq). unfold plane, block in *. rewrite Ek in Eq. injection Eq as <-.
      apply Forall_forall. intros b Hb. destruct (Bq b Hb) as [Lb Vb]. split; [exact Lb|]. split; [|exact Vb]. apply In_nth_error in Hb. destruct Hb as [j Hj]. specialize (Dq j). unfold dc_at in Dq.
      pose proof (nth_error_nth _ _ [] Hj) as Ej. unfold plane, block in *. rewrite Ej in Dq. rewrite Dq.
      destruct (nth_error p0 j) as [b0|] eqn:E00.
      - pose proof (nth_error_nth _ _ [] E00) as E01. rewrite E01. rewrite Forall_forall in B0. destruct (B0 b0 (nth_error_In _ _ E00)) as (v & -> & Hv). cbn [nth]. exact Hv.
      - assert (E01 : nth j p0 [] = []) by (apply nth_overflow, nth_error_None; exact E00). rewrite E01. cbn [nth]. lia. }
    split; [eapply scatter_all_sized; eassumption|]. split; [eapply scatter_all_Forall; [exact P|exact I2|exact VR]|]. split; [intros g0 [<-|H]; auto|].
    intros k s q Es Eq d b Eb HN. apply scatter_all_iff in P. destruct P as (Q1 & Q2 & Q3 & Q4).
    destruct I1 as [_ I1]. destruct (I1 k s Es) as (a & Ea & _). pose proof (gcells_nth L ac samp i k s Es) as Ec.
    destruct (nth_error res k) as [v|] eqn:Ev; [|apply nth_error_None in Ev; pose proof (nth_error_lt _ _ _ Ea); unfold plane, block in *; lia].
    destruct (Q4 k a _ v Ea Ec Ev) as (q' & Eq' & Sc). unfold plane, block in *. rewrite Eq in Eq'. injection Eq' as <-.
    rewrite (scatter_other _ _ _ _ Sc d (HN i (or_introl eq_refl))) in Eb. apply (I4 k s a Es Ea d b Eb). intros g0 Hg0. apply HN. right. exact Hg0.
  Qed.

  Lemma planes_final {A} (planes : list (list A)) (P : A -> Prop) : sized L samp planes -> Forall (Forall P) planes ->
    Forall2 (fun m q => length q = (cm_w m * cm_h m)%nat /\ Forall P q) ms planes.
  Proof.
    intros [Sl S] F. pose proof comp_len as CLn.
    assert (H : forall i m q, nth_error ms i = Some m -> nth_error planes i = Some q -> length q = (cm_w m * cm_h m)%nat /\ Forall P q).
    { intros i m q Em Eq. destruct (nth_error samp i) as [s|] eqn:Es; [|apply nth_error_None in Es; pose proof (nth_error_lt _ _ _ Em); lia]. destruct (S i s Es) as (a & Ea & La). rewrite Eq in Ea. injection Ea as <-.
      rewrite (comp_nth i s m Es Em). split; [exact La|]. rewrite Forall_forall in F. apply F, (nth_error_In _ _ Eq). }
    assert (Ln : length planes = length ms) by lia. clear - H Ln. revert planes H Ln. induction ms as [|m l IH]; intros [|q planes] H Ln; cbn [length] in Ln; try lia; constructor; [apply (H 0%nat); reflexivity|].
    apply IH; [|lia]. intros i m' q' A1 A2. apply (H (Datatypes.S i)); assumption.
  Qed.
  Lemma dc_final planes flags : dc_inv (planes, flags) -> dc_planes_ok ms planes flags.
  Proof.
    intros (I1 & I2 & I3). cbn [fst snd] in *. pose proof comp_len as CLn. unfold plane, block in *. split; [exact (eq_trans (proj1 I1) (eq_sym CLn))|]. split; [exact (eq_trans (proj1 I2) (eq_sym CLn))|]. intros i m Em.
    destruct (nth_error samp i) as [s|] eqn:Es; [|apply nth_error_None in Es; pose proof (nth_error_lt _ _ _ Em); lia].
    destruct (proj2 I1 i s Es) as (a & Ea & La). destruct (proj2 I2 i s Es) as (b & Eb & Lb). exists a, b. rewrite (comp_nth i s m Es Em). split; [exact Ea|]. split; [exact Eb|]. split; [exact La|]. split; [exact Lb|].
    rewrite Forall_forall in I3. exact (I3 a (nth_error_In _ _ Ea)).
  Qed.
End Keep.

Lemma skip_section_app l a b : skip_section l = Some (a, b) -> l = a ++ b.
Proof.
  unfold skip_section. destruct l as [|m r]; [discriminate|]. destruct (decode_base128 r) as [n rest| |]; try discriminate. destruct (_ <=? _); [|discriminate]. cbv zeta. intros E.
  set (k := (length (m :: r) - length rest + Z.to_nat n)%nat) in E. injection E as <- <-. symmetry. apply firstn_skipn.
Qed.
Lemma skip_sections_app : forall n l ss r, skip_sections n l = Some (ss, r) -> l = concat ss ++ r.
Proof.
  induction n as [|n IH]; intros l ss r E; cbn [skip_sections] in E; [injection E as <- <-; reflexivity|]. apply obind_some in E. destruct E as ([s l'] & Es & E).
  apply obind_some in E. destruct E as ([t u] & E & F). injection F as <- <-. cbn [fst snd] in *. rewrite (skip_section_app _ _ _ Es), (IH _ _ _ E). cbn [concat]. rewrite app_assoc. reflexivity.
Qed.

Theorem group_decoder_well_formed B D ac dc od oa j : bytes D -> NoDup oa -> NoDup od -> decode_groups B D ac dc od oa = GOk j -> decoded_ok j.
Proof.
  intros Hb Na Nd E. unfold decode_groups in E. destruct (dims_ok ac dc) eqn:Hd; [|discriminate]. cbn [negb] in E.
  destruct (skip_sections 6 D) as [[common rest]|] eqn:E6; [|discriminate]. cbn [from_option] in E. pose proof (skip_sections_app _ _ _ _ E6) as ED. rewrite ED in Hb. apply bytes_app in Hb. destruct Hb as [Hb _].
  destruct (x_run B (concat common) (XSig 0) (length (concat common))) as [| |x] eqn:Ex; try discriminate. destruct x as [| | |f met p pos| | | | |]; try discriminate.
  pose proof (x_run_pic B _ _ _ _ _ Hb Ex) as P. destruct (metas_of p) as [ms|] eqn:Em; [|discriminate]. destruct (pi_hist p) as [[[sch cmap] codes]|] eqn:Eh; [|discriminate].
  destruct (sampling_fits _ ac) eqn:Hs; [|discriminate]. cbn [negb] in E. fold (psamp p) in E. pose proof (pic_ready met p ms sch cmap codes ac dc P Em Eh Hd Hs) as R.
  destruct (skip_sections (groups _ dc) rest) as [[dcs rest2]|] eqn:E7; [|discriminate]. cbn [from_option] in E.
  destruct (skip_sections (groups _ ac) rest2) as [[acs rest3]|] eqn:E8; [|discriminate]. cbn [from_option] in E. destruct rest3; [|discriminate].
  pose proof (skip_sections_length _ _ _ _ E7) as L7. pose proof (skip_sections_length _ _ _ _ E8) as L8.
  destruct (run_tasks (dec_dc_task _ _ _ _ _ _ _) od _) as [[rs [planes flags]]|] eqn:R7; [|discriminate]. cbn [from_option] in E.
  destruct (run_tasks (dec_ac_task _ _ _ _ _ _ _ _) oa planes) as [[rs' planes']|] eqn:R8; [|discriminate]. cbn [from_option] in E.
  destruct (run_tasks_keeps _ (fun _ => dc_inv p) (fun _ i s r s' H _ => dc_inv_step p ms cmap codes ac dc R dcs i s r s' L7 H) od [] _ _ _ Nd (fun i _ => in_nil (a := i)) (dc_inv_start p ms cmap codes ac dc R) R7) as [_ DI].
  destruct (run_tasks_keeps _ (ac_inv p ac) (fun done i s r s' H N => ac_inv_step p ms cmap codes ac dc R acs flags done i s r s' L8 (proj1 (proj2 DI)) H N) oa [] _ _ _ Na (fun i _ => in_nil (a := i))
    (ac_inv_start p ac planes (proj1 DI) (proj2 (proj2 DI))) R8) as (done & A1 & A2 & _).
  pose proof (set_dc_any met p planes flags ms P Em (dc_final p ms cmap codes ac dc R planes flags DI)) as P7.
  assert (P8 : pic_ok (8 :: 7 :: met) (set_ac (set_dc p (planes, flags)) planes')).
  { apply (set_ac_ok _ _ _ ms P7 Em); [discriminate|]. exact (planes_final p ms cmap codes ac dc R planes' blk_valid A1 A2). }
  destruct (pic_decoded (7 :: met) _ eq_refl P8) as (j' & Ej & OK). rewrite Ej in E. cbn [from_option] in E. injection E as <-. exact OK.
Qed.

Theorem group_decoder_order B D ac dc od oa od' oa' : bytes D -> NoDup od -> NoDup oa -> Permutation od od' -> Permutation oa oa' ->
  decode_groups B D ac dc od oa = decode_groups B D ac dc od' oa'.
Proof.
  intros Hb Nd Na Pd Pa. unfold decode_groups. destruct (dims_ok ac dc) eqn:Hd; [|reflexivity]. cbn [negb].
  destruct (skip_sections 6 D) as [[common rest]|] eqn:E6; [|reflexivity]. cbn [from_option]. pose proof (skip_sections_app _ _ _ _ E6) as ED. rewrite ED in Hb. apply bytes_app in Hb. destruct Hb as [Hb _].
  destruct (x_run B (concat common) (XSig 0) (length (concat common))) as [| |x] eqn:Ex; try reflexivity. destruct x as [| | |f met p pos| | | | |]; try reflexivity.
  pose proof (x_run_pic B _ _ _ _ _ Hb Ex) as P. destruct (metas_of p) as [ms|] eqn:Em; [|reflexivity]. destruct (pi_hist p) as [[[sch cmap] codes]|] eqn:Eh; [|reflexivity].
  destruct (sampling_fits _ ac) eqn:Hs; [|reflexivity]. cbn [negb]. fold (psamp p). pose proof (pic_ready met p ms sch cmap codes ac dc P Em Eh Hd Hs) as R.
  destruct (skip_sections (groups _ dc) rest) as [[dcs rest2]|] eqn:E7; [|reflexivity]. cbn [from_option].
  destruct (skip_sections (groups _ ac) rest2) as [[acs rest3]|] eqn:E8; [|reflexivity]. cbn [from_option]. destruct rest3; [|reflexivity].
  pose proof (skip_sections_length _ _ _ _ E7) as L7. pose proof (skip_sections_length _ _ _ _ E8) as L8.
  set (s0 := (map (fun m => repeat (repeat 0 64) (cm_w m * cm_h m)) ms, map (fun m => repeat false (cm_w m * cm_h m)) ms)).
  assert (AC : forall flags planes, from_option (run_tasks (dec_ac_task (layout_of (pi_grid p)) ac (psamp p) ms cmap codes acs flags) oa planes) (fun '(_, planes') => from_option (picture_jpeg (set_ac (set_dc p (planes, flags)) planes')) GOk) =
    from_option (run_tasks (dec_ac_task (layout_of (pi_grid p)) ac (psamp p) ms cmap codes acs flags) oa' planes) (fun '(_, planes') => from_option (picture_jpeg (set_ac (set_dc p (planes, flags)) planes')) GOk)).
  { intros flags planes. pose proof (run_tasks_perm _ (ac_commute p ms cmap codes ac dc R acs flags L8)) as C.
    destruct (run_tasks (dec_ac_task (layout_of (pi_grid p)) ac (psamp p) ms cmap codes acs flags) oa planes) as [[r1 t1]|] eqn:X1.
    - destruct (C _ _ Pa Na _ _ _ X1) as (r2 & X2). rewrite X2. reflexivity.
    - destruct (run_tasks (dec_ac_task (layout_of (pi_grid p)) ac (psamp p) ms cmap codes acs flags) oa' planes) as [[r2 t2]|] eqn:X2; [|reflexivity]. destruct (C _ _ (Permutation_sym Pa) (Permutation_NoDup Pa Na) _ _ _ X2) as (r3 & X3). rewrite X3 in X1. discriminate. }
  pose proof (run_tasks_perm _ (dc_commute p ms cmap codes ac dc R dcs L7)) as C.
  destruct (run_tasks (dec_dc_task (layout_of (pi_grid p)) dc (psamp p) ms cmap codes dcs) od s0) as [[r1 [pl fl]]|] eqn:X1.
  - destruct (C _ _ Pd Nd _ _ _ X1) as (r2 & X2). rewrite X2. cbn [from_option]. apply AC.
  - destruct (run_tasks (dec_dc_task (layout_of (pi_grid p)) dc (psamp p) ms cmap codes dcs) od' s0) as [[r2 t2]|] eqn:X2; [|reflexivity]. destruct (C _ _ (Permutation_sym Pd) (Permutation_NoDup Pd Nd) _ _ _ X2) as (r3 & X3). rewrite X3 in X1. discriminate.
Qed.
