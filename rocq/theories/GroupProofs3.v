(** Groups: each group is a picture of its own; decoding all groups restores the picture, in any order. *)
From Verif Require Import Base EntropyModel LehmerModel LehmerProofs CtxTables CoefModel CoefProofs DCProofs ACProofs PropsCoef Encoder EncoderProofs2 JpegModel GroupModel GroupProofs1 GroupProofs2.
From Coq Require Import Permutation.

Lemma window_size L dim idx : fits L dim -> (idx < groups L dim)%nat ->
  exists kx ky, (1 <= kx)%nat /\ (1 <= ky)%nat /\ forall s, (1 <= fst s)%nat /\ (1 <= snd s)%nat -> exists w, group_window L dim idx s = Some w /\ wn_w w = (fst s * kx)%nat /\ wn_h w = (snd s * ky)%nat.
Proof.
  intros F Hi. destruct (window_some L dim F (1, 1)%nat ltac:(cbn; lia) idx Hi) as (qh & qv & x & y & Eh & Ev & Qh & Qv & Ex & Ey & X & Y & _).
  exists (Nat.min (x * qh + qh) (ly_cols L) - x * qh)%nat, (Nat.min (y * qv + qv) (ly_rows L) - y * qv)%nat.
  split; [lia|]. split; [lia|]. intros s Hs. destruct (window_some L dim F s Hs idx Hi) as (qh' & qv' & x' & y' & Eh' & Ev' & _ & _ & Ex' & Ey' & _ & _ & E).
  assert (x' = x) as -> by congruence. assert (y' = y) as -> by congruence. destruct F as [Fd Fh Fv _ _ _ _].
  assert (qh' = qh) as -> by (apply (factor_eq (ly_max_h L)); [exact Fh|congruence]). assert (qv' = qv) as -> by (apply (factor_eq (ly_max_v L)); [exact Fv|congruence]).
  eexists. split; [exact E|]. split; reflexivity.
Qed.
Lemma window_cells_length W w : length (window_cells W w) = (wn_w w * wn_h w)%nat.
Proof.
  unfold window_cells. generalize 0%nat at 2 as k. intros k. revert k. induction (wn_h w) as [|h IH]; intros k; cbn [seq flat_map]; [cbn [length]; lia|]. rewrite app_length, IH, map_length, seq_length. lia.
Qed.

(** The meta data of a component and its sampling factors. *)
Definition comp_ok (L : layout) (s : nat * nat) (m : cmeta) : Prop :=
  (1 <= fst s)%nat /\ (1 <= snd s)%nat /\ cm_w m = (ly_cols L * fst s)%nat /\ cm_h m = (ly_rows L * snd s)%nat /\ cm_vs m = snd s.
Definition same_coding (m m' : cmeta) : Prop := cm_vs m' = cm_vs m /\ cm_off m' = cm_off m /\ cm_bits m' = cm_bits m /\ cm_quant m' = cm_quant m.

Lemma group_parts_ok L dim samp ms idx : fits L dim -> Forall2 (comp_ok L) samp ms -> (idx < groups L dim)%nat ->
  exists g, group_parts L dim samp ms idx = Some g /\ map snd g = gcells L dim samp idx /\ Forall2 same_coding ms (map fst g) /\ metas_ok (map fst g) /\
    Forall2 (fun s m => length (cells_of L dim s idx) = (cm_w m * cm_h m)%nat) samp (map fst g).
Proof.
  intros F C Hi. destruct (window_size L dim idx F Hi) as (kx & ky & Kx & Ky & W).
  assert (exists g, group_parts L dim samp ms idx = Some g /\ map snd g = gcells L dim samp idx /\ Forall2 same_coding ms (map fst g) /\
    Forall (fun m => (1 <= cm_w m)%nat /\ (1 <= cm_vs m)%nat /\ cm_h m = (ky * cm_vs m)%nat) (map fst g) /\
    Forall2 (fun s m => length (cells_of L dim s idx) = (cm_w m * cm_h m)%nat) samp (map fst g)) as (g & E & H1 & H2 & H3 & H4).
  { unfold group_parts, gcells. induction C as [|s m samp ms C0 C IH]; cbn [omap2 map].
    - exists []. repeat split; constructor.
    - destruct IH as (g & E & H1 & H2 & H3 & H4). destruct C0 as (P1 & P2 & Cw & Ch & Cv). destruct (W s (conj P1 P2)) as (w & Ew & Ww & Wh).
      unfold group_part at 1. rewrite Ew. unfold obind at 2. unfold obind at 1. rewrite E. unfold obind. eexists. split; [reflexivity|]. cbn [map fst snd].
      split; [f_equal; [unfold cells_of; rewrite Ew; reflexivity|exact H1]|]. split; [constructor; [repeat split|exact H2]|]. split.
      + constructor; [cbn [cm_w cm_vs cm_h]; rewrite Ww, Wh, Cv; split; [nia|split; [lia|lia]]|exact H3].
      + constructor; [cbn [cm_w cm_h]; unfold cells_of; rewrite Ew; apply window_cells_length|exact H4]. }
  exists g. split; [exact E|]. split; [exact H1|]. split; [exact H2|]. split; [|exact H4].
  unfold metas_ok. destruct (map fst g) as [|m r] eqn:Em; [constructor|]. assert (mcu_rows (m :: r) = ky) as ->; [|exact H3].
  cbn [mcu_rows]. pose proof (Forall_inv H3) as (_ & V & ->). apply Nat.div_mul. lia.
Qed.

Lemma layout_same : forall ms ms', Forall2 same_coding ms ms' -> forall off, context_layout off ms -> context_layout off ms'.
Proof.
  intros ms ms' H. induction H as [|m m' ms ms' (_ & E1 & E2 & _) H IH]; intros off C; [exact Logic.I|]. cbn [context_layout] in *. rewrite E1, E2. destruct C as (C1 & C2 & C3). auto.
Qed.
Lemma contexts_same ms ms' : Forall2 same_coding ms ms' -> num_contexts ms' = num_contexts ms /\ length ms' = length ms.
Proof.
  intros H. assert (length ms' = length ms /\ map cm_bits ms' = map cm_bits ms) as [E1 E2].
  { induction H as [|m m' ms ms' (_ & _ & E & _) H [I1 I2]]; [auto|]. cbn [length map]. split; [lia|congruence]. }
  split; [|exact E1]. unfold num_contexts. rewrite E1. f_equal. f_equal. rewrite <- !(map_map cm_bits skip_of), E2. reflexivity.
Qed.

Lemma gather_Forall {A} (P : A -> Prop) p : Forall P p -> forall cs vs, gather p cs = Some vs -> Forall P vs.
Proof.
  intros H. rewrite Forall_forall in H. induction cs as [|c cs IH]; intros vs E; cbn [gather] in E; [injection E as <-; constructor|]. apply obind_some in E. destruct E as (a & Ea & E).
  apply obind_some in E. destruct E as (t & Et & E). injection E as <-. constructor; [apply H, (nth_error_In _ _ Ea)|apply IH, Et].
Qed.
Lemma gather_In {A} (p : list A) : forall cs vs, gather p cs = Some vs -> forall v, In v vs -> In v p.
Proof. intros cs vs E v Hv. pose proof (gather_Forall (fun v => In v p) p ltac:(apply Forall_forall; auto) cs vs E) as H. rewrite Forall_forall in H. apply H, Hv. Qed.

Section Codec.
  Context (L : layout) (samp : list (nat * nat)) (ms : list cmeta) (planes : list plane).
  Context (C : Forall2 (comp_ok L) samp ms) (Lay : context_layout (Z.of_nat (length ms)) ms) (P : Forall2 plane_ok ms planes) (AL : Forall ac_within_limits planes).

  Lemma codec_samp_pos : samp_pos samp.
  Proof. unfold samp_pos. clear - C. induction C as [|s m l1 l2 H F IH]; [constructor|]. constructor; [destruct H as (? & ? & _); auto|exact (IH F)]. Qed.
  Lemma codec_length : length samp = length ms /\ length planes = length ms.
  Proof. split; [exact (Forall2_len _ _ _ C)|symmetry; exact (Forall2_len _ _ _ P)]. Qed.
  Lemma codec_nth i s : nth_error samp i = Some s -> exists m p, nth_error ms i = Some m /\ nth_error planes i = Some p /\ comp_ok L s m /\ plane_ok m p.
  Proof. intros E. destruct (Forall2_nth _ _ _ C i s E) as (m & Em & Cm). destruct (Forall2_nth _ _ _ P i m Em) as (p & Ep & Pp). eauto 8. Qed.
  Lemma codec_sized : sized L samp planes.
  Proof.
    destruct codec_length. split; [unfold plane, block in *; lia|]. intros i s Es. destruct (codec_nth i s Es) as (m & p & Em & Ep & (_ & _ & Cw & Ch & _) & [Lp _]). exists p. split; [exact Ep|].
    unfold plane, block in *. rewrite Lp, Cw, Ch. reflexivity.
  Qed.
  Lemma codec_dc_sized : sized L samp (map (map dc_only) planes).
  Proof.
    destruct codec_sized as [S1 S2]. split; [rewrite map_length; exact S1|]. intros i s Es. destruct (S2 i s Es) as (a & Ea & La). exists (map dc_only a). split; [apply (map_nth_error (map dc_only)), Ea|rewrite map_length; exact La].
  Qed.
  Lemma zero_sized {A} (v : A) : sized L samp (map (fun m => repeat v (cm_w m * cm_h m)) ms).
  Proof.
    destruct codec_length. split; [rewrite map_length; congruence|]. intros i s Es. destruct (codec_nth i s Es) as (m & p & Em & Ep & (_ & _ & Cw & Ch & _) & _).
    exists (repeat v (cm_w m * cm_h m)). split; [apply (map_nth_error (fun m => repeat v (cm_w m * cm_h m))), Em|]. rewrite repeat_length, Cw, Ch. reflexivity.
  Qed.

  (** One group. *)
  Lemma group_picture dim idx : fits L dim -> (idx < groups L dim)%nat ->
    exists g ps, group_parts L dim samp ms idx = Some g /\ map snd g = gcells L dim samp idx /\ gather_all planes (gcells L dim samp idx) = Some ps /\
      metas_ok (map fst g) /\ length (map fst g) = length ms /\ context_layout (Z.of_nat (length (map fst g))) (map fst g) /\ num_contexts (map fst g) = num_contexts ms /\
      Forall2 plane_ok (map fst g) ps /\ Forall ac_within_limits ps /\
      (forall i s, nth_error samp i = Some s -> exists m, nth_error (map fst g) i = Some m /\ length (cells_of L dim s idx) = (cm_w m * cm_h m)%nat).
  Proof.
    intros F Hi. destruct (group_parts_ok L dim samp ms idx F C Hi) as (g & E & Es & SC & M & Lc).
    destruct (gather_all_total L dim F samp codec_samp_pos planes idx codec_sized Hi) as (ps & Ep). destruct (contexts_same _ _ SC) as [N1 N2].
    exists g, ps. split; [exact E|]. split; [exact Es|]. split; [exact Ep|]. split; [exact M|]. split; [exact N2|]. split; [rewrite N2; apply (layout_same _ _ SC), Lay|]. split; [exact N1|].
    apply gather_all_spec in Ep; [|exact codec_sized]. destruct Ep as [Lp Hp]. destruct codec_length as [L1 L2].
    assert (forall i m p, nth_error (map fst g) i = Some m -> nth_error ps i = Some p -> plane_ok m p /\ ac_within_limits p) as H.
    { intros i m q Em Eq. destruct (nth_error samp i) as [s|] eqn:Ei; [|apply nth_error_None in Ei; pose proof (nth_error_lt _ _ _ Eq); unfold plane, block in *; lia].
      destruct (codec_nth i s Ei) as (m0 & p0 & _ & Ep0 & _ & [_ B0]). destruct (Hp i s p0 Ei Ep0) as (q' & Eq' & G). rewrite Eq in Eq'. injection Eq' as <-.
      destruct (Forall2_nth _ _ _ Lc i s Ei) as (m' & Em' & Lm). rewrite Em in Em'. injection Em' as <-. split; [split|].
      - transitivity (length (cells_of L dim s idx)); [exact (gather_length _ _ _ G)|exact Lm].
      - exact (gather_Forall _ _ B0 _ _ G).
      - intros b v Hb Hv. rewrite Forall_forall in AL. apply (AL p0 (nth_error_In _ _ Ep0) b v); [exact (gather_In _ _ _ G b Hb)|exact Hv]. }
    split; [|split].
    - clear - H Lp L1 N2. assert (length (map fst g) = length ps) as E by (unfold plane, block in *; lia). clear Lp L1 N2. revert ps E H. induction (map fst g) as [|m l IH]; intros ps E H; destruct ps as [|p ps]; cbn [length] in E; try lia; constructor.
      + apply (H 0%nat m p); reflexivity.
      + apply IH; [lia|]. intros i a b Ha Hb. exact (H (S i) a b Ha Hb).
    - apply Forall_forall. intros p Hin. apply In_nth_error in Hin. destruct Hin as [i Ei]. destruct (nth_error (map fst g) i) as [m|] eqn:Em; [apply (H i m p Em Ei)|].
      apply nth_error_None in Em. pose proof (nth_error_lt _ _ _ Ei). unfold plane, block in *. lia.
    - intros i s Ei. destruct (Forall2_nth _ _ _ Lc i s Ei) as (m & Em & Lm). eauto.
  Qed.

  Lemma gather_all_dc dim idx ps : gather_all planes (gcells L dim samp idx) = Some ps -> gather_all (map (map dc_only) planes) (gcells L dim samp idx) = Some (map (map dc_only) ps).
  Proof.
    unfold gather_all. rewrite !omap2_iff, !map_length. intros (L1 & L2 & H). split; [exact L1|]. split; [exact L2|]. intros i x y Ex Ey. unfold plane, block in *. rewrite nth_error_map in Ex. destruct (nth_error planes i) as [p|] eqn:Ep; [|cbn [option_map] in Ex; congruence].
    cbn [option_map] in Ex. injection Ex as <-. destruct (H i p y Ep Ey) as (z & Ez & G). exists (map dc_only z). split; [apply (map_nth_error (map dc_only)), Ez|apply gather_map, G].
  Qed.

  (** * The encoder's DC tasks *)
  Section DC.
    Context (dim : nat) (F : fits L dim).
    Notation n := (groups L dim).
    Definition dc_coded (idx : nat) : option (list citem * list (list bool)) :=
      let? g := group_parts L dim samp ms idx in let? ps := gather_all planes (map snd g) in encode_dc (map fst g) ps.
    Definition dc_items (idx : nat) : list citem := match dc_coded idx with Some r => fst r | None => [] end.
    Definition dc_flags (idx : nat) : list (list bool) := match dc_coded idx with Some r => snd r | None => [] end.

    Lemma enc_dc_task_coded idx s x : enc_dc_task L dim samp ms planes idx s = Some x -> exists r, dc_coded idx = Some r.
    Proof.
      unfold enc_dc_task, dc_coded. intros E. apply obind_some in E. destruct E as (g & Eg & E). rewrite Eg. unfold obind at 1. apply obind_some in E. destruct E as (ps & Ep & E). rewrite Ep. unfold obind at 1.
      apply obind_some in E. destruct E as (r & Er & E). rewrite Er. eauto.
    Qed.

    (** What encode_dc of a group gives. *)
    Lemma dc_coded_spec idx r : (idx < n)%nat -> dc_coded idx = Some r ->
      exists g ps, group_parts L dim samp ms idx = Some g /\ map snd g = gcells L dim samp idx /\ gather_all planes (gcells L dim samp idx) = Some ps /\ encode_dc (map fst g) ps = Some r /\
        Forall (cshape (9 * num_contexts ms)) (fst r) /\ length (snd r) = length samp /\
        (forall i s, nth_error samp i = Some s -> exists fl p, nth_error (snd r) i = Some fl /\ nth_error ps i = Some p /\ length fl = length (cells_of L dim s idx) /\
           forall k b, nth_error fl k = Some true -> nth_error p k = Some b -> Forall (fun v => v = 0) (tl b)) /\
        forall cmap codes, codable cmap codes (fst r) ->
          edecode (decode_dc_prog cmap codes (map fst g)) (encode_items (map (resolve cmap codes) (fst r))) = Some (map (map dc_only) ps, snd r).
    Proof.
      intros Hi E. destruct (group_picture dim idx F Hi) as (g & ps & Eg & Es & Ep & M & Lg & Lg2 & N & PO & AO & Sz). unfold dc_coded in E. rewrite Eg in E. unfold obind at 1 in E. rewrite Es, Ep in E. unfold obind in E.
      exists g, ps. split; [exact Eg|]. split; [exact Es|]. split; [exact Ep|]. split; [exact E|].
      assert (Ld : Forall2 dc_within_limits (map fst g) ps).
      { pose proof E as E'. unfold encode_dc in E'. apply obind_some in E'. destruct E' as (errs & Er & _). apply omap2_none in Er.
        assert (W : Forall (fun m => (0 < cm_w m)%nat) (map fst g)) by (eapply Forall_impl; [|exact M]; cbv beta; intros m (Q & _); lia). clear - W Er.
        induction Er as [|m p l1 l2 H E IH]; [constructor|]. constructor; [|apply IH, (Forall_inv_tail W)]. apply C38_errors_computed_iff_within_limits; [|exact H]. apply (Forall_inv W). }
      destruct (C39_dc_round_trip (map fst g) ps M PO Ld) as (its & flags & E1 & F1 & S1 & Lf & R1). rewrite E in E1. injection E1 as ->. cbn [fst snd].
      destruct codec_length as [L1 L2]. split.
      { eapply cshapes_mono; [|exact S1]. rewrite <- N. unfold num_contexts.
        assert (0 <= sumZ (map (fun m => skip_of (cm_bits m)) (map fst g))); [|lia]. clear - Lg2. revert Lg2. generalize (Z.of_nat (length (map fst g))). induction (map fst g) as [|m l IH]; intros off H; cbn [map sumZ]; [unfold sumZ; cbn; lia|].
        destruct H as (_ & Hb & H). specialize (IH _ H). pose proof (skip_pos _ Hb). unfold sumZ in *. cbn [fold_right] in *. lia. }
      split; [lia|]. split; [|intros cmap codes Cd; apply R1, Cd].
      intros i s Ei. destruct (Sz i s Ei) as (m & Em & Lm). destruct (Forall2_nth _ _ _ PO i m Em) as (p & Epp & Lp & _). destruct (F1 i m p Em Epp) as (fl & Ef & Lfl & Hf).
      exists fl, p. split; [exact Ef|]. split; [exact Epp|]. split; [unfold plane, block in *; lia|].
      intros k b Hk Hb. pose proof (nth_error_lt _ _ _ Hb) as Hlt. unfold plane, block in *. rewrite Lp in Hlt.
      assert (0 < cm_w m)%nat as Hw by (destruct (cm_w m); lia).
      assert (k mod cm_w m < cm_w m)%nat as Hm by (apply Nat.mod_upper_bound; lia).
      assert (k / cm_w m < cm_h m)%nat as D by (apply Nat.div_lt_upper_bound; lia).
      assert (k / cm_w m * cm_w m + k mod cm_w m = k)%nat as Ek by (rewrite (Nat.mul_comm (k / cm_w m)); symmetry; apply Nat.div_mod; lia).
      destruct (Hf _ _ Hm D) as (e & Ee & He). unfold is_empty_block in He. rewrite Ek in He, Ee. rewrite Hk in Ee. injection Ee as <-.
      destruct (proj1 He eq_refl) as [_ Z0]. pose proof (nth_error_nth _ _ [] Hb) as Nb. unfold plane, block in *. rewrite Nb in Z0. exact Z0.
    Qed.

    Context (AC : forall g, (g < n)%nat -> exists r, dc_coded g = Some r).

    Lemma flags_exist : exists T, sized L samp T /\ forall g, (g < n)%nat -> gather_all T (gcells L dim samp g) = Some (dc_flags g).
    Proof.
      apply (assemble L dim F samp codec_samp_pos false). intros g Hg. destruct (AC g Hg) as [r Er]. destruct (dc_coded_spec g r Hg Er) as (gg & ps & _ & _ & _ & _ & _ & Lf & Hf & _).
      unfold dc_flags. rewrite Er. split; [exact Lf|]. intros i s Es. destruct (Hf i s Es) as (fl & p & Ef & _ & Lfl & _). eauto.
    Qed.

    (** The flags say the truth about the whole picture. *)
    Lemma flags_true T : sized L samp T -> (forall g, (g < n)%nat -> gather_all T (gcells L dim samp g) = Some (dc_flags g)) ->
      forall i fl p, nth_error T i = Some fl -> nth_error planes i = Some p -> forall k b, nth_error fl k = Some true -> nth_error p k = Some b -> Forall (fun v => v = 0) (tl b).
    Proof.
      intros ST HT i fl p Ef Ep k b Hk Hb. destruct (sized_nth L samp T i fl ST Ef) as (s & Es & Lf).
      assert (SPi : (1 <= fst s)%nat /\ (1 <= snd s)%nat) by (pose proof codec_samp_pos as Q; unfold samp_pos in Q; rewrite Forall_forall in Q; apply Q, (nth_error_In _ _ Es)).
      destruct (pa_some _ _ _ (windows_partition L dim F s SPi) k) as (g & Hg & I); [pose proof (nth_error_lt _ _ _ Hk); unfold blocks_of in Lf; lia|].
      destruct (AC g Hg) as [r Er]. destruct (dc_coded_spec g r Hg Er) as (gg & ps & _ & _ & Gp & _ & _ & _ & Hf & _).
      destruct (Hf i s Es) as (fl' & p' & Efl & Epp & _ & Z0). pose proof (HT g Hg) as GT. unfold dc_flags in GT. rewrite Er in GT. apply gather_all_spec in GT; [|exact ST]. destruct GT as [_ GT].
      destruct (GT i s fl Es Ef) as (v & Ev & Gv). rewrite Efl in Ev. injection Ev as <-.
      apply gather_all_spec in Gp; [|exact codec_sized]. destruct Gp as [_ Gp]. destruct (Gp i s p Es Ep) as (w & Ew & Gw). rewrite Epp in Ew. injection Ew as <-.
      apply In_nth_error in I. destruct I as [q Eq]. apply (Z0 q b); [rewrite (gather_nth _ _ _ Gv q k Eq); exact Hk|].
      pose proof (gather_nth _ _ _ Gw q k Eq) as Q. unfold plane, block in *. rewrite Q. exact Hb.
    Qed.

    (** In every order the tasks give the same items and the same flags. *)
    Lemma enc_dc_runs T order : sized L samp T -> (forall g, (g < n)%nat -> gather_all T (gcells L dim samp g) = Some (dc_flags g)) -> schedule order n ->
      run_tasks (enc_dc_task L dim samp ms planes) order (map (fun m => repeat false (cm_w m * cm_h m)) ms) = Some (map (fun i => (i, dc_items i)) order, T).
    Proof.
      intros ST HT Sch. set (f0 := map (fun m => repeat false (cm_w m * cm_h m)) ms). assert (S0 : sized L samp f0) by apply zero_sized.
      destruct (run_tasks_total (enc_dc_task L dim samp ms planes) (fun done p => written L dim samp done f0 T p) dc_items n) with (order := order) (done := @nil nat) (s := f0) as (s' & E & W).
      - intros done i p Hi Nd B W. destruct (AC i Hi) as [r Er]. destruct (dc_coded_spec i r Hi Er) as (g & ps & Eg & Es & Ep & Ed & _).
        pose proof (HT i Hi) as GT. unfold dc_flags in GT. rewrite Er in GT. destruct (written_step L dim samp done f0 T p i (snd r) S0 ST W Hi GT) as (p' & Ep' & W').
        exists p'. split; [|exact W']. unfold enc_dc_task. rewrite Eg. unfold obind at 1. rewrite Es, Ep. unfold obind at 1. rewrite Ed. unfold obind at 1. rewrite Ep'. unfold obind, dc_items. rewrite Er. reflexivity.
      - rewrite app_nil_r. exact (schedule_nodup _ _ Sch).
      - rewrite app_nil_r. intros k Hk. apply (schedule_in _ _ _ Sch), Hk.
      - apply written_start, S0.
      - rewrite E. f_equal. f_equal. rewrite app_nil_r in W. apply (written_end L dim F samp codec_samp_pos (rev order) f0 T s' S0 ST W). intros g Hg. apply in_rev. rewrite rev_involutive. apply (schedule_in _ _ _ Sch), Hg.
    Qed.

    (** The decoder's DC tasks, in any order. *)
    Lemma dec_dc_runs T cmap codes chunks order : sized L samp T -> (forall g, (g < n)%nat -> gather_all T (gcells L dim samp g) = Some (dc_flags g)) -> schedule order n ->
      (forall g, (g < n)%nat -> codable cmap codes (dc_items g)) ->
      (forall g, (g < n)%nat -> exists chunk payload, nth_error chunks g = Some chunk /\ group_payload 7 chunk = Some payload /\ bytes_to_words payload = encode_items (map (resolve cmap codes) (dc_items g))) ->
      exists rs, run_tasks (dec_dc_task L dim samp ms cmap codes chunks) order (map (fun m => repeat (repeat 0 64) (cm_w m * cm_h m)) ms, map (fun m => repeat false (cm_w m * cm_h m)) ms) =
        Some (rs, (map (map dc_only) planes, T)).
    Proof.
      intros ST HT Sch Cd Ch. set (f0 := map (fun m => repeat false (cm_w m * cm_h m)) ms). set (p0 := map (fun m => repeat (repeat 0 64) (cm_w m * cm_h m)) ms).
      assert (S0 : sized L samp f0) by apply zero_sized. assert (S1 : sized L samp p0) by apply zero_sized. pose proof codec_dc_sized as S2.
      destruct (run_tasks_total (dec_dc_task L dim samp ms cmap codes chunks) (fun done s => written L dim samp done p0 (map (map dc_only) planes) (fst s) /\ written L dim samp done f0 T (snd s)) (fun _ => tt) n) with (order := order) (done := @nil nat) (s := (p0, f0)) as (s' & E & W1 & W2).
      - intros done i [p f] Hi Nd B [W1 W2]. cbn [fst snd] in *. destruct (AC i Hi) as [r Er]. destruct (dc_coded_spec i r Hi Er) as (g & ps & Eg & Es & Ep & Ed & _ & _ & _ & Dec).
        destruct (Ch i Hi) as (chunk & payload & Ec & Epl & Ew). specialize (Cd i Hi). unfold dc_items in Cd, Ew. rewrite Er in Cd, Ew.
        pose proof (HT i Hi) as GT. unfold dc_flags in GT. rewrite Er in GT.
        destruct (written_step L dim samp done f0 T f i (snd r) S0 ST W2 Hi GT) as (f' & Ef' & W2').
        destruct (written_step L dim samp done p0 _ p i _ S1 S2 W1 Hi (gather_all_dc dim i ps Ep)) as (p' & Ep' & W1').
        exists (p', f'). split; [|split; [exact W1'|exact W2']].
        unfold dec_dc_task. rewrite Eg. unfold obind at 1. rewrite Ec. unfold obind at 1. rewrite Epl. unfold obind at 1. rewrite Ew. rewrite (Dec _ _ Cd). unfold obind at 1. cbn [fst snd].
        unfold plane, block in *. rewrite Es, Ep'. unfold obind at 1. rewrite Ef'. reflexivity.
      - rewrite app_nil_r. exact (schedule_nodup _ _ Sch).
      - rewrite app_nil_r. intros k Hk. apply (schedule_in _ _ _ Sch), Hk.
      - split; apply written_start; assumption.
      - eexists. unfold plane, block in *. rewrite E. f_equal. f_equal. rewrite app_nil_r in W1, W2. destruct s' as [p f]. cbn [fst snd] in *.
        assert (All : forall g, (g < n)%nat -> In g (rev order)) by (intros g Hg; apply in_rev; rewrite rev_involutive; apply (schedule_in _ _ _ Sch), Hg).
        f_equal; [apply (written_end L dim F samp codec_samp_pos (rev order) p0 _ p S1 S2 W1 All)|apply (written_end L dim F samp codec_samp_pos (rev order) f0 T f S0 ST W2 All)].
    Qed.
  End DC.

  (** * AC *)
  Section ACg.
    Context (dim : nat) (F : fits L dim) (T : list (list bool)) (ST : sized L samp T).
    Context (TT : forall i fl p, nth_error T i = Some fl -> nth_error planes i = Some p -> forall k b, nth_error fl k = Some true -> nth_error p k = Some b -> Forall (fun v => v = 0) (tl b)).
    Notation n := (groups L dim).
    Definition ac_coded (idx : nat) : list item * list citem := match enc_ac_task L dim samp ms planes T idx tt with Some r => fst r | None => ([], []) end.

    Lemma ac_coded_spec idx : (idx < n)%nat -> exists g ps fs, group_parts L dim samp ms idx = Some g /\ map snd g = gcells L dim samp idx /\
      gather_all planes (gcells L dim samp idx) = Some ps /\ gather_all T (gcells L dim samp idx) = Some fs /\
      enc_ac_task L dim samp ms planes T idx tt = Some (ac_coded idx, tt) /\ Forall (cshape (9 * num_contexts ms)) (snd (ac_coded idx)) /\
      forall cmap codes, codable cmap codes (snd (ac_coded idx)) ->
        edecode (decode_ac_prog cmap codes false (map fst g) fs (map (map dc_only) ps)) (encode_items (fst (ac_coded idx) ++ map (resolve cmap codes) (snd (ac_coded idx)))) = Some ps.
    Proof.
      intros Hi. destruct (group_picture dim idx F Hi) as (g & ps & Eg & Es & Ep & M & Lg & Lg2 & N & PO & AO & Sz).
      destruct (gather_all_total L dim F samp codec_samp_pos T idx ST Hi) as (fs & Ef). exists g, ps, fs. repeat (split; [assumption|]).
      pose proof (Forall2_len _ _ _ PO) as Lps.
      destruct (C40_ac_round_trip false (map fst g) (map (fun p => coeff_order (sample_zeros p)) ps) ps fs M Lg2) as (head & its & E & Sh & R).
      { rewrite map_length. symmetry. exact Lps. }
      { apply Forall_forall. intros o Ho. apply in_map_iff in Ho. destruct Ho as (p & <- & _). apply sample_zeros_ok. }
      { exact PO. } { exact AO. }
      { intros i m p Em Epp. pose proof Ef as Ef'. pose proof Ep as Ep'. apply gather_all_spec in Ef'; [|exact ST]. apply gather_all_spec in Ep'; [|exact codec_sized]. destruct Ef' as [_ Hf]. destruct Ep' as [Lp Hp].
        destruct (nth_error samp i) as [s|] eqn:Ei; [|apply nth_error_None in Ei; pose proof (nth_error_lt _ _ _ Epp); unfold plane, block in *; lia].
        destruct (proj2 ST i s Ei) as (fl & Efl & Lfl). destruct (codec_nth i s Ei) as (m0 & p0 & _ & Ep0 & _). destruct (Hf i s fl Ei Efl) as (v & Ev & Gv). destruct (Hp i s p0 Ei Ep0) as (w & Ew & Gw).
        unfold plane, block in *. rewrite Epp in Ew. injection Ew as <-. exists v. split; [exact Ev|]. split; [rewrite (gather_length _ _ _ Gv); symmetry; exact (gather_length _ _ _ Gw)|].
        intros k b Hk Hb. destruct (nth_error (cells_of L dim s idx) k) as [c|] eqn:Ec; [|apply nth_error_None in Ec; pose proof (nth_error_lt _ _ _ Hk); pose proof (gather_length _ _ _ Gv); lia].
        rewrite (gather_nth _ _ _ Gv k c Ec) in Hk. rewrite (gather_nth _ _ _ Gw k c Ec) in Hb. exact (TT i fl p0 Efl Ep0 c b Hk Hb). }
      assert (Et : enc_ac_task L dim samp ms planes T idx tt = Some ((head, its), tt)).
      { unfold enc_ac_task. rewrite Eg. unfold obind at 1. rewrite Es, Ep. unfold obind at 1. rewrite Ef. unfold obind at 1. rewrite E. reflexivity. }
      assert (Ea : ac_coded idx = (head, its)) by (unfold ac_coded; rewrite Et; reflexivity). rewrite Ea. cbn [fst snd]. split; [exact Et|]. split; [rewrite <- N; exact Sh|exact R].
    Qed.

    Lemma enc_ac_runs order : schedule order n -> run_tasks (enc_ac_task L dim samp ms planes T) order tt = Some (map (fun i => (i, ac_coded i)) order, tt).
    Proof.
      intros Sch. destruct (run_tasks_total (enc_ac_task L dim samp ms planes T) (fun _ _ => True) ac_coded n) with (order := order) (done := @nil nat) (s := tt) as (s' & E & _).
      - intros done i [] Hi _ _ _. destruct (ac_coded_spec i Hi) as (_ & _ & _ & _ & _ & _ & _ & E & _). exists tt. auto.
      - rewrite app_nil_r. exact (schedule_nodup _ _ Sch).
      - rewrite app_nil_r. intros k Hk. apply (schedule_in _ _ _ Sch), Hk.
      - exact Logic.I.
      - destruct s'. exact E.
    Qed.

    Lemma dec_ac_runs cmap codes chunks order : schedule order n -> (forall g, (g < n)%nat -> codable cmap codes (snd (ac_coded g))) ->
      (forall g, (g < n)%nat -> exists chunk payload, nth_error chunks g = Some chunk /\ group_payload 8 chunk = Some payload /\
         bytes_to_words payload = encode_items (fst (ac_coded g) ++ map (resolve cmap codes) (snd (ac_coded g)))) ->
      exists rs, run_tasks (dec_ac_task L dim samp ms cmap codes chunks T) order (map (map dc_only) planes) = Some (rs, planes).
    Proof.
      intros Sch Cd Ch. pose proof codec_dc_sized as S0. pose proof codec_sized as S1. set (p0 := map (map dc_only) planes) in *.
      destruct (run_tasks_total (dec_ac_task L dim samp ms cmap codes chunks T) (fun done s => written L dim samp done p0 planes s) (fun _ => tt) n) with (order := order) (done := @nil nat) (s := p0) as (s' & E & W).
      - intros done i p Hi Nd B W. destruct (ac_coded_spec i Hi) as (g & ps & fs & Eg & Es & Ep & Ef & _ & _ & Dec). destruct (Ch i Hi) as (chunk & payload & Ec & Epl & Ew).
        pose proof (written_read L dim F samp codec_samp_pos done p0 planes p i S0 S1 W Hi Nd B) as Rd. unfold p0 in Rd. rewrite (gather_all_dc dim i ps Ep) in Rd.
        destruct (written_step L dim samp done p0 planes p i ps S0 S1 W Hi Ep) as (p' & Ep' & W'). exists p'. split; [|exact W'].
        unfold dec_ac_task. rewrite Eg. unfold obind at 1. rewrite Ec. unfold obind at 1. rewrite Epl. unfold obind at 1. unfold plane, block in *. rewrite Es, Rd. unfold obind at 1. rewrite Ef. unfold obind at 1.
        rewrite Ew. pose proof (Dec _ _ (Cd i Hi)) as D. unfold plane, block in *. rewrite D. unfold obind at 1. rewrite Ep'. reflexivity.
      - rewrite app_nil_r. exact (schedule_nodup _ _ Sch).
      - rewrite app_nil_r. intros k Hk. apply (schedule_in _ _ _ Sch), Hk.
      - apply written_start, S0.
      - eexists. unfold plane, block in *. rewrite E. f_equal. f_equal. rewrite app_nil_r in W.
        apply (written_end L dim F samp codec_samp_pos (rev order) p0 planes s' S0 S1 W). intros g Hg. apply in_rev. rewrite rev_involutive. apply (schedule_in _ _ _ Sch), Hg.
    Qed.
  End ACg.
End Codec.
