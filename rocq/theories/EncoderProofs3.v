(** Histogram, DC and AC sections of the encoder are read back. *)
From Verif Require Import Base Prob JpegModel CtxTables LehmerModel LehmerProofs EntropyModel EntropyProofs HistModel HistProofs BitModel BitProofs HuffModel CMapModel HSecModel HSecProofs CoefModel CoefProofs DCProofs ACProofs PropsCoef ClusterModel PropsCluster WordModel WordProofs Decoder DecoderProofs1 DecoderProofs2 Encoder EncoderProofs2.

Lemma store_codes_norm o : forall clusters k x, store_codes o k clusters = Some x ->
  forall i h, nth_error clusters i = Some h -> normalize_counts (ch_rnd (o (k + i)%nat)) (ch_up1 (o (k + i)%nat)) (ch_up2 (o (k + i)%nat)) h <> None.
Proof.
  induction clusters as [|c r IH]; intros k x E i h En; [destruct i; discriminate|]. cbn [store_codes] in E. unfold obind in E.
  destruct (store_histogram _ _ _ c) as [y|] eqn:E1; [|discriminate]. destruct (store_codes o (S k) r) as [z|] eqn:E2; [|discriminate].
  destruct i as [|i]; cbn [nth_error] in En.
  - injection En as <-. rewrite Nat.add_0_r. unfold store_histogram, obind in E1. destruct (normalize_counts _ _ _ c); [discriminate|discriminate].
  - replace (k + S i)%nat with (S k + i)%nat by lia. eapply IH; eassumption.
Qed.

Lemma encode_histogram_norm o schemes cmap clusters x : encode_histogram_section o schemes cmap clusters = Some x ->
  forall i h, nth_error clusters i = Some h -> normalize_counts (ch_rnd (o i)) (ch_up1 (o i)) (ch_up2 (o i)) h <> None.
Proof.
  unfold encode_histogram_section. destruct (encode_cmap _ _); try discriminate. unfold obind. destruct (store_codes o 0 clusters) as [y|] eqn:E; [|discriminate]. intros _ i h.
  apply (store_codes_norm _ _ 0%nat _ E).
Qed.

(** Two table lists that agree on every context that is used. *)
Lemma resolve_agree cmap t1 t2 its : (forall h s, In (CSym h s) its -> table_of cmap t1 h = table_of cmap t2 h) ->
  map (resolve cmap t1) its = map (resolve cmap t2) its.
Proof.
  intros H. apply map_ext_in. intros c Hc. destruct c; cbn [resolve]; auto. rewrite (H _ _ Hc). reflexivity.
Qed.

Fixpoint mask (clusters tables : list (list Z)) : list (list Z) :=
  match clusters, tables with
  | h :: r, t :: s => match HistModel.used h with [] => [] | _ => t end :: mask r s
  | _, _ => []
  end.
Lemma mask_nth clusters : forall tables i h t, nth_error clusters i = Some h -> nth_error tables i = Some t ->
  nth_error (mask clusters tables) i = Some (match HistModel.used h with [] => [] | _ => t end).
Proof.
  induction clusters as [|c r IH]; intros [|a s] i h t E1 E2; destruct i; cbn [nth_error mask] in *; try discriminate; [|eapply IH; eassumption].
  injection E1 as ->. injection E2 as ->. reflexivity.
Qed.
Lemma mask_inv clusters : forall tables i t, nth_error (mask clusters tables) i = Some t -> t <> [] ->
  exists h, nth_error clusters i = Some h /\ HistModel.used h <> [] /\ nth_error tables i = Some t.
Proof.
  induction clusters as [|c r IH]; intros [|a s] i t E N; destruct i; cbn [nth_error mask] in *; try discriminate; [|eapply IH; eassumption].
  injection E as <-. exists c. split; [reflexivity|]. destruct (HistModel.used c) eqn:U; [congruence|]. split; [congruence|reflexivity].
Qed.

Lemma used_from_pos : forall h k, (exists s, 0 < nth s h 0) -> used_from k h <> [].
Proof.
  induction h as [|c h IH]; intros k [s Hs]; [destruct s; cbn [nth] in Hs; lia|]. cbn [used_from].
  destruct (Z.ltb_spec 0 c) as [P|P]; [discriminate|].
  destruct s as [|s]; cbn [nth] in Hs; [lia|]. apply IH. eauto.
Qed.

Theorem coef_sections O legacy ms orders planes dc ac ec h :
  metas_ok ms -> context_layout (Z.of_nat (length ms)) ms -> Forall (fun b => 0 <= b < 7) (map cm_bits ms) ->
  (1 <= length ms <= 256)%nat ->
  length orders = length ms -> Forall order_ok orders -> Forall2 plane_ok ms planes -> Forall ac_within_limits planes ->
  (forall i n, 0 <= ch_rnd (or_round O i) n <= 1024) ->
  encode_dc ms planes = Some dc -> encode_ac legacy ms orders planes (snd dc) = Some ac ->
  entropy_codes (or_costs O) (fst dc ++ snd ac) (contexts_of (map cm_bits ms)) (0%nat :: map (fun m => Z.to_nat (cm_off m)) ms) = Some ec ->
  encode_histogram_section (or_round O) (map cm_bits ms) (snd ec) (fst ec) = Some h ->
  let cmap := map Z.of_nat (snd ec) in
  exists codes planes1, fields_ok (snd h) /\ Forall complete_histogram codes /\
    (forall arena rest, 648 <= Z.of_nat (length arena) <= 65535 ->
       arun false (read_histogram_section arena (length ms)) (fields_bits (snd h) ++ rest) = Some ((map cm_bits ms, cmap, codes), rest)) /\
    edecode (decode_dc_prog cmap codes ms) (encode_items (map (resolve cmap (fst h)) (fst dc))) = Some (planes1, snd dc) /\
    edecode (decode_ac_prog cmap codes legacy ms (snd dc) planes1) (encode_items (fst ac ++ map (resolve cmap (fst h)) (snd ac))) = Some planes.
Proof.
  intros M Lay FB Hn Lo Fo P La HR Edc Eac Eec Eh cmap. set (nb := contexts_of (map cm_bits ms)) in *.
  assert (Ld : Forall2 dc_within_limits ms planes).
  { unfold encode_dc in Edc. apply obind_some in Edc. destruct Edc as (errs & E & _). apply omap2_none in E.
    assert (W : Forall (fun m => (0 < cm_w m)%nat) ms) by (eapply Forall_impl; [|exact M]; cbv beta; intros m (Q & _); lia). clear - W E.
    induction E as [|m p l1 l2 H E IH]; [constructor|]. constructor; [|apply IH, (Forall_inv_tail W)]. apply C38_errors_computed_iff_within_limits; [|exact H].
    apply (Forall_inv W). }
  destruct (C40_coefficients_round_trip legacy ms orders planes M Lay Lo Fo P Ld La) as (dcits & flags & head & acits & E1 & E2 & Sh & R).
  rewrite E1 in Edc. injection Edc as <-. cbn [fst snd] in *. rewrite E2 in Eac. injection Eac as <-. cbn [fst snd] in *.
  pose proof (layout_groups ms ltac:(lia) Lay) as G. fold nb in G.
  pose proof (contexts_of_num ms Lay FB) as Nc. fold nb in Nc. rewrite <- Nc in Sh.
  destruct (C43_every_symbol_can_be_coded (or_costs O) (dcits ++ acits) nb _ Sh G) as (out & cm & E3 & Lcm & Lout & Rng & Fout & Cod).
  rewrite E3 in Eec. injection Eec as <-. cbn [fst snd] in *.
  assert (Lml : length cm = map_len (map cm_bits ms)) by (rewrite Lcm; unfold map_len; fold nb; lia).
  assert (Hout : (1 <= length out <= 256)%nat).
  { split; [|exact Lout]. assert (nb <> 0)%nat as Nb. { unfold nb, contexts_of. rewrite map_length. destruct ms; cbn [length] in *; lia. }
    destruct cm as [|c cm']; [cbn [length] in Lcm; lia|]. specialize (Rng c (or_introl eq_refl)). lia. }
  destruct (encode_section_ok (or_round O) (map cm_bits ms) cm out) as (tables & fs & codes & E4 & FO & Rd & L1 & L2 & CH & W); try assumption.
  { rewrite map_length. exact Hn. }
  { intros i hh Hi. split; [apply HR|]. eapply encode_histogram_norm; eassumption. }
  rewrite E4 in Eh. injection Eh as <-. cbn [fst snd] in *.
  assert (CM : codable cmap (mask out tables) (dcits ++ acits)).
  { apply Cod. intros k hh Hk Pos. destruct (W k hh Hk) as (cs & om & T & _ & N). exists (ch_rnd (or_round O k)), (ch_up1 (or_round O k)), (ch_up2 (or_round O k)), om, cs.
    split; [apply HR|]. split; [exact N|]. rewrite (mask_nth _ _ _ _ _ Hk T). pose proof (used_from_pos hh 0 Pos) as U. unfold HistModel.used. destruct (used_from 0 hh); [congruence|reflexivity]. }
  assert (AG : forall hh s, In (CSym hh s) (dcits ++ acits) -> exists t, table_of cmap tables hh = Some t /\ table_of cmap codes hh = Some t /\ counts_ok t /\ 0 < ans_freq t s).
  { intros hh s I. destruct (CM hh s I) as (t & T & C & A). exists t. unfold table_of in *. apply obind_some in T. destruct T as (e & Ee & T). unfold zget in T.
    destruct (Z.ltb_spec e 0) as [Ng|Ng]; [discriminate|].
    destruct (mask_inv _ _ _ _ T) as (x & X1 & X2 & X3); [intros ->; destruct C as [_ C]; discriminate|].
    destruct (W _ _ X1) as (cs & om & T1 & T2 & _). rewrite Ee. unfold obind, zget. destruct (Z.ltb_spec e 0); [lia|]. 
    split; [exact X3|]. split; [|split; assumption]. rewrite T2. rewrite X3 in T1. injection T1 as ->. unfold sent. destruct (HistModel.used x); [congruence|reflexivity]. }
  assert (CC : codable cmap codes (dcits ++ acits)).
  { intros hh s I. destruct (AG hh s I) as (t & _ & T & C & A). eauto. }
  destruct (R cmap codes CC) as (planes1 & D1 & D2). exists codes, planes1. split; [exact FO|]. split; [exact CH|]. split.
  { intros arena rest HA. rewrite <- (map_length cm_bits ms). apply Rd, HA. }
  rewrite (resolve_agree cmap tables codes dcits), (resolve_agree cmap tables codes acits); [split; assumption| |];
    intros hh s I; destruct (AG hh s) as (t & T1 & T2 & _); try (apply in_or_app; auto); congruence.
Qed.
