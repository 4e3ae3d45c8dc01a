(** Groups: sections, the common part, and the entropy codes shared by all groups. *)
From Verif Require Import Base JpegModel JpegSpec CodesModel CodesProofs Stream Machine HeaderModel HeaderProofs PropsHeader CtxTables EntropyModel EntropyProofs LehmerModel LehmerProofs HistModel HistProofs
  BitModel BitProofs HuffModel CMapModel HSecModel HSecProofs CoefModel CoefProofs DCProofs ACProofs PropsCoef ClusterModel PropsCluster QuantModel QuantProofs InternalsModel InternalsProofs MetaModel MetaProofs
  WordModel WordProofs ContainerModel Decoder DecoderProofs1 DecoderProofs2 ProgressModel Encoder EncoderProofs1 EncoderProofs2 EncoderProofs3 EncoderProofs4 GroupModel GroupProofs1 GroupProofs2 GroupProofs3.

(** * Sections *)
Lemma skip_section_ok tag k payload s rest : encode_section tag k payload = Some s -> (1 <= k <= 9)%nat -> skip_section (s ++ rest) = Some (s, rest).
Proof.
  intros E Hk. pose proof (encode_section_length _ _ _ _ E) as Ls. destruct (encode_section_inv _ _ _ _ E) as [Es Hl].
  assert (S1 : s ++ rest = section_marker tag :: encode_base128_fix (Z.of_nat (length payload)) k ++ payload ++ rest) by (rewrite Es; cbn [app]; rewrite <- app_assoc; reflexivity).
  unfold skip_section. rewrite S1. rewrite base128_fix_roundtrip by lia. rewrite app_length. destruct (Z.leb_spec (Z.of_nat (length payload)) (Z.of_nat (length payload + length rest))); [|lia].
  rewrite <- S1. rewrite app_length, Nat2Z.id. replace (length s + length rest - (length payload + length rest) + length payload)%nat with (length s) by lia.
  rewrite firstn_app, firstn_all, skipn_app, skipn_all, Nat.sub_diag. cbn [firstn skipn]. rewrite app_nil_r. reflexivity.
Qed.
Lemma group_payload_ok tag k payload s : encode_section tag k payload = Some s -> (1 <= k <= 9)%nat -> Z.even (Z.of_nat (length payload)) = true -> group_payload tag s = Some payload.
Proof.
  intros E Hk Ev. destruct (encode_section_inv _ _ _ _ E) as [Es Hl]. rewrite Es. cbn [group_payload]. rewrite Z.eqb_refl. cbn [negb]. rewrite base128_fix_roundtrip by lia.
  rewrite Z.eqb_refl, Ev. reflexivity.
Qed.
Lemma skip_sections_ok : forall ss rest, (forall s, In s ss -> exists tag k payload, encode_section tag k payload = Some s /\ (1 <= k <= 9)%nat) -> skip_sections (length ss) (concat ss ++ rest) = Some (ss, rest).
Proof.
  induction ss as [|s ss IH]; intros rest H; cbn [length skip_sections concat]; [reflexivity|]. destruct (H s (or_introl eq_refl)) as (tag & k & payload & E & Hk).
  rewrite <- app_assoc, (skip_section_ok _ _ _ _ _ E Hk). unfold obind at 1. cbn [fst snd]. rewrite IH by (intros; apply H; right; assumption). reflexivity.
Qed.

(** * One section in the common part *)
Lemma x_step B D pre s rest tag k payload f met img img' : D = pre ++ s ++ rest -> encode_section tag k payload = Some s -> (1 <= k <= 9)%nat -> 3 <= tag <= 6 -> mem tag met = false ->
  admissible tag (Z.of_nat (length payload)) (tag :: met) = true ->
  body_call B tag (length payload) img (payload ++ rest ++ repeat 0 (length payload)) (body_init B tag (length payload) img) (length (payload ++ rest)) = RDone img' (length payload) ->
  x_sections B D (S f) (length D) met img (length pre) = x_sections B D f (length D) (tag :: met) img' (length (pre ++ s)).
Proof.
  intros ED E Hk Ht Hm Ha Hc. pose proof (encode_section_length _ _ _ _ E) as Ls. destruct (encode_section_inv _ _ _ _ E) as [Es Hl].
  assert (LD : length D = (length pre + length s + length rest)%nat) by (rewrite ED, !app_length; lia).
  cbn [x_sections]. destruct (Nat.ltb_spec (length pre) (length D)); [|lia]. cbv zeta.
  assert (nth (length pre) D 0 = section_marker tag) as -> by (rewrite ED, app_nth2, Nat.sub_diag, Es by lia; reflexivity).
  assert (Z.shiftr (section_marker tag) 3 = tag) as ->. { unfold section_marker. rewrite Z.shiftr_div_pow2 by lia. change (2 ^ 3) with 8. symmetry. apply (Z.div_unique _ _ _ 2); lia. }
  assert (Z.land (section_marker tag) 7 = 2) as ->. { unfold section_marker. change 7 with (Z.ones 3). rewrite Z.land_ones by lia. change (2 ^ 3) with 8. symmetry. apply (Z.mod_unique _ _ tag 2); lia. }
  destruct (Z.eqb_spec tag 0); [lia|]. destruct (Z.ltb_spec 15 tag); [lia|]. cbn [orb]. change (2 =? 2) with true. change (2 =? 0) with false. cbn [orb negb andb]. rewrite Hm.
  unfold x_len.
  assert (Sl : Stream.slice D (S (length pre)) (length D) = encode_base128_fix (Z.of_nat (length payload)) k ++ payload ++ rest).
  { unfold Stream.slice. rewrite (firstn_all2 (n := (length D - S (length pre))%nat)) by (rewrite skipn_length; lia). rewrite ED. replace (S (length pre)) with (length (pre ++ [section_marker tag]))%nat by (rewrite app_length; cbn [length]; lia).
    rewrite Es. cbn [app]. replace (pre ++ section_marker tag :: (encode_base128_fix (Z.of_nat (length payload)) k ++ payload) ++ rest) with ((pre ++ [section_marker tag]) ++ encode_base128_fix (Z.of_nat (length payload)) k ++ payload ++ rest) by (rewrite <- !app_assoc; reflexivity).
    rewrite skipn_app, skipn_all, Nat.sub_diag. reflexivity. }
  rewrite Sl, base128_fix_roundtrip by lia. cbv zeta. replace (known_tag tag) with true by (unfold known_tag; lia). rewrite Ha. rewrite Nat2Z.id.
  unfold x_body, x_init. destruct (Z.eqb_spec tag 7); [lia|]. destruct (Z.eqb_spec tag 8); [lia|]. cbn [x_call].
  assert (Hst : (length D - length (payload ++ rest))%nat = (length pre + 1 + k)%nat) by (rewrite app_length; lia). rewrite Hst.
  assert (Sk : skipn (length pre + 1 + k) D = payload ++ rest).
  { rewrite ED, Es. replace (pre ++ (section_marker tag :: encode_base128_fix (Z.of_nat (length payload)) k ++ payload) ++ rest) with ((pre ++ section_marker tag :: encode_base128_fix (Z.of_nat (length payload)) k) ++ payload ++ rest)
      by (rewrite <- !app_assoc; cbn [app]; rewrite <- !app_assoc; reflexivity).
    replace (length pre + 1 + k)%nat with (length (pre ++ section_marker tag :: encode_base128_fix (Z.of_nat (length payload)) k)) by (rewrite app_length; cbn [length]; rewrite encode_base128_fix_length; lia).
    rewrite skipn_app, skipn_all, Nat.sub_diag. reflexivity. }
  unfold section_view. rewrite Sk, <- app_assoc. replace (length D - (length pre + 1 + k))%nat with (length (payload ++ rest)) by (rewrite app_length; lia).
  rewrite Hc. cbn [lift_res]. rewrite Nat.eqb_refl. f_equal. rewrite app_length. lia.
Qed.

(** * The entropy codes *)
Theorem histogram_sections O ms its ec h : context_layout (Z.of_nat (length ms)) ms -> Forall (fun b => 0 <= b < 7) (map cm_bits ms) -> (1 <= length ms <= 256)%nat ->
  (forall i n, 0 <= ch_rnd (or_round O i) n <= 1024) -> Forall (cshape (9 * num_contexts ms)) its ->
  entropy_codes (or_costs O) its (contexts_of (map cm_bits ms)) (0%nat :: map (fun m => Z.to_nat (cm_off m)) ms) = Some ec ->
  encode_histogram_section (or_round O) (map cm_bits ms) (snd ec) (fst ec) = Some h ->
  let cmap := map Z.of_nat (snd ec) in
  exists codes, Forall complete_histogram codes /\
    (forall arena rest, 648 <= Z.of_nat (length arena) <= 65535 ->
       arun false (read_histogram_section arena (length ms)) (fields_bits (snd h) ++ rest) = Some ((map cm_bits ms, cmap, codes), rest)) /\
    codable cmap codes its /\
    forall l, (forall x, In x l -> In x its) -> map (resolve cmap (fst h)) l = map (resolve cmap codes) l.
Proof.
  intros Lay FB Hn HR Sh Eec Eh cmap. set (nb := contexts_of (map cm_bits ms)) in *.
  pose proof (layout_groups ms ltac:(lia) Lay) as G. fold nb in G.
  pose proof (contexts_of_num ms Lay FB) as Nc. fold nb in Nc. rewrite <- Nc in Sh.
  destruct (C43_every_symbol_can_be_coded (or_costs O) its nb _ Sh G) as (out & cm & E3 & Lcm & Lout & Rng & Fout & Cod).
  rewrite E3 in Eec. injection Eec as <-. cbn [fst snd] in *.
  assert (Lml : length cm = map_len (map cm_bits ms)) by (rewrite Lcm; unfold map_len; fold nb; lia).
  assert (Hout : (1 <= length out <= 256)%nat).
  { split; [|exact Lout]. assert (nb <> 0)%nat as Nb. { unfold nb, contexts_of. rewrite map_length. destruct ms; cbn [length] in *; lia. }
    destruct cm as [|c cm']; [cbn [length] in Lcm; lia|]. specialize (Rng c (or_introl eq_refl)). lia. }
  destruct (encode_section_ok (or_round O) (map cm_bits ms) cm out) as (tables & fs & codes & E4 & FO & Rd & L1 & L2 & CH & W); try assumption.
  { rewrite map_length. exact Hn. }
  { intros i hh Hi. split; [apply HR|]. eapply encode_histogram_norm; eassumption. }
  rewrite E4 in Eh. injection Eh as <-. cbn [fst snd] in *.
  assert (CM : codable cmap (mask out tables) its).
  { apply Cod. intros k hh Hk Pos. destruct (W k hh Hk) as (cs & om & T & _ & N). exists (ch_rnd (or_round O k)), (ch_up1 (or_round O k)), (ch_up2 (or_round O k)), om, cs.
    split; [apply HR|]. split; [exact N|]. rewrite (mask_nth _ _ _ _ _ Hk T). pose proof (used_from_pos hh 0 Pos) as U. unfold HistModel.used. destruct (used_from 0 hh); [congruence|reflexivity]. }
  assert (AG : forall hh s, In (CSym hh s) its -> exists t, table_of cmap tables hh = Some t /\ table_of cmap codes hh = Some t /\ counts_ok t /\ 0 < ans_freq t s).
  { intros hh s I. destruct (CM hh s I) as (t & T & C & A). exists t. unfold table_of in *. apply obind_some in T. destruct T as (e & Ee & T). unfold zget in T.
    destruct (Z.ltb_spec e 0) as [Ng|Ng]; [discriminate|].
    destruct (mask_inv _ _ _ _ T) as (x & X1 & X2 & X3); [intros ->; destruct C as [_ C]; discriminate|].
    destruct (W _ _ X1) as (cs & om & T1 & T2 & _). rewrite Ee. unfold obind, zget. destruct (Z.ltb_spec e 0); [lia|].
    split; [exact X3|]. split; [|split; assumption]. rewrite T2. rewrite X3 in T1. injection T1 as ->. unfold sent. destruct (HistModel.used x); [congruence|reflexivity]. }
  exists codes. split; [exact CH|]. split; [intros arena rest HA; rewrite <- (map_length cm_bits ms); apply Rd, HA|]. split.
  { intros hh s I. destruct (AG hh s I) as (t & _ & T & C & A). eauto. }
  intros l Hl. apply resolve_agree. intros hh s I. destruct (AG hh s (Hl _ I)) as (t & T1 & T2 & _). congruence.
Qed.

(** * Meta data *)
Lemma group_metas_spec j dim : forall cs off ms, group_metas j dim off cs = Some ms ->
  length ms = length cs /\ context_layout off ms /\ Forall (fun b => 0 <= b < 7) (map cm_bits ms) /\
  Forall2 (fun c m => 0 <= c_quant c < Z.of_nat (length (j_quant j)) /\ cm_w m = Z.to_nat (j_mcu_cols j * c_h c) /\ cm_h m = Z.to_nat (j_mcu_rows j * c_v c) /\ cm_vs m = Z.to_nat (c_v c)) cs ms /\
  metas_from off (map (fun c => (c_h c, c_v c)) cs) (map (fun c => (j_mcu_cols j * c_h c, j_mcu_rows j * c_v c)) cs) (map cm_bits ms) (map q_values (j_quant j)) (map c_quant cs) = Some ms.
Proof.
  induction cs as [|c cs IH]; intros off ms E; cbn [group_metas] in E; unfold obind in E.
  - injection E as <-. cbn [map context_layout length metas_from]. split; [reflexivity|]. split; [exact Logic.I|]. split; [constructor|]. split; [constructor|reflexivity].
  - destruct (Z.ltb_spec (c_quant c) 0); [discriminate|]. destruct (nth_error (j_quant j) (Z.to_nat (c_quant c))) as [q|] eqn:Eq; [|discriminate]. cbv zeta in E.
    destruct (_ <? _)%nat; [discriminate|]. destruct (group_bits _ _ _ _) as [b|] eqn:Eb; [|discriminate].
    destruct (group_metas j dim _ cs) as [t|] eqn:Et; [|discriminate]. injection E as <-. destruct (IH _ _ Et) as (A1 & A2 & A3 & A4 & A5).
    unfold group_bits in Eb. apply obind_some in Eb. destruct Eb as (nn & _ & Eb).
    pose proof (select_context_bits_ok _ _ Eb) as Hb. cbn [map context_layout length cm_bits cm_off].
    split; [lia|]. split; [split; [reflexivity|split; [exact Hb|rewrite <- scheme_size_skip by exact Hb; exact A2]]|]. split; [constructor; assumption|].
    assert (Hq : 0 <= c_quant c < Z.of_nat (length (j_quant j))) by (assert (nth_error (j_quant j) (Z.to_nat (c_quant c)) <> None) as N by congruence; apply nth_error_Some in N; lia).
    split; [constructor; [cbn [cm_w cm_h cm_vs]; auto|exact A4]|].
    cbn [metas_from]. destruct (Z.ltb_spec (c_quant c) 0); [lia|]. rewrite (map_nth_error q_values _ _ Eq). unfold obind. rewrite A5. reflexivity.
Qed.
