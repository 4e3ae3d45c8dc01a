(** The encoder never refuses what the reader returns, within explicit limits: the whole stream. *)
From Verif Require Import Base CodesModel CodesProofs JpegModel CtxTables LehmerModel LehmerProofs EntropyModel HistModel HistProofs PropsHist BitModel BitProofs QuantModel QuantProofs PropsQuant InternalsModel InternalsProofs InternalsProofs2 MetaModel MetaProofs PropsMeta HeaderModel HeaderProofs PropsHeader
  CMapModel HSecModel HSecProofs PropsCMap CoefModel CoefProofs DCProofs ACProofs PropsCoef ClusterModel PropsCluster Decoder DecoderProofs2 Encoder EncoderProofs2 EncoderProofs3 EncoderProofs4 JBitModel JFileModel JpegSpec ReaderProofs3 ReaderProofs4 ReaderProofs5 ReaderProofs6 EncodeTotal1 EncodeTotal2 EncodeSpec SizeBound.

Definition quant_index_ok (j : jpeg) : Prop := Forall (fun c => 0 <= c_quant c < Z.of_nat (length (j_quant j))) (j_comps j).

Lemma aux_some j : jpeg_ok j -> more j -> length (j_scans j) = count_marker 218 (j_markers j) ->
  (j_zero_pad j = true -> Z.of_nat (length (j_padding j)) <= padding_bits_limit (j_width j) (j_height j) (length (j_comps j))) ->
  exists aux, encode_aux (j_width j) (j_height j) (internals_of j) (j_inter j) = Some aux.
Proof.
  intros JO [M1 M2 M3] LS PD. destruct (jo_internals _ JO) as (MK & _). destruct (markers_last _ MK) as [K1 K2].
  destruct (huffs_encodable _ M1 M2) as [hs Eh].
  destruct (quant_heads_encodable (map (fun q => (q_index q, q_last q, q_precision q)) (j_quant j))) as [qs Eq]; [apply ends_map; exact M3|].
  unfold encode_aux, encode_internals. cbv zeta. unfold internals_of in *. cbn [in_markers in_restart in_huff in_scans in_quant in_ids in_zero_pad in_padding] in *.
  rewrite K1, K2. change (negb (217 =? 217) || negb true) with false. cbv iota. rewrite Eh, Eq, LS, Nat.eqb_refl. unfold obind. cbn [negb]. cbv iota. rewrite map_length.
  assert (P0 : 0 <= padding_bits_limit (j_width j) (j_height j) (length (j_comps j))).
  { destruct (jo_picture _ JO) as (W & H & _ & N & _). rewrite map_length in N. apply padding_limit_small; lia. }
  destruct (Z.ltb_spec (padding_bits_limit (j_width j) (j_height j) (length (j_comps j))) (Z.of_nat (length (if j_zero_pad j then j_padding j else [])))) as [L|L].
  - destruct (j_zero_pad j); [specialize (PD eq_refl); lia|cbn [length] in L; lia].
  - eexists. reflexivity.
Qed.

Lemma dims_of j : jpeg_ok j ->
  Forall (fun c => c_wb c = j_mcu_cols j * c_h c /\ c_hb c = j_mcu_rows j * c_v c /\ 1 <= c_wb c /\ 1 <= c_hb c /\ c_wb c * c_hb c <= 2 ^ 21 /\ Z.of_nat (length (c_coeffs c)) = c_wb c * c_hb c) (j_comps j).
Proof.
  intros JO. destruct (jo_picture _ JO) as (_ & _ & _ & _ & _ & Hg). destruct Hg as (_ & _ & _ & _ & _ & Gb & Gp).
  assert (Gb' : map (fun c => (c_wb c, c_hb c)) (j_comps j) = map (fun c => (j_mcu_cols j * c_h c, j_mcu_rows j * c_v c)) (j_comps j)).
  { unfold grid_of in Gb. cbn [g_blocks g_mcu_cols g_mcu_rows] in Gb. rewrite map_map in Gb. exact Gb. }
  apply map_eq_inv in Gb'. unfold grid_of in Gp. cbn [g_blocks] in Gp. rewrite Forall_map in Gp. pose proof (jo_coeffs _ JO) as CO.
  rewrite Forall_forall in *. intros c I. specialize (Gb' c I). specialize (Gp c I). specialize (CO c I). cbv beta in *. cbn [fst snd] in *. destruct CO as [CO _].
  injection Gb' as D1 D2. rewrite <- D1, <- D2. lia.
Qed.

(** What the coefficients and the encoder's choices satisfy. *)
Lemma coef_setup j ms : jpeg_ok j -> enc_metas j (Z.of_nat (length (j_comps j))) (j_comps j) = Some ms ->
  length ms = length (j_comps j) /\ (1 <= length ms <= 4)%nat /\ context_layout (Z.of_nat (length ms)) ms /\ Forall (fun b => 0 <= b < 7) (map cm_bits ms) /\ metas_ok ms /\
  Forall2 plane_ok ms (map c_coeffs (j_comps j)) /\ Forall ac_within_limits (map c_coeffs (j_comps j)) /\
  Forall2 (fun c m => cm_w m = Z.to_nat (c_wb c) /\ cm_h m = Z.to_nat (c_hb c)) (j_comps j) ms.
Proof.
  intros JO Ems. pose proof (dims_of j JO) as Dim. destruct JO as [JP _ _ _ _ _ _ _ JB].
  destruct (enc_metas_spec j _ _ _ Ems) as (Lms & Lay & FB & F2 & Mf).
  set (samp := map (fun c => (c_h c, c_v c)) (j_comps j)) in *.
  assert (Lsamp : length samp = length (j_comps j)) by apply map_length.
  pose proof JP as (Hw & Hh & Hv & Hn & Hs & Hg). pose proof Hg as (_ & _ & _ & _ & _ & Gb & Gp).
  assert (Gb' : map (fun c => (c_wb c, c_hb c)) (j_comps j) = map (fun c => (j_mcu_cols j * c_h c, j_mcu_rows j * c_v c)) (j_comps j)).
  { unfold grid_of, samp in Gb. cbn [g_blocks g_mcu_cols g_mcu_rows] in Gb. rewrite map_map in Gb. exact Gb. }
  assert (Fq : Forall (fun q => 0 <= q < Z.of_nat (length (map q_values (j_quant j)))) (map c_quant (j_comps j))).
  { rewrite Forall_map, map_length. clear - F2. induction F2 as [|c m cs l H F IH]; constructor; [apply H|exact IH]. }
  destruct (metas_of_ok (j_width j) (j_height j) samp (grid_of j) (Z.of_nat (length samp)) (map q_values (j_quant j)) (map cm_bits ms) (map c_quant (j_comps j))) as (ms' & Em' & _ & _ & _ & Mok & _).
  { cbn [header_valid]. split; [exact Hw|]. split; [exact Hh|]. split; [cbn; tauto|]. split; [reflexivity|]. split; [exact Hn|]. split; [exact Hs|exact Hg]. }
  { rewrite map_length. lia. } { rewrite map_length. lia. } { exact FB. } { exact Fq. }
  assert (Mf' : metas_from (Z.of_nat (length samp)) samp (g_blocks (grid_of j)) (map cm_bits ms) (map q_values (j_quant j)) (map c_quant (j_comps j)) = Some ms).
  { rewrite Lsamp. change (g_blocks (grid_of j)) with (map (fun c => (c_wb c, c_hb c)) (j_comps j)). rewrite Gb'. exact Mf. }
  rewrite Mf' in Em'. injection Em' as <-.
  split; [exact Lms|]. split; [lia|]. split; [rewrite Lms; exact Lay|]. split; [exact FB|]. split; [exact Mok|].
  clear - F2 JB Dim. revert Dim. induction F2 as [|c m cs l H F IH]; intros Dim; [split; [|split]; constructor|].
  destruct (Forall_inv Dim) as (D1 & D2 & P1 & P2 & _ & _). destruct (Forall_inv JB) as [J1 J2]. destruct (IH (Forall_inv_tail JB) (Forall_inv_tail Dim)) as (I1 & I2 & I3).
  destruct H as (_ & Wm & Hm & _). split; [|split]; constructor; auto.
  - split; [|eapply Forall_impl; [|exact J2]; cbv beta; intros b [Q _]; exact Q]. rewrite Wm, Hm, <- D1, <- D2.
    rewrite <- Z2Nat.inj_mul by lia. rewrite <- J1, Nat2Z.id. reflexivity.
  - intros b v Ib Iv. rewrite Forall_forall in J2. apply (J2 b Ib). exact Iv.
  - rewrite Wm, Hm, D1, D2. auto.
Qed.

Definition dc_limit (j : jpeg) : Prop := Forall (fun c => forall x y, (x < Z.to_nat (c_wb c))%nat -> (y < Z.to_nat (c_hb c))%nat ->
  Z.abs (dc_at (c_coeffs c) (y * Z.to_nat (c_wb c) + x) - predict (Z.to_nat (c_wb c)) (c_coeffs c) x y) <= 2054) (j_comps j).

Lemma dc_limit_iff j ms : Forall2 (fun c m => cm_w m = Z.to_nat (c_wb c) /\ cm_h m = Z.to_nat (c_hb c)) (j_comps j) ms ->
  (dc_limit j <-> Forall2 dc_within_limits ms (map c_coeffs (j_comps j))).
Proof.
  unfold dc_limit. induction 1 as [|c m cs l [W H] F IH]; cbn [map]; [split; constructor|]. split.
  - intros D. constructor; [|apply IH, (Forall_inv_tail D)]. intros x y. rewrite W, H. apply (Forall_inv D).
  - intros D. inversion D as [|? ? ? ? D1 D2]; subst. constructor; [|apply IH; exact D2]. intros x y. specialize (D1 x y). rewrite W, H in D1. exact D1.
Qed.

Lemma clusters_normalise O j i h : oracle_works O j -> nth_error (chosen_clusters (or_costs O) j) i = Some h -> length h = 18%nat -> Forall (fun c => 0 <= c) h ->
  normalize_counts (ch_rnd (or_round O i)) (ch_up1 (or_round O i)) (ch_up2 (or_round O i)) h <> None.
Proof.
  intros [R N _] E L F. destruct (existsb (fun c => 0 <? c) h) eqn:P.
  - apply existsb_exists in P. destruct P as (c & I & P). apply (In_nth _ _ 0) in I. destruct I as (s & _ & Es).
    destruct (N i h E) as (D & T & HD & H1 & H2 & H3 & H4); [exists s; lia|]. eapply C16_normalisation_never_aborts; eauto.
  - assert (U : forall k, used_from k h = []).
    { clear - P. induction h as [|c h IH]; intros k; [reflexivity|]. cbn [existsb] in P. apply orb_false_iff in P as [P1 P2]. cbn [used_from]. rewrite P1. apply IH, P2. }
    unfold normalize_counts, HistModel.used. rewrite U. discriminate.
Qed.

Lemma front_some O j : jpeg_ok j -> quant_index_ok j -> oracle_works O j -> dc_limit j ->
  exists ms dc ac ec h, enc_metas j (Z.of_nat (length (j_comps j))) (j_comps j) = Some ms /\
    encode_dc ms (map c_coeffs (j_comps j)) = Some dc /\
    encode_ac (negb (Z.testbit (j_version j) 1)) ms (enc_orders j) (map c_coeffs (j_comps j)) (snd dc) = Some ac /\
    entropy_codes (or_costs O) (fst dc ++ snd ac) (contexts_of (map cm_bits ms)) (0%nat :: map (fun m => Z.to_nat (cm_off m)) ms) = Some ec /\
    encode_histogram_section (or_round O) (map cm_bits ms) (snd ec) (fst ec) = Some h /\
    Z.of_nat (length (pack (fields_bits (snd h)))) <= 66400.
Proof.
  intros JO QI OW DL. destruct (enc_metas_some j (j_comps j) (Z.of_nat (length (j_comps j))) QI (dims_of j JO)) as [ms Ems].
  destruct (coef_setup j ms JO Ems) as (Lms & Hn & Lay & FB & Mok & PO & AL & WH). apply (dc_limit_iff j ms WH) in DL.
  destruct (enc_orders_ok j) as [OO LO].
  destruct (C40_coefficients_round_trip (negb (Z.testbit (j_version j) 1)) ms (enc_orders j) _ Mok Lay ltac:(lia) OO PO DL AL) as (dcits & flags & head & acits & E1 & E2 & Sh & _).
  set (nb := contexts_of (map cm_bits ms)) in *.
  pose proof (layout_groups ms ltac:(lia) Lay) as G. fold nb in G.
  pose proof (contexts_of_num ms Lay FB) as Nc. fold nb in Nc. rewrite <- Nc in Sh.
  destruct (C43_every_symbol_can_be_coded (or_costs O) (dcits ++ acits) nb _ Sh G) as (out & cm & E3 & Lcm & Lout & Rng & Fout & _).
  assert (Hout : (1 <= length out <= 256)%nat).
  { split; [|exact Lout]. assert (nb <> 0)%nat as Nb. { unfold nb, contexts_of. rewrite map_length. destruct ms; cbn [length] in *; lia. }
    destruct cm as [|c cm']; [cbn [length] in Lcm; lia|]. specialize (Rng c (or_introl eq_refl)). lia. }
  assert (CC : chosen_clusters (or_costs O) j = out).
  { unfold chosen_clusters. rewrite Ems, E1. cbn [fst snd]. rewrite E2. cbn [fst snd]. fold nb. rewrite E3. reflexivity. }
  destruct (encode_section_ok (or_round O) (map cm_bits ms) cm out) as (tables & fs & codes & E4 & _ & RD & _); try assumption.
  { rewrite map_length. lia. }
  { rewrite Lcm. unfold map_len. fold nb. lia. }
  { intros i hh Hi. split; [apply OW|]. rewrite Forall_forall in Fout. destruct (Fout hh (nth_error_In _ _ Hi)) as [L F]. apply (clusters_normalise O j); auto. rewrite CC. exact Hi. }
  exists ms, (dcits, flags), (head, acits), (out, cm), (tables, fs). cbn [fst snd]. split; [exact Ems|]. split; [exact E1|]. split; [exact E2|]. split; [exact E3|]. split; [exact E4|].
  assert (A : 648 <= Z.of_nat (length (repeat (0, 0) (Z.to_nat 648))) <= 65535) by (rewrite repeat_length; lia).
  apply (histogram_section_size (length (map cm_bits ms)) fs _ _ ltac:(rewrite map_length; lia) A (RD _ [] A)).
Qed.

Lemma blocks_sum j ms : jpeg_ok j -> Forall2 (fun c m => cm_w m = Z.to_nat (c_wb c) /\ cm_h m = Z.to_nat (c_hb c)) (j_comps j) ms ->
  Z.of_nat (fold_right Nat.add 0%nat (map (fun m => cm_w m * cm_h m)%nat ms)) = sumZ (map (fun c => c_wb c * c_hb c) (j_comps j)).
Proof.
  intros JO F. pose proof (dims_of j JO) as D. induction F as [|c m cs l [W H] F IH]; [reflexivity|]. cbn [map fold_right sumZ]. destruct (Forall_inv D) as (_ & _ & P1 & P2 & _).
  rewrite Nat2Z.inj_add, (IH (Forall_inv_tail D)), W, H. unfold sumZ. cbn [fold_right]. nia.
Qed.

Lemma encode_section_sized tag k payload s : encode_section tag k payload = Some s -> Z.of_nat (length payload) < 2 ^ (7 * Z.of_nat k).
Proof.
  unfold encode_section. destruct (Z.ltb_spec 0 (Z.shiftr (Z.of_nat (length payload)) (7 * Z.of_nat k))) as [|L]; [discriminate 1|]. intros _.
  rewrite Z.shiftr_div_pow2 in L by lia. assert (P : 0 < 2 ^ (7 * Z.of_nat k)) by (apply Z.pow_pos_nonneg; lia).
  destruct (Z.ltb_spec (Z.of_nat (length payload)) (2 ^ (7 * Z.of_nat k))) as [H|H]; [exact H|]. exfalso.
  assert (1 <= Z.of_nat (length payload) / 2 ^ (7 * Z.of_nat k)) by (apply Z.div_le_lower_bound; lia). lia.
Qed.

Lemma obind_go {A B} (o : option A) (f : A -> option B) a : o = Some a -> obind o f = f a.
Proof. intros ->. reflexivity. Qed.

Lemma base128_size_le v : (base128_size v <= 11)%nat.
Proof.
  unfold base128_size. assert (G : forall f v, (base128_size_loop f v <= S f)%nat); [|apply G]. clear. induction f as [|f IH]; intros v; cbn [base128_size_loop]; [lia|]. destruct (128 <=? v); [specialize (IH (Z.shiftr v 7)); lia|lia].
Qed.

Theorem encode_total O j : jpeg_ok j -> more j -> length (j_scans j) = count_marker 218 (j_markers j) -> quant_index_ok j -> oracle_works O j -> encodable j ->
  forall len, sufficient_size O j <= len < 2 ^ 63 -> exists out, brunsli_encode_jpeg O j len = Some out.
Proof.
  intros JO MO LS QI OW EN. destruct (front_some O j JO QI OW (en_dc j EN)) as (ms & dc & ac & ec & h & E1 & E2 & E3 & E4 & E5 & Z6).
  destruct (aux_some j JO MO LS (en_pad j EN)) as [aux Ea].
  destruct (C26_header_round_trip [] [] _ _ _ _ _ ltac:(constructor) ltac:(constructor) (jo_picture _ JO)) as (hd & s2 & EH & ES2 & _ & _).
  destruct (encode_section_some 4 _ aux (en_aux j EN aux Ea)) as [s4 ES4].
  assert (EM : exists md, encode_metadata (or_compress O) (j_app j) (j_com j) (j_tail j) = Some md).
  { unfold encode_metadata, metadata_string. cbv zeta. destruct (en_meta j EN) as (A1 & A2 & A3).
    change kShortMarkerLimit with 832. change kMultibyteMarkerLimit with 1024.
    destruct (Z.ltb_spec 832 (Z.of_nat (length (filter snd (map transform_app (j_app j)))))); [lia|].
    destruct (Z.ltb_spec 1024 (Z.of_nat (length (j_app j)) - Z.of_nat (length (filter snd (map transform_app (j_app j)))))); [lia|].
    destruct (Z.ltb_spec 1024 (Z.of_nat (length (j_com j)))); [lia|]. cbn [obind].
    match goal with |- context [concat ?a ++ ?b] => generalize (concat a ++ b) end. intros m. unfold obind. cbv beta iota.
    destruct m as [|x1 m]; [eexists; reflexivity|]. destruct m as [|x2 m]; [eexists; reflexivity|]. pose proof (ow_compress O j OW (x1 :: x2 :: m)) as C. destruct (or_compress O (x1 :: x2 :: m)) as [c|]; [|congruence]. eexists. reflexivity. }
  destruct EM as [md EM]. destruct (encode_quant_tables (map q_values (j_quant j)) (map c_quant (j_comps j))) as [qt|] eqn:EQ; [|exfalso; exact (en_quant j EN EQ)].
  assert (NC : (1 <= length (j_comps j) <= 4)%nat) by (destruct (jo_picture _ JO) as (_ & _ & _ & N & _); rewrite map_length in N; exact N).
  destruct (encode_section_some 5 2 (pack (fields_bits qt))) as [s5 ES5]; [apply (quant_section_small _ _ _ EQ); rewrite map_length; lia|].
  set (p6 := pack (fields_bits (snd h))). set (p7 := words_section (snd ec) (fst h) [] (fst dc)). set (p8 := words_section (snd ec) (fst h) (fst ac) (snd ac)).
  intros n Hn0. unfold sufficient_size in Hn0. rewrite Ea, EM in Hn0. cbn [option_length] in Hn0.
  assert (Hn : Z.of_nat (length signature) + Z.of_nat (length s2) + Z.of_nat (length s4) + Z.of_nat (length md) + Z.of_nat (length s5) + Z.of_nat (length p6) + Z.of_nat (length p7) + Z.of_nat (length p8) + 40 <= n < 2 ^ 63).
  { destruct (coef_setup j ms JO E1) as (Lms & Hk & _ & _ & Mok & _ & _ & WH). rewrite <- (blocks_sum j ms JO WH), <- (visits_length ms Mok) in Hn0.
    pose proof (encode_dc_length ms _ _ Mok E2) as K7. destruct (encode_ac_length _ _ _ _ _ _ E3) as [K8 K9]. destruct (enc_orders_ok j) as [_ LO].
    pose proof (words_section_length (snd ec) (fst h) [] (fst dc)) as W7. pose proof (words_section_length (snd ec) (fst h) (fst ac) (snd ac)) as W8. fold p7 in W7. fold p8 in W8. cbn [length] in W7.
    pose proof (encode_section_length _ _ _ _ ES2) as K2. pose proof (encode_section_sized _ _ _ _ ES2) as K2'. pose proof (encode_section_length _ _ _ _ ES4) as K4. pose proof (encode_section_length _ _ _ _ ES5) as K5. pose proof (encode_section_sized _ _ _ _ ES5) as K5'.
    pose proof (base128_size_le (aux_estimate j)) as KB. fold p6 in Z6. change (2 ^ (7 * Z.of_nat 1)) with 128 in K2'. change (2 ^ (7 * Z.of_nat 2)) with 16384 in K5'.
    assert (KS : length signature = 6%nat) by reflexivity. lia. }
  unfold brunsli_encode_jpeg. destruct (Nat.eqb_spec (length (j_comps j)) 0) as [|_]; [lia|]. cbv zeta. rewrite (obind_go _ _ _ E1). rewrite (obind_go _ _ _ E2). rewrite (obind_go _ _ _ E3). rewrite (obind_go _ _ _ E4).
  unfold serialize_sections. rewrite (obind_go _ _ _ EH). rewrite (obind_go _ _ _ ES2). cbv zeta. rewrite (obind_go _ _ _ Ea). rewrite (obind_go _ _ _ ES4). rewrite (obind_go _ _ _ EM).
  destruct (section_some 3 (n - Z.of_nat (length ((signature ++ s2) ++ s4))) md) as (s3 & ES3 & L3); [rewrite !app_length; lia|]. rewrite (obind_go _ _ _ ES3). rewrite (obind_go _ _ _ EQ). rewrite (obind_go _ _ _ ES5). rewrite (obind_go _ _ _ E5).
  fold p6 p7 p8.
  destruct (section_some 6 (n - Z.of_nat (length ((((signature ++ s2) ++ s4) ++ s3) ++ s5))) p6) as (s6 & ES6 & L6); [rewrite !app_length; lia|]. rewrite (obind_go _ _ _ ES6).
  destruct (section_some 7 (n - Z.of_nat (length (((((signature ++ s2) ++ s4) ++ s3) ++ s5) ++ s6))) p7) as (s7 & ES7 & L7); [rewrite !app_length; lia|]. rewrite (obind_go _ _ _ ES7).
  destruct (section_some 8 (n - Z.of_nat (length ((((((signature ++ s2) ++ s4) ++ s3) ++ s5) ++ s6) ++ s7))) p8) as (s8 & ES8 & L8); [rewrite !app_length; lia|]. rewrite (obind_go _ _ _ ES8).
  destruct (Z.ltb_spec n (Z.of_nat (length (((((((signature ++ s2) ++ s4) ++ s3) ++ s5) ++ s6) ++ s7) ++ s8)))) as [L|L]; [rewrite !app_length in L; lia|]. eauto.
Qed.

(** Conversely every limit is checked. *)
Theorem encode_limits O j len out : jpeg_ok j -> brunsli_encode_jpeg O j len = Some out -> encodable j.
Proof.
  intros JO E. unfold brunsli_encode_jpeg in E. destruct (Nat.eqb_spec (length (j_comps j)) 0) as [|Nc]; [discriminate|]. cbv zeta in E.
  apply obind_some in E. destruct E as (ms & Ems & E). apply obind_some in E. destruct E as (dc & Edc & E).
  apply obind_some in E. destruct E as (ac & Eac & E). apply obind_some in E. destruct E as (ec & Eec & E).
  destruct (coef_setup j ms JO Ems) as (Lms & Hn & Lay & FB & Mok & PO & AL & WH).
  unfold serialize_sections in E. apply obind_some in E. destruct E as (header & Eh & E). apply obind_some in E. destruct E as (s2 & E2 & E). cbv zeta in E.
  apply obind_some in E. destruct E as (aux & Ea & E). apply obind_some in E. destruct E as (s4 & E4 & E).
  apply obind_some in E. destruct E as (md & Emd & E). apply obind_some in E. destruct E as (s3 & E3 & E).
  apply obind_some in E. destruct E as (quant & Eq & E). clear E.
  constructor.
  - apply (dc_limit_iff j ms WH). unfold encode_dc in Edc. apply obind_some in Edc. destruct Edc as (errs & E & _). apply omap2_none in E.
    assert (W : Forall (fun m => (0 < cm_w m)%nat) ms) by (eapply Forall_impl; [|exact Mok]; cbv beta; intros m (Q & _); lia). clear - W E.
    induction E as [|m p l1 l2 H E IH]; [constructor|]. constructor; [|apply IH, (Forall_inv_tail W)]. apply C38_errors_computed_iff_within_limits; [|exact H].
    apply (Forall_inv W).
  - intros Z. unfold encode_aux in Ea. apply obind_some in Ea. destruct Ea as (fs & Ea & _). unfold encode_internals in Ea. cbv zeta in Ea.
    match type of Ea with (if ?b then _ else _) = _ => destruct b; [discriminate Ea|] end. apply obind_some in Ea. destruct Ea as (hs & _ & Ea). match type of Ea with (if ?b then _ else _) = _ => destruct b; [discriminate Ea|] end. apply obind_some in Ea. destruct Ea as (qs & _ & Ea).
    unfold internals_of in Ea. cbn [in_zero_pad in_padding in_ids] in Ea. rewrite Z, map_length in Ea.
    destruct (Z.ltb_spec (padding_bits_limit (j_width j) (j_height j) (length (j_comps j))) (Z.of_nat (length (j_padding j)))) as [|L]; [discriminate Ea|exact L].
  - unfold encode_metadata in Emd. apply obind_some in Emd. destruct Emd as (m & Em & _). unfold metadata_string in Em. cbv zeta in Em.
    change kShortMarkerLimit with 832 in Em. change kMultibyteMarkerLimit with 1024 in Em.
    destruct (Z.ltb_spec 832 (Z.of_nat (length (filter snd (map transform_app (j_app j)))))) as [|B1]; [discriminate Em|].
    destruct (Z.ltb_spec 1024 (Z.of_nat (length (j_app j)) - Z.of_nat (length (filter snd (map transform_app (j_app j)))))) as [|B2]; [discriminate Em|].
    destruct (Z.ltb_spec 1024 (Z.of_nat (length (j_com j)))) as [|B3]; [discriminate Em|]. auto.
  - rewrite Eq. discriminate.
  - intros a Ha. rewrite Ea in Ha. apply some_eq in Ha. subst a. exact (encode_section_sized _ _ _ _ E4).
Qed.

(** The unused padding bits play no role. *)
Lemma chosen_clusters_normal C j : chosen_clusters C (normal j) = chosen_clusters C j.
Proof. unfold chosen_clusters. rewrite enc_metas_normal. reflexivity. Qed.

Lemma encodable_normal j : encodable (normal j) <-> encodable j.
Proof.
  split; intros [A1 A2 A3 A4 A5]; (constructor; [exact A1| |exact A3|exact A4|]).
  - intros Hz. specialize (A2 Hz). unfold normal in A2. cbn [j_zero_pad j_padding j_width j_height j_comps] in A2. rewrite Hz in A2. exact A2.
  - intros aux. specialize (A5 aux). rewrite aux_estimate_normal in A5. unfold encode_aux in *. rewrite encode_internals_normal in A5. exact A5.
  - intros Hz. unfold normal in Hz |- *. cbn [j_zero_pad j_padding j_width j_height j_comps] in *. rewrite Hz. exact (A2 Hz).
  - intros aux. specialize (A5 aux). rewrite aux_estimate_normal. unfold encode_aux in *. rewrite encode_internals_normal. exact A5.
Qed.

Lemma oracle_works_normal O j : oracle_works O j -> oracle_works O (normal j).
Proof. intros [A1 A2 A3]. constructor; [exact A1|intros i h; rewrite chosen_clusters_normal; apply A2|exact A3]. Qed.

Lemma chosen_shape C j : jpeg_ok j -> Forall (fun h => length h = 18%nat /\ Forall (fun c => 0 <= c) h) (chosen_clusters C j).
Proof.
  intros JO. unfold chosen_clusters. destruct (enc_metas j _ _) as [ms|] eqn:Ems; [|constructor].
  destruct (encode_dc ms _) as [dc|] eqn:Edc; [|constructor]. destruct (encode_ac _ ms _ _ _) as [ac|] eqn:Eac; [|constructor].
  destruct (entropy_codes C _ _ _) as [ec|] eqn:Eec; [|constructor].
  destruct (coef_setup j ms JO Ems) as (Lms & Hn & Lay & FB & Mok & PO & AL & WH).
  assert (DL : Forall2 dc_within_limits ms (map c_coeffs (j_comps j))).
  { unfold encode_dc in Edc. apply obind_some in Edc. destruct Edc as (errs & E & _). apply omap2_none in E.
    assert (W : Forall (fun m => (0 < cm_w m)%nat) ms) by (eapply Forall_impl; [|exact Mok]; cbv beta; intros m (Q & _); lia). clear - W E.
    induction E as [|m p l1 l2 H E IH]; [constructor|]. constructor; [|apply IH, (Forall_inv_tail W)]. apply C38_errors_computed_iff_within_limits; [|exact H].
    apply (Forall_inv W). }
  destruct (enc_orders_ok j) as [OO LO].
  destruct (C40_coefficients_round_trip (negb (Z.testbit (j_version j) 1)) ms (enc_orders j) _ Mok Lay ltac:(lia) OO PO DL AL) as (dcits & flags & head & acits & E1 & E2 & Sh & _).
  rewrite E1 in Edc. apply some_eq in Edc. subst dc. cbn [fst snd] in *. rewrite E2 in Eac. apply some_eq in Eac. subst ac. cbn [fst snd] in *.
  pose proof (layout_groups ms ltac:(lia) Lay) as G. pose proof (contexts_of_num ms Lay FB) as Nc. rewrite <- Nc in Sh.
  destruct (C43_every_symbol_can_be_coded C (dcits ++ acits) _ _ Sh G) as (out & cm & E3 & _ & _ & _ & Fout & _).
  rewrite E3 in Eec. apply some_eq in Eec. subst ec. exact Fout.
Qed.

(** * Exact rounding *)
Definition exact_round (h : list Z) : choices :=
  mkChoices (fun n => Z.max 0 (Z.min 1024 ((nth n h 0 * 2048 + sumZ h) / (2 * sumZ h)))) (fun _ => false) (fun _ => false).
Definition exact_oracle (C : costs) (compress : list Z -> option (list Z)) (j : jpeg) : oracle :=
  mkOracle C (fun i => exact_round (nth i (chosen_clusters C j) [])) compress.

Lemma sum_bounds : forall l, Forall (fun v => 0 <= v) l -> 0 <= sumZ l /\ forall k, 0 <= nth k l 0 <= sumZ l.
Proof.
  induction l as [|a l IH]; intros F; [split; [unfold sumZ; cbn; lia|intros [|k]; unfold sumZ; cbn; lia]|].
  pose proof (Forall_inv F) as P. cbv beta in P. destruct (IH (Forall_inv_tail F)) as [I1 I2]. change (sumZ (a :: l)) with (a + sumZ l).
  split; [lia|]. intros [|k]; cbn [nth]; [lia|]. specialize (I2 k). lia.
Qed.

Lemma exact_nearest h : Forall (fun c => 0 <= c) h -> (exists s, 0 < nth s h 0) -> nearest (exact_round h) h.
Proof.
  intros F [s P]. destruct (sum_bounds h F) as [S1 S2]. pose proof (S2 s) as Ss.
  exists (sumZ h), (fun n => 1024 * nth n h 0). split; [lia|]. split; [|split; [|split]].
  - intros n Pn. cbn [exact_round ch_rnd]. specialize (S2 n).
    set (q := (nth n h 0 * 2048 + sumZ h) / (2 * sumZ h)). pose proof (Z.div_mod (nth n h 0 * 2048 + sumZ h) (2 * sumZ h) ltac:(lia)) as DM. fold q in DM.
    pose proof (Z.mod_pos_bound (nth n h 0 * 2048 + sumZ h) (2 * sumZ h) ltac:(lia)).
    assert (0 <= q) by (apply Z.div_pos; lia). assert (q < 1025) by (apply Z.div_lt_upper_bound; lia).
    replace (Z.max 0 (Z.min 1024 q)) with q by lia. nia.
  - intros n Pn. lia.
  - assert (E : forall l k, (forall i, nth i l 0 = nth (k + i) h 0) -> Forall (fun c => 0 <= c) l -> target_sum (fun n => 1024 * nth n h 0) k l = 1024 * sumZ l).
    { clear. induction l as [|c l IH]; intros k H F; cbn [target_sum]; [reflexivity|]. change (sumZ (c :: l)) with (c + sumZ l). rewrite (IH (1 + k)%nat); [| |exact (Forall_inv_tail F)].
      - specialize (H 0%nat). cbn [nth] in H. rewrite Nat.add_0_r in H. rewrite <- H. pose proof (Forall_inv F) as P. cbv beta in P. destruct (Z.ltb_spec 0 c); lia.
      - intros i. specialize (H (S i)). cbn [nth] in H. rewrite H. f_equal. lia. }
    rewrite (E h 0%nat); [lia|reflexivity|exact F].
  - assert (E : forall D T rnd up l n a b, (forall k, up k = false) -> min_error_decisions D T rnd up n l a b).
    { clear. intros D T rnd up. induction l as [|c l IH]; intros n a b U; cbn [min_error_decisions]; [exact Logic.I|]. destruct (0 <? c); [|apply IH, U]. split; [rewrite U; discriminate|apply IH, U]. }
    apply E. reflexivity.
Qed.

Lemma exact_oracle_works C compress j : jpeg_ok (normal j) -> (forall m, compress m <> None) -> oracle_works (exact_oracle C compress j) j.
Proof.
  intros JO HC. constructor; [| |exact HC].
  - intros i n. cbn [exact_oracle or_round exact_round ch_rnd]. lia.
  - intros i h E P. cbn [exact_oracle or_costs or_round] in *. rewrite (nth_error_nth _ _ _ E). apply exact_nearest; [|exact P].
    pose proof (chosen_shape C (normal j) JO) as SH. rewrite chosen_clusters_normal in SH. rewrite Forall_forall in SH. apply (SH h (nth_error_In _ _ E)).
Qed.

(** * Simple sufficient conditions *)
Lemma median_between w n nw : Z.min w n <= adaptive_median w n nw <= Z.max w n.
Proof. unfold adaptive_median. cbv zeta. destruct (Z.ltb_spec n w) as [H|H]; [destruct (Z.ltb_spec w nw), (Z.ltb_spec nw (w + n - w)); lia|destruct (Z.ltb_spec n nw), (Z.ltb_spec nw (w + n - n)); lia]. Qed.

Lemma dc_bounded_residual p w x y : Forall (fun b => Z.abs (nth 0 b 0) <= 1027) p -> Z.abs (dc_at p (y * w + x) - predict w p x y) <= 2054.
Proof.
  intros F. assert (D : forall k, -1027 <= dc_at p k <= 1027).
  { intros k. unfold dc_at. destruct (le_lt_dec (length p) k) as [L|L]; [rewrite (@nth_overflow block p k [] L); cbn [nth]; lia|]. rewrite Forall_forall in F. specialize (F _ (@nth_In block k p [] L)). cbv beta in F. lia. }
  assert (P : -1027 <= predict w p x y <= 1027).
  { unfold predict. cbv zeta. set (k := (y * w + x)%nat). pose proof (median_between (dc_at p (k - 1)) (dc_at p (k - w)) (dc_at p (k - w - 1))).
    pose proof (D (k - 1)%nat). pose proof (D (k - w)%nat). destruct (y =? 0)%nat, (x =? 0)%nat; cbn [negb]; lia. }
  pose proof (D (y * w + x)%nat). lia.
Qed.

(** * The sufficient size *)

Lemma sufficient_size_normal O j : sufficient_size O (normal j) = sufficient_size O j.
Proof. unfold sufficient_size, encode_aux. rewrite encode_internals_normal. reflexivity. Qed.

Lemma reader_aux_linear data J : bytes data -> read_jpeg RAll data = JOk J -> (j_zero_pad J = true -> Z.of_nat (length (j_padding J)) < 2 ^ 32) -> aux_estimate J < 117440540 * len data + 2 ^ 33.
Proof.
  intros Y E PAD0. assert (PAD : (if j_zero_pad J then Z.of_nat (length (j_padding J)) else 0) < 2 ^ 32) by (destruct (j_zero_pad J); [apply PAD0; reflexivity|lia]). clear PAD0.
  destruct (read_jpeg_parts data J Y E) as (st & pos & tail & comps & HP & _ & PA & CT & _ & _ & EJ & _ & LT & _ & LH).
  destruct PA as [_ _ _ _ _ _ _ P8 P9 _ _ _ _ _ _ _]. destruct CT as [_ C2 C3 _ _ C6].
  unfold aux_estimate. rewrite EJ in *. cbn [set_comps set_tail j_huff j_scans j_markers j_inter j_zero_pad j_padding] in *. clear EJ E.
  set (j := rf_j st) in *. pose proof (inter_sum _ C2) as S1.
  pose proof (sumZ_bound (fun s => 7 * Z.of_nat (length (si_resets s)) + 7 * Z.of_nat (length (si_zero_runs s))) (14 * 2 ^ 23) (j_scans j)) as S2.
  specialize (S2 ltac:(eapply Forall_impl; [|exact P8]; cbv beta; unfold len; intros s (H1 & H2 & _); lia)).
  pose proof (len_nonneg (j_scans j)). pose proof (len_nonneg tail).
  rewrite Z.shiftr_div_pow2 by lia. change (2 ^ 3) with 8. change (2 ^ 32) with 4294967296 in *. change (2 ^ 33) with 8589934592. change (14 * 2 ^ 23) with 117440512 in S2.
  assert (DV : forall x, x < 4294967296 -> (x + 43) / 8 < 4294967296) by (intros x Hx; apply Z.div_lt_upper_bound; lia).
  specialize (DV _ PAD). unfold len in *. lia.
Qed.

Lemma reader_aux_bound data J : bytes data -> len data < 2 ^ 29 -> read_jpeg RAll data = JOk J -> (j_zero_pad J = true -> Z.of_nat (length (j_padding J)) < 2 ^ 32) -> aux_estimate J < 2 ^ 56.
Proof. intros Y L E P. pose proof (reader_aux_linear data J Y E P) as H. change (2 ^ 29) with 536870912 in L. change (2 ^ 33) with 8589934592 in H. change (2 ^ 56) with 72057594037927936. lia. Qed.

Lemma base128_size_56 v : v < 2 ^ 56 -> (base128_size v <= 8)%nat.
Proof.
  unfold base128_size. assert (G : forall f k v, (k <= f)%nat -> v < 2 ^ (7 * (Z.of_nat k + 1)) -> (base128_size_loop f v <= S k)%nat).
  { clear. induction f as [|f IH]; intros k v L V; cbn [base128_size_loop]; [lia|]. destruct (Z.leb_spec 128 v) as [H|H]; [|lia]. destruct k as [|k]; [change (2 ^ (7 * (Z.of_nat 0 + 1))) with 128 in V; lia|].
    specialize (IH k (Z.shiftr v 7) ltac:(lia)). rewrite Z.shiftr_div_pow2 in IH by lia. change (2 ^ 7) with 128 in IH.
    assert (E : 2 ^ (7 * (Z.of_nat (S k) + 1)) = 128 * 2 ^ (7 * (Z.of_nat k + 1))) by (change 128 with (2 ^ 7); rewrite <- Z.pow_add_r by lia; f_equal; lia).
    rewrite E in V. specialize (IH ltac:(apply Z.div_lt_upper_bound; lia)). rewrite Z.shiftr_div_pow2 by lia. change (2 ^ 7) with 128. lia. }
  intros V. apply G; [lia|exact V].
Qed.

Lemma sufficient_size_moderate O j : jpeg_ok j -> encodable j -> aux_estimate j < 2 ^ 56 -> option_length (encode_metadata (or_compress O) (j_app j) (j_com j) (j_tail j)) <= 2 ^ 62 ->
  sufficient_size O j < 2 ^ 63.
Proof.
  intros JO EN AE MD. unfold sufficient_size.
  assert (A : option_length (encode_aux (j_width j) (j_height j) (internals_of j) (j_inter j)) <= 2 ^ 56).
  { destruct (encode_aux _ _ _ _) as [aux|] eqn:Ea; [|cbn; lia]. cbn [option_length]. pose proof (en_aux j EN aux Ea) as H. pose proof (base128_size_56 _ AE) as B.
    assert (2 ^ (7 * Z.of_nat (base128_size (aux_estimate j))) <= 2 ^ 56) by (apply Z.pow_le_mono_r; lia). lia. }
  assert (S : sumZ (map (fun c => c_wb c * c_hb c) (j_comps j)) <= 2 ^ 21 * len (j_comps j)).
  { apply sumZ_bound. eapply Forall_impl; [|exact (dims_of j JO)]. cbv beta. intros c (_ & _ & _ & _ & H & _). exact H. }
  destruct (jo_picture _ JO) as (_ & _ & _ & N & _). rewrite map_length in N. unfold len in S.
  change (2 ^ 21) with 2097152 in S. change (2 ^ 56) with 72057594037927936 in A. change (2 ^ 62) with 4611686018427387904 in MD. change (2 ^ 63) with 9223372036854775808. lia.
Qed.
