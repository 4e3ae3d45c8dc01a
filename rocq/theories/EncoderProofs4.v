(** Every section of the encoder is read back, and the whole stream. *)
From Verif Require Import Base CodesModel CodesProofs JpegModel CtxTables LehmerModel LehmerProofs EntropyModel EntropyProofs HistModel HistProofs BitModel BitProofs ProgLogic QuantModel QuantProofs InternalsModel InternalsProofs InternalsProofs2 InternalsProofs3 InternalsProofs4 MetaModel MetaProofs PropsMeta HeaderModel HeaderProofs PropsHeader Stream Machine ContainerModel GrammarProofs HuffModel CMapModel HSecModel HSecProofs CoefModel CoefProofs DCProofs ACProofs PropsCoef ClusterModel PropsCluster WordModel WordProofs Decoder DecoderProofs1 DecoderProofs2 Encoder EncoderProofs1 EncoderProofs2 EncoderProofs3 JpegSpec.

Lemma base128_size_range v : v < 2 ^ 63 -> (1 <= base128_size v <= 9)%nat.
Proof.
  intros H. destruct (Z.ltb_spec v 128) as [L|L].
  - unfold base128_size. cbn [base128_size_loop]. destruct (Z.leb_spec 128 v); lia.
  - destruct (base128_size_ok 9 v ltac:(lia) ltac:(lia)) as (A1 & A2 & A3 & A4). unfold base128_size.
    assert (E : forall f w, w < 2 ^ (7 * Z.of_nat (S f)) -> base128_size_loop (S (S f)) w = base128_size_loop (S f) w).
    { clear. induction f as [|f IH]; intros w Hw.
      - cbn [base128_size_loop]. destruct (Z.leb_spec 128 w); [|reflexivity]. change (2 ^ (7 * Z.of_nat 1)) with 128 in Hw. lia.
      - change (base128_size_loop (S (S (S f))) w) with (if 128 <=? w then S (base128_size_loop (S (S f)) (Z.shiftr w 7)) else 1%nat).
        change (base128_size_loop (S (S f)) w) with (if 128 <=? w then S (base128_size_loop (S f) (Z.shiftr w 7)) else 1%nat).
        destruct (Z.leb_spec 128 w); [|reflexivity]. f_equal. apply IH. rewrite Z.shiftr_div_pow2 by lia. apply Z.div_lt_upper_bound; [lia|].
        replace (2 ^ 7 * 2 ^ (7 * Z.of_nat (S f))) with (2 ^ (7 * Z.of_nat (S (S f)))); [exact Hw|]. rewrite <- Z.pow_add_r by lia. f_equal. lia. }
    rewrite E by exact H. exact A3.
Qed.

Lemma encode_section_inv tag k payload s : encode_section tag k payload = Some s ->
  s = section_marker tag :: encode_base128_fix (Z.of_nat (length payload)) k ++ payload /\ Z.of_nat (length payload) < 2 ^ (7 * Z.of_nat k).
Proof.
  unfold encode_section. destruct (Z.ltb_spec 0 (Z.shiftr (Z.of_nat (length payload)) (7 * Z.of_nat k))) as [L|L]; [discriminate|].
  intros E. injection E as <-. split; [reflexivity|]. rewrite Z.shiftr_div_pow2 in L by lia.
  assert (0 < 2 ^ (7 * Z.of_nat k)) by lia. apply Z.nle_gt. intros Hc. 
  assert (1 <= Z.of_nat (length payload) / 2 ^ (7 * Z.of_nat k)); [|lia]. apply Z.div_le_lower_bound; lia.
Qed.

Lemma encode_section_length tag k payload s : encode_section tag k payload = Some s -> length s = (1 + k + length payload)%nat.
Proof.
  intros E. destruct (encode_section_inv _ _ _ _ E) as [-> _]. cbn [length]. rewrite app_length, encode_base128_fix_length. lia.
Qed.

Lemma encode_section_bytes tag k payload s : encode_section tag k payload = Some s -> 0 <= tag <= 15 -> bytes payload -> bytes s.
Proof.
  intros E Ht Hb. destruct (encode_section_inv _ _ _ _ E) as [-> _]. apply bytes_cons. split; [unfold section_marker, is_byte; lia|].
  apply bytes_app. split; [apply encode_base128_fix_bytes; lia|exact Hb].
Qed.

Lemma section_at (B : bodies) D pre s rest tag k payload fuel met img img' : D = pre ++ s ++ rest -> bytes D ->
  encode_section tag k payload = Some s -> (1 <= k <= 9)%nat -> 3 <= tag <= 8 -> mem tag met = false ->
  admissible tag (Z.of_nat (length payload)) (tag :: met) = true ->
  bo_call B tag (length payload) img (payload ++ rest ++ repeat 0 (length payload)) (bo_init B tag (length payload) img) (length (payload ++ rest)) = RDone img' (length payload) ->
  mrun D (read_sections B (S fuel) met img) (length pre) (length D) =
  mrun D (if tag =? 8 then MRet img' else read_sections B fuel (tag :: met) img') (length (pre ++ s)) (length D).
Proof.
  intros ED Hb E Hk Ht Hm Ha Hc. rewrite app_length, (encode_section_length _ _ _ _ E).
  destruct (encode_section_inv _ _ _ _ E) as [Es Hl]. apply (sections_step B D fuel met img (length pre) tag k payload rest img'); auto.
  - rewrite ED, app_length. lia.
  - rewrite ED, skipn_app, skipn_all, Nat.sub_diag. cbn [skipn app]. rewrite Es. cbn [app]. rewrite <- app_assoc. reflexivity.
Qed.

Lemma zeros_bytes n : bytes (repeat 0 n).
Proof. apply Forall_forall. intros x Hx. apply repeat_spec in Hx. subst x. unfold is_byte. lia. Qed.

(** Section 4. *)
Lemma body4 B p x inter out rest : internals_ok (pi_w p) (pi_h p) x -> length (in_ids x) = length (pi_samp p) ->
  length inter = count_marker 255 (in_markers x) -> Forall (fun s => Z.of_nat (length s) < 2 ^ 63) inter -> Forall bytes inter -> bytes rest ->
  encode_aux (pi_w p) (pi_h p) x inter = Some out ->
  bytes out /\
  body_call B 4 (length out) p (out ++ rest ++ repeat 0 (length out)) (body_init B 4 (length out) p) (length (out ++ rest)) = RDone (set_int p (x, inter)) (length out).
Proof.
  intros H1 H2 H3 H4 H5 H6 E. destruct (jcall_roundtrip _ _ _ _ _ rest H1 H3 H4 H5 H6 E) as [Bo R]. split; [exact Bo|].
  unfold body_init. change (4 =? 3) with false. change (4 =? 4) with true. cbv iota. cbn [body_call]. rewrite app_assoc, jcall_app by (rewrite ?app_length; lia).
  rewrite <- H2, R. reflexivity.
Qed.

(** Section 3. *)
Lemma body3 B compress p app com tail out rest : brotli_inverse B compress ->
  Forall (segment_ok 224 239) app -> Forall (segment_ok 254 254) com -> bytes tail -> bytes rest ->
  encode_metadata compress app com tail = Some out -> Z.of_nat (length (concat (app ++ com ++ [tail]))) < 2 ^ 62 ->
  exists m, m_app m = app /\ m_com m = com /\ m_tail m = tail /\
  body_call B 3 (length out) p (out ++ rest ++ repeat 0 (length out)) (body_init B 3 (length out) p) (length (out ++ rest)) = RDone (set_meta p m) (length out).
Proof.
  intros HB Ha Hc Ht Hr E Hs. destruct (C24_metadata_round_trip B compress app com tail out rest [length (out ++ rest)] HB Ha Hc Ht Hr E Hs) as (m & R & M1 & M2 & M3).
  { cbn [nondecreasing]. split; [lia|exact I]. }
  { constructor; [lia|constructor]. }
  { left. reflexivity. }
  exists m. do 3 (split; [assumption|]). unfold body_init. change (3 =? 3) with true. cbv iota. cbn [body_call].
  rewrite app_assoc, mdcall_app by (rewrite ?app_length; lia). cbn [calls] in R.
  destruct (mdcall B (out ++ rest) (length out) MDInitial (length (out ++ rest))); try discriminate. injection R as -> ->. reflexivity.
Qed.

Lemma pack_scall {T} lenient (pr : prog T) fs y rest : bytes rest -> bok 0 pr ->
  (forall r, arun (negb lenient) pr (fields_bits fs ++ r) = Some (y, r)) ->
  let out := pack (fields_bits fs) in
  scall lenient (length out) (out ++ rest ++ repeat 0 (length out)) (pr, br_init, 0%nat) (length (out ++ rest)) = RDone y (length out).
Proof.
  intros Hb Hk R out. rewrite scall_full; [| | |rewrite app_length; lia|exact Hk].
  - rewrite firstn_app, firstn_all, Nat.sub_diag. cbn [firstn]. rewrite app_nil_r. unfold out. rewrite (asection_pack (negb lenient) pr (fields_bits fs) y); [reflexivity|]. apply R.
  - apply bytes_app. split; [apply pack_bytes|]. apply bytes_app. split; [exact Hb|apply zeros_bytes].
  - rewrite app_length. lia.
Qed.

(** Section 5. *)
Lemma body5 B p x inter tables idx fs rest : pi_int p = Some (x, inter) -> length idx = length (pi_samp p) ->
  Forall2 (fun p v => 0 <= p /\ qvalues_ok p v) (map snd (in_quant x)) tables -> Forall (fun x => 0 <= x < Z.of_nat (length tables)) idx ->
  encode_quant_tables tables idx = Some fs -> bytes rest ->
  let out := pack (fields_bits fs) in
  body_call B 5 (length out) p (out ++ rest ++ repeat 0 (length out)) (body_init B 5 (length out) p) (length (out ++ rest)) = RDone (set_quant p (tables, idx)) (length out).
Proof.
  intros Hi Hl HF Hx E Hr out. destruct (read_quant_section_dec _ _ _ _ HF Hx E) as [F D].
  unfold body_init. change (5 =? 3) with false. change (5 =? 4) with false. change (5 =? 5) with true. cbv iota. rewrite Hi. cbn [body_call].
  unfold out. rewrite (pack_scall false _ fs (tables, idx) rest Hr (read_quant_section_bok _ _)); [reflexivity|]. intros r. rewrite <- Hl. apply D. lia.
Qed.

(** Section 6. *)
Lemma body6 B p y fs rest : (1 <= length (pi_samp p))%nat ->
  (forall r, arun false (read_histogram_section hist_arena (length (pi_samp p))) (fields_bits fs ++ r) = Some (y, r)) -> bytes rest ->
  let out := pack (fields_bits fs) in
  body_call B 6 (length out) p (out ++ rest ++ repeat 0 (length out)) (body_init B 6 (length out) p) (length (out ++ rest)) = RDone (set_hist p y) (length out).
Proof.
  intros Hn R Hr out. unfold body_init. change (6 =? 3) with false. change (6 =? 4) with false. change (6 =? 5) with false. change (6 =? 6) with true. cbv iota. cbn [body_call].
  unfold out. destruct (read_section_total hist_arena (length (pi_samp p))) as [BK _]; [exact Hn|rewrite hist_arena_length; lia|].
  rewrite (pack_scall true _ fs y rest Hr BK); [reflexivity|]. exact R.
Qed.

Lemma words_call {A} (w : wprog A) q items y rest : (forall a t, wbud w a t) -> eeq (strip w) q -> edecode q (encode_items items) = Some y ->
  let out := words_to_bytes (encode_items items) in
  bytes out /\ Z.even (Z.of_nat (length out)) = true /\
  wcall (length out) (out ++ rest ++ repeat 0 (length out)) (mkW w None 0) (length (out ++ rest)) = RDone y (length out).
Proof.
  intros HB HE E out. destruct (words_bytes_roundtrip _ (encode_items_words items)) as (W1 & W2 & W3). fold out in W1, W2, W3.
  assert (Ev : Z.even (Z.of_nat (length out)) = true) by (rewrite W3, Nat2Z.inj_mul, Z.even_mul; reflexivity).
  split; [exact W2|]. split; [exact Ev|]. rewrite (wcall_edecode _ _ w q _ HB HE (even_odd _ Ev)) by (rewrite !app_length; lia).
  rewrite firstn_app, firstn_all, Nat.sub_diag. cbn [firstn]. rewrite app_nil_r, W1, E. reflexivity.
Qed.

Lemma body7 B p ms h cmap codes items y rest : metas_of p = Some ms -> pi_hist p = Some (h, cmap, codes) -> short_codes codes ->
  edecode (decode_dc_prog cmap codes ms) (encode_items items) = Some y ->
  let out := words_to_bytes (encode_items items) in
  bytes out /\ Z.even (Z.of_nat (length out)) = true /\
  body_call B 7 (length out) p (out ++ rest ++ repeat 0 (length out)) (body_init B 7 (length out) p) (length (out ++ rest)) = RDone (set_dc p y) (length out).
Proof.
  intros Hm Hh SC E out. destruct (words_call _ _ _ _ rest (wdecode_dc_bud cmap codes ms SC) (strip_dc cmap codes ms) E) as (A1 & A2 & A3).
  split; [exact A1|]. split; [exact A2|]. unfold body_init. change (7 =? 3) with false. change (7 =? 4) with false. change (7 =? 5) with false. change (7 =? 6) with false. change (7 =? 7) with true. cbv iota.
  rewrite Hm, Hh. cbn [body_call]. fold out in A3. rewrite A3. reflexivity.
Qed.

Lemma body8 B p ms h cmap codes planes flags items y rest : metas_of p = Some ms -> pi_hist p = Some (h, cmap, codes) -> pi_dc p = Some (planes, flags) -> short_codes codes ->
  edecode (decode_ac_prog cmap codes (pi_legacy p) ms flags planes) (encode_items items) = Some y ->
  let out := words_to_bytes (encode_items items) in
  bytes out /\ Z.even (Z.of_nat (length out)) = true /\
  body_call B 8 (length out) p (out ++ rest ++ repeat 0 (length out)) (body_init B 8 (length out) p) (length (out ++ rest)) = RDone (set_ac p y) (length out).
Proof.
  intros Hm Hh Hd SC E out. destruct (words_call _ _ _ _ rest (wdecode_ac_bud cmap codes (pi_legacy p) ms flags planes SC) (strip_ac cmap codes (pi_legacy p) ms flags planes) E) as (A1 & A2 & A3).
  split; [exact A1|]. split; [exact A2|]. unfold body_init. change (8 =? 3) with false. change (8 =? 4) with false. change (8 =? 5) with false. change (8 =? 6) with false. change (8 =? 7) with false. change (8 =? 8) with true. cbv iota.
  rewrite Hm, Hh, Hd. cbn [body_call]. fold out in A3. rewrite A3. reflexivity.
Qed.

Lemma F2_map {A B C D} (R : C -> D -> Prop) (f : A -> C) (g : B -> D) l1 l2 : Forall2 (fun a b => R (f a) (g b)) l1 l2 -> Forall2 R (map f l1) (map g l2).
Proof. induction 1; constructor; assumption. Qed.

Lemma make_comps_same cs : make_comps (map c_id cs) (map (fun c => (c_h c, c_v c)) cs) (map (fun c => (c_wb c, c_hb c)) cs) (map c_quant cs) (map c_coeffs cs) = cs.
Proof. induction cs as [|[id h v q wb hb co] cs IH]; cbn [map make_comps fst snd c_id c_h c_v c_wb c_hb c_quant c_coeffs]; [reflexivity|]. rewrite IH. reflexivity. Qed.
Lemma make_quant_same qs : make_quant (map (fun q => (q_index q, q_last q, q_precision q)) qs) (map q_values qs) = qs.
Proof. induction qs as [|[v pr ix l] qs IH]; cbn [map make_quant q_index q_last q_precision q_values]; [reflexivity|]. rewrite IH. reflexivity. Qed.

Lemma map_eq_inv {A B} (f g : A -> B) l : map f l = map g l -> Forall (fun x => f x = g x) l.
Proof. induction l as [|x l IH]; intros E; constructor; injection E as E1 E2; auto. Qed.

Theorem container_mrun B O j len out : jpeg_ok j -> brotli_inverse B (or_compress O) -> (forall i n, 0 <= ch_rnd (or_round O i) n <= 1024) ->
  len < 2 ^ 63 -> aux_estimate j < 2 ^ 63 -> brunsli_encode_jpeg O j len = Some out ->
  bytes out /\ Z.of_nat (length out) <= len /\ exists p, mrun out (decode_stream (real_bodies B)) 0 (length out) = RDone (OImage p) (length out) /\ picture_jpeg p = Some j.
Proof.
  intros [JP JI [JN1 JN2] JA JC JT JS JQ JB] HB HR Hlen Haux E.
  unfold brunsli_encode_jpeg in E. destruct (Nat.eqb_spec (length (j_comps j)) 0) as [|Nc]; [discriminate|]. cbv zeta in E.
  apply obind_some in E. destruct E as (ms & Ems & E). apply obind_some in E. destruct E as (dc & Edc & E).
  apply obind_some in E. destruct E as (ac & Eac & E). apply obind_some in E. destruct E as (ec & Eec & E).
  destruct (enc_metas_spec j _ _ _ Ems) as (Lms & Lay & FB & F2 & Mf).
  set (samp := map (fun c => (c_h c, c_v c)) (j_comps j)) in *.
  assert (Lsamp : length samp = length (j_comps j)) by apply map_length.
  pose proof JP as (Hw & Hh & Hv & Hn & Hs & Hg). pose proof Hg as (_ & _ & _ & _ & _ & Gb & Gp).
  assert (Gb' : map (fun c => (c_wb c, c_hb c)) (j_comps j) = map (fun c => (j_mcu_cols j * c_h c, j_mcu_rows j * c_v c)) (j_comps j)).
  { unfold grid_of, samp in Gb. cbn [g_blocks g_mcu_cols g_mcu_rows] in Gb. rewrite map_map in Gb. exact Gb. }
  pose proof (map_eq_inv _ _ _ Gb') as Dim.
  assert (Pos : Forall (fun c => 1 <= c_wb c /\ 1 <= c_hb c) (j_comps j)).
  { unfold grid_of in Gp. cbn [g_blocks] in Gp. rewrite Forall_map in Gp. eapply Forall_impl; [|exact Gp]. cbv beta. cbn [fst snd]. intros c Q. lia. }
  assert (Fq : Forall (fun q => 0 <= q < Z.of_nat (length (map q_values (j_quant j)))) (map c_quant (j_comps j))).
  { rewrite Forall_map, map_length. clear - F2. induction F2 as [|c m cs l H F IH]; constructor; [apply H|exact IH]. }
  destruct (metas_of_ok (j_width j) (j_height j) samp (grid_of j) (Z.of_nat (length samp)) (map q_values (j_quant j)) (map cm_bits ms) (map c_quant (j_comps j))) as (ms' & Em' & _ & _ & _ & Mok & _).
  { cbn [header_valid]. split; [exact Hw|]. split; [exact Hh|]. split; [cbn; tauto|]. split; [reflexivity|]. split; [exact Hn|]. split; [exact Hs|exact Hg]. }
  { rewrite map_length. lia. } { rewrite map_length. lia. } { exact FB. } { exact Fq. }
  assert (Mf' : metas_from (Z.of_nat (length samp)) samp (g_blocks (grid_of j)) (map cm_bits ms) (map q_values (j_quant j)) (map c_quant (j_comps j)) = Some ms).
  { rewrite Lsamp. change (g_blocks (grid_of j)) with (map (fun c => (c_wb c, c_hb c)) (j_comps j)). rewrite Gb'. exact Mf. }
  rewrite Mf' in Em'. injection Em' as <-.
  assert (PO : Forall2 plane_ok ms (map c_coeffs (j_comps j)) /\ Forall ac_within_limits (map c_coeffs (j_comps j))).
  { clear - F2 JB Dim Pos. revert Dim Pos. induction F2 as [|c m cs l H F IH]; intros Dim Pos; [split; constructor|].
    pose proof (Forall_inv Dim) as D1. pose proof (Forall_inv Pos) as P1. cbv beta in P1. pose proof (Forall_inv JB) as J1. cbv beta in D1, J1. destruct (IH (Forall_inv_tail JB) (Forall_inv_tail Dim) (Forall_inv_tail Pos)) as [I1 I2].
    injection D1 as D1 D2. destruct H as (_ & Wm & Hm & _). destruct J1 as [J1 J2]. split; constructor; auto.
    - split; [|eapply Forall_impl; [|exact J2]; cbv beta; intros b [Q _]; exact Q]. rewrite Wm, Hm, <- D1, <- D2.
      rewrite <- Z2Nat.inj_mul by lia. rewrite <- J1, Nat2Z.id. reflexivity.
    - intros b v Ib Iv. rewrite Forall_forall in J2. apply (J2 b Ib). exact Iv. }
  destruct PO as [PO AL]. destruct (enc_orders_ok j) as [OO LO].
  rewrite <- Lms in Lay.
  unfold serialize_sections in E. apply obind_some in E. destruct E as (header & Eh & E). apply obind_some in E. destruct E as (s2 & E2 & E). cbv zeta in E.
  apply obind_some in E. destruct E as (aux & Ea & E). apply obind_some in E. destruct E as (s4 & E4 & E).
  apply obind_some in E. destruct E as (md & Emd & E). apply obind_some in E. destruct E as (s3 & E3 & E).
  apply obind_some in E. destruct E as (quant & Eq & E). apply obind_some in E. destruct E as (s5 & E5 & E).
  apply obind_some in E. destruct E as (h & Eh6 & E). apply obind_some in E. destruct E as (s6 & E6 & E).
  apply obind_some in E. destruct E as (s7 & E7 & E). apply obind_some in E. destruct E as (s8 & E8 & E).
  destruct (coef_sections O _ ms (enc_orders j) (map c_coeffs (j_comps j)) dc ac ec h Mok Lay FB ltac:(lia) ltac:(lia) OO PO AL HR Edc Eac Eec Eh6)
    as (codes & planes1 & FO & CH & Rd & D1 & D2).
  set (cmap := map Z.of_nat (snd ec)) in *.
  destruct (Z.ltb_spec len (Z.of_nat (length (((((((signature ++ s2) ++ s4) ++ s3) ++ s5) ++ s6) ++ s7) ++ s8)))) as [|Hfit]; [discriminate|].
  apply some_inj in E. rename out into D. rename E into ED8. symmetry in ED8. rewrite <- ED8 in Hfit.
  assert (K4 : (1 <= base128_size (aux_estimate j) <= 9)%nat) by (apply base128_size_range; exact Haux).
  assert (KL : forall n, (1 <= base128_size (len - Z.of_nat n) <= 9)%nat) by (intros n; apply base128_size_range; lia).
  set (p0 := pic_start (j_width j) (j_height j) (j_version j) (negb (Z.testbit (j_version j) 1)) samp (grid_of j)).
  set (x := internals_of j) in *.
  set (p1 := set_int p0 (x, j_inter j)).
  assert (Lids : length (in_ids x) = length (pi_samp p0)) by (unfold x, internals_of, p0, pic_start, samp; cbn [in_ids pi_samp]; rewrite !map_length; reflexivity).
  assert (JN3 : Forall bytes (j_inter j)) by (eapply Forall_impl; [|exact JN2]; cbv beta; intros ? [? ?]; assumption).
  assert (JN4 : Forall (fun s => Z.of_nat (length s) < 2 ^ 63) (j_inter j)) by (eapply Forall_impl; [|exact JN2]; cbv beta; intros ? [? ?]; assumption).
  assert (SC : short_codes codes) by (eapply Forall_impl; [|exact CH]; cbv beta; intros c (Q & _); rewrite Q; unfold kAnsSymbols; lia).
  (* bytes *)
  destruct (words_bytes_roundtrip _ (encode_items_words ([] ++ map (resolve cmap (fst h)) (fst dc)))) as (_ & B7 & _).
  destruct (words_bytes_roundtrip _ (encode_items_words (fst ac ++ map (resolve cmap (fst h)) (snd ac)))) as (_ & B8 & _).
  assert (Y8 : bytes s8) by (apply (encode_section_bytes _ _ _ _ E8); [lia|exact B8]).
  assert (Y7 : bytes s7) by (apply (encode_section_bytes _ _ _ _ E7); [lia|exact B7]).
  assert (Y6 : bytes s6) by (apply (encode_section_bytes _ _ _ _ E6); [lia|apply pack_bytes]).
  assert (Y5 : bytes s5) by (apply (encode_section_bytes _ _ _ _ E5); [lia|apply pack_bytes]).
  assert (Y3 : bytes s3) by (apply (encode_section_bytes _ _ _ _ E3); [lia|apply (encode_metadata_bytes B _ _ _ _ _ HB JA JC JT Emd JS)]).
  assert (Y4 : bytes s4) by (apply (encode_section_bytes _ _ _ _ E4); [lia|apply (body4 B p0 x (j_inter j) aux [] JI Lids JN1 JN4 JN3 ltac:(constructor) Ea)]).
  assert (Y78 : bytes (s7 ++ s8)) by (apply bytes_app; auto).
  assert (Y68 : bytes (s6 ++ s7 ++ s8)) by (apply bytes_app; auto).
  assert (Y58 : bytes (s5 ++ s6 ++ s7 ++ s8)) by (apply bytes_app; auto).
  assert (Y38 : bytes (s3 ++ s5 ++ s6 ++ s7 ++ s8)) by (apply bytes_app; auto).
  assert (Y48 : bytes (s4 ++ s3 ++ s5 ++ s6 ++ s7 ++ s8)) by (apply bytes_app; auto).
  assert (Ysig : bytes signature) by (unfold signature; repeat (apply bytes_cons; split; [unfold is_byte; lia|]); constructor).
  destruct (C26_header_round_trip signature _ _ _ _ _ _ Ysig Y48 JP) as (header' & s2' & Eh' & E2' & Y2 & RH). cbv zeta in RH.
  fold samp in Eh. rewrite Eh in Eh'. injection Eh' as <-. rewrite E2 in E2'. injection E2' as <-.
  assert (ED : D = signature ++ s2 ++ s4 ++ s3 ++ s5 ++ s6 ++ s7 ++ s8) by (rewrite ED8, <- !app_assoc; reflexivity).
  rewrite <- ED in RH.
  assert (YD : bytes D) by (rewrite ED; apply bytes_app; split; [exact Ysig|apply bytes_app; split; assumption]).
  split; [exact YD|]. split; [exact Hfit|].
  (* the sections *)
  destruct (body4 B p0 x (j_inter j) aux (s3 ++ s5 ++ s6 ++ s7 ++ s8) JI Lids JN1 JN4 JN3 Y38 Ea) as [_ C4].
  destruct (body3 B (or_compress O) p1 (j_app j) (j_com j) (j_tail j) md (s5 ++ s6 ++ s7 ++ s8) HB JA JC JT Y58 Emd JS) as (m & M1 & M2 & M3 & C3).
  set (p2 := set_meta p1 m) in *.
  assert (C5 := body5 B p2 x (j_inter j) (map q_values (j_quant j)) (map c_quant (j_comps j)) quant (s6 ++ s7 ++ s8) eq_refl).
  cbv zeta in C5. specialize (C5 ltac:(change (pi_samp p2) with samp; rewrite map_length; lia)).
  assert (FQ : Forall2 (fun p v => 0 <= p /\ qvalues_ok p v) (map snd (in_quant x)) (map q_values (j_quant j))).
  { destruct JI as (_ & _ & _ & _ & _ & _ & _ & QH & _). unfold x, internals_of in *. cbn [in_quant] in *. rewrite Forall_map in QH. rewrite map_map. cbn [snd].
    apply F2_map. clear - QH JQ. induction JQ as [|q qs Hq JQ IH]; [constructor|]. pose proof (Forall_inv QH) as Q1. cbv beta in Q1. cbn [qhead_ok] in Q1.
    constructor; [split; [lia|exact Hq]|apply IH, (Forall_inv_tail QH)]. }
  specialize (C5 FQ Fq Eq Y68).
  set (p3 := set_quant p2 (map q_values (j_quant j), map c_quant (j_comps j))) in *.
  assert (C6 := body6 B p3 (map cm_bits ms, cmap, codes) (snd h) (s7 ++ s8)). cbv zeta in C6.
  specialize (C6 ltac:(change (pi_samp p3) with samp; lia)).
  assert (Rd' : forall r, arun false (read_histogram_section hist_arena (length (pi_samp p3))) (fields_bits (snd h) ++ r) = Some ((map cm_bits ms, cmap, codes), r)).
  { intros r. change (pi_samp p3) with samp. rewrite Lsamp, <- Lms. apply Rd. rewrite hist_arena_length. lia. }
  specialize (C6 Rd' Y78).
  set (p4 := set_hist p3 (map cm_bits ms, cmap, codes)) in *.
  assert (Mo : metas_of p4 = Some ms) by exact Mf'.
  destruct (body7 B p4 ms (map cm_bits ms) cmap codes ([] ++ map (resolve cmap (fst h)) (fst dc)) (planes1, snd dc) s8 Mo eq_refl SC D1) as (_ & V7 & C7).
  set (p5 := set_dc p4 (planes1, snd dc)) in *.
  assert (Mo5 : metas_of p5 = Some ms) by exact Mf'.
  destruct (body8 B p5 ms (map cm_bits ms) cmap codes planes1 (snd dc) (fst ac ++ map (resolve cmap (fst h)) (snd ac)) (map c_coeffs (j_comps j)) [] Mo5 eq_refl eq_refl SC D2) as (_ & V8 & C8).
  set (p6 := set_ac p5 (map c_coeffs (j_comps j))) in *.
  exists p6. split.
  - unfold decode_stream. cbn [mrun]. destruct (Nat.leb_spec (0 + 6) (length D)) as [_|X]; [|exfalso; rewrite ED, app_length in X; cbn [signature length] in X; lia].
    replace (Stream.slice D 0 (0 + 6)) with signature by (rewrite ED; reflexivity). change (verify_signature signature) with SigOk. cbv iota. cbn [mrun].
    match goal with |- context [brun D None decode_header ?n (length D)] => change n with (length signature) end. rewrite RH. rewrite mrun_mmap.
    change (bo_start (real_bodies B) (j_width j) (j_height j) (j_version j) (negb (Z.testbit (j_version j) 1)) samp (grid_of j)) with p0.
    rewrite (section_at (real_bodies B) D (signature ++ s2) s4 (s3 ++ s5 ++ s6 ++ s7 ++ s8) 4 _ aux 15 [9; 2; 1] p0 p1 ltac:(rewrite ED, <- !app_assoc; reflexivity) YD E4 K4 ltac:(lia) eq_refl eq_refl C4).
    change (4 =? 8) with false. cbv iota.
    rewrite (section_at (real_bodies B) D ((signature ++ s2) ++ s4) s3 (s5 ++ s6 ++ s7 ++ s8) 3 _ md 14 [4; 9; 2; 1] p1 p2 ltac:(rewrite ED, <- !app_assoc; reflexivity) YD E3 (KL _) ltac:(lia) eq_refl eq_refl C3).
    change (3 =? 8) with false. cbv iota.
    rewrite (section_at (real_bodies B) D (((signature ++ s2) ++ s4) ++ s3) s5 (s6 ++ s7 ++ s8) 5 _ _ 13 [3; 4; 9; 2; 1] p2 p3 ltac:(rewrite ED, <- !app_assoc; reflexivity) YD E5 ltac:(lia) ltac:(lia) eq_refl eq_refl C5).
    change (5 =? 8) with false. cbv iota.
    rewrite (section_at (real_bodies B) D ((((signature ++ s2) ++ s4) ++ s3) ++ s5) s6 (s7 ++ s8) 6 _ _ 12 [5; 3; 4; 9; 2; 1] p3 p4 ltac:(rewrite ED, <- !app_assoc; reflexivity) YD E6 (KL _) ltac:(lia) eq_refl eq_refl C6).
    change (6 =? 8) with false. cbv iota.
    rewrite (section_at (real_bodies B) D (((((signature ++ s2) ++ s4) ++ s3) ++ s5) ++ s6) s7 s8 7 _ _ 11 [6; 5; 3; 4; 9; 2; 1] p4 p5 ltac:(rewrite ED, <- !app_assoc; reflexivity) YD E7 (KL _) ltac:(lia) eq_refl V7 C7).
    change (7 =? 8) with false. cbv iota.
    rewrite (section_at (real_bodies B) D ((((((signature ++ s2) ++ s4) ++ s3) ++ s5) ++ s6) ++ s7) s8 [] 8 _ _ 10 [7; 6; 5; 3; 4; 9; 2; 1] p5 p6 ltac:(rewrite app_nil_r; exact ED8) YD E8 (KL _) ltac:(lia) eq_refl V8 C8).
    change (8 =? 8) with true. cbv iota. cbn [mrun]. rewrite <- ED8. reflexivity.
  - unfold picture_jpeg. unfold p6, p5, p4, p3, p2, p1, p0, pic_start. picf. rewrite M1, M2, M3. unfold x, internals_of. cbn [in_restart in_quant in_huff in_ids in_scans in_markers in_zero_pad in_padding].
    rewrite make_quant_same. unfold samp, grid_of. cbn [g_max_h g_max_v g_mcu_rows g_mcu_cols g_blocks]. rewrite make_comps_same. destruct j. reflexivity.
Qed.
