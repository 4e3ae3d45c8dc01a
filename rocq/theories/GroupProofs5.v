(** Groups: the encoder's output is read back by the decoder, whatever the order of the tasks on either side. *)
From Verif Require Import Base JpegModel JpegSpec CodesModel CodesProofs Stream Machine HeaderModel HeaderProofs PropsHeader CtxTables EntropyModel EntropyProofs LehmerModel LehmerProofs HistModel HistProofs
  BitModel BitProofs HuffModel CMapModel HSecModel HSecProofs CoefModel CoefProofs DCProofs ACProofs PropsCoef ClusterModel PropsCluster QuantModel QuantProofs InternalsModel InternalsProofs MetaModel MetaProofs PropsMeta InternalsProofs2 InternalsProofs3 InternalsProofs4
  WordModel WordProofs ContainerModel Decoder DecoderProofs1 DecoderProofs2 ProgressModel Encoder EncoderProofs1 EncoderProofs2 EncoderProofs3 EncoderProofs4 GroupModel GroupProofs1 GroupProofs2 GroupProofs3 GroupProofs4.
From Coq Require Import Permutation.

Definition jlayout (j : jpeg) : layout := layout_of (grid_of j).
Definition jsamp (j : jpeg) : list (nat * nat) := map (fun c => (Z.to_nat (c_h c), Z.to_nat (c_v c))) (j_comps j).
Definition jplanes (j : jpeg) : list plane := map c_coeffs (j_comps j).

Lemma mod_mod_zero a b c : (1 <= b)%nat -> (1 <= c)%nat -> (a mod b = 0)%nat -> (b mod c = 0)%nat -> (a mod c = 0)%nat.
Proof.
  intros Hb Hc E1 E2. apply Nat.mod_divide in E1; [|lia]. apply Nat.mod_divide in E2; [|lia]. apply Nat.mod_divide; [lia|]. eapply Nat.divide_trans; eassumption.
Qed.

Record setup (j : jpeg) (ac dc : nat) (ms : list cmeta) : Prop := {
  su_comps : Forall2 (comp_ok (jlayout j)) (jsamp j) ms;
  su_layout : context_layout (Z.of_nat (length ms)) ms;
  su_planes : Forall2 plane_ok ms (jplanes j);
  su_ac : Forall ac_within_limits (jplanes j);
  su_fac : fits (jlayout j) ac;
  su_fdc : fits (jlayout j) dc;
  su_len : length ms = length (j_comps j);
  su_n : (1 <= length ms <= 4)%nat;
  su_bits : Forall (fun b => 0 <= b < 7) (map cm_bits ms);
  su_quant : Forall (fun q => 0 <= q < Z.of_nat (length (map q_values (j_quant j)))) (map c_quant (j_comps j));
  su_metas : metas_from (Z.of_nat (length ms)) (map (fun c => (c_h c, c_v c)) (j_comps j)) (g_blocks (grid_of j)) (map cm_bits ms) (map q_values (j_quant j)) (map c_quant (j_comps j)) = Some ms }.

Lemma group_setup j ac dc ms : jpeg_ok j -> dims_ok ac dc = true -> sampling_fits (jlayout j) ac = true ->
  group_metas j ac (Z.of_nat (length (j_comps j))) (j_comps j) = Some ms -> setup j ac dc ms.
Proof.
  intros J Hd Hs Ems. destruct J as [JP _ _ _ _ _ _ _ JB].
  destruct (group_metas_spec j _ _ _ _ Ems) as (Lms & Lay & FB & F2 & Mf).
  pose proof JP as (Hw & Hh & Hv & Hn & HS & Hg). pose proof Hg as (G1 & G2 & _ & G4 & G5 & Gb & Gp). rewrite map_length in Hn.
  assert (Gb' : map (fun c => (c_wb c, c_hb c)) (j_comps j) = map (fun c => (j_mcu_cols j * c_h c, j_mcu_rows j * c_v c)) (j_comps j)).
  { unfold grid_of in Gb. cbn [g_blocks g_mcu_cols g_mcu_rows] in Gb. rewrite map_map in Gb. exact Gb. }
  pose proof (map_eq_inv _ _ _ Gb') as Dim.
  assert (Pos : Forall (fun c => 1 <= c_wb c /\ 1 <= c_hb c) (j_comps j)).
  { unfold grid_of in Gp. cbn [g_blocks] in Gp. rewrite Forall_map in Gp. eapply Forall_impl; [|exact Gp]. cbv beta. cbn [fst snd]. intros c Q. lia. }
  assert (SP : Forall (fun c => 1 <= c_h c /\ 1 <= c_v c) (j_comps j)).
  { rewrite Forall_map in HS. eapply Forall_impl; [|exact HS]. cbv beta. unfold samp_ok. cbn [fst snd]. intros c Q. lia. }
  assert (MX : 1 <= j_max_h j /\ 1 <= j_max_v j).
  { destruct G4 as (c1 & I1 & X1), G5 as (c2 & I2 & X2). rewrite Forall_forall in HS. pose proof (HS _ I1) as Q1. pose proof (HS _ I2) as Q2. unfold samp_ok in Q1, Q2.
    unfold grid_of in X1, X2. cbn [g_max_h g_max_v] in X1, X2. lia. }
  assert (MC : 1 <= j_mcu_cols j /\ 1 <= j_mcu_rows j).
  { unfold grid_of in G1, G2. cbn [g_max_h g_max_v g_mcu_cols g_mcu_rows] in G1, G2. clear - G1 G2 Hw Hh MX. split; nia. }
  assert (FI : forall d, (1 <= d)%nat -> (d mod ly_max_h (jlayout j) = 0)%nat -> (d mod ly_max_v (jlayout j) = 0)%nat -> fits (jlayout j) d).
  { intros d H1 H2 H3. unfold jlayout, layout_of, grid_of in *. cbn [ly_max_h ly_max_v g_max_h g_max_v g_mcu_cols g_mcu_rows] in *. constructor; cbn [ly_max_h ly_max_v ly_cols ly_rows]; try assumption; lia. }
  unfold dims_ok in Hd. repeat (apply andb_true_iff in Hd; destruct Hd as [Hd ?Hd]).
  destruct (Nat.eqb_spec ac 0); [discriminate|]. destruct (Nat.eqb_spec dc 0); [discriminate|].
  unfold sampling_fits in Hs. apply andb_true_iff in Hs. destruct Hs as [S1 S2]. apply Nat.eqb_eq in S1, S2. apply Nat.eqb_eq in Hd0.
  assert (Fac : fits (jlayout j) ac) by (apply FI; [lia|assumption|assumption]).
  assert (PO : Forall2 plane_ok ms (jplanes j) /\ Forall ac_within_limits (jplanes j)).
  { unfold jplanes. clear - F2 JB Dim Pos. revert Dim Pos. induction F2 as [|c m cs l H F IH]; intros Dim Pos; [split; constructor|].
    pose proof (Forall_inv Dim) as D1. pose proof (Forall_inv Pos) as P1. cbv beta in P1. pose proof (Forall_inv JB) as J1. cbv beta in D1, J1. destruct (IH (Forall_inv_tail JB) (Forall_inv_tail Dim) (Forall_inv_tail Pos)) as [I1 I2].
    injection D1 as D1 D2. destruct H as (_ & Wm & Hm & _). destruct J1 as [J1 J2]. split; constructor; auto.
    - split; [|eapply Forall_impl; [|exact J2]; cbv beta; intros b [Q _]; exact Q]. rewrite Wm, Hm, <- D1, <- D2.
      rewrite <- Z2Nat.inj_mul by lia. rewrite <- J1, Nat2Z.id. reflexivity.
    - intros b v Ib Iv. rewrite Forall_forall in J2. apply (J2 b Ib). exact Iv. }
  destruct PO as [PO AL].
  constructor; try assumption.
  - unfold jsamp. clear - F2 SP MC. unfold comp_ok, jlayout, layout_of, grid_of. cbn [ly_cols ly_rows g_mcu_cols g_mcu_rows].
    induction F2 as [|c m cs l H F IH]; [constructor|]. pose proof (Forall_inv SP) as S1. cbv beta in S1. constructor; [|apply IH, (Forall_inv_tail SP)].
    destruct H as (_ & Wm & Hm & Vm). cbn [fst snd]. rewrite Wm, Hm, Vm, !Z2Nat.inj_mul by lia. lia.
  - rewrite Lms. exact Lay.
  - apply FI; [lia| |]; apply (mod_mod_zero dc ac); try assumption; try lia; apply Fac.
  - lia.
  - rewrite Forall_map, map_length. clear - F2. induction F2 as [|c m cs l H F IH]; constructor; [apply H|exact IH].
  - rewrite Lms. change (g_blocks (grid_of j)) with (map (fun c => (c_wb c, c_hb c)) (j_comps j)). rewrite Gb'. exact Mf.
Qed.

(** * The common part *)
Lemma x_run_common B O j len ms cmapn clusters tables codes o6 : jpeg_ok j -> brotli_inverse B (or_compress O) -> len < 2 ^ 63 -> aux_estimate j < 2 ^ 63 ->
  length ms = length (j_comps j) ->
  Forall (fun q => 0 <= q < Z.of_nat (length (map q_values (j_quant j)))) (map c_quant (j_comps j)) ->
  metas_from (Z.of_nat (length ms)) (map (fun c => (c_h c, c_v c)) (j_comps j)) (g_blocks (grid_of j)) (map cm_bits ms) (map q_values (j_quant j)) (map c_quant (j_comps j)) = Some ms ->
  common_part O j len (map cm_bits ms) cmapn clusters = Some (tables, o6) ->
  (forall h arena rest, encode_histogram_section (or_round O) (map cm_bits ms) cmapn clusters = Some h -> 648 <= Z.of_nat (length arena) <= 65535 ->
     arun false (read_histogram_section arena (length ms)) (fields_bits (snd h) ++ rest) = Some ((map cm_bits ms, map Z.of_nat cmapn, codes), rest)) ->
  (exists fs, encode_histogram_section (or_round O) (map cm_bits ms) cmapn clusters = Some (tables, fs)) /\
  exists ss p q, length ss = 6%nat /\ concat ss = o6 /\ bytes o6 /\ (forall s, In s ss -> exists tag k payload, encode_section tag k payload = Some s /\ (1 <= k <= 9)%nat) /\
    x_run B o6 (XSig 0) (length o6) = RMore (XTag 12 [6; 5; 3; 4; 9; 2; 1] p q) /\
    metas_of p = Some ms /\ pi_hist p = Some (map cm_bits ms, map Z.of_nat cmapn, codes) /\ pi_grid p = grid_of j /\ pi_samp p = map (fun c => (c_h c, c_v c)) (j_comps j) /\
    forall dc, picture_jpeg (set_ac (set_dc p dc) (jplanes j)) = Some j.
Proof.
  intros [JP JI [JN1 JN2] JA JC JT JS JQ JB] HB Hlen Haux Lms Fq Mf' E Rd.
  set (samp := map (fun c => (c_h c, c_v c)) (j_comps j)) in *.
  assert (Lsamp : length samp = length (j_comps j)) by apply map_length.
  pose proof JP as (Hw & Hh & Hv & Hn & Hs & Hg). rewrite Lsamp in Hn.
  unfold common_part in E. apply obind_some in E. destruct E as (header & Eh & E). apply obind_some in E. destruct E as (s2 & E2 & E). cbv zeta in E.
  apply obind_some in E. destruct E as (aux & Ea & E). apply obind_some in E. destruct E as (s4 & E4 & E).
  apply obind_some in E. destruct E as (md & Emd & E). apply obind_some in E. destruct E as (s3 & E3 & E).
  apply obind_some in E. destruct E as (quant & Eq & E). apply obind_some in E. destruct E as (s5 & E5 & E).
  apply obind_some in E. destruct E as (h & Eh6 & E). apply obind_some in E. destruct E as (s6 & E6 & E).
  destruct (_ <? _); [discriminate|]. apply some_inj in E. assert (ET : fst h = tables) by congruence. assert (ED6 : o6 = ((((signature ++ s2) ++ s4) ++ s3) ++ s5) ++ s6) by congruence. clear E.
  split; [exists (snd h); rewrite Eh6, <- ET; destruct h; reflexivity|]. rename o6 into D.
  assert (K4 : (1 <= base128_size (aux_estimate j) <= 9)%nat) by (apply base128_size_range; exact Haux).
  assert (KL : forall n, (1 <= base128_size (len - Z.of_nat n) <= 9)%nat) by (intros n; apply base128_size_range; lia).
  set (p0 := pic_start (j_width j) (j_height j) (j_version j) (negb (Z.testbit (j_version j) 1)) samp (grid_of j)).
  set (x := internals_of j) in *.
  set (p1 := set_int p0 (x, j_inter j)).
  assert (Lids : length (in_ids x) = length (pi_samp p0)) by (unfold x, internals_of, p0, pic_start, samp; cbn [in_ids pi_samp]; rewrite !map_length; reflexivity).
  assert (JN3 : Forall bytes (j_inter j)) by (eapply Forall_impl; [|exact JN2]; cbv beta; intros ? [? ?]; assumption).
  assert (JN4 : Forall (fun s => Z.of_nat (length s) < 2 ^ 63) (j_inter j)) by (eapply Forall_impl; [|exact JN2]; cbv beta; intros ? [? ?]; assumption).
  assert (Y6 : bytes s6) by (apply (encode_section_bytes _ _ _ _ E6); [lia|apply pack_bytes]).
  assert (Y5 : bytes s5) by (apply (encode_section_bytes _ _ _ _ E5); [lia|apply pack_bytes]).
  assert (Y3 : bytes s3) by (apply (encode_section_bytes _ _ _ _ E3); [lia|apply (encode_metadata_bytes B _ _ _ _ _ HB JA JC JT Emd JS)]).
  assert (Y4 : bytes s4) by (apply (encode_section_bytes _ _ _ _ E4); [lia|apply (body4 B p0 x (j_inter j) aux [] JI Lids JN1 JN4 JN3 ltac:(constructor) Ea)]).
  assert (Y56 : bytes (s5 ++ s6)) by (apply bytes_app; auto).
  assert (Y36 : bytes (s3 ++ s5 ++ s6)) by (apply bytes_app; auto).
  assert (Y46 : bytes (s4 ++ s3 ++ s5 ++ s6)) by (apply bytes_app; auto).
  assert (Ysig : bytes signature) by (unfold signature; repeat (apply bytes_cons; split; [unfold is_byte; lia|]); constructor).
  destruct (C26_header_round_trip signature _ _ _ _ _ _ Ysig Y46 JP) as (header' & s2' & Eh' & E2' & Y2 & RH). cbv zeta in RH.
  fold samp in Eh. rewrite Eh in Eh'. injection Eh' as <-. rewrite E2 in E2'. injection E2' as <-.
  assert (ED : D = signature ++ s2 ++ s4 ++ s3 ++ s5 ++ s6) by (rewrite ED6, <- !app_assoc; reflexivity).
  rewrite <- ED in RH.
  assert (YD : bytes D) by (rewrite ED; apply bytes_app; split; [exact Ysig|apply bytes_app; split; assumption]).
  destruct (body4 B p0 x (j_inter j) aux (s3 ++ s5 ++ s6) JI Lids JN1 JN4 JN3 Y36 Ea) as [_ C4].
  destruct (body3 B (or_compress O) p1 (j_app j) (j_com j) (j_tail j) md (s5 ++ s6) HB JA JC JT Y56 Emd JS) as (m & M1 & M2 & M3 & C3).
  set (p2 := set_meta p1 m) in *.
  assert (C5 := body5 B p2 x (j_inter j) (map q_values (j_quant j)) (map c_quant (j_comps j)) quant s6 eq_refl).
  cbv zeta in C5. specialize (C5 ltac:(change (pi_samp p2) with samp; rewrite map_length; lia)).
  assert (FQ : Forall2 (fun p v => 0 <= p /\ qvalues_ok p v) (map snd (in_quant x)) (map q_values (j_quant j))).
  { destruct JI as (_ & _ & _ & _ & _ & _ & _ & QH & _). unfold x, internals_of in *. cbn [in_quant] in *. rewrite Forall_map in QH. rewrite map_map. cbn [snd].
    apply F2_map. clear - QH JQ. induction JQ as [|q qs Hq JQ IH]; [constructor|]. pose proof (Forall_inv QH) as Q1. cbv beta in Q1. cbn [qhead_ok] in Q1.
    constructor; [split; [lia|exact Hq]|apply IH, (Forall_inv_tail QH)]. }
  specialize (C5 FQ Fq Eq Y6).
  set (p3 := set_quant p2 (map q_values (j_quant j), map c_quant (j_comps j))) in *.
  assert (C6 := body6 B p3 (map cm_bits ms, map Z.of_nat cmapn, codes) (snd h) []). cbv zeta in C6.
  specialize (C6 ltac:(change (pi_samp p3) with samp; lia)).
  assert (Rd' : forall r, arun false (read_histogram_section hist_arena (length (pi_samp p3))) (fields_bits (snd h) ++ r) = Some ((map cm_bits ms, map Z.of_nat cmapn, codes), r)).
  { intros r. change (pi_samp p3) with samp. rewrite Lsamp, <- Lms. apply Rd; [exact Eh6|]. rewrite hist_arena_length. lia. }
  specialize (C6 Rd' ltac:(constructor)).
  set (p4 := set_hist p3 (map cm_bits ms, map Z.of_nat cmapn, codes)) in *.
  exists [signature; s2; s4; s3; s5; s6], p4, (length D). split; [reflexivity|]. split; [cbn [concat]; rewrite app_nil_r; symmetry; exact ED|]. split; [exact YD|].
  split.
  { intros s [<-|[<-|[<-|[<-|[<-|[<-|[]]]]]]].
    - exists 1, 1%nat, [66; 210; 213; 78]. split; [reflexivity|lia].
    - exists 2, 1%nat, header. split; [exact E2|lia].
    - exists 4, (base128_size (aux_estimate j)), aux. split; [exact E4|exact K4].
    - eexists 3, _, md. split; [exact E3|apply KL].
    - eexists 5, 2%nat, _. split; [exact E5|lia].
    - eexists 6, _, _. split; [exact E6|apply KL]. }
  split.
  { cbn [x_run]. destruct (Nat.leb_spec (0 + 6) (length D)) as [_|X]; [|exfalso; rewrite ED, app_length in X; cbn [signature length] in X; lia].
    replace (Stream.slice D 0 (0 + 6)) with signature by (rewrite ED; reflexivity). change (verify_signature signature) with SigOk. cbv iota.
    unfold x_head. match goal with |- context [brun D None decode_header ?n (length D)] => change n with (length signature) end. rewrite RH.
    change (pic_start (j_width j) (j_height j) (j_version j) (negb (Z.testbit (j_version j) 1)) samp (grid_of j)) with p0.
    rewrite (x_step B D (signature ++ s2) s4 (s3 ++ s5 ++ s6) 4 _ aux 15 [9; 2; 1] p0 p1 ltac:(rewrite ED, <- !app_assoc; reflexivity) E4 K4 ltac:(lia) eq_refl eq_refl C4).
    rewrite (x_step B D ((signature ++ s2) ++ s4) s3 (s5 ++ s6) 3 _ md 14 [4; 9; 2; 1] p1 p2 ltac:(rewrite ED, <- !app_assoc; reflexivity) E3 (KL _) ltac:(lia) eq_refl eq_refl C3).
    rewrite (x_step B D (((signature ++ s2) ++ s4) ++ s3) s5 s6 5 _ _ 13 [3; 4; 9; 2; 1] p2 p3 ltac:(rewrite ED, <- !app_assoc; reflexivity) E5 ltac:(lia) ltac:(lia) eq_refl eq_refl C5).
    rewrite (x_step B D ((((signature ++ s2) ++ s4) ++ s3) ++ s5) s6 [] 6 _ _ 12 [5; 3; 4; 9; 2; 1] p3 p4 ltac:(rewrite app_nil_r; exact ED6) E6 (KL _) ltac:(lia) eq_refl eq_refl C6).
    rewrite <- ED6. cbn [x_sections]. rewrite Nat.ltb_irrefl. reflexivity. }
  split; [unfold metas_of; unfold p4, p3, p2, p1, p0, pic_start; picf; rewrite Lsamp, <- Lms; exact Mf'|].
  split; [reflexivity|]. split; [reflexivity|]. split; [reflexivity|].
  intros dc. unfold picture_jpeg. unfold p4, p3, p2, p1, p0, pic_start. picf. rewrite M1, M2, M3. unfold x, internals_of. cbn [in_restart in_quant in_huff in_ids in_scans in_markers in_zero_pad in_padding].
  rewrite make_quant_same. unfold samp, grid_of, jplanes. cbn [g_max_h g_max_v g_mcu_rows g_mcu_cols g_blocks]. rewrite make_comps_same. destruct j. reflexivity.
Qed.
