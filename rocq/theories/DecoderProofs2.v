(** The real decoder satisfies the laws of the stream grammar, and everything it accepts is a
    well-formed image. *)
From Verif Require Import Base MetaShape EntropyModel BitModel BitProofs ProgLogic Stream CodesModel CodesProofs JpegModel QuantModel QuantProofs InternalsModel InternalsProofs3 InternalsProofs4 MetaModel MetaProofs
  HeaderModel HeaderProofs Machine ContainerModel DriverModel DriverProofs GrammarProofs HistModel HistProofs HuffModel HSecModel HSecProofs CoefModel CoefProofs DCProofs ACProofs PropsCoef WordModel WordProofs NeedProofs Decoder DecoderProofs1.

Lemma mem_cons t u met : mem t (u :: met) = (t =? u) || mem t met.
Proof. reflexivity. Qed.

Lemma section_view_bytes D start n : bytes D -> bytes (section_view D start n).
Proof.
  intros H. unfold section_view. apply bytes_app. split; [apply skipn_bytes, H|]. apply Forall_forall. intros x Hx. apply repeat_spec in Hx. subst x. unfold is_byte. lia.
Qed.

(** * What is known about the image *)
(** Blocks of 64 values: DC any 16-bit number, AC at most 2054 in magnitude. *)
Definition plane_valid (m : cmeta) (p : plane) : Prop :=
  length p = (cm_w m * cm_h m)%nat /\
  Forall (fun b => length b = 64%nat /\ -32768 <= nth 0 b 0 <= 32767 /\ forall v, In v (tl b) -> Z.abs v <= 2054) p.

Definition pic_ok (met : list Z) (p : picture) : Prop :=
  header_valid (HImage (pi_w p) (pi_h p) (pi_version p) (pi_legacy p) (pi_samp p) (pi_grid p)) /\
  match pi_int p with
  | Some y => mem 4 met = true /\ jgood (pi_w p) (pi_h p) (length (pi_samp p)) y
  | None => mem 4 met = false
  end /\
  match pi_quant p with
  | Some (ts, idx) => mem 5 met = true /\ (exists x inter, pi_int p = Some (x, inter) /\ Forall2 qvalues_ok (map snd (in_quant x)) ts) /\
      length idx = length (pi_samp p) /\ Forall (fun q => 0 <= q < Z.of_nat (length ts)) idx
  | None => mem 5 met = false
  end /\
  match pi_hist p with
  | Some h => mem 6 met = true /\ section_ok (length (pi_samp p)) h
  | None => mem 6 met = false
  end /\
  match pi_dc p with
  | Some (planes, flags) => mem 7 met = true /\ exists ms, metas_of p = Some ms /\ dc_planes_ok ms planes flags
  | None => mem 7 met = false
  end /\
  match pi_ac p with
  | Some planes => mem 8 met = true /\ pi_dc p <> None /\ exists ms, metas_of p = Some ms /\ Forall2 plane_valid ms planes
  | None => mem 8 met = false
  end /\
  match pi_meta p with Some m => meta_shape m | None => True end.

(** The components' data of a picture: dimensions, contexts and tables. *)
Lemma metas_from_spec tables : forall samp blocks schemes idx off,
  length blocks = length samp -> length schemes = length samp -> length idx = length samp ->
  Forall (fun s => 0 <= s < 7) schemes -> Forall (fun q => 0 <= q < Z.of_nat (length tables)) idx ->
  exists ms, metas_from off samp blocks schemes tables idx = Some ms /\ length ms = length samp /\ context_layout off ms /\
    map (fun m => skip_of (cm_bits m)) ms = map skip_of schemes /\
    Forall2 (fun m b => cm_w m = Z.to_nat (fst b) /\ cm_h m = Z.to_nat (snd b)) ms blocks /\ Forall2 (fun m s => cm_vs m = Z.to_nat (snd s)) ms samp /\
    Forall (fun m => In (cm_quant m) tables) ms.
Proof.
  induction samp as [|s samp IH]; intros blocks schemes idx off L1 L2 L3 F1 F2; destruct blocks as [|b blocks], schemes as [|c schemes], idx as [|q idx]; cbn [length] in *; try lia.
  - exists []. cbn [metas_from context_layout map length]. split; [reflexivity|]. split; [reflexivity|]. split; [exact Logic.I|]. split; [reflexivity|]. split; [constructor|]. split; constructor.
  - destruct (IH blocks schemes idx (off + Z.of_nat (scheme_size c)) ltac:(lia) ltac:(lia) ltac:(lia) (Forall_inv_tail F1) (Forall_inv_tail F2)) as (ms & E & A1 & A2 & A3 & A4 & A5 & A6).
    pose proof (Forall_inv F1) as Hc. pose proof (Forall_inv F2) as Hq. cbv beta in Hc, Hq. cbn [metas_from].
    destruct (Z.ltb_spec q 0); [lia|]. destruct (nth_error tables (Z.to_nat q)) as [t|] eqn:Et; [|apply nth_error_None in Et; lia].
    cbn [obind]. rewrite E. cbn [obind]. eexists. split; [reflexivity|]. cbn [length context_layout map cm_off cm_bits].
    split; [lia|]. split; [split; [reflexivity|split; [exact Hc|rewrite <- scheme_size_skip by exact Hc; exact A2]]|].
    split; [rewrite A3; reflexivity|]. split; [constructor; [auto|exact A4]|]. split; [constructor; [reflexivity|exact A5]|]. constructor; [|exact A6]. cbn [cm_quant]. eapply nth_error_In, Et.
Qed.

Lemma grid_pos w h comps g : 1 <= w -> 1 <= h -> Forall samp_ok comps -> (1 <= length comps)%nat -> grid_consistent w h comps g -> 1 <= g_mcu_cols g /\ 1 <= g_mcu_rows g.
Proof.
  intros Hw Hh Hs Hl (G1 & G2 & G3 & _). destruct comps as [|c comps]; [cbn in Hl; lia|].
  pose proof (Forall_inv Hs) as [S1 S2]. destruct (G3 c (or_introl eq_refl)) as [M1 M2]. split; nia.
Qed.

Lemma metas_of_ok w h comps g off tables schemes idx : header_valid (HImage w h 0 true comps g) ->
  length schemes = length comps -> length idx = length comps ->
  Forall (fun s => 0 <= s < 7) schemes -> Forall (fun q => 0 <= q < Z.of_nat (length tables)) idx ->
  exists ms, metas_from off comps (g_blocks g) schemes tables idx = Some ms /\ length ms = length comps /\ context_layout off ms /\
    map (fun m => skip_of (cm_bits m)) ms = map skip_of schemes /\ metas_ok ms /\
    Forall2 (fun m b => cm_w m = Z.to_nat (fst b) /\ cm_h m = Z.to_nat (snd b)) ms (g_blocks g) /\ Forall (fun m => In (cm_quant m) tables) ms.
Proof.
  intros (Hw & Hh & _ & _ & Hl & Hs & Hg) L1 L2 F1 F2. destruct (grid_pos w h comps g ltac:(lia) ltac:(lia) Hs ltac:(lia) Hg) as [GC GR].
  assert (Eb : g_blocks g = map (fun c => (g_mcu_cols g * fst c, g_mcu_rows g * snd c)) comps) by apply Hg.
  destruct (metas_from_spec tables comps (g_blocks g) schemes idx off ltac:(rewrite Eb, map_length; reflexivity) L1 L2 F1 F2) as (ms & E & A1 & A2 & A3 & A4 & A5 & A6).
  exists ms. split; [exact E|]. split; [exact A1|]. split; [exact A2|]. split; [exact A3|]. split; [|split; [exact A4|exact A6]].
  assert (Each : Forall (fun m => (1 <= cm_w m)%nat /\ (1 <= cm_vs m)%nat /\ cm_h m = (Z.to_nat (g_mcu_rows g) * cm_vs m)%nat) ms).
  { clear -Eb A4 A5 Hs GC GR. rewrite Eb in A4. clear Eb. revert comps A4 A5 Hs. induction ms as [|m ms IH]; intros comps A4 A5 Hs; [constructor|].
    destruct comps as [|c comps]; [inversion A5|]. cbn [map] in A4. inversion A4 as [|? ? ? ? B1 B2]; subst. inversion A5 as [|? ? ? ? B3 B4]; subst. cbn [fst snd] in B1. destruct B1 as [W H].
    pose proof (Forall_inv Hs) as [S1 S2]. constructor; [|apply (IH comps); [exact B2|exact B4|exact (Forall_inv_tail Hs)]]. rewrite W, H, B3. split; [nia|]. split; [lia|].
    rewrite Z2Nat.inj_mul by lia. reflexivity. }
  unfold metas_ok. assert (Er : mcu_rows ms = Z.to_nat (g_mcu_rows g)).
  { destruct ms as [|m ms]; [cbn in A1; lia|]. pose proof (Forall_inv Each) as (E1 & E2 & E3). cbn [mcu_rows]. rewrite E3. apply Nat.div_mul. lia. }
  rewrite Er. exact Each.
Qed.

Lemma pic_metas met p ts idx h : pic_ok met p -> pi_quant p = Some (ts, idx) -> pi_hist p = Some h ->
  exists ms, metas_of p = Some ms /\ length ms = length (pi_samp p) /\ context_layout (Z.of_nat (length ms)) ms /\ metas_ok ms /\
    Forall2 (fun m b => cm_w m = Z.to_nat (fst b) /\ cm_h m = Z.to_nat (snd b)) ms (g_blocks (pi_grid p)) /\
    tables_ok (snd (fst h)) (snd h) (9 * num_contexts ms) /\ short_codes (snd h).
Proof.
  intros (HH & _ & HQ & HS & _) Eq Eh. rewrite Eq in HQ. rewrite Eh in HS. destruct HQ as (_ & _ & L & F). destruct HS as (_ & S). destruct h as [[schemes cmap] codes].
  pose proof S as S'. destruct S as ([S1 S2] & S3 & S4 & S5 & S6).
  assert (HV : header_valid (HImage (pi_w p) (pi_h p) 0 true (pi_samp p) (pi_grid p))).
  { destruct HH as (H1 & H2 & _ & _ & H3 & H4 & H5). cbn [header_valid]. split; [exact H1|]. split; [exact H2|]. split; [left; reflexivity|]. split; [reflexivity|]. auto. }
  destruct (metas_of_ok _ _ _ _ (Z.of_nat (length (pi_samp p))) ts schemes idx HV S1 L S2 F) as (ms & E & A1 & A2 & A3 & A4 & A5 & _).
  exists ms. unfold metas_of. rewrite Eq, Eh. split; [exact E|]. split; [exact A1|]. rewrite A1. split; [exact A2|]. split; [exact A4|]. split; [exact A5|]. cbn [fst snd]. split.
  - apply (section_tables (length (pi_samp p)) schemes cmap codes _ S'). rewrite (map_len_spec (length (pi_samp p)) schemes (conj S1 S2)).
    unfold num_contexts. rewrite A3, A1. lia.
  - unfold short_codes. eapply Forall_impl; [|exact S6]. intros c (C & _). rewrite C. unfold kAnsSymbols. lia.
Qed.

Lemma tables_ok_mono cmap codes a b : a <= b -> tables_ok cmap codes b -> tables_ok cmap codes a.
Proof. intros H T h Hh. apply T. lia. Qed.

Lemma num_contexts_ge ms off : context_layout off ms -> Z.of_nat (length ms) <= num_contexts ms.
Proof.
  intros L. unfold num_contexts. assert (forall off l, context_layout off l -> 0 <= sumZ (map (fun m => skip_of (cm_bits m)) l)) as Sp.
  { intros o l. revert o. induction l as [|m0 l IH]; intros o L0; [cbn; lia|]. cbn [map]. unfold sumZ. cbn [fold_right].
    fold (sumZ (map (fun m => skip_of (cm_bits m)) l)). destruct L0 as (_ & B & L0). pose proof (skip_pos _ B). pose proof (IH _ L0). lia. }
  pose proof (Sp _ _ L). lia.
Qed.

(** * The laws *)
Lemma pic_start_ok w h version legacy comps g : header_valid (HImage w h version legacy comps g) -> pic_ok [9; 2; 1] (pic_start w h version legacy comps g).
Proof. intros H. unfold pic_ok, pic_start. cbn [pi_w pi_h pi_version pi_legacy pi_samp pi_grid pi_meta pi_int pi_quant pi_hist pi_dc pi_ac]. auto 10. Qed.

Lemma pic_ok_other tag met p : tag <> 4 -> tag <> 5 -> tag <> 6 -> tag <> 7 -> tag <> 8 -> pic_ok met p -> pic_ok (tag :: met) p.
Proof.
  intros N4 N5 N6 N7 N8 H. unfold pic_ok in *. rewrite !mem_cons.
  destruct (Z.eqb_spec 4 tag); [lia|]. destruct (Z.eqb_spec 5 tag); [lia|]. destruct (Z.eqb_spec 6 tag); [lia|]. destruct (Z.eqb_spec 7 tag); [lia|]. destruct (Z.eqb_spec 8 tag); [lia|].
  cbn [orb]. exact H.
Qed.

Ltac picf := cbn [set_meta set_int set_quant set_hist set_dc set_ac pi_w pi_h pi_version pi_legacy pi_samp pi_grid pi_meta pi_int pi_quant pi_hist pi_dc pi_ac] in *.

Lemma set_meta_ok met p m : pic_ok met p -> meta_shape m -> pic_ok (3 :: met) (set_meta p m).
Proof.
  intros H G. apply (pic_ok_other 3) in H; try lia. unfold pic_ok in *. unfold metas_of in *. picf. destruct H as (H1 & H2 & H3 & H4 & H5 & H6 & _).
  split; [exact H1|]. split; [exact H2|]. split; [exact H3|]. split; [exact H4|]. split; [exact H5|]. split; [exact H6|exact G].
Qed.

Lemma set_int_ok met p y : mem 4 met = false -> pic_ok met p -> jgood (pi_w p) (pi_h p) (length (pi_samp p)) y -> pic_ok (4 :: met) (set_int p y).
Proof.
  intros M (H1 & H2 & H3 & H4 & H5 & H6 & H7) G. unfold pic_ok. unfold metas_of in *. picf. rewrite !mem_cons. change (4 =? 4) with true. change (5 =? 4) with false. change (6 =? 4) with false.
  change (7 =? 4) with false. change (8 =? 4) with false. cbn [orb]. split; [exact H1|]. split; [auto|].
  destruct (pi_int p) as [x|] eqn:Ei; [rewrite M in H2; destruct H2; discriminate|].
  destruct (pi_quant p) as [[ts idx]|]; [destruct H3 as (_ & (? & ? & ? & _) & _); discriminate|]. split; [exact H3|]. auto.
Qed.

Lemma set_quant_ok met p ts idx x inter : mem 5 met = false -> pic_ok met p -> pi_int p = Some (x, inter) ->
  Forall2 qvalues_ok (map snd (in_quant x)) ts -> length idx = length (pi_samp p) -> Forall (fun q => 0 <= q < Z.of_nat (length ts)) idx -> pic_ok (5 :: met) (set_quant p (ts, idx)).
Proof.
  intros M (H1 & H2 & H3 & H4 & H5 & H6 & H7) Ei G1 G2 G3. unfold pic_ok. rewrite !mem_cons. change (4 =? 5) with false. change (5 =? 5) with true. change (6 =? 5) with false.
  change (7 =? 5) with false. change (8 =? 5) with false. cbn [orb]. picf. split; [exact H1|]. split; [exact H2|]. split; [eauto 10|]. split; [exact H4|].
  unfold metas_of in H5, H6. destruct (pi_quant p) as [[ts0 idx0]|] eqn:Eq; [rewrite M in H3; destruct H3; discriminate|].
  destruct (pi_dc p) as [[planes flags]|]; [destruct H5 as (_ & ? & ? & _); discriminate|]. split; [exact H5|].
  split; [|exact H7]. destruct (pi_ac p) as [planes|]; [destruct H6 as (_ & ? & _); contradiction|exact H6].
Qed.

Lemma set_hist_ok met p h : mem 6 met = false -> pic_ok met p -> section_ok (length (pi_samp p)) h -> pic_ok (6 :: met) (set_hist p h).
Proof.
  intros M (H1 & H2 & H3 & H4 & H5 & H6 & H7) G. unfold pic_ok. rewrite !mem_cons. change (4 =? 6) with false. change (5 =? 6) with false. change (6 =? 6) with true.
  change (7 =? 6) with false. change (8 =? 6) with false. cbn [orb]. picf. split; [exact H1|]. split; [exact H2|]. split; [exact H3|]. split; [auto|].
  unfold metas_of in H5, H6. destruct (pi_hist p) as [h0|] eqn:Eq; [rewrite M in H4; destruct H4; discriminate|].
  destruct (pi_dc p) as [[planes flags]|].
  - destruct H5 as (_ & ms & E & _). destruct (pi_quant p) as [[? ?]|]; discriminate.
  - split; [exact H5|]. split; [|exact H7]. destruct (pi_ac p) as [planes|]; [destruct H6 as (_ & ? & _); contradiction|exact H6].
Qed.

Lemma set_dc_ok met p planes flags ms : mem 7 met = false -> pic_ok met p -> metas_of p = Some ms -> dc_planes_ok ms planes flags -> pic_ok (7 :: met) (set_dc p (planes, flags)).
Proof.
  intros M (H1 & H2 & H3 & H4 & H5 & H6 & H7) Em G. unfold pic_ok. rewrite !mem_cons. change (4 =? 7) with false. change (5 =? 7) with false. change (6 =? 7) with false.
  change (7 =? 7) with true. change (8 =? 7) with false. cbn [orb]. picf. split; [exact H1|]. split; [exact H2|]. split; [exact H3|]. split; [exact H4|]. split.
  - split; [reflexivity|]. exists ms. split; [exact Em|exact G].
  - split; [|exact H7]. destruct (pi_ac p) as [pl|]; [|exact H6]. exfalso. destruct H6 as (_ & H6 & _). destruct (pi_dc p) as [[? ?]|]; [rewrite M in H5; destruct H5; discriminate|contradiction].
Qed.

Lemma set_ac_ok met p planes ms : pic_ok met p -> metas_of p = Some ms -> pi_dc p <> None -> Forall2 plane_valid ms planes -> pic_ok (8 :: met) (set_ac p planes).
Proof.
  intros (H1 & H2 & H3 & H4 & H5 & H6 & H7) Em Hd G. unfold pic_ok. rewrite !mem_cons. change (4 =? 8) with false. change (5 =? 8) with false. change (6 =? 8) with false.
  change (7 =? 8) with false. change (8 =? 8) with true. cbn [orb]. picf. split; [exact H1|]. split; [exact H2|]. split; [exact H3|]. split; [exact H4|]. split; [exact H5|].
  split; [|exact H7]. split; [reflexivity|]. split; [exact Hd|]. exists ms. split; [exact Em|exact G].
Qed.

Lemma even_odd n : Z.even (Z.of_nat n) = true -> Nat.odd n = false.
Proof. intros H. rewrite <- Nat.negb_even. apply Z.even_spec in H. destruct H as [k H]. assert (E : n = (2 * Z.to_nat k)%nat) by lia. rewrite E, Nat.even_mul. reflexivity. Qed.

Lemma dc_body n V cmap codes ms : (n <= length V)%nat -> Nat.odd n = false -> metas_ok ms -> tables_ok cmap codes (9 * Z.of_nat (length ms)) -> short_codes codes ->
  exists I, body_laws 600 n (@wcall (list plane * list (list bool)) n) w_pos V I (fun y => dc_planes_ok ms (fst y) (snd y)) /\ I (mkW (wdecode_dc cmap codes ms) None 0) 0%nat.
Proof.
  intros HV HO M T SC. eexists. apply (laws_out 600 n _ w_pos V _ (mkW (wdecode_dc cmap codes ms) None 0) _ _ HV (wcall_laws n V HV)).
  - apply winit_inv, wdecode_dc_bud, SC.
  - intros x q E. rewrite (wcall_edecode n V _ (decode_dc_prog cmap codes ms) (length V) (wdecode_dc_bud cmap codes ms SC) (strip_dc cmap codes ms) HO HV HV) in E.
    destruct (edecode _ _) as [[planes flags]|] eqn:Ed; [|discriminate]. injection E as <- _. cbn [fst snd]. eapply C42_decoded_dc_bounded; eassumption.
Qed.

Lemma ac_body n V cmap codes legacy ms flags planes : (n <= length V)%nat -> Nat.odd n = false -> metas_ok ms -> context_layout (Z.of_nat (length ms)) ms ->
  tables_ok cmap codes (9 * num_contexts ms) -> short_codes codes -> dc_planes_ok ms planes flags ->
  exists I, body_laws 600 n (@wcall (list plane) n) w_pos V I (Forall2 plane_valid ms) /\ I (mkW (wdecode_ac cmap codes legacy ms flags planes) None 0) 0%nat.
Proof.
  intros HV HO M CL T SC DP. eexists. apply (laws_out 600 n _ w_pos V _ (mkW (wdecode_ac cmap codes legacy ms flags planes) None 0) _ _ HV (wcall_laws n V HV)).
  - apply winit_inv, wdecode_ac_bud, SC.
  - intros x q E. rewrite (wcall_edecode n V _ (decode_ac_prog cmap codes legacy ms flags planes) (length V) (wdecode_ac_bud cmap codes legacy ms flags planes SC) (strip_ac cmap codes legacy ms flags planes) HO HV HV) in E.
    destruct (edecode _ _) as [pl|] eqn:Ed; [|discriminate]. injection E as <- _.
    destruct (C42_decoded_ac_bounded cmap codes legacy ms flags planes _ M CL T DP pl Ed) as [L H]. destruct DP as (D1 & D2 & D3). clear Ed.
    assert (G : forall i m, nth_error ms i = Some m -> exists p, nth_error pl i = Some p /\ plane_valid m p).
    { intros i m Em. destruct (D3 i m Em) as (p0 & fl & E0 & _ & L0 & _ & B0). destruct (H i m p0 Em E0) as (p & Ep & Lp & Bp & Dp). exists p. split; [exact Ep|].
      split; [exact Lp|]. apply Forall_forall. intros b Hb. destruct (Bp b Hb) as [Lb Vb]. split; [exact Lb|]. split; [|exact Vb].
      apply In_nth_error in Hb. destruct Hb as [j Hj]. specialize (Dp j). unfold dc_at in Dp.
      pose proof (nth_error_nth _ _ [] Hj) as Ej. unfold plane, block in *. rewrite Ej in Dp. rewrite Dp.
      destruct (nth_error p0 j) as [b0|] eqn:E00.
      - pose proof (nth_error_nth _ _ [] E00) as E01. rewrite E01. rewrite Forall_forall in B0. destruct (B0 b0 (nth_error_In _ _ E00)) as (v & -> & Hv). cbn [nth]. exact Hv.
      - assert (E01 : nth j p0 [] = []) by (apply nth_overflow, nth_error_None; exact E00). rewrite E01. cbn [nth]. lia. }
    clear -G L. revert pl G L. induction ms as [|m ms IH]; intros pl G L; destruct pl as [|p pl]; cbn [length] in L; try lia; constructor.
    + destruct (G 0%nat m eq_refl) as (p' & E & V). injection E as <-. exact V.
    + apply IH; [|lia]. intros i m' Em. apply (G (S i) m' Em).
Qed.

Lemma hist_arena_length : length hist_arena = 648%nat.
Proof. unfold hist_arena. apply repeat_length. Qed.

Theorem real_bodies_laws (B : brotli) : bodies_laws (real_bodies B) pic_ok.
Proof.
  split; [intros; apply pic_start_ok; assumption|]. split.
  { intros tag met p K H. unfold known_tag in K. apply pic_ok_other; try lia. exact H. }
  intros D start tag n met p Hb HM HK HA Hok. set (V := section_view D start n).
  assert (Vb : bytes V) by (apply section_view_bytes, Hb). assert (Vl : (n <= length V)%nat) by (unfold V; rewrite <- section_view_length; lia).
  cbn [real_bodies bo_call bo_pos bo_init bo_img bo_state]. unfold admissible in HA. unfold body_init. change read_ahead with 600%nat.
  destruct (Z.eqb_spec tag 3) as [->|N3].
  { destruct (laws_out 600 n (fun V => mdcall B V n) md_pos V (mdinv n) MDInitial _ meta_shape Vl (mdcall_laws B n V Vb Vl)) as [L I0].
    - exact Logic.I.
    - intros x q E. eapply mdcall_shape, E.
    - eexists. split; [eapply (laws_lift 600 n (fun V => mdcall B V n) md_pos V _ _ BSMeta (set_meta p)); [reflexivity|reflexivity| |exact L]|].
      + intros y Hy. apply set_meta_ok; assumption.
      + eexists. split; [reflexivity|exact I0]. }
  destruct (Z.eqb_spec tag 4) as [->|N4].
  { destruct (laws_out 600 n (fun V => jcall V n) j_pos V _ (jinit n (pi_w p) (pi_h p) (length (pi_samp p))) _ (jgood (pi_w p) (pi_h p) (length (pi_samp p))) Vl (jcall_laws n V Vb Vl)) as [L I0].
    - split; [split; [apply jinit_inv|exact Logic.I]|]. cbn [jinit]. apply nle_internals.
    - intros x q E. eapply jcall_good; [exact Vb|exact Vl|apply le_n|exact E].
    - eexists. split; [eapply (laws_lift 600 n (fun V => jcall V n) j_pos V _ _ BSInt (set_int p)); [reflexivity|reflexivity| |exact L]|].
      + intros y Hy. apply set_int_ok; assumption.
      + eexists. split; [reflexivity|exact I0]. }
  destruct (Z.eqb_spec tag 5) as [->|N5].
  { pose proof Hok as (_ & H2 & _). rewrite mem_cons in HA. change (4 =? 5) with false in HA. cbn [orb] in HA.
    destruct (pi_int p) as [[x inter]|] eqn:Ei; [|congruence].
    destruct (scall_body false n V (read_quant_section (map snd (in_quant x)) (length (pi_samp p))) _ Vb Vl (read_quant_section_bok _ _) (nle_quant_section _ _) (read_quant_section_pall _ _)) as (I & L & I0).
    eexists. split; [eapply (laws_lift 600 n (scall false n) snd V _ _ (fun s => BSQuant (fst (fst s)) (snd (fst s)) (snd s)) (set_quant p)); [| | |exact L]|].
    - intros [[q b] pos] a. cbn [body_call fst snd]. destruct (scall false n V (q, b, pos) a) as [y c| |[[q' b'] pos']]; reflexivity.
    - intros [[q b] pos]. reflexivity.
    - intros [ts idx] (Q1 & Q2 & Q3). eapply set_quant_ok; eauto. eapply Forall_impl; [|exact Q3]. cbv beta. intros a Ha. rewrite <- (F2_length _ _ _ Q1). exact Ha.
    - exists (read_quant_section (map snd (in_quant x)) (length (pi_samp p)), br_init, 0%nat). split; [reflexivity|exact I0]. }
  destruct (Z.eqb_spec tag 6) as [->|N6].
  { pose proof Hok as ((_ & _ & _ & _ & HL & _) & _).
    destruct (read_section_total hist_arena (length (pi_samp p)) ltac:(lia) ltac:(rewrite hist_arena_length; lia)) as [K P].
    destruct (scall_body true n V (read_histogram_section hist_arena (length (pi_samp p))) _ Vb Vl K (nle_histogram_section hist_arena (length (pi_samp p)) (proj2 HL)) P) as (I & L & I0).
    eexists. split; [eapply (laws_lift 600 n (scall true n) snd V _ _ (fun s => BSHist (fst (fst s)) (snd (fst s)) (snd s)) (set_hist p)); [| | |exact L]|].
    - intros [[q b] pos] a. cbn [body_call fst snd]. destruct (scall true n V (q, b, pos) a) as [y c| |[[q' b'] pos']]; reflexivity.
    - intros [[q b] pos]. reflexivity.
    - intros h Hh. apply set_hist_ok; assumption.
    - exists (read_histogram_section hist_arena (length (pi_samp p)), br_init, 0%nat). split; [reflexivity|exact I0]. }
  destruct (Z.eqb_spec tag 7) as [->|N7].
  { pose proof Hok as (_ & _ & H3 & H4 & _). rewrite !mem_cons in HA. change (6 =? 7) with false in HA. change (5 =? 7) with false in HA. cbn [orb] in HA.
    apply andb_prop in HA. destruct HA as [HA HE]. apply andb_prop in HA. destruct HA as [HA6 HA5].
    destruct (pi_quant p) as [[ts idx]|] eqn:Eq; [|congruence]. destruct (pi_hist p) as [[[schemes cmap] codes]|] eqn:Eh; [|congruence].
    destruct (pic_metas met p ts idx _ Hok Eq Eh) as (ms & Em & Lm & CL & MO & _ & T & SC). cbn [fst snd] in T, SC. rewrite Em.
    assert (T' : tables_ok cmap codes (9 * Z.of_nat (length ms))) by (pose proof (num_contexts_ge ms _ CL); eapply tables_ok_mono; [|exact T]; lia).
    destruct (dc_body n V cmap codes ms Vl (even_odd n HE) MO T' SC) as (I & L & I0).
    eexists. split; [eapply (laws_lift 600 n (wcall n) w_pos V _ _ BSDC (set_dc p)); [reflexivity|reflexivity| |exact L]|].
    - intros [planes flags] Hd. apply (set_dc_ok met p planes flags ms HM Hok Em Hd).
    - eexists. split; [reflexivity|exact I0]. }
  destruct (Z.eqb_spec tag 8) as [->|N8]; [|discriminate].
  pose proof Hok as (_ & _ & H3 & H4 & H5 & _). rewrite !mem_cons in HA. change (7 =? 8) with false in HA. cbn [orb] in HA.
  apply andb_prop in HA. destruct HA as [HA7 HE].
  destruct (pi_dc p) as [[planes flags]|] eqn:Ed; [|congruence]. destruct H5 as (_ & ms0 & Em0 & DP).
  assert (exists ts idx, pi_quant p = Some (ts, idx)) as (ts & idx & Eq) by (unfold metas_of in Em0; destruct (pi_quant p) as [[ts idx]|]; [eauto|discriminate]).
  assert (exists h, pi_hist p = Some h) as ([[schemes cmap] codes] & Eh) by (unfold metas_of in Em0; destruct (pi_quant p) as [[? ?]|]; [|discriminate]; destruct (pi_hist p) as [h|]; [eauto|discriminate]).
  destruct (pic_metas met p ts idx _ Hok Eq Eh) as (ms & Em & Lm & CL & MO & _ & T & SC). cbn [fst snd] in T, SC. rewrite Em in Em0. injection Em0 as <-. rewrite Em, Eh.
  destruct (ac_body n V cmap codes (pi_legacy p) ms flags planes Vl (even_odd n HE) MO CL T SC DP) as (I & L & I0).
  eexists. split; [eapply (laws_lift 600 n (wcall n) w_pos V _ _ BSAC (set_ac p)); [reflexivity|reflexivity| |exact L]|].
  - intros pl Hd. apply (set_ac_ok met p pl ms Hok Em); [congruence|exact Hd].
  - eexists. split; [reflexivity|exact I0].
Qed.
