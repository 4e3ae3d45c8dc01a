(** The views of the parser agree with the image it ends with. *)
From Verif Require Import Base CodesModel JpegModel EntropyModel LehmerModel LehmerProofs QuantModel InternalsModel MetaModel HeaderModel HeaderProofs Stream Machine ContainerModel HSecModel CoefModel CoefProofs DCProofs WordModel Decoder DecoderProofs2 DriverModel OutputModel JScanModel SerialModel SerialSpec ProgressModel ProgressSpec ProgressProofs2 ProgressProofs3.

Lemma metas_from_nth tables : forall samp blocks schemes idx off ms, metas_from off samp blocks schemes tables idx = Some ms ->
  forall i s b, nth_error samp i = Some s -> nth_error blocks i = Some b -> exists m, nth_error ms i = Some m /\ cm_w m = Z.to_nat (fst b) /\ cm_h m = Z.to_nat (snd b) /\ cm_vs m = Z.to_nat (snd s).
Proof.
  induction samp as [|s0 samp IH]; intros [|b0 blocks] [|c schemes] [|q idx] off ms E; cbn [metas_from] in E; try discriminate; intros i s b Es Eb; [destruct i; discriminate|].
  destruct (q <? 0); [discriminate|]. destruct (nth_error tables (Z.to_nat q)) as [t|]; [|discriminate]. unfold obind in E. cbv beta iota in E. destruct (metas_from _ samp blocks schemes tables idx) as [r|] eqn:Er; [|discriminate].
  injection E as <-. destruct i as [|i]; cbn [nth_error] in *; [injection Es as <-; injection Eb as <-; eexists; split; [reflexivity|]; cbn; auto|]. eapply IH; eassumption.
Qed.
Lemma make_comps_frame : forall ids samp blocks idx p1 p2, length p1 = length p2 -> map comp_frame (make_comps ids samp blocks idx p1) = map comp_frame (make_comps ids samp blocks idx p2).
Proof.
  induction ids as [|i ids IH]; intros [|s samp] [|b blocks] [|q idx] [|a p1] [|c p2] L; try discriminate; try reflexivity. cbn [make_comps map]. f_equal. apply IH. cbn in L. lia.
Qed.
Lemma make_comps_rel (R : component -> component -> Prop) : forall ids samp blocks idx p1 p2, length p1 = length p2 ->
  (forall i id s b q a c, nth_error samp i = Some s -> nth_error blocks i = Some b -> nth_error p1 i = Some a -> nth_error p2 i = Some c ->
     R (mkComp id (fst s) (snd s) q (fst b) (snd b) a) (mkComp id (fst s) (snd s) q (fst b) (snd b) c)) ->
  Forall2 R (make_comps ids samp blocks idx p1) (make_comps ids samp blocks idx p2).
Proof.
  induction ids as [|id ids IH]; intros [|s samp] [|b blocks] [|q idx] [|a p1] [|c p2] L H; try discriminate; try constructor.
  - apply (H 0%nat); reflexivity.
  - apply IH; [cbn in L; lia|]. intros i id' s' b' q' a' c' E1 E2 E3 E4. apply (H (S i)); assumption.
Qed.

Section View.
  Context (P : picture) (J : jpeg) (metP : list Z) (HP : pic_ok metP P) (EJ : picture_jpeg P = Some J).

  (** The components of the final image. *)
  Lemma geometry : exists ms pl, metas_of P = Some ms /\ pi_ac P = Some pl /\ length pl = length (pi_samp P) /\ pi_int P <> None /\ pi_quant P <> None /\ pi_hist P <> None /\
    Z.of_nat (mcu_rows ms) = g_mcu_rows (pi_grid P) /\ (0 < mcu_rows ms)%nat /\
    (forall i s b, nth_error (pi_samp P) i = Some s -> nth_error (g_blocks (pi_grid P)) i = Some b ->
       exists m, nth_error ms i = Some m /\ Z.of_nat (cm_w m) = fst b /\ Z.of_nat (cm_vs m) = snd s) /\
    (g_mcu_rows (pi_grid P) - 1) * (8 * g_max_v (pi_grid P)) < pi_h P /\ 0 < g_max_v (pi_grid P).
  Proof.
    pose proof HP as (HH & HI & HQ & HS & HD & HA & HM). unfold picture_jpeg in EJ.
    destruct (pi_int P) as [[x inter]|]; [|discriminate]. destruct (pi_quant P) as [[ts idx]|] eqn:Eq; [|discriminate]. destruct (pi_ac P) as [pl|] eqn:Ea; [|discriminate].
    destruct HA as (_ & _ & ms & Em & FP). destruct (pi_hist P) as [h|] eqn:Eh; [|unfold metas_of in Em; rewrite Eq, Eh in Em; discriminate].
    destruct (pic_metas _ P ts idx h HP Eq Eh) as (ms' & Em' & Lm & _ & MO & FB & _). rewrite Em in Em'. injection Em' as <-.
    exists ms, pl. split; [exact Em|]. split; [first [reflexivity|exact Ea]|]. split. { assert (length ms = length pl) as L by (clear - FP; induction FP; cbn; auto). congruence. }
    split; [discriminate|]. split; [discriminate|]. split; [discriminate|]. cbn [header_valid] in HH. destruct HH as (V1 & V2 & V3 & V4 & V5 & V6 & V7).
    destruct (grid_pos (pi_w P) (pi_h P) (pi_samp P) (pi_grid P) ltac:(lia) ltac:(lia) V6 ltac:(lia) V7) as [GC GR]. destruct V7 as (G1 & G2 & G3 & G4 & G5 & G6 & G7).
    assert (NT : forall i s b, nth_error (pi_samp P) i = Some s -> nth_error (g_blocks (pi_grid P)) i = Some b ->
       exists m, nth_error ms i = Some m /\ Z.of_nat (cm_w m) = fst b /\ Z.of_nat (cm_vs m) = snd s /\ cm_h m = Z.to_nat (snd b) /\ 1 <= snd s /\ snd b = g_mcu_rows (pi_grid P) * snd s).
    { intros i s b Es Eb. unfold metas_of in Em. rewrite Eq, Eh in Em. destruct h as [[schemes cmap] codes]. destruct (metas_from_nth _ _ _ _ _ _ _ Em i s b Es Eb) as (m & M1 & M2 & M3 & M4).
      exists m. split; [exact M1|]. pose proof (proj1 (Forall_forall _ _) G7 b (nth_error_In _ _ Eb)) as Q. cbv beta in Q. pose proof (proj1 (Forall_forall _ _) V6 s (nth_error_In _ _ Es)) as Q2. unfold samp_ok in Q2.
      split; [lia|]. split; [lia|]. split; [exact M3|]. split; [lia|]. rewrite G6, nth_error_map, Es in Eb. injection Eb as <-. reflexivity. }
    destruct (pi_samp P) as [|s0 samp] eqn:Es; [cbn in V5; lia|]. destruct (g_blocks (pi_grid P)) as [|b0 bl] eqn:Eb; [discriminate|].
    destruct (NT 0%nat s0 b0 eq_refl eq_refl) as (m0 & M1 & M2 & M3 & M4 & M5 & M6).
    assert (MR : Z.of_nat (mcu_rows ms) = g_mcu_rows (pi_grid P)).
    { destruct ms as [|m ms]; [discriminate|]. cbn in M1. injection M1 as <-. cbn [mcu_rows]. rewrite Nat2Z.inj_div, M4, M3, M6, Z2Nat.id by nia. rewrite Z.div_mul by lia. reflexivity. }
    split; [exact MR|]. split; [lia|]. split; [intros i s b E1 E2; destruct (NT i s b E1 E2) as (m & A1 & A2 & A3 & _); eauto|]. split; [lia|].
    destruct G5 as (c & I1 & I2). pose proof (proj1 (Forall_forall _ _) V6 c I1) as Q2. unfold samp_ok in Q2. lia.
  Qed.

  Lemma block_nth (planes : list plane) i p j b : nth_error planes i = Some p -> nth_error p j = Some b -> block_at planes i j = Some b.
  Proof. intros E1 E2. unfold block_at. rewrite E1. exact E2. Qed.
  Lemma block_back (planes : list plane) i p j : nth_error planes i = Some p -> block_at planes i j = nth_error p j.
  Proof. intros E1. unfold block_at. rewrite E1. reflexivity. Qed.
  Lemma shape_block a b i j x : same_shape a b -> block_at b i j = Some x -> exists y, block_at a i j = Some y.
  Proof.
    unfold same_shape, block_at. intros S E. destruct (nth_error b i) as [p|] eqn:Eb; [|discriminate].
    pose proof (f_equal (fun l => nth_error l i) S) as Q. cbv beta in Q. rewrite !nth_error_map in Q. unfold plane, block in *. rewrite Eb in Q. destruct (nth_error a i) as [p'|]; [|discriminate]. cbn in Q. injection Q as Q.
    pose proof (nth_error_lt _ _ _ E) as L. rewrite <- Q in L. destruct (nth_error p' j) as [y|] eqn:E'; [eauto|]. apply nth_error_None in E'. unfold plane, block in *. lia.
  Qed.

  Lemma view_ok ms pl img dc ac row planes m : metas_of P = Some ms -> pi_ac P = Some pl ->
    hdr P = hdr img -> pi_int P = pi_int img -> pi_quant P = pi_quant img -> m = pic_meta P -> length planes = length pl -> dc || ac = true -> 0 <= row < Z.of_nat (mcu_rows ms) ->
    (ac = true -> dc_same planes pl) ->
    (forall i mi j b, nth_error ms i = Some mi -> Z.of_nat j < row * Z.of_nat (cm_vs mi) * Z.of_nat (cm_w mi) -> block_at pl i j = Some b ->
       exists b', block_at planes i j = Some b' /\ if ac then b' = b else nth_error b' 0 = nth_error b 0) ->
    consistent J (mkView false dc ac row (view_jpeg img m planes) None).
  Proof.
    intros Em Ea Hh Hi Hq -> Hl Hd Hr Hac Hb. destruct geometry as (ms' & pl' & Em' & Ea' & L & Ni & Nq & Nh & MR & MP & GN & GH & GV). rewrite Em in Em'. injection Em' as <-. rewrite Ea in Ea'. injection Ea' as <-.
    unfold hdr in Hh. injection Hh as H1 H2 H3 H4 H5 H6. unfold consistent. cbn [v_done v_dc v_ac v_row v_jpeg]. split; [destruct dc; [reflexivity|exact Hd]|].
    pose proof EJ as EJ'. unfold picture_jpeg in EJ'. destruct (pi_int P) as [[x inter]|] eqn:Ei; [|congruence]. destruct (pi_quant P) as [[ts idx]|] eqn:Eq; [|congruence]. rewrite Ea in EJ'. injection EJ' as EJ'. fold (pic_meta P) in EJ'.
    assert (EV : view_jpeg img (pic_meta P) planes = mkJpeg (pi_w P) (pi_h P) (pi_version P)
        (g_max_h (pi_grid P)) (g_max_v (pi_grid P)) (g_mcu_rows (pi_grid P)) (g_mcu_cols (pi_grid P))
        (in_restart x) (m_app (pic_meta P)) (m_com (pic_meta P)) (make_quant (in_quant x) ts) (in_huff x)
        (make_comps (in_ids x) (pi_samp P) (g_blocks (pi_grid P)) idx planes)
        (in_scans x) (in_markers x) inter (m_tail (pic_meta P)) (in_zero_pad x) (in_padding x)).
    { unfold view_jpeg. rewrite <- H1, <- H2, <- H3, <- H5, <- H6, <- Hi, <- Hq. reflexivity. }
    rewrite EV. split; [|split; [discriminate|]].
    - rewrite <- EJ'. unfold frame. cbn [j_width j_height j_version j_max_h j_max_v j_mcu_rows j_mcu_cols j_restart j_app j_com j_quant j_huff j_comps j_scans j_markers j_inter j_tail j_zero_pad j_padding].
      f_equal. apply make_comps_frame. exact Hl.
    - intros _. rewrite <- EJ'. cbn [j_max_v j_height j_comps]. split; [lia|]. split; [nia|].
      apply make_comps_rel; [exact Hl|]. intros i id s b q a c E1 E2 E3 E4. destruct (GN i s b E1 E2) as (mi & Mi & W & V). cbn [c_coeffs c_v c_wb].
      assert (RD : ready ac (row * snd s * fst b) (mkComp id (fst s) (snd s) q (fst b) (snd b) a) (mkComp id (fst s) (snd s) q (fst b) (snd b) c)).
      { intros j bl Hj E. cbn [c_coeffs] in *. destruct (Hb i mi (Z.to_nat j) bl Mi ltac:(rewrite Z2Nat.id by lia; rewrite V, W; lia) (block_nth _ _ _ _ _ E4 E)) as (b' & B1 & B2).
        exists b'. rewrite (block_back _ _ _ _ E3) in B1. split; [exact B1|exact B2]. }
      destruct ac; [|exact RD]. split; [|exact RD]. destruct (Hac eq_refl) as [S1 S2]. intros j bl Hj E. cbn [c_coeffs] in *.
      pose proof (block_nth _ _ _ _ _ E4 E) as BB. destruct (shape_block planes pl _ _ _ S1 BB) as (y & Y). exists y. rewrite (block_back _ _ _ _ E3) in Y. split; [exact Y|].
      destruct (S2 i (Z.to_nat j) y) as (z & Z1 & Z2); [rewrite (block_back _ _ _ _ E3); exact Y|]. congruence.
  Qed.

  (** * All states on the way to [P] *)
  Context (B : brotli) (D : list Z) (HD : bytes D) (MF : metadata_first D).
  Notation N := (length D).

  Lemma keep_view met img ac dc planes : keep met img P -> mem 4 met = true -> mem 5 met = true -> pi_meta P = pi_meta img -> length planes = length (pi_samp img) -> dc || ac = true ->
    (ac = true -> forall pl, pi_ac P = Some pl -> dc_same planes pl) -> consistent J (mkView false dc ac 0 (view_jpeg img (pic_meta img) planes) None).
  Proof.
    intros (K1 & K4 & K5 & _) M4 M5 Hm Hl Hd Ha. destruct geometry as (ms & pl & Em & Ea & L & _ & _ & _ & MR & MP & _).
    assert (Hs : pi_samp P = pi_samp img) by (unfold hdr in K1; congruence).
    apply (view_ok ms pl); auto.
    - unfold pic_meta. rewrite Hm. reflexivity.
    - rewrite Hl, L, Hs. reflexivity.
    - lia.
    - intros. lia.
  Qed.

  Lemma dc_same_length a b : dc_same a b -> length a = length b.
  Proof. intros [S _]. unfold same_shape in S. apply (f_equal (@length nat)) in S. rewrite !map_length in S. exact S. Qed.
  Lemma planes_length met img planes flags : keep met img P -> mem 7 met = true -> pi_dc img = Some (planes, flags) -> length planes = length (pi_samp img).
  Proof.
    intros (K1 & _ & _ & _ & _ & K7) M7 Ed. destruct (K7 M7) as (_ & pl0 & fl0 & pl & E1 & E2 & E3). rewrite Ed in E1. injection E1 as <- <-.
    destruct geometry as (ms & pl' & _ & Ea & L & _). rewrite E2 in Ea. injection Ea as <-. unfold hdr in K1. replace (pi_samp img) with (pi_samp P) by congruence. rewrite <- L. apply dc_same_length, E3.
  Qed.
  Lemma tag_view met img : base met -> clean met img -> keep met img P -> mem 7 met = true -> consistent J (mkView false (mem 7 met) (mem 8 met) 0 (view_jpeg img (pic_meta img) (pic_planes img)) None).
  Proof.
    intros (B1 & B2 & B3) [C1 C2] K M7. pose proof K as (K1 & K4 & K5 & K6 & K8 & K7). destruct (K7 M7) as (Km & planes & flags & pl & E1 & E2 & E3). destruct (B3 M7) as [M5 M6].
    rewrite M7, K8. unfold pic_planes. rewrite C1, E1. apply (keep_view met); auto; [eapply planes_length; eauto|discriminate].
  Qed.

  Lemma look_ok x q : xinv B D x -> (x_at B x <= N)%nat -> x_run B D x N = RDone (OImage P) q -> ann B x = true -> consistent J (look x).
  Proof.
    intros HI Ha E HA. pose proof geometry as (msP & plP & EmP & EaP & LP & _ & _ & _ & MR & MP & _).
    destruct x as [pos|qq pos|qq pos|f met img pos|f met img tag sec pos|f met img acc n pos|f met img tag n start s|o pos|]; cbn [x_run x_at] in *; try discriminate.
    - destruct HI as (H1 & H2 & H3). pose proof (sections_posts B D HD MF N ltac:(lia) f met img pos H1 H2 H3) as K. rewrite E in K. cbn [post] in K.
      cbn [look]. unfold ann in HA. cbn in HA. assert (M8 : mem 8 met = false) by apply K. rewrite M8, orb_false_r in HA. apply tag_view; auto.
    - destruct HI as (met0 & -> & H1 & H2 & H3 & H4 & H5).
      pose proof (len_posts B D HD MF (x_sections B D f N) f met0 img tag sec pos N (sections_posts B D HD MF N ltac:(lia) f) ltac:(lia) H1 H2 H3 H4 H5) as K. rewrite E in K. cbn [len_post] in K. destruct K as (K & KA & KM).
      cbn [look]. unfold ann in HA. cbn [look v_done v_dc v_ac orb] in HA. pose proof K as (K1 & K4 & K5 & K6 & K8 & K7). rewrite !mem_cons' in *. rewrite K8, orb_false_r in *.
      destruct H2 as (B1 & B2 & B3). destruct H3 as (C1 & C2). destruct (Z.eqb_spec 7 tag) as [<-|N7].
      + destruct (KA eq_refl) as (n & Ad). unfold admissible in Ad. cbn [Z.eqb Pos.eqb] in Ad. apply andb_prop in Ad as [Ad _]. rewrite !mem_cons' in Ad. cbn [Z.eqb Pos.eqb orb] in Ad. apply andb_prop in Ad as [A6 A5].
        cbn [orb Z.eqb Pos.eqb]. apply (keep_view met0); auto; [|discriminate]. unfold pic_planes. rewrite C1, (C2 H1). apply map_length.
      + destruct (Z.eqb_spec 8 tag) as [<-|N8].
        * destruct (KA eq_refl) as (n & Ad). unfold admissible in Ad. cbn [Z.eqb Pos.eqb] in Ad. apply andb_prop in Ad as [Ad _]. rewrite !mem_cons' in Ad. change (7 =? 8) with false in Ad. cbn [orb] in Ad. change (8 =? 8) with true. cbn [orb]. rewrite Ad.
          destruct (K7 Ad) as (Km & planes & flags & pl & E1 & E2 & E3). destruct (B3 Ad) as [M5 M6]. unfold pic_planes. rewrite C1, E1.
          apply (keep_view met0); auto; [eapply planes_length; eauto|]. intros _ pl' E'. rewrite E2 in E'. injection E' as <-. exact E3.
        * cbn [orb] in *. rewrite orb_false_r in HA. pose proof (tag_view met0 img ltac:(repeat split; auto; apply B3; auto) (conj C1 C2) K HA) as TV. rewrite K8 in TV. exact TV.
    - destruct HI as (H0 & H1 & H2 & H3). pose proof (skip_posts B D (x_sections B D f N) f met img acc n pos N (sections_posts B D HD MF N ltac:(lia) f) H0 H1 H2 H3) as K. rewrite E in K. cbn [post] in K.
      cbn [look]. unfold ann in HA. cbn in HA. assert (M8 : mem 8 met = false) by apply K. rewrite M8, orb_false_r in HA. apply tag_view; auto.
    - destruct HI as (met0 & -> & H1 & H2 & H3 & H4 & H5 & H6 & H7 & H8).
      pose proof (body_posts B D (x_sections B D f N) f met0 img tag n start s N (sections_posts B D HD MF N ltac:(lia) f) H1 H2 H3 H4 H5 H6 H7 H8) as BP. rewrite E in BP.
      pose proof (body_post_keep B D met0 img tag s P q H1 H7 H6 BP) as K. pose proof K as (K1 & K4 & K5 & K6 & K8 & K7). destruct BP as (img' & C & M & P8 & K').
      cbn [look]. unfold ann in HA. cbn [look v_done v_dc v_ac orb] in HA. rewrite !mem_cons' in *. rewrite K8, orb_false_r in *.
      pose proof H2 as (B1 & B2 & B3). pose proof H3 as (B1' & B2' & B3'). pose proof H4 as (C1 & C2). destruct C as (D1 & D3 & D4 & D5 & D6 & D7 & D8).
      assert (Hs : pi_samp P = pi_samp img) by (unfold hdr in K1; congruence).
      destruct (Z.eqb_spec 7 tag) as [<-|N7].
      + destruct s as [s|c t sub pos|c t sub pos]; cbn [body_made body_inv] in M, H6; [lia| |lia]. destruct H6 as (_ & Hms & pre & Hv). destruct M as (planes & flags & E1 & E2 & E3).
        specialize (K' ltac:(lia)). pose proof K' as (L1 & L4 & L5 & L6 & L8 & L7). destruct (L7 eq_refl) as (Lm & pl0 & fl0 & pl & F1 & F2 & F3). rewrite E1 in F1. injection F1 as <- <-.
        destruct (B3' eq_refl) as [M5 M6]. rewrite !mem_cons' in M5, M6. cbn [Z.eqb Pos.eqb orb] in M5, M6. rewrite F2 in EaP. injection EaP as <-.
        assert (cf_ms c = msP) as <-. { unfold metas_of in *. rewrite K5, K6 in EmP by assumption. rewrite Hs in EmP. replace (pi_grid P) with (pi_grid img) in EmP by (unfold hdr in K1; congruence). congruence. }
        cbn [orb Z.eqb Pos.eqb body_meta body_planes body_row]. apply (view_ok (cf_ms c) pl); auto.
        * unfold pic_meta. rewrite Lm, D3 by lia. reflexivity.
        * apply dc_same_length in F3. unfold same_shape in E2. apply (f_equal (@length nat)) in E2. rewrite !map_length in E2. cbn [body_planes]. unfold plane, block in *. congruence.
        * eapply row_of_bound; eassumption.
        * discriminate.
        * intros i mi j b Ei Hj Eb. pose proof (passed_above _ _ _ _ _ _ Hv Ei Hj) as PA. destruct F3 as [F3 F4]. destruct (shape_block planes pl i j b F3 Eb) as (y & Y). exists y. split; [rewrite <- E3 by exact PA; exact Y|].
          destruct (F4 i j y Y) as (z & Z1 & Z2). congruence.
      + destruct (Z.eqb_spec 8 tag) as [<-|N8].
        * specialize (P8 eq_refl). subst img'. destruct s as [s|c t sub pos|c t sub pos]; cbn [body_made body_inv] in M, H6; [lia|lia|]. destruct H6 as (_ & Hms & Ho & planes0 & flags0 & Ed & Es). destruct M as (planes & E1 & E2 & E3).
          assert (M7 : mem 7 met0 = true) by (destruct (mem 7 met0) eqn:M7; [reflexivity|]; rewrite (C2 eq_refl) in Ed; discriminate).
          destruct (B3 M7) as [M5 M6]. rewrite E1 in EaP. injection EaP as <-.
          assert (cf_ms c = msP) as <-. { unfold metas_of in *. rewrite K5, K6 in EmP by assumption. rewrite Hs in EmP. replace (pi_grid P) with (pi_grid img) in EmP by (unfold hdr in K1; congruence). congruence. }
          cbn [orb body_meta]. rewrite M7.
          assert (PL : body_planes (B := B) img (XAC c t sub pos) = acx_planes t) by (destruct t; reflexivity). rewrite PL.
          assert (RW : 0 <= body_row (B := B) (XAC c t sub pos) < Z.of_nat (mcu_rows (cf_ms c))).
          { destruct t as [|aks fl vs sts pls]; cbn [body_row]; [lia|]. destruct Ho as [_ [pre Hv]]. eapply row_of_bound; eassumption. }
          apply (view_ok (cf_ms c) planes); auto.
          -- unfold pic_meta. rewrite D3 by lia. reflexivity.
          -- apply dc_same_length, E2.
          -- intros i mi j b Ei Hj Eb. exists b. split; [|reflexivity]. destruct t as [|aks fl vs sts pls]; cbn [body_row] in Hj; [lia|]. destruct Ho as [_ [pre Hv]].
             rewrite <- E3 by (eapply passed_above; eassumption). exact Eb.
        * cbn [orb] in HA. rewrite orb_false_r in HA. exfalso. destruct (B3 HA) as [M5 M6]. pose proof (B1 M5).
          assert (tag = 3 \/ tag = 4 \/ tag = 5 \/ tag = 6) as [ -> |[ -> |[ -> | -> ]]] by lia; try congruence. rewrite H7 in HA by reflexivity. discriminate.
    - injection E as -> _. cbn [look]. unfold consistent. cbn [v_done v_dc v_ac v_jpeg orb].
      assert (EV : view_jpeg P (pic_meta P) (pic_planes P) = J).
      { unfold picture_jpeg in EJ. unfold view_jpeg, pic_planes. rewrite EaP in *. destruct (pi_int P) as [[x inter]|]; [|discriminate]. destruct (pi_quant P) as [[ts idx]|]; [|discriminate]. injection EJ as <-. reflexivity. }
      rewrite EV. repeat split; auto; discriminate.
  Qed.
End View.
