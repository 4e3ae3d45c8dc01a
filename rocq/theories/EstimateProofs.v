(** The memory estimate sees what the decoder sees. *)
From Verif Require Import Base JpegModel BitModel BitProofs ProgLogic CodesModel HistModel QuantModel InternalsModel InternalsProofs MetaModel Stream Machine HeaderModel HeaderProofs ContainerModel HSecModel HSecProofs CoefModel WordModel
  PropsHeader QuantProofs Decoder GrammarProofs DecoderProofs1 DecoderProofs2 DecodedSpec PropsDecoder JpegSpec EstimateModel.

Lemma shallow_arun arena nc l s c codes r : arun false (read_histogram_section arena nc) l = Some ((s, c, codes), r) ->
  exists r', arun false (shallow_section nc) l = Some ((s, Z.of_nat (length codes)), r').
Proof.
  unfold read_histogram_section, shallow_section. cbn [arun andb]. rewrite !arun_bind. destruct (arun false (read_schemes nc) l) as [[s0 l0]|]; [|discriminate]. cbn [arun andb]. rewrite !arun_bind.
  destruct (arun false decode_var_len_uint8 l0) as [[v l1]|] eqn:Ev; [|discriminate]. cbn [arun andb]. cbv zeta. rewrite !arun_bind.
  destruct (arun false (if (1 <? Z.to_nat (v + 1))%nat then _ else _) l1) as [[cm l2]|]; [|discriminate]. rewrite arun_bind. destruct (arun false (read_codes _) l2) as [[co l3]|] eqn:Ec; [|discriminate].
  cbn [arun]. intros E. injection E as <- <- <- <-. eexists. repeat f_equal. pose proof (arun_pall _ _ _ _ _ _ (proj2 (read_codes_total (Z.to_nat (v + 1)) 0)) Ec) as [-> _].
  pose proof (arun_pall _ _ _ _ _ _ (proj2 decode_var_len_uint8_total) Ev) as Hv. cbv beta in Hv. lia.
Qed.

Definition seen (x : option (list Z * Z)) (p : picture) : Prop :=
  match pi_hist p with Some (s, _, codes) => x = Some (s, Z.of_nat (length codes)) | None => x = None end.

Lemma lift_done {S Y T X} (inj : S -> T) (post : Y -> X) r x q : lift_res inj post r = RDone x q -> exists y, r = RDone y q /\ x = post y.
Proof. destruct r; cbn [lift_res]; try discriminate. intros E. injection E as <- <-. eauto. Qed.

Lemma body_seen B tag n p V avail y c x : bytes V -> (n <= length V)%nat -> (n <= avail)%nat -> (1 <= length (pi_samp p))%nat -> seen x p ->
  body_call B tag n p V (body_init B tag n p) avail = RDone y c ->
  pi_samp y = pi_samp p /\ pi_grid y = pi_grid p /\
  if tag =? 6 then exists s (codes : list (list Z)) r', arun false (shallow_section (length (pi_samp p))) (bits_of_bytes (firstn n V)) = Some ((s, Z.of_nat (length codes)), r') /\ seen (Some (s, Z.of_nat (length codes))) y
  else seen x y.
Proof.
  intros Hb Hn Ha Hs HX E. unfold body_init in E.
  destruct (Z.eqb_spec tag 3) as [->|N3]. { cbn [body_call] in E. apply lift_done in E. destruct E as (z & _ & ->). split; [reflexivity|]. split; [reflexivity|]. exact HX. }
  destruct (Z.eqb_spec tag 4) as [->|N4]. { cbn [body_call] in E. apply lift_done in E. destruct E as (z & _ & ->). split; [reflexivity|]. split; [reflexivity|]. exact HX. }
  destruct (Z.eqb_spec tag 5) as [->|N5].
  { destruct (pi_int p) as [[xx ?]|]; [|discriminate]. cbn [body_call] in E. apply lift_done in E. destruct E as (z & _ & ->). split; [reflexivity|]. split; [reflexivity|]. exact HX. }
  destruct (Z.eqb_spec tag 6) as [->|N6].
  { cbn [body_call] in E. apply lift_done in E. destruct E as ([[s cm] codes] & E & ->). split; [reflexivity|]. split; [reflexivity|].
    destruct (read_section_total hist_arena (length (pi_samp p)) Hs ltac:(rewrite hist_arena_length; lia)) as [K _]. rewrite (scall_full true n V _ avail Hb Hn Ha K) in E.
    unfold asection in E. destruct (arun (negb true) _ _) as [[r rest]|] eqn:A; [|discriminate]. destruct (forallb _ _); [|discriminate]. injection E as -> _.
    destruct (shallow_arun _ _ _ _ _ _ _ A) as (r' & Sh). exists s, codes, r'. split; [exact Sh|]. reflexivity. }
  destruct (Z.eqb_spec tag 7) as [->|N7].
  { destruct (metas_of p); [|discriminate]. destruct (pi_hist p) as [[[? ?] ?]|] eqn:Eh; [|discriminate]. cbn [body_call] in E. apply lift_done in E. destruct E as (z & _ & ->). split; [reflexivity|]. split; [reflexivity|].
    unfold seen in *. cbn [set_dc pi_hist]. exact HX. }
  destruct (Z.eqb_spec tag 8) as [->|N8].
  { destruct (metas_of p); [|discriminate]. destruct (pi_hist p) as [[[? ?] ?]|] eqn:Eh; [|discriminate]. destruct (pi_dc p) as [[? ?]|]; [|discriminate]. cbn [body_call] in E. apply lift_done in E. destruct E as (z & _ & ->). split; [reflexivity|]. split; [reflexivity|].
    unfold seen in *. cbn [set_ac pi_hist]. exact HX. }
  discriminate.
Qed.

Lemma bfull_nonempty {A} met (p : bprog A) pos : bfull (parse_section met) pos [] = None.
Proof. reflexivity. Qed.

Lemma view_firstn D pos n : (pos + n <= length D)%nat -> firstn n (section_view D pos n) = firstn n (skipn pos D).
Proof. intros H. unfold section_view. rewrite firstn_app, skipn_length. replace (n - (length D - pos))%nat with 0%nat by lia. cbn [firstn]. apply app_nil_r. Qed.

Lemma est_sections_ok B D : bytes D -> forall fuel met p pos p' x, pic_ok met p -> seen x p -> (pos <= length D)%nat ->
  Machine.mrun D (read_sections (real_bodies B) fuel met p) pos (length D) = RDone p' (length D) ->
  exists x', est_sections D (S fuel) met (length (pi_samp p)) x pos = Some x' /\ seen x' p' /\ pi_samp p' = pi_samp p /\ pi_grid p' = pi_grid p.
Proof.
  intros Hb. destruct (real_bodies_laws B) as (_ & GU & GB). induction fuel as [|f IH]; intros met p pos p' x Hok HX Hp E; [discriminate|].
  cbn [read_sections] in E. apply mrun_MB in E; [|exact Hb|exact Hp]. destruct E as ([o met'] & pos1 & F & Hp1 & E). remember (S f) as g. cbn [est_sections].
  destruct (skipn pos D) as [|b0 l0] eqn:Es; [rewrite (bfull_nonempty met (parse_section met)) in F; discriminate|]. rewrite <- Es in *. rewrite F. subst g.
  pose proof F as F0. apply parse_section_inv in F0; [|apply skipn_bytes; exact Hb]. destruct F0 as (tag & b & H1 & H2 & -> & Q1 & F0). cbn [fst snd] in E.
  assert (HS : (1 <= length (pi_samp p))%nat) by (pose proof Hok as ((_ & _ & _ & _ & HL & _) & _); lia).
  destruct o as [[t n]|].
  - destruct F0 as (-> & F0 & H3 & H4). rewrite skipn_length. destruct (known_tag tag) eqn:K.
    + destruct (admissible tag n (tag :: met)) eqn:Ad; [|discriminate]. cbn [Machine.mrun] in E.
      destruct (GB D pos1 tag (Z.to_nat n) met p Hb H2 K ltac:(rewrite Z2Nat.id by lia; exact Ad) Hok) as (I & L & I0). pose proof (section_view_length D pos1 (Z.to_nat n)) as SL.
      cbn [real_bodies bo_call bo_init bo_pos bo_img bo_state] in *.
      destruct (body_call B tag (Z.to_nat n) p (section_view D pos1 (Z.to_nat n)) _ (length D - pos1)) as [y c| |] eqn:Ec; try discriminate.
      pose proof (bl_pos _ _ _ _ _ _ _ L _ 0%nat (length D - pos1)%nat y c I0 ltac:(lia) Ec) as Hc.
      destruct (Nat.eqb_spec c (Z.to_nat n)) as [->|]; [|discriminate].
      pose proof (bl_out _ _ _ _ _ _ _ L _ 0%nat (length D - pos1)%nat _ _ I0 ltac:(lia) Ec) as Oky.
      destruct (Z.leb_spec n (Z.of_nat (length D - pos1))) as [_|]; [|lia]. cbn [negb].
      destruct (body_seen B tag (Z.to_nat n) p _ (length D - pos1) y _ x (section_view_bytes D pos1 (Z.to_nat n) Hb) ltac:(lia) ltac:(lia) HS HX Ec) as (Y1 & Y2 & Y3).
      rewrite view_firstn in Y3 by lia.
      assert (Next : forall x1, seen x1 y -> exists x', est_sections D (S f) (tag :: met) (length (pi_samp p)) x1 (pos1 + Z.to_nat n) = Some x' /\ seen x' p' /\ pi_samp p' = pi_samp p /\ pi_grid p' = pi_grid p).
      { intros x1 X1. destruct (Z.eqb_spec tag 8) as [->|Ht].
        - cbn [Machine.mrun] in E. apply rdone_inj in E as [<- Eq]. exists x1. cbn [est_sections]. rewrite Eq, skipn_all. split; [reflexivity|auto].
        - rewrite <- Y1, <- Y2. apply (IH (tag :: met) y); [exact Oky|exact X1|lia|exact E]. }
      destruct (Z.eqb_spec tag 6) as [->|N6].
      * assert (M4 : mem 4 (6 :: met) = true) by exact Ad. rewrite M4. destruct Y3 as (s & codes & r' & -> & Y3). cbv beta iota delta [obind]. cbn [fst]. apply Next, Y3.
      * apply Next, Y3.
    + apply mrun_MB in E; [|exact Hb|lia]. destruct E as ([] & pos2 & F2 & Hp2 & E). cbn [bfull] in F2.
      destruct (Z.leb_spec n (Z.of_nat (length (skipn pos1 D)))) as [Hn|]; [|discriminate]. apply some_inj in F2. injection F2 as <- F3. rewrite skipn_length in Hn.
      destruct (Z.leb_spec n (Z.of_nat (length D - pos1))) as [_|]; [|lia]. cbn [negb]. destruct (Z.eqb_spec tag 6) as [->|N6]; [discriminate|].
      apply (IH (tag :: met) p); [apply GU; assumption|exact HX|lia|exact E].
  - destruct F0 as (F1 & _). apply (IH (tag :: met) p); [apply GU; [unfold known_tag; lia|exact Hok]|exact HX|lia|exact E].
Qed.

Lemma est_parse_ok B D o : bytes D -> decode_once (decode_stream (real_bodies B)) D = (StOk, Some o) ->
  match o with
  | OImage p => exists x, est_parse D = Some (g_blocks (pi_grid p), x) /\ seen x p
  | OOriginal _ => est_parse D = Some ([], None)
  end.
Proof.
  intros Hb E. unfold decode_once, do_process in E.
  destruct (Machine.mrun D (decode_stream (real_bodies B)) 0 (length D)) as [x q| |[? ?]] eqn:Em; try discriminate.
  unfold finish in E. destruct (Nat.eqb_spec q (length D)) as [->|]; [|discriminate]. injection E as ->.
  unfold decode_stream in Em. cbn [Machine.mrun] in Em. destruct (Nat.leb_spec (0 + 6) (length D)) as [H6|]; [|discriminate].
  unfold est_parse. change (Stream.slice D 0 (0 + 6)) with (firstn 6 D) in Em. destruct (verify_signature (firstn 6 D)); try discriminate.
  change (0 + 6)%nat with 6%nat in *. apply (mrun_MB D decode_header _ 6 o (length D) Hb H6) in Em. destruct Em as (h & pos & F & Hp & Em).
  pose proof (bfull_ball0 header_valid D Hb decode_header 6 h pos _ H6 decode_header_ball F) as HV. rewrite F.
  destruct h as [|w h version legacy comps g].
  - apply mrun_MB in Em; [|exact Hb|lia]. destruct Em as (data & pos2 & G & Hp2 & Em). cbn [Machine.mrun] in Em. apply rdone_inj in Em as [<- ->]. rewrite G, skipn_all. reflexivity.
  - rewrite mrun_mmap in Em. destruct (Machine.mrun D (read_sections (real_bodies B) 16 [9; 2; 1] _) pos (length D)) as [img q| |[? ?]] eqn:Er; try discriminate.
    apply rdone_inj in Em as [<- ->]. cbn [real_bodies bo_start] in Er.
    destruct (est_sections_ok B D Hb 16 [9; 2; 1] _ pos img None (pic_start_ok _ _ _ _ _ _ HV) ltac:(reflexivity) ltac:(lia) Er) as (x' & Ex & S1 & S2 & S3).
    cbn [pic_start pi_samp pi_grid] in *. rewrite Ex. cbv beta iota delta [obind]. exists x'. rewrite S3. auto.
Qed.

(** The blocks of the image that is returned are those of the header. *)
Lemma pic_blocks met p j : pic_ok (8 :: met) p -> picture_jpeg p = Some j -> map (fun c => (c_wb c, c_hb c)) (j_comps j) = g_blocks (pi_grid p).
Proof.
  intros H Ej. pose proof H as (HH & HI & HQ & HS & HD & HA & HM).
  destruct (pi_ac p) as [planes|] eqn:Ea; [|rewrite mem_cons in HA; discriminate]. destruct HA as (_ & _ & ms & Em & FP).
  destruct (pi_quant p) as [[ts idx]|] eqn:Eq; [|unfold metas_of in Em; rewrite Eq in Em; discriminate].
  destruct (pi_hist p) as [h|] eqn:Eh; [|unfold metas_of in Em; rewrite Eq, Eh in Em; discriminate].
  destruct (pic_metas _ p ts idx h H Eq Eh) as (ms' & Em' & Lm & _ & _ & FB & _ & _). rewrite Em in Em'. apply some_inj in Em'. subst ms'.
  destruct HQ as (_ & (x & inter & Ei & FQ) & Li & FX). rewrite Ei in HI. destruct HI as (_ & JG & Linter). cbn [fst snd] in JG, Linter.
  destruct JG as (I1 & I2 & I3 & I4 & I5 & I6 & I7 & I8 & I9 & I10 & I11 & I12 & I13 & I14 & I15).
  pose proof HH as HV. cbn [header_valid] in HV. destruct HV as (V1 & V2 & V3 & V4 & V5 & V6 & V7).
  assert (GB : length (g_blocks (pi_grid p)) = length (pi_samp p)) by (apply F2_length in FB; lia).
  assert (GP : Forall (fun b => 0 <= fst b /\ 0 <= snd b) (g_blocks (pi_grid p))).
  { destruct V7 as (_ & _ & _ & _ & _ & _ & V). eapply Forall_impl; [|exact V]. cbv beta. intros. lia. }
  assert (F2 : Forall2 (fun b (p : plane) => Z.of_nat (length p) = fst b * snd b /\
    Forall (fun b => length b = 64%nat /\ -32768 <= nth 0 b 0 <= 32767 /\ forall v, In v (tl b) -> Z.abs v <= 2054) p) (g_blocks (pi_grid p)) planes).
  { pose proof (Forall2_zip _ _ _ _ _ FB FP) as Z. clear - Z GP. induction Z as [|b pl bs pls (m & (A1 & A2) & A3 & A4) Z IH]; constructor.
    - pose proof (Forall_inv GP) as P. cbv beta in P. split; [|exact A4]. rewrite A3, A1, A2, Nat2Z.inj_mul, !Z2Nat.id by lia. reflexivity.
    - apply IH. exact (Forall_inv_tail GP). }
  destruct (make_comps_spec (length ts) (in_ids x) (pi_samp p) (g_blocks (pi_grid p)) idx planes ltac:(lia) GB Li I11 FX F2) as (C1 & C2 & C3 & C4).
  unfold picture_jpeg in Ej. rewrite Ei, Eq, Ea in Ej. injection Ej as <-. cbn [j_comps]. exact C3.
Qed.

(** * Prefixes *)
Lemma bfull_app {A} : forall (p : bprog A) pos l m x q r, bfull p pos l = Some (x, q, r) -> bfull p pos (l ++ m) = Some (x, q, r ++ m).
Proof.
  induction p as [a| |k IH|k IH|acc n k IH|k IH]; intros pos l m x q r E; cbn [bfull] in *.
  - injection E as <- <- <-. reflexivity.
  - discriminate.
  - destruct l as [|b l]; [discriminate|]. cbn [Datatypes.app]. apply IH, E.
  - rewrite decode_base128_more. destruct (decode_base128 l) as [v rest| |] eqn:Ed; try discriminate.
    apply (IH v _ _ m) in E. rewrite !app_length. replace (length l + length m - (length rest + length m))%nat with (length l - length rest)%nat by lia. exact E.
  - rewrite app_length. destruct (Z.leb_spec n (Z.of_nat (length l))) as [H|]; [|discriminate]. destruct (Z.leb_spec n (Z.of_nat (length l + length m))); [|lia].
    rewrite firstn_app, skipn_app. replace (Z.to_nat n - length l)%nat with 0%nat by lia. cbn [firstn skipn]. rewrite app_nil_r. apply IH, E.
  - apply IH, E.
Qed.

Lemma skipn_app_le {A} (a b : list A) n : (n <= length a)%nat -> skipn n (a ++ b) = skipn n a ++ b.
Proof. intros H. rewrite skipn_app. replace (n - length a)%nat with 0%nat by lia. reflexivity. Qed.

Lemma est_sections_prefix B D1 D2 : bytes (D1 ++ D2) -> D2 <> [] -> forall fuel met p pos p' x nc g, pic_ok met p -> mem 8 met = false -> (pos <= length D1)%nat ->
  Machine.mrun (D1 ++ D2) (read_sections (real_bodies B) fuel met p) pos (length (D1 ++ D2)) = RDone p' (length (D1 ++ D2)) ->
  est_sections D1 g met nc x pos = None.
Proof.
  intros Hb HN. set (D := D1 ++ D2) in *. assert (LD : (length D1 < length D)%nat) by (unfold D; rewrite app_length; destruct D2; [contradiction|cbn [length]; lia]).
  destruct (real_bodies_laws B) as (_ & GU & GB). induction fuel as [|f IH]; intros met p pos p' x nc g Hok M8 Hp E; [discriminate|].
  destruct g as [|g]; [reflexivity|]. cbn [est_sections]. destruct (skipn pos D1) as [|b0 l0] eqn:Es; [rewrite M8; reflexivity|]. rewrite <- Es.
  destruct (bfull (parse_section met) pos (skipn pos D1)) as [[[[o met'] pos1] r]|] eqn:F1; [|reflexivity].
  pose proof (bfull_app _ _ _ D2 _ _ _ F1) as F2. rewrite <- skipn_app_le in F2 by exact Hp. fold D in F2.
  cbn [read_sections] in E. apply mrun_MB in E; [|exact Hb|lia]. destruct E as ([o' met''] & pos1' & F & Hp1 & E). rewrite F2 in F. injection F as <- <- <- FR. rename FR into F.
  assert (B1 : bytes D1) by (apply bytes_app in Hb; apply Hb).
  pose proof (brun_bfull D1 B1 (parse_section met) pos _ eq_refl Hp) as Br. rewrite F1 in Br. destruct Br as (_ & Rr & Rp). subst r.
  pose proof F1 as F0. apply parse_section_inv in F0; [|apply skipn_bytes; exact B1]. destruct F0 as (tag & b & H1 & H2 & -> & Q1 & F0). cbn [fst snd] in E.
  assert (M8' : tag <> 8 -> mem 8 (tag :: met) = false). { intros T. rewrite mem_cons, M8. destruct (Z.eqb_spec 8 tag); [congruence|reflexivity]. }
  destruct o as [[t n]|].
  - destruct F0 as (-> & F0 & H3 & H4). rewrite skipn_length. destruct (Z.leb_spec n (Z.of_nat (length D1 - pos1))) as [Hn|]; [|reflexivity]. cbn [negb]. destruct (known_tag tag) eqn:K.
    + destruct (admissible tag n (tag :: met)) eqn:Ad; [|discriminate]. cbn [Machine.mrun] in E.
      destruct (GB D pos1 tag (Z.to_nat n) met p Hb H2 K ltac:(rewrite Z2Nat.id by lia; exact Ad) Hok) as (I & L & I0). pose proof (section_view_length D pos1 (Z.to_nat n)) as SL.
      cbn [real_bodies bo_call bo_init bo_pos bo_img bo_state] in *.
      destruct (body_call B tag (Z.to_nat n) p (section_view D pos1 (Z.to_nat n)) _ (length D - pos1)) as [y c| |] eqn:Ec; try discriminate.
      destruct (Nat.eqb_spec c (Z.to_nat n)) as [->|]; [|discriminate].
      pose proof (bl_out _ _ _ _ _ _ _ L _ 0%nat (length D - pos1)%nat _ _ I0 ltac:(lia) Ec) as Oky.
      destruct (Z.eqb_spec tag 8) as [->|Ht]; [cbn [Machine.mrun] in E; apply rdone_inj in E as [_ Eq]; lia|].
      assert (Next : forall x1, est_sections D1 g (tag :: met) nc x1 (pos1 + Z.to_nat n) = None) by (intros x1; apply (IH (tag :: met) y _ p'); [exact Oky|apply M8', Ht|lia|exact E]).
      destruct (Z.eqb_spec tag 6) as [->|N6]; [|apply Next]. destruct (mem 4 (6 :: met)); [|reflexivity]. destruct (arun false _ _) as [rr|]; [|reflexivity]. cbv beta iota delta [obind]. apply Next.
    + apply mrun_MB in E; [|exact Hb|lia]. destruct E as ([] & pos2 & F3 & Hp2 & E). cbn [bfull] in F3.
      destruct (Z.leb_spec n (Z.of_nat (length (skipn pos1 D)))) as [_|]; [|discriminate]. apply some_inj in F3. injection F3 as <- F3.
      destruct (Z.eqb_spec tag 6) as [->|N6]; [discriminate|]. apply (IH (tag :: met) p _ p'); [apply GU; assumption|apply M8'; intros ->; discriminate|lia|exact E].
  - destruct F0 as (F3 & _). apply (IH (tag :: met) p _ p'); [apply GU; [unfold known_tag; lia|exact Hok]|apply M8'; lia|lia|exact E].
Qed.

Lemma est_parse_prefix B D1 D2 o : bytes (D1 ++ D2) -> D2 <> [] -> decode_once (decode_stream (real_bodies B)) (D1 ++ D2) = (StOk, Some o) -> est_parse D1 = None.
Proof.
  intros Hb HN E. assert (B1 : bytes D1) by (apply bytes_app in Hb; apply Hb). unfold decode_once, do_process in E. set (D := D1 ++ D2) in *.
  destruct (Machine.mrun D (decode_stream (real_bodies B)) 0 (length D)) as [x q| |[? ?]] eqn:Em; try discriminate.
  unfold finish in E. destruct (Nat.eqb_spec q (length D)) as [->|]; [|discriminate]. injection E as ->.
  unfold decode_stream in Em. cbn [Machine.mrun] in Em. destruct (Nat.leb_spec (0 + 6) (length D)) as [H6|]; [|discriminate].
  unfold est_parse. destruct (verify_signature (firstn 6 D1)) eqn:Vs; try reflexivity.
  assert (L6 : (6 <= length D1)%nat). { unfold verify_signature in Vs. destruct (Nat.ltb_spec (length (firstn 6 D1)) 6) as [|L]; [discriminate|]. rewrite firstn_length in L. lia. }
  change (Stream.slice D 0 (0 + 6)) with (firstn 6 D) in Em. destruct (verify_signature (firstn 6 D)); try discriminate.
  change (0 + 6)%nat with 6%nat in *. apply (mrun_MB D decode_header _ 6 o (length D) Hb H6) in Em. destruct Em as (h & pos & F & Hp & Em).
  pose proof (bfull_ball0 header_valid D Hb decode_header 6 h pos _ H6 decode_header_ball F) as HV.
  destruct (bfull decode_header 6 (skipn 6 D1)) as [[[h1 pos1] r1]|] eqn:F1; [|reflexivity].
  pose proof (bfull_app _ _ _ D2 _ _ _ F1) as F2. rewrite <- skipn_app_le in F2 by exact L6. fold D in F2. rewrite F in F2. injection F2 as <- <- F2.
  pose proof (brun_bfull D1 B1 decode_header 6 _ eq_refl L6) as Br. rewrite F1 in Br. destruct Br as (_ & Rr & Rp).
  destruct h as [|w h version legacy comps g].
  - apply mrun_MB in Em; [|exact Hb|lia]. destruct Em as (data & pos2 & G & Hp2 & Em). cbn [Machine.mrun] in Em. apply rdone_inj in Em as [<- ->].
    destruct (bfull decode_original pos r1) as [[[d1 q1] r]|] eqn:G1; [|reflexivity]. destruct r; [|reflexivity]. exfalso.
    pose proof (bfull_app _ _ _ D2 _ _ _ G1) as G2. rewrite F2 in G. rewrite G in G2. injection G2 as _ _ G2. rewrite skipn_all in G2. cbn [Datatypes.app] in G2. congruence.
  - rewrite mrun_mmap in Em. destruct (Machine.mrun D (read_sections (real_bodies B) 16 [9; 2; 1] _) pos (length D)) as [img q| |[? ?]] eqn:Er; try discriminate.
    apply rdone_inj in Em as [<- ->]. cbn [real_bodies bo_start] in Er.
    rewrite (est_sections_prefix B D1 D2 Hb HN 16 [9; 2; 1] _ pos img None (length comps) 17 (pic_start_ok _ _ _ _ _ _ HV) ltac:(reflexivity) ltac:(lia) Er). reflexivity.
Qed.

(** * No overflow *)
Lemma est_sections_hist D : forall g met nc x pos x', (forall s n, x = Some (s, n) -> schemes_ok nc s /\ 1 <= n <= 256) -> est_sections D g met nc x pos = Some x' ->
  forall s n, x' = Some (s, n) -> schemes_ok nc s /\ 1 <= n <= 256.
Proof.
  induction g as [|g IH]; intros met nc x pos x' Hx E; cbn [est_sections] in E; [discriminate|].
  destruct (skipn pos D) as [|b l]; [destruct (mem 8 met); [|discriminate]; injection E as <-; exact Hx|].
  destruct (bfull _ _ _) as [[[[[[tag n]|] met'] pos'] rest]|]; [|eapply IH; eassumption|discriminate].
  destruct (negb _); [discriminate|]. destruct (tag =? 6); [|eapply IH; eassumption]. destruct (mem 4 met'); [|discriminate].
  destruct (arun false (shallow_section nc) _) as [[[s0 n0] r]|] eqn:A; [|discriminate]. cbv beta iota delta [obind] in E. cbn [fst] in E. eapply IH; [|exact E].
  intros s k Es. injection Es as <- <-. unfold shallow_section in A. cbn [arun andb] in A. rewrite arun_bind in A. destruct (arun false (read_schemes nc) _) as [[s1 l1]|] eqn:A1; [|discriminate].
  cbn [arun andb] in A. rewrite arun_bind in A. destruct (arun false decode_var_len_uint8 l1) as [[v l2]|] eqn:A2; [|discriminate]. cbn [arun] in A. injection A as <- <- _.
  pose proof (arun_pall _ _ _ _ _ _ (pub_pall _ _ _ (read_schemes_pub nc)) A1) as P1. pose proof (arun_pall _ _ _ _ _ _ (proj2 decode_var_len_uint8_total) A2) as P2. cbv beta in P2. split; [exact P1|lia].
Qed.
