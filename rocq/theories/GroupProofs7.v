(** DecodeGroups on any bytes: its tasks commute, stay within their arrays, and leave a well-formed image. *)
From Verif Require Import Base JpegModel CodesModel CodesProofs HeaderModel HeaderProofs BitProofs Stream EntropyModel CoefModel CoefProofs DCProofs PropsCoef HSecModel MetaModel InternalsModel InternalsProofs QuantModel
  Machine ContainerModel DriverModel GrammarProofs Decoder DecoderProofs1 DecoderProofs2 ProgressModel ProgressProofs1 JpegSpec GroupModel GroupProofs1 GroupProofs2 GroupProofs3 GroupProofs5.
From Coq Require Import Permutation.




(** * Tasks that commute *)
Ltac ob := cbv beta iota delta [obind fst snd].
Ltac ob2 := cbv beta iota delta [obind]; cbn [fst snd].

Lemma run_tasks_perm {S} (task : nat -> S -> option (unit * S)) :
  (forall i k s s1 s2, i <> k -> task i s = Some (tt, s1) -> task k s1 = Some (tt, s2) -> exists s1', task k s = Some (tt, s1') /\ task i s1' = Some (tt, s2)) ->
  forall o1 o2, Permutation o1 o2 -> NoDup o1 -> forall s rs t, run_tasks task o1 s = Some (rs, t) -> exists rs', run_tasks task o2 s = Some (rs', t).
Proof.
  intros C o1 o2 P. induction P as [|i a b P IH|i k a|a b c P1 IH1 P2 IH2]; intros ND s rs t E.
  - eauto.
  - cbn [run_tasks] in *. apply obind_some in E. destruct E as ([[] s1] & E1 & E). apply obind_some in E. destruct E as ([r1 t1] & E2 & E). injection E as <- <-. cbn [fst snd] in *.
    apply NoDup_cons_iff in ND. destruct (IH (proj2 ND) _ _ _ E2) as (rs' & E3). rewrite E1. ob.  rewrite E3. ob. eauto.
  - cbn [run_tasks] in *. apply obind_some in E. destruct E as ([[] s1] & E1 & E). apply obind_some in E. destruct E as ([r1 t1] & E2 & E). apply obind_some in E2. destruct E2 as ([[] s2] & E2 & E3).
    apply obind_some in E3. destruct E3 as ([r2 t2] & E3 & E4). injection E4 as <- <-. injection E as <- <-. cbn [fst snd] in *.
    apply NoDup_cons_iff in ND. destruct ND as [N _]. cbn [In] in N.
    destruct (C k i s s1 s2 ltac:(intros Q; apply N; left; symmetry; exact Q) E1 E2) as (s1' & F1 & F2). rewrite F1. ob. rewrite F2. ob. rewrite E3. ob. eauto.
  - destruct (IH1 ND _ _ _ E) as (rs' & E'). apply (IH2 (Permutation_NoDup P1 ND) _ _ _ E').
Qed.

(** * Arrays *)
Definition apart (a b : list nat) : Prop := forall x, In x a -> ~ In x b.
Lemma scatter_inv {A} : forall cs (p : list A) vs q, scatter p cs vs = Some q -> length vs = length cs /\ forall c, In c cs -> (c < length p)%nat.
Proof.
  induction cs as [|c cs IH]; intros p [|v vs] q E; cbn [scatter] in E; try discriminate; [split; [reflexivity|intros c []]|].
  destruct (Nat.ltb_spec c (length p)); [|discriminate]. destruct (IH _ _ _ E) as [L H1]. cbn [length]. split; [lia|]. intros d [<-|Hd]; [assumption|]. specialize (H1 d Hd). rewrite upd_length in H1. exact H1.
Qed.
Lemma scatter_at {A} : forall cs (p p' : list A) vs q q', scatter p cs vs = Some q -> scatter p' cs vs = Some q' -> forall d, In d cs -> nth_error q d = nth_error q' d.
Proof.
  induction cs as [|c cs IH]; intros p p' [|v vs] q q' E E' d Hd; cbn [scatter] in E, E'; try discriminate; [destruct Hd|].
  destruct (Nat.ltb_spec c (length p)); [|discriminate]. destruct (Nat.ltb_spec c (length p')); [|discriminate].
  destruct (in_dec Nat.eq_dec d cs) as [I|I]; [exact (IH _ _ _ _ _ E E' d I)|]. destruct Hd as [->|Hd]; [|contradiction].
  rewrite (scatter_other _ _ _ _ E d I), (scatter_other _ _ _ _ E' d I). rewrite !nth_error_upd_same by assumption. reflexivity.
Qed.
Lemma scatter_swap {A} (p : list A) c1 v1 c2 v2 q1 r : scatter p c1 v1 = Some q1 -> scatter q1 c2 v2 = Some r -> apart c1 c2 ->
  exists q2, scatter p c2 v2 = Some q2 /\ scatter q2 c1 v1 = Some r.
Proof.
  intros E1 E2 D. destruct (scatter_inv _ _ _ _ E1) as [L1 H1]. destruct (scatter_inv _ _ _ _ E2) as [L2 H2]. pose proof (scatter_length _ _ _ _ E1) as Q1. pose proof (scatter_length _ _ _ _ E2) as Q2.
  destruct (scatter_total c2 p v2 L2) as [q2 F1]; [intros c Hc; rewrite <- Q1; auto|]. pose proof (scatter_length _ _ _ _ F1) as Q3.
  destruct (scatter_total c1 q2 v1 L1) as [r' F2]; [intros c Hc; rewrite Q3; auto|]. exists q2. split; [exact F1|]. rewrite F2. f_equal.
  apply nth_error_ext. intros d. destruct (in_dec Nat.eq_dec d c1) as [I1|I1].
  - rewrite (scatter_other _ _ _ _ E2 d (D d I1)). exact (scatter_at _ _ _ _ _ _ F2 E1 d I1).
  - rewrite (scatter_other _ _ _ _ F2 d I1). destruct (in_dec Nat.eq_dec d c2) as [I2|I2]; [exact (scatter_at _ _ _ _ _ _ F1 E2 d I2)|].
    rewrite (scatter_other _ _ _ _ F1 d I2), (scatter_other _ _ _ _ E2 d I2), (scatter_other _ _ _ _ E1 d I1). reflexivity.
Qed.
Lemma scatter_all_swap {A} : forall (p : list (list A)) c1 v1 c2 v2 q1 r, scatter_all p c1 v1 = Some q1 -> scatter_all q1 c2 v2 = Some r -> Forall2 apart c1 c2 ->
  exists q2, scatter_all p c2 v2 = Some q2 /\ scatter_all q2 c1 v1 = Some r.
Proof.
  induction p as [|a p IH]; intros [|c c1] [|v v1] c2' v2' q1 r E1 E2 D; cbn [scatter_all] in E1; try discriminate.
  - injection E1 as <-. inversion D; subst. exists []. destruct v2'; cbn [scatter_all] in *; [|discriminate]. auto.
  - apply obind_some in E1. destruct E1 as (qa & Ea & E1). apply obind_some in E1. destruct E1 as (qt & Et & E1). injection E1 as <-.
    inversion D as [|? d ? c2 D1 D2]; subst. destruct v2' as [|w v2]; cbn [scatter_all] in E2; [discriminate|].
    apply obind_some in E2. destruct E2 as (ra & Era & E2). apply obind_some in E2. destruct E2 as (rt & Ert & E2). injection E2 as <-.
    destruct (scatter_swap _ _ _ _ _ _ _ Ea Era D1) as (x & X1 & X2). destruct (IH _ _ _ _ _ _ Et Ert D2) as (y & Y1 & Y2).
    exists (x :: y). cbn [scatter_all]. rewrite X1, Y1. ob. rewrite X2. ob. rewrite Y2. auto.
Qed.
Lemma gather_all_scatter {A} : forall (p : list (list A)) c1 v1 c2 q, scatter_all p c1 v1 = Some q -> Forall2 apart c1 c2 -> gather_all q c2 = gather_all p c2.
Proof.
  induction p as [|a p IH]; intros [|c c1] [|v v1] c2' q E D; cbn [scatter_all] in E; try discriminate.
  - injection E as <-. reflexivity.
  - apply obind_some in E. destruct E as (qa & Ea & E). apply obind_some in E. destruct E as (qt & Et & E). injection E as <-. inversion D as [|? d ? c2 D1 D2]; subst.
    unfold gather_all in *. cbn [omap2]. rewrite (IH _ _ _ _ Et D2). rewrite (gather_ext qa a d); [reflexivity|]. intros x Hx. apply (scatter_other _ _ _ _ Ea). intros H. exact (D1 x H Hx).
Qed.

Lemma skip_sections_length : forall n l ss r, skip_sections n l = Some (ss, r) -> length ss = n.
Proof.
  induction n as [|n IH]; intros l ss r E; cbn [skip_sections] in E; [injection E as <- _; reflexivity|]. apply obind_some in E. destruct E as ([s l'] & _ & E).
  apply obind_some in E. destruct E as ([t u] & E & F). injection F as <- _. cbn [length fst]. f_equal. exact (IH _ _ _ E).
Qed.

(** * The common part *)
Lemma x_body_pic B D avail : bytes D -> (avail <= length D)%nat -> forall next f met img tag n start,
  (forall met' img' pos, pic_ok met' img' -> match next met' img' pos with RMore (XTag _ m p _) => pic_ok m p | _ => True end) ->
  0 <= n -> mem tag met = false -> known_tag tag = true -> admissible tag n (tag :: met) = true -> pic_ok met img ->
  match x_body B D next f (tag :: met) img tag (Z.to_nat n) start (x_init B tag (Z.to_nat n) img) avail with RMore (XTag _ m p _) => pic_ok m p | _ => True end.
Proof.
  intros Hb Ha next f met img tag n start Hn N0 M K A P. destruct (real_bodies_laws B) as (_ & _ & GB).
  destruct (GB D start tag (Z.to_nat n) met img Hb M K ltac:(rewrite Z2Nat.id by lia; exact A) P) as (I & BL & I0).
  unfold x_body. pose proof (x_call_ok B tag (Z.to_nat n) img (section_view D start (Z.to_nat n)) (x_init B tag (Z.to_nat n) img) (avail - start)) as X. rewrite body_of_init in X.
  destruct (x_call B tag (Z.to_nat n) img _ _ _) as [img' q| |s']; [|exact Logic.I|exact Logic.I]. cbn [lift_res] in X.
  destruct (q =? Z.to_nat n)%nat; [|exact Logic.I]. destruct (tag =? 8); [exact Logic.I|]. apply Hn.
  cbn [real_bodies bo_call bo_init bo_img] in BL, I0. refine (bl_out _ _ _ _ _ _ _ BL _ 0%nat (avail - start)%nat img' q I0 _ X). rewrite <- section_view_length. lia.
Qed.

Lemma x_sections_pic B D avail : bytes D -> (avail <= length D)%nat -> forall f met img pos, pic_ok met img ->
  match x_sections B D f avail met img pos with RMore (XTag _ m p _) => pic_ok m p | _ => True end.
Proof.
  intros Hb Ha. destruct (real_bodies_laws B) as (_ & GU & _). induction f as [|f IH]; intros met img pos P; cbn [x_sections]; [exact Logic.I|].
  destruct (pos <? avail)%nat; [|exact P]. cbv zeta. set (tag := Z.shiftr (nth pos D 0) 3). destruct (_ || _); [exact Logic.I|]. destruct (negb _); [exact Logic.I|].
  destruct (mem tag met) eqn:M; [exact Logic.I|]. destruct (_ && known_tag tag) eqn:W; [exact Logic.I|]. unfold x_len.
  destruct (decode_base128 (slice D (S pos) avail)) as [n rest| |] eqn:E; [|exact Logic.I|exact Logic.I].
  destruct (decode_base128_ok _ _ _ (slice_bytes D (S pos) avail Hb) E) as ((N0 & _) & _).
  destruct (known_tag tag) eqn:K.
  - destruct (_ =? 2); [|discriminate]. destruct (admissible tag n (tag :: met)) eqn:A; [|exact Logic.I].
    apply (x_body_pic B D avail Hb Ha); try assumption.
  - assert (P' : pic_ok (tag :: met) img) by (apply (GU tag met img K P)).
    destruct (_ =? 2); [|apply IH, P']. unfold x_skip. cbv zeta. destruct (_ <=? 0); [apply IH, P'|exact Logic.I].
Qed.

Lemma x_run_pic B D f met p pos : bytes D -> x_run B D (XSig 0) (length D) = RMore (XTag f met p pos) -> pic_ok met p.
Proof.
  intros Hb E. unfold x_run in E. destruct (Nat.leb_spec (0 + 6) (length D)) as [H6|]; [|discriminate]. destruct (verify_signature _); try discriminate. unfold x_head in E.
  pose proof (brun_ball0 header_valid D None (length D) Hb (le_n _) decode_header (0 + 6) H6 decode_header_ball) as HV.
  destruct (brun D None decode_header (0 + 6) (length D)) as [[|w h version legacy comps g] q| |[? ?]]; try discriminate.
  - unfold x_orig in E. destruct (brun D None decode_original q (length D)) as [? ?| |[? ?]]; discriminate.
  - pose proof (x_sections_pic B D (length D) Hb (le_n _) 16 [9; 2; 1] _ q (pic_start_ok _ _ _ _ _ _ HV)) as X. rewrite E in X. exact X.
Qed.

Lemma set_dc_any met p planes flags ms : pic_ok met p -> metas_of p = Some ms -> dc_planes_ok ms planes flags -> pic_ok (7 :: met) (set_dc p (planes, flags)).
Proof.
  intros (H1 & H2 & H3 & H4 & H5 & H6 & H7) Em G. unfold pic_ok. rewrite !mem_cons. change (4 =? 7) with false. change (5 =? 7) with false. change (6 =? 7) with false.
  change (7 =? 7) with true. change (8 =? 7) with false. cbn [orb]. picf. split; [exact H1|]. split; [exact H2|]. split; [exact H3|]. split; [exact H4|]. split.
  - split; [reflexivity|]. exists ms. split; [exact Em|exact G].
  - split; [|exact H7]. destruct (pi_ac p) as [pl|]; [|exact H6]. destruct H6 as (A & _ & C). split; [exact A|]. split; [discriminate|exact C].
Qed.

(** What the tasks rely on. *)
Definition psamp (p : picture) : list (nat * nat) := map (fun s => (Z.to_nat (fst s), Z.to_nat (snd s))) (pi_samp p).
Record ready (p : picture) (ms : list cmeta) (cmap : list Z) (codes : list (list Z)) (ac dc : nat) : Prop := {
  rd_metas : metas_of p = Some ms;
  rd_comp : Forall2 (comp_ok (layout_of (pi_grid p))) (psamp p) ms;
  rd_pos : samp_pos (psamp p);
  rd_lay : context_layout (Z.of_nat (length ms)) ms;
  rd_tab : tables_ok cmap codes (9 * num_contexts ms);
  rd_ac : fits (layout_of (pi_grid p)) ac;
  rd_dc : fits (layout_of (pi_grid p)) dc }.

Lemma pic_ready met p ms schemes cmap codes ac dc : pic_ok met p -> metas_of p = Some ms -> pi_hist p = Some (schemes, cmap, codes) ->
  dims_ok ac dc = true -> sampling_fits (layout_of (pi_grid p)) ac = true -> ready p ms cmap codes ac dc.
Proof.
  intros P Em Eh Hd Hs. destruct (pi_quant p) as [[ts idx]|] eqn:Eq; [|unfold metas_of in Em; rewrite Eq in Em; discriminate].
  destruct (pic_metas met p ts idx _ P Eq Eh) as (ms' & Em' & Lm & CL & _ & FB & T & _). rewrite Em in Em'. apply some_inj in Em'. subst ms'. cbn [fst snd] in T.
  pose proof P as (HH & _ & HQ & HS & _). rewrite Eq in HQ. rewrite Eh in HS. destruct HQ as (_ & _ & Li & Fi). destruct HS as (_ & HS).
  destruct HH as (Hw & Hh & _ & _ & Hl & HSa & Hg). destruct (grid_pos (pi_w p) (pi_h p) (pi_samp p) (pi_grid p) ltac:(lia) ltac:(lia) HSa ltac:(lia) Hg) as [GC GR].
  pose proof Hg as (G1 & G2 & G3 & (c1 & I1 & X1) & (c2 & I2 & X2) & Gb & _).
  assert (MX : 1 <= g_max_h (pi_grid p) /\ 1 <= g_max_v (pi_grid p)).
  { rewrite Forall_forall in HSa. pose proof (HSa _ I1) as Q1. pose proof (HSa _ I2) as Q2. unfold samp_ok in Q1, Q2. lia. }
  assert (SV : Forall2 (fun m s => cm_vs m = Z.to_nat (snd s)) ms (pi_samp p)).
  { destruct HS as ([S1 S2] & _). unfold metas_of in Em. rewrite Eq, Eh in Em.
    destruct (metas_from_spec ts (pi_samp p) (g_blocks (pi_grid p)) schemes idx (Z.of_nat (length (pi_samp p))) ltac:(rewrite Gb, map_length; reflexivity) S1 Li S2 Fi) as (ms' & E & _ & _ & _ & _ & A & _).
    rewrite Em in E. apply some_inj in E. subst ms'. exact A. }
  assert (SP : samp_pos (psamp p)).
  { unfold samp_pos, psamp. rewrite Forall_map. eapply Forall_impl; [|exact HSa]. unfold samp_ok. cbn [fst snd]. intros s Q. lia. }
  unfold dims_ok in Hd. repeat (apply andb_true_iff in Hd; destruct Hd as [Hd ?Hd]).
  destruct (Nat.eqb_spec ac 0); [discriminate|]. destruct (Nat.eqb_spec dc 0); [discriminate|].
  unfold sampling_fits in Hs. apply andb_true_iff in Hs. destruct Hs as [S1 S2]. apply Nat.eqb_eq in S1, S2. apply Nat.eqb_eq in Hd0.
  assert (FI : forall d, (1 <= d)%nat -> (d mod ly_max_h (layout_of (pi_grid p)) = 0)%nat -> (d mod ly_max_v (layout_of (pi_grid p)) = 0)%nat -> fits (layout_of (pi_grid p)) d).
  { clear - MX GC GR. intros d Q1 Q2 Q3. unfold layout_of in *. cbn [ly_max_h ly_max_v] in *. constructor; cbn [ly_max_h ly_max_v ly_cols ly_rows]; try assumption; lia. }
  assert (Fac : fits (layout_of (pi_grid p)) ac) by (apply FI; [lia|assumption|assumption]).
  constructor; try assumption.
  - unfold psamp. rewrite Gb in FB. clear - FB SV HSa GC GR. unfold comp_ok, layout_of. cbn [ly_cols ly_rows]. revert ms FB SV.
    induction HSa as [|s samp Hs F IH]; intros ms FB SV; inversion SV as [|m ? ms' ? V1 V2]; subst; [constructor|]. cbn [map] in *. inversion FB as [|? ? ? ? [B1 B2] B3]; subst.
    constructor; [|apply IH; assumption]. unfold samp_ok in Hs. cbn [fst snd] in *. rewrite B1, B2, V1, !Z2Nat.inj_mul by lia. lia.
  - apply FI; [lia| |]; apply (mod_mod_zero dc ac); try assumption; try lia; apply Fac.
Qed.

(** * The tasks *)
Section Tasks.
  Context (p : picture) (ms : list cmeta) (cmap : list Z) (codes : list (list Z)) (ac dc : nat) (R : ready p ms cmap codes ac dc).
  Notation L := (layout_of (pi_grid p)).
  Notation samp := (psamp p).

  Lemma cells_apart dim i k : fits L dim -> (i < groups L dim)%nat -> (k < groups L dim)%nat -> i <> k -> Forall2 apart (gcells L dim samp i) (gcells L dim samp k).
  Proof.
    intros F Hi Hk N. unfold gcells. pose proof (rd_pos _ _ _ _ _ _ R) as SP. induction SP as [|s l Hs SP IH]; cbn [map]; constructor; [|exact IH].
    intros x X Y. apply N. apply (pa_one _ _ _ (windows_partition L dim F s Hs) i k x Hi Hk X Y).
  Qed.

  (** Every window lies in its component: the numbers of its blocks are below the number of blocks. *)
  Lemma parts_in dim idx : fits L dim -> (idx < groups L dim)%nat -> exists g, group_parts L dim samp ms idx = Some g /\ map snd g = gcells L dim samp idx /\ Forall2 same_coding ms (map fst g) /\ metas_ok (map fst g) /\
    Forall2 (fun s m => length (cells_of L dim s idx) = (cm_w m * cm_h m)%nat) samp (map fst g).
  Proof. intros F Hi. apply group_parts_ok; [exact F|exact (rd_comp _ _ _ _ _ _ R)|exact Hi]. Qed.

  Lemma dc_commute chunks : length chunks = groups L dc -> forall i k s s1 s2, i <> k ->
    dec_dc_task L dc samp ms cmap codes chunks i s = Some (tt, s1) -> dec_dc_task L dc samp ms cmap codes chunks k s1 = Some (tt, s2) ->
    exists s1', dec_dc_task L dc samp ms cmap codes chunks k s = Some (tt, s1') /\ dec_dc_task L dc samp ms cmap codes chunks i s1' = Some (tt, s2).
  Proof.
    intros Lc i k s s1 s2 N E1 E2. unfold dec_dc_task in *.
    apply obind_some in E1. destruct E1 as (g1 & G1 & E1). apply obind_some in E1. destruct E1 as (c1 & C1 & E1). apply obind_some in E1. destruct E1 as (y1 & Y1 & E1).
    apply obind_some in E1. destruct E1 as (r1 & R1 & E1). apply obind_some in E1. destruct E1 as (pl1 & P1 & E1). apply obind_some in E1. destruct E1 as (fl1 & F1 & E1). injection E1 as <-. cbn [fst snd] in *.
    apply obind_some in E2. destruct E2 as (g2 & G2 & E2). apply obind_some in E2. destruct E2 as (c2 & C2 & E2). apply obind_some in E2. destruct E2 as (y2 & Y2 & E2).
    apply obind_some in E2. destruct E2 as (r2 & R2 & E2). apply obind_some in E2. destruct E2 as (pl2 & P2 & E2). apply obind_some in E2. destruct E2 as (fl2 & F2 & E2). injection E2 as <-.
    assert (Hi : (i < groups L dc)%nat) by (rewrite <- Lc; apply (nth_error_lt _ _ _ C1)). assert (Hk : (k < groups L dc)%nat) by (rewrite <- Lc; apply (nth_error_lt _ _ _ C2)).
    pose proof (rd_dc _ _ _ _ _ _ R) as F. destruct (parts_in dc i F Hi) as (g1' & G1' & M1 & _). rewrite G1 in G1'. apply some_inj in G1'. subst g1'.
    destruct (parts_in dc k F Hk) as (g2' & G2' & M2 & _). rewrite G2 in G2'. apply some_inj in G2'. subst g2'. pose proof (cells_apart dc i k F Hi Hk N) as AP. rewrite <- M1, <- M2 in AP.
    destruct (scatter_all_swap _ _ _ _ _ _ _ P1 P2 AP) as (pq & Q1 & Q2). destruct (scatter_all_swap _ _ _ _ _ _ _ F1 F2 AP) as (fq & Q3 & Q4).
    exists (pq, fq). rewrite G2, C2. ob2. rewrite Y2. ob2. rewrite R2. ob2. rewrite Q1. ob2. rewrite Q3. split; [reflexivity|].
    rewrite G1, C1. ob2. rewrite Y1. ob2. rewrite R1. ob2. rewrite Q2. ob2. rewrite Q4. reflexivity.
  Qed.

  Lemma ac_commute chunks flags : length chunks = groups L ac -> forall i k s s1 s2, i <> k ->
    dec_ac_task L ac samp ms cmap codes chunks flags i s = Some (tt, s1) -> dec_ac_task L ac samp ms cmap codes chunks flags k s1 = Some (tt, s2) ->
    exists s1', dec_ac_task L ac samp ms cmap codes chunks flags k s = Some (tt, s1') /\ dec_ac_task L ac samp ms cmap codes chunks flags i s1' = Some (tt, s2).
  Proof.
    intros Lc i k s s1 s2 N E1 E2. unfold dec_ac_task in *.
    apply obind_some in E1. destruct E1 as (g1 & G1 & E1). apply obind_some in E1. destruct E1 as (c1 & C1 & E1). apply obind_some in E1. destruct E1 as (y1 & Y1 & E1).
    apply obind_some in E1. destruct E1 as (ps1 & S1 & E1). apply obind_some in E1. destruct E1 as (fs1 & F1 & E1). apply obind_some in E1. destruct E1 as (r1 & R1 & E1). apply obind_some in E1. destruct E1 as (pl1 & P1 & E1). injection E1 as <-.
    apply obind_some in E2. destruct E2 as (g2 & G2 & E2). apply obind_some in E2. destruct E2 as (c2 & C2 & E2). apply obind_some in E2. destruct E2 as (y2 & Y2 & E2).
    apply obind_some in E2. destruct E2 as (ps2 & S2 & E2). apply obind_some in E2. destruct E2 as (fs2 & F2 & E2). apply obind_some in E2. destruct E2 as (r2 & R2 & E2). apply obind_some in E2. destruct E2 as (pl2 & P2 & E2). injection E2 as <-.
    assert (Hi : (i < groups L ac)%nat) by (rewrite <- Lc; apply (nth_error_lt _ _ _ C1)). assert (Hk : (k < groups L ac)%nat) by (rewrite <- Lc; apply (nth_error_lt _ _ _ C2)).
    pose proof (rd_ac _ _ _ _ _ _ R) as F. destruct (parts_in ac i F Hi) as (g1' & G1' & M1 & _). rewrite G1 in G1'. apply some_inj in G1'. subst g1'.
    destruct (parts_in ac k F Hk) as (g2' & G2' & M2 & _). rewrite G2 in G2'. apply some_inj in G2'. subst g2'.
    pose proof (cells_apart ac i k F Hi Hk N) as AP. rewrite <- M1, <- M2 in AP. pose proof (cells_apart ac k i F Hk Hi (not_eq_sym N)) as AP'. rewrite <- M1, <- M2 in AP'.
    destruct (scatter_all_swap _ _ _ _ _ _ _ P1 P2 AP) as (pq & Q1 & Q2). rewrite (gather_all_scatter _ _ _ _ _ P1 AP) in S2. pose proof (gather_all_scatter _ _ _ _ _ Q1 AP') as S1'. rewrite S1 in S1'.
    exists pq. rewrite G2, C2. ob2. rewrite Y2. ob2. rewrite S2. ob2. rewrite F2. ob2. rewrite R2. ob2. rewrite Q1. split; [reflexivity|].
    rewrite G1, C1. ob2. rewrite Y1. ob2. rewrite S1'. ob2. rewrite F1. ob2. rewrite R1. ob2. rewrite Q2. reflexivity.
  Qed.
End Tasks.
