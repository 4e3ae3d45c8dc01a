(** The serializer on partial views: what is written in several steps is what is written
    at once from the final image. *)
From Verif Require Import Base JpegModel JBitModel JHuffModel JSegModel JScanModel JFileModel JReadProofs OutputModel OutputProofs SerialModel SerialSpec SerialProofs1.

Ltac fe H f := let E := fresh "FE" in pose proof (f_equal f H) as E; cbn [frame j_width j_height j_version j_max_h j_max_v j_mcu_rows j_mcu_cols j_restart j_app j_com j_quant j_huff j_comps j_scans j_markers j_inter j_tail j_zero_pad j_padding] in E.

(** * What depends on the frame only *)
Lemma frame_comp_at : forall l L i, map comp_frame l = map comp_frame L -> comp_frame (comp_at l i) = comp_frame (comp_at L i).
Proof.
  intros l L i H. unfold comp_at. rewrite <- !(map_nth comp_frame). change (comp_frame no_comp) with no_comp. rewrite H. reflexivity.
Qed.
Lemma comp_frame_inj c C : comp_frame c = comp_frame C -> c_id c = c_id C /\ c_h c = c_h C /\ c_v c = c_v C /\ c_quant c = c_quant C /\ c_wb c = c_wb C /\ c_hb c = c_hb C.
Proof. unfold comp_frame. intros E. injection E. auto 10. Qed.

Lemma cons_inj {A} (x y : A) l m : x :: l = y :: m -> x = y /\ l = m.
Proof. intros H. injection H. auto. Qed.
Lemma sof_frame q : forall l L, map comp_frame l = map comp_frame L -> sof_entries q l = sof_entries q L.
Proof.
  induction l as [|c l IH]; intros [|C L] H; try discriminate; [reflexivity|]. cbn [map] in H. apply cons_inj in H as [H1 H2]. apply comp_frame_inj in H1 as (E1 & E2 & E3 & E4 & _).
  cbn [sof_entries]. rewrite (IH _ H2), E1, E2, E3, E4. reflexivity.
Qed.
Lemma frame_aget l L i : map comp_frame l = map comp_frame L ->
  match aget l i, aget L i with JOk c, JOk C => comp_frame c = comp_frame C | JUB, JUB => True | _, _ => False end.
Proof.
  intros H. unfold aget. destruct (i <? 0); [exact I|]. pose proof (f_equal (fun x => nth_error x (Z.to_nat i)) H) as E. cbv beta in E. rewrite !nth_error_map in E.
  destruct (nth_error l _), (nth_error L _); cbn [option_map] in E; try discriminate; [congruence|exact I].
Qed.
Lemma frame_length l L : map comp_frame l = map comp_frame L -> length l = length L.
Proof. intros H. rewrite <- (map_length comp_frame l), H, map_length. reflexivity. Qed.
Lemma sos_frame l L : map comp_frame l = map comp_frame L -> forall cs, sos_entries l cs = sos_entries L cs.
Proof.
  intros H. induction cs as [|s cs IH]; [reflexivity|]. cbn [sos_entries]. rewrite (frame_length _ _ H). destruct (_ <=? _); [reflexivity|].
  pose proof (frame_aget l L (cs_comp s) H) as F. destruct (aget l (cs_comp s)) as [c| |], (aget L (cs_comp s)) as [C| |]; try contradiction; cbn [jbind]; [|reflexivity].
  apply comp_frame_inj in F as (E1 & _). rewrite E1, IH. reflexivity.
Qed.
Lemma write_sos_frame j J si : frame j = frame J -> write_sos j si = write_sos J si.
Proof. intros H. fe H j_comps. unfold write_sos. rewrite (sos_frame _ _ FE). reflexivity. Qed.

Lemma section_frame j J m w : frame j = frame J -> m <> 218 -> write_section j m w = write_section J m w.
Proof.
  intros H Hm. fe H j_comps. fe H j_quant. fe H j_width. fe H j_height. fe H j_tail. fe H j_restart. unfold write_section. apply Z.eqb_neq in Hm. rewrite Hm.
  replace (write_sof j m) with (write_sof J m); [|unfold write_sof; rewrite (sof_frame _ _ _ FE), (frame_length _ _ FE), FE0, FE1, FE2; reflexivity].
  replace (write_dri j) with (write_dri J); [|unfold write_dri; rewrite FE4; reflexivity]. rewrite FE3. reflexivity.
Qed.
Lemma wfile_of_frame j J s : frame j = frame J -> wfile_of j s = wfile_of J s.
Proof. intros H. fe H j_huff. fe H j_quant. fe H j_app. fe H j_com. fe H j_inter. fe H j_scans. unfold wfile_of. rewrite FE, FE0, FE1, FE2, FE3, FE4. reflexivity. Qed.
Lemma sfile_of_frame j J w : frame j = frame J -> sfile_of j w = sfile_of J w.
Proof. intros H. fe H j_huff. fe H j_quant. fe H j_app. fe H j_com. fe H j_inter. fe H j_scans. unfold sfile_of. rewrite FE, FE0, FE1, FE2, FE3, FE4. reflexivity. Qed.
Lemma sfile_init_frame j J : frame j = frame J -> sfile_init j = sfile_init J.
Proof. intros H. fe H j_zero_pad. fe H j_padding. unfold sfile_init. rewrite FE, FE0. reflexivity. Qed.
Lemma write_dims_frame j J p : frame j = frame J -> write_dims j p = write_dims J p.
Proof.
  intros H. fe H j_comps. fe H j_height. fe H j_width. fe H j_max_v. fe H j_max_h. unfold write_dims. cbv zeta. 
  pose proof (frame_comp_at _ _ (match sp_cs p with s :: _ => cs_comp s | [] => 0 end) FE) as E. apply comp_frame_inj in E as (_ & E2 & E3 & _). rewrite E2, E3, FE0, FE1, FE2, FE3. reflexivity.
Qed.
Lemma mcu_visits_frame l L cs inter yx : map comp_frame l = map comp_frame L -> mcu_visits l cs inter yx = mcu_visits L cs inter yx.
Proof.
  intros H. unfold mcu_visits. apply flat_map_ext. intros si. cbv zeta. pose proof (frame_comp_at _ _ (cs_comp si) H) as E. apply comp_frame_inj in E as (_ & E2 & E3 & _ & E5 & _).
  rewrite E2, E3, E5. reflexivity.
Qed.

(** * One block *)
Definition want (p : scanpar) : bool := negb (sp_ss p =? 0) || negb (sp_se p =? 0).
Definition same_block (full : bool) (b B : list Z) : Prop := if full then b = B else nth_error b 0 = nth_error B 0.

Lemma aget0 (b B : list Z) : nth_error b 0 = nth_error B 0 -> aget b 0 = aget B 0.
Proof. intros H. unfold aget. change (Z.to_nat 0) with 0%nat. rewrite H. reflexivity. Qed.

Lemma visit_same comps L dct act mode p v w w' : map comp_frame comps = map comp_frame L ->
  (want p = false -> mode <> 0) ->
  (forall c C B, aget comps (cs_comp (fst v)) = JOk c -> aget L (cs_comp (fst v)) = JOk C -> aget (c_coeffs C) (snd v) = JOk B ->
     exists b, aget (c_coeffs c) (snd v) = JOk b /\ same_block (want p) b B) ->
  write_visit L dct act mode p v w = JOk w' -> write_visit comps dct act mode p v w = JOk w'.
Proof.
  intros HF Hm HB. unfold write_visit. cbv zeta. pose proof (frame_aget _ _ (cs_comp (fst v)) HF) as F.
  destruct (aget L (cs_comp (fst v))) as [C| |] eqn:EC, (aget comps (cs_comp (fst v))) as [c| |] eqn:Ec; try contradiction; cbn [jbind]; try discriminate.
  specialize (HB c C). destruct (aget dct _) as [d| |]; cbn [jbind]; try discriminate. destruct (aget act _) as [a| |]; cbn [jbind]; try discriminate.
  destruct (if ws_bsi w =? ws_nr w then _ else _) as [[st [nr resets]]| |]; cbn [jbind]; try discriminate.
  destruct (if ws_bsi w =? next_zrun (ws_zruns w) then _ else _) as [nzr zruns].
  destruct (aget (c_coeffs C) (snd v)) as [B| |]; cbn [jbind]; try discriminate. destruct (HB B eq_refl eq_refl eq_refl) as (b & -> & Hb). cbn [jbind].
  destruct (aget (ws_last w) _) as [last| |]; cbn [jbind]; try discriminate.
  replace (if mode =? 0 then encode_seq b d a nzr last st else _) with
    (if mode =? 0 then encode_seq B d a nzr last st
     else if mode =? 1 then encode_prog B d a (sp_ss p) (sp_se p) (sp_al p) nzr last st
     else let* st0 := encode_refine B a (sp_ss p) (sp_se p) (sp_al p) st in JOk (last, st0)); [auto|].
  unfold same_block in Hb. destruct (want p) eqn:W; [subst b; reflexivity|]. destruct (Z.eqb_spec mode 0) as [->|_]; [exfalso; apply Hm; reflexivity|].
  unfold want in W. apply orb_false_iff in W as [W1 W2]. apply negb_false_iff, Z.eqb_eq in W1. apply negb_false_iff, Z.eqb_eq in W2. rewrite W1, W2. apply aget0 in Hb.
  destruct (mode =? 1).
  - unfold encode_prog. change (0 =? 0) with true. change (0 <? 1) with true. cbv iota zeta. rewrite Hb. reflexivity.
  - unfold encode_refine. change (0 =? 0) with true. change (0 <? 1) with true. cbv iota zeta. rewrite Hb. reflexivity.
Qed.

Lemma visits_same comps L dct act mode p : map comp_frame comps = map comp_frame L -> (want p = false -> mode <> 0) -> forall vs,
  (forall v, In v vs -> forall c C B, aget comps (cs_comp (fst v)) = JOk c -> aget L (cs_comp (fst v)) = JOk C -> aget (c_coeffs C) (snd v) = JOk B ->
     exists b, aget (c_coeffs c) (snd v) = JOk b /\ same_block (want p) b B) -> forall w w',
  write_visits L dct act mode p vs w = JOk w' -> write_visits comps dct act mode p vs w = JOk w'.
Proof.
  intros HF Hm. induction vs as [|v vs IH]; intros HB w w' E; [exact E|]. cbn [write_visits] in *.
  destruct (write_visit L dct act mode p v w) as [w1| |] eqn:E1; try discriminate. cbn [jbind] in E. rewrite (visit_same comps L dct act mode p v w w1 HF Hm (HB v (or_introl eq_refl)) E1).
  cbn [jbind]. apply IH; [intros v' Hv; apply HB; right; exact Hv|exact E].
Qed.
Lemma mcus_same comps L dct act mode p : map comp_frame comps = map comp_frame L -> (want p = false -> mode <> 0) -> forall ms,
  (forall yx, In yx ms -> forall v, In v (mcu_visits L (sp_cs p) (sp_inter p) yx) -> forall c C B, aget comps (cs_comp (fst v)) = JOk c -> aget L (cs_comp (fst v)) = JOk C -> aget (c_coeffs C) (snd v) = JOk B ->
     exists b, aget (c_coeffs c) (snd v) = JOk b /\ same_block (want p) b B) -> forall w w',
  write_mcus L dct act mode p ms w = JOk w' -> write_mcus comps dct act mode p ms w = JOk w'.
Proof.
  intros HF Hm. induction ms as [|yx ms IH]; intros HB w w' E; [exact E|]. cbn [write_mcus] in *. unfold write_mcu in *.
  destruct (write_restart p w) as [w0| |]; cbn [jbind] in *; try discriminate. rewrite (mcu_visits_frame _ _ _ _ _ HF).
  destruct (write_visits L dct act mode p (mcu_visits L (sp_cs p) (sp_inter p) yx) w0) as [w1| |] eqn:E1; cbn [jbind] in E; try discriminate.
  rewrite (visits_same comps L dct act mode p HF Hm _ (HB yx (or_introl eq_refl)) _ _ E1). cbn [jbind]. apply IH; [intros y Hy; apply HB; right; exact Hy|exact E].
Qed.

(** * Where the blocks of the first rows are *)
Lemma in_iotaZ n x : In x (iotaZ n) -> 0 <= x < n.
Proof. unfold iotaZ. intros H. apply in_map_iff in H as (k & <- & H). apply in_seq in H. lia. Qed.
Lemma in_mcus_between a b cols y x : In (y, x) (mcus_between a b cols) -> a <= y < b /\ 0 <= x < cols.
Proof.
  unfold mcus_between. intros H. apply in_flat_map in H as (i & Hi & H). apply in_map_iff in H as (x' & E & Hx). injection E as <- <-. apply in_iotaZ in Hi, Hx. lia.
Qed.
Lemma iotaZ_split a b c : a <= b -> b <= c -> iotaZ (c - a) = iotaZ (b - a) ++ map (fun i => b - a + i) (iotaZ (c - b)).
Proof.
  intros H1 H2. unfold iotaZ. replace (Z.to_nat (c - a)) with (Z.to_nat (b - a) + Z.to_nat (c - b))%nat by lia. rewrite seq_app, map_app. f_equal. cbn [Nat.add].
  rewrite map_map. assert (G : forall n s, map Z.of_nat (seq (Z.to_nat (b - a) + s) n) = map (fun x => b - a + Z.of_nat x) (seq s n)).
  { induction n as [|n IH]; intros s; [reflexivity|]. cbn [seq map]. f_equal; [lia|]. rewrite <- IH. f_equal. f_equal. lia. }
  rewrite <- (Nat.add_0_r (Z.to_nat (b - a))) at 1. apply G.
Qed.
Lemma mcus_between_split a b c cols : a <= b -> b <= c -> mcus_between a c cols = mcus_between a b cols ++ mcus_between b c cols.
Proof.
  intros H1 H2. unfold mcus_between. rewrite (iotaZ_split a b c H1 H2), flat_map_app. f_equal. generalize (iotaZ (c - b)) as l. induction l as [|i l IH]; [reflexivity|].
  cbn [map flat_map]. rewrite IH. f_equal. apply map_ext. intros x. f_equal. lia.
Qed.
Lemma mcus_between_nil a b cols : b <= a -> mcus_between a b cols = [].
Proof. intros H. unfold mcus_between, iotaZ. replace (Z.to_nat (b - a)) with 0%nat by lia. reflexivity. Qed.
Lemma mcus_zero rows cols : mcus rows cols = mcus_between 0 rows cols.
Proof. unfold mcus, mcus_between. rewrite Z.sub_0_r. apply flat_map_ext. intros y. reflexivity. Qed.

Lemma div_ceil_mul w h m : 0 < m -> 0 < h -> div_ceil (w * h) m <= div_ceil w m * h.
Proof. intros Hm Hh. unfold div_ceil. apply Z.lt_succ_r. apply Z.div_lt_upper_bound; [lia|]. pose proof (Z.div_mod (w + m - 1) m ltac:(lia)). pose proof (Z.mod_pos_bound (w + m - 1) m Hm). nia. Qed.

Definition base (comps : list component) (p : scanpar) : component := comp_at comps (match sp_cs p with s :: _ => cs_comp s | [] => 0 end).

(** The blocks of the MCU rows before [r], in terms of the rows of the image. *)
Lemma visit_bound J p r yx v C : shaped J -> (sp_inter p = false -> (length (sp_cs p) <= 1)%nat) ->
  fst yx < r * (if sp_inter p then 1 else c_v (base (j_comps J) p)) -> 0 <= snd yx < snd (write_dims J p) ->
  In v (mcu_visits (j_comps J) (sp_cs p) (sp_inter p) yx) -> aget (j_comps J) (cs_comp (fst v)) = JOk C ->
  snd v < r * c_v C * c_wb C.
Proof.
  intros (S1 & S2 & S3 & S4) Hn Hy Hx Hv EC. unfold mcu_visits in Hv. apply in_flat_map in Hv as (si & Hsi & Hv). cbv zeta in Hv. apply in_flat_map in Hv as (iy & Hiy & Hv).
  apply in_map_iff in Hv as (ix & Ev & Hix). subst v. cbn [fst snd] in *.
  assert (EB : comp_at (j_comps J) (cs_comp si) = C).
  { unfold comp_at. apply aget_Some in EC as [_ EC]. exact (nth_error_nth _ _ no_comp EC). }
  rewrite EB in *. rewrite Forall_forall in S4. apply aget_Some in EC as [_ EC]. destruct (S4 C (nth_error_In _ _ EC)) as (K1 & K2 & K3).
  unfold write_dims in Hx. cbv zeta in Hx. cbn [snd] in Hx. fold (base (j_comps J) p) in Hx. apply in_iotaZ in Hiy, Hix.
  assert (D0 : 0 <= div_ceil (j_width J) (8 * j_max_h J)) by (unfold div_ceil; apply Z.div_pos; lia).
  destruct (sp_inter p).
  - rewrite Z.mul_1_r in *. assert (snd yx * c_h C + ix < c_wb C) by (rewrite K3; nia).
    assert (fst yx * c_v C + iy < r * c_v C) by nia. nia.
  - assert (si = match sp_cs p with s :: _ => s | [] => si end).
    { specialize (Hn eq_refl). destruct (sp_cs p) as [|s0 [|s1 l]]; [contradiction| |cbn in Hn; lia]. destruct Hsi as [->|[]]. reflexivity. }
    assert (EBb : base (j_comps J) p = C). { unfold base. destruct (sp_cs p) as [|s0 l]; [contradiction|]. subst s0. exact EB. }
    rewrite EBb in *. pose proof (div_ceil_mul (j_width J) (c_h C) (8 * j_max_h J) ltac:(lia) K1). rewrite <- K3 in *.
    assert (snd yx < c_wb C) by lia. assert (iy = 0) by lia. assert (ix = 0) by lia. subst iy ix. nia.
Qed.
