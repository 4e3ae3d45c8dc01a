(** What the JPEG reader puts into a JPEGData: scans. *)
From Verif Require Import Base JpegModel LehmerModel CoefModel HeaderModel HeaderProofs JBitModel JReadProofs JHuffModel JScanModel JScanProofs1 JScanProofs6 JScanProofs8 JSegModel JSegProofs1 JSegProofs2 JFileModel
  InternalsModel InternalsProofs ReaderProofs1.

Lemma resets_snoc b : 0 <= b < 2 ^ 28 -> forall l last, -1 <= last < b -> resets_ok last l -> Forall (fun x => 0 <= x < b) l -> resets_ok last (l ++ [b]).
Proof.
  intros Hb. induction l as [|x l IH]; intros last Hl H F; cbn [app resets_ok] in *.
  - change (2 ^ 30) with (4 * 2 ^ 28). lia.
  - destruct H as (H1 & H2 & H3). split; [exact H1|]. split; [exact H2|]. pose proof (Forall_inv F) as Fx. cbv beta in Fx. apply IH; [lia|exact H3|exact (Forall_inv_tail F)].
Qed.

Lemma runs_snoc b n : 0 <= b < 2 ^ 28 - 1 -> 0 < n -> forall l last, -1 <= last < b -> runs_ok last l -> Forall (fun x => 0 <= fst x < b) l -> runs_ok last (l ++ [(b, n)]).
Proof.
  intros Hb Hn. induction l as [|[x m] l IH]; intros last Hl H F; cbn [app runs_ok] in *.
  - change (2 ^ 30) with (4 * 2 ^ 28). lia.
  - destruct H as (H1 & H2 & H3 & H4). split; [exact H1|]. split; [exact H2|]. split; [exact H3|]. pose proof (Forall_inv F) as Fx. cbn [fst] in Fx. apply IH; [lia|exact H4|exact (Forall_inv_tail F)].
Qed.

Definition bit (v : Z) : Prop := 0 <= v < 2.
Definition pad_ok (zp : bool) (l : list Z) : Prop := Forall bit l /\ (zp = true -> l <> []).

(** The recorded reset points, zero runs and padding bits. *)
Record rec_ok (r : rscan) : Prop := {
  ro_resets : resets_ok (-1) (rs_resets r); ro_resets_lt : Forall (fun b => 0 <= b < rs_bsi r) (rs_resets r);
  ro_runs : runs_ok (-1) (rs_zruns r); ro_runs_lt : Forall (fun e => 0 <= fst e < rs_bsi r /\ snd e <= 4) (rs_zruns r);
  ro_nresets : Z.of_nat (length (rs_resets r)) <= rs_bsi r; ro_nruns : Z.of_nat (length (rs_zruns r)) <= rs_bsi r;
  ro_pad : pad_ok (rs_zero_pad r) (rs_padding r) }.

Lemma pad_seen_part s : jpart (pad_seen s) (fun x => pad_ok (fst x) (snd x)).
Proof.
  unfold pad_seen. cbv zeta. destruct (Z.ltb_spec 0 (Z.land (br_left s) 7)) as [H|H]; [|cbn [jpart fst snd]; split; [constructor|discriminate]].
  eapply jpart_bind; [apply jpart_eq|]. intros p _. cbn [jpart fst snd]. split.
  - apply Forall_forall. intros v I. apply in_map_iff in I as (i & <- & _). unfold bit. change 1 with (Z.ones 1). rewrite Z.land_ones by lia. apply Z.mod_pos_bound. lia.
  - intros _ E. apply map_eq_nil in E. apply (f_equal (@length nat)) in E. rewrite rev_length, seq_length in E. cbn [length] in E. lia.
Qed.

Lemma br_finish_part data s : jpart (br_finish data s) (fun x => pad_ok (fst (fst x)) (snd (fst x))).
Proof.
  unfold br_finish. eapply jpart_bind; [apply pad_seen_part|]. intros [z bits] H. eapply jpart_bind; [apply jpart_eq|]. intros pos _.
  destruct (br_next s <? pos); [exact Logic.I|]. exact H.
Qed.

Lemma pad_app z1 l1 z2 l2 : pad_ok z1 l1 -> pad_ok z2 l2 -> pad_ok (z1 || z2) (l1 ++ l2).
Proof.
  intros [A1 A2] [B1 B2]. split; [apply Forall_app; auto|]. intros H E. apply app_eq_nil in E as [E1 E2]. apply orb_true_iff in H as [H|H]; [exact (A2 H E1)|exact (B2 H E2)].
Qed.

Lemma geo_upd_nth l i v d : geo v = geo (nth i l d) -> map geo (upd l i v) = map geo l.
Proof. revert i. induction l as [|x l IH]; intros [|i] E; cbn [upd map nth] in *; try reflexivity; f_equal; auto. Qed.

(** At most four codes for 16 zeros at the end of a block. *)
Lemma dec_ac_runs data lut ss se al allowed : se <= 63 -> forall fuel k r, 16 * rb_nzr r + 1 <= k -> (se < k -> rb_nzr r <= 4) ->
  jpart (JScanModel.dec_ac fuel data lut ss se al allowed k r) (fun r' => rb_nzr r' <= 4).
Proof.
  intros HS. induction fuel as [|f IH]; intros k r K L; cbn [JScanModel.dec_ac]; [exact Logic.I|].
  destruct (Z.ltb_spec se k) as [G|G]; [cbn [jpart]; auto|]. eapply jpart_bind; [apply jpart_eq|]. intros [sr s] _. destruct (256 <=? sr); [exact Logic.I|]. cbv zeta.
  destruct (0 <? Z.land sr 15).
  - destruct (se <? k + Z.shiftr sr 4); [exact Logic.I|]. destruct (_ <=? _); [exact Logic.I|]. eapply jpart_bind; [apply jpart_eq|]. intros [bits s'] _. eapply jpart_bind; [apply jpart_eq|]. intros c E.
    apply IH; cbn [rb_nzr]; [|lia]. unfold zz_set in E. destruct (aget kNaturalOrder (k + Z.shiftr sr 4)) eqn:A; [|discriminate|discriminate]. apply aget_Some in A. lia.
  - destruct (Z.shiftr sr 4 =? 15); [apply IH; cbn [rb_nzr]; lia|]. unfold read_eob. cbv zeta. destruct (0 <? _); [|cbn [jpart rb_nzr]; lia].
    destruct allowed; [|exact Logic.I]. eapply jpart_bind; [apply jpart_eq|]. intros [x s'] _. cbn [jpart rb_nzr]. lia.
Qed.

Lemma decode_block_runs data dcl acl ss se al last r : 0 <= ss -> se <= 63 -> rb_nzr r = 0 -> jpart (decode_block data dcl acl ss se al last r) (fun x => rb_nzr (fst x) <= 4).
Proof.
  intros HS HE H0. unfold decode_block. cbv zeta. apply jpart_bind with (Q := fun x => rb_nzr (fst x) = 0).
  - destruct (ss =? 0); [|exact H0]. unfold JScanModel.dec_dc. eapply jpart_bind; [apply jpart_eq|]. intros [sz s] _. destruct (12 <=? sz); [exact Logic.I|].
    eapply jpart_bind; [apply jpart_eq|]. intros [diff s'] _. destruct (negb _); [exact Logic.I|]. eapply jpart_bind; [apply jpart_eq|]. intros c _. exact H0.
  - intros [r1 last1] H1. cbn [fst] in H1. destruct (_ <? _); [cbn [jpart fst]; lia|]. destruct (0 <? rb_eob r1); [cbn [jpart fst rb_nzr]; lia|].
    eapply jpart_bind; [apply dec_ac_runs; [exact HE| |]; cbn [rb_nzr]; destruct (Z.eqb_spec ss 0); lia|]. intros r2 H2. cbn [jpart fst rb_nzr]. exact H2.
Qed.

Lemma ref_ac_runs data lut ss se al allowed : forall fuel k zr r, jpart (ref_ac fuel data lut ss se al allowed k zr r) (fun x => rb_nzr (snd (snd x)) = rb_nzr r).
Proof.
  induction fuel as [|f IH]; intros k zr r; cbn [ref_ac]; [exact Logic.I|]. destruct (se <? k); [reflexivity|]. eapply jpart_bind; [apply jpart_eq|]. intros [sr s] _. destruct (256 <=? sr); [exact Logic.I|]. cbv zeta.
  destruct (Z.land sr 15 =? 0).
  - destruct (Z.shiftr sr 4 =? 15).
    + eapply jpart_bind; [apply jpart_eq|]. intros [k1 [s1 c1]] _. eapply jpart_weaken; [apply IH|]. cbv beta. intros x ->. reflexivity.
    + apply jpart_bind with (Q := fun r' => rb_nzr r' = rb_nzr r); [|intros r' H; exact H]. unfold read_eob. cbv zeta. destruct (0 <? _); [|reflexivity].
      destruct allowed; [|exact Logic.I]. eapply jpart_bind; [apply jpart_eq|]. intros [x s'] _. reflexivity.
  - destruct (Z.land sr 15 =? 1); [|exact Logic.I]. eapply jpart_bind; [apply jpart_eq|]. intros [b s0] _. eapply jpart_bind; [apply jpart_eq|]. intros [k1 [s1 c1]] _. destruct (se <? k1); [exact Logic.I|].
    eapply jpart_bind; [apply jpart_eq|]. intros c2 _. eapply jpart_weaken; [apply IH|]. cbv beta. intros x ->. reflexivity.
Qed.

Lemma refine_block_runs data lut ss se al r : jpart (refine_block data lut ss se al r) (fun r' => rb_nzr r' = rb_nzr r).
Proof.
  unfold refine_block. cbv zeta. apply jpart_bind with (Q := fun r' => rb_nzr r' = rb_nzr r).
  - destruct (ss =? 0); [|reflexivity]. eapply jpart_bind; [apply jpart_eq|]. intros [b s] _. eapply jpart_bind; [apply jpart_eq|]. intros dc _. eapply jpart_bind; [apply jpart_eq|]. intros c _. reflexivity.
  - intros r1 H1. destruct (_ <? _); [exact H1|]. apply jpart_bind with (Q := fun x => rb_nzr (snd (snd x)) = rb_nzr r).
    + destruct (rb_eob r1 <=? 0); [|exact H1]. eapply jpart_weaken; [apply ref_ac_runs|]. cbv beta. intros x ->. exact H1.
    + intros [k [zr r2]] H2. cbn [snd] in H2. destruct zr; [exact Logic.I|]. eapply jpart_bind; [apply jpart_eq|]. intros [s c] _. exact H2.
Qed.

Lemma read_visit_part data dcl acl p v r : 0 <= sp_ss p -> sp_se p <= 63 -> rec_ok r -> 0 <= rs_bsi r < 2 ^ 27 ->
  jpart (read_visit data dcl acl p v r) (fun r' => rec_ok r' /\ rs_bsi r' = rs_bsi r + 1 /\ map geo (rs_comps r') = map geo (rs_comps r)).
Proof.
  intros HSS HSE [R1 R2 R3 R4 R5 R6 R7] HB. unfold read_visit. cbv zeta.
  eapply jpart_bind; [apply jpart_eq|]. intros c EC. eapply jpart_bind; [apply jpart_eq|]. intros b _.
  eapply jpart_bind; [apply jpart_eq|]. intros d _. eapply jpart_bind; [apply jpart_eq|]. intros a _. eapply jpart_bind; [apply jpart_eq|]. intros last _.
  apply jpart_bind with (Q := fun x => rb_nzr (fst x) <= 4).
  { destruct (sp_ah p =? 0); [apply decode_block_runs; auto|]. eapply jpart_bind; [apply refine_block_runs|]. intros rb H. cbn [jpart fst]. rewrite H. cbn [rb_nzr]. lia. }
  intros [rb last'] NZ. cbn [fst] in NZ. eapply jpart_bind; [apply jpart_eq|]. intros lasts _. eapply jpart_bind; [apply jpart_eq|]. intros blocks _.
  eapply jpart_bind; [apply jpart_aset|]. intros comps [HI ->]. cbn [jpart rs_bsi rs_comps].
  assert (P28 : 2 ^ 28 = 2 * 2 ^ 27) by reflexivity.
  assert (W : forall l, Forall (fun x => 0 <= x < rs_bsi r) l -> Forall (fun x => 0 <= x < rs_bsi r + 1) l) by (intros l F; eapply Forall_impl; [|exact F]; intros x X; cbv beta in X; lia).
  assert (W2 : forall l : list (Z * Z), Forall (fun x => 0 <= fst x < rs_bsi r /\ snd x <= 4) l -> Forall (fun x => 0 <= fst x < rs_bsi r + 1 /\ snd x <= 4) l) by (intros l F; eapply Forall_impl; [|exact F]; intros x X; cbv beta in X; lia).
  split; [|split; [reflexivity|]].
  - constructor; cbn [rs_resets rs_zruns rs_bsi rs_zero_pad rs_padding].
    + destruct (rb_reset rb); [apply resets_snoc; [lia|lia|exact R1|exact R2]|exact R1].
    + destruct (rb_reset rb); [apply Forall_app; split; [apply W; exact R2|constructor; [lia|constructor]]|apply W; exact R2].
    + destruct (Z.ltb_spec 0 (rb_nzr rb)); [apply runs_snoc; [lia|lia|lia|exact R3|eapply Forall_impl; [|exact R4]; cbv beta; intros ? Q; apply Q]|exact R3].
    + destruct (Z.ltb_spec 0 (rb_nzr rb)); [apply Forall_app; split; [apply W2; exact R4|constructor; [cbn [fst snd]; lia|constructor]]|apply W2; exact R4].
    + destruct (rb_reset rb); [rewrite app_length; cbn [length]; lia|lia].
    + destruct (0 <? rb_nzr rb); [rewrite app_length; cbn [length]; lia|lia].
    + exact R7.
  - apply aget_Some in EC as [_ EC]. apply geo_upd_nth with (d := c). rewrite (nth_error_nth _ _ c EC). reflexivity.
Qed.

Lemma read_visits_part data dcl acl p : 0 <= sp_ss p -> sp_se p <= 63 -> forall vs r, rec_ok r -> 0 <= rs_bsi r -> rs_bsi r + Z.of_nat (length vs) <= 2 ^ 27 ->
  jpart (read_visits data dcl acl p vs r) (fun r' => rec_ok r' /\ rs_bsi r' = rs_bsi r + Z.of_nat (length vs) /\ map geo (rs_comps r') = map geo (rs_comps r)).
Proof.
  intros HSS HSE. induction vs as [|v vs IH]; intros r R H0 HB; cbn [read_visits].
  - cbn [jpart length]. split; [exact R|]. split; [lia|reflexivity].
  - cbn [length] in HB. eapply jpart_bind; [apply (read_visit_part data dcl acl p v r HSS HSE R); lia|]. intros r1 (R1 & B1 & G1).
    eapply jpart_weaken; [apply (IH r1 R1); lia|]. intros r2 (R2 & B2 & G2). split; [exact R2|]. split; [cbn [length]; lia|congruence].
Qed.

Lemma read_restart_part data p r : rec_ok r ->
  jpart (read_restart data p r) (fun r' => rec_ok r' /\ rs_bsi r' = rs_bsi r /\ rs_comps r' = rs_comps r).
Proof.
  intros R. unfold read_restart. destruct ((0 <? sp_restart p) && (rs_togo r =? 0)); [|cbn [jpart]; auto].
  eapply jpart_bind; [apply br_finish_part|]. intros [zp pos] HP. cbv zeta. cbn [fst] in HP. destruct (Z.of_nat (length data) <? pos + 2); [exact Logic.I|].
  eapply jpart_bind; [apply jpart_eq|]. intros a _. destruct (negb (a =? 255)); [exact Logic.I|]. eapply jpart_bind; [apply jpart_eq|]. intros m _.
  destruct (negb (m =? 208 + rs_next r)); [exact Logic.I|]. eapply jpart_bind; [apply jpart_eq|]. intros s _. destruct (0 <? rs_eob r); [exact Logic.I|].
  cbn [jpart rs_bsi rs_comps]. split; [|auto]. destruct R. constructor; cbn [rs_resets rs_zruns rs_bsi rs_zero_pad rs_padding]; auto. apply pad_app; assumption.
Qed.

(** The number of blocks per MCU does not depend on the MCU nor on the coefficients. *)
Lemma flat_map_len {A B} (f : A -> list B) n : (forall a, length (f a) = n) -> forall l, length (flat_map f l) = (length l * n)%nat.
Proof. intros H. induction l as [|a l IH]; [reflexivity|]. cbn [flat_map length]. rewrite app_length, H, IH. lia. Qed.

Definition per_mcu (comps : list component) (cs : list compscan) (inter : bool) : nat :=
  list_sum (map (fun si => let c := comp_at comps (cs_comp si) in
    (Z.to_nat (if inter then c_v c else 1) * Z.to_nat (if inter then c_h c else 1))%nat) cs).

Lemma iotaZ_length n : length (iotaZ n) = Z.to_nat n.
Proof. unfold iotaZ. rewrite map_length, seq_length. reflexivity. Qed.

Lemma mcu_visits_length comps cs inter yx : length (mcu_visits comps cs inter yx) = per_mcu comps cs inter.
Proof.
  unfold mcu_visits, per_mcu. induction cs as [|si cs IH]; [reflexivity|]. cbn [flat_map map list_sum fold_right].
  rewrite app_length, IH. cbv zeta. rewrite (flat_map_len _ (Z.to_nat (if inter then c_h (comp_at comps (cs_comp si)) else 1)));
    [|intros iy; rewrite map_length; apply iotaZ_length].
  rewrite iotaZ_length. reflexivity.
Qed.

Lemma mcus_length rows cols : length (mcus rows cols) = (Z.to_nat rows * Z.to_nat cols)%nat.
Proof. unfold mcus. rewrite (flat_map_len _ (Z.to_nat cols)); [rewrite iotaZ_length; reflexivity|]. intros y. rewrite map_length. apply iotaZ_length. Qed.

Lemma geo_comp_at a b i : map geo a = map geo b -> geo (comp_at a i) = geo (comp_at b i).
Proof. intros E. unfold comp_at. rewrite <- !(map_nth geo). change (geo no_comp) with no_comp. rewrite E. reflexivity. Qed.

Lemma per_mcu_geo a b cs inter : map geo a = map geo b -> per_mcu a cs inter = per_mcu b cs inter.
Proof.
  intros E. unfold per_mcu. f_equal. apply map_ext. intros si. cbv zeta. pose proof (geo_comp_at a b (cs_comp si) E) as G. injection G as G1 G2 G3 G4 G5 G6. rewrite G2, G3. reflexivity.
Qed.

Lemma read_mcus_part data dcl acl p : 0 <= sp_ss p -> sp_se p <= 63 -> forall ms r, rec_ok r -> 0 <= rs_bsi r ->
  rs_bsi r + Z.of_nat (length ms * per_mcu (rs_comps r) (sp_cs p) (sp_inter p)) <= 2 ^ 27 ->
  jpart (read_mcus data dcl acl p ms r) (fun r' => rec_ok r'
    /\ rs_bsi r' = rs_bsi r + Z.of_nat (length ms * per_mcu (rs_comps r) (sp_cs p) (sp_inter p)) /\ map geo (rs_comps r') = map geo (rs_comps r)).
Proof.
  intros HSS HSE. induction ms as [|m ms IH]; intros r R H0 HB; cbn [read_mcus].
  - cbn [jpart length]. split; [exact R|]. split; [lia|reflexivity].
  - cbn [length] in HB. rewrite Nat.mul_succ_l in HB. unfold read_mcu.
    apply jpart_bind with (Q := fun r1 => rec_ok r1 /\ rs_bsi r1 = rs_bsi r + Z.of_nat (per_mcu (rs_comps r) (sp_cs p) (sp_inter p)) /\ map geo (rs_comps r1) = map geo (rs_comps r)).
    + eapply jpart_bind; [apply (read_restart_part data p r R)|]. intros r0 (R0 & B0 & C0). cbv zeta.
      set (r1 := if 0 <? sp_restart p then _ else r0).
      assert (R1 : rec_ok r1) by (unfold r1; destruct (0 <? sp_restart p); [destruct R0; constructor; assumption|exact R0]).
      assert (B1 : rs_bsi r1 = rs_bsi r) by (unfold r1; destruct (0 <? sp_restart p); exact B0).
      assert (C1 : rs_comps r1 = rs_comps r) by (unfold r1; destruct (0 <? sp_restart p); exact C0).
      clearbody r1. destruct (br_unhealthy (rs_s r1)); [exact Logic.I|].
      eapply jpart_weaken; [apply (read_visits_part data dcl acl p HSS HSE _ r1 R1); [lia|rewrite mcu_visits_length, C1; lia]|].
      intros r2 (R2 & B2 & G2). rewrite mcu_visits_length, C1 in B2. split; [exact R2|]. split; [lia|congruence].
    + intros r1 (R1 & B1 & G1). pose proof (per_mcu_geo _ _ (sp_cs p) (sp_inter p) G1) as PG.
      eapply jpart_weaken; [apply (IH r1 R1); [lia|rewrite PG; lia]|]. intros r2 (R2 & B2 & G2). rewrite PG in B2. cbn [length]. rewrite Nat.mul_succ_l. split; [exact R2|]. split; [lia|congruence].
Qed.

(** All blocks of a frame: at most 2^21 per component. *)
Lemma dims_blocks j p : frame_in j -> (1 <= length (sp_cs p) <= 4)%nat -> sp_inter p = (1 <? Z.of_nat (length (sp_cs p))) ->
  Forall (fun s => 0 <= cs_comp s < Z.of_nat (length (j_comps j))) (sp_cs p) ->
  Z.of_nat (length (mcus (fst (read_dims j p)) (snd (read_dims j p))) * per_mcu (j_comps j) (sp_cs p) (sp_inter p)) <= 2 ^ 23.
Proof.
  intros [FW FH FN FI FS FMH FMV FC FR FB] L EI F. rewrite mcus_length.
  assert (IN : forall s, In s (sp_cs p) -> In (comp_at (j_comps j) (cs_comp s)) (j_comps j)).
  { intros s I. rewrite Forall_forall in F. specialize (F s I). apply nth_In. lia. }
  rewrite Forall_forall in FB, FS.
  assert (SP : forall s, In s (sp_cs p) -> let c := comp_at (j_comps j) (cs_comp s) in 1 <= c_h c <= 15 /\ 1 <= c_v c <= 15 /\ c_wb c = j_mcu_cols j * c_h c /\ c_hb c = j_mcu_rows j * c_v c /\ c_wb c * c_hb c <= 2 ^ 21).
  { intros s I. cbv zeta. specialize (IN s I). specialize (FB _ IN). assert (I2 : In (c_h (comp_at (j_comps j) (cs_comp s)), c_v (comp_at (j_comps j) (cs_comp s))) (samps (j_comps j))) by (apply in_map_iff; eauto).
    specialize (FS _ I2). destruct FS as [S1 S2]. cbn [fst snd] in *. tauto. }
  assert (MH : 1 <= j_max_h j) by (rewrite FMH; unfold max_samp; clear; assert (G : forall l a, 1 <= a -> 1 <= fold_left (fun m (c : Z * Z) => Z.max m (fst c)) l a) by (induction l as [|x l IH]; intros a H; cbn [fold_left]; [exact H|apply IH; lia]); apply G; lia).
  assert (MV : 1 <= j_max_v j) by (rewrite FMV; unfold max_samp; clear; assert (G : forall l a, 1 <= a -> 1 <= fold_left (fun m (c : Z * Z) => Z.max m (snd c)) l a) by (induction l as [|x l IH]; intros a H; cbn [fold_left]; [exact H|apply IH; lia]); apply G; lia).
  assert (C0 : 0 <= j_mcu_cols j) by (rewrite FC; unfold HeaderModel.div_ceil; apply Z.div_pos; lia).
  assert (R0 : 0 <= j_mcu_rows j) by (rewrite FR; unfold HeaderModel.div_ceil; apply Z.div_pos; lia).
  unfold read_dims. destruct (sp_inter p) eqn:EP; cbn [fst snd].
  - assert (S : Z.of_nat (Z.to_nat (j_mcu_rows j) * Z.to_nat (j_mcu_cols j) * per_mcu (j_comps j) (sp_cs p) true) <= Z.of_nat (length (sp_cs p)) * 2 ^ 21); [|lia].
    clear IN F EI L. induction (sp_cs p) as [|s l IH]; [unfold per_mcu; cbn; lia|].
    unfold per_mcu in *. cbn [map list_sum fold_right length]. fold (list_sum (map (fun si => let c := comp_at (j_comps j) (cs_comp si) in (Z.to_nat (c_v c) * Z.to_nat (c_h c))%nat) l)).
    specialize (IH (fun s I => SP s (or_intror I))). specialize (SP s (or_introl eq_refl)). cbv zeta in *. destruct SP as (S1 & S2 & S3 & S4 & S5).
    set (c := comp_at (j_comps j) (cs_comp s)) in *. rewrite S3, S4 in S5.
    rewrite Nat.mul_add_distr_l, Nat2Z.inj_add.
    assert (X : Z.of_nat (Z.to_nat (j_mcu_rows j) * Z.to_nat (j_mcu_cols j) * (Z.to_nat (c_v c) * Z.to_nat (c_h c))) = j_mcu_cols j * c_h c * (j_mcu_rows j * c_v c)).
    { rewrite !Nat2Z.inj_mul, !Z2Nat.id by lia. ring. }
    rewrite X. cbn beta iota in IH. lia.
  - destruct (sp_cs p) as [|s [|s2 l]]; [cbn [length] in L; lia| |cbn [length] in EI; symmetry in EI; apply Z.ltb_ge in EI; lia].
    specialize (SP s (or_introl eq_refl)). cbv zeta in SP. unfold per_mcu. cbn [map list_sum fold_right]. change (Z.to_nat 1 * Z.to_nat 1 + 0)%nat with 1%nat.
    set (c := comp_at (j_comps j) (cs_comp s)) in *. destruct SP as (S1 & S2 & S3 & S4 & S5).
    pose proof (div_ceil_mul (j_height j) (8 * j_max_v j) (c_v c) ltac:(lia) ltac:(lia) ltac:(lia)) as D1.
    pose proof (div_ceil_mul (j_width j) (8 * j_max_h j) (c_h c) ltac:(lia) ltac:(lia) ltac:(lia)) as D2.
    rewrite (Z.mul_comm 8 (j_max_v j)) in D1. rewrite (Z.mul_comm 8 (j_max_h j)) in D2.
    change (div_ceil (j_height j) (j_max_v j * 8)) with (HeaderModel.div_ceil (j_height j) (j_max_v j * 8)) in D1. rewrite <- FR in D1.
    change (div_ceil (j_width j) (j_max_h j * 8)) with (HeaderModel.div_ceil (j_width j) (j_max_h j * 8)) in D2. rewrite <- FC in D2.
    rewrite (Z.mul_comm 8 (j_max_v j)), (Z.mul_comm 8 (j_max_h j)).
    assert (E1 : 0 <= div_ceil (j_height j * c_v c) (j_max_v j * 8)) by (unfold div_ceil; apply Z.div_pos; nia).
    assert (E2 : 0 <= div_ceil (j_width j * c_h c) (j_max_h j * 8)) by (unfold div_ceil; apply Z.div_pos; nia).
    rewrite !Nat2Z.inj_mul, !Z2Nat.id by assumption. rewrite S3, S4 in S5.
    generalize dependent (div_ceil (j_height j * c_v c) (j_max_v j * 8)). generalize dependent (div_ceil (j_width j * c_h c) (j_max_h j * 8)). intros y D2 E2 x D1 E1.
    assert (x * y <= j_mcu_rows j * c_v c * (j_mcu_cols j * c_h c)) by (apply Z.mul_le_mono_nonneg; lia). lia.
Qed.

Lemma read_scan_data_part data dcl acl j p pos : frame_in j -> (1 <= length (sp_cs p) <= 4)%nat -> sp_inter p = (1 <? Z.of_nat (length (sp_cs p))) ->
  Forall (fun s => 0 <= cs_comp s < Z.of_nat (length (j_comps j))) (sp_cs p) -> pad_ok (j_zero_pad j) (j_padding j) -> 0 <= sp_ss p -> sp_se p <= 63 ->
  jpart (read_scan_data data dcl acl j p pos) (fun x => rec_ok (fst x) /\ rs_bsi (fst x) <= 2 ^ 23 /\ map geo (rs_comps (fst x)) = map geo (j_comps j)).
Proof.
  intros FI L EI F HP HSS HSE. pose proof (dims_blocks j p FI L EI F) as DB. unfold read_scan_data.
  eapply jpart_bind; [apply jpart_eq|]. intros s _. cbv zeta.
  eapply jpart_bind; [apply (read_mcus_part data dcl acl p HSS HSE)|].
  - constructor; cbn [rs_resets rs_zruns rs_bsi rs_zero_pad rs_padding resets_ok runs_ok length]; try constructor; try lia; apply HP.
  - cbn [rs_bsi]. lia.
  - cbn [rs_bsi rs_comps]. change (2 ^ 27) with (16 * 2 ^ 23). lia.
  - intros r (R & B & G). cbn [rs_bsi rs_comps] in B, G. destruct (0 <? rs_eob r); [exact Logic.I|].
    eapply jpart_bind; [apply br_finish_part|]. intros [zp pos'] ZP. cbn [fst] in ZP. destruct (Z.of_nat (length data) <? pos'); [exact Logic.I|].
    cbn [jpart fst rs_bsi rs_comps]. split; [|split; [lia|exact G]]. destruct R. constructor; cbn [rs_resets rs_zruns rs_bsi rs_zero_pad rs_padding]; auto. apply pad_app; assumption.
Qed.
