(** The JPEG writer stays inside its arrays: one block. *)
From Verif Require Import Base JpegModel Tables LehmerModel QuantModel QuantProofs CoefModel JBitModel JHuffModel JSegModel JSegProofs1 JScanModel.

Definition tab_ok (t : codetab) : Prop :=
  length (fst t) = 256%nat /\ length (snd t) = 256%nat /\ Forall (fun d => 0 <= d <= 16) (fst t).
Definition op_ok (o : wop) : Prop := match o with WBitsOp n _ => 0 <= n <= 16 | _ => True end.

(** The coding state between two calls. *)
Definition wc_upto (m : Z) (st : wcs) : Prop :=
  Forall op_ok (wc_ops st) /\ 0 <= wc_eob st <= m /\ (0 < wc_eob st -> tab_ok (wc_tab st)) /\
  0 <= wc_rbn st /\ Z.of_nat (length (wc_rb st)) = (wc_rbn st + 15) / 16.
Definition wc_ok := wc_upto 32766.

Lemma wc_put_upto m o st : op_ok o -> wc_upto m st -> wc_upto m (put o st).
Proof. intros O (H1 & H2). split; [|exact H2]. cbn [put wc_ops]. apply Forall_app. split; [exact H1|]. constructor; [exact O|constructor]. Qed.
Lemma wc_put o st : op_ok o -> wc_ok st -> wc_ok (put o st).
Proof. apply wc_put_upto. Qed.

Lemma aget_in {A} (l : list A) i : 0 <= i < Z.of_nat (length l) -> exists a, aget l i = JOk a /\ In a l.
Proof.
  intros H. unfold aget. destruct (Z.ltb_spec i 0); [lia|]. destruct (nth_error l (Z.to_nat i)) as [a|] eqn:E.
  - exists a. split; [reflexivity|]. eapply nth_error_In; exact E.
  - apply nth_error_None in E. lia.
Qed.
Lemma aset_in {A} (l : list A) i v : 0 <= i < Z.of_nat (length l) -> exists l', aset l i v = JOk l' /\ length l' = length l /\ forall x, In x l' -> x = v \/ In x l.
Proof.
  intros H. unfold aset. destruct (Z.leb_spec 0 i); [|lia]. destruct (Z.ltb_spec i (Z.of_nat (length l))); [|lia]. cbn [andb].
  eexists. split; [reflexivity|]. split; [apply upd_length|]. intros x I. destruct (In_nth _ _ v I) as (n & Hn & <-).
  rewrite upd_length in Hn. destruct (Nat.eq_dec n (Z.to_nat i)) as [->|N].
  - left. apply nth_upd_same. lia.
  - right. rewrite nth_upd_other by congruence. apply nth_In. exact Hn.
Qed.

Lemma sym_ok tab v st : tab_ok tab -> 0 <= v < 256 -> exists n c, put_sym tab v st = JOk (put (WBitsOp n c) st) /\ 0 <= n <= 16.
Proof.
  intros (T1 & T2 & T3) Hv. unfold put_sym. destruct (aget_in (fst tab) v ltac:(rewrite T1; lia)) as (n & -> & In).
  destruct (aget_in (snd tab) v ltac:(rewrite T2; lia)) as (c & -> & _). cbn [jbind]. exists n, c. split; [reflexivity|]. rewrite Forall_forall in T3. exact (T3 n In).
Qed.
Lemma put_sym_wc tab v st : tab_ok tab -> 0 <= v < 256 -> wc_ok st -> jpost (put_sym tab v st) wc_ok.
Proof. intros T Hv H. destruct (sym_ok tab v st T Hv) as (n & c & -> & R). cbn [jpost]. apply wc_put; [exact R|exact H]. Qed.

Lemma put_words_wc m : forall n i st, wc_upto m st -> 0 <= i -> i + Z.of_nat n <= Z.of_nat (length (wc_rb st)) ->
  jpost (put_words n i st) (fun st' => Forall op_ok (wc_ops st') /\ wc_eob st' = wc_eob st /\ wc_tab st' = wc_tab st /\ wc_rb st' = wc_rb st /\ wc_rbn st' = wc_rbn st).
Proof.
  induction n as [|n IH]; intros i st H Hi Hn; cbn [put_words jpost]; [destruct H; auto|].
  destruct (aget_in (wc_rb st) i ltac:(lia)) as (w & -> & _). cbn [jbind].
  eapply jpost_weaken; [apply (IH (i + 1) (put (WBitsOp 16 w) st)); [apply wc_put_upto; [cbn; lia|exact H]|lia|cbn [put wc_rb]; lia]|].
  cbn [put wc_eob wc_tab wc_rb wc_rbn]. auto.
Qed.

Lemma flush_upto st : wc_upto 32767 st -> jpost (flush st) (fun st' => wc_ok st' /\ wc_eob st' = 0).
Proof.
  intros H. unfold flush. eapply jpost_bind with (Q := fun st' => wc_upto 32767 st' /\ wc_eob st' = 0).
  - destruct (Z.ltb_spec 0 (wc_eob st)) as [E|E].
    + destruct H as (H1 & H2 & H3 & H4 & H5).
      assert (NB : 0 <= Z.log2 (wc_eob st) <= 14). { split; [apply Z.log2_nonneg|]. assert (X : Z.log2 (wc_eob st) < 15) by (apply Z.log2_lt_pow2; [lia|]; change (2 ^ 15) with 32768; lia). lia. }
      destruct (sym_ok (wc_tab st) (Z.shiftl (Z.log2 (wc_eob st)) 4) st (H3 E)) as (n & c & -> & R).
      { rewrite Z.shiftl_mul_pow2 by lia. change (2 ^ 4) with 16. lia. }
      cbn [jbind jpost]. split; [|reflexivity]. set (st1 := put (WBitsOp n c) st).
      assert (W : Forall op_ok (wc_ops st1)). { unfold st1. cbn [put wc_ops]. apply Forall_app. split; [exact H1|]. constructor; [exact R|constructor]. }
      change (wc_eob st1) with (wc_eob st). destruct (0 <? Z.log2 (wc_eob st)); unfold wc_upto; cbn [put wc_ops wc_eob wc_tab wc_rb wc_rbn].
      * split; [|split; [lia|split; [lia|split; [exact H4|exact H5]]]]. apply Forall_app. split; [exact W|]. constructor; [cbn; lia|constructor].
      * split; [exact W|split; [lia|split; [lia|split; [exact H4|exact H5]]]].
    + cbn [jpost]. split; [exact H|]. destruct H as (_ & H2 & _). lia.
  - clear st H. intros st [H E]. pose proof H as (H1 & H2 & H3 & H4 & H5).
    assert (S4 : Z.shiftr (wc_rbn st) 4 = wc_rbn st / 16) by (rewrite Z.shiftr_div_pow2 by lia; reflexivity).
    eapply jpost_bind; [apply (put_words_wc 32767); [exact H|lia|rewrite H5, S4, Z2Nat.id; dlia]|].
    intros st' (A1 & A2 & A3 & A4 & A5). cbv beta.
    assert (L15 : Z.land (wc_rbn st') 15 = wc_rbn st mod 16) by (rewrite A5; change 15 with (Z.ones 4); rewrite Z.land_ones by lia; reflexivity).
    rewrite L15. assert (M : 0 <= wc_rbn st mod 16 < 16) by (apply Z.mod_pos_bound; lia).
    eapply jpost_bind with (Q := fun s => Forall op_ok (wc_ops s) /\ wc_eob s = 0).
    + destruct (Z.eqb_spec (wc_rbn st mod 16) 0) as [Z0|Z0]; cbn [negb].
      * cbn [jpost]. split; [exact A1|congruence].
      * destruct (aget_in (wc_rb st') (Z.of_nat (length (wc_rb st')) - 1)) as (w & -> & _); [rewrite A4, H5; dlia|]. cbn [jbind jpost put wc_ops wc_eob].
        split; [|congruence]. apply Forall_app. split; [exact A1|]. constructor; [cbn; lia|constructor].
    + intros s [B1 B2]. cbn [jpost wc_eob]. split; [|exact B2]. unfold wc_ok, wc_upto. cbn [wc_ops wc_eob wc_tab wc_rb wc_rbn]. rewrite B2.
      split; [exact B1|]. split; [lia|]. split; [lia|]. split; [lia|]. reflexivity.
Qed.
Lemma flush_wc st : wc_ok st -> jpost (flush st) (fun st' => wc_ok st' /\ wc_eob st' = 0).
Proof. intros (H1 & H2 & H3). apply flush_upto. split; [exact H1|]. split; [lia|exact H3]. Qed.

Lemma push_words_len : forall fuel x n rb cnt, 0 <= cnt -> 0 <= n < 16 * Z.of_nat fuel -> (cnt mod 16 = 0 \/ n = 0) -> Z.of_nat (length rb) = (cnt + 15) / 16 ->
  let '(rb', cnt') := push_words fuel x n rb cnt in 0 <= cnt' /\ Z.of_nat (length rb') = (cnt' + 15) / 16.
Proof.
  induction fuel as [|f IH]; intros x n rb cnt Hc Hn Hm Hl; cbn [push_words]; [auto|].
  destruct (Z.leb_spec 16 n).
  - apply IH; [lia|lia|left; dlia|]. rewrite app_length. cbn [length]. dlia.
  - destruct (Z.eqb_spec n 0); cbn [negb]; [auto|]. split; [lia|]. rewrite app_length. cbn [length]. dlia.
Qed.

Lemma buffer_eob_wc tab bits st : tab_ok tab -> (length bits <= 63)%nat -> wc_ok st -> jpost (buffer_eob tab bits st) wc_ok.
Proof.
  intros T Hb H. pose proof H as (H1 & H2 & H3 & H4 & H5). unfold buffer_eob. set (n := Z.of_nat (length bits)).
  eapply jpost_bind with (Q := fun '(rb, cnt) => 0 <= cnt /\ Z.of_nat (length rb) = (cnt + 15) / 16).
  - destruct (Z.eqb_spec n 0) as [N0|N0]; cbn [negb]; [cbn [jpost]; auto|].
    assert (L15 : Z.land (wc_rbn st) 15 = wc_rbn st mod 16) by (change 15 with (Z.ones 4); rewrite Z.land_ones by lia; reflexivity).
    rewrite L15. assert (M : 0 <= wc_rbn st mod 16 < 16) by (apply Z.mod_pos_bound; lia).
    destruct (Z.eqb_spec (wc_rbn st mod 16) 0) as [Z0|Z0]; cbn [negb].
    + cbn [jpost]. apply (push_words_len 5 (join_bits bits) n (wc_rb st) (wc_rbn st)); [lia|lia|auto|exact H5].
    + destruct (aget_in (wc_rb st) (Z.of_nat (length (wc_rb st)) - 1)) as (w & -> & _); [rewrite H5; dlia|]. cbn [jbind].
      edestruct (aset_in (wc_rb st) (Z.of_nat (length (wc_rb st)) - 1)) as (l' & -> & L & _); [rewrite H5; dlia|]. cbn [jbind jpost].
      apply push_words_len; [lia|lia| |].
      * destruct (Z.le_gt_cases (16 - wc_rbn st mod 16) n) as [G|G]; [left; rewrite Z.min_l by lia; dlia|right; rewrite Z.min_r by lia; lia].
      * rewrite L, H5. destruct (Z.le_gt_cases (16 - wc_rbn st mod 16) n) as [G|G]; [rewrite Z.min_l by lia|rewrite Z.min_r by lia]; dlia.
  - intros [rb cnt] [C1 C2]. destruct (_ <? cnt); [exact I|].
    assert (TT : tab_ok (if wc_eob st =? 0 then tab else wc_tab st)) by (destruct (Z.eqb_spec (wc_eob st) 0); [exact T|apply H3; lia]).
    destruct (Z.eqb_spec (wc_eob st + 1) 32767) as [E|E].
    + assert (G : jpost (flush (mkWC (wc_ops st) 32767 (if wc_eob st =? 0 then tab else wc_tab st) rb cnt)) (fun st' => wc_ok st' /\ wc_eob st' = 0)); [|rewrite E; eapply jpost_weaken; [exact G|tauto]].
      apply flush_upto. unfold wc_upto. cbn [wc_ops wc_eob wc_tab wc_rb wc_rbn]. split; [exact H1|]. split; [lia|]. auto.
    + cbn [jpost]. unfold wc_ok, wc_upto. cbn [wc_ops wc_eob wc_tab wc_rb wc_rbn]. split; [exact H1|]. split; [lia|]. auto.
Qed.

(** * One block *)
Definition dc15 (t : Z) : Prop := -16384 <= t <= 16383.
Definition blk_ok (b : list Z) : Prop := length b = 64%nat /\ dc15 (nth 0 b 0) /\ forall v, In v (tl b) -> Z.abs v <= 2054.

Lemma natural_ac k : 1 <= k <= 63 -> exists i, aget kNaturalOrder k = JOk i /\ 1 <= i <= 63.
Proof.
  intros H. assert (X : forallb (fun k => match aget kNaturalOrder (Z.of_nat k) with JOk i => (1 <=? i) && (i <=? 63) | _ => false end) (seq 1 63) = true) by (vm_compute; reflexivity).
  rewrite forallb_forall in X. specialize (X (Z.to_nat k)). rewrite Z2Nat.id in X by lia. specialize (X ltac:(apply in_seq; lia)).
  destruct (aget kNaturalOrder k) as [i| |]; try discriminate. exists i. split; [reflexivity|lia].
Qed.
Lemma zz_ac b k : blk_ok b -> 1 <= k <= 63 -> exists t, zz_get b k = JOk t /\ Z.abs t <= 2054.
Proof.
  intros (L & _ & A) H. unfold zz_get. destruct (natural_ac k H) as (i & -> & Hi). cbn [jbind].
  unfold aget. destruct (Z.ltb_spec i 0); [lia|]. destruct (nth_error b (Z.to_nat i)) as [t|] eqn:E; [|apply nth_error_None in E; lia].
  exists t. split; [reflexivity|]. apply A. destruct b as [|x b]; [discriminate|]. cbn [tl]. replace (Z.to_nat i) with (S (Z.to_nat (i - 1))) in E by lia. cbn [nth_error] in E. eapply nth_error_In; exact E.
Qed.
Lemma dc_get b : blk_ok b -> exists t, aget b 0 = JOk t /\ dc15 t.
Proof. intros (L & D & _). destruct b as [|t b]; [discriminate|]. exists t. split; [reflexivity|exact D]. Qed.

Lemma i16_small x : -32768 <= x <= 32767 -> to_i16 x = x.
Proof. intros H. unfold to_i16. dlia. Qed.

Lemma put_dc_wc tab t last st : tab_ok tab -> dc15 t -> dc15 last -> wc_ok st -> jpost (put_dc tab t last st) (fun r => fst r = t /\ wc_ok (snd r)).
Proof.
  unfold dc15. intros T Ht Hl H. unfold put_dc. rewrite i16_small by lia. set (d := t - last).
  assert (X : exists a v, (if d <? 0 then (to_i16 (- d), to_i16 (d - 1)) else (d, d)) = (a, v) /\ 0 <= a <= 32767).
  { destruct (Z.ltb_spec d 0); eexists; eexists; (split; [reflexivity|]); [rewrite i16_small; unfold d in *; lia|unfold d in *; lia]. }
  destruct X as (a & v & -> & Ha).
  assert (X : exists nb, (if a =? 0 then JOk 0 else let* l := log2nz a in JOk (l + 1)) = JOk nb /\ 0 <= nb <= 15).
  { destruct (Z.eqb_spec a 0); [exists 0; split; [reflexivity|lia]|]. unfold log2nz. destruct (Z.leb_spec a 0); [lia|]. cbn [jbind]. eexists. split; [reflexivity|].
    pose proof (Z.log2_nonneg a). assert (Z.log2 a < 15) by (apply Z.log2_lt_pow2; [lia|]; change (2 ^ 15) with 32768; lia). lia. }
  destruct X as (nb & -> & Hn). cbn [jbind]. eapply jpost_bind; [apply (put_sym_wc tab nb st T ltac:(lia) H)|]. intros st' H'. cbn [jpost fst snd]. split; [reflexivity|].
  destruct (Z.ltb_spec 0 nb); [apply wc_put; [cbn; lia|exact H']|exact H'].
Qed.

Lemma put_zrl_wc : forall fuel tab r st, tab_ok tab -> 0 <= r < 16 * Z.of_nat fuel -> wc_ok st -> jpost (put_zrl fuel tab r st) (fun x => 0 <= fst x <= 15 /\ wc_ok (snd x)).
Proof.
  induction fuel as [|f IH]; intros tab r st T Hr H; [lia|]. cbn [put_zrl]. destruct (Z.ltb_spec 15 r).
  - eapply jpost_bind; [apply (put_sym_wc tab 240 st T ltac:(lia) H)|]. intros st' H'. apply IH; [exact T|lia|exact H'].
  - cbn [jpost fst snd]. split; [lia|exact H].
Qed.
Lemma put_extra_wc tab : tab_ok tab -> forall n st, wc_ok st -> jpost (put_extra n tab st) wc_ok.
Proof.
  intros T. induction n as [|n IH]; intros st H; cbn [put_extra]; [exact H|]. eapply jpost_bind; [apply (put_sym_wc tab 240 st T ltac:(lia) H)|]. exact IH.
Qed.

Lemma put_coef_wc tab neg a r st : tab_ok tab -> 1 <= a <= 2054 -> 0 <= r < 80 -> wc_ok st -> jpost (put_coef tab neg a r st) wc_ok.
Proof.
  intros T Ha Hr H. unfold put_coef. eapply jpost_bind; [apply (put_zrl_wc 5 tab r st T); [lia|exact H]|]. intros [r' st'] [R W]. cbn [fst snd] in *.
  unfold log2nz. destruct (Z.leb_spec a 0); [lia|]. cbn [jbind].
  pose proof (Z.log2_nonneg a). assert (Z.log2 a < 12) by (apply Z.log2_lt_pow2; [lia|]; change (2 ^ 12) with 4096; lia).
  eapply jpost_bind; [apply (put_sym_wc tab _ st' T); [rewrite Z.shiftl_mul_pow2 by lia; change (2 ^ 4) with 16; lia|exact W]|].
  intros st2 W2. cbn [jpost]. apply wc_put; [cbn; lia|exact W2].
Qed.

Lemma ac_abs t : Z.abs t <= 2054 -> t <> 0 -> 1 <= (if t <? 0 then to_i16 (- t) else t) <= 2054.
Proof. intros H N. destruct (Z.ltb_spec t 0); [rewrite i16_small by lia|]; lia. Qed.

Lemma seq_ac_wc b tab : blk_ok b -> tab_ok tab -> forall fuel k r st, 1 <= k <= 64 -> 64 - k < Z.of_nat fuel -> 0 <= r < k -> wc_ok st ->
  jpost (seq_ac fuel b tab k r st) (fun x => wc_ok (snd x)).
Proof.
  intros B T. induction fuel as [|f IH]; intros k r st Hk Hf Hr H; [lia|]. cbn [seq_ac].
  destruct (Z.leb_spec 64 k); [exact H|]. destruct (zz_ac b k B ltac:(lia)) as (t & -> & Ht). cbn [jbind].
  destruct (Z.eqb_spec t 0); [apply IH; [lia|lia|lia|exact H]|].
  eapply jpost_bind; [apply put_coef_wc; [exact T|apply ac_abs; auto|lia|exact H]|]. intros st' H'. apply IH; [lia|lia|lia|exact H'].
Qed.

Lemma encode_seq_wc b dct act nzr last st : blk_ok b -> tab_ok dct -> tab_ok act -> dc15 last -> wc_ok st ->
  jpost (encode_seq b dct act nzr last st) (fun x => dc15 (fst x) /\ wc_ok (snd x)).
Proof.
  intros B Td Ta L H. unfold encode_seq. destruct (dc_get b B) as (t & -> & Dt). cbn [jbind].
  eapply jpost_bind; [apply (put_dc_wc dct t last st Td Dt L H)|]. intros [l st1] [E1 H1]. cbn [fst snd] in *. subst l.
  eapply jpost_bind; [apply (seq_ac_wc b act B Ta 64 1 0 st1); [lia|lia|lia|exact H1]|]. intros [r st2] H2. cbn [snd] in H2.
  eapply jpost_bind; [apply (put_extra_wc act Ta _ st2 H2)|]. intros st3 H3. cbv zeta.
  destruct (_ <? _); [|cbn [jpost fst snd]; auto]. eapply jpost_bind; [apply (put_sym_wc act 0 st3 Ta ltac:(lia) H3)|]. intros st4 H4. cbn [jpost fst snd]. auto.
Qed.

Lemma shr_small a al : 0 <= a <= 2054 -> 0 <= al -> 0 <= Z.shiftr a al <= 2054.
Proof.
  intros H A. rewrite Z.shiftr_div_pow2 by exact A. pose proof (pow2_pos al A). split; [apply Z.div_pos; lia|]. apply Z.div_le_upper_bound; [lia|]. nia.
Qed.
Lemma shr_dc t al : dc15 t -> 0 <= al -> dc15 (Z.shiftr t al).
Proof.
  unfold dc15. intros H A. rewrite Z.shiftr_div_pow2 by exact A. pose proof (pow2_pos al A). split; [apply Z.div_le_lower_bound; nia|].
  apply Z.lt_succ_r. apply Z.div_lt_upper_bound; nia.
Qed.

Lemma prog_ac_wc b tab se al : blk_ok b -> tab_ok tab -> se <= 63 -> 0 <= al -> forall fuel k r st, 1 <= k <= 64 -> 64 - k < Z.of_nat fuel -> 0 <= r < k -> wc_ok st ->
  jpost (prog_ac fuel b tab se al k r st) (fun x => wc_ok (snd x)).
Proof.
  intros B T Hs Ha. induction fuel as [|f IH]; intros k r st Hk Hf Hr H; [lia|]. cbn [prog_ac].
  destruct (Z.ltb_spec se k); [exact H|]. destruct (zz_ac b k B ltac:(lia)) as (t & -> & Ht). cbn [jbind].
  destruct (Z.eqb_spec t 0); [apply IH; [lia|lia|lia|exact H]|]. cbv zeta. pose proof (ac_abs t Ht ltac:(assumption)) as AA.
  pose proof (shr_small _ al ltac:(split; [|exact (proj2 AA)]; lia) Ha) as SA. set (a := Z.shiftr _ al) in *.
  destruct (Z.eqb_spec a 0); [apply IH; [lia|lia|lia|exact H]|].
  eapply jpost_bind; [apply (flush_wc st H)|]. intros st1 [H1 _].
  eapply jpost_bind; [apply (put_coef_wc tab (t <? 0) a r st1); [exact T|lia|lia|exact H1]|]. intros st' H'. apply IH; [lia|lia|lia|exact H'].
Qed.

Lemma encode_prog_wc b dct act ss se al nzr last st : blk_ok b -> tab_ok dct -> tab_ok act -> dc15 last -> wc_ok st -> 0 <= ss -> se <= 63 -> 0 <= al ->
  jpost (encode_prog b dct act ss se al nzr last st) (fun x => dc15 (fst x) /\ wc_ok (snd x)).
Proof.
  intros B Td Ta L H Hss Hse Hal. unfold encode_prog.
  eapply jpost_bind with (Q := fun x => dc15 (fst x) /\ wc_ok (snd x)).
  - destruct (ss =? 0); [|cbn [jpost fst snd]; auto]. destruct (dc_get b B) as (t & -> & Dt). cbn [jbind].
    eapply jpost_weaken; [apply (put_dc_wc dct (Z.shiftr t al) last st Td (shr_dc t al Dt Hal) L H)|]. intros [l s] [-> W]. cbn [fst snd] in *. split; [apply shr_dc; auto|exact W].
  - intros [l st1] [Dl H1]. cbn [fst snd] in Dl, H1. cbv zeta. set (s := if ss =? 0 then 1 else ss).
    assert (Hs : 1 <= s) by (unfold s; destruct (Z.eqb_spec ss 0); lia).
    destruct (Z.ltb_spec se s); [cbn [jpost fst snd]; auto|].
    eapply jpost_bind; [apply (prog_ac_wc b act se al B Ta Hse Hal 64 s 0 st1); [lia|lia|lia|exact H1]|]. intros [r st2] H2. cbn [snd] in H2.
    eapply jpost_bind with (Q := wc_ok).
    { destruct (_ <? _); [|exact H2]. eapply jpost_bind; [apply (flush_wc st2 H2)|]. intros st3 [H3 _]. apply (put_extra_wc act Ta _ st3 H3). }
    intros st3 H3. destruct (0 <? (if 0 <? nzr then r - 16 * nzr else r)); [|cbn [jpost fst snd]; auto].
    eapply jpost_bind; [apply (buffer_eob_wc act [] st3 Ta); [cbn [length]; lia|exact H3]|]. intros st4 H4.
    eapply jpost_bind with (Q := wc_ok); [destruct (0 <? ss); [exact H4|]; eapply jpost_weaken; [apply (flush_wc st4 H4)|]; intros ? [? _]; assumption|].
    intros st5 H5. cbn [jpost fst snd]. auto.
Qed.

(** ** Refinement *)
Lemma abs_ac b al k : blk_ok b -> 0 <= al -> 1 <= k <= 63 -> exists a, abs_at b al k = JOk a /\ 0 <= a <= 2054.
Proof.
  intros B Ha Hk. unfold abs_at. destruct (zz_ac b k B Hk) as (t & -> & Ht). cbn [jbind]. rewrite i16_small by lia. eexists. split; [reflexivity|]. apply shr_small; lia.
Qed.

(** [eob] is behind every coefficient that becomes non-zero in this scan. *)
Lemma last_new_spec b al se : blk_ok b -> 0 <= al -> se <= 63 -> forall fuel k eob, 1 <= k <= 64 -> 64 - k < Z.of_nat fuel -> eob < k ->
  jpost (last_new fuel b al k se eob) (fun e => eob <= e /\ forall i, k <= i <= se -> abs_at b al i = JOk 1 -> i <= e).
Proof.
  intros B Ha Hs. induction fuel as [|f IH]; intros k eob Hk Hf He; [lia|]. cbn [last_new].
  destruct (Z.ltb_spec se k); [cbn [jpost]; split; [lia|]; intros; lia|]. destruct (abs_ac b al k B Ha ltac:(lia)) as (a & E & R). rewrite E. cbn [jbind].
  eapply jpost_weaken; [apply IH; [lia|lia|destruct (a =? 1); lia]|]. cbv beta. intros e [E1 E2].
  destruct (Z.eqb_spec a 1) as [->|N].
  - split; [lia|]. intros i Hi Ei. destruct (Z.eq_dec i k) as [->|]; [lia|]. apply E2; [lia|exact Ei].
  - split; [lia|]. intros i Hi Ei. destruct (Z.eq_dec i k) as [->|]; [rewrite E in Ei; congruence|]. apply E2; [lia|exact Ei].
Qed.

Lemma put_each_wc : forall bits st, wc_ok st -> wc_ok (put_each bits st).
Proof.
  unfold put_each. induction bits as [|x bits IH]; intros st H; cbn [fold_left]; [exact H|]. apply IH. apply wc_put; [cbn; lia|exact H].
Qed.

Lemma ref_zrl_wc tab k eob : tab_ok tab -> forall fuel r bits st, 0 <= r < 16 * Z.of_nat fuel -> wc_ok st ->
  jpost (ref_zrl fuel tab k eob r bits st) (fun x => let '(r', (bits', st')) := x in 0 <= r' <= r /\ (k <= eob -> r' <= 15) /\ (length bits' <= length bits)%nat /\ wc_ok st').
Proof.
  intros T. induction fuel as [|f IH]; intros r bits st Hr H; [lia|]. cbn [ref_zrl].
  destruct (Z.ltb_spec 15 r) as [L15|L15]; cbn [andb].
  - destruct (Z.leb_spec k eob) as [LE|LE].
    + eapply jpost_bind; [apply (flush_wc st H)|]. intros st1 [H1 _]. eapply jpost_bind; [apply (put_sym_wc tab 240 st1 T ltac:(lia) H1)|]. intros st2 H2.
      eapply jpost_weaken; [apply (IH (r - 16) [] (put_each bits st2)); [lia|apply put_each_wc, H2]|]. intros (r' & bits' & st') (A1 & A2 & A3 & A4). cbn [length] in A3.
      split; [lia|]. split; [exact A2|]. split; [lia|exact A4].
    + cbn [jpost]. split; [lia|]. split; [lia|]. split; [lia|exact H].
  - cbn [jpost]. split; [lia|]. split; [lia|]. split; [lia|exact H].
Qed.

Lemma refw_ac_wc b tab se al eob k0 : blk_ok b -> tab_ok tab -> se <= 63 -> 0 <= al -> (forall i, k0 <= i <= se -> abs_at b al i = JOk 1 -> i <= eob) ->
  forall fuel k r bits st, 1 <= k <= 64 -> k0 <= k -> 64 - k < Z.of_nat fuel -> 0 <= r < k -> Z.of_nat (length bits) < k -> wc_ok st ->
  jpost (refw_ac fuel b tab se al eob k r bits st) (fun x => let '(_, (bits', st')) := x in (length bits' <= 63)%nat /\ wc_ok st').
Proof.
  intros B T Hs Ha HE. induction fuel as [|f IH]; intros k r bits st Hk Hk0 Hf Hr Hb H; [lia|]. cbn [refw_ac].
  destruct (Z.ltb_spec se k); [cbn [jpost]; split; [lia|exact H]|]. destruct (abs_ac b al k B Ha ltac:(lia)) as (a & E & R). rewrite E. cbn [jbind].
  destruct (Z.eqb_spec a 0); [apply IH; [lia|lia|lia|lia|lia|exact H]|].
  eapply jpost_bind; [apply (ref_zrl_wc tab k eob T 5 r bits st); [lia|exact H]|]. intros (r' & bits' & st') (A1 & A2 & A3 & A4).
  destruct (Z.ltb_spec 1 a) as [G|G].
  - apply IH; [lia|lia|lia|lia|rewrite app_length; cbn [length]; lia|exact A4].
  - assert (A0 : a = 1) by lia. subst a. specialize (A2 (HE k ltac:(lia) E)).
    eapply jpost_bind; [apply (flush_wc st' A4)|]. intros st1 [H1 _]. destruct (zz_ac b k B ltac:(lia)) as (t & -> & _). cbn [jbind].
    eapply jpost_bind; [apply (put_sym_wc tab _ st1 T); [rewrite Z.shiftl_mul_pow2 by lia; change (2 ^ 4) with 16; lia|exact H1]|]. intros st2 H2. cbv zeta.
    apply IH; [lia|lia|lia|lia|cbn [length]; lia|]. apply put_each_wc. apply wc_put; [cbn; lia|exact H2].
Qed.

Lemma encode_refine_wc b act ss se al st : blk_ok b -> tab_ok act -> wc_ok st -> 0 <= ss -> se <= 63 -> 0 <= al ->
  jpost (encode_refine b act ss se al st) wc_ok.
Proof.
  intros B Ta H Hss Hse Hal. unfold encode_refine. eapply jpost_bind with (Q := wc_ok).
  - destruct (ss =? 0); [|exact H]. destruct (dc_get b B) as (t & -> & _). cbn [jbind jpost]. apply wc_put; [cbn; lia|exact H].
  - intros st1 H1. cbv zeta. set (s := if ss =? 0 then 1 else ss). assert (Hs : 1 <= s) by (unfold s; destruct (Z.eqb_spec ss 0); lia).
    destruct (Z.ltb_spec se s) as [G|G]; [exact H1|].
    eapply jpost_bind; [apply (last_new_spec b al se B Hal Hse 64 s 0); lia|]. intros eob [_ HE].
    eapply jpost_bind; [apply (refw_ac_wc b act se al eob s B Ta Hse Hal HE 64 s 0 [] st1); [lia|lia|lia|lia|cbn [length]; lia|exact H1]|].
    intros (r & bits & st2) [L H2]. destruct (_ || _); [|exact H2].
    eapply jpost_bind; [apply (buffer_eob_wc act bits st2 Ta L H2)|]. intros st3 H3. destruct (0 <? ss); [exact H3|]. eapply jpost_weaken; [apply (flush_wc st3 H3)|]. intros ? [? _]; assumption.
Qed.
