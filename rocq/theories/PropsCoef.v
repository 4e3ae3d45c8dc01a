(** C38, C39, C40, C42: DC prediction, DC and AC sections. *)
From Verif Require Import Base Prob EntropyModel EntropyProofs LehmerModel LehmerProofs CtxTables CoefModel CoefProofs DCProofs ACProofs.
From Coq Require Import Permutation.

(** * Specification *)

(** The coefficients of one component: width x height blocks of 64 16-bit values. *)
Definition plane_ok (m : cmeta) (p : plane) : Prop := length p = (cm_w m * cm_h m)%nat /\ Forall block_ok p.

(** Every DC coefficient is within 2054 of its prediction from the neighbours. *)
Definition dc_within_limits (m : cmeta) (p : plane) : Prop :=
  forall x y, (x < cm_w m)%nat -> (y < cm_h m)%nat -> Z.abs (dc_at p (y * cm_w m + x) - predict (cm_w m) p x y) <= 2054.
(** Every AC coefficient is within 2054. *)
Definition ac_within_limits (p : plane) : Prop := forall b v, In b p -> In v (tl b) -> Z.abs v <= 2054.

(** Tables that can code a list of items. *)
Definition codable (cmap : list Z) (codes : list (list Z)) (its : list citem) : Prop :=
  forall h s, In (CSym h s) its -> exists t, table_of cmap codes h = Some t /\ counts_ok t /\ 0 < ans_freq t s.

(** The context numbers of the components: DC contexts first, then consecutive AC ranges
    (brunsli_encode.cc:1369-1376, brunsli_decode.cc:1818-1826). *)
Fixpoint context_layout (off : Z) (ms : list cmeta) : Prop :=
  match ms with
  | [] => True
  | m :: r => cm_off m = off /\ 0 <= cm_bits m < 7 /\ context_layout (off + skip_of (cm_bits m)) r
  end.
Definition num_contexts (ms : list cmeta) : Z := Z.of_nat (length ms) + sumZ (map (fun m => skip_of (cm_bits m)) ms).

(** * C38 *)

(** Rebuilding DC values from errors with the values already rebuilt and nothing else. *)
Fixpoint rebuild (w : nat) (acc : list Z) (es : list Z) : list Z :=
  match es with
  | [] => acc
  | e :: r =>
      let j := length acc in
      rebuild w (acc ++ [e + predict w (map (fun v => [v]) acc) (j mod w) (j / w)]) r
  end.

Lemma dc_at_map acc j : dc_at (map (fun v => [v]) acc) j = nth j acc 0.
Proof. unfold dc_at. revert j. induction acc as [|a acc IH]; intros j; destruct j; cbn [map nth]; try reflexivity. apply IH. Qed.

Lemma rebuild_errors w p : (0 < w)%nat -> forall n k es, dc_errors_from w p (seq k n) = Some es ->
  rebuild w (map (dc_at p) (seq 0 k)) es = map (dc_at p) (seq 0 (k + n)).
Proof.
  intros Hw. induction n as [|n IH]; intros k es H; cbn [seq dc_errors_from] in H.
  - injection H as <-. rewrite Nat.add_0_r. reflexivity.
  - destruct (2054 <? _); [discriminate|]. apply obind_some in H. destruct H as (t & E & H). injection H as <-. cbn [rebuild].
    rewrite map_length, seq_length.
    assert (predict w (map (fun v => [v]) (map (dc_at p) (seq 0 k))) (k mod w) (k / w) = predict w p (k mod w) (k / w)) as ->.
    { apply predict_ext; [apply Nat.mod_upper_bound; lia|]. intros j Hj.
      rewrite Nat.mul_comm in Hj. rewrite <- Nat.div_mod in Hj by lia. rewrite dc_at_map.
      rewrite (nth_indep _ 0 (dc_at p 0)) by (rewrite map_length, seq_length; exact Hj).
      rewrite map_nth, seq_nth by exact Hj. reflexivity. }
    replace (dc_at p k - predict w p (k mod w) (k / w) + predict w p (k mod w) (k / w)) with (dc_at p k) by lia.
    replace (map (dc_at p) (seq 0 k) ++ [dc_at p k]) with (map (dc_at p) (seq 0 (S k))) by (rewrite seq_S, map_app; reflexivity).
    rewrite (IH (S k) t E). f_equal. f_equal. lia.
Qed.

Theorem C38_dc_prediction_is_reversible :
  forall (m : cmeta) (p : plane) (es : list Z), (0 < cm_w m)%nat -> length p = (cm_w m * cm_h m)%nat ->
    dc_errors m p = Some es -> rebuild (cm_w m) [] es = map (fun b => nth 0 b 0) p.
Proof.
  intros m p es Hw L H. pose proof (rebuild_errors (cm_w m) p Hw _ 0 es H) as R0. cbn [seq map] in R0. rewrite R0. clear R0. cbn [Nat.add]. rewrite <- L.
  apply nth_error_ext. intros i. rewrite !nth_error_map. destruct (le_lt_dec (length p) i) as [G|G].
  - rewrite !(proj2 (nth_error_None _ _)) by (rewrite ?seq_length; exact G). reflexivity.
  - rewrite nth_error_seq by exact G. cbn [option_map Nat.add].
    destruct (nth_error p i) as [b|] eqn:E; [|apply nth_error_None in E; lia].
    transitivity (Some (nth 0 b 0)); [|unfold plane, block in *; rewrite E; reflexivity]. f_equal.
    unfold dc_at. pose proof (nth_error_nth' _ _ _ [] E) as R. unfold plane, block in *. rewrite R. reflexivity.
Qed.
Print Assumptions C38_dc_prediction_is_reversible.

(** The errors are computed exactly when the DC values are within the limits. *)
Lemma dc_errors_from_total w p : forall js, (forall j, In j js -> Z.abs (dc_at p j - predict w p (j mod w) (j / w)) <= 2054) ->
  exists es, dc_errors_from w p js = Some es.
Proof.
  induction js as [|j js IH]; intros H; cbn [dc_errors_from]; [eexists; reflexivity|].
  pose proof (H j (or_introl eq_refl)). destruct (Z.ltb_spec 2054 (Z.abs (dc_at p j - predict w p (j mod w) (j / w)))); [lia|].
  destruct IH as (es & ->); [intros; apply H; right; assumption|]. eexists. reflexivity.
Qed.

Theorem C38_errors_computed_iff_within_limits :
  forall (m : cmeta) (p : plane), (0 < cm_w m)%nat -> ((exists es, dc_errors m p = Some es) <-> dc_within_limits m p).
Proof.
  intros m p Hw. split.
  - intros [es H] x y Hx Hy. destruct (dc_errors_nth m p es x y H Hx Hy) as (e & _ & <- & B). exact B.
  - intros H. apply dc_errors_from_total. intros j Hj. apply in_seq in Hj.
    assert (j mod cm_w m < cm_w m)%nat as M by (apply Nat.mod_upper_bound; lia).
    assert (j / cm_w m < cm_h m)%nat as D by (apply Nat.div_lt_upper_bound; lia).
    pose proof (H _ _ M D) as B. replace (j / cm_w m * cm_w m + j mod cm_w m)%nat with j in B; [exact B|].
    rewrite Nat.mul_comm. apply Nat.div_mod. lia.
Qed.
Print Assumptions C38_errors_computed_iff_within_limits.

(** * C39 *)

Lemma omap2_spec {A B C} (f : A -> B -> option C) : forall l1 l2, Forall2 (fun a b => exists c, f a b = Some c) l1 l2 ->
  exists l, omap2 f l1 l2 = Some l /\ (forall i a b, nth_error l1 i = Some a -> nth_error l2 i = Some b -> exists c, nth_error l i = Some c /\ f a b = Some c) /\
    length l = length l1.
Proof.
  intros l1 l2 H. induction H as [|a b l1 l2 [c E] H IH]; cbn [omap2].
  - exists []. split; [reflexivity|]. split; [|reflexivity]. intros i a b Ha. destruct i; discriminate.
  - destruct IH as (l & El & G & L). rewrite E. unfold obind at 1. rewrite El. unfold obind. exists (c :: l). split; [reflexivity|]. split; [|cbn [length]; lia].
    intros i a' b' Ha Hb. destruct i; cbn [nth_error] in *; [|apply G; assumption]. injection Ha as <-. injection Hb as <-. exists c. auto.
Qed.
Lemma omap2_none {A B C} (f : A -> B -> option C) l1 l2 l : omap2 f l1 l2 = Some l -> Forall2 (fun a b => exists c, f a b = Some c) l1 l2.
Proof.
  revert l2 l. induction l1 as [|a l1 IH]; intros l2 l H; destruct l2 as [|b l2]; cbn [omap2] in H; try discriminate; [constructor|].
  apply obind_some in H. destruct H as (c & E & H). apply obind_some in H. destruct H as (t & E' & H). constructor; [eauto|]. eapply IH; exact E'.
Qed.

Lemma Forall2_nth {A B} (P : A -> B -> Prop) l1 l2 : Forall2 P l1 l2 -> forall i a, nth_error l1 i = Some a -> exists b, nth_error l2 i = Some b /\ P a b.
Proof. intros H. induction H as [|a b l1 l2 E H IH]; intros i x Hx; destruct i; cbn [nth_error] in *; try discriminate; [injection Hx as <-; eauto|apply IH, Hx]. Qed.
Lemma Forall2_len {A B} (P : A -> B -> Prop) l1 l2 : Forall2 P l1 l2 -> length l1 = length l2.
Proof. intros H. induction H; cbn [length]; lia. Qed.
Lemma nth_error_repeat' {A} (a : A) n i : (i < n)%nat -> nth_error (repeat a n) i = Some a.
Proof. apply nth_error_repeat. Qed.

Lemma codable_has_table cmap codes its : codable cmap codes its -> Forall (has_table cmap codes) its.
Proof.
  intros H. apply Forall_forall. intros c Hc. destruct c; cbn [has_table]; auto. destruct (H _ _ Hc) as (t & E & _). eauto.
Qed.
Lemma codable_items_ok cmap codes lim its : codable cmap codes its -> Forall (cshape lim) its -> items_ok (map (resolve cmap codes) its).
Proof.
  intros H F. unfold items_ok. apply Forall_forall. intros it Hit. apply in_map_iff in Hit. destruct Hit as (c & <- & Hc).
  rewrite Forall_forall in F. specialize (F c Hc). destruct c; cbn [resolve item_ok cshape] in *; auto.
  destruct (H _ _ Hc) as (t & E & C & G). rewrite E. split; [exact C|]. split; [lia|exact G].
Qed.
Lemma codable_app cmap codes a b : codable cmap codes (a ++ b) -> codable cmap codes a /\ codable cmap codes b.
Proof. intros H. split; intros h s I; apply H, in_or_app; auto. Qed.

Lemma all_visited {A} (ms : list cmeta) (f : cmeta -> A) i m : nth_error ms i = Some m -> nth_error (map f ms) i = Some (f m).
Proof. intros H. rewrite nth_error_map, H. reflexivity. Qed.

(** The block state the decoder needs: residual and AC coefficients all zero. *)
Definition is_empty_block (m : cmeta) (p : plane) (x y : nat) : Prop :=
  dc_at p (y * cm_w m + x) = predict (cm_w m) p x y /\ Forall (fun v => v = 0) (tl (nth (y * cm_w m + x) p [])).

Lemma has_ac_false b : has_ac b = false <-> Forall (fun v => v = 0) (tl b).
Proof.
  unfold has_ac. rewrite negb_false_iff, forallb_forall, Forall_forall. split; intros H v Hv; specialize (H v Hv); lia.
Qed.

Theorem C39_dc_round_trip :
  forall (ms : list cmeta) (planes : list plane),
    metas_ok ms -> Forall2 plane_ok ms planes -> Forall2 dc_within_limits ms planes ->
    exists its flags, encode_dc ms planes = Some (its, flags) /\
      (forall i m p, nth_error ms i = Some m -> nth_error planes i = Some p ->
         exists fl, nth_error flags i = Some fl /\ length fl = length p /\
           forall x y, (x < cm_w m)%nat -> (y < cm_h m)%nat ->
             exists e, nth_error fl (y * cm_w m + x) = Some e /\ (e = true <-> is_empty_block m p x y)) /\
      Forall (cshape (9 * Z.of_nat (length ms))) its /\ length flags = length ms /\
      forall cmap codes, codable cmap codes its ->
        edecode (decode_dc_prog cmap codes ms) (encode_items (map (resolve cmap codes) its)) = Some (map (map dc_only) planes, flags).
Proof.
  intros ms planes M P L.
  assert (Forall2 (fun m p => exists es, dc_errors m p = Some es) ms planes) as HE.
  { clear P. unfold metas_ok in M. revert M. generalize (mcu_rows ms) as rows. intros rows M. induction L as [|m p ms planes L0 L IH]; [constructor|].
    constructor; [|apply IH, (Forall_inv_tail M)]. apply C38_errors_computed_iff_within_limits; [apply (Forall_inv M)|exact L0]. }
  destruct (omap2_spec dc_errors ms planes HE) as (errs & Eo & En & Le).
  pose proof (walk_visits ms M) as Wk. pose proof (Forall2_len _ _ _ P) as Lm.
  set (sts := map (fun m => dc_init (cm_w m)) ms). set (fl0 := map (fun m => repeat false (cm_w m * cm_h m)) ms).
  set (dp0 := map (fun m => repeat (repeat 0 64) (cm_w m * cm_h m)) ms).
  assert (dc_inv ms errs planes (repeat O (length ms)) sts fl0 fl0 dp0) as I0.
  { intros i m Em. destruct (Forall2_nth _ _ _ P i m Em) as (p & Ep & Lp & Bp). destruct (En i m p Em Ep) as (es & Ees & Hes).
    exists O, (dc_init (cm_w m)), (repeat false (cm_w m * cm_h m)), (repeat false (cm_w m * cm_h m)), p, es.
    unfold sts, fl0, dp0. rewrite !(all_visited ms _ i m Em). split; [apply nth_error_repeat, (nth_error_lt _ _ _ Em)|].
    split; [reflexivity|]. split; [reflexivity|]. split; [reflexivity|]. split; [exact Ep|]. split; [exact Ees|]. split.
    - f_equal. rewrite mixed_0. rewrite <- Lp. clear. induction p as [|b p IH]; [reflexivity|]. cbn [length map]. rewrite <- IH. reflexivity.
    - split; [lia|]. split; [apply dc_init_ok|]. split; [exact Lp|]. split; [exact Bp|]. split; [exact Hes|].
      split; (split; [rewrite repeat_length; symmetry; exact Lp|intros j Hj; lia]). }
  destruct (dc_run ms errs planes [] [] (visits ms) _ _ _ _ _ _ Wk I0) as (its & flags & En1 & Sh & sts' & dplanes' & dflags' & Inv & _ & LL).
  exists its, flags. split; [unfold encode_dc; rewrite Eo; exact En1|].
  assert (forall sts' flags dflags' dplanes', dc_inv ms errs planes (map (fun m => (cm_w m * cm_h m)%nat) ms) sts' flags dflags' dplanes' ->
    forall i m p, nth_error ms i = Some m -> nth_error planes i = Some p -> exists fl dfl es, nth_error flags i = Some fl /\ nth_error dflags' i = Some dfl /\
      fl = dfl /\ nth_error dplanes' i = Some (map dc_only p) /\ dc_errors m p = Some es /\ length fl = length p /\ length p = (cm_w m * cm_h m)%nat /\
      forall j, (j < length p)%nat -> nth_error fl j = Some (empty_flag es p j)) as Fin.
  { clear Inv. intros s1 f1 d1 p1 Inv i m p Em Ep. destruct (Inv i m Em) as (c & st & fl & dfl & p' & es & Ec & _ & Ef & Edf & Ep' & _ & Edp & _ & _ & Lp & _ & Ees & [F1 F2] & [G1 G2]).
    rewrite Ep in Ep'. injection Ep' as <-. rewrite (all_visited ms _ i m Em) in Ec. injection Ec as <-. exists fl, dfl, es.
    split; [exact Ef|]. split; [exact Edf|]. split; [|split; [|split; [|split; [|split]]]].
    - apply nth_error_ext. intros j. destruct (le_lt_dec (length p) j) as [H|H]; [rewrite !(proj2 (nth_error_None _ _)) by lia; reflexivity|].
      rewrite F2, G2 by lia. reflexivity.
    - rewrite Edp. f_equal. apply mixed_all. lia.
    - exact Ees.
    - exact F1.
    - exact Lp.
    - intros j Hj. apply F2. lia. }
  split; [|split; [exact Sh|split]].
  - intros i m p Em Ep. destruct (Fin _ _ _ _ Inv i m p Em Ep) as (fl & _ & es & Ef & _ & _ & _ & Ees & Lfl & Lp & Ff).
    exists fl. split; [exact Ef|]. split; [exact Lfl|]. intros x y Hx Hy.
    assert (y * cm_w m + x < length p)%nat as Hj by (rewrite Lp; nia).
    exists (empty_flag es p (y * cm_w m + x)). split; [apply Ff, Hj|].
    destruct (dc_errors_nth m p es x y Ees Hx Hy) as (e & Ee & Ve & _). unfold empty_flag, is_empty_block. rewrite (nth_error_nth' es _ e 0 Ee).
    rewrite andb_true_iff, negb_true_iff, has_ac_false, Z.eqb_eq. split; intros [H1 H2]; (split; [lia|exact H2]).
  - destruct LL as (_ & L2 & _ & _). rewrite L2. unfold fl0. apply map_length.
  - intros cmap codes Cd.
    destruct (dc_run ms errs planes cmap codes (visits ms) _ _ _ _ _ _ Wk I0) as (its2 & flags2 & En2 & Sh2 & sts2 & dplanes2 & dflags2 & Inv2 & Lk2 & LL2).
    rewrite En1 in En2. injection En2 as <- <-.
    assert (dplanes2 = map (map dc_only) planes) as Hdp.
    { apply nth_error_ext. intros i. rewrite nth_error_map. destruct (nth_error ms i) as [m|] eqn:Em.
      - destruct (Forall2_nth _ _ _ P i m Em) as (p & Ep & _). destruct (Fin _ _ _ _ Inv2 i m p Em Ep) as (fl & dfl & es & _ & _ & _ & E & _). unfold plane, block in *. rewrite E, Ep. reflexivity.
      - apply nth_error_None in Em. destruct LL2 as (_ & _ & _ & L4). unfold dp0 in L4. rewrite map_length in L4.
        etransitivity; [apply nth_error_None; lia|]. pose proof (proj2 (nth_error_None planes i) ltac:(lia)) as Hn. unfold plane, block in *. rewrite Hn. reflexivity. }
    assert (dflags2 = flags) as Hdf.
    { apply nth_error_ext. intros i. destruct (nth_error ms i) as [m|] eqn:Em.
      - destruct (Forall2_nth _ _ _ P i m Em) as (p & Ep & _). destruct (Fin _ _ _ _ Inv2 i m p Em Ep) as (fl & dfl & es & E1 & E2 & <- & _). rewrite E1, E2. reflexivity.
      - apply nth_error_None in Em. destruct LL2 as (_ & L2 & L3 & _). unfold fl0 in L2, L3. rewrite map_length in L2, L3.
        rewrite !(proj2 (nth_error_None _ _)) by lia. reflexivity. }
    subst dplanes2 dflags2.
    apply entropy_roundtrip; [eapply codable_items_ok; [exact Cd|exact Sh]|].
    pose proof (Lk2 (codable_has_table _ _ _ Cd) []) as K. rewrite app_nil_r in K. exact K.
Qed.
Print Assumptions C39_dc_round_trip.

(** The encoder refuses exactly when a DC coefficient is too far from its prediction. *)
Theorem C39_encoder_refuses_large_errors :
  forall (ms : list cmeta) (planes : list plane) i m p, nth_error ms i = Some m -> nth_error planes i = Some p -> (0 < cm_w m)%nat ->
    ~ dc_within_limits m p -> encode_dc ms planes = None.
Proof.
  intros ms planes i m p Em Ep Hw H. unfold encode_dc. destruct (omap2 dc_errors ms planes) as [errs|] eqn:E; [|reflexivity].
  exfalso. apply H. apply omap2_none in E. destruct (Forall2_nth _ _ _ E i m Em) as (p' & Ep' & G). rewrite Ep in Ep'. injection Ep' as <-.
  apply C38_errors_computed_iff_within_limits; assumption.
Qed.
Print Assumptions C39_encoder_refuses_large_errors.

(** * C40 *)

Lemma sumZ_app l1 l2 : sumZ (l1 ++ l2) = sumZ l1 + sumZ l2.
Proof. unfold sumZ. induction l1; cbn [app fold_right]; lia. Qed.

Lemma skip_pos bits : 0 <= bits < 7 -> 0 < skip_of bits.
Proof. intros H. assert (bits = 0 \/ bits = 1 \/ bits = 2 \/ bits = 3 \/ bits = 4 \/ bits = 5 \/ bits = 6) as D by lia. unfold skip_of. repeat (destruct D as [-> |D]; [reflexivity|]). subst. reflexivity. Qed.

Lemma context_layout_fits ms : forall off, 0 <= off -> context_layout off ms -> forall i m, nth_error ms i = Some m ->
  meta_fits m ((off + sumZ (map (fun m => skip_of (cm_bits m)) ms)) * 9).
Proof.
  induction ms as [|m ms IH]; intros off Ho L0 i m' Em; destruct i; cbn [nth_error] in Em; try discriminate; destruct L0 as (E & B & L).
  - injection Em as <-. cbn [map]. unfold sumZ. cbn [fold_right]. fold (sumZ (map (fun m => skip_of (cm_bits m)) ms)).
    assert (0 <= sumZ (map (fun m => skip_of (cm_bits m)) ms)) as S.
    { clear -L. revert L. generalize (off + skip_of (cm_bits m)). induction ms as [|m0 ms IH]; intros o L; [cbn; lia|]. cbn [map]. unfold sumZ. cbn [fold_right].
      fold (sumZ (map (fun m => skip_of (cm_bits m)) ms)). destruct L as (_ & B & L). pose proof (skip_pos _ B). pose proof (IH _ L). lia. }
    unfold meta_fits. lia.
  - pose proof (skip_pos _ B) as Sp. pose proof (IH (off + skip_of (cm_bits m)) ltac:(lia) L i m' Em) as H. cbn [map]. unfold sumZ in *. cbn [fold_right] in *.
    unfold meta_fits in *. lia.
Qed.

Lemma ac_consts_ok m o : order_ok o -> ak_ok (ac_consts m o).
Proof. intros H. split; [exact H|]. unfold ac_consts, mult_row, mult_col. cbn [ak_mrow ak_mcol]. rewrite !map_length, seq_length. auto. Qed.

Lemma ac_limits_bounded p b : ac_within_limits p -> In b p -> ac_bounded b.
Proof.
  intros H I i v Hi E. apply (H b v I). destruct b as [|a b]; [apply zget_some in E; cbn in E; destruct E as [_ []]|]. unfold zget in E. destruct (Z.ltb_spec i 0); [lia|].
  replace (Z.to_nat i) with (S (Z.to_nat (i - 1))) in E by lia. cbn [nth_error] in E. cbn [tl]. eapply nth_error_In. exact E.
Qed.

Lemma orders_round_trip orders : Forall order_ok orders -> exists a, encode_orders orders = Some a /\ items_ok a /\
  forall rest, eaccept (decode_orders (length orders)) (a ++ rest) = Some (orders, rest).
Proof.
  intros F. induction F as [|o l H F IH]; cbn [encode_orders decode_orders length].
  - exists []. split; [reflexivity|]. split; [constructor|]. intros rest. reflexivity.
  - destruct (coeff_order_roundtrip o H) as (a & E & I & K). destruct IH as (t & E2 & I2 & K2). rewrite E. unfold obind at 1. rewrite E2. unfold obind.
    exists (a ++ t). split; [reflexivity|]. split; [apply Forall_app; auto|]. intros rest. rewrite eaccept_ebind, <- app_assoc, K, eaccept_ebind, K2. reflexivity.
Qed.

Definition all_empty_ok (ms : list cmeta) (planes : list plane) (flags : list (list bool)) : Prop :=
  forall i m p, nth_error ms i = Some m -> nth_error planes i = Some p -> exists fl, nth_error flags i = Some fl /\ length fl = length p /\
    forall j b, nth_error fl j = Some true -> nth_error p j = Some b -> Forall (fun v => v = 0) (tl b).

Lemma dc_only_self b : length b = 64%nat -> Forall (fun v => v = 0) (tl b) -> dc_only b = b.
Proof.
  intros L F. destruct b as [|v b]; [discriminate|]. unfold dc_only. cbn [nth tl] in *. f_equal. cbn [length] in L. injection L as L. rewrite <- L.
  clear L. induction b as [|x b IH]; [reflexivity|]. cbn [length repeat]. rewrite (Forall_inv F). f_equal. apply IH, (Forall_inv_tail F).
Qed.

Theorem C40_ac_round_trip :
  forall (legacy : bool) (ms : list cmeta) (orders : list (list Z)) (planes : list plane) (flags : list (list bool)),
    metas_ok ms -> context_layout (Z.of_nat (length ms)) ms -> length orders = length ms -> Forall order_ok orders ->
    Forall2 plane_ok ms planes -> Forall ac_within_limits planes -> all_empty_ok ms planes flags ->
    exists head its, encode_ac legacy ms orders planes flags = Some (head, its) /\ Forall (cshape (9 * num_contexts ms)) its /\
      forall cmap codes, codable cmap codes its ->
        edecode (decode_ac_prog cmap codes legacy ms flags (map (map dc_only) planes)) (encode_items (head ++ map (resolve cmap codes) its)) = Some planes.
Proof.
  intros legacy ms orders planes flags M Lay Lo Fo P La Em0.
  destruct (orders_round_trip orders Fo) as (head & Eh & Ih & Kh).
  assert (Forall2 (fun m o => exists c, Some (ac_consts m o) = Some c) ms orders) as HE.
  { clear -Lo. revert orders Lo. induction ms as [|m ms IH]; intros orders L; destruct orders; cbn [length] in L; try lia; constructor; eauto. }
  destruct (omap2_spec _ ms orders HE) as (aks & Ea & Ena & Lak).
  pose proof (walk_visits ms M) as Wk. set (lim := 9 * num_contexts ms).
  assert (forall i m, nth_error ms i = Some m -> ac_comp_ok lim aks planes flags i m) as Cok.
  { intros i m Em. destruct (Forall2_nth _ _ _ P i m Em) as (p & Ep & Lp & Bp). destruct (Em0 i m p Em Ep) as (fl & Ef & Lf & Hf).
    assert (exists o, nth_error orders i = Some o) as [o Eo].
    { destruct (nth_error orders i) as [o|] eqn:E; [eauto|]. apply nth_error_None in E. pose proof (nth_error_lt _ _ _ Em). lia. }
    destruct (Ena i m o Em Eo) as (ak & Eak & Hak). injection Hak as <-. exists (ac_consts m o), p, fl.
    split; [exact Eak|]. split; [exact Ep|]. split; [exact Ef|]. split; [apply ac_consts_ok; rewrite Forall_forall in Fo; apply Fo, (nth_error_In _ _ Eo)|].
    split. { pose proof (context_layout_fits ms _ (Nat2Z.is_nonneg _) Lay i m Em) as H. unfold lim, num_contexts. rewrite Z.mul_comm. exact H. }
    split; [exact Lp|]. split; [unfold plane, block in *; lia|]. split.
    - apply Forall_forall. intros b Hb. rewrite Forall_forall in Bp. split; [apply (Bp b Hb)|]. rewrite Forall_forall in La. eapply ac_limits_bounded; [apply La, (nth_error_In _ _ Ep)|exact Hb].
    - intros j b Hj Hb. apply dc_only_self; [|apply (Hf j b Hj Hb)]. rewrite Forall_forall in Bp. apply (Bp b (nth_error_In _ _ Hb)). }
  assert (ac_inv ms planes (repeat O (length ms)) (map (fun m => ac_init (cm_w m)) ms) (map (map dc_only) planes)) as I0.
  { intros i m p Em Ep. exists O, (ac_init (cm_w m)). split; [apply nth_error_repeat, (nth_error_lt _ _ _ Em)|].
    split; [apply (all_visited ms (fun m => ac_init (cm_w m)) i m Em)|]. split; [apply (map_nth_error (map dc_only)), Ep|]. split; [lia|apply ac_init_ok]. }
  destruct (ac_run lim legacy ms aks planes flags [] [] Cok (visits ms) _ _ _ _ Wk I0) as (its & E & Sh & _).
  exists head, its. split; [unfold encode_ac; rewrite Eh; unfold obind at 1; rewrite Ea; unfold obind at 1; rewrite E; reflexivity|]. split; [exact Sh|].
  intros cmap codes Cd.
  destruct (ac_run lim legacy ms aks planes flags cmap codes Cok (visits ms) _ _ _ _ Wk I0) as (its2 & E2 & _ & sts2 & dp2 & Inv2 & Ld & Lk).
  rewrite E in E2. injection E2 as <-.
  assert (dp2 = planes) as Hdp.
  { apply nth_error_ext. intros i. destruct (nth_error ms i) as [m|] eqn:Em.
    - destruct (Forall2_nth _ _ _ P i m Em) as (p & Ep & Lp & _). destruct (Inv2 i m p Em Ep) as (c & st & Ec & _ & Ed & _).
      rewrite (all_visited ms _ i m Em) in Ec. injection Ec as <-. rewrite Ed, Ep. f_equal. rewrite mixed_all by lia. apply map_id.
    - apply nth_error_None in Em. pose proof (Forall2_len _ _ _ P) as Lm. rewrite map_length in Ld. rewrite (proj2 (nth_error_None dp2 i)) by (unfold plane, block in *; lia). symmetry. apply nth_error_None. lia. }
  subst dp2. apply entropy_roundtrip; [apply Forall_app; split; [exact Ih|eapply codable_items_ok; [exact Cd|exact Sh]]|].
  unfold decode_ac_prog. rewrite <- Lo, eaccept_ebind, Kh, Ea. cbn [eget].
  pose proof (Lk (codable_has_table _ _ _ Cd) []) as K. rewrite app_nil_r in K. exact K.
Qed.
Print Assumptions C40_ac_round_trip.

(** Both sections together: every coefficient of every component comes back. *)
Theorem C40_coefficients_round_trip :
  forall (legacy : bool) (ms : list cmeta) (orders : list (list Z)) (planes : list plane),
    metas_ok ms -> context_layout (Z.of_nat (length ms)) ms -> length orders = length ms -> Forall order_ok orders ->
    Forall2 plane_ok ms planes -> Forall2 dc_within_limits ms planes -> Forall ac_within_limits planes ->
    exists dcits flags head acits,
      encode_dc ms planes = Some (dcits, flags) /\ encode_ac legacy ms orders planes flags = Some (head, acits) /\
      Forall (cshape (9 * num_contexts ms)) (dcits ++ acits) /\
      forall cmap codes, codable cmap codes (dcits ++ acits) ->
        exists planes1,
          edecode (decode_dc_prog cmap codes ms) (encode_items (map (resolve cmap codes) dcits)) = Some (planes1, flags) /\
          edecode (decode_ac_prog cmap codes legacy ms flags planes1) (encode_items (head ++ map (resolve cmap codes) acits)) = Some planes.
Proof.
  intros legacy ms orders planes M Lay Lo Fo P Ld La.
  destruct (C39_dc_round_trip ms planes M P Ld) as (dcits & flags & E1 & F1 & S1 & Lf & R1).
  destruct (C40_ac_round_trip legacy ms orders planes flags M Lay Lo Fo P La) as (head & acits & E2 & S2 & R2).
  { intros i m p Em Ep. destruct (Forall2_nth _ _ _ P i m Em) as (p' & Ep' & Lp & _). rewrite Ep in Ep'. injection Ep' as <-.
    destruct (F1 i m p Em Ep) as (fl & Ef & Lfl & Hf). exists fl. split; [exact Ef|]. split; [exact Lfl|].
    intros j b Hj Hb. pose proof (nth_error_lt _ _ _ Hb) as Hlt. rewrite Lp in Hlt.
    assert (0 < cm_w m)%nat as Hw by (destruct (cm_w m); lia).
    assert (j mod cm_w m < cm_w m)%nat as Hm by (apply Nat.mod_upper_bound; lia).
    assert (j / cm_w m < cm_h m)%nat as D by (apply Nat.div_lt_upper_bound; lia).
    assert (j / cm_w m * cm_w m + j mod cm_w m = j)%nat as Ej by (rewrite (Nat.mul_comm (j / cm_w m)); symmetry; apply Nat.div_mod; lia).
    destruct (Hf _ _ Hm D) as (e & Ee & He). unfold is_empty_block in He. rewrite Ej in He, Ee. rewrite Hj in Ee. injection Ee as <-.
    destruct (proj1 He eq_refl) as [_ H]. pose proof (nth_error_nth' _ _ _ [] Hb) as R. unfold plane, block in *. rewrite R in H. exact H. }
  exists dcits, flags, head, acits. split; [exact E1|]. split; [exact E2|]. split.
  { apply Forall_app. split; [|exact S2]. eapply cshapes_mono; [|exact S1]. unfold num_contexts.
    assert (forall off l, context_layout off l -> 0 <= sumZ (map (fun m => skip_of (cm_bits m)) l)) as Sp.
    { intros off l. revert off. induction l as [|m0 l IH]; intros o L; [cbn; lia|]. cbn [map]. unfold sumZ. cbn [fold_right].
      fold (sumZ (map (fun m => skip_of (cm_bits m)) l)). destruct L as (_ & B & L). pose proof (skip_pos _ B). pose proof (IH _ L). lia. }
    pose proof (Sp _ _ Lay). lia. }
  intros cmap codes Cd. apply codable_app in Cd. destruct Cd as [Cd1 Cd2]. exists (map (map dc_only) planes). split; [apply R1, Cd1|apply R2, Cd2].
Qed.
Print Assumptions C40_coefficients_round_trip.

(** * C42 *)

Lemma erun_ebind {A B} (p : eprog A) (f : A -> eprog B) : forall d, erun (ebind p f) d = match erun p d with Some (a, d') => erun (f a) d' | None => None end.
Proof.
  induction p as [a| |q k IH|c k IH|n k IH]; intros d; cbn [ebind erun]; try reflexivity.
  - destruct (read_bit q d) as [b d']. apply IH.
  - destruct (read_symbol c d) as [[b d']|]; [apply IH|reflexivity].
  - destruct (read_bits n d) as [b d']. apply IH.
Qed.

(** The state of the planes between the two sections: only DC values set. *)
Definition dc_planes_ok (ms : list cmeta) (planes : list plane) (flags : list (list bool)) : Prop :=
  length planes = length ms /\ length flags = length ms /\
  forall i m, nth_error ms i = Some m -> exists p fl, nth_error planes i = Some p /\ nth_error flags i = Some fl /\
    length p = (cm_w m * cm_h m)%nat /\ length fl = (cm_w m * cm_h m)%nat /\
    Forall (fun b => exists v, b = v :: repeat 0 63 /\ -32768 <= v <= 32767) p.

Lemma esafe_mono' {A} (P Q : A -> Prop) p : (forall a, P a -> Q a) -> esafe P p -> esafe Q p.
Proof. intros H K. eapply esafe_mono; eassumption. Qed.

Lemma decode_dc_esafe cmap codes ms : metas_ok ms -> tables_ok cmap codes (9 * Z.of_nat (length ms)) ->
  esafe (fun '(planes, flags) => dc_planes_ok ms planes flags /\
      forall i m p x y, nth_error ms i = Some m -> nth_error planes i = Some p -> (x < cm_w m)%nat -> (y < cm_h m)%nat ->
        exists r, Z.abs r <= 2054 /\ dc_at p (y * cm_w m + x) = to_i16 (r + predict (cm_w m) p x y)) (decode_dc_prog cmap codes ms).
Proof.
  intros M T. unfold decode_dc_prog. eapply esafe_mono'; [|eapply dec_dc_safe; [exact T|apply walk_visits, M|]].
  - intros [planes flags] (sts' & I & L1 & L2). rewrite map_length in L1. rewrite map_length in L2. split.
    + split; [exact L1|]. split; [exact L2|]. intros i m Em. destruct (I i m Em) as (c & st & p & fl & Ec & _ & Ep & Ef & _ & _ & (Lp & Bp & _) & Lf).
      exists p, fl. split; [exact Ep|]. split; [exact Ef|]. split; [exact Lp|]. split; [exact Lf|]. apply Forall_forall. intros b Hb.
      apply In_nth_error in Hb. destruct Hb as [j Hj]. exact (Bp j b Hj).
    + intros i m p x y Em Ep Hx Hy. destruct (I i m Em) as (c & st & p' & fl & Ec & _ & Ep' & _ & _ & _ & (_ & _ & Rp) & _). rewrite Ep in Ep'. injection Ep' as <-.
      apply Rp; [exact Hx|]. rewrite (all_visited ms _ i m Em) in Ec. injection Ec as <-. nia.
  - intros i m Em. exists O, (dc_init (cm_w m)), (repeat (repeat 0 64) (cm_w m * cm_h m)), (repeat false (cm_w m * cm_h m)).
    rewrite !(all_visited ms _ i m Em). split; [apply nth_error_repeat, (nth_error_lt _ _ _ Em)|]. split; [reflexivity|]. split; [reflexivity|]. split; [reflexivity|].
    split; [lia|]. split; [apply dc_init_ok|]. split; [|apply repeat_length]. split; [apply repeat_length|]. split.
    + intros j b Hj. apply nth_error_In, repeat_spec in Hj. exists 0. subst b. split; [reflexivity|]. unfold i16. lia.
    + intros x y _ H. lia.
Qed.

(** Whatever the DC section's bytes are, decoding produces values whose difference from the prediction is at
    most 2054 (before the wrap to 16 bits). *)
Theorem C42_decoded_dc_bounded :
  forall (cmap : list Z) (codes : list (list Z)) (ms : list cmeta) (words : list Z),
    metas_ok ms -> tables_ok cmap codes (9 * Z.of_nat (length ms)) ->
    forall planes flags, edecode (decode_dc_prog cmap codes ms) words = Some (planes, flags) ->
      dc_planes_ok ms planes flags /\
      forall i m p x y, nth_error ms i = Some m -> nth_error planes i = Some p -> (x < cm_w m)%nat -> (y < cm_h m)%nat ->
        exists r, Z.abs r <= 2054 /\ dc_at p (y * cm_w m + x) = to_i16 (r + predict (cm_w m) p x y).
Proof.
  intros cmap codes ms words M T planes flags E. unfold edecode in E.
  destruct (esafe_run _ _ (decode_dc_esafe cmap codes ms M T) (d_init (mkWS words false))) as (r & d' & Er & Q). rewrite Er in E.
  destruct (_ && _); [|discriminate]. injection E as ->. exact Q.
Qed.
Print Assumptions C42_decoded_dc_bounded.

(** Decoding the DC section never leaves its tables and planes, whatever the bytes. *)
Theorem C42_dc_decoding_is_memory_safe :
  forall (cmap : list Z) (codes : list (list Z)) (ms : list cmeta),
    metas_ok ms -> tables_ok cmap codes (9 * Z.of_nat (length ms)) ->
    forall d : dstate, exists r, erun (decode_dc_prog cmap codes ms) d = Some r.
Proof. intros cmap codes ms M T d. destruct (esafe_run _ _ (decode_dc_esafe cmap codes ms M T) d) as (r & d' & Er & _). eauto. Qed.
Print Assumptions C42_dc_decoding_is_memory_safe.

Lemma decode_orders_eall n : eall (fun os => length os = n /\ Forall order_ok os) (decode_orders n).
Proof.
  induction n as [|n IH]; cbn [decode_orders]; [cbn [eall]; auto|].
  eapply eall_ebind; [apply decode_coeff_order_eall|]. intros o Ho. eapply eall_ebind; [exact IH|]. intros t [L F]. cbn [eall]. split; [cbn [length]; lia|]. constructor; assumption.
Qed.

Lemma dec_ac_esafe cmap codes legacy ms orders flags planes : metas_ok ms -> context_layout (Z.of_nat (length ms)) ms ->
  tables_ok cmap codes (9 * num_contexts ms) -> dc_planes_ok ms planes flags -> length orders = length ms -> Forall order_ok orders ->
  exists aks, omap2 (fun m o => Some (ac_consts m o)) ms orders = Some aks /\
  esafe (fun planes' => length planes' = length ms /\ forall i m p0, nth_error ms i = Some m -> nth_error planes i = Some p0 ->
       exists p, nth_error planes' i = Some p /\ length p = (cm_w m * cm_h m)%nat /\
         (forall b, In b p -> length b = 64%nat /\ ac_bounded b) /\ (forall j, dc_at p j = dc_at p0 j))
   (dec_ac cmap codes legacy ms aks flags (visits ms) (map (fun m => ac_init (cm_w m)) ms) planes).
Proof.
  intros M Lay T (Lp & Lf & D) Lo Fo.
  assert (Forall2 (fun m o => exists c, Some (ac_consts m o) = Some c) ms orders) as HE.
  { clear -Lo. revert orders Lo. induction ms as [|m ms IH]; intros orders L; destruct orders; cbn [length] in L; try lia; constructor; eauto. }
  destruct (omap2_spec _ ms orders HE) as (aks & Ea & Ena & Lak). exists aks. split; [exact Ea|].
  eapply esafe_mono'; [|eapply (dec_ac_safe cmap codes _ legacy ms aks flags planes T); [|apply walk_visits, M|]].
  - intros planes' (sts' & I & L). split; [unfold plane, block in *; lia|]. intros i m p0 Em Ep0. destruct (I i m Em) as (c & st & p & p0' & _ & _ & Ep & Ep0' & _ & _ & (Lp1 & Bp & Dp)).
    rewrite Ep0 in Ep0'. injection Ep0' as <-. exists p. split; [exact Ep|]. split; [exact Lp1|]. split; [|exact Dp].
    intros b Hb. apply In_nth_error in Hb. destruct Hb as [j Hj]. exact (Bp j b Hj).
  - intros i m Em. destruct (D i m Em) as (p & fl & Ep & Ef & _ & Lfl & _).
    assert (exists o, nth_error orders i = Some o) as [o Eo].
    { destruct (nth_error orders i) as [o|] eqn:E; [eauto|]. apply nth_error_None in E. pose proof (nth_error_lt _ _ _ Em). lia. }
    destruct (Ena i m o Em Eo) as (ak & Eak & Hak). injection Hak as <-. exists (ac_consts m o), fl. split; [exact Eak|]. split; [exact Ef|].
    split; [apply ac_consts_ok; rewrite Forall_forall in Fo; apply Fo, (nth_error_In _ _ Eo)|].
    split; [|exact Lfl]. pose proof (context_layout_fits ms _ (Nat2Z.is_nonneg _) Lay i m Em) as H. unfold num_contexts. rewrite Z.mul_comm. exact H.
  - intros i m Em. destruct (D i m Em) as (p & fl & Ep & Ef & Lp1 & Lfl & Bp). exists O, (ac_init (cm_w m)), p, p.
    split; [apply nth_error_repeat, (nth_error_lt _ _ _ Em)|]. split; [apply (all_visited ms (fun m => ac_init (cm_w m)) i m Em)|].
    split; [exact Ep|]. split; [exact Ep|]. split; [lia|]. split; [apply ac_init_ok|]. split; [exact Lp1|]. split; [|reflexivity].
    intros j b Hj. rewrite Forall_forall in Bp. destruct (Bp b (nth_error_In _ _ Hj)) as (v & -> & _). split; [reflexivity|].
    intros k w Hk Hz. unfold zget in Hz. destruct (Z.ltb_spec k 0); [lia|]. replace (Z.to_nat k) with (S (Z.to_nat (k - 1))) in Hz by lia.
    cbn [nth_error] in Hz. apply nth_error_In, (repeat_spec 63) in Hz. subst w. cbn. lia.
Qed.

(** Whatever the AC section's bytes are, every AC value is at most 2054 in magnitude and the DC values are
    those of the DC section. *)
Theorem C42_decoded_ac_bounded :
  forall (cmap : list Z) (codes : list (list Z)) (legacy : bool) (ms : list cmeta) (flags : list (list bool)) (planes : list plane) (words : list Z),
    metas_ok ms -> context_layout (Z.of_nat (length ms)) ms -> tables_ok cmap codes (9 * num_contexts ms) -> dc_planes_ok ms planes flags ->
    forall planes', edecode (decode_ac_prog cmap codes legacy ms flags planes) words = Some planes' ->
      length planes' = length ms /\
      forall i m p0, nth_error ms i = Some m -> nth_error planes i = Some p0 -> exists p, nth_error planes' i = Some p /\
        length p = (cm_w m * cm_h m)%nat /\ (forall b, In b p -> length b = 64%nat /\ forall v, In v (tl b) -> Z.abs v <= 2054) /\
        (forall j, dc_at p j = dc_at p0 j).
Proof.
  intros cmap codes legacy ms flags planes words M Lay T D planes' E. unfold edecode, decode_ac_prog in E. rewrite erun_ebind in E.
  destruct (erun (decode_orders (length ms)) _) as [[orders d1]|] eqn:E1; [|discriminate].
  destruct (erun_eall _ _ (decode_orders_eall (length ms)) _ _ _ E1) as [Lo Fo].
  destruct (dec_ac_esafe cmap codes legacy ms orders flags planes M Lay T D Lo Fo) as (aks & Ea & Sf). rewrite Ea in E. cbn [eget] in E.
  destruct (esafe_run _ _ Sf d1) as (r & d' & Er & L & Q). unfold plane, block in *. rewrite Er in E. destruct (_ && _); [|discriminate]. injection E as <-.
  split; [exact L|]. intros i m p0 Em Ep. destruct (Q i m p0 Em Ep) as (p & E & Lp & B & Dp). exists p. split; [exact E|]. split; [exact Lp|]. split; [|exact Dp].
  intros b Hb. destruct (B b Hb) as [Lb Bb]. split; [exact Lb|]. intros v Hv. destruct b as [|x b]; [destruct Hv|]. cbn [tl] in Hv.
  apply In_nth_error in Hv. destruct Hv as [k Hk]. apply (Bb (Z.of_nat k + 1) v); [lia|]. unfold zget. destruct (Z.ltb_spec (Z.of_nat k + 1) 0); [lia|].
  replace (Z.to_nat (Z.of_nat k + 1)) with (S k) by lia. exact Hk.
Qed.
Print Assumptions C42_decoded_ac_bounded.

(** The AC section is decoded without leaving the tables and planes: only the coefficient orders can be
    rejected. *)
Theorem C42_ac_decoding_is_memory_safe :
  forall (cmap : list Z) (codes : list (list Z)) (legacy : bool) (ms : list cmeta) (flags : list (list bool)) (planes : list plane),
    metas_ok ms -> context_layout (Z.of_nat (length ms)) ms -> tables_ok cmap codes (9 * num_contexts ms) -> dc_planes_ok ms planes flags ->
    forall d : dstate, erun (decode_orders (length ms)) d <> None -> exists r, erun (decode_ac_prog cmap codes legacy ms flags planes) d = Some r.
Proof.
  intros cmap codes legacy ms flags planes M Lay T D d N. unfold decode_ac_prog. rewrite erun_ebind.
  destruct (erun (decode_orders (length ms)) d) as [[orders d1]|] eqn:E1; [|destruct (N eq_refl)].
  destruct (erun_eall _ _ (decode_orders_eall (length ms)) _ _ _ E1) as [Lo Fo].
  destruct (dec_ac_esafe cmap codes legacy ms orders flags planes M Lay T D Lo Fo) as (aks & Ea & Sf). rewrite Ea. cbn [eget].
  destruct (esafe_run _ _ Sf d1) as (r & d' & Er & _). cbn [ebind]. eauto.
Qed.
Print Assumptions C42_ac_decoding_is_memory_safe.

(** * Non-vacuity *)

(** Two components, 2x2 and 1x1 sampling, one MCU; legal orders; non-trivial coefficients. *)
Definition ex_ms : list cmeta := [mkCM 2 2 2 2 3 (repeat 16 64); mkCM 1 1 1 (2 + skip_of 3) 0 (repeat 99 64)].
Definition ex_block (v : Z) (l : list Z) : block := v :: l ++ repeat 0 (63 - length l).
Definition ex_planes : list plane :=
  [ [ex_block 500 [3; -7; 0; 2054]; ex_block 512 []; ex_block 498 [0; 0; 0; 0; 0; 0; 1]; ex_block 510 []]; [ex_block (-100) [-2054; 1]] ].
Definition ex_order : list Z := map Z.of_nat (seq 0 64).
Definition ex_order2 : list Z := 0 :: 63 :: map Z.of_nat (seq 1 62).
Definition ex_cmap : list Z := repeat 0 (Z.to_nat (9 * num_contexts ex_ms)).
Definition ex_codes : list (list Z) := [72 :: repeat 56 17].

Fixpoint leqb {A} (e : A -> A -> bool) (a b : list A) : bool :=
  match a, b with [], [] => true | x :: a', y :: b' => e x y && leqb e a' b' | _, _ => false end.
Definition ex_run : bool :=
  match encode_dc ex_ms ex_planes with
  | Some (d, flags) =>
      match encode_ac false ex_ms [ex_order; ex_order2] ex_planes flags with
      | Some (head, a) =>
          match edecode (decode_dc_prog ex_cmap ex_codes ex_ms) (encode_items (map (resolve ex_cmap ex_codes) d)) with
          | Some (p1, f1) =>
              match edecode (decode_ac_prog ex_cmap ex_codes false ex_ms f1 p1) (encode_items (head ++ map (resolve ex_cmap ex_codes) a)) with
              | Some p2 => leqb (leqb list_eqb) p2 ex_planes && leqb (leqb Bool.eqb) f1 flags && existsb (existsb (fun b => b)) flags
              | None => false
              end
          | None => false
          end
      | None => false
      end
  | None => false
  end.

Example C38_case : exists es, dc_errors (nth 0 ex_ms (mkCM 1 1 1 0 0 [])) (nth 0 ex_planes []) = Some es /\ rebuild 2 [] es = [500; 512; 498; 510].
Proof. eexists. split; vm_compute; reflexivity. Qed.

Example C39_case : metas_ok ex_ms /\ Forall2 plane_ok ex_ms ex_planes /\ Forall2 dc_within_limits ex_ms ex_planes.
Proof.
  split; [|split].
  - unfold metas_ok. replace (mcu_rows ex_ms) with 1%nat by reflexivity. unfold ex_ms. repeat constructor; cbn; lia.
  - unfold ex_ms, ex_planes. constructor; [|constructor; [|constructor]]; (split; [reflexivity|]); apply Forall_forall; intros b Hb; cbn in Hb;
      repeat (destruct Hb as [<- | Hb]; [split; [reflexivity|]; cbn; repeat constructor; unfold i16; lia|]); destruct Hb.
  - unfold ex_ms, ex_planes. constructor; [|constructor; [|constructor]]; apply C38_errors_computed_iff_within_limits; try (cbn; lia); eexists; vm_compute; reflexivity.
Qed.

Example C40_case : ex_run = true /\ context_layout (Z.of_nat (length ex_ms)) ex_ms /\ Forall order_ok [ex_order; ex_order2] /\ Forall ac_within_limits ex_planes.
Proof.
  split; [vm_compute; reflexivity|]. split; [cbn; lia|]. split.
  - constructor; [|constructor; [|constructor]]; (split; [|reflexivity]); [apply Permutation_refl|].
    change (Permutation ([0] ++ 63 :: map Z.of_nat (seq 1 62)) ([0] ++ (map Z.of_nat (seq 1 62) ++ [63]))). apply Permutation_app_head. apply Permutation_cons_append.
  - repeat constructor; intros b v Hb Hv; cbn in Hb; repeat (destruct Hb as [<- | Hb]; [cbn in Hv; lia|]); destruct Hb.
Qed.

Example C42_case : tables_ok ex_cmap ex_codes (9 * num_contexts ex_ms).
Proof.
  intros h Hh. exists (72 :: repeat 56 17). split.
  - unfold table_of. assert (zget ex_cmap h = Some 0) as ->.
    { unfold zget. destruct (Z.ltb_spec h 0); [lia|]. apply nth_error_repeat. lia. }
    reflexivity.
  - split; [|reflexivity]. vm_compute. repeat constructor; try discriminate.
Qed.
