(** The encoder's choices are admissible. *)
From Coq Require Import Sorting.Permutation Sorting.Sorted.
From Verif Require Import Base JpegModel CtxTables LehmerModel LehmerProofs HeaderModel EntropyModel HistModel HistProofs HSecModel HSecProofs CoefModel CoefProofs DCProofs ACProofs PropsCoef ClusterModel PropsCluster Decoder Encoder.

(** * Orders *)
Lemma insert_pos_perm x l : Permutation (insert_pos x l) (x :: l).
Proof.
  induction l as [|y l IH]; cbn [insert_pos]; [reflexivity|]. destruct (_ <? _); [|reflexivity]. rewrite IH. apply perm_swap.
Qed.
Lemma stable_sort_perm l : Permutation (stable_sort l) l.
Proof. induction l as [|x l IH]; cbn [stable_sort]; [reflexivity|]. rewrite insert_pos_perm, IH. reflexivity. Qed.

Lemma coeff_order_ok zeros : nth 0 zeros 0 = 0 -> Forall (fun z => 0 <= z) zeros -> order_ok (coeff_order zeros).
Proof.
  intros H0 HF. assert (Nn : forall k, 0 <= nth k zeros 0).
  { intros k. destruct (Nat.lt_ge_cases k (length zeros)) as [L|L]; [|rewrite nth_overflow by exact L; lia]. rewrite Forall_forall in HF. apply HF, nth_In, L. }
  unfold coeff_order. set (f := fun k => (k, nth (Z.to_nat k) zeros 0)). split.
  - rewrite (Permutation_map fst (stable_sort_perm (map f kNaturalOrder))). rewrite map_map. cbn [fst f]. rewrite map_id.
    apply NoDup_Permutation_bis.
    + assert (E : forallb (fun x => (count_occ Z.eq_dec kNaturalOrder x =? 1)%nat) kNaturalOrder = true) by (vm_compute; reflexivity).
      apply (NoDup_count_occ' Z.eq_dec). intros x Hx. rewrite forallb_forall in E. apply Nat.eqb_eq, E, Hx.
    + vm_compute. repeat constructor.
    + assert (E : forallb (fun x => existsb (Z.eqb x) (iota 64)) kNaturalOrder = true) by (vm_compute; reflexivity).
      intros x Hx. rewrite forallb_forall in E. specialize (E x Hx). apply existsb_exists in E. destruct E as (y & Hy & Ey). apply Z.eqb_eq in Ey. subst. exact Hy.
  - change kNaturalOrder with (0 :: tl kNaturalOrder). cbn [map stable_sort]. unfold f at 1. change (Z.to_nat 0) with 0%nat. rewrite H0.
    destruct (stable_sort (map f (tl kNaturalOrder))) as [|y l] eqn:E; [reflexivity|]. cbn [insert_pos snd].
    assert (Hy : In y (map f (tl kNaturalOrder))) by (eapply Permutation_in; [apply stable_sort_perm|rewrite E; left; reflexivity]).
    apply in_map_iff in Hy. destruct Hy as (k & <- & _). unfold f. cbn [snd]. pose proof (Nn (Z.to_nat k)). destruct (Z.ltb_spec (nth (Z.to_nat k) zeros 0) 0); [lia|]. reflexivity.
Qed.

Lemma sample_zeros_ok l : order_ok (coeff_order (sample_zeros l)).
Proof.
  apply coeff_order_ok; unfold sample_zeros; destruct (_ <? _)%nat.
  - reflexivity.
  - reflexivity.
  - apply Forall_forall. intros x Hx. apply repeat_spec in Hx. lia.
  - apply Forall_forall. intros x Hx. apply in_map_iff in Hx. destruct Hx as (k & <- & _). destruct (_ =? _)%nat; [lia|]. unfold count_zeros. lia.
Qed.

Lemma enc_orders_ok j : Forall order_ok (enc_orders j) /\ length (enc_orders j) = length (j_comps j).
Proof.
  unfold enc_orders. split; [|apply map_length]. apply Forall_forall. intros o Ho. apply in_map_iff in Ho. destruct Ho as (c & <- & _). apply sample_zeros_ok.
Qed.

(** * Contexts *)
Lemma select_context_bits_ok n b : select_context_bits n = Some b -> 0 <= b < 7.
Proof.
  unfold select_context_bits. cbv zeta. destruct (_ <=? 0); [discriminate|]. intros E. apply nth_error_In in E.
  assert (T : forallb (fun b => (0 <=? b) && (b <? 7)) kContextBits = true) by (vm_compute; reflexivity). rewrite forallb_forall in T. specialize (T b E). lia.
Qed.

Lemma enc_metas_spec j : forall cs off ms, enc_metas j off cs = Some ms ->
  length ms = length cs /\ context_layout off ms /\ Forall (fun b => 0 <= b < 7) (map cm_bits ms) /\
  Forall2 (fun c m => 0 <= c_quant c < Z.of_nat (length (j_quant j)) /\ cm_w m = Z.to_nat (j_mcu_cols j * c_h c) /\ cm_h m = Z.to_nat (j_mcu_rows j * c_v c) /\ cm_vs m = Z.to_nat (c_v c)) cs ms /\
  metas_from off (map (fun c => (c_h c, c_v c)) cs) (map (fun c => (j_mcu_cols j * c_h c, j_mcu_rows j * c_v c)) cs) (map cm_bits ms) (map q_values (j_quant j)) (map c_quant cs) = Some ms.
Proof.
  induction cs as [|c cs IH]; intros off ms E; cbn [enc_metas] in E; unfold obind in E.
  - injection E as <-. cbn [map context_layout length metas_from]. split; [reflexivity|]. split; [exact Logic.I|]. split; [constructor|]. split; [constructor|reflexivity].
  - destruct (Z.ltb_spec (c_quant c) 0); [discriminate|]. destruct (nth_error (j_quant j) (Z.to_nat (c_quant c))) as [q|] eqn:Eq; [|discriminate]. cbv zeta in E.
    destruct (_ <? _)%nat; [discriminate|]. destruct (select_context_bits _) as [b|] eqn:Eb; [|discriminate].
    destruct (enc_metas j _ cs) as [t|] eqn:Et; [|discriminate]. injection E as <-. destruct (IH _ _ Et) as (A1 & A2 & A3 & A4 & A5).
    pose proof (select_context_bits_ok _ _ Eb) as Hb. cbn [map context_layout length cm_bits cm_off]. 
    split; [lia|]. split; [split; [reflexivity|split; [exact Hb|rewrite <- scheme_size_skip by exact Hb; exact A2]]|]. split; [constructor; assumption|].
    assert (Hq : 0 <= c_quant c < Z.of_nat (length (j_quant j))) by (assert (nth_error (j_quant j) (Z.to_nat (c_quant c)) <> None) as N by congruence; apply nth_error_Some in N; lia).
    split; [constructor; [cbn [cm_w cm_h cm_vs]; auto|exact A4]|].
    cbn [metas_from]. destruct (Z.ltb_spec (c_quant c) 0); [lia|]. rewrite (map_nth_error q_values _ _ Eq). unfold obind. rewrite A5. reflexivity.
Qed.

Lemma layout_offsets : forall ms off, context_layout off ms -> 0 <= off ->
  StronglySorted lt (map (fun m => Z.to_nat (cm_off m)) ms) /\ Forall (fun o => (Z.to_nat off <= o)%nat /\ (o <= Z.to_nat off + fold_right Nat.add 0 (map scheme_size (map cm_bits ms)))%nat) (map (fun m => Z.to_nat (cm_off m)) ms).
Proof.
  induction ms as [|m ms IH]; intros off L H; cbn [map]; [split; constructor|]. destruct L as (E & B & L). pose proof (skip_pos _ B) as P.
  destruct (IH _ L ltac:(lia)) as [S F]. assert (Sz : Z.of_nat (scheme_size (cm_bits m)) = skip_of (cm_bits m)) by (apply scheme_size_skip; exact B).
  cbn [fold_right]. split.
  - constructor; [exact S|]. eapply Forall_impl; [|exact F]. cbv beta. intros o [H1 _]. lia.
  - constructor; [lia|]. eapply Forall_impl; [|exact F]. cbv beta. intros o [H1 H2]. lia.
Qed.

Lemma layout_groups ms : (1 <= length ms)%nat -> context_layout (Z.of_nat (length ms)) ms -> groups_ok (0%nat :: map (fun m => Z.to_nat (cm_off m)) ms) (contexts_of (map cm_bits ms)).
Proof.
  intros H L. destruct (layout_offsets ms _ L ltac:(lia)) as [S F]. unfold groups_ok. split; [reflexivity|]. split.
  - constructor; [exact S|]. eapply Forall_impl; [|exact F]. cbv beta. intros o [H1 _]. lia.
  - constructor; [lia|]. eapply Forall_impl; [|exact F]. cbv beta. intros o [_ H2]. unfold contexts_of. rewrite map_length. lia.
Qed.

Lemma contexts_of_num ms : context_layout (Z.of_nat (length ms)) ms -> Forall (fun b => 0 <= b < 7) (map cm_bits ms) -> Z.of_nat (contexts_of (map cm_bits ms)) = num_contexts ms.
Proof.
  intros _ F. pose proof (map_len_spec (length ms) (map cm_bits ms) (conj (map_length _ _) F)) as M. unfold map_len in M. unfold num_contexts. rewrite map_map in M. lia.
Qed.
