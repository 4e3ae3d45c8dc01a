(** Proofs about Lehmer codes, the index coder and coefficient orders. *)
From Coq Require Import Permutation.
From Verif Require Import Base EntropyModel EntropyProofs LehmerModel.

Lemma find_erase_spec x l i r : find_erase x l = Some (i, r) ->
  take_at i l = Some (x, r) /\ (i < length l)%nat /\ length l = S (length r).
Proof.
  revert i r; induction l as [|y l IH]; intros i r E; cbn [find_erase] in E; [discriminate|].
  destruct (Z.eqb_spec y x) as [->|Hn].
  - injection E as <- <-. cbn [take_at length]. repeat split; lia.
  - destruct (find_erase x l) as [[j r']|]; [|discriminate]. injection E as <- <-.
    destruct (IH j r' eq_refl) as (H1 & H2 & H3). cbn [take_at length]. rewrite H1. repeat split; cbn [length] in *; lia.
Qed.

Lemma find_erase_none x l : find_erase x l = None <-> ~ In x l.
Proof.
  induction l as [|y l IH]; cbn [find_erase In]; [tauto|].
  destruct (Z.eqb_spec y x) as [->|Hn]; [split; [discriminate|tauto]|].
  destruct (find_erase x l) as [[j r]|].
  - split; [discriminate|]. intros H. exfalso. assert (~ In x l) as H' by tauto. apply IH in H'. discriminate.
  - split; [intros _ [H|H]; [congruence|]|reflexivity]. apply (proj1 IH); auto.
Qed.

Lemma find_erase_perm x l i r : find_erase x l = Some (i, r) -> Permutation l (x :: r).
Proof.
  revert i r; induction l as [|y l IH]; intros i r E; cbn [find_erase] in E; [discriminate|].
  destruct (Z.eqb_spec y x) as [->|Hn].
  - injection E as <- <-. reflexivity.
  - destruct (find_erase x l) as [[j r']|]; [|discriminate]. injection E as <- <-.
    rewrite (IH j r' eq_refl). apply perm_swap.
Qed.

Lemma take_at_perm i l v r : take_at i l = Some (v, r) -> Permutation l (v :: r) /\ (i < length l)%nat.
Proof.
  revert l v r; induction i as [|i IH]; intros [|y l] v r E; cbn [take_at] in E; try discriminate.
  - injection E as <- <-. split; [reflexivity|cbn [length]; lia].
  - destruct (take_at i l) as [[w r']|] eqn:Ew; [|discriminate]. injection E as <- <-.
    destruct (IH l w r' Ew) as [H1 H2]. split; [|cbn [length]; lia]. rewrite H1. apply perm_swap.
Qed.

Lemma take_at_none i l : take_at i l = None <-> (length l <= i)%nat.
Proof.
  revert l; induction i as [|i IH]; intros [|y l]; cbn [take_at length].
  - split; [lia|reflexivity].
  - split; [discriminate|lia].
  - split; [lia|reflexivity].
  - destruct (take_at i l) as [[w r']|] eqn:E.
    + split; [discriminate|]. intros H. assert (take_at i l = None) as H' by (apply IH; lia). congruence.
    + split; [intros _|reflexivity]. apply IH in E. lia.
Qed.

Lemma take_at_find i l v r : NoDup l -> take_at i l = Some (v, r) -> find_erase v l = Some (i, r).
Proof.
  revert l v r; induction i as [|i IH]; intros [|y l] v r Hn E; cbn [take_at] in E; try discriminate.
  - injection E as <- <-. cbn [find_erase]. rewrite Z.eqb_refl. reflexivity.
  - destruct (take_at i l) as [[w r']|] eqn:Ew; [|discriminate]. injection E as <- <-.
    inversion Hn as [|? ? Hy Hl]; subst. cbn [find_erase].
    destruct (Z.eqb_spec y w) as [->|_].
    + exfalso. apply Hy. destruct (take_at_perm _ _ _ _ Ew) as [P _]. rewrite P. left; reflexivity.
    + rewrite (IH l w r' Hl Ew). reflexivity.
Qed.

(** Decoding what was encoded, over any item list. *)
Lemma lehmer_loop_decode : forall sigma items code, lehmer_loop sigma items = Some code ->
  unlehmer_loop code items = Some sigma /\ length code = length sigma.
Proof.
  induction sigma as [|s sigma IH]; intros items code E; cbn [lehmer_loop] in E.
  - injection E as <-. split; reflexivity.
  - destruct (find_erase s items) as [[i items']|] eqn:Ef; [|discriminate].
    destruct (lehmer_loop sigma items') as [c|] eqn:Ec; [|discriminate]. injection E as <-.
    destruct (find_erase_spec _ _ _ _ Ef) as (Ht & _). destruct (IH _ _ Ec) as [H1 H2].
    cbn [unlehmer_loop length]. rewrite Nat2Z.id, Ht, H1. split; [reflexivity|lia].
Qed.

Lemma lehmer_loop_total : forall sigma items, NoDup sigma -> incl sigma items -> exists code, lehmer_loop sigma items = Some code.
Proof.
  induction sigma as [|s sigma IH]; intros items Hn Hi; cbn [lehmer_loop]; [eexists; reflexivity|].
  inversion Hn as [|? ? Hs Hn']; subst.
  destruct (find_erase s items) as [[i items']|] eqn:Ef.
  - destruct (IH items' Hn') as [c Ec]; [|rewrite Ec; eexists; reflexivity].
    intros x Hx. assert (In x items) as H by (apply Hi; right; exact Hx).
    apply (Permutation_in _ (find_erase_perm _ _ _ _ Ef)) in H. destruct H as [->|H]; [contradiction|exact H].
  - apply find_erase_none in Ef. exfalso. apply Ef, Hi. left; reflexivity.
Qed.

(** A code is in range when its i-th entry is below the number of remaining
    items. *)
Fixpoint lehmer_valid (code : list Z) (n : nat) : Prop :=
  match code with
  | [] => True
  | c :: r => 0 <= c < Z.of_nat n /\ lehmer_valid r (n - 1)
  end.

Lemma unlehmer_loop_encode : forall code items sigma, NoDup items -> Forall (fun c => 0 <= c) code ->
  unlehmer_loop code items = Some sigma ->
  lehmer_loop sigma items = Some code /\ NoDup sigma /\ incl sigma items /\ length sigma = length code.
Proof.
  induction code as [|c code IH]; intros items sigma Hn Hc E; cbn [unlehmer_loop] in E.
  - injection E as <-. cbn [lehmer_loop]. repeat split; try constructor. intros x [].
  - destruct (take_at (Z.to_nat c) items) as [[v items']|] eqn:Et; [|discriminate].
    destruct (unlehmer_loop code items') as [s|] eqn:Es; [|discriminate]. injection E as <-.
    inversion Hc as [|? ? Hc0 Hc']; subst.
    destruct (take_at_perm _ _ _ _ Et) as [P _].
    assert (Hn' : NoDup (v :: items')) by (eapply Permutation_NoDup; eassumption).
    inversion Hn' as [|? ? Hv Hi']; subst.
    destruct (IH items' s Hi' Hc' Es) as (H1 & H2 & H3 & H4).
    cbn [lehmer_loop]. rewrite (take_at_find _ _ _ _ Hn Et), H1. rewrite Z2Nat.id by exact Hc0.
    split; [reflexivity|]. split; [constructor; [intros H; apply Hv, H3, H|exact H2]|].
    split; [|cbn [length]; lia].
    intros x [<-|Hx]; eapply Permutation_in; [symmetry; exact P|left; reflexivity|symmetry; exact P|right; apply H3, Hx].
Qed.

Lemma unlehmer_loop_total : forall code items, Forall (fun c => 0 <= c) code ->
  (exists s, unlehmer_loop code items = Some s) <-> lehmer_valid code (length items).
Proof.
  induction code as [|c code IH]; intros items Hc; cbn [unlehmer_loop lehmer_valid].
  - split; [trivial|intros _; eexists; reflexivity].
  - inversion Hc as [|? ? Hc0 Hc']; subst.
    destruct (take_at (Z.to_nat c) items) as [[v items']|] eqn:Et.
    + destruct (take_at_perm _ _ _ _ Et) as [P Hlt].
      apply Permutation_length in P. cbn [length] in P.
      replace (length items - 1)%nat with (length items') by lia. rewrite <- IH by exact Hc'.
      split.
      * intros [s E]. destruct (unlehmer_loop code items') as [s'|]; [|discriminate]. split; [lia|exists s'; reflexivity].
      * intros [_ [s E]]. rewrite E. eexists; reflexivity.
    + apply take_at_none in Et. split; [intros [s E]; discriminate|]. intros [H _]. lia.
Qed.

Lemma iota_length n : length (iota n) = n.
Proof. unfold iota. rewrite map_length, seq_length. reflexivity. Qed.
Lemma iota_NoDup n : NoDup (iota n).
Proof. unfold iota. apply FinFun.Injective_map_NoDup; [intros a b H; lia|apply seq_NoDup]. Qed.
Lemma iota_In n x : In x (iota n) <-> 0 <= x < Z.of_nat n.
Proof.
  unfold iota. rewrite in_map_iff. split.
  - intros (y & <- & H). apply in_seq in H. lia.
  - intros H. exists (Z.to_nat x). split; [lia|]. apply in_seq. lia.
Qed.

Lemma perm_iota_iff s n : Permutation s (iota n) <-> NoDup s /\ (forall x, In x s -> 0 <= x < Z.of_nat n) /\ length s = n.
Proof.
  split.
  - intros P. split; [eapply Permutation_NoDup; [symmetry; exact P|apply iota_NoDup]|]. split.
    + intros x Hx. apply iota_In. eapply Permutation_in; eassumption.
    + rewrite (Permutation_length P). apply iota_length.
  - intros (H1 & H2 & H3). apply NoDup_Permutation_bis; [exact H1|rewrite iota_length; lia|].
    intros x Hx. apply iota_In, H2, Hx.
Qed.

Lemma lehmer_roundtrip sigma : Permutation sigma (iota (length sigma)) ->
  exists code, compute_lehmer sigma = Some code /\ length code = length sigma /\
    lehmer_valid code (length sigma) /\ decode_lehmer code = Some sigma.
Proof.
  intros P. apply perm_iota_iff in P as (H1 & H2 & _).
  destruct (lehmer_loop_total sigma (iota (length sigma)) H1) as [code E]; [intros x Hx; apply iota_In, H2, Hx|].
  exists code. unfold compute_lehmer, decode_lehmer. destruct (lehmer_loop_decode _ _ _ E) as [Ed El].
  split; [exact E|]. split; [exact El|]. split; [|rewrite El; exact Ed].
  rewrite <- (iota_length (length sigma)). apply unlehmer_loop_total; [|exists sigma; exact Ed].
  clear -E. revert code E. generalize (iota (length sigma)) as items. induction sigma as [|s sigma IH]; intros items code E; cbn [lehmer_loop] in E.
  - injection E as <-. constructor.
  - destruct (find_erase s items) as [[i items']|]; [|discriminate].
    destruct (lehmer_loop sigma items') eqn:E'; [|discriminate]. injection E as <-. constructor; [lia|eapply IH; exact E'].
Qed.

Lemma lehmer_decode_perm code sigma : Forall (fun c => 0 <= c) code -> decode_lehmer code = Some sigma ->
  Permutation sigma (iota (length sigma)) /\ length sigma = length code /\ compute_lehmer sigma = Some code.
Proof.
  intros Hc E. unfold decode_lehmer in E.
  destruct (unlehmer_loop_encode _ _ _ (iota_NoDup _) Hc E) as (H1 & H2 & H3 & H4).
  split; [|split; [exact H4|unfold compute_lehmer; rewrite H4; exact H1]].
  apply perm_iota_iff. repeat split; auto; apply H3 in H; apply iota_In in H; lia.
Qed.

Lemma lehmer_reject code : Forall (fun c => 0 <= c) code ->
  decode_lehmer code = None <-> ~ lehmer_valid code (length code).
Proof.
  intros Hc. unfold decode_lehmer. rewrite <- (iota_length (length code)) at 2.
  rewrite <- unlehmer_loop_total by exact Hc.
  destruct (unlehmer_loop code (iota (length code))) as [s|]; split; try discriminate; try reflexivity.
  - intros H. exfalso. apply H. eexists; reflexivity.
  - intros _ [s E]. discriminate.
Qed.

(** PermutationCoder *)
Lemma pc_num_bits_fits values i : (i < length values)%nat -> 0 <= Z.of_nat i < 2 ^ Z.of_nat (pc_num_bits values).
Proof.
  intros H. unfold pc_num_bits. destruct (Z.leb_spec (Z.of_nat (length values)) 1).
  - change (2 ^ Z.of_nat 0) with 1. lia.
  - split; [lia|]. pose proof (Z.log2_spec (Z.of_nat (length values) - 1) ltac:(lia)) as [_ L].
    pose proof (Z.log2_nonneg (Z.of_nat (length values) - 1)).
    replace (Z.of_nat (Z.to_nat (Z.log2 (Z.of_nat (length values) - 1)) + 1)) with (Z.succ (Z.log2 (Z.of_nat (length values) - 1))) by lia.
    lia.
Qed.

Lemma pc_roundtrip : forall vs values l, pc_encode vs values = Some l ->
  pc_decode (map fst l) values = Some vs /\ length l = length vs /\
  Forall (fun cn => 0 <= fst cn < 2 ^ Z.of_nat (snd cn)) l.
Proof.
  induction vs as [|v vs IH]; intros values l E; cbn [pc_encode] in E.
  - injection E as <-. repeat split; constructor.
  - unfold pc_remove_value in E. destruct (find_erase v values) as [[i r]|] eqn:Ef; [|discriminate].
    destruct (pc_encode vs r) as [l'|] eqn:El; [|discriminate]. injection E as <-.
    destruct (find_erase_spec _ _ _ _ Ef) as (Ht & Hi & _). destruct (IH _ _ El) as (H1 & H2 & H3).
    cbn [map pc_decode fst length]. unfold pc_remove. rewrite Nat2Z.id, Ht, H1. split; [reflexivity|]. split; [lia|].
    constructor; [|exact H3]. cbn [fst snd]. apply pc_num_bits_fits, Hi.
Qed.

Lemma pc_encode_iff : forall vs values, NoDup values ->
  (exists l, pc_encode vs values = Some l) <-> NoDup vs /\ incl vs values.
Proof.
  induction vs as [|v vs IH]; intros values Hn; cbn [pc_encode].
  - split; [intros _; split; [constructor|intros x []]|intros _; eexists; reflexivity].
  - unfold pc_remove_value. destruct (find_erase v values) as [[i r]|] eqn:Ef.
    + pose proof (find_erase_perm _ _ _ _ Ef) as P.
      assert (Hn' : NoDup (v :: r)) by (eapply Permutation_NoDup; eassumption).
      inversion Hn' as [|? ? Hv Hr]; subst. specialize (IH r Hr). split.
      * intros [l E]. destruct (pc_encode vs r) as [l'|]; [|discriminate].
        destruct (proj1 IH (ex_intro _ l' eq_refl)) as [H1 H2]. split.
        -- constructor; [intros H; apply Hv, H2, H|exact H1].
        -- intros x [<-|Hx]; (eapply Permutation_in; [symmetry; exact P|]); [left; reflexivity|right; apply H2, Hx].
      * intros [H1 H2]. inversion H1 as [|? ? Hv1 Hvs]; subst.
        destruct (proj2 IH) as [l E]; [|rewrite E; eexists; reflexivity].
        split; [exact Hvs|]. intros x Hx. assert (In x values) as H by (apply H2; right; exact Hx).
        apply (Permutation_in _ P) in H. destruct H as [->|H]; [contradiction|exact H].
    + split; [intros [l E]; discriminate|]. intros [_ H]. apply find_erase_none in Ef. exfalso. apply Ef, H. left; reflexivity.
Qed.

Lemma pc_decode_iff : forall cs values, Forall (fun c => 0 <= c) cs ->
  (exists vs, pc_decode cs values = Some vs) <-> lehmer_valid cs (length values).
Proof. intros cs values Hc. rewrite <- unlehmer_loop_total by exact Hc. revert values. 
  assert (E : forall values, pc_decode cs values = unlehmer_loop cs values).
  { clear Hc. induction cs as [|c cs IH]; intros values; cbn [pc_decode unlehmer_loop]; [reflexivity|].
    unfold pc_remove. destruct (take_at _ _) as [[v r]|]; [rewrite IH|]; reflexivity. }
  intros values. rewrite E. reflexivity.
Qed.

(** ** Coefficient order *)

Lemma eaccept_ebind {A B} (p : eprog A) (f : A -> eprog B) : forall l,
  eaccept (ebind p f) l = match eaccept p l with Some (a, r) => eaccept (f a) r | None => None end.
Proof.
  induction p as [a| |q k IH|c k IH|n k IH]; intros l; cbn [ebind eaccept]; try reflexivity.
  - destruct l as [|[q' b|c' s|n' v] l]; try reflexivity. destruct (q =? q'); [apply IH|reflexivity].
  - destruct l as [|[q' b|c' s|n' v] l]; try reflexivity. destruct (list_eqb c c'); [apply IH|reflexivity].
  - destruct l as [|[q' b|c' s|n' v] l]; try reflexivity. destruct (Nat.eqb n n'); [apply IH|reflexivity].
Qed.

Lemma order_value_accept : forall fe fd v acc rest,
  0 <= v < 7 * Z.of_nat fe -> 0 <= acc -> acc + v <= 64 -> (fe <= fd)%nat ->
  eaccept (decode_order_value fd acc) (coeff_order_value fe v ++ rest) = Some (acc + v, rest).
Proof.
  induction fe as [|fe IH]; intros fd v acc rest Hv Ha Hs Hf; [lia|].
  destruct fd as [|fd]; [lia|]. cbn [coeff_order_value decode_order_value].
  destruct (Z.ltb_spec 64 acc); [lia|].
  destruct (Z.leb_spec 7 v) as [H7|H7]; cbn [app eaccept Nat.eqb].
  - change (7 <? 7) with false. cbv iota. rewrite IH by lia. f_equal. f_equal. lia.
  - destruct (Z.ltb_spec v 7); [|lia]. destruct (Z.ltb_spec 64 (acc + v)); [lia|]. reflexivity.
Qed.

Lemma order_values_accept : forall l rest, Forall (fun v => 0 <= v <= 64) l ->
  eaccept (decode_order_values (length l)) (flat_map (coeff_order_value kFuelOrder) l ++ rest) = Some (l, rest).
Proof.
  induction l as [|v l IH]; intros rest H; cbn [length decode_order_values flat_map]; [reflexivity|].
  inversion H as [|? ? Hv Hl]; subst. rewrite eaccept_ebind, <- app_assoc.
  rewrite order_value_accept by (unfold kFuelOrder; lia).
  rewrite eaccept_ebind, IH by exact Hl. reflexivity.
Qed.

Lemma forallb_zero_repeat l : forallb (fun y => y =? 0) l = true -> l = repeat 0 (length l).
Proof.
  induction l as [|x l IH]; cbn [forallb length repeat]; intros H; [reflexivity|].
  apply andb_true_iff in H as [H1 H2]. apply Z.eqb_eq in H1. rewrite <- IH by exact H2. congruence.
Qed.

Lemma order_span_accept n l rest : length l = n -> Forall (fun v => 0 <= v <= 64) l ->
  eaccept (decode_order_span n) (coeff_order_span l ++ rest) = Some (l, rest).
Proof.
  intros <- H. unfold decode_order_span, coeff_order_span.
  destruct (forallb _ l) eqn:E; cbn [app eaccept Nat.eqb].
  - change (0 =? 0) with true. cbv iota. rewrite <- forallb_zero_repeat by exact E. reflexivity.
  - change (1 =? 0) with false. cbv iota. apply order_values_accept; exact H.
Qed.

Lemma bump_tail_length l : length (bump_tail l) = length l.
Proof. induction l as [|x l IH]; cbn [bump_tail]; [reflexivity|]. destruct (_ && _); cbn [length]; [reflexivity|lia]. Qed.

Lemma bump_tail_zero l : Forall (fun v => 0 <= v) l ->
  forallb (fun y => y =? 0) (bump_tail l) = forallb (fun y => y =? 0) l.
Proof.
  induction l as [|x l IH]; intros H; cbn [bump_tail]; [reflexivity|].
  inversion H as [|? ? Hx Hl]; subst.
  destruct ((x =? 0) && forallb (fun y => y =? 0) l) eqn:E; [reflexivity|]. cbn [forallb].
  rewrite E. destruct (Z.eqb_spec (x + 1) 0); [lia|reflexivity].
Qed.

Lemma unbump_bump l : Forall (fun v => 0 <= v) l -> unbump_tail (bump_tail l) = Some l.
Proof.
  induction l as [|x l IH]; intros H; cbn [bump_tail]; [reflexivity|].
  inversion H as [|? ? Hx Hl]; subst.
  destruct (Z.eqb_spec x 0) as [E0|E0]; destruct (forallb (fun y => y =? 0) l) eqn:E; cbn [andb unbump_tail].
  - subst. rewrite E. reflexivity.
  - rewrite bump_tail_zero, E, IH by exact Hl. destruct (Z.eqb_spec (x + 1) 0); [lia|].
    f_equal. f_equal. lia.
  - rewrite bump_tail_zero, E by exact Hl. destruct (Z.eqb_spec (x + 1) 0); [lia|].
    destruct (Z.eqb_spec (x + 1) 1); [lia|]. f_equal. f_equal; [lia|].
    clear -E. destruct l as [|y l]; [reflexivity|]. cbn [forallb] in E. cbn [bump_tail]. rewrite E. reflexivity.
  - rewrite bump_tail_zero, E, IH by exact Hl. destruct (Z.eqb_spec (x + 1) 0); [lia|].
    f_equal. f_equal. lia.
Qed.

Lemma lehmer_valid_forall code : forall n, lehmer_valid code n -> Forall (fun c => 0 <= c < Z.of_nat n) code.
Proof.
  induction code as [|c code IH]; intros n H; cbn [lehmer_valid] in H; [constructor|].
  destruct H as [H1 H2]. constructor; [exact H1|]. eapply Forall_impl; [|apply IH, H2]. cbv beta; intros; lia.
Qed.

Lemma bump_tail_range l B : Forall (fun v => 0 <= v < B) l -> Forall (fun v => 0 <= v <= B) (bump_tail l).
Proof.
  induction l as [|x l IH]; intros H; cbn [bump_tail]; [constructor|].
  inversion H; subst. destruct (_ && _); constructor; try lia; auto.
  eapply Forall_impl; [|eassumption]. cbv beta; intros; lia.
Qed.

Lemma zigzag_natural : forall x, 0 <= x < 64 ->
  nth (Z.to_nat (nth (Z.to_nat x) kZigZagOrder 0)) kNaturalOrder 0 = x /\ 0 <= nth (Z.to_nat x) kZigZagOrder 0 < 64.
Proof.
  assert (H : forallb (fun x => (nth (Z.to_nat (nth (Z.to_nat x) kZigZagOrder 0)) kNaturalOrder 0 =? x) &&
     (0 <=? nth (Z.to_nat x) kZigZagOrder 0) && (nth (Z.to_nat x) kZigZagOrder 0 <? 64)) (iota 64) = true) by (vm_compute; reflexivity).
  intros x Hx. rewrite forallb_forall in H. specialize (H x (proj2 (iota_In 64 x) Hx)). lia.
Qed.

Lemma natural_zigzag : forall x, 0 <= x < 64 ->
  nth (Z.to_nat (nth (Z.to_nat x) kNaturalOrder 0)) kZigZagOrder 0 = x /\ 0 <= nth (Z.to_nat x) kNaturalOrder 0 < 64.
Proof.
  assert (H : forallb (fun x => (nth (Z.to_nat (nth (Z.to_nat x) kNaturalOrder 0)) kZigZagOrder 0 =? x) &&
     (0 <=? nth (Z.to_nat x) kNaturalOrder 0) && (nth (Z.to_nat x) kNaturalOrder 0 <? 64)) (iota 64) = true) by (vm_compute; reflexivity).
  intros x Hx. rewrite forallb_forall in H. specialize (H x (proj2 (iota_In 64 x) Hx)). lia.
Qed.

(** A coefficient order: permutation of 0..63 with 0 first. *)
Definition order_ok (o : list Z) : Prop := Permutation o (iota 64) /\ nth 0 o 1 = 0.

Lemma perm_map_inj (f g : Z -> Z) l : (forall x, 0 <= x < 64 -> g (f x) = x /\ 0 <= f x < 64) ->
  Permutation l (iota 64) -> Permutation (map f l) (iota 64).
Proof.
  intros Hf P. apply perm_iota_iff in P as (H1 & H2 & H3). apply perm_iota_iff.
  split; [|split].
  - clear H3. induction l as [|x l IH]; cbn [map]; [constructor|]. inversion H1 as [|? ? Hx Hl]; subst.
    constructor; [|apply IH; [exact Hl|intros y Hy; apply H2; right; exact Hy]].
    intros H. apply in_map_iff in H as (y & E & Hy).
    assert (y = x); [|subst; contradiction].
    rewrite <- (proj1 (Hf y (H2 y (or_intror Hy)))), E. apply Hf. apply H2. left; reflexivity.
  - intros y Hy. apply in_map_iff in Hy as (x & <- & Hx). apply Hf, H2, Hx.
  - rewrite map_length. exact H3.
Qed.

Lemma coeff_order_roundtrip o : order_ok o -> exists items, encode_coeff_order o = Some items /\
  items_ok items /\ forall rest, eaccept decode_coeff_order (items ++ rest) = Some (o, rest).
Proof.
  intros [P H0].
  set (zz := map (fun o => nth (Z.to_nat o) kZigZagOrder 0) o).
  assert (Pz : Permutation zz (iota 64)) by (apply (perm_map_inj _ (fun o => nth (Z.to_nat o) kNaturalOrder 0)); [exact zigzag_natural|exact P]).
  assert (Lo : length o = 64%nat) by (rewrite (Permutation_length P); apply iota_length).
  assert (Lz : length zz = 64%nat) by (unfold zz; rewrite map_length; exact Lo).
  destruct (lehmer_roundtrip zz) as (code & Ec & Lc & Vc & Dc); [rewrite Lz; exact Pz|].
  rewrite Lz in *.
  destruct code as [|c0 l]; [cbn in Lc; lia|]. cbn [length] in Lc.
  unfold encode_coeff_order. fold zz. rewrite Ec. eexists; split; [reflexivity|].
  assert (Hc0 : c0 = 0).
  { destruct o as [|o0 o]; [cbn in Lo; lia|]. cbn [nth] in H0. subst o0.
    unfold compute_lehmer in Ec. rewrite Lz in Ec. cbn [map zz] in Ec. cbv [zz] in Ec. cbn [map] in Ec.
    change (nth (Z.to_nat 0) kZigZagOrder 0) with 0 in Ec.
    cbn [lehmer_loop] in Ec. change (iota 64) with (0 :: map Z.of_nat (seq 1 63)) in Ec. cbn [find_erase] in Ec.
    change (0 =? 0) with true in Ec. cbv iota in Ec.
    destruct (lehmer_loop _ _); [|discriminate]. injection Ec as <- _. reflexivity. }
  subst c0. cbn [lehmer_valid] in Vc. destruct Vc as [_ Vl].
  pose proof (lehmer_valid_forall _ _ Vl) as Fl. change (Z.of_nat (64 - 1)) with 63 in Fl.
  pose proof (bump_tail_range l 63 Fl) as Fb.
  set (b := bump_tail l) in *.
  assert (Lb : length b = 63%nat) by (unfold b; rewrite bump_tail_length; lia).
  assert (Fb' : Forall (fun v => 0 <= v <= 64) b) by (eapply Forall_impl; [|exact Fb]; cbv beta; intros; lia).
  assert (Fsub : forall n m, Forall (fun v => 0 <= v <= 64) (firstn n (skipn m b))).
  { intros n m. rewrite Forall_forall in *. intros x Hx. apply Fb'.
    rewrite <- (firstn_skipn m b). apply in_or_app; right. rewrite <- (firstn_skipn n (skipn m b)). apply in_or_app; left; exact Hx. }
  split.
  - assert (Hv : forall f v, 0 <= v -> items_ok (coeff_order_value f v)).
    { induction f as [|f IH]; intros v Hv; cbn [coeff_order_value]; [constructor|].
      destruct (Z.leb_spec 7 v); constructor; try (cbn; lia); [apply IH; lia|constructor]. }
    assert (Hs : forall s, Forall (fun v => 0 <= v <= 64) s -> items_ok (coeff_order_span s)).
    { intros s Hs. unfold coeff_order_span. destruct (forallb _ s); [repeat constructor; cbn; lia|].
      constructor; [cbn; lia|]. induction s as [|x s IH]; [constructor|]. inversion Hs; subst. cbn [flat_map].
      apply Forall_app. split; [apply Hv; lia|apply IH; assumption]. }
    repeat (apply Forall_app; split); apply Hs; try apply Fsub. apply (Fsub 15%nat 0%nat).
  - intros rest. unfold decode_coeff_order. rewrite <- !app_assoc.
    rewrite eaccept_ebind, order_span_accept; [|rewrite firstn_length; lia|apply (Fsub 15%nat 0%nat)].
    rewrite eaccept_ebind, order_span_accept; [|rewrite firstn_length, skipn_length; lia|apply Fsub].
    rewrite eaccept_ebind, order_span_accept; [|rewrite firstn_length, skipn_length; lia|apply Fsub].
    rewrite eaccept_ebind, order_span_accept; [|rewrite firstn_length, skipn_length; lia|apply Fsub].
    replace (firstn 15 b ++ firstn 16 (skipn 15 b) ++ firstn 16 (skipn 31 b) ++ firstn 16 (skipn 47 b)) with b.
    + unfold finish_coeff_order, b. rewrite unbump_bump by (eapply Forall_impl; [|exact Fl]; cbv beta; intros; lia).
      rewrite Dc. unfold zz. rewrite map_map. rewrite (map_ext_in _ (fun x => x)); [rewrite map_id; reflexivity|].
      intros x Hx. apply zigzag_natural. apply (iota_In 64). eapply Permutation_in; [exact P|exact Hx].
    + clear -Lb. do 64 (destruct b as [|? b]; [cbn in Lb; try lia; try reflexivity|]). cbn in Lb. lia.
Qed.

(** Everything the decoder accepts is an order, whatever the answers to its
    requests. *)
Lemma finish_coeff_order_ok l o : length l = 63%nat -> Forall (fun v => 0 <= v) l ->
  finish_coeff_order l = Some o -> order_ok o.
Proof.
  intros Hl Hp E. unfold finish_coeff_order in E. destruct (unbump_tail l) as [l'|] eqn:Eu; [|discriminate].
  assert (Hl' : length l' = length l /\ Forall (fun v => 0 <= v) l').
  { clear -Eu Hp. revert l' Eu. induction l as [|x l IH]; intros l' E; cbn [unbump_tail] in E.
    - injection E as <-. split; [reflexivity|constructor].
    - inversion Hp as [|? ? Hx Hl]; subst. destruct (forallb _ l).
      + destruct (Z.eqb_spec x 0); [injection E as <-; split; [reflexivity|constructor; [lia|exact Hl]]|].
        destruct (x =? 1); [discriminate|]. injection E as <-. split; [reflexivity|constructor; [lia|exact Hl]].
      + destruct (Z.eqb_spec x 0); [discriminate|]. destruct (unbump_tail l) as [r|]; [|discriminate].
        injection E as <-. destruct (IH Hl r eq_refl). split; [cbn [length]; lia|constructor; [lia|assumption]]. }
  destruct Hl' as [Hl' Hp'].
  destruct (decode_lehmer (0 :: l')) as [s|] eqn:Ed; [|discriminate]. injection E as <-.
  assert (Hc : Forall (fun c => 0 <= c) (0 :: l')) by (constructor; [lia|exact Hp']).
  destruct (lehmer_decode_perm _ _ Hc Ed) as (P & L & C). cbn [length] in L. rewrite Hl', Hl in L.
  rewrite L in P. split.
  - apply (perm_map_inj _ (fun o => nth (Z.to_nat o) kZigZagOrder 0)); [exact natural_zigzag|exact P].
  - unfold decode_lehmer in Ed. cbn [unlehmer_loop] in Ed. change (Z.to_nat 0) with 0%nat in Ed.
    cbn [length] in Ed. change (iota (S (length l'))) with (0 :: map Z.of_nat (seq 1 (length l'))) in Ed. cbn [take_at] in Ed.
    destruct (unlehmer_loop l' _); [|discriminate]. injection Ed as <-. reflexivity.
Qed.

(** Results of an entropy program, for any answers within the ranges the
    decoder can produce. *)
Fixpoint eall {A} (P : A -> Prop) (p : eprog A) : Prop :=
  match p with
  | ERet a => P a
  | EFail => True
  | EBit _ k => forall b, eall P (k b)
  | ESym c k => forall s, 0 <= s < Z.of_nat (length c) -> eall P (k s)
  | EBits n k => forall v, 0 <= v < 2 ^ Z.of_nat n -> eall P (k v)
  end.

Lemma eall_ebind {A B} (P : A -> Prop) (Q : B -> Prop) (p : eprog A) (f : A -> eprog B) :
  eall P p -> (forall a, P a -> eall Q (f a)) -> eall Q (ebind p f).
Proof. induction p as [a| |q k IH|c k IH|n k IH]; cbn [eall ebind]; intros H Hf; auto. Qed.

Lemma eall_mono {A} (P Q : A -> Prop) (p : eprog A) : (forall a, P a -> Q a) -> eall P p -> eall Q p.
Proof. intros H. induction p as [a| |q k IH|c k IH|n k IH]; cbn [eall]; auto. Qed.

Lemma ans_map_from_range counts : forall i s f o, In (s, f, o) (ans_map_from i counts) -> i <= s < i + Z.of_nat (length counts).
Proof.
  induction counts as [|c counts IH]; intros i s f o H; cbn [ans_map_from] in H; [destruct H|].
  apply in_app_or in H as [H|H].
  - apply in_map_iff in H as (j & E & _). injection E as <- _ _. cbn [length]; lia.
  - apply IH in H. cbn [length]; lia.
Qed.

Lemma erun_eall {A} (P : A -> Prop) (p : eprog A) : eall P p -> forall d a d', erun p d = Some (a, d') -> P a.
Proof.
  induction p as [a0| |q k IH|c k IH|n k IH]; cbn [eall erun]; intros H d a d' E.
  - injection E as <- _; exact H.
  - discriminate.
  - destruct (read_bit q d) as [b d1]. eapply IH; [apply H|exact E].
  - destruct (read_symbol c d) as [[s d1]|] eqn:Es; [|discriminate]. eapply IH; [|exact E].
    apply H. unfold read_symbol in Es. destruct (nth_error (ans_map c) _) as [[[s' f] o]|] eqn:En; [|discriminate].
    apply nth_error_In in En. apply ans_map_from_range in En.
    destruct (_ <? _); [destruct (next_word _)|]; injection Es as <- _; lia.
  - destruct (read_bits n d) as [v d1] eqn:Er. eapply IH; [|exact E]. apply H.
    unfold read_bits in Er. pose proof (pow2_pos_nat n).
    destruct (if 16 <? d_bitpos d + Z.of_nat n then _ else _) as [val src].
    destruct (16 <? d_bitpos d + Z.of_nat n); injection Er as <- _; rewrite land_ones_mod by lia; apply Z.mod_pos_bound; lia.
Qed.

Lemma edecode_eall {A} (P : A -> Prop) (p : eprog A) ws a : eall P p -> edecode p ws = Some a -> P a.
Proof.
  intros H E. unfold edecode in E. destruct (erun p _) as [[b d]|] eqn:Er; [|discriminate].
  destruct (_ && _); [|discriminate]. injection E as <-. eapply erun_eall; eassumption.
Qed.

Lemma decode_order_value_eall fuel : forall v, 0 <= v -> eall (fun r => 0 <= r) (decode_order_value fuel v).
Proof.
  induction fuel as [|f IH]; intros v Hv; cbn [decode_order_value eall]; [exact I|].
  destruct (64 <? v); cbn [eall]; [exact I|]. intros b Hb. destruct (b <? 7).
  - destruct (64 <? v + b); cbn [eall]; [exact I|lia].
  - apply IH. lia.
Qed.

Lemma decode_order_values_eall n : eall (fun l => length l = n /\ Forall (fun v => 0 <= v) l) (decode_order_values n).
Proof.
  induction n as [|n IH]; cbn [decode_order_values eall]; [split; [reflexivity|constructor]|].
  eapply eall_ebind; [apply decode_order_value_eall; lia|]. intros v Hv.
  eapply eall_ebind; [exact IH|]. intros l [H1 H2]. cbn [eall length]. split; [lia|constructor; assumption].
Qed.

Lemma decode_order_span_eall n : eall (fun l => length l = n /\ Forall (fun v => 0 <= v) l) (decode_order_span n).
Proof.
  unfold decode_order_span. cbn [eall]. intros v _. destruct (v =? 0); cbn [eall].
  - split; [apply repeat_length|]. apply Forall_forall. intros x Hx. apply repeat_spec in Hx. lia.
  - apply decode_order_values_eall.
Qed.

Lemma decode_coeff_order_eall : eall order_ok decode_coeff_order.
Proof.
  unfold decode_coeff_order.
  eapply eall_ebind; [apply decode_order_span_eall|]. intros a [La Fa].
  eapply eall_ebind; [apply decode_order_span_eall|]. intros b [Lb Fb].
  eapply eall_ebind; [apply decode_order_span_eall|]. intros c [Lc Fc].
  eapply eall_ebind; [apply decode_order_span_eall|]. intros d [Ld Fd].
  destruct (finish_coeff_order _) eqn:E; cbn [eall]; [|exact I].
  eapply finish_coeff_order_ok; [| |exact E].
  - rewrite !app_length; lia.
  - repeat (apply Forall_app; split); assumption.
Qed.
