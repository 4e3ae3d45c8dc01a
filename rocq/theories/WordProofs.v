(** Word sections: the places where CanRead is asked are enough, so suspending anywhere loses nothing. *)
From Verif Require Import Base EntropyModel LehmerModel BitModel BitProofs Stream BitSteady Machine CoefModel WordModel.

(** * Budgets *)

(** On every path at most [a] bits and symbols and [t] raw bits are read; results satisfy [Q]. *)
Fixpoint ebud {A} (Q : A -> Prop) (p : eprog A) (a t : nat) : Prop :=
  match p with
  | ERet x => Q x
  | EFail => True
  | EBit _ k => exists a', a = S a' /\ forall b, ebud Q (k b) a' t
  | ESym c k => exists a', a = S a' /\ forall s, 0 <= s < Z.of_nat (length c) -> ebud Q (k s) a' t
  | EBits n k => (n <= 16)%nat /\ exists t', (t = n + t')%nat /\ forall v, 0 <= v < 2 ^ Z.of_nat n -> ebud Q (k v) a t'
  end.

(** The same for resumable programs: every [WdNeed] covers what follows up to the next one. *)
Fixpoint wbud {A} (p : wprog A) (a t : nat) : Prop :=
  match p with
  | WdRet _ => True
  | WdFail => True
  | WdNeed n k => (n <= 297)%nat /\ exists a' c t', (a' + c <= n)%nat /\ (t' <= 16 * c)%nat /\ wbud k a' t'
  | WdBit _ k => exists a', a = S a' /\ forall b, wbud (k b) a' t
  | WdSym c k => exists a', a = S a' /\ forall s, 0 <= s < Z.of_nat (length c) -> wbud (k s) a' t
  | WdBits n k => (n <= 16)%nat /\ exists t', (t = n + t')%nat /\ forall v, 0 <= v < 2 ^ Z.of_nat n -> wbud (k v) a t'
  end.

Lemma ebud_weaken {A} (Q R : A -> Prop) : (forall x, Q x -> R x) -> forall p a t a' t', ebud Q p a t -> (a <= a')%nat -> (t <= t')%nat -> ebud R p a' t'.
Proof.
  intros QR. induction p as [x| |q k IH|c k IH|n k IH]; intros a t a' t' H Ha Ht; cbn [ebud] in *; auto.
  - destruct H as (a0 & -> & H). destruct a' as [|a']; [lia|]. exists a'. split; [reflexivity|]. intros b. eapply IH; [apply H|lia|lia].
  - destruct H as (a0 & -> & H). destruct a' as [|a']; [lia|]. exists a'. split; [reflexivity|]. intros s Hs. eapply IH; [apply H; exact Hs|lia|lia].
  - destruct H as (Hn & t0 & -> & H). split; [exact Hn|]. exists (t' - n)%nat. split; [lia|]. intros v Hv. eapply IH; [apply H; exact Hv|lia|lia].
Qed.

Lemma ebud_bind {A B} (Q : A -> Prop) (R : B -> Prop) g a2 t2 : (forall x, Q x -> ebud R (g x) a2 t2) ->
  forall p a1 t1, ebud Q p a1 t1 -> ebud R (ebind p g) (a1 + a2) (t1 + t2).
Proof.
  intros Hg. induction p as [x| |q k IH|c k IH|n k IH]; intros a1 t1 H; cbn [ebud ebind] in *; auto.
  - eapply (ebud_weaken R R); [auto|apply Hg; exact H|lia|lia].
  - destruct H as (a0 & -> & H). exists (a0 + a2)%nat. split; [reflexivity|]. intros b. apply IH, H.
  - destruct H as (a0 & -> & H). exists (a0 + a2)%nat. split; [reflexivity|]. intros s Hs. apply IH, H, Hs.
  - destruct H as (Hn & t0 & -> & H). split; [exact Hn|]. exists (t0 + t2)%nat. split; [lia|]. intros v Hv. apply IH, H, Hv.
Qed.

Lemma wbud_lift {A B} (Q : A -> Prop) (g : A -> wprog B) : (forall x, Q x -> forall a t, wbud (g x) a t) ->
  forall p a t, ebud Q p a t -> wbud (wlift p g) a t.
Proof.
  intros Hg. induction p as [x| |q k IH|c k IH|n k IH]; intros a t H; cbn [ebud wlift wbud] in *; auto.
  - destruct H as (a0 & -> & H). exists a0. split; [reflexivity|]. intros b. apply IH, H.
  - destruct H as (a0 & -> & H). exists a0. split; [reflexivity|]. intros s Hs. apply IH, H, Hs.
  - destruct H as (Hn & t0 & -> & H). split; [exact Hn|]. exists t0. split; [lia|]. intros v Hv. apply IH, H, Hv.
Qed.

(** * One call with part of the words *)

(** The same decoder with more words behind. *)
Definition ext (d : dstate) (X : list Z) : dstate := set_src d (mkWS (ws_words (d_src d) ++ X) (ws_error (d_src d))).

Lemma next_word_ext src X : ws_words src <> [] -> exists w src', next_word src = (w, src') /\
  next_word (mkWS (ws_words src ++ X) (ws_error src)) = (w, mkWS (ws_words src' ++ X) (ws_error src')) /\
  ws_error src' = ws_error src /\ ws_words src = w :: ws_words src'.
Proof.
  intros H. destruct src as [[|w r] e]; cbn [ws_words ws_error next_word Datatypes.app] in *; [congruence|].
  exists w, (mkWS r e). cbn. auto.
Qed.

(** What is known of a decoder between two items: capacity for [a] and [t]. *)
Definition room (d : dstate) (a t : nat) : Prop :=
  0 <= d_bitpos d <= 16 /\ ws_error (d_src d) = false /\
  exists c, (a + c <= length (ws_words (d_src d)))%nat /\ d_bitpos d + Z.of_nat t <= 16 * Z.of_nat c + 16.

Definition tail_of (d' d : dstate) : Prop := exists used, ws_words (d_src d) = used ++ ws_words (d_src d').
Lemma tail_of_refl d : tail_of d d.
Proof. exists []. reflexivity. Qed.
Lemma tail_of_trans a b c : tail_of a b -> tail_of b c -> tail_of a c.
Proof. intros (u & U) (v & W). exists (v ++ u). rewrite W, U, app_assoc. reflexivity. Qed.

Lemma read_bit_ext q d X a t : room d (S a) t -> exists b d', read_bit q d = (b, d') /\ read_bit q (ext d X) = (b, ext d' X) /\ room d' a t /\ tail_of d' d.
Proof.
  intros (R1 & R2 & c & R3 & R4). unfold read_bit, ext, set_src. cbn [d_low d_high d_value d_src d_ans d_val d_bitpos].
  destruct (Z.shiftr _ 16 =? 0).
  - destruct (next_word_ext (d_src d) X) as (w & src' & N1 & N2 & N3 & N4); [intros E; rewrite E in R3; cbn in R3; lia|].
    rewrite N1, N2. eexists. eexists. split; [reflexivity|]. split; [reflexivity|]. split.
    + split; [exact R1|]. cbn [d_src d_bitpos]. split; [congruence|]. exists c. rewrite N4 in R3. cbn [length] in R3. split; [lia|exact R4].
    + exists [w]. exact N4.
  - eexists. eexists. split; [reflexivity|]. split; [reflexivity|]. split.
    + split; [exact R1|]. split; [exact R2|]. exists c. cbn [d_src d_bitpos]. split; [lia|exact R4].
    + exists []. reflexivity.
Qed.

Lemma ans_map_from_range : forall counts i n sym fr off, nth_error (ans_map_from i counts) n = Some (sym, fr, off) -> i <= sym < i + Z.of_nat (length counts).
Proof.
  induction counts as [|c r IH]; intros i n sym fr off E; cbn [ans_map_from] in E; [destruct n; discriminate|].
  apply nth_error_In in E. apply in_app_or in E as [E|E].
  - apply in_map_iff in E as (j & E & _). injection E as <- _ _. cbn [length]. lia.
  - apply In_nth_error in E as (m & E). apply IH in E. cbn [length]. lia.
Qed.

Lemma read_symbol_ext q d X a t : room d (S a) t ->
  match read_symbol q d with
  | Some (s, d') => read_symbol q (ext d X) = Some (s, ext d' X) /\ 0 <= s < Z.of_nat (length q) /\ room d' a t /\ tail_of d' d
  | None => read_symbol q (ext d X) = None
  end.
Proof.
  intros (R1 & R2 & c & R3 & R4). unfold read_symbol, ext, set_src. cbn [d_low d_high d_value d_src d_ans d_val d_bitpos].
  destruct (nth_error (ans_map q) _) as [[[sym fr] off]|] eqn:E; [|reflexivity].
  apply ans_map_from_range in E. destruct (_ <? _).
  - destruct (next_word_ext (d_src d) X) as (w & src' & N1 & N2 & N3 & N4); [intros E'; rewrite E' in R3; cbn in R3; lia|].
    rewrite N1, N2. split; [reflexivity|]. split; [lia|]. split.
    + split; [exact R1|]. cbn [d_src d_bitpos]. split; [congruence|]. exists c. rewrite N4 in R3. cbn [length] in R3. split; [lia|exact R4].
    + exists [w]. exact N4.
  - split; [reflexivity|]. split; [lia|]. split.
    + split; [exact R1|]. split; [exact R2|]. exists c. cbn [d_src d_bitpos]. split; [lia|exact R4].
    + exists []. reflexivity.
Qed.

Lemma read_bits_ext n d X a t : (n <= 16)%nat -> room d a (n + t) -> exists v d', read_bits n d = (v, d') /\ read_bits n (ext d X) = (v, ext d' X) /\
  0 <= v < 2 ^ Z.of_nat n /\ room d' a t /\ tail_of d' d.
Proof.
  intros Hn (R1 & R2 & c & R3 & R4). unfold read_bits, ext, set_src. cbn [d_low d_high d_value d_src d_ans d_val d_bitpos].
  assert (LR : forall x, 0 <= Z.land x (2 ^ Z.of_nat n - 1) < 2 ^ Z.of_nat n).
  { intros x. replace (2 ^ Z.of_nat n - 1) with (Z.ones (Z.of_nat n)) by (rewrite Z.ones_equiv; lia). rewrite Z.land_ones by lia. apply Z.mod_pos_bound. apply Z.pow_pos_nonneg; lia. }
  destruct (Z.ltb_spec 16 (d_bitpos d + Z.of_nat n)) as [H|H].
  - destruct (next_word_ext (d_src d) X) as (w & src' & N1 & N2 & N3 & N4); [intros E; rewrite E in R3; cbn in R3; lia|].
    rewrite N1, N2. eexists. eexists. split; [reflexivity|]. split; [reflexivity|]. split; [apply LR|]. split.
    + unfold room. cbn [d_src d_bitpos]. split; [lia|]. split; [congruence|]. exists (c - 1)%nat. rewrite N4 in R3. cbn [length] in R3. split; lia.
    + exists [w]. exact N4.
  - eexists. eexists. split; [reflexivity|]. split; [reflexivity|]. split; [apply LR|]. split.
    + unfold room. cbn [d_src d_bitpos]. split; [lia|]. split; [exact R2|]. exists c. split; [lia|lia].
    + exists []. reflexivity.
Qed.

Lemma wrun_ext_any {A} (o : bool) : forall (p : wprog A) d X a t, wbud p a t -> room d a t ->
  match wrun false p d with
  | WoDone x d' => ws_error (d_src d') = false /\ tail_of d' d /\ wrun o p (ext d X) = WoDone x (ext d' X)
  | WoBad => wrun o p (ext d X) = WoBad
  | WoMore p' d' => room d' 0 0 /\ tail_of d' d /\ (forall a t, wbud p' a t) /\ (length (ws_words (d_src d')) < 297)%nat /\
      wrun o p (ext d X) = wrun o p' (ext d' X)
  end.
Proof.
  induction p as [x| |n k IH|q k IH|c k IH|n k IH]; intros d X a t B R; cbn [wrun wbud] in *.
  - split; [apply R|]. split; [apply tail_of_refl|]. reflexivity.
  - reflexivity.
  - destruct B as (Bn & a' & c & t' & B1 & B2 & B3). unfold can_read. cbn [orb].
    destruct (Nat.leb_spec n (length (ws_words (d_src d)))) as [L|L].
    + assert (EX : (n <=? length (ws_words (d_src (ext d X))))%nat = true).
      { unfold ext, set_src. cbn [d_src ws_words]. apply Nat.leb_le. rewrite app_length. lia. }
      rewrite EX, orb_true_r. apply (IH d X a' t' B3). destruct R as (R1 & R2 & _). split; [exact R1|]. split; [exact R2|]. exists c. split; [lia|lia].
    + destruct R as (R1 & R2 & _). split; [|split; [apply tail_of_refl|split; [|split; [lia|reflexivity]]]].
      * split; [exact R1|]. split; [exact R2|]. exists 0%nat. split; [lia|lia].
      * intros a0 t0. split; [exact Bn|]. exists a', c, t'. auto.
  - destruct B as (a' & -> & B). destruct (read_bit_ext q d X a' t R) as (b & d' & E1 & E2 & R' & T). rewrite E1, E2.
    specialize (IH b d' X a' t (B b) R'). destruct (wrun false (k b) d') as [x d2| |p2 d2]; [|exact IH|].
    + destruct IH as (I1 & I2 & I3). split; [exact I1|]. split; [eapply tail_of_trans; eassumption|exact I3].
    + destruct IH as (I1 & I2 & I3). split; [exact I1|]. split; [eapply tail_of_trans; eassumption|exact I3].
  - destruct B as (a' & -> & B). pose proof (read_symbol_ext c d X a' t R) as S. destruct (read_symbol c d) as [[s d']|]; [|rewrite S; reflexivity].
    destruct S as (S1 & S2 & R' & T). rewrite S1. specialize (IH s d' X a' t (B s S2) R'). destruct (wrun false (k s) d') as [x d2| |p2 d2]; [|exact IH|].
    + destruct IH as (I1 & I2 & I3). split; [exact I1|]. split; [eapply tail_of_trans; eassumption|exact I3].
    + destruct IH as (I1 & I2 & I3). split; [exact I1|]. split; [eapply tail_of_trans; eassumption|exact I3].
  - destruct B as (Bn & t' & -> & B). destruct (read_bits_ext n d X a t' Bn R) as (v & d' & E1 & E2 & V & R' & T). rewrite E1, E2.
    specialize (IH v d' X a t' (B v V) R'). destruct (wrun false (k v) d') as [x d2| |p2 d2]; [|exact IH|].
    + destruct IH as (I1 & I2 & I3). split; [exact I1|]. split; [eapply tail_of_trans; eassumption|exact I3].
    + destruct IH as (I1 & I2 & I3). split; [exact I1|]. split; [eapply tail_of_trans; eassumption|exact I3].
Qed.


Lemma wrun_ext {A} (p : wprog A) d X a t : wbud p a t -> room d a t ->
  match wrun false p d with
  | WoDone x d' => ws_error (d_src d') = false /\ tail_of d' d /\ wrun true p (ext d X) = WoDone x (ext d' X)
  | WoBad => wrun true p (ext d X) = WoBad
  | WoMore p' d' => room d' 0 0 /\ tail_of d' d /\ (forall a t, wbud p' a t) /\ (length (ws_words (d_src d')) < 297)%nat /\
      wrun true p (ext d X) = wrun true p' (ext d' X)
  end.
Proof. apply wrun_ext_any. Qed.

Lemma wrun_opt {A} : forall (p : wprog A) d, wrun true p d = match erun (strip p) d with Some (a, d') => WoDone a d' | None => WoBad end.
Proof.
  induction p as [x| |n k IH|q k IH|c k IH|n k IH]; intros d; cbn [wrun strip erun]; auto.
  - unfold can_read. cbn [orb]. apply IH.
  - destruct (read_bit q d) as [b d']. apply IH.
  - destruct (read_symbol c d) as [[s d']|]; [apply IH|reflexivity].
  - destruct (read_bits n d) as [v d']. apply IH.
Qed.

(** An optimistic run only drops words from the front. *)
Lemma next_word_tail src : exists used, ws_words src = used ++ ws_words (snd (next_word src)).
Proof. destruct src as [[|w r] e]; cbn; [exists []; reflexivity|exists [w]; reflexivity]. Qed.
Lemma erun_tail {A} : forall (p : eprog A) d x d', erun p d = Some (x, d') -> tail_of d' d.
Proof.
  assert (Nx : forall (src : wsrc) w s', next_word src = (w, s') -> exists used, ws_words src = used ++ ws_words s').
  { intros src w s' E. destruct (next_word_tail src) as (u & U). rewrite E in U. exists u. exact U. }
  induction p as [x| |q k IH|c k IH|n k IH]; intros d y d' E; cbn [erun] in E; try discriminate.
  - injection E as -> ->. apply tail_of_refl.
  - destruct (read_bit q d) as [b d1] eqn:F. eapply tail_of_trans; [eapply IH; exact E|].
    unfold read_bit in F. destruct (_ =? 0) in F.
    + destruct (next_word (d_src d)) as [w s'] eqn:N. injection F as _ <-. exact (Nx _ _ _ N).
    + injection F as _ <-. exists []. reflexivity.
  - destruct (read_symbol c d) as [[s d1]|] eqn:F; [|discriminate]. eapply tail_of_trans; [eapply IH; exact E|].
    unfold read_symbol in F. destruct (nth_error _ _) as [[[sym fr] off]|]; [|discriminate]. destruct (_ <? _) in F.
    + destruct (next_word (d_src d)) as [w s'] eqn:N. injection F as _ <-. exact (Nx _ _ _ N).
    + injection F as _ <-. exists []. reflexivity.
  - destruct (read_bits n d) as [v d1] eqn:F. eapply tail_of_trans; [eapply IH; exact E|].
    unfold read_bits in F. destruct (16 <? _) in F.
    + destruct (next_word (d_src d)) as [w s'] eqn:N. injection F as _ <-. exact (Nx _ _ _ N).
    + injection F as _ <-. exists []. reflexivity.
Qed.

(** * The laws of a section *)

Lemma app_split {A} : forall (a b c d : list A), length a = length b -> a ++ c = b ++ d -> a = b /\ c = d.
Proof.
  induction a as [|x a IH]; intros [|y b] c d L E; cbn in *; try discriminate; [auto|].
  injection E as -> E. destruct (IH b c d ltac:(lia) E) as [-> ->]. auto.
Qed.
Lemma bytes_to_words_app : forall a b, Nat.even (length a) = true -> bytes_to_words (a ++ b) = bytes_to_words a ++ bytes_to_words b.
Proof.
  fix IH 1. intros [|x [|y r]] b E; [reflexivity|discriminate|]. cbn [Datatypes.app bytes_to_words]. f_equal. apply IH. exact E.
Qed.
Lemma bytes_to_words_length : forall a, Nat.even (length a) = true -> (2 * length (bytes_to_words a) = length a)%nat.
Proof.
  fix IH 1. intros [|x [|y r]] E; [reflexivity|discriminate|]. cbn [bytes_to_words length]. specialize (IH r E). lia.
Qed.

Definition winv {A} (n : nat) (s : wstate A) (a : nat) : Prop :=
  Nat.odd n = false /\ Nat.even (w_pos s) = true /\ (w_pos s <= n)%nat /\ (w_pos s <= a)%nat /\
  (forall a t, wbud (w_prog s) a t) /\
  match w_sub s with Some d => 0 <= d_bitpos d <= 16 | None => True end.

Definition winv' {A} (n : nat) (s : wstate A) (a : nat) : Prop := Nat.odd n = true \/ winv n s a.

Lemma even_half k : Nat.even (k / 2 * 2) = true.
Proof. rewrite Nat.even_mul. destruct (Nat.even (k / 2)); reflexivity. Qed.
Lemma chunk_cases n pos avail : Nat.odd n = false -> Nat.even pos = true -> (pos <= n)%nat ->
  let chunk := Nat.min ((avail - pos) / 2 * 2) (n - pos) in
  Nat.even chunk = true /\ (chunk <= n - pos)%nat /\ (chunk <= avail - pos)%nat /\
  ((n <= avail)%nat -> chunk = (n - pos)%nat) /\ (chunk <> (n - pos)%nat -> (avail - pos <= chunk + 1)%nat).
Proof.
  intros O E L. cbv zeta. pose proof (Nat.mul_div_le (avail - pos) 2) as M. pose proof (Nat.mul_succ_div_gt (avail - pos) 2) as M2.
  assert (Hn : Nat.even n = true) by (rewrite <- Nat.negb_odd, O; reflexivity).
  assert (Hd : Nat.even (n - pos) = true) by (rewrite Nat.even_sub by exact L; rewrite Hn, E; reflexivity).
  split; [destruct (Nat.min_spec ((avail - pos) / 2 * 2) (n - pos)) as [[_ ->]|[_ ->]]; [apply even_half|exact Hd]|].
  split; [lia|]. split; [lia|]. split; [|lia].
  intros H. apply Nat.min_r. destruct (proj1 (Nat.even_spec _) Hd) as (k & K). lia.
Qed.

Lemma d_init_ext words X : (5 <= length words)%nat -> exists used, words = used ++ ws_words (d_src (d_init (mkWS words false))) /\
  ws_error (d_src (d_init (mkWS words false))) = false /\ d_bitpos (d_init (mkWS words false)) = 0 /\
  d_init (mkWS (words ++ X) false) = ext (d_init (mkWS words false)) X.
Proof.
  intros H. destruct words as [|w1 [|w2 [|w3 [|w4 [|w5 r]]]]]; cbn [length] in H; try lia.
  exists [w1; w2; w3; w4; w5]. cbn. auto.
Qed.
Lemma d_init_tail words : exists used, words = used ++ ws_words (d_src (d_init (mkWS words false))).
Proof.
  destruct words as [|w1 [|w2 [|w3 [|w4 [|w5 r]]]]].
  - exists []. reflexivity.
  - exists [w1]. reflexivity.
  - exists [w1; w2]. reflexivity.
  - exists [w1; w2; w3]. reflexivity.
  - exists [w1; w2; w3; w4]. reflexivity.
  - exists [w1; w2; w3; w4; w5]. reflexivity.
Qed.

(** The subdecoders at the start of a call. *)
Definition start_sub {A} (s : wstate A) (words : list Z) : dstate :=
  match w_sub s with Some d => set_src d (mkWS words false) | None => d_init (mkWS words false) end.
Lemma start_sub_tail {A} (s : wstate A) words : exists used, words = used ++ ws_words (d_src (start_sub s words)).
Proof. unfold start_sub. destruct (w_sub s); [exists []; reflexivity|apply d_init_tail]. Qed.

(** The call that sees the whole section. *)
Definition wfull {A} (s : wstate A) (n : nat) (V : list Z) : option A :=
  match erun (strip (w_prog s)) (start_sub s (bytes_to_words (slice V (w_pos s) n))) with
  | Some (a, d) => if negb (ws_error (d_src d)) && d_finalize d && match ws_words (d_src d) with [] => true | _ => false end then Some a else None
  | None => None
  end.

Lemma wcall_full {A} n V (s : wstate A) a N : winv n s a -> (n <= N)%nat -> (n <= length V)%nat ->
  wcall n V s N = match wfull s n V with Some x => RDone x n | None => RFail end.
Proof.
  intros (I1 & I2 & I3 & I4 & I5 & I6) HN HV. unfold wcall. rewrite I1.
  destruct (chunk_cases n (w_pos s) N I1 I2 I3) as (C1 & C2 & C3 & C4 & C5). rewrite (C4 HN).
  rewrite Nat.eqb_refl. cbn [orb]. replace (w_pos s + (n - w_pos s))%nat with n by lia.
  set (words := bytes_to_words (slice V (w_pos s) n)).
  assert (LW : (2 * length words = n - w_pos s)%nat).
  { unfold words. rewrite bytes_to_words_length; rewrite slice_length by lia; [reflexivity|]. rewrite (C4 HN) in C1. exact C1. }
  cbv zeta. unfold wfull. fold words.
  assert (G : forall d, (exists used, words = used ++ ws_words (d_src d)) ->
    match wrun true (w_prog s) d with
      | WoDone a d' => if ws_error (d_src d') then RFail else if negb (d_finalize d') then RFail
          else if negb (w_pos s + 2 * (length words - length (ws_words (d_src d'))) =? n)%nat then RFail
          else RDone a (w_pos s + 2 * (length words - length (ws_words (d_src d'))))%nat
      | WoBad => RFail
      | WoMore p d' => if ws_error (d_src d') then RFail else RFail
      end = match (match erun (strip (w_prog s)) d with
         | Some (a, d) => if negb (ws_error (d_src d)) && d_finalize d && match ws_words (d_src d) with [] => true | _ => false end then Some a else None
         | None => None end) with Some x => @RDone (wstate A) A x n | None => RFail end).
  { intros d (used & U). rewrite wrun_opt. destruct (erun (strip (w_prog s)) d) as [[x d']|] eqn:E; [|reflexivity].
    destruct (erun_tail _ _ _ _ E) as (u2 & U2). rewrite U2 in U. assert (LL : length words = (length used + (length u2 + length (ws_words (d_src d'))))%nat) by (rewrite U, !app_length; reflexivity).
    destruct (ws_error (d_src d')); [reflexivity|]. destruct (d_finalize d'); [|reflexivity]. cbn [negb andb].
    destruct (ws_words (d_src d')) as [|w r] eqn:W; cbn [length] in *.
    - replace (w_pos s + 2 * (length words - 0))%nat with n by lia. rewrite Nat.eqb_refl. reflexivity.
    - destruct (Nat.eqb_spec (w_pos s + 2 * (length words - S (length r))) n); [lia|]. reflexivity. }
  pose proof (start_sub_tail s words) as ST. unfold start_sub in *. destruct (w_sub s); exact (G _ ST).
Qed.

Lemma wcall_part {A} n V (s : wstate A) a b : winv n s a -> (n <= length V)%nat -> (a <= b)%nat ->
  Nat.min ((b - w_pos s) / 2 * 2) (n - w_pos s) <> (n - w_pos s)%nat ->
  match wcall n V s b with
  | RDone _ _ => False
  | RFail => wfull s n V = None
  | RMore s' => winv n s' b /\ (w_pos s <= w_pos s')%nat /\ (b < w_pos s' + 600)%nat /\ wfull s' n V = wfull s n V
  end.
Proof.
  intros Hw HV Hab HC. pose proof Hw as (I1 & I2 & I3 & I4 & I5 & I6).
  destruct (chunk_cases n (w_pos s) b I1 I2 I3) as (C1 & C2 & C3 & C4 & C5). specialize (C5 HC). unfold wcall. rewrite I1.
  set (chunk := Nat.min ((b - w_pos s) / 2 * 2) (n - w_pos s)) in *. destruct (Nat.eqb_spec chunk (n - w_pos s)) as [|_]; [contradiction|]. cbn [orb]. cbv zeta.
  set (words := bytes_to_words (slice V (w_pos s) (w_pos s + chunk))).
  assert (LW : (2 * length words = chunk)%nat).
  { unfold words. rewrite bytes_to_words_length; rewrite slice_length by lia; [lia|]. replace (w_pos s + chunk - w_pos s)%nat with chunk by lia. exact C1. }
  set (X := bytes_to_words (slice V (w_pos s + chunk) n)).
  assert (FW : bytes_to_words (slice V (w_pos s) n) = words ++ X).
  { rewrite (slice_app V (w_pos s) (w_pos s + chunk) n) by lia. apply bytes_to_words_app. rewrite slice_length by lia. replace (w_pos s + chunk - w_pos s)%nat with chunk by lia. exact C1. }
  assert (Hn : Nat.even n = true) by (rewrite <- Nat.negb_odd, I1; reflexivity).
  assert (LX : (2 * length X = n - (w_pos s + chunk))%nat).
  { unfold X. rewrite bytes_to_words_length; rewrite slice_length by lia; [reflexivity|]. rewrite Nat.even_sub by lia. rewrite Hn, Nat.even_add, I2, C1. reflexivity. }
  assert (G : forall d, room d 0 0 -> (exists used, words = used ++ ws_words (d_src d)) -> start_sub s (words ++ X) = ext d X ->
    match
    (match wrun false (w_prog s) d with
      | WoDone a d' => if ws_error (d_src d') then RFail else if negb (d_finalize d') then RFail
          else if negb (w_pos s + 2 * (length words - length (ws_words (d_src d'))) =? n)%nat then RFail
          else RDone a (w_pos s + 2 * (length words - length (ws_words (d_src d'))))%nat
      | WoBad => RFail
      | WoMore p d' => if ws_error (d_src d') then RFail else RMore (mkW p (Some d') (w_pos s + 2 * (length words - length (ws_words (d_src d')))))
      end) with
    | RDone _ _ => False
    | RFail => wfull s n V = None
    | RMore s' => winv n s' b /\ (w_pos s <= w_pos s')%nat /\ (b < w_pos s' + 600)%nat /\ wfull s' n V = wfull s n V
    end).
  { intros d R (used & U) SS. pose proof (wrun_ext (w_prog s) d X 0 0 (I5 _ _) R) as W. rewrite wrun_opt in W.
    assert (WF : wfull s n V = match erun (strip (w_prog s)) (ext d X) with
      | Some (a, d) => if negb (ws_error (d_src d)) && d_finalize d && match ws_words (d_src d) with [] => true | _ => false end then Some a else None
      | None => None end) by (unfold wfull; rewrite FW, SS; reflexivity).
    destruct (wrun false (w_prog s) d) as [x d'| |p d'].
    - destruct W as (W1 & W2 & W3). destruct (erun (strip (w_prog s)) (ext d X)) as [[x' d2]|]; [|discriminate]. injection W3 as -> ->.
      rewrite W1. assert (E : (w_pos s + 2 * (length words - length (ws_words (d_src d'))))%nat <> n) by lia.
      destruct (Nat.eqb_spec (w_pos s + 2 * (length words - length (ws_words (d_src d')))) n); [contradiction|]. cbn [negb].
      assert (Z0 : match ws_words (d_src (ext d' X)) with [] => true | _ => false end = false).
      { unfold ext, set_src. cbn [d_src ws_words]. destruct (ws_words (d_src d') ++ X) eqn:EE; [|reflexivity]. apply app_eq_nil in EE. destruct EE as [_ ->]. cbn [length] in LX. lia. }
      rewrite WF, Z0, andb_false_r. destruct (negb (d_finalize d')); reflexivity.
    - destruct (erun (strip (w_prog s)) (ext d X)) as [[x' d2]|]; [discriminate|]. exact WF.
    - destruct W as (W1 & (u2 & U2) & W3 & W4 & W5). destruct W1 as (B1 & B2 & _). rewrite B2.
      set (q := (w_pos s + 2 * (length words - length (ws_words (d_src d'))))%nat).
      assert (LL : length words = (length used + length u2 + length (ws_words (d_src d')))%nat) by (rewrite U, U2, !app_length; lia).
      assert (Q : q = (w_pos s + 2 * (length used + length u2))%nat) by (unfold q; lia).
      assert (Eq : Nat.even q = true) by (rewrite Q, Nat.even_add, I2, Nat.even_mul; reflexivity).
      split; [|split; [cbn [w_pos]; lia|split; [cbn [w_pos]; lia|]]].
      + unfold winv. cbn [w_pos w_prog w_sub]. split; [exact I1|]. split; [exact Eq|]. split; [lia|]. split; [lia|]. split; [exact W3|exact B1].
      + rewrite WF. unfold wfull. cbn [w_prog w_pos].
        assert (SL : bytes_to_words (slice V q n) = ws_words (d_src d') ++ X).
        { assert (S1 : bytes_to_words (slice V (w_pos s) n) = bytes_to_words (slice V (w_pos s) q) ++ bytes_to_words (slice V q n)).
          { rewrite (slice_app V (w_pos s) q n) by lia. apply bytes_to_words_app. rewrite slice_length by lia. rewrite Nat.even_sub by lia. rewrite Eq, I2. reflexivity. }
          rewrite FW, U, U2 in S1. rewrite <- !app_assoc in S1. rewrite app_assoc in S1.
          assert (S2 : length (used ++ u2) = length (bytes_to_words (slice V (w_pos s) q))).
          { assert (2 * length (bytes_to_words (slice V (w_pos s) q)) = q - w_pos s)%nat as S3. { rewrite bytes_to_words_length; rewrite slice_length by lia; [reflexivity|]. rewrite Nat.even_sub by lia. rewrite Eq, I2. reflexivity. }
            rewrite app_length. lia. }
          symmetry. exact (proj2 (app_split _ _ _ _ S2 S1)). }
        rewrite SL. unfold start_sub. cbn [w_sub].
        replace (set_src d' (mkWS (ws_words (d_src d') ++ X) false)) with (ext d' X) by (unfold ext; rewrite B2; reflexivity).
        rewrite wrun_opt in W5.
        destruct (erun (strip p) (ext d' X)) as [[z e]|], (erun (strip (w_prog s)) (ext d X)) as [[z' e']|]; try discriminate; [|reflexivity].
        injection W5 as -> ->. reflexivity. }
  unfold start_sub in G. destruct (w_sub s) as [d0|] eqn:WS.
  - apply G.
    + split; [exact I6|]. cbn [set_src d_src ws_error ws_words]. split; [reflexivity|]. exists 0%nat. unfold set_src. cbn [d_bitpos]. split; [lia|lia].
    + exists []. reflexivity.
    + reflexivity.
  - destruct (Nat.leb_spec 5 (length words)) as [H5|H5].
    + destruct (d_init_ext words X H5) as (used & D1 & D2 & D3 & D4). apply G.
      * split; [rewrite D3; lia|]. split; [exact D2|]. exists 0%nat. rewrite D3. split; lia.
      * exists used. exact D1.
      * exact D4.
    + split; [|split; [lia|split; [lia|reflexivity]]]. unfold winv. split; [exact I1|]. split; [exact I2|]. split; [exact I3|]. split; [lia|]. split; [exact I5|]. rewrite WS. exact Logic.I.
Qed.

(** ** What a call reports depends only on what is visible *)

Lemma wrun_tail {A} o : forall (p : wprog A) d x d', wrun o p d = WoDone x d' -> tail_of d' d.
Proof.
  assert (Nx : forall (src : wsrc) w s', next_word src = (w, s') -> exists used, ws_words src = used ++ ws_words s').
  { intros src w s' E. destruct (next_word_tail src) as (u & U). rewrite E in U. exists u. exact U. }
  induction p as [x| |n k IH|q k IH|c k IH|n k IH]; intros d y d' E; cbn [wrun] in E; try discriminate.
  - injection E as -> ->. apply tail_of_refl.
  - destruct (can_read o n d); [|discriminate]. eapply IH; exact E.
  - destruct (read_bit q d) as [b d1] eqn:F. eapply tail_of_trans; [eapply IH; exact E|].
    unfold read_bit in F. destruct (_ =? 0) in F.
    + destruct (next_word (d_src d)) as [w s'] eqn:N. injection F as _ <-. exact (Nx _ _ _ N).
    + injection F as _ <-. exists []. reflexivity.
  - destruct (read_symbol c d) as [[s d1]|] eqn:F; [|discriminate]. eapply tail_of_trans; [eapply IH; exact E|].
    unfold read_symbol in F. destruct (nth_error _ _) as [[[sym fr] off]|]; [|discriminate]. destruct (_ <? _) in F.
    + destruct (next_word (d_src d)) as [w s'] eqn:N. injection F as _ <-. exact (Nx _ _ _ N).
    + injection F as _ <-. exists []. reflexivity.
  - destruct (read_bits n d) as [v d1] eqn:F. eapply tail_of_trans; [eapply IH; exact E|].
    unfold read_bits in F. destruct (16 <? _) in F.
    + destruct (next_word (d_src d)) as [w s'] eqn:N. injection F as _ <-. exact (Nx _ _ _ N).
    + injection F as _ <-. exists []. reflexivity.
Qed.

(** The report when the words up to byte [e] are visible. *)
Definition wrep {A} (n : nat) (last : bool) (r : wout A) : option (option (A * nat)) :=
  match r with
  | WoBad => Some None
  | WoDone a d => if negb (ws_error (d_src d)) && d_finalize d && last && match ws_words (d_src d) with [] => true | _ => false end then Some (Some (a, n)) else Some None
  | WoMore _ d => if ws_error (d_src d) || last then Some None else None
  end.
Definition wverd {A} (s : wstate A) (n : nat) (V : list Z) (e : nat) : option (option (A * nat)) :=
  let words := bytes_to_words (slice V (w_pos s) e) in
  if match w_sub s with None => negb ((e =? n)%nat || (5 <=? length words)%nat) | Some _ => false end then None
  else wrep n (e =? n)%nat (wrun (e =? n)%nat (w_prog s) (start_sub s words)).
Definition wend (n N : nat) : nat := Nat.min (N / 2 * 2) n.

Lemma wend_chunk n pos N : Nat.odd n = false -> Nat.even pos = true -> (pos <= n)%nat -> (pos <= N)%nat ->
  (pos + Nat.min ((N - pos) / 2 * 2) (n - pos))%nat = wend n N.
Proof.
  intros O E L LN. unfold wend. destruct (proj1 (Nat.even_spec _) E) as (k & K).
  pose proof (Nat.div_mod N 2 ltac:(lia)). pose proof (Nat.mod_upper_bound N 2 ltac:(lia)).
  pose proof (Nat.div_mod (N - pos) 2 ltac:(lia)). pose proof (Nat.mod_upper_bound (N - pos) 2 ltac:(lia)). lia.
Qed.

Lemma wcall_verd {A} n V (s : wstate A) a N : winv n s a -> (n <= length V)%nat -> (a <= N)%nat ->
  verd (wcall n V s N) = wverd s n V (wend n N).
Proof.
  intros (I1 & I2 & I3 & I4 & I5 & I6) HV HN. unfold wcall. rewrite I1.
  destruct (chunk_cases n (w_pos s) N I1 I2 I3) as (C1 & C2 & C3 & C4 & C5).
  pose proof (wend_chunk n (w_pos s) N I1 I2 I3 ltac:(lia)) as WE.
  set (chunk := Nat.min ((N - w_pos s) / 2 * 2) (n - w_pos s)) in *. set (e := wend n N) in *. cbv zeta. unfold wverd. rewrite WE.
  assert (Last : (chunk =? n - w_pos s)%nat = (e =? n)%nat) by (apply eq_true_iff_eq; rewrite !Nat.eqb_eq; lia). rewrite Last.
  set (words := bytes_to_words (slice V (w_pos s) e)).
  assert (LW : (2 * length words = chunk)%nat).
  { unfold words. rewrite bytes_to_words_length; rewrite slice_length by lia; [lia|]. replace (e - w_pos s)%nat with chunk by lia. exact C1. }
  assert (G : forall d, (exists used, words = used ++ ws_words (d_src d)) ->
    verd (match wrun (e =? n)%nat (w_prog s) d with
      | WoDone a d' => if ws_error (d_src d') then RFail else if negb (d_finalize d') then RFail
          else if negb (w_pos s + 2 * (length words - length (ws_words (d_src d'))) =? n)%nat then RFail
          else RDone a (w_pos s + 2 * (length words - length (ws_words (d_src d'))))%nat
      | WoBad => RFail
      | WoMore p d' => if ws_error (d_src d') then RFail else if (e =? n)%nat then RFail else RMore (mkW p (Some d') (w_pos s + 2 * (length words - length (ws_words (d_src d')))))
      end) = wrep n (e =? n)%nat (wrun (e =? n)%nat (w_prog s) d)).
  { intros d (used & U). destruct (wrun (e =? n)%nat (w_prog s) d) as [x d'| |p d'] eqn:E; cbn [wrep verd].
    - destruct (wrun_tail _ _ _ _ _ E) as (u2 & U2). rewrite U2 in U. assert (LL : length words = (length used + (length u2 + length (ws_words (d_src d'))))%nat) by (rewrite U, !app_length; reflexivity).
      destruct (ws_error (d_src d')); [reflexivity|]. destruct (d_finalize d'); [|reflexivity]. cbn [negb andb].
      destruct (Nat.eqb_spec e n) as [En|En].
      + destruct (ws_words (d_src d')) as [|w r] eqn:W; cbn [length andb] in *.
        * replace (w_pos s + 2 * (length words - 0))%nat with n by lia. rewrite Nat.eqb_refl. reflexivity.
        * destruct (Nat.eqb_spec (w_pos s + 2 * (length words - S (length r))) n); [lia|]. reflexivity.
      + cbn [andb]. destruct (Nat.eqb_spec (w_pos s + 2 * (length words - length (ws_words (d_src d')))) n); [lia|reflexivity].
    - reflexivity.
    - destruct (ws_error (d_src d')); [reflexivity|]. destruct (e =? n)%nat; reflexivity. }
  pose proof (start_sub_tail s words) as ST. unfold start_sub in *. destruct (w_sub s) as [d0|]; [exact (G _ ST)|].
  destruct ((e =? n)%nat || (5 <=? length words)%nat); [exact (G _ ST)|reflexivity].
Qed.

Lemma wcall_resume {A} n V (s : wstate A) a b e : winv n s a -> (n <= length V)%nat -> (a <= b)%nat -> (wend n b < n)%nat -> (wend n b <= e <= n)%nat ->
  match wcall n V s b with
  | RDone _ _ => False
  | RFail => wverd s n V e = Some None
  | RMore s' => wverd s' n V e = wverd s n V e
  end.
Proof.
  intros Hw HV Hab HC He. pose proof Hw as (I1 & I2 & I3 & I4 & I5 & I6).
  destruct (chunk_cases n (w_pos s) b I1 I2 I3) as (C1 & C2 & C3 & C4 & C5).
  pose proof (wend_chunk n (w_pos s) b I1 I2 I3 ltac:(lia)) as WE. unfold wcall. rewrite I1.
  set (chunk := Nat.min ((b - w_pos s) / 2 * 2) (n - w_pos s)) in *. destruct (Nat.eqb_spec chunk (n - w_pos s)) as [|_]; [lia|]. cbn [orb]. cbv zeta.
  set (words := bytes_to_words (slice V (w_pos s) (w_pos s + chunk))).
  assert (LW : (2 * length words = chunk)%nat).
  { unfold words. rewrite bytes_to_words_length; rewrite slice_length by lia; [lia|]. replace (w_pos s + chunk - w_pos s)%nat with chunk by lia. exact C1. }
  set (X := bytes_to_words (slice V (w_pos s + chunk) e)).
  assert (FW : bytes_to_words (slice V (w_pos s) e) = words ++ X).
  { rewrite (slice_app V (w_pos s) (w_pos s + chunk) e) by lia. apply bytes_to_words_app. rewrite slice_length by lia. replace (w_pos s + chunk - w_pos s)%nat with chunk by lia. exact C1. }
  assert (Hn : Nat.even n = true) by (rewrite <- Nat.negb_odd, I1; reflexivity).
  assert (LX : e = n -> (2 * length X = n - (w_pos s + chunk))%nat).
  { intros ->. unfold X. rewrite bytes_to_words_length; rewrite slice_length by lia; [reflexivity|]. rewrite Nat.even_sub by lia. rewrite Hn, Nat.even_add, I2, C1. reflexivity. }
  assert (G : forall d, room d 0 0 -> (exists used, words = used ++ ws_words (d_src d)) -> start_sub s (words ++ X) = ext d X ->
    (w_sub s = None -> (5 <= length words)%nat) ->
    match
    (match wrun false (w_prog s) d with
      | WoDone a d' => if ws_error (d_src d') then RFail else if negb (d_finalize d') then RFail
          else if negb (w_pos s + 2 * (length words - length (ws_words (d_src d'))) =? n)%nat then RFail
          else RDone a (w_pos s + 2 * (length words - length (ws_words (d_src d'))))%nat
      | WoBad => RFail
      | WoMore p d' => if ws_error (d_src d') then RFail else RMore (mkW p (Some d') (w_pos s + 2 * (length words - length (ws_words (d_src d')))))
      end) with
    | RDone _ _ => False
    | RFail => wverd s n V e = Some None
    | RMore s' => wverd s' n V e = wverd s n V e
    end).
  { intros d R (used & U) SS G5. pose proof (wrun_ext_any (e =? n)%nat (w_prog s) d X 0 0 (I5 _ _) R) as W.
    assert (WF : wverd s n V e = wrep n (e =? n)%nat (wrun (e =? n)%nat (w_prog s) (ext d X))).
    { unfold wverd. rewrite FW, SS. destruct (w_sub s); [reflexivity|]. specialize (G5 eq_refl).
      assert (E5 : (5 <=? length (words ++ X))%nat = true) by (apply Nat.leb_le; rewrite app_length; lia). rewrite E5, orb_true_r. reflexivity. }
    destruct (wrun false (w_prog s) d) as [x d'| |p d'].
    - destruct W as (W1 & W2 & W3).
      rewrite W1. assert (E : (w_pos s + 2 * (length words - length (ws_words (d_src d'))))%nat <> n) by lia.
      destruct (Nat.eqb_spec (w_pos s + 2 * (length words - length (ws_words (d_src d')))) n); [contradiction|]. cbn [negb].
      assert (Z0 : (e =? n)%nat && match ws_words (d_src (ext d' X)) with [] => true | _ => false end = false).
      { destruct (Nat.eqb_spec e n) as [En|En]; [|reflexivity]. specialize (LX En).
        unfold ext, set_src. cbn [d_src ws_words andb]. destruct (ws_words (d_src d') ++ X) eqn:EE; [|reflexivity]. apply app_eq_nil in EE. destruct EE as [_ EX]. rewrite EX in LX. cbn [length] in LX. lia. }
      rewrite WF, W3. cbn [wrep]. rewrite <- andb_assoc, Z0, andb_false_r. destruct (negb (d_finalize d')); reflexivity.
    - rewrite WF, W. reflexivity.
    - destruct W as (W1 & (u2 & U2) & W3 & W4 & W5). destruct W1 as (B1 & B2 & _). rewrite B2.
      set (q := (w_pos s + 2 * (length words - length (ws_words (d_src d'))))%nat).
      assert (LL : length words = (length used + length u2 + length (ws_words (d_src d')))%nat) by (rewrite U, U2, !app_length; lia).
      assert (Q : q = (w_pos s + 2 * (length used + length u2))%nat) by (unfold q; lia).
      assert (Eq : Nat.even q = true) by (rewrite Q, Nat.even_add, I2, Nat.even_mul; reflexivity).
      rewrite WF, W5. unfold wverd. cbn [w_prog w_pos w_sub].
      assert (SL : bytes_to_words (slice V q e) = ws_words (d_src d') ++ X).
      { assert (S1 : bytes_to_words (slice V (w_pos s) e) = bytes_to_words (slice V (w_pos s) q) ++ bytes_to_words (slice V q e)).
        { rewrite (slice_app V (w_pos s) q e) by lia. apply bytes_to_words_app. rewrite slice_length by lia. rewrite Nat.even_sub by lia. rewrite Eq, I2. reflexivity. }
        rewrite FW, U, U2 in S1. rewrite <- !app_assoc in S1. rewrite app_assoc in S1.
        assert (S2 : length (used ++ u2) = length (bytes_to_words (slice V (w_pos s) q))).
        { assert (2 * length (bytes_to_words (slice V (w_pos s) q)) = q - w_pos s)%nat as S3. { rewrite bytes_to_words_length; rewrite slice_length by lia; [reflexivity|]. rewrite Nat.even_sub by lia. rewrite Eq, I2. reflexivity. }
          rewrite app_length. lia. }
        symmetry. exact (proj2 (app_split _ _ _ _ S2 S1)). }
      rewrite SL. unfold start_sub. cbn [w_sub].
      replace (set_src d' (mkWS (ws_words (d_src d') ++ X) false)) with (ext d' X) by (unfold ext; rewrite B2; reflexivity).
      reflexivity. }
  unfold start_sub in G. destruct (w_sub s) as [d0|] eqn:WS.
  - apply G.
    + split; [exact I6|]. cbn [set_src d_src ws_error ws_words]. split; [reflexivity|]. exists 0%nat. unfold set_src. cbn [d_bitpos]. split; [lia|lia].
    + exists []. reflexivity.
    + reflexivity.
    + discriminate.
  - destruct (Nat.leb_spec 5 (length words)) as [H5|H5].
    + destruct (d_init_ext words X H5) as (used & D1 & D2 & D3 & D4). apply G.
      * split; [rewrite D3; lia|]. split; [exact D2|]. exists 0%nat. rewrite D3. split; lia.
      * exists used. exact D1.
      * exact D4.
      * intros _. exact H5.
    + reflexivity.
Qed.

Lemma wcall_laws {A} n V : (n <= length V)%nat -> body_laws 600 n (@wcall A n) w_pos V (winv' n) (fun _ => True).
Proof.
  intros HV.
  assert (KO : forall (s : wstate A) b, Nat.odd n = true -> wcall n V s b = RFail) by (intros s b O; unfold wcall; rewrite O; reflexivity).
  assert (KL : forall (s : wstate A) a b, winv n s a -> Nat.min ((b - w_pos s) / 2 * 2) (n - w_pos s) = (n - w_pos s)%nat -> (b < n)%nat -> (a <= b)%nat -> False).
  { intros s a b (I1 & I2 & I3 & I4 & _) E Hb Ha. destruct (chunk_cases n (w_pos s) b I1 I2 I3) as (_ & _ & C3 & _). lia. }
  constructor.
  - intros N HN s a HI b Hb. destruct HI as [O|I]; [rewrite (KO s b O); intros x q; rewrite (KO s N O); discriminate|].
    rewrite (wcall_full n V s a N I ltac:(lia) HV).
    destruct (Nat.eq_dec (Nat.min ((b - w_pos s) / 2 * 2) (n - w_pos s)) (n - w_pos s)) as [E|E].
    + destruct (Nat.le_gt_cases n b) as [L|L]; [|exfalso; eapply KL; eauto; lia]. rewrite (wcall_full n V s a b I L HV).
      destruct (wfull s n V); [reflexivity|discriminate].
    + pose proof (wcall_part n V s a b I HV ltac:(lia) E) as W. destruct (wcall n V s b) as [x q| |s'].
      * contradiction.
      * rewrite W. discriminate.
      * destruct W as (W1 & W2 & W3 & W4). split; [right; exact W1|]. intros x q. rewrite (wcall_full n V s' b N W1 ltac:(lia) HV), W4. reflexivity.
  - intros s a b x q HI Hb E. destruct HI as [O|I]; [rewrite (KO s b O) in E; discriminate|].
    destruct (Nat.eq_dec (Nat.min ((b - w_pos s) / 2 * 2) (n - w_pos s)) (n - w_pos s)) as [E'|E'].
    + destruct (Nat.le_gt_cases n b) as [L|L]; [|exfalso; eapply KL; eauto; lia]. rewrite (wcall_full n V s a b I L HV) in E.
      destruct (wfull s n V); [|discriminate]. injection E as <- <-. destruct I as (_ & _ & I3 & _). lia.
    + pose proof (wcall_part n V s a b I HV ltac:(lia) E') as W. rewrite E in W. contradiction.
  - intros s a b s' HI Hb E. destruct HI as [O|I]; [rewrite (KO s b O) in E; discriminate|].
    destruct (Nat.eq_dec (Nat.min ((b - w_pos s) / 2 * 2) (n - w_pos s)) (n - w_pos s)) as [E'|E'].
    + destruct (Nat.le_gt_cases n b) as [L|L]; [|exfalso; eapply KL; eauto; lia]. rewrite (wcall_full n V s a b I L HV) in E.
      destruct (wfull s n V); discriminate.
    + pose proof (wcall_part n V s a b I HV ltac:(lia) E') as W. rewrite E in W. destruct W as (W1 & W2 & W3 & W4).
      split; [right; exact W1|]. destruct W1 as (_ & _ & _ & W1 & _). lia.
  - auto.
  - intros s a HI b N Hb HN. destruct HI as [O|I]; [rewrite !(KO _ _ O); reflexivity|].
    assert (EC : forall M, (a <= M)%nat -> (w_pos s + Nat.min ((M - w_pos s) / 2 * 2) (n - w_pos s))%nat = wend n M).
    { intros M HM. destruct I as (I1 & I2 & I3 & I4 & _). apply wend_chunk; auto. lia. }
    destruct (Nat.le_gt_cases n b) as [L|L].
    + rewrite (wcall_full n V s a b I L HV), (wcall_full n V s a N I ltac:(lia) HV). destruct (wfull s n V); reflexivity.
    + assert (E : (wend n b < n)%nat). { unfold wend. pose proof (Nat.div_mod b 2 ltac:(lia)). lia. }
      assert (E2 : (wend n b <= wend n N <= n)%nat). { unfold wend. pose proof (Nat.div_le_mono b N 2 ltac:(lia) ltac:(lia)). lia. }
      pose proof (wcall_resume n V s a b (wend n N) I HV ltac:(lia) E E2) as W.
      pose proof (wcall_part n V s a b I HV ltac:(lia)) as W'. specialize (EC b ltac:(lia)).
      specialize (W' ltac:(destruct I as (_ & _ & I3 & _); lia)).
      destruct (wcall n V s b) as [x q| |s'].
      * contradiction.
      * apply verd_fail. rewrite (wcall_verd n V s a N I HV ltac:(lia)). exact W.
      * destruct W' as (W1 & _). split; [right; exact W1|].
        rewrite (wcall_verd n V s a N I HV ltac:(lia)), (wcall_verd n V s' b N W1 HV ltac:(lia)). exact W.
Qed.

Lemma winit_inv {A} n (p : wprog A) : (forall a t, wbud p a t) -> winv' n (mkW p None 0) 0.
Proof.
  intros H. unfold winv', winv. cbn [w_pos w_prog w_sub]. destruct (Nat.odd n) eqn:O; [auto|]. right.
  split; [reflexivity|]. split; [reflexivity|]. split; [lia|]. split; [lia|]. split; [exact H|exact Logic.I].
Qed.

(** * The DC and AC decoders stay within what they ask for *)

Definition short_codes (codes : list (list Z)) : Prop := Forall (fun c => (length c <= 18)%nat) codes.

Lemma table_of_short cmap codes h c : short_codes codes -> table_of cmap codes h = Some c -> (length c <= 18)%nat.
Proof.
  intros S E. unfold table_of, obind, zget in E. destruct (h <? 0); [discriminate|]. destruct (nth_error cmap _) as [e|]; [|discriminate].
  destruct (e <? 0); [discriminate|]. apply nth_error_In in E. unfold short_codes in S. rewrite Forall_forall in S. auto.
Qed.

Lemma ebud_eget {A B} (Q : B -> Prop) (o : option A) k a t : (forall x, o = Some x -> ebud Q (k x) a t) -> ebud Q (eget o k) a t.
Proof. intros H. destruct o; cbn; auto. Qed.
Lemma wbud_wget {A B} (o : option A) (k : A -> wprog B) a t : (forall x, o = Some x -> wbud (k x) a t) -> wbud (wget o k) a t.
Proof. intros H. destruct o; cbn; auto. Qed.

Lemma dec_bit_bud ps i : ebud (fun _ => True) (dec_bit ps i) 1 0.
Proof. unfold dec_bit. apply ebud_eget. intros p _. cbn [ebud]. exists 0%nat. split; [reflexivity|]. intros b. apply ebud_eget. cbn. auto. Qed.

Lemma dec_abs_bud cmap codes h ps idx : short_codes codes -> ebud (fun _ => True) (dec_abs cmap codes h ps idx) 2 9.
Proof.
  intros SC. unfold dec_abs. apply ebud_eget. intros counts E. pose proof (table_of_short _ _ _ _ SC E) as L. cbn [ebud].
  exists 1%nat. split; [reflexivity|]. intros s Hs. destruct (s <? 8) eqn:E8; [exact Logic.I|]. apply Z.ltb_ge in E8.
  apply (ebud_bind (fun _ => True) _ _ 0 9) with (a1 := 1%nat) (t1 := 0%nat); [|apply dec_bit_bud]. intros [first ps'] _.
  destruct (0 <? s - 8) eqn:E9; [|exact Logic.I]. cbn [ebud]. split; [lia|]. exists (9 - Z.to_nat (s - 8))%nat. split; [lia|]. auto.
Qed.

Lemma dec_dc_block_bud cmap codes band st x : short_codes codes -> ebud (fun _ => True) (dec_dc_block cmap codes band st x) 5 9.
Proof.
  intros SC. unfold dec_dc_block. apply ebud_eget. intros ctx _.
  apply (ebud_bind (fun _ => True) _ _ 4 9) with (a1 := 1%nat) (t1 := 0%nat); [|apply dec_bit_bud]. intros [ne empty'] _.
  apply ebud_eget. intros ne' _.
  apply (ebud_bind (fun _ => True) _ _ 0 0) with (a1 := 4%nat) (t1 := 9%nat).
  - intros [[[[sign absval] zero'] sign'] extra'] _. apply ebud_eget. intros ab _. apply ebud_eget. intros sg _. exact Logic.I.
  - destruct (negb ne); [exact Logic.I|].
    apply (ebud_bind (fun _ => True) _ _ 3 9) with (a1 := 1%nat) (t1 := 0%nat); [|apply dec_bit_bud]. intros [z zero'] _.
    destruct z; [exact Logic.I|]. apply ebud_eget. intros avg _. apply ebud_eget. intros sctx _.
    apply (ebud_bind (fun _ => True) _ _ 2 9) with (a1 := 1%nat) (t1 := 0%nat); [|apply dec_bit_bud]. intros [sb sign'] _.
    apply (ebud_bind (fun _ => True) _ _ 0 0) with (a1 := 2%nat) (t1 := 9%nat); [|apply dec_abs_bud; exact SC]. intros [absval extra'] _. exact Logic.I.
Qed.

Lemma wdec_dc_bud cmap codes ms : short_codes codes -> forall vs sts planes flags a t, wbud (wdec_dc cmap codes ms vs sts planes flags) a t.
Proof.
  intros SC. induction vs as [|[[i y] x] vs IH]; intros sts planes flags a t; cbn [wdec_dc]; [exact Logic.I|].
  cbn [wbud]. split; [lia|]. exists 5%nat, 1%nat, 9%nat. split; [lia|]. split; [lia|].
  repeat (apply wbud_wget; intros ? _). eapply wbud_lift; [|apply dec_dc_block_bud; exact SC].
  intros [[[is_empty sign] absval] st'] _ a0 t0. repeat (apply wbud_wget; intros ? _). apply IH.
Qed.

Lemma wdecode_dc_bud cmap codes ms : short_codes codes -> forall a t, wbud (wdecode_dc cmap codes ms) a t.
Proof. intros SC. apply wdec_dc_bud. exact SC. Qed.

Lemma dec_nnz_bud : forall n ctx base ps, ebud (fun r => ctx * 2 ^ Z.of_nat n - 64 <= fst r < (ctx + 1) * 2 ^ Z.of_nat n - 64) (dec_nnz n ctx base ps) n 0.
Proof.
  induction n as [|n IH]; intros ctx base ps; cbn [dec_nnz].
  - cbn [ebud fst]. change (2 ^ Z.of_nat 0) with 1. lia.
  - apply (ebud_bind (fun _ => True) _ _ n 0) with (a1 := 1%nat) (t1 := 0%nat); [|apply dec_bit_bud]. intros [bit ps'] _.
    eapply ebud_weaken; [|apply IH|lia|lia]. intros r Hr. cbv beta in *. rewrite Nat2Z.inj_succ, Z.pow_succ_r by lia.
    assert (0 < 2 ^ Z.of_nat n) by (apply Z.pow_pos_nonneg; lia). destruct bit; cbn [b2] in Hr; nia.
Qed.

Lemma dec_ac_loop_bud cmap codes legacy ak m bp last : short_codes codes -> forall k nz cur st,
  ebud (fun _ => True) (dec_ac_loop cmap codes legacy ak m bp last k nz cur st) (4 * k) (9 * k).
Proof.
  intros SC. induction k as [|k IH]; intros nz cur st; cbn [dec_ac_loop]; [exact Logic.I|].
  replace (4 * S k)%nat with (1 + (3 + 4 * k))%nat by lia. replace (9 * S k)%nat with (0 + (9 + 9 * k))%nat by lia.
  apply (ebud_bind (fun _ => True) _ _ (3 + 4 * k) (9 + 9 * k)).
  - intros [is_zero zero'] _. apply ebud_eget. intros kn _. destruct is_zero.
    + apply ebud_eget. intros cur' _. apply ebud_eget. intros st2 _. eapply ebud_weaken; [|apply IH|lia|lia]. auto.
    + apply ebud_eget. intros c _. replace (3 + 4 * k)%nat with (1 + (2 + 4 * k))%nat by lia. replace (9 + 9 * k)%nat with (0 + (9 + 9 * k))%nat by lia.
      apply (ebud_bind (fun _ => True) _ _ (2 + 4 * k) (9 + 9 * k)); [|apply dec_bit_bud]. intros [sb sign'] _. apply ebud_eget. intros zd _.
      apply (ebud_bind (fun _ => True) _ _ (4 * k) (9 * k)); [|apply dec_abs_bud; exact SC]. intros [absval extra'] _.
      apply ebud_eget. intros cur' _. apply ebud_eget. intros st3 _. apply IH.
  - destruct (_ <? _)%nat; [|exact Logic.I]. apply ebud_eget. intros bucket _. apply dec_bit_bud.
Qed.

Lemma dec_ac_block_bud cmap codes legacy ak m bp b st : short_codes codes -> ebud (fun _ => True) (dec_ac_block cmap codes legacy ak m bp false b st) 258 567.
Proof.
  intros SC. unfold dec_ac_block. apply ebud_eget. intros c _.
  apply (ebud_bind (fun r => 0 <= fst r < 64) _ _ 252 567) with (a1 := 6%nat) (t1 := 0%nat); [|eapply ebud_weaken; [|apply dec_nnz_bud|lia|lia]; intros r Hr; cbv beta in Hr; lia].
  intros [last nnz'] HL. cbn [fst] in HL. apply ebud_eget. intros st1 _.
  apply (ebud_bind (fun _ => True) _ _ 0 0) with (a1 := 252%nat) (t1 := 567%nat).
  - intros [[b' nz] st2] _. apply ebud_eget. intros st3 _. exact Logic.I.
  - eapply ebud_weaken; [|apply dec_ac_loop_bud; exact SC|lia|lia]. auto.
Qed.

Lemma dec_ac_block_empty_bud cmap codes legacy ak m bp b st : ebud (fun _ => True) (dec_ac_block cmap codes legacy ak m bp true b st) 0 0.
Proof. unfold dec_ac_block. apply ebud_eget. intros st1 _. apply ebud_eget. intros st2 _. exact Logic.I. Qed.

Lemma wdec_ac_bud cmap codes legacy ms aks flags : short_codes codes -> forall vs sts planes a t, wbud (wdec_ac cmap codes legacy ms aks flags vs sts planes) a t.
Proof.
  intros SC. induction vs as [|[[i y] x] vs IH]; intros sts planes a t; cbn [wdec_ac]; [exact Logic.I|].
  do 6 (apply wbud_wget; intros ? _). apply wbud_wget. intros e _. destruct e.
  - apply (wbud_lift (fun _ => True)).
    + intros [b' st'] H a0 t0. apply IH.
    + apply (ebud_weaken (fun _ => True) _ (fun _ H => H) _ 0 0); [apply dec_ac_block_empty_bud|lia|lia].
  - cbn [wbud]. split; [lia|]. exists 258%nat, 36%nat, 567%nat. split; [lia|]. split; [lia|].
    eapply wbud_lift; [|apply dec_ac_block_bud; exact SC]. intros [b' st'] H a0 t0. apply IH.
Qed.

Lemma decode_order_value_bud : forall fuel v, 0 <= v -> ebud (fun _ => True) (decode_order_value fuel v) 0 (if 64 <? v then 0 else 3 * (Z.to_nat ((64 - v) / 7) + 1)).
Proof.
  induction fuel as [|f IH]; intros v Hv; cbn [decode_order_value]; [exact Logic.I|].
  destruct (Z.ltb_spec 64 v) as [|H64]; [exact Logic.I|]. cbn [ebud]. split; [lia|]. exists (3 * Z.to_nat ((64 - v) / 7))%nat. split; [lia|].
  intros b Hb. change (2 ^ Z.of_nat 3) with 8 in Hb. destruct (Z.ltb_spec b 7); [destruct (64 <? v + b); exact Logic.I|].
  assert (b = 7) by lia. subst b. eapply ebud_weaken; [|apply IH; lia|lia|]; [auto|].
  destruct (Z.ltb_spec 64 (v + 7)); [lia|]. assert ((64 - (v + 7)) / 7 = (64 - v) / 7 - 1) as ->. { replace (64 - (v + 7)) with ((64 - v) + (-1) * 7) by lia. rewrite Z.div_add by lia. lia. }
  assert (1 <= (64 - v) / 7) by (apply Z.div_le_lower_bound; lia). lia.
Qed.
Lemma decode_order_values_bud : forall n, ebud (fun _ => True) (decode_order_values n) 0 (30 * n).
Proof.
  induction n as [|n IH]; cbn [decode_order_values]; [exact Logic.I|]. replace (30 * S n)%nat with (30 + (30 * n + 0))%nat by lia.
  apply (ebud_bind (fun _ => True) _ _ 0 (30 * n + 0)) with (a1 := 0%nat); [|exact (decode_order_value_bud 11 0 ltac:(lia))]. intros v _.
  apply (ebud_bind (fun _ => True) _ _ 0 0) with (a1 := 0%nat); [|exact IH]. intros l _. exact Logic.I.
Qed.
Lemma decode_order_span_bud n : ebud (fun _ => True) (decode_order_span n) 0 (1 + 30 * n).
Proof.
  unfold decode_order_span. cbn [ebud]. split; [lia|]. exists (30 * n)%nat. split; [lia|]. intros b _. destruct (b =? 0); [exact Logic.I|apply decode_order_values_bud].
Qed.
Lemma decode_coeff_order_bud : ebud (fun _ => True) decode_coeff_order 0 1894.
Proof.
  unfold decode_coeff_order. apply (ebud_bind (fun _ => True) _ _ 0 (481 + (481 + (481 + 0)))) with (a1 := 0%nat) (t1 := (1 + 30 * 15)%nat); [|apply decode_order_span_bud]. intros a _.
  apply (ebud_bind (fun _ => True) _ _ 0 (481 + (481 + 0))) with (a1 := 0%nat) (t1 := (1 + 30 * 16)%nat); [|apply decode_order_span_bud]. intros b _.
  apply (ebud_bind (fun _ => True) _ _ 0 (481 + 0)) with (a1 := 0%nat) (t1 := (1 + 30 * 16)%nat); [|apply decode_order_span_bud]. intros c _.
  apply (ebud_bind (fun _ => True) _ _ 0 0) with (a1 := 0%nat) (t1 := (1 + 30 * 16)%nat); [|apply decode_order_span_bud]. intros d _.
  destruct (finish_coeff_order _); exact Logic.I.
Qed.

Lemma wdecode_orders_bud {B} (k : list (list Z) -> wprog B) : (forall l a t, wbud (k l) a t) -> forall n acc a t, wbud (wdecode_orders n acc k) a t.
Proof.
  intros Hk. induction n as [|n IH]; intros acc a t; cbn [wdecode_orders]; [apply Hk|].
  cbn [wbud]. split; [lia|]. exists 0%nat, 119%nat, 1894%nat. split; [lia|]. split; [lia|]. eapply wbud_lift; [|apply decode_coeff_order_bud].
  intros o _ a0 t0. apply IH.
Qed.

Lemma wdecode_ac_bud cmap codes legacy ms flags planes : short_codes codes -> forall a t, wbud (wdecode_ac cmap codes legacy ms flags planes) a t.
Proof. intros SC. apply wdecode_orders_bud. intros l a t. apply wbud_wget. intros aks _. apply wdec_ac_bud. exact SC. Qed.

(** * Without suspensions these are the decoders of CoefModel.v *)

Definition eeq {A} (p q : eprog A) : Prop := forall d, erun p d = erun q d.
Lemma eeq_refl {A} (p : eprog A) : eeq p p.
Proof. intros d. reflexivity. Qed.
Lemma eeq_trans {A} (p q r : eprog A) : eeq p q -> eeq q r -> eeq p r.
Proof. intros H K d. rewrite H. apply K. Qed.

Lemma strip_lift {A B} (g : A -> wprog B) (h : A -> eprog B) : (forall x, eeq (strip (g x)) (h x)) -> forall p, eeq (strip (wlift p g)) (ebind p h).
Proof.
  intros H. induction p as [x| |q k IH|c k IH|n k IH]; intros d; cbn [wlift strip ebind erun].
  - apply H.
  - reflexivity.
  - destruct (read_bit q d) as [b d']. apply IH.
  - destruct (read_symbol c d) as [[s d']|]; [apply IH|reflexivity].
  - destruct (read_bits n d) as [v d']. apply IH.
Qed.
Lemma strip_wget {A B} (o : option A) (g : A -> wprog B) (h : A -> eprog B) : (forall x, eeq (strip (g x)) (h x)) -> eeq (strip (wget o g)) (eget o h).
Proof. intros H. destruct o; [apply H|apply eeq_refl]. Qed.

Lemma strip_dec_dc cmap codes ms : forall vs sts planes flags, eeq (strip (wdec_dc cmap codes ms vs sts planes flags)) (dec_dc cmap codes ms vs sts planes flags).
Proof.
  induction vs as [|[[i y] x] vs IH]; intros sts planes flags; cbn [wdec_dc dec_dc strip]; [apply eeq_refl|].
  do 4 (apply strip_wget; intros ?). apply strip_lift. intros [[[is_empty sign] absval] st']. do 2 (apply strip_wget; intros ?). apply IH.
Qed.
Lemma strip_dec_ac cmap codes legacy ms aks flags : forall vs sts planes, eeq (strip (wdec_ac cmap codes legacy ms aks flags vs sts planes)) (dec_ac cmap codes legacy ms aks flags vs sts planes).
Proof.
  induction vs as [|[[i y] x] vs IH]; intros sts planes; cbn [wdec_ac dec_ac]; [apply eeq_refl|].
  do 6 (apply strip_wget; intros ?). apply strip_wget. intros e. destruct e; cbn [strip]; apply strip_lift; intros [b' st']; apply IH.
Qed.

Lemma erun_ebind {A B} (g : A -> eprog B) : forall p d, erun (ebind p g) d = match erun p d with Some (x, d') => erun (g x) d' | None => None end.
Proof.
  induction p as [x| |q k IH|c k IH|n k IH]; intros d; cbn [ebind erun]; auto.
  - destruct (read_bit q d) as [b d']. apply IH.
  - destruct (read_symbol c d) as [[s d']|]; [apply IH|reflexivity].
  - destruct (read_bits n d) as [v d']. apply IH.
Qed.

Lemma strip_orders {B} (k : list (list Z) -> wprog B) (h : list (list Z) -> eprog B) : (forall l, eeq (strip (k l)) (h l)) ->
  forall n acc, eeq (strip (wdecode_orders n acc k)) (ebind (decode_orders n) (fun t => h (rev acc ++ t))).
Proof.
  intros H. induction n as [|n IH]; intros acc; cbn [wdecode_orders decode_orders strip].
  - cbn [ebind]. rewrite app_nil_r. apply H.
  - eapply eeq_trans; [apply strip_lift; intros o; apply IH|]. intros d. rewrite !erun_ebind.
    destruct (erun decode_coeff_order d) as [[o d']|]; [|reflexivity]. rewrite !erun_ebind. destruct (erun (decode_orders n) d') as [[t d2]|]; [|reflexivity].
    cbn [erun rev]. rewrite <- app_assoc. reflexivity.
Qed.

Lemma strip_dc cmap codes ms : eeq (strip (wdecode_dc cmap codes ms)) (decode_dc_prog cmap codes ms).
Proof. apply strip_dec_dc. Qed.
Lemma strip_ac cmap codes legacy ms flags planes : eeq (strip (wdecode_ac cmap codes legacy ms flags planes)) (decode_ac_prog cmap codes legacy ms flags planes).
Proof.
  unfold wdecode_ac, decode_ac_prog. eapply eeq_trans; [apply (strip_orders _ (fun orders => eget (omap2 (fun m o => Some (ac_consts m o)) ms orders) (fun aks =>
    dec_ac cmap codes legacy ms aks flags (visits ms) (map (fun m => ac_init (cm_w m)) ms) planes)))|apply eeq_refl].
  intros l. apply strip_wget. intros aks. apply strip_dec_ac.
Qed.

(** A section that is visible as a whole is decoded as by [edecode]. *)
Theorem wcall_edecode {A} n V (p : wprog A) q N : (forall a t, wbud p a t) -> eeq (strip p) q -> Nat.odd n = false -> (n <= N)%nat -> (n <= length V)%nat ->
  wcall n V (mkW p None 0) N = match edecode q (bytes_to_words (firstn n V)) with Some x => RDone x n | None => RFail end.
Proof.
  intros HB HE HO HN HV. destruct (winit_inv n p HB) as [O|I]; [congruence|]. rewrite (wcall_full n V (mkW p None 0) 0 N I HN HV).
  unfold wfull, edecode, start_sub. cbn [w_prog w_pos w_sub]. rewrite HE. unfold slice. rewrite skipn_O, Nat.sub_0_r. reflexivity.
Qed.
