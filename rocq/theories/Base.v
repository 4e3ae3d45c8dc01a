(** Common definitions: lists, bit strings, bytes.  Nothing here models code of
    the repository; it is the vocabulary shared by models and specifications. *)
From Coq Require Export ZArith List Lia Bool Arith.
From Coq Require Export ZifyBool ZifyNat.
Export ListNotations.
Open Scope Z_scope.

Arguments Z.mul : simpl never.
Arguments Z.add : simpl never.
Arguments Z.sub : simpl never.
Arguments Z.div : simpl never.
Arguments Z.modulo : simpl never.
Arguments Z.pow : simpl never.
Arguments Z.shiftl : simpl never.
Arguments Z.shiftr : simpl never.
Arguments Z.land : simpl never.
Arguments Z.lor : simpl never.
Arguments Z.of_nat : simpl never.
Arguments Z.to_nat : simpl never.
Arguments Z.ltb : simpl never.
Arguments Z.leb : simpl never.
Arguments Z.eqb : simpl never.
Arguments Z.odd : simpl never.
Arguments Z.opp : simpl never.

(** lia with support for div and mod. *)
Ltac dlia := Z.div_mod_to_equations; lia.

Lemma pow2_pos n : 0 <= n -> 0 < 2 ^ n.
Proof. intros; apply Z.pow_pos_nonneg; lia. Qed.

Lemma pow2_pos_nat n : 0 < 2 ^ Z.of_nat n.
Proof. apply pow2_pos; lia. Qed.

Lemma pow2_S n : 2 ^ Z.of_nat (S n) = 2 * 2 ^ Z.of_nat n.
Proof. rewrite Nat2Z.inj_succ, Z.pow_succ_r by lia; reflexivity. Qed.

(** Bit [b] as a number. *)
Definition b2z (b : bool) : Z := if b then 1 else 0.

(** The [n] least significant bits of [v], least significant first. *)
Fixpoint bits_of (n : nat) (v : Z) : list bool :=
  match n with
  | O => []
  | S n' => Z.odd v :: bits_of n' (v / 2)
  end.

(** Number whose bits, least significant first, are [l]. *)
Fixpoint val_of (l : list bool) : Z :=
  match l with
  | [] => 0
  | b :: l' => b2z b + 2 * val_of l'
  end.

Lemma bits_of_length n v : length (bits_of n v) = n.
Proof. revert v; induction n as [|n IH]; intros v; cbn [bits_of length]; [|rewrite IH]; reflexivity. Qed.

Lemma odd_mod2 v : b2z (Z.odd v) = v mod 2.
Proof. rewrite Zmod_odd; unfold b2z; destruct (Z.odd v); reflexivity. Qed.

Lemma val_of_bits_of n v : val_of (bits_of n v) = v mod 2 ^ Z.of_nat n.
Proof.
  revert v; induction n as [|n IH]; intros v; cbn [bits_of val_of].
  - change (2 ^ Z.of_nat 0) with 1. rewrite Z.mod_1_r; reflexivity.
  - rewrite IH, odd_mod2, pow2_S.
    pose proof (pow2_pos_nat n).
    rewrite Z.rem_mul_r by lia. reflexivity.
Qed.

Lemma val_of_range l : 0 <= val_of l < 2 ^ Z.of_nat (length l).
Proof.
  induction l as [|b l IH]; cbn [val_of length].
  - change (2 ^ Z.of_nat 0) with 1; lia.
  - rewrite pow2_S; unfold b2z; destruct b; lia.
Qed.

Lemma val_of_bits_of_small n v : 0 <= v < 2 ^ Z.of_nat n -> val_of (bits_of n v) = v.
Proof. intros H; rewrite val_of_bits_of; apply Z.mod_small; exact H. Qed.

Lemma bits_of_val_of l : bits_of (length l) (val_of l) = l.
Proof.
  induction l as [|b l IH]; cbn [val_of length bits_of]; [reflexivity|].
  f_equal.
  - unfold b2z; destruct b; rewrite Z.odd_add_mul_2; reflexivity.
  - replace ((b2z b + 2 * val_of l) / 2) with (val_of l); [exact IH|].
    unfold b2z; destruct b; dlia.
Qed.

Lemma bits_of_app n m v : bits_of (n + m) v = bits_of n v ++ bits_of m (v / 2 ^ Z.of_nat n).
Proof.
  revert v; induction n as [|n IH]; intros v; cbn [Nat.add bits_of app].
  - change (2 ^ Z.of_nat 0) with 1; rewrite Z.div_1_r; reflexivity.
  - rewrite IH, pow2_S. pose proof (pow2_pos_nat n).
    rewrite Z.div_div by lia. reflexivity.
Qed.

Lemma val_of_app l1 l2 : val_of (l1 ++ l2) = val_of l1 + 2 ^ Z.of_nat (length l1) * val_of l2.
Proof.
  induction l1 as [|b l1 IH]; cbn [app val_of length].
  - change (2 ^ Z.of_nat 0) with 1; lia.
  - rewrite IH, pow2_S; lia.
Qed.

Lemma bits_of_mod n v : bits_of n (v mod 2 ^ Z.of_nat n) = bits_of n v.
Proof. rewrite <- val_of_bits_of. rewrite <- (bits_of_length n v) at 1. apply bits_of_val_of. Qed.

Lemma bits_of_inj n v w : 0 <= v < 2 ^ Z.of_nat n -> 0 <= w < 2 ^ Z.of_nat n ->
  bits_of n v = bits_of n w -> v = w.
Proof.
  intros Hv Hw E. rewrite <- (val_of_bits_of_small n v Hv), <- (val_of_bits_of_small n w Hw), E.
  reflexivity.
Qed.

Lemma bits_of_0 n : bits_of n 0 = repeat false n.
Proof. induction n as [|n IH]; cbn [bits_of repeat]; [reflexivity|]. rewrite Z.div_0_l by lia. rewrite IH; reflexivity. Qed.

Lemma val_of_repeat_false n : val_of (repeat false n) = 0.
Proof. induction n as [|n IH]; cbn [repeat val_of]; [reflexivity|]. rewrite IH; reflexivity. Qed.

(** Bytes. *)
Definition is_byte (b : Z) : Prop := 0 <= b < 256.
Definition is_byteb (b : Z) : bool := (0 <=? b) && (b <? 256).
Definition bytes (l : list Z) : Prop := Forall is_byte l.

Lemma bytes_app l1 l2 : bytes (l1 ++ l2) <-> bytes l1 /\ bytes l2.
Proof. unfold bytes; apply Forall_app. Qed.

Lemma bytes_cons b l : bytes (b :: l) <-> is_byte b /\ bytes l.
Proof. unfold bytes; split; [intros H; inversion H; auto | intros [H1 H2]; constructor; auto]. Qed.

(** Bits of a byte string, LSB first within each byte. *)
Fixpoint bits_of_bytes (l : list Z) : list bool :=
  match l with
  | [] => []
  | b :: l' => bits_of 8 b ++ bits_of_bytes l'
  end.

Lemma bits_of_bytes_app l1 l2 : bits_of_bytes (l1 ++ l2) = bits_of_bytes l1 ++ bits_of_bytes l2.
Proof. induction l1 as [|b l1 IH]; cbn [app bits_of_bytes]; [reflexivity|]. rewrite IH, app_assoc; reflexivity. Qed.

Lemma bits_of_bytes_length l : length (bits_of_bytes l) = (8 * length l)%nat.
Proof. induction l as [|b l IH]; cbn [bits_of_bytes length]; [reflexivity|]. rewrite app_length, bits_of_length, IH; lia. Qed.

(** Shifts and masks in terms of arithmetic. *)
Lemma land_ones_mod v n : 0 <= n -> Z.land v (2 ^ n - 1) = v mod 2 ^ n.
Proof. intros H. rewrite <- Z.land_ones by exact H. rewrite Z.ones_equiv. f_equal; lia. Qed.

Lemma lor_disjoint_add a b n : 0 <= n -> 0 <= a < 2 ^ n -> Z.lor a (b * 2 ^ n) = a + b * 2 ^ n.
Proof.
  intros Hn Ha. rewrite <- Z.shiftl_mul_pow2 by exact Hn.
  symmetry.
  assert (Hl : Z.land a (Z.shiftl b n) = 0).
  { apply Z.bits_inj'; intros i Hi. rewrite Z.land_spec, Z.bits_0.
    destruct (Z.lt_ge_cases i n).
    - rewrite Z.shiftl_spec_low by lia. apply andb_false_r.
    - rewrite <- (Z.mod_small a (2 ^ n)) by exact Ha.
      rewrite Z.mod_pow2_bits_high by lia. reflexivity. }
  rewrite Z.add_nocarry_lxor by exact Hl. apply Z.bits_inj'; intros i Hi.
  rewrite Z.lxor_spec, Z.lor_spec.
  assert (Hli : Z.testbit (Z.land a (Z.shiftl b n)) i = false) by (rewrite Hl; apply Z.bits_0).
  rewrite Z.land_spec in Hli.
  destruct (Z.testbit a i), (Z.testbit (Z.shiftl b n) i); cbn in *; congruence.
Qed.

(** Lists. *)
Fixpoint list_eqb (l1 l2 : list Z) : bool :=
  match l1, l2 with
  | [], [] => true
  | a :: l1', b :: l2' => (a =? b) && list_eqb l1' l2'
  | _, _ => false
  end.

Lemma list_eqb_eq l1 l2 : list_eqb l1 l2 = true <-> l1 = l2.
Proof.
  revert l2; induction l1 as [|a l1 IH]; intros [|b l2]; cbn [list_eqb]; split; intros H; try reflexivity; try discriminate.
  - apply andb_true_iff in H as [H1 H2]. apply Z.eqb_eq in H1. apply IH in H2. congruence.
  - inversion H; subst. rewrite Z.eqb_refl. apply IH; reflexivity.
Qed.

(** Update position [i] of a list (no effect when out of range). *)
Fixpoint upd {A} (l : list A) (i : nat) (v : A) : list A :=
  match l, i with
  | [], _ => []
  | _ :: l', O => v :: l'
  | a :: l', S i' => a :: upd l' i' v
  end.

Lemma upd_length {A} (l : list A) i v : length (upd l i v) = length l.
Proof. revert i; induction l as [|a l IH]; intros [|i]; cbn [upd length]; auto. Qed.

Lemma nth_upd_same {A} (l : list A) i v d : (i < length l)%nat -> nth i (upd l i v) d = v.
Proof. revert i; induction l as [|a l IH]; intros [|i] H; cbn [upd length nth] in *; try lia; auto. apply IH; lia. Qed.

Lemma nth_upd_other {A} (l : list A) i j v d : i <> j -> nth j (upd l i v) d = nth j l d.
Proof. revert i j; induction l as [|a l IH]; intros [|i] [|j] H; cbn [upd nth]; try congruence; auto. Qed.

Lemma nth_error_upd_same {A} (l : list A) i v : (i < length l)%nat -> nth_error (upd l i v) i = Some v.
Proof. revert i; induction l as [|a l IH]; intros [|i] H; cbn [upd length nth_error] in *; try lia; auto. apply IH; lia. Qed.

Lemma nth_error_upd_other {A} (l : list A) i j v : i <> j -> nth_error (upd l i v) j = nth_error l j.
Proof. revert i j; induction l as [|a l IH]; intros [|i] [|j] H; cbn [upd nth_error]; try congruence; auto. Qed.

Definition sumZ (l : list Z) : Z := fold_right Z.add 0 l.

Lemma sumZ_app l1 l2 : sumZ (l1 ++ l2) = sumZ l1 + sumZ l2.
Proof. unfold sumZ; induction l1 as [|a l1 IH]; cbn [app fold_right]; [lia|]. rewrite IH; lia. Qed.

Lemma sumZ_nonneg l : Forall (fun x => 0 <= x) l -> 0 <= sumZ l.
Proof. unfold sumZ; induction 1; cbn [fold_right]; lia. Qed.

Lemma firstn_app_exact {A} (l1 l2 : list A) : firstn (length l1) (l1 ++ l2) = l1.
Proof. rewrite firstn_app, Nat.sub_diag, firstn_all; cbn [firstn]; apply app_nil_r. Qed.

Lemma skipn_app_exact {A} (l1 l2 : list A) : skipn (length l1) (l1 ++ l2) = l2.
Proof. rewrite skipn_app, Nat.sub_diag, skipn_all; reflexivity. Qed.

Lemma nth_app_l {A} (l1 l2 : list A) i d : (i < length l1)%nat -> nth i (l1 ++ l2) d = nth i l1 d.
Proof. apply app_nth1. Qed.

(** Option monad notation. *)
Definition obind {A B} (o : option A) (f : A -> option B) : option B :=
  match o with Some a => f a | None => None end.
Notation "'let?' x ':=' a 'in' b" := (obind a (fun x => b))
  (at level 200, x pattern, a at level 100, b at level 200).
