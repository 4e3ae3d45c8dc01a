(** Counting: how many byte strings and how many images there are. *)
From Verif Require Import Base.

Section Lists.
Context {A : Type}.
Fixpoint all_lists (V : list A) (n : nat) : list (list A) :=
  match n with O => [[]] | S m => flat_map (fun v => map (cons v) (all_lists V m)) V end.

Lemma flat_map_len {X Y} (f : X -> list Y) n : forall l, (forall x, In x l -> Z.of_nat (length (f x)) = n) -> Z.of_nat (length (flat_map f l)) = Z.of_nat (length l) * n.
Proof.
  induction l as [|x l IH]; intros H; cbn [flat_map length]; [lia|]. rewrite app_length, Nat2Z.inj_add, (H x) by (left; reflexivity). rewrite IH by (intros y I; apply H; right; exact I). lia.
Qed.
Lemma all_lists_len V n : Z.of_nat (length (all_lists V n)) = Z.of_nat (length V) ^ Z.of_nat n.
Proof.
  induction n as [|n IH]; [reflexivity|]. cbn [all_lists]. rewrite (flat_map_len _ (Z.of_nat (length (all_lists V n)))) by (intros; rewrite map_length; reflexivity).
  rewrite IH, Nat2Z.inj_succ, Z.pow_succ_r by lia. reflexivity.
Qed.
Lemma all_lists_in V : forall n l, In l (all_lists V n) <-> length l = n /\ Forall (fun v => In v V) l.
Proof.
  induction n as [|n IH]; intros l; cbn [all_lists].
  - split; [intros [<-|[]]; auto|]. intros [H _]. destruct l; [left; reflexivity|discriminate].
  - rewrite in_flat_map. split.
    + intros (v & Iv & I). apply in_map_iff in I as (r & <- & Ir). apply IH in Ir as [L F]. cbn [length]. split; [lia|constructor; assumption].
    + intros [L F]. destruct l as [|v r]; [discriminate|]. exists v. split; [exact (Forall_inv F)|]. apply in_map, IH. cbn [length] in L. split; [lia|exact (Forall_inv_tail F)].
Qed.
Lemma nodup_map {X Y} (f : X -> Y) : forall l, NoDup l -> (forall a b, In a l -> In b l -> f a = f b -> a = b) -> NoDup (map f l).
Proof.
  induction l as [|x l IH]; intros N I; cbn [map]; [constructor|]. inversion N as [|? ? N1 N2]; subst. constructor.
  - rewrite in_map_iff. intros (y & E & Iy). apply N1. rewrite <- (I y x); [exact Iy|right; exact Iy|left; reflexivity|exact E].
  - apply IH; [exact N2|]. intros a b Ia Ib. apply I; right; assumption.
Qed.
Lemma nodup_app {X} (a b : list X) : NoDup a -> NoDup b -> (forall x, In x a -> In x b -> False) -> NoDup (a ++ b).
Proof.
  induction a as [|x a IH]; intros Na Nb D; [exact Nb|]. inversion Na as [|? ? N1 N2]; subst. cbn [app]. constructor.
  - rewrite in_app_iff. intros [I|I]; [exact (N1 I)|exact (D x (or_introl eq_refl) I)].
  - apply IH; [exact N2|exact Nb|]. intros y Ia Ib. exact (D y (or_intror Ia) Ib).
Qed.
Lemma all_lists_nodup V : NoDup V -> forall n, NoDup (all_lists V n).
Proof.
  intros NV. induction n as [|n IH]; cbn [all_lists]; [constructor; [intros []|constructor]|]. revert NV. generalize V at 1 3. induction V0 as [|v V0 IV]; intros NV; cbn [flat_map]; [constructor|].
  inversion NV as [|? ? N1 N2]; subst. apply nodup_app.
  - apply nodup_map; [exact IH|]. intros a b _ _ E. injection E as ->. reflexivity.
  - apply IV, N2.
  - intros l I1 I2. apply in_map_iff in I1 as (r & <- & _). apply in_flat_map in I2 as (w & Iw & I2). apply in_map_iff in I2 as (r' & E & _). injection E as -> _. contradiction.
Qed.
End Lists.

(** ** Byte strings of at most [m] bytes *)
Definition all_bytes : list Z := map Z.of_nat (seq 0 256).
Fixpoint all_strings (m : nat) : list (list Z) := match m with O => [[]] | S k => all_strings k ++ all_lists all_bytes (S k) end.

Lemma all_bytes_in v : is_byte v -> In v all_bytes.
Proof. unfold is_byte. intros H. apply in_map_iff. exists (Z.to_nat v). split; [lia|]. apply in_seq. lia. Qed.
Lemma all_strings_in : forall m l, (length l <= m)%nat -> bytes l -> In l (all_strings m).
Proof.
  induction m as [|m IH]; intros l L B; cbn [all_strings]; [destruct l; [left; reflexivity|cbn [length] in L; lia]|]. apply in_app_iff.
  destruct (Nat.eq_dec (length l) (S m)) as [E|E]; [right|left; apply IH; [lia|exact B]]. apply all_lists_in. split; [exact E|]. eapply Forall_impl; [|exact B]. exact all_bytes_in.
Qed.
Lemma all_strings_len m : Z.of_nat (length (all_strings m)) <= 256 ^ (Z.of_nat m + 1) - 1.
Proof.
  induction m as [|m IH]; [cbn; lia|]. cbn [all_strings]. rewrite app_length, Nat2Z.inj_add, all_lists_len. change (Z.of_nat (length all_bytes)) with 256.
  replace (Z.of_nat (S m) + 1) with (Z.succ (Z.of_nat (S m))) by lia. rewrite Z.pow_succ_r by lia. replace (Z.of_nat m + 1) with (Z.of_nat (S m)) in IH by lia.
  pose proof (Z.pow_pos_nonneg 256 (Z.of_nat (S m)) ltac:(lia) ltac:(lia)). lia.
Qed.

(** Different strings of at most [m] bytes: fewer than 256^(m+1). *)
Lemma count_strings (l : list (list Z)) m : NoDup l -> Forall (fun s => bytes s /\ (length s <= m)%nat) l -> Z.of_nat (length l) < 256 ^ (Z.of_nat m + 1).
Proof.
  intros N F. pose proof (all_strings_len m) as H. enough (length l <= length (all_strings m))%nat by lia. apply NoDup_incl_length; [exact N|]. intros s I. rewrite Forall_forall in F. destruct (F s I). apply all_strings_in; assumption.
Qed.

(** No function into the byte strings of at most [m] bytes is injective on a large list. *)
Lemma pigeonhole {X} (l : list X) (f : X -> option (list Z)) (m : nat) :
  NoDup l -> 256 ^ (Z.of_nat m + 1) <= Z.of_nat (length l) ->
  (forall x s, In x l -> f x = Some s -> bytes s /\ (length s <= m)%nat) ->
  (forall x y s, In x l -> In y l -> f x = Some s -> f y = Some s -> x = y) ->
  exists x, In x l /\ f x = None.
Proof.
  intros N L B I. destruct (Exists_dec (fun x => f x = None) l) as [E|E]; [intros x; destruct (f x); [right; discriminate|left; reflexivity]| |].
  - apply Exists_exists in E as (x & Ix & Ex). eauto.
  - exfalso. apply Forall_Exists_neg in E. rewrite Forall_forall in E. set (g := fun x => match f x with Some s => s | None => [] end).
    assert (G : forall x, In x l -> f x = Some (g x)). { intros x Ix. unfold g. destruct (f x) eqn:Fx; [reflexivity|]. destruct (E x Ix Fx). }
    pose proof (count_strings (map g l) m) as C. rewrite map_length in C. enough (Z.of_nat (length l) < 256 ^ (Z.of_nat m + 1)) by lia. apply C.
    + apply nodup_map; [exact N|]. intros a b Ia Ib Eq. apply (I a b (g a) Ia Ib); [exact (G a Ia)|]. rewrite Eq. exact (G b Ib).
    + apply Forall_forall. intros s Is. apply in_map_iff in Is as (x & <- & Ix). exact (B x (g x) Ix (G x Ix)).
Qed.
