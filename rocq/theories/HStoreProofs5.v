(** The description of a code with two, three or four symbols is read back. *)
From Coq Require Import Sorted.
From Verif Require Import Base BitModel BitProofs CodesProofs JBitModel JReadProofs JHuffModel JHuffProofs HistProofs HuffModel HuffProofs1 HuffProofs3 HuffProofs4 HuffProofs5 HuffProofs6
  HTreeModel HStoreModel.

(** * The used symbols in ascending order *)

Lemma filter_seq_sorted p : forall len start, StronglySorted lt (filter p (seq start len)) /\ Forall (fun x => start <= x)%nat (filter p (seq start len)).
Proof.
  induction len as [|len IH]; intros start; [split; constructor|]. cbn [seq filter]. destruct (IH (S start)) as [S1 F1].
  assert (F2 : Forall (fun x => start <= x)%nat (filter p (seq (S start) len))) by (eapply Forall_impl; [|exact F1]; cbv beta; lia).
  destruct (p start); [|split; assumption]. split; [constructor; assumption|constructor; [lia|assumption]].
Qed.
Lemma ssorted_nth l : StronglySorted lt l -> forall i j, (i < j < length l)%nat -> (nth i l 0 < nth j l 0)%nat.
Proof.
  induction 1 as [|x l S1 IH F]; intros i j H; [cbn in H; lia|]. cbn [length] in H. destruct j as [|j]; [lia|]. destruct i as [|i].
  - cbn [nth]. rewrite Forall_forall in F. apply F, nth_In. lia.
  - cbn [nth]. apply IH. lia.
Qed.

Lemma map_nth_all {A} (l : list A) d : map (fun i => nth i l d) (seq 0 (length l)) = l.
Proof.
  induction l as [|u l IH] using rev_ind; [reflexivity|]. rewrite app_length, seq_app, map_app. cbn [length seq map Nat.add]. rewrite nth_middle. f_equal.
  transitivity (map (fun i => nth i l d) (seq 0 (length l))); [|exact IH]. apply map_ext_in. intros i Hi. apply in_seq in Hi. rewrite app_nth1 by lia. reflexivity.
Qed.

Lemma sum_filter (g : nat -> Z) (p : nat -> bool) l : (forall t, In t l -> p t = false -> g t = 0) -> sumZ (map g l) = sumZ (map g (filter p l)).
Proof.
  induction l as [|x l IH]; intros H; [reflexivity|]. cbn [map filter]. change (g x + sumZ (map g l) = sumZ (map g (if p x then x :: filter p l else filter p l))). rewrite IH by (intros; apply H; [right; assumption|assumption]).
  destruct (p x) eqn:E; [reflexivity|]. rewrite (H x) by (first [left; reflexivity|exact E]). reflexivity.
Qed.

(** * Ranks instead of symbols *)

(** [f] maps ranks below [n] to symbols. *)
Definition ranked (n : nat) (f : Z -> Z) := forall x y, 0 <= x -> x < y -> y < Z.of_nat n -> f x < f y.
Definition inr (n : nat) (s : list Z) := Forall (fun x => 0 <= x < Z.of_nat n) s.

Lemma ranked_lt n f x y : ranked n f -> 0 <= x < Z.of_nat n -> 0 <= y < Z.of_nat n -> (f x <? f y) = (x <? y).
Proof.
  intros R Hx Hy. destruct (Z.ltb_spec x y), (Z.ltb_spec (f x) (f y)); try reflexivity.
  - pose proof (R x y). lia.
  - destruct (Z.eq_dec x y) as [->|]; [lia|]. pose proof (R y x). lia.
Qed.
Lemma nth_inr n s i : inr n s -> (i < length s)%nat -> 0 <= nth i s 0 < Z.of_nat n.
Proof. intros F H. unfold inr in F. rewrite Forall_forall in F. apply F, nth_In, H. Qed.
Lemma upd_inr n s i v : inr n s -> 0 <= v < Z.of_nat n -> inr n (upd s i v).
Proof.
  intros F H. unfold inr. revert i; induction s as [|x s IH]; intros i; [constructor|]. pose proof (Forall_inv F). pose proof (Forall_inv_tail F).
  destruct i; cbn [upd]; constructor; try assumption. apply IH. assumption.
Qed.
Lemma upd_map (f : Z -> Z) s : forall i v, upd (map f s) i (f v) = map f (upd s i v).
Proof. induction s as [|x s IH]; intros [|i] v; cbn [map upd]; [reflexivity|reflexivity|reflexivity|]. rewrite IH. reflexivity. Qed.
Lemma nth_mapf (f : Z -> Z) s i : (i < length s)%nat -> nth i (map f s) 0 = f (nth i s 0).
Proof. intros H. rewrite (nth_indep _ 0 (f 0)) by (rewrite map_length; exact H). apply map_nth. Qed.

Lemma swap_if_map n f i j s : ranked n f -> inr n s -> (i < length s)%nat -> (j < length s)%nat ->
  swap_if i j (map f s) = map f (swap_if i j s) /\ inr n (swap_if i j s) /\ length (swap_if i j s) = length s.
Proof.
  intros R F Hi Hj. unfold swap_if. rewrite !nth_mapf by assumption. rewrite (ranked_lt n f) by (first [exact R|apply nth_inr; assumption]).
  destruct (nth j s 0 <? nth i s 0); [|auto]. rewrite !upd_map, !upd_length. split; [reflexivity|]. split; [|reflexivity].
  apply upd_inr; [apply upd_inr; [exact F|]|]; apply nth_inr; assumption.
Qed.

Definition kind_len (kind : Z) : nat := if kind =? 5 then 4%nat else Z.to_nat kind.
Lemma simple_map n f kind s : ranked n f -> inr n s -> length s = kind_len kind -> 1 <= kind <= 5 ->
  simple_entries kind (map f s) = match simple_entries kind s with Some e => Some (map (fun e => (fst e, f (snd e))) e) | None => None end.
Proof.
  intros R F L K. assert (D : kind = 1 \/ kind = 2 \/ kind = 3 \/ kind = 4 \/ kind = 5) by lia. unfold simple_entries.
  destruct D as [->|[->|[->|[->| ->]]]]; cbv - [length] in L; cbn [Z.eqb Pos.eqb].
  - cbn [map fst snd]. rewrite !nth_mapf by lia. reflexivity.
  - destruct (swap_if_map n f 0 1 s R F) as (E1 & F1 & L1); [lia|lia|]. cbv zeta. rewrite E1. cbn [map fst snd]. rewrite !nth_mapf by lia. reflexivity.
  - destruct (swap_if_map n f 1 2 s R F) as (E1 & F1 & L1); [lia|lia|]. cbv zeta. rewrite E1. cbn [map fst snd]. rewrite !nth_mapf by lia. reflexivity.
  - destruct (swap_if_map n f 0 1 s R F) as (E1 & F1 & L1); [lia|lia|]. cbv zeta. rewrite E1.
    destruct (swap_if_map n f 0 2 _ R F1) as (E2 & F2 & L2); [lia|lia|]. rewrite E2.
    destruct (swap_if_map n f 0 3 _ R F2) as (E3 & F3 & L3); [lia|lia|]. rewrite E3.
    destruct (swap_if_map n f 1 2 _ R F3) as (E4 & F4 & L4); [lia|lia|]. rewrite E4.
    destruct (swap_if_map n f 1 3 _ R F4) as (E5 & F5 & L5); [lia|lia|]. rewrite E5.
    destruct (swap_if_map n f 2 3 _ R F5) as (E6 & F6 & L6); [lia|lia|]. rewrite E6.
    cbn [map fst snd]. rewrite !nth_mapf by lia. reflexivity.
  - destruct (swap_if_map n f 2 3 s R F) as (E1 & F1 & L1); [lia|lia|]. cbv zeta. rewrite E1. cbn [map fst snd]. rewrite !nth_mapf by lia. reflexivity.
Qed.

Lemma distinct_map n f s : ranked n f -> inr n s -> distinct (map f s) = distinct s.
Proof.
  intros R. induction s as [|x s IH]; intros F; [reflexivity|]. pose proof (Forall_inv F) as Hx. pose proof (Forall_inv_tail F) as Fs. cbv beta in Hx.
  cbn [map distinct]. rewrite IH by exact Fs. f_equal. f_equal. clear IH F. induction s as [|y s IH]; [reflexivity|]. pose proof (Forall_inv Fs) as Hy. cbv beta in Hy.
  cbn [map existsb]. rewrite (IH (Forall_inv_tail Fs)). f_equal.
  destruct (Z.eqb_spec x y) as [->|N]; [apply Z.eqb_refl|]. apply Z.eqb_neq. intros C.
  destruct (Z_lt_le_dec x y); [pose proof (R x y)|pose proof (R y x)]; lia.
Qed.

(** The sort of the encoder. *)
Lemma sort_swap_map n f depth ds i j s : inr n s -> (forall x, 0 <= x < Z.of_nat n -> nth (Z.to_nat (f x)) depth 0 = nth (Z.to_nat x) ds 0) -> (i < length s)%nat -> (j < length s)%nat ->
  sort_swap depth i j (map f s) = map f (sort_swap ds i j s) /\ inr n (sort_swap ds i j s) /\ length (sort_swap ds i j s) = length s.
Proof.
  intros F H Hi Hj. unfold sort_swap. rewrite !nth_mapf by assumption. rewrite !H by (apply nth_inr; assumption).
  destruct (nth (Z.to_nat (nth j s 0)) ds 0 <? nth (Z.to_nat (nth i s 0)) ds 0); [|auto]. rewrite !upd_map, !upd_length. split; [reflexivity|]. split; [|reflexivity].
  apply upd_inr; [apply upd_inr; [exact F|]|]; apply nth_inr; assumption.
Qed.
Lemma upd_app1 {A} (x z : list A) : forall i v, (i < length x)%nat -> upd (x ++ z) i v = upd x i v ++ z.
Proof. induction x as [|a x IH]; intros [|i] v H; cbn [length] in H; cbn [app upd]; [lia|lia|reflexivity|]. rewrite IH by lia. reflexivity. Qed.
Lemma sort_swap_app depth i j x z : (i < length x)%nat -> (j < length x)%nat -> sort_swap depth i j (x ++ z) = sort_swap depth i j x ++ z.
Proof.
  intros Hi Hj. unfold sort_swap. rewrite !app_nth1 by assumption. destruct (_ <? _); [|reflexivity].
  rewrite upd_app1 by exact Hj. rewrite upd_app1 by (rewrite upd_length; exact Hi). reflexivity.
Qed.

Lemma sort_map n m f depth ds ijs : (forall x, 0 <= x < Z.of_nat n -> nth (Z.to_nat (f x)) depth 0 = nth (Z.to_nat x) ds 0) ->
  Forall (fun ij => fst ij < m /\ snd ij < m)%nat ijs -> forall s z, inr n s -> length s = m ->
  let g d := fold_left (fun s ij => sort_swap d (fst ij) (snd ij) s) ijs in
  g depth (map f s ++ z) = map f (g ds s) ++ z /\ inr n (g ds s) /\ length (g ds s) = m.
Proof.
  intros H. induction ijs as [|[i j] ijs IH]; intros FI s z F L; cbn [fold_left]; [auto|]. pose proof (Forall_inv FI) as [Hi Hj]. cbn [fst snd] in *.
  cbv zeta. cbn [fold_left fst snd].
  rewrite sort_swap_app by (rewrite map_length; lia). destruct (sort_swap_map n f depth ds i j s F H ltac:(lia) ltac:(lia)) as (E & F' & L'). rewrite E.
  apply IH; [eapply Forall_inv_tail, FI|exact F'|lia].
Qed.

(** * All codes with two to four symbols *)

Definition ranks (n : nat) : list Z := map Z.of_nat (seq 0 n).
Definition simple_kind (ds s : list Z) : Z :=
  if (length ds =? 4)%nat then 4 + (if nth (Z.to_nat (nth 0 s 0)) ds 0 =? 1 then 1 else 0) else Z.of_nat (length ds).

Definition ksumb (ds : list Z) : Z := sumZ (map (fun l => if 0 <? l then 2 ^ (15 - l) else 0) ds).
Definition small_ok (ds : list Z) : bool :=
  let n := length ds in
  let s := sort_syms ds n (ranks n) in
  distinct s && match simple_entries (simple_kind ds s) s with
  | Some e =>
      ((256 mod length e =? 0)%nat && negb (length e =? 0)%nat) &&
      forallb (fun k => (nth k ds 0 <=? 3) && (let v := brev (Z.to_nat (nth k ds 0)) (code_value ds k) in
        forallb (fun w => if Z.of_nat w mod 2 ^ (nth k ds 0) =? v
                          then (let x := nth (w mod length e) e (0, 0) in (fst x =? nth k ds 0) && (snd x =? Z.of_nat k)) else true) (seq 0 256))) (seq 0 n)
  | None => false
  end.
Definition lens15 : list Z := map Z.of_nat (seq 1 15).
Fixpoint all_lists (n : nat) : list (list Z) := match n with O => [[]] | S m => flat_map (fun l => map (fun d => d :: l) lens15) (all_lists m) end.
Lemma all_lists_in n : forall l, length l = n -> Forall (fun d => 1 <= d <= 15) l -> In l (all_lists n).
Proof.
  induction n as [|n IH]; intros l L F; [destruct l; [left; reflexivity|discriminate]|]. destruct l as [|d l]; [discriminate|]. cbn [all_lists].
  apply in_flat_map. exists l. split; [apply IH; [injection L; auto|eapply Forall_inv_tail, F]|]. apply in_map_iff. exists d. split; [reflexivity|].
  pose proof (Forall_inv F) as H. cbv beta in H. unfold lens15. apply in_map_iff. exists (Z.to_nat d). split; [lia|]. apply in_seq. lia.
Qed.
Definition small_check n := forallb (fun ds => if ksumb ds =? 2 ^ 15 then small_ok ds else true) (all_lists n).
Lemma small_checked : small_check 2 && small_check 3 && small_check 4 = true.
Proof. vm_compute. reflexivity. Qed.
Lemma small_all ds : (2 <= length ds <= 4)%nat -> Forall (fun d => 1 <= d <= 15) ds -> ksumb ds = 2 ^ 15 -> small_ok ds = true.
Proof.
  intros L F K. pose proof small_checked as C. rewrite !andb_true_iff in C. destruct C as [[C2 C3] C4].
  assert (C : small_check (length ds) = true) by (assert (D : length ds = 2%nat \/ length ds = 3%nat \/ length ds = 4%nat) by lia; destruct D as [->|[->| ->]]; assumption).
  unfold small_check in C. rewrite forallb_forall in C. specialize (C ds (all_lists_in _ ds eq_refl F)). rewrite K, Z.eqb_refl in C. exact C.
Qed.

(** * Tiles *)

Lemma tile_nth (e : list (Z * Z)) : forall q i d, (i < q * length e)%nat -> nth i (concat (repeat e q)) d = nth (i mod length e) e d.
Proof.
  induction q as [|q IH]; intros i d H; [lia|]. cbn [repeat concat]. destruct (Nat.lt_ge_cases i (length e)) as [HL|HL].
  - rewrite app_nth1 by exact HL. rewrite Nat.mod_small by exact HL. reflexivity.
  - rewrite app_nth2 by exact HL. rewrite IH by (cbn [Nat.mul] in H; lia). f_equal.
    replace i with ((i - length e) + 1 * length e)%nat at 2 by lia. rewrite Nat.mod_add by lia. reflexivity.
Qed.
Lemma concat_repeat_len {A} (e : list A) q : length (concat (repeat e q)) = (q * length e)%nat.
Proof. induction q as [|q IH]; [reflexivity|]. cbn [repeat concat Nat.mul]. rewrite app_length, IH. reflexivity. Qed.
Lemma tile_spec e : (256 mod length e = 0)%nat -> length e <> 0%nat ->
  length (tile 256 e) = 256%nat /\ forall v, 0 <= v < 256 -> aget (tile 256 e) v = JOk (nth (Z.to_nat v mod length e) e (0, 0)).
Proof.
  intros M N. assert (E : (256 / length e * length e = 256)%nat).
  { pose proof (Nat.div_mod 256 (length e) N) as D. rewrite M in D. lia. }
  assert (L : length (tile 256 e) = 256%nat) by (unfold tile; rewrite concat_repeat_len; exact E).
  split; [exact L|]. intros v Hv. apply aget_Some. split; [lia|]. rewrite <- (tile_nth e (256 / length e)) by lia. apply nth_error_nth'. fold (tile 256 e). lia.
Qed.

(** * Reading the symbols *)

Lemma read_syms_ok strict bits alphabet : (bits <= 16)%nat -> alphabet <= 2 ^ 16 -> forall s rest,
  Forall (fun x => 0 <= x < alphabet /\ x < 2 ^ Z.of_nat bits) s ->
  arun strict (read_syms (length s) bits alphabet) (fields_bits (map (fun x => (bits, x)) s) ++ rest) = Some (s, rest).
Proof.
  intros HB HA. induction s as [|x s IH]; intros rest F; [reflexivity|]. pose proof (Forall_inv F) as H. cbv beta in H.
  cbn [length read_syms map fields_bits]. rewrite <- app_assoc. rewrite arun_Read by lia. rewrite Z.mod_small by lia.
  destruct (Z.leb_spec alphabet x); [lia|]. rewrite arun_bind, IH by (eapply Forall_inv_tail, F). reflexivity.
Qed.

Lemma count_bits_log fuel : forall x, 0 <= x < 2 ^ Z.of_nat fuel -> count_bits fuel x = if x =? 0 then 0%nat else S (Z.to_nat (Z.log2 x)).
Proof.
  induction fuel as [|f IH]; intros x H; [change (2 ^ Z.of_nat 0) with 1 in H; replace x with 0 by lia; reflexivity|].
  rewrite pow2_S in H. cbn [count_bits]. destruct (Z.eqb_spec x 0); [reflexivity|]. rewrite IH by dlia.
  destruct (Z.eqb_spec (x / 2) 0) as [E|E].
  - assert (x = 1) by dlia. subst x. reflexivity.
  - f_equal. assert (0 < x / 2) by dlia. assert (L : Z.log2 x = 1 + Z.log2 (x / 2)).
    { rewrite <- (Z.div2_div x). destruct x as [|[p|p|]|p]; try lia; try reflexivity.
      - change (Z.div2 (Z.pos p~1)) with (Z.pos p). change (Z.pos p~1) with (2 * Z.pos p + 1). rewrite Z.log2_succ_double by lia. lia.
      - change (Z.div2 (Z.pos p~0)) with (Z.pos p). change (Z.pos p~0) with (2 * Z.pos p). rewrite Z.log2_double by lia. lia. }
    rewrite L. pose proof (Z.log2_nonneg (x / 2)). lia.
Qed.
Lemma max_bits_ok n : 1 <= n <= 2 ^ 15 -> count_bits 64 (n - 1) = sym_bits n /\ (sym_bits n <= 16)%nat /\ n <= 2 ^ Z.of_nat (sym_bits n).
Proof.
  intros H. rewrite count_bits_log by (change (2 ^ Z.of_nat 64) with (2 ^ 64); lia). unfold sym_bits.
  destruct (Z.eqb_spec (n - 1) 0) as [E|E], (Z.ltb_spec 1 n); try lia.
  - split; [reflexivity|]. pose proof (Z.log2_nonneg (n - 1)). pose proof (Z.log2_spec (n - 1) ltac:(lia)) as [_ U].
    assert (Z.log2 (n - 1) < 15) by (apply Z.log2_lt_pow2; lia). split; [lia|]. rewrite Nat2Z.inj_succ, Z2Nat.id by lia. lia.
Qed.

(** * The simple description *)

Lemma store_simple_ok depth us : complete depth -> Z.of_nat (length depth) <= 2 ^ 15 ->
  us = filter (fun i => negb (nth i depth 0 =? 0)) (seq 0 (length depth)) -> (2 <= length us <= 4)%nat ->
  let fs := store_simple depth (firstn 4 (map Z.of_nat us ++ [0; 0; 0; 0])) (length us) (count_bits 64 (Z.of_nat (length depth) - 1)) in
  fields_ok fs /\ forall strict arena, exists lut,
    (forall rest, arun strict (read_code arena (length depth)) (fields_bits fs ++ rest) = Some (lut, rest)) /\ table_ok depth 8 lut 256 /\ length lut = 256%nat.
Proof.
  intros [FD KD] HN EU HL. set (n := length us). set (N := length depth) in *.
  assert (INU : forall u, In u us <-> (u < N)%nat /\ nth u depth 0 <> 0).
  { intros u. rewrite EU, filter_In, in_seq, negb_true_iff, Z.eqb_neq. intuition lia. }
  assert (SRT : forall i j, (i < j < n)%nat -> (nth i us 0 < nth j us 0)%nat).
  { intros i j H. apply ssorted_nth; [|exact H]. rewrite EU. apply filter_seq_sorted. }
  set (f := fun x => Z.of_nat (nth (Z.to_nat x) us 0%nat)). set (ds := map (fun u => nth u depth 0) us).
  assert (LDS : length ds = n) by (unfold ds; apply map_length).
  assert (RK : ranked n f) by (intros x y H1 H2 H3; unfold f; pose proof (SRT (Z.to_nat x) (Z.to_nat y)); lia).
  assert (DN : forall k, (k < n)%nat -> nth k ds 0 = nth (nth k us 0%nat) depth 0).
  { intros k Hk. unfold ds. rewrite (nth_indep _ 0 ((fun u => nth u depth 0) 0%nat)) by (rewrite map_length; exact Hk). apply (map_nth (fun u => nth u depth 0)). }
  assert (DF : forall x, 0 <= x < Z.of_nat n -> nth (Z.to_nat (f x)) depth 0 = nth (Z.to_nat x) ds 0).
  { intros x Hx. unfold f. rewrite Nat2Z.id, DN by lia. reflexivity. }
  assert (MU : map Z.of_nat us = map f (ranks n)).
  { unfold ranks. rewrite map_map. unfold f, n. clear. induction us as [|u us IH] using rev_ind; [reflexivity|].
    rewrite app_length, seq_app, !map_app, IH. cbn [length seq map Nat.add]. f_equal.
    - apply map_ext_in. intros i Hi. apply in_seq in Hi. rewrite Nat2Z.id, app_nth1 by lia. reflexivity.
    - rewrite Nat2Z.id, nth_middle. reflexivity. }
  assert (FDS : Forall (fun d => 1 <= d <= 15) ds).
  { unfold ds. rewrite Forall_map. apply Forall_forall. intros u Hu. apply INU in Hu as [H1 H2].
    rewrite Forall_forall in FD. pose proof (FD _ (nth_In depth 0 H1)). cbv beta in *. lia. }
  assert (NTH : map (fun t => nth t depth 0) (seq 0 N) = depth).
  { apply map_nth_all. }
  assert (KDS : ksumb ds = 2 ^ 15).
  { unfold ksumb. rewrite <- KD. rewrite <- NTH at 1. unfold ds. rewrite !map_map, EU. symmetry. apply sum_filter.
    intros t _ E. apply negb_false_iff, Z.eqb_eq in E. rewrite E. reflexivity. }
  assert (CV : forall k, (k < n)%nat -> code_value depth (nth k us 0%nat) = code_value ds k).
  { intros k Hk. unfold code_value. cbv zeta. fold N. rewrite <- DN by exact Hk. rewrite LDS.
    rewrite (sum_filter _ (fun i => negb (nth i depth 0 =? 0))); [|intros t _ E; apply negb_false_iff, Z.eqb_eq in E; rewrite E; reflexivity].
    rewrite <- EU. assert (EM : us = map (fun i => nth i us 0%nat) (seq 0 n)).
    { symmetry. apply map_nth_all. }
    rewrite EM at 1. rewrite map_map. f_equal. apply map_ext_in. intros t Ht. apply in_seq in Ht. rewrite <- DN by lia.
    assert (EQ : (nth t us 0 <? nth k us 0)%nat = (t <? k)%nat).
    { destruct (Nat.ltb_spec t k).
      - apply Nat.ltb_lt, SRT. lia.
      - apply Nat.ltb_ge. destruct (Nat.eq_dec t k) as [->|]; [lia|]. pose proof (SRT k t). lia. }
    rewrite EQ. reflexivity. }
  pose proof (small_all ds ltac:(lia) FDS KDS) as OK. unfold small_ok in OK. rewrite LDS in OK. set (s := sort_syms ds n (ranks n)) in *.
  apply andb_true_iff in OK as [OD OK].
  assert (IR : inr n (ranks n)) by (apply Forall_forall; intros x Hx; apply in_map_iff in Hx as (i & <- & Hi); apply in_seq in Hi; lia).
  assert (LR : length (ranks n) = n) by (unfold ranks; rewrite map_length, seq_length; reflexivity).
  set (ijs := flat_map (fun i => map (fun j => (i, j)) (seq (S i) (n - S i))) (seq 0 n)).
  assert (FI : Forall (fun ij => fst ij < n /\ snd ij < n)%nat ijs).
  { apply Forall_forall. intros [i j] H. apply in_flat_map in H as (i' & Hi & H). apply in_map_iff in H as (j' & E & Hj). injection E as -> ->. apply in_seq in Hi, Hj. cbn [fst snd]. lia. }
  set (z := firstn (4 - n) [0; 0; 0; 0]).
  assert (E4 : firstn 4 (map Z.of_nat us ++ [0; 0; 0; 0]) = map f (ranks n) ++ z).
  { rewrite MU, firstn_app. rewrite firstn_all2 by (rewrite map_length; lia). rewrite map_length, LR. reflexivity. }
  destruct (sort_map n n f depth ds ijs DF FI (ranks n) z IR LR) as (ES & IS & LS).
  change (fold_left (fun s ij => sort_swap ds (fst ij) (snd ij) s) ijs (ranks n)) with s in ES, IS, LS.
  destruct (simple_entries (simple_kind ds s) s) as [e|] eqn:EE; [|discriminate].
  apply andb_true_iff in OK as [OL OK]. apply andb_true_iff in OL as [OL1 OL2]. apply Nat.eqb_eq in OL1. apply negb_true_iff, Nat.eqb_neq in OL2.
  set (e' := map (fun e => (fst e, f (snd e))) e).
  assert (DSF : nth (Z.to_nat (nth 0 (map f s ++ z) 0)) depth 0 = nth (Z.to_nat (nth 0 s 0)) ds 0).
  { rewrite app_nth1 by (rewrite map_length; lia). rewrite nth_mapf by lia. apply DF, nth_inr; [exact IS|lia]. }
  destruct (max_bits_ok (Z.of_nat N)) as (MB1 & MB2 & MB3).
  { split; [|exact HN]. destruct depth; [cbn in KD; discriminate KD|unfold N; cbn [length]; lia]. }
  assert (FS : Forall (fun x => 0 <= x < Z.of_nat N /\ x < 2 ^ Z.of_nat (sym_bits (Z.of_nat N))) (map f s)).
  { rewrite Forall_map. eapply Forall_impl; [|exact IS]. cbv beta. intros x Hx. assert (In (nth (Z.to_nat x) us 0%nat) us) by (apply nth_In; lia). apply INU in H as [H _]. unfold f. lia. }
  assert (EF : store_simple depth (firstn 4 (map Z.of_nat us ++ [0; 0; 0; 0])) n (count_bits 64 (Z.of_nat N - 1))
     = [(2%nat, 1); (2%nat, Z.of_nat n - 1)] ++ map (fun x => (sym_bits (Z.of_nat N), x)) (map f s)
       ++ (if (n =? 4)%nat then [(1%nat, simple_kind ds s - 4)] else [])).
  { unfold store_simple. unfold sort_syms. fold ijs. rewrite E4, ES, MB1. cbn [app]. f_equal. f_equal. f_equal.
    - rewrite map_map. assert (EM : s = map (fun i => nth i s 0) (seq 0 n)).
      { rewrite <- LS. symmetry. apply map_nth_all. }
      transitivity (map (fun x => (sym_bits (Z.of_nat N), f x)) (map (fun i => nth i s 0) (seq 0 n))); [|rewrite <- EM; reflexivity]. rewrite map_map. apply map_ext_in. intros i Hi. apply in_seq in Hi. rewrite app_nth1 by (rewrite map_length; lia). rewrite nth_mapf by lia. reflexivity.
    - rewrite DSF. unfold simple_kind. rewrite LDS. destruct (n =? 4)%nat; [|reflexivity]. destruct (_ =? 1); reflexivity. }
  cbv zeta. fold n. rewrite EF. split.
  { apply fields_ok_cons. split; [split; [lia|cbn; lia]|]. apply fields_ok_cons. split; [split; [lia|change (2 ^ Z.of_nat 2) with 4; lia]|].
    apply fields_ok_app. split.
    - apply Forall_forall. intros q Hq. apply in_map_iff in Hq as (x & <- & Hx). rewrite Forall_forall in FS. specialize (FS x Hx). cbv beta in FS. cbn [fst snd]. lia.
    - unfold simple_kind. rewrite LDS. destruct (n =? 4)%nat; [|constructor]. apply fields_ok_cons. split; [split; [lia|]|constructor]. destruct (_ =? 1); cbn; lia. }
  intros strict arena. exists (tile 256 e').
  assert (LE : length e' = length e) by (unfold e'; apply map_length).
  destruct (tile_spec e' ltac:(rewrite LE; exact OL1) ltac:(rewrite LE; exact OL2)) as [LT TN].
  split; [|split; [|exact LT]].
  - intros rest. cbn [app fields_bits]. rewrite fields_bits_app, <- !app_assoc.
    unfold read_code. fold N. change (2 ^ kMaxBits) with (2 ^ 15). destruct (Z.ltb_spec (2 ^ 15) (Z.of_nat N)); [lia|].
    rewrite arun_Read by (cbn; lia). change (1 =? 1) with true. cbv iota. unfold read_simple. rewrite arun_Read by (change (2 ^ Z.of_nat 2) with 4; lia).
    rewrite arun_bind. rewrite Z.mod_small by lia. replace (Z.to_nat (Z.of_nat n - 1 + 1)) with (length (map f s)) by (rewrite map_length; lia).
    rewrite read_syms_ok; [|exact MB2|lia|exact FS]. rewrite (distinct_map n) by assumption. rewrite OD.
    assert (FIN : simple_entries (simple_kind ds s) (map f s) = Some e').
    { rewrite (simple_map n); [rewrite EE; reflexivity|exact RK|exact IS| |].
      - rewrite LS. unfold kind_len, simple_kind. rewrite LDS. destruct (Nat.eqb_spec n 4) as [->|]; [destruct (_ =? 1); reflexivity|].
        destruct (Z.eqb_spec (Z.of_nat n) 5); lia.
      - unfold simple_kind. rewrite LDS. destruct (n =? 4)%nat; [destruct (_ =? 1)|]; lia. }
    destruct (Nat.eqb_spec n 4) as [E|E].
    + replace (Z.of_nat n - 1 =? 3) with true by lia. cbn [fields_bits]. rewrite app_nil_r.
      assert (K01 : 0 <= simple_kind ds s - 4 < 2) by (unfold simple_kind; rewrite LDS, E; cbn [Nat.eqb]; destruct (_ =? 1); lia).
      rewrite arun_Read by (change (2 ^ Z.of_nat 1) with 2; lia). replace (4 + (simple_kind ds s - 4)) with (simple_kind ds s) by lia. rewrite FIN. reflexivity.
    + replace (Z.of_nat n - 1 =? 3) with false by lia. replace (Z.of_nat n - 1 + 1) with (simple_kind ds s); [rewrite FIN; reflexivity|].
      unfold simple_kind. rewrite LDS. destruct (Nat.eqb_spec n 4); lia.
  - split; [change (2 ^ 8) with 256; lia|]. intros sy w Hs Hl Hw B.
    assert (IU : In sy us) by (apply INU; lia). apply (In_nth _ _ 0%nat) in IU as (k & Hk & <-). fold n in Hk.
    rewrite <- DN in * by exact Hk. rewrite CV in B by exact Hk. rewrite forallb_forall in OK. specialize (OK k). rewrite in_seq in OK. specialize (OK ltac:(lia)).
    apply andb_true_iff in OK as [O3 OK]. apply Z.leb_le in O3. left. split; [lia|]. change (2 ^ 8) with 256. pose proof (Z.mod_pos_bound w 256 eq_refl) as HM.
    rewrite TN by exact HM. cbv zeta in OK. rewrite forallb_forall in OK. specialize (OK (Z.to_nat (w mod 256))). rewrite in_seq in OK. specialize (OK ltac:(lia)).
    rewrite Z2Nat.id in OK by lia.
    assert (MM : (w mod 256) mod 2 ^ nth k ds 0 = w mod 2 ^ nth k ds 0).
    { rewrite <- Znumtheory.Zmod_div_mod; [reflexivity|apply Z.pow_pos_nonneg; lia|lia|]. exists (2 ^ (8 - nth k ds 0)). rewrite <- Z.pow_add_r by lia. replace (8 - nth k ds 0 + nth k ds 0) with 8 by lia. reflexivity. }
    rewrite MM, B, Z.eqb_refl in OK. apply andb_true_iff in OK as [OA OB]. apply Z.eqb_eq in OA, OB.
    rewrite LE. set (j := (Z.to_nat (w mod 256) mod length e)%nat) in *. unfold e'.
    assert (Hj : (j < length e)%nat) by (apply Nat.mod_upper_bound, OL2).
    rewrite (nth_indep _ (0, 0) ((fun e => (fst e, f (snd e))) (0, 0))) by (rewrite map_length; exact Hj).
    rewrite (map_nth (fun e => (fst e, f (snd e)))). rewrite OA, OB. unfold f. rewrite Nat2Z.id. reflexivity.
Qed.
