(** Coefficient coding: generic facts, DC section. *)
From Verif Require Import Base Prob EntropyModel EntropyProofs LehmerProofs CtxTables CoefModel.

Lemma obind_some {A B} (o : option A) (f : A -> option B) b : obind o f = Some b -> exists a, o = Some a /\ f a = Some b.
Proof. destruct o as [a|]; unfold obind; intros H; [|discriminate]. exists a. auto. Qed.
Lemma obind_eq {A B} (o : option A) (f : A -> option B) a : o = Some a -> obind o f = f a.
Proof. intros ->. reflexivity. Qed.

Lemma zget_range {A} (l : list A) i : 0 <= i < Z.of_nat (length l) -> exists a, zget l i = Some a /\ In a l.
Proof.
  intros H. unfold zget. destruct (Z.ltb_spec i 0); [lia|].
  destruct (nth_error l (Z.to_nat i)) as [a|] eqn:E.
  - exists a. split; [reflexivity|]. eapply nth_error_In; exact E.
  - apply nth_error_None in E. lia.
Qed.
Lemma zget_some {A} (l : list A) i a : zget l i = Some a -> 0 <= i < Z.of_nat (length l) /\ In a l.
Proof.
  unfold zget. destruct (Z.ltb_spec i 0); [discriminate|]. intros E. split.
  - assert (Z.to_nat i < length l)%nat; [|lia]. apply nth_error_Some. rewrite E. discriminate.
  - eapply nth_error_In; exact E.
Qed.
Lemma zget_Forall {A} (P : A -> Prop) l i a : Forall P l -> zget l i = Some a -> P a.
Proof. intros F H. apply zget_some in H. rewrite Forall_forall in F. apply F, H. Qed.
Lemma zset_range {A} (l : list A) i v : 0 <= i < Z.of_nat (length l) -> zset l i v = Some (upd l (Z.to_nat i) v).
Proof.
  intros H. unfold zset. destruct (Z.leb_spec 0 i); [|lia]. destruct (Z.ltb_spec i (Z.of_nat (length l))); [|lia]. reflexivity.
Qed.
Lemma zset_some {A} (l : list A) i v l' : zset l i v = Some l' -> 0 <= i < Z.of_nat (length l) /\ l' = upd l (Z.to_nat i) v.
Proof.
  unfold zset. destruct (Z.leb_spec 0 i); [|discriminate]. destruct (Z.ltb_spec i (Z.of_nat (length l))); [|discriminate].
  cbn [andb]. intros E. injection E as <-. auto.
Qed.
Lemma upd_In {A} (l : list A) i v x : In x (upd l i v) -> x = v \/ In x l.
Proof.
  revert i. induction l as [|y l IH]; intros i H; destruct i as [|i]; cbn [upd] in H.
  - destruct H.
  - destruct H.
  - destruct H as [H|H]; [left; auto|right; right; exact H].
  - destruct H as [H|H]; [right; left; exact H|]. destruct (IH _ H) as [E|E]; [left; exact E|right; right; exact E].
Qed.
Lemma upd_Forall {A} (P : A -> Prop) l i v : Forall P l -> P v -> Forall P (upd l i v).
Proof.
  intros F H. rewrite Forall_forall in *. intros x Hx. apply upd_In in Hx. destruct Hx as [->|Hx]; auto.
Qed.
Lemma nth_error_upd_same {A} (l : list A) i v : (i < length l)%nat -> nth_error (upd l i v) i = Some v.
Proof. revert i. induction l as [|y l IH]; intros i H; cbn [length] in H; [lia|]. destruct i; cbn [upd nth_error]; [reflexivity|]. apply IH. lia. Qed.
Lemma nth_error_upd_other {A} (l : list A) i j v : i <> j -> nth_error (upd l i v) j = nth_error l j.
Proof.
  revert i j. induction l as [|y l IH]; intros i j H; [destruct i; reflexivity|].
  destruct i, j; cbn [upd nth_error]; try reflexivity; [lia|]. apply IH. lia.
Qed.
Lemma nth_error_nth' {A} (l : list A) i a d : nth_error l i = Some a -> nth i l d = a.
Proof. revert i. induction l as [|y l IH]; intros i H; destruct i; cbn in *; try discriminate; [injection H; auto|apply IH; exact H]. Qed.

(** * Decoders that never fail *)

(** For all answers a decoder state can give: symbols inside the table, raw fields in
    their width. *)
Fixpoint esafe {A} (Q : A -> Prop) (p : eprog A) : Prop :=
  match p with
  | ERet a => Q a
  | EFail => False
  | EBit q k => 0 <= q <= 255 /\ forall b, esafe Q (k b)
  | ESym c k => counts_ok c /\ forall s, 0 <= s < Z.of_nat (length c) -> esafe Q (k s)
  | EBits n k => (n <= 16)%nat /\ forall v, 0 <= v < 2 ^ Z.of_nat n -> esafe Q (k v)
  end.

Lemma esafe_bind {A B} (P : A -> Prop) (Q : B -> Prop) p f : esafe P p -> (forall a, P a -> esafe Q (f a)) -> esafe Q (ebind p f).
Proof.
  intros H K. revert H. induction p as [a| |q k IH|c k IH|n k IH]; cbn [esafe ebind]; intros H.
  - apply K, H.
  - exact H.
  - split; [apply H|]. intros b. apply IH, H.
  - split; [apply H|]. intros s Hs. apply IH, H, Hs.
  - split; [apply H|]. intros s Hs. apply IH, H, Hs.
Qed.
Lemma esafe_mono {A} (P Q : A -> Prop) p : esafe P p -> (forall a, P a -> Q a) -> esafe Q p.
Proof.
  intros H K. revert H. induction p as [a| |q k IH|c k IH|n k IH]; cbn [esafe]; intros H.
  - apply K, H.
  - exact H.
  - split; [apply H|]. intros b. apply IH, H.
  - split; [apply H|]. intros s Hs. apply IH, H, Hs.
  - split; [apply H|]. intros s Hs. apply IH, H, Hs.
Qed.

Lemma ans_map_from_syms counts : forall i e, In e (ans_map_from i counts) -> i <= fst (fst e) < i + Z.of_nat (length counts).
Proof.
  induction counts as [|c r IH]; intros i e H; cbn [ans_map_from] in H; [destruct H|].
  apply in_app_or in H. destruct H as [H|H].
  - apply in_map_iff in H. destruct H as (j & <- & _). cbn [fst length]. lia.
  - apply IH in H. cbn [length]. lia.
Qed.

Lemma esafe_run {A} (Q : A -> Prop) p : esafe Q p -> forall d, exists a d', erun p d = Some (a, d') /\ Q a.
Proof.
  induction p as [a| |q k IH|c k IH|n k IH]; cbn [esafe erun]; intros H d.
  - exists a, d. auto.
  - destruct H.
  - destruct (read_bit q d) as [b d']. apply IH, H.
  - destruct H as [[C1 C2] H]. unfold read_symbol.
    assert (0 <= Z.land (d_ans d) 1023 < 1024) as L.
    { change 1023 with (Z.ones 10). rewrite Z.land_ones by lia. apply Z.mod_pos_bound. lia. }
    destruct (nth_error (ans_map c) (Z.to_nat (Z.land (d_ans d) 1023))) as [[[sym freq] off]|] eqn:E.
    + assert (0 <= sym < Z.of_nat (length c)) as Hs.
      { apply nth_error_In in E. apply ans_map_from_syms in E. cbn [fst] in E. lia. }
      destruct (_ <? 2 ^ 16); [destruct (next_word (d_src d))|]; apply IH, H, Hs.
    + apply nth_error_None in E. unfold ans_map in E.
      pose proof (ans_map_length 0 c C1) as Hlen. rewrite C2 in Hlen. lia.
  - destruct (read_bits n d) as [v d'] eqn:E. apply IH, H.
    assert (v = Z.land (Z.shiftr (fst (if 16 <? d_bitpos d + Z.of_nat n then
              let '(w, src) := next_word (d_src d) in (Z.lor (d_val d) (Z.shiftl w 16 mod 2 ^ 32), src)
              else (d_val d, d_src d))) (d_bitpos d)) (2 ^ Z.of_nat n - 1)) as ->.
    { unfold read_bits in E. destruct (if 16 <? d_bitpos d + Z.of_nat n then _ else _) as [val src].
      destruct (16 <? d_bitpos d + Z.of_nat n) in E; injection E as <- _; reflexivity. }
    rewrite land_ones_mod by lia. apply Z.mod_pos_bound. apply Z.pow_pos_nonneg; lia.
Qed.

(** * Lock step *)

Section Lock.
Variables (cmap : list Z) (codes : list (list Z)).

Definition elock {A} (p : eprog A) (its : list citem) (a : A) : Prop :=
  forall rest, eaccept p (map (resolve cmap codes) its ++ rest) = Some (a, rest).

Lemma elock_ret {A} (a : A) : elock (ERet a) [] a.
Proof. intros rest. reflexivity. Qed.
Lemma elock_bind {A B} (p : eprog A) (f : A -> eprog B) i1 i2 a b :
  elock p i1 a -> elock (f a) i2 b -> elock (ebind p f) (i1 ++ i2) b.
Proof. intros H1 H2 rest. rewrite eaccept_ebind, map_app, <- app_assoc, H1. apply H2. Qed.
Lemma elock_bind_ret {A B} (p : eprog A) (f : A -> eprog B) i1 a b :
  elock p i1 a -> f a = ERet b -> elock (ebind p f) i1 b.
Proof. intros H1 H2. rewrite <- (app_nil_r i1). eapply elock_bind; [exact H1|]. rewrite H2. apply elock_ret. Qed.

(** Symbols whose table exists. *)
Definition has_table (c : citem) : Prop :=
  match c with CSym h _ => exists t, table_of cmap codes h = Some t | _ => True end.

Lemma enc_bit_lock ps i b its ps' : enc_bit ps i b = Some (its, ps') -> elock (dec_bit ps i) its (b, ps').
Proof.
  unfold enc_bit, dec_bit. intros H. apply obind_some in H. destruct H as (p & E1 & H). apply obind_some in H. destruct H as (q & E2 & H).
  injection H as <- <-. rewrite E1. cbn [eget]. intros rest. cbn [map app resolve eaccept]. rewrite Z.eqb_refl, E2. reflexivity.
Qed.

Lemma abs_arith absval nbits : 8 < absval -> nbits = Z.log2 (absval - 8 + 1) - 1 ->
  0 <= nbits /\ 2 ^ (nbits + 1) <= absval - 7 < 2 ^ (nbits + 2).
Proof.
  intros H ->. assert (2 ^ 1 <= absval - 8 + 1) as L by lia. apply Z.log2_le_pow2 in L; [|lia].
  split; [lia|]. pose proof (Z.log2_spec (absval - 8 + 1) ltac:(lia)) as S.
  replace (Z.log2 (absval - 8 + 1) - 1 + 1) with (Z.log2 (absval - 8 + 1)) by lia.
  replace (Z.log2 (absval - 8 + 1) - 1 + 2) with (Z.succ (Z.log2 (absval - 8 + 1))) by lia. lia.
Qed.

Lemma enc_abs_lock h absval ps idx its ps' : 1 <= absval -> enc_abs h absval ps idx = Some (its, ps') -> Forall has_table its ->
  elock (dec_abs cmap codes h ps idx) its (absval, ps').
Proof.
  intros Ha H T. unfold enc_abs in H. unfold dec_abs. destruct (Z.leb_spec absval 8) as [Hs|Hb].
  - injection H as <- <-. pose proof (Forall_inv T) as Ht; cbn [has_table] in Ht; destruct Ht as [t Ht]. rewrite Ht. cbn [eget].
    intros rest. cbn [map app resolve eaccept]. rewrite Ht, (proj2 (list_eqb_eq t t) eq_refl).
    destruct (Z.ltb_spec (absval - 1) 8); [|lia]. cbn [eaccept]. do 3 f_equal. lia.
  - pose proof (abs_arith absval _ Hb eq_refl) as [Hn Hr].
    set (nbits := Z.log2 (absval - 8 + 1) - 1) in *.
    set (extra := absval - (8 - 1 + Z.shiftl 2 nbits)) in *.
    apply obind_some in H. destruct H as ([i1 p1] & E1 & H). cbn [fst snd] in H. injection H as <- <-.
    pose proof (Forall_inv T) as Ht; cbn [has_table] in Ht; destruct Ht as [t Ht]. rewrite Ht. cbn [eget].
    assert (Z.shiftl 2 nbits = 2 ^ (nbits + 1)) as S2. { rewrite Z.shiftl_mul_pow2 by lia. rewrite Z.pow_add_r by lia. lia. }
    assert (2 ^ (nbits + 1) = 2 * 2 ^ nbits /\ 2 ^ (nbits + 2) = 4 * 2 ^ nbits) as [P1 P2].
    { rewrite !Z.pow_add_r by lia. split; lia. }
    assert (0 < 2 ^ nbits) as P3 by (apply Z.pow_pos_nonneg; lia).
    assert (0 <= extra < 2 * 2 ^ nbits) as He by (unfold extra; lia).
    assert (Z.land extra (Z.shiftl 1 nbits - 1) = extra mod 2 ^ nbits) as Lo.
    { rewrite Z.shiftl_mul_pow2 by lia. rewrite Z.mul_1_l. replace (2 ^ nbits - 1) with (Z.ones nbits) by (rewrite Z.ones_equiv; lia).
      rewrite Z.land_ones by lia. reflexivity. }
    assert (Z.shiftl (b2 (negb (Z.land (Z.shiftr extra nbits) 1 =? 0))) nbits = extra / 2 ^ nbits * 2 ^ nbits) as Hi.
    { rewrite Z.shiftl_mul_pow2 by lia. f_equal. rewrite Z.shiftr_div_pow2 by lia.
      assert (extra / 2 ^ nbits = 0 \/ extra / 2 ^ nbits = 1) as [-> | ->]; [|reflexivity|reflexivity].
      assert (extra / 2 ^ nbits < 2) by (apply Z.div_lt_upper_bound; lia). assert (0 <= extra / 2 ^ nbits) by (apply Z.div_pos; lia). lia. }
    intros rest. cbn [map app resolve eaccept]. rewrite Ht, (proj2 (list_eqb_eq t t) eq_refl).
    destruct (Z.ltb_spec (8 + nbits) 8); [lia|]. replace (8 + nbits - 8) with nbits by lia.
    rewrite map_app, <- app_assoc.
    pose proof (enc_bit_lock _ _ _ _ _ E1) as L1.
    rewrite eaccept_ebind, L1. cbv beta iota. rewrite Hi.
    pose proof (Z.div_mod extra (2 ^ nbits) ltac:(lia)) as Dm.
    assert (absval = extra + (8 - 1 + Z.shiftl 2 nbits)) as Ea by (unfold extra; lia). clearbody extra.
    destruct (Z.ltb_spec 0 nbits) as [Hp|Hz].
    + cbn [map app resolve eaccept]. rewrite Nat.eqb_refl. cbn [eaccept]. do 3 f_equal. rewrite Lo.
      rewrite (Z.lor_comm), lor_disjoint_add; [lia|lia|apply Z.mod_pos_bound; lia].
    + cbn [map app eaccept]. assert (nbits = 0) as Z0 by lia. do 3 f_equal. rewrite Z0 in *.
      change (2 ^ 0) with 1 in *. rewrite Z.mul_1_r, Z.div_1_r. lia.
Qed.
End Lock.

(** * Well-formed states *)

(** An array of [n] adaptive probabilities. *)
Definition probs_ok (n : Z) (ps : list prob) : Prop := Z.of_nat (length ps) = n /\ Forall prob_ok ps.

(** What an item looks like, whatever the tables: histogram below [lim], code below 18. *)
Definition cshape (lim : Z) (c : citem) : Prop :=
  match c with
  | CBit p _ => 0 <= p <= 255
  | CSym h s => 0 <= h < lim /\ 0 <= s <= 17
  | CBits n v => (n <= 16)%nat /\ 0 <= v < 2 ^ Z.of_nat n
  end.
Lemma cshape_mono lim lim' c : lim <= lim' -> cshape lim c -> cshape lim' c.
Proof. destruct c; cbn [cshape]; intros; lia. Qed.
Lemma cshapes_mono lim lim' l : lim <= lim' -> Forall (cshape lim) l -> Forall (cshape lim') l.
Proof. intros H F. eapply Forall_impl; [|exact F]. intros c. apply cshape_mono, H. Qed.

Lemma enc_bit_total lim n ps i b : probs_ok n ps -> 0 <= i < n ->
  exists its ps', enc_bit ps i b = Some (its, ps') /\ probs_ok n ps' /\ Forall (cshape lim) its.
Proof.
  intros [L F] Hi. unfold enc_bit. destruct (zget_range ps i ltac:(lia)) as (p & E & I). rewrite E. unfold obind at 1.
  rewrite zset_range by lia. unfold obind. eexists; eexists. split; [reflexivity|].
  rewrite Forall_forall in F. pose proof (F p I) as Hp. split.
  - split; [rewrite upd_length; exact L|]. apply upd_Forall; [rewrite Forall_forall; exact F|]. apply prob_add_total_ok, Hp.
  - constructor; [|constructor]. apply Hp.
Qed.
Lemma dec_bit_safe n ps i : probs_ok n ps -> 0 <= i < n -> esafe (fun r => probs_ok n (snd r)) (dec_bit ps i).
Proof.
  intros [L F] Hi. unfold dec_bit. destruct (zget_range ps i ltac:(lia)) as (p & E & I). rewrite E. cbn [eget esafe].
  rewrite Forall_forall in F. pose proof (F p I) as Hp. split; [apply Hp|]. intros b. rewrite zset_range by lia. cbn [eget esafe snd].
  split; [rewrite upd_length; exact L|]. apply upd_Forall; [rewrite Forall_forall; exact F|]. apply prob_add_total_ok, Hp.
Qed.

(** Every histogram number below [lim] has a complete table of 18 counts. *)
Definition tables_ok (cmap : list Z) (codes : list (list Z)) (lim : Z) : Prop :=
  forall h, 0 <= h < lim -> exists t, table_of cmap codes h = Some t /\ counts_ok t /\ length t = 18%nat.

Lemma log2_bound a n : 0 <= n -> 0 <= a < 2 ^ n -> 0 < n -> Z.log2 a <= n - 1.
Proof. intros H0 H H1. destruct (Z.eq_dec a 0) as [->|]; [cbn; lia|]. assert (Z.log2 a < n); [|lia]. apply Z.log2_lt_pow2; lia. Qed.

Lemma enc_abs_total lim n h absval ps idx : probs_ok n ps -> (forall j, 0 <= j <= 9 -> 0 <= idx j < n) ->
  0 <= h < lim -> 1 <= absval <= 2054 ->
  exists its ps', enc_abs h absval ps idx = Some (its, ps') /\ probs_ok n ps' /\ Forall (cshape lim) its.
Proof.
  intros P I Hh Ha. unfold enc_abs. destruct (Z.leb_spec absval 8) as [Hs|Hb].
  - eexists; eexists. split; [reflexivity|]. split; [exact P|]. constructor; [|constructor]. cbn [cshape]. lia.
  - pose proof (abs_arith absval _ Hb eq_refl) as [Hn Hr].
    assert (Z.log2 (absval - 8 + 1) <= 11 - 1) as L by (apply log2_bound; lia).
    set (nbits := Z.log2 (absval - 8 + 1) - 1) in *.
    destruct (enc_bit_total lim n ps (idx nbits) (negb (Z.land (Z.shiftr (absval - (8 - 1 + Z.shiftl 2 nbits)) nbits) 1 =? 0)) P)
      as (i1 & p1 & E & P1 & S1). { apply I. lia. }
    rewrite E. unfold obind. cbn [fst snd]. eexists; eexists. split; [reflexivity|]. split; [exact P1|].
    constructor; [cbn [cshape]; lia|]. apply Forall_app. split; [exact S1|].
    destruct (Z.ltb_spec 0 nbits); [|constructor]. constructor; [|constructor]. cbn [cshape]. split; [lia|].
    rewrite Z2Nat.id by lia. rewrite Z.shiftl_1_l, land_ones_mod by lia. apply Z.mod_pos_bound. apply Z.pow_pos_nonneg; lia.
Qed.

Lemma b2_01 b : 0 <= b2 b <= 1.
Proof. destruct b; cbn [b2]; lia. Qed.

Lemma dec_abs_safe cmap codes lim n h ps idx : tables_ok cmap codes lim -> probs_ok n ps -> (forall j, 0 <= j <= 9 -> 0 <= idx j < n) ->
  0 <= h < lim -> esafe (fun r => 1 <= fst r <= 2054 /\ probs_ok n (snd r)) (dec_abs cmap codes h ps idx).
Proof.
  intros T P I Hh. unfold dec_abs. destruct (T h Hh) as (t & E & C & L). rewrite E. cbn [eget esafe]. split; [exact C|].
  intros code Hc. destruct (Z.ltb_spec code 8) as [H8|H8]; [cbn [esafe fst snd]; split; [lia|exact P]|].
  eapply esafe_bind; [eapply dec_bit_safe; [exact P|apply I; lia]|].
  intros [b ps'] P'. cbn [snd] in P'. cbv beta iota.
  assert (2 ^ (code - 8) <= 2 ^ 9) as B by (apply Z.pow_le_mono_r; lia).
  assert (0 < 2 ^ (code - 8)) as B0 by (apply Z.pow_pos_nonneg; lia).
  assert (Z.shiftl 2 (code - 8) = 2 * 2 ^ (code - 8)) as S2 by (rewrite Z.shiftl_mul_pow2 by lia; lia).
  change (2 ^ 9) with 512 in B. pose proof (b2_01 b) as Hb.
  destruct (Z.ltb_spec 0 (code - 8)) as [Hp|Hp]; cbn [esafe fst snd].
  - split; [lia|]. intros v Hv. rewrite Z2Nat.id in Hv by lia. rewrite Z.lor_comm, (Z.shiftl_mul_pow2 (b2 b)) by lia.
    rewrite lor_disjoint_add by lia. split; [|exact P']. nia.
  - replace (code - 8) with 0 in * by lia. rewrite !Z.shiftl_mul_pow2 by lia. change (2 ^ 0) with 1. split; [lia|exact P'].
Qed.

(** * DC blocks *)

Definition dcst_ok (w : nat) (st : dcst) : Prop :=
  probs_ok 1 (dc_zero st) /\ probs_ok 3 (dc_empty st) /\ probs_ok 9 (dc_sign st) /\ probs_ok 10 (dc_extra st) /\
  (length (dc_ne st) = w + 1)%nat /\ Forall (fun v => 0 <= v <= 1) (dc_ne st) /\
  (length (dc_abs st) = w + 3)%nat /\ Forall (fun v => 0 <= v <= 2054) (dc_abs st) /\
  (length (dc_sgn st) = w + 1)%nat /\ Forall (fun v => 0 <= v <= 2) (dc_sgn st).

Lemma probs_ok_repeat p (n : nat) : prob_ok p -> probs_ok (Z.of_nat n) (repeat p n).
Proof. intros H. split; [rewrite repeat_length; reflexivity|]. apply Forall_forall. intros x Hx. apply repeat_spec in Hx. subst. exact H. Qed.
Lemma Forall_repeat {A} (P : A -> Prop) a n : P a -> Forall P (repeat a n).
Proof. intros H. apply Forall_forall. intros x Hx. apply repeat_spec in Hx. subst. exact H. Qed.

Lemma dc_init_ok w : dcst_ok w (dc_init w).
Proof.
  unfold dcst_ok, dc_init. cbn [dc_zero dc_empty dc_sign dc_extra dc_ne dc_abs dc_sgn].
  split; [apply (probs_ok_repeat (prob_init 135) 1), prob_init_ok; lia|].
  split; [apply (probs_ok_repeat (prob_init 74) 3), prob_init_ok; lia|].
  split; [apply (probs_ok_repeat (prob_init 128) 9), prob_init_ok; lia|].
  split; [apply (probs_ok_repeat (prob_init 150) 10), prob_init_ok; lia|].
  rewrite !repeat_length. split; [reflexivity|]. split; [apply Forall_repeat; lia|]. split; [reflexivity|].
  split; [apply Forall_repeat; lia|]. split; [reflexivity|apply Forall_repeat; lia].
Qed.

Ltac zg l i := let a := fresh "a" in let E := fresh "E" in let I := fresh "I" in
  destruct (zget_range l i) as (a & E & I); [lia|rewrite E; unfold obind at 1].

Lemma dc_ctxs w st x : dcst_ok w st -> 0 <= x < Z.of_nat w ->
  (exists c, dc_empty_ctx (dc_ne st) x = Some c /\ 0 <= c < 3) /\
  (exists c, dc_avg_ctx (dc_abs st) x = Some c /\ 0 <= c <= 8) /\
  (exists c, dc_sign_ctx (dc_sgn st) x = Some c /\ 0 <= c < 9).
Proof.
  intros (_ & _ & _ & _ & L1 & F1 & L2 & F2 & L3 & F3) Hx. rewrite Forall_forall in F1, F2, F3. split; [|split].
  - unfold dc_empty_ctx. zg (dc_ne st) (x + 1 - 1). zg (dc_ne st) (x + 1). eexists. split; [reflexivity|].
    pose proof (F1 _ I). pose proof (F1 _ I0). cbv beta in *. lia.
  - unfold dc_avg_ctx. zg (dc_abs st) (x + 2 - 2). zg (dc_abs st) (x + 2 - 1). zg (dc_abs st) (x + 2). zg (dc_abs st) (x + 2 + 1).
    eexists. split; [reflexivity|]. pose proof (F2 _ I). pose proof (F2 _ I0). pose proof (F2 _ I1). pose proof (F2 _ I2). cbv beta in *.
    set (s := 1 + a + a0 + a1 + a2) in *. assert (1 <= s) by lia. clearbody s.
    rewrite Z.shiftr_div_pow2 by lia. destruct (Z.eqb_spec (s / 2 ^ 8) 0) as [E4|]; cbn [negb]; [|lia].
    assert (s < 2 ^ 8). { apply Z.div_small_iff in E4; lia. }
    pose proof (log2_bound s 8 ltac:(lia) ltac:(lia) ltac:(lia)). pose proof (Z.log2_nonneg s). lia.
  - unfold dc_sign_ctx. zg (dc_sgn st) (x + 1). zg (dc_sgn st) (x + 1 - 1). eexists. split; [reflexivity|].
    pose proof (F3 _ I). pose proof (F3 _ I0). cbv beta in *. lia.
Qed.

Lemma enc_dc_block_total w band st x err ac : dcst_ok w st -> 0 <= x < Z.of_nat w -> 0 <= band -> Z.abs err <= 2054 ->
  exists its st', enc_dc_block band st x err ac = Some (its, (err =? 0) && negb ac, st') /\ dcst_ok w st' /\
    Forall (cshape ((band + 1) * 9)) its.
Proof.
  intros W Hx Hb He. pose proof (dc_ctxs w st x W Hx) as ((c1 & E1 & B1) & (c2 & E2 & B2) & (c3 & E3 & B3)).
  destruct W as (P1 & P2 & P3 & P4 & L1 & F1 & L2 & F2 & L3 & F3).
  unfold enc_dc_block. set (sign := if 0 <? err then 1 else if err <? 0 then 2 else 0).
  set (absval := if sign =? 2 then - err else err).
  assert (absval = Z.abs err /\ 0 <= sign <= 2) as [A1 A2].
  { unfold absval, sign. destruct (Z.ltb_spec 0 err); [change (1 =? 2) with false; cbv iota; lia|]. destruct (Z.ltb_spec err 0); [change (2 =? 2) with true; cbv iota; lia|change (0 =? 2) with false; cbv iota; lia]. }
  clearbody sign absval. set (lim := (band + 1) * 9).
  rewrite E1. unfold obind at 1.
  destruct (enc_bit_total lim 3 (dc_empty st) c1 (negb ((err =? 0) && negb ac)) P2 ltac:(lia)) as (i1 & p1 & T1 & Q1 & S1).
  rewrite T1. unfold obind at 1. rewrite zset_range by lia. unfold obind at 1.
  assert (exists items z' s' e', (if (err =? 0) && negb ac then Some ([], dc_zero st, dc_sign st, dc_extra st) else
    let? r2 := enc_bit (dc_zero st) 0 (err =? 0) in
    if err =? 0 then Some (fst r2, snd r2, dc_sign st, dc_extra st) else
    let? avg := dc_avg_ctx (dc_abs st) x in
    let? sctx := dc_sign_ctx (dc_sgn st) x in
    let? r3 := enc_bit (dc_sign st) sctx (negb (sign - 1 =? 0)) in
    let? r4 := enc_abs (band * 9 + avg) absval (dc_extra st) (fun n => n) in
    Some (fst r2 ++ fst r3 ++ fst r4, snd r2, snd r3, snd r4)) = Some (items, z', s', e') /\
    probs_ok 1 z' /\ probs_ok 9 s' /\ probs_ok 10 e' /\ Forall (cshape lim) items) as (items & z' & s' & e' & T2 & Q2 & Q3 & Q4 & S2).
  { destruct ((err =? 0) && negb ac) eqn:Em.
    - eexists; eexists; eexists; eexists. split; [reflexivity|]. auto.
    - destruct (enc_bit_total lim 1 (dc_zero st) 0 (err =? 0) P1 ltac:(lia)) as (i2 & p2 & T2 & Q2 & S2).
      rewrite T2. unfold obind at 1. cbn [fst snd]. destruct (Z.eqb_spec err 0) as [Z0|Z0].
      + eexists; eexists; eexists; eexists. split; [reflexivity|]. auto.
      + rewrite E2. unfold obind at 1. rewrite E3. unfold obind at 1.
        destruct (enc_bit_total lim 9 (dc_sign st) c3 (negb (sign - 1 =? 0)) P3 ltac:(lia)) as (i3 & p3 & T3 & Q3 & S3).
        rewrite T3. unfold obind at 1.
        destruct (enc_abs_total lim 10 (band * 9 + c2) absval (dc_extra st) (fun n => n) P4) as (i4 & p4 & T4 & Q4 & S4);
          [intros; lia|unfold lim; lia|lia|].
        rewrite T4. unfold obind at 1. cbn [fst snd]. eexists; eexists; eexists; eexists. split; [reflexivity|].
        split; [exact Q2|]. split; [exact Q3|]. split; [exact Q4|]. apply Forall_app. split; [exact S2|]. apply Forall_app. auto. }
  rewrite T2. unfold obind at 1. rewrite !zset_range by lia. unfold obind. cbn [fst snd].
  eexists; eexists. split; [reflexivity|]. split.
  - unfold dcst_ok. cbn [dc_zero dc_empty dc_sign dc_extra dc_ne dc_abs dc_sgn].
    split; [exact Q2|]. split; [exact Q1|]. split; [exact Q3|]. split; [exact Q4|]. rewrite !upd_length.
    split; [exact L1|]. split; [apply upd_Forall; [exact F1|]; pose proof (b2_01 (negb ((err =? 0) && negb ac))); lia|].
    split; [exact L2|]. split; [apply upd_Forall; [exact F2|]; lia|].
    split; [exact L3|]. apply upd_Forall; [exact F3|]. lia.
  - apply Forall_app. auto.
Qed.

Lemma dec_dc_block_safe cmap codes w band st x lim : dcst_ok w st -> 0 <= x < Z.of_nat w -> 0 <= band -> (band + 1) * 9 <= lim ->
  tables_ok cmap codes lim ->
  esafe (fun '(e, sign, absval, st') => 0 <= sign <= 1 /\ 0 <= absval <= 2054 /\ (e = true -> absval = 0) /\ dcst_ok w st') (dec_dc_block cmap codes band st x).
Proof.
  intros W Hx Hb Hl T. pose proof (dc_ctxs w st x W Hx) as ((c1 & E1 & B1) & (c2 & E2 & B2) & (c3 & E3 & B3)).
  destruct W as (P1 & P2 & P3 & P4 & L1 & F1 & L2 & F2 & L3 & F3).
  unfold dec_dc_block. rewrite E1. cbn [eget].
  eapply esafe_bind; [apply (dec_bit_safe 3); [exact P2|lia]|]. intros [ne p1] Q1. cbn [snd] in Q1. cbv beta iota.
  rewrite zset_range by lia. cbn [eget].
  eapply (esafe_bind (fun '(sign, absval, z', s', e') => 0 <= sign <= 1 /\ 0 <= absval <= 2054 /\ (ne = false -> absval = 0) /\
     probs_ok 1 z' /\ probs_ok 9 s' /\ probs_ok 10 e')).
  - destruct ne; cbn [negb].
    + eapply esafe_bind; [apply (dec_bit_safe 1); [exact P1|lia]|]. intros [z p2] Q2. cbn [snd] in Q2. cbv beta iota.
      destruct z; [cbn [esafe]; split; [lia|]; split; [lia|]; auto|].
      rewrite E2. cbn [eget]. rewrite E3. cbn [eget].
      eapply esafe_bind; [apply (dec_bit_safe 9); [exact P3|lia]|]. intros [sb p3] Q3. cbn [snd] in Q3. cbv beta iota.
      eapply esafe_bind; [apply (dec_abs_safe _ _ lim 10); [exact T|exact P4|intros; lia|lia]|].
      intros [a p4] [Ha Q4]. cbn [fst snd] in *. cbn [esafe]. pose proof (b2_01 sb). split; [lia|]. split; [lia|].
      split; [discriminate|]. auto.
    + cbn [esafe]. split; [lia|]. split; [lia|]. auto.
  - intros [[[[sign absval] z'] s'] e'] (A1 & A2 & A3 & Q2 & Q3 & Q4). cbv beta iota.
    rewrite !zset_range by lia. cbn [eget]. cbn [esafe]. split; [exact A1|]. split; [exact A2|].
    split; [destruct ne; [discriminate|]; intros _; apply A3; reflexivity|].
    unfold dcst_ok. cbn [dc_zero dc_empty dc_sign dc_extra dc_ne dc_abs dc_sgn].
    split; [exact Q2|]. split; [exact Q1|]. split; [exact Q3|]. split; [exact Q4|]. rewrite !upd_length.
    split; [exact L1|]. split; [apply upd_Forall; [exact F1|]; pose proof (b2_01 ne); lia|].
    split; [exact L2|]. split; [apply upd_Forall; [exact F2|]; lia|].
    split; [exact L3|]. apply upd_Forall; [exact F3|]. destruct (absval =? 0); lia.
Qed.

Lemma enc_dc_block_lock cmap codes band st x err ac its e st' :
  enc_dc_block band st x err ac = Some (its, e, st') -> Forall (has_table cmap codes) its ->
  exists sg ab, elock cmap codes (dec_dc_block cmap codes band st x) its (e, sg, ab, st') /\ (1 - 2 * sg) * ab = err.
Proof.
  unfold enc_dc_block, dec_dc_block. set (sign := if 0 <? err then 1 else if err <? 0 then 2 else 0).
  set (absval := if sign =? 2 then - err else err).
  assert ((err = 0 /\ sign = 0 /\ absval = 0) \/ (0 < err /\ sign = 1 /\ absval = err) \/ (err < 0 /\ sign = 2 /\ absval = - err)) as A.
  { unfold absval, sign. destruct (Z.ltb_spec 0 err); [right; left; auto|]. destruct (Z.ltb_spec err 0); [right; right; auto|].
    left. change (0 =? 2) with false. cbv iota. lia. }
  clearbody sign absval. intros H T.
  apply obind_some in H. destruct H as (c1 & E1 & H). apply obind_some in H. destruct H as ([i1 p1] & E2 & H).
  apply obind_some in H. destruct H as (ne & E3 & H). apply obind_some in H. destruct H as ([[[items z'] s'] x'] & E4 & H).
  cbv beta iota in H. apply obind_some in H. destruct H as (sg' & E5 & H). apply obind_some in H. destruct H as (ab' & E6 & H).
  cbn [fst snd] in H. injection H as <- <- <-. rewrite E1. cbn [eget].
  apply Forall_app in T. destruct T as [T1 T2].
  pose proof (enc_bit_lock cmap codes _ _ _ _ _ E2) as K1.
  exists (if absval =? 0 then 0 else sign - 1), absval. split.
  2:{ destruct A as [(-> & -> & ->)|[(A1 & -> & ->)|(A1 & -> & ->)]]; [reflexivity| |].
      - destruct (Z.eqb_spec err 0); lia.
      - destruct (Z.eqb_spec (- err) 0); lia. }
  rewrite <- (app_nil_r items). eapply elock_bind; [exact K1|]. cbv beta iota. rewrite E3. cbn [eget].
  eapply elock_bind with (a := (if absval =? 0 then 0 else sign - 1, absval, z', s', x')).
  - rewrite negb_involutive. destruct ((err =? 0) && negb ac) eqn:Em.
    + apply andb_prop in Em. destruct Em as [Em _]. apply Z.eqb_eq in Em. injection E4 as <- <- <- <-.
      assert (absval = 0) as -> by lia. apply elock_ret.
    + apply obind_some in E4. destruct E4 as ([i2 p2] & G2 & E4). cbn [fst snd] in E4.
      pose proof (enc_bit_lock cmap codes _ _ _ _ _ G2) as K2. destruct (Z.eqb_spec err 0) as [Z0|Z0].
      * injection E4 as <- <- <- <-. eapply elock_bind_ret; [exact K2|]. cbv beta iota. assert (absval = 0) as -> by lia. reflexivity.
      * apply obind_some in E4. destruct E4 as (avg & G3 & E4). apply obind_some in E4. destruct E4 as (sctx & G4 & E4).
        apply obind_some in E4. destruct E4 as ([i3 p3] & G5 & E4). apply obind_some in E4. destruct E4 as ([i4 p4] & G6 & E4).
        cbn [fst snd] in E4. injection E4 as <- <- <- <-.
        apply Forall_app in T2. destruct T2 as [_ T2]. apply Forall_app in T2. destruct T2 as [_ T2].
        eapply elock_bind; [exact K2|]. cbv beta iota. rewrite G3. cbn [eget]. rewrite G4. cbn [eget].
        eapply elock_bind; [apply enc_bit_lock; exact G5|]. cbv beta iota.
        eapply elock_bind_ret; [apply enc_abs_lock with (absval := absval); [lia|exact G6|exact T2]|]. cbv beta iota.
        destruct (Z.eqb_spec absval 0); [lia|]. do 5 f_equal.
        destruct A as [(A1 & _)|[(A1 & -> & _)|(A1 & -> & _)]]; [lia|reflexivity|reflexivity].
  - cbv beta iota. rewrite E6. cbn [eget].
    assert ((if absval =? 0 then 0 else (if absval =? 0 then 0 else sign - 1) + 1) = sign) as ->.
    { destruct A as [(-> & -> & ->)|[(A1 & -> & ->)|(A1 & -> & ->)]]; [reflexivity| |].
      - destruct (Z.eqb_spec err 0); lia.
      - destruct (Z.eqb_spec (- err) 0); lia. }
    rewrite E5. cbn [eget]. rewrite negb_involutive. apply elock_ret.
Qed.
