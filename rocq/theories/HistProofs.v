(** Proofs about histogram normalisation, storage and reading. *)
From Verif Require Import Base BitModel BitProofs CodesModel CodesProofs ProgLogic HistModel.

(** * The static codes *)

Ltac bit_split v Hv :=
  intros v Hv; let E := fresh in assert (E : v = 0 \/ v = 1) by (rewrite pow1 in Hv; lia);
  clear Hv; destruct E; subst v.

(** Executable form of the outcome and length check of a tree walk. *)
Fixpoint short_ok (fuel : nat) (tree : list Z) (pos delta lo hi : Z) : bool :=
  match fuel with
  | O => false
  | S f =>
      forallb (fun b =>
        match nth_error tree (Z.to_nat (pos + delta + b)) with
        | None => false
        | Some d => if 0 <? d then short_ok f tree (pos + delta + b) d lo hi else (lo <=? - d) && (- d <=? hi)
        end) [0; 1]
  end.

Lemma short_ok_pub fuel tree lo hi : forall pos delta, short_ok fuel tree pos delta lo hi = true ->
  pub fuel (fun v => lo <= v <= hi) (read_short fuel tree pos delta).
Proof.
  induction fuel as [|f IH]; intros pos delta H; [discriminate|].
  cbn [short_ok forallb] in H. rewrite !andb_true_iff in H. destruct H as (H0 & H1 & _).
  cbn [read_short]. change (S f) with (1 + f)%nat. apply pub_Read; [lia|].
  bit_split v Hv; cbv beta zeta.
  - destruct (nth_error tree (Z.to_nat (pos + delta + 0))) as [d|]; [|exact I].
    destruct (0 <? d); [apply IH; exact H0|]. cbn [pub]. lia.
  - destruct (nth_error tree (Z.to_nat (pos + delta + 1))) as [d|]; [|exact I].
    destruct (0 <? d); [apply IH; exact H1|]. cbn [pub]. lia.
Qed.

Lemma read_length_pub : pub 8 (fun v => 3 <= v <= 18) read_length.
Proof. apply short_ok_pub. vm_compute. reflexivity. Qed.

Lemma read_logcount_pub : pub 6 (fun v => 0 <= v <= 10) read_logcount.
Proof. apply short_ok_pub. vm_compute. reflexivity. Qed.

(** The walks also never leave the trees: no [None] from [nth_error] (part of
    [short_ok]). *)
Lemma static_trees_in_bounds :
  short_ok 8 kLengthTree 0 1 3 18 = true /\ short_ok 6 kLogCountTree 0 1 0 10 = true.
Proof. split; vm_compute; reflexivity. Qed.

Lemma len_field_dec len : (3 <= len <= 18)%nat -> exists n v, len_field len = Some (n, v) /\
  fields_ok [(n, v)] /\ dec 0 read_length (bits_of n v) (Z.of_nat len).
Proof.
  intros H. do 3 (destruct len as [|len]; [lia|]).
  do 16 (destruct len as [|len];
    [eexists _, _; split; [vm_compute; reflexivity|]; split; [fok|]; intros s r _; reflexivity|]).
  lia.
Qed.

Lemma log_field_dec l : 0 <= l <= 10 -> exists n v, log_field l = Some (n, v) /\
  fields_ok [(n, v)] /\ dec 0 read_logcount (bits_of n v) l.
Proof.
  intros H.
  assert (E : l = 0 \/ l = 1 \/ l = 2 \/ l = 3 \/ l = 4 \/ l = 5 \/ l = 6 \/ l = 7 \/ l = 8 \/ l = 9 \/ l = 10) by lia.
  repeat (destruct E as [->|E]); try subst l;
    (eexists _, _; split; [vm_compute; reflexivity|]; split; [fok|]; intros s r _; reflexivity).
Qed.

Lemma log_fields_dec ls : Forall (fun l => 0 <= l <= 10) ls -> exists fs, log_fields ls = Some fs /\
  fields_ok fs /\ dec 0 (read_logs (length ls)) (fields_bits fs) ls.
Proof.
  induction 1 as [|l ls Hl Hls IH]; cbn [log_fields read_logs length].
  - exists []. split; [reflexivity|]. split; [apply fields_ok_nil|]. apply dec_ret.
  - destruct IH as (fs & E & F & D). destruct (log_field_dec l Hl) as (n & v & E1 & F1 & D1).
    exists ((n, v) :: fs). rewrite E1, E. split; [reflexivity|].
    split; [apply fields_ok_cons; split; [|exact F]; apply fields_ok_cons in F1; apply F1|].
    cbn [fields_bits]. eapply dec_bind; [exact D1| |lia].
    rewrite <- (app_nil_r (fields_bits fs)). eapply dec_bind; [exact D|apply dec_ret|lia].
Qed.

(** * Representable counts *)

Definition rep (c : Z) : Prop := 1 <= c <= 1023 /\ c mod smallest_increment c = 0.
Definition repb (c : Z) : bool := (1 <=? c) && (c <=? 1023) && (c mod smallest_increment c =? 0).
Lemma repb_rep c : repb c = true <-> rep c.
Proof. unfold repb, rep. rewrite !andb_true_iff, !Z.leb_le, Z.eqb_eq. tauto. Qed.

Definition zrange (n : nat) : list Z := map Z.of_nat (seq 0 n).
Lemma zrange_In n x : 0 <= x < Z.of_nat n -> In x (zrange n).
Proof. intros H. apply in_map_iff. exists (Z.to_nat x). split; [lia|]. apply in_seq. lia. Qed.

Definition rebalance_check : bool :=
  forallb (fun r => repb (rebalance_one r true) && repb (rebalance_one r false)) (zrange 1025).
Lemma rebalance_check_ok : rebalance_check = true. Proof. vm_compute. reflexivity. Qed.

Lemma rebalance_one_rep r up : 0 <= r <= 1024 -> rep (rebalance_one r up).
Proof.
  intros H. pose proof rebalance_check_ok as C. unfold rebalance_check in C. rewrite forallb_forall in C.
  specialize (C r (zrange_In 1025 r ltac:(lia))). apply andb_true_iff in C as [C1 C2].
  destruct up; apply repb_rep; assumption.
Qed.

(** How a representable count is stored. *)
Definition mant (c : Z) : nat * Z :=
  let l := log_count c in
  let bc := pop_precision (l - 1) in (Z.to_nat bc, Z.shiftr c (l - 1 - bc) - Z.shiftl 1 bc).
Definition mant_check : bool :=
  forallb (fun c => negb (repb c) || (log_count c <=? 1) ||
    let l := log_count c in
    let bc := pop_precision (l - 1) in
    let drop := l - 1 - bc in
    (Z.land c (Z.shiftl 1 drop - 1) =? 0) && (0 <=? snd (mant c)) && (snd (mant c) <? 2 ^ Z.of_nat (fst (mant c)))
    && (Z.shiftl 1 (l - 1) + Z.shiftl (snd (mant c)) (l - 1 - bc) =? c) && (fst (mant c) <=? 5)%nat
    && (1 <=? fst (mant c))%nat) (zrange 1024).
Lemma mant_check_ok : mant_check = true. Proof. vm_compute. reflexivity. Qed.

Lemma mant_spec c : rep c -> 1 < log_count c ->
  let l := log_count c in
  let bc := pop_precision (l - 1) in
  let drop := l - 1 - bc in
  Z.land c (Z.shiftl 1 drop - 1) = 0 /\ 0 <= snd (mant c) < 2 ^ Z.of_nat (fst (mant c)) /\
  Z.shiftl 1 (l - 1) + Z.shiftl (snd (mant c)) (l - 1 - bc) = c /\ (1 <= fst (mant c) <= 5)%nat.
Proof.
  intros R L. cbv zeta. pose proof mant_check_ok as C. unfold mant_check in C. rewrite forallb_forall in C.
  assert (Hc : 0 <= c < 1024) by (destruct R; lia).
  specialize (C c (zrange_In 1024 c ltac:(lia))). apply repb_rep in R. cbv beta zeta in C.
  rewrite R in C. cbn [negb orb] in C. rewrite orb_true_iff in C. destruct C as [C|C]; [lia|].
  rewrite !andb_true_iff in C. destruct C as (((((C1 & C2) & C3) & C4) & C5) & C6).
  repeat split; lia.
Qed.

Lemma log_count_bounds c : 1 <= c <= 1023 -> 1 <= log_count c <= 10.
Proof.
  intros H. unfold log_count. destruct (Z.ltb_spec 0 c); [|lia].
  assert (0 <= Z.log2 c) by apply Z.log2_nonneg.
  assert (Z.log2 c <= Z.log2 1023) by (apply Z.log2_le_mono; lia).
  change (Z.log2 1023) with 9 in *. lia.
Qed.

(** * Reading what was written *)

Fixpoint zero_at (i omit : nat) (l : list Z) : list Z :=
  match l with
  | [] => []
  | c :: r => (if Nat.eqb i omit then 0 else c) :: zero_at (S i) omit r
  end.

Lemma zero_at_length omit l : forall i, length (zero_at i omit l) = length l.
Proof. induction l; intros i; cbn; auto. Qed.

(** Logs match counts except at [omit]. *)
Fixpoint logs_of (i omit : nat) (counts logs : list Z) : Prop :=
  match counts, logs with
  | [], [] => True
  | c :: cr, l :: lr => (i = omit \/ (l = log_count c /\ (c = 0 \/ rep c))) /\ logs_of (S i) omit cr lr
  | _, _ => False
  end.

Lemma mantissas_dec omit counts : forall logs i, logs_of i omit counts logs ->
  exists ms, enc_mantissas i omit counts logs = Some ms /\ fields_ok ms /\
    dec 0 (read_counts i omit logs) (fields_bits ms) (zero_at i omit counts).
Proof.
  induction counts as [|c cr IH]; intros [|l lr] i H; cbn [logs_of] in H; try contradiction.
  - exists []. split; [reflexivity|]. split; [apply fields_ok_nil|apply dec_ret].
  - destruct H as [H Hr]. destruct (IH lr (S i) Hr) as (ms & E & F & D).
    cbn [enc_mantissas read_counts zero_at]. rewrite E. cbn [obind].
    assert (Dr : forall v, dec 0 (bind (read_counts (S i) omit lr) (fun l0 => Ret (v :: l0))) (fields_bits ms)
                             (v :: zero_at (S i) omit cr)).
    { intros v. rewrite <- (app_nil_r (fields_bits ms)). eapply dec_bind; [exact D|apply dec_ret|lia]. }
    destruct (Nat.eqb_spec i omit) as [Eo|No].
    + rewrite andb_false_r. exists ms. split; [reflexivity|]. split; [exact F|]. apply Dr.
    + destruct H as [H|[-> Hc]]; [contradiction|]. rewrite andb_true_r.
      destruct Hc as [->|Rc].
      * change (log_count 0) with 0. cbn [Z.ltb Z.compare Z.eqb]. exists ms. split; [reflexivity|]. split; [exact F|]. apply Dr.
      * pose proof (log_count_bounds c (proj1 Rc)) as Lb.
        destruct (Z.eqb_spec (log_count c) 0); [lia|].
        destruct (Z.eqb_spec (log_count c) 1) as [E1|N1].
        -- rewrite E1. cbn [Z.ltb Z.compare Pos.compare Pos.compare_cont].
           exists ms. split; [reflexivity|]. split; [exact F|].
           assert (c = 1).
           { unfold log_count in E1. destruct (Z.ltb_spec 0 c); [|lia].
             assert (Z.log2 c = 0) by lia. destruct (Z.eq_dec c 1); [assumption|].
             assert (Z.log2 2 <= Z.log2 c) by (apply Z.log2_le_mono; destruct Rc; lia).
             change (Z.log2 2) with 1 in *. lia. }
           subst c. apply Dr.
        -- destruct (Z.ltb_spec 1 (log_count c)); [|lia].
           destruct (mant_spec c Rc) as (M1 & M2 & M3 & M4); [lia|]. cbv zeta in M1, M3.
           rewrite M1. cbn [Z.eqb].
           exists (mant c :: ms). split; [reflexivity|].
           destruct (mant c) as [mb mv] eqn:Em. cbn [fst snd] in *.
           split; [apply fields_ok_cons; split; [split; [lia|exact M2]|exact F]|].
           cbn [fields_bits].
           assert (Eb : mb = Z.to_nat (pop_precision (log_count c - 1))).
           { unfold mant in Em. congruence. }
           rewrite <- Eb. apply dec_Read; [exact M2|]. rewrite M3. apply Dr.
Qed.

(** * Position of the omitted count *)

Lemma first_max_from_spec l : forall i pos best,
  ((forall j, (j < length l)%nat -> nth j l 0 <= best) -> first_max_from i pos best l = pos) /\
  (forall o, (o < length l)%nat -> best < nth o l 0 ->
     (forall j, (j < o)%nat -> nth j l 0 < nth o l 0) ->
     (forall j, (o < j < length l)%nat -> nth j l 0 <= nth o l 0) -> first_max_from i pos best l = (i + o)%nat).
Proof.
  induction l as [|v l IH]; intros i pos best; split; cbn [length first_max_from].
  - reflexivity.
  - intros o Ho; lia.
  - intros H. pose proof (H 0%nat ltac:(lia)) as H0. cbn [nth] in H0. destruct (Z.ltb_spec best v); [lia|].
    apply IH. intros j Hj. apply (H (S j)). lia.
  - intros o Ho Hb Hlt Hle. destruct o as [|o].
    + cbn [nth] in *. destruct (Z.ltb_spec best v); [|lia]. rewrite Nat.add_0_r.
      apply IH. intros j Hj. apply (Hle (S j)). lia.
    + cbn [nth] in *. replace (i + S o)%nat with (S i + o)%nat by lia.
      pose proof (Hlt 0%nat ltac:(lia)) as H0. cbn [nth] in H0.
      destruct (Z.ltb_spec best v); apply IH; try lia;
        try (intros j Hj; apply (Hlt (S j)); lia); intros j Hj; apply (Hle (S j)); lia.
Qed.

Lemma first_max_spec l o : (o < length l)%nat ->
  (forall j, (j < o)%nat -> nth j l 0 < nth o l 0) ->
  (forall j, (o < j < length l)%nat -> nth j l 0 <= nth o l 0) -> first_max l = o.
Proof.
  intros Ho Hlt Hle. destruct l as [|v l]; [cbn in Ho; lia|]. unfold first_max. destruct o as [|o].
  - apply first_max_from_spec. intros j Hj. apply (Hle (S j)). cbn [length]. lia.
  - change (S o) with (1 + o)%nat. cbn [length] in *.
    apply first_max_from_spec; try lia.
    + apply (Hlt 0%nat). lia.
    + intros j Hj. apply (Hlt (S j)). lia.
    + intros j Hj. apply (Hle (S j)). lia.
Qed.

Lemma first_max_lt l : l <> [] -> (first_max l < length l)%nat.
Proof.
  destruct l as [|v l]; [congruence|]. intros _. unfold first_max. cbn [length].
  enough (G : forall i pos best, (pos < i)%nat -> (first_max_from i pos best l < i + length l)%nat) by (apply (G 1%nat); lia).
  induction l as [|w l IH]; intros i pos best Hp; cbn [first_max_from length]; [lia|].
  destruct (best <? w); eapply Nat.lt_le_trans; try (apply IH; lia); lia.
Qed.

(** * Length and omit_log *)

Definition pos_at (counts : list Z) (j : nat) : Prop := 0 < nth j counts 0.
Definition bound_at (i omit j : nat) (c : Z) : Z := if (i + j <? omit)%nat then log_count c + 1 else log_count c.

Lemma enc_scan_spec omit counts : forall i len0 ol0 len ol, (len0 <= i)%nat ->
  enc_scan i omit counts len0 ol0 = (len, ol) ->
  (len0 <= len <= i + length counts)%nat /\
  (forall j, (j < length counts)%nat -> (len <= i + j)%nat -> nth j counts 0 <= 0 /\ (i + j)%nat <> omit) /\
  ol0 <= ol /\
  (forall j, (j < length counts)%nat -> (i + j)%nat <> omit -> pos_at counts j -> bound_at i omit j (nth j counts 0) <= ol) /\
  (forall M, ol0 <= M ->
     (forall j, (j < length counts)%nat -> (i + j)%nat <> omit -> pos_at counts j -> bound_at i omit j (nth j counts 0) <= M) ->
     ol <= M).
Proof.
  induction counts as [|c r IH]; intros i len0 ol0 len ol Hl E; cbn [enc_scan length] in *.
  - injection E as <- <-. repeat split; try lia; intros; lia.
  - assert (Step : forall len1 ol1, (len1 <= S i)%nat -> (len0 <= len1)%nat -> ol0 <= ol1 ->
       enc_scan (S i) omit r len1 ol1 = (len, ol) ->
       ((len1 <= i)%nat -> c <= 0 /\ i <> omit) ->
       (i <> omit -> 0 < c -> bound_at i omit 0 c <= ol1) ->
       (forall M, ol0 <= M -> (i <> omit -> 0 < c -> bound_at i omit 0 c <= M) -> ol1 <= M) ->
       (len0 <= len <= i + S (length r))%nat /\
       (forall j, (j < S (length r))%nat -> (len <= i + j)%nat -> nth j (c :: r) 0 <= 0 /\ (i + j)%nat <> omit) /\
       ol0 <= ol /\
       (forall j, (j < S (length r))%nat -> (i + j)%nat <> omit -> pos_at (c :: r) j -> bound_at i omit j (nth j (c :: r) 0) <= ol) /\
       (forall M, ol0 <= M ->
          (forall j, (j < S (length r))%nat -> (i + j)%nat <> omit -> pos_at (c :: r) j -> bound_at i omit j (nth j (c :: r) 0) <= M) ->
          ol <= M)).
    { intros len1 ol1 H1 H2 H3 H4 H5 H6 H7.
      destruct (IH (S i) len1 ol1 len ol H1 H4) as (A1 & A2 & A3 & A4 & A5).
      split; [lia|]. split; [|split; [lia|split]].
      - intros [|j] Hj Hle; cbn [nth].
        + rewrite Nat.add_0_r. apply H5. lia.
        + replace (i + S j)%nat with (S i + j)%nat by lia. apply A2; lia.
      - intros [|j] Hj Hne Hp; unfold pos_at in Hp; cbn [nth] in *.
        + rewrite Nat.add_0_r in *. specialize (H6 Hne Hp). lia.
        + specialize (A4 j ltac:(lia) ltac:(lia) Hp). unfold bound_at in *.
          replace (i + S j)%nat with (S i + j)%nat by lia. exact A4.
      - intros M HM Hall. apply A5.
        + apply H7; [exact HM|]. intros Hne Hp. specialize (Hall 0%nat ltac:(lia)). rewrite Nat.add_0_r in Hall. apply Hall; assumption.
        + intros j Hj Hne Hp. specialize (Hall (S j) ltac:(lia)). unfold bound_at, pos_at in *. cbn [nth] in Hall.
          replace (i + S j)%nat with (S i + j)%nat in Hall by lia. apply Hall; assumption. }
    destruct (Nat.eqb_spec i omit) as [Eo|No].
    + apply (Step (S i) ol0); try lia; auto.
    + destruct (Z.ltb_spec 0 c).
      * unfold bound_at in Step. rewrite Nat.add_0_r in Step.
        apply (Step (S i) (Z.max ol0 (if (i <? omit)%nat then log_count c + 1 else log_count c))); try lia; auto.
      * apply (Step len0 ol0); try lia; auto.
Qed.

Lemma used_from_In counts : forall i s, In s (used_from i counts) <->
  (i <= s < i + length counts)%nat /\ pos_at counts (s - i).
Proof.
  unfold pos_at. induction counts as [|c r IH]; intros i s; cbn [used_from length].
  - split; [intros []|lia].
  - assert (G : In s (used_from (S i) r) <-> (S i <= s < S i + length r)%nat /\ 0 < nth (s - i) (c :: r) 0).
    { rewrite IH. split; intros [H1 H2]; (split; [exact H1|]); replace (s - i)%nat with (S (s - S i)) in * by lia; exact H2. }
    destruct (Z.ltb_spec 0 c); cbn [In]; rewrite G; split.
    + intros [->|[H1 H2]]; [|split; [lia|exact H2]]. rewrite Nat.sub_diag. cbn. lia.
    + intros [H1 H2]. destruct (Nat.eq_dec i s); [left; assumption|right; split; [lia|exact H2]].
    + intros [H1 H2]; split; [lia|exact H2].
    + intros [H1 H2]. destruct (Nat.eq_dec i s); [subst; rewrite Nat.sub_diag in H2; cbn in H2; lia|].
      split; [lia|exact H2].
Qed.

Lemma used_In counts s : In s (used counts) <-> (s < length counts)%nat /\ pos_at counts s.
Proof. unfold used. rewrite used_from_In, Nat.sub_0_r. split; intros [H1 H2]; (split; [lia|exact H2]). Qed.

Lemma used_NoDup counts : NoDup (used counts).
Proof.
  unfold used. generalize 0%nat as i. induction counts as [|c r IH]; intros i; cbn [used_from]; [constructor|].
  destruct (0 <? c); [|apply IH]. constructor; [|apply IH]. rewrite used_from_In. lia.
Qed.

Lemma used_ext l1 : forall l2 i, length l1 = length l2 -> (forall j, pos_at l1 j <-> pos_at l2 j) ->
  used_from i l1 = used_from i l2.
Proof.
  unfold pos_at. induction l1 as [|a l1 IH]; intros [|b l2] i Hl H; cbn [length] in Hl; try lia; [reflexivity|].
  cbn [used_from]. rewrite (IH l2 (S i)); [|lia|intros j; apply (H (S j))].
  pose proof (H 0%nat) as H0. cbn [nth] in H0. destruct (Z.ltb_spec 0 a), (Z.ltb_spec 0 b); try reflexivity; lia.
Qed.

(** * Storable histograms *)

(** What EncodeCounts is given when three or more symbols are used. *)
Record storable (counts : list Z) (omit : nat) : Prop := {
  sto_len : length counts = kAnsSymbols;
  sto_nonneg : Forall (fun c => 0 <= c) counts;
  sto_sum : sumZ counts = kAnsTab;
  sto_omit : (omit < kAnsSymbols)%nat;
  sto_pos : 0 < nth omit counts 0;
  sto_rep : forall j, (j < kAnsSymbols)%nat -> j <> omit -> nth j counts 0 = 0 \/ rep (nth j counts 0);
  sto_before : forall j, (j < omit)%nat -> log_count (nth j counts 0) <= 9
}.

Lemma sumZ_upd l i v : (i < length l)%nat -> sumZ (upd l i v) = sumZ l - nth i l 0 + v.
Proof.
  revert i. induction l as [|x l IH]; intros [|i] H; cbn [length] in H; try lia; cbn [upd sumZ fold_right nth].
  - fold (sumZ l). lia.
  - fold (sumZ l). fold (sumZ (upd l i v)). rewrite IH by lia. lia.
Qed.

Lemma zero_at_upd omit l : forall i, (i <= omit)%nat -> zero_at i omit l = upd l (omit - i) 0.
Proof.
  induction l as [|c l IH]; intros i Hi; cbn [zero_at]; [destruct (omit - i)%nat; reflexivity|].
  destruct (Nat.eqb_spec i omit) as [->|N].
  - rewrite Nat.sub_diag. cbn [upd]. f_equal. clear IH Hi.
    assert (G : forall i, (omit < i)%nat -> zero_at i omit l = l).
    { induction l as [|d l IH]; intros i Hi; cbn [zero_at]; [reflexivity|].
      destruct (Nat.eqb_spec i omit); [lia|]. rewrite IH by lia. reflexivity. }
    apply G. lia.
  - rewrite IH by lia. replace (omit - i)%nat with (S (omit - S i)) by lia. reflexivity.
Qed.

Lemma upd_upd {A} (l : list A) i v w : upd (upd l i v) i w = upd l i w.
Proof. revert i. induction l as [|x l IH]; intros [|i]; cbn [upd]; auto. rewrite IH. reflexivity. Qed.

Lemma upd_same (l : list Z) i : (i < length l)%nat -> upd l i (nth i l 0) = l.
Proof.
  revert i. induction l as [|x l IH]; intros [|i] H; cbn [length upd nth] in *; try lia; [reflexivity|].
  rewrite IH by lia. reflexivity.
Qed.

Lemma logs_of_intro omit counts : forall logs i, length logs = length counts ->
  (forall j, (j < length counts)%nat -> (i + j)%nat = omit \/
     (nth j logs 0 = log_count (nth j counts 0) /\ (nth j counts 0 = 0 \/ rep (nth j counts 0)))) ->
  logs_of i omit counts logs.
Proof.
  induction counts as [|c cr IH]; intros [|l lr] i Hl H; cbn [length logs_of] in *; try lia; try exact I.
  split.
  - specialize (H 0%nat ltac:(lia)). rewrite Nat.add_0_r in H. exact H.
  - apply IH; [lia|]. intros j Hj. specialize (H (S j) ltac:(lia)). replace (S i + j)%nat with (i + S j)%nat by lia. exact H.
Qed.

Lemma zeros_tail (l : list Z) n : (forall j, (n <= j < length l)%nat -> nth j l 0 = 0) ->
  l = firstn n l ++ repeat 0 (length l - n).
Proof.
  revert n. induction l as [|x l IH]; intros n H; [destruct n; reflexivity|].
  destruct n as [|n]; cbn [firstn length Nat.sub app].
  - pose proof (H 0%nat ltac:(cbn; lia)) as H0. cbn [nth] in H0. subst x. cbn [repeat]. f_equal.
    rewrite (IH 0%nat) at 1; [cbn [firstn app]; rewrite Nat.sub_0_r; reflexivity|].
    intros j Hj. apply (H (S j)). cbn [length]; lia.
  - f_equal. apply IH. intros j Hj. apply (H (S j)). cbn [length]; lia.
Qed.

Lemma nth_firstn {A} (l : list A) n j d : (j < n)%nat -> nth j (firstn n l) d = nth j l d.
Proof.
  revert n j. induction l as [|x l IH]; intros [|n] [|j] H; cbn [firstn nth]; try lia; auto. apply IH; lia.
Qed.

Lemma nth_firstn_ge {A} (l : list A) n j d : (n <= j)%nat -> nth j (firstn n l) d = d.
Proof. intros H. apply nth_overflow. rewrite firstn_length. lia. Qed.

Lemma map_log_nth counts j : nth j (map log_count counts) 0 = log_count (nth j counts 0).
Proof. change 0 with (log_count 0) at 1. apply map_nth. Qed.

Lemma bits_small n v m : (Z.of_nat n < 2 ^ Z.of_nat m) -> v = Z.of_nat n -> 0 <= v < 2 ^ Z.of_nat m.
Proof. lia. Qed.

Lemma encode_counts_big counts omit : storable counts omit -> (3 <= length (used counts))%nat ->
  exists fs, encode_counts counts omit (used counts) = Some fs /\ fields_ok fs /\ dec 0 read_histogram (fields_bits fs) counts.
Proof.
  intros [L Nn Sm Ho Hp Hr Hb] Hu.
  unfold encode_counts.
  destruct (used counts) as [|s0 [|s1 [|s2 ss]]] eqn:Eu; cbn [length] in Hu; try lia. clear Hu.
  destruct (enc_scan 0 omit counts 0 0) as [len ol] eqn:Es.
  apply enc_scan_spec in Es; [|lia]. destruct Es as (A1 & A2 & A3 & A4 & A5).
  cbn [Nat.add] in *. rewrite L in *.
  assert (Hlen3 : (3 <= len)%nat).
  { assert (I : incl (used counts) (seq 0 len)).
    { intros s Hs. apply used_In in Hs as [H1 H2]. apply in_seq. split; [lia|].
      destruct (Nat.le_gt_cases len s); [|lia]. exfalso. destruct (A2 s) as [B1 B2]; [lia|lia|]. unfold pos_at in H2; lia. }
    apply NoDup_incl_length in I; [|apply used_NoDup]. rewrite seq_length, Eu in I. cbn [length] in I. lia. }
  assert (Hol : (omit < len)%nat).
  { destruct (Nat.le_gt_cases len omit); [|lia]. destruct (A2 omit); lia. }
  assert (Hnn : forall j, 0 <= nth j counts 0).
  { intros j. destruct (Nat.lt_ge_cases j (length counts)); [|rewrite nth_overflow; lia].
    rewrite Forall_forall in Nn. apply Nn, nth_In. lia. }
  assert (Hlog : forall j, (j < kAnsSymbols)%nat -> j <> omit -> 0 <= log_count (nth j counts 0) <= 10).
  { intros j Hj Hne. destruct (Hr j Hj Hne) as [->|R]; [change (log_count 0) with 0; lia|]. pose proof (log_count_bounds _ (proj1 R)). lia. }
  assert (Hol10 : ol <= 10).
  { apply A5; [lia|]. intros j Hj Hne Hpj. unfold bound_at. cbn [Nat.add].
    destruct (Nat.ltb_spec j omit) as [Hlt|Hge]; [specialize (Hb j Hlt); lia|apply Hlog; assumption]. }
  set (logs := firstn len (upd (map log_count counts) omit ol)).
  assert (Llogs : length logs = len).
  { unfold logs. rewrite firstn_length, upd_length, map_length, L. lia. }
  assert (Nlogs : forall j, (j < len)%nat -> nth j logs 0 = if Nat.eq_dec j omit then ol else log_count (nth j counts 0)).
  { intros j Hj. unfold logs. rewrite nth_firstn by exact Hj. destruct (Nat.eq_dec j omit) as [->|Hne].
    - apply nth_upd_same. rewrite map_length. lia.
    - rewrite nth_upd_other by lia. apply map_log_nth. }
  assert (Flogs : Forall (fun l => 0 <= l <= 10) logs).
  { apply Forall_forall. intros x Hx. apply (In_nth _ _ 0) in Hx as (j & Hj & <-). rewrite Llogs in Hj.
    rewrite Nlogs by exact Hj. destruct (Nat.eq_dec j omit); [lia|]. apply Hlog; lia. }
  destruct (len_field_dec len ltac:(unfold kAnsSymbols in *; lia)) as (n1 & v1 & E1 & F1 & D1).
  destruct (log_fields_dec logs Flogs) as (lgs & E2 & F2 & D2).
  destruct (mantissas_dec omit (firstn len counts) logs 0) as (ms & E3 & F3 & D3).
  { apply logs_of_intro; [rewrite Llogs, firstn_length; lia|].
    intros j Hj. rewrite firstn_length in Hj. cbn [Nat.add].
    rewrite nth_firstn by lia. rewrite Nlogs by lia. destruct (Nat.eq_dec j omit); [left; assumption|right].
    split; [reflexivity|]. apply Hr; [unfold kAnsSymbols in *; lia|assumption]. }
  rewrite E1. cbn [obind]. rewrite E2, E3. cbn [obind].
  eexists; split; [reflexivity|]. split.
  { apply fields_ok_cons. split; [split; [lia|cbn; lia]|]. apply fields_ok_cons. split; [apply fields_ok_cons in F1; apply F1|].
    apply fields_ok_app; split; assumption. }
  cbn [fields_bits]. rewrite fields_bits_app.
  unfold read_histogram. apply dec_Read; [cbn; lia|]. cbn [Z.eqb].
  eapply dec_bind; [exact D1| |lia]. rewrite Nat2Z.id.
  rewrite <- Llogs at 1. eapply dec_bind; [exact D2| |lia].
  assert (Efm : first_max logs = omit).
  { apply first_max_spec; [lia| |].
    - intros j Hj. rewrite (Nlogs j), (Nlogs omit) by lia.
      destruct (Nat.eq_dec j omit); [lia|]. destruct (Nat.eq_dec omit omit); [|lia].
      destruct (Hr j ltac:(lia) ltac:(lia)) as [E|R].
      + rewrite E. change (log_count 0) with 0.
        (* some other symbol is used, so omit_log is positive *)
        assert (X : exists k, (k < kAnsSymbols)%nat /\ k <> omit /\ pos_at counts k).
        { pose proof (used_NoDup counts) as ND. rewrite Eu in ND. apply NoDup_cons_iff in ND as [N1 N2].
          destruct (Nat.eq_dec s0 omit) as [->|Ne].
          - exists s1. assert (I : In s1 (used counts)) by (rewrite Eu; cbn; auto).
            apply used_In in I as [I1 I2]. split; [lia|]. split; [|exact I2]. intros ->. apply N1. left; reflexivity.
          - exists s0. assert (I : In s0 (used counts)) by (rewrite Eu; cbn; auto).
            apply used_In in I as [I1 I2]. split; [lia|]. split; assumption. }
        destruct X as (k & K1 & K2 & K3). specialize (A4 k K1 K2 K3). unfold bound_at in A4.
        destruct (Hr k K1 K2) as [Ek|Rk]; [unfold pos_at in K3; lia|].
        pose proof (log_count_bounds _ (proj1 Rk)). destruct (0 + k <? omit)%nat; lia.
      + assert (Hpj : pos_at counts j) by (unfold pos_at; destruct R; lia).
        specialize (A4 j ltac:(lia) ltac:(lia) Hpj). unfold bound_at in A4. cbn [Nat.add] in A4.
        destruct (Nat.ltb_spec j omit); lia.
    - intros j Hj. rewrite (Nlogs j), (Nlogs omit) by lia.
      destruct (Nat.eq_dec j omit); [lia|]. destruct (Nat.eq_dec omit omit); [|lia].
      destruct (Hr j ltac:(lia) ltac:(lia)) as [E|R]; [rewrite E; exact A3|].
      assert (Hpj : pos_at counts j) by (unfold pos_at; destruct R; lia).
      specialize (A4 j ltac:(lia) ltac:(lia) Hpj). unfold bound_at in A4. cbn [Nat.add] in A4.
      destruct (Nat.ltb_spec j omit); lia. }
  rewrite Efm. rewrite <- (app_nil_r (fields_bits ms)). eapply dec_bind; [exact D3| |lia].
  rewrite zero_at_upd by lia. rewrite Nat.sub_0_r.
  assert (Ec : counts = firstn len counts ++ repeat 0 (length counts - len)).
  { apply zeros_tail. intros j Hj. destruct (A2 j) as [B1 B2]; [lia|lia|]. specialize (Hnn j). lia. }
  assert (Lf : length (firstn len counts) = len) by (rewrite firstn_length; lia).
  assert (Sf : sumZ (firstn len counts) = kAnsTab).
  { rewrite Ec, sumZ_app in Sm. assert (Z0 : forall n, sumZ (repeat 0 n) = 0).
    { induction n; cbn [repeat sumZ fold_right]; [reflexivity|]. fold (sumZ (repeat 0 n)). lia. }
    rewrite Z0 in Sm. lia. }
  assert (Nf : nth omit (firstn len counts) 0 = nth omit counts 0) by (apply nth_firstn; exact Hol).
  rewrite sumZ_upd by lia. rewrite Sf, Nf.
  destruct (Z.leb_spec kAnsTab (kAnsTab - nth omit counts 0 + 0)); [lia|].
  apply dec_Chk. rewrite upd_length, upd_upd.
  replace (kAnsTab - (kAnsTab - nth omit counts 0 + 0)) with (nth omit (firstn len counts) 0) by lia.
  rewrite upd_same by lia. rewrite Lf, <- L.
  replace (Ret (firstn len counts ++ repeat 0 (length counts - len))) with (Ret counts) by (rewrite <- Ec; reflexivity).
  apply dec_ret.
Qed.

(** * Small histograms *)

Lemma nth_repeat0 n j : nth j (repeat 0 n) 0 = 0.
Proof. revert j. induction n; intros [|j]; cbn; auto. Qed.

Lemma not_used_zero counts j : Forall (fun c => 0 <= c) counts -> ~ In j (used counts) -> nth j counts 0 = 0.
Proof.
  intros H N. destruct (Nat.lt_ge_cases j (length counts)) as [Hj|Hj]; [|apply nth_overflow; lia].
  rewrite Forall_forall in H. pose proof (H _ (nth_In counts 0 Hj)).
  destruct (Z.eq_dec (nth j counts 0) 0); [assumption|]. exfalso. apply N, used_In. unfold pos_at. split; [exact Hj|lia].
Qed.

Lemma sumZ_two l i v : forall j w, length l = length l -> (i < j < length l)%nat ->
  (forall k, k <> i -> k <> j -> nth k l 0 = 0) -> nth i l 0 = v -> nth j l 0 = w -> sumZ l = v + w.
Proof.
  intros j w _ Hij Hz Hi Hj.
  assert (Z0 : forall n, sumZ (repeat 0 n) = 0).
  { induction n; cbn [repeat sumZ fold_right]; [reflexivity|]. fold (sumZ (repeat 0 n)). lia. }
  assert (E : l = upd (upd (repeat 0 (length l)) i v) j w).
  { apply (nth_ext _ _ 0 0); [rewrite !upd_length, repeat_length; reflexivity|].
    intros k Hk. destruct (Nat.eq_dec k j) as [->|N1].
    - rewrite nth_upd_same; [assumption|]. rewrite upd_length, repeat_length; lia.
    - rewrite nth_upd_other by lia. destruct (Nat.eq_dec k i) as [->|N2].
      + rewrite nth_upd_same; [assumption|]. rewrite repeat_length; lia.
      + rewrite nth_upd_other, nth_repeat0 by lia. apply Hz; assumption. }
  rewrite E. rewrite sumZ_upd by (rewrite upd_length, repeat_length; lia).
  rewrite sumZ_upd by (rewrite repeat_length; lia).
  rewrite nth_upd_other, !nth_repeat0, Z0 by lia. lia.
Qed.

Lemma encode_counts_one counts omit s : length counts = kAnsSymbols -> Forall (fun c => 0 <= c) counts ->
  sumZ counts = kAnsTab -> used counts = [s] ->
  exists fs, encode_counts counts omit (used counts) = Some fs /\ fields_ok fs /\ dec 0 read_histogram (fields_bits fs) counts.
Proof.
  intros L N S U. rewrite U. cbn [encode_counts]. eexists; split; [reflexivity|].
  assert (Hs : (s < 18)%nat).
  { assert (I : In s (used counts)) by (rewrite U; left; reflexivity). apply used_In in I as [I _]. rewrite L in I. exact I. }
  split.
  { apply fields_ok_cons; split; [split; [lia|cbn; lia]|]. apply fields_ok_cons; split; [split; [lia|cbn; lia]|].
    apply fields_ok_cons; split; [split; [lia|change (2 ^ Z.of_nat 5) with 32; lia]|apply fields_ok_nil]. }
  cbn [fields_bits]. unfold read_histogram.
  apply dec_Read; [cbn; lia|]. cbn [Z.eqb Pos.eqb]. apply dec_Read; [cbn; lia|].
  apply dec_Read; [change (2 ^ Z.of_nat 5) with 32; lia|]. cbv zeta. cbn [Z.eqb]. apply dec_Chk.
  rewrite Z.mod_small by (unfold kAnsSymbols; lia). rewrite Nat2Z.id.
  assert (E : counts = upd (repeat 0 kAnsSymbols) s kAnsTab).
  { assert (V : nth s counts 0 = kAnsTab).
    { rewrite <- S. assert (G : sumZ (upd counts s 0) = 0).
      { assert (Ez : upd counts s 0 = repeat 0 kAnsSymbols).
        { apply (nth_ext _ _ 0 0); [rewrite upd_length, repeat_length; exact L|].
          intros k Hk. rewrite nth_repeat0. destruct (Nat.eq_dec k s) as [->|Nk].
          - apply nth_upd_same. rewrite L; exact Hs.
          - rewrite nth_upd_other by lia. apply not_used_zero; [exact N|]. rewrite U. cbn. lia. }
        rewrite Ez. reflexivity. }
      rewrite sumZ_upd in G by (rewrite L; exact Hs). lia. }
    apply (nth_ext _ _ 0 0); [rewrite upd_length, repeat_length; exact L|].
    intros k Hk. destruct (Nat.eq_dec k s) as [->|Nk].
    - rewrite nth_upd_same; [exact V|exact Hs].
    - rewrite nth_upd_other, nth_repeat0 by lia. apply not_used_zero; [exact N|]. rewrite U. cbn. lia. }
  rewrite <- E. apply dec_ret.
Qed.

Lemma used_from_lt counts : forall i s t l, used_from i counts = s :: t :: l -> (s < t)%nat.
Proof.
  induction counts as [|c r IH]; intros i s t l E; cbn [used_from] in E; [discriminate|].
  destruct (0 <? c); [|eapply IH; exact E]. injection E as -> E.
  assert (I : In t (used_from (S s) r)) by (rewrite E; left; reflexivity). apply used_from_In in I. lia.
Qed.

Lemma encode_counts_two counts omit s t : length counts = kAnsSymbols -> Forall (fun c => 0 <= c) counts ->
  sumZ counts = kAnsTab -> used counts = [s; t] ->
  exists fs, encode_counts counts omit (used counts) = Some fs /\ fields_ok fs /\ dec 0 read_histogram (fields_bits fs) counts.
Proof.
  intros L N S U. rewrite U. cbn [encode_counts]. eexists; split; [reflexivity|].
  pose proof (used_from_lt counts 0 s t [] U) as Hst.
  assert (Hs : (s < 18)%nat /\ 0 < nth s counts 0).
  { assert (I : In s (used counts)) by (rewrite U; left; reflexivity). apply used_In in I as [I P]. rewrite L in I. split; [exact I|exact P]. }
  assert (Ht : (t < 18)%nat /\ 0 < nth t counts 0).
  { assert (I : In t (used counts)) by (rewrite U; right; left; reflexivity). apply used_In in I as [I P]. rewrite L in I. split; [exact I|exact P]. }
  assert (Z : forall k, k <> s -> k <> t -> nth k counts 0 = 0).
  { intros k K1 K2. apply not_used_zero; [exact N|]. rewrite U. cbn. lia. }
  assert (V : nth s counts 0 + nth t counts 0 = 1024).
  { rewrite <- (sumZ_two counts s (nth s counts 0) t (nth t counts 0)); auto; [rewrite L; unfold kAnsSymbols; lia]. }
  split.
  { apply fields_ok_cons; split; [split; [lia|cbn; lia]|]. apply fields_ok_cons; split; [split; [lia|cbn; lia]|].
    apply fields_ok_cons; split; [split; [lia|change (2 ^ Z.of_nat 5) with 32; lia]|].
    apply fields_ok_cons; split; [split; [lia|change (2 ^ Z.of_nat 5) with 32; lia]|].
    apply fields_ok_cons; split; [split; [lia|change (2 ^ Z.of_nat 10) with 1024; lia]|apply fields_ok_nil]. }
  cbn [fields_bits]. unfold read_histogram.
  apply dec_Read; [cbn; lia|]. cbn [Z.eqb Pos.eqb]. apply dec_Read; [cbn; lia|].
  apply dec_Read; [change (2 ^ Z.of_nat 5) with 32; lia|]. cbv zeta. cbn [Z.eqb].
  apply dec_Read; [change (2 ^ Z.of_nat 5) with 32; lia|].
  rewrite !Z.mod_small by (unfold kAnsSymbols; lia). rewrite !Nat2Z.id.
  destruct (Nat.eqb_spec s t); [lia|].
  apply dec_Read; [change (2 ^ Z.of_nat 10) with 1024; lia|]. apply dec_Chk.
  assert (E : counts = upd (upd (repeat 0 kAnsSymbols) s (nth s counts 0)) t (kAnsTab - nth s counts 0)).
  { apply (nth_ext _ _ 0 0); [rewrite !upd_length, repeat_length; exact L|].
    intros k Hk. destruct (Nat.eq_dec k t) as [->|Nk].
    - rewrite nth_upd_same; [unfold kAnsTab; lia|]. rewrite upd_length, repeat_length. unfold kAnsSymbols; lia.
    - rewrite nth_upd_other by lia. destruct (Nat.eq_dec k s) as [->|Nk2].
      + rewrite nth_upd_same; [reflexivity|]. rewrite repeat_length. unfold kAnsSymbols; lia.
      + rewrite nth_upd_other, nth_repeat0 by lia. apply Z; assumption. }
  rewrite <- E. apply dec_ret.
Qed.

(** * Normalisation *)

Definition lg (c : Z) : Z := if 0 <? c then Z.log2 c else -1.

Lemma rebalance_loop_spec rnd up counts : forall n sum rpos rlog cs s p,
  Forall (fun c => 0 <= c) counts -> (forall k, 0 <= rnd k <= 1024) -> -1 <= rlog ->
  rebalance_loop rnd up n counts sum rpos rlog = (cs, s, p) ->
  length cs = length counts /\
  s = sum + sumZ cs /\
  (forall j, (j < length counts)%nat -> if 0 <? nth j counts 0 then rep (nth j cs 0) else nth j cs 0 = 0) /\
  ((p = rpos /\ forall j, (j < length cs)%nat -> lg (nth j cs 0) <= rlog) \/
   exists o, (o < length cs)%nat /\ p = Some (n + o)%nat /\ rlog < lg (nth o cs 0) /\
     (forall j, (j < o)%nat -> lg (nth j cs 0) < lg (nth o cs 0)) /\
     (forall j, (j < length cs)%nat -> lg (nth j cs 0) <= lg (nth o cs 0))).
Proof.
  induction counts as [|c r IH]; intros n sum rpos rlog cs s p Hn Hr Hlog E; cbn [rebalance_loop] in E.
  - injection E as <- <- <-. repeat split; cbn [length sumZ fold_right]; try lia; try (intros; lia).
    left. split; [reflexivity|]. cbn [length]. intros; lia.
  - inversion Hn as [|? ? Hc Hn']; subst.
    destruct (Z.ltb_spec 0 c) as [Hpos|Hz].
    + pose proof (rebalance_one_rep (rnd n) (up n) (Hr n)) as R.
      set (c' := rebalance_one (rnd n) (up n)) in *.
      assert (Hlg : lg c' = Z.log2 c') by (unfold lg; destruct (Z.ltb_spec 0 c'); [reflexivity|destruct R; lia]).
      assert (Hl0 : 0 <= Z.log2 c') by apply Z.log2_nonneg.
      destruct (Z.ltb_spec rlog (Z.log2 c')) as [Hlt|Hge].
      * destruct (rebalance_loop rnd up (S n) r (sum + c') (Some n) (Z.log2 c')) as [[cs1 s1] p1] eqn:E1.
        injection E as <- <- <-.
        destruct (IH (S n) (sum + c') (Some n) (Z.log2 c') cs1 s1 p1 Hn' Hr ltac:(lia) E1) as (A1 & A2 & A3 & A4).
        split; [cbn; lia|]. split; [cbn [sumZ fold_right]; fold (sumZ cs1); lia|]. split.
        { intros [|j] Hj; cbn [nth]; [destruct (Z.ltb_spec 0 c); [exact R|lia]|]. apply A3. cbn [length] in Hj; lia. }
        right. destruct A4 as [[-> A4]|(o & O1 & -> & O2 & O3 & O4)].
        -- exists 0%nat. split; [cbn; lia|]. split; [f_equal; lia|]. cbn [nth]. split; [lia|]. split; [intros; lia|].
           intros [|j] Hj; cbn [nth]; [lia|]. rewrite Hlg. apply A4. cbn [length] in Hj; lia.
        -- exists (S o). split; [cbn; lia|]. split; [f_equal; lia|]. cbn [nth]. split; [lia|]. split.
           ++ intros [|j] Hj; cbn [nth]; [lia|]. apply O3; lia.
           ++ intros [|j] Hj; cbn [nth]; [lia|]. apply O4. cbn [length] in Hj; lia.
      * destruct (rebalance_loop rnd up (S n) r (sum + c') rpos rlog) as [[cs1 s1] p1] eqn:E1.
        injection E as <- <- <-.
        destruct (IH (S n) (sum + c') rpos rlog cs1 s1 p1 Hn' Hr ltac:(lia) E1) as (A1 & A2 & A3 & A4).
        split; [cbn; lia|]. split; [cbn [sumZ fold_right]; fold (sumZ cs1); lia|]. split.
        { intros [|j] Hj; cbn [nth]; [destruct (Z.ltb_spec 0 c); [exact R|lia]|]. apply A3. cbn [length] in Hj; lia. }
        destruct A4 as [[-> A4]|(o & O1 & -> & O2 & O3 & O4)].
        -- left. split; [reflexivity|]. intros [|j] Hj; cbn [nth]; [lia|]. apply A4. cbn [length] in Hj; lia.
        -- right. exists (S o). split; [cbn; lia|]. split; [f_equal; lia|]. cbn [nth]. split; [lia|]. split.
           ++ intros [|j] Hj; cbn [nth]; [lia|]. apply O3; lia.
           ++ intros [|j] Hj; cbn [nth]; [lia|]. apply O4. cbn [length] in Hj; lia.
    + assert (c = 0) by lia. subst c.
      destruct (rebalance_loop rnd up (S n) r sum rpos rlog) as [[cs1 s1] p1] eqn:E1.
      injection E as <- <- <-.
      destruct (IH (S n) sum rpos rlog cs1 s1 p1 Hn' Hr ltac:(lia) E1) as (A1 & A2 & A3 & A4).
      split; [cbn; lia|]. split; [cbn [sumZ fold_right]; fold (sumZ cs1); lia|]. split.
      { intros [|j] Hj; cbn [nth]; [reflexivity|]. apply A3. cbn [length] in Hj; lia. }
      assert (L0 : lg 0 = -1) by reflexivity.
      destruct A4 as [[-> A4]|(o & O1 & -> & O2 & O3 & O4)].
      * left. split; [reflexivity|]. intros [|j] Hj; cbn [nth]; [lia|]. apply A4. cbn [length] in Hj; lia.
      * right. exists (S o). split; [cbn; lia|]. split; [f_equal; lia|]. cbn [nth]. split; [lia|]. split.
        -- intros [|j] Hj; cbn [nth]; [lia|]. apply O3; lia.
        -- intros [|j] Hj; cbn [nth]; [lia|]. apply O4. cbn [length] in Hj; lia.
Qed.

Definition hist_ok (h : list Z) : Prop := length h = kAnsSymbols /\ Forall (fun c => 0 <= c) h.

Lemma rebalance_spec rnd up h cs p : hist_ok h -> (forall k, 0 <= rnd k <= 1024) ->
  rebalance rnd up h = Some (cs, p, true) ->
  storable cs p /\ (forall j, pos_at cs j <-> pos_at h j).
Proof.
  intros [L N] Hr E. unfold rebalance in E.
  destruct (rebalance_loop rnd up 0 h 0 None (-1)) as [[c1 s1] p1] eqn:E1.
  destruct p1 as [p1|]; [|discriminate]. cbv zeta in E. injection E as <- <- Ev. apply Z.ltb_lt in Ev.
  destruct (rebalance_loop_spec rnd up h 0 0 None (-1) c1 s1 (Some p1) N Hr ltac:(lia) E1) as (A1 & A2 & A3 & A4).
  destruct A4 as [[A4 _]|(o & O1 & O2 & O3 & O4 & O5)]; [discriminate|]. injection O2 as ->.
  assert (Hpo : 0 < nth o c1 0).
  { unfold lg in O3. destruct (Z.ltb_spec 0 (nth o c1 0)); lia. }
  assert (Hcs : forall j, (j < kAnsSymbols)%nat -> nth j c1 0 = 0 \/ rep (nth j c1 0)).
  { intros j Hj. specialize (A3 j ltac:(lia)). destruct (0 <? nth j h 0); [right|left]; exact A3. }
  assert (Hnn : forall j, 0 <= nth j c1 0).
  { intros j. destruct (Nat.lt_ge_cases j kAnsSymbols) as [Hj|Hj]; [|rewrite nth_overflow; lia].
    destruct (Hcs j Hj) as [->|[R _]]; lia. }
  split.
  - constructor.
    + rewrite upd_length. congruence.
    + apply Forall_forall. intros x Hx. apply (In_nth _ _ 0) in Hx as (j & Hj & <-). rewrite upd_length in Hj.
      destruct (Nat.eq_dec o j) as [<-|Ne]; [rewrite nth_upd_same by exact O1; lia|].
      rewrite nth_upd_other by exact Ne. apply Hnn.
    + rewrite sumZ_upd by exact O1. unfold kAnsTab in *. lia.
    + rewrite L in A1. lia.
    + rewrite nth_upd_same by exact O1. lia.
    + intros j Hj Hne. rewrite nth_upd_other by lia. apply Hcs, Hj.
    + intros j Hj. rewrite nth_upd_other by lia. specialize (O4 j Hj).
      destruct (Hcs j ltac:(rewrite L in A1; lia)) as [->|R]; [change (log_count 0) with 0; lia|].
      destruct (Hcs o ltac:(rewrite L in A1; lia)) as [Eo|Ro]; [lia|].
      pose proof (log_count_bounds _ (proj1 Ro)) as B. unfold log_count, lg in *.
      destruct (Z.ltb_spec 0 (nth j c1 0)); [|destruct R; lia]. destruct (Z.ltb_spec 0 (nth o c1 0)); lia.
  - intros j. unfold pos_at. destruct (Nat.lt_ge_cases j kAnsSymbols) as [Hj|Hj].
    + specialize (A3 j ltac:(lia)). destruct (Nat.eq_dec o j) as [<-|Ne].
      * rewrite nth_upd_same by exact O1. destruct (Z.ltb_spec 0 (nth o h 0)); [split; intros; lia|].
        rewrite A3 in Hpo. lia.
      * rewrite nth_upd_other by exact Ne. destruct (Z.ltb_spec 0 (nth j h 0)) as [Hp|Hp].
        -- split; intros; [lia|destruct A3; lia].
        -- rewrite A3. split; intros; lia.
    + rewrite !nth_overflow; [lia|lia|]. rewrite upd_length. lia.
Qed.

Lemma storable_basic cs p : storable cs p -> length cs = kAnsSymbols /\ Forall (fun c => 0 <= c) cs /\ sumZ cs = kAnsTab.
Proof. intros []; auto. Qed.

Lemma normalize_spec rnd up1 up2 h cs omit : hist_ok h -> (forall k, 0 <= rnd k <= 1024) -> used h <> [] ->
  normalize_counts rnd up1 up2 h = Some (cs, omit) ->
  length cs = kAnsSymbols /\ Forall (fun c => 0 <= c) cs /\ sumZ cs = kAnsTab /\
  (forall j, pos_at cs j <-> pos_at h j) /\ ((2 <= length (used h))%nat -> storable cs omit).
Proof.
  intros Hh Hr Hu E. unfold normalize_counts in E.
  assert (Big : forall cs0 p0, storable cs0 p0 -> (forall j, pos_at cs0 j <-> pos_at h j) -> cs0 = cs -> p0 = omit ->
     length cs = kAnsSymbols /\ Forall (fun c => 0 <= c) cs /\ sumZ cs = kAnsTab /\
     (forall j, pos_at cs j <-> pos_at h j) /\ ((2 <= length (used h))%nat -> storable cs omit)).
  { intros cs0 p0 S P <- <-. destruct (storable_basic _ _ S) as (S1 & S2 & S3). auto 6. }
  destruct (used h) as [|s [|t l]] eqn:U; [congruence| |].
  - injection E as <- <-. destruct Hh as [L N].
    assert (I : In s (used h)) by (rewrite U; left; reflexivity). apply used_In in I as [I1 I2].
    split; [rewrite upd_length; exact L|].
    assert (Hz : forall j, j <> s -> nth j h 0 = 0).
    { intros j Hj. apply not_used_zero; [exact N|]. rewrite U. cbn. lia. }
    split; [|split; [|split]].
    + apply Forall_forall. intros x Hx. apply (In_nth _ _ 0) in Hx as (j & Hj & <-).
      destruct (Nat.eq_dec s j) as [<-|Ne]; [rewrite nth_upd_same by exact I1; unfold kAnsTab; lia|].
      rewrite nth_upd_other, Hz by lia. lia.
    + rewrite sumZ_upd by exact I1.
      assert (G : sumZ (upd h s 0) = 0).
      { assert (Ez : upd h s 0 = repeat 0 kAnsSymbols).
        { apply (nth_ext _ _ 0 0); [rewrite upd_length, repeat_length; exact L|].
          intros k Hk. rewrite nth_repeat0. destruct (Nat.eq_dec s k) as [<-|Nk].
          - apply nth_upd_same. exact I1.
          - rewrite nth_upd_other by exact Nk. apply Hz; lia. }
        rewrite Ez. reflexivity. }
      rewrite sumZ_upd in G by exact I1. lia.
    + intros j. unfold pos_at. destruct (Nat.eq_dec s j) as [<-|Ne].
      * rewrite nth_upd_same by exact I1. unfold kAnsTab, pos_at in *. split; intros; [exact I2|lia].
      * rewrite nth_upd_other by exact Ne. reflexivity.
    + cbn [length]. lia.
  - destruct (rebalance rnd up1 h) as [[[cs1 p1] []]|] eqn:E1; [| |discriminate].
    + injection E as <- <-. destruct (rebalance_spec _ _ _ _ _ Hh Hr E1) as [S P]. eapply Big; eauto.
    + destruct (rebalance rnd up2 h) as [[[cs2 p2] []]|] eqn:E2; try discriminate.
      injection E as <- <-. destruct (rebalance_spec _ _ _ _ _ Hh Hr E2) as [S P]. eapply Big; eauto.
Qed.

Lemma used_pos h cs : length cs = length h -> (forall j, pos_at cs j <-> pos_at h j) -> used h = used cs.
Proof. intros L P. unfold used. apply used_ext; [lia|]. intros j. symmetry. apply P. Qed.

Lemma store_histogram_dec rnd up1 up2 h cs omit : hist_ok h -> (forall k, 0 <= rnd k <= 1024) -> used h <> [] ->
  normalize_counts rnd up1 up2 h = Some (cs, omit) ->
  exists fs, store_histogram rnd up1 up2 h = Some (cs, fs) /\ fields_ok fs /\ dec 0 read_histogram (fields_bits fs) cs.
Proof.
  intros Hh Hr Hu E. unfold store_histogram. rewrite E. cbn [obind].
  destruct (normalize_spec _ _ _ _ _ _ Hh Hr Hu E) as (L & N & S & P & St).
  assert (EU : used h = used cs) by (apply used_pos; [destruct Hh; congruence|exact P]).
  rewrite EU in *. clear EU.
  assert (G : exists fs, encode_counts cs omit (used cs) = Some fs /\ fields_ok fs /\ dec 0 read_histogram (fields_bits fs) cs).
  { destruct (used cs) as [|s [|t [|u l]]] eqn:U; [congruence| | |].
    - rewrite <- U. eapply encode_counts_one; eauto.
    - rewrite <- U. eapply encode_counts_two; eauto.
    - rewrite <- U. apply encode_counts_big; [apply St; cbn; lia|]. rewrite U. cbn. lia. }
  destruct G as (fs & G1 & G2 & G3). exists fs. rewrite G1. auto.
Qed.

(** The histogram of an unused context still decodes (to some histogram). *)
Lemma store_empty_dec : dec 0 read_histogram (fields_bits [(1%nat, 1); (6%nat, 0)]) (upd (repeat 0 kAnsSymbols) 0 kAnsTab).
Proof. intros s r _. reflexivity. Qed.

(** * Every histogram the reader accepts *)

Definition complete_histogram (h : list Z) : Prop :=
  length h = kAnsSymbols /\ Forall (fun c => 0 <= c <= kAnsTab) h /\ sumZ h = kAnsTab.

Lemma read_logs_pub n : pub (n * 6) (fun l => length l = n /\ Forall (fun v => 0 <= v <= 10) l) (read_logs n).
Proof.
  induction n as [|n IH]; cbn [read_logs]; [cbn [pub]; auto|].
  cbn [Nat.mul]. eapply pub_bind; [exact read_logcount_pub|]. intros v Hv.
  rewrite <- (Nat.add_0_r (n * 6)). eapply pub_bind; [exact IH|]. intros l [H1 H2]. cbn [pub length]. split; [lia|]. constructor; assumption.
Qed.

Lemma pop_precision_le code : 1 < code <= 10 -> 1 <= pop_precision (code - 1) <= 5.
Proof. intros H. unfold pop_precision. dlia. Qed.

Lemma read_counts_pub omit logs : Forall (fun v => 0 <= v <= 10) logs -> forall i,
  pub (length logs * 5) (fun l => length l = length logs /\ Forall (fun c => 0 <= c) l /\
     forall j, (i + j)%nat = omit -> nth j l 0 = 0) (read_counts i omit logs).
Proof.
  induction 1 as [|code r Hc Hr IH]; intros i; cbn [read_counts].
  - cbn [pub length]. repeat split; auto. intros [|j]; reflexivity.
  - assert (Rest : forall v, 0 <= v -> (i = omit -> v = 0) ->
      pub (length r * 5) (fun l => length l = length (code :: r) /\ Forall (fun c => 0 <= c) l /\
        forall j, (i + j)%nat = omit -> nth j l 0 = 0)
        (bind (read_counts (S i) omit r) (fun l => Ret (v :: l)))).
    { intros v Hv Hio. rewrite <- (Nat.add_0_r (length r * 5)). eapply pub_bind; [exact (IH (S i))|].
      intros l (H1 & H2 & H3). cbn [pub length]. split; [lia|]. split; [constructor; assumption|].
      intros [|j] E; cbn [nth]; [apply Hio; lia|apply H3; lia]. }
    assert (Mono : forall p, pub (length r * 5) (fun l => length l = length (code :: r) /\ Forall (fun c => 0 <= c) l /\
        forall j, (i + j)%nat = omit -> nth j l 0 = 0) p ->
        pub (length (code :: r) * 5) (fun l => length l = length (code :: r) /\ Forall (fun c => 0 <= c) l /\
        forall j, (i + j)%nat = omit -> nth j l 0 = 0) p).
    { intros p. apply pub_mono; [cbn [length]; lia|auto]. }
    destruct (Nat.eqb_spec i omit) as [->|No]; [apply Mono, Rest; lia|].
    destruct (Z.eqb_spec code 0); [apply Mono, Rest; lia|].
    destruct (Z.eqb_spec code 1); [apply Mono, Rest; lia|].
    pose proof (pop_precision_le code ltac:(lia)) as B.
    eapply pub_mono with (c := (Z.to_nat (pop_precision (code - 1)) + length r * 5)%nat); [cbn [length]; lia|intros a Ha; exact Ha|].
    apply pub_Read; [lia|]. intros v Hv. apply Rest; [|lia].
    assert (0 <= Z.shiftl 1 (code - 1)) by (apply Z.shiftl_nonneg; lia).
    assert (0 <= Z.shiftl v (code - 1 - pop_precision (code - 1))) by (apply Z.shiftl_nonneg; lia). lia.
Qed.

Lemma sumZ_ge l j : Forall (fun c => 0 <= c) l -> nth j l 0 <= sumZ l.
Proof.
  intros H. revert j. induction H as [|x l Hx Hl IH]; intros [|j]; cbn [nth sumZ fold_right]; try lia.
  - fold (sumZ l). pose proof (sumZ_nonneg l Hl). lia.
  - fold (sumZ l). specialize (IH j). lia.
Qed.

Lemma complete_intro h : length h = kAnsSymbols -> Forall (fun c => 0 <= c) h -> sumZ h = kAnsTab -> complete_histogram h.
Proof.
  intros L N S. split; [exact L|]. split; [|exact S]. apply Forall_forall. intros x Hx.
  pose proof N as N'. rewrite Forall_forall in N'. split; [apply N', Hx|].
  apply (In_nth _ _ 0) in Hx as (j & Hj & <-). rewrite <- S. apply sumZ_ge, N.
Qed.

Lemma Forall_upd (P : Z -> Prop) l i v : Forall P l -> P v -> Forall P (upd l i v).
Proof.
  intros H Hv. revert i. induction H as [|x l Hx Hl IH]; intros [|i]; cbn [upd]; constructor; auto.
Qed.

Lemma Forall_repeat (P : Z -> Prop) x n : P x -> Forall P (repeat x n).
Proof. intros H. induction n; cbn [repeat]; constructor; auto. Qed.

Lemma sumZ_repeat0 n : sumZ (repeat 0 n) = 0.
Proof. induction n; cbn [repeat sumZ fold_right]; [reflexivity|]. fold (sumZ (repeat 0 n)). lia. Qed.

Lemma read_histogram_pub : pub 207 complete_histogram read_histogram.
Proof.
  unfold read_histogram. change 207%nat with (1 + 206)%nat. apply pub_Read; [lia|]. intros simple Hs.
  destruct (Z.eqb_spec simple 1) as [->|Hns].
  - change 206%nat with (1 + 205)%nat. apply pub_Read; [lia|]. intros ns Hns.
    change 205%nat with (5 + 200)%nat. apply pub_Read; [lia|]. intros r0 Hr0. cbv zeta.
    assert (B : forall r, 0 <= r -> (Z.to_nat (r mod Z.of_nat kAnsSymbols) < kAnsSymbols)%nat).
    { intros r Hr. unfold kAnsSymbols. pose proof (Z.mod_pos_bound r (Z.of_nat 18) ltac:(lia)). lia. }
    destruct (ns =? 0).
    + cbn [pub]. apply complete_intro.
      * rewrite upd_length, repeat_length. reflexivity.
      * apply Forall_upd; [apply Forall_repeat; lia|unfold kAnsTab; lia].
      * rewrite sumZ_upd by (rewrite repeat_length; apply B; lia). rewrite nth_repeat0, sumZ_repeat0. reflexivity.
    + change 200%nat with (5 + 195)%nat. apply pub_Read; [lia|]. intros r1 Hr1.
      destruct (Nat.eqb_spec (Z.to_nat (r0 mod Z.of_nat kAnsSymbols)) (Z.to_nat (r1 mod Z.of_nat kAnsSymbols))) as [E|Ne]; [exact I|].
      change 195%nat with (10 + 185)%nat. apply pub_Read; [lia|]. intros v Hv. change (2 ^ Z.of_nat 10) with 1024 in Hv.
      cbn [pub]. apply complete_intro.
      * rewrite !upd_length, repeat_length. reflexivity.
      * apply Forall_upd; [apply Forall_upd; [apply Forall_repeat; lia|lia]|unfold kAnsTab; lia].
      * rewrite sumZ_upd by (rewrite upd_length, repeat_length; apply B; lia).
        rewrite sumZ_upd by (rewrite repeat_length; apply B; lia).
        rewrite nth_upd_other, !nth_repeat0, sumZ_repeat0 by exact Ne. unfold kAnsTab. lia.
  - eapply pub_mono with (c := (8 + 18 * 11)%nat) (P := complete_histogram); [lia|auto|].
    eapply pub_bind; [exact read_length_pub|]. intros n Hn. cbv beta in Hn.
    eapply pub_mono with (c := (Z.to_nat n * 6 + Z.to_nat n * 5)%nat) (P := complete_histogram); [lia|auto|].
    eapply pub_bind; [apply read_logs_pub|]. intros logs [L1 L2]. cbv zeta.
    rewrite <- L1. rewrite <- (Nat.add_0_r (length logs * 5)).
    eapply pub_bind; [apply (read_counts_pub (first_max logs) logs L2 0)|].
    intros cs (C1 & C2 & C3). destruct (Z.leb_spec kAnsTab (sumZ cs)); [exact I|].
    cbn [pub].
    assert (Hom : (first_max logs < length cs)%nat).
    { rewrite C1. apply first_max_lt. intros ->. cbn in L1. lia. }
    specialize (C3 (first_max logs) eq_refl).
    apply complete_intro.
    + rewrite app_length, upd_length, repeat_length. unfold kAnsSymbols. lia.
    + apply Forall_app; split; [|apply Forall_repeat; lia]. apply Forall_upd; [exact C2|lia].
    + rewrite sumZ_app, sumZ_repeat0, sumZ_upd by exact Hom. lia.
Qed.

(** * The second rebalancing never fails *)

(** The value of counts[n] before the final increment, and the increment. *)
Definition rcl (r : Z) : Z :=
  let c := if r =? 0 then 1 else r in if c =? kAnsTab then kAnsTab - 1 else c.
Definition rinc (r : Z) : Z := smallest_increment (rcl r).
Definition rbase (r : Z) : Z := rcl r - Z.land (rcl r) (rinc r - 1).

Definition rebase_check : bool :=
  forallb (fun r =>
    (rebalance_one r false =? rbase r) && (rebalance_one r true <=? rbase r + rinc r) && (rbase r <=? rebalance_one r true)
    && (rbase r <=? Z.max 1 r) && (1 <=? rinc r) && (rinc r <=? 16) && (implb (57 <=? r) (56 <=? rbase r))) (zrange 1025).
Lemma rebase_check_ok : rebase_check = true. Proof. vm_compute. reflexivity. Qed.

Lemma rebase_facts r : 0 <= r <= 1024 ->
  rebalance_one r false = rbase r /\ rbase r <= rebalance_one r true <= rbase r + rinc r /\ rbase r <= Z.max 1 r /\
  1 <= rinc r <= 16 /\ (57 <= r -> 56 <= rbase r).
Proof.
  intros H. pose proof rebase_check_ok as C. unfold rebase_check in C. rewrite forallb_forall in C.
  specialize (C r (zrange_In 1025 r ltac:(lia))). rewrite !andb_true_iff in C.
  destruct C as ((((((C1 & C2) & C3) & C4) & C5) & C6) & C7).
  repeat split; try lia.
Qed.

(** Error-minimising decisions, up to a floating-point error of 1/4: rounding
    count [n] up only if the sum of the targets so far exceeds the sum of the
    counts by half an increment.  Targets are [T n / D]. *)
Fixpoint min_error_decisions (D : Z) (T rnd : nat -> Z) (up : nat -> bool) (n : nat) (counts : list Z) (S sum : Z) : Prop :=
  match counts with
  | [] => True
  | c :: r =>
      if 0 <? c then
        (up n = true -> 4 * (S + T n - D * sum) > 4 * D * (rbase (rnd n) + rinc (rnd n) / 2) - D) /\
        min_error_decisions D T rnd up (1 + n) r (S + T n) (sum + rebalance_one (rnd n) (up n))
      else min_error_decisions D T rnd up (1 + n) r S sum
  end.

(** Sum of the targets of the used symbols. *)
Fixpoint target_sum (T : nat -> Z) (n : nat) (counts : list Z) : Z :=
  match counts with
  | [] => 0
  | c :: r => (if 0 <? c then T n else 0) + target_sum T (1 + n) r
  end.

Lemma rebalance_error D T rnd up counts : forall n S sum rpos rlog cs s p k,
  0 < D -> (forall j, 0 <= rnd j <= 1024) ->
  (forall j, 0 < T j -> 2 * D * rnd j <= 2 * T j + D) -> (forall j, (j < length counts)%nat -> 0 < nth j counts 0 -> 0 < T (n + j)%nat) ->
  - (D * (9 + Z.of_nat k)) <= S - D * sum ->
  min_error_decisions D T rnd up n counts S sum ->
  rebalance_loop rnd up n counts sum rpos rlog = (cs, s, p) ->
  - (D * (9 + Z.of_nat (k + length counts))) <= S + target_sum T n counts - D * s.
Proof.
  induction counts as [|c r IH]; intros n S sum rpos rlog cs s p k HD Hr Hrnd HT Hinv Hdec E;
    cbn [rebalance_loop target_sum min_error_decisions length] in *.
  - injection E as <- <- <-. rewrite Nat.add_0_r. lia.
  - assert (HT' : forall j, (j < length r)%nat -> 0 < nth j r 0 -> 0 < T (1 + n + j)%nat).
    { intros j Hj Hp. replace (1 + n + j)%nat with (n + Datatypes.S j)%nat by lia. apply HT; [lia|exact Hp]. }
    replace (k + Datatypes.S (length r))%nat with (Datatypes.S k + length r)%nat by lia.
    destruct (Z.ltb_spec 0 c) as [Hpos|Hz].
    + destruct Hdec as [Hup Hdec].
      set (c' := rebalance_one (rnd n) (up n)) in *.
      assert (Hinv' : - (D * (9 + Z.of_nat (Datatypes.S k))) <= S + T n - D * (sum + c')).
      { destruct (rebase_facts (rnd n) (Hr n)) as (F1 & F2 & F3 & F4 & F5).
        pose proof (HT 0%nat ltac:(lia) Hpos) as HTn. rewrite Nat.add_0_r in HTn.
        pose proof (Hrnd n HTn) as Hn.
        destruct (up n).
        - specialize (Hup eq_refl). unfold c'.
          assert (rinc (rnd n) - rinc (rnd n) / 2 <= 8) by dlia.
          assert (4 * D * (rbase (rnd n) + rinc (rnd n) / 2) - D < 4 * (S + T n - D * sum)) by lia.
          nia.
        - unfold c'. rewrite F1.
          assert (D * rbase (rnd n) <= T n + D).
          { destruct (Z.max_spec 1 (rnd n)) as [[M1 M2]|[M1 M2]]; rewrite M2 in F3.
            - assert (D * rbase (rnd n) <= D * rnd n) by nia. nia.
            - assert (D * rbase (rnd n) <= D) by nia. nia. }
          nia. }
      destruct (if rlog <? Z.log2 c' then (Some n, Z.log2 c') else (rpos, rlog)) as [rp rl].
      destruct (rebalance_loop rnd up (Datatypes.S n) r (sum + c') rp rl) as [[cs1 s1] p1] eqn:E1. injection E as <- <- <-.
      specialize (IH (1 + n)%nat (S + T n) (sum + c') rp rl cs1 s1 p1 (Datatypes.S k) HD Hr Hrnd HT' Hinv' Hdec E1). lia.
    + destruct (rebalance_loop rnd up (Datatypes.S n) r sum rpos rlog) as [[cs1 s1] p1] eqn:E1. injection E as <- <- <-.
      assert (Hinv' : - (D * (9 + Z.of_nat (Datatypes.S k))) <= S - D * sum) by nia.
      specialize (IH (1 + n)%nat S sum rpos rlog cs1 s1 p1 (Datatypes.S k) HD Hr Hrnd HT' Hinv' Hdec E1). lia.
Qed.

Lemma target_sum_max D T counts : forall n, 0 < D ->
  (forall j, (j < length counts)%nat -> 0 < nth j counts 0 -> 2 * T (n + j)%nat < 113 * D) ->
  2 * target_sum T n counts <= 113 * D * Z.of_nat (length counts).
Proof.
  induction counts as [|c r IH]; intros n HD H; cbn [target_sum length]; [lia|].
  specialize (IH (1 + n)%nat HD). 
  assert (Hr : 2 * target_sum T (1 + n) r <= 113 * D * Z.of_nat (length r)).
  { apply IH. intros j Hj Hp. replace (1 + n + j)%nat with (n + Datatypes.S j)%nat by lia. apply H; [cbn [length]; lia|exact Hp]. }
  pose proof (H 0%nat ltac:(cbn [length]; lia)) as H0. cbn [nth] in H0. rewrite Nat.add_0_r in H0.
  destruct (Z.ltb_spec 0 c) as [Hc|Hc]; [specialize (H0 Hc); nia|nia].
Qed.

Lemma rebalance_succeeds D T rnd up h : 0 < D -> hist_ok h ->
  (forall j, 0 <= rnd j <= 1024) ->
  (forall j, 0 < T j -> 2 * D * rnd j <= 2 * T j + D < 2 * D * (rnd j + 1)) ->
  (forall j, (j < kAnsSymbols)%nat -> 0 < nth j h 0 -> 0 < T j) ->
  4 * Z.abs (target_sum T 0 h - 1024 * D) <= D ->
  min_error_decisions D T rnd up 0 h 0 0 ->
  exists cs p, rebalance rnd up h = Some (cs, p, true).
Proof.
  intros HD [L N] Hr Hrnd HT Hsum Hdec. unfold rebalance.
  destruct (rebalance_loop rnd up 0 h 0 None (-1)) as [[c1 s1] p1] eqn:E1.
  destruct (rebalance_loop_spec rnd up h 0 0 None (-1) c1 s1 p1 N Hr ltac:(lia) E1) as (A1 & A2 & A3 & A4).
  assert (Herr : - (D * (9 + Z.of_nat (0 + length h))) <= 0 + target_sum T 0 h - D * s1).
  { eapply rebalance_error; eauto.
    - intros j Hj. apply Hrnd, Hj.
    - intros j Hj Hp. apply HT; [rewrite <- L; exact Hj|exact Hp].
    - lia. }
  (* a symbol with a large target *)
  assert (Big : exists j, (j < kAnsSymbols)%nat /\ 0 < nth j h 0 /\ 113 * D <= 2 * T j).
  { assert (Dec : (exists j, (j < kAnsSymbols)%nat /\ 0 < nth j h 0 /\ 113 * D <= 2 * T j) \/
                  forall j, (j < kAnsSymbols)%nat -> 0 < nth j h 0 -> 2 * T j < 113 * D).
    { clear. induction kAnsSymbols as [|k IH]; [right; intros; lia|].
      destruct IH as [(j & J1 & J2 & J3)|IH]; [left; exists j; split; [lia|auto]|].
      destruct (Z.lt_ge_cases 0 (nth k h 0)) as [P|P].
      - destruct (Z.lt_ge_cases (2 * T k) (113 * D)) as [Q|Q].
        + right. intros j Hj Hp. destruct (Nat.eq_dec j k) as [->|]; [exact Q|apply IH; [lia|exact Hp]].
        + left. exists k. split; [lia|]. split; [exact P|lia].
      - right. intros j Hj Hp. destruct (Nat.eq_dec j k) as [->|]; [lia|apply IH; [lia|exact Hp]]. }
    destruct Dec as [X|X]; [exact X|]. exfalso.
    pose proof (target_sum_max D T h 0 HD) as M. rewrite L in M. specialize (M X). unfold kAnsSymbols in M. lia. }
  destruct Big as (j & J1 & J2 & J3).
  assert (Hrj : 57 <= rnd j).
  { destruct (Hrnd j) as [_ R]; [apply HT; assumption|]. nia. }
  assert (Hbig : 56 <= nth j c1 0).
  { clear A4 Herr Hdec Hsum.
    assert (G : forall counts n sum rpos rlog cs s p j, (j < length counts)%nat -> 0 < nth j counts 0 ->
       rebalance_loop rnd up n counts sum rpos rlog = (cs, s, p) -> nth j cs 0 = rebalance_one (rnd (n + j)%nat) (up (n + j)%nat)).
    { clear. induction counts as [|c r IH]; intros n sum rpos rlog cs s p j Hj Hp E; cbn [length rebalance_loop] in *; [lia|].
      destruct j as [|j].
      - cbn [nth] in Hp. destruct (Z.ltb_spec 0 c); [|lia].
        destruct (if rlog <? _ then _ else _) as [rp rl].
        destruct (rebalance_loop _ _ _ _ _ _ _) as [[cs1 s1] p1]. injection E as <- <- <-. rewrite Nat.add_0_r. reflexivity.
      - cbn [nth] in Hp. destruct (Z.ltb_spec 0 c).
        + destruct (if rlog <? _ then _ else _) as [rp rl].
          destruct (rebalance_loop rnd up (S n) r _ rp rl) as [[cs1 s1] p1] eqn:E1. injection E as <- <- <-. cbn [nth].
          rewrite (IH (S n) _ _ _ _ _ _ j ltac:(lia) Hp E1). replace (S n + j)%nat with (n + S j)%nat by lia. reflexivity.
        + destruct (rebalance_loop rnd up (S n) r _ _ _) as [[cs1 s1] p1] eqn:E1. injection E as <- <- <-. cbn [nth].
          rewrite (IH (S n) _ _ _ _ _ _ j ltac:(lia) Hp E1). replace (S n + j)%nat with (n + S j)%nat by lia. reflexivity. }
    rewrite (G h 0%nat 0 None (-1) c1 s1 p1 j ltac:(lia) J2 E1). cbn [Nat.add].
    destruct (rebase_facts (rnd j) (Hr j)) as (F1 & F2 & F3 & F4 & F5). specialize (F5 Hrj).
    destruct (up j); lia. }
  assert (Hlgj : 5 <= lg (nth j c1 0)).
  { unfold lg. destruct (Z.ltb_spec 0 (nth j c1 0)); [|lia]. change 5 with (Z.log2 56). apply Z.log2_le_mono. lia. }
  destruct A4 as [[_ A4]|(o & O1 & -> & O2 & O3 & O4)].
  - specialize (A4 j ltac:(lia)). lia.
  - specialize (O4 j ltac:(lia)). cbn [Nat.add]. cbv zeta.
    assert (32 <= nth o c1 0).
    { unfold lg in O4 at 2. destruct (Z.ltb_spec 0 (nth o c1 0)); [|lia].
      change 32 with (2 ^ 5). apply Z.log2_le_pow2; lia. }
    assert (s1 <= 1051).
    { rewrite L in Herr. unfold kAnsSymbols in Herr. nia. }
    eexists _, _. f_equal. f_equal. unfold kAnsTab. apply Z.ltb_lt. lia.
Qed.
