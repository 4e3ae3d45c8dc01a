(** C14, C15, C16: histograms of the ANS coder. *)
From Verif Require Import Base BitModel BitProofs CodesModel CodesProofs EntropyModel EntropyProofs ProgLogic HistModel HistProofs PropsCodes.

(** * C14 *)

Lemma upd_app_r {A} (l1 l2 : list A) i v : upd (l1 ++ l2) (length l1 + i) v = l1 ++ upd l2 i v.
Proof. induction l1; cbn [length app Nat.add upd]; [reflexivity|]. rewrite IHl1. reflexivity. Qed.

Lemma ans_fill_spec i c n : forall j done todo, (n <= length todo)%nat ->
  ans_fill i c j n (length done) (done ++ todo) =
    Some ((length done + n)%nat, (done ++ map (fun k => (i, c, Z.of_nat k)) (seq j n)) ++ skipn n todo).
Proof.
  induction n as [|n IH]; intros j done todo H; cbn [ans_fill seq map skipn].
  - rewrite Nat.add_0_r, app_nil_r. reflexivity.
  - destruct todo as [|x todo]; cbn [length] in H; [lia|].
    destruct (Nat.ltb_spec (length done) (length (done ++ x :: todo))) as [_|B]; [|rewrite app_length in B; cbn [length] in B; lia].
    replace (upd (done ++ x :: todo) (length done) (i, c, Z.of_nat j)) with ((done ++ [(i, c, Z.of_nat j)]) ++ todo).
    2:{ rewrite <- (Nat.add_0_r (length done)) at 1. rewrite upd_app_r, <- app_assoc. reflexivity. }
    replace (S (length done)) with (length (done ++ [(i, c, Z.of_nat j)])) by (rewrite app_length; cbn; lia).
    rewrite IH by lia. rewrite app_length. cbn [length skipn]. f_equal. f_equal; [lia|].
    rewrite <- !app_assoc. reflexivity.
Qed.

Lemma ans_fill_overflow i c n : forall j done todo, (length todo < n)%nat ->
  ans_fill i c j n (length done) (done ++ todo) = None.
Proof.
  induction n as [|n IH]; intros j done todo H; [lia|]. cbn [ans_fill].
  destruct todo as [|x todo].
  - rewrite app_nil_r. rewrite Nat.ltb_irrefl. reflexivity.
  - cbn [length] in H. destruct (Nat.ltb_spec (length done) (length (done ++ x :: todo))) as [_|B]; [|reflexivity].
    replace (upd (done ++ x :: todo) (length done) (i, c, Z.of_nat j)) with ((done ++ [(i, c, Z.of_nat j)]) ++ todo).
    2:{ rewrite <- (Nat.add_0_r (length done)) at 1. rewrite upd_app_r, <- app_assoc. reflexivity. }
    replace (S (length done)) with (length (done ++ [(i, c, Z.of_nat j)])) by (rewrite app_length; cbn; lia).
    apply IH. lia.
Qed.

Lemma ans_fill_all_spec counts : forall i done todo, Forall (fun c => 0 <= c) counts ->
  ans_fill_all i counts (length done) (done ++ todo) =
    if sumZ counts <=? Z.of_nat (length todo)
    then Some ((length done + Z.to_nat (sumZ counts))%nat, (done ++ ans_map_from i counts) ++ skipn (Z.to_nat (sumZ counts)) todo)
    else None.
Proof.
  induction counts as [|c r IH]; intros i done todo H; cbn [ans_fill_all sumZ fold_right ans_map_from].
  - destruct (Z.leb_spec 0 (Z.of_nat (length todo))); [|lia]. cbn [Z.to_nat skipn]. rewrite Nat.add_0_r, app_nil_r. reflexivity.
  - inversion H as [|? ? Hc Hr]; subst. fold (sumZ r). pose proof (sumZ_nonneg r Hr) as Sr.
    destruct (Z.le_gt_cases c (Z.of_nat (length todo))) as [Hle|Hgt].
    + rewrite ans_fill_spec by lia. cbn [obind].
      set (d := done ++ map (fun k : nat => (i, c, Z.of_nat k)) (seq 0 (Z.to_nat c))).
      replace (length done + Z.to_nat c)%nat with (length d) by (unfold d; rewrite app_length, map_length, seq_length; reflexivity).
      rewrite IH by exact Hr. rewrite skipn_length.
      destruct (Z.leb_spec (sumZ r) (Z.of_nat (length todo - Z.to_nat c))), (Z.leb_spec (c + sumZ r) (Z.of_nat (length todo))); try lia; [|reflexivity].
      f_equal. f_equal.
      * unfold d. rewrite app_length, map_length, seq_length. lia.
      * unfold d. rewrite <- !app_assoc. do 3 f_equal. rewrite skipn_skipn'. f_equal. lia.
    + rewrite ans_fill_overflow by lia. cbn [obind]. destruct (Z.leb_spec (c + sumZ r) (Z.of_nat (length todo))); [lia|reflexivity].
Qed.

(** The table fits exactly when the counts sum to 1024 (it is reported complete),
    is reported incomplete when they sum to less, and would be overrun when they
    sum to more. *)
Theorem C14_ans_table_init :
  forall (counts : list Z) (garbage : list ans_entry),
    Forall (fun c => 0 <= c) counts -> length garbage = 1024%nat ->
    match ans_init counts garbage with
    | None => 1024 < sumZ counts
    | Some (_, false) => sumZ counts < 1024
    | Some (tab, true) => sumZ counts = 1024 /\ length tab = 1024%nat /\
        forall s j, 0 <= s -> 0 <= j < ans_freq counts s ->
          nth_error tab (Z.to_nat (ans_start counts s + j)) = Some (s, ans_freq counts s, j)
    end.
Proof.
  intros counts garbage H L. unfold ans_init.
  pose proof (ans_fill_all_spec counts 0 [] garbage H) as E. cbn [length app] in E. rewrite E, L. clear E.
  pose proof (sumZ_nonneg counts H) as S0.
  destruct (Z.leb_spec (sumZ counts) (Z.of_nat 1024)); cbn [obind]; [|lia].
  rewrite Nat.add_0_l, Z2Nat.id by exact S0. unfold kAnsTab.
  destruct (Z.eqb_spec (sumZ counts) 1024) as [E|N]; [|lia].
  pose proof (ans_map_length 0 counts H) as LM.
  split; [exact E|]. rewrite E. rewrite skipn_all2 by lia. rewrite app_nil_r. cbn [app]. split; [unfold ans_entry; lia|].
  intros s j Hs Hj. exact (ans_map_nth counts 0 s j H Hs Hj).
Qed.
Print Assumptions C14_ans_table_init.

(** Every histogram that the reader accepts, from any bytes and in any pieces,
    has 18 counts in 0..1024 summing to 1024, and its table is complete. *)
Theorem C14_accepted_histograms_are_complete :
  forall (sec : list Z) (avails : list nat) (h : list Z) (used : nat) (garbage : list ans_entry),
    bytes sec -> nondecreasing 0 avails -> Forall (fun x => (x <= length sec)%nat) avails ->
    section_calls true sec (Need 207 read_histogram) br_init 0 avails = SDone h used ->
    length garbage = 1024%nat ->
    length h = 18%nat /\ Forall (fun c => 0 <= c <= 1024) h /\ sumZ h = 1024 /\
    exists tab, ans_init h garbage = Some (tab, true).
Proof.
  intros sec avails h u garbage Hb Hm Hle E Lg.
  assert (C : complete_histogram h).
  { eapply section_pall; [exact Hb| | |exact Hm|exact Hle|exact E].
    - cbn [bok]. apply pub_bok with (P := complete_histogram). exact read_histogram_pub.
    - cbn [pall]. eapply pub_pall, read_histogram_pub. }
  destruct C as (C1 & C2 & C3). split; [exact C1|]. split; [exact C2|]. split; [exact C3|].
  assert (N : Forall (fun c => 0 <= c) h) by (eapply Forall_impl; [|exact C2]; cbv beta; intros; lia).
  pose proof (C14_ans_table_init h garbage N Lg) as T. unfold kAnsTab in C3.
  destruct (ans_init h garbage) as [[tab []]|]; [exists tab; reflexivity|lia|lia].
Qed.
Print Assumptions C14_accepted_histograms_are_complete.

(** The static-tree walks stay inside the trees. *)
Theorem C14_static_tree_walks_in_bounds :
  forall strict bits v rest,
    (arun strict read_length bits = Some (v, rest) -> 3 <= v <= 18) /\
    (arun strict read_logcount bits = Some (v, rest) -> 0 <= v <= 10) /\
    ((8 <= length bits)%nat -> arun strict read_length bits <> None) /\
    ((6 <= length bits)%nat -> arun strict read_logcount bits <> None).
Proof.
  intros strict bits v rest.
  assert (W : forall fuel tree lo hi pos delta bits, short_ok fuel tree pos delta lo hi = true -> (fuel <= length bits)%nat ->
            arun strict (read_short fuel tree pos delta) bits <> None).
  { induction fuel as [|f IH]; intros tree lo hi pos delta l H Hl; [discriminate|].
    cbn [short_ok forallb] in H. rewrite !andb_true_iff in H. destruct H as (H0 & H1 & _).
    destruct l as [|b l]; cbn [length] in Hl; [lia|].
    cbn [read_short]. unfold Read. cbn [arun]. destruct (Nat.leb_spec 1 (length (b :: l))) as [_|X]; [|cbn [length] in X; lia].
    cbn [skipn]. assert (E : peek 1 (b :: l) = 0 \/ peek 1 (b :: l) = 1).
    { pose proof (peek_range 1 (b :: l)) as R. rewrite pow1 in R. lia. }
    destruct E as [->| ->].
    - destruct (nth_error tree (Z.to_nat (pos + delta + 0))) as [d|]; [|discriminate].
      destruct (0 <? d); [|cbn [arun]; discriminate]. eapply IH; [exact H0|lia].
    - destruct (nth_error tree (Z.to_nat (pos + delta + 1))) as [d|]; [|discriminate].
      destruct (0 <? d); [|cbn [arun]; discriminate]. eapply IH; [exact H1|lia]. }
  destruct static_trees_in_bounds as [B1 B2].
  split; [|split; [|split]].
  - intros E. exact (arun_pall _ _ _ _ _ _ (pub_pall _ _ _ read_length_pub) E).
  - intros E. exact (arun_pall _ _ _ _ _ _ (pub_pall _ _ _ read_logcount_pub) E).
  - intros Hl. eapply W; [exact B1|exact Hl].
  - intros Hl. eapply W; [exact B2|exact Hl].
Qed.
Print Assumptions C14_static_tree_walks_in_bounds.

(** * C16 *)

(** [rnd n] is the rounded target of symbol [n], [up1], [up2] are arbitrary
    outcomes of the floating-point comparisons. *)
Theorem C16_normalised_histogram :
  forall (rnd : nat -> Z) (up1 up2 : nat -> bool) (h cs : list Z) (omit : nat),
    length h = 18%nat -> Forall (fun c => 0 <= c) h -> (forall n, 0 <= rnd n <= 1024) ->
    (exists s, 0 < nth s h 0) ->
    normalize_counts rnd up1 up2 h = Some (cs, omit) ->
    length cs = 18%nat /\ sumZ cs = 1024 /\ Forall (fun c => 0 <= c) cs /\
    (forall s, 0 < nth s cs 0 <-> 0 < nth s h 0) /\
    (* every count but the omitted one has at most (log2 + 1) / 2 bits below its leading bit *)
    ((exists s t, s <> t /\ 0 < nth s h 0 /\ 0 < nth t h 0) ->
     0 < nth omit cs 0 /\
     forall s, s <> omit -> 0 < nth s cs 0 ->
       nth s cs 0 < 1024 /\
       let l := Z.log2 (nth s cs 0) in exists m, 0 <= m /\ nth s cs 0 = m * 2 ^ (l - (l + 1) / 2)).
Proof.
  intros rnd up1 up2 h cs omit L N Hr [s Hs] E.
  assert (Hin : forall s, 0 < nth s h 0 -> In s (used h)).
  { intros t Ht. apply used_In. split; [|exact Ht]. destruct (Nat.lt_ge_cases t (length h)); [assumption|].
    rewrite nth_overflow in Ht by assumption. lia. }
  assert (U : used h <> []). { intros U. specialize (Hin s Hs). rewrite U in Hin. contradiction. }
  destruct (normalize_spec rnd up1 up2 h cs omit (conj L N) Hr U E) as (A1 & A2 & A3 & A4 & A5).
  split; [exact A1|]. split; [exact A3|]. split; [exact A2|]. split; [exact A4|].
  intros (t1 & t2 & Hne & H1 & H2).
  assert (L2 : (2 <= length (used h))%nat).
  { pose proof (Hin t1 H1) as I1. pose proof (Hin t2 H2) as I2.
    destruct (used h) as [|x [|y l]]; cbn [In length] in *; [contradiction| |lia]. destruct I1 as [->|[]], I2 as [->|[]]. congruence. }
  specialize (A5 L2). destruct A5 as [S1 S2 S3 S4 S5 S6 S7]. split; [exact S5|].
  intros k Hk Hp.
  assert (Hk18 : (k < kAnsSymbols)%nat).
  { destruct (Nat.lt_ge_cases k kAnsSymbols); [assumption|]. rewrite nth_overflow in Hp; lia. }
  destruct (S6 k Hk18 Hk) as [Z0|[R1 R2]]; [lia|]. split; [lia|]. cbv zeta.
  unfold smallest_increment in R2. rewrite Z.shiftl_1_l in R2. unfold pop_precision in R2.
  set (l := Z.log2 (nth k cs 0)) in *.
  assert (0 <= l) by apply Z.log2_nonneg. assert (0 <= l - (l + 1) / 2) by dlia.
  pose proof (pow2_pos (l - (l + 1) / 2) ltac:(assumption)) as P.
  exists (nth k cs 0 / 2 ^ (l - (l + 1) / 2)). split; [apply Z.div_pos; lia|].
  pose proof (Z.div_mod (nth k cs 0) (2 ^ (l - (l + 1) / 2)) ltac:(lia)) as D. rewrite R2 in D. lia.
Qed.
Print Assumptions C16_normalised_histogram.

(** The process never aborts in NormalizeCounts: with targets [T n / D] summing
    to 1024 up to 1/4, rounded to nearest, and comparisons decided correctly up
    to 1/4, normalisation succeeds for every histogram, whatever the decisions
    of the first attempt were. *)
Theorem C16_normalisation_never_aborts :
  forall (D : Z) (T rnd : nat -> Z) (up1 up2 : nat -> bool) (h : list Z),
    0 < D -> length h = 18%nat -> Forall (fun c => 0 <= c) h ->
    (forall n, 0 <= rnd n <= 1024) ->
    (forall n, 0 < T n -> 2 * D * rnd n <= 2 * T n + D < 2 * D * (rnd n + 1)) ->
    (forall n, 0 < nth n h 0 -> 0 < T n) ->
    4 * Z.abs (target_sum T 0 h - 1024 * D) <= D ->
    min_error_decisions D T rnd up2 0 h 0 0 ->
    normalize_counts rnd up1 up2 h <> None.
Proof.
  intros D T rnd up1 up2 h HD L N Hr Hrnd HT Hsum Hdec. unfold normalize_counts.
  destruct (used h) as [|s [|t l]]; [discriminate|discriminate|].
  destruct (rebalance_succeeds D T rnd up2 h HD (conj L N) Hr Hrnd) as (cs & p & E); auto.
  rewrite E. unfold rebalance.
  destruct (rebalance_loop rnd up1 0 h 0 None (-1)) as [[c1 s1] p1] eqn:E1.
  destruct p1 as [p1|].
  - cbv zeta. destruct (0 <? _); discriminate.
  - exfalso. unfold rebalance in E.
    destruct (rebalance_loop rnd up2 0 h 0 None (-1)) as [[c2 s2] p2] eqn:E2.
    destruct (rebalance_loop_spec rnd up1 h 0 0 None (-1) c1 s1 None N Hr ltac:(lia) E1) as (A1 & A2 & A3 & A4).
    destruct (rebalance_loop_spec rnd up2 h 0 0 None (-1) c2 s2 p2 N Hr ltac:(lia) E2) as (B1 & B2 & B3 & B4).
    destruct A4 as [[_ A4]|(o & _ & X & _)]; [|discriminate].
    destruct p2 as [p2|]; [|discriminate].
    destruct B4 as [[X _]|(o & O1 & O2 & O3 & O4 & O5)]; [discriminate|].
    rewrite B1 in O1. specialize (A3 o O1). specialize (B3 o O1). specialize (A4 o ltac:(lia)).
    unfold lg in *. destruct (0 <? nth o h 0).
    + destruct A3 as [A3 _]. destruct (Z.ltb_spec 0 (nth o c1 0)); [|lia]. pose proof (Z.log2_nonneg (nth o c1 0)). lia.
    + rewrite B3 in O3. change (-1 < -1) in O3. lia.
Qed.
Print Assumptions C16_normalisation_never_aborts.

(** * C15 *)

(** A histogram stored in a stream (followed by anything) and read back, the
    section arriving in any pieces: the decoder gets the very counts the encoder
    codes with. *)
Theorem C15_histogram_round_trip :
  forall (rnd : nat -> Z) (up1 up2 : nat -> bool) (h cs : list Z) (omit : nat) (fs : list (nat * Z)) (avails : list nat),
    length h = 18%nat -> Forall (fun c => 0 <= c) h -> (forall n, 0 <= rnd n <= 1024) ->
    (exists s, 0 < nth s h 0) ->
    normalize_counts rnd up1 up2 h = Some (cs, omit) -> small_fields fs ->
    exists stored, store_histogram rnd up1 up2 h = Some (cs, stored) /\ fields_ok stored /\
      let out := pack (fields_bits (stored ++ fs)) in
      (nondecreasing 0 avails -> Forall (fun x => (x <= length out)%nat) avails -> In (length out) avails ->
       section_calls true out (then_fields (Need 207 read_histogram) (map fst fs)) br_init 0 avails
         = SDone (cs, map snd fs) (length out)).
Proof.
  intros rnd up1 up2 h cs omit fs avails L N Hr [s Hs] E Hfs.
  assert (U : used h <> []).
  { intros U. assert (I : In s (used h)).
    { apply used_In. split; [|exact Hs]. destruct (Nat.lt_ge_cases s (length h)); [assumption|]. rewrite nth_overflow in Hs; lia. }
    rewrite U in I. contradiction. }
  destruct (store_histogram_dec rnd up1 up2 h cs omit (conj L N) Hr U E) as (st & E1 & F & D).
  exists st. split; [exact E1|]. split; [exact F|]. cbv zeta. rewrite fields_bits_app. intros H1 H2 H3.
  set (out := pack (fields_bits st ++ fields_bits fs)) in *.
  assert (Hok : fields_ok fs) by (eapply Forall_impl; [|exact Hfs]; cbv beta; intros x [? ?]; split; [lia|assumption]).
  rewrite section_chunking; auto.
  - unfold out. cbn [negb]. rewrite (asection_pack _ _ _ (cs, map snd fs)); [reflexivity|].
    unfold then_fields. cbn [bind arun andb]. rewrite arun_bind, <- app_assoc, D by lia.
    rewrite arun_bind, arun_read_fields by exact Hok. reflexivity.
  - apply pack_bytes.
  - apply bok_bind.
    + cbn [bok]. apply pub_bok with (P := complete_histogram). exact read_histogram_pub.
    + intros x. apply bok_bind; [|intros; exact I].
      apply bok_read_fields. rewrite Forall_map. eapply Forall_impl; [|exact Hfs]. cbv beta; intros y [? _]; assumption.
Qed.
Print Assumptions C15_histogram_round_trip.

(** Non-vacuity: a histogram with six used symbols, targets in 1/1000. *)
Definition ex_hist : list Z := [700; 0; 3; 90; 0; 0; 40; 1; 0; 0; 166; 0; 0; 0; 0; 0; 0; 0].
Definition ex_T (n : nat) : Z := nth n ex_hist 0 * 1024.
Definition ex_rnd (n : nat) : Z := (2 * ex_T n + 1000) / 2000.

Example C16_case :
  normalize_counts ex_rnd (fun _ => false) (fun _ => false) ex_hist =
    Some ([724; 0; 3; 88; 0; 0; 40; 1; 0; 0; 168; 0; 0; 0; 0; 0; 0; 0], 0%nat).
Proof. vm_compute. reflexivity. Qed.

Example C16_never_aborts_case :
  sumZ ex_hist = 1000 /\ 4 * Z.abs (target_sum ex_T 0 ex_hist - 1024 * 1000) <= 1000 /\
  min_error_decisions 1000 ex_T ex_rnd (fun _ => false) 0 ex_hist 0 0.
Proof. repeat split; vm_compute; try reflexivity; try discriminate. Qed.

Example C15_case :
  exists cs fs, store_histogram ex_rnd (fun _ => false) (fun _ => false) ex_hist = Some (cs, fs) /\ length fs = 17%nat.
Proof. eexists _, _. split; [vm_compute; reflexivity|vm_compute; reflexivity]. Qed.
