(** Proofs about ClusterModel.v. *)
From Verif Require Import Base CoefProofs ClusterModel.
From Coq Require Import Sorting.Sorted.

(** * Sorted lists of cluster numbers *)

Lemma insert_uniq_In x l y : In y (insert_uniq x l) <-> y = x \/ In y l.
Proof.
  induction l as [|z l IH]; cbn [insert_uniq].
  - cbn [In]. intuition.
  - destruct (Nat.ltb_spec x z); [cbn [In]; intuition|]. destruct (Nat.eqb_spec x z) as [->|]; cbn [In]; [intuition|]. rewrite IH. intuition.
Qed.
Lemma insert_uniq_sorted x l : StronglySorted lt l -> StronglySorted lt (insert_uniq x l).
Proof.
  induction l as [|z l IH]; intros H; cbn [insert_uniq]; [repeat constructor|].
  inversion H as [|? ? H1 H2]; subst. destruct (Nat.ltb_spec x z).
  - constructor; [exact H|]. constructor; [assumption|]. eapply Forall_impl; [|exact H2]. intros; lia.
  - destruct (Nat.eqb_spec x z); [exact H|]. constructor; [apply IH, H1|]. apply Forall_forall. intros y Hy. apply insert_uniq_In in Hy.
    destruct Hy as [->|Hy]; [lia|]. rewrite Forall_forall in H2. apply H2, Hy.
Qed.
Lemma uniq_In l x : In x (uniq l) <-> In x l.
Proof. unfold uniq. induction l as [|y l IH]; cbn [fold_right]; [reflexivity|]. rewrite insert_uniq_In, IH. cbn [In]. intuition. Qed.
Lemma uniq_sorted l : StronglySorted lt (uniq l).
Proof. unfold uniq. induction l; cbn [fold_right]; [constructor|]. apply insert_uniq_sorted. assumption. Qed.

Lemma sorted_NoDup l : StronglySorted lt l -> NoDup l.
Proof.
  intros H. induction H as [|x l H IH F]; constructor; [|exact IH]. intros I. rewrite Forall_forall in F. specialize (F x I). lia.
Qed.

Lemma erase_In b l x : StronglySorted lt l -> In b l -> (In x (erase_from b l) <-> In x l /\ x <> b).
Proof.
  intros H I. induction H as [|y l H IH F]; [destruct I|]. cbn [erase_from]. rewrite Forall_forall in F. destruct (Nat.leb_spec b y) as [L|L].
  - assert (b = y) as ->. { destruct I as [->|I]; [reflexivity|]. specialize (F b I). lia. }
    cbn [In]. split; [intros Hx; specialize (F x Hx); split; [auto|lia]|]. intros [[->|Hx] N]; [lia|exact Hx].
  - destruct I as [->|I]; [lia|]. cbn [In]. rewrite (IH I). split; [|tauto]. intros [->|[A B]]; [|auto]. split; [auto|lia].
Qed.
Lemma erase_incl b l x : In x (erase_from b l) -> In x l.
Proof. induction l as [|y l IH]; cbn [erase_from]; [auto|]. destruct (b <=? y)%nat; cbn [In]; intuition. Qed.
Lemma erase_sorted b l : StronglySorted lt l -> StronglySorted lt (erase_from b l).
Proof.
  intros H. induction H as [|y l H IH F]; cbn [erase_from]; [constructor|]. destruct (b <=? y)%nat; [exact H|]. constructor; [exact IH|].
  rewrite Forall_forall in *. intros x Hx. apply F, (erase_incl b), Hx.
Qed.
Lemma erase_length b l : StronglySorted lt l -> In b l -> S (length (erase_from b l)) = length l.
Proof.
  intros H I. induction H as [|y l H IH F]; [destruct I|]. cbn [erase_from]. rewrite Forall_forall in F. destruct (Nat.leb_spec b y) as [L|L]; [reflexivity|].
  destruct I as [->|I]; [lia|]. cbn [length]. rewrite <- (IH I). reflexivity.
Qed.

(** * The queue of pairs *)

Lemma pair_lt_irrefl p : pair_lt p p = false.
Proof. unfold pair_lt. rewrite Z.eqb_refl. cbn [negb]. apply Nat.ltb_irrefl. Qed.
Lemma pair_lt_trans p q r : pair_lt p q = true -> pair_lt q r = true -> pair_lt p r = true.
Proof.
  unfold pair_lt. destruct (Z.eqb_spec (hp_diff p) (hp_diff q)); destruct (Z.eqb_spec (hp_diff q) (hp_diff r)); destruct (Z.eqb_spec (hp_diff p) (hp_diff r)); cbn [negb]; lia.
Qed.

Definition queue_ok (cl : list nat) (ps : list hpair) : Prop :=
  Forall (fun p => (hp_1 p < hp_2 p)%nat /\ In (hp_1 p) cl /\ In (hp_2 p) cl) ps /\
  match ps with [] => True | f :: _ => Forall (fun p => pair_lt f p = false) ps end.

Definition arrays_ok (N : nat) (st : cstate) : Prop := length (cl_out st) = N /\ length (cl_cost st) = N /\ length (cl_size st) = N.

Lemma nth_error_in {A} (l : list A) i : (i < length l)%nat -> exists a, nth_error l i = Some a.
Proof. intros H. destruct (nth_error l i) eqn:E; [eauto|]. apply nth_error_None in E. lia. Qed.

Lemma compare_and_push_ok C N st cl i1 i2 ps : arrays_ok N st -> (forall k, In k cl -> (k < N)%nat) -> In i1 cl -> In i2 cl -> queue_ok cl ps ->
  exists ps', compare_and_push C st i1 i2 ps = Some ps' /\ queue_ok cl ps' /\ (i1 <> i2 \/ ps <> [] -> ps' <> []).
Proof.
  intros (L1 & L2 & L3) B H1 H2 [Q1 Q2]. unfold compare_and_push. destruct (Nat.eqb_spec i1 i2) as [E|E].
  { exists ps. split; [reflexivity|]. split; [split; assumption|]. intros [N0|N0]; [congruence|exact N0]. }
  assert (exists a b, (if (i2 <? i1)%nat then (i2, i1) else (i1, i2)) = (a, b) /\ (a < b)%nat /\ In a cl /\ In b cl) as (a & b & -> & Hab & Ha & Hb).
  { destruct (Nat.ltb_spec i2 i1); do 2 eexists; (split; [reflexivity|]); (split; [lia|auto]). }
  pose proof (B a Ha). pose proof (B b Hb).
  destruct (nth_error_in (cl_out st) a ltac:(lia)) as (h1 & ->). destruct (nth_error_in (cl_out st) b ltac:(lia)) as (h2 & ->).
  destruct (nth_error_in (cl_cost st) a ltac:(lia)) as (c1 & ->). destruct (nth_error_in (cl_cost st) b ltac:(lia)) as (c2 & ->).
  destruct (nth_error_in (cl_size st) a ltac:(lia)) as (s1 & ->). destruct (nth_error_in (cl_size st) b ltac:(lia)) as (s2 & ->).
  unfold obind. set (base := c_base C s1 s2 c1 c2).
  match goal with |- context[match ?X with None => Some ps | _ => _ end] => set (combo := X) end.
  destruct combo as [cc|] eqn:Ec.
  - set (p := mkPair a b cc (c_add C base cc)).
    assert (((hp_1 p < hp_2 p)%nat /\ In (hp_1 p) cl /\ In (hp_2 p) cl)) as Hp by (cbn [p hp_1 hp_2]; auto).
    destruct ps as [|f r].
    + exists [p]. split; [reflexivity|]. split; [|discriminate]. split; repeat constructor; try apply Hp. apply pair_lt_irrefl.
    + destruct (pair_lt f p) eqn:Ef.
      * exists (p :: r ++ [f]). split; [reflexivity|]. split; [|discriminate]. inversion Q1 as [|? ? Qf Qr]; subst. inversion Q2 as [|? ? Rf Rr]; subst. split.
        -- constructor; [exact Hp|]. apply Forall_app. split; [exact Qr|]. constructor; [exact Qf|constructor].
        -- assert (forall q, pair_lt f q = false -> pair_lt p q = false) as T.
           { intros q Hq. destruct (pair_lt p q) eqn:G; [|reflexivity]. rewrite (pair_lt_trans _ _ _ Ef G) in Hq. discriminate. }
           constructor; [apply pair_lt_irrefl|]. apply Forall_app. split; [eapply Forall_impl; [|exact Rr]; exact T|]. constructor; [apply T, pair_lt_irrefl|constructor].
      * exists ((f :: r) ++ [p]). split; [reflexivity|]. split; [|discriminate]. split; [apply Forall_app; split; [exact Q1|constructor; [exact Hp|constructor]]|].
        cbn [app]. inversion Q2 as [|? ? Rf Rr]; subst. constructor; [exact Rf|]. apply Forall_app. split; [exact Rr|]. constructor; [exact Ef|constructor].
  - exists ps. split; [reflexivity|]. split; [split; assumption|]. intros _ ->. subst combo.
    destruct (htotal h1 =? 0); [discriminate|]. destruct (htotal h2 =? 0); discriminate.
Qed.

Lemma push_with_ok C N st cl i : arrays_ok N st -> (forall k, In k cl -> (k < N)%nat) -> In i cl ->
  forall js ps, (forall j, In j js -> In j cl) -> queue_ok cl ps ->
  exists ps', push_with C st i js ps = Some ps' /\ queue_ok cl ps' /\ ((exists j, In j js /\ j <> i) \/ ps <> [] -> ps' <> []).
Proof.
  intros A B Hi. induction js as [|j js IH]; intros ps Hj Q; cbn [push_with].
  - exists ps. split; [reflexivity|]. split; [exact Q|]. intros [(j & [] & _)|H]; exact H.
  - destruct (compare_and_push_ok C N st cl i j ps A B Hi (Hj j (or_introl eq_refl)) Q) as (p1 & E & Q1 & N1). rewrite E. unfold obind.
    destruct (IH p1 (fun k Hk => Hj k (or_intror Hk)) Q1) as (p2 & E2 & Q2 & N2). exists p2. split; [exact E2|]. split; [exact Q2|].
    intros [(k & [->|Hk] & Nk)|H]; apply N2; [right; apply N1; auto|left; eauto|right; apply N1; auto].
Qed.
Lemma push_all_ok C N st cl : arrays_ok N st -> (forall k, In k cl -> (k < N)%nat) ->
  forall js ps, (forall j, In j js -> In j cl) -> NoDup js -> queue_ok cl ps ->
  exists ps', push_all C st js ps = Some ps' /\ queue_ok cl ps' /\ ((2 <= length js)%nat \/ ps <> [] -> ps' <> []).
Proof.
  intros A B. induction js as [|j js IH]; intros ps Hj D Q; cbn [push_all].
  - exists ps. split; [reflexivity|]. split; [exact Q|]. cbn [length]. intros [H|H]; [lia|exact H].
  - inversion D as [|? ? D1 D2]; subst.
    destruct (push_with_ok C N st cl j A B (Hj j (or_introl eq_refl)) js ps (fun k Hk => Hj k (or_intror Hk)) Q) as (p1 & E & Q1 & N1).
    rewrite E. unfold obind. destruct (IH p1 (fun k Hk => Hj k (or_intror Hk)) D2 Q1) as (p2 & E2 & Q2 & N2). exists p2. split; [exact E2|]. split; [exact Q2|].
    cbn [length]. intros [H|H]; apply N2; right; apply N1; [left|right; exact H]. destruct js as [|k js]; [cbn in H; lia|]. exists k. split; [left; reflexivity|].
    intros ->. apply D1. left. reflexivity.
Qed.

Lemma compact_ok a b : forall ps f kept,
  (match kept with [] => Forall (fun p => pair_lt f p = false) ps | k :: _ => k = f /\ Forall (fun p => pair_lt f p = false) kept end) ->
  let r := compact a b f kept ps in
  (forall p, In p r -> In p kept \/ (In p ps /\ meets a b p = false)) /\ match r with [] => True | g :: _ => Forall (fun p => pair_lt g p = false) r end.
Proof.
  induction ps as [|p ps IH]; intros f kept H; cbn [compact].
  - cbv zeta. split; [auto|]. destruct kept as [|k kt]; [exact I|]. destruct H as [-> H]. exact H.
  - destruct (meets a b p) eqn:M.
    + assert (match kept with [] => Forall (fun q => pair_lt f q = false) ps | k :: _ => k = f /\ Forall (fun q => pair_lt f q = false) kept end) as H'
        by (destruct kept; [exact (Forall_inv_tail H)|exact H]).
      destruct (IH f kept H') as [I1 I2]. split; [|exact I2]. intros q Hq. destruct (I1 q Hq) as [J|[J1 J2]]; [auto|]. right. split; [right; exact J1|exact J2].
    + destruct kept as [|k kt].
      * rewrite (Forall_inv H). destruct (IH p [p]) as [I1 I2]. { split; [reflexivity|]. constructor; [apply pair_lt_irrefl|constructor]. }
        split; [|exact I2]. intros q Hq. right. destruct (I1 q Hq) as [[->|[]]|[J1 J2]]; [split; [left; reflexivity|exact M]|split; [right; exact J1|exact J2]].
      * destruct H as [-> H]. destruct (pair_lt f p) eqn:Ef.
        -- assert (forall q, pair_lt f q = false -> pair_lt p q = false) as T.
           { intros q Hq. destruct (pair_lt p q) eqn:G; [|reflexivity]. rewrite (pair_lt_trans _ _ _ Ef G) in Hq. discriminate. }
           destruct (IH p (p :: kt ++ [f])) as [I1 I2].
           { split; [reflexivity|]. constructor; [apply pair_lt_irrefl|]. apply Forall_app. split; [eapply Forall_impl; [exact T|exact (Forall_inv_tail H)]|].
             constructor; [apply T, pair_lt_irrefl|constructor]. }
           split; [|exact I2]. intros q Hq. destruct (I1 q Hq) as [J|[J1 J2]]; [|right; split; [right; exact J1|exact J2]].
           destruct J as [->|J]; [right; split; [left; reflexivity|exact M]|]. left. apply in_app_or in J. destruct J as [J|[->|[]]]; [right; exact J|left; reflexivity].
        -- destruct (IH f ((f :: kt) ++ [p])) as [I1 I2].
           { cbn [app]. split; [reflexivity|]. change (Forall (fun q => pair_lt f q = false) ((f :: kt) ++ [p])). apply Forall_app. split; [exact H|constructor; [exact Ef|constructor]]. }
           split; [|exact I2]. intros q Hq. destruct (I1 q Hq) as [J|[J1 J2]]; [|right; split; [right; exact J1|exact J2]].
           apply in_app_or in J. destruct J as [J|[->|[]]]; [left; exact J|right; split; [left; reflexivity|exact M]].
Qed.

(** * Sums of histograms *)

(** Count of symbol [j] over the inputs mapped to [k]. *)
Fixpoint csum (ins : list hist) (syms : list nat) (k j : nat) : Z :=
  match ins, syms with
  | h :: r, s :: t => (if (s =? k)%nat then nth j h 0 else 0) + csum r t k j
  | _, _ => 0
  end.

Lemma hadd_length a b : length a = length b -> length (hadd a b) = length a.
Proof. revert b. induction a as [|x a IH]; intros b H; destruct b; cbn [hadd length] in *; try lia. rewrite IH; lia. Qed.
Lemma hadd_nth a b j : length a = length b -> nth j (hadd a b) 0 = nth j a 0 + nth j b 0.
Proof.
  revert b j. induction a as [|x a IH]; intros b j H; destruct b as [|y b]; cbn [length] in H; try lia; [destruct j; reflexivity|].
  destruct j; cbn [hadd nth]; [reflexivity|]. apply IH. lia.
Qed.
Lemma csum_app i1 i2 s1 s2 k j : length i1 = length s1 -> csum (i1 ++ i2) (s1 ++ s2) k j = csum i1 s1 k j + csum i2 s2 k j.
Proof. revert s1. induction i1 as [|h i1 IH]; intros s1 H; destruct s1; cbn [length app csum] in *; try lia. rewrite IH by lia. lia. Qed.
Lemma csum_notin ins syms k j : ~ In k syms -> csum ins syms k j = 0.
Proof.
  revert syms. induction ins as [|h ins IH]; intros syms H; destruct syms as [|s t]; cbn [csum]; try reflexivity.
  rewrite IH by (intros G; apply H; right; exact G). destruct (Nat.eqb_spec s k) as [->|]; [|lia]. exfalso. apply H. left. reflexivity.
Qed.
Lemma csum_merge ins syms a b j : a <> b ->
  forall k, csum ins (map (fun s => if (s =? b)%nat then a else s) syms) k j =
    if (k =? a)%nat then csum ins syms a j + csum ins syms b j else if (k =? b)%nat then 0 else csum ins syms k j.
Proof.
  intros N k. revert syms. induction ins as [|h ins IH]; intros syms; destruct syms as [|s t]; cbn [map csum].
  1-3: destruct (k =? a)%nat, (k =? b)%nat; reflexivity.
  rewrite IH. clear IH. destruct (Nat.eqb_spec s b) as [E1|E1]; destruct (Nat.eqb_spec k a) as [E2|E2]; destruct (Nat.eqb_spec k b) as [E3|E3]; try (exfalso; congruence);
    repeat match goal with |- context[(?x =? ?y)%nat] => destruct (Nat.eqb_spec x y) end; try (exfalso; congruence); lia.
Qed.
Lemma csum_nonneg ins syms k j : Forall (Forall (fun x => 0 <= x)) ins -> 0 <= csum ins syms k j.
Proof.
  intros F. revert syms. induction F as [|h ins H F IH]; intros syms; destruct syms as [|s t]; cbn [csum]; try lia.
  specialize (IH t). assert (0 <= nth j h 0). { destruct (nth_in_or_default j h 0) as [I|E]; [rewrite Forall_forall in H; apply H, I|lia]. } destruct (s =? k)%nat; lia.
Qed.

(** Each used cluster's histogram is the sum of its inputs. *)
Definition sums_ok (ins : list hist) (out : list hist) (syms : list nat) : Prop :=
  forall k, In k syms -> exists h, nth_error out k = Some h /\ length h = 18%nat /\ forall j, nth j h 0 = csum ins syms k j.

(** What every step guarantees, on the slice of symbols it works on. *)
Definition step_ok (N : nat) (ins : list hist) (st st' : cstate) (syms syms' : list nat) : Prop :=
  arrays_ok N st' /\ length syms' = length syms /\ incl syms' syms /\ sums_ok ins (cl_out st') syms' /\
  forall k, ~ In k syms -> nth_error (cl_out st') k = nth_error (cl_out st) k.

Lemma combine_loop_ok C N ins maxc : (1 <= maxc)%nat ->
  forall (fuel : nat) (relaxed : bool) st syms clusters pairs,
    arrays_ok N st -> StronglySorted lt clusters -> (forall k, In k clusters <-> In k syms) -> (forall k, In k clusters -> (k < N)%nat) ->
    queue_ok clusters pairs -> ((2 <= length clusters)%nat -> pairs <> []) -> sums_ok ins (cl_out st) syms ->
    (length clusters + (if relaxed then 0 else 1) <= fuel)%nat ->
    exists st' syms' n, combine_loop C fuel relaxed maxc st syms clusters pairs = Some (st', syms', n) /\ step_ok N ins st st' syms syms' /\
      (n <= maxc)%nat /\ exists cl, length cl = n /\ NoDup cl /\ forall k, In k cl <-> In k syms'.
Proof.
  intros Hm. induction fuel as [|fuel IH]; intros relaxed st syms clusters pairs A So Sm Bn Q Ne Su Fu.
  - destruct clusters; [|cbn [length] in Fu; lia]. exists st, syms, O. split; [destruct relaxed; reflexivity|]. split.
    { split; [exact A|]. split; [reflexivity|]. split; [apply incl_refl|]. split; [exact Su|reflexivity]. }
    split; [lia|]. exists (@nil nat). split; [reflexivity|]. split; [constructor|]. exact Sm.
  - cbn [combine_loop]. destruct (Nat.leb_spec (length clusters) (if relaxed then maxc else 1%nat)) as [L|L].
    { exists st, syms, (length clusters). split; [reflexivity|]. split.
      { split; [exact A|]. split; [reflexivity|]. split; [apply incl_refl|]. split; [exact Su|reflexivity]. }
      split; [destruct relaxed; lia|]. exists clusters. split; [reflexivity|]. split; [apply sorted_NoDup, So|exact Sm]. }
    destruct pairs as [|best ps]; [exfalso; apply Ne; [destruct relaxed; lia|reflexivity]|].
    destruct (negb relaxed && negb (c_neg C (hp_diff best))) eqn:Er.
    { destruct relaxed; [discriminate|]. apply (IH true st syms clusters (best :: ps) A So Sm Bn Q Ne Su). lia. }
    destruct Q as [Q1 Q2]. destruct (Forall_inv Q1) as (Hab & Ha & Hb).
    set (a := hp_1 best) in *. set (b := hp_2 best) in *. pose proof (Bn a Ha) as Na. pose proof (Bn b Hb) as Nb. destruct A as (A1 & A2 & A3).
    destruct (Su a (proj1 (Sm a) Ha)) as (ha & Ea & La & Va). destruct (Su b (proj1 (Sm b) Hb)) as (hb & Eb & Lb & Vb).
    destruct (nth_error_in (cl_size st) a ltac:(lia)) as (sa & Esa). destruct (nth_error_in (cl_size st) b ltac:(lia)) as (sb & Esb).
    rewrite Ea, Eb, Esa, Esb. unfold obind at 1 2 3 4.
    set (st1 := mkCl (upd (cl_out st) a (hadd ha hb)) (upd (cl_cost st) a (hp_combo best)) (upd (cl_size st) a (sa + sb))).
    set (syms1 := map (fun s => if (s =? b)%nat then a else s) syms). set (cl1 := erase_from b clusters).
    assert (arrays_ok N st1) as A1'. { unfold st1, arrays_ok. cbn [cl_out cl_cost cl_size]. rewrite !upd_length. auto. }
    assert (StronglySorted lt cl1) as So1 by (apply erase_sorted, So).
    assert (forall k, In k cl1 <-> In k clusters /\ k <> b) as Hc1 by (intros k; apply erase_In; assumption).
    assert (S (length cl1) = length clusters) as Lc by (apply erase_length; assumption).
    assert (forall k, In k cl1 <-> In k syms1) as Sm1.
    { intros k. rewrite Hc1, Sm. unfold syms1. rewrite in_map_iff. split.
      - intros [I N0]. exists k. split; [|exact I]. destruct (Nat.eqb_spec k b); congruence.
      - intros (s & E & I). destruct (Nat.eqb_spec s b) as [E'|N0]; rewrite <- E; [split; [apply Sm; exact Ha|lia]|split; [exact I|exact N0]]. }
    assert (In a cl1) as Ha1 by (apply Hc1; split; [exact Ha|lia]).
    assert (queue_ok cl1 (compact a b best [] (best :: ps))) as Q'.
    { destruct (compact_ok a b (best :: ps) best [] Q2) as [I1 I2]. split; [|exact I2]. apply Forall_forall. intros p Hp.
      destruct (I1 p Hp) as [[]|[J1 J2]]. rewrite Forall_forall in Q1. destruct (Q1 p J1) as (P1 & P2 & P3). split; [exact P1|].
      unfold meets in J2. rewrite !orb_false_iff, !Nat.eqb_neq in J2. destruct J2 as [[[J2 J3] J4] J5]. split; apply Hc1; auto. }
    destruct (push_with_ok C N st1 cl1 a A1' (fun k Hk => Bn k (proj1 (proj1 (Hc1 k) Hk))) Ha1 cl1 _ (fun j Hj => Hj) Q') as (ps' & Ep & Qp & Np).
    fold cl1 st1. rewrite Ep. unfold obind.
    assert (sums_ok ins (cl_out st1) syms1) as Su1.
    { intros k Hk. assert (k <> b) as Nkb by (apply Sm1, Hc1 in Hk; tauto). assert (In k syms) as Ik by (apply Sm1, Hc1 in Hk; destruct Hk as [Hk _]; apply Sm, Hk).
      unfold st1, syms1. cbn [cl_out]. destruct (Nat.eq_dec k a) as [Ek|Nk].
      - rewrite Ek. exists (hadd ha hb). split; [apply nth_error_upd_same; lia|]. split; [rewrite hadd_length; lia|]. intros j.
        rewrite csum_merge by lia. rewrite Nat.eqb_refl, hadd_nth by lia. rewrite Va, Vb. reflexivity.
      - destruct (Su k Ik) as (h & E & Lh & V). exists h. split; [rewrite nth_error_upd_other by lia; exact E|]. split; [exact Lh|]. intros j.
        rewrite csum_merge by lia. destruct (Nat.eqb_spec k a); [lia|]. destruct (Nat.eqb_spec k b); [lia|]. apply V. }
    destruct (IH relaxed st1 syms1 cl1 ps' A1' So1 Sm1 (fun k Hk => Bn k (proj1 (proj1 (Hc1 k) Hk))) Qp) as (st' & syms' & n & E & St & Hn & Cl).
    + intros H2. apply Np. left. destruct cl1 as [|x [|y cl1]]; [cbn in H2; lia|cbn in H2; lia|].
      apply sorted_NoDup in So1. inversion So1 as [|? ? D1 D2]; subst. destruct (Nat.eq_dec x a) as [->|]; [|exists x; split; [left; reflexivity|assumption]].
      exists y. split; [right; left; reflexivity|]. intros ->. apply D1. left. reflexivity.
    + exact Su1.
    + destruct relaxed; lia.
    + exists st', syms', n. split; [exact E|]. split; [|split; [exact Hn|exact Cl]]. destruct St as (T1 & T2 & T3 & T4 & T5).
      split; [exact T1|]. split; [rewrite T2; unfold syms1; apply map_length|]. split.
      * intros k Hk. apply T3 in Hk. apply Sm1, Hc1 in Hk. apply Sm, Hk.
      * split; [exact T4|]. intros k Hk. rewrite T5 by (intros G; apply Sm1, Hc1 in G; apply Hk, Sm, G). unfold st1. cbn [cl_out].
        apply nth_error_upd_other. intros ->. apply Hk, Sm, Ha.
Qed.

Lemma histogram_combine_ok C N ins maxc st syms : (1 <= maxc)%nat -> arrays_ok N st -> sums_ok ins (cl_out st) syms ->
  exists st' syms' n, histogram_combine C maxc st syms = Some (st', syms', n) /\ step_ok N ins st st' syms syms' /\
    (n <= maxc)%nat /\ exists cl, length cl = n /\ NoDup cl /\ forall k, In k cl <-> In k syms'.
Proof.
  intros Hm A Su. unfold histogram_combine.
  assert (forall k, In k (uniq syms) -> (k < N)%nat) as B.
  { intros k Hk. apply (proj1 (uniq_In _ _)) in Hk. destruct (Su k Hk) as (h & E & _). destruct A as (<- & _). apply nth_error_Some. rewrite E. discriminate. }
  destruct (push_all_ok C N st (uniq syms) A B (uniq syms) [] (fun j Hj => Hj) (sorted_NoDup _ (uniq_sorted _))) as (ps & E & Q & Ne).
  { split; [constructor|exact I]. }
  rewrite E. unfold obind. apply (combine_loop_ok C N ins maxc Hm); auto.
  - apply uniq_sorted.
  - intros k. apply uniq_In.
  - lia.
Qed.

(** * Remapping *)

Lemma best_of_ok C st h : forall ks best bits, (forall k, In k ks -> (k < length (cl_out st))%nat /\ (k < length (cl_cost st))%nat) ->
  exists b, best_of C st h ks best bits = Some b /\ (b = best \/ In b ks).
Proof.
  induction ks as [|k ks IH]; intros best bits B; cbn [best_of]; [eauto|]. destruct (B k (or_introl eq_refl)) as [B1 B2].
  destruct (nth_error_in (cl_out st) k B1) as (o & ->). destruct (nth_error_in (cl_cost st) k B2) as (c & ->). unfold obind.
  destruct (_ <? _); [destruct (IH k (c_dist C h o c) (fun j Hj => B j (or_intror Hj))) as (b & E & H)|destruct (IH best bits (fun j Hj => B j (or_intror Hj))) as (b & E & H)];
    exists b; (split; [exact E|]); cbn [In]; intuition.
Qed.
Lemma remap_syms_ok C st all : (forall k, In k all -> (k < length (cl_out st))%nat /\ (k < length (cl_cost st))%nat) ->
  forall ins prev, In prev all -> exists s, remap_syms C st all prev ins = Some s /\ length s = length ins /\ incl s all.
Proof.
  intros B. induction ins as [|h ins IH]; intros prev Hp; cbn [remap_syms].
  - exists []. split; [reflexivity|]. split; [reflexivity|intros x []].
  - destruct (B prev Hp) as [B1 B2]. destruct (nth_error_in (cl_out st) prev B1) as (o & ->). destruct (nth_error_in (cl_cost st) prev B2) as (c & ->).
    unfold obind at 1 2. destruct (best_of_ok C st h all prev (c_dist C h o c) B) as (b & -> & Hb). unfold obind at 1.
    assert (In b all) as Ib by (destruct Hb as [->|Hb]; assumption). destruct (IH b Ib) as (t & -> & L & I). unfold obind. exists (b :: t).
    split; [reflexivity|]. split; [cbn [length]; lia|]. intros x [<-|Hx]; [exact Ib|apply I, Hx].
Qed.

Lemma clear_all_spec ks : forall out k, (forall x, In x ks -> (x < length out)%nat) ->
  length (clear_all out ks) = length out /\ nth_error (clear_all out ks) k = if existsb (Nat.eqb k) ks then Some hzero else nth_error out k.
Proof.
  unfold clear_all. induction ks as [|x ks IH]; intros out k B; cbn [fold_left existsb]; [auto|].
  destruct (IH (upd out x hzero) k) as [L E]. { intros y Hy. rewrite upd_length. apply B. right. exact Hy. }
  rewrite L, E, upd_length. split; [reflexivity|]. destruct (existsb (Nat.eqb k) ks); [rewrite orb_true_r; reflexivity|]. rewrite orb_false_r.
  destruct (Nat.eqb_spec k x) as [->|N]; [apply nth_error_upd_same, B; left; reflexivity|apply nth_error_upd_other; congruence].
Qed.

Lemma add_all_ok : forall ins syms out, length ins = length syms -> Forall (fun h => length h = 18%nat) ins ->
  (forall s, In s syms -> exists h, nth_error out s = Some h /\ length h = 18%nat) ->
  exists out', add_all out ins syms = Some out' /\ length out' = length out /\ (forall k, ~ In k syms -> nth_error out' k = nth_error out k) /\
    forall k h, In k syms -> nth_error out k = Some h -> exists h', nth_error out' k = Some h' /\ length h' = 18%nat /\ forall j, nth j h' 0 = nth j h 0 + csum ins syms k j.
Proof.
  induction ins as [|h ins IH]; intros syms out L F B; destruct syms as [|s syms]; cbn [length] in L; try lia; cbn [add_all].
  - exists out. split; [reflexivity|]. split; [reflexivity|]. split; [reflexivity|]. intros k h [].
  - destruct (B s (or_introl eq_refl)) as (o & Eo & Lo). rewrite Eo. unfold obind. pose proof (Forall_inv F) as Lh. cbv beta in Lh.
    assert (s < length out)%nat as Hs by (apply nth_error_Some; rewrite Eo; discriminate).
    destruct (IH syms (upd out s (hadd o h)) ltac:(lia) (Forall_inv_tail F)) as (out' & E & L' & U & V).
    { intros t Ht. destruct (Nat.eq_dec t s) as [->|N]; [exists (hadd o h); split; [apply nth_error_upd_same, Hs|rewrite hadd_length; lia]|].
      rewrite nth_error_upd_other by congruence. apply B. right. exact Ht. }
    exists out'. split; [exact E|]. split; [rewrite L'; apply upd_length|]. split.
    + intros k Hk. rewrite U by (intros G; apply Hk; right; exact G). apply nth_error_upd_other. intros ->. apply Hk. left. reflexivity.
    + intros k hk Hk Ek. cbn [csum]. destruct (Nat.eqb_spec s k) as [->|N].
      * rewrite Eo in Ek. injection Ek as <-. destruct (in_dec Nat.eq_dec k syms) as [I|I].
        -- destruct (V k (hadd o h) I (nth_error_upd_same _ _ _ Hs)) as (h' & E' & Lh' & V'). exists h'. split; [exact E'|]. split; [exact Lh'|].
           intros j. rewrite V', hadd_nth by lia. lia.
        -- exists (hadd o h). split; [rewrite (U k I); apply nth_error_upd_same, Hs|]. split; [rewrite hadd_length; lia|]. intros j.
           rewrite csum_notin by exact I. rewrite hadd_nth by lia. lia.
      * destruct Hk as [->|Hk]; [congruence|]. destruct (V k hk Hk) as (h' & E' & Lh' & V'); [rewrite nth_error_upd_other by congruence; exact Ek|].
        exists h'. split; [exact E'|]. split; [exact Lh'|]. intros j. rewrite V'. lia.
Qed.

Lemma histogram_remap_ok C N ins st syms : arrays_ok N st -> sums_ok ins (cl_out st) syms -> length ins = length syms ->
  Forall (fun h => length h = 18%nat) ins -> exists st' syms', histogram_remap C ins st syms = Some (st', syms') /\ step_ok N ins st st' syms syms'.
Proof.
  intros A Su L F. unfold histogram_remap. destruct syms as [|s0 syms].
  { exists st, []. split; [reflexivity|]. split; [exact A|]. split; [reflexivity|]. split; [apply incl_refl|]. split; [exact Su|reflexivity]. }
  set (all := uniq (s0 :: syms)). set (ss := s0 :: syms) in *. destruct A as (A1 & A2 & A3).
  assert (forall k, In k all -> (k < N)%nat) as B.
  { intros k Hk. apply (proj1 (uniq_In _ _)) in Hk. destruct (Su k Hk) as (h & E & _). rewrite <- A1. apply nth_error_Some. rewrite E. discriminate. }
  destruct (remap_syms_ok C st all) with (ins := ins) (prev := s0) as (s' & E & Ls & I).
  { intros k Hk. specialize (B k Hk). lia. }
  { apply uniq_In. left. reflexivity. }
  rewrite E. unfold obind at 1.
  assert (forall x, In x all -> (x < length (cl_out st))%nat) as B' by (intros x Hx; rewrite A1; apply B, Hx).
  assert (forall k, In k s' -> nth_error (clear_all (cl_out st) all) k = Some hzero) as Z0.
  { intros k Hk. destruct (clear_all_spec all (cl_out st) k B') as [_ ->]. replace (existsb (Nat.eqb k) all) with true; [reflexivity|].
    symmetry. apply existsb_exists. exists k. split; [apply I, Hk|apply Nat.eqb_refl]. }
  destruct (add_all_ok ins s' (clear_all (cl_out st) all) (eq_sym Ls) F) as (out' & Eo & Lo & U & V).
  { intros s Hs. exists hzero. split; [apply Z0, Hs|reflexivity]. }
  rewrite Eo. unfold obind. do 2 eexists. split; [reflexivity|]. split.
  { split; [|auto]. cbn [cl_out]. destruct (clear_all_spec all (cl_out st) 0 B') as [Lc _]. congruence. }
  split; [etransitivity; [exact Ls|exact L]|]. split; [intros x Hx; apply I, (proj1 (uniq_In _ _)) in Hx; exact Hx|]. split.
  - intros k Hk. cbn [cl_out]. destruct (V k hzero Hk (Z0 k Hk)) as (h' & E' & Lh & Vh). exists h'. split; [exact E'|]. split; [exact Lh|].
    intros j. rewrite Vh. replace (nth j hzero 0) with 0; [lia|]. unfold hzero. symmetry. apply nth_repeat.
  - intros k Hk. cbn [cl_out]. etransitivity; [apply U; intros G; apply I, (proj1 (uniq_In _ _)) in G; exact (Hk G)|]. destruct (clear_all_spec all (cl_out st) k B') as [_ ->].
    replace (existsb (Nat.eqb k) all) with false; [reflexivity|]. symmetry. apply Bool.not_true_is_false. intros G. apply existsb_exists in G.
    destruct G as (x & Hx & G). apply Nat.eqb_eq in G. subst x. apply (proj1 (uniq_In _ _)) in Hx. exact (Hk Hx).
Qed.

(** * Slices *)

Lemma slice_split {A} (l : list A) off len : (off + len <= length l)%nat ->
  exists a c, l = a ++ slice l off len ++ c /\ length a = off /\ length (slice l off len) = len /\ firstn off l = a /\
    forall s, length s = len -> put_slice l off s = a ++ s ++ c.
Proof.
  intros H. exists (firstn off l), (skipn (off + len) l). unfold slice. split; [|split; [|split; [|split]]].
  - rewrite <- (firstn_skipn off l) at 1. f_equal. rewrite <- (firstn_skipn len (skipn off l)) at 1. f_equal.
    clear H. revert l. induction off as [|off IH]; intros l; [reflexivity|]. destruct l; [rewrite !skipn_nil; reflexivity|]. cbn [Nat.add skipn]. apply IH.
  - apply firstn_length_le. lia.
  - rewrite firstn_length_le; [reflexivity|]. rewrite skipn_length. lia.
  - reflexivity.
  - intros s Ls. unfold put_slice. rewrite Ls. reflexivity.
Qed.

Lemma sums_slice (ins : list hist) out ia ib ic a b c : ins = ia ++ ib ++ ic -> length ia = length a -> length ib = length b -> length ic = length c ->
  (forall k, In k b -> ~ In k a /\ ~ In k c) -> sums_ok ins out (a ++ b ++ c) -> sums_ok ib out b.
Proof.
  intros -> La Lb Lc D Su k Hk. destruct (D k Hk) as [D1 D2]. destruct (Su k) as (h & E & L & V); [apply in_or_app; right; apply in_or_app; auto|].
  exists h. split; [exact E|]. split; [exact L|]. intros j. rewrite V, !csum_app by assumption. rewrite (csum_notin ia) by exact D1. rewrite (csum_notin ic) by exact D2. lia.
Qed.
Lemma sums_splice N (ins : list hist) st st' ia ib ic a b b' c : ins = ia ++ ib ++ ic -> length ia = length a -> length ib = length b -> length ic = length c ->
  (forall k, In k b -> ~ In k a /\ ~ In k c) -> sums_ok ins (cl_out st) (a ++ b ++ c) -> step_ok N ib st st' b b' -> sums_ok ins (cl_out st') (a ++ b' ++ c).
Proof.
  intros -> La Lb Lc D Su (_ & Lb' & I & S' & U) k Hk. destruct (in_dec Nat.eq_dec k b') as [Hb|Hb].
  - destruct (D k (I k Hb)) as [D1 D2]. destruct (S' k Hb) as (h & E & L & V). exists h. split; [exact E|]. split; [exact L|]. intros j.
    rewrite !csum_app by congruence. rewrite (csum_notin ia) by exact D1. rewrite (csum_notin ic) by exact D2. rewrite V. lia.
  - assert (In k a \/ In k c) as Hac by (rewrite !in_app_iff in Hk; tauto).
    assert (~ In k b) as Nb by (intros G; destruct (D k G); tauto).
    destruct (Su k) as (h & E & L & V); [rewrite !in_app_iff; tauto|]. exists h. split; [rewrite U by exact Nb; exact E|]. split; [exact L|]. intros j.
    rewrite V, !csum_app by congruence. rewrite (csum_notin ib b) by exact Nb. rewrite (csum_notin ib b') by exact Hb. reflexivity.
Qed.

(** Positions [lo, hi) and symbols [lo, hi) correspond. *)
Definition closed (lo hi : nat) (syms : list nat) : Prop :=
  forall i s, nth_error syms i = Some s -> ((lo <= i < hi)%nat <-> (lo <= s < hi)%nat).

Definition glob (N : nat) (ins : list hist) (st : cstate) (syms : list nat) : Prop :=
  arrays_ok N st /\ sums_ok ins (cl_out st) syms /\ length syms = N /\ length ins = N /\ Forall (fun h => length h = 18%nat) ins.

Lemma nth_error_mid {A} (a b c : list A) i : (length a <= i < length a + length b)%nat -> nth_error (a ++ b ++ c) i = nth_error b (i - length a).
Proof. intros H. rewrite nth_error_app2 by lia. rewrite nth_error_app1 by lia. reflexivity. Qed.

Lemma step_slice N ins st st' syms off len s' : glob N ins st syms -> (off + len <= N)%nat -> closed off (off + len) syms ->
  step_ok N (slice ins off len) st st' (slice syms off len) s' ->
  glob N ins st' (put_slice syms off s') /\
  firstn (off + len) (put_slice syms off s') = firstn off syms ++ s' /\
  (forall lo hi, closed lo hi syms -> (lo <= off /\ off + len <= hi \/ hi <= off \/ off + len <= lo)%nat -> closed lo hi (put_slice syms off s')).
Proof.
  intros (A & Su & Ls & Li & F) B Cl St.
  destruct (slice_split syms off len ltac:(lia)) as (a & c & E & La & Lb & Fa & P).
  destruct (slice_split ins off len ltac:(lia)) as (ia & ic & Ei & Lia & Lib & _ & _).
  set (b := slice syms off len) in *. set (ib := slice ins off len) in *. clearbody b ib.
  pose proof St as (A' & Lb' & I & S' & U). rewrite (P s') by lia.
  assert (forall k, In k b -> ~ In k a /\ ~ In k c) as D.
  { intros k Hk. apply In_nth_error in Hk. destruct Hk as [i Hi]. pose proof (nth_error_Some b i) as Nb. rewrite Hi in Nb. assert (i < length b)%nat as Hlt by (apply Nb; discriminate).
    assert (nth_error syms (off + i) = Some k) as Ek by (rewrite E, nth_error_mid by lia; rewrite La; replace (off + i - off)%nat with i by lia; exact Hi).
    assert (off <= k < off + len)%nat as Rk by (apply (Cl _ _ Ek); lia). split; intros G; apply In_nth_error in G; destruct G as [i' Hi'].
    - assert (i' < length a)%nat as Hl by (apply nth_error_Some; rewrite Hi'; discriminate).
      assert (nth_error syms i' = Some k) as E2 by (rewrite E, nth_error_app1 by lia; exact Hi'). apply (Cl _ _ E2) in Rk. lia.
    - assert (nth_error syms (off + len + i') = Some k) as E2.
      { rewrite E, nth_error_app2 by lia. rewrite nth_error_app2 by lia. rewrite <- Hi'. f_equal. lia. }
      apply (Cl _ _ E2) in Rk. lia. }
  assert (length ia = length a) as L1 by lia. assert (length ib = length b) as L2 by lia.
  assert (length ic = length c) as L3.
  { apply (f_equal (@length _)) in E. apply (f_equal (@length _)) in Ei. rewrite !app_length in E, Ei. lia. }
  split; [|split].
  - split; [exact A'|]. split; [|split; [|split; [exact Li|exact F]]].
    + rewrite E in Su. eapply sums_splice; eassumption.
    + rewrite <- Ls. rewrite E at 1. rewrite !app_length. lia.
  - rewrite Fa. rewrite app_assoc, firstn_app, app_length, La, Lb', Lb, Nat.sub_diag. cbn [firstn]. rewrite app_nil_r. apply firstn_all2. rewrite app_length. lia.
  - intros lo hi Cl2 Nest i s Hs.
    destruct (le_lt_dec off i) as [G1|G1]; [destruct (le_lt_dec (off + len) i) as [G2|G2]|].
    + apply (Cl2 i s). rewrite E. rewrite nth_error_app2 in Hs by lia. rewrite nth_error_app2 in Hs by lia. rewrite nth_error_app2 by lia. rewrite nth_error_app2 by lia.
      rewrite <- Hs. f_equal. lia.
    + rewrite nth_error_mid in Hs by lia. apply nth_error_In, I, In_nth_error in Hs. destruct Hs as [i' Hi'].
      assert (i' < length b)%nat as Hl by (apply nth_error_Some; rewrite Hi'; discriminate).
      assert (nth_error syms (off + i') = Some s) as E2 by (rewrite E, nth_error_mid by lia; rewrite <- Hi'; f_equal; lia).
      pose proof (Cl2 _ _ E2). lia.
    + apply (Cl2 i s). rewrite E. rewrite nth_error_app1 in Hs by lia. rewrite nth_error_app1 by lia. exact Hs.
Qed.

Lemma glob_slice N ins st syms off len : glob N ins st syms -> (off + len <= N)%nat -> closed off (off + len) syms ->
  sums_ok (slice ins off len) (cl_out st) (slice syms off len) /\ length (slice ins off len) = length (slice syms off len) /\ Forall (fun h => length h = 18%nat) (slice ins off len).
Proof.
  intros (A & Su & Ls & Li & F) B Cl.
  destruct (slice_split syms off len ltac:(lia)) as (a & c & E & La & Lb & Fa & P).
  destruct (slice_split ins off len ltac:(lia)) as (ia & ic & Ei & Lia & Lib & _ & _).
  split; [|split; [lia|]].
  - eapply (sums_slice ins _ ia _ ic a _ c); [exact Ei|lia|lia| | |rewrite <- E; exact Su].
    + apply (f_equal (@length _)) in E. apply (f_equal (@length _)) in Ei. rewrite !app_length in E, Ei. lia.
    + set (b := slice syms off len) in *. clearbody b. intros k Hk. apply In_nth_error in Hk. destruct Hk as [i Hi].
      assert (i < length b)%nat as Hlt by (apply nth_error_Some; rewrite Hi; discriminate).
      assert (nth_error syms (off + i) = Some k) as Ek by (rewrite E, nth_error_mid by lia; rewrite La; replace (off + i - off)%nat with i by lia; exact Hi).
      assert (off <= k < off + len)%nat as Rk by (apply (Cl _ _ Ek); lia). split; intros G; apply In_nth_error in G; destruct G as [i' Hi'].
      * assert (i' < length a)%nat as Hl by (apply nth_error_Some; rewrite Hi'; discriminate).
        assert (nth_error syms i' = Some k) as E2 by (rewrite E, nth_error_app1 by lia; exact Hi'). apply (Cl _ _ E2) in Rk. lia.
      * assert (nth_error syms (off + len + i') = Some k) as E2.
        { rewrite E, nth_error_app2 by lia. rewrite nth_error_app2 by lia. rewrite <- Hi'. f_equal. lia. }
        apply (Cl _ _ E2) in Rk. lia.
  - rewrite Ei in F. apply Forall_app in F. destruct F as [_ F]. apply Forall_app in F. apply F.
Qed.

Lemma combine_blocks_ok C N ins maxc nctx nblocks : (1 <= maxc)%nat -> N = (nctx * nblocks)%nat ->
  forall bs st syms, Forall (fun i => (i < nblocks)%nat) bs -> glob N ins st syms -> (forall x y, closed (x * nctx) (y * nctx) syms) ->
  exists st' syms', combine_blocks C maxc nctx bs st syms = Some (st', syms') /\ glob N ins st' syms' /\ (forall x y, closed (x * nctx) (y * nctx) syms').
Proof.
  intros Hm HN. induction bs as [|i bs IH]; intros st syms F G Cl; cbn [combine_blocks]; [eauto|].
  pose proof (Forall_inv F) as Hi. cbv beta in Hi. assert (i * nctx + nctx <= N)%nat as Hb by nia.
  assert (closed (i * nctx) (i * nctx + nctx) syms) as Ci by (replace (i * nctx + nctx)%nat with (S i * nctx)%nat by lia; apply Cl).
  destruct (glob_slice N ins st syms _ _ G Hb Ci) as (Su & _ & _).
  destruct (histogram_combine_ok C N _ maxc st _ Hm (proj1 G) Su) as (st1 & s1 & n & E & St & _ & _). rewrite E. unfold obind.
  destruct (step_slice N ins st st1 syms _ _ s1 G Hb Ci St) as (G1 & _ & C1). apply IH; [exact (Forall_inv_tail F)|exact G1|].
  intros x y. apply C1; [apply Cl|]. destruct (le_lt_dec x i); [destruct (le_lt_dec y i)|]; nia.
Qed.

Lemma distinct_bound cl (l : list nat) : NoDup cl -> (forall k, In k cl <-> In k l) -> length (uniq l) = length cl.
Proof.
  intros D H. apply Nat.le_antisymm; apply NoDup_incl_length; auto using sorted_NoDup, uniq_sorted; intros k Hk.
  - apply H. apply (proj1 (uniq_In _ _)) in Hk. exact Hk.
  - apply uniq_In. apply H. exact Hk.
Qed.
Lemma distinct_incl (l l' : list nat) : incl l l' -> (length (uniq l) <= length (uniq l'))%nat.
Proof. intros H. apply NoDup_incl_length; [apply sorted_NoDup, uniq_sorted|]. intros k Hk. apply uniq_In, H. apply (proj1 (uniq_In _ _)) in Hk. exact Hk. Qed.
Lemma distinct_app (a b : list nat) : (length (uniq (a ++ b)) <= length (uniq a) + length (uniq b))%nat.
Proof.
  rewrite <- app_length. apply NoDup_incl_length; [apply sorted_NoDup, uniq_sorted|]. intros k Hk. apply (proj1 (uniq_In _ _)) in Hk.
  apply in_or_app. rewrite !uniq_In. apply in_app_or. exact Hk.
Qed.

Lemma step_trans N ins st1 st2 st3 a b c : step_ok N ins st1 st2 a b -> step_ok N ins st2 st3 b c -> step_ok N ins st1 st3 a c.
Proof.
  intros (A1 & A2 & A3 & A4 & A5) (B1 & B2 & B3 & B4 & B5). split; [exact B1|]. split; [congruence|]. split; [intros k Hk; apply A3, B3, Hk|]. split; [exact B4|].
  intros k Hk. rewrite B5 by (intros G; apply Hk, A3, G). apply A5, Hk.
Qed.

Lemma combine_remap_ok C N ins maxc off len st syms : (1 <= maxc)%nat -> glob N ins st syms -> (off + len <= N)%nat -> closed off (off + len) syms ->
  exists st' syms' n s', combine_remap C ins maxc off len st syms = Some (st', syms', n) /\ glob N ins st' syms' /\ (n <= maxc)%nat /\
    length s' = len /\ syms' = put_slice syms off s' /\ (length (uniq s') <= n)%nat /\ firstn (off + len) syms' = firstn off syms ++ s' /\
    (forall lo hi, closed lo hi syms -> (lo <= off /\ off + len <= hi \/ hi <= off \/ off + len <= lo)%nat -> closed lo hi syms').
Proof.
  intros Hm G B Cl. unfold combine_remap. destruct (glob_slice N ins st syms _ _ G B Cl) as (Su & L & F).
  destruct (slice_split syms off len) as (_ & _ & _ & _ & Ll & _). { destruct G as (_ & _ & -> & _). exact B. }
  destruct (histogram_combine_ok C N _ maxc st _ Hm (proj1 G) Su) as (st1 & s1 & n & E & St & Hn & (cl & Lc & Dc & Ic)). rewrite E. unfold obind at 1.
  pose proof (distinct_bound cl s1 Dc Ic) as Du. destruct ((2 <=? n) && (n <? 24))%nat.
  - pose proof St as (A1 & L1 & I1 & S1 & U1).
    destruct (histogram_remap_ok C N (slice ins off len) st1 s1 A1 S1 ltac:(congruence) F) as (st2 & s2 & E2 & St2). rewrite E2. unfold obind.
    pose proof (step_trans _ _ _ _ _ _ _ _ St St2) as St3. destruct (step_slice N ins st st2 syms _ _ s2 G B Cl St3) as (G3 & F3 & C3).
    exists st2, (put_slice syms off s2), n, s2. split; [reflexivity|]. split; [exact G3|]. split; [exact Hn|]. destruct St2 as (_ & L2 & I2 & _).
    split; [congruence|]. split; [reflexivity|]. split; [|split; [exact F3|exact C3]]. rewrite <- Lc, <- Du. apply distinct_incl, I2.
  - destruct (step_slice N ins st st1 syms _ _ s1 G B Cl St) as (G3 & F3 & C3). exists st1, (put_slice syms off s1), n, s1. split; [reflexivity|].
    split; [exact G3|]. split; [exact Hn|]. destruct St as (_ & L1 & _). split; [congruence|]. split; [reflexivity|]. split; [lia|split; [exact F3|exact C3]].
Qed.

Lemma combine_groups_ok C N ins maxc nctx nblocks : (1 <= maxc)%nat -> N = (nctx * nblocks)%nat -> length ins = N ->
  forall offs st syms total, StronglySorted lt offs -> Forall (fun o => (o <= nblocks)%nat) offs -> glob N ins st syms ->
    let start := (match offs with [] => N | o :: _ => o * nctx end)%nat in
    (forall x y, (start <= x * nctx)%nat -> closed (x * nctx) (y * nctx) syms) ->
    (length (uniq (firstn start syms)) <= total)%nat ->
    exists st' syms' n, combine_groups C ins maxc nctx offs st syms total = Some (st', syms', n) /\ glob N ins st' syms' /\ (length (uniq syms') <= n)%nat.
Proof.
  intros Hm HN Li. induction offs as [|o offs IH]; intros st syms total So Fo G start Cl Hu; cbn [combine_groups].
  - exists st, syms, total. split; [reflexivity|]. split; [exact G|]. unfold start in Hu. rewrite firstn_all2 in Hu; [exact Hu|]. destruct G as (_ & _ & -> & _). lia.
  - inversion So as [|? ? So1 So2]; subst. rewrite Forall_forall in So2. pose proof (Forall_inv Fo) as Ho. cbv beta in Ho.
    set (next := match offs with [] => length ins | o' :: _ => (o' * nctx)%nat end).
    assert (exists y, next = (y * nctx)%nat /\ (o <= y <= nblocks)%nat) as (y & Ey & Hy).
    { unfold next. destruct offs as [|o' offs]; [exists nblocks; split; lia|]. exists o'. split; [reflexivity|]. pose proof (So2 o' (or_introl eq_refl)).
      pose proof (Forall_inv (Forall_inv_tail Fo)). cbv beta in *. lia. }
    assert (o * nctx + (next - o * nctx) = next)%nat as En by nia.
    destruct (combine_remap_ok C (nctx * nblocks) ins maxc (o * nctx) (next - o * nctx) st syms Hm G) as (st1 & s1 & n & s' & E & G1 & _ & Ls & Es & Hd & Hf & C1).
    { rewrite En. nia. }
    { rewrite En, Ey. apply Cl. unfold start. lia. }
    rewrite E. unfold obind. rewrite En in *.
    assert ((match offs with [] => (nctx * nblocks)%nat | o' :: _ => (o' * nctx)%nat end) = next) as Enext by (unfold next; destruct offs; congruence).
    apply IH; [exact So1|exact (Forall_inv_tail Fo)|exact G1| |].
    + cbv zeta. rewrite Enext. intros x z Hx. apply C1; [apply Cl; unfold start; nia|]. right. right. exact Hx.
    + cbv zeta. rewrite Enext, Hf. unfold start in Hu. pose proof (distinct_app (firstn (o * nctx) syms) s'). lia.
Qed.

(** * Renumbering *)

Lemma firsts_In seen l x : In x (firsts seen l) <-> In x l /\ ~ In x seen.
Proof.
  revert seen. induction l as [|y l IH]; intros seen; cbn [firsts]; [cbn; tauto|].
  destruct (existsb (Nat.eqb y) seen) eqn:E.
  - apply existsb_exists in E. destruct E as (z & Hz & E). apply Nat.eqb_eq in E. subst z. rewrite IH. cbn [In]. split; [tauto|]. intros [[->|H] N]; [tauto|auto].
  - assert (~ In y seen) as Ny. { intros G. assert (existsb (Nat.eqb y) seen = true) as K by (apply existsb_exists; exists y; split; [exact G|apply Nat.eqb_refl]). congruence. }
    cbn [In]. rewrite IH. cbn [In]. destruct (Nat.eq_dec x y) as [->|N]; [tauto|]. split; [intros [->|[A B]]; [congruence|tauto]|]. intros [[->|A] B]; [congruence|]. right. split; [exact A|]. intros [->|G]; congruence.
Qed.
Lemma firsts_NoDup seen l : NoDup (firsts seen l).
Proof.
  revert seen. induction l as [|y l IH]; intros seen; cbn [firsts]; [constructor|]. destruct (existsb (Nat.eqb y) seen); [apply IH|].
  constructor; [|apply IH]. intros G. apply firsts_In in G. destruct G as [_ G]. apply G. left. reflexivity.
Qed.
Lemma index_of_nth x l : In x l -> (index_of x l < length l)%nat /\ nth_error l (index_of x l) = Some x.
Proof.
  induction l as [|y l IH]; intros H; [destruct H|]. cbn [index_of]. destruct (Nat.eqb_spec x y) as [->|N]; [split; [cbn; lia|reflexivity]|].
  destruct H as [->|H]; [congruence|]. destruct (IH H) as [A B]. split; [cbn [length]; lia|exact B].
Qed.
Lemma index_of_uniq l i x : NoDup l -> nth_error l i = Some x -> index_of x l = i.
Proof.
  revert i. induction l as [|y l IH]; intros i D H; destruct i; cbn [nth_error] in H; try discriminate; cbn [index_of].
  - injection H as ->. rewrite Nat.eqb_refl. reflexivity.
  - inversion D as [|? ? D1 D2]; subst. destruct (Nat.eqb_spec x y) as [->|N]; [exfalso; apply D1, (nth_error_In _ _ H)|]. f_equal. apply IH; assumption.
Qed.

Lemma csum_reindex keys ins syms k x j : NoDup keys -> (forall s, In s syms -> In s keys) -> nth_error keys k = Some x ->
  csum ins (map (fun s => index_of s keys) syms) k j = csum ins syms x j.
Proof.
  intros D I E. revert syms I. induction ins as [|h ins IH]; intros syms I; destruct syms as [|s t]; cbn [map csum]; try reflexivity.
  rewrite IH by (intros z Hz; apply I; right; exact Hz). f_equal.
  destruct (Nat.eqb_spec (index_of s keys) k) as [E1|E1]; destruct (Nat.eqb_spec s x) as [E2|E2]; try reflexivity; exfalso.
  - destruct (index_of_nth s keys (I s (or_introl eq_refl))) as [_ K]. rewrite E1, E in K. congruence.
  - subst s. apply E1. apply index_of_uniq; assumption.
Qed.

(** First occurrences come in increasing order. *)
Lemma firsts_order : forall l seen i s x k, nth_error l i = Some s -> nth_error (firsts seen l) k = Some x -> ~ In s seen ->
  (k < index_of s (firsts seen l))%nat -> exists i', (i' < i)%nat /\ nth_error l i' = Some x.
Proof.
  induction l as [|y l IH]; intros seen i s x k Hi Hx Ns Hk; [destruct i; discriminate|].
  cbn [firsts] in *. destruct (existsb (Nat.eqb y) seen) eqn:E.
  - destruct i as [|i].
    + cbn [nth_error] in Hi. injection Hi as ->. exfalso. apply existsb_exists in E. destruct E as (z & Hz & E). apply Nat.eqb_eq in E. subst z. exact (Ns Hz).
    + cbn [nth_error] in Hi. destruct (IH seen i s x k Hi Hx Ns Hk) as (i' & L & H). exists (S i'). split; [lia|exact H].
  - cbn [index_of] in Hk. destruct (Nat.eqb_spec s y) as [->|N]; [lia|]. destruct i as [|i]; [cbn in Hi; congruence|]. cbn [nth_error] in Hi.
    destruct k as [|k]; cbn [nth_error] in Hx.
    + injection Hx as ->. exists O. split; [lia|reflexivity].
    + destruct (IH (y :: seen) i s x k Hi Hx) as (i' & L & H); [intros [G|G]; congruence|lia|]. exists (S i'). split; [lia|exact H].
Qed.

(** * ClusterHistograms *)

Theorem cluster_histograms_ok C ins nctx nblocks offs maxh :
  (1 <= maxh)%nat -> length ins = (nctx * nblocks)%nat -> Forall (fun h => length h = 18%nat) ins ->
  (match offs with [] => True | o :: _ => o = O end) -> StronglySorted lt offs -> Forall (fun o => (o <= nblocks)%nat) offs ->
  exists out syms, cluster_histograms C ins nctx nblocks offs maxh = Some (out, syms) /\
    length syms = length ins /\ (length out <= maxh)%nat /\
    (forall s, In s syms -> (s < length out)%nat) /\
    (forall k h, nth_error out k = Some h -> In k syms /\ length h = 18%nat /\ forall j, nth j h 0 = csum ins syms k j) /\
    (forall i s t, nth_error syms i = Some s -> (t < s)%nat -> exists i', (i' < i)%nat /\ nth_error syms i' = Some t).
Proof.
  intros Hm Li F H0 So Fo. set (N := (nctx * nblocks)%nat) in *. unfold cluster_histograms. fold N.
  set (st0 := mkCl ins (map (c_pop C) ins) (repeat 1 N)).
  assert (glob N ins st0 (seq 0 N)) as G0.
  { split; [unfold arrays_ok, st0; cbn [cl_out cl_cost cl_size]; rewrite map_length, repeat_length; auto|]. split; [|split; [apply seq_length|split; [exact Li|exact F]]].
    intros k Hk. apply in_seq in Hk. unfold st0. cbn [cl_out]. destruct (nth_error_in ins k ltac:(lia)) as (h & E). exists h. split; [exact E|].
    split; [rewrite Forall_forall in F; apply F, (nth_error_In _ _ E)|]. intros j.
    assert (forall l a, csum l (seq a (length l)) k j = match nth_error l (k - a) with Some h => if (a <=? k)%nat then nth j h 0 else 0 | None => 0 end) as K.
    { clear. induction l as [|h l IH]; intros a; cbn [length seq csum]; [destruct (k - a)%nat; reflexivity|]. rewrite IH. destruct (Nat.eqb_spec a k) as [->|N].
      - rewrite Nat.sub_diag, Nat.leb_refl. cbn [nth_error]. destruct (nth_error l (k - S k)); [destruct (Nat.leb_spec (S k) k); lia|lia].
      - destruct (Nat.leb_spec a k); destruct (Nat.leb_spec (S a) k); try lia.
        + replace (k - a)%nat with (S (k - S a)) by lia. cbn [nth_error]. lia.
        + replace (k - a)%nat with O by lia. replace (k - S a)%nat with O by lia. cbn [nth_error]. destruct l; reflexivity. }
    rewrite <- Li, (K ins O), Nat.sub_0_r, E. reflexivity. }
  assert (forall x y, closed (x * nctx) (y * nctx) (seq 0 N)) as C0.
  { intros x y i s Hs. assert (i < N)%nat as Hi. { rewrite <- (seq_length N 0). apply nth_error_Some. rewrite Hs. discriminate. }
    rewrite List.nth_error_nth' with (d := O) in Hs by (rewrite seq_length; exact Hi). injection Hs as <-. rewrite seq_nth by exact Hi. reflexivity. }
  assert (exists st1 s1, (if (1 <? nctx)%nat then combine_blocks C maxh nctx (seq 0 nblocks) st0 (seq 0 N) else Some (st0, seq 0 N)) = Some (st1, s1) /\
     glob N ins st1 s1 /\ forall x y, closed (x * nctx) (y * nctx) s1) as (st1 & s1 & E1 & G1 & C1).
  { destruct (1 <? nctx)%nat; [|eauto]. apply (combine_blocks_ok C N ins maxh nctx nblocks Hm eq_refl); auto. apply Forall_forall. intros i Hi. apply in_seq in Hi. lia. }
  rewrite E1. unfold obind at 1.
  assert (exists st2 s2 n2, (if (1 <? length offs)%nat then combine_groups C ins maxh nctx offs st1 s1 0 else Some (st1, s1, O)) = Some (st2, s2, n2) /\
     glob N ins st2 s2 /\ ((1 < length offs)%nat -> (length (uniq s2) <= n2)%nat)) as (st2 & s2 & n2 & E2 & G2 & U2).
  { destruct (Nat.ltb_spec 1 (length offs)) as [L|L]; [|exists st1, s1, O; split; [reflexivity|]; split; [exact G1|lia]].
    destruct (combine_groups_ok C N ins maxh nctx nblocks Hm eq_refl Li offs st1 s1 0 So Fo G1) as (st2 & s2 & n & E & G & U).
    - cbv zeta. intros x y _. apply C1.
    - cbv zeta. destruct offs as [|o offs]; [cbn in L; lia|]. subst o. cbn. lia.
    - exists st2, s2, n. split; [exact E|]. split; [exact G|]. intros _. exact U. }
  rewrite E2. unfold obind at 1.
  assert (exists st3 s3 n3, (if ((length offs <=? 1) || (maxh <? n2))%nat then combine_remap C ins maxh 0 N st2 s2 else Some (st2, s2, n2)) = Some (st3, s3, n3) /\
     glob N ins st3 s3 /\ (length (uniq s3) <= maxh)%nat) as (st3 & s3 & n3 & E3 & G3 & U3).
  { destruct (Nat.leb_spec (length offs) 1) as [L|L]; cbn [orb].
    2: destruct (Nat.ltb_spec maxh n2) as [L2|L2]; [|exists st2, s2, n2; split; [reflexivity|]; split; [exact G2|]; specialize (U2 L); lia].
    all: destruct (combine_remap_ok C N ins maxh 0 N st2 s2 Hm G2 ltac:(lia)) as (st3 & s3 & n & s' & E & G & Hn & Ls & Es & Hd & Hf & _);
      [intros i s Hs; destruct G2 as (A2 & Su2 & Ls2 & _); split; intros _;
         [destruct (Su2 s (nth_error_In _ _ Hs)) as (h & Eh & _); destruct A2 as (<- & _); split; [lia|]; cbn [Nat.add]; apply nth_error_Some; rewrite Eh; discriminate
         |cbn [Nat.add]; split; [lia|]; rewrite <- Ls2; apply nth_error_Some; rewrite Hs; discriminate]
      |exists st3, s3, n; split; [exact E|]; split; [exact G|];
       assert (s3 = s') as -> by (destruct G as (_ & _ & Ls3 & _); rewrite firstn_all2 in Hf by (cbn [Nat.add]; lia); cbn [firstn app] in Hf; exact Hf); lia]. }
  rewrite E3. unfold obind. destruct G3 as (A3 & Su3 & Ls3 & _ & _).
  unfold reindex. set (keys := firsts [] s3).
  assert (forall x, In x keys <-> In x s3) as Kin by (intros x; unfold keys; rewrite firsts_In; cbn [In]; tauto).
  assert (NoDup keys) as Kd by apply firsts_NoDup.
  do 2 eexists. split; [reflexivity|]. rewrite !map_length. split; [congruence|]. split; [|split; [|split]].
  - rewrite <- (distinct_bound keys s3 Kd Kin). exact U3.
  - intros s Hs. apply in_map_iff in Hs. destruct Hs as (x & <- & Hx). apply index_of_nth, Kin, Hx.
  - intros k h Hk. rewrite nth_error_map in Hk. destruct (nth_error keys k) as [x|] eqn:Ex; [|discriminate]. cbn [option_map] in Hk. injection Hk as <-.
    assert (In x s3) as Ix by (apply Kin, (nth_error_In _ _ Ex)). destruct (Su3 x Ix) as (h & Eh & Lh & V).
    assert (nth x (cl_out st3) hzero = h) as -> by (apply nth_error_nth, Eh). split; [|split; [exact Lh|]].
    + apply in_map_iff. exists x. split; [apply index_of_uniq; assumption|exact Ix].
    + intros j. rewrite V. symmetry. apply csum_reindex; auto. intros s Hs. apply Kin, Hs.
  - intros i s t Hi Ht. rewrite nth_error_map in Hi. destruct (nth_error s3 i) as [x|] eqn:Ex; [|discriminate]. cbn [option_map] in Hi. injection Hi as <-.
    assert (In x keys) as Ix by (apply Kin, (nth_error_In _ _ Ex)). destruct (index_of_nth x keys Ix) as [Lt _].
    destruct (nth_error_in keys t ltac:(lia)) as (z & Ez). destruct (firsts_order s3 [] i x z t Ex Ez ltac:(intros []) Ht) as (i' & Hi' & Ei').
    exists i'. split; [exact Hi'|]. rewrite nth_error_map, Ei'. cbn [option_map]. f_equal. apply index_of_uniq; assumption.
Qed.
