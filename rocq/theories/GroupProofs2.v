(** Groups: tasks in any order, and one group as a picture of its own. *)
From Verif Require Import Base EntropyModel LehmerModel LehmerProofs CoefModel CoefProofs DCProofs ACProofs PropsCoef EncoderProofs2 Encoder JpegModel GroupModel GroupProofs1.
From Coq Require Import Permutation.

(** * Lists of arrays *)
Lemma omap2_iff {A B C} (f : A -> B -> option C) : forall a b c, omap2 f a b = Some c <->
  length b = length a /\ length c = length a /\ forall i x y, nth_error a i = Some x -> nth_error b i = Some y -> exists z, nth_error c i = Some z /\ f x y = Some z.
Proof.
  induction a as [|x a IH]; intros b c; destruct b as [|y b]; cbn [omap2].
  - split; [intros E; injection E as <-|intros (_ & L & _); destruct c; [reflexivity|discriminate]]. split; [reflexivity|]. split; [reflexivity|]. intros i u v H. destruct i; discriminate.
  - split; [discriminate|intros (L & _); discriminate].
  - split; [discriminate|intros (L & _); discriminate].
  - split.
    + intros E. apply obind_some in E. destruct E as (z & Ez & E). apply obind_some in E. destruct E as (t & Et & E). injection E as <-.
      apply IH in Et. destruct Et as (L1 & L2 & H). cbn [length]. split; [lia|]. split; [lia|]. intros i u v Hu Hv. destruct i; cbn [nth_error] in *; [|apply (H i); assumption].
      injection Hu as <-. injection Hv as <-. eauto.
    + intros (L1 & L2 & H). destruct c as [|z c]; [discriminate|]. destruct (H 0%nat x y eq_refl eq_refl) as (z' & Hz & Ez). injection Hz as <-. rewrite Ez. unfold obind at 1.
      assert (omap2 f a b = Some c) as ->; [|reflexivity]. apply IH. cbn [length] in *. split; [lia|]. split; [lia|]. intros i u v Hu Hv. exact (H (S i) u v Hu Hv).
Qed.
Lemma scatter_all_iff {A} : forall (p : list (list A)) c v q, scatter_all p c v = Some q <->
  length c = length p /\ length v = length p /\ length q = length p /\
  forall i x y z, nth_error p i = Some x -> nth_error c i = Some y -> nth_error v i = Some z -> exists w, nth_error q i = Some w /\ scatter x y z = Some w.
Proof.
  induction p as [|x p IH]; intros c v q; destruct c as [|y c]; destruct v as [|z v]; cbn [scatter_all]; try (split; [discriminate|intros (L1 & L2 & _); discriminate]).
  - split; [intros E; injection E as <-|intros (_ & _ & L & _); destruct q; [reflexivity|discriminate]]. repeat (split; [reflexivity|]). intros i a b d H. destruct i; discriminate.
  - split.
    + intros E. apply obind_some in E. destruct E as (w & Ew & E). apply obind_some in E. destruct E as (t & Et & E). injection E as <-.
      apply IH in Et. destruct Et as (L1 & L2 & L3 & H). cbn [length]. split; [lia|]. split; [lia|]. split; [lia|]. intros i a b d Ha Hb Hd. destruct i; cbn [nth_error] in *; [|apply (H i); assumption].
      injection Ha as <-. injection Hb as <-. injection Hd as <-. eauto.
    + intros (L1 & L2 & L3 & H). destruct q as [|w q]; [discriminate|]. destruct (H 0%nat x y z eq_refl eq_refl eq_refl) as (w' & Hw & Ew). injection Hw as <-. rewrite Ew. unfold obind at 1.
      assert (scatter_all p c v = Some q) as ->; [|reflexivity]. apply IH. cbn [length] in *. split; [lia|]. split; [lia|]. split; [lia|]. intros i a b d Ha Hb Hd. exact (H (S i) a b d Ha Hb Hd).
Qed.
Lemma build_list {B} (P : nat -> B -> Prop) n : (forall i, (i < n)%nat -> exists b, P i b) -> exists l, length l = n /\ forall i, (i < n)%nat -> exists b, nth_error l i = Some b /\ P i b.
Proof.
  induction n as [|n IH]; intros H; [exists []; split; [reflexivity|intros i Hi; lia]|]. destruct IH as (l & L & Hl); [intros; apply H; lia|]. destruct (H n ltac:(lia)) as [b Hb].
  exists (l ++ [b]). split; [rewrite app_length; cbn [length]; lia|]. intros i Hi. destruct (Nat.eq_dec i n) as [->|Ne].
  - exists b. split; [|exact Hb]. rewrite nth_error_app2 by lia. rewrite L, Nat.sub_diag. reflexivity.
  - destruct (Hl i ltac:(lia)) as (x & E & Q). exists x. split; [|exact Q]. rewrite nth_error_app1 by lia. exact E.
Qed.

(** * Tasks *)
Lemma run_tasks_each {S R} (task : nat -> S -> option (R * S)) : forall order s x, run_tasks task order s = Some x -> forall i, In i order -> exists s0 r s1, task i s0 = Some (r, s1).
Proof.
  induction order as [|k order IH]; intros s x E i Hi; [destruct Hi|]. cbn [run_tasks] in E. apply obind_some in E. destruct E as ([r s1] & Er & E).
  apply obind_some in E. destruct E as (t & Et & E). destruct Hi as [<-|Hi]; [eauto|]. eapply IH; eassumption.
Qed.
Lemma run_tasks_total {S R} (task : nat -> S -> option (R * S)) (Inv : list nat -> S -> Prop) (res : nat -> R) n :
  (forall done i s, (i < n)%nat -> ~ In i done -> (forall k, In k done -> (k < n)%nat) -> Inv done s -> exists s', task i s = Some (res i, s') /\ Inv (i :: done) s') ->
  forall order done s, NoDup (order ++ done) -> (forall k, In k (order ++ done) -> (k < n)%nat) -> Inv done s ->
  exists s', run_tasks task order s = Some (map (fun i => (i, res i)) order, s') /\ Inv (rev order ++ done) s'.
Proof.
  intros Step. induction order as [|i order IH]; intros done s N B I; cbn [run_tasks map rev].
  - exists s. split; [reflexivity|exact I].
  - cbn [app] in N, B. apply NoDup_cons_iff in N. destruct N as [N1 N2].
    destruct (Step done i s) as (s1 & E & I1); [apply B; left; reflexivity|intros X; apply N1, in_or_app; auto|intros k Hk; apply B; right; apply in_or_app; auto|exact I|].
    rewrite E. unfold obind at 1. cbn [fst snd]. destruct (IH (i :: done) s1) as (s2 & E2 & I2); [| |exact I1|].
    + apply (Permutation_NoDup (l := i :: order ++ done)); [apply Permutation_middle|]. constructor; assumption.
    + intros k Hk. apply B. apply in_app_or in Hk. destruct Hk as [Hk|[<-|Hk]]; [right; apply in_or_app; auto|left; reflexivity|right; apply in_or_app; auto].
    + rewrite E2. unfold obind. cbn [fst snd]. exists s2. split; [reflexivity|]. rewrite <- app_assoc. exact I2.
Qed.
Lemma result_of_map {R} (res : nat -> R) i : forall order, In i order -> result_of i (map (fun k => (k, res k)) order) = Some (res i).
Proof.
  induction order as [|k order IH]; intros H; [destruct H|]. cbn [map result_of]. destruct (Nat.eqb_spec k i) as [->|Ne]; [reflexivity|]. destruct H as [H|H]; [contradiction|]. apply IH, H.
Qed.
Lemma results_map {R} (res : nat -> R) order : forall is, (forall i, In i is -> In i order) -> results is (map (fun k => (k, res k)) order) = Some (map res is).
Proof.
  induction is as [|i is IH]; intros H; cbn [results map]; [reflexivity|]. rewrite (result_of_map res i order) by (apply H; left; reflexivity).
  unfold obind at 1. rewrite IH by (intros; apply H; right; assumption). reflexivity.
Qed.
(** An order of all tasks. *)
Definition schedule (order : list nat) (n : nat) : Prop := Permutation order (seq 0 n).
Lemma schedule_in order n i : schedule order n -> (In i order <-> (i < n)%nat).
Proof. intros H. split; intros I. - apply (Permutation_in _ H) in I. apply in_seq in I. lia. - apply (Permutation_in _ (Permutation_sym H)). apply in_seq. lia. Qed.
Lemma schedule_nodup order n : schedule order n -> NoDup order.
Proof. intros H. eapply Permutation_NoDup; [symmetry; exact H|apply seq_NoDup]. Qed.

(** * Arrays cut into groups *)
Definition blocks_of (L : layout) (s : nat * nat) : nat := (ly_cols L * fst s * (ly_rows L * snd s))%nat.
Definition sized {A} (L : layout) (samp : list (nat * nat)) (p : list (list A)) : Prop :=
  length p = length samp /\ forall i s, nth_error samp i = Some s -> exists a, nth_error p i = Some a /\ length a = blocks_of L s.
Definition samp_pos (samp : list (nat * nat)) : Prop := Forall (fun s => (1 <= fst s)%nat /\ (1 <= snd s)%nat) samp.

Lemma sized_nth {A} L samp (p : list (list A)) i a : sized L samp p -> nth_error p i = Some a -> exists s, nth_error samp i = Some s /\ length a = blocks_of L s.
Proof.
  intros [E H] Ha. destruct (nth_error samp i) as [s|] eqn:Es; [|apply nth_error_None in Es; pose proof (nth_error_lt _ _ _ Ha); lia].
  destruct (H i s Es) as (b & Hb & Lb). rewrite Ha in Hb. injection Hb as <-. eauto.
Qed.

Section Cut.
  Context (L : layout) (dim : nat) (F : fits L dim) (samp : list (nat * nat)) (SP : samp_pos samp).
  Definition gcells (g : nat) : list (list nat) := map (fun s => cells_of L dim s g) samp.
  Notation n := (groups L dim).

  Lemma part i s : nth_error samp i = Some s -> partition (blocks_of L s) n (cells_of L dim s).
  Proof. intros E. apply windows_partition; [exact F|]. unfold samp_pos in SP. rewrite Forall_forall in SP. apply SP, (nth_error_In _ _ E). Qed.
  Lemma gcells_nth g i s : nth_error samp i = Some s -> nth_error (gcells g) i = Some (cells_of L dim s g).
  Proof. intros E. unfold gcells. apply (map_nth_error (fun s => cells_of L dim s g)), E. Qed.
  Lemma gcells_length g : length (gcells g) = length samp.
  Proof. apply map_length. Qed.

  Lemma gather_all_spec {A} (p : list (list A)) g vals : sized L samp p -> (gather_all p (gcells g) = Some vals <->
    length vals = length samp /\ forall i s a, nth_error samp i = Some s -> nth_error p i = Some a -> exists v, nth_error vals i = Some v /\ gather a (cells_of L dim s g) = Some v).
  Proof.
    intros [Lp Sp]. unfold gather_all. rewrite omap2_iff, gcells_length. split.
    - intros (_ & L2 & H). split; [lia|]. intros i s a Es Ea. apply (H i a (cells_of L dim s g) Ea). apply gcells_nth, Es.
    - intros (L2 & H). split; [lia|]. split; [lia|]. intros i a y Ea Ey. destruct (nth_error samp i) as [s|] eqn:Es; [|apply nth_error_None in Es; pose proof (nth_error_lt _ _ _ Ea); lia].
      rewrite (gcells_nth g i s Es) in Ey. injection Ey as <-. apply (H i s a Es Ea).
  Qed.
  Lemma gather_all_total {A} (p : list (list A)) g : sized L samp p -> (g < n)%nat -> exists vals, gather_all p (gcells g) = Some vals.
  Proof.
    intros Sz Hg. destruct Sz as [Lp Sp].
    destruct (build_list (fun i v => exists s a, nth_error samp i = Some s /\ nth_error p i = Some a /\ gather a (cells_of L dim s g) = Some v) (length samp)) as (vals & Lv & Hv).
    { intros i Hi. destruct (nth_error samp i) as [s|] eqn:Es; [|apply nth_error_None in Es; lia]. destruct (Sp i s Es) as (a & Ea & La).
      destruct (gather_total a (cells_of L dim s g)) as [v Ev]; [intros c Hc; rewrite La; apply (pa_in _ _ _ (part i s Es) g c Hg Hc)|]. exists v, s, a. auto. }
    exists vals. apply gather_all_spec; [split; assumption|]. split; [exact Lv|]. intros i s a Es Ea. destruct (Hv i (nth_error_lt _ _ _ Es)) as (v & Ev & s' & a' & Es' & Ea' & G).
    rewrite Es in Es'. injection Es' as <-. rewrite Ea in Ea'. injection Ea' as <-. eauto.
  Qed.

  (** [p] is [t] in the groups of [done] and [p0] elsewhere. *)
  Definition written {A} (done : list nat) (p0 t p : list (list A)) : Prop := sized L samp p /\
    forall i s a b c, nth_error samp i = Some s -> nth_error p0 i = Some a -> nth_error t i = Some b -> nth_error p i = Some c ->
      forall d, ((exists g, In g done /\ In d (cells_of L dim s g)) -> nth_error c d = nth_error b d) /\
        (~ (exists g, In g done /\ In d (cells_of L dim s g)) -> nth_error c d = nth_error a d).

  Lemma written_start {A} (p0 t : list (list A)) : sized L samp p0 -> written [] p0 t p0.
  Proof.
    intros S0. split; [exact S0|]. intros i s a b c Es Ea Eb Ec d. rewrite Ea in Ec. injection Ec as <-. split; [intros (g & [] & _)|reflexivity].
  Qed.
  Lemma written_step {A} done (p0 t p : list (list A)) g vals : sized L samp p0 -> sized L samp t -> written done p0 t p -> (g < n)%nat -> gather_all t (gcells g) = Some vals ->
    exists p', scatter_all p (gcells g) vals = Some p' /\ written (g :: done) p0 t p'.
  Proof.
    intros S0 St [Sp W] Hg G. pose proof (proj1 (gather_all_spec t g vals St) G) as (Lv & Hv).
    destruct (build_list (fun i q => exists s c v b, nth_error samp i = Some s /\ nth_error p i = Some c /\ nth_error t i = Some b /\ nth_error vals i = Some v /\ scatter c (cells_of L dim s g) v = Some q /\
      length q = blocks_of L s /\ (forall d, In d (cells_of L dim s g) -> nth_error q d = nth_error b d) /\ (forall d, ~ In d (cells_of L dim s g) -> nth_error q d = nth_error c d)) (length samp)) as (q & Lq & Hq).
    { intros i Hi. destruct (nth_error samp i) as [s|] eqn:Es; [|apply nth_error_None in Es; lia]. destruct (proj2 Sp i s Es) as (c & Ec & Lc). destruct (proj2 St i s Es) as (b & Eb & Lb).
      destruct (Hv i s b Es Eb) as (v & Ev & Gv). destruct (scatter_from b _ c v Gv ltac:(lia)) as (r & Er & Lr & R1 & R2). exists r, s, c, v, b. repeat (split; [first [assumption|reflexivity|lia]|]). exact R2. }
    exists q. split.
    - apply scatter_all_iff. rewrite gcells_length. destruct Sp as [Lp _]. split; [lia|]. split; [lia|]. split; [lia|]. intros i x y z Ex Ey Ez.
      assert (Hi : (i < length samp)%nat) by (pose proof (nth_error_lt _ _ _ Ex); lia). destruct (Hq i Hi) as (r & Er & s & c & v & b & Es & Ec & Eb & Ev & Sc & _).
      rewrite (gcells_nth g i s Es) in Ey. injection Ey as <-. rewrite Ec in Ex. injection Ex as <-. rewrite Ev in Ez. injection Ez as <-. eauto.
    - split.
      + split; [exact Lq|]. intros i s Es. destruct (Hq i (nth_error_lt _ _ _ Es)) as (r & Er & s' & c & v & b & Es' & _ & _ & _ & _ & Lr & _). rewrite Es in Es'. injection Es' as <-. eauto.
      + intros i s a b c Es Ea Eb Ec d. destruct (Hq i (nth_error_lt _ _ _ Es)) as (r & Er & s' & c0 & v & b' & Es' & Ec0 & Eb' & _ & _ & _ & R1 & R2). rewrite Es in Es'. injection Es' as <-.
        rewrite Eb in Eb'. injection Eb' as <-. rewrite Er in Ec. injection Ec as <-. destruct (W i s a b c0 Es Ea Eb Ec0 d) as [W1 W2]. split.
        * intros (g' & Hg' & Hd). destruct (in_dec Nat.eq_dec d (cells_of L dim s g)) as [I|I]; [apply R1, I|]. rewrite (R2 d I). apply W1.
          destruct Hg' as [<-|Hg']; [contradiction|]. eauto.
        * intros H. rewrite R2; [apply W2|]; [intros (g' & Hg' & Hd); apply H; exists g'; split; [right; exact Hg'|exact Hd]|].
          intros I. apply H. exists g. split; [left; reflexivity|exact I].
  Qed.
  Lemma written_read {A} done (p0 t p : list (list A)) g : sized L samp p0 -> sized L samp t -> written done p0 t p -> (g < n)%nat -> ~ In g done -> (forall k, In k done -> (k < n)%nat) ->
    gather_all p (gcells g) = gather_all p0 (gcells g).
  Proof.
    intros S0 St [Sp W] Hg Nd B. destruct (gather_all_total p0 g S0 Hg) as [vals E]. rewrite E. apply gather_all_spec; [exact Sp|]. apply gather_all_spec in E; [|exact S0]. destruct E as [Lv H].
    split; [exact Lv|]. intros i s c Es Ec. destruct (proj2 S0 i s Es) as (a & Ea & La). destruct (proj2 St i s Es) as (b & Eb & Lb). destruct (H i s a Es Ea) as (v & Ev & Gv). exists v. split; [exact Ev|].
    rewrite <- Gv. apply gather_ext. intros d Hd. apply (W i s a b c Es Ea Eb Ec d). intros (k & Hk & Ik). pose proof (pa_one _ _ _ (part i s Es) g k d Hg (B k Hk) Hd Ik) as ->. contradiction.
  Qed.
  Lemma written_end {A} done (p0 t p : list (list A)) : sized L samp p0 -> sized L samp t -> written done p0 t p -> (forall g, (g < n)%nat -> In g done) -> p = t.
  Proof.
    intros S0 St [Sp W] H. apply nth_error_ext. intros i. destruct (nth_error samp i) as [s|] eqn:Es.
    - destruct (proj2 S0 i s Es) as (a & Ea & La). destruct (proj2 St i s Es) as (b & Eb & Lb). destruct (proj2 Sp i s Es) as (c & Ec & Lc). rewrite Ec, Eb. f_equal.
      apply nth_error_ext. intros d. destruct (le_lt_dec (blocks_of L s) d) as [G|G]; [rewrite !(proj2 (nth_error_None _ _)) by lia; reflexivity|].
      apply (W i s a b c Es Ea Eb Ec d). destruct (pa_some _ _ _ (part i s Es) d G) as (g & Hg & I). exists g. split; [apply H, Hg|exact I].
    - apply nth_error_None in Es. destruct Sp as [Lp _]. destruct St as [Lt _]. rewrite !(proj2 (nth_error_None _ _)) by lia. reflexivity.
  Qed.

  (** Values for each group make up arrays. *)
  Lemma assemble {A} (d : A) (vals : nat -> list (list A)) :
    (forall g, (g < n)%nat -> length (vals g) = length samp /\ forall i s, nth_error samp i = Some s -> exists v, nth_error (vals g) i = Some v /\ length v = length (cells_of L dim s g)) ->
    exists t, sized L samp t /\ forall g, (g < n)%nat -> gather_all t (gcells g) = Some (vals g).
  Proof.
    intros H.
    destruct (build_list (fun i a => exists s, nth_error samp i = Some s /\ length a = blocks_of L s /\ forall g, (g < n)%nat -> gather a (cells_of L dim s g) = Some (nth i (vals g) [])) (length samp)) as (t & Lt & Ht).
    { intros i Hi. destruct (nth_error samp i) as [s|] eqn:Es; [|apply nth_error_None in Es; lia].
      destruct (partition_assemble d _ _ _ (fun g => nth i (vals g) []) (part i s Es)) as (a & La & Ga).
      { intros g Hg. destruct (H g Hg) as [_ Hi']. destruct (Hi' i s Es) as (v & Ev & Lv). rewrite (nth_error_nth _ _ [] Ev). exact Lv. }
      exists a, s. auto. }
    assert (St : sized L samp t). { split; [exact Lt|]. intros i s Es. destruct (Ht i (nth_error_lt _ _ _ Es)) as (a & Ea & s' & Es' & La & _). rewrite Es in Es'. injection Es' as <-. eauto. }
    exists t. split; [exact St|]. intros g Hg. apply gather_all_spec; [exact St|]. destruct (H g Hg) as [Lv Hv]. split; [exact Lv|]. intros i s a Es Ea.
    destruct (Hv i s Es) as (v & Ev & _). exists v. split; [exact Ev|]. destruct (Ht i (nth_error_lt _ _ _ Es)) as (a' & Ea' & s' & Es' & _ & G). rewrite Es in Es'. injection Es' as <-.
    rewrite Ea in Ea'. injection Ea' as <-. rewrite (G g Hg). rewrite (nth_error_nth _ _ [] Ev). reflexivity.
  Qed.
End Cut.
