(** The thread pool gets on: no lost wake-up, and a measure. *)
From Verif Require Import Base PoolModel PoolSpec PoolProofs.

(** Nobody sleeps while there are tasks to take, and the caller sleeps only while there is something
    to wait for. *)
Definition awake (s : pool) : Prop :=
  forall n, waits s = Some n ->
    ((p_next s < n)%nat -> Forall (fun w => w <> WSleep) (p_workers s)) /\
    (p_caller s = MSleep n -> (p_next s < n)%nat \/ p_busy s <> 0%nat).

Lemma waits_sleep s n : p_caller s = MSleep n -> waits s = Some n.
Proof. unfold waits. intros ->. reflexivity. Qed.

Lemma awake_call k s tr e s' : good k s tr -> awake s -> call_step s e s' -> awake s'.
Proof.
  intros G A ST. destruct ST as [r n C|r n C|r n C|n C N0 Z|n C N0|C|C|C|C|C Z|C Z]; intros m; unfold waits; cbn [p_caller p_next p_busy p_workers]; intros Q; try discriminate; injection Q as <-.
  - split; [|discriminate]. intros _. apply Forall_map. apply Forall_forall. intros [] _; discriminate.
  - destruct (A n) as [A1 _]; [unfold waits; rewrite C; reflexivity|]. split; [exact A1|]. intros _. exact N0.
Qed.
Lemma awake_work k s tr a w b e w' s1 : good k s tr -> awake s -> p_workers s = a ++ w :: b -> work_step s w e w' s1 -> awake (with_workers s1 (a ++ w' :: b)).
Proof.
  intros G A E ST n. unfold with_workers, waits. cbn [p_caller p_next p_busy p_workers]. intros Q.
  assert (W0 : waits s = Some n) by (destruct ST; unfold waits; cbn [p_caller] in Q; try exact Q; destruct (p_caller s); cbn [notify] in Q; try discriminate; exact Q).
  destruct (A n W0) as [A1 A2]. rewrite E in A1. destruct G as (_ & Bz & P). apply (phase_waits s tr n W0) in P as (N & _).
  assert (UP : forall x, x <> WSleep -> Forall (fun w => w <> WSleep) (a ++ w :: b) -> Forall (fun w => w <> WSleep) (a ++ x :: b)).
  { intros x Hx F. apply Forall_app in F as [F1 F2]. inversion F2; subst. apply Forall_app. split; [exact F1|constructor; assumption]. }
  rewrite E, tot_app, tot_cons in Bz. split.
  - intros LT. destruct ST; cbn [p_next] in LT; try (apply UP; [discriminate|]; apply A1; lia). exfalso. lia.
  - intros C. destruct ST; cbn [p_caller p_next p_busy active] in *; try (destruct (A2 C); [left|right]; lia); try (right; lia).
    + destruct (p_caller s); discriminate.
Qed.
Lemma runs_awake k tr s : runs (pool_start k) tr s -> awake s.
Proof.
  intros R. induction R as [|tr s1 e s2 R A ST|tr s1 s2 R A SP].
  - intros n H. discriminate.
  - pose proof (runs_good k tr s1 R) as G. destruct ST as [e s' ST|a w b e w' s' E ST]; [exact (awake_call k s1 tr e s' G A ST)|exact (awake_work k s1 tr a w b e w' s' G A E ST)].
  - destruct SP as [|a b E].
    + intros n. rewrite (waits_notify (p_caller s1)). intros Q. destruct (A n Q) as [A1 A2]. cbn [p_next p_workers p_busy p_caller]. split; [exact A1|]. intros C. destruct (p_caller s1); discriminate.
    + intros n Q. destruct (A n Q) as [A1 A2]. split; [|exact A2]. unfold with_workers. cbn [p_next p_workers]. intros LT. specialize (A1 LT). rewrite E in A1. apply Forall_app in A1 as [F1 F2]. inversion F2; subst. apply Forall_app. split; [exact F1|constructor; [discriminate|assumption]].
Qed.

Definition in_call (s : pool) : Prop := match p_caller s with MExecNext _ _ | MExecNum _ _ | MWait _ | MSleep _ => True | _ => False end.

(** With a thread there is always a step. *)
Lemma step_enabled k s tr : (0 < k)%nat -> good k s tr -> awake s -> in_call s -> exists e s', prog_step s e s'.
Proof.
  intros K G A IC. unfold in_call in IC. destruct (p_caller s) eqn:C; try contradiction.
  - eexists _, _. apply PCall. eapply CNum. exact C.
  - eexists _, _. apply PCall. eapply CRun. exact C.
  - destruct (Nat.le_gt_cases n (p_next s)) as [H|H]; [destruct (Nat.eq_dec (p_busy s) 0) as [Z|Z]|]; eexists _, _; apply PCall; [eapply CReturn; eassumption| |]; eapply CBlock; [exact C|right; exact Z|exact C|left; exact H].
  - assert (W0 : waits s = Some n) by (unfold waits; rewrite C; reflexivity). destruct (A n W0) as [A1 A2]. specialize (A2 C). pose proof G as (L & Bz & P). apply (phase_waits s tr n W0) in P as (N & T & r & calls & b & Hr & _ & _ & WK & _).
    destruct (Nat.eq_dec (p_busy s) 0) as [Z|Z].
    + destruct A2 as [LT|]; [|contradiction]. specialize (A1 LT). pose proof (rest_workers k s tr G Z) as RW. destruct (p_workers s) as [|w ws] eqn:E; [cbn in L; lia|]. inversion A1; inversion RW; subst. destruct w; try discriminate; [|congruence].
      eexists _, _. apply (PWork s [] WWait ws); [exact E|]. apply KEnter; [rewrite C; reflexivity|lia|exact T].
    + rewrite Bz in Z. destruct (tot_pos _ _ Z) as (a & w & b' & E & Hw). rewrite E in WK. apply Forall_app in WK as [_ WK]. inversion WK as [|? ? Kw _]; subst x l.
      destruct w; cbn [active worker_ok] in *; try congruence; try contradiction.
      * eexists _, _. apply (PWork s a WLoop b'); [exact E|]. apply KTake.
      * destruct (Nat.le_gt_cases (p_num s) t); eexists _, _; apply (PWork s a (WGot t) b'); try exact E; [apply KNone; assumption|eapply KStart; eassumption].
      * eexists _, _. apply (PWork s a (WRun r0 t) b'); [exact E|]. apply KEnd.
      * eexists _, _. apply (PWork s a WLeave b'); [exact E|]. apply KLeave. rewrite C. reflexivity.
Qed.

Definition weight (n next : nat) (w : worker) : nat :=
  match w with
  | WSleep => if (next <? n)%nat then 7 else 0
  | WWait => if (next <? n)%nat then 8 else 1
  | WLoop => 6 | WGot t => if (t <? n)%nat then 8 else 4 | WRun _ _ => 7 | WLeave => 3 | WGone => 0
  end.
Definition measure (s : pool) : nat :=
  match p_caller s with
  | MExecNext _ n => 4 + 3 * n + 8 * length (p_workers s)
  | MExecNum _ n => 3 + 3 * n + 8 * length (p_workers s)
  | MWait n => 1 + 3 * (n - p_next s) + tot (weight n (p_next s)) (p_workers s)
  | MSleep n => 3 * (n - p_next s) + tot (weight n (p_next s)) (p_workers s)
  | _ => 0
  end.
Lemma measure_waits s n : waits s = Some n -> measure s = ((match p_caller s with MWait _ => 1 | _ => 0 end) + 3 * (n - p_next s) + tot (weight n (p_next s)) (p_workers s))%nat.
Proof. unfold waits, measure. destruct (p_caller s); intros H; try discriminate; injection H as ->; reflexivity. Qed.

Lemma weight_le n a b w : (a <= b)%nat -> (weight n b w <= weight n a w)%nat.
Proof. intros H. destruct w; cbn [weight]; try lia; destruct (Nat.ltb_spec a n), (Nat.ltb_spec b n); lia. Qed.
Lemma tot_le {A} (f g : A -> nat) l : (forall x, (f x <= g x)%nat) -> (tot f l <= tot g l)%nat.
Proof. intros H. induction l as [|x l IH]; [reflexivity|]. rewrite !tot_cons. specialize (H x). lia. Qed.
Lemma tot_bound {A} (f : A -> nat) c l : (forall x, In x l -> (f x <= c)%nat) -> (tot f l <= c * length l)%nat.
Proof. induction l as [|x l IH]; intros H; [cbn; lia|]. rewrite tot_cons. cbn [length]. pose proof (H x (or_introl eq_refl)). specialize (IH (fun y K => H y (or_intror K))). lia. Qed.

Lemma step_decreases k s tr e s' : good k s tr -> in_call s -> prog_step s e s' -> ~ In EReturn e -> in_call s' /\ (measure s' < measure s)%nat.
Proof.
  intros G IC ST NR. destruct ST as [e s' ST|a w b e w' s1 E ST].
  - unfold in_call in *. destruct ST as [r n C|r n C|r n C|n C N0 Z|n C N0|C|C|C|C|C Z|C Z]; rewrite C in IC; try contradiction; try (elim NR; left; reflexivity); cbn [p_caller]; (split; [exact I|]); unfold measure; rewrite C; cbn [p_caller p_workers p_next].
    + lia.
    + pose proof G as (L & Bz & P). unfold phase in P. rewrite C in P. destruct P as (R & Z & N & _). rewrite Z. pose proof (rest_workers k s tr G R) as RW. rewrite Forall_forall in RW.
      assert (H : (tot (weight n 0) (map wake (p_workers s)) <= 8 * length (map wake (p_workers s)))%nat).
      { apply tot_bound. intros x Hx. destruct x; cbn [weight]; try lia; repeat (match goal with |- context [if ?c then _ else _] => destruct c end); lia. }
      rewrite map_length in H. lia.
    + lia.
  - pose proof G as (L & Bz & P). assert (W0 : exists n, waits s = Some n).
    { destruct (Nat.eq_dec (active w) 1) as [A|A]; [destruct (active_waits k s tr a w b G E A) as (n & [C|C]); exists n; unfold waits; rewrite C; reflexivity|].
      unfold waits, in_call in *. destruct ST; cbn in A; try lia; match goal with |- context [p_caller ?x] => destruct (p_caller x) end; try contradiction; try discriminate; eauto. }
    destruct W0 as (n & W0). pose proof W0 as W1. destruct (proj1 (phase_waits s tr n W0) P) as (N & T & r & calls & bb & Hr & _ & _ & WK & _). rewrite E in WK. apply Forall_app in WK as [_ WK]. inversion WK as [|? ? Kw _]; subst x l.
    rewrite (measure_waits s n W0). rewrite E, tot_app, tot_cons.
    assert (W2 : waits (with_workers s1 (a ++ w' :: b)) = Some n) by (unfold waits, with_workers in *; destruct ST; cbn [p_caller] in *; try exact W0; match goal with |- context [p_caller ?x] => destruct (p_caller x) end; cbn [notify]; try discriminate; exact W0).
    split; [unfold in_call; unfold waits in W2; destruct (p_caller (with_workers s1 (a ++ w' :: b))); try discriminate; exact I|].
    rewrite (measure_waits _ n W2). unfold with_workers. cbn [p_caller p_next p_workers]. rewrite tot_app, tot_cons.
    destruct ST; cbn [p_caller p_next worker_ok] in *; subst n.
    + cbn [weight]. destruct (Nat.ltb_spec (p_next s) (p_num s)); lia.
    + congruence.
    + cbn [weight]. destruct (Nat.ltb_spec (p_next s) (p_num s)); lia.
    + pose proof (tot_le (weight (p_num s) (S (p_next s))) (weight (p_num s) (p_next s)) a (fun x => weight_le _ _ _ x (Nat.le_succ_diag_r _))). pose proof (tot_le (weight (p_num s) (S (p_next s))) (weight (p_num s) (p_next s)) b (fun x => weight_le _ _ _ x (Nat.le_succ_diag_r _))).
      cbn [weight]. destruct (Nat.ltb_spec (p_next s) (p_num s)); lia.
    + cbn [weight]. destruct (Nat.ltb_spec t (p_num s)); lia.
    + cbn [weight]. destruct (Nat.ltb_spec t (p_num s)); lia.
    + congruence.
    + cbn [weight]. lia.
    + cbn [weight]. destruct (Nat.ltb_spec (p_next s) (p_num s)); [lia|]. destruct (p_caller s); cbn [notify]; lia.
Qed.
Lemma spurious_measure s s' : in_call s -> spurious s s' -> in_call s' /\ (measure s' <= S (measure s))%nat.
Proof.
  intros IC [|a b E].
  - unfold in_call, measure in *. cbn [p_caller p_workers p_next]. destruct (p_caller s); try contradiction; cbn [notify]; split; try exact I; lia.
  - split; [exact IC|]. unfold measure, with_workers. cbn [p_caller p_workers p_next]. rewrite E. unfold in_call in IC. destruct (p_caller s); try contradiction; rewrite ?app_length, ?tot_app, ?tot_cons; cbn [length weight]; try lia.
    + destruct (p_next s <? n)%nat; lia.
    + destruct (p_next s <? n)%nat; lia.
Qed.

(** [m] steps of the program and [j] spurious wake-ups. *)
Inductive steps (s : pool) : nat -> nat -> list event -> pool -> Prop :=
| StNil : steps s 0 0 [] s
| StStep m j tr s1 e s2 : steps s m j tr s1 -> prog_step s1 e s2 -> steps s (S m) j (tr ++ e) s2
| StSpur m j tr s1 s2 : steps s m j tr s1 -> spurious s1 s2 -> steps s m (S j) tr s2.

Lemma steps_runs s0 tr s m j tr' s' : runs s0 tr s -> steps s m j tr' s' -> runs s0 (tr ++ tr') s'.
Proof. intros R ST. induction ST as [|m j tr' s1 e s2 _ IH ST|m j tr' s1 s2 _ IH SP]; [rewrite app_nil_r; exact R|rewrite app_assoc; eapply RunStep; eassumption|eapply RunSpur; eassumption]. Qed.

Lemma steps_bounded k tr s m j tr' s' : runs (pool_start k) tr s -> in_call s -> steps s m j tr' s' -> ~ In EReturn tr' -> in_call s' /\ (m + measure s' <= measure s + j)%nat.
Proof.
  intros R IC ST. induction ST as [|m j tr' s1 e s2 S1 IH ST|m j tr' s1 s2 S1 IH SP]; intros NR.
  - split; [exact IC|lia].
  - destruct IH as [IC1 M1]; [intros H; apply NR; apply in_or_app; left; exact H|].
    destruct (step_decreases k s1 (tr ++ tr') e s2 (runs_good _ _ _ (steps_runs _ _ _ _ _ _ _ R S1)) IC1 ST) as [IC2 M2]; [intros H; apply NR; apply in_or_app; right; exact H|]. split; [exact IC2|lia].
  - destruct IH as [IC1 M1]; [exact NR|]. destruct (spurious_measure s1 s2 IC1 SP) as [IC2 M2]. split; [exact IC2|lia].
Qed.
