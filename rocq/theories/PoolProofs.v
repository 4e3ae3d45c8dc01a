(** Invariants of the thread pool. *)
From Verif Require Import Base PoolModel PoolSpec.

Definition tot {A} (f : A -> nat) (l : list A) : nat := list_sum (map f l).
Lemma tot_app {A} (f : A -> nat) a b : tot f (a ++ b) = (tot f a + tot f b)%nat.
Proof. unfold tot. rewrite map_app, list_sum_app. reflexivity. Qed.
Lemma tot_cons {A} (f : A -> nat) x l : tot f (x :: l) = (f x + tot f l)%nat.
Proof. reflexivity. Qed.
Lemma tot_nil {A} (f : A -> nat) : tot f [] = 0%nat.
Proof. reflexivity. Qed.
Lemma tot_zero {A} (f : A -> nat) l : tot f l = 0%nat <-> Forall (fun x => f x = 0%nat) l.
Proof. induction l as [|x l IH]; [split; [constructor|reflexivity]|]. rewrite tot_cons. split; [intros H; constructor; [lia|apply IH; lia]|intros H; inversion H; subst; apply IH in H3; lia]. Qed.
Lemma tot_pos {A} (f : A -> nat) l : tot f l <> 0%nat -> exists a x b, l = a ++ x :: b /\ f x <> 0%nat.
Proof.
  induction l as [|x l IH]; [intros H; elim H; reflexivity|]. rewrite tot_cons. intros H. destruct (Nat.eq_dec (f x) 0) as [Q|Q].
  - destruct IH as (a & y & b & -> & Hy); [lia|]. exists (x :: a), y, b. split; [reflexivity|exact Hy].
  - exists [], x, l. split; [reflexivity|exact Q].
Qed.
Lemma tot_ext {A} (f g : A -> nat) l : Forall (fun x => f x = g x) l -> tot f l = tot g l.
Proof. induction 1 as [|x l H _ IH]; [reflexivity|]. rewrite !tot_cons. lia. Qed.
Lemma tot_map {A} (f g : A -> nat) (h : A -> A) l : (forall x, f (h x) = g x) -> tot f (map h l) = tot g l.
Proof. intros H. unfold tot. rewrite map_map. f_equal. apply map_ext. exact H. Qed.

Definition active (w : worker) : nat := match w with WWait | WSleep => 0 | _ => 1 end.
Definition got (n t : nat) (w : worker) : nat := match w with WGot t' => if (t' =? t)%nat && (t' <? n)%nat then 1 else 0 | _ => 0 end.
Definition running (t : nat) (w : worker) : nat := match w with WRun _ t' => if (t' =? t)%nat then 1 else 0 | _ => 0 end.
Definition started (t : nat) (e : event) : nat := match e with EStart _ t' => if (t' =? t)%nat then 1 else 0 | _ => 0 end.
Definition ended (t : nat) (e : event) : nat := match e with EEnd _ t' => if (t' =? t)%nat then 1 else 0 | _ => 0 end.

(** A worker while [execute(r, n)] waits. *)
Definition worker_ok (r n next : nat) (w : worker) : Prop :=
  match w with WGot t => (t < next)%nat | WLeave => (n <= next)%nat | WGone => False | WRun r' t => r' = r /\ (t < n)%nat | _ => True end.

(** The events since the call. *)
Definition window (r n : nat) (s : pool) (b : list event) : Prop :=
  Forall (task_of r n) b /\
  (forall t, tot (started t) b + tot (got n t) (p_workers s) = if (t <? Nat.min (p_next s) n)%nat then 1 else 0)%nat /\
  (forall t, tot (ended t) b + tot (running t) (p_workers s) = tot (started t) b)%nat /\
  (forall t p q, b = p ++ EEnd r t :: q -> In (EStart r t) p).

Definition at_rest (s : pool) : Prop := p_busy s = 0%nat.
Definition phase (s : pool) (tr : list event) : Prop :=
  match p_caller s with
  | MIdle => at_rest s /\ (p_num s <= p_next s)%nat /\ p_term s = false /\ exists calls, tr = concat calls /\ Forall complete_call calls
  | MExecNext r n => at_rest s /\ p_next s = 0%nat /\ p_term s = false /\ exists calls, tr = concat calls ++ [ECall r n] /\ Forall complete_call calls
  | MExecNum r n => at_rest s /\ p_next s = 0%nat /\ p_num s = n /\ p_term s = false /\ exists calls, tr = concat calls ++ [ECall r n] /\ Forall complete_call calls
  | MWait n | MSleep n => p_num s = n /\ p_term s = false /\ exists r calls b, p_run s = Some r /\ tr = concat calls ++ ECall r n :: b /\ Forall complete_call calls /\
      Forall (worker_ok r n (p_next s)) (p_workers s) /\ window r n s b
  | MDieTerm => at_rest s /\ (p_num s <= p_next s)%nat /\ exists calls, tr = concat calls ++ [EDestroy] /\ Forall complete_call calls
  | MDieNext => at_rest s /\ p_next s = 1%nat /\ exists calls, tr = concat calls ++ [EDestroy] /\ Forall complete_call calls
  | MDieNum | MDieWait | MDieSleep => at_rest s /\ p_next s = 1%nat /\ p_num s = 1%nat /\ exists calls, tr = concat calls ++ [EDestroy] /\ Forall complete_call calls
  | MGone => at_rest s /\ p_next s = 1%nat /\ p_num s = 1%nat /\ p_workers s = [] /\ exists calls, tr = concat calls ++ [EDestroy; EDestroyed] /\ Forall complete_call calls
  end.
Definition good (k : nat) (s : pool) (tr : list event) : Prop :=
  length (p_workers s) = k /\ p_busy s = tot active (p_workers s) /\ phase s tr.

Lemma rest_workers k s tr : good k s tr -> at_rest s -> Forall (fun w => active w = 0%nat) (p_workers s).
Proof. intros (_ & B & _) H. apply tot_zero. rewrite <- B. exact H. Qed.
Lemma rest_zero (f : worker -> nat) l : (forall w, active w = 0%nat -> f w = 0%nat) -> Forall (fun w => active w = 0%nat) l -> tot f l = 0%nat.
Proof. intros H F. apply tot_zero. eapply Forall_impl; [|exact F]. exact H. Qed.
Lemma wake_active w : active (wake w) = active w.
Proof. destruct w; reflexivity. Qed.
Lemma started_in t b : Forall (fun e => match e with EStart _ _ | EEnd _ _ => True | _ => False end) b -> tot (started t) b = 0%nat -> forall r, ~ In (EStart r t) b.
Proof. intros _ H r Hin. apply in_split in Hin as (x & y & ->). rewrite tot_app, tot_cons in H. cbn [started] in H. rewrite Nat.eqb_refl in H. lia. Qed.

Lemma count_in_start t r b : In (EStart r t) b -> (1 <= tot (started t) b)%nat.
Proof. intros H. apply in_split in H as (x & y & ->). rewrite tot_app, tot_cons. cbn [started]. rewrite Nat.eqb_refl. lia. Qed.
Lemma count_in_end t r b : In (EEnd r t) b -> (1 <= tot (ended t) b)%nat.
Proof. intros H. apply in_split in H as (x & y & ->). rewrite tot_app, tot_cons. cbn [ended]. rewrite Nat.eqb_refl. lia. Qed.
Lemma task_end r n b t : Forall (task_of r n) b -> tot (ended t) b <> 0%nat -> In (EEnd r t) b.
Proof.
  intros F H. destruct (tot_pos _ _ H) as (x & e & y & -> & He). apply Forall_app in F as [_ F]. inversion F as [|? ? (t' & _ & [-> | ->])]; subst; cbn [ended] in He; [elim He; reflexivity|].
  destruct (Nat.eqb_spec t' t); [|elim He; reflexivity]. subst. apply in_or_app. right. left. reflexivity.
Qed.

(** When all tasks have ended, the call is complete. *)
Lemma window_complete r n b : Forall (task_of r n) b -> (forall t, (t < n)%nat -> tot (started t) b = 1%nat) -> (forall t, tot (ended t) b = tot (started t) b) ->
  (forall t p q, b = p ++ EEnd r t :: q -> In (EStart r t) p) -> forall t, (t < n)%nat -> done_once r t b.
Proof.
  intros F S E O t H. assert (HE : In (EEnd r t) b) by (apply (task_end r n); [exact F|rewrite E, S by exact H; lia]).
  apply in_split in HE as (p & q & ->). pose proof (O t p q eq_refl) as HS. apply in_split in HS as (a & m & ->).
  exists a, m, q. rewrite <- app_assoc. cbn [Datatypes.app]. split; [reflexivity|].
  specialize (S t H). specialize (E t). rewrite S in E. rewrite !tot_app, !tot_cons in S, E. cbn [started ended] in S, E. rewrite Nat.eqb_refl in S, E.
  split; intros r' K; [apply count_in_start in K|apply count_in_end in K]; rewrite !tot_app in K; lia.
Qed.

Lemma good_start k : good k (pool_start k) [].
Proof.
  split; [apply repeat_length|]. split; [cbn; induction k; [reflexivity|exact IHk]|]. cbn [phase pool_start p_caller]. split; [reflexivity|]. split; [cbn; lia|]. split; [reflexivity|]. exists []. split; [reflexivity|constructor].
Qed.

Lemma call_good k s tr e s' : good k s tr -> call_step s e s' -> good k s' (tr ++ e).
Proof.
  intros G ST. pose proof (rest_workers k s tr G) as RW. destruct G as (L & Bz & P). destruct ST as [r n C|r n C|r n C|n C N0 Z|n C N0|C|C|C|C|C Z|C Z]; unfold phase in P; rewrite C in P; cbn [p_workers p_busy];
    (split; [cbn [p_workers]; try (rewrite map_length); exact L|]; split; [cbn [p_workers p_busy]; try exact Bz|]); unfold phase; cbn [p_caller p_workers p_busy p_num p_next p_run p_term at_rest]; unfold at_rest in *; cbn [p_busy].
  - destruct P as (R & _ & T & calls & -> & F). split; [exact R|]. split; [reflexivity|]. split; [exact T|]. exists calls. split; [reflexivity|exact F].
  - destruct P as (R & Z & T & calls & -> & F). split; [exact R|]. split; [exact Z|]. split; [reflexivity|]. split; [exact T|]. exists calls. rewrite app_nil_r. split; [reflexivity|exact F].
  - rewrite Bz. symmetry. apply tot_map. apply wake_active.
  - destruct P as (R & Z & N & T & calls & -> & F). specialize (RW R). split; [exact N|]. split; [exact T|]. exists r, calls, []. split; [reflexivity|]. rewrite app_nil_r. split; [reflexivity|]. split; [exact F|].
    split; [apply Forall_map; eapply Forall_impl; [|exact RW]; intros [] H; cbn in *; try discriminate; exact I|].
    split; [constructor|]. cbn [p_workers p_next]. rewrite Z. cbn [Nat.min].
    assert (RW' : Forall (fun w => active w = 0%nat) (map wake (p_workers s))) by (apply Forall_map; eapply Forall_impl; [|exact RW]; intros w H; cbn beta; rewrite wake_active; exact H).
    split; [intros t; rewrite (rest_zero _ _ (fun w H => match w as w0 return active w0 = 0%nat -> got n t w0 = 0%nat with WGot _ => fun H => ltac:(discriminate) | _ => fun _ => eq_refl end H) RW'); rewrite tot_nil; destruct (Nat.ltb_spec t 0); [lia|reflexivity]|].
    split; [intros t; rewrite (rest_zero _ _ (fun w H => match w as w0 return active w0 = 0%nat -> running t w0 = 0%nat with WRun _ _ => fun H => ltac:(discriminate) | _ => fun _ => eq_refl end H) RW'); reflexivity|].
    intros t p q Q. destruct p; discriminate.
  - destruct P as (N & T & r & calls & b & Hr & -> & F & W & (W1 & W2 & W3 & W4)). specialize (RW Z). split; [exact Z|]. split; [lia|]. split; [exact T|].
    exists (calls ++ [ECall r n :: b ++ [EReturn]]). split; [rewrite concat_app; cbn [concat]; rewrite app_nil_r, <- app_assoc; reflexivity|].
    apply Forall_app. split; [exact F|]. constructor; [|constructor]. exists r, n, b. split; [reflexivity|]. split; [exact W1|].
    assert (G0 : forall t, tot (got n t) (p_workers s) = 0%nat) by (intros t; apply (rest_zero _ _ (fun w H => match w as w0 return active w0 = 0%nat -> got n t w0 = 0%nat with WGot _ => fun H => ltac:(discriminate) | _ => fun _ => eq_refl end H) RW)).
    assert (R0 : forall t, tot (running t) (p_workers s) = 0%nat) by (intros t; apply (rest_zero _ _ (fun w H => match w as w0 return active w0 = 0%nat -> running t w0 = 0%nat with WRun _ _ => fun H => ltac:(discriminate) | _ => fun _ => eq_refl end H) RW)).
    apply (window_complete r n b W1); [| |exact W4].
    + intros t H. specialize (W2 t). rewrite G0 in W2. destruct (Nat.ltb_spec t (Nat.min (p_next s) n)); lia.
    + intros t. specialize (W3 t). rewrite R0 in W3. lia.
  - rewrite app_nil_r. exact P.
  - destruct P as (R & N & _ & calls & -> & F). split; [exact R|]. split; [exact N|]. exists calls. split; [reflexivity|exact F].
  - destruct P as (R & N & calls & -> & F). split; [exact R|]. split; [reflexivity|]. exists calls. rewrite app_nil_r. split; [reflexivity|exact F].
  - destruct P as (R & N & calls & -> & F). split; [exact R|]. split; [exact N|]. split; [reflexivity|]. exists calls. rewrite app_nil_r. split; [reflexivity|exact F].
  - rewrite Bz. symmetry. apply tot_map. apply wake_active.
  - destruct P as (R & N & N2 & calls & -> & F). split; [exact R|]. split; [exact N|]. split; [exact N2|]. exists calls. rewrite app_nil_r. split; [reflexivity|exact F].
  - destruct P as (R & N & N2 & calls & -> & F). split; [exact R|]. split; [exact N|]. split; [exact N2|]. split; [destruct (p_workers s); [reflexivity|cbn in Z; lia]|]. exists calls. rewrite <- app_assoc. split; [reflexivity|exact F].
  - rewrite app_nil_r. exact P.
Qed.

(** A worker is at work only while [execute] waits. *)
Lemma active_waits k s tr a w b : good k s tr -> p_workers s = a ++ w :: b -> active w = 1%nat -> exists n, p_caller s = MWait n \/ p_caller s = MSleep n.
Proof.
  intros (L & Bz & P) E A. assert (NR : p_busy s <> 0%nat) by (rewrite Bz, E, tot_app, tot_cons; lia).
  unfold phase, at_rest in P. destruct (p_caller s); try (destruct P; contradiction); eauto.
Qed.

Lemma phase_notify s tr : phase s tr <-> phase (mkPool (p_next s) (p_num s) (p_run s) (p_busy s) (p_term s) (notify (p_caller s)) (p_workers s)) tr.
Proof. unfold phase, at_rest, window. cbn [p_caller p_busy p_next p_num p_run p_term p_workers]. destruct (p_caller s); reflexivity. Qed.

(** Changing a resting worker to another resting state changes nothing else. *)
Lemma phase_rest s tr a w b w' : p_workers s = a ++ w :: b -> active w = 0%nat -> active w' = 0%nat -> phase s tr -> phase (with_workers s (a ++ w' :: b)) tr.
Proof.
  intros E A A' P. unfold phase, at_rest, window, with_workers in *. cbn [p_caller p_busy p_next p_num p_run p_term p_workers]. rewrite E in P.
  assert (Q : forall n r nx wl, (wl = a ++ w :: b -> Forall (worker_ok r n nx) wl -> Forall (worker_ok r n nx) (a ++ w' :: b))).
  { intros n r nx wl -> F. apply Forall_app in F as [F1 F2]. inversion F2; subst. apply Forall_app. split; [exact F1|]. constructor; [destruct w'; try discriminate; exact I|assumption]. }
  assert (QG : forall n t, tot (got n t) (a ++ w' :: b) = tot (got n t) (a ++ w :: b)) by (intros n t; rewrite !tot_app, !tot_cons; destruct w, w'; try discriminate; reflexivity).
  assert (QR : forall t, tot (running t) (a ++ w' :: b) = tot (running t) (a ++ w :: b)) by (intros t; rewrite !tot_app, !tot_cons; destruct w, w'; try discriminate; reflexivity).
  destruct (p_caller s); try exact P.
  - destruct P as (N & T & r & calls & bb & Hr & Ht & F & W & (W1 & W2 & W3 & W4)). split; [exact N|]. split; [exact T|]. exists r, calls, bb. split; [exact Hr|]. split; [exact Ht|]. split; [exact F|]. split; [eapply Q; [reflexivity|exact W]|].
    split; [exact W1|]. split; [intros t; rewrite QG; apply W2|]. split; [intros t; rewrite QR; apply W3|exact W4].
  - destruct P as (N & T & r & calls & bb & Hr & Ht & F & W & (W1 & W2 & W3 & W4)). split; [exact N|]. split; [exact T|]. exists r, calls, bb. split; [exact Hr|]. split; [exact Ht|]. split; [exact F|]. split; [eapply Q; [reflexivity|exact W]|].
    split; [exact W1|]. split; [intros t; rewrite QG; apply W2|]. split; [intros t; rewrite QR; apply W3|exact W4].
  - destruct P as (_ & _ & _ & P & _). destruct a; discriminate.
Qed.

Definition waits (s : pool) : option nat := match p_caller s with MWait n | MSleep n => Some n | _ => None end.
Lemma phase_waits s tr n : waits s = Some n -> (phase s tr <-> (p_num s = n /\ p_term s = false /\ exists r calls b, p_run s = Some r /\ tr = concat calls ++ ECall r n :: b /\ Forall complete_call calls /\
      Forall (worker_ok r n (p_next s)) (p_workers s) /\ window r n s b)).
Proof. unfold waits, phase. destruct (p_caller s); intros H; try discriminate; injection H as ->; reflexivity. Qed.
Lemma waits_notify m ws nx nu rn bz te : waits (mkPool nx nu rn bz te (notify m) ws) = waits (mkPool nx nu rn bz te m ws).
Proof. destruct m; reflexivity. Qed.

Lemma work_good k s tr a w b e w' s1 : good k s tr -> p_workers s = a ++ w :: b -> work_step s w e w' s1 -> good k (with_workers s1 (a ++ w' :: b)) (tr ++ e).
Proof.
  intros G E ST. pose proof (active_waits k s tr a w b G E) as AW. pose proof G as (L & Bz & P). assert (L' : length (a ++ w' :: b) = k) by (rewrite E in L; rewrite app_length in *; exact L).
  rewrite E, tot_app, tot_cons in Bz.
  assert (EN : w = WWait -> locked (p_caller s) = false -> (p_next s < p_num s)%nat -> exists n, waits s = Some n).
  { intros _ LK LT. unfold phase in P. unfold waits. destruct (p_caller s); try discriminate; eauto; exfalso; lia. }
  assert (WT : forall n, waits s = Some n -> p_num s = n /\ p_term s = false /\ exists r calls bb, p_run s = Some r /\ tr = concat calls ++ ECall r n :: bb /\ Forall complete_call calls /\
      Forall (worker_ok r n (p_next s)) (a ++ w :: b) /\ window r n s bb) by (intros n H; rewrite <- E; apply phase_waits; assumption).
  assert (AX : active w = 1%nat -> exists n, waits s = Some n).
  { intros A. destruct (AW A) as (n & [C|C]); exists n; unfold waits; rewrite C; reflexivity. }
  split; [destruct s1; exact L'|]. split.
  { destruct ST; unfold with_workers; cbn [p_busy p_workers]; rewrite tot_app, tot_cons; cbn [active] in *; lia. }
  assert (MK : forall n, waits s = Some n -> waits s1 = Some n -> p_num s1 = p_num s -> p_term s1 = p_term s -> p_run s1 = p_run s -> (p_next s <= p_next s1)%nat ->
    (forall r bb, p_run s = Some r -> p_num s = n -> Forall (worker_ok r n (p_next s)) (a ++ w :: b) -> window r n s bb -> worker_ok r n (p_next s1) w' /\ window r n (with_workers s1 (a ++ w' :: b)) (bb ++ e)) ->
    phase (with_workers s1 (a ++ w' :: b)) (tr ++ e)).
  { intros n W0 W1 E1 E2 E3 LE H. destruct (WT n W0) as (N & T & r & calls & bb & Hr & -> & F & WK & WD). destruct (H r bb Hr N WK WD) as [H1 H2].
    apply (phase_waits _ _ n); [exact W1|]. unfold with_workers in *. cbn [p_num p_term p_run p_next p_workers]. rewrite E1, E2, E3. split; [exact N|]. split; [exact T|]. exists r, calls, (bb ++ e). split; [exact Hr|]. split; [rewrite <- app_assoc; reflexivity|]. split; [exact F|]. split; [|exact H2].
    assert (UP : forall x, worker_ok r n (p_next s) x -> worker_ok r n (p_next s1) x) by (intros []; cbn; try lia; auto).
    apply Forall_app in WK as [K1 K2]. inversion K2; subst. apply Forall_app. split; [eapply Forall_impl; [exact UP|exact K1]|]. constructor; [exact H1|]. eapply Forall_impl; [exact UP|assumption]. }
  destruct ST as [LK LT T0|LK LT T0|LK LT| |t LE|t r LT Hr|t LT Hr|r t|LK].
  - destruct (EN eq_refl LK LT) as (n & W0). apply (MK n); try reflexivity; try exact W0. intros r bb Hr N WK (W1 & W2 & W3 & W4). cbn [worker_ok p_next]. split; [exact I|]. rewrite app_nil_r.
    split; [exact W1|]. unfold with_workers. cbn [p_workers p_next]. rewrite E in W2, W3. split; [intros t; specialize (W2 t)|split; [intros t; specialize (W3 t)|exact W4]]; rewrite !tot_app, !tot_cons in *; assumption.
  - destruct (EN eq_refl LK LT) as (n & W0). destruct (WT n W0) as (_ & T & _). congruence.
  - rewrite app_nil_r. apply (phase_rest s tr a WWait b WSleep E eq_refl eq_refl P).
  - destruct (AX eq_refl) as (n & W0). apply (MK n); try reflexivity; try exact W0; [cbn; lia|]. intros r bb Hr N WK (W1 & W2 & W3 & W4). cbn [worker_ok p_next]. split; [lia|]. rewrite app_nil_r.
    split; [exact W1|]. unfold with_workers. cbn [p_workers p_next]. rewrite E in W2, W3. split; [intros t; specialize (W2 t)|split; [intros t; specialize (W3 t)|exact W4]]; rewrite !tot_app, !tot_cons in *; cbn [got running] in *; [|assumption].
    destruct (Nat.eqb_spec (p_next s) t) as [Q|Q]; destruct (Nat.ltb_spec (p_next s) n) as [Q2|Q2]; cbn [andb]; destruct (Nat.ltb_spec t (Nat.min (S (p_next s)) n)); destruct (Nat.ltb_spec t (Nat.min (p_next s) n)); lia.
  - destruct (AX eq_refl) as (n & W0). apply (MK n); try reflexivity; try exact W0. intros r bb Hr N WK (W1 & W2 & W3 & W4). apply Forall_app in WK as [_ WK]. inversion WK as [|? ? K1 _]; subst. cbn [worker_ok] in *. split; [lia|]. rewrite app_nil_r.
    split; [exact W1|]. unfold with_workers. cbn [p_workers p_next]. rewrite E in W2, W3. split; [intros u; specialize (W2 u)|split; [intros u; specialize (W3 u)|exact W4]]; rewrite !tot_app, !tot_cons in *; cbn [got running] in *; [|assumption].
    destruct (Nat.ltb_spec t (p_num s)); [lia|]. rewrite andb_false_r in W2. exact W2.
  - destruct (AX eq_refl) as (n & W0). apply (MK n); try reflexivity; try exact W0. intros r0 bb Hr0 N WK (W1 & W2 & W3 & W4). rewrite Hr in Hr0. injection Hr0 as <-. subst n. cbn [worker_ok]. split; [split; [reflexivity|exact LT]|].
    split; [apply Forall_app; split; [exact W1|]; constructor; [|constructor]; exists t; split; [exact LT|left; reflexivity]|].
    unfold with_workers. cbn [p_workers p_next]. rewrite E in W2, W3.
    split; [intros u; specialize (W2 u)|split; [intros u; specialize (W3 u)|]].
    + rewrite !tot_app, !tot_cons in *. rewrite tot_nil. cbn [got started running] in *. destruct (Nat.ltb_spec t (p_num s)); [|lia]. destruct (Nat.eqb_spec t u); cbn [andb] in *; lia.
    + rewrite !tot_app, !tot_cons in *. rewrite !tot_nil. cbn [ended started running] in *. lia.
    + intros u p q Q. destruct q as [|q0 q] using rev_ind; [apply app_inj_tail in Q as [_ Q]; discriminate|]. rewrite app_comm_cons, app_assoc in Q. apply app_inj_tail in Q as [Q _]. exact (W4 u p q Q).
  - destruct (AX eq_refl) as (n & W0). destruct (WT n W0) as (_ & _ & r & _ & _ & Hr2 & _). congruence.
  - destruct (AX eq_refl) as (n & W0). apply (MK n); try reflexivity; try exact W0. intros r0 bb Hr0 N WK (W1 & W2 & W3 & W4). apply Forall_app in WK as [_ WK]. inversion WK as [|? ? K1 _]; subst. cbn [worker_ok] in *. destruct K1 as [-> K1]. split; [exact I|].
    assert (SB : tot (started t) bb <> 0%nat) by (specialize (W3 t); rewrite E, tot_app, tot_cons in W3; cbn [running] in W3; rewrite Nat.eqb_refl in W3; lia).
    split; [apply Forall_app; split; [exact W1|]; constructor; [|constructor]; exists t; split; [exact K1|right; reflexivity]|].
    unfold with_workers. cbn [p_workers p_next]. rewrite E in W2, W3.
    split; [intros u; specialize (W2 u)|split; [intros u; specialize (W3 u)|]].
    + rewrite !tot_app, !tot_cons in *. rewrite tot_nil. cbn [got started running] in *. lia.
    + rewrite !tot_app, !tot_cons in *. rewrite !tot_nil. cbn [ended started running] in *. destruct (Nat.eqb_spec t u); lia.
    + intros u p q Q. destruct q as [|q0 q] using rev_ind.
      * apply app_inj_tail in Q as [-> Q]. injection Q as <-. destruct (tot_pos _ _ SB) as (x & ev & y & -> & He). apply Forall_app in W1 as [_ W1]. inversion W1 as [|? ? (t' & _ & [-> | ->]) _]; subst; cbn [started] in He; [|elim He; reflexivity].
        destruct (Nat.eqb_spec t' t); [|elim He; reflexivity]. subst. apply in_or_app. right. left. reflexivity.
      * rewrite app_comm_cons, app_assoc in Q. apply app_inj_tail in Q as [Q _]. exact (W4 u p q Q).
  - destruct (AX eq_refl) as (n & W0). apply (MK n); try reflexivity; try exact W0; [unfold waits in *; cbn [p_caller]; destruct (p_caller s); try discriminate; exact W0|]. intros r bb Hr N WK (W1 & W2 & W3 & W4). cbn [worker_ok p_next]. split; [exact I|]. rewrite app_nil_r.
    split; [exact W1|]. unfold with_workers. cbn [p_workers p_next]. rewrite E in W2, W3. split; [intros t; specialize (W2 t)|split; [intros t; specialize (W3 t)|exact W4]]; rewrite !tot_app, !tot_cons in *; assumption.
Qed.

Lemma runs_good k tr s : runs (pool_start k) tr s -> good k s tr.
Proof.
  induction 1 as [|tr s1 e s2 _ G ST|tr s1 s2 _ G SP].
  - apply good_start.
  - destruct ST as [e s' ST|a w b e w' s' E ST]; [exact (call_good k s1 tr e s' G ST)|exact (work_good k s1 tr a w b e w' s' G E ST)].
  - destruct G as (L & Bz & P). destruct SP as [|a b E].
    + split; [exact L|]. split; [exact Bz|]. apply (proj1 (phase_notify s1 tr)). exact P.
    + split; [unfold with_workers; cbn [p_workers]; rewrite E in L; rewrite app_length in *; exact L|]. split; [unfold with_workers; cbn [p_busy p_workers]; rewrite Bz, E, !tot_app, !tot_cons; reflexivity|].
      exact (phase_rest s1 tr a WSleep b WWait E eq_refl eq_refl P).
Qed.
