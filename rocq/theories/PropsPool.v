(** C56, C57: the thread pool of the groups mode, for every interleaving of its threads. *)
From Verif Require Import Base PoolModel PoolSpec PoolProofs PoolProofs2.

(** In every history of a pool with any number of threads, whatever the interleaving and the spurious wake-ups:
    the events are those of complete calls of execute, each of which has run every task exactly
    once and to its end before it returned, followed by at most one call that has not returned and has started no
    task twice, or by the destructor.  In particular nothing runs outside a call, the runnable is the one of
    the call, and no worker follows the null pointer. *)
Theorem C56_every_task_runs_once : forall threads tr s, runs (pool_start threads) tr s ->
  exists calls rest, tr = concat calls ++ rest /\ Forall complete_call calls /\
    (rest = [] \/ open_call rest \/ rest = [EDestroy] \/ rest = [EDestroy; EDestroyed]).
Proof.
  intros k tr s R. destruct (runs_good k tr s R) as (_ & _ & P). unfold phase in P.
  assert (OC : forall r n, open_call [ECall r n]) by (intros r n; exists r, n, []; split; [reflexivity|]; split; [constructor|]; intros t a c Q; destruct a; discriminate).
  assert (OW : forall r n b, window r n s b -> open_call (ECall r n :: b)).
  { intros r n b (W1 & W2 & _). exists r, n, b. split; [reflexivity|]. split; [exact W1|]. intros t a c -> H. apply count_in_start in H. specialize (W2 t). rewrite !tot_app in *. rewrite tot_cons in W2. cbn [started] in W2. rewrite Nat.eqb_refl in W2. destruct (_ <? _)%nat; lia. }
  destruct (p_caller s).
  - destruct P as (_ & _ & _ & calls & -> & F). exists calls, []. rewrite app_nil_r. auto.
  - destruct P as (_ & _ & _ & calls & -> & F). eauto 8.
  - destruct P as (_ & _ & _ & _ & calls & -> & F). eauto 8.
  - destruct P as (_ & _ & r & calls & b & _ & -> & F & _ & W). eauto 8.
  - destruct P as (_ & _ & r & calls & b & _ & -> & F & _ & W). eauto 8.
  - destruct P as (_ & _ & calls & -> & F). eauto 8.
  - destruct P as (_ & _ & calls & -> & F). eauto 8.
  - destruct P as (_ & _ & _ & calls & -> & F). eauto 8.
  - destruct P as (_ & _ & _ & calls & -> & F). eauto 8.
  - destruct P as (_ & _ & _ & calls & -> & F). eauto 8.
  - destruct P as (_ & _ & _ & _ & calls & -> & F). eauto 8.
Qed.
Print Assumptions C56_every_task_runs_once.

(** The variables that are not atomic (num_tasks, runnable) are written only while no worker is outside the mutex with
    a number in its hand, that is, about to read them. *)
Theorem C56_no_data_race : forall threads tr s e s', runs (pool_start threads) tr s -> prog_step s e s' ->
  p_num s' <> p_num s \/ p_run s' <> p_run s -> forall t, ~ In (WGot t) (p_workers s) /\ ~ In (WGot t) (p_workers s').
Proof.
  intros k tr s e s' R ST H t. pose proof (runs_good k tr s R) as G. pose proof (rest_workers k s tr G) as RW. rewrite Forall_forall in RW. pose proof G as (_ & _ & P).
  destruct ST as [e s' ST|a w b e w' s1 E ST]; [|exfalso; destruct ST; cbn in H; destruct H; congruence].
  destruct ST as [r n C|r n C|r n C|n C N0 Z|n C N0|C|C|C|C|C Z|C Z]; cbn [p_num p_run p_workers] in *; try (destruct H; congruence); unfold phase in P; rewrite C in P; destruct P as (Z & _); specialize (RW Z).
  - split; intros K; specialize (RW _ K); discriminate.
  - split; intros K; [specialize (RW _ K); discriminate|]. apply in_map_iff in K as (w & Q & K). specialize (RW _ K). destruct w; discriminate.
  - split; intros K; specialize (RW _ K); discriminate.
  - split; intros K; [specialize (RW _ K); discriminate|]. apply in_map_iff in K as (w & Q & K). specialize (RW _ K). destruct w; discriminate.
Qed.
Print Assumptions C56_no_data_race.

(** Every call comes back if there is at least one thread and the tasks end: while it has not returned, some thread can
    make a step, and there is a bound on the number of steps (spurious wake-ups add at most one each). *)
Theorem C56_execute_returns : forall threads tr s, (0 < threads)%nat -> runs (pool_start threads) tr s -> in_call s ->
  (exists e s', prog_step s e s') /\
  exists bound, forall steps_made wakes tr' s', steps s steps_made wakes tr' s' -> ~ In EReturn tr' -> (steps_made <= bound + wakes)%nat.
Proof.
  intros k tr s K R IC. split; [exact (step_enabled k s tr K (runs_good k tr s R) (runs_awake k tr s R) IC)|]. exists (measure s). intros m j tr' s' ST NR. destruct (steps_bounded k tr s m j tr' s' R IC ST NR) as [_ H]. lia.
Qed.
Print Assumptions C56_execute_returns.

(** Executable steps, to exhibit histories. *)
Inductive choice := Exec (r n : nat) | Die | Own | Work (i : nat).
Definition do_own (s : pool) : option (list event * pool) :=
  match p_caller s with
  | MExecNext r n => Some ([], mkPool (p_next s) n (p_run s) (p_busy s) (p_term s) (MExecNum r n) (p_workers s))
  | MExecNum r n => Some ([], mkPool (p_next s) (p_num s) (Some r) (p_busy s) (p_term s) (MWait n) (map wake (p_workers s)))
  | MWait n =>
      if (n <=? p_next s)%nat && (p_busy s =? 0)%nat then Some ([EReturn], mkPool (p_next s) (p_num s) (p_run s) (p_busy s) (p_term s) MIdle (p_workers s))
      else Some ([], mkPool (p_next s) (p_num s) (p_run s) (p_busy s) (p_term s) (MSleep n) (p_workers s))
  | MDieTerm => Some ([], mkPool 1 (p_num s) (p_run s) (p_busy s) (p_term s) MDieNext (p_workers s))
  | MDieNext => Some ([], mkPool (p_next s) 1 (p_run s) (p_busy s) (p_term s) MDieNum (p_workers s))
  | MDieNum => Some ([], mkPool (p_next s) (p_num s) None (p_busy s) (p_term s) MDieWait (map wake (p_workers s)))
  | MDieWait =>
      if (p_busy s =? length (p_workers s))%nat then Some ([EDestroyed], mkPool (p_next s) (p_num s) (p_run s) (p_busy s) (p_term s) MGone (p_workers s))
      else Some ([], mkPool (p_next s) (p_num s) (p_run s) (p_busy s) (p_term s) MDieSleep (p_workers s))
  | _ => None
  end.
Definition do_work (s : pool) (w : worker) : option (list event * worker * pool) :=
  match w with
  | WWait =>
      if locked (p_caller s) then None
      else if (p_next s <? p_num s)%nat then
        if p_term s then Some ([], WGone, mkPool (p_next s) (p_num s) (p_run s) (S (p_busy s)) (p_term s) (notify (p_caller s)) (p_workers s))
        else Some ([], WLoop, mkPool (p_next s) (p_num s) (p_run s) (S (p_busy s)) (p_term s) (p_caller s) (p_workers s))
      else Some ([], WSleep, s)
  | WLoop => Some ([], WGot (p_next s), mkPool (S (p_next s)) (p_num s) (p_run s) (p_busy s) (p_term s) (p_caller s) (p_workers s))
  | WGot t => if (t <? p_num s)%nat then match p_run s with Some r => Some ([EStart r t], WRun r t, s) | None => Some ([ENull], WLeave, s) end else Some ([], WLeave, s)
  | WRun r t => Some ([EEnd r t], WLoop, s)
  | WLeave => if locked (p_caller s) then None else Some ([], WWait, mkPool (p_next s) (p_num s) (p_run s) (p_busy s - 1) (p_term s) (notify (p_caller s)) (p_workers s))
  | _ => None
  end.
Definition do_step (c : choice) (s : pool) : option (list event * pool) :=
  match c with
  | Exec r n => match p_caller s with MIdle => Some ([ECall r n], mkPool 0 (p_num s) (p_run s) (p_busy s) (p_term s) (MExecNext r n) (p_workers s)) | _ => None end
  | Die => match p_caller s with MIdle => Some ([EDestroy], mkPool (p_next s) (p_num s) (p_run s) (p_busy s) true MDieTerm (p_workers s)) | _ => None end
  | Own => do_own s
  | Work i =>
      match nth_error (p_workers s) i with
      | Some w => match do_work s w with Some (e, w', s') => Some (e, with_workers s' (firstn i (p_workers s) ++ w' :: skipn (S i) (p_workers s))) | None => None end
      | None => None
      end
  end.
Fixpoint do_steps (cs : list choice) (s : pool) : option (list event * pool) :=
  match cs with
  | [] => Some ([], s)
  | c :: r => match do_step c s with
              | Some (e, s1) => match do_steps r s1 with Some (tr, s2) => Some (e ++ tr, s2) | None => None end
              | None => None
              end
  end.

Lemma split_nth {A} (l : list A) i w : nth_error l i = Some w -> l = firstn i l ++ w :: skipn (S i) l.
Proof. revert i. induction l as [|x l IH]; intros [|i] H; try discriminate; cbn in *; [injection H as ->; reflexivity|f_equal; apply IH; exact H]. Qed.
Lemma do_step_ok c s e s' : do_step c s = Some (e, s') -> prog_step s e s'.
Proof.
  destruct c as [r n| | |i]; cbn [do_step].
  - destruct (p_caller s) eqn:C; intros H; try discriminate. injection H as <- <-. apply PCall, CExec. exact C.
  - destruct (p_caller s) eqn:C; intros H; try discriminate. injection H as <- <-. apply PCall, CDestroy. exact C.
  - unfold do_own. destruct (p_caller s) eqn:C; intros H; try discriminate.
    + injection H as <- <-. apply PCall, (CNum s r n). exact C.
    + injection H as <- <-. apply PCall, (CRun s r n). exact C.
    + destruct (Nat.leb_spec n (p_next s)); cbn [andb] in H; [destruct (Nat.eqb_spec (p_busy s) 0)|]; injection H as <- <-; apply PCall; [apply (CReturn s n); assumption| |]; apply (CBlock s n); auto.
    + injection H as <- <-. apply PCall, CDieNext. exact C.
    + injection H as <- <-. apply PCall, CDieNum. exact C.
    + injection H as <- <-. apply PCall, CDieRun. exact C.
    + destruct (Nat.eqb_spec (p_busy s) (length (p_workers s))); injection H as <- <-; apply PCall; [apply CDieReturn|apply CDieBlock]; assumption.
  - destruct (nth_error (p_workers s) i) as [w|] eqn:E; [|discriminate]. apply split_nth in E. destruct (do_work s w) as [[[e0 w'] s1]|] eqn:W; [|discriminate]. intros H. injection H as <- <-. apply (PWork s _ w _ e0 w' s1 E).
    unfold do_work in W. destruct w.
    + destruct (locked (p_caller s)) eqn:LK; [discriminate|]. destruct (Nat.ltb_spec (p_next s) (p_num s)); [destruct (p_term s) eqn:T|]; injection W as <- <- <-; [rewrite <- T|rewrite <- T|]; constructor; assumption.
    + discriminate.
    + injection W as <- <- <-. constructor.
    + destruct (Nat.ltb_spec t (p_num s)); [destruct (p_run s) eqn:Q|]; injection W as <- <- <-; constructor; assumption.
    + injection W as <- <- <-. constructor.
    + destruct (locked (p_caller s)) eqn:LK; [discriminate|]. injection W as <- <- <-. constructor. exact LK.
    + discriminate.
Qed.
Lemma do_steps_ok cs : forall s0 tr s tr' s', runs s0 tr s -> do_steps cs s = Some (tr', s') -> runs s0 (tr ++ tr') s'.
Proof.
  induction cs as [|c cs IH]; intros s0 tr s tr' s' R H; cbn [do_steps] in H; [injection H as <- <-; rewrite app_nil_r; exact R|].
  destruct (do_step c s) as [[e s1]|] eqn:E; [|discriminate]. destruct (do_steps cs s1) as [[tr2 s2]|] eqn:E2; [|discriminate]. injection H as <- <-. rewrite app_assoc. eapply IH; [|exact E2]. eapply RunStep; [exact R|]. apply (do_step_ok c). exact E.
Qed.

(** Two threads, three tasks; two of them overlap, and the third thread step is made while the other one still runs. *)
Definition three_tasks : list choice :=
  [Work 0; Exec 7 3; Own; Own; Own; Work 1; Work 1; Work 0; Work 0; Work 0; Work 1; Work 0; Work 0; Work 0; Work 0; Work 0; Work 0; Work 0; Own; Work 1; Work 1; Work 1; Work 1; Own].
Example C56_case : exists s, runs (pool_start 2) [ECall 7 3; EStart 7 1; EStart 7 0; EEnd 7 1; EStart 7 2; EEnd 7 2; EEnd 7 0; EReturn] s.
Proof. eexists. refine (do_steps_ok three_tasks _ [] _ _ _ (RunNil _) _). vm_compute. reflexivity. Qed.

(** * C57 *)

(** Destroying a pool with threads: the destructor never returns, in any history.  It stores 1 to next_task and to
    num_tasks, so no worker sees next_task < num_tasks, none of them ends, and busy_count stays 0. *)
Theorem C57_destructor_returns_refuted : forall threads tr s, (0 < threads)%nat -> runs (pool_start threads) tr s -> ~ In EDestroyed tr.
Proof.
  intros k tr s K R H. destruct (runs_good k tr s R) as (L & _ & P). unfold phase in P.
  assert (NC : forall calls, Forall complete_call calls -> ~ In EDestroyed (concat calls)).
  { intros calls F HI. apply in_concat in HI as (l & Hl & HI). rewrite Forall_forall in F. destruct (F l Hl) as (r & n & b & -> & FB & _). destruct HI as [HI|HI]; [discriminate|].
    apply in_app_or in HI as [HI|[HI|[]]]; [|discriminate]. rewrite Forall_forall in FB. destruct (FB _ HI) as (t & _ & [Q|Q]); discriminate. }
  assert (NW : forall r n b, Forall (task_of r n) b -> ~ In EDestroyed b) by (intros r n b F HI; rewrite Forall_forall in F; destruct (F _ HI) as (t & _ & [Q|Q]); discriminate).
  destruct (p_caller s).
  - destruct P as (_ & _ & _ & calls & -> & F). exact (NC _ F H).
  - destruct P as (_ & _ & _ & calls & -> & F). apply in_app_or in H as [H|[H|[]]]; [exact (NC _ F H)|discriminate].
  - destruct P as (_ & _ & _ & _ & calls & -> & F). apply in_app_or in H as [H|[H|[]]]; [exact (NC _ F H)|discriminate].
  - destruct P as (_ & _ & r & calls & b & _ & -> & F & _ & (W & _)). apply in_app_or in H as [H|[H|H]]; [exact (NC _ F H)|discriminate|exact (NW _ _ _ W H)].
  - destruct P as (_ & _ & r & calls & b & _ & -> & F & _ & (W & _)). apply in_app_or in H as [H|[H|H]]; [exact (NC _ F H)|discriminate|exact (NW _ _ _ W H)].
  - destruct P as (_ & _ & calls & -> & F). apply in_app_or in H as [H|[H|[]]]; [exact (NC _ F H)|discriminate].
  - destruct P as (_ & _ & calls & -> & F). apply in_app_or in H as [H|[H|[]]]; [exact (NC _ F H)|discriminate].
  - destruct P as (_ & _ & _ & calls & -> & F). apply in_app_or in H as [H|[H|[]]]; [exact (NC _ F H)|discriminate].
  - destruct P as (_ & _ & _ & calls & -> & F). apply in_app_or in H as [H|[H|[]]]; [exact (NC _ F H)|discriminate].
  - destruct P as (_ & _ & _ & calls & -> & F). apply in_app_or in H as [H|[H|[]]]; [exact (NC _ F H)|discriminate].
  - destruct P as (_ & _ & _ & P & _). rewrite P in L. cbn in L. lia.
Qed.
Print Assumptions C57_destructor_returns_refuted.

(** The history of the command-line tools with four threads and, here, one task: it ends in a state in which no thread can
    make a step. *)
Definition tool_history : list choice :=
  [Work 0; Work 1; Work 2; Work 3; Exec 0 1; Own; Own; Own; Work 0; Work 0; Work 0; Work 0; Work 0; Work 0; Work 0; Work 0; Own; Die; Own; Own; Own; Own; Work 0; Work 1; Work 2; Work 3].
Theorem C57_tools_hang_refuted : exists s, runs (pool_start 4) [ECall 0 1; EStart 0 0; EEnd 0 0; EReturn; EDestroy] s /\ forall e s', ~ prog_step s e s'.
Proof.
  destruct (do_steps tool_history (pool_start 4)) as [[tr s]|] eqn:E; [|vm_compute in E; discriminate]. exists s. split.
  - replace [ECall 0 1; EStart 0 0; EEnd 0 0; EReturn; EDestroy] with tr; [exact (do_steps_ok tool_history _ [] _ _ _ (RunNil _) E)|]. vm_compute in E. injection E as <- _. reflexivity.
  - vm_compute in E. injection E as _ <-. intros e s' ST. destruct ST as [e s' ST|a w b e w' s' Q ST]; [inversion ST; cbn in *; discriminate|]. cbn [p_workers] in Q.
    assert (IN : In w [WSleep; WSleep; WSleep; WSleep]) by (rewrite Q; apply in_or_app; right; left; reflexivity). cbn in IN. assert (w = WSleep) by intuition congruence. subst w. inversion ST.
Qed.
Print Assumptions C57_tools_hang_refuted.

(** What is left of C57: once the destructor has begun, no task runs and no call is made. *)
Theorem C57_nothing_runs_during_destruction_partial : forall threads a b s, runs (pool_start threads) (a ++ EDestroy :: b) s -> b = [] \/ b = [EDestroyed].
Proof.
  intros k a b s R. destruct (C56_every_task_runs_once k _ s R) as (calls & rest & E & F & H).
  assert (NC : ~ In EDestroy (concat calls)).
  { intros HI. apply in_concat in HI as (l & Hl & HI). rewrite Forall_forall in F. destruct (F l Hl) as (r & n & c & -> & FB & _). destruct HI as [HI|HI]; [discriminate|].
    apply in_app_or in HI as [HI|[HI|[]]]; [|discriminate]. rewrite Forall_forall in FB. destruct (FB _ HI) as (t & _ & [Q|Q]); discriminate. }
  clear R. revert a E NC. induction (concat calls) as [|x l IH]; intros [|y a] E NC; cbn [Datatypes.app] in E.
  - destruct H as [->|[(r & n & c & -> & _)|[->| ->]]]; try discriminate; injection E as ->; auto.
  - assert (HI : In EDestroy rest) by (rewrite <- E; right; apply in_or_app; right; left; reflexivity).
    destruct H as [->|[(r & n & c & -> & FB & _)|[->| ->]]].
    + destruct HI.
    + destruct HI as [HI|HI]; [discriminate|]. rewrite Forall_forall in FB. destruct (FB _ HI) as (t & _ & [Q|Q]); discriminate.
    + injection E as _ E. destruct a; discriminate.
    + injection E as _ E. destruct a as [|? a]; [|injection E as _ E; destruct a; discriminate]. discriminate.
  - injection E as <- E. elim NC. left. reflexivity.
  - injection E as _ E. eapply IH; [exact E|intros HI; apply NC; right; exact HI].
Qed.
Print Assumptions C57_nothing_runs_during_destruction_partial.
