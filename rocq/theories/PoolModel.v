(** The thread pool of c/experimental/groups.cc as a transition system: one caller, a number
    of worker threads, any interleaving.  A section of code under the mutex is one step unless
    another thread could see its intermediate states without the mutex: [next_task] and
    [num_tasks] are read outside of it.  Counters are unbounded (size_t: 2^64 tasks). *)
From Verif Require Import Base.

(** A worker (groups.cc:54-79): about to lock the mutex and to look at the condition, asleep on start_latch,
    about to execute [next_task++], holding a number, inside the task, about to lock the mutex to
    leave, returned. *)
Inductive worker := WWait | WSleep | WLoop | WGot (t : nat) | WRun (r t : nat) | WLeave | WGone.

(** The caller: outside; in [execute] (102-111) with the mutex, after storing next_task, after storing num_tasks;
    waiting for finish_latch (about to look at the condition, or asleep); in the destructor (86-94)
    likewise; destroyed. *)
Inductive caller :=
| MIdle | MExecNext (r n : nat) | MExecNum (r n : nat) | MWait (n : nat) | MSleep (n : nat)
| MDieTerm | MDieNext | MDieNum | MDieWait | MDieSleep | MGone.

(** groups.h:36-51.  [p_run]: which runnable the pointer points to. *)
Record pool := mkPool {
  p_next : nat; p_num : nat; p_run : option nat; p_busy : nat; p_term : bool; p_caller : caller; p_workers : list worker }.

(** What can be observed: calls and returns of [execute] (with the runnable), the tasks, a call
    through the null pointer, begin and end of the destructor. *)
Inductive event :=
| ECall (r n : nat) | EReturn | EStart (r t : nat) | EEnd (r t : nat) | ENull | EDestroy | EDestroyed.

(** groups.cc:53-84: the threads are started. *)
Definition pool_start (threads : nat) : pool := mkPool 0 0 None 0 false MIdle (repeat WWait threads).

Definition locked (m : caller) : bool :=
  match m with MExecNext _ _ | MExecNum _ _ | MDieTerm | MDieNext | MDieNum => true | _ => false end.
(** start_latch.notify_all *)
Definition wake (w : worker) : worker := match w with WSleep => WWait | _ => w end.
(** finish_latch.notify_one: only the caller waits there. *)
Definition notify (m : caller) : caller := match m with MSleep n => MWait n | MDieSleep => MDieWait | _ => m end.

(** Steps of the caller. *)
Inductive call_step (s : pool) : list event -> pool -> Prop :=
| CExec r n : p_caller s = MIdle ->
    call_step s [ECall r n] (mkPool 0 (p_num s) (p_run s) (p_busy s) (p_term s) (MExecNext r n) (p_workers s))
| CNum r n : p_caller s = MExecNext r n ->
    call_step s [] (mkPool (p_next s) n (p_run s) (p_busy s) (p_term s) (MExecNum r n) (p_workers s))
| CRun r n : p_caller s = MExecNum r n ->
    call_step s [] (mkPool (p_next s) (p_num s) (Some r) (p_busy s) (p_term s) (MWait n) (map wake (p_workers s)))
| CReturn n : p_caller s = MWait n -> (n <= p_next s)%nat -> p_busy s = 0%nat ->
    call_step s [EReturn] (mkPool (p_next s) (p_num s) (p_run s) (p_busy s) (p_term s) MIdle (p_workers s))
| CBlock n : p_caller s = MWait n -> (p_next s < n)%nat \/ p_busy s <> 0%nat ->
    call_step s [] (mkPool (p_next s) (p_num s) (p_run s) (p_busy s) (p_term s) (MSleep n) (p_workers s))
| CDestroy : p_caller s = MIdle ->
    call_step s [EDestroy] (mkPool (p_next s) (p_num s) (p_run s) (p_busy s) true MDieTerm (p_workers s))
| CDieNext : p_caller s = MDieTerm ->
    call_step s [] (mkPool 1 (p_num s) (p_run s) (p_busy s) (p_term s) MDieNext (p_workers s))
| CDieNum : p_caller s = MDieNext ->
    call_step s [] (mkPool (p_next s) 1 (p_run s) (p_busy s) (p_term s) MDieNum (p_workers s))
| CDieRun : p_caller s = MDieNum ->
    call_step s [] (mkPool (p_next s) (p_num s) None (p_busy s) (p_term s) MDieWait (map wake (p_workers s)))
| CDieReturn : p_caller s = MDieWait -> p_busy s = length (p_workers s) ->
    call_step s [EDestroyed] (mkPool (p_next s) (p_num s) (p_run s) (p_busy s) (p_term s) MGone (p_workers s))
| CDieBlock : p_caller s = MDieWait -> p_busy s <> length (p_workers s) ->
    call_step s [] (mkPool (p_next s) (p_num s) (p_run s) (p_busy s) (p_term s) MDieSleep (p_workers s)).

(** Steps of a worker; [w'] is its new state. *)
Inductive work_step (s : pool) : worker -> list event -> worker -> pool -> Prop :=
| KEnter : locked (p_caller s) = false -> (p_next s < p_num s)%nat -> p_term s = false ->
    work_step s WWait [] WLoop (mkPool (p_next s) (p_num s) (p_run s) (S (p_busy s)) (p_term s) (p_caller s) (p_workers s))
| KQuit : locked (p_caller s) = false -> (p_next s < p_num s)%nat -> p_term s = true ->
    work_step s WWait [] WGone (mkPool (p_next s) (p_num s) (p_run s) (S (p_busy s)) (p_term s) (notify (p_caller s)) (p_workers s))
| KBlock : locked (p_caller s) = false -> (p_num s <= p_next s)%nat -> work_step s WWait [] WSleep s
| KTake : work_step s WLoop [] (WGot (p_next s)) (mkPool (S (p_next s)) (p_num s) (p_run s) (p_busy s) (p_term s) (p_caller s) (p_workers s))
| KNone t : (p_num s <= t)%nat -> work_step s (WGot t) [] WLeave s
| KStart t r : (t < p_num s)%nat -> p_run s = Some r -> work_step s (WGot t) [EStart r t] (WRun r t) s
| KNull t : (t < p_num s)%nat -> p_run s = None -> work_step s (WGot t) [ENull] WLeave s
| KEnd r t : work_step s (WRun r t) [EEnd r t] WLoop s
| KLeave : locked (p_caller s) = false ->
    work_step s WLeave [] WWait (mkPool (p_next s) (p_num s) (p_run s) (p_busy s - 1) (p_term s) (notify (p_caller s)) (p_workers s)).

Definition with_workers (s : pool) (ws : list worker) : pool := mkPool (p_next s) (p_num s) (p_run s) (p_busy s) (p_term s) (p_caller s) ws.

(** A step of the program: of the caller, or of one of the workers. *)
Inductive prog_step (s : pool) : list event -> pool -> Prop :=
| PCall e s' : call_step s e s' -> prog_step s e s'
| PWork a w b e w' s' : p_workers s = a ++ w :: b -> work_step s w e w' s' -> prog_step s e (with_workers s' (a ++ w' :: b)).

(** Condition variables may wake up by themselves. *)
Inductive spurious (s : pool) : pool -> Prop :=
| SCaller : spurious s (mkPool (p_next s) (p_num s) (p_run s) (p_busy s) (p_term s) (notify (p_caller s)) (p_workers s))
| SWorker a b : p_workers s = a ++ WSleep :: b -> spurious s (with_workers s (a ++ WWait :: b)).

(** Any number of steps; the events in the order in which they happen. *)
Inductive runs (s : pool) : list event -> pool -> Prop :=
| RunNil : runs s [] s
| RunStep tr s1 e s2 : runs s tr s1 -> prog_step s1 e s2 -> runs s (tr ++ e) s2
| RunSpur tr s1 s2 : runs s tr s1 -> spurious s1 s2 -> runs s tr s2.
