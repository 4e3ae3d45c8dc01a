(** Specification used by C56 and C57: what a user of the thread pool expects to observe. *)
From Verif Require Import Base PoolModel.

(** Task [t] of runnable [r] is started once and ended once, in this order. *)
Definition done_once (r t : nat) (l : list event) : Prop :=
  exists a b c, l = a ++ EStart r t :: b ++ EEnd r t :: c /\
    (forall r', ~ In (EStart r' t) (a ++ b ++ c)) /\ (forall r', ~ In (EEnd r' t) (a ++ b ++ c)).
(** Nothing but tasks of [execute(r, n)]. *)
Definition task_of (r n : nat) (e : event) : Prop := exists t, (t < n)%nat /\ (e = EStart r t \/ e = EEnd r t).

(** From the call to the return: every task is run once, and nothing else happens. *)
Definition complete_call (l : list event) : Prop :=
  exists r n b, l = ECall r n :: b ++ [EReturn] /\ Forall (task_of r n) b /\ forall t, (t < n)%nat -> done_once r t b.
(** A call that has not returned: no task was started twice. *)
Definition open_call (l : list event) : Prop :=
  exists r n b, l = ECall r n :: b /\ Forall (task_of r n) b /\
    forall t a c, b = a ++ EStart r t :: c -> ~ In (EStart r t) (a ++ c).
