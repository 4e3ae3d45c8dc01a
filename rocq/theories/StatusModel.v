(** The variables that the tasks of DecodeGroups share: [failed] and [status] (groups.cc:407, 450-452, 486-490, 493, 529-533). *)
From Verif Require Import Base.

(** BrunsliStatus is only compared with BRUNSLI_OK here: [true] is BRUNSLI_OK. *)

(** Where a task is: before "if (failed.load()) return" (452, 493); before the assignment "status = ProcessJpeg(...)"
    (486, 529); between the assignment and the test of [status] (487, 530); done.  ProcessJpeg works on the state of
    its task and on the blocks of its group only (GroupModel.v), so that its result is a function of the task. *)
Inductive tpc := TLoad | TAssign | TTest | TDone.

(** [None]: [status] has not been assigned by a task yet; it then has the value of 407, BRUNSLI_NOT_ENOUGH_DATA. *)
Record shared := mkShared { sh_status : option bool; sh_failed : bool; sh_tasks : list tpc }.
Definition sh_start (n : nat) : shared := mkShared None false (repeat TLoad n).

(** One step of task [i]; each access to a variable is one step (for [status], an ordinary variable, C++ does not even promise that). *)
Definition task_step (result : nat -> bool) (i : nat) (s : shared) : option shared :=
  let? pc := nth_error (sh_tasks s) i in
  match pc with
  | TLoad => Some (mkShared (sh_status s) (sh_failed s) (upd (sh_tasks s) i (if sh_failed s then TDone else TAssign)))
  | TAssign => Some (mkShared (Some (result i)) (sh_failed s) (upd (sh_tasks s) i TTest))
  | TTest => Some (mkShared (sh_status s) (match sh_status s with Some true => sh_failed s | _ => true end) (upd (sh_tasks s) i TDone))
  | TDone => None
  end.
Fixpoint task_steps (result : nat -> bool) (l : list nat) (s : shared) : option shared :=
  match l with [] => Some s | i :: r => let? t := task_step result i s in task_steps result r t end.

(** SequentialExecutor, groups.cc:49-51, or any executor that runs one task after the other: task [i] runs to its end. *)
Definition whole_task (result : nat -> bool) (i : nat) (s : shared) : option shared :=
  let? a := task_step result i s in
  match nth_error (sh_tasks a) i with
  | Some TDone => Some a
  | _ => let? b := task_step result i a in task_step result i b
  end.
Fixpoint whole_tasks (result : nat -> bool) (order : list nat) (s : shared) : option shared :=
  match order with [] => Some s | i :: r => let? t := whole_task result i s in whole_tasks result r t end.

Definition all_done (s : shared) : Prop := Forall (fun p => p = TDone) (sh_tasks s).
(** Two tasks of which both are about to use [status] without a lock, one of them to write it. *)
Definition race (s : shared) : Prop := exists i k p, i <> k /\ nth_error (sh_tasks s) i = Some TAssign /\ nth_error (sh_tasks s) k = Some p /\ (p = TAssign \/ p = TTest).
