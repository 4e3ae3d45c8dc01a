(** What DecodeGroups learns about its tasks. *)
From Verif Require Import Base CoefProofs StatusModel.
From Coq Require Import Permutation.

Lemma task_step_length result i s t : task_step result i s = Some t -> length (sh_tasks t) = length (sh_tasks s).
Proof.
  unfold task_step. intros E. apply obind_some in E. destruct E as (pc & _ & E). destruct pc; try discriminate; injection E as <-; apply upd_length.
Qed.

(** If all succeed, no interleaving says otherwise. *)
Lemma success_steps result : forall l s t, (forall i, (i < length (sh_tasks s))%nat -> result i = true) -> sh_failed s = false ->
  (sh_status s = Some false -> False) -> (forall i, nth_error (sh_tasks s) i = Some TTest -> sh_status s = Some true) -> task_steps result l s = Some t -> sh_failed t = false.
Proof.
  induction l as [|i l IH]; intros s t R F N T E; cbn [task_steps] in E; [injection E as <-; exact F|].
  apply obind_some in E. destruct E as (u & Eu & E). pose proof (task_step_length _ _ _ _ Eu) as LU. unfold task_step in Eu. apply obind_some in Eu. destruct Eu as (pc & Ep & Eu).
  assert (Li : (i < length (sh_tasks s))%nat) by (apply nth_error_Some; congruence).
  apply (IH u t); try exact E.
  - intros k Hk. apply R. lia.
  - destruct pc; try discriminate; injection Eu as <-; cbn [sh_failed]; try exact F. rewrite (T i Ep). exact F.
  - destruct pc; try discriminate; injection Eu as <-; cbn [sh_status]; try exact N. rewrite (R i Li). discriminate.
  - intros k Hk. destruct pc; try discriminate; injection Eu as <-; cbn [sh_status sh_tasks] in *.
    + destruct (Nat.eq_dec i k) as [->|Ne]; [rewrite nth_error_upd_same in Hk by exact Li; destruct (sh_failed s); discriminate|]. rewrite nth_error_upd_other in Hk by exact Ne. eapply T, Hk.
    + rewrite (R i Li). reflexivity.
    + destruct (Nat.eq_dec i k) as [->|Ne]; [rewrite nth_error_upd_same in Hk by exact Li; discriminate|]. rewrite nth_error_upd_other in Hk by exact Ne. eapply T, Hk.
Qed.

(** One task after the other. *)
Lemma whole_task_ok result i s : nth_error (sh_tasks s) i = Some TLoad -> exists t, whole_task result i s = Some t /\ sh_tasks t = upd (sh_tasks s) i TDone /\ sh_failed t = sh_failed s || negb (result i).
Proof.
  intros Ei. assert (Li : (i < length (sh_tasks s))%nat) by (apply nth_error_Some; congruence). unfold whole_task, task_step. rewrite Ei. unfold obind at 1 2. cbn [sh_tasks sh_failed sh_status].
  destruct (sh_failed s) eqn:F; cbn [sh_tasks sh_failed sh_status].
  - rewrite nth_error_upd_same by exact Li. eexists. split; [reflexivity|]. cbn [sh_tasks sh_failed]. auto.
  - rewrite nth_error_upd_same by exact Li. unfold obind. cbn [sh_tasks sh_failed sh_status]. rewrite nth_error_upd_same by (rewrite upd_length; exact Li).
    eexists. split; [reflexivity|]. cbn [sh_tasks sh_failed]. assert (U : forall (A : Type) (l : list A) k a b, upd (upd l k a) k b = upd l k b).
    { clear. induction l as [|x l IH]; intros [|k] a b; cbn [upd]; try reflexivity. rewrite IH. reflexivity. }
    rewrite !U. split; [reflexivity|]. destruct (result i); reflexivity.
Qed.
Lemma whole_tasks_ok result : forall order s, NoDup order -> (forall i, In i order -> nth_error (sh_tasks s) i = Some TLoad) ->
  exists t, whole_tasks result order s = Some t /\ sh_failed t = sh_failed s || existsb (fun i => negb (result i)) order /\ (forall i, In i order -> nth_error (sh_tasks t) i = Some TDone) /\
    (forall i, ~ In i order -> nth_error (sh_tasks t) i = nth_error (sh_tasks s) i).
Proof.
  induction order as [|i order IH]; intros s ND H; cbn [whole_tasks existsb].
  - exists s. rewrite orb_false_r. split; [reflexivity|]. split; [reflexivity|]. split; [intros i []|reflexivity].
  - inversion ND as [|? ? Hni ND']; subst. pose proof (H i (or_introl eq_refl)) as Ei. assert (Li : (i < length (sh_tasks s))%nat) by (apply nth_error_Some; congruence).
    destruct (whole_task_ok result i s Ei) as (u & Eu & Tu & Fu). rewrite Eu. unfold obind at 1.
    destruct (IH u ND') as (t & Et & Ft & Dt & Ot).
    { intros k Hk. rewrite Tu, nth_error_upd_other by (intros ->; contradiction). apply H. right. exact Hk. }
    exists t. split; [exact Et|]. split; [rewrite Ft, Fu, orb_assoc; reflexivity|]. split.
    + intros k [<-|Hk]; [|apply Dt, Hk]. rewrite Ot by exact Hni. rewrite Tu. apply nth_error_upd_same, Li.
    + intros k Hk. rewrite Ot by (intros X; apply Hk; right; exact X). rewrite Tu. apply nth_error_upd_other. intros ->. apply Hk. left. reflexivity.
Qed.
