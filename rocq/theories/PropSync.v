(** Property theorems C55 and C56: the mutex around the writer. *)
From Verif Require Import SyncThm.

(** ** C55 *)
Theorem C55_at_most_one_guard : forall l y, sys_run l sys_init = Some y -> len (y_guards y) <= 1.
Proof. exact exclusion. Qed.
Print Assumptions C55_at_most_one_guard.

Theorem C55_poll : forall l y i y', sys_run l sys_init = Some y -> sys_step (Act_Poll i) y = Some y' ->
  y_guards y' = match y_guards y with [] => [i] | g => g end.
Proof. exact poll_result. Qed.
Print Assumptions C55_poll.

Example C55_example :
  option_map y_guards (sys_run [Act_Lock 0; Act_Poll 0; Act_Lock 1; Act_Poll 1] sys_init) = Some [0] /\
  option_map y_guards (sys_run [Act_Lock 0; Act_Poll 0; Act_Lock 1; Act_Poll 1; Act_Unlock 0] sys_init) = Some [] /\
  option_map y_guards (sys_run [Act_Lock 0; Act_Poll 0; Act_Lock 1; Act_Poll 1; Act_Unlock 0; Act_Poll 1] sys_init) = Some [1].
Proof. vm_compute. auto. Qed.

(** ** C56 *)
(** Task 2 takes the mutex between the release that woke task 1 and the poll of
    task 1; nobody wakes task 1 again. *)
Theorem C56_waiters_are_woken_refuted : exists l y, forallb (fun a => negb (wakes a || cancels a)) l = true /\
  sys_run l sys_init = Some y /\ stuck y /\ waits_forever 1 y.
Proof.
  exists [Act_Lock 0; Act_Poll 0; Act_Lock 1; Act_Poll 1; Act_Lock 2; Act_Unlock 0; Act_Poll 2; Act_Poll 1; Act_Unlock 2].
  eexists. split; [reflexivity|]. split; [vm_compute; reflexivity|]. split.
  - split; [reflexivity|]. split; [exists 1; discriminate|]. intros i _ [].
  - apply lost_forever. split; [reflexivity|]. split; intros [].
Qed.
Print Assumptions C56_waiters_are_woken_refuted.

(** Task 2 is woken and dropped before it polls; its wakeup is not passed on. *)
Theorem C56_cancelled_waiter_refuted : exists l y, forallb (fun a => negb (wakes a)) l = true /\
  sys_run l sys_init = Some y /\ stuck y.
Proof.
  exists [Act_Lock 0; Act_Poll 0; Act_Lock 1; Act_Poll 1; Act_Lock 2; Act_Poll 2; Act_Unlock 0; Act_Cancel 2].
  eexists. split; [reflexivity|]. split; [vm_compute; reflexivity|].
  split; [reflexivity|]. split; [exists 1; discriminate|].
  intros i F. vm_compute. intros [<-|[]]. apply F. reflexivity.
Qed.
Print Assumptions C56_cancelled_waiter_refuted.

(** The last to wait is the first to be woken, so a task can wait through any
    number of releases without being woken. *)
Theorem C56_starvation_refuted : forall n, exists l y, orderly sys_init l y /\ (n <= length (filter releases l))%nat /\
  flag 1 (y_futures y) = Some true /\ ~ In 1 (y_scheduled y) /\ mx_queue (y_mutex y) = [1].
Proof.
  intros n.
  set (start := [Act_Lock 2; Act_Poll 2; Act_Lock 1; Act_Poll 1]).
  set (cycle := [Act_Lock 3; Act_Poll 3; Act_Unlock 2; Act_Poll 3; Act_Lock 2; Act_Poll 2; Act_Unlock 3; Act_Poll 2]).
  exists (start ++ repeats n cycle). eexists {| y_mutex := {| mx_borrowed := true; mx_queue := [1] |}; y_futures := [(1, true)]; y_guards := [2]; y_scheduled := [] |}.
  split; [|split; [|split; [reflexivity|split; [intros []|reflexivity]]]].
  - apply starvation.
  - induction n as [|n IH]; [vm_compute; lia|]. unfold start in *. cbn [app filter releases repeats cycle length] in *. lia.
Qed.
Print Assumptions C56_starvation_refuted.

(** No wakeup is lost if a woken task always finds the mutex free and no waiting
    future is dropped. *)
Theorem C56_waiters_are_woken_partial : forall l y, orderly sys_init l y -> ~ stuck y.
Proof. exact orderly_not_stuck. Qed.
Print Assumptions C56_waiters_are_woken_partial.

Example C56_example : exists y,
  orderly sys_init [Act_Lock 0; Act_Poll 0; Act_Lock 1; Act_Poll 1; Act_Lock 2; Act_Poll 2; Act_Unlock 0] y /\
  y_guards y = [] /\ flag 1 (y_futures y) = Some true /\ flag 2 (y_futures y) = Some true /\ y_scheduled y = [2].
Proof.
  eexists. split.
  - repeat (eapply O_cons; [vm_compute; reflexivity|try exact I; try (intros X; discriminate X)|]). apply O_nil.
  - vm_compute. auto.
Qed.
