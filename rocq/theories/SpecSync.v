(** Specification of the mutex. *)
From Verif Require Export Sync.

(** Nobody holds it, somebody waits for it, and nobody who does will poll. *)
Definition stuck (y : Sys) : Prop :=
  y_guards y = [] /\ (exists i, flag i (y_futures y) <> None) /\ forall i, flag i (y_futures y) <> None -> ~ In i (y_scheduled y).

(** Schedules in which a waiting future is not dropped, one that was woken is
    polled only while nobody holds the mutex, and one that was not is polled
    only while somebody does. *)
Inductive orderly : Sys -> list Act -> Sys -> Prop :=
| O_nil y : orderly y [] y
| O_cons y a y1 l y2 : sys_step a y = Some y1 ->
    match a with
    | Act_Poll i => flag i (y_futures y) = Some true -> (y_guards y <> [] <-> In i (mx_queue (y_mutex y)))
    | Act_Cancel i => flag i (y_futures y) = Some false
    | _ => True
    end -> orderly y1 l y2 -> orderly y (a :: l) y2.

(** From here on, and whatever else happens, task [i] waits. *)
Definition waits_forever (i : N) (y : Sys) : Prop :=
  forall l y', ~ In (Act_Wake i) l -> ~ In (Act_Cancel i) l -> sys_run l y = Some y' ->
    flag i (y_futures y') = Some true /\ ~ In i (y_scheduled y') /\ sys_step (Act_Poll i) y' = None.
Definition wakes (a : Act) : bool := match a with Act_Wake _ => true | _ => false end.
Definition cancels (a : Act) : bool := match a with Act_Cancel _ => true | _ => false end.
Definition releases (a : Act) : bool := match a with Act_Unlock _ => true | _ => false end.
