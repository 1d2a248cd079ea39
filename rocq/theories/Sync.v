(** Model of nora_ssh/src/sync.rs. *)
From Verif Require Export Base.

(** lines 9-12: the borrow flag of [inner], and [queue].  The value guarded is
    only reached through a guard and is left out.  A waker is the number of its
    task. *)
Record Mutex := { mx_borrowed : bool; mx_queue : list N }.
(** lines 15-17 *)
Definition mutex_new : Mutex := {| mx_borrowed := false; mx_queue := [] |}.
(** lines 19-21: a future is its [registered] flag *)
Definition mutex_lock : bool := false.
(** lines 23-27 *)
Definition push_waker (m : Mutex) (w : N) : Mutex := {| mx_borrowed := mx_borrowed m; mx_queue := mx_queue m ++ [w] |}.
(** lines 29-34 *)
Definition pop_waker (m : Mutex) : option N * Mutex :=
  match rev (mx_queue m) with
  | [] => (None, m)
  | w :: q => (Some w, {| mx_borrowed := mx_borrowed m; mx_queue := rev q |})
  end.
(** lines 45-56: [true] if ready, which borrows the value *)
Definition future_poll (m : Mutex) (registered : bool) (waker : N) : bool * Mutex * bool :=
  if mx_borrowed m then
    if registered then (false, m, registered) else (false, push_waker m waker, true)
  else (true, {| mx_borrowed := true; mx_queue := mx_queue m |}, registered).
(** lines 78-82, then the drop of the field [lock]: the task to wake *)
Definition guard_drop (m : Mutex) : option N * Mutex :=
  let '(w, m) := pop_waker m in (w, {| mx_borrowed := false; mx_queue := mx_queue m |}).

(** * Tasks that use one mutex
    Task [i] has at most one future or guard.  Wakers schedule a task and do not
    run it; a scheduled task polls. *)
Record Sys := { y_mutex : Mutex; y_futures : list (N * bool); y_guards : list N; y_scheduled : list N }.
Inductive Act :=
| Act_Lock (i : N)    (* creates a future *)
| Act_Poll (i : N)    (* polls it *)
| Act_Cancel (i : N)  (* drops it *)
| Act_Unlock (i : N)  (* drops the guard *)
| Act_Wake (i : N).   (* something else schedules the task *)

Definition sys_init : Sys := {| y_mutex := mutex_new; y_futures := []; y_guards := []; y_scheduled := [] |}.
Fixpoint flag (i : N) (l : list (N * bool)) : option bool :=
  match l with
  | [] => None
  | (j, b) :: l => if j =? i then Some b else flag i l
  end.
Definition unflag (i : N) (l : list (N * bool)) : list (N * bool) := filter (fun x => negb (fst x =? i)) l.
Definition without (i : N) (l : list N) : list N := filter (fun j => negb (j =? i)) l.
Definition mem (i : N) (l : list N) : bool := existsb (N.eqb i) l.

(** [None] if the action is not possible. *)
Definition sys_step (a : Act) (y : Sys) : option Sys :=
  match a with
  | Act_Lock i =>
    if match flag i (y_futures y) with Some _ => true | None => mem i (y_guards y) end then None
    else Some {| y_mutex := y_mutex y; y_futures := (i, mutex_lock) :: y_futures y; y_guards := y_guards y;
                 y_scheduled := i :: without i (y_scheduled y) |}
  | Act_Poll i =>
    match flag i (y_futures y) with
    | Some registered =>
      if mem i (y_scheduled y) then
        let '(ready, m, registered) := future_poll (y_mutex y) registered i in
        Some {| y_mutex := m; y_futures := if ready then unflag i (y_futures y) else (i, registered) :: unflag i (y_futures y);
                y_guards := if ready then i :: y_guards y else y_guards y; y_scheduled := without i (y_scheduled y) |}
      else None
    | None => None
    end
  | Act_Cancel i =>
    match flag i (y_futures y) with
    | Some _ => Some {| y_mutex := y_mutex y; y_futures := unflag i (y_futures y); y_guards := y_guards y; y_scheduled := y_scheduled y |}
    | None => None
    end
  | Act_Unlock i =>
    if mem i (y_guards y) then
      let '(w, m) := guard_drop (y_mutex y) in
      Some {| y_mutex := m; y_futures := y_futures y; y_guards := without i (y_guards y);
              y_scheduled := match w with Some j => j :: without j (y_scheduled y) | None => y_scheduled y end |}
    else None
  | Act_Wake i =>
    Some {| y_mutex := y_mutex y; y_futures := y_futures y; y_guards := y_guards y; y_scheduled := i :: without i (y_scheduled y) |}
  end.
Fixpoint sys_run (l : list Act) (y : Sys) : option Sys :=
  match l with
  | [] => Some y
  | a :: l => match sys_step a y with Some y => sys_run l y | None => None end
  end.
