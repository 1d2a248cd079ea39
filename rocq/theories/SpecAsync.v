(** For C92-C94: what the await-by-await model of a session is compared with. *)
From Coq Require Import Init.Byte.
From Verif Require Export SpecFaults Async.

(** Nothing is borrowed, the lock is free and nobody waits for it. *)
Definition at_ease (w : World) : Prop := w_cells w = [] /\ w_mutex w = mutex_new /\ w_held w = [].
(** The lock is polled for the first time, and is free. *)
Definition locks_at_once (l : Loop) : Prop :=
  forall registered k, l_co l = Co_Lock registered k -> registered = false /\ mx_borrowed (w_mutex (l_world l)) = false.
(** It waits for the transport or for a handler. *)
Definition awaits_others (co : Co Next) : Prop :=
  match co with
  | Co_Read n _ _ => n <> 0
  | Co_Call _ _ => True
  | Co_Write w _ => w <> []
  | _ => False
  end.

(** Sessions that end the same; a transport that ends leaves what it did of a
    packet in the buffer, which nobody looks at any more. *)
Definition same_but_buf (a b : SSt) : Prop :=
  s_conn a = s_conn b /\ s_chans a = s_chans b /\ s_stdout a = s_stdout b /\ s_stderr a = s_stderr b /\ s_wait a = s_wait b /\
  s_children a = s_children b /\ s_log a = s_log b.
Definition ends_alike (r : res ReceiveError bool) (a b : SSt) : Prop :=
  match r with Err (RE_In (In_Read _)) => same_but_buf a b | _ => a = b end.

(** [receive] has just begun, or its loop goes round. *)
Definition afresh (C : Crypto) (rng : N -> N -> bytes) (h : SHandlers) (l : Loop) : Prop :=
  l_body l = false /\ (l_co l = co_receive C rng h \/ l_co l = co_loop C rng h).
(** It has nothing to do with another branch. *)
Definition own_step (e : PEv) : Prop := match e with P_Ready _ => False | _ => True end.
