(** Model of nora_ssh/src/server.rs, [Server::start]: many connections. *)
From Coq Require Import Init.Byte.
From Verif Require Export Session.

(** What a connection depends on besides what its client sends: its random
    sources (lines 88, 263) and the handlers, for its requests and its user.
    Connections may be given handlers that answer differently, which stands for
    handlers with a state. *)
Record Peer (U : Type) := { p_host_rng : HostRng; p_rng : N -> N -> bytes; p_auth : AHandlers U; p_session : U -> SHandlers }.
Arguments p_host_rng {U}. Arguments p_rng {U}. Arguments p_auth {U}. Arguments p_session {U}.

(** A connection: accepted (line 66), a client (line 71; with the states in which
    authentication ended and in which the session is), not let in, or over
    (line 74). *)
Inductive Task (U : Type) :=
| T_New (s : stream)
| T_Client (u : U) (a : ASt U) (st : SSt)
| T_Refused (out : AOutcome U)
| T_Over (u : U) (a : ASt U) (st : SSt).
Arguments T_New {U}. Arguments T_Client {U}. Arguments T_Refused {U}. Arguments T_Over {U}.

(** What is ready: a new connection (whose client will send [s]), the end of an
    authentication, something that a client's loop waits for.  An authentication
    is one event, when it ends. *)
Inductive SvEv := SV_Accept (s : stream) | SV_Auth (i : N) | SV_Client (i : N) (e : Ev).

Fixpoint set_nth {A} (n : nat) (x : A) (l : list A) : list A :=
  match l, n with
  | [], _ => []
  | _ :: l, O => x :: l
  | y :: l, S n => y :: set_nth n x l
  end.
Definition set_at {A} (i : N) (x : A) (l : list A) : list A := set_nth (N.to_nat i) x l.
Definition get_at {A} (i : N) (l : list A) : option A := nth_error l (N.to_nat i).

Section Server.
  Context {U : Type} (H : Host) (C : Crypto) (P : N -> Peer U).

  (** line 67 and 69-73 *)
  Definition sv_auth (p : Peer U) (s : stream) : option (res unit (Task U)) :=
    match authenticate_new_client H (p_host_rng p) C (p_rng p) (p_auth p) s with
    | Some (AO_Handshake true _) => Some Panic
    | Some (AO_Handshake false o) => Some (Ok (T_Refused (AO_Handshake false o)))
    | Some (AO_Auth (Ok u) a) => Some (Ok (T_Client u a (session_init (a_conn a))))
    | Some (AO_Auth (Err e) a) => Some (Ok (T_Refused (AO_Auth (Err e) a)))
    | Some (AO_Auth Panic _) => Some Panic
    | None => None
    end.
  (** lines 71 and 74: a turn of the client's loop *)
  Definition sv_client (p : Peer U) (e : Ev) (u : U) (a : ASt U) (st : SSt) : option (res unit (Task U)) :=
    match session_step C (p_rng p) (p_session p u) e st with
    | Some (Ok false, st) => Some (Ok (T_Client u a st))
    | Some (Ok true, st) | Some (Err _, st) => Some (Ok (T_Over u a st))
    | Some (Panic, _) => Some Panic
    | None => None
    end.
  Definition sv_set (i : N) (ts : list (Task U)) (x : option (res unit (Task U))) : option (res unit (list (Task U))) :=
    match x with
    | Some (Ok t) => Some (Ok (set_at i t ts))
    | Some (Err e) => Some (Err e)
    | Some Panic => Some Panic
    | None => None
    end.
  (** lines 64-76: a turn of the server's loop.  All connections are polled by
      it, so a panic in one ends them all. *)
  Definition sv_step (e : SvEv) (ts : list (Task U)) : option (res unit (list (Task U))) :=
    match e with
    | SV_Accept s => Some (Ok (ts ++ [T_New s]))
    | SV_Auth i => match get_at i ts with Some (T_New s) => sv_set i ts (sv_auth (P i) s) | _ => None end
    | SV_Client i e => match get_at i ts with Some (T_Client u a st) => sv_set i ts (sv_client (P i) e u a st) | _ => None end
    end.
  (** lines 60-78 *)
  Fixpoint sv_run (es : list SvEv) (ts : list (Task U)) : option (res unit (list (Task U))) :=
    match es with
    | [] => Some (Ok ts)
    | e :: es =>
      match sv_step e ts with
      | Some (Ok ts) => sv_run es ts
      | x => x
      end
    end.
End Server.
