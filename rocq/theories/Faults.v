(** Model of nora_ssh/src/server.rs, [Server::start] (lines 60-78) and
    [Client::start] (lines 304-351), with all that can go wrong at once: many
    connections, each over a transport that breaks after some bytes ([Broken]),
    with [receive] being dropped here and there ([Cancel]). *)
From Coq Require Import Init.Byte.
From Verif Require Export Broken Cancel.
Open Scope res_scope.

(** A turn of a client's loop (lines 316-350): what is ready, and where [receive]
    was dropped if that is not it. *)
Notation Turn := (option Cut * Ev)%type.

Section SessionF.
  Context (lim : N) (C : Crypto) (rng : N -> N -> bytes) (h : SHandlers).

  (** A reply is dropped after [n] bytes only if the transport took them; else
      [receive] was ready, with the error. *)
  Definition cut_step_b (c : Cut) (st : SSt) : option SSt :=
    match cut_step C rng h c st with
    | Some st => if len (k_out (s_conn st)) <=? lim then Some st else None
    | None => None
    end.
  (** lines 316-350 *)
  Definition fault_step (t : Turn) (st : SSt) : option (res ReceiveError bool * SSt) :=
    match t with
    | (None, e) => session_step_b lim C rng h e st
    | (Some _, Ev_Packet) => None
    | (Some c, e) =>
      match cut_step_b c st with
      | Some st => session_step_b lim C rng h e st
      | None => None
      end
    end.
  Fixpoint fault_run (ts : list Turn) (st : SSt) : option (res ReceiveError bool * SSt) :=
    match ts with
    | [] => Some (Ok false, st)
    | t :: ts =>
      match fault_step t st with
      | Some (Ok false, st) => fault_run ts st
      | x => x
      end
    end.
End SessionF.

(** * [Server::start]; the transport of connection [i] takes [L i] bytes *)
Inductive FvEv := FV_Accept (s : stream) | FV_Auth (i : N) | FV_Client (i : N) (t : Turn).

Section ServerF.
  Context {U : Type} (H : Host) (C : Crypto) (P : N -> Peer U) (L : N -> N).

  (** lines 71 and 74, as [sv_client_b] *)
  Definition fv_client (lim : N) (p : Peer U) (t : Turn) (u : U) (a : ASt U) (st : SSt) : option (res unit (Task U)) :=
    match fault_step lim C (p_rng p) (p_session p u) t st with
    | Some (Ok false, st) => Some (Ok (T_Client u a st))
    | Some (Ok true, st) | Some (Err _, st) => Some (Ok (T_Over u a st))
    | Some (Panic, _) => Some Panic
    | None => None
    end.
  (** lines 64-76, as [sv_step_b] *)
  Definition fv_step (e : FvEv) (ts : list (Task U)) : option (res unit (list (Task U))) :=
    match e with
    | FV_Accept s => Some (Ok (ts ++ [T_New s]))
    | FV_Auth i => match get_at i ts with Some (T_New s) => sv_set i ts (sv_auth_b H C (L i) (P i) s) | _ => None end
    | FV_Client i t => match get_at i ts with Some (T_Client u a st) => sv_set i ts (fv_client (L i) (P i) t u a st) | _ => None end
    end.
  (** lines 60-78 *)
  Fixpoint fv_run (es : list FvEv) (ts : list (Task U)) : option (res unit (list (Task U))) :=
    match es with
    | [] => Some (Ok ts)
    | e :: es =>
      match fv_step e ts with
      | Some (Ok ts) => fv_run es ts
      | x => x
      end
    end.
End ServerF.
