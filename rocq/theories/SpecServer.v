(** Specification of the server: each connection on its own. *)
From Coq Require Import Init.Byte.
From Verif Require Export SpecSession SpecHost Server.

(** What a connection goes through: its authentication, turns of its session. *)
Inductive CEv := CE_Auth | CE_Turn (e : Ev).
(** The connections accepted, in order; what connection [i] goes through. *)
Definition accepted (es : list SvEv) : list stream := flat_map (fun e => match e with SV_Accept s => [s] | _ => [] end) es.
Definition about (i : N) (e : SvEv) : list CEv :=
  match e with
  | SV_Accept _ => []
  | SV_Auth j => if j =? i then [CE_Auth] else []
  | SV_Client j e => if j =? i then [CE_Turn e] else []
  end.
Definition own (i : N) (es : list SvEv) : list CEv := flat_map (about i) es.
(** The connection an event is about, and what it is for it. *)
Definition target (e : SvEv) : option (N * CEv) :=
  match e with SV_Accept _ => None | SV_Auth i => Some (i, CE_Auth) | SV_Client i e => Some (i, CE_Turn e) end.

Section Alone.
  Context {U : Type} (H : Host) (C : Crypto) (p : Peer U) (s : stream).
  Definition authenticated (u : U) (a : ASt U) : Prop :=
    authenticate_new_client H (p_host_rng p) C (p_rng p) (p_auth p) s = Some (AO_Auth (Ok u) a).
  Definition session_of (u : U) (a : ASt U) (es : list Ev) (r : res InError bool) (st : SSt) : Prop :=
    session_run C (p_rng p) (p_session p u) es (session_init (a_conn a)) = Some (r, st).
  (** The connection on its own, after these events. *)
  Inductive alone : list CEv -> Task U -> Prop :=
  | L_New : alone [] (T_New s)
  | L_Client u a es st : authenticated u a -> session_of u a es (Ok false) st ->
      alone (CE_Auth :: map CE_Turn es) (T_Client u a st)
  | L_Refused out : authenticate_new_client H (p_host_rng p) C (p_rng p) (p_auth p) s = Some out ->
      match out with AO_Handshake b _ => b = false | AO_Auth r _ => exists e, r = Err e end ->
      alone [CE_Auth] (T_Refused out)
  | L_Over u a es e st0 r st : authenticated u a -> session_of u a es (Ok false) st0 -> session_of u a (es ++ [e]) r st ->
      match r with Ok b => b = true | Err _ => True | Panic => False end ->
      alone (CE_Auth :: map CE_Turn (es ++ [e])) (T_Over u a st).
  (** It panics about the last of these. *)
  Inductive panics : list CEv -> Prop :=
  | P_Auth out : authenticate_new_client H (p_host_rng p) C (p_rng p) (p_auth p) s = Some out ->
      match out with AO_Handshake b _ => b = true | AO_Auth r _ => r = Panic end -> panics [CE_Auth]
  | P_Session u a es e st0 st : authenticated u a -> session_of u a es (Ok false) st0 -> session_of u a (es ++ [e]) Panic st ->
      panics (CE_Auth :: map CE_Turn (es ++ [e])).
End Alone.

(** A whole connection: after the handshake the client sent a request for the
    service, requests for authentication, and session messages; the server
    answered the first two one for one, the last request with success as the
    handler said so, and then sent the messages in the log of the session.  All
    frames are numbered without gap. *)
Definition connection {U} (H : Host) (C : Crypto) (p : Peer U) (s : stream) (u : U) (a : ASt U) (st : SSt) : Prop :=
  exists c s1 o pl pls1 pls2 rest rds user service auth,
    let rounds := rds ++ [Attempt user service auth (Some u)] in
    handle_new_client H (p_host_rng p) s [] = (Ok c, s1, o) /\
    counter (receive_cipher c) = 3 /\ counter (send_cipher c) = 3 /\
    received_as C (receive_cipher c) s1 (pl :: pls1 ++ pls2) rest /\
    is_wire (Msg_ServiceRequest (B "ssh-userauth")) pl /\
    Forall2 (fun pl rd => exists q, is_wire (Msg_UserAuth (UA_Request q)) pl /\ causes (session_identifier c) q rd) pls1 rounds /\
    Forall2 (fun m pl => is_wire m pl) (received (s_log st)) pls2 /\
    a_log a = AE_Sent (Msg_ServiceAccept (B "ssh-userauth")) :: concat (map events rounds) /\
    answered_by (p_auth p) (a_log a) /\ Forall (fun rd => ~ successful rd) rds /\
    written_as C (send_cipher c) o
      (map wire (Msg_ServiceAccept (B "ssh-userauth") :: map reply rounds ++ s_sent (s_log st))) (k_out (s_conn st)).
