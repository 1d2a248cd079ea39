(** For C89 and C90: connections whose transports break and whose [receive] is
    cancelled, and a server of them. *)
From Coq Require Import Init.Byte.
From Verif Require Export SpecBroken SpecCancel2 Faults.

(** The turns as a schedule of a session over a transport that takes all. *)
Definition schedule (ts : list Turn) : list XEv :=
  flat_map (fun t : Turn => match t with (Some c, e) => [X_Cut c; X_Turn e] | (None, e) => [X_Turn e] end) ts.

(** What a connection goes through, as in [SpecServer]. *)
Inductive FEv := FE_Auth | FE_Turn (t : Turn).
Definition f_accepted (es : list FvEv) : list stream := flat_map (fun e => match e with FV_Accept s => [s] | _ => [] end) es.
Definition f_about (i : N) (e : FvEv) : list FEv :=
  match e with
  | FV_Accept _ => []
  | FV_Auth j => if j =? i then [FE_Auth] else []
  | FV_Client j t => if j =? i then [FE_Turn t] else []
  end.
Definition f_own (i : N) (es : list FvEv) : list FEv := flat_map (f_about i) es.

Section Alone.
  Context {U : Type} (H : Host) (C : Crypto) (p : Peer U) (lim : N) (s : stream).
  Definition cut_session_of (u : U) (a : ASt U) (ts : list Turn) (r : res InError bool) (st : SSt) : Prop :=
    cut_run C (p_rng p) (p_session p u) (schedule ts) (session_init (a_conn a)) = Some (r, st).
  (** The connection on its own, after these events: sessions are those over a
      transport that takes all, until they break. *)
  Inductive endures : list FEv -> Task U -> Prop :=
  | F_New : endures [] (T_New s)
  | F_Client u a ts st : authenticated H C p s u a -> cut_session_of u a ts (Ok false) st -> len (k_out (s_conn st)) <= lim ->
      endures (FE_Auth :: map FE_Turn ts) (T_Client u a st)
  | F_Refused out : authenticate_new_client H (p_host_rng p) C (p_rng p) (p_auth p) s = Some out ->
      match out with AO_Handshake b _ => b = false | AO_Auth r _ => exists e, r = Err e end -> len (SpecBroken.written out) <= lim ->
      endures [FE_Auth] (T_Refused out)
  | F_Over u a ts t st0 r st : authenticated H C p s u a -> cut_session_of u a ts (Ok false) st0 -> cut_session_of u a (ts ++ [t]) r st ->
      match r with Ok b => b = true | Err _ => True | Panic => False end -> len (k_out (s_conn st)) <= lim ->
      endures (FE_Auth :: map FE_Turn (ts ++ [t])) (T_Over u a st)
  | F_BrokeHandshake : lim < len (shaken H (p_host_rng p) s) ->
      endures [FE_Auth] (T_Refused (AO_Handshake false (ntake lim (shaken H (p_host_rng p) s))))
  | F_BrokeSession u a ts t st0 r st st' : authenticated H C p s u a -> cut_session_of u a ts (Ok false) st0 ->
      len (k_out (s_conn st0)) <= lim -> cut_session_of u a (ts ++ [t]) r st -> s_broke lim st st' ->
      endures (FE_Auth :: map FE_Turn (ts ++ [t])) (T_Over u a st').
  (** It panics about the last of these. *)
  Inductive fails : list FEv -> Prop :=
  | X_Auth out : authenticate_new_client H (p_host_rng p) C (p_rng p) (p_auth p) s = Some out ->
      match out with AO_Handshake b _ => b = true | AO_Auth r _ => r = Panic end -> len (SpecBroken.written out) <= lim -> fails [FE_Auth]
  | X_Session u a ts t st0 st : authenticated H C p s u a -> cut_session_of u a ts (Ok false) st0 -> cut_session_of u a (ts ++ [t]) Panic st ->
      len (k_out (s_conn st)) <= lim -> fails (FE_Auth :: map FE_Turn (ts ++ [t]))
  | X_Broke r a : authenticate_new_client H (p_host_rng p) C (p_rng p) (p_auth p) s = Some (AO_Auth r a) ->
      len (shaken H (p_host_rng p) s) <= lim -> lim < len (k_out (a_conn a)) -> fails [FE_Auth].
End Alone.

(** A client of the server, and what it did: its session is one over a transport
    that takes all, or broke off that. *)
Definition came_to {U} (C : Crypto) (p : Peer U) (lim : N) (u : U) (a : ASt U) (ts : list Turn) (st : SSt) : Prop :=
  exists r st1, is_cut_session C (p_rng p) (p_session p u) (a_conn a) (schedule ts) r st1 /\
    ((len (k_out (s_conn st1)) <= lim /\ st = st1) \/ s_broke lim st1 st).
(** [st] of client [u], which runs or is over. *)
Definition client_at {U} (i : N) (ts : list (Task U)) (u : U) (a : ASt U) (st : SSt) : Prop :=
  get_at i ts = Some (T_Client u a st) \/ get_at i ts = Some (T_Over u a st).
(** Its transport took all it takes, and it is over. *)
Definition broke_off {U} (lim : N) (i : N) (ts : list (Task U)) (u : U) (a : ASt U) (st : SSt) : Prop :=
  get_at i ts = Some (T_Over u a st) /\ len (k_out (s_conn st)) = lim.
