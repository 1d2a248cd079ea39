(** For C82-C84: a transport that takes [lim] bytes and then fails. *)
From Coq Require Import Init.Byte.
From Verif Require Export SpecServer Broken.

(** What the handshake and the authentication write to a client that takes all. *)
Definition shaken (H : Host) (R : HostRng) (s : stream) : bytes := snd (handle_new_client H R s []).
Definition written {U} (out : AOutcome U) : bytes := match out with AO_Handshake _ o => o | AO_Auth _ a => k_out (a_conn a) end.

(** [a'] and [st'] stopped in the middle of sending what [a] and [st] went on
    with: [lim] bytes are written, and the message that did not get through is
    where the logs part. *)
Definition a_broke {U} (lim : N) (a a' : ASt U) : Prop :=
  lim < len (k_out (a_conn a)) /\ k_out (a_conn a') = ntake lim (k_out (a_conn a)) /\
  exists m t, a_log a = a_log a' ++ AE_Sent m :: t.
Definition s_broke (lim : N) (st st' : SSt) : Prop :=
  lim < len (k_out (s_conn st)) /\ k_out (s_conn st') = ntake lim (k_out (s_conn st)) /\
  exists m t, s_log st = s_log st' ++ SE_Sent m :: t.

Section Alone.
  Context {U : Type} (H : Host) (C : Crypto) (p : Peer U) (lim : N) (s : stream).
  (** The connection on its own, after these events. *)
  Inductive lives : list CEv -> Task U -> Prop :=
  | V_New : lives [] (T_New s)
  | V_Client u a es st : authenticated H C p s u a -> session_of C p u a es (Ok false) st -> len (k_out (s_conn st)) <= lim ->
      lives (CE_Auth :: map CE_Turn es) (T_Client u a st)
  | V_Refused out : authenticate_new_client H (p_host_rng p) C (p_rng p) (p_auth p) s = Some out ->
      match out with AO_Handshake b _ => b = false | AO_Auth r _ => exists e, r = Err e end -> len (written out) <= lim ->
      lives [CE_Auth] (T_Refused out)
  | V_Over u a es e st0 r st : authenticated H C p s u a -> session_of C p u a es (Ok false) st0 -> session_of C p u a (es ++ [e]) r st ->
      match r with Ok b => b = true | Err _ => True | Panic => False end -> len (k_out (s_conn st)) <= lim ->
      lives (CE_Auth :: map CE_Turn (es ++ [e])) (T_Over u a st)
  (** It broke, in the handshake or in the session. *)
  | V_BrokeHandshake : lim < len (shaken H (p_host_rng p) s) ->
      lives [CE_Auth] (T_Refused (AO_Handshake false (ntake lim (shaken H (p_host_rng p) s))))
  | V_BrokeSession u a es e st0 r st st' : authenticated H C p s u a -> session_of C p u a es (Ok false) st0 ->
      len (k_out (s_conn st0)) <= lim -> session_of C p u a (es ++ [e]) r st -> s_broke lim st st' ->
      lives (CE_Auth :: map CE_Turn (es ++ [e])) (T_Over u a st').
  (** It panics about the last of these: as it does anyhow, or because it broke
      in the authentication. *)
  Inductive dies : list CEv -> Prop :=
  | D_Auth out : authenticate_new_client H (p_host_rng p) C (p_rng p) (p_auth p) s = Some out ->
      match out with AO_Handshake b _ => b = true | AO_Auth r _ => r = Panic end -> len (written out) <= lim -> dies [CE_Auth]
  | D_Session u a es e st0 st : authenticated H C p s u a -> session_of C p u a es (Ok false) st0 -> session_of C p u a (es ++ [e]) Panic st ->
      len (k_out (s_conn st)) <= lim -> dies (CE_Auth :: map CE_Turn (es ++ [e]))
  | D_Broke r a : authenticate_new_client H (p_host_rng p) C (p_rng p) (p_auth p) s = Some (AO_Auth r a) ->
      len (shaken H (p_host_rng p) s) <= lim -> lim < len (k_out (a_conn a)) -> dies [CE_Auth].
End Alone.
