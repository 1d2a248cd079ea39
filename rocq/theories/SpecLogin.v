(** For C98-C100: what the await-by-await model of logins and of the server is
    compared with. *)
From Coq Require Import Init.Byte.
From Verif Require Export SpecAsync Login.

(** ** A connection by itself *)
Section Login.
  Context {U : Type} (H : Host) (C : Crypto) (p : Peer U) (lim : N) (s : stream).
  Definition login_begins : Going (LResult U) :=
    {| g_co := lg_login H (p_host_rng p) C (p_rng p) (p_auth p); g_in := s; g_out := [] |}.
  (** Its login got to here; it is over, so. *)
  Definition logging_in (es : list LEv) (g : Going (LResult U)) : Prop := g_run lim es login_begins = Some g.
  Definition logged_in (es : list LEv) (out : AOutcome U) : Prop :=
    exists g x, logging_in es g /\ g_co g = Lg_Ret x /\ out = l_outcome x (g_in g) (g_out g).
  Definition under_way (g : Going (LResult U)) : Prop := forall x, g_co g <> Lg_Ret x.
End Login.

(** What a connection goes through. *)
Inductive OEv := OE_Login (e : LEv) | OE_Client (e : PEv).
Definition l_accepted (es : list LvEv) : list stream := flat_map (fun e => match e with LV_Accept s => [s] | _ => [] end) es.
Definition l_about (i : N) (e : LvEv) : list OEv :=
  match e with
  | LV_Accept _ => []
  | LV_Login j e => if j =? i then [OE_Login e] else []
  | LV_Client j e => if j =? i then [OE_Client e] else []
  end.
Definition l_own (i : N) (es : list LvEv) : list OEv := flat_map (l_about i) es.

Section Itself.
  Context {U : Type} (H : Host) (C : Crypto) (p : Peer U) (lim : N) (s : stream).
  Notation logged := (logged_in H C p lim s).
  Definition session_polls (u : U) (a : ASt U) (es : list PEv) : option Out :=
    p_run lim C (p_rng p) (p_session p u) es (loop_init C (p_rng p) (p_session p u) (a_conn a)).
  Inductive by_itself : list OEv -> Lane U -> Prop :=
  | I_Login es g : logging_in H C p lim s es g -> under_way g -> by_itself (map OE_Login es) (Ln_Login g)
  | I_Client es u a es' l : logged es (AO_Auth (Ok u) a) -> session_polls u a es' = Some (O_Goes l) ->
      by_itself (map OE_Login es ++ map OE_Client es') (Ln_Client u a l)
  | I_Refused es out : logged es out -> match out with AO_Handshake b _ => b = false | AO_Auth r _ => exists e, r = Err e end ->
      by_itself (map OE_Login es) (Ln_Refused out)
  | I_Over es u a es' r st : logged es (AO_Auth (Ok u) a) -> session_polls u a es' = Some (O_Over r st) -> r <> Panic ->
      by_itself (map OE_Login es ++ map OE_Client es') (Ln_Over u a st).
  Inductive dies_itself : list OEv -> Prop :=
  | D_Login es out : logged es out -> match out with AO_Handshake b _ => b = true | AO_Auth r _ => r = Panic end -> dies_itself (map OE_Login es)
  | D_Client es u a es' st : logged es (AO_Auth (Ok u) a) -> session_polls u a es' = Some (O_Over Panic st) ->
      dies_itself (map OE_Login es ++ map OE_Client es').
End Itself.

(** ** Against [Faults] *)

(** A turn of a client's loop began with [l0] and has come to [l]. *)
Inductive turn_to (lim : N) (C : Crypto) (rng : N -> N -> bytes) (h : SHandlers) (l0 : Loop) : Loop -> Prop :=
| T_Begins : turn_to lim C rng h l0 l0
| T_Goes e l l' : turn_to lim C rng h l0 l -> (forall r, l_co l <> Co_Ret r) -> p_step lim C rng h e l = Some (O_Goes l') ->
    turn_to lim C rng h l0 l'.
(** The connection, where a turn or a login that is going on has not begun yet. *)
Definition seen_as {U} (H : Host) (C : Crypto) (p : Peer U) (lim : N) (l : Lane U) (t : Task U) : Prop :=
  match l, t with
  | Ln_Login g, T_New s => exists es, logging_in H C p lim s es g
  | Ln_Client u a l, T_Client u' a' st => u = u' /\ a = a' /\
      exists l0, afresh C (p_rng p) (p_session p u) l0 /\ w_st (l_world l0) = st /\ turn_to lim C (p_rng p) (p_session p u) l0 l
  | Ln_Refused out, T_Refused out' => out = out'
  | Ln_Over u a st, T_Over u' a' st' => u = u' /\ a = a' /\ same_but_buf st st'
  | _, _ => False
  end.
(** And no turn or login is going on. *)
Definition rests {U} (H : Host) (C : Crypto) (p : Peer U) (l : Lane U) (t : Task U) : Prop :=
  match l, t with
  | Ln_Client u _ l, T_Client _ _ st => afresh C (p_rng p) (p_session p u) l /\ w_st (l_world l) = st
  | Ln_Login g, T_New s => g = login_begins H C p s
  | _, _ => True
  end.
