(** Property theorems C63 and C74: the server and its connections.  The handlers,
    cryptography and random sources are parameters, per connection. *)
From Coq Require Import Init.Byte Strings.Byte.
From Verif Require Import ServerThm.
Open Scope res_scope.

(** ** C63: refuted: of every server, whatever it is doing, one new client ends
    all connections, before any authentication. *)
Theorem C63_keeps_serving_refuted : forall U H C (P : N -> Peer U) es ts, host_ok H -> host_rng_ok (p_host_rng (P (len ts))) ->
  sv_run H C P es [] = Some (Ok ts) -> exists s, sv_run H C P (es ++ [SV_Accept s; SV_Auth (len ts)]) [] = Some Panic.
Proof. intros U H C P. exact (one_kills_all H C P). Qed.
Print Assumptions C63_keeps_serving_refuted.
(** What holds: while the server lives, each connection is as if it were alone, *)
Theorem C63_isolated_partial : forall U H C (P : N -> Peer U) es ts, sv_run H C P es [] = Some (Ok ts) ->
  len ts = len (accepted es) /\ forall i s, get_at i (accepted es) = Some s -> exists t, get_at i ts = Some t /\ alone H C (P i) s (own i es) t.
Proof. intros U H C P. exact (isolated H C P). Qed.
Print Assumptions C63_isolated_partial.
(** it dies only of a panic of one of them, *)
Theorem C63_dies_of_one_partial : forall U H C (P : N -> Peer U) es, 
  (forall e, sv_run H C P es [] <> Some (Err e)) /\
  (sv_run H C P es [] = Some Panic ->
   exists es1 e es2 ts i s, es = es1 ++ e :: es2 /\ sv_run H C P es1 [] = Some (Ok ts) /\ get_at i (accepted es1) = Some s /\
     panics H C (P i) s (own i (es1 ++ [e]))).
Proof. intros U H C P es. split; [exact (never_errs H C P es)|exact (dies_of_one H C P es)]. Qed.
Print Assumptions C63_dies_of_one_partial.
(** and it can always accept, and do for any of them what that one would do alone. *)
Theorem C63_goes_on_partial : forall U H C (P : N -> Peer U) es ts, sv_run H C P es [] = Some (Ok ts) ->
  (forall s, sv_run H C P (es ++ [SV_Accept s]) [] = Some (Ok (ts ++ [T_New s]))) /\
  forall e i x s, target e = Some (i, x) -> get_at i (accepted es) = Some s ->
  (forall t, alone H C (P i) s (own i es ++ [x]) t -> sv_run H C P (es ++ [e]) [] = Some (Ok (set_at i t ts))) /\
  (panics H C (P i) s (own i es ++ [x]) -> sv_run H C P (es ++ [e]) [] = Some Panic).
Proof.
  intros U H C P es ts R. split; [intros s; exact (accept_any H C P es ts s R)|]. intros e i x s. exact (goes_on H C P es ts e i x s R).
Qed.
Print Assumptions C63_goes_on_partial.

(** ** C74 *)
Theorem C74_whole_connection : forall U H C (P : N -> Peer U) es ts, host_ok H -> crypto_ok C ->
  (forall i, host_rng_ok (p_host_rng (P i)) /\ rngs_ok (p_rng (P i))) -> sv_run H C P es [] = Some (Ok ts) ->
  forall i u a st, get_at i ts = Some (T_Client u a st) \/ get_at i ts = Some (T_Over u a st) ->
  exists s, get_at i (accepted es) = Some s /\ connection H C (P i) s u a st.
Proof. intros U H C P es ts. exact (server_connections H C P es ts). Qed.
Print Assumptions C74_whole_connection.
(** So all that is proved of sessions is true of those of the server. *)
Theorem C74_sessions : forall U H C (p : Peer U) s u a, host_ok H -> host_rng_ok (p_host_rng p) -> crypto_ok C -> rngs_ok (p_rng p) ->
  authenticated H C p s u a -> forall es r st, session_of C p u a es r st -> is_session C (p_rng p) (p_session p u) (a_conn a) es r st.
Proof. intros U. exact auth_gives_session. Qed.
Print Assumptions C74_sessions.

(** Two clients: one logs in and runs [true], the other is no SSH client; then a
    third. *)
Definition toy_peer : Peer bytes := {| p_host_rng := toy_rng; p_rng := toy_pads; p_auth := toy_handlers; p_session := fun _ => toy_sh |}.
Definition toy_visit : bytes := toy_client [toy_service; toy_request toy_signed; Msg_Channel (toy_open 7); Msg_Channel (toy_req 0 true (SR_Exec (B "true")))].
Notation toy_serve es := (sv_run toy_host toy_crypto (fun _ => toy_peer) es []).
Definition ex_serve : list SvEv :=
  [SV_Accept toy_visit; SV_Accept (B "GET / HTTP/1.0" ++ crlf); SV_Auth 0; SV_Client 0 Ev_Packet; SV_Auth 1; SV_Client 0 Ev_Packet].
Definition brief (t : Task bytes) : option bytes * list SEvent :=
  match t with T_New _ => (None, []) | T_Refused _ => (Some [], []) | T_Client u _ st | T_Over u _ st => (Some u, s_log st) end.
Definition ex_joe : option bytes * list SEvent :=
  (Some (B "joe"), [got (toy_open 7); put (conf 7 0); got (toy_req 0 true (SR_Exec (B "true")));
     SE_Spawn 0 7 0 (Spawn_Exec (B "true")) (Ok {| io_stdin := false; io_stdout := true; io_stderr := false |}); put (C_Success 7)]).
Lemma ex_served : match toy_serve ex_serve with Some (Ok ts) => map brief ts | _ => [] end =
  [ex_joe; (Some [], [])].
Proof. vm_compute. reflexivity. Qed.
Lemma ex_serve_ok : forall r : option (res unit (list (Task bytes))), match r with Some (Ok ts) => map brief ts | _ => [] end <> [] ->
  exists ts, r = Some (Ok ts).
Proof. intros [[ts|e|]|] D; try (exfalso; exact (D eq_refl)). exists ts. reflexivity. Qed.
Lemma ex_serve_2 : exists ts, toy_serve ex_serve = Some (Ok ts) /\ len ts = 2 /\ map brief ts = [ex_joe; (Some [], [])].
Proof.
  destruct (ex_serve_ok (toy_serve ex_serve)) as (ts & R); [rewrite ex_served; discriminate|]. exists ts. split; [exact R|].
  pose proof ex_served as E. rewrite R in E. split; [|exact E]. apply (f_equal len) in E. unfold len in *. rewrite map_length in E. exact E.
Qed.
Example C63_example : exists ts, toy_serve ex_serve = Some (Ok ts) /\ len ts = 2 /\
  exists s, toy_serve (ex_serve ++ [SV_Accept s; SV_Auth 2]) = Some Panic.
Proof.
  destruct ex_serve_2 as (ts & R & L & _). exists ts. split; [exact R|]. split; [exact L|]. rewrite <- L.
  exact (one_kills_all toy_host toy_crypto (fun _ => toy_peer) ex_serve ts toy_host_ok toy_rng_ok R).
Qed.
Example C74_example : exists u a st, u = B "joe" /\ len (s_log st) = 5 /\ connection toy_host toy_crypto toy_peer toy_visit u a st.
Proof.
  destruct ex_serve_2 as (ts & R & _ & E). destruct ts as [|t ts]; [discriminate E|]. cbn [map] in E. apply pair_cons in E as [E _].
  assert (X : exists u a st, u = B "joe" /\ len (s_log st) = 5 /\ (t = T_Client u a st \/ t = T_Over u a st)).
  { destruct t as [s0|u a st|out|u a st]; cbn [brief] in E; apply pair_equal_spec in E as [E1 E2];
      [discriminate E1| |discriminate E1|]; apply Some_inj in E1; exists u, a, st; (split; [exact E1|]); (split; [rewrite E2; reflexivity|]); auto. }
  destruct X as (u & a & st & E1 & E2 & T). exists u, a, st. split; [exact E1|]. split; [exact E2|].
  destruct (server_connections toy_host toy_crypto (fun _ => toy_peer) ex_serve (t :: ts) toy_host_ok toy_ok (fun _ => conj toy_rng_ok toy_pads_ok) R 0 u a st)
    as (s & G & Cn).
  { destruct T as [-> | ->]; [left|right]; reflexivity. }
  assert (G' : Some toy_visit = Some s) by exact G. apply Some_inj in G'. subst s. exact Cn.
Qed.
