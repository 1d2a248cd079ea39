(** Property theorems C82 to C84: a transport that takes [lim] bytes (connection
    [i] of a server: [L i]) and then fails.  The handlers, cryptography and random
    sources are parameters, per connection. *)
From Coq Require Import Init.Byte Strings.Byte.
From Verif Require Import BrokenThm3 SessionToy PropServer.
Open Scope res_scope.

(** ** C82: refuted: of every server, whatever it is doing, a new client whose
    connection breaks at the right moment ends all connections; had it not
    broken, that client would only have been refused. *)
Theorem C82_break_ends_only_itself_refuted : forall U H C (P : N -> Peer U) L es ts, host_ok H -> crypto_ok C ->
  (forall i, host_rng_ok (p_host_rng (P i)) /\ rngs_ok (p_rng (P i))) -> sv_run_b H C P L es [] = Some (Ok ts) ->
  exists s n big t, n < big /\ forall L', (forall i, i < len ts -> L' i = L i) ->
    (L' (len ts) = n -> sv_run_b H C P L' (es ++ [SV_Accept s; SV_Auth (len ts)]) [] = Some Panic) /\
    (big <= L' (len ts) -> sv_run_b H C P L' (es ++ [SV_Accept s; SV_Auth (len ts)]) [] = Some (Ok (ts ++ [t]))).
Proof. intros U H C P L es ts HO K PO. exact (any_server_dies H C P HO K PO L es ts). Qed.
Print Assumptions C82_break_ends_only_itself_refuted.
(** It is so for every client whose connection breaks while it authenticates, *)
Theorem C82_break_in_authentication_refuted : forall U H C (P : N -> Peer U) L es ts s r a, sv_run_b H C P L es [] = Some (Ok ts) ->
  let p := P (len ts) in
  authenticate_new_client H (p_host_rng p) C (p_rng p) (p_auth p) s = Some (AO_Auth r a) ->
  len (shaken H (p_host_rng p) s) <= L (len ts) -> L (len ts) < len (k_out (a_conn a)) ->
  sv_run_b H C P L (es ++ [SV_Accept s; SV_Auth (len ts)]) [] = Some Panic.
Proof. intros U H C P L. exact (broken_kills_all H C P L). Qed.
Print Assumptions C82_break_in_authentication_refuted.
(** and only so: the server dies of a connection that panics anyhow or that breaks
    while it authenticates; *)
Theorem C82_dies_of_one_partial : forall U H C (P : N -> Peer U) L es, host_ok H -> crypto_ok C ->
  (forall i, host_rng_ok (p_host_rng (P i)) /\ rngs_ok (p_rng (P i))) ->
  (forall e, sv_run_b H C P L es [] <> Some (Err e)) /\
  (sv_run_b H C P L es [] = Some Panic ->
   exists es1 e es2 ts i s, es = es1 ++ e :: es2 /\ sv_run_b H C P L es1 [] = Some (Ok ts) /\ get_at i (accepted es1) = Some s /\
     dies H C (P i) (L i) s (own i (es1 ++ [e]))).
Proof.
  intros U H C P L es HO K PO. split; [exact (never_errs_b H C P L HO K PO es)|exact (dies_of_one_b H C P L HO K PO es)].
Qed.
Print Assumptions C82_dies_of_one_partial.
(** while it lives, each connection is as if it were alone: one that broke in the
    handshake or in the session is over, the others do not notice. *)
Theorem C82_isolated_partial : forall U H C (P : N -> Peer U) L es ts, host_ok H -> crypto_ok C ->
  (forall i, host_rng_ok (p_host_rng (P i)) /\ rngs_ok (p_rng (P i))) -> sv_run_b H C P L es [] = Some (Ok ts) ->
  len ts = len (accepted es) /\
  forall i s, get_at i (accepted es) = Some s -> exists t, get_at i ts = Some t /\ lives H C (P i) (L i) s (own i es) t.
Proof. intros U H C P L es ts HO K PO. exact (isolated_b H C P L HO K PO es ts). Qed.
Print Assumptions C82_isolated_partial.

(** ** C83 *)
Theorem C83_handshake : forall lim H R s,
  let '(r, s1, o) := handle_new_client H R s [] in
  (len o <= lim -> handle_new_client_b lim H R s [] = (r, s1, o)) /\
  (lim < len o -> exists s2, handle_new_client_b lim H R s [] = (Err H_Write, s2, ntake lim o)).
Proof.
  intros lim H R s. destruct (handshake_breaks lim H R s) as [B1 B2]. unfold shaken in *. destruct (handle_new_client H R s []) as [[r s1] o]. split; assumption.
Qed.
Print Assumptions C83_handshake.
Theorem C83_authentication : forall U lim H R C rng (h : AHandlers U) s out, authenticate_new_client H R C rng h s = Some out ->
  (len (SpecBroken.written out) <= lim /\ authenticate_new_client_b lim H R C rng h s = Some out) \/
  (lim < len (shaken H R s) /\ authenticate_new_client_b lim H R C rng h s = Some (AO_Handshake false (ntake lim (shaken H R s)))) \/
  (len (shaken H R s) <= lim /\ exists r a a', out = AO_Auth r a /\ authenticate_new_client_b lim H R C rng h s = Some (AO_Auth Panic a') /\ a_broke lim a a').
Proof. intros U lim H R C rng h s out E. exact (proj2 (attempt_breaks lim H R C rng h s out E)). Qed.
Print Assumptions C83_authentication.
Theorem C83_session : forall lim C rng h es st r st1, session_run C rng h es st = Some (r, st1) -> len (k_out (s_conn st)) <= lim ->
  (len (k_out (s_conn st1)) <= lim /\ session_run_b lim C rng h es st = Some (map_err RE_In r, st1)) \/
  exists st2, session_run_b lim C rng h es st = Some (Err RE_Out, st2) /\ s_broke lim st1 st2.
Proof. intros lim C rng h. exact (run_breaks lim C rng h). Qed.
Print Assumptions C83_session.
(** Conversely every session over a breaking transport is a plain one until then,
    also when it breaks before a panic; *)
Theorem C83_session_is_plain : forall lim C rng h es st rb st', session_run_b lim C rng h es st = Some (rb, st') -> len (k_out (s_conn st)) <= lim ->
  exists es1 es2 r st1, es = es1 ++ es2 /\ session_run C rng h es1 st = Some (r, st1) /\
    ((es2 = [] /\ len (k_out (s_conn st1)) <= lim /\ rb = map_err RE_In r /\ st' = st1) \/ (rb = Err RE_Out /\ s_broke lim st1 st')).
Proof. intros lim C rng h. exact (broken_run lim C rng h). Qed.
Print Assumptions C83_session_is_plain.
(** so breaking never makes a session panic. *)
Theorem C83_session_panics_no_more : forall lim C rng h es st st', session_run_b lim C rng h es st = Some (Panic, st') -> len (k_out (s_conn st)) <= lim ->
  session_run C rng h es st = Some (Panic, st').
Proof. intros lim C rng h es st st'. exact never_panics_more. Qed.
Print Assumptions C83_session_panics_no_more.

(** ** C84 *)
Theorem C84_whole_connection : forall U H C (P : N -> Peer U) L es ts, host_ok H -> crypto_ok C ->
  (forall i, host_rng_ok (p_host_rng (P i)) /\ rngs_ok (p_rng (P i))) -> sv_run_b H C P L es [] = Some (Ok ts) ->
  forall i u a st, get_at i ts = Some (T_Client u a st) \/ get_at i ts = Some (T_Over u a st) ->
  exists s st1, get_at i (accepted es) = Some s /\ connection H C (P i) s u a st1 /\
    ((len (k_out (s_conn st1)) <= L i /\ st = st1) \/ s_broke (L i) st1 st).
Proof. intros U. exact connections_b. Qed.
Print Assumptions C84_whole_connection.

(** ** Cases *)
Notation serve_b L es := (sv_run_b toy_host toy_crypto (fun _ => toy_peer) L es []).
Definition brief_b (r : option (res unit (list (Task bytes)))) : list (option bytes * list SEvent) :=
  match r with Some (Ok ts) => map brief ts | _ => [] end.
Lemma brief_ok r : brief_b r <> [] -> exists ts, r = Some (Ok ts).
Proof. exact (ex_serve_ok r). Qed.
(** The transport of the first client takes all but the last byte: its log ends
    before the last reply; the other goes on. *)
(* what the server writes to it *)
Definition ex_all : N := 629.
Definition ex_lim : N -> N := fun i => if i =? 0 then ex_all - 1 else 1000000.
Lemma ex_broken : brief_b (serve_b ex_lim ex_serve) = [(fst ex_joe, removelast (snd ex_joe)); (Some [], [])].
Proof. vm_compute. reflexivity. Qed.
Example C82_example : exists ts, serve_b ex_lim ex_serve = Some (Ok ts) /\ len ts = 2 /\
  exists s n, serve_b (fun i => if i =? 2 then n else ex_lim i) (ex_serve ++ [SV_Accept s; SV_Auth 2]) = Some Panic.
Proof.
  destruct (brief_ok (serve_b ex_lim ex_serve)) as (ts & R); [rewrite ex_broken; discriminate|]. exists ts. split; [exact R|].
  assert (L : len ts = 2).
  { pose proof ex_broken as E. rewrite R in E. apply (f_equal len) in E. unfold len in *. cbn [brief_b] in E. rewrite map_length in E. exact E. }
  split; [exact L|].
  destruct (any_server_dies toy_host toy_crypto (fun _ => toy_peer) toy_host_ok toy_ok (fun _ => conj toy_rng_ok toy_pads_ok) ex_lim ex_serve ts R)
    as (s & n & big & t & _ & X).
  exists s, n. rewrite L in X. apply X; [|reflexivity]. intros i Li. destruct (N.eqb_spec i 2); [lia|reflexivity].
Qed.
Definition outcome_b (lim : N) : option (option (res unit bytes)) :=
  match authenticate_new_client_b lim toy_host toy_rng toy_crypto toy_pads toy_handlers toy_visit with
  | Some (AO_Handshake _ _) => Some None
  | Some (AO_Auth r _) => Some (Some r)
  | None => None
  end.
(** Breaking in the handshake, in the authentication, later. *)
Example C83_example : outcome_b 100 = Some None /\ outcome_b (len toy_out + 10) = Some (Some Panic) /\ outcome_b 1000000 = Some (Some (Ok (B "joe"))).
Proof. vm_compute. repeat split. Qed.
Definition run_b (lim : N) (ms : list Channel) (es : list Ev) : option (res ReceiveError bool * list SEvent) :=
  match session_run_b lim toy_crypto toy_pads toy_sh es (session_init (toy_conn (map Msg_Channel ms))) with
  | Some (r, st) => Some (r, s_log st)
  | None => None
  end.
(** A child is started although its client is not told. *)
Example C83_example_session :
  run_b 50 [toy_open 7; toy_req 0 true (SR_Exec (B "true"))] [Ev_Packet; Ev_Packet; Ev_Packet] =
    Some (Err RE_Out, [got (toy_open 7); put (conf 7 0); got (toy_req 0 true (SR_Exec (B "true")));
      SE_Spawn 0 7 0 (Spawn_Exec (B "true")) (Ok {| io_stdin := false; io_stdout := true; io_stderr := false |})]).
Proof. vm_compute. reflexivity. Qed.
Example C84_example : exists s u a st st1, u = B "joe" /\ len (s_log st) = 4 /\
  connection toy_host toy_crypto toy_peer s u a st1 /\ ((len (k_out (s_conn st1)) <= ex_all - 1 /\ st = st1) \/ s_broke (ex_all - 1) st1 st).
Proof.
  destruct (brief_ok (serve_b ex_lim ex_serve)) as (ts & R); [rewrite ex_broken; discriminate|].
  pose proof ex_broken as E. rewrite R in E. cbn [brief_b] in E. destruct ts as [|t ts]; [discriminate E|]. cbn [map] in E. apply pair_cons in E as [E _].
  assert (X : exists u a st, u = B "joe" /\ s_log st = removelast (snd ex_joe) /\ (t = T_Client u a st \/ t = T_Over u a st)).
  { destruct t as [s0|u a st|out|u a st]; cbn [brief] in E; apply pair_equal_spec in E as [E1 E2];
      [discriminate E1| |discriminate E1|]; apply Some_inj in E1; exists u, a, st; auto. }
  destruct X as (u & a & st & E1 & E2 & T).
  destruct (connections_b toy_host toy_crypto (fun _ => toy_peer) ex_lim ex_serve (t :: ts) toy_host_ok toy_ok (fun _ => conj toy_rng_ok toy_pads_ok) R 0 u a st)
    as (s & st1 & _ & Cn & X).
  { destruct T as [-> | ->]; [left|right]; reflexivity. }
  exists s, u, a, st, st1. split; [exact E1|]. split; [rewrite E2; reflexivity|]. split; [exact Cn|exact X].
Qed.
