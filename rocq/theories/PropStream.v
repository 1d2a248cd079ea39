(** Property theorems C75 and C52, continued: a connection as its client goes on.
    [more t] is the connection of a client that sends [t] after all it sends
    ([SpecStream]). *)
From Coq Require Import Init.Byte Strings.Byte.
From Verif Require Import SessionThm8.
Open Scope res_scope.

(** ** C75: a handshake, *)
Theorem C75_handshake_reads_no_more : forall H R s o c s1 o1 t, handle_new_client H R s o = (Ok c, s1, o1) ->
  handle_new_client H R (s ++ t) o = (Ok c, s1 ++ t, o1).
Proof. intros H R s o c s1 o1 t. exact (handshake_local H R s o c s1 o1 t). Qed.
Print Assumptions C75_handshake_reads_no_more.
(** an authentication, *)
Theorem C75_authentication_reads_no_more : forall U H R C rng (h : AHandlers U) s u st t,
  authenticate_new_client H R C rng h s = Some (AO_Auth (Ok u) st) ->
  authenticate_new_client H R C rng h (s ++ t) = Some (AO_Auth (Ok u) (a_more t st)).
Proof. intros U H R C rng h s u st t. exact (authenticate_local H R C rng h s u st t). Qed.
Print Assumptions C75_authentication_reads_no_more.
(** and a session. *)
Theorem C75_session_reads_no_more : forall C rng h k es b st t, is_session C rng h k es (Ok b) st ->
  is_session C rng h (more t k) es (Ok b) (s_more t st).
Proof. exact session_local. Qed.
Print Assumptions C75_session_reads_no_more.
Example C75_example :
  (forall t, handle_new_client toy_host toy_rng (toy_stream ++ t) [] = (Ok toy_c, t, toy_out)) /\
  (exists st, forall t, is_session toy_crypto toy_pads toy_sh (more t ex_conn) ex_events (Ok false) (s_more t st) /\ s_log (s_more t st) = ex_log).
Proof.
  split; [exact toy_shakes|]. destruct ex_session as (st & H1 & H2). exists st. intros t. split; [apply session_local, H1|exact H2].
Qed.

(** ** C52: refuted: a client whose session is going on can always panic the
    server, whatever the server, the cipher, and what happened. *)
Theorem C52_any_session_refuted : forall C rng h k es st, is_session C rng h k es (Ok false) st -> k_in (s_conn st) = [] ->
  exists t st', is_session C rng h (more t k) (es ++ [Ev_Packet]) Panic st'.
Proof. exact any_session_panics. Qed.
Print Assumptions C52_any_session_refuted.
Example C52_any_session_example : exists st, is_session toy_crypto toy_pads toy_sh (toy_conn [Msg_Channel (toy_open 7)]) [Ev_Packet] (Ok false) st /\ k_in (s_conn st) = [].
Proof.
  destruct (session_run toy_crypto toy_pads toy_sh [Ev_Packet] (session_init (toy_conn [Msg_Channel (toy_open 7)]))) as [[r st]|] eqn:E.
  - assert (X : match session_run toy_crypto toy_pads toy_sh [Ev_Packet] (session_init (toy_conn [Msg_Channel (toy_open 7)])) with
                | Some (r, st) => (r, k_in (s_conn st)) | None => (Panic, []) end = (Ok false, [])) by (vm_compute; reflexivity).
    rewrite E in X. apply pair_equal_spec in X as [-> X]. exists st. split; [|exact X].
    split; [exact toy_ok|]. split; [exact toy_pads_ok|]. split; [reflexivity|]. split; [reflexivity|exact E].
  - assert (X : match session_run toy_crypto toy_pads toy_sh [Ev_Packet] (session_init (toy_conn [Msg_Channel (toy_open 7)])) with
                | Some _ => true | None => false end = true) by (vm_compute; reflexivity).
    rewrite E in X. discriminate X.
Qed.
