(** Property theorems C76: what was left in a buffer has no influence. *)
From Coq Require Import Init.Byte Strings.Byte.
From Verif Require Import LeakThm SessionToy.
Open Scope res_scope.

(** ** C76: A message is written the same whatever the buffer held, and a frame
    sealed the same, *)
Theorem C76_messages : forall m b1 b2, len b1 = len b2 ->
  (exists w r1 r2, Message_serialize m b1 = Ok (w, r1) /\ Message_serialize m b2 = Ok (w, r2) /\ len r1 = len r2) \/
  (forall x, Message_serialize m b1 <> Ok x) /\ (forall x, Message_serialize m b2 <> Ok x).
Proof. exact serialize_blind. Qed.
Print Assumptions C76_messages.
Theorem C76_frames : forall C rng m b1 b2 k, crypto_ok C -> (forall n, rng_ok (rng n)) -> len b1 = len b2 ->
  (exists k' b1' b2', conn_send C rng m b1 k = Ok (k', b1') /\ conn_send C rng m b2 k = Ok (k', b2') /\ len b1' = len b1 /\ len b2' = len b1) \/
  (conn_send C rng m b1 k = Panic /\ conn_send C rng m b2 k = Panic).
Proof. exact conn_send_blind. Qed.
Print Assumptions C76_frames.
(** a packet is received the same, *)
Theorem C76_receive : forall C b1 b2 k, len b1 = len b2 -> exists r k' b1' b2',
  conn_recv C b1 k = (r, (k', b1')) /\ conn_recv C b2 k = (r, (k', b2')) /\ len b1' = len b1 /\ len b2' = len b1.
Proof. exact conn_recv_blind. Qed.
Print Assumptions C76_receive.
(** the authentication goes the same, *)
Theorem C76_service : forall U C rng st st', crypto_ok C -> (forall n, rng_ok (rng n)) -> a_same st st' ->
  same_auth (Some (auth_service (U := U) C rng st)) (Some (auth_service C rng st')).
Proof. exact @service_blind. Qed.
Print Assumptions C76_service.
Theorem C76_authentication : forall U C rng (h : AHandlers U) sid n st st', crypto_ok C -> (forall n, rng_ok (rng n)) -> a_same st st' ->
  same_auth (auth_loop C rng h sid n st) (auth_loop C rng h sid n st').
Proof. intros U C rng h sid n st st' K R. exact (auth_loop_blind C rng h sid K R n st st'). Qed.
Print Assumptions C76_authentication.
(** and so does the session: what is answered, and what is written, do not
    depend on the buffer. *)
Theorem C76_session : forall C rng h es st st', crypto_ok C -> (forall n, rng_ok (rng n)) -> s_same st st' ->
  same_run (session_run C rng h es st) (session_run C rng h es st').
Proof. intros C rng h es st st' K R. exact (run_blind C rng h K R es st st'). Qed.
Print Assumptions C76_session.

Example C76_example : exists st st', s_same st st' /\ s_buf st <> s_buf st' /\
  s_log st = [] /\ exists r, session_run toy_crypto toy_pads toy_sh ex_events st = Some (Ok false, r) /\ s_log r = ex_log.
Proof.
  destruct ex_session as (r & (_ & _ & _ & _ & H) & L). exists (session_init ex_conn), (s_with (repeat xff (N.to_nat 35000)) (session_init ex_conn)).
  split; [exists (repeat xff (N.to_nat 35000)); split; [unfold len; rewrite repeat_length; vm_compute; reflexivity|reflexivity]|]. split; [|split; [reflexivity|exists r; split; [exact H|exact L]]].
  intros X. apply (f_equal (hd x00)) in X. vm_compute in X. discriminate X.
Qed.
Example C76_example_message : exists w r1 r2, w <> [] /\ Message_serialize stray (repeat xff 20) = Ok (w, r1) /\ Message_serialize stray (repeat x00 20) = Ok (w, r2).
Proof. eexists _, _, _. split; [|split; vm_compute; reflexivity]. discriminate. Qed.
