(** Property theorems C86-C88: what cancellation does not change. *)
From Coq Require Import Init.Byte Strings.Byte.
From Verif Require Import CancelThm8 PropCancel SessionToy.
Open Scope res_scope.

(** ** C86: a session with cancellation is a plain session, of another client and
    with other handlers, but for the messages whose handlers were dropped, the
    replies that were not written, and the children that are not listened to. *)
Theorem C86_beside : forall C rng h k es st, is_cut_session C rng h k es (Ok false) st ->
  exists h' s st', is_session C rng h' (with_in s k) (plain_events es) (Ok false) st' /\ all_beside es (s_log st) (s_log st') /\ in_step st st' /\
    len (received (s_log st)) = len (received (s_log st')) + handler_cuts es /\ len (s_sent (s_log st')) = len (s_sent (s_log st)) + len (reply_cuts es) /\
    spawns (s_log st) = spawns (s_log st') /\ ((forall c, ~ In (X_Cut c) es) -> s_log st = s_log st').
Proof. exact plain_story. Qed.
Print Assumptions C86_beside.
(** It ends in a turn, with at most a message and an attempt that failed. *)
Theorem C86_end : forall C rng h k es r st, is_cut_session C rng h k es r st -> r <> Ok false ->
  exists es1 e es2 st1 tail, es = es1 ++ X_Turn e :: es2 /\ is_cut_session C rng h k es1 (Ok false) st1 /\ session_step C rng h e st1 = Some (r, st) /\
    s_log st = s_log st1 ++ tail /\ last_words tail.
Proof. exact cut_end. Qed.
Print Assumptions C86_end.

(** ** C87: what children say is passed on. *)
Theorem C87_output_delivered : forall C rng h k es r st, is_cut_session C rng h k es r st ->
  forall pre err n d post, s_log st = pre ++ SE_Read err n d :: post -> d <> [] ->
  exists p post', runs err pre n p /\ post = put (C_Data p d) :: post' /\ at_rest post'.
Proof. exact all_output. Qed.
Print Assumptions C87_output_delivered.
Theorem C87_end_delivered : forall C rng h k es r st, is_cut_session C rng h k es r st ->
  forall pre n post, s_log st = pre ++ SE_Read false n [] :: post ->
  exists p post', runs false pre n p /\ post = put (C_Eof p) :: put (C_Close p) :: post' /\ at_rest post' /\ forall d, ~ In (SE_Read false n d) post.
Proof. exact all_ends. Qed.
Print Assumptions C87_end_delivered.
Theorem C87_exit_delivered : forall C rng h k es r st, is_cut_session C rng h k es r st ->
  forall pre n s post, s_log st = pre ++ SE_Exit n s :: post ->
  exists l1 c p ty io l2 post', pre = l1 ++ SE_Spawn c p n ty (Ok io) :: l2 /\ post = put (exit_status p s) :: post' /\ at_rest post' /\
    forall s', ~ In (SE_Exit n s') (pre ++ post).
Proof. exact all_exit. Qed.
Print Assumptions C87_exit_delivered.
Theorem C87_channel_data : forall C rng h k es r st, is_cut_session C rng h k es r st ->
  forall p, data_sent p (s_log st) = data_read (s_log st) p (s_log st).
Proof. exact all_cut_data. Qed.
Print Assumptions C87_channel_data.
Theorem C87_no_other_data : forall C rng h k es r st, is_cut_session C rng h k es r st ->
  forall pre p d post, s_log st = pre ++ put (C_Data p d) :: post ->
  exists pre' err n, pre = pre' ++ [SE_Read err n d] /\ runs err pre' n p /\ d <> [] /\ len d <= 256 /\ at_rest post.
Proof. exact all_data_caused. Qed.
Print Assumptions C87_no_other_data.
Theorem C87_no_other_end : forall C rng h k es r st, is_cut_session C rng h k es r st -> forall pre p post,
  (s_log st = pre ++ put (C_Eof p) :: post ->
     exists pre' n post', pre = pre' ++ [SE_Read false n []] /\ runs false pre' n p /\ post = put (C_Close p) :: post' /\ at_rest post') /\
  (s_log st = pre ++ put (C_Close p) :: post ->
     exists pre' n, pre = pre' ++ [SE_Read false n []; put (C_Eof p)] /\ runs false pre' n p /\ at_rest post).
Proof. exact all_ends_caused. Qed.
Print Assumptions C87_no_other_end.
Theorem C87_no_other_status : forall C rng h k es r st, is_cut_session C rng h k es r st ->
  forall pre q post, s_log st = pre ++ put (C_Request q) :: post ->
  exists pre' n p s, pre = pre' ++ [SE_Exit n s] /\ C_Request q = exit_status p s /\ at_rest post /\ exists c ty io, In (SE_Spawn c p n ty (Ok io)) pre'.
Proof. exact all_status_caused. Qed.
Print Assumptions C87_no_other_status.

(** ** C88: nothing is mixed up: a child gets data of its own channel only, in order
    and while it is the channel's; *)
Theorem C88_stdin : forall C rng h k es st, is_cut_session C rng h k es (Ok false) st ->
  forall pre c p n ty io post, s_log st = pre ++ SE_Spawn c p n ty (Ok io) :: post ->
  stdin_data n pre = [] /\ some_of (stdin_data n post) (if io_stdin io then data_until c post else []).
Proof. exact all_stdin. Qed.
Print Assumptions C88_stdin.
Theorem C88_stdin_source : forall C rng h k es st, is_cut_session C rng h k es (Ok false) st ->
  forall pre n d x post, s_log st = pre ++ SE_Stdin n d x :: post ->
  exists pre' c l1 p ty io l2, pre = pre' ++ [got (C_Data c d)] /\ pre' = l1 ++ SE_Spawn c p n ty (Ok io) :: l2 /\ io_stdin io = true /\
    ~ In (got (C_Close c)) l2 /\ ~ In (got (C_Eof c)) l2 /\ (forall p' n' ty' io', ~ In (SE_Spawn c p' n' ty' (Ok io')) l2).
Proof. exact all_stdin_source. Qed.
Print Assumptions C88_stdin_source.
(** a number is not given to two open channels; *)
Theorem C88_numbers : forall C rng h k es r st, is_cut_session C rng h k es r st ->
  forall l1 oc1 l2 oc2 l3, s_log st = l1 ++ put (C_OpenConfirmation oc1) :: l2 ++ put (C_OpenConfirmation oc2) :: l3 ->
  oc_sender oc1 = oc_sender oc2 -> In (got (C_Close (oc_sender oc1))) l2.
Proof. exact all_numbers. Qed.
Print Assumptions C88_numbers.
(** and nothing is sent unprompted. *)
Theorem C88_sent_because : forall C rng h k es r st, is_cut_session C rng h k es r st ->
  forall pre m post, s_log st = pre ++ SE_Sent m :: post ->
  exists es1 pre' v s t1 c t2 post', m = Msg_Channel c /\ pre = pre' ++ s :: t1 /\ post = t2 ++ post' /\ at_rest post' /\
    begins es1 es /\ all_beside es1 pre' v /\ because v s t1 c t2.
Proof. exact all_because. Qed.
Print Assumptions C88_sent_because.

(** ** An example: [cat]'s output drops the first data for it, and its end a reply. *)
Definition ex_mixed : list Channel := cat ++ [C_Data 0 (B "hello"); C_Data 0 (B "world"); toy_open 9; C_Close 0; toy_open 8].
Definition ex_mixed_events : list XEv :=
  [X_Turn Ev_Packet; X_Turn Ev_Packet; X_Cut Cut_Handler; X_Turn output; X_Turn Ev_Packet; X_Cut (Cut_Reply 0); X_Turn (Ev_Output false 0 (Ok []));
   X_Turn (Ev_Exit 0 3); X_Turn Ev_Packet; X_Turn Ev_Packet].
Definition ex_mixed_log : list SEvent := ex_start ++ got (C_Data 0 (B "hello")) :: ex_hi ++
  [got (C_Data 0 (B "world")); SE_Stdin 0 (B "world") (Ok 5); got (toy_open 9); SE_Read false 0 []; put (C_Eof 7); put (C_Close 7);
   SE_Exit 0 3; put (exit_status 7 3); got (C_Close 0); SE_Dropped 0; got (toy_open 8); put (conf 8 0)].
Example C86_example : exists st, is_cut_session toy_crypto toy_pads toy_sh (toy_conn (map Msg_Channel ex_mixed)) ex_mixed_events (Ok false) st /\ s_log st = ex_mixed_log.
Proof. apply log_is_cut. vm_compute. reflexivity. Qed.
Lemma toy_dies ms xs log : match toy_cut ms xs with Some (Panic, st) => s_log st = log | _ => False end ->
  exists st, is_cut_session toy_crypto toy_pads toy_sh (toy_conn (map Msg_Channel ms)) xs Panic st /\ s_log st = log.
Proof.
  unfold toy_cut. destruct (cut_run _ _ _ _ _) as [[[[|]|x|] st]|] eqn:E; try contradiction. intros L. exists st. split; [|exact L].
  split; [exact toy_ok|]. split; [exact toy_pads_ok|]. split; [reflexivity|]. split; [reflexivity|exact E].
Qed.
Example C86_example_end : exists st, is_cut_session toy_crypto toy_pads toy_sh (toy_conn (map Msg_Channel (cat ++ [toy_open 9; C_Data 5 (B "x")]))) (at_reply 0 ++ [X_Turn Ev_Packet]) Panic st /\
  s_log st = (ex_start ++ got (toy_open 9) :: ex_hi) ++ [got (C_Data 5 (B "x"))].
Proof. apply toy_dies. vm_compute. reflexivity. Qed.
Example C87_example : exists st, is_cut_session toy_crypto toy_pads toy_sh (toy_conn (map Msg_Channel ex_mixed)) ex_mixed_events (Ok false) st /\
  s_log st = (ex_start ++ [got (C_Data 0 (B "hello"))]) ++ SE_Read false 0 (B "HI") :: put (C_Data 7 (B "HI")) :: skipn 8 ex_mixed_log /\
  s_log st = firstn 11 ex_mixed_log ++ SE_Read false 0 [] :: put (C_Eof 7) :: put (C_Close 7) :: skipn 14 ex_mixed_log /\
  s_log st = firstn 14 ex_mixed_log ++ SE_Exit 0 3 :: put (exit_status 7 3) :: skipn 16 ex_mixed_log /\
  data_sent 7 (s_log st) = [B "HI"].
Proof. destruct C86_example as (st & H & L). exists st. split; [exact H|]. rewrite L. repeat split. Qed.
Example C88_example : exists st, is_cut_session toy_crypto toy_pads toy_sh (toy_conn (map Msg_Channel ex_mixed)) ex_mixed_events (Ok false) st /\
  s_log st = firstn 3 ex_start ++ SE_Spawn 0 7 0 (Spawn_Exec (B "cat")) (Ok all_io) :: skipn 4 ex_mixed_log /\
  (* one of two is written to [cat] *)
  stdin_data 0 (skipn 4 ex_mixed_log) = [B "world"] /\ data_until 0 (skipn 4 ex_mixed_log) = [B "hello"; B "world"] /\
  (* a number is given again *)
  s_log st = firstn 1 ex_start ++ put (conf 7 0) :: skipn 2 (firstn 19 ex_mixed_log) ++ [put (conf 8 0)].
Proof. destruct C86_example as (st & H & L). exists st. split; [exact H|]. rewrite L. repeat split. Qed.
