(** Property theorems C43-C54, C68 and C69: the session phase.  The right-hand
    sides are defined in [SpecSession]; the handlers, all cryptography, the
    random source and the schedule are parameters.  [s_log st] is what happened;
    [got] is a channel message received, [put] one sent. *)
From Coq Require Import Init.Byte Strings.Byte.
From Verif Require Import SessionToy.
Open Scope res_scope.

(** ** C43 *)
Theorem C43_insert : forall E T (a : Arena T) v, exists i a',
  unbound a i /\ (forall j, j < i -> exists w, bound a j w) /\
  (forall j w, bound a' j w <-> (if j =? i then w = v else bound a j w)) /\
  arena_insert (E := E) a v = (if i <? 2 ^ 32 then Ok i else Panic, a').
Proof. exact @arena_insert_bound. Qed.
Print Assumptions C43_insert.
Theorem C43_get : forall T (a : Arena T) i, (forall v, arena_get a i = Some v <-> bound a i v) /\ (arena_get a i = None <-> unbound a i).
Proof. intros T a i. split; [exact (arena_get_bound a i)|exact (arena_get_unbound a i)]. Qed.
Print Assumptions C43_get.
Theorem C43_update : forall T (a : Arena T) i v w, bound a i v ->
  arena_get a i = Some v /\ forall j u, bound (arena_put a i (Some w)) j u <-> (if j =? i then u = w else bound a j u).
Proof. exact @arena_write_bound. Qed.
Print Assumptions C43_update.
Theorem C43_remove : forall T (a : Arena T) i,
  let '(x, a') := arena_remove a i in
  (forall v, x = Some v <-> bound a i v) /\ forall j u, bound a' j u <-> j <> i /\ bound a j u.
Proof. exact @arena_remove_bound. Qed.
Print Assumptions C43_remove.
Example C43_example :
  let a := [Some 5; Some 6; Some 7] in
  let b := snd (arena_remove a 1) in
  bound a 1 6 /\ arena_insert (E := unit) b 8 = (Ok 1, [Some 5; Some 8; Some 7]) /\ arena_insert (E := unit) a 8 = (Ok 3, [Some 5; Some 6; Some 7; Some 8]).
Proof. repeat split. Qed.

(** ** C44: an open is answered at once by a confirmation of the least free
    number; panics if there is none. *)
Theorem C44_open : forall C rng h k es r st, is_session C rng h k es r st ->
  forall pre o post, s_log st = pre ++ got (C_Open o) :: post ->
  (exists i post', post = put (confirmation o i) :: post' /\ at_rest post' /\ least_free pre i /\ i < 2 ^ 32 /\
     let after := pre ++ [got (C_Open o); put (confirmation o i)] in
     chan_after after i = Some (op_sender o, None) /\ forall j, j <> i -> chan_after after j = chan_after pre j) \/
  (r = Panic /\ post = [] /\ forall i, i < 2 ^ 32 -> chan_after pre i <> None).
Proof. exact open_answered. Qed.
Print Assumptions C44_open.
Theorem C44_no_other_confirmation : forall C rng h k es r st, is_session C rng h k es r st ->
  forall pre oc post, s_log st = pre ++ put (C_OpenConfirmation oc) :: post ->
  exists pre' o i, pre = pre' ++ [got (C_Open o)] /\ C_OpenConfirmation oc = confirmation o i /\ least_free pre' i /\ at_rest post.
Proof. exact confirmation_caused. Qed.
Print Assumptions C44_no_other_confirmation.
(** A channel in use was opened, with that number, and not closed since. *)
Theorem C44_channels_were_opened : forall C rng h k es r st, is_session C rng h k es r st ->
  forall pre post, s_log st = pre ++ post -> forall c p child, chan_after pre c = Some (p, child) ->
  exists l1 o l2, pre = l1 ++ got (C_Open o) :: put (confirmation o c) :: l2 /\ op_sender o = p /\ least_free l1 c /\ ~ In (got (C_Close c)) l2.
Proof. exact at_prefix. Qed.
Print Assumptions C44_channels_were_opened.
Example C44_example : exists st, is_session toy_crypto toy_pads toy_sh ex_conn ex_events (Ok false) st /\ s_log st = ex_log /\
  ex_log = firstn 9 ex_log ++ got (toy_open 9) :: put (conf 9 1) :: skipn 11 ex_log /\
  chan_after (firstn 9 ex_log) 0 = Some (7, Some 0) /\ chan_after (firstn 11 ex_log) 1 = Some (9, None) /\ chan_after ex_log 1 = None.
Proof. destruct ex_session as (st & H1 & H2). exists st. split; [exact H1|]. split; [exact H2|]. repeat split. Qed.

(** ** C45 *)
Theorem C45_requests : forall C rng h k es r st, is_session C rng h k es r st ->
  forall pre q0 post, s_log st = pre ++ got (C_Request q0) :: post ->
  (exists q p old post', chan_after pre (rq_recipient q0) = Some (p, old) /\ session_request q0 q /\ at_rest post' /\
     ((exists ty io, starts q = Some ty /\ h_spawn h (pre ++ [got (C_Request q0)]) ty = Ok io /\
         post = SE_Spawn (rq_recipient q0) p (spawns pre) ty (Ok io) :: dropped old ++ wanted q0 (C_Success p) ++ post') \/
      (refused q = true /\ post = wanted q0 (C_Failure p) ++ post'))) \/
  (r = Panic /\ s_sent post = [] /\
     (chan_after pre (rq_recipient q0) = None \/ (forall q, session_request q0 q -> starts q = None /\ refused q = false) \/
      exists q ty, session_request q0 q /\ starts q = Some ty /\ forall io, h_spawn h (pre ++ [got (C_Request q0)]) ty <> Ok io)).
Proof. exact request_answered. Qed.
Print Assumptions C45_requests.
Theorem C45_request_unique : forall r q1 q2, session_request r q1 -> session_request r q2 -> q1 = q2.
Proof. exact session_request_unique. Qed.
Print Assumptions C45_request_unique.
Theorem C45_no_other_success : forall C rng h k es r st, is_session C rng h k es r st ->
  forall pre p post, s_log st = pre ++ put (C_Success p) :: post ->
  exists pre' q0 q ty old io, pre = pre' ++ got (C_Request q0) :: SE_Spawn (rq_recipient q0) p (spawns pre') ty (Ok io) :: dropped old /\
    session_request q0 q /\ starts q = Some ty /\ rq_want_reply q0 = true /\ chan_after pre' (rq_recipient q0) = Some (p, old) /\ at_rest post.
Proof. exact success_caused. Qed.
Print Assumptions C45_no_other_success.
Theorem C45_no_other_failure : forall C rng h k es r st, is_session C rng h k es r st ->
  forall pre p post, s_log st = pre ++ put (C_Failure p) :: post ->
  exists pre' q0 q old, pre = pre' ++ [got (C_Request q0)] /\
    session_request q0 q /\ refused q = true /\ rq_want_reply q0 = true /\ chan_after pre' (rq_recipient q0) = Some (p, old) /\ at_rest post.
Proof. exact failure_caused. Qed.
Print Assumptions C45_no_other_failure.
Example C45_example : exists st, is_session toy_crypto toy_pads toy_sh ex_conn ex_events (Ok false) st /\
  s_log st = firstn 2 ex_log ++ got (toy_req 0 true (SR_Env (B "A") (B "b"))) :: put (C_Failure 7) :: skipn 4 ex_log /\
  s_log st = firstn 4 ex_log ++ got (toy_req 0 true (SR_Exec (B "cat"))) :: SE_Spawn 0 7 0 (Spawn_Exec (B "cat")) (Ok all_io) :: put (C_Success 7) :: skipn 7 ex_log /\
  (* no reply is wanted *)
  s_log st = firstn 11 ex_log ++ got (toy_req 1 false SR_Shell) :: SE_Spawn 1 9 1 Spawn_Shell (Ok all_io) :: got (C_Data 1 (B "ls")) :: skipn 14 ex_log.
Proof. destruct ex_session as (st & H1 & H2). exists st. split; [exact H1|]. rewrite H2. repeat split. Qed.

(** ** C46: what a child is offered is what its channel gets, in order, from when
    it is started until the channel is closed, ended, or given to another. *)
Theorem C46_stdin_exact : forall C rng h k es r st, is_session C rng h k es r st ->
  forall pre c p n ty io post, s_log st = pre ++ SE_Spawn c p n ty (Ok io) :: post ->
  stdin_data n pre = [] /\ stdin_data n post = if io_stdin io then data_until c post else [].
Proof. exact stdin_exact. Qed.
Print Assumptions C46_stdin_exact.
Theorem C46_stdin_source : forall C rng h k es r st, is_session C rng h k es r st ->
  forall pre n d x post, s_log st = pre ++ SE_Stdin n d x :: post ->
  exists pre' c l1 p ty io l2, pre = pre' ++ [got (C_Data c d)] /\ pre' = l1 ++ SE_Spawn c p n ty (Ok io) :: l2 /\ io_stdin io = true /\
    ~ In (got (C_Close c)) l2 /\ ~ In (got (C_Eof c)) l2 /\ (forall p' n' ty' io', ~ In (SE_Spawn c p' n' ty' (Ok io')) l2).
Proof. exact stdin_source. Qed.
Print Assumptions C46_stdin_source.
Example C46_example : exists st, is_session toy_crypto toy_pads toy_sh ex_conn ex_events (Ok false) st /\
  s_log st = firstn 5 ex_log ++ SE_Spawn 0 7 0 (Spawn_Exec (B "cat")) (Ok all_io) :: skipn 6 ex_log /\
  data_until 0 (skipn 6 ex_log) = [B "hello"; B "world"] /\ data_until 1 (skipn 13 ex_log) = [B "ls"].
Proof. destruct ex_session as (st & H1 & H2). exists st. split; [exact H1|]. rewrite H2. repeat split. Qed.

(** ** C47 *)
Theorem C47_output_delivered : forall C rng h k es r st, is_session C rng h k es r st ->
  forall pre err n d post, s_log st = pre ++ SE_Read err n d :: post -> d <> [] ->
  exists p post', runs err pre n p /\ post = put (C_Data p d) :: post' /\ at_rest post'.
Proof. exact output_delivered. Qed.
Print Assumptions C47_output_delivered.
Theorem C47_end_delivered : forall C rng h k es r st, is_session C rng h k es r st ->
  forall pre n post, s_log st = pre ++ SE_Read false n [] :: post ->
  exists p post', runs false pre n p /\ post = put (C_Eof p) :: put (C_Close p) :: post' /\ at_rest post' /\
    forall d, ~ In (SE_Read false n d) post.
Proof. exact end_delivered. Qed.
Print Assumptions C47_end_delivered.
(** The data of a channel is the output of its children, in order. *)
Theorem C47_channel_data : forall C rng h k es r st, is_session C rng h k es r st ->
  forall p, data_sent p (s_log st) = data_read (s_log st) p (s_log st).
Proof. exact all_data. Qed.
Print Assumptions C47_channel_data.
Theorem C47_no_other_data : forall C rng h k es r st, is_session C rng h k es r st ->
  forall pre p d post, s_log st = pre ++ put (C_Data p d) :: post ->
  exists pre' err n, pre = pre' ++ [SE_Read err n d] /\ runs err pre' n p /\ d <> [] /\ len d <= 256 /\ at_rest post.
Proof. exact data_caused. Qed.
Print Assumptions C47_no_other_data.
Theorem C47_no_other_end : forall C rng h k es r st, is_session C rng h k es r st -> forall pre p post,
  (s_log st = pre ++ put (C_Eof p) :: post ->
     exists pre' n post', pre = pre' ++ [SE_Read false n []] /\ runs false pre' n p /\ post = put (C_Close p) :: post' /\ at_rest post') /\
  (s_log st = pre ++ put (C_Close p) :: post ->
     exists pre' n, pre = pre' ++ [SE_Read false n []; put (C_Eof p)] /\ runs false pre' n p /\ at_rest post).
Proof. exact ends_caused. Qed.
Print Assumptions C47_no_other_end.
Example C47_example : exists st, is_session toy_crypto toy_pads toy_sh ex_conn ex_events (Ok false) st /\
  s_log st = firstn 17 ex_log ++ SE_Read false 0 (B "HI") :: put (C_Data 7 (B "HI")) :: skipn 19 ex_log /\
  s_log st = firstn 23 ex_log ++ SE_Read false 0 [] :: put (C_Eof 7) :: put (C_Close 7) :: skipn 26 ex_log /\
  data_sent 7 (s_log st) = [B "HI"; B "oops"; B "late"] /\ data_sent 9 (s_log st) = [B "x"].
Proof. destruct ex_session as (st & H1 & H2). exists st. split; [exact H1|]. rewrite H2. repeat split. Qed.

(** ** C48: refuted, for a CLOSE the server sends, and for one it receives. *)
Theorem C48_nothing_after_close_refuted : exists C rng h k es r st, is_session C rng h k es r st /\
  (exists pre p mid d post, s_log st = pre ++ put (C_Close p) :: mid ++ put (C_Data p d) :: post) /\
  (exists pre c p child mid d post, chan_after pre c = Some (p, child) /\ s_log st = pre ++ got (C_Close c) :: mid ++ put (C_Data p d) :: post).
Proof.
  destruct ex_session as (st & H1 & H2). exists toy_crypto, toy_pads, toy_sh, ex_conn, ex_events, (Ok false), st. split; [exact H1|]. rewrite H2. split.
  - exists (firstn 25 ex_log), 7, [SE_Read true 0 (B "late")], (B "late"), (skipn 28 ex_log). reflexivity.
  - exists (firstn 30 ex_log), 1, 9, (Some 1), [SE_Dropped 1; SE_Read false 1 (B "x")], (B "x"), []. split; reflexivity.
Qed.
Print Assumptions C48_nothing_after_close_refuted.
(** What holds: a CLOSE follows the end of a child's stdout, and data after it is
    not from that stdout. *)
Theorem C48_nothing_after_close_partial : forall C rng h k es r st, is_session C rng h k es r st ->
  forall pre p post, s_log st = pre ++ put (C_Close p) :: post ->
  exists pre' n, pre = pre' ++ [SE_Read false n []; put (C_Eof p)] /\ runs false pre' n p /\
  forall p' d mid post', post = mid ++ put (C_Data p' d) :: post' ->
    exists mid' err n', mid = mid' ++ [SE_Read err n' d] /\ (n' = n -> err = true).
Proof. exact after_close. Qed.
Print Assumptions C48_nothing_after_close_partial.
Example C48_example : exists st, is_session toy_crypto toy_pads toy_sh ex_conn ex_events (Ok false) st /\
  s_log st = firstn 25 ex_log ++ put (C_Close 7) :: skipn 26 ex_log.
Proof. destruct ex_session as (st & H1 & H2). exists st. split; [exact H1|]. rewrite H2. repeat split. Qed.

(** ** C49: refuted: data is sent though the client granted nothing. *)
Theorem C49_flow_control_refuted : exists C rng h k es r st pre o i mid d post, is_session C rng h k es r st /\
  s_log st = pre ++ got (C_Open o) :: put (confirmation o i) :: mid ++ put (C_Data (op_sender o) d) :: post /\
  op_window o = 0 /\ op_max_packet o = 0 /\ d <> [] /\
  (forall j n, ~ In (got (C_WindowAdjust j n)) (s_log st)) /\
  (* and it is the only channel the client numbers so *)
  (forall o', In (got (C_Open o')) (pre ++ mid ++ post) -> op_sender o' <> op_sender o).
Proof.
  destruct ex_session as (st & H1 & H2).
  exists toy_crypto, toy_pads, toy_sh, ex_conn, ex_events, (Ok false), st, [], {| op_ty := B "session"; op_sender := 7; op_window := 0; op_max_packet := 0 |}, 0,
    (firstn 16 (skipn 2 ex_log)), (B "HI"), (skipn 19 ex_log).
  split; [exact H1|]. rewrite H2. split; [reflexivity|]. split; [reflexivity|]. split; [reflexivity|]. split; [discriminate|]. split.
  - intros j n I. cbn [ex_log In] in I. repeat (destruct I as [I|I]; [discriminate I|]). destruct I.
  - intros o' I. cbn [app firstn skipn ex_log In] in I.
    repeat (destruct I as [I|I]; [try discriminate I; try (unfold got, toy_open in I; injection I as <-; discriminate)|]). destruct I.
Qed.
Print Assumptions C49_flow_control_refuted.
(** What holds: every piece of data has at most 256 bytes; and the server never
    adjusts a window. *)
Theorem C49_flow_control_partial : forall C rng h k es r st, is_session C rng h k es r st ->
  (forall p d, In (put (C_Data p d)) (s_log st) -> 0 < len d <= 256) /\ forall p n, ~ In (put (C_WindowAdjust p n)) (s_log st).
Proof.
  intros C rng h k es r st IS. split; [|exact (never_adjusted C rng h k es r st IS)]. intros p d I. apply in_split in I as (a & b & E).
  destruct (data_caused _ _ _ _ _ _ _ IS _ _ _ _ E) as (pre' & err & n & _ & _ & N & L & _). split; [|exact L].
  destruct d; [destruct (N eq_refl)|rewrite len_cons; lia].
Qed.
Print Assumptions C49_flow_control_partial.

(** ** C50: refuted: of what the child does not take at once, the rest is lost. *)
Theorem C50_stdin_complete_refuted : exists C rng h k es st pre c p n ty io post, is_session C rng h k es (Ok false) st /\
  s_log st = pre ++ SE_Spawn c p n ty (Ok io) :: post /\ io_stdin io = true /\
  concat (data_until c post) = B "ls" /\ stdin_taken n post = B "l".
Proof.
  destruct ex_session as (st & H1 & H2).
  exists toy_crypto, toy_pads, toy_sh, ex_conn, ex_events, st, (firstn 12 ex_log), 1, 9, 1, Spawn_Shell, all_io, (skipn 13 ex_log).
  split; [exact H1|]. rewrite H2. repeat split.
Qed.
Print Assumptions C50_stdin_complete_refuted.
(** What holds: all of it arrives if every write takes all; and data for a
    channel is always offered, whole, to its child (C46), or the server panics. *)
Theorem C50_stdin_complete_partial : forall C rng h k es r st, is_session C rng h k es r st ->
  forall n pre c p ty io post, (forall l d, h_write h l n d = Ok (len d)) ->
  s_log st = pre ++ SE_Spawn c p n ty (Ok io) :: post -> io_stdin io = true -> stdin_taken n post = concat (data_until c post).
Proof. exact stdin_complete. Qed.
Print Assumptions C50_stdin_complete_partial.
Theorem C50_data_offered_partial : forall C rng h k es r st, is_session C rng h k es r st ->
  forall pre c d post, s_log st = pre ++ got (C_Data c d) :: post ->
  (exists p n x post', chan_after pre c = Some (p, Some n) /\ post = SE_Stdin n d x :: post' /\ at_rest post' /\
     h_write h (pre ++ [got (C_Data c d)]) n d = x /\ ((exists j, x = Ok j) \/ r = Panic /\ post' = [])) \/
  (r = Panic /\ post = [] /\ forall p n, chan_after pre c <> Some (p, Some n)).
Proof. exact data_goes. Qed.
Print Assumptions C50_data_offered_partial.
Example C50_example : exists st, is_session toy_crypto toy_pads toy_sh ex_conn ex_events (Ok false) st /\
  s_log st = firstn 5 ex_log ++ SE_Spawn 0 7 0 (Spawn_Exec (B "cat")) (Ok all_io) :: skipn 6 ex_log /\
  (forall l d, h_write toy_sh l 0 d = Ok (len d)) /\ stdin_taken 0 (skipn 6 ex_log) = B "helloworld".
Proof. destruct ex_session as (st & H1 & H2). exists st. split; [exact H1|]. rewrite H2. repeat split. Qed.

(** ** C51 *)
Theorem C51_messages_fit : forall C rng h k es r st, is_session C rng h k es r st ->
  (forall m, In (SE_Sent m) (s_log st) -> message_ok m /\ len (wire m) <= 300) /\
  written_as C (k_wr k) (k_out k) (map wire (s_sent (s_log st))) (k_out (s_conn st)).
Proof.
  intros C rng h k es r st IS. split; [exact (sent_fits C rng h k es r st IS)|].
  destruct (session_outcome_of C rng h k es r st IS) as (ts & tail & pls & rest & _ & _ & _ & _ & W & _). exact W.
Qed.
Print Assumptions C51_messages_fit.
(** No panic is about a message that is sent: see [crash] and below. *)
Theorem C51_no_panic_in_sending : forall C rng h k es st, is_session C rng h k es Panic st ->
  exists es1 e es2 ts, es = es1 ++ e :: es2 /\ Forall2 prompts es1 ts /\
    ((e = Ev_Packet /\ s_log st = concat ts /\ exists pls rest pl, received_as C (k_rd k) (k_in k) pls rest /\
        Forall2 (fun m pl => is_wire m pl) (received (s_log st)) pls /\
        next_payload C (later (len pls) (k_rd k)) 35000 rest pl /\ forall m, is_wire m pl -> exists r, m = Msg_EcdhReply r) \/
     (e = Ev_Packet /\ exists m t, s_log st = concat ts ++ SE_Received m :: t /\ crash h (concat ts) (SE_Received m :: t)) \/
     (exists err n d p, e = Ev_Output err n d /\ runs err (concat ts) n p /\ forall data, d <> Ok data)).
Proof. intros C rng h k es st IS. exact (panic_only C rng h k es Panic st IS eq_refl). Qed.
Print Assumptions C51_no_panic_in_sending.
Example C51_example : exists st, is_session toy_crypto toy_pads toy_sh ex_conn ex_events (Ok false) st /\ s_log st = ex_log /\
  In (put (exit_status 7 3)) ex_log /\ len (wire (Msg_Channel (exit_status 7 3))) = 25.
Proof. destruct ex_session as (st & H1 & H2). exists st. split; [exact H1|]. split; [exact H2|]. split; [cbn; auto 40|reflexivity]. Qed.

(** ** C52: refuted, for every server and at any time. *)
Theorem C52_client_cannot_crash_refuted : forall C rng h k es st pl pad raw rest m t, is_session C rng h k es (Ok false) st ->
  k_in (s_conn st) = seal_with C (k_rd (s_conn st)) raw ++ rest -> loose_packet pl pad raw -> len raw + 16 <= 35000 ->
  is_wire m pl -> is_ecdh_reply m = false -> crash h (s_log st) (SE_Received m :: t) ->
  exists st', is_session C rng h k (es ++ [Ev_Packet]) Panic st'.
Proof. exact panic_any_time. Qed.
Print Assumptions C52_client_cannot_crash_refuted.
(** One client for every server. *)
Theorem C52_one_packet_refuted : forall h, exists C rng k st, is_session C rng h k [Ev_Packet] Panic st.
Proof. intros h. destruct (stray_panics h) as [st H]. exists toy_crypto, toy_pads, (toy_conn [stray]), st. exact H. Qed.
Print Assumptions C52_one_packet_refuted.
(** It does whenever such a message has been received, and has sent nothing since. *)
Theorem C52_always_crashes_refuted : forall C rng h k es r st, is_session C rng h k es r st ->
  forall pre m post t, s_log st = pre ++ SE_Received m :: post -> crash h pre (SE_Received m :: t) ->
  r = Panic /\ s_sent post = [] /\ crash h pre (SE_Received m :: post).
Proof. exact panics_when. Qed.
Print Assumptions C52_always_crashes_refuted.
(** What holds: only a payload that is no message, a message in [crash], or
    output that cannot be read. *)
Theorem C52_client_cannot_crash_partial : forall C rng h k es st, is_session C rng h k es Panic st ->
  exists es1 e es2 ts, es = es1 ++ e :: es2 /\ Forall2 prompts es1 ts /\
    ((e = Ev_Packet /\ s_log st = concat ts /\ exists pls rest pl, received_as C (k_rd k) (k_in k) pls rest /\
        Forall2 (fun m pl => is_wire m pl) (received (s_log st)) pls /\
        next_payload C (later (len pls) (k_rd k)) 35000 rest pl /\ forall m, is_wire m pl -> exists r, m = Msg_EcdhReply r) \/
     (e = Ev_Packet /\ exists m t, s_log st = concat ts ++ SE_Received m :: t /\ crash h (concat ts) (SE_Received m :: t)) \/
     (exists err n d p, e = Ev_Output err n d /\ runs err (concat ts) n p /\ forall data, d <> Ok data)).
Proof. intros C rng h k es st IS. exact (panic_only C rng h k es Panic st IS eq_refl). Qed.
Print Assumptions C52_client_cannot_crash_partial.
(** Data for no channel, data before a child, a window adjustment, a request to
    no channel, an unknown one, one that is not supported, a command that cannot
    be started: each is fatal. *)
Example C52_example :
  map (fun ms => match toy_run ms (repeat Ev_Packet (length ms)) with Some (r, _) => Some r | None => None end)
    [[C_Data 0 (B "x")]; [toy_open 7; C_Data 0 (B "x")]; [C_WindowAdjust 0 1]; [toy_req 3 true SR_Shell];
     [toy_open 7; toy_req 0 true (SR_Subsystem (B "sftp"))]; [toy_open 7; toy_req 0 true (SR_Exec (B "nosuch"))];
     [toy_open 7; toy_req 0 true SR_Shell]]
  = repeat (Some Panic) 6 ++ [Some (Ok false)].
Proof. vm_compute. reflexivity. Qed.

(** ** C53: refuted: the status may come after CLOSE, *)
Theorem C53_exit_status_refuted : exists C rng h k es st pre p mid s post, is_session C rng h k es (Ok false) st /\
  s_log st = pre ++ put (C_Close p) :: mid ++ put (exit_status p s) :: post.
Proof.
  destruct ex_session as (st & H1 & H2). exists toy_crypto, toy_pads, toy_sh, ex_conn, ex_events, st, (firstn 25 ex_log), 7,
    [SE_Read true 0 (B "late"); put (C_Data 7 (B "late")); SE_Exit 0 3], 3, (skipn 30 ex_log). split; [exact H1|]. exact H2.
Qed.
Print Assumptions C53_exit_status_refuted.
(** and for a child without output the exit is not even noticed. *)
Theorem C53_no_output_no_status_refuted : forall C rng h k es r st, is_session C rng h k es r st ->
  forall pre c p n ty io post, s_log st = pre ++ SE_Spawn c p n ty (Ok io) :: post ->
  io_stdout io = false -> io_stderr io = false -> forall s, ~ In (SE_Exit n s) (s_log st).
Proof. exact no_output_no_status. Qed.
Print Assumptions C53_no_output_no_status_refuted.
(** What holds: an exit that is noticed is reported at once, to the channel the
    child was started on, and only once; and nothing else is. *)
Theorem C53_exit_status_partial : forall C rng h k es r st, is_session C rng h k es r st ->
  forall pre n s post, s_log st = pre ++ SE_Exit n s :: post ->
  exists l1 c p ty io l2 post', pre = l1 ++ SE_Spawn c p n ty (Ok io) :: l2 /\ post = put (exit_status p s) :: post' /\ at_rest post' /\
    forall s', ~ In (SE_Exit n s') (pre ++ post).
Proof. exact exit_delivered. Qed.
Print Assumptions C53_exit_status_partial.
Theorem C53_no_other_status_partial : forall C rng h k es r st, is_session C rng h k es r st ->
  forall pre q post, s_log st = pre ++ put (C_Request q) :: post ->
  exists pre' n p s, pre = pre' ++ [SE_Exit n s] /\ C_Request q = exit_status p s /\ wait_after pre' n = Some p /\ at_rest post.
Proof. exact status_caused. Qed.
Print Assumptions C53_no_other_status_partial.
Example C53_example :
  (exists st, is_session toy_crypto toy_pads toy_sh ex_conn ex_events (Ok false) st /\
     s_log st = firstn 28 ex_log ++ SE_Exit 0 3 :: put (exit_status 7 3) :: skipn 30 ex_log) /\
  (* a quiet child: its exit cannot happen to the server *)
  toy_run [toy_open 7; toy_req 0 true (SR_Exec (B "quiet"))] [Ev_Packet; Ev_Packet; Ev_Exit 0 0] = None /\
  toy_run [toy_open 7; toy_req 0 false (SR_Exec (B "quiet"))] [Ev_Packet; Ev_Packet] =
    Some (Ok false, [got (toy_open 7); put (conf 7 0); got (toy_req 0 false (SR_Exec (B "quiet")));
      SE_Spawn 0 7 0 (Spawn_Exec (B "quiet")) (Ok {| io_stdin := false; io_stdout := false; io_stderr := false |})]).
Proof.
  split; [|split; vm_compute; reflexivity]. destruct ex_session as (st & H1 & H2). exists st. split; [exact H1|]. rewrite H2. reflexivity.
Qed.

(** ** C54: refuted *)
Theorem C54_stderr_extended_refuted : exists C rng h k es st pre n d p post, is_session C rng h k es (Ok false) st /\
  s_log st = pre ++ SE_Read true n d :: put (C_Data p d) :: post.
Proof.
  destruct ex_session as (st & H1 & H2). exists toy_crypto, toy_pads, toy_sh, ex_conn, ex_events, st, (firstn 19 ex_log), 0, (B "oops"), 7, (skipn 21 ex_log).
  split; [exact H1|]. exact H2.
Qed.
Print Assumptions C54_stderr_extended_refuted.
(** Extended data is never sent: all of stderr goes out as data (C47). *)
Theorem C54_never_extended_refuted : forall C rng h k es r st, is_session C rng h k es r st ->
  forall p ty d, ~ In (put (C_ExtendedData p ty d)) (s_log st).
Proof. exact never_extended. Qed.
Print Assumptions C54_never_extended_refuted.
(** What holds: it is complete and goes to the right channel. *)
Theorem C54_stderr_delivered_partial : forall C rng h k es r st, is_session C rng h k es r st ->
  forall pre n d post, s_log st = pre ++ SE_Read true n d :: post -> d <> [] ->
  exists p post', runs true pre n p /\ post = put (C_Data p d) :: post' /\ at_rest post'.
Proof. intros C rng h k es r st IS pre n d post. exact (output_delivered C rng h k es r st IS pre true n d post). Qed.
Print Assumptions C54_stderr_delivered_partial.

(** ** C68: the transcript of a session *)
Theorem C68_session : forall C rng h k es r st, is_session C rng h k es r st -> session_outcome C h k es r st.
Proof. exact session_outcome_of. Qed.
Print Assumptions C68_session.
(** And a frame with a message is received and handled. *)
Theorem C68_packet_handled : forall C rng h k es st pl pad raw rest m, is_session C rng h k es (Ok false) st ->
  k_in (s_conn st) = seal_with C (k_rd (s_conn st)) raw ++ rest -> loose_packet pl pad raw -> len raw + 16 <= 35000 ->
  is_wire m pl -> is_ecdh_reply m = false ->
  exists r' st' t, is_session C rng h k (es ++ [Ev_Packet]) r' st' /\ s_log st' = s_log st ++ SE_Received m :: t.
Proof. exact packet_handled. Qed.
Print Assumptions C68_packet_handled.
Example C68_example :
  let k := toy_conn [stray] in
  is_session toy_crypto toy_pads toy_sh k [] (Ok false) (session_init k) /\
  k_in k = seal_with toy_crypto (k_rd k) (toy_raw (wire stray)) ++ [] /\ is_wire stray (wire stray) /\
  loose_packet (wire stray) (repeat x05 (N.to_nat (wrap_pad 8 false (len (wire stray))))) (toy_raw (wire stray)) /\
  len (toy_raw (wire stray)) + 16 <= 35000.
Proof.
  cbv zeta. split; [|exact stray_frame]. split; [exact toy_ok|]. split; [exact toy_pads_ok|]. split; [reflexivity|]. split; reflexivity.
Qed.

(** ** C69: nothing is sent without a reason *)
Theorem C69_sent_because : forall C rng h k es r st, is_session C rng h k es r st ->
  forall pre m post, s_log st = pre ++ SE_Sent m :: post ->
  exists pre' s t1 c t2 post', m = Msg_Channel c /\ pre = pre' ++ s :: t1 /\ post = t2 ++ post' /\ because pre' s t1 c t2 /\ at_rest post'.
Proof. intros C rng h k es r st IS. exact (sent_because h r (s_log st) (session_told C rng h k es r st IS)). Qed.
Print Assumptions C69_sent_because.
(** Nor is a child started. *)
Theorem C69_spawned_because : forall C rng h k es r st, is_session C rng h k es r st ->
  forall pre c p n ty x post, s_log st = pre ++ SE_Spawn c p n ty x :: post ->
  exists pre' q0 q old post', pre = pre' ++ [got (C_Request q0)] /\ c = rq_recipient q0 /\ n = spawns pre' /\
    chan_after pre' c = Some (p, old) /\ session_request q0 q /\ starts q = Some ty /\ h_spawn h pre ty = x /\
    (post = dropped old ++ wanted q0 (C_Success p) ++ post' /\ at_rest post' /\ (exists io, x = Ok io) \/ r = Panic /\ post = [] /\ forall io, x <> Ok io).
Proof. intros C rng h k es r st IS. exact (spawn_cause h r (s_log st) (session_told C rng h k es r st IS)). Qed.
Print Assumptions C69_spawned_because.
Example C69_example : exists st, is_session toy_crypto toy_pads toy_sh ex_conn ex_events (Ok false) st /\
  s_log st = firstn 29 ex_log ++ SE_Sent (Msg_Channel (exit_status 7 3)) :: skipn 30 ex_log /\
  s_log st = firstn 5 ex_log ++ SE_Spawn 0 7 0 (Spawn_Exec (B "cat")) (Ok all_io) :: skipn 6 ex_log.
Proof. destruct ex_session as (st & H1 & H2). exists st. split; [exact H1|]. rewrite H2. repeat split. Qed.
