(** Property theorems C85, and C48-C50, C53, C54 again: what is prescribed happens,
    in every session; so what is wrong with it can happen in every session. *)
From Coq Require Import Init.Byte Strings.Byte.
From Verif Require Import SessionThm10 SessionToy.
Open Scope res_scope.

(** ** C85: for every sequence of turns, if the client's packets are the messages
    received in it, there is a session that goes like this. *)
Theorem C85_every_transcript : forall C rng h k ts pls rest, crypto_ok C -> (forall n, rng_ok (rng n)) -> counter (k_rd k) < 2 ^ 64 -> counter (k_wr k) < 2 ^ 64 ->
  turns h [] ts -> framed_as C (k_rd k) (k_in k) pls rest -> Forall2 (fun m pl => is_wire m pl) (received (concat ts)) pls ->
  exists es st, is_session C rng h k es (Ok false) st /\ Forall2 prompts es ts /\ s_log st = concat ts /\ k_in (s_conn st) = rest.
Proof. exact every_transcript. Qed.
Print Assumptions C85_every_transcript.
(** Any session can be gone on with in all these ways, *)
Theorem C85_any_session : forall C rng h k ts es st pls rest, is_session C rng h k es (Ok false) st -> turns h (s_log st) ts ->
  framed_as C (k_rd (s_conn st)) (k_in (s_conn st)) pls rest -> Forall2 (fun m pl => is_wire m pl) (received (concat ts)) pls ->
  exists es' st', is_session C rng h k (es ++ es') (Ok false) st' /\ Forall2 prompts es' ts /\ s_log st' = s_log st ++ concat ts /\ k_in (s_conn st') = rest.
Proof. exact all_taken. Qed.
Print Assumptions C85_any_session.
(** or end: because the client disconnects, *)
Theorem C85_disconnect : forall C rng h k es st pl pad raw rest d, is_session C rng h k es (Ok false) st ->
  k_in (s_conn st) = seal_with C (k_rd (s_conn st)) raw ++ rest -> loose_packet pl pad raw -> len raw + 16 <= 35000 -> is_wire (Msg_Disconnect d) pl ->
  exists st', is_session C rng h k (es ++ [Ev_Packet]) (Ok true) st' /\ s_log st' = s_log st ++ [SE_Received (Msg_Disconnect d)].
Proof. exact go_disconnect. Qed.
Print Assumptions C85_disconnect.
(** or sends no intact frame; for panics see C52. *)
Theorem C85_broken_input : forall C rng h k es st, is_session C rng h k es (Ok false) st ->
  (forall pl, ~ next_payload C (k_rd (s_conn st)) 35000 (k_in (s_conn st)) pl) ->
  exists e st', is_session C rng h k (es ++ [Ev_Packet]) (Err e) st' /\ s_log st' = s_log st.
Proof. exact go_broken. Qed.
Print Assumptions C85_broken_input.
(** There is one way to react. *)
Theorem C85_one_reaction : forall h pre e t t', turn h pre (e :: t) -> turn h pre (e :: t') -> t = t'.
Proof. exact turn_det. Qed.
Print Assumptions C85_one_reaction.

Lemma toy_framed pls : forall c, counter c < 2 ^ 64 -> Forall (fun pl => len pl <= 30000) pls -> framed_as toy_crypto c (toy_frames c pls) pls [].
Proof.
  induction pls as [|pl pls IH]; intros c L F.
  - exists []. split; [reflexivity|]. split; [|constructor]. split; [reflexivity|]. intros i pl w E. destruct i; discriminate E.
  - remember (pl :: pls) as l eqn:Q. destruct F as [|pl0 pls0 Lp F]; [discriminate Q|]. apply pair_cons in Q as [-> ->].
    destruct (IH (bump c) (bump_lt c) F) as (ws & E & [N1 N2] & FL). destruct (toy_raw_ok pl) as [P LR]; [lia|].
    exists (seal_with toy_crypto c (toy_raw pl) :: ws). cbn [toy_frames concat]. rewrite <- app_assoc, <- E. split; [reflexivity|]. split; [split|].
    + cbn [length]. congruence.
    + intros [|i] pl' w E1 E2.
      * cbn [nth_error] in E1, E2. apply Some_inj in E1, E2. subst pl' w. eexists. exists (toy_raw pl). split; [exact P|].
        change (N.of_nat 0) with 0. rewrite N.add_0_r, N.mod_small by exact L. reflexivity.
      * destruct (N2 i pl' w E1 E2) as (pad & raw & P' & ->). exists pad, raw. split; [exact P'|]. cbn [bump key_length key_data counter]. f_equal.
        change u64_max1 with (2 ^ 64). rewrite N.add_mod_idemp_l by discriminate. f_equal. lia.
    + constructor; [|exact FL]. rewrite seal_len; [lia|exact toy_ok|]. destruct P as (-> & _). lens. rewrite be32_len. lia.
Qed.
Definition ex_cat : list Channel := [toy_open 7; toy_req 0 true (SR_Exec (B "cat"))].
Definition ex_turns : list (list SEvent) :=
  [[got (toy_open 7); put (conf 7 0)];
   [got (toy_req 0 true (SR_Exec (B "cat"))); SE_Spawn 0 7 0 (Spawn_Exec (B "cat")) (Ok all_io); put (C_Success 7)];
   [SE_Read false 0 (B "HI"); put (C_Data 7 (B "HI"))]; [SE_Exit 0 3; put (exit_status 7 3)]].
Example C85_example : turns toy_sh [] ex_turns /\
  framed_as toy_crypto (k_rd (toy_conn (map Msg_Channel ex_cat))) (k_in (toy_conn (map Msg_Channel ex_cat))) (map wire (map Msg_Channel ex_cat)) [] /\
  Forall2 (fun m pl => is_wire m pl) (received (concat ex_turns)) (map wire (map Msg_Channel ex_cat)).
Proof.
  split; [|split].
  - constructor; [|constructor; [|constructor; [|constructor; [|constructor]]]].
    + exact (T_Open toy_sh [] {| op_ty := B "session"; op_sender := 7; op_window := 0; op_max_packet := 0 |} 0 ltac:(split; [reflexivity|intros j Lj; lia]) ltac:(reflexivity)).
    + refine (T_Start toy_sh (concat (firstn 1 ex_turns)) {| rq_recipient := 0; rq_ty := B "exec"; rq_want_reply := true; rq_data := enc [FStr (B "cat")] |} (SR_Exec (B "cat")) (Spawn_Exec (B "cat")) 7 None all_io eq_refl _ eq_refl eq_refl).
      apply SessionRequest_parse_iff. vm_compute. reflexivity.
    + apply T_Output; [reflexivity|vm_compute; split; [reflexivity|discriminate]].
    + apply T_Exit; reflexivity.
  - apply toy_framed; [reflexivity|]. repeat constructor; vm_compute; discriminate.
  - constructor; [|constructor; [|constructor]]; apply parse_wire; vm_compute; reflexivity.
Qed.

(** ** C48: refuted in every session with a child that has both streams: its end of
    stdout is answered by CLOSE, and data follows. *)
Theorem C48_data_after_close_refuted : forall C rng h k es st n p d, is_session C rng h k es (Ok false) st ->
  runs false (s_log st) n p -> runs true (s_log st) n p -> 0 < len d <= 256 ->
  exists st', is_session C rng h k (es ++ [Ev_Output false n (Ok []); Ev_Output true n (Ok d)]) (Ok false) st' /\
    s_log st' = s_log st ++ [SE_Read false n []; put (C_Eof p); put (C_Close p)] ++ [SE_Read true n d; put (C_Data p d)].
Proof. exact late_stderr. Qed.
Print Assumptions C48_data_after_close_refuted.
(** And when the client closes its channel, data follows too. *)
Theorem C48_data_after_closed_refuted : forall C rng h k es st pl pad raw rest c p old n d, is_session C rng h k es (Ok false) st ->
  k_in (s_conn st) = seal_with C (k_rd (s_conn st)) raw ++ rest -> loose_packet pl pad raw -> len raw + 16 <= 35000 ->
  is_wire (Msg_Channel (C_Close c)) pl -> chan_after (s_log st) c = Some (p, old) -> runs false (s_log st) n p -> 0 < len d <= 256 ->
  exists st', is_session C rng h k (es ++ [Ev_Packet; Ev_Output false n (Ok d)]) (Ok false) st' /\
    s_log st' = s_log st ++ (got (C_Close c) :: dropped old) ++ [SE_Read false n d; put (C_Data p d)].
Proof. exact late_data. Qed.
Print Assumptions C48_data_after_closed_refuted.

(** ** C49: refuted in every session with a child: while the client is silent, its
    channel is sent any amount of data. *)
Theorem C49_no_limit_refuted : forall C rng h k n p w es st, is_session C rng h k es (Ok false) st -> runs false (s_log st) n p ->
  exists es' st', is_session C rng h k (es ++ es') (Ok false) st' /\ received (s_log st') = received (s_log st) /\
    len (concat (data_sent p (s_log st'))) = w + len (concat (data_sent p (s_log st))).
Proof. intros C rng h k n p w es st IS RU. rewrite <- (N2Nat.id w). exact (no_limit C rng h k n p (N.to_nat w) es st IS RU). Qed.
Print Assumptions C49_no_limit_refuted.

(** ** C50: refuted whenever a child does not take all it is offered. *)
Theorem C50_short_write_lost_refuted : forall C rng h k es r st, is_session C rng h k es r st -> forall pre c p n ty io l1 d j l2,
  s_log st = pre ++ SE_Spawn c p n ty (Ok io) :: l1 ++ SE_Stdin n d (Ok j) :: l2 -> j < len d ->
  len (stdin_taken n (l1 ++ SE_Stdin n d (Ok j) :: l2)) < len (concat (data_until c (l1 ++ SE_Stdin n d (Ok j) :: l2))).
Proof. exact short_lost. Qed.
Print Assumptions C50_short_write_lost_refuted.

(** ** C53: refuted in every session with a child: its status follows CLOSE if it
    exits after its end of output. *)
Theorem C53_status_after_close_refuted : forall C rng h k es st n p s, is_session C rng h k es (Ok false) st ->
  runs false (s_log st) n p -> waited (s_log st) n p -> s < 2 ^ 32 ->
  exists st', is_session C rng h k (es ++ [Ev_Output false n (Ok []); Ev_Exit n s]) (Ok false) st' /\
    s_log st' = s_log st ++ [SE_Read false n []; put (C_Eof p); put (C_Close p)] ++ [SE_Exit n s; put (exit_status p s)].
Proof. exact late_status. Qed.
Print Assumptions C53_status_after_close_refuted.

(** ** C54: refuted in every session with a child that has stderr. *)
Theorem C54_stderr_as_data_refuted : forall C rng h k es st n p d, is_session C rng h k es (Ok false) st -> runs true (s_log st) n p -> 0 < len d <= 256 ->
  exists st', is_session C rng h k (es ++ [Ev_Output true n (Ok d)]) (Ok false) st' /\ s_log st' = s_log st ++ [SE_Read true n d; put (C_Data p d)].
Proof. intros C rng h k es st n p d IS. exact (go_output C rng h k es st IS true n p d). Qed.
Print Assumptions C54_stderr_as_data_refuted.

Example C48_C49_C53_C54_example : exists st, is_session toy_crypto toy_pads toy_sh (toy_conn (map Msg_Channel ex_cat)) [Ev_Packet; Ev_Packet] (Ok false) st /\
  runs false (s_log st) 0 7 /\ runs true (s_log st) 0 7 /\ waited (s_log st) 0 7.
Proof.
  destruct (toy_session ex_cat [Ev_Packet; Ev_Packet] (Ok false) (concat (firstn 2 ex_turns))) as (st & A & L); [vm_compute; reflexivity|].
  exists st. split; [exact A|]. rewrite L.
  assert (X : exists l1 c ty io l2, concat (firstn 2 ex_turns) = l1 ++ SE_Spawn c 7 0 ty (Ok io) :: l2 /\ io = all_io /\ l2 = [put (C_Success 7)]).
  { exists (firstn 3 (concat ex_turns)), 0, (Spawn_Exec (B "cat")), all_io, [put (C_Success 7)]. repeat split. }
  destruct X as (l1 & c & ty & io & l2 & -> & -> & ->). split; [|split]; exists l1, c, ty, all_io, [put (C_Success 7)]; (split; [reflexivity|]); (split; [reflexivity|]).
  - intros [I|[]]. discriminate I.
  - intros [I|[]]. discriminate I.
  - intros s [I|[]]. discriminate I.
Qed.
Definition ex_closing : list Channel := ex_cat ++ [C_Close 0].
Lemma ex_closing_run : match session_run toy_crypto toy_pads toy_sh [Ev_Packet; Ev_Packet] (session_init (toy_conn (map Msg_Channel ex_closing))) with
  | Some (Ok false, st) => s_log st = concat (firstn 2 ex_turns) /\ k_in (s_conn st) = seal_with toy_crypto (k_rd (s_conn st)) (toy_raw (wire (Msg_Channel (C_Close 0))))
  | _ => False end.
Proof. vm_compute. split; reflexivity. Qed.
Example C48_closed_example : exists st pl pad raw, is_session toy_crypto toy_pads toy_sh (toy_conn (map Msg_Channel ex_closing)) [Ev_Packet; Ev_Packet] (Ok false) st /\
  k_in (s_conn st) = seal_with toy_crypto (k_rd (s_conn st)) raw ++ [] /\ loose_packet pl pad raw /\ len raw + 16 <= 35000 /\
  is_wire (Msg_Channel (C_Close 0)) pl /\ chan_after (s_log st) 0 = Some (7, Some 0) /\ runs false (s_log st) 0 7.
Proof.
  pose proof ex_closing_run as F. destruct (session_run _ _ _ _ _) as [[[[|]|x|] st]|] eqn:E; try contradiction. destruct F as (F1 & F2).
  exists st, (wire (Msg_Channel (C_Close 0))). eexists. exists (toy_raw (wire (Msg_Channel (C_Close 0)))).
  split; [split; [exact toy_ok|]; split; [exact toy_pads_ok|]; split; [reflexivity|]; split; [reflexivity|exact E]|].
  split; [rewrite app_nil_r; exact F2|]. split; [apply toy_raw_ok; vm_compute; discriminate|]. split; [vm_compute; discriminate|].
  split; [apply parse_wire; vm_compute; reflexivity|]. rewrite F1. split; [reflexivity|].
  exists (firstn 3 (concat ex_turns)), 0, (Spawn_Exec (B "cat")), all_io, [put (C_Success 7)]. split; [reflexivity|]. split; [reflexivity|]. intros [I|[]]. discriminate I.
Qed.
Example C50_example2 : exists st, is_session toy_crypto toy_pads toy_sh ex_conn ex_events (Ok false) st /\
  s_log st = firstn 12 ex_log ++ SE_Spawn 1 9 1 Spawn_Shell (Ok all_io) :: [got (C_Data 1 (B "ls"))] ++ SE_Stdin 1 (B "ls") (Ok 1) :: skipn 15 ex_log /\ 1 < len (B "ls").
Proof. destruct ex_session as (st & H1 & H2). exists st. split; [exact H1|]. rewrite H2. split; reflexivity. Qed.
