(** A session for the examples. *)
From Coq Require Import Init.Byte Strings.Byte.
From Verif Require Export AuthToy SessionThm7.
Open Scope res_scope.

(** [cat] and shells have all streams, [true] only stdout, [quiet] none; nothing
    else can be started.  The first child takes all its input, others one byte. *)
Definition toy_sh : SHandlers := {|
  h_spawn := fun _ ty =>
    match ty with
    | Spawn_Shell => Ok {| io_stdin := true; io_stdout := true; io_stderr := true |}
    | Spawn_Exec c =>
      if bytes_eqb c (B "cat") then Ok {| io_stdin := true; io_stdout := true; io_stderr := true |}
      else if bytes_eqb c (B "true") then Ok {| io_stdin := false; io_stdout := true; io_stderr := false |}
      else if bytes_eqb c (B "quiet") then Ok {| io_stdin := false; io_stdout := false; io_stderr := false |}
      else Err tt
    end;
  h_write := fun _ n d => Ok (if n =? 0 then len d else N.min 1 (len d)) |}.
Definition toy_conn (ms : list Message) : Conn :=
  {| k_rd := toy_cipher; k_wr := toy_cipher; k_in := toy_frames toy_cipher (map wire ms); k_out := []; k_sent := 0 |}.
Definition toy_open (n : N) : Channel := C_Open {| op_ty := B "session"; op_sender := n; op_window := 0; op_max_packet := 0 |}.
Definition toy_req (c : N) (reply : bool) (q : SessionRequest) : Channel :=
  C_Request {| rq_recipient := c; rq_ty := session_name q; rq_want_reply := reply; rq_data := enc (session_fields q) |}.
Definition toy_run (ms : list Channel) (es : list Ev) : option (res InError bool * list SEvent) :=
  match session_run toy_crypto toy_pads toy_sh es (session_init (toy_conn (map Msg_Channel ms))) with
  | Some (r, st) => Some (r, s_log st)
  | None => None
  end.
Lemma toy_session ms es r log : toy_run ms es = Some (r, log) ->
  exists st, is_session toy_crypto toy_pads toy_sh (toy_conn (map Msg_Channel ms)) es r st /\ s_log st = log.
Proof.
  unfold toy_run. destruct (session_run _ _ _ _ _) as [[r0 st]|] eqn:E; [|discriminate]. intros Q. apply Some_inj, pair_eq in Q as [-> <-].
  exists st. split; [|reflexivity]. split; [exact toy_ok|]. split; [exact toy_pads_ok|]. split; [reflexivity|]. split; [reflexivity|]. exact E.
Qed.

(** Two channels: one runs [cat] and sees it end, the other a shell. *)
Definition ex_messages : list Channel :=
  [toy_open 7; toy_req 0 true (SR_Env (B "A") (B "b")); toy_req 0 true (SR_Exec (B "cat")); C_Data 0 (B "hello");
   toy_open 9; toy_req 1 false SR_Shell; C_Data 1 (B "ls"); C_Data 0 (B "world"); C_Eof 0; C_Close 1].
Definition ex_events : list Ev :=
  repeat Ev_Packet 8 ++
  [Ev_Output false 0 (Ok (B "HI")); Ev_Output true 0 (Ok (B "oops")); Ev_Packet; Ev_Output false 0 (Ok []); Ev_Output true 0 (Ok (B "late"));
   Ev_Exit 0 3; Ev_Packet; Ev_Output false 1 (Ok (B "x"))].
Definition all_io : IoSet := {| io_stdin := true; io_stdout := true; io_stderr := true |}.
Definition conf (p i : N) : Channel :=
  C_OpenConfirmation {| oc_recipient := p; oc_sender := i; oc_window := 0; oc_max_packet := 0; oc_data := [] |}.
Definition ex_log : list SEvent :=
  [got (toy_open 7); put (conf 7 0);
   got (toy_req 0 true (SR_Env (B "A") (B "b"))); put (C_Failure 7);
   got (toy_req 0 true (SR_Exec (B "cat"))); SE_Spawn 0 7 0 (Spawn_Exec (B "cat")) (Ok all_io); put (C_Success 7);
   got (C_Data 0 (B "hello")); SE_Stdin 0 (B "hello") (Ok 5);
   got (toy_open 9); put (conf 9 1);
   got (toy_req 1 false SR_Shell); SE_Spawn 1 9 1 Spawn_Shell (Ok all_io);
   got (C_Data 1 (B "ls")); SE_Stdin 1 (B "ls") (Ok 1);
   got (C_Data 0 (B "world")); SE_Stdin 0 (B "world") (Ok 5);
   SE_Read false 0 (B "HI"); put (C_Data 7 (B "HI"));
   SE_Read true 0 (B "oops"); put (C_Data 7 (B "oops"));
   got (C_Eof 0); SE_Dropped 0;
   SE_Read false 0 []; put (C_Eof 7); put (C_Close 7);
   SE_Read true 0 (B "late"); put (C_Data 7 (B "late"));
   SE_Exit 0 3; put (exit_status 7 3);
   got (C_Close 1); SE_Dropped 1;
   SE_Read false 1 (B "x"); put (C_Data 9 (B "x"))].
Lemma ex_run : toy_run ex_messages ex_events = Some (Ok false, ex_log).
Proof. vm_compute. reflexivity. Qed.
Definition ex_conn : Conn := toy_conn (map Msg_Channel ex_messages).
Lemma ex_session : exists st, is_session toy_crypto toy_pads toy_sh ex_conn ex_events (Ok false) st /\ s_log st = ex_log.
Proof. exact (toy_session _ _ _ _ ex_run). Qed.

(** Data for no channel, to any server. *)
Definition stray : Message := Msg_Channel (C_Data 0 (B "x")).
Lemma stray_frame : let k := toy_conn [stray] in
  k_in k = seal_with toy_crypto (k_rd k) (toy_raw (wire stray)) ++ [] /\ is_wire stray (wire stray) /\
  loose_packet (wire stray) (repeat x05 (N.to_nat (wrap_pad 8 false (len (wire stray))))) (toy_raw (wire stray)) /\ len (toy_raw (wire stray)) + 16 <= 35000.
Proof.
  cbv zeta. split; [reflexivity|]. split; [apply parse_wire; vm_compute; reflexivity|]. split; [apply toy_raw_ok; vm_compute; discriminate|vm_compute; discriminate].
Qed.
Lemma stray_panics h : exists st, is_session toy_crypto toy_pads h (toy_conn [stray]) [Ev_Packet] Panic st.
Proof.
  destruct stray_frame as (F1 & F2 & F3 & F4). destruct (init_fields (toy_conn [stray])) as (E1 & _ & _ & _ & _ & _ & _ & E8).
  eapply (panic_any_time toy_crypto toy_pads h (toy_conn [stray]) [] (session_init (toy_conn [stray])) (wire stray) _ (toy_raw (wire stray)) [] stray []).
  - split; [exact toy_ok|]. split; [exact toy_pads_ok|]. split; [reflexivity|]. split; reflexivity.
  - rewrite E1. exact F1.
  - exact F3.
  - exact F4.
  - exact F2.
  - reflexivity.
  - rewrite E8. eapply X_Channel; reflexivity.
Qed.
