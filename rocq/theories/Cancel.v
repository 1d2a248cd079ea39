(** Model of nora_ssh/src/server.rs, [Client::start] (lines 304-351), with the
    cancellation of [receive] that [Session] leaves out.

    [select!] polls [self.receive(..)] next to the futures that wait for the
    output and the end of children.  When one of those is ready the [receive]
    future is dropped wherever it waits, and made anew in the next turn.  It waits
    in the middle of reading a packet (line 362, host.rs:348 and 357), for a
    handler to start a child or take data (lines 394, 411, 474), or for the reply
    to be written (lines 381, 456; host.rs:327).  All it has done is done; what
    it still had to do is not done. *)
From Coq Require Import Init.Byte.
From Verif Require Export Session.
Open Scope res_scope.

Inductive Cut :=
| Cut_Read (n : N)      (* after [n] bytes of a packet *)
| Cut_Handler           (* while a handler has not answered *)
| Cut_Reply (n : N).    (* after [n] bytes of the reply *)

Definition with_in (s : bytes) (k : Conn) : Conn :=
  {| k_rd := k_rd k; k_wr := k_wr k; k_in := s; k_out := k_out k; k_sent := k_sent k |}.
Definition with_out (o : bytes) (k : Conn) : Conn :=
  {| k_rd := k_rd k; k_wr := k_wr k; k_in := k_in k; k_out := o; k_sent := k_sent k |}.
Definition s_set (k : Conn) (buf : bytes) (st : SSt) : SSt :=
  {| s_conn := k; s_buf := buf; s_chans := s_chans st; s_stdout := s_stdout st; s_stderr := s_stderr st;
     s_wait := s_wait st; s_children := s_children st; s_log := s_log st |}.

Section Cancel.
  Context (C : Crypto) (rng : N -> N -> bytes) (h : SHandlers).

  (** host.rs:339-364 after [n] bytes: still waiting if it would fail to read on.
      The bytes are in the buffer and gone from the transport; the cipher is as
      it was. *)
  Definition cut_read (n : N) (st : SSt) : option SSt :=
    let k := s_conn st in
    let seen := ntake n (k_in k) in
    if n <=? len (k_in k) then
      match fst (conn_recv C (s_buf st) (with_in seen k)) with
      | Err (In_Read _) => Some (s_set (with_in (ndrop n (k_in k)) k) (splice 0 seen (s_buf st)) st)
      | _ => None
      end
    else None.

  (** lines 362-363 *)
  Definition s_message : SM Message :=
    data <: s_recv C ;;
    m <: sret (unwrap (Message_parse data)) ;;
    _ <: s_event (SE_Received m) ;;
    sret (Ok m).

  (** lines 392-419, 472-474: the message is one that [spawn] or [write] is
      called for.  What the handler did of it is up to the handler; it is not
      known here that a child was started, and it has no number. *)
  Definition waits_for_handler (a : Arena Chan) (m : Message) : bool :=
    match m with
    | Msg_Channel (C_Request r) =>
      match arena_get a (rq_recipient r), SessionRequest_parse (rq_ty r) (rq_data r) with
      | Some _, Ok SR_Shell | Some _, Ok (SR_Exec _) => true
      | _, _ => false
      end
    | Msg_Channel (C_Data c _) =>
      match arena_get a c with
      | Some ch => match ch_stdin ch with Some _ => true | None => false end
      | None => false
      end
    | _ => false
    end.
  Definition cut_handler (st : SSt) : option SSt :=
    match s_message st with
    | (Ok m, st) => if waits_for_handler (s_chans st) m then Some st else None
    | _ => None
    end.

  (** host.rs:306-328 after [n] bytes of the packet: it is sealed, and counted by
      the cipher, but not all of it is written. *)
  Definition s_cut (n : N) (m : Message) : SM unit := fun st =>
    match conn_send C rng m (s_buf st) (s_conn st) with
    | Ok (k, buf) =>
      if len (k_out (s_conn st)) + n <? len (k_out k)
      then (Ok tt, s_set (with_out (ntake (len (k_out (s_conn st)) + n) (k_out k)) k) buf st)
      else (Panic, st)
    | _ => (Panic, st)
    end.
  (** lines 364-470 up to the reply; [Panic] if there is none *)
  Definition on_spawn_cut (n : N) (r : ChRequest) (ch : Chan) (ty : SpawnType) : SM unit :=
    '(i, io) <: s_spawn h (rq_recipient r) ch ty ;;
    _ <: s_put (rq_recipient r) (Some {| ch_peer := ch_peer ch; ch_stdin := if io_stdin io then Some i else None |}) ;;
    _ <: s_drop (ch_stdin ch) ;;
    if rq_want_reply r then s_cut n (Msg_Channel (C_Success (ch_peer ch))) else sret Panic.
  Definition on_message_cut (n : N) (m : Message) : SM unit :=
    match m with
    | Msg_Channel (C_Open o) =>
      i <: s_insert {| ch_peer := op_sender o; ch_stdin := None |} ;;
      s_cut n (Msg_Channel (C_OpenConfirmation {| oc_recipient := op_sender o; oc_sender := i; oc_window := op_window o;
                                                  oc_max_packet := op_max_packet o; oc_data := [] |}))
    | Msg_Channel (C_Request r) =>
      ch <: s_get (rq_recipient r) ;;
      req <: sret (unwrap (SessionRequest_parse (rq_ty r) (rq_data r))) ;;
      match req with
      | SR_Shell => on_spawn_cut n r ch Spawn_Shell
      | SR_Exec command => on_spawn_cut n r ch (Spawn_Exec command)
      | SR_Pty _ _ _ _ _ _ | SR_Env _ _ =>
        if rq_want_reply r then s_cut n (Msg_Channel (C_Failure (ch_peer ch))) else sret Panic
      | _ => sret Panic
      end
    | _ => sret Panic
    end.
  Definition cut_reply (n : N) (st : SSt) : option SSt :=
    match (m <: s_message ;; on_message_cut n m) st with
    | (Ok _, st) => Some st
    | _ => None
    end.

  Definition cut_step (c : Cut) (st : SSt) : option SSt :=
    match c with
    | Cut_Read n => cut_read n st
    | Cut_Handler => cut_handler st
    | Cut_Reply n => cut_reply n st
    end.

  (** Turns, and [receive] being dropped.  That is because something else is
      ready, and that comes next. *)
  Inductive XEv := X_Turn (e : Ev) | X_Cut (c : Cut).
  Definition elsewhere (es : list XEv) : bool :=
    match es with
    | X_Turn Ev_Packet :: _ | X_Cut _ :: _ => false
    | _ => true
    end.
  Fixpoint cut_run (es : list XEv) (st : SSt) : option (res InError bool * SSt) :=
    match es with
    | [] => Some (Ok false, st)
    | X_Turn e :: es =>
      match session_step C rng h e st with
      | Some (Ok false, st) => cut_run es st
      | x => x
      end
    | X_Cut c :: es =>
      if elsewhere es then
        match cut_step c st with
        | Some st => cut_run es st
        | None => None
        end
      else None
    end.
End Cancel.
