(** Model of nora_ssh/src/server.rs, [Client].

    The session loop is one task.  It waits for the first of: a packet from the
    client, output of a child, exit of a child; and handles it.  [Ev] is what
    comes first; a run is a list of those.  A packet is received and handled as
    a whole: [select!] dropping [receive] in the middle of a packet is the
    subject of [Rx] (C25), and of [Cancel], which also drops it while a reply is
    written or a handler works.  Writes to the client succeed. *)
From Coq Require Import Init.Byte.
From Verif Require Export Auth Arena MSession.
Open Scope res_scope.

(** lines 551-554 *)
Inductive SpawnType := Spawn_Shell | Spawn_Exec (command : bytes).
(** lines 535-545: which of the three streams there are.  Children are numbered
    in the order they are started; [stdin], [stdout], [stderr] and [wait] of
    child [n] are represented by [n]. *)
Record IoSet := { io_stdin : bool; io_stdout : bool; io_stderr : bool }.
(** lines 525-533 ([ty] has one value) *)
Record Chan := { ch_peer : N; ch_stdin : option N }.

(** What happens: a message is received or sent; a child is started on a channel
    (local number, number of the peer); data is written to the stdin of a child
    and so many bytes are taken; a child's stdin is dropped; a child's output
    ([err]: stderr) is read; it exits. *)
Inductive SEvent :=
| SE_Received (m : Message)
| SE_Sent (m : Message)
| SE_Spawn (channel peer child : N) (ty : SpawnType) (io : res unit IoSet)
| SE_Stdin (child : N) (data : bytes) (n : res unit N)
| SE_Dropped (child : N)
| SE_Read (err : bool) (child : N) (data : bytes)
| SE_Exit (child status : N).

(** lines 597-602, and [AsyncWrite] of [Stdin].  They may use all that happened
    on the connection, fail and panic. *)
Record SHandlers := {
  h_spawn : list SEvent -> SpawnType -> res unit IoSet;
  h_write : list SEvent -> N -> bytes -> res unit N }.

(** lines 244-257 and 291-303: [stdout_inputs], [stderr_inputs], [wait_exit] hold
    child and channel. *)
Record SSt := { s_conn : Conn; s_buf : bytes; s_chans : Arena Chan;
  s_stdout : list (N * N); s_stderr : list (N * N); s_wait : list (N * N); s_children : N; s_log : list SEvent }.

Definition SM (A : Type) : Type := SSt -> res InError A * SSt.
Definition sbind {A D} (m : SM A) (f : A -> SM D) : SM D := fun st =>
  match m st with
  | (Ok a, st) => f a st
  | (Err e, st) => (Err e, st)
  | (Panic, st) => (Panic, st)
  end.
Definition sret {A} (r : res InError A) : SM A := fun st => (r, st).
Declare Scope s_scope.
Notation "x <: e ;; k" := (sbind e (fun x => k)) (at level 61, e at next level, right associativity) : s_scope.
Notation "' p <: e ;; k" := (sbind e (fun x => match x with p => k end))
  (at level 61, p pattern, e at next level, right associativity) : s_scope.
Open Scope s_scope.

Definition set_chans (a : Arena Chan) (st : SSt) : SSt :=
  {| s_conn := s_conn st; s_buf := s_buf st; s_chans := a; s_stdout := s_stdout st; s_stderr := s_stderr st;
     s_wait := s_wait st; s_children := s_children st; s_log := s_log st |}.
Definition s_event (e : SEvent) : SM unit := fun st => (Ok tt,
  {| s_conn := s_conn st; s_buf := s_buf st; s_chans := s_chans st; s_stdout := s_stdout st; s_stderr := s_stderr st;
     s_wait := s_wait st; s_children := s_children st; s_log := s_log st ++ [e] |}).
(** [self.channels.borrow_mut()] and so on *)
Definition s_insert (c : Chan) : SM N := fun st =>
  let '(r, a) := arena_insert (s_chans st) c in (r, set_chans a st).
Definition s_get (i : N) : SM Chan := fun st =>
  (match arena_get (s_chans st) i with Some c => Ok c | None => Panic end, st).
Definition s_put (i : N) (x : option Chan) : SM unit := fun st => (Ok tt, set_chans (arena_put (s_chans st) i x) st).
Definition s_drop (stdin : option N) : SM unit :=
  match stdin with Some n => s_event (SE_Dropped n) | None => sret (Ok tt) end.

Section Session.
  Context (C : Crypto) (rng : N -> N -> bytes) (h : SHandlers).

  (** lines 267-288 *)
  Definition s_send (m : Message) : SM unit := fun st =>
    match conn_send C rng m (s_buf st) (s_conn st) with
    | Ok (k, buf) => (Ok tt,
      {| s_conn := k; s_buf := buf; s_chans := s_chans st; s_stdout := s_stdout st; s_stderr := s_stderr st;
         s_wait := s_wait st; s_children := s_children st; s_log := s_log st ++ [SE_Sent m] |})
    | _ => (Panic, st)
    end.
  Definition s_channel (c : Channel) : SM unit := s_send (Msg_Channel c).

  (** [server.handlers.spawn(..).await.unwrap()] for channel [i], with its number *)
  Definition s_spawn (i : N) (ch : Chan) (ty : SpawnType) : SM (N * IoSet) := fun st =>
    let r := h_spawn h (s_log st) ty in
    let n := s_children st in
    (map_ok (fun io => (n, io)) (unwrap r),
     {| s_conn := s_conn st; s_buf := s_buf st; s_chans := s_chans st; s_stdout := s_stdout st; s_stderr := s_stderr st;
        s_wait := s_wait st; s_children := 1 + n; s_log := s_log st ++ [SE_Spawn i (ch_peer ch) n ty r] |}).
  (** [stdin.write(data).await.unwrap()] *)
  Definition s_write (n : N) (data : bytes) : SM unit := fun st =>
    let r := h_write h (s_log st) n data in
    (map_ok (fun _ => tt) (unwrap r),
     {| s_conn := s_conn st; s_buf := s_buf st; s_chans := s_chans st; s_stdout := s_stdout st; s_stderr := s_stderr st;
        s_wait := s_wait st; s_children := s_children st; s_log := s_log st ++ [SE_Stdin n data r] |}).

  (** lines 308-316, 459-469: [Action::NewIo] unless there is no output *)
  Definition s_new_io (n : N) (io : IoSet) (peer : N) : SM unit := fun st => (Ok tt,
    {| s_conn := s_conn st; s_buf := s_buf st; s_chans := s_chans st;
       s_stdout := (if io_stdout io then [(n, peer)] else []) ++ s_stdout st;
       s_stderr := (if io_stderr io then [(n, peer)] else []) ++ s_stderr st;
       s_wait := (if io_stdout io || io_stderr io then [(n, peer)] else []) ++ s_wait st;
       s_children := s_children st; s_log := s_log st |}).

  (** lines 392-427, 452-469: a shell or a command *)
  Definition on_spawn (r : ChRequest) (ch : Chan) (ty : SpawnType) : SM unit :=
    '(n, io) <: s_spawn (rq_recipient r) ch ty ;;
    _ <: s_put (rq_recipient r) (Some {| ch_peer := ch_peer ch; ch_stdin := if io_stdin io then Some n else None |}) ;;
    _ <: s_drop (ch_stdin ch) ;;
    _ <: (if rq_want_reply r then s_channel (C_Success (ch_peer ch)) else sret (Ok tt)) ;;
    s_new_io n io (ch_peer ch).
  (** lines 428-444, 454-458 *)
  Definition on_refused (r : ChRequest) (ch : Chan) : SM unit :=
    if rq_want_reply r then s_channel (C_Failure (ch_peer ch)) else sret (Ok tt).

  (** lines 363-506: handles one message; [true] for [Action::Exit] *)
  Definition on_message (m : Message) : SM bool :=
    match m with
    | Msg_Channel (C_Open o) =>
      i <: s_insert {| ch_peer := op_sender o; ch_stdin := None |} ;;
      _ <: s_channel (C_OpenConfirmation {| oc_recipient := op_sender o; oc_sender := i; oc_window := op_window o;
                                            oc_max_packet := op_max_packet o; oc_data := [] |}) ;;
      sret (Ok false)
    | Msg_Channel (C_Request r) =>
      ch <: s_get (rq_recipient r) ;;
      req <: sret (unwrap (SessionRequest_parse (rq_ty r) (rq_data r))) ;;
      _ <: match req with
           | SR_Shell => on_spawn r ch Spawn_Shell
           | SR_Exec command => on_spawn r ch (Spawn_Exec command)
           | SR_Pty _ _ _ _ _ _ | SR_Env _ _ => on_refused r ch
           | SR_X11 _ _ _ _ | SR_Subsystem _ | SR_WindowChange _ _ _ _ | SR_XonXoff _ | SR_Signal _
           | SR_ExitStatus _ | SR_ExitSignal _ _ _ _ => sret Panic
           end ;;
      sret (Ok false)
    | Msg_Channel (C_Data c data) =>
      ch <: s_get c ;;
      _ <: match ch_stdin ch with Some n => s_write n data | None => sret Panic end ;;
      sret (Ok false)
    | Msg_Channel (C_Eof c) =>
      ch <: s_get c ;;
      _ <: s_put c (Some {| ch_peer := ch_peer ch; ch_stdin := None |}) ;;
      _ <: s_drop (ch_stdin ch) ;;
      sret (Ok false)
    | Msg_Channel (C_Close c) => fun st =>
      let '(x, a) := arena_remove (s_chans st) c in
      (_ <: s_drop (match x with Some ch => ch_stdin ch | None => None end) ;;
       sret (Ok false)) (set_chans a st)
    | Msg_Disconnect _ => sret (Ok true)
    | Msg_Ignore _ => sret (Ok false)
    | Msg_Channel _ | Msg_Unimplemented _ | Msg_Debug _ | Msg_KexInit _ | Msg_EcdhInit _ | Msg_EcdhReply _
    | Msg_NewKeys | Msg_ServiceRequest _ | Msg_ServiceAccept _ | Msg_UserAuth _ => sret Panic
    end.

  (** line 362 *)
  Definition s_recv : SM bytes := fun st =>
    let '(r, (k, buf)) := conn_recv C (s_buf st) (s_conn st) in
    (r, {| s_conn := k; s_buf := buf; s_chans := s_chans st; s_stdout := s_stdout st; s_stderr := s_stderr st;
           s_wait := s_wait st; s_children := s_children st; s_log := s_log st |}).

  (** ** The loop *)
  (** What is ready first: a packet (or the end of the input); the output of a
      child, which may fail; the exit of a child. *)
  Inductive Ev :=
  | Ev_Packet
  | Ev_Output (err : bool) (child : N) (data : res unit bytes)
  | Ev_Exit (child status : N).

  Fixpoint look (n : N) (l : list (N * N)) : option N :=
    match l with
    | [] => None
    | (c, p) :: l => if c =? n then Some p else look n l
    end.
  Definition forget (n : N) (l : list (N * N)) : list (N * N) := filter (fun x => negb (fst x =? n)) l.
  Definition set_reads (err : bool) (l : list (N * N)) : SM unit := fun st => (Ok tt,
    {| s_conn := s_conn st; s_buf := s_buf st; s_chans := s_chans st;
       s_stdout := if err then s_stdout st else l; s_stderr := if err then l else s_stderr st;
       s_wait := s_wait st; s_children := s_children st; s_log := s_log st |}).
  Definition set_wait (l : list (N * N)) : SM unit := fun st => (Ok tt,
    {| s_conn := s_conn st; s_buf := s_buf st; s_chans := s_chans st; s_stdout := s_stdout st; s_stderr := s_stderr st;
       s_wait := l; s_children := s_children st; s_log := s_log st |}).

  (** lines 306-307, 317, 362-363 *)
  Definition on_packet : SM bool :=
    data <: s_recv ;;
    m <: sret (unwrap (Message_parse data)) ;;
    _ <: s_event (SE_Received m) ;;
    on_message m.
  (** lines 294-301, 319-337: [read] takes at most 256 bytes; none are the end *)
  Definition on_output (err : bool) (n peer : N) (data : res unit bytes) : SM bool :=
    data <: sret (unwrap data) ;;
    _ <: s_event (SE_Read err n data) ;;
    _ <: (if 0 <? len data then s_channel (C_Data peer data)
          else fun st =>
            (_ <: set_reads err (forget n (if err then s_stderr st else s_stdout st)) ;;
             if err then sret (Ok tt)
             else _ <: s_channel (C_Eof peer) ;; s_channel (C_Close peer)) st) ;;
    sret (Ok false).
  (** [SessionRequest::serialize] into a buffer of 256 bytes; lines 338-349 *)
  Definition on_exit (n peer status : N) : SM bool := fun st =>
    (_ <: set_wait (forget n (s_wait st)) ;;
     _ <: s_event (SE_Exit n status) ;;
     '(ty, data) <: sret (unwrap (session_written (SR_ExitStatus status) (zeros 256))) ;;
     _ <: s_channel (C_Request {| rq_recipient := peer; rq_ty := ty; rq_want_reply := false; rq_data := data |}) ;;
     sret (Ok false)) st.

  (** One turn of the loop; [None] if this cannot be what is ready. *)
  Definition session_step (e : Ev) (st : SSt) : option (res InError bool * SSt) :=
    match e with
    | Ev_Packet => Some (on_packet st)
    | Ev_Output err n data =>
      match look n (if err then s_stderr st else s_stdout st) with
      | Some peer =>
        if match data with Ok d => len d <=? 256 | _ => true end then Some (on_output err n peer data st) else None
      | None => None
      end
    | Ev_Exit n status =>
      match look n (s_wait st) with
      | Some peer => if is_u32 status then Some (on_exit n peer status st) else None
      | None => None
      end
    end.
  (** Turns until the end of the list, or until one returns, fails or panics. *)
  Fixpoint session_run (es : list Ev) (st : SSt) : option (res InError bool * SSt) :=
    match es with
    | [] => Some (Ok false, st)
    | e :: es =>
      match session_step e st with
      | Some (Ok false, st) => session_run es st
      | x => x
      end
    end.

  (** lines 217-223, 291-303 *)
  Definition session_init (k : Conn) : SSt :=
    {| s_conn := k; s_buf := zeros 35000; s_chans := []; s_stdout := []; s_stderr := []; s_wait := [];
       s_children := 0; s_log := [] |}.
End Session.
