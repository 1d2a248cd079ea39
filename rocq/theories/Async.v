(** Model of nora_ssh/src/server.rs, [Client] (lines 244-509), with [Out::send] and
    [In::recv] of nora_ssh/src/host.rs (lines 303-365), await by await: the
    [RefCell]s and the [LocalMutex] the code borrows, where it waits, and what is
    let go when a future is dropped.  [Session], [Broken], [Cancel] and [Faults]
    are the same code turn by turn; there a [send] is one step and nothing is
    borrowed. *)
From Coq Require Import Init.Byte.
From Verif Require Export Faults Sync.
Open Scope res_scope.

(** lines 252-256: [read], [user], [channels], [rng]; [write] is the mutex *)
Inductive Cell := Cell_Read | Cell_User | Cell_Channels | Cell_Rng.
Inductive Guard := G_Cell (c : Cell) | G_Write.

(** What is left to do of an [async] block, up to [return], [?] or a panic. *)
Inductive Co (A : Type) : Type :=
| Co_Ret (r : res ReceiveError A)
| Co_Do (X : Type) (f : SM X) (k : X -> Co A)        (* code that does not wait *)
| Co_Borrow (c : Cell) (k : Co A)                    (* [c.borrow_mut()] *)
| Co_Lock (registered : bool) (k : Co A)             (* [self.write.lock().await] *)
| Co_Drop (g : Guard) (k : Co A)                     (* a guard goes out of scope *)
| Co_Read (n from : N) (k : bytes -> Co A)           (* [io.read_exact(&mut buf[from..from + n]).await] *)
| Co_Call (X : Type) (f : SM X) (k : X -> Co A)      (* a handler's future *)
| Co_Write (w : bytes) (k : Co A).                   (* [io.write_all(w).await] *)
Arguments Co_Ret {A} r.
Arguments Co_Do {A X} f k.
Arguments Co_Borrow {A} c k.
Arguments Co_Lock {A} registered k.
Arguments Co_Drop {A} g k.
Arguments Co_Read {A} n from k.
Arguments Co_Call {A X} f k.
Arguments Co_Write {A} w k.
Declare Scope co_scope.
Notation "x <~ e ;; k" := (Co_Do e (fun x => k)) (at level 61, e at next level, right associativity) : co_scope.
Open Scope co_scope.

(** How [receive] ends (lines 511-520), or that its loop goes round. *)
Inductive Next := N_Again | N_Exit | N_Io (n : N) (io : IoSet) (peer : N).

Section Programs.
  Context (C : Crypto) (rng : N -> N -> bytes) (h : SHandlers).

  (** host.rs:349-356: the length, decrypted, and whether there is room *)
  Definition co_length (hd : bytes) : SM (bytes * N) := fun st =>
    let lenb := decrypt_length C (k_rd (s_conn st)) hd in
    (l <- u32_of_slice (E:=InError) lenb ;;
     if l + TAG_SIZE <=? len (s_buf st) - 4 then Ok (lenb, l) else Err (In_BufferTooSmall l), st).
  (** host.rs:358-363 *)
  Definition co_data (lenb : bytes) (l : N) : SM bytes := fun st =>
    let k := s_conn st in let buf := s_buf st in
    let set c buf := s_set {| k_rd := c; k_wr := k_wr k; k_in := k_in k; k_out := k_out k; k_sent := k_sent k |} buf st in
    match idx_to (E:=InError) buf (4 + l + TAG_SIZE) with
    | Err e => (Err e, st)
    | Panic => (Panic, st)
    | Ok data =>
      match decrypt_data C (k_rd k) data with
      | (Err e, (c, data)) => (Err (In_Cipher e), set c (splice 0 data buf))
      | (Panic, (c, data)) => (Panic, set c (splice 0 data buf))
      | (Ok _, (c, data)) =>
        let buf := splice 0 (splice 0 lenb data) buf in
        (p <- map_err In_Packet (wrap_raw buf false bs_of_cipher) ;; payload p, set c buf)
      end
    end.
  (** host.rs:336-365; [split_at_mut(4)] panics as the first slice would *)
  Definition co_recv {A} (k : bytes -> Co A) : Co A :=
    Co_Read 4 0 (fun hd =>
    x <~ co_length hd ;;
    Co_Read (snd x + TAG_SIZE) 4 (fun _ =>
    p <~ co_data (fst x) (snd x) ;;
    k p)).

  (** host.rs:318-326: the packet, sealed in the buffer *)
  Definition co_seal (m : Message) : SM bytes := fun st =>
    let k := s_conn st in
    match Out_send C (k_wr k) (s_buf st) (fill_message m) (rng (k_sent k)) with
    | Ok (w, c, buf) =>
      (Ok w, s_set {| k_rd := k_rd k; k_wr := c; k_in := k_in k; k_out := k_out k; k_sent := k_sent k + 1 |} buf st)
    | _ => (Panic, st)
    end.
  (** lines 267-274 with host.rs:303-330.  Temporaries of a block's last
      expression live longer than its variables. *)
  Definition co_send {A} (m : Message) (k : Co A) : Co A :=
    Co_Lock mutex_lock (
    Co_Borrow Cell_Rng (
    w <~ co_seal m ;;
    Co_Write w (
    Co_Drop G_Write (
    Co_Drop (G_Cell Cell_Rng) (
    _ <~ s_event (SE_Sent m) ;;
    k))))).
  Definition co_channel {A} (c : Channel) (k : Co A) : Co A := co_send (Msg_Channel c) k.

  (** lines 452-470 *)
  Definition co_reply (r : ChRequest) (answer : Channel) (next : Next) : Co Next :=
    Co_Drop (G_Cell Cell_Channels) (
    if rq_want_reply r then co_channel answer (Co_Ret (Ok next)) else Co_Ret (Ok next)).
  (** lines 392-427; [user] is borrowed until the end of the [let] *)
  Definition co_spawn (r : ChRequest) (ch : Chan) (ty : SpawnType) : Co Next :=
    Co_Borrow Cell_User (
    Co_Call (s_spawn h (rq_recipient r) ch ty) (fun x =>
    Co_Drop (G_Cell Cell_User) (
    let '(n, io) := x in
    _ <~ s_put (rq_recipient r) (Some {| ch_peer := ch_peer ch; ch_stdin := if io_stdin io then Some n else None |}) ;;
    _ <~ s_drop (ch_stdin ch) ;;
    co_reply r (C_Success (ch_peer ch)) (if io_stdout io || io_stderr io then N_Io n io (ch_peer ch) else N_Again)))).
  (** lines 363-506; the [channels] of lines 365, 478 and 486 are temporaries *)
  Definition co_message (m : Message) : Co Next :=
    match m with
    | Msg_Channel (C_Open o) =>
      Co_Borrow Cell_Channels (
      i <~ s_insert {| ch_peer := op_sender o; ch_stdin := None |} ;;
      Co_Drop (G_Cell Cell_Channels) (
      co_channel (C_OpenConfirmation {| oc_recipient := op_sender o; oc_sender := i; oc_window := op_window o;
                                        oc_max_packet := op_max_packet o; oc_data := [] |})
      (Co_Ret (Ok N_Again))))
    | Msg_Channel (C_Request r) =>
      Co_Borrow Cell_Channels (
      ch <~ s_get (rq_recipient r) ;;
      req <~ sret (unwrap (SessionRequest_parse (rq_ty r) (rq_data r))) ;;
      match req with
      | SR_Shell => co_spawn r ch Spawn_Shell
      | SR_Exec command => co_spawn r ch (Spawn_Exec command)
      | SR_Pty _ _ _ _ _ _ | SR_Env _ _ => co_reply r (C_Failure (ch_peer ch)) N_Again
      | SR_X11 _ _ _ _ | SR_Subsystem _ | SR_WindowChange _ _ _ _ | SR_XonXoff _ | SR_Signal _
      | SR_ExitStatus _ | SR_ExitSignal _ _ _ _ => Co_Ret Panic
      end)
    | Msg_Channel (C_Data c data) =>
      Co_Borrow Cell_Channels (
      ch <~ s_get c ;;
      match ch_stdin ch with
      | Some n => Co_Call (s_write h n data) (fun _ => Co_Drop (G_Cell Cell_Channels) (Co_Ret (Ok N_Again)))
      | None => Co_Ret Panic
      end)
    | Msg_Channel (C_Eof c) =>
      Co_Borrow Cell_Channels (
      ch <~ s_get c ;;
      _ <~ s_put c (Some {| ch_peer := ch_peer ch; ch_stdin := None |}) ;;
      _ <~ s_drop (ch_stdin ch) ;;
      Co_Drop (G_Cell Cell_Channels) (Co_Ret (Ok N_Again)))
    | Msg_Channel (C_Close c) =>
      Co_Borrow Cell_Channels (
      x <~ (fun st => let '(x, a) := arena_remove (s_chans st) c in (Ok x, set_chans a st)) ;;
      _ <~ s_drop (match x with Some ch => ch_stdin ch | None => None end) ;;
      Co_Drop (G_Cell Cell_Channels) (Co_Ret (Ok N_Again)))
    | Msg_Disconnect _ => Co_Ret (Ok N_Exit)
    | Msg_Ignore _ => Co_Ret (Ok N_Again)
    | Msg_Channel _ | Msg_Unimplemented _ | Msg_Debug _ | Msg_KexInit _ | Msg_EcdhInit _ | Msg_EcdhReply _
    | Msg_NewKeys | Msg_ServiceRequest _ | Msg_ServiceAccept _ | Msg_UserAuth _ => Co_Ret Panic
    end.
  (** lines 361-363 *)
  Definition co_loop : Co Next :=
    co_recv (fun data =>
    m <~ sret (unwrap (Message_parse data)) ;;
    _ <~ s_event (SE_Received m) ;;
    co_message m).
  (** lines 354-361 *)
  Definition co_receive : Co Next := Co_Borrow Cell_Read co_loop.

  (** lines 294-301, 319-337: a branch's body *)
  Definition co_output (err : bool) (n peer : N) (data : res unit bytes) : Co Next :=
    data <~ sret (unwrap data) ;;
    _ <~ s_event (SE_Read err n data) ;;
    if 0 <? len data then co_channel (C_Data peer data) (Co_Ret (Ok N_Again))
    else
      _ <~ (fun st => set_reads err (forget n (if err then s_stderr st else s_stdout st)) st) ;;
      if err then Co_Ret (Ok N_Again)
      else co_channel (C_Eof peer) (co_channel (C_Close peer) (Co_Ret (Ok N_Again))).
  (** lines 338-349 *)
  Definition co_exit (n peer status : N) : Co Next :=
    _ <~ (fun st => set_wait (forget n (s_wait st)) st) ;;
    _ <~ s_event (SE_Exit n status) ;;
    x <~ sret (unwrap (session_written (SR_ExitStatus status) (zeros 256))) ;;
    co_channel (C_Request {| rq_recipient := peer; rq_ty := fst x; rq_want_reply := false; rq_data := snd x |})
    (Co_Ret (Ok N_Again)).
  (** lines 306-350: the body of the branch that is ready, if it can be *)
  Definition co_branch (e : Ev) (st : SSt) : option (Co Next) :=
    match e with
    | Ev_Packet => None
    | Ev_Output err n data =>
      match look n (if err then s_stderr st else s_stdout st) with
      | Some peer => if match data with Ok d => len d <=? 256 | _ => true end then Some (co_output err n peer data) else None
      | None => None
      end
    | Ev_Exit n status =>
      match look n (s_wait st) with
      | Some peer => if is_u32 status then Some (co_exit n peer status) else None
      | None => None
      end
    end.
End Programs.

(** * Running *)

(** The session; the [RefCell]s that are borrowed, and the mutex; the guards of
    the future that runs. *)
Record World := { w_st : SSt; w_cells : list Cell; w_mutex : Mutex; w_held : list Guard }.
Definition cell_eqb (a b : Cell) : bool :=
  match a, b with
  | Cell_Read, Cell_Read | Cell_User, Cell_User | Cell_Channels, Cell_Channels | Cell_Rng, Cell_Rng => true
  | _, _ => false
  end.
Definition guard_eqb (a b : Guard) : bool :=
  match a, b with G_Cell a, G_Cell b => cell_eqb a b | G_Write, G_Write => true | _, _ => false end.
Definition w_set (st : SSt) (w : World) : World :=
  {| w_st := st; w_cells := w_cells w; w_mutex := w_mutex w; w_held := w_held w |}.
Definition borrow (c : Cell) (w : World) : option World :=
  if existsb (cell_eqb c) (w_cells w) then None                        (* BorrowMutError *)
  else Some {| w_st := w_st w; w_cells := c :: w_cells w; w_mutex := w_mutex w; w_held := G_Cell c :: w_held w |}.
Definition release (g : Guard) (w : World) : World :=
  {| w_st := w_st w;
     w_cells := match g with G_Cell c => filter (fun x => negb (cell_eqb c x)) (w_cells w) | G_Write => w_cells w end;
     w_mutex := match g with G_Cell _ => w_mutex w | G_Write => snd (guard_drop (w_mutex w)) end;
     w_held := filter (fun x => negb (guard_eqb g x)) (w_held w) |}.
(** A future is done, or dropped. *)
Definition release_all (w : World) : World := fold_left (fun w g => release g w) (w_held w) w.

(** The loop of [start] (lines 304-351): [receive] runs next to the other
    branches, or the body of a branch runs. *)
Record Loop := { l_body : bool; l_co : Co Next; l_world : World }.
Inductive Out :=
| O_Goes (l : Loop)
| O_Over (r : res ReceiveError bool) (st : SSt)
| O_Clash.                                     (* [borrow_mut] panics *)

(** What happens next: the code runs on; some bytes arrive, or there are none
    any more; a handler answers; the transport takes some bytes, or none any
    more; another branch is ready. *)
Inductive PEv :=
| P_Run
| P_Arrive (n : N)
| P_End
| P_Answer
| P_Taken (n : N)
| P_Broken
| P_Ready (e : Ev).

Definition took (from n : N) (st : SSt) : SSt :=
  let k := s_conn st in
  s_set (with_in (ndrop n (k_in k)) k) (splice from (ntake n (k_in k)) (s_buf st)) st.
Definition wrote (w : bytes) (st : SSt) : SSt :=
  let k := s_conn st in s_set (with_out (k_out k ++ w) k) (s_buf st) st.

Section Run.
  Context (lim : N) (C : Crypto) (rng : N -> N -> bytes) (h : SHandlers).

  Definition goes (body : bool) (co : Co Next) (w : World) : option Out :=
    Some (O_Goes {| l_body := body; l_co := co; l_world := w |}).
  Definition co_step {X} (r : res InError X) (k : X -> Co Next) : Co Next :=
    match r with
    | Ok x => k x
    | Err e => Co_Ret (Err (RE_In e))
    | Panic => Co_Ret Panic
    end.

  (** lines 304-318 *)
  Definition co_done (body : bool) (r : res ReceiveError Next) (w : World) : option Out :=
    match r with
    | Ok N_Again => if body then goes false (co_receive C rng h) (release_all w) else goes false (co_loop C rng h) w
    | Ok N_Exit => Some (O_Over (Ok true) (w_st w))
    | Ok (N_Io n io peer) => let w := release_all w in goes false (co_receive C rng h) (w_set (snd (s_new_io n io peer (w_st w))) w)
    | Err e => Some (O_Over (Err e) (w_st w))
    | Panic => Some (O_Over Panic (w_st w))
    end.

  (** Whether it is pending. *)
  Definition waiting (co : Co Next) (st : SSt) : bool :=
    match co with
    | Co_Lock registered _ => registered
    | Co_Read n from _ => (0 <? n) && (from + n <=? len (s_buf st))
    | Co_Call _ _ => true
    | Co_Write w _ => negb (is_empty w)
    | _ => false
    end.

  (** [None] if this cannot happen.  When another branch is ready [receive] is
      dropped before the branch's body runs: both borrow [buf]. *)
  Definition p_step (e : PEv) (l : Loop) : option Out :=
    let w := l_world l in let st := w_st w in let go := goes (l_body l) in
    match e, l_co l with
    | P_Run, Co_Ret r => co_done (l_body l) r w
    | P_Run, Co_Do f k => let '(r, st) := f st in go (co_step r k) (w_set st w)
    | P_Run, Co_Borrow c k => match borrow c w with Some w => go k w | None => Some O_Clash end
    | P_Run, Co_Lock registered k =>
      let '(ready, m, registered) := future_poll (w_mutex w) registered 0 in
      if ready : bool then go k {| w_st := st; w_cells := w_cells w; w_mutex := m; w_held := G_Write :: w_held w |}
      else go (Co_Lock registered k) {| w_st := st; w_cells := w_cells w; w_mutex := m; w_held := w_held w |}
    | P_Run, Co_Drop g k => go k (release g w)
    | P_Run, Co_Read n from k =>
      if negb (from + n <=? len (s_buf st)) then go (Co_Ret Panic) w
      else if n =? 0 then go (k []) w
      else None
    | P_Run, Co_Write b k => if is_empty b then go k w else None
    | P_Arrive i, Co_Read n from k =>
      if (from + n <=? len (s_buf st)) && (0 <? i) && (i <=? n) && (i <=? len (k_in (s_conn st))) then
        let d := ntake i (k_in (s_conn st)) in
        go (if i =? n then k d else Co_Read (n - i) (from + i) (fun d' => k (d ++ d'))) (w_set (took from i st) w)
      else None
    | P_End, Co_Read n from k =>
      if (from + n <=? len (s_buf st)) && (0 <? n) && is_empty (k_in (s_conn st))
      then go (Co_Ret (Err (RE_In (In_Read UnexpectedEof)))) w else None
    | P_Answer, Co_Call f k => let '(r, st) := f st in go (co_step r k) (w_set st w)
    | P_Taken i, Co_Write b k =>
      if (0 <? i) && (i <=? len b) && (len (k_out (s_conn st)) + i <=? lim) then
        go (if i =? len b then k else Co_Write (ndrop i b) k) (w_set (wrote (ntake i b) st) w)
      else None
    | P_Broken, Co_Write b k =>
      if negb (is_empty b) && (lim <=? len (k_out (s_conn st))) then go (Co_Ret (Err RE_Out)) w else None
    | P_Ready e, co =>
      if negb (l_body l) && waiting co st then
        match co_branch C rng e st with
        | Some co => goes true co (release_all w)
        | None => None
        end
      else None
    | _, _ => None
    end.
  Fixpoint p_run (es : list PEv) (l : Loop) : option Out :=
    match es with
    | [] => Some (O_Goes l)
    | e :: es =>
      match p_step e l with
      | Some (O_Goes l) => p_run es l
      | x => x
      end
    end.

  (** lines 217-223, 291-306 *)
  Definition loop_init (k : Conn) : Loop :=
    {| l_body := false; l_co := co_receive C rng h;
       l_world := {| w_st := session_init k; w_cells := []; w_mutex := mutex_new; w_held := [] |} |}.
End Run.
