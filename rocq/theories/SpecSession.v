(** Specification of the session phase (RFC 4254). *)
From Coq Require Import Init.Byte.
From Verif Require Export SpecAuth Session.

(** * The channel table as a finite map *)
Definition bound {T} (a : Arena T) (i : N) (v : T) : Prop := nth_error a (N.to_nat i) = Some (Some v).
Definition unbound {T} (a : Arena T) (i : N) : Prop := forall v, ~ bound a i v.

(** * What a log says *)
(** The channel [c]: the client's number for it and the child that gets its data.
    It exists from the confirmation until the client closes it; the child is the
    last one started, until the client sends end-of-file. *)
Definition chan_step (c : N) (s : option (N * option N)) (e : SEvent) : option (N * option N) :=
  match e with
  | SE_Sent (Msg_Channel (C_OpenConfirmation o)) => if oc_sender o =? c then Some (oc_recipient o, None) else s
  | SE_Spawn i _ n _ (Ok io) =>
    if i =? c then option_map (fun x => (fst x, if io_stdin io then Some n else None)) s else s
  | SE_Received (Msg_Channel (C_Eof i)) => if i =? c then option_map (fun x => (fst x, None)) s else s
  | SE_Received (Msg_Channel (C_Close i)) => if i =? c then None else s
  | _ => s
  end.
Definition chan_after (log : list SEvent) (c : N) : option (N * option N) := fold_left (chan_step c) log None.
(** The least number that is no channel. *)
Definition least_free (log : list SEvent) (i : N) : Prop :=
  chan_after log i = None /\ forall j, j < i -> chan_after log j <> None.

(** Where the output of child [n] goes ([err]: of its stderr), until its end. *)
Definition has (err : bool) (io : IoSet) : bool := if err then io_stderr io else io_stdout io.
Definition stream_step (err : bool) (n : N) (s : option N) (e : SEvent) : option N :=
  match e with
  | SE_Spawn _ p n' _ (Ok io) => if (n' =? n) && has err io then Some p else s
  | SE_Read err' n' [] => if eqb err' err && (n' =? n) then None else s
  | _ => s
  end.
Definition stream_after (err : bool) (log : list SEvent) (n : N) : option N := fold_left (stream_step err n) log None.
(** Where the exit status of child [n] goes, until it exits.  Children without
    any output are not waited for. *)
Definition wait_step (n : N) (s : option N) (e : SEvent) : option N :=
  match e with
  | SE_Spawn _ p n' _ (Ok io) => if (n' =? n) && (has false io || has true io) then Some p else s
  | SE_Exit n' _ => if n' =? n then None else s
  | _ => s
  end.
Definition wait_after (log : list SEvent) (n : N) : option N := fold_left (wait_step n) log None.

Definition is_spawn (e : SEvent) : bool := match e with SE_Spawn _ _ _ _ _ => true | _ => false end.
Definition spawns (log : list SEvent) : N := len (filter is_spawn log).
Definition received (log : list SEvent) : list Message :=
  flat_map (fun e => match e with SE_Received m => [m] | _ => [] end) log.
Definition s_sent (log : list SEvent) : list Message :=
  flat_map (fun e => match e with SE_Sent m => [m] | _ => [] end) log.

(** * One turn *)
(** The request in a channel request. *)
Definition session_request (r : ChRequest) (q : SessionRequest) : Prop :=
  session_ok q /\ rq_ty r = session_name q /\ reads (session_fields q) (rq_data r).
Definition starts (q : SessionRequest) : option SpawnType :=
  match q with SR_Shell => Some Spawn_Shell | SR_Exec command => Some (Spawn_Exec command) | _ => None end.
Definition refused (q : SessionRequest) : bool :=
  match q with SR_Pty _ _ _ _ _ _ | SR_Env _ _ => true | _ => false end.
Definition got (c : Channel) : SEvent := SE_Received (Msg_Channel c).
Definition put (c : Channel) : SEvent := SE_Sent (Msg_Channel c).
Definition dropped (child : option N) : list SEvent := match child with Some n => [SE_Dropped n] | None => [] end.
Definition wanted (r : ChRequest) (c : Channel) : list SEvent := if rq_want_reply r then [put c] else [].
Definition confirmation (o : ChOpen) (i : N) : Channel :=
  C_OpenConfirmation {| oc_recipient := op_sender o; oc_sender := i; oc_window := op_window o;
                        oc_max_packet := op_max_packet o; oc_data := [] |}.
Definition exit_status (p status : N) : Channel :=
  C_Request {| rq_recipient := p; rq_ty := B "exit-status"; rq_want_reply := false; rq_data := be32 status |}.

Section Turns.
  Context (h : SHandlers).

  (** What happens in a turn of the loop when [pre] is what happened before: a
      message from the client, or the output or end of a child, and all that
      the server does about it. *)
  Inductive turn (pre : list SEvent) : list SEvent -> Prop :=
  | T_Open o i : least_free pre i -> i < 2 ^ 32 ->
      turn pre [got (C_Open o); put (confirmation o i)]
  | T_Start r q ty p old io : chan_after pre (rq_recipient r) = Some (p, old) -> session_request r q -> starts q = Some ty ->
      h_spawn h (pre ++ [got (C_Request r)]) ty = Ok io ->
      turn pre ([got (C_Request r); SE_Spawn (rq_recipient r) p (spawns pre) ty (Ok io)] ++ dropped old ++ wanted r (C_Success p))
  | T_Refuse r q p old : chan_after pre (rq_recipient r) = Some (p, old) -> session_request r q -> refused q = true ->
      turn pre (got (C_Request r) :: wanted r (C_Failure p))
  | T_Data c data p n k : chan_after pre c = Some (p, Some n) -> h_write h (pre ++ [got (C_Data c data)]) n data = Ok k ->
      turn pre [got (C_Data c data); SE_Stdin n data (Ok k)]
  | T_Eof c p old : chan_after pre c = Some (p, old) -> turn pre (got (C_Eof c) :: dropped old)
  | T_Close c : turn pre (got (C_Close c) :: dropped (match chan_after pre c with Some (_, old) => old | None => None end))
  | T_Ignore d : turn pre [SE_Received (Msg_Ignore d)]
  | T_Output err n p data : stream_after err pre n = Some p -> 0 < len data <= 256 ->
      turn pre [SE_Read err n data; put (C_Data p data)]
  | T_End n p : stream_after false pre n = Some p -> turn pre [SE_Read false n []; put (C_Eof p); put (C_Close p)]
  | T_Err_end n p : stream_after true pre n = Some p -> turn pre [SE_Read true n []]
  | T_Exit n p status : wait_after pre n = Some p -> status < 2 ^ 32 -> turn pre [SE_Exit n status; put (exit_status p status)].

  Inductive turns : list SEvent -> list (list SEvent) -> Prop :=
  | Ts_nil pre : turns pre []
  | Ts_cons pre t ts : turn pre t -> turns (pre ++ t) ts -> turns pre (t :: ts).

  (** ** The turn in which the server panics *)
  Definition unsupported (m : Message) : bool :=
    match m with
    | Msg_Channel (C_Open _) | Msg_Channel (C_Request _) | Msg_Channel (C_Data _ _) | Msg_Channel (C_Eof _) | Msg_Channel (C_Close _)
    | Msg_Disconnect _ | Msg_Ignore _ => false
    | _ => true
    end.
  Definition addressed (m : Message) : option N :=
    match m with
    | Msg_Channel (C_Request r) => Some (rq_recipient r)
    | Msg_Channel (C_Data c _) | Msg_Channel (C_Eof c) => Some c
    | _ => None
    end.
  Inductive crash (pre : list SEvent) : list SEvent -> Prop :=
  (* 2^32 channels are open *)
  | X_Full o i : least_free pre i -> 2 ^ 32 <= i -> crash pre [got (C_Open o)]
  (* the message is not handled *)
  | X_Unsupported m : unsupported m = true -> crash pre [SE_Received m]
  (* there is no such channel *)
  | X_Channel m c : addressed m = Some c -> chan_after pre c = None -> crash pre [SE_Received m]
  (* the request is malformed, unknown, or not handled *)
  | X_Request r : chan_after pre (rq_recipient r) <> None ->
      (forall q, session_request r q -> starts q = None /\ refused q = false) -> crash pre [got (C_Request r)]
  (* the child cannot be started *)
  | X_Start r q ty p old x : chan_after pre (rq_recipient r) = Some (p, old) -> session_request r q -> starts q = Some ty ->
      h_spawn h (pre ++ [got (C_Request r)]) ty = x -> (forall io, x <> Ok io) ->
      crash pre [got (C_Request r); SE_Spawn (rq_recipient r) p (spawns pre) ty x]
  (* there is no child to take the data, *)
  | X_Data c data p : chan_after pre c = Some (p, None) -> crash pre [got (C_Data c data)]
  (* or writing fails *)
  | X_Write c data p n x : chan_after pre c = Some (p, Some n) -> h_write h (pre ++ [got (C_Data c data)]) n data = x ->
      (forall k, x <> Ok k) -> crash pre [got (C_Data c data); SE_Stdin n data x].
End Turns.

(** The turn that an event of the schedule causes. *)
Definition prompts (e : Ev) (t : list SEvent) : Prop :=
  match e with
  | Ev_Packet => exists m t', t = SE_Received m :: t'
  | Ev_Output err n d => exists data t', d = Ok data /\ t = SE_Read err n data :: t'
  | Ev_Exit n status => exists t', t = SE_Exit n status :: t'
  end.

(** * The outcome of the session phase of a connection [k] *)
Definition session_outcome (C : Crypto) (h : SHandlers) (k : Conn) (es : list Ev) (r : res InError bool) (st : SSt) : Prop :=
  exists ts tail pls rest,
    (* the log is one of turns, and what is in it *)
    s_log st = concat ts ++ tail /\ turns h [] ts /\
    (* was received and sent: *)
    received_as C (k_rd k) (k_in k) pls rest /\ Forall2 (fun m pl => is_wire m pl) (received (s_log st)) pls /\
    written_as C (k_wr k) (k_out k) (map wire (s_sent (s_log st))) (k_out (s_conn st)) /\
    let c := later (len pls) (k_rd k) in
    match r with
    (* the schedule is over; *)
    | Ok false => Forall2 prompts es ts /\ tail = [] /\ k_in (s_conn st) = rest /\ k_rd (s_conn st) = c
    | _ => exists es1 e es2, es = es1 ++ e :: es2 /\ Forall2 prompts es1 ts /\
      match r with
      (* or the client disconnected, *)
      | Ok _ => e = Ev_Packet /\ exists d, tail = [SE_Received (Msg_Disconnect d)]
      (* or there is no intact frame, *)
      | Err _ => e = Ev_Packet /\ tail = [] /\ forall pl, ~ next_payload C c 35000 rest pl
      (* or the server panicked about a payload that is no message, about a
         message, or about output that cannot be read. *)
      | Panic =>
        e = Ev_Packet /\ tail = [] /\
          (exists pl, next_payload C c 35000 rest pl /\ forall m, is_wire m pl -> exists r, m = Msg_EcdhReply r) \/
        e = Ev_Packet /\ crash h (concat ts) tail \/
        tail = [] /\ exists err n d, e = Ev_Output err n d /\ stream_after err (concat ts) n <> None /\ forall data, d <> Ok data
      end
    end.

(** A session phase that starts at connection [k], with the sequence numbers of
    both directions in range, and its end. *)
Definition is_session (C : Crypto) (rng : N -> N -> bytes) (h : SHandlers) (k : Conn) (es : list Ev) (r : res InError bool) (st : SSt) : Prop :=
  crypto_ok C /\ (forall n, rng_ok (rng n)) /\ counter (k_rd k) < 2 ^ 64 /\ counter (k_wr k) < 2 ^ 64 /\
  session_run C rng h es (session_init k) = Some (r, st).

(** * Notions for the properties *)
(** Events the server reacts to; and a point of a log (what follows is [log])
    where the server has done all it does about the last one. *)
Definition stimulus (e : SEvent) : bool :=
  match e with SE_Received _ | SE_Read _ _ _ | SE_Exit _ _ => true | _ => false end.
Definition at_rest (log : list SEvent) : Prop := match log with [] => True | e :: _ => stimulus e = true end.

(** What child [n] is offered on its stdin, and what it takes of it. *)
Definition stdin_data (n : N) (log : list SEvent) : list bytes :=
  flat_map (fun e => match e with SE_Stdin n' d _ => if n' =? n then [d] else [] | _ => [] end) log.
Definition stdin_taken (n : N) (log : list SEvent) : bytes :=
  flat_map (fun e => match e with SE_Stdin n' d (Ok k) => if n' =? n then ntake k d else [] | _ => [] end) log.
(** What the client sends to channel [c] until it sends end-of-file, closes it,
    or another child is started on it. *)
Fixpoint data_until (c : N) (log : list SEvent) : list bytes :=
  match log with
  | [] => []
  | SE_Received (Msg_Channel (C_Data c' d)) :: log => if c' =? c then d :: data_until c log else data_until c log
  | SE_Received (Msg_Channel (C_Eof c')) :: log | SE_Received (Msg_Channel (C_Close c')) :: log
  | SE_Spawn c' _ _ _ _ :: log => if c' =? c then [] else data_until c log
  | _ :: log => data_until c log
  end.

(** Data sent to the channel that the client numbers [p]; output of the children
    started on such a channel. *)
Definition data_sent (p : N) (log : list SEvent) : list bytes :=
  flat_map (fun e => match e with SE_Sent (Msg_Channel (C_Data p' d)) => if p' =? p then [d] else [] | _ => [] end) log.
Fixpoint peer_of (n : N) (log : list SEvent) : option N :=
  match log with
  | [] => None
  | SE_Spawn _ p n' _ _ :: log => if n' =? n then Some p else peer_of n log
  | _ :: log => peer_of n log
  end.
Definition data_read (all : list SEvent) (p : N) (log : list SEvent) : list bytes :=
  flat_map (fun e => match e with
                     | SE_Read _ n d => match d, peer_of n all with
                                        | _ :: _, Some p' => if p' =? p then [d] else []
                                        | _, _ => []
                                        end
                     | _ => [] end) log.

(** Why a channel message is sent: [pre] happened before, then the stimulus,
    then [t1]; [t2] follows. *)
Inductive because (pre : list SEvent) : SEvent -> list SEvent -> Channel -> list SEvent -> Prop :=
| B_Open o i : least_free pre i -> i < 2 ^ 32 -> because pre (got (C_Open o)) [] (confirmation o i) []
| B_Success r q ty p old io : chan_after pre (rq_recipient r) = Some (p, old) -> session_request r q -> starts q = Some ty ->
    rq_want_reply r = true ->
    because pre (got (C_Request r)) (SE_Spawn (rq_recipient r) p (spawns pre) ty (Ok io) :: dropped old) (C_Success p) []
| B_Failure r q p old : chan_after pre (rq_recipient r) = Some (p, old) -> session_request r q -> refused q = true ->
    rq_want_reply r = true -> because pre (got (C_Request r)) [] (C_Failure p) []
| B_Data err n p d : stream_after err pre n = Some p -> 0 < len d <= 256 -> because pre (SE_Read err n d) [] (C_Data p d) []
| B_Eof n p : stream_after false pre n = Some p -> because pre (SE_Read false n []) [] (C_Eof p) [put (C_Close p)]
| B_Close n p : stream_after false pre n = Some p -> because pre (SE_Read false n []) [put (C_Eof p)] (C_Close p) []
| B_Exit n p status : wait_after pre n = Some p -> status < 2 ^ 32 -> because pre (SE_Exit n status) [] (exit_status p status) [].

(** [n] was started in [log] for the client's channel [p], with this stream, and
    the stream has not ended. *)
Definition runs (err : bool) (log : list SEvent) (n p : N) : Prop :=
  exists l1 c ty io l2, log = l1 ++ SE_Spawn c p n ty (Ok io) :: l2 /\ has err io = true /\ ~ In (SE_Read err n []) l2.
