(** Model of nora_ssh/src/host.rs and nora_ssh/src/server.rs with a transport that
    breaks: it takes [lim] bytes in all, then every write fails.  ([write_all] has
    then written a part.)  [Host], [Auth], [Session] and [Server] are the same
    code with writes that succeed. *)
From Coq Require Import Init.Byte.
From Verif Require Export Server.
Open Scope res_scope.

(** [write_all(b)] after [o] was written: what is written then, and whether
    [b] is. *)
Definition write_lim (lim : N) (o b : bytes) : bytes * bool :=
  if len o + len b <=? lim then (o ++ b, true) else (ntake lim (o ++ b), false).

(** * host.rs:91-287 *)

(** [write.write_all(b).await.map_err(HandleNewClientError::Write)?]; lines
    111-114, 144-147, 250-253, 273-276 *)
Definition io_write_lim (lim : N) (b : bytes) : IO unit := fun s o =>
  let '(o, whole) := write_lim lim o b in
  (if whole then Ok tt else Err H_Write, s, o).
Definition handle_new_client_b (lim : N) : Host -> HostRng -> IO HostClient := handle_new_client_on (io_write_lim lim).

(** * host.rs:303-330: the packet is sealed and counted, then written *)
Definition conn_send_b (lim : N) (C : Crypto) (rng : N -> N -> bytes) (m : Message) (buf : bytes) (k : Conn)
  : res unit (Conn * bytes * bool) :=
  '(w, c, buf) <- Out_send C (k_wr k) buf (fill_message m) (rng (k_sent k)) ;;
  let '(o, whole) := write_lim lim (k_out k) w in
  Ok ({| k_rd := k_rd k; k_wr := c; k_in := k_in k; k_out := o; k_sent := k_sent k + 1 |}, buf, whole).

(** * server.rs:80-241 *)
Section AuthB.
  Context {U : Type} (lim : N) (C : Crypto) (rng : N -> N -> bytes) (h : AHandlers U) (session_identifier : bytes).

  (** [wr_enc.send(..).await.unwrap()]: lines 109-117, 155-163 ([mini]), 207-215,
      229-237 *)
  Definition a_send_b (mini : bool) (m : Message) : @AM U unit := fun st =>
    match conn_send_b lim C rng m (if mini then a_mini st else a_buf st) (a_conn st) with
    | Ok (k, buf, whole) =>
      (if whole : bool then Ok tt else Panic,
       {| a_conn := k; a_buf := if mini then a_buf st else buf; a_mini := if mini then buf else a_mini st;
          a_message := a_message st; a_log := a_log st ++ if whole then [AE_Sent m] else [] |})
    | Err e => (Err e, st)
    | Panic => (Panic, st)
    end.

  (** lines 103-121 *)
  Definition auth_service_b : @AM U unit :=
    data <@ a_unwrap (a_recv C) ;;
    msg <@ aret (unwrap (Message_parse data)) ;;
    srv <@ aret (unwrap (into_service_request msg)) ;;
    if bytes_eqb srv (B "ssh-userauth") then a_send_b true (Msg_ServiceAccept srv)
    else aret Panic.
  (** lines 142-163 *)
  Definition auth_query_b (ua : UARequest) (algorithm blob : bytes) : @AM U unit :=
    key <@ aret (blob_of algorithm blob) ;;
    r <@ a_exists h (ua_user ua) (ua_service ua) algorithm key ;;
    a_send_b true (match r with
                   | Ok _ => Msg_UserAuth (UA_PublicKeyOk algorithm blob)
                   | _ => ua_failure
                   end).
  (** lines 131-201; the other methods send nothing *)
  Definition auth_method_b (ua : UARequest) : @AM U (option Auth) :=
    match ua_method ua with
    | M_PublicKeyBlob algorithm blob =>
      _ <@ auth_query_b ua algorithm blob ;;
      aret (Ok None)
    | _ => auth_method C rng h session_identifier ua
    end.
  (** lines 126-239 *)
  Definition auth_round_b : @AM U (option U) :=
    data <@ a_try (a_recv C) ;;
    msg <@ aret (map_err (fun _ => tt) (Message_parse data)) ;;
    u <@ aret (unwrap (into_user_auth msg)) ;;
    ua <@ aret (into_request u) ;;
    auth <@ auth_method_b ua ;;
    match auth with
    | None => aret (Ok None)
    | Some auth =>
      r <@ a_authenticate h (ua_user ua) (ua_service ua) auth ;;
      match r with
      | Ok user => _ <@ a_send_b false (Msg_UserAuth UA_Success) ;; aret (Ok (Some user))
      | _ => _ <@ a_send_b false ua_failure ;; aret (Ok None)
      end
    end.
  (** lines 125-240 *)
  Fixpoint auth_loop_b (fuel : nat) (st : ASt U) : option (res unit U * ASt U) :=
    match fuel with
    | O => None
    | S fuel =>
      match auth_round_b st with
      | (Ok (Some user), st) => Some (Ok user, st)
      | (Ok None, st) => auth_loop_b fuel st
      | (Err e, st) => Some (Err e, st)
      | (Panic, st) => Some (Panic, st)
      end
    end.
  (** lines 99-240 *)
  Definition auth_phase_b (k : Conn) : option (res unit U * ASt U) :=
    match auth_service_b (auth_init k) with
    | (Ok _, st) => auth_loop_b (S (length (k_in k))) st
    | (Err e, st) => Some (Err e, st)
    | (Panic, st) => Some (Panic, st)
    end.
End AuthB.

(** lines 81-241 *)
Definition authenticate_new_client_b {U} (lim : N) (H : Host) (R : HostRng) (C : Crypto) (rng : N -> N -> bytes)
  (h : AHandlers U) (s : stream) : option (AOutcome U) :=
  match handle_new_client_b lim H R s [] with
  | (Ok c, s, o) =>
    match auth_phase_b lim C rng h (session_identifier c) (conn_of c s o) with
    | Some (r, st) => Some (AO_Auth r st)
    | None => None
    end
  | (Err _, s, o) => Some (AO_Handshake false o)
  | (Panic, s, o) => Some (AO_Handshake true o)
  end.

(** * [Client] *)

(** server.rs:556-561 ([Io] is never made) *)
Inductive ReceiveError := RE_In (e : InError) | RE_Out.
Definition BM (A : Type) : Type := SSt -> res ReceiveError A * SSt.
Definition bbind {A D} (m : BM A) (f : A -> BM D) : BM D := fun st =>
  match m st with
  | (Ok a, st) => f a st
  | (Err e, st) => (Err e, st)
  | (Panic, st) => (Panic, st)
  end.
Definition bret {A} (r : res ReceiveError A) : BM A := fun st => (r, st).
(** code that does not write *)
Definition on {A} (m : SM A) : BM A := fun st => let '(r, st) := m st in (map_err RE_In r, st).
Declare Scope b_scope.
Notation "x <* e ;; k" := (bbind e (fun x => k)) (at level 61, e at next level, right associativity) : b_scope.
Notation "' p <* e ;; k" := (bbind e (fun x => match x with p => k end))
  (at level 61, p pattern, e at next level, right associativity) : b_scope.
Open Scope b_scope.

Section SessionB.
  Context (lim : N) (C : Crypto) (rng : N -> N -> bytes) (h : SHandlers).

  (** lines 267-288, with [.map_err(ReceiveError::Out)?] of lines 322, 326, 329,
      335, 348, 381, 457 *)
  Definition s_send_b (m : Message) : BM unit := fun st =>
    match conn_send_b lim C rng m (s_buf st) (s_conn st) with
    | Ok (k, buf, whole) =>
      (if whole : bool then Ok tt else Err RE_Out,
       {| s_conn := k; s_buf := buf; s_chans := s_chans st; s_stdout := s_stdout st; s_stderr := s_stderr st;
          s_wait := s_wait st; s_children := s_children st; s_log := s_log st ++ if whole then [SE_Sent m] else [] |})
    | _ => (Panic, st)
    end.
  Definition s_channel_b (c : Channel) : BM unit := s_send_b (Msg_Channel c).

  (** lines 392-427, 452-469 *)
  Definition on_spawn_b (r : ChRequest) (ch : Chan) (ty : SpawnType) : BM unit :=
    '(n, io) <* on (s_spawn h (rq_recipient r) ch ty) ;;
    _ <* on (s_put (rq_recipient r) (Some {| ch_peer := ch_peer ch; ch_stdin := if io_stdin io then Some n else None |})) ;;
    _ <* on (s_drop (ch_stdin ch)) ;;
    _ <* (if rq_want_reply r then s_channel_b (C_Success (ch_peer ch)) else bret (Ok tt)) ;;
    on (s_new_io n io (ch_peer ch)).
  (** lines 428-444, 454-458 *)
  Definition on_refused_b (r : ChRequest) (ch : Chan) : BM unit :=
    if rq_want_reply r then s_channel_b (C_Failure (ch_peer ch)) else bret (Ok tt).
  (** lines 363-506; the other messages are not answered *)
  Definition on_message_b (m : Message) : BM bool :=
    match m with
    | Msg_Channel (C_Open o) =>
      i <* on (s_insert {| ch_peer := op_sender o; ch_stdin := None |}) ;;
      _ <* s_channel_b (C_OpenConfirmation {| oc_recipient := op_sender o; oc_sender := i; oc_window := op_window o;
                                              oc_max_packet := op_max_packet o; oc_data := [] |}) ;;
      bret (Ok false)
    | Msg_Channel (C_Request r) =>
      ch <* on (s_get (rq_recipient r)) ;;
      req <* bret (unwrap (SessionRequest_parse (rq_ty r) (rq_data r))) ;;
      _ <* match req with
           | SR_Shell => on_spawn_b r ch Spawn_Shell
           | SR_Exec command => on_spawn_b r ch (Spawn_Exec command)
           | SR_Pty _ _ _ _ _ _ | SR_Env _ _ => on_refused_b r ch
           | SR_X11 _ _ _ _ | SR_Subsystem _ | SR_WindowChange _ _ _ _ | SR_XonXoff _ | SR_Signal _
           | SR_ExitStatus _ | SR_ExitSignal _ _ _ _ => bret Panic
           end ;;
      bret (Ok false)
    | _ => on (on_message C rng h m)
    end.

  (** lines 306-307, 317, 362-363 *)
  Definition on_packet_b : BM bool :=
    data <* on (s_recv C) ;;
    m <* bret (unwrap (Message_parse data)) ;;
    _ <* on (s_event (SE_Received m)) ;;
    on_message_b m.
  (** lines 294-301, 319-337 *)
  Definition on_output_b (err : bool) (n peer : N) (data : res unit bytes) : BM bool :=
    data <* bret (unwrap data) ;;
    _ <* on (s_event (SE_Read err n data)) ;;
    _ <* (if 0 <? len data then s_channel_b (C_Data peer data)
          else fun st =>
            (_ <* on (set_reads err (forget n (if err then s_stderr st else s_stdout st))) ;;
             if err then bret (Ok tt)
             else _ <* s_channel_b (C_Eof peer) ;; s_channel_b (C_Close peer)) st) ;;
    bret (Ok false).
  (** lines 338-349 *)
  Definition on_exit_b (n peer status : N) : BM bool := fun st =>
    (_ <* on (set_wait (forget n (s_wait st))) ;;
     _ <* on (s_event (SE_Exit n status)) ;;
     '(ty, data) <* bret (unwrap (session_written (SR_ExitStatus status) (zeros 256))) ;;
     _ <* s_channel_b (C_Request {| rq_recipient := peer; rq_ty := ty; rq_want_reply := false; rq_data := data |}) ;;
     bret (Ok false)) st.
  (** One turn of the loop, as [session_step]. *)
  Definition session_step_b (e : Ev) (st : SSt) : option (res ReceiveError bool * SSt) :=
    match e with
    | Ev_Packet => Some (on_packet_b st)
    | Ev_Output err n data =>
      match look n (if err then s_stderr st else s_stdout st) with
      | Some peer =>
        if match data with Ok d => len d <=? 256 | _ => true end then Some (on_output_b err n peer data st) else None
      | None => None
      end
    | Ev_Exit n status =>
      match look n (s_wait st) with
      | Some peer => if is_u32 status then Some (on_exit_b n peer status st) else None
      | None => None
      end
    end.
  Fixpoint session_run_b (es : list Ev) (st : SSt) : option (res ReceiveError bool * SSt) :=
    match es with
    | [] => Some (Ok false, st)
    | e :: es =>
      match session_step_b e st with
      | Some (Ok false, st) => session_run_b es st
      | x => x
      end
    end.
End SessionB.

(** * [Server::start] (lines 60-78); the transport of connection [i] takes
    [L i] bytes *)
Section ServerB.
  Context {U : Type} (H : Host) (C : Crypto) (P : N -> Peer U) (L : N -> N).

  Definition sv_auth_b (lim : N) (p : Peer U) (s : stream) : option (res unit (Task U)) :=
    match authenticate_new_client_b lim H (p_host_rng p) C (p_rng p) (p_auth p) s with
    | Some (AO_Handshake true _) => Some Panic
    | Some (AO_Handshake false o) => Some (Ok (T_Refused (AO_Handshake false o)))
    | Some (AO_Auth (Ok u) a) => Some (Ok (T_Client u a (session_init (a_conn a))))
    | Some (AO_Auth (Err e) a) => Some (Ok (T_Refused (AO_Auth (Err e) a)))
    | Some (AO_Auth Panic _) => Some Panic
    | None => None
    end.
  Definition sv_client_b (lim : N) (p : Peer U) (e : Ev) (u : U) (a : ASt U) (st : SSt) : option (res unit (Task U)) :=
    match session_step_b lim C (p_rng p) (p_session p u) e st with
    | Some (Ok false, st) => Some (Ok (T_Client u a st))
    | Some (Ok true, st) | Some (Err _, st) => Some (Ok (T_Over u a st))
    | Some (Panic, _) => Some Panic
    | None => None
    end.
  Definition sv_step_b (e : SvEv) (ts : list (Task U)) : option (res unit (list (Task U))) :=
    match e with
    | SV_Accept s => Some (Ok (ts ++ [T_New s]))
    | SV_Auth i => match get_at i ts with Some (T_New s) => sv_set i ts (sv_auth_b (L i) (P i) s) | _ => None end
    | SV_Client i e => match get_at i ts with Some (T_Client u a st) => sv_set i ts (sv_client_b (L i) (P i) e u a st) | _ => None end
    end.
  Fixpoint sv_run_b (es : list SvEv) (ts : list (Task U)) : option (res unit (list (Task U))) :=
    match es with
    | [] => Some (Ok ts)
    | e :: es =>
      match sv_step_b e ts with
      | Some (Ok ts) => sv_run_b es ts
      | x => x
      end
    end.
End ServerB.
