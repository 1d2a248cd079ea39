(** Model of nora_ssh/src/server.rs, [Server::authenticate_new_client], and of
    nora_ssh/src/auth.rs. *)
From Coq Require Import Init.Byte.
From Verif Require Export Host Channel.
Open Scope res_scope.

(** * A connection after the key exchange

    The pair of ciphers ([rd_enc], [wr_enc]), what the client still sends, what
    was written, and how many packets were sent (to address the random source:
    [rng n] yields the padding of the [n]-th packet sent). *)
Record Conn := { k_rd : Cipher; k_wr : Cipher; k_in : stream; k_out : bytes; k_sent : N }.

(** [wr_enc.send(buf, |buf| msg.serialize(buf).unwrap().0.len(), wr, rng)].
    Returns the connection and [buf].  Writes are taken to succeed. *)
Definition conn_send (C : Crypto) (rng : N -> N -> bytes) (m : Message) (buf : bytes) (k : Conn)
  : res unit (Conn * bytes) :=
  '(w, c, buf) <- Out_send C (k_wr k) buf (fill_message m) (rng (k_sent k)) ;;
  Ok ({| k_rd := k_rd k; k_wr := c; k_in := k_in k; k_out := k_out k ++ w; k_sent := k_sent k + 1 |}, buf).

(** [rd_enc.recv(buf, rd)] *)
Definition conn_recv (C : Crypto) (buf : bytes) (k : Conn) : res InError bytes * (Conn * bytes) :=
  let '(r, (c, buf, s)) := In_recv C (k_rd k) buf (k_in k) in
  (r, ({| k_rd := c; k_wr := k_wr k; k_in := s; k_out := k_out k; k_sent := k_sent k |}, buf)).

(** auth.rs:1-5 *)
Inductive Auth :=
| Auth_None
| Auth_Password (password : bytes)
| Auth_PublicKey (algorithm key signature message : bytes).

(** message/mod.rs:136-192, userauth.rs:73-128: the [into_*] functions used here *)
Definition into_service_request (m : Message) : res unit bytes :=
  match m with Msg_ServiceRequest s => Ok s | _ => Err tt end.
Definition into_user_auth (m : Message) : res unit UserAuth :=
  match m with Msg_UserAuth u => Ok u | _ => Err tt end.
Definition into_request (u : UserAuth) : res unit UARequest :=
  match u with UA_Request r => Ok r | _ => Err tt end.

(** server.rs:134-141, 167-174, 176-183: a blob holds [algorithm] and one more
    string and nothing else. *)
Definition blob_of (algorithm blob : bytes) : res unit bytes :=
  '(a, b) <- parse_string blob ;;
  '(key, b) <- parse_string b ;;
  if negb (is_empty b) then Err tt else
  if negb (bytes_eqb algorithm a) then Err tt else
  Ok key.

Section Auth.
  (** [Handlers::User] *)
  Context {U : Type}.

  (** What happens during authentication: messages sent and handlers called
      (with their results). *)
  Inductive AEvent :=
  | AE_Sent (m : Message)
  | AE_Exists (user service algorithm key : bytes) (r : res unit unit)
  | AE_Authenticate (user service : bytes) (auth : Auth) (r : res unit U).

  (** server.rs:584-596.  A handler may use all that happened before on the
      connection, and may panic. *)
  Record AHandlers := {
    h_exists : list AEvent -> bytes -> bytes -> bytes -> bytes -> res unit unit;
    h_authenticate : list AEvent -> bytes -> bytes -> Auth -> res unit U }.

  (** [pkt_buf], [pkt_buf_mini] and [message] (lines 99-101, 124) *)
  Record ASt := { a_conn : Conn; a_buf : bytes; a_mini : bytes; a_message : bytes; a_log : list AEvent }.

  Definition AM (A : Type) : Type := ASt -> res unit A * ASt.
  Definition abind {A D} (m : AM A) (f : A -> AM D) : AM D := fun st =>
    match m st with
    | (Ok a, st) => f a st
    | (Err e, st) => (Err e, st)
    | (Panic, st) => (Panic, st)
    end.
  Definition aret {A} (r : res unit A) : AM A := fun st => (r, st).
  (** [.unwrap()] and [.map_err(|_| ())?] *)
  Definition a_unwrap {E A} (m : ASt -> res E A * ASt) : AM A := fun st =>
    let '(r, st) := m st in (unwrap r, st).
  Definition a_try {E A} (m : ASt -> res E A * ASt) : AM A := fun st =>
    let '(r, st) := m st in (map_err (fun _ => tt) r, st).

  Context (C : Crypto) (rng : N -> N -> bytes) (h : AHandlers) (session_identifier : bytes).

  (** [rd_enc.recv(&mut pkt_buf, &mut rd)] *)
  Definition a_recv : ASt -> res InError bytes * ASt := fun st =>
    let '(r, (k, buf)) := conn_recv C (a_buf st) (a_conn st) in
    (r, {| a_conn := k; a_buf := buf; a_mini := a_mini st; a_message := a_message st; a_log := a_log st |}).
  (** [wr_enc.send(&mut pkt_buf_mini, ..)] *)
  Definition a_send_mini (m : Message) : AM unit := fun st =>
    match conn_send C rng m (a_mini st) (a_conn st) with
    | Ok (k, buf) => (Ok tt, {| a_conn := k; a_buf := a_buf st; a_mini := buf; a_message := a_message st;
                                a_log := a_log st ++ [AE_Sent m] |})
    | Err e => (Err e, st)
    | Panic => (Panic, st)
    end.
  (** [wr_enc.send(&mut pkt_buf, ..)] *)
  Definition a_send (m : Message) : AM unit := fun st =>
    match conn_send C rng m (a_buf st) (a_conn st) with
    | Ok (k, buf) => (Ok tt, {| a_conn := k; a_buf := buf; a_mini := a_mini st; a_message := a_message st;
                                a_log := a_log st ++ [AE_Sent m] |})
    | Err e => (Err e, st)
    | Panic => (Panic, st)
    end.
  Definition a_log_event (e : AEvent) (st : ASt) : ASt :=
    {| a_conn := a_conn st; a_buf := a_buf st; a_mini := a_mini st; a_message := a_message st; a_log := a_log st ++ [e] |}.
  (** The handlers' answer is [Ok], [Err] or a panic; the caller looks at it. *)
  Definition a_exists (user service algorithm key : bytes) : AM (res unit unit) := fun st =>
    let r := h_exists h (a_log st) user service algorithm key in
    (match r with Panic => Panic | _ => Ok r end, a_log_event (AE_Exists user service algorithm key r) st).
  Definition a_authenticate (user service : bytes) (auth : Auth) : AM (res unit U) := fun st =>
    let r := h_authenticate h (a_log st) user service auth in
    (match r with Panic => Panic | _ => Ok r end, a_log_event (AE_Authenticate user service auth r) st).
  Definition a_sign_data (user service algorithm blob : bytes) : AM bytes := fun st =>
    let '(r, message) := format_sign_data (a_message st) session_identifier user service algorithm blob in
    (unwrap r, {| a_conn := a_conn st; a_buf := a_buf st; a_mini := a_mini st; a_message := message; a_log := a_log st |}).
End Auth.
Arguments AEvent : clear implicits.
Arguments AHandlers : clear implicits.
Arguments ASt : clear implicits.

Declare Scope a_scope.
Notation "x <@ e ;; k" := (abind e (fun x => k)) (at level 61, e at next level, right associativity) : a_scope.
Open Scope a_scope.

(** lines 149-152, 225-228 *)
Definition ua_failure : Message := Msg_UserAuth (UA_Failure (B "publickey,password") false).

Section Phase.
  Context {U : Type} (C : Crypto) (rng : N -> N -> bytes) (h : AHandlers U) (session_identifier : bytes).

  (** lines 103-121 *)
  Definition auth_service : @AM U unit :=
    data <@ a_unwrap (a_recv C) ;;
    msg <@ aret (unwrap (Message_parse data)) ;;
    srv <@ aret (unwrap (into_service_request msg)) ;;
    if bytes_eqb srv (B "ssh-userauth") then a_send_mini C rng (Msg_ServiceAccept srv)
    else aret Panic.

  (** lines 142-163: the answer to a key query *)
  Definition auth_query (ua : UARequest) (algorithm blob : bytes) : @AM U unit :=
    key <@ aret (blob_of algorithm blob) ;;
    r <@ a_exists h (ua_user ua) (ua_service ua) algorithm key ;;
    a_send_mini C rng (match r with
                       | Ok _ => Msg_UserAuth (UA_PublicKeyOk algorithm blob)
                       | _ => ua_failure
                       end).

  (** lines 131-201: [None] for [continue] *)
  Definition auth_method (ua : UARequest) : @AM U (option Auth) :=
    match ua_method ua with
    | M_None => aret (Ok (Some Auth_None))
    | M_PublicKeyBlob algorithm blob =>
      _ <@ auth_query ua algorithm blob ;;
      aret (Ok None)
    | M_PublicKeySigned algorithm key_blob signature =>
      key <@ aret (blob_of algorithm key_blob) ;;
      signature <@ aret (blob_of algorithm signature) ;;
      message <@ a_sign_data session_identifier (ua_user ua) (ua_service ua) algorithm key_blob ;;
      aret (Ok (Some (Auth_PublicKey algorithm key signature message)))
    | M_Password password => aret (Ok (Some (Auth_Password password)))
    | M_PasswordRenew _ _ | M_HostBased _ _ _ _ _ | M_Other _ _ => aret Panic
    end.

  (** lines 126-239, one turn of the loop: [Some user] ends it *)
  Definition auth_round : @AM U (option U) :=
    data <@ a_try (a_recv C) ;;
    msg <@ aret (map_err (fun _ => tt) (Message_parse data)) ;;
    u <@ aret (unwrap (into_user_auth msg)) ;;
    ua <@ aret (into_request u) ;;
    auth <@ auth_method ua ;;
    match auth with
    | None => aret (Ok None)
    | Some auth =>
      r <@ a_authenticate h (ua_user ua) (ua_service ua) auth ;;
      match r with
      | Ok user => _ <@ a_send C rng (Msg_UserAuth UA_Success) ;; aret (Ok (Some user))
      | _ => _ <@ a_send C rng ua_failure ;; aret (Ok None)
      end
    end.

  (** lines 125-240.  [None]: not finished after [fuel] turns (with as much fuel
      as there is input this does not happen, [auth_loop_ends]). *)
  Fixpoint auth_loop (fuel : nat) (st : ASt U) : option (res unit U * ASt U) :=
    match fuel with
    | O => None
    | S fuel =>
      match auth_round st with
      | (Ok (Some user), st) => Some (Ok user, st)
      | (Ok None, st) => auth_loop fuel st
      | (Err e, st) => Some (Err e, st)
      | (Panic, st) => Some (Panic, st)
      end
    end.

  (** lines 99-240 *)
  Definition auth_init (k : Conn) : ASt U :=
    {| a_conn := k; a_buf := zeros 35000; a_mini := zeros 256; a_message := zeros 1024; a_log := [] |}.
  Definition auth_phase (k : Conn) : option (res unit U * ASt U) :=
    match auth_service (auth_init k) with
    | (Ok _, st) => auth_loop (S (length (k_in k))) st
    | (Err e, st) => Some (Err e, st)
    | (Panic, st) => Some (Panic, st)
    end.
End Phase.

(** lines 90-97 *)
Definition conn_of (c : HostClient) (s : stream) (o : bytes) : Conn :=
  {| k_rd := receive_cipher c; k_wr := send_cipher c; k_in := s; k_out := o; k_sent := 0 |}.

(** How a connection attempt ends: in the handshake (with what was written), or
    in the authentication. *)
Inductive AOutcome (U : Type) :=
| AO_Handshake (panicked : bool) (written : bytes)
| AO_Auth (r : res unit U) (st : ASt U).
Arguments AO_Handshake {U}.
Arguments AO_Auth {U}.

(** lines 81-241 *)
Definition authenticate_new_client {U} (H : Host) (R : HostRng) (C : Crypto) (rng : N -> N -> bytes) (h : AHandlers U)
  (s : stream) : option (AOutcome U) :=
  match handle_new_client H R s [] with
  | (Ok c, s, o) =>
    match auth_phase C rng h (session_identifier c) (conn_of c s o) with
    | Some (r, st) => Some (AO_Auth r st)
    | None => None
    end
  | (Err _, s, o) => Some (AO_Handshake false o)
  | (Panic, s, o) => Some (AO_Handshake true o)
  end.
