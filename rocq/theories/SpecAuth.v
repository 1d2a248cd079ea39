(** Specification of the authentication phase (RFC 4252). *)
From Coq Require Import Init.Byte.
From Verif Require Export SpecHost Auth.

(** * What goes over an encrypted connection *)

(** The stream [s] starts with frames of the payloads [pls], numbered from the
    counter of [c] on; [rest] follows. *)
Definition received_as (C : Crypto) (c : Cipher) (s : bytes) (pls : list bytes) (rest : bytes) : Prop :=
  exists ws, s = concat ws ++ rest /\ numbered C c (counter c) pls ws.
(** [o] is what [o0] was, followed by frames of [pls]. *)
Definition written_as (C : Crypto) (c : Cipher) (o0 : bytes) (pls : list bytes) (o : bytes) : Prop :=
  exists ws, o = o0 ++ concat ws /\ numbered C c (counter c) pls ws.

(** The next frame of [s] carries [pl] and fits a buffer of [size] bytes. *)
Definition next_payload (C : Crypto) (c : Cipher) (size : N) (s pl : bytes) : Prop :=
  exists pad raw rest, loose_packet pl pad raw /\ s = seal_with C c raw ++ rest /\ len raw + 16 <= size.

(** * RFC 4252 section 7 *)
(** What a client signs. *)
Definition sign_data (session user service algorithm blob : bytes) : bytes :=
  enc [FStr session; FByte 50; FStr user; FStr service; FStr (B "publickey"); FBool true; FStr algorithm; FStr blob].
(** Public key and signature blobs: the algorithm's name and its data. *)
Definition named (algorithm data : bytes) : bytes := enc [FStr algorithm; FStr data].

(** * Rounds *)
Section Rounds.
  Context {U : Type}.
  (** A query whether a key would do, or an attempt to authenticate. *)
  Inductive round :=
  | Query (user service algorithm key : bytes) (accepted : bool)
  | Attempt (user service : bytes) (auth : Auth) (result : option U).

  (** The request that causes a round in session [sid]. *)
  Definition causes (sid : bytes) (q : UARequest) (r : round) : Prop :=
    match r with
    | Query user service algorithm key _ =>
      q = {| ua_user := user; ua_service := service; ua_method := M_PublicKeyBlob algorithm (named algorithm key) |}
    | Attempt user service Auth_None _ => q = {| ua_user := user; ua_service := service; ua_method := M_None |}
    | Attempt user service (Auth_Password p) _ => q = {| ua_user := user; ua_service := service; ua_method := M_Password p |}
    | Attempt user service (Auth_PublicKey algorithm key signature message) _ =>
      q = {| ua_user := user; ua_service := service;
             ua_method := M_PublicKeySigned algorithm (named algorithm key) (named algorithm signature) |} /\
      message = sign_data sid user service algorithm (named algorithm key)
    end.

  (** The one handler call and the one reply of a round. *)
  Definition call (r : round) : AEvent U :=
    match r with
    | Query user service algorithm key ok => AE_Exists user service algorithm key (if ok then Ok tt else Err tt)
    | Attempt user service auth result =>
      AE_Authenticate user service auth (match result with Some u => Ok u | None => Err tt end)
    end.
  Definition failure : Message := Msg_UserAuth (UA_Failure (B "publickey,password") false).
  Definition reply (r : round) : Message :=
    match r with
    | Query _ _ algorithm key true => Msg_UserAuth (UA_PublicKeyOk algorithm (named algorithm key))
    | Attempt _ _ _ (Some _) => Msg_UserAuth UA_Success
    | _ => failure
    end.
  Definition events (r : round) : list (AEvent U) := [call r; AE_Sent (reply r)].
  Definition successful (r : round) : Prop := exists user service auth u, r = Attempt user service auth (Some u).

  (** Every call in the log got the answer the handler gives after what the log
      has before it. *)
  Definition answered_by (h : AHandlers U) (log : list (AEvent U)) : Prop :=
    forall pre e post, log = pre ++ e :: post ->
    match e with
    | AE_Exists user service algorithm key r => r = h_exists h pre user service algorithm key
    | AE_Authenticate user service auth r => r = h_authenticate h pre user service auth
    | AE_Sent _ => True
    end.

  (** The messages in a log. *)
  Definition sent (log : list (AEvent U)) : list Message :=
    flat_map (fun e => match e with AE_Sent m => [m] | _ => [] end) log.

  (** ** Input that ends the authentication without success *)
  (** ... with an error: no intact frame, a payload that is no message, a user
      authentication message that is no request, or a blob that does not hold
      the algorithm of the request and one more string. *)
  Definition malformed (q : UARequest) : Prop :=
    match ua_method q with
    | M_PublicKeyBlob algorithm blob => forall key, blob <> named algorithm key
    | M_PublicKeySigned algorithm blob signature =>
      (forall key, blob <> named algorithm key) \/ (forall s, signature <> named algorithm s)
    | _ => False
    end.
  Definition declined (C : Crypto) (c : Cipher) (s : bytes) : Prop :=
    forall pl, next_payload C c 35000 s pl ->
      (forall m, is_wire m pl -> exists r, m = Msg_EcdhReply r) \/
      (exists u, is_wire (Msg_UserAuth u) pl /\ forall q, u <> UA_Request q) \/
      (exists q, is_wire (Msg_UserAuth (UA_Request q)) pl /\ malformed q).

  (** ... with a panic: another message; a method that is not implemented; data
      to sign that exceeds 1024 bytes; an accepted key whose echo exceeds the
      small buffer; a handler that panics.  [log] is what happened before and
      [tail] the last call, if any. *)
  Definition fatal_request (sid : bytes) (q : UARequest) (tail : list (AEvent U)) : Prop :=
    match ua_method q with
    | M_PasswordRenew _ _ | M_HostBased _ _ _ _ _ | M_Other _ _ => tail = []
    | M_None => tail = [AE_Authenticate (ua_user q) (ua_service q) Auth_None Panic]
    | M_Password p => tail = [AE_Authenticate (ua_user q) (ua_service q) (Auth_Password p) Panic]
    | M_PublicKeyBlob algorithm blob => exists key, blob = named algorithm key /\
        (tail = [AE_Exists (ua_user q) (ua_service q) algorithm key Panic] \/
         tail = [AE_Exists (ua_user q) (ua_service q) algorithm key (Ok tt)] /\ 218 < len algorithm + len blob)
    | M_PublicKeySigned algorithm blob signature => exists key s, blob = named algorithm key /\ signature = named algorithm s /\
        let data := sign_data sid (ua_user q) (ua_service q) algorithm blob in
        (tail = [] /\ 1024 < len data \/
         tail = [AE_Authenticate (ua_user q) (ua_service q) (Auth_PublicKey algorithm key s data) Panic])
    end.
  Definition fatal (C : Crypto) (c : Cipher) (sid s : bytes) (tail : list (AEvent U)) : Prop :=
    exists pl, next_payload C c 35000 s pl /\
      ((exists m, is_wire m pl /\ (forall u, m <> Msg_UserAuth u) /\ (forall r, m <> Msg_EcdhReply r) /\ tail = []) \/
       (exists q, is_wire (Msg_UserAuth (UA_Request q)) pl /\ fatal_request sid q tail)).
  (** ... and before any request: anything but a request for the service. *)
  Definition no_service (C : Crypto) (c : Cipher) (s : bytes) : Prop :=
    forall pl, next_payload C c 35000 s pl -> ~ is_wire (Msg_ServiceRequest (B "ssh-userauth")) pl.

  (** ** The outcome of the authentication phase of a connection [k] *)
  Definition auth_outcome (C : Crypto) (h : AHandlers U) (sid : bytes) (k : Conn) (r : res unit U) (st : ASt U) : Prop :=
    (* the log tells what the handlers answered and what was written *)
    answered_by h (a_log st) /\
    written_as C (k_wr k) (k_out k) (map wire (sent (a_log st))) (k_out (a_conn st)) /\
    (* either there was no request for the service and nothing happened, *)
    (r = Panic /\ a_log st = [] /\ no_service C (k_rd k) (k_in k) \/
     (* or there was, and then a round for every further payload, *)
     exists pl pls rounds tail rest,
       received_as C (k_rd k) (k_in k) (pl :: pls) rest /\
       is_wire (Msg_ServiceRequest (B "ssh-userauth")) pl /\
       Forall2 (fun pl rd => exists q, is_wire (Msg_UserAuth (UA_Request q)) pl /\ causes sid q rd) pls rounds /\
       a_log st = AE_Sent (Msg_ServiceAccept (B "ssh-userauth")) :: concat (map events rounds) ++ tail /\
       match r with
       (* the last of which was successful and the only such, *)
       | Ok u => tail = [] /\ k_in (a_conn st) = rest /\ k_rd (a_conn st) = later (len (pl :: pls)) (k_rd k) /\
           k_wr (a_conn st) = later (len (sent (a_log st))) (k_wr k) /\
           exists rds user service auth, rounds = rds ++ [Attempt user service auth (Some u)] /\ Forall (fun rd => ~ successful rd) rds
       (* or none of which was, and what follows ends the authentication. *)
       | Err _ => tail = [] /\ Forall (fun rd => ~ successful rd) rounds /\ declined C (later (len (pl :: pls)) (k_rd k)) rest
       | Panic => Forall (fun rd => ~ successful rd) rounds /\ fatal C (later (len (pl :: pls)) (k_rd k)) sid rest tail
       end).
End Rounds.
Arguments round : clear implicits.
