(** Model of nora_ssh/src/server.rs, [Server::authenticate_new_client] (lines
    80-241) and [Server::start] (lines 60-78), with what they await of
    nora_ssh/src/host.rs, identifier.rs and packet.rs, await by await: where a login
    waits for bytes, for the transport to take some, for a handler; and logins and
    sessions ([Async]) of many connections next to each other.  [Host], [Auth],
    [Broken] and [Faults] are the same code with a login in one step. *)
From Coq Require Import Init.Byte.
From Verif Require Export Async.
Open Scope res_scope.

(** What is left to do.  A read ends with the bytes or an error, a write with
    whether all was taken.  There may be no end to it: clients may send lines
    before their identifier and requests for ever. *)
CoInductive Lg (A : Type) : Type :=
| Lg_Ret (a : A)
| Lg_Read (n : N) (k : res IoError bytes -> Lg A)    (* [io.read_exact(buf).await], of [n] bytes *)
| Lg_Write (w : bytes) (k : bool -> Lg A)            (* [io.write_all(w).await] *)
| Lg_Call (k : Lg A).                                (* a handler's future *)
Arguments Lg_Ret {A} a.
Arguments Lg_Read {A} n k.
Arguments Lg_Write {A} w k.
Arguments Lg_Call {A} k.

(** * identifier.rs, packet.rs *)
Section Readers.
  Context {A : Type}.

  (** identifier.rs:25-40.  (There is a byte if one was read.) *)
  CoFixpoint lg_scan (st : IdentState) (k : res ParseIdentError unit -> Lg A) : Lg A :=
    Lg_Read 1 (fun r =>
    match r with
    | Ok (b :: _) => match ident_step st b with None => k (Ok tt) | Some st => lg_scan st k end
    | Ok [] => k Panic
    | Err e => k (Err (Ident_Io e))
    | Panic => k Panic
    end).
  (** identifier.rs:61-83 *)
  CoFixpoint lg_body (got_cr : bool) (acc : bytes) (k : res ParseIdentError bytes -> Lg A) : Lg A :=
    Lg_Read 1 (fun r =>
    match r with
    | Ok (b :: _) =>
      match ident_body_step got_cr acc b with
      | Ok (inl acc) => k (Ok acc)
      | Ok (inr (got_cr, acc)) => lg_body got_cr acc k
      | Err e => k (Err e)
      | Panic => k Panic
      end
    | Ok [] => k Panic
    | Err e => k (Err (Ident_Io e))
    | Panic => k Panic
    end).
  (** identifier.rs:5-86 *)
  Definition lg_ident (k : res ParseIdentError bytes -> Lg A) : Lg A :=
    lg_scan St_EolLf (fun r =>
    match r with
    | Err e => k (Err e)
    | Panic => k Panic
    | Ok _ =>
      Lg_Read 4 (fun r =>
      match r with
      | Err e => k (Err (Ident_Io e))
      | Panic => k Panic
      | Ok b =>
        if negb (bytes_eqb b (B "2.0-")) then k (Err IncompatibleProtocol)
        else
          match ident_push_all [] (B "SSH-2.0-") with
          | Err e => k (Err e)
          | Panic => k Panic
          | Ok acc =>
            lg_body false acc (fun r =>
            match r with
            | Err e => k (Err e)
            | Panic => k Panic
            | Ok acc => k (ok_or (Identifier_new acc) IdentifierTooLong)
            end)
          end
      end)
    end).
  (** packet.rs:4-26 *)
  Definition lg_packet (buf : bytes) (pad : bool) (bs : BlockSize) (k : res PacketParseError bytes -> Lg A) : Lg A :=
    if negb (4 <=? len buf) then k Panic
    else
      Lg_Read 4 (fun r =>
      match r with
      | Err e => k (Err (PP_Io e))
      | Panic => k Panic
      | Ok h =>
        let buf := splice 0 h buf in
        match (h <- idx_to buf 4 ;; u32_of_slice h) with
        | Err e => k (Err e)
        | Panic => k Panic
        | Ok l =>
          if len buf <? l then k (Err (PP_TooLarge l))
          else if l <? 8 then k (Err (PP_TooSmall l))
          else
            match (t <- idx_from (E:=PacketParseError) buf 4 ;; idx_to t l) with
            | Err e => k (Err e)
            | Panic => k Panic
            | Ok _ =>
              Lg_Read l (fun r =>
              match r with
              | Ok d => k (map_err PP_WrapRaw (wrap_raw (splice 4 d buf) pad bs))
              | Err e => k (Err (PP_Io e))
              | Panic => k Panic
              end)
            end
        end
      end).
End Readers.

(** * host.rs:91-287 *)

(** What [IO] is in [Host]: given what is done with the result. *)
Definition LIO (A X : Type) : Type := (res HandleNewClientError X -> Lg A) -> Lg A.
Section HostL.
  Context {A : Type}.
  Definition lio_bind {X Y} (m : LIO A X) (f : X -> LIO A Y) : LIO A Y := fun k =>
    m (fun r => match r with Ok x => f x k | Err e => k (Err e) | Panic => k Panic end).
  Definition lio_ret {X} (r : res HandleNewClientError X) : LIO A X := fun k => k r.
  Definition lio_run {E X} (r : res E X) : LIO A X := lio_ret (unwrap r).
  Definition lio_write (b : bytes) : LIO A unit := fun k =>
    Lg_Write b (fun whole => k (if whole then Ok tt else Err H_Write)).
  Definition lio_read {E X} (f : (res E X -> Lg A) -> Lg A) (e : E -> HandleNewClientError) : LIO A X := fun k =>
    f (fun r => k (map_err e r)).
End HostL.
Declare Scope lio_scope.
Notation "x <# e ;; k" := (lio_bind e (fun x => k)) (at level 61, e at next level, right associativity) : lio_scope.
Notation "' p <# e ;; k" := (lio_bind e (fun x => match x with p => k end))
  (at level 61, p pattern, e at next level, right associativity) : lio_scope.
Open Scope lio_scope.

(** host.rs:91-287, line by line as [handle_new_client_on] *)
Definition lg_handshake {A} (H : Host) (R : HostRng) : LIO A HostClient :=
  let pkt_buf := zeros 65536 in
  (* 111-114 *)
  _ <# lio_write (ident_send (identifier H)) ;;
  (* 115-149 *)
  host_pkt <# lio_run (wrap (zeros 256) B8 true (fill_message (Msg_KexInit host_kexinit)) (pad_kexinit R)) ;;
  raw <# lio_run (E:=unit) (as_raw host_pkt) ;;
  _ <# lio_write raw ;;
  (* 151-155 *)
  client_ident <# lio_read lg_ident H_ParseIdentifierError ;;
  (* 157 *)
  h <# lio_run (E:=unit) (kd_client_id [] client_ident) ;;
  h <# lio_run (E:=unit) (kd_server_id h (identifier H)) ;;
  (* 158-163 *)
  pkt_buf <# lio_read (lg_packet pkt_buf true B8) H_PacketParseError ;;
  pl <# lio_run (E:=unit) (payload pkt_buf) ;;
  h <# lio_run (E:=unit) (kd_client_kex_init h pl) ;;
  host_pl <# lio_run (E:=unit) (payload host_pkt) ;;
  h <# lio_run (E:=unit) (kd_server_kex_init h host_pl) ;;
  (* 165-189 *)
  msg <# lio_ret (map_err H_MessageParseError (Message_parse pl)) ;;
  msg <# lio_ret (ok_or (into_kex_init msg) H_ExpectedKeyExchangeInit) ;;
  bad <# lio_run (unsupported msg) ;;
  _ <# lio_ret (if bad : bool then Err H_UnsupportedAlgorithms else Ok tt) ;;
  (* 191-193 *)
  let server_secret := ephermal R in
  let server_public := x25519_public H server_secret in
  (* 195-205 *)
  pkt_buf <# lio_read (lg_packet pkt_buf true B8) H_PacketParseError ;;
  pl <# lio_run (E:=unit) (payload pkt_buf) ;;
  msg <# lio_run (Message_parse pl) ;;
  client_public <# lio_run (into_kex_ecdh_init msg) ;;
  client_public <# lio_run (E:=unit) (arr32 client_public) ;;
  (* 217-224 *)
  ' (h, pkt_buf) <# lio_run (E:=unit) (kd_host_key h pkt_buf (host_public_key H)) ;;
  h <# lio_run (E:=unit) (kd_client_ephermal h client_public) ;;
  h <# lio_run (E:=unit) (kd_server_ephermal h server_public) ;;
  let shared_secret := x25519 H server_secret client_public in
  hash <# lio_run (E:=unit) (kd_secret (sha256 H) h shared_secret) ;;
  let '(r, s) := host_sign H hash in
  (* 226 *)
  key_material <# lio_run (KeyMaterial_new shared_secret hash) ;;
  (* 228-253 *)
  pkt_buf <# lio_run (wrap pkt_buf B8 true (fill_message (Msg_EcdhReply {|
      er_key := host_public_key H;
      er_ephermal := server_public;
      er_signature := {| sig_name := B "ecdsa-sha2-nistp256"; sig_blob := {| sb_r := r; sb_s := s |} |} |})) (pad_reply R)) ;;
  raw <# lio_run (E:=unit) (into_raw pkt_buf 0) ;;
  _ <# lio_write raw ;;
  (* 255-264 *)
  rc <# lio_run (from_key_material (sha256 H) key_material ClientToServer 3) ;;
  sc <# lio_run (from_key_material (sha256 H) key_material ServerToClient 3) ;;
  (* 266-277 *)
  pkt_buf <# lio_run (wrap pkt_buf B8 true (fill_message Msg_NewKeys) (pad_newkeys R)) ;;
  raw <# lio_run (E:=unit) (as_raw pkt_buf) ;;
  _ <# lio_write raw ;;
  (* 278-284 *)
  pkt_buf <# lio_read (lg_packet pkt_buf true B8) H_PacketParseError ;;
  pl <# lio_run (E:=unit) (payload pkt_buf) ;;
  msg <# lio_run (Message_parse pl) ;;
  _ <# lio_ret (ok_or (into_new_keys msg) H_ExpectedKeys) ;;
  (* 286 *)
  sid <# lio_run (E:=unit) (arr32 hash) ;;
  lio_ret (Ok {| receive_cipher := rc; send_cipher := sc; session_identifier := sid |}).

(** * server.rs:99-240 *)

(** How a login ends: the handshake failed, or panicked; or authentication ended
    so, with these variables.  [k_in] and [k_out] of the variables are not used
    here: the transport is outside ([Going]). *)
Inductive LResult (U : Type) := LR_Handshake (panicked : bool) | LR_Auth (r : res unit U) (st : ASt U).
Arguments LR_Handshake {U} panicked.
Arguments LR_Auth {U} r st.

Definition LM (U A X : Type) : Type := ASt U -> (res unit X -> ASt U -> Lg A) -> Lg A.
Section AuthL.
  Context {U A : Type} (C : Crypto) (rng : N -> N -> bytes) (h : AHandlers U) (session_identifier : bytes).
  Definition lm_bind {X Y} (m : LM U A X) (f : X -> LM U A Y) : LM U A Y := fun st k =>
    m st (fun r st => match r with Ok x => f x st k | Err e => k (Err e) st | Panic => k Panic st end).
  (** code that does not wait, and a handler's future *)
  Definition lm_do {X} (f : @AM U X) : LM U A X := fun st k => let '(r, st) := f st in k r st.
  Definition lm_call {X} (f : @AM U X) : LM U A X := fun st k => Lg_Call (let '(r, st) := f st in k r st).
  Definition a_set (c : Cipher) (buf : bytes) (st : ASt U) : ASt U :=
    {| a_conn := {| k_rd := c; k_wr := k_wr (a_conn st); k_in := k_in (a_conn st); k_out := k_out (a_conn st); k_sent := k_sent (a_conn st) |};
       a_buf := buf; a_mini := a_mini st; a_message := a_message st; a_log := a_log st |}.

  (** [rd_enc.recv(&mut pkt_buf, &mut rd)] (host.rs:336-365), and what is made of
      an error.  As in [Auth] a read that fails leaves the buffer alone. *)
  Definition lg_recv (f : res InError bytes -> res unit bytes) : LM U A bytes := fun st k =>
    let c := k_rd (a_conn st) in let buf := a_buf st in
    if negb (4 <=? len buf) then k (f Panic) st
    else
      Lg_Read 4 (fun r =>
      match r with
      | Err e => k (f (Err (In_Read e))) st
      | Panic => k (f Panic) st
      | Ok hd =>
        let buf := splice 0 hd buf in
        let lenb := decrypt_length C c hd in
        match u32_of_slice (E:=InError) lenb with
        | Err e => k (f (Err e)) (a_set c buf st)
        | Panic => k (f Panic) (a_set c buf st)
        | Ok l =>
          if negb (l + TAG_SIZE <=? len buf - 4) then k (f (Err (In_BufferTooSmall l))) (a_set c buf st)
          else
            Lg_Read (l + TAG_SIZE) (fun r =>
            match r with
            | Err e => k (f (Err (In_Read e))) (a_set c buf st)
            | Panic => k (f Panic) (a_set c buf st)
            | Ok d =>
              let buf := splice 4 d buf in
              match idx_to (E:=InError) buf (4 + l + TAG_SIZE) with
              | Err e => k (f (Err e)) (a_set c buf st)
              | Panic => k (f Panic) (a_set c buf st)
              | Ok data =>
                match decrypt_data C c data with
                | (Err e, (c, data)) => k (f (Err (In_Cipher e))) (a_set c (splice 0 data buf) st)
                | (Panic, (c, data)) => k (f Panic) (a_set c (splice 0 data buf) st)
                | (Ok _, (c, data)) =>
                  let buf := splice 0 (splice 0 lenb data) buf in
                  k (f (p <- map_err In_Packet (wrap_raw buf false bs_of_cipher) ;; payload p)) (a_set c buf st)
                end
              end
            end)
        end
      end).

  (** [wr_enc.send(..).await.unwrap()] with host.rs:303-330: lines 109-117,
      155-163 ([mini]), 207-215, 229-237 *)
  Definition lg_send (mini : bool) (m : Message) : LM U A unit := fun st k =>
    let conn := a_conn st in
    match Out_send C (k_wr conn) (if mini then a_mini st else a_buf st) (fill_message m) (rng (k_sent conn)) with
    | Err e => k (Err e) st
    | Panic => k Panic st
    | Ok (w, c, buf) =>
      Lg_Write w (fun whole =>
      k (if whole then Ok tt else Panic)
        {| a_conn := {| k_rd := k_rd conn; k_wr := c; k_in := k_in conn; k_out := k_out conn; k_sent := k_sent conn + 1 |};
           a_buf := if mini then a_buf st else buf; a_mini := if mini then buf else a_mini st;
           a_message := a_message st; a_log := a_log st ++ if whole then [AE_Sent m] else [] |})
    end.
End AuthL.
Declare Scope lm_scope.
Notation "x <& e ;; k" := (lm_bind e (fun x => k)) (at level 61, e at next level, right associativity) : lm_scope.
Open Scope lm_scope.

Section PhaseL.
  Context {U A : Type} (C : Crypto) (rng : N -> N -> bytes) (h : AHandlers U) (session_identifier : bytes).
  Notation ret r := (lm_do (aret r)).

  (** lines 103-121 *)
  Definition lg_service : LM U A unit :=
    data <& lg_recv C unwrap ;;
    msg <& ret (unwrap (Message_parse data)) ;;
    srv <& ret (unwrap (into_service_request msg)) ;;
    if bytes_eqb srv (B "ssh-userauth") then lg_send C rng true (Msg_ServiceAccept srv)
    else ret Panic.
  (** lines 131-201 *)
  Definition lg_method (ua : UARequest) : LM U A (option Auth) := fun st k =>
    match ua_method ua with
    | M_None => ret (Ok (Some Auth_None)) st k
    | M_PublicKeyBlob algorithm blob =>
      (key <& ret (blob_of algorithm blob) ;;
       r <& lm_call (a_exists h (ua_user ua) (ua_service ua) algorithm key) ;;
       _ <& lg_send C rng true (match r with
                                | Ok _ => Msg_UserAuth (UA_PublicKeyOk algorithm blob)
                                | _ => ua_failure
                                end) ;;
       ret (Ok None)) st k
    | M_PublicKeySigned algorithm key_blob signature =>
      (key <& ret (blob_of algorithm key_blob) ;;
       signature <& ret (blob_of algorithm signature) ;;
       message <& lm_do (a_sign_data session_identifier (ua_user ua) (ua_service ua) algorithm key_blob) ;;
       ret (Ok (Some (Auth_PublicKey algorithm key signature message)))) st k
    | M_Password password => ret (Ok (Some (Auth_Password password))) st k
    | M_PasswordRenew _ _ | M_HostBased _ _ _ _ _ | M_Other _ _ => ret Panic st k
    end.
  (** lines 203-238 *)
  Definition lg_answer (ua : UARequest) (auth : option Auth) : LM U A (option U) := fun st k =>
    match auth with
    | None => ret (Ok None) st k
    | Some auth =>
      (r <& lm_call (a_authenticate h (ua_user ua) (ua_service ua) auth) ;;
       fun st k =>
       match r with
       | Ok user => (_ <& lg_send C rng false (Msg_UserAuth UA_Success) ;; ret (Ok (Some user))) st k
       | _ => (_ <& lg_send C rng false ua_failure ;; ret (Ok None)) st k
       end) st k
    end.
  (** lines 126-239 *)
  Definition lg_round : LM U A (option U) :=
    data <& lg_recv C (map_err (fun _ => tt)) ;;
    msg <& ret (map_err (fun _ => tt) (Message_parse data)) ;;
    u <& ret (unwrap (into_user_auth msg)) ;;
    ua <& ret (into_request u) ;;
    auth <& lg_method ua ;;
    lg_answer ua auth.
End PhaseL.

Section LoginL.
  Context {U : Type} (H : Host) (R : HostRng) (C : Crypto) (rng : N -> N -> bytes) (h : AHandlers U).

  (** lines 125-240 *)
  CoFixpoint lg_loop (session_identifier : bytes) (st : ASt U) : Lg (LResult U) :=
    lg_round C rng h session_identifier st (fun r st =>
    match r with
    | Ok (Some user) => Lg_Ret (LR_Auth (Ok user) st)
    | Ok None => lg_loop session_identifier st
    | Err e => Lg_Ret (LR_Auth (Err e) st)
    | Panic => Lg_Ret (LR_Auth Panic st)
    end).
  (** lines 99-240 *)
  Definition lg_phase (session_identifier : bytes) (k : Conn) : Lg (LResult U) :=
    lg_service C rng (auth_init k) (fun r st =>
    match r with
    | Ok _ => lg_loop session_identifier st
    | Err e => Lg_Ret (LR_Auth (Err e) st)
    | Panic => Lg_Ret (LR_Auth Panic st)
    end).
  (** lines 81-241 *)
  Definition lg_login : Lg (LResult U) :=
    lg_handshake H R (fun r =>
    match r with
    | Ok c => lg_phase (session_identifier c) (conn_of c [] [])
    | Err _ => Lg_Ret (LR_Handshake false)
    | Panic => Lg_Ret (LR_Handshake true)
    end).
End LoginL.

(** * Running *)

(** What is left to do, what the client still sends, what was written. *)
Record Going (A : Type) := { g_co : Lg A; g_in : stream; g_out : bytes }.
Arguments g_co {A}. Arguments g_in {A}. Arguments g_out {A}.

(** What happens next, as [PEv].  Code that does not wait runs on at once. *)
Inductive LEv :=
| L_Run                   (* nothing was to be read, or to be written *)
| L_Arrive (n : N)
| L_End
| L_Answer
| L_Taken (n : N)
| L_Broken.

Section RunL.
  Context {A : Type} (lim : N).
  Definition g_step (e : LEv) (g : Going A) : option (Going A) :=
    let go co s o := Some {| g_co := co; g_in := s; g_out := o |} in
    let s := g_in g in let o := g_out g in
    match e, g_co g with
    | L_Run, Lg_Read n k => if n =? 0 then go (k (Ok [])) s o else None
    | L_Run, Lg_Write w k => if is_empty w then go (k true) s o else None
    | L_Arrive i, Lg_Read n k =>
      if (0 <? i) && (i <=? n) && (i <=? len s) then
        let d := ntake i s in
        go (if i =? n then k (Ok d)
            else Lg_Read (n - i) (fun r => k (match r with Ok d' => Ok (d ++ d') | Err e => Err e | Panic => Panic end)))
           (ndrop i s) o
      else None
    | L_End, Lg_Read n k => if (0 <? n) && is_empty s then go (k (Err UnexpectedEof)) s o else None
    | L_Answer, Lg_Call k => go k s o
    | L_Taken i, Lg_Write w k =>
      if (0 <? i) && (i <=? len w) && (len o + i <=? lim) then
        go (if i =? len w then k true else Lg_Write (ndrop i w) k) s (o ++ ntake i w)
      else None
    | L_Broken, Lg_Write w k => if negb (is_empty w) && (lim <=? len o) then go (k false) s o else None
    | _, _ => None
    end.
  Fixpoint g_run (es : list LEv) (g : Going A) : option (Going A) :=
    match es with
    | [] => Some g
    | e :: es => match g_step e g with Some g => g_run es g | None => None end
    end.
End RunL.

(** How it ended, with the transport. *)
Definition with_io {U} (s : stream) (o : bytes) (st : ASt U) : ASt U :=
  {| a_conn := {| k_rd := k_rd (a_conn st); k_wr := k_wr (a_conn st); k_in := s; k_out := o; k_sent := k_sent (a_conn st) |};
     a_buf := a_buf st; a_mini := a_mini st; a_message := a_message st; a_log := a_log st |}.
Definition l_outcome {U} (x : LResult U) (s : stream) (o : bytes) : AOutcome U :=
  match x with
  | LR_Handshake panicked => AO_Handshake panicked o
  | LR_Auth r st => AO_Auth r (with_io s o st)
  end.

(** * [Server::start] (lines 60-78) *)

(** As [Task]: logging in, a client, not let in, over. *)
Inductive Lane (U : Type) :=
| Ln_Login (g : Going (LResult U))
| Ln_Client (u : U) (a : ASt U) (l : Loop)
| Ln_Refused (out : AOutcome U)
| Ln_Over (u : U) (a : ASt U) (st : SSt).
Arguments Ln_Login {U}. Arguments Ln_Client {U}. Arguments Ln_Refused {U}. Arguments Ln_Over {U}.
(** A connection is accepted (its client will send [s]); something that a login
    or a client awaits. *)
Inductive LvEv := LV_Accept (s : stream) | LV_Login (i : N) (e : LEv) | LV_Client (i : N) (e : PEv).

Section ServerL.
  Context {U : Type} (H : Host) (C : Crypto) (P : N -> Peer U) (L : N -> N).

  (** lines 65-68 *)
  Definition lane_new (p : Peer U) (s : stream) : Lane U :=
    Ln_Login {| g_co := lg_login H (p_host_rng p) C (p_rng p) (p_auth p); g_in := s; g_out := [] |}.
  (** lines 69-73 *)
  Definition lane_login (lim : N) (p : Peer U) (e : LEv) (g : Going (LResult U)) : option (res unit (Lane U)) :=
    match g_step lim e g with
    | None => None
    | Some g =>
      match g_co g with
      | Lg_Ret x =>
        match l_outcome x (g_in g) (g_out g) with
        | AO_Handshake true _ => Some Panic
        | AO_Handshake false o => Some (Ok (Ln_Refused (AO_Handshake false o)))
        | AO_Auth (Ok u) a => Some (Ok (Ln_Client u a (loop_init C (p_rng p) (p_session p u) (a_conn a))))
        | AO_Auth (Err e) a => Some (Ok (Ln_Refused (AO_Auth (Err e) a)))
        | AO_Auth Panic _ => Some Panic
        end
      | _ => Some (Ok (Ln_Login g))
      end
    end.
  (** lines 71 and 74 *)
  Definition lane_client (lim : N) (p : Peer U) (e : PEv) (u : U) (a : ASt U) (l : Loop) : option (res unit (Lane U)) :=
    match p_step lim C (p_rng p) (p_session p u) e l with
    | Some (O_Goes l) => Some (Ok (Ln_Client u a l))
    | Some (O_Over Panic _) | Some O_Clash => Some Panic
    | Some (O_Over _ st) => Some (Ok (Ln_Over u a st))
    | None => None
    end.
  Definition lane_set (i : N) (ls : list (Lane U)) (x : option (res unit (Lane U))) : option (res unit (list (Lane U))) :=
    match x with
    | Some (Ok l) => Some (Ok (set_at i l ls))
    | Some (Err e) => Some (Err e)
    | Some Panic => Some Panic
    | None => None
    end.
  (** lines 64-76; all connections are polled by it, so a panic ends them all *)
  Definition lv_step (e : LvEv) (ls : list (Lane U)) : option (res unit (list (Lane U))) :=
    match e with
    | LV_Accept s => Some (Ok (ls ++ [lane_new (P (len ls)) s]))
    | LV_Login i e => match get_at i ls with Some (Ln_Login g) => lane_set i ls (lane_login (L i) (P i) e g) | _ => None end
    | LV_Client i e => match get_at i ls with Some (Ln_Client u a l) => lane_set i ls (lane_client (L i) (P i) e u a l) | _ => None end
    end.
  Fixpoint lv_run (es : list LvEv) (ls : list (Lane U)) : option (res unit (list (Lane U))) :=
    match es with
    | [] => Some (Ok ls)
    | e :: es =>
      match lv_step e ls with
      | Some (Ok ls) => lv_run es ls
      | x => x
      end
    end.
End ServerL.
