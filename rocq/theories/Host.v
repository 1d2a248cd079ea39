(** Model of nora_ssh/src/host.rs, [Host::handle_new_client].
    [Out], [In] and their methods are in [Channel]. *)
From Coq Require Import Init.Byte.
From Verif Require Export Ident Kex MMessage.
Open Scope res_scope.

(** host.rs:290-301 ([Read] is never made).  [H_Write] occurs in [Write] only:
    here writes succeed. *)
Inductive HandleNewClientError :=
| H_ParseIdentifierError (e : ParseIdentError)
| H_MessageParseError (e : MessageError)
| H_PacketParseError (e : PacketParseError)
| H_ExpectedKeyExchangeInit
| H_UnsupportedAlgorithms
| H_ExpectedKeys
| H_Write.

(** * A connection being set up: what the client still sends, what was written. *)
Definition IO (A : Type) : Type := stream -> bytes -> res HandleNewClientError A * stream * bytes.
Definition io_bind {A C} (m : IO A) (k : A -> IO C) : IO C := fun s o =>
  match m s o with
  | (Ok a, s, o) => k a s o
  | (Err e, s, o) => (Err e, s, o)
  | (Panic, s, o) => (Panic, s, o)
  end.
Definition io_ret {A} (r : res HandleNewClientError A) : IO A := fun s o => (r, s, o).
(** code that cannot return early, only panic *)
Definition io_run {E A} (r : res E A) : IO A := io_ret (unwrap r).
(** [write_all(b)] *)
Definition io_write (b : bytes) : IO unit := fun s o => (Ok tt, s, o ++ b).
(** a reader, with its error mapped *)
Definition io_read {E A} (f : stream -> res E A * stream) (e : E -> HandleNewClientError) : IO A := fun s o =>
  let '(r, s) := f s in (map_err e r, s, o).
Declare Scope io_scope.
Notation "x <! e ;; k" := (io_bind e (fun x => k)) (at level 61, e at next level, right associativity) : io_scope.
Notation "' p <! e ;; k" := (io_bind e (fun x => match x with p => k end))
  (at level 61, p pattern, e at next level, right associativity) : io_scope.

(** * The host (host.rs:70-78) and the primitives it calls *)
Record Host := {
  identifier : bytes;
  (** [host_key.public.to_encoded_point(false)] *)
  host_q : bytes;
  (** [host_key.secret.sign(&hash)] split in r and s *)
  host_sign : bytes -> bytes * bytes;
  (** SHA-256 *)
  sha256 : bytes -> bytes;
  (** [PublicKey::from(&secret)], and [secret.diffie_hellman(&public)] *)
  x25519_public : bytes -> bytes;
  x25519 : bytes -> bytes -> bytes }.
(** What the [rng] argument yields: the paddings of the three packets and the
    ephemeral secret.  (The code draws them from one generator in the order
    padding, secret, padding, padding.) *)
Record HostRng := { pad_kexinit : N -> bytes; ephermal : bytes; pad_reply : N -> bytes; pad_newkeys : N -> bytes }.

(** host.rs:375-379 *)
Record HostClient := { receive_cipher : Cipher; send_cipher : Cipher; session_identifier : bytes }.

(** [|buf| msg.serialize(buf).unwrap().0.len()] *)
Definition fill_message (m : Message) : Fill := fun buf =>
  '(w, r) <- unwrap (Message_serialize m buf) ;; Ok (len w, w ++ r).

(** host.rs:121-138 *)
Definition host_kexinit : KeyExchangeInit := {|
  ki_cookie := B "nomnommunchmunch";
  ki_kex_algorithms := B "curve25519-sha256";
  ki_server_host_key_algorithms := B "ecdsa-sha2-nistp256";
  ki_enc_c2s := B "chacha20-poly1305@openssh.com";
  ki_enc_s2c := B "chacha20-poly1305@openssh.com";
  ki_comp_c2s := B "none"; ki_comp_s2c := B "none";
  ki_mac_c2s := B "none"; ki_mac_s2c := B "none";
  ki_lang_c2s := []; ki_lang_s2c := [];
  ki_first_kex_packet_follows := false |}.

(** key_exchange.rs:6, cipher/mod.rs:7, host.rs:52-54, 393-397 *)
Definition ALGORITHM_NAMES : list bytes := [B "curve25519-sha256"].
Definition CIPHER_NAMES : list bytes := [B "chacha20-poly1305@openssh.com"].
Definition host_key_name : bytes := B "ecdsa-sha2-nistp256".

(** [l.iter().any(|s| names.iter().any(|&t| t == s))] *)
Definition any_in (names : list bytes) (l : bytes) : res unit bool :=
  ns <- NameList_collect (S (length l)) l ;;
  Ok (existsb (fun s => existsb (fun t => bytes_eqb t s) names) ns).

(** message/mod.rs: [into_kex_init], [into_kex_ecdh_init], [into_new_keys]
    (macro [msg], mod.rs:136-192) *)
Definition into_kex_init (m : Message) : res unit KeyExchangeInit :=
  match m with Msg_KexInit k => Ok k | _ => Err tt end.
Definition into_kex_ecdh_init (m : Message) : res unit bytes :=
  match m with Msg_EcdhInit k => Ok k | _ => Err tt end.
Definition into_new_keys (m : Message) : res unit unit :=
  match m with Msg_NewKeys => Ok tt | _ => Err tt end.

(** host.rs:207-215 *)
Definition host_public_key (H : Host) : Key :=
  {| key_name := B "ecdsa-sha2-nistp256";
     key_blob := {| kb_identifier := B "nistp256"; kb_q := host_q H |} |}.

(** host.rs:169-187: [true] when an algorithm is missing.  [||] evaluates the
    second operand only if the first is false. *)
Definition unsupported (msg : KeyExchangeInit) : res unit bool :=
  a <- any_in ALGORITHM_NAMES (ki_kex_algorithms msg) ;;
  if negb a then Ok true else
  b <- any_in [host_key_name] (ki_server_host_key_algorithms msg) ;;
  if negb b then Ok true else
  c <- any_in CIPHER_NAMES (ki_enc_c2s msg) ;;
  if negb c then Ok true else
  d <- any_in CIPHER_NAMES (ki_enc_s2c msg) ;;
  Ok (negb d).

Open Scope io_scope.
(** host.rs:91-287, over any [write_all] *)
Definition handle_new_client_on (io_write : bytes -> IO unit) (H : Host) (R : HostRng) : IO HostClient :=
  let pkt_buf := zeros 65536 in
  (* 111-114 *)
  _ <! io_write (ident_send (identifier H)) ;;
  (* 115-149 *)
  host_pkt <! io_run (wrap (zeros 256) B8 true (fill_message (Msg_KexInit host_kexinit)) (pad_kexinit R)) ;;
  raw <! io_run (E:=unit) (as_raw host_pkt) ;;
  _ <! io_write raw ;;
  (* 151-155 *)
  client_ident <! io_read ident_parse H_ParseIdentifierError ;;
  (* 157 *)
  h <! io_run (E:=unit) (kd_client_id [] client_ident) ;;
  h <! io_run (E:=unit) (kd_server_id h (identifier H)) ;;
  (* 158-163 *)
  pkt_buf <! io_read (fun s => packet_parse pkt_buf s true B8) H_PacketParseError ;;
  pl <! io_run (E:=unit) (payload pkt_buf) ;;
  h <! io_run (E:=unit) (kd_client_kex_init h pl) ;;
  host_pl <! io_run (E:=unit) (payload host_pkt) ;;
  h <! io_run (E:=unit) (kd_server_kex_init h host_pl) ;;
  (* 165-189 *)
  msg <! io_ret (map_err H_MessageParseError (Message_parse pl)) ;;
  msg <! io_ret (ok_or (into_kex_init msg) H_ExpectedKeyExchangeInit) ;;
  bad <! io_run (unsupported msg) ;;
  _ <! io_ret (if bad : bool then Err H_UnsupportedAlgorithms else Ok tt) ;;
  (* 191-193 *)
  let server_secret := ephermal R in
  let server_public := x25519_public H server_secret in
  (* 195-205 *)
  pkt_buf <! io_read (fun s => packet_parse pkt_buf s true B8) H_PacketParseError ;;
  pl <! io_run (E:=unit) (payload pkt_buf) ;;
  msg <! io_run (Message_parse pl) ;;
  client_public <! io_run (into_kex_ecdh_init msg) ;;
  client_public <! io_run (E:=unit) (arr32 client_public) ;;
  (* 217-224 *)
  ' (h, pkt_buf) <! io_run (E:=unit) (kd_host_key h pkt_buf (host_public_key H)) ;;
  h <! io_run (E:=unit) (kd_client_ephermal h client_public) ;;
  h <! io_run (E:=unit) (kd_server_ephermal h server_public) ;;
  let shared_secret := x25519 H server_secret client_public in
  hash <! io_run (E:=unit) (kd_secret (sha256 H) h shared_secret) ;;
  let '(r, s) := host_sign H hash in
  (* 226 *)
  key_material <! io_run (KeyMaterial_new shared_secret hash) ;;
  (* 228-253 *)
  pkt_buf <! io_run (wrap pkt_buf B8 true (fill_message (Msg_EcdhReply {|
      er_key := host_public_key H;
      er_ephermal := server_public;
      er_signature := {| sig_name := B "ecdsa-sha2-nistp256"; sig_blob := {| sb_r := r; sb_s := s |} |} |})) (pad_reply R)) ;;
  raw <! io_run (E:=unit) (into_raw pkt_buf 0) ;;
  _ <! io_write raw ;;
  (* 255-264 *)
  rc <! io_run (from_key_material (sha256 H) key_material ClientToServer 3) ;;
  sc <! io_run (from_key_material (sha256 H) key_material ServerToClient 3) ;;
  (* 266-277 *)
  pkt_buf <! io_run (wrap pkt_buf B8 true (fill_message Msg_NewKeys) (pad_newkeys R)) ;;
  raw <! io_run (E:=unit) (as_raw pkt_buf) ;;
  _ <! io_write raw ;;
  (* 278-284 *)
  pkt_buf <! io_read (fun s => packet_parse pkt_buf s true B8) H_PacketParseError ;;
  pl <! io_run (E:=unit) (payload pkt_buf) ;;
  msg <! io_run (Message_parse pl) ;;
  _ <! io_ret (ok_or (into_new_keys msg) H_ExpectedKeys) ;;
  (* 286 *)
  sid <! io_run (E:=unit) (arr32 hash) ;;
  io_ret (Ok {| receive_cipher := rc; send_cipher := sc; session_identifier := sid |}).
(** ... over one that succeeds *)
Definition handle_new_client : Host -> HostRng -> IO HostClient := handle_new_client_on io_write.
