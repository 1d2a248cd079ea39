(** Specification of what ties connections apart: C95-C97. *)
From Coq Require Import Init.Byte.
From Verif Require Export SpecAuth Sshd.

(** Two byte strings that [hash] does not tell apart. *)
Definition collision (hash : bytes -> bytes) (a b : bytes) : Prop := a <> b /\ hash a = hash b.

(** The client's part of a completed handshake in the stream [s]: identification
    [vc], KEXINIT payload [ic] and ephemeral key [qc]; [rest] comes after it. *)
Definition client_sent (s vc ic qc rest : bytes) : Prop :=
  exists pre raw1 k ec raw2 raw3, s = pre ++ vc ++ crlf ++ raw1 ++ raw2 ++ raw3 ++ rest /\ ident_ok vc /\
    plain_packet ic raw1 /\ is_wire (Msg_KexInit k) ic /\
    plain_packet ec raw2 /\ is_wire (Msg_EcdhInit qc) ec /\ len qc = 32 /\
    plain_packet (wire Msg_NewKeys) raw3.

(** Two handshakes of [H], with secrets [e1] and [e2], in which the client sent
    the same and the server had the same ephemeral key and shared secret. *)
Definition same_exchange (H : Host) (e1 vc1 ic1 qc1 e2 vc2 ic2 qc2 : bytes) : Prop :=
  vc1 = vc2 /\ ic1 = ic2 /\ qc1 = qc2 /\ x25519_public H e1 = x25519_public H e2 /\
  be_value (x25519 H e1 qc1) = be_value (x25519 H e2 qc2).
(** What is hashed for the exchange hash is different, but the hash is not. *)
Definition exchange_collision (H : Host) (e1 vc1 ic1 qc1 e2 vc2 ic2 qc2 : bytes) : Prop :=
  collision (sha256 H) (exchange_bytes (transcript_of H e1 vc1 ic1 qc1)) (exchange_bytes (transcript_of H e2 vc2 ic2 qc2)).

(** The four keys of a connection, and what is hashed for them. *)
Definition keys (c : HostClient) : list bytes :=
  [key_data (receive_cipher c); key_length (receive_cipher c); key_data (send_cipher c); key_length (send_cipher c)].
Definition key_inputs (K : N) (c : HostClient) : list bytes :=
  let h := session_identifier c in
  [block_input K h (letter Enc_c2s) h []; block_input K h (letter Enc_c2s) h [key_data (receive_cipher c)];
   block_input K h (letter Enc_s2c) h []; block_input K h (letter Enc_s2c) h [key_data (send_cipher c)]].

(** One of [as_] and one of [bs] are different, but their hash is not. *)
Definition some_collision (hash : bytes -> bytes) (as_ bs : list bytes) : Prop :=
  exists a b, In a as_ /\ In b bs /\ collision hash a b.

(** The example server's answer to this attempt is a panic. *)
Definition fatal_login (ed : Ed25519) (user : bytes) (auth : Auth) : Prop :=
  match auth with
  | Auth_None => False
  | Auth_Password _ => True
  | Auth_PublicKey alg key sg msg =>
    alg = B "ssh-ed25519" /\ ed_key ed key = true /\ ed_signature ed sg = true /\ ed_verify ed key msg sg = true /\ ~ text_ok user
  end.
