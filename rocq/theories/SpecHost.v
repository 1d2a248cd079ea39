(** Specification of the server side of the transport handshake. *)
From Coq Require Import Init.Byte.
From Verif Require Export SpecPacket SpecChannel SpecIdent SpecKex Host.

(** A packet as the receiver accepts it, unencrypted (block size 8, counted
    with the length field): at least 8 bytes, any amount of padding. *)
Definition plain_packet (pl raw : bytes) : Prop :=
  exists pad, raw = be32 (1 + len pl + len pad) ++ [n2b (len pad)] ++ pl ++ pad /\
    len pad <= 255 /\ 8 <= 1 + len pl + len pad /\ 1 + len pl + len pad < 2 ^ 32 /\
    aligned 8 true (1 + len pl + len pad).

(** [s] starts with one that fits the 65536 bytes the handshake reserves. *)
Definition starts_packet (s : bytes) : Prop :=
  exists pl raw s', s = raw ++ s' /\ plain_packet pl raw /\ len raw <= 65536.
(** [s] starts with a packet length that passes the length check but leaves
    no room for the length field itself. *)
Definition too_long (s : bytes) : Prop := 4 <= len s /\ 65533 <= be_value (ntake 4 s) <= 65536.

(** The sizes the primitives have. *)
Definition host_ok (H : Host) : Prop :=
  hash_ok (sha256 H) /\ (forall k, len (x25519_public H k) = 32) /\ (forall k q, len (x25519 H k q) = 32) /\
  (forall m, len (fst (host_sign H m)) = 32 /\ len (snd (host_sign H m)) = 32) /\
  len (host_q H) = 65 /\ len (identifier H) <= 253.
Definition host_rng_ok (R : HostRng) : Prop :=
  rng_ok (pad_kexinit R) /\ rng_ok (pad_reply R) /\ rng_ok (pad_newkeys R) /\ len (ephermal R) = 32.

(** [n] is one of the names in the name-list [l]. *)
Definition lists (l n : bytes) : Prop := exists ns, Forall name_ok ns /\ l = join ns /\ In n ns.
Definition acceptable (k : KeyExchangeInit) : Prop :=
  lists (ki_kex_algorithms k) (B "curve25519-sha256") /\
  lists (ki_server_host_key_algorithms k) (B "ecdsa-sha2-nistp256") /\
  lists (ki_enc_c2s k) (B "chacha20-poly1305@openssh.com") /\
  lists (ki_enc_s2c k) (B "chacha20-poly1305@openssh.com").

(** What the server's KEXINIT has to say. *)
Definition server_kexinit : Message := Msg_KexInit {|
  ki_cookie := B "nomnommunchmunch";
  ki_kex_algorithms := B "curve25519-sha256";
  ki_server_host_key_algorithms := B "ecdsa-sha2-nistp256";
  ki_enc_c2s := B "chacha20-poly1305@openssh.com";
  ki_enc_s2c := B "chacha20-poly1305@openssh.com";
  ki_mac_c2s := B "none"; ki_mac_s2c := B "none";
  ki_comp_c2s := B "none"; ki_comp_s2c := B "none";
  ki_lang_c2s := []; ki_lang_s2c := [];
  ki_first_kex_packet_follows := false |}.

(** The host key in the sense of RFC 5656 section 3.1. *)
Definition public_host_key (H : Host) : Key :=
  {| key_name := B "ecdsa-sha2-nistp256";
     key_blob := {| kb_identifier := B "nistp256"; kb_q := host_q H |} |}.

(** The exchange of [H] with ephemeral secret [e] and a client that sent
    identification [vc], KEXINIT payload [ic] and ephemeral key [qc]. *)
Definition transcript_of (H : Host) (e vc ic qc : bytes) : transcript :=
  {| t_vc := vc; t_vs := identifier H; t_ic := ic; t_is := wire server_kexinit;
     t_key := public_host_key H; t_qc := qc; t_qs := x25519_public H e;
     t_k := be_value (x25519 H e qc) |}.
Definition exchange_hash (H : Host) (e vc ic qc : bytes) : bytes :=
  sha256 H (exchange_bytes (transcript_of H e vc ic qc)).

(** The reply: host key, ephemeral key, signature over the exchange hash. *)
Definition server_reply (H : Host) (e h : bytes) : Message := Msg_EcdhReply {|
  er_key := public_host_key H;
  er_ephermal := x25519_public H e;
  er_signature := {| sig_name := B "ecdsa-sha2-nistp256";
                     sig_blob := {| sb_r := fst (host_sign H h); sb_s := snd (host_sign H h) |} |} |}.

(** [c] is keyed for [p] by the secret [K] and the exchange hash [h]: OpenSSH,
    PROTOCOL.chacha20poly1305: K_2 (the first 256 bits) is the main key, K_1
    the key for the length. *)
Definition keyed (hash : bytes -> bytes) (K : N) (h : bytes) (p : purpose) (c : Cipher) : Prop :=
  key_blocks hash K h (letter p) h [key_data c; key_length c].

(** What the server writes in a completed handshake. *)
Definition server_writes (H : Host) (R : HostRng) (h : bytes) (out : bytes) : Prop :=
  exists pad1 raw1 pad2 raw2 pad3 raw3,
    out = identifier H ++ crlf ++ raw1 ++ raw2 ++ raw3 /\
    is_packet 8 true (wire server_kexinit) pad1 raw1 /\ pad1 = pad_kexinit R (len pad1) /\
    is_packet 8 true (wire (server_reply H (ephermal R) h)) pad2 raw2 /\ pad2 = pad_reply R (len pad2) /\
    is_packet 8 true (wire Msg_NewKeys) pad3 raw3 /\ pad3 = pad_newkeys R (len pad3).
(** ... and before it has seen the client's KEXINIT. *)
Definition server_opens (H : Host) (R : HostRng) (out : bytes) : Prop :=
  exists pad1 raw1,
    out = identifier H ++ crlf ++ raw1 /\
    is_packet 8 true (wire server_kexinit) pad1 raw1 /\ pad1 = pad_kexinit R (len pad1).

(** What a client can send after its identification string that makes the
    server panic: a length just above the limit instead of any of its three
    packets; anything else than a 32-byte ECDH_INIT as the second; something
    that is not a message as the third. *)
Definition is_ecdh_init32 (pl : bytes) : Prop := exists qc, is_wire (Msg_EcdhInit qc) pl /\ len qc = 32.
Definition is_no_message (pl : bytes) : Prop := forall m, is_wire m pl -> exists r, m = Msg_EcdhReply r.
Definition hostile3 (s : bytes) : Prop :=
  too_long s \/
  exists pl raw s', s = raw ++ s' /\ plain_packet pl raw /\ len raw <= 65536 /\ is_no_message pl.
Definition hostile2 (s : bytes) : Prop :=
  too_long s \/
  exists pl raw s', s = raw ++ s' /\ plain_packet pl raw /\ len raw <= 65536 /\
    (~ is_ecdh_init32 pl \/ is_ecdh_init32 pl /\ hostile3 s').
Definition hostile (s : bytes) : Prop :=
  too_long s \/
  exists pl raw k s', s = raw ++ s' /\ plain_packet pl raw /\ len raw <= 65536 /\
    is_wire (Msg_KexInit k) pl /\ acceptable k /\ hostile2 s'.

(** [ws] are frames of the payloads [pls], sealed one after the other with the
    keys of [c] and the sequence numbers [n], [n + 1], ... *)
Definition numbered (C : Crypto) (c : Cipher) (n : N) (pls ws : list bytes) : Prop :=
  length pls = length ws /\
  forall i pl w, nth_error pls i = Some pl -> nth_error ws i = Some w ->
  exists pad raw, loose_packet pl pad raw /\
    w = seal C (key_length c) (key_data c) ((n + N.of_nat i) mod 2 ^ 64) raw.
