(** Property theorems C105 and C106: the two sides of the key exchange.  The
    right-hand sides are defined in [SpecDh]. *)
From Coq Require Import Init.Byte.
From Verif Require Import HostToy PrimThm PrimThm2 PropPrim DhThm OrderThm DhThm2 SpecDh.
Open Scope res_scope.

(** ** C105 *)
Theorem C105_x25519_agrees : forall a b, x25519_of a (x25519_public_of b) = x25519_of b (x25519_public_of a).
Proof. exact agreement. Qed.
Print Assumptions C105_x25519_agrees.

(** A client that follows RFC 8731: what it computes from its secret and what
    the server wrote is what the server signed and keyed its ciphers with. *)
Theorem C105_same_keys : forall id q sign R ls vc ic raw1 k ec raw2 e raw3 s',
  let H := real_host id q sign in
  host_ok H -> host_rng_ok R ->
  Forall (fun l => Forall (fun b => b <> x0d) l /\ ~ trap l) ls -> ident_ok vc ->
  plain_packet ic raw1 -> len raw1 <= 65536 -> is_wire (Msg_KexInit k) ic -> acceptable k ->
  plain_packet ec raw2 -> len raw2 <= 65536 -> is_wire (Msg_EcdhInit (x25519_public_of e)) ec ->
  plain_packet (wire Msg_NewKeys) raw3 -> len raw3 <= 65536 ->
  exists c pad1 is rs1 pad2 r rs2 pad3 rs3,
    handle_new_client H R (as_lines ls ++ vc ++ crlf ++ raw1 ++ raw2 ++ raw3 ++ s') [] =
      (Ok c, s', id ++ crlf ++ rs1 ++ rs2 ++ rs3) /\
    is_packet 8 true is pad1 rs1 /\ is_packet 8 true (wire (Msg_EcdhReply r)) pad2 rs2 /\
    is_packet 8 true (wire Msg_NewKeys) pad3 rs3 /\
    let h := client_hash e vc ic id is r in
    (sb_r (sig_blob (er_signature r)), sb_s (sig_blob (er_signature r))) = sign h /\
    session_identifier c = h /\
    client_ciphers (client_transcript e vc ic id is r) (receive_cipher c) (send_cipher c) /\
    forall cs cr, client_ciphers (client_transcript e vc ic id is r) cs cr -> cs = receive_cipher c /\ cr = send_cipher c.
Proof. exact same_keys. Qed.
Print Assumptions C105_same_keys.

(** Then each side receives what the other one sends. *)
Theorem C105_then_talk : forall c t cs cr,
  (forall cs cr, client_ciphers t cs cr -> cs = receive_cipher c /\ cr = send_cipher c) -> client_ciphers t cs cr ->
  (forall jobs pls ws c' rbuf rest, Forall2 sends jobs pls -> send_many real_crypto cs jobs = Ok (ws, c') ->
     4 <= len rbuf -> Forall (fun w => len w <= len rbuf) ws ->
     exists rbuf', recv_many read_exact real_crypto (length jobs) (receive_cipher c) rbuf (concat ws ++ rest) = (map Ok pls, (c', rbuf', rest))) /\
  (forall jobs pls ws c' rbuf rest, Forall2 sends jobs pls -> send_many real_crypto (send_cipher c) jobs = Ok (ws, c') ->
     4 <= len rbuf -> Forall (fun w => len w <= len rbuf) ws ->
     exists rbuf', recv_many read_exact real_crypto (length jobs) cr rbuf (concat ws ++ rest) = (map Ok pls, (c', rbuf', rest))).
Proof. exact talk. Qed.
Print Assumptions C105_then_talk.

(** A client with Bob's secret of RFC 7748 section 6.1 meets the hypotheses, and
    a handshake with it goes as the theorem says. *)
Definition bob : bytes := hx "5dab087e624a8a4b79e17f8b83800ee66f3bb1292618b6fd1c2f8b27ff88e0eb".
Lemma bob_packet : is_wire (Msg_EcdhInit (x25519_public_of bob)) (wire (Msg_EcdhInit (x25519_public_of bob))) /\
  plain_packet (wire (Msg_EcdhInit (x25519_public_of bob))) (toy_packet (wire (Msg_EcdhInit (x25519_public_of bob)))) /\
  len (toy_packet (wire (Msg_EcdhInit (x25519_public_of bob)))) <= 65536.
Proof. exact (init_packet (x25519_public_of bob) (x25519_len _ _)). Qed.
Example C105_example :
  is_wire (Msg_EcdhInit (x25519_public_of bob)) (wire (Msg_EcdhInit (x25519_public_of bob))) /\
  plain_packet (wire (Msg_EcdhInit (x25519_public_of bob))) (toy_packet (wire (Msg_EcdhInit (x25519_public_of bob)))) /\
  exists c is r o,
    handle_new_client toy_real_host toy_rng
      (toy_ident ++ crlf ++ toy_packet (wire (Msg_KexInit toy_kexinit)) ++ toy_packet (wire (Msg_EcdhInit (x25519_public_of bob))) ++
       toy_packet (wire Msg_NewKeys) ++ B "next") [] = (Ok c, B "next", o) /\
    session_identifier c = client_hash bob toy_ident (wire (Msg_KexInit toy_kexinit)) (B "SSH-2.0-toy") is r /\
    client_ciphers (client_transcript bob toy_ident (wire (Msg_KexInit toy_kexinit)) (B "SSH-2.0-toy") is r) (receive_cipher c) (send_cipher c).
Proof.
  destruct bob_packet as (W & P & LP).
  assert (HO : host_ok toy_real_host)
    by (apply (real_host_ok (B "SSH-2.0-toy") (repeat x04 65)); [vm_compute; discriminate|reflexivity|]; intro m; cbn [fst snd]; split; apply toy_hash_ok).
  split; [exact W|]. split; [exact P|].
  destruct (same_keys (B "SSH-2.0-toy") (repeat x04 65) (fun m => (toy_hash (x01 :: m), toy_hash (x02 :: m))) toy_rng []
    toy_ident (wire (Msg_KexInit toy_kexinit)) (toy_packet (wire (Msg_KexInit toy_kexinit))) toy_kexinit
    (wire (Msg_EcdhInit (x25519_public_of bob))) (toy_packet (wire (Msg_EcdhInit (x25519_public_of bob)))) bob
    (toy_packet (wire Msg_NewKeys)) (B "next") HO toy_rng_ok (Forall_nil _) toy_ident_ok)
    as (c & pad1 & is & rs1 & pad2 & r & rs2 & pad3 & rs3 & E & _ & _ & _ & _ & S & K & _).
  - apply toy_packet_ok; vm_compute; discriminate.
  - vm_compute; discriminate.
  - exact toy_wire.
  - exact toy_acceptable.
  - exact P.
  - exact LP.
  - exact W.
  - apply toy_packet_ok; vm_compute; discriminate.
  - vm_compute; discriminate.
  - eexists c, is, r, _. split; [exact E|]. split; [exact S|exact K].
Qed.
(** ** C106: with a client that computed its public value the secret is never
    the zero that RFC 8731 wants refused, and depends on the server's secret:
    at most two scalars give the same. *)
Theorem C106_secret_not_zero : forall a b, x25519_of a (x25519_public_of b) <> repeat x00 32.
Proof. exact secret_nonzero. Qed.
Print Assumptions C106_secret_not_zero.

Theorem C106_server_contributes : forall a a' b, x25519_of a (x25519_public_of b) = x25519_of a' (x25519_public_of b) ->
  scalar a = scalar a' \/ scalar a + scalar a' = 8 * base_order.
Proof. exact contributes. Qed.
Print Assumptions C106_server_contributes.

(** Both cases occur: bits that do not count, and a point and its negative. *)
Definition two_254 : bytes := le_bytes 32 (2 ^ 254).
Definition other_254 : bytes := le_bytes 32 (8 * base_order - 2 ^ 254).
Example C106_example :
  x25519_of two_254 (x25519_public_of bob) = x25519_of (x07 :: skipn 1 two_254) (x25519_public_of bob) /\
  scalar two_254 = scalar (x07 :: skipn 1 two_254) /\
  x25519_of two_254 (x25519_public_of bob) = x25519_of other_254 (x25519_public_of bob) /\
  scalar two_254 <> scalar other_254 /\ scalar two_254 + scalar other_254 = 8 * base_order /\
  x25519_of two_254 (x25519_public_of bob) <> x25519_of bob (x25519_public_of bob) /\
  (* not so with a public value of small order *)
  x25519_of two_254 weak_qc = x25519_of bob weak_qc /\ scalar two_254 <> scalar bob /\ scalar two_254 + scalar bob <> 8 * base_order.
Proof.
  split; [exact (same_scalar _ _ _ eq_refl)|]. split; [vm_compute; reflexivity|].
  split; [apply opposite_scalars; vm_compute; reflexivity|].
  split; [vm_compute; discriminate|]. split; [vm_compute; reflexivity|].
  split; [intro E; apply contributes in E; destruct E as [E|E]; revert E; vm_compute; discriminate|].
  split; [rewrite !C102_small_order_values by (right; left; vm_compute; reflexivity); reflexivity|]. split; vm_compute; discriminate.
Qed.
