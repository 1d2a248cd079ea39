(** A host with toy primitives, for the examples. *)
From Coq Require Import Init.Byte Strings.Byte.
From Verif Require Export HostThm2.
Open Scope res_scope.

Definition toy_hash (m : bytes) : bytes :=
  concat (repeat (be32 (fold_left (fun a b => (31 * a + b2n b) mod 2 ^ 32) m 7)) 8).
Definition toy_host : Host := {|
  identifier := B "SSH-2.0-toy";
  host_q := repeat x04 65;
  host_sign := fun m => (toy_hash (x01 :: m), toy_hash (x02 :: m));
  sha256 := toy_hash;
  x25519_public := fun k => toy_hash (x03 :: k);
  x25519 := fun k q => toy_hash (k ++ q) |}.
Definition toy_rng : HostRng := {|
  pad_kexinit := fun n => repeat x01 (N.to_nat n); ephermal := repeat x55 32;
  pad_reply := fun n => repeat x02 (N.to_nat n); pad_newkeys := fun n => repeat x03 (N.to_nat n) |}.

Lemma toy_hash_ok : hash_ok toy_hash.
Proof. intros m. unfold toy_hash. cbn [repeat concat]. lens. rewrite be32_len. reflexivity. Qed.
Lemma toy_host_ok : host_ok toy_host.
Proof.
  split; [exact toy_hash_ok|]. split; [intros; apply toy_hash_ok|]. split; [intros; apply toy_hash_ok|].
  split; [intros; split; apply toy_hash_ok|]. split; vm_compute; congruence.
Qed.
Lemma toy_rng_ok : host_rng_ok toy_rng.
Proof.
  assert (X : forall b, rng_ok (fun n => repeat b (N.to_nat n))).
  { intros b n. unfold len. rewrite repeat_length. lia. }
  split; [apply X|]. split; [apply X|]. split; [apply X|reflexivity].
Qed.

(** A client: its KEXINIT offers more than the server knows. *)
Definition toy_kexinit : KeyExchangeInit := {|
  ki_cookie := B "0123456789abcdef";
  ki_kex_algorithms := B "sntrup761x25519-sha512,curve25519-sha256";
  ki_server_host_key_algorithms := B "ssh-ed25519,ecdsa-sha2-nistp256";
  ki_enc_c2s := B "aes256-ctr,chacha20-poly1305@openssh.com";
  ki_enc_s2c := B "chacha20-poly1305@openssh.com";
  ki_mac_c2s := B "hmac-sha2-256"; ki_mac_s2c := B "hmac-sha2-256";
  ki_comp_c2s := B "none"; ki_comp_s2c := B "none";
  ki_lang_c2s := []; ki_lang_s2c := [];
  ki_first_kex_packet_follows := false |}.
Definition other_kexinit : KeyExchangeInit := {|
  ki_cookie := B "0123456789abcdef";
  ki_kex_algorithms := B "curve25519-sha256@libssh.org";
  ki_server_host_key_algorithms := B "ecdsa-sha2-nistp256";
  ki_enc_c2s := B "chacha20-poly1305@openssh.com";
  ki_enc_s2c := B "chacha20-poly1305@openssh.com";
  ki_mac_c2s := B "hmac-sha2-256"; ki_mac_s2c := B "hmac-sha2-256";
  ki_comp_c2s := B "none"; ki_comp_s2c := B "none";
  ki_lang_c2s := []; ki_lang_s2c := [];
  ki_first_kex_packet_follows := false |}.
(** [pl] as an unencrypted packet padded with zeros *)
Definition toy_packet (pl : bytes) : bytes :=
  let p := wrap_pad 8 true (len pl) in
  be32 (1 + len pl + p) ++ [n2b p] ++ pl ++ repeat x00 (N.to_nat p).
Definition toy_ident : bytes := B "SSH-2.0-client".
Definition toy_qc : bytes := repeat x99 32.
Definition toy_stream : bytes :=
  toy_ident ++ crlf ++ toy_packet (wire (Msg_KexInit toy_kexinit)) ++ toy_packet (wire (Msg_EcdhInit toy_qc)) ++ toy_packet (wire Msg_NewKeys).

Lemma toy_packet_ok pl : len pl <= 60000 -> plain_packet pl (toy_packet pl) /\ len (toy_packet pl) <= 65536.
Proof.
  intros L. pose proof (wrap_pad_range B8 true (len pl)) as R. pose proof (wrap_pad_least B8 true (len pl)) as A.
  change (bs_usize B8) with 8 in *. set (p := wrap_pad 8 true (len pl)) in *.
  assert (LP : len (repeat x00 (N.to_nat p)) = p) by (unfold len; rewrite repeat_length; lia).
  split.
  - exists (repeat x00 (N.to_nat p)). rewrite LP. split; [reflexivity|].
    split; [lia|]. split; [|split; [lia|exact (proj1 (proj2 A))]].
    assert (X : aligned 8 true (1 + len pl + p)) by exact (proj1 (proj2 A)). 
    destruct X as [q X]. lia.
  - unfold toy_packet. fold p. lens. rewrite be32_len, LP. lia.
Qed.
Lemma toy_wire : is_wire (Msg_KexInit toy_kexinit) (wire (Msg_KexInit toy_kexinit)).
Proof. apply parse_wire. vm_compute. reflexivity. Qed.
Lemma other_wire : is_wire (Msg_KexInit other_kexinit) (wire (Msg_KexInit other_kexinit)).
Proof. apply parse_wire. vm_compute. reflexivity. Qed.
Lemma init_wire : is_wire (Msg_EcdhInit toy_qc) (wire (Msg_EcdhInit toy_qc)).
Proof. apply parse_wire. vm_compute. reflexivity. Qed.
Lemma toy_acceptable : acceptable toy_kexinit.
Proof.
  destruct (unsupported_spec toy_kexinit (proj1 toy_wire)) as (b & E & F). apply F.
  assert (X : unsupported toy_kexinit = Ok false) by (vm_compute; reflexivity). congruence.
Qed.
Lemma other_unacceptable : ~ acceptable other_kexinit.
Proof.
  destruct (unsupported_spec other_kexinit (proj1 other_wire)) as (b & E & F). intros A. apply F in A.
  assert (X : unsupported other_kexinit = Ok true) by (vm_compute; reflexivity). congruence.
Qed.
Lemma toy_ident_ok : ident_ok toy_ident.
Proof.
  apply (proj2 (ident_safe (toy_ident ++ crlf)) toy_ident []). vm_compute. reflexivity.
Qed.
