(** Specification of the other side of the key exchange: what a client does
    according to RFC 8731 with the server's reply. *)
From Coq Require Import Init.Byte.
From Verif Require Export SpecPrim.

(** The client with secret [e] that sent [vc] and [ic] and received [vs], [is]
    and the reply [r]. *)
Definition client_transcript (e vc ic vs is : bytes) (r : EcdhReply) : transcript :=
  {| t_vc := vc; t_vs := vs; t_ic := ic; t_is := is; t_key := er_key r;
     t_qc := x25519_public_of e; t_qs := er_ephermal r; t_k := be_value (x25519_of e (er_ephermal r)) |}.
Definition client_hash (e vc ic vs is : bytes) (r : EcdhReply) : bytes :=
  sha256_of (exchange_bytes (client_transcript e vc ic vs is r)).
(** Its ciphers: [cs] for what it sends and [cr] for what it receives, after
    three packets in each direction. *)
Definition client_ciphers (t : transcript) (cs cr : Cipher) : Prop :=
  keyed sha256_of (t_k t) (sha256_of (exchange_bytes t)) Enc_c2s cs /\
  keyed sha256_of (t_k t) (sha256_of (exchange_bytes t)) Enc_s2c cr /\
  counter cs = 3 /\ counter cr = 3.

(** RFC 7748 section 5: the number that a secret stands for. *)
Definition scalar (k : bytes) : N := 2 ^ 254 + 8 * (le_value k mod 2 ^ 254 / 8).
(** RFC 7748 section 4.1: the order of the base point. *)
Definition base_order : N := 2 ^ 252 + 0x14def9dea2f79cd65812631a5cf5d3ed.
