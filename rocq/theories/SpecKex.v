(** Specification of the key exchange: RFC 4253 section 7.2, RFC 5656
    section 4, RFC 8731 section 3. *)
From Coq Require Import Init.Byte.
From Verif Require Export Spec.

(** ** Key derivation *)
(** K is hashed as an mpint. *)
Definition rfc_mpint (n : N) : bytes := be32 (len (mpint n)) ++ mpint n.

(** "K1 = HASH(K || H || X || session_id), K2 = HASH(K || H || K1),
    K3 = HASH(K || H || K1 || K2) ...": what is hashed for block [i], the
    blocks before it being [prev]. *)
Definition block_input (K : N) (H : bytes) (X : byte) (sid : bytes) (prev : list bytes) : bytes :=
  match prev with
  | [] => rfc_mpint K ++ H ++ X :: sid
  | _ => rfc_mpint K ++ H ++ List.concat prev
  end.
Definition key_blocks (hash : bytes -> bytes) (K : N) (H : bytes) (X : byte) (sid : bytes) (ks : list bytes) : Prop :=
  forall i k, nth_error ks i = Some k -> k = hash (block_input K H X sid (firstn i ks)).

(** The six letters of RFC 4253 section 7.2. *)
Inductive purpose :=
| IV_c2s | IV_s2c | Enc_c2s | Enc_s2c | Int_c2s | Int_s2c.
Definition letter (p : purpose) : byte :=
  match p with
  | IV_c2s => "A" | IV_s2c => "B" | Enc_c2s => "C" | Enc_s2c => "D" | Int_c2s => "E" | Int_s2c => "F"
  end%byte.

(** A hash function with 32 bytes of output. *)
Definition hash_ok (hash : bytes -> bytes) : Prop := forall m, len (hash m) = 32.

(** ** Exchange hash *)
Record transcript := {
  t_vc : bytes; t_vs : bytes;      (* identification strings *)
  t_ic : bytes; t_is : bytes;      (* payloads of the KEXINITs *)
  t_key : Key;                     (* server's public host key *)
  t_qc : bytes; t_qs : bytes;      (* ephemeral public keys *)
  t_k : N                          (* shared secret *) }.
Definition exchange_fields (t : transcript) : list fld :=
  [FStr (t_vc t); FStr (t_vs t); FStr (t_ic t); FStr (t_is t); FStr (host_key_blob (t_key t));
   FStr (t_qc t); FStr (t_qs t); FStr (mpint (t_k t))].
Definition exchange_bytes (t : transcript) : bytes := enc (exchange_fields t).
Definition transcript_ok (t : transcript) : Prop :=
  Forall fld_ok (exchange_fields t).
