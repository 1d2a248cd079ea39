(** Specification of a login with the published algorithms. *)
From Coq Require Import Init.Byte.
From Verif Require Export SpecDh SpecAuth Sig.

(** The request of RFC 4252 section 7 with an "ssh-ed25519" key (RFC 8709). *)
Definition ed_alg : bytes := B "ssh-ed25519".
Definition login_request (user service key sg : bytes) : Message :=
  Msg_UserAuth (UA_Request {| ua_user := user; ua_service := service;
    ua_method := M_PublicKeySigned ed_alg (named ed_alg key) (named ed_alg sg) |}).
(** What is signed in the session [h]. *)
Definition login_data (h user service key : bytes) : bytes := sign_data h user service ed_alg (named ed_alg key).
(** What RFC 8032 hashes: the first half of the signature, the key, the message. *)
Definition challenge (key msg sg : bytes) : N := sha512_modq (ntake 32 sg ++ key ++ msg).
(** The encoding of the neutral point, and a signature of zeros with it. *)
Definition weak_key : bytes := x01 :: repeat x00 31.
Definition weak_signature : bytes := weak_key ++ repeat x00 32.
