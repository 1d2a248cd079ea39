(** Model of nora_ssh_core/src/key_exchange.rs and of the module [digest] of
    nora_ssh_core/src/message/key_exchange/ecdh.rs.
    A [Digest] in progress is the bytes it has absorbed; the hash function is
    the parameter [hash] of the definitions that finalise one. *)
From Coq Require Import Init.Byte.
From Verif Require Export Packet MKex Channel.
Open Scope res_scope.

Definition zeros (n : N) : bytes := repeat x00 (N.to_nat n).

(** [<[u8; 32]>::try_from(s).unwrap()], [*hash.as_ref()] *)
Definition arr32 {E} (s : bytes) : res E bytes := if len s =? 32 then Ok s else Panic.

(** * key_exchange.rs *)

(** key_exchange.rs:8-12 *)
Inductive Direction := ClientToServer | ServerToClient.

(** key_exchange.rs:14-19 *)
Record KeyMaterial := { km_secret : bytes; km_secret_len : N; km_hash : bytes }.

(** key_exchange.rs:21-27 *)
Definition KeyMaterial_new (secret hash : bytes) : res unit KeyMaterial :=
  match make_pos_mpint (zeros (4 + 1 + 32)) secret with
  | (Ok l, buf) => Ok {| km_secret := buf; km_secret_len := l; km_hash := hash |}
  | _ => Panic
  end.

(** key_exchange.rs:46-58 *)
Definition digest_k1 (hash : bytes -> bytes) (m : KeyMaterial) (x : N) : res unit bytes :=
  let session_id := km_hash m in
  k <- idx_to (km_secret m) (km_secret_len m) ;;
  arr32 (hash (k ++ km_hash m ++ [n2b x] ++ session_id)).

(** key_exchange.rs:60-69 *)
Definition digest_kn (hash : bytes -> bytes) (m : KeyMaterial) (keys : list bytes) : res unit bytes :=
  k <- idx_to (km_secret m) (km_secret_len m) ;;
  arr32 (hash (k ++ km_hash m ++ List.concat keys)).

(** key_exchange.rs:73-76: the remaining [n] entries of [out], of which the
    first [len out] are filled. *)
Fixpoint gen_rest (hash : bytes -> bytes) (m : KeyMaterial) (out : list bytes) (n : nat) : res unit (list bytes) :=
  match n with
  | O => Ok out
  | S n => k <- digest_kn hash m out ;; gen_rest hash m (out ++ [k]) n
  end.
(** key_exchange.rs:71-77: what [out], which has [n] entries, holds afterwards. *)
Definition gen_out (hash : bytes -> bytes) (m : KeyMaterial) (x : N) (n : nat) : res unit (list bytes) :=
  match n with
  | O => Panic                                     (* out[0] *)
  | S n => k <- digest_k1 hash m x ;; gen_rest hash m [k] n
  end.
(** key_exchange.rs:78-79: [align_to] on bytes leaves nothing outside. *)
Definition gen (hash : bytes -> bytes) (m : KeyMaterial) (x : N) (n : nat) : res unit bytes :=
  out <- gen_out hash m x n ;; Ok (List.concat out).

(** key_exchange.rs:32-43, 81-83 *)
Definition dir_letter (c : N) (dir : Direction) : N :=
  match dir with ClientToServer => c | ServerToClient => c + 1 end.
Definition initial_iv hash m dir := gen hash m (dir_letter 65 dir).
Definition encryption_key hash m dir := gen hash m (dir_letter 67 dir).
Definition integrity_key hash m dir := gen hash m (dir_letter 69 dir).

(** cipher/chacha20poly1305.rs:26-38  [from_key_material] *)
Definition from_key_material (hash : bytes -> bytes) (m : KeyMaterial) (dir : Direction) (counter : N)
  : res unit Cipher :=
  key <- gen_out hash m (dir_letter 67 dir) 2 ;;
  k1 <- idx key 1 ;;
  k0 <- idx key 0 ;;
  Ok {| key_length := k1; key_data := k0; counter := counter |}.

(** * ecdh.rs, module digest *)

(** ecdh.rs:180-182 *)
Definition kd_f {E} (h s : bytes) : res E bytes := l <- make_string_len s ;; Ok (h ++ l ++ s).
(** ecdh.rs:183-187 *)
Definition kd_g {E} (h s : bytes) : res E bytes :=
  match make_pos_mpint (zeros 128) s with
  | (Ok l, buf) => b <- idx_to buf l ;; Ok (h ++ b)
  | _ => Panic
  end.
(** ecdh.rs:189-208, 215-224: seven of the eight [update]s are [f]. *)
Definition kd_client_id {E} := @kd_f E.
Definition kd_server_id {E} := @kd_f E.
Definition kd_client_kex_init {E} := @kd_f E.
Definition kd_server_kex_init {E} := @kd_f E.
Definition kd_client_ephermal {E} := @kd_f E.
Definition kd_server_ephermal {E} := @kd_f E.
(** ecdh.rs:209-214: also returns what [buf] holds afterwards. *)
Definition kd_host_key {E} (h buf : bytes) (k : Key) : res E (bytes * bytes) :=
  match Key_serialize k ([], buf) with
  | (Ok l, (w, r)) => let buf := w ++ r in s <- idx_to buf l ;; h <- kd_f h s ;; Ok (h, buf)
  | _ => Panic
  end.
(** ecdh.rs:225-229 *)
Definition kd_secret {E} (hash : bytes -> bytes) (h secret : bytes) : res E bytes :=
  h <- kd_g h secret ;; Ok (hash h).
