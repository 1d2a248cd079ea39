(** Specification of chacha20-poly1305@openssh.com
    (OpenSSH, PROTOCOL.chacha20poly1305). *)
From Coq Require Import Init.Byte.
From Verif Require Export Channel SpecPacket.

(** Keystream bytes [from], [from + 1], ... ([n] of them). *)
Definition ks_range (ks : N -> byte) (from n : N) : bytes :=
  map (fun i => ks (from + N.of_nat i)) (seq 0 (N.to_nat n)).

(** Bytewise xor of two strings. *)
Definition xor_bytes (a b : bytes) : bytes := map (fun '(x, y) => bxor x y) (combine a b).

(** "K_2 instance ... encrypts the 4 byte packet length; K_1 generates the
    Poly1305 key from its block 0 and encrypts the payload from block 1; both
    with the packet sequence number as nonce, encoded as a uint64 in the SSH
    wire encoding"; the tag covers the encrypted length and payload. *)
Definition seal (C : Crypto) (k_len k_data : bytes) (seqnr : N) (packet : bytes) : bytes :=
  let n := be64 seqnr in
  let c_len := xor_bytes (ntake 4 packet) (ks_range (keystream C k_len n) 0 4) in
  let body := ndrop 4 packet in
  let c_body := xor_bytes body (ks_range (keystream C k_data n) 64 (len body)) in
  c_len ++ c_body ++ poly1305 C (ks_range (keystream C k_data n) 0 32) (c_len ++ c_body).

Definition seal_with (C : Crypto) (c : Cipher) : bytes -> bytes :=
  seal C (key_length c) (key_data c) (counter c).

(** Poly1305 tags have 16 bytes. *)
Definition crypto_ok (C : Crypto) : Prop := forall k m, len (poly1305 C k m) = 16.

(** A packet as the receiver accepts it: like [is_packet] for blocks of eight
    bytes, the length field not counted, but with any amount of padding. *)
Definition loose_packet (pl pad raw : bytes) : Prop :=
  raw = be32 (1 + len pl + len pad) ++ [n2b (len pad)] ++ pl ++ pad /\
  len pad <= 255 /\ 1 + len pl + len pad < 2 ^ 32 /\ aligned 8 false (1 + len pl + len pad).

(** A cipher [n] packets later. *)
Definition later (n : N) (c : Cipher) : Cipher :=
  {| key_length := key_length c; key_data := key_data c; counter := (counter c + n) mod 2 ^ 64 |}.

(** The keystream bytes (key, nonce, position) that protecting one packet of
    [n] bytes after the length field draws. *)
Definition draws (k_len k_data : bytes) (seqnr n : N) : list (bytes * bytes * N) :=
  map (fun i => (k_len, be64 seqnr, N.of_nat i)) (seq 0 4) ++
  map (fun i => (k_data, be64 seqnr, N.of_nat i)) (seq 0 32) ++
  map (fun i => (k_data, be64 seqnr, 64 + N.of_nat i)) (seq 0 (N.to_nat n)).

(** ... and that a run of frames [ws], the first numbered [seqnr], draws. *)
Fixpoint run_draws (k_len k_data : bytes) (seqnr : N) (ws : list bytes) : list (bytes * bytes * N) :=
  match ws with
  | [] => []
  | w :: ws => draws k_len k_data seqnr (len w - 20) ++ run_draws k_len k_data ((seqnr + 1) mod 2 ^ 64) ws
  end.

(** The two primitives agree on what [l] lists (and on Poly1305). *)
Definition agree_on (C C' : Crypto) (l : list (bytes * bytes * N)) : Prop :=
  (forall k n i, In (k, n, i) l -> keystream C k n i = keystream C' k n i) /\
  (forall k m, poly1305 C k m = poly1305 C' k m).

(** A job that sends [pl]: its writer puts [pl] into its buffer. *)
Definition sends (j : Job) (pl : bytes) : Prop :=
  rng_ok (j_rng j) /\ exists rest, fills (j_fill j) (ndrop 5 (j_buf j)) pl rest.
