(** The primitives that the code takes from other crates, from their published
    descriptions: ChaCha20 (D. J. Bernstein's original, with 64-bit nonce),
    Poly1305 (RFC 8439), SHA-256 (FIPS 180-4) and X25519 (RFC 7748).  Everything
    else in this development takes them as parameters; this file shows what the
    parameters stand for.  That the crates chacha20 0.9.0, poly1305 0.7.2, sha2
    0.10.2 and x25519-dalek 2.0.0-pre.1 (Cargo.lock) compute these functions is
    trusted: their sources are not part of /repo. *)
From Coq Require Import Init.Byte.
From Verif Require Export Host.

(** * Numbers and bytes *)

(** The little-endian number denoted by a byte string, and its inverse. *)
Fixpoint le_value (l : bytes) : N :=
  match l with [] => 0 | b :: l => b2n b + 256 * le_value l end.
Fixpoint le_bytes (k : nat) (n : N) : bytes :=
  match k with O => [] | S k => n2b n :: le_bytes k (n / 256) end.

Definition add32 (a b : N) : N := (a + b) mod u32_max1.
Definition rotl32 (n x : N) : N := N.lor (N.shiftl x n mod u32_max1) (N.shiftr x (32 - n)).
Definition rotr32 (n x : N) : N := rotl32 (32 - n) x.

(** A list cut in pieces of [n], the last of which may be shorter; [fuel] bounds
    their number. *)
Fixpoint pieces {A} (fuel : nat) (n : nat) (l : list A) : list (list A) :=
  match fuel, l with
  | S fuel, _ :: _ => firstn n l :: pieces fuel n (skipn n l)
  | _, _ => []
  end.
Definition chunks {A} (n : nat) (l : list A) : list (list A) := pieces (length l) n l.

(** * ChaCha20: RFC 8439 section 2, but for the layout of words 12 to 15 *)

Fixpoint set_nth {A} (i : nat) (v : A) (l : list A) : list A :=
  match i, l with
  | _, [] => []
  | O, _ :: l => v :: l
  | S i, a :: l => a :: set_nth i v l
  end.
(** 2.1 *)
Definition quarter (a b c d : N) : N * N * N * N :=
  let a := add32 a b in let d := rotl32 16 (N.lxor d a) in
  let c := add32 c d in let b := rotl32 12 (N.lxor b c) in
  let a := add32 a b in let d := rotl32 8 (N.lxor d a) in
  let c := add32 c d in let b := rotl32 7 (N.lxor b c) in
  (a, b, c, d).
(** 2.2 *)
Definition QUARTERROUND (st : list N) (x y z w : nat) : list N :=
  let '(a, b, c, d) := quarter (nth x st 0) (nth y st 0) (nth z st 0) (nth w st 0) in
  set_nth w d (set_nth z c (set_nth y b (set_nth x a st))).
(** 2.3.1: inner_block *)
Definition inner_block (st : list N) : list N :=
  let st := QUARTERROUND st 0 4 8 12 in
  let st := QUARTERROUND st 1 5 9 13 in
  let st := QUARTERROUND st 2 6 10 14 in
  let st := QUARTERROUND st 3 7 11 15 in
  let st := QUARTERROUND st 0 5 10 15 in
  let st := QUARTERROUND st 1 6 11 12 in
  let st := QUARTERROUND st 2 7 8 13 in
  QUARTERROUND st 3 4 9 14.
Definition chacha_rounds (st : list N) : list N := Nat.iter 10 inner_block st.
Definition words_le (l : bytes) : list N := map le_value (chunks 4 l).
Definition chacha_out (st : list N) : bytes :=
  flat_map (fun '(a, b) => le_bytes 4 (add32 a b)) (combine (chacha_rounds st) st).
(** "expand 32-byte k" *)
Definition chacha_constants : list N := [1634760805; 857760878; 2036477234; 1797285236].

(** The original: a 64-bit block counter in words 12 and 13, the nonce in words
    14 and 15. *)
Definition chacha_block (key nonce : bytes) (ctr : N) : bytes :=
  chacha_out (chacha_constants ++ words_le key ++ [ctr mod u32_max1; ctr / u32_max1 mod u32_max1] ++ words_le nonce).
(** [ChaCha20Legacy] of the crate: a 32-bit block counter in word 12 (the
    FIXME in chacha20poly1305.rs:3-4), word 13 stays zero. *)
Definition chacha_block32 (key nonce : bytes) (ctr : N) : bytes :=
  chacha_out (chacha_constants ++ words_le key ++ [ctr mod u32_max1; 0] ++ words_le nonce).
Definition chacha20_stream (block : bytes -> bytes -> N -> bytes) (key nonce : bytes) (i : N) : byte :=
  nth (N.to_nat (i mod 64)) (block key nonce (i / 64)) x00.

(** * Poly1305: RFC 8439 section 2.5.1 *)

Definition p1305 : N := 2 ^ 130 - 5.
Definition clamp_r (r : N) : N := N.land r 21267647620597763993911028882763415551.
Fixpoint poly_acc (r : N) (acc : N) (blocks : list bytes) : N :=
  match blocks with
  | [] => acc
  | b :: bs => poly_acc r ((acc + le_value (b ++ [x01])) * r mod p1305) bs
  end.
Definition poly1305_mac (key msg : bytes) : bytes :=
  let r := clamp_r (le_value (ntake 16 key)) in
  let s := le_value (ntake 16 (ndrop 16 key)) in
  le_bytes 16 (poly_acc r 0 (chunks 16 msg) + s).

(** * SHA-256: FIPS 180-4 *)

(** 4.2.2 *)
Definition sha_k : list N := [
  0x428a2f98; 0x71374491; 0xb5c0fbcf; 0xe9b5dba5; 0x3956c25b; 0x59f111f1; 0x923f82a4; 0xab1c5ed5;
  0xd807aa98; 0x12835b01; 0x243185be; 0x550c7dc3; 0x72be5d74; 0x80deb1fe; 0x9bdc06a7; 0xc19bf174;
  0xe49b69c1; 0xefbe4786; 0x0fc19dc6; 0x240ca1cc; 0x2de92c6f; 0x4a7484aa; 0x5cb0a9dc; 0x76f988da;
  0x983e5152; 0xa831c66d; 0xb00327c8; 0xbf597fc7; 0xc6e00bf3; 0xd5a79147; 0x06ca6351; 0x14292967;
  0x27b70a85; 0x2e1b2138; 0x4d2c6dfc; 0x53380d13; 0x650a7354; 0x766a0abb; 0x81c2c92e; 0x92722c85;
  0xa2bfe8a1; 0xa81a664b; 0xc24b8b70; 0xc76c51a3; 0xd192e819; 0xd6990624; 0xf40e3585; 0x106aa070;
  0x19a4c116; 0x1e376c08; 0x2748774c; 0x34b0bcb5; 0x391c0cb3; 0x4ed8aa4a; 0x5b9cca4f; 0x682e6ff3;
  0x748f82ee; 0x78a5636f; 0x84c87814; 0x8cc70208; 0x90befffa; 0xa4506ceb; 0xbef9a3f7; 0xc67178f2].
(** 5.3.3 *)
Definition sha_iv : list N := [
  0x6a09e667; 0xbb67ae85; 0x3c6ef372; 0xa54ff53a; 0x510e527f; 0x9b05688c; 0x1f83d9ab; 0x5be0cd19].
(** 4.1.2 *)
Definition sha_ch (x y z : N) : N := N.lxor (N.land x y) (N.land (N.lxor x 0xffffffff) z).
Definition sha_maj (x y z : N) : N := N.lxor (N.lxor (N.land x y) (N.land x z)) (N.land y z).
Definition sha_S0 (x : N) : N := N.lxor (N.lxor (rotr32 2 x) (rotr32 13 x)) (rotr32 22 x).
Definition sha_S1 (x : N) : N := N.lxor (N.lxor (rotr32 6 x) (rotr32 11 x)) (rotr32 25 x).
Definition sha_s0 (x : N) : N := N.lxor (N.lxor (rotr32 7 x) (rotr32 18 x)) (N.shiftr x 3).
Definition sha_s1 (x : N) : N := N.lxor (N.lxor (rotr32 17 x) (rotr32 19 x)) (N.shiftr x 10).
(** 5.1.1: a 1 bit, zeros, and the length in bits in 64 bits *)
Definition sha_pad (m : bytes) : bytes :=
  m ++ [x80] ++ repeat x00 (N.to_nat ((119 - len m mod 64) mod 64)) ++ be64 (8 * len m).
(** 6.2.2 step 1; the schedule is kept newest word first *)
Fixpoint sha_schedule (n : nat) (w : list N) : list N :=
  match n with
  | O => w
  | S n => sha_schedule n
      (add32 (add32 (sha_s1 (nth 1 w 0)) (nth 6 w 0)) (add32 (sha_s0 (nth 14 w 0)) (nth 15 w 0)) :: w)
  end.
(** step 3 *)
Definition sha_round (st : list N) '((k, w) : N * N) : list N :=
  match st with
  | [a; b; c; d; e; f; g; h] =>
    let t1 := add32 (add32 (add32 h (sha_S1 e)) (add32 (sha_ch e f g) k)) w in
    let t2 := add32 (sha_S0 a) (sha_maj a b c) in
    [add32 t1 t2; a; b; c; add32 d t1; e; f; g]
  | _ => st
  end.
(** steps 1 to 4 *)
Definition sha_compress (h : list N) (block : bytes) : list N :=
  let w := rev (sha_schedule 48 (rev (map be_value (chunks 4 block)))) in
  map (fun '(a, b) => add32 a b) (combine h (fold_left sha_round (combine sha_k w) h)).
Definition sha256_of (m : bytes) : bytes :=
  flat_map be32 (fold_left sha_compress (chunks 64 (sha_pad m)) sha_iv).

(** * X25519: RFC 7748 section 5 *)

Definition p25519 : Z := 2 ^ 255 - 19.
Definition a24 : Z := 121665.
Definition fmul (a b : Z) : Z := (a * b) mod p25519.
Definition fadd (a b : Z) : Z := (a + b) mod p25519.
Definition fsub (a b : Z) : Z := (a - b) mod p25519.
Fixpoint fpow (a : Z) (e : positive) : Z :=
  match e with
  | xH => a
  | xO e => fpow (fmul a a) e
  | xI e => fmul a (fpow (fmul a a) e)
  end.
(** z^(p - 2) *)
Definition finv (z : Z) : Z := fpow z (Z.to_pos (p25519 - 2)).

(** decodeScalar25519: the low three bits and bit 255 cleared, bit 254 set *)
Definition decode_scalar (k : bytes) : N :=
  let n := le_value k mod 2 ^ 255 in
  2 ^ 254 + 8 * (n mod 2 ^ 254 / 8).
(** decodeUCoordinate: bit 255 is ignored *)
Definition decode_u (u : bytes) : Z := Z.of_N (le_value u mod 2 ^ 255) mod p25519.

Record Ladder := { l_x2 : Z; l_z2 : Z; l_x3 : Z; l_z3 : Z }.
Definition cswap (b : bool) (l : Ladder) : Ladder :=
  if b then {| l_x2 := l_x3 l; l_z2 := l_z3 l; l_x3 := l_x2 l; l_z3 := l_z2 l |} else l.
(** the body of the loop, after the swap *)
Definition ladder_step (x1 : Z) (l : Ladder) : Ladder :=
  let a := fadd (l_x2 l) (l_z2 l) in let aa := fmul a a in
  let b := fsub (l_x2 l) (l_z2 l) in let bb := fmul b b in
  let e := fsub aa bb in
  let c := fadd (l_x3 l) (l_z3 l) in
  let d := fsub (l_x3 l) (l_z3 l) in
  let da := fmul d a in let cb := fmul c b in
  {| l_x3 := fmul (fadd da cb) (fadd da cb);
     l_z3 := fmul x1 (fmul (fsub da cb) (fsub da cb));
     l_x2 := fmul aa bb;
     l_z2 := fmul e (fadd aa (fmul a24 e)) |}.
(** For t = bits-1 down to 0; [swap] is the previous bit. *)
Fixpoint ladder (x1 : Z) (k : N) (t : nat) (swap : bool) (l : Ladder) : Ladder :=
  match t with
  | O => cswap swap l
  | S t =>
    let k_t := N.testbit k (N.of_nat t) in
    ladder x1 k t k_t (ladder_step x1 (cswap (xorb swap k_t) l))
  end.
Definition x25519_of (k u : bytes) : bytes :=
  let x1 := decode_u u in
  let l := ladder x1 (decode_scalar k) 255 false {| l_x2 := 1; l_z2 := 0; l_x3 := x1; l_z3 := 1 |} in
  le_bytes 32 (Z.to_N (fmul (l_x2 l) (finv (l_z2 l)))).
(** 6.1: the base point has u = 9 *)
Definition x25519_public_of (k : bytes) : bytes := x25519_of k (le_bytes 32 9).

(** * What the parameters stand for *)

Definition real_crypto : Crypto :=
  {| keystream := chacha20_stream chacha_block32; poly1305 := poly1305_mac |}.
(** A host with any identification, key and way to sign. *)
Definition real_host (id q : bytes) (sign : bytes -> bytes * bytes) : Host :=
  {| identifier := id; host_q := q; host_sign := sign; sha256 := sha256_of;
     x25519_public := x25519_public_of; x25519 := x25519_of |}.
