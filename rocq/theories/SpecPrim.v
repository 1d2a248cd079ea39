(** Specification of what is said about the primitives. *)
From Coq Require Import Init.Byte.
From Verif Require Export SpecHost Prim.

(** ** X25519 *)
(** The number a public value stands for: RFC 7748 section 5, the top bit is
    ignored and values not below 2^255 - 19 are reduced. *)
Definition u_value (u : bytes) : Z := (Z.of_N (le_value u) mod 2 ^ 255 mod (2 ^ 255 - 19))%Z.
(** The u of the points of order 1, 2, 4 and 8 of the curve and its twist. *)
Definition small_order : list Z := [
  0; 1; 2 ^ 255 - 19 - 1;
  325606250916557431795983626356110631294008115727848805560023387167927233504;
  39382357235489614581723060781553021112529911719440698176882885853963445705823]%Z.

(** ** Poly1305 *)
(** The number of 16-byte blocks of a message of [n] bytes. *)
Definition blocks (n : N) : N := (n + 15) / 16.
(** The coefficients: block [i] with a 1 behind it, as little-endian number. *)
Definition coefficient (m : bytes) (i : N) : N := le_value (ntake 16 (ndrop (16 * i) m) ++ [x01]).
(** sum over i < q of c_i * r^(q - i), where q is the number of blocks *)
Fixpoint sum_below (f : N -> N) (n : nat) : N :=
  match n with O => 0 | S n => sum_below f n + f (N.of_nat n) end.
Definition poly_sum (r : N) (m : bytes) : N :=
  sum_below (fun i => coefficient m i * r ^ (blocks (len m) - i)) (N.to_nat (blocks (len m))).
(** RFC 8439 section 2.5: the halves of a key; of the first one 22 bits are cleared. *)
Definition key_r (k : bytes) : N := N.land (le_value (ntake 16 k)) 0x0ffffffc0ffffffc0ffffffc0fffffff.
Definition key_s (k : bytes) : N := le_value (ndrop 16 k).

(** ** The one-time keys of packets *)
(** A stream cipher, whatever it computes, with Poly1305. *)
Definition Stream := bytes -> bytes -> N -> byte.
Definition with_mac (ks : Stream) : Crypto := {| keystream := ks; poly1305 := poly1305_mac |}.
(** The key that authenticates the next packet of [c]: the first 32 bytes of the
    stream. *)
Definition one_time_key (c : Cipher) (ks : Stream) : bytes :=
  map (fun i => ks (key_data c) (be64 (counter c)) (N.of_nat i)) (seq 0 32).
(** The receiver takes [w] for a packet of its peer. *)
Definition takes (C : Crypto) (c : Cipher) (w : bytes) : Prop := exists x, decrypt_data C c w = (Ok tt, x).

(** ** Block counters *)
(** Two streams that are the same as long as 32 bits count the blocks. *)
Definition same_start (f g : Stream) : Prop := forall k n i, i < 64 * 2 ^ 32 -> f k n i = g k n i.
