(** Common vocabulary of the model: bytes, results with an explicit panic
    value, and the slice operations of Rust's core library that the code in
    /repo uses.  Nothing in this file models code of /repo itself. *)
From Coq Require Import Init.Byte Strings.Byte.
From Coq Require Export Strings.String.
From Coq Require Export List NArith ZArith Lia Bool.
From Coq Require Export ZifyBool ZifyNat ZifyN.
Export ListNotations.
#[global] Open Scope N_scope.
#[global] Open Scope list_scope.

Ltac Zify.zify_post_hook ::= Z.div_mod_to_equations.

(** * Bytes *)

Notation byte := Coq.Init.Byte.byte.
Notation bytes := (list Coq.Init.Byte.byte).

(** A Rust byte-string literal [b"..."]. *)
Definition B (s : string) : bytes := list_byte_of_string s.
Arguments B s%string_scope.

(** The number a [u8] denotes. *)
Definition b2n (b : byte) : N := Byte.to_N b.

(** [n as u8]: the low eight bits. *)
Definition n2b (n : N) : byte :=
  match Byte.of_N (n mod 256) with Some b => b | None => Byte.x00 end.

Definition beq (a b : byte) : bool := Byte.eqb a b.

(** [==] on byte slices. *)
Fixpoint bytes_eqb (a b : bytes) : bool :=
  match a, b with
  | [], [] => true
  | x :: a, y :: b => beq x y && bytes_eqb a b
  | _, _ => false
  end.

(** [u8] xor. *)
Definition bxor (a b : byte) : byte := n2b (N.lxor (b2n a) (b2n b)).

(** * Lengths and sub-slices, with [usize] as [N] *)

Definition len {A} (l : list A) : N := N.of_nat (length l).
Definition ntake {A} (n : N) (l : list A) : list A := firstn (N.to_nat n) l.
Definition ndrop {A} (n : N) (l : list A) : list A := skipn (N.to_nat n) l.
Definition is_empty {A} (l : list A) : bool := match l with [] => true | _ => false end.

(** The big-endian number denoted by a byte string. *)
Fixpoint be_acc (acc : N) (l : bytes) : N :=
  match l with [] => acc | b :: l => be_acc (acc * 256 + b2n b) l end.
Definition be_value (l : bytes) : N := be_acc 0 l.

(** [uK::to_be_bytes]: the [k] low-order base-256 digits, most significant first. *)
Fixpoint be_bytes (k : nat) (n : N) : bytes :=
  match k with
  | O => []
  | S k => be_bytes k (n / 256) ++ [n2b n]
  end.
Definition be32 (n : N) : bytes := be_bytes 4 n.
Definition be64 (n : N) : bytes := be_bytes 8 n.

Definition u32_max1 : N := 4294967296.            (* 2^32 *)
Definition u64_max1 : N := 18446744073709551616.  (* 2^64 *)
Definition is_u32 (n : N) : bool := n <? u32_max1.

(** * Results with panics *)

(** [Ok]/[Err] are Rust's [Result]; [Panic] is an unwinding panic (failed
    index, [unwrap], [todo!]).  [Option] is [res unit] with [None = Err tt]. *)
Inductive res (E A : Type) : Type :=
| Ok (a : A)
| Err (e : E)
| Panic.
Arguments Ok {E A} a.
Arguments Err {E A} e.
Arguments Panic {E A}.

(** [e?] followed by the rest of the function. *)
Definition bind {E A C} (m : res E A) (f : A -> res E C) : res E C :=
  match m with Ok a => f a | Err e => Err e | Panic => Panic end.

Declare Scope res_scope.
Notation "x <- e ;; k" := (bind e (fun x => k))
  (at level 61, e at next level, right associativity) : res_scope.
Notation "' p <- e ;; k" := (bind e (fun x => match x with p => k end))
  (at level 61, p pattern, e at next level, right associativity) : res_scope.

(** [Option::ok_or]. *)
Definition ok_or {E A} (m : res unit A) (e : E) : res E A :=
  match m with Ok a => Ok a | Err _ => Err e | Panic => Panic end.
(** [Result::map_err]. *)
Definition map_err {E F A} (f : E -> F) (m : res E A) : res F A :=
  match m with Ok a => Ok a | Err e => Err (f e) | Panic => Panic end.
(** [Result::map]. *)
Definition map_ok {E A C} (f : A -> C) (m : res E A) : res E C :=
  match m with Ok a => Ok (f a) | Err e => Err e | Panic => Panic end.
(** [Result::unwrap] / [Option::unwrap]. *)
Definition unwrap {E F A} (m : res E A) : res F A :=
  match m with Ok a => Ok a | Err _ => Panic | Panic => Panic end.
(** [b.then(|| v).ok_or(e)]. *)
Definition then_ok {E A} (b : bool) (v : A) (e : E) : res E A :=
  if b then Ok v else Err e.

(** * Slice operations of Rust's core library *)

(** [d.get(..n)] *)
Definition get_to {E} (e : E) (d : bytes) (n : N) : res E bytes :=
  if n <=? len d then Ok (ntake n d) else Err e.
(** [d.get(a..b)] *)
Definition get_range {E} (e : E) (d : bytes) (a b : N) : res E bytes :=
  if (a <=? b) && (b <=? len d) then Ok (ntake (b - a) (ndrop a d)) else Err e.
(** [d.get(0)], dereferenced *)
Definition get0 {E} (e : E) (d : bytes) : res E byte :=
  match d with b :: _ => Ok b | [] => Err e end.
(** [&d[n..]] *)
Definition idx_from {E A} (d : list A) (n : N) : res E (list A) :=
  if n <=? len d then Ok (ndrop n d) else Panic.
(** [&d[..n]] *)
Definition idx_to {E A} (d : list A) (n : N) : res E (list A) :=
  if n <=? len d then Ok (ntake n d) else Panic.
(** [&d[a..b]] *)
Definition idx_range {E A} (d : list A) (a b : N) : res E (list A) :=
  if (a <=? b) && (b <=? len d) then Ok (ntake (b - a) (ndrop a d)) else Panic.
(** [d[i]] *)
Definition idx {E A} (d : list A) (i : N) : res E A :=
  match nth_error d (N.to_nat i) with Some b => Ok b | None => Panic end.
(** [u32::from_be_bytes(s.try_into().unwrap())] *)
Definition u32_of_slice {E} (s : bytes) : res E N :=
  if len s =? 4 then Ok (be_value s) else Panic.
(** [u32::try_from(n: usize).unwrap()] *)
Definition u32_try_unwrap {E} (n : N) : res E N :=
  if is_u32 n then Ok n else Panic.

(** ASCII, as [<[u8]>::is_ascii]. *)
Definition is_ascii (d : bytes) : bool := forallb (fun b => b2n b <? 128) d.

(** ** UTF-8 validation, as [core::str::from_utf8] (Unicode table 3-7). *)
Definition in_rng (b : byte) (lo hi : N) : bool := (lo <=? b2n b) && (b2n b <=? hi).
Definition cont (b : byte) : bool := in_rng b 128 191.
Fixpoint utf8_valid (d : bytes) : bool :=
  match d with
  | [] => true
  | a :: d1 =>
    if b2n a <? 128 then utf8_valid d1
    else match d1 with
    | [] => false
    | b :: d2 =>
      if in_rng a 194 223 then cont b && utf8_valid d2
      else match d2 with
      | [] => false
      | c :: d3 =>
        if (in_rng a 224 224 && in_rng b 160 191)
           || (in_rng a 225 236 && cont b)
           || (in_rng a 237 237 && in_rng b 128 159)
           || (in_rng a 238 239 && cont b)
        then cont c && utf8_valid d3
        else match d3 with
        | [] => false
        | e :: d4 =>
          if (in_rng a 240 240 && in_rng b 144 191)
             || (in_rng a 241 243 && cont b)
             || (in_rng a 244 244 && in_rng b 128 143)
          then cont c && cont e && utf8_valid d4
          else false
        end
      end
    end
  end.

(** [str::from_utf8(d).map_err(|_| e)]; the resulting [&str] is its bytes. *)
Definition from_utf8 {E} (e : E) (d : bytes) : res E bytes :=
  if utf8_valid d then Ok d else Err e.

#[global] Arguments N.add : simpl never.
#[global] Arguments N.sub : simpl never.
#[global] Arguments N.mul : simpl never.
#[global] Arguments N.div : simpl never.
#[global] Arguments N.modulo : simpl never.
#[global] Arguments N.leb : simpl never.
#[global] Arguments N.ltb : simpl never.
