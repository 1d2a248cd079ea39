(** Model of nora_ssh_core/src/packet.rs and nora_ssh/src/packet.rs. *)
From Coq Require Import Init.Byte.
From Verif Require Export Data.
Open Scope res_scope.

(** * nora_ssh_core/src/packet.rs *)

(** packet.rs:110-128 *)
Inductive BlockSize := B8 | B16 | B32 | B64.
Definition bs_usize (b : BlockSize) : N :=
  match b with B8 => 8 | B16 => 16 | B32 => 32 | B64 => 64 end.

(** packet.rs:130-134 *)
Inductive WrapRawError := BadAlignment | PaddingTooLarge.

(** [a - b] on [usize].  A release build wraps instead of panicking; the only
    use of the difference is as a slice bound (packet.rs:41, 45, 50), where the
    wrapped value is out of range, so it panics all the same. *)
Definition usize_sub {E} (a b : N) : res E N := if b <=? a then Ok (a - b) else Panic.

(** A [Packet] is its [data] slice (packet.rs:3-5). *)
(** packet.rs:8-16 *)
Definition packet_len {E} (p : bytes) : res E N := h <- idx_to p 4 ;; u32_of_slice h.
(** packet.rs:22-24 *)
Definition packet_bytes {E} (p : bytes) : res E bytes := l <- packet_len p ;; idx_range p 4 (4 + l).
(** packet.rs:31-33 *)
Definition padding_len {E} (p : bytes) : res E N := b <- idx p 4 ;; Ok (b2n b).
(** packet.rs:35-37 *)
Definition payload_len {E} (p : bytes) : res E N :=
  l <- packet_len p ;; d <- padding_len p ;; x <- usize_sub l d ;; usize_sub x 1.
(** packet.rs:39-51  [payload], [payload_mut], [into_payload] *)
Definition payload {E} (p : bytes) : res E bytes := l <- payload_len p ;; idx_range p 5 (5 + l).
(** packet.rs:53-60  [as_raw], [as_raw_mut] *)
Definition as_raw {E} (p : bytes) : res E bytes := l <- packet_len p ;; idx_to p (4 + l).
(** packet.rs:62-65  [into_raw] *)
Definition into_raw {E} (p : bytes) (extra : N) : res E bytes :=
  l <- packet_len p ;; idx_to p (4 + l + extra).

(** packet.rs:67-81 *)
Definition wrap_raw (data : bytes) (pad_with_packet_length : bool) (bs : BlockSize) : res WrapRawError bytes :=
  let offt := N.b2n pad_with_packet_length * 4 in
  l <- packet_len data ;;
  if negb ((l + offt) mod bs_usize bs =? 0) then Err BadAlignment
  else
    p <- padding_len data ;;
    if l <=? p then Err PaddingTooLarge else Ok data.

(** packet.rs:83-109.  [make_payload] gets the slice after the five header
    bytes and returns how much it used and what the slice holds afterwards;
    it may panic.  [rng n] is what [fill_bytes] writes into a slice of [n]
    bytes.  [usize] additions do not overflow for slices that exist. *)
Definition Fill := bytes -> res unit (N * bytes).
Definition wrap (buf : bytes) (bs : BlockSize) (pad_with_packet_length : bool)
    (make_payload : Fill) (rng : N -> bytes) : res unit bytes :=
  let block_size := bs_usize bs in
  let offset := N.b2n (negb pad_with_packet_length) * 4 in
  body <- idx_from buf 5 ;;
  '(payload_len, body) <- make_payload body ;;
  let buf := ntake 5 buf ++ body in
  let total_len := N.ldiff (4 + 1 + payload_len + block_size - 1) (block_size - 1) + offset in
  packet_len <- usize_sub total_len 4 ;;
  padding_len <- usize_sub packet_len payload_len ;;
  padding_len <- usize_sub padding_len 1 ;;
  let '(padding_len, packet_len) :=
    if padding_len <? 4 then (padding_len + block_size, packet_len + block_size)
    else (padding_len, packet_len) in
  l <- u32_try_unwrap packet_len ;;
  _ <- idx_to (E:=unit) buf 4 ;;
  let buf := splice 0 (be32 l) buf in
  p <- (if padding_len <? 256 then Ok (n2b padding_len) else Panic) ;;
  _ <- idx (E:=unit) buf 4 ;;
  let buf := splice 4 [p] buf in
  tail <- idx_from buf (4 + 1 + payload_len) ;;
  _ <- idx_to (E:=unit) tail padding_len ;;
  Ok (splice (4 + 1 + payload_len) (rng padding_len) buf).

(** * Streams *)

(** A byte source: the bytes still to come; once they are used up every read
    fails (end of file or any other I/O error, which callers only pass on). *)
Definition stream := bytes.

(** [AsyncReadExt::read_exact] into a slice of [n] bytes.  After a failure the
    stream has been drained. *)
Inductive IoError := UnexpectedEof.
Definition read_exact (n : N) (s : stream) : res IoError bytes * stream :=
  if n <=? len s then (Ok (ntake n s), ndrop n s) else (Err UnexpectedEof, []).

(** * nora_ssh/src/packet.rs *)

(** nora_ssh/src/packet.rs:28-33 *)
Inductive PacketParseError :=
| PP_TooLarge (n : N) | PP_TooSmall (n : N) | PP_Io (e : IoError) | PP_WrapRaw (e : WrapRawError).

(** nora_ssh/src/packet.rs:4-26.  Returns the packet (the whole buffer) and
    the rest of the stream. *)
Definition packet_parse (buf : bytes) (s : stream) (pad : bool) (bs : BlockSize)
  : res PacketParseError bytes * stream :=
  if negb (4 <=? len buf) then (Panic, s)       (* &mut buf[..4] *)
  else
    match read_exact 4 s with
    | (Ok h, s) =>
      let buf := splice 0 h buf in
      match (h <- idx_to buf 4 ;; u32_of_slice h) with
      | Ok l =>
        if len buf <? l then (Err (PP_TooLarge l), s)
        else if l <? 8 then (Err (PP_TooSmall l), s)
        else
          match (t <- idx_from (E:=PacketParseError) buf 4 ;; idx_to t l) with  (* &mut buf[4..][..len] *)
          | Ok _ =>
            match read_exact l s with
            | (Ok d, s) => (map_err PP_WrapRaw (wrap_raw (splice 4 d buf) pad bs), s)
            | (Err e, s) => (Err (PP_Io e), s)
            | (Panic, s) => (Panic, s)
            end
          | Err e => (Err e, s)
          | Panic => (Panic, s)
          end
      | Err e => (Err e, s)
      | Panic => (Panic, s)
      end
    | (Err e, s) => (Err (PP_Io e), s)
    | (Panic, s) => (Panic, s)
    end.
