(** Specification of the binary packet protocol, RFC 4253 section 6. *)
From Verif Require Export Packet.

(** "uint32 packet_length; byte padding_length; byte[n1] payload;
    byte[n2] random padding": [raw] is a packet that carries [pl] and [pad],
    whose size, counted with the length field iff [counted], is a multiple of
    [bs], with at least four bytes of padding. *)
Definition is_packet (bs : N) (counted : bool) (pl pad raw : bytes) : Prop :=
  raw = be32 (1 + len pl + len pad) ++ [n2b (len pad)] ++ pl ++ pad /\
  4 <= len pad <= 255 /\
  1 + len pl + len pad < 2 ^ 32 /\
  (exists k, 1 + len pl + len pad + (if counted then 4 else 0) = k * bs).

(** A payload writer that stays inside its slice: it turns the slice into
    [pl] followed by [rest] and reports the length of [pl]. *)
Definition fills (f : Fill) (body pl rest : bytes) : Prop :=
  f body = Ok (len pl, pl ++ rest) /\ len pl + len rest = len body.

(** The least padding RFC 4253 allows for a payload of [n] bytes. *)
Definition aligned (bs : N) (counted : bool) (l : N) : Prop :=
  exists k, l + (if counted then 4 else 0) = k * bs.
Definition least_padding (bs : N) (counted : bool) (n p : N) : Prop :=
  4 <= p /\ aligned bs counted (1 + n + p) /\
  forall q, 4 <= q -> aligned bs counted (1 + n + q) -> p <= q.

(** A random source that fills the slices it is given. *)
Definition rng_ok (rng : N -> bytes) : Prop := forall n, len (rng n) = n.
