(** Property theorems C14-C19: the binary packet protocol.
    The right-hand sides are defined in [SpecPacket]. *)
From Coq Require Import Init.Byte Strings.Byte.
From Verif Require Import PacketThm.
Open Scope res_scope.

(** ** C14 *)
Theorem C14_wrap_builds_a_packet : forall buf bs counted f rng pl rest out,
  rng_ok rng -> fills f (ndrop 5 buf) pl rest -> wrap buf bs counted f rng = Ok out ->
  exists pad raw, is_packet (bs_usize bs) counted pl pad raw /\
    pad = rng (len pad) /\ least_padding (bs_usize bs) counted (len pl) (len pad) /\
    out = raw ++ ndrop (len pad) rest /\ len out = len buf.
Proof. exact wrap_invariants. Qed.
Print Assumptions C14_wrap_builds_a_packet.

Definition ex_fill : Fill := fun body => Ok (5, splice 0 (B "hello") body).
Definition ex_rng : N -> bytes := fun n => repeat x7a (N.to_nat n).
Definition ex_buf : bytes := repeat x2e 20.
Lemma ex_rng_ok : rng_ok ex_rng.
Proof. intros n. unfold ex_rng, len. rewrite repeat_length. lia. Qed.
Example C14_example :
  fills ex_fill (ndrop 5 ex_buf) (B "hello") (repeat x2e 10) /\
  wrap ex_buf B8 true ex_fill ex_rng = Ok (be32 12 ++ [x06] ++ B "hellozzzzzz....") /\
  wrap ex_buf B8 false ex_fill ex_rng = Ok (be32 16 ++ [x0a] ++ B "hellozzzzzzzzzz").
Proof. repeat split; vm_compute; reflexivity. Qed.

(** ** C15 *)
Theorem C15_wrap_raw_accepts_wrapped : forall buf bs counted f rng pl rest out,
  rng_ok rng -> fills f (ndrop 5 buf) pl rest -> wrap buf bs counted f rng = Ok out ->
  wrap_raw out counted bs = Ok out /\ @payload unit out = Ok pl.
Proof. exact wrap_round. Qed.
Print Assumptions C15_wrap_raw_accepts_wrapped.

(** The same for any packet of the RFC format, whoever built it. *)
Theorem C15_wrap_raw_accepts_rfc_packets : forall bs counted pl pad raw rest,
  is_packet (bs_usize bs) counted pl pad raw ->
  wrap_raw (raw ++ rest) counted bs = Ok (raw ++ rest) /\
  @payload unit (raw ++ rest) = Ok pl /\ @as_raw unit (raw ++ rest) = Ok raw /\
  @packet_bytes unit (raw ++ rest) = Ok (n2b (len pad) :: pl ++ pad).
Proof. exact is_packet_wrap_raw. Qed.
Print Assumptions C15_wrap_raw_accepts_rfc_packets.

Example C15_example : is_packet 8 true (B "hello") (B "zzzzzz") (be32 12 ++ [x06] ++ B "hellozzzzzz") /\
  wrap_raw (be32 12 ++ [x06] ++ B "hellozzzzzz....") true B8 = Ok (be32 12 ++ [x06] ++ B "hellozzzzzz....").
Proof.
  split; [|vm_compute; reflexivity]. split; [reflexivity|]. split; [vm_compute; split; discriminate|].
  split; [reflexivity|]. exists 2. reflexivity.
Qed.

(** ** C16 *)
Theorem C16_wrap_raw_guards : forall d counted bs d',
  wrap_raw d counted bs = Ok d' ->
  d' = d /\
  exists l p t, l < 2 ^ 32 /\ p < 256 /\ d = be32 l ++ [n2b p] ++ t /\ p < l /\
    aligned (bs_usize bs) counted l /\
    (l <= 1 + len t ->
     exists pl pad rest, t = pl ++ pad ++ rest /\ 1 + len pl + len pad = l /\ len pad = p /\
       @payload unit d = Ok pl /\ @packet_bytes unit d = Ok (n2b p :: pl ++ pad) /\
       @as_raw unit d = Ok (be32 l ++ n2b p :: pl ++ pad)).
Proof. exact wrap_raw_guards. Qed.
Print Assumptions C16_wrap_raw_guards.

(** What it does with everything else. *)
Theorem C16_wrap_raw_rejects : forall d counted bs,
  (wrap_raw d counted bs = Panic <-> len d < 4 \/ len d = 4 /\ aligned (bs_usize bs) counted (be_value d)) /\
  (wrap_raw d counted bs = Err BadAlignment <->
     4 <= len d /\ ~ aligned (bs_usize bs) counted (be_value (ntake 4 d))) /\
  (wrap_raw d counted bs = Err PaddingTooLarge <->
     5 <= len d /\ aligned (bs_usize bs) counted (be_value (ntake 4 d)) /\
     be_value (ntake 4 d) <= be_value (ntake 1 (ndrop 4 d))).
Proof. exact wrap_raw_cases. Qed.
Print Assumptions C16_wrap_raw_rejects.

Example C16_example :
  wrap_raw (be32 8 ++ [x07] ++ B "1234567") false B8 = Ok (be32 8 ++ [x07] ++ B "1234567") /\
  @payload unit (be32 8 ++ [x07] ++ B "1234567") = Ok [] /\
  wrap_raw (be32 8 ++ [x08] ++ B "1234567") false B8 = Err PaddingTooLarge /\
  wrap_raw (be32 9 ++ [x07] ++ B "12345678") false B8 = Err BadAlignment.
Proof. repeat split; vm_compute; reflexivity. Qed.

(** ** C17 *)
Theorem C17_wrap_panics_exactly_without_room : forall buf bs counted f rng pl rest p,
  rng_ok rng -> fills f (ndrop 5 buf) pl rest -> least_padding (bs_usize bs) counted (len pl) p ->
  wrap buf bs counted f rng =
  if (5 + len pl + p <=? len buf) && (1 + len pl + p <? 2 ^ 32)
  then Ok (be32 (1 + len pl + p) ++ [n2b p] ++ pl ++ rng p ++ ndrop p rest) else Panic.
Proof. exact wrap_exact. Qed.
Print Assumptions C17_wrap_panics_exactly_without_room.

(** The least padding exists, so the case distinction is total. *)
Theorem C17_least_padding_exists : forall bs counted n,
  exists p, least_padding (bs_usize bs) counted n p /\ 4 <= p < bs_usize bs + 4.
Proof. exact (fun bs counted n => ex_intro _ _ (conj (wrap_pad_least bs counted n) (wrap_pad_range bs counted n))). Qed.
Print Assumptions C17_least_padding_exists.

Example C17_example :
  least_padding 8 true 5 6 /\
  wrap (repeat x2e 15) B8 true ex_fill ex_rng = Panic /\
  wrap (repeat x2e 16) B8 true ex_fill ex_rng = Ok (be32 12 ++ [x06] ++ B "hellozzzzzz").
Proof.
  split; [exact (wrap_pad_least B8 true 5)|]. split; vm_compute; reflexivity.
Qed.

(** ** C18: false as stated.  A length between [buf.len() - 3] and [buf.len()]
    passes the check of line 12 and makes the slice of line 17 panic. *)
Theorem C18_reading_never_panics_refuted :
  exists buf s, len buf = 256 /\ fst (packet_parse buf s true B8) = Panic.
Proof. exact packet_parse_witness. Qed.
Print Assumptions C18_reading_never_panics_refuted.

(** The exact set of inputs that panic; the length field decides alone. *)
Theorem C18_panicking_inputs_partial : forall buf s counted bs,
  fst (packet_parse buf s counted bs) = Panic <->
  len buf < 4 \/
  4 <= len buf /\ 4 <= len s /\ 8 <= be_value (ntake 4 s) <= len buf /\ len buf < 4 + be_value (ntake 4 s).
Proof. exact packet_parse_panics. Qed.
Print Assumptions C18_panicking_inputs_partial.

Example C18_example :
  fst (packet_parse (repeat x00 256) (be32 253) true B8) = Panic /\
  fst (packet_parse (repeat x00 256) (be32 257) true B8) = Err (PP_TooLarge 257) /\
  fst (packet_parse (repeat x00 256) (be32 252) true B8) = Err (PP_Io UnexpectedEof).
Proof. repeat split; vm_compute; reflexivity. Qed.

(** ** C19 *)
Theorem C19_packets_survive_the_stream : forall buf bs counted f rng pl rest out buf2 s,
  rng_ok rng -> fills f (ndrop 5 buf) pl rest -> wrap buf bs counted f rng = Ok out ->
  exists raw, @as_raw unit out = Ok raw /\
    (len raw <= len buf2 ->
     exists p, packet_parse buf2 (raw ++ s) counted bs = (Ok p, s) /\ @payload unit p = Ok pl).
Proof. exact wrap_parse. Qed.
Print Assumptions C19_packets_survive_the_stream.

(** And for any RFC packet whose length field is at least eight. *)
Theorem C19_rfc_packets : forall bs counted pl pad raw buf s,
  is_packet (bs_usize bs) counted pl pad raw -> 8 <= 1 + len pl + len pad -> len raw <= len buf ->
  exists p, packet_parse buf (raw ++ s) counted bs = (Ok p, s) /\ @payload unit p = Ok pl /\
    p = raw ++ ndrop (len raw) buf.
Proof. exact packet_parse_round. Qed.
Print Assumptions C19_rfc_packets.

Example C19_example :
  packet_parse (repeat x2e 16) (be32 12 ++ [x06] ++ B "hellozzzzzznext") true B8 =
    (Ok (be32 12 ++ [x06] ++ B "hellozzzzzz"), B "next").
Proof. vm_compute. reflexivity. Qed.
