(** Property theorems C20-C26: the encrypted channel.
    The right-hand sides are defined in [SpecPacket] and [SpecChannel]; the
    primitives are the parameter [C]. *)
From Coq Require Import Init.Byte Strings.Byte.
From Verif Require Import RxThm.
Open Scope res_scope.

Definition ex_jobs : list Job := [toy_job; toy_job; toy_job].
Example ex_jobs_send : Forall2 sends ex_jobs [B "hello"; B "hello"; B "hello"].
Proof. repeat constructor; apply toy_sends. Qed.

(** ** C20 *)
(** What is written, and when there is room for it. *)
Theorem C20_send_seals_one_packet : forall C c buf f rng pl rest p,
  crypto_ok C -> rng_ok rng -> fills f (ndrop 5 buf) pl rest -> least_padding 8 false (len pl) p ->
  let raw := be32 (1 + len pl + p) ++ [n2b p] ++ pl ++ rng p in
  Out_send C c buf f rng =
  if (21 + len pl + p <=? len buf) && (1 + len pl + p <? 2 ^ 32)
  then Ok (seal_with C c raw, bump c, seal_with C c raw ++ ndrop (p + 16) rest) else Panic.
Proof. exact send_exact. Qed.
Print Assumptions C20_send_seals_one_packet.

Theorem C20_channel_delivers_in_order : forall C, crypto_ok C -> forall jobs pls c ws c' rbuf rest,
  Forall2 sends jobs pls -> send_many C c jobs = Ok (ws, c') ->
  counter c < 2 ^ 64 ->
  4 <= len rbuf -> Forall (fun w => len w <= len rbuf) ws ->
  c' = later (len jobs) c /\
  exists rbuf', recv_many read_exact C (length jobs) c rbuf (concat ws ++ rest) =
                (map Ok pls, (c', rbuf', rest)).
Proof. exact channel_in_order. Qed.
Print Assumptions C20_channel_delivers_in_order.

Example C20_example : crypto_ok toy_crypto /\
  exists ws, send_many toy_crypto toy_cipher ex_jobs = Ok (ws, later 3 toy_cipher) /\ map len ws = [36; 36; 36] /\
  fst (recv_many read_exact toy_crypto 4 toy_cipher (repeat x00 36) (concat ws ++ B "xy")) =
    [Ok (B "hello"); Ok (B "hello"); Ok (B "hello"); Err (In_Read UnexpectedEof)].
Proof.
  split; [exact toy_ok|]. eexists. split; [vm_compute; reflexivity|]. split; vm_compute; reflexivity.
Qed.

(** ** C21 *)
Theorem C21_no_keystream_byte_twice : forall k_len k_data, k_len <> k_data -> forall ws seqnr,
  seqnr < 2 ^ 64 -> len ws <= 2 ^ 64 -> NoDup (run_draws k_len k_data seqnr ws).
Proof. exact run_draws_NoDup. Qed.
Print Assumptions C21_no_keystream_byte_twice.

(** [run_draws] lists all the keystream the sender looks at: primitives that
    agree there produce the same frames. *)
Theorem C21_draws_are_complete : forall C C', crypto_ok C -> crypto_ok C' -> forall jobs pls c ws c',
  Forall2 sends jobs pls -> send_many C c jobs = Ok (ws, c') ->
  agree_on C C' (run_draws (key_length c) (key_data c) (counter c) ws) ->
  send_many C' c jobs = Ok (ws, c').
Proof. exact send_many_agree. Qed.
Print Assumptions C21_draws_are_complete.

Example C21_example : B "L" <> B "D" /\
  length (run_draws (B "L") (B "D") 3 [repeat x00 36; repeat x00 36]) = 104%nat.
Proof. split; [discriminate|vm_compute; reflexivity]. Qed.
(** With equal keys the length field would share keystream with the MAC key. *)
Example C21_equal_keys : ~ NoDup (run_draws (B "K") (B "K") 0 [repeat x00 36]).
Proof. intros H. inversion H as [|? ? X]. apply X. vm_compute. auto 8. Qed.

(** ** C22 *)
Theorem C22_released_only_if_authentic : forall C c buf s pl,
  crypto_ok C -> 4 <= len buf -> fst (In_recv C c buf s) = Ok pl ->
  exists h body tag rest,
    s = h ++ body ++ tag ++ rest /\ len h = 4 /\ len tag = 16 /\
    tag = poly1305 C (ks_range (keystream C (key_data c) (be64 (counter c))) 0 32) (h ++ body) /\
    be_value (xor_bytes h (ks_range (keystream C (key_length c) (be64 (counter c))) 0 4)) = len body /\
    exists pad, loose_packet pl pad
      (xor_bytes h (ks_range (keystream C (key_length c) (be64 (counter c))) 0 4) ++
       xor_bytes body (ks_range (keystream C (key_data c) (be64 (counter c))) 64 (len body))).
Proof. exact recv_authentic. Qed.
Print Assumptions C22_released_only_if_authentic.

(** In terms of the protocol: exactly sealed packets are received. *)
Theorem C22_received_iff_sealed : forall C c buf s pl, crypto_ok C -> 4 <= len buf ->
  (fst (In_recv C c buf s) = Ok pl <->
   exists pad raw rest, loose_packet pl pad raw /\ s = seal_with C c raw ++ rest /\ len raw + 16 <= len buf).
Proof. exact recv_iff. Qed.
Print Assumptions C22_received_iff_sealed.

Theorem C22_forgery_is_rejected : forall C c buf h body tag rest,
  len h = 4 -> len tag = 16 ->
  be_value (xor_bytes h (ks_range (keystream C (key_length c) (be64 (counter c))) 0 4)) = len body ->
  20 + len body <= len buf ->
  tag <> poly1305 C (ks_range (keystream C (key_data c) (be64 (counter c))) 0 32) (h ++ body) ->
  In_recv C c buf (h ++ body ++ tag ++ rest) =
  (Err (In_Cipher CipherE), (c, h ++ body ++ tag ++ ndrop (20 + len body) buf, rest)).
Proof. exact recv_forged. Qed.
Print Assumptions C22_forgery_is_rejected.

Example C22_example :
  let w := seal_with toy_crypto toy_cipher (be32 16 ++ [x0a] ++ B "hellozzzzzzzzzz") in
  fst (In_recv toy_crypto toy_cipher (repeat x00 36) w) = Ok (B "hello") /\
  fst (In_recv toy_crypto toy_cipher (repeat x00 36) (ntake 35 w ++ [x00])) = Err (In_Cipher CipherE) /\
  fst (In_recv toy_crypto (later 1 toy_cipher) (repeat x00 36) w) <> Ok (B "hello").
Proof. split; [vm_compute; reflexivity|]. split; [vm_compute; reflexivity|vm_compute; discriminate]. Qed.

(** ** C23 *)
Theorem C23_receiving_never_panics : forall C c buf s, 4 <= len buf -> fst (In_recv C c buf s) <> Panic.
Proof. exact recv_np. Qed.
Print Assumptions C23_receiving_never_panics.
Example C23_example : fst (In_recv toy_crypto toy_cipher (repeat x00 35)
    (seal_with toy_crypto toy_cipher (be32 16 ++ [x0a] ++ B "hellozzzzzzzzzz"))) = Err (In_BufferTooSmall 16).
Proof. vm_compute. reflexivity. Qed.

(** ** C24 *)
Theorem C24_reads_do_not_depend_on_pieces : forall cs, Forall (fun c => c <> []) cs -> forall n,
  let '(r, cs') := read_exact_pieces n cs in
  read_exact n (concat cs) = (r, concat cs') /\ Forall (fun c => c <> []) cs'.
Proof. exact pieces_exact. Qed.
Print Assumptions C24_reads_do_not_depend_on_pieces.

Theorem C24_receiver_does_not_depend_on_pieces : forall C k c buf cs, Forall (fun x => x <> []) cs ->
  let '(rs, (c', buf', cs')) := recv_many read_exact_pieces C k c buf cs in
  recv_many read_exact C k c buf (concat cs) = (rs, (c', buf', concat cs')).
Proof. exact recv_many_pieces. Qed.
Print Assumptions C24_receiver_does_not_depend_on_pieces.

Example C24_example :
  let w := seal_with toy_crypto toy_cipher (be32 16 ++ [x0a] ++ B "hellozzzzzzzzzz") in
  fst (recv_many read_exact_pieces toy_crypto 2 toy_cipher (repeat x00 36) [ntake 3 w; ntake 10 (ndrop 3 w); ndrop 13 w]) =
    [Ok (B "hello"); Err (In_Read UnexpectedEof)].
Proof. vm_compute. reflexivity. Qed.

(** ** C25: false.  The frame [w] arrives whole, but child output between two
    of its bytes makes the receiver forget the first part. *)
Theorem C25_survives_child_output_refuted : exists C c w c' rbuf pre post,
  crypto_ok C /\ send_many C c [toy_job] = Ok ([w], c') /\ len w <= len rbuf /\
  w = pre ++ post /\
  rx_run C c rbuf [] (feed w) = [Ok (B "hello")] /\
  (forall p, ~ In (Ok p) (rx_run C c rbuf [] (feed pre ++ Elsewhere :: feed post))).
Proof. exact rx_inside. Qed.
Print Assumptions C25_survives_child_output_refuted.

(** What holds: any number of interruptions between frames does no harm.
    Missing for the full property: interruptions inside a frame. *)
Theorem C25_survives_child_output_partial : forall C, crypto_ok C -> forall jobs pls c ws c' rbuf gaps,
  Forall2 sends jobs pls -> send_many C c jobs = Ok (ws, c') ->
  4 <= len rbuf -> Forall (fun w => len w <= len rbuf) ws -> length gaps = length ws ->
  rx_run C c rbuf [] (concat (map (fun '(n, w) => repeat Elsewhere n ++ feed w) (combine gaps ws))) = map Ok pls.
Proof. exact rx_between. Qed.
Print Assumptions C25_survives_child_output_partial.

Example C25_example : match send_many toy_crypto toy_cipher ex_jobs with
  | Ok (ws, _) => rx_run toy_crypto toy_cipher (repeat x00 36) []
      (concat (map (fun '(n, w) => repeat Elsewhere n ++ feed w) (combine [0; 2; 5]%nat ws)))
    = [Ok (B "hello"); Ok (B "hello"); Ok (B "hello")]
  | _ => False end.
Proof. vm_compute. reflexivity. Qed.

(** ** C26: false.  A packet without any padding is received. *)
Theorem C26_short_padding_rejected_refuted : forall C c buf rest, crypto_ok C -> 28 <= len buf ->
  exists pl raw, len pl = 7 /\ loose_packet pl [] raw /\
    fst (In_recv C c buf (seal_with C c raw ++ rest)) = Ok pl.
Proof. exact short_padding. Qed.
Print Assumptions C26_short_padding_rejected_refuted.

Example C26_example : fst (In_recv toy_crypto toy_cipher (repeat x00 36)
    (seal_with toy_crypto toy_cipher (be32 8 ++ [x00] ++ B "ignored"))) = Ok (B "ignored").
Proof. vm_compute. reflexivity. Qed.
