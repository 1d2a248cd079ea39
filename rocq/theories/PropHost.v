(** Property theorems C27-C33, C65, C66: key derivation, exchange hash and the
    server side of the handshake.  The right-hand sides are defined in
    [SpecKex] and [SpecHost]; hash, Diffie-Hellman, signature and random source
    are parameters. *)
From Coq Require Import Init.Byte Strings.Byte.
From Verif Require Import HostToy.
Open Scope res_scope.

(** ** C27 *)
Theorem C27_key_derivation : forall hash secret h, hash_ok hash -> len secret = 32 ->
  exists m, KeyMaterial_new secret h = Ok m /\
  forall p n, (0 < n)%nat ->
  exists ks, length ks = n /\ key_blocks hash (be_value secret) h (letter p) h ks /\ key_fn p hash m n = Ok (concat ks).
Proof. exact derive_keys. Qed.
Print Assumptions C27_key_derivation.

Theorem C27_more_blocks_extend : forall hash secret h m p n k, hash_ok hash -> len secret = 32 ->
  KeyMaterial_new secret h = Ok m -> (0 < n)%nat ->
  exists a t, key_fn p hash m n = Ok a /\ key_fn p hash m (n + k) = Ok (a ++ t) /\
    len a = 32 * N.of_nat n /\ len t = 32 * N.of_nat k.
Proof. exact more_keys. Qed.
Print Assumptions C27_more_blocks_extend.

(** What is hashed first differs between any two purposes, and from what is
    hashed later for any of them. *)
Theorem C27_purposes_are_separated : forall K h sid,
  (forall p q, block_input K h (letter p) sid [] = block_input K h (letter q) sid [] -> p = q) /\
  (forall p q ks, len sid = 32 -> ks <> [] -> Forall (fun k => len k = 32) ks ->
   block_input K h (letter p) sid [] <> block_input K h (letter q) sid ks).
Proof. intros K h sid. split; [apply first_inputs|intros p q ks; apply later_inputs]. Qed.
Print Assumptions C27_purposes_are_separated.

Example C27_example : hash_ok toy_hash /\
  let secret := x80 :: repeat x11 31 in let h := repeat x22 32 in
  match KeyMaterial_new secret h with
  | Ok m =>
    (* the secret has its top bit set: a zero byte is prepended *)
    rfc_mpint (be_value secret) = be32 33 ++ x00 :: secret /\
    let k1 := toy_hash (be32 33 ++ x00 :: secret ++ h ++ "C"%byte :: h) in
    encryption_key toy_hash m ClientToServer 2 = Ok (k1 ++ toy_hash (be32 33 ++ x00 :: secret ++ h ++ k1))
  | _ => False
  end.
Proof. split; [exact toy_hash_ok|]. vm_compute. auto. Qed.

(** ** C28 *)
Theorem C28_exchange_hash_input : forall hash vc vs ic is_ buf k qc qs secret,
  let t := {| t_vc := vc; t_vs := vs; t_ic := ic; t_is := is_; t_key := k; t_qc := qc; t_qs := qs; t_k := be_value secret |} in
  transcript_ok t -> len secret <= 123 -> len (host_key_blob k) <= len buf ->
  kd_chain hash vc vs ic is_ buf k qc qs secret =
  Ok (hash (exchange_bytes t), host_key_blob k ++ ndrop (len (host_key_blob k)) buf).
Proof. exact chain_eq. Qed.
Print Assumptions C28_exchange_hash_input.

Theorem C28_exchange_hash_binds : forall t t', transcript_ok t -> transcript_ok t' ->
  exchange_bytes t = exchange_bytes t' -> t = t'.
Proof. exact exchange_binds. Qed.
Print Assumptions C28_exchange_hash_binds.

Definition ex_transcript (vc : bytes) (k : N) : transcript :=
  {| t_vc := vc; t_vs := B "SSH-2.0-b"; t_ic := B "ic"; t_is := B "is"; t_key := public_host_key toy_host;
     t_qc := toy_qc; t_qs := toy_qc; t_k := k |}.
Example C28_example : transcript_ok (ex_transcript (B "SSH-2.0-a") 5) /\
  exchange_bytes (ex_transcript (B "SSH-2.0-a") 128) <> exchange_bytes (ex_transcript (B "SSH-2.0-a") 127) /\
  kd_chain toy_hash (B "SSH-2.0-a") (B "SSH-2.0-b") (B "ic") (B "is") (zeros 200) (public_host_key toy_host) toy_qc toy_qc (repeat x80 32) <> Panic.
Proof.
  split; [repeat constructor; vm_compute; reflexivity|]. split; [vm_compute; discriminate|vm_compute; discriminate].
Qed.

(** ** C29 *)
Theorem C29_handshake_sound : forall H R s c s' o, host_ok H -> host_rng_ok R ->
  handle_new_client H R s [] = (Ok c, s', o) ->
  exists pre vc ic raw1 k ec raw2 qc raw3,
    s = pre ++ vc ++ crlf ++ raw1 ++ raw2 ++ raw3 ++ s' /\ ident_ok vc /\
    plain_packet ic raw1 /\ is_wire (Msg_KexInit k) ic /\ acceptable k /\
    plain_packet ec raw2 /\ is_wire (Msg_EcdhInit qc) ec /\ len qc = 32 /\
    plain_packet (wire Msg_NewKeys) raw3 /\
    let h := exchange_hash H (ephermal R) vc ic qc in
    let K := be_value (x25519 H (ephermal R) qc) in
    server_writes H R h o /\ session_identifier c = h /\
    keyed (sha256 H) K h Enc_c2s (receive_cipher c) /\ keyed (sha256 H) K h Enc_s2c (send_cipher c) /\
    counter (receive_cipher c) = 3 /\ counter (send_cipher c) = 3.
Proof. exact handshake_sound. Qed.
Print Assumptions C29_handshake_sound.

(** ... and it does succeed with a client that follows the protocol. *)
Theorem C29_handshake_complete : forall H R ls vc ic raw1 k ec raw2 qc raw3 s', host_ok H -> host_rng_ok R ->
  Forall (fun l => Forall (fun b => b <> x0d) l /\ ~ trap l) ls -> ident_ok vc ->
  plain_packet ic raw1 -> len raw1 <= 65536 -> is_wire (Msg_KexInit k) ic -> acceptable k ->
  plain_packet ec raw2 -> len raw2 <= 65536 -> is_wire (Msg_EcdhInit qc) ec -> len qc = 32 ->
  plain_packet (wire Msg_NewKeys) raw3 -> len raw3 <= 65536 ->
  exists c o, handle_new_client H R (as_lines ls ++ vc ++ crlf ++ raw1 ++ raw2 ++ raw3 ++ s') [] = (Ok c, s', o).
Proof. exact handshake_complete. Qed.
Print Assumptions C29_handshake_complete.

Example C29_example : host_ok toy_host /\ host_rng_ok toy_rng /\ ident_ok toy_ident /\
  plain_packet (wire (Msg_KexInit toy_kexinit)) (toy_packet (wire (Msg_KexInit toy_kexinit))) /\
  is_wire (Msg_KexInit toy_kexinit) (wire (Msg_KexInit toy_kexinit)) /\ acceptable toy_kexinit /\
  plain_packet (wire (Msg_EcdhInit toy_qc)) (toy_packet (wire (Msg_EcdhInit toy_qc))) /\
  is_wire (Msg_EcdhInit toy_qc) (wire (Msg_EcdhInit toy_qc)) /\ len toy_qc = 32 /\
  plain_packet (wire Msg_NewKeys) (toy_packet (wire Msg_NewKeys)) /\
  exists c o, handle_new_client toy_host toy_rng (B "Hello" ++ crlf ++ toy_stream ++ B "next") [] = (Ok c, B "next", o) /\
  len o = 477 /\
  session_identifier c = exchange_hash toy_host (repeat x55 32) toy_ident (wire (Msg_KexInit toy_kexinit)) toy_qc.
Proof.
  split; [exact toy_host_ok|]. split; [exact toy_rng_ok|]. split; [exact toy_ident_ok|].
  split; [apply toy_packet_ok; vm_compute; discriminate|]. split; [exact toy_wire|]. split; [exact toy_acceptable|].
  split; [apply toy_packet_ok; vm_compute; discriminate|]. split; [exact init_wire|]. split; [reflexivity|].
  split; [apply toy_packet_ok; vm_compute; discriminate|]. eexists _, _.
  split; [vm_compute; reflexivity|]. split; vm_compute; reflexivity.
Qed.

(** ** C30 *)
Theorem C30_negotiation : forall H R ls vc ic raw k s2, host_ok H -> host_rng_ok R ->
  Forall (fun l => Forall (fun b => b <> x0d) l /\ ~ trap l) ls -> ident_ok vc ->
  plain_packet ic raw -> len raw <= 65536 -> is_wire (Msg_KexInit k) ic ->
  let '(r, s', o) := handle_new_client H R (as_lines ls ++ vc ++ crlf ++ raw ++ s2) [] in
  (~ acceptable k -> r = Err H_UnsupportedAlgorithms /\ s' = s2 /\ server_opens H R o) /\
  (acceptable k -> r <> Err H_UnsupportedAlgorithms).
Proof. exact negotiation. Qed.
Print Assumptions C30_negotiation.

(** Nothing is signed before an acceptable KEXINIT and a 32-byte key came. *)
Theorem C30_nothing_signed_before : forall H R s r s' o, host_ok H -> host_rng_ok R -> handle_new_client H R s [] = (r, s', o) ->
  server_opens H R o \/
  exists pre vc ic raw1 k ec raw2 qc rest, s = pre ++ vc ++ crlf ++ raw1 ++ raw2 ++ rest /\ ident_ok vc /\
    plain_packet ic raw1 /\ is_wire (Msg_KexInit k) ic /\ acceptable k /\
    plain_packet ec raw2 /\ is_wire (Msg_EcdhInit qc) ec /\ len qc = 32 /\
    server_writes H R (exchange_hash H (ephermal R) vc ic qc) o.
Proof. exact output_cases. Qed.
Print Assumptions C30_nothing_signed_before.

Example C30_example : ~ acceptable other_kexinit /\
  is_wire (Msg_KexInit other_kexinit) (wire (Msg_KexInit other_kexinit)) /\
  plain_packet (wire (Msg_KexInit other_kexinit)) (toy_packet (wire (Msg_KexInit other_kexinit))) /\
  exists o, handle_new_client toy_host toy_rng (toy_ident ++ crlf ++ toy_packet (wire (Msg_KexInit other_kexinit)) ++ B "x") [] =
    (Err H_UnsupportedAlgorithms, B "x", o) /\ len o = 197.
Proof.
  split; [exact other_unacceptable|]. split; [exact other_wire|].
  split; [apply toy_packet_ok; vm_compute; discriminate|]. eexists.
  split; vm_compute; reflexivity.
Qed.

(** ** C31: refuted.  Exactly the [hostile] continuations make it panic. *)
Theorem C31_survives_hostile_clients_refuted : forall H R, host_ok H -> host_rng_ok R ->
  exists s, fst (fst (handle_new_client H R s [])) = Panic.
Proof.
  intros H R HO RO. exists (as_lines [] ++ toy_ident ++ crlf ++ be32 65533).
  apply (panics_exactly H R [] toy_ident (be32 65533) HO RO (Forall_nil _) toy_ident_ok). left. vm_compute. repeat split; discriminate.
Qed.
Print Assumptions C31_survives_hostile_clients_refuted.

Theorem C31_panics_exactly_partial : forall H R ls vc s1, host_ok H -> host_rng_ok R ->
  Forall (fun l => Forall (fun b => b <> x0d) l /\ ~ trap l) ls -> ident_ok vc ->
  (fst (fst (handle_new_client H R (as_lines ls ++ vc ++ crlf ++ s1) [])) = Panic <-> hostile s1).
Proof. exact panics_exactly. Qed.
Print Assumptions C31_panics_exactly_partial.

Theorem C31_panics_only_partial : forall H R s, host_ok H -> host_rng_ok R ->
  fst (fst (handle_new_client H R s [])) = Panic ->
  exists pre vc s1, s = pre ++ vc ++ crlf ++ s1 /\ ident_ok vc /\ hostile s1.
Proof. exact panics_hostile. Qed.
Print Assumptions C31_panics_only_partial.

(** One stream for each way: a length above the limit; a first key of 31 bytes;
    no key at all; an unknown message instead of NEWKEYS. *)
Example C31_example :
  let start := toy_ident ++ crlf ++ toy_packet (wire (Msg_KexInit toy_kexinit)) in
  map (fun s => fst (fst (handle_new_client toy_host toy_rng s [])))
    [start ++ be32 65536;
     start ++ toy_packet (wire (Msg_EcdhInit (repeat x99 31)));
     start ++ toy_packet (wire Msg_NewKeys);
     start ++ toy_packet (B "");
     start ++ toy_packet (wire (Msg_EcdhInit toy_qc)) ++ toy_packet [xff]]
  = [Panic; Panic; Panic; Panic; Panic].
Proof. vm_compute. reflexivity. Qed.

(** ** C32 *)
Theorem C32_sequence_numbers : forall H R s c s' o C, host_ok H -> host_rng_ok R ->
  handle_new_client H R s [] = (Ok c, s', o) -> crypto_ok C ->
  (exists plain, o = identifier H ++ crlf ++ concat plain /\ Forall (fun w => exists pl pad, is_packet 8 true pl pad w) plain /\
    forall jobs pls ws c', Forall2 sends jobs pls -> send_many C (send_cipher c) jobs = Ok (ws, c') ->
    numbered C (send_cipher c) (N.of_nat (length plain)) pls ws) /\
  (exists pre vc plain, s = pre ++ vc ++ crlf ++ concat plain ++ s' /\ ident_ok vc /\ Forall (fun w => exists pl, plain_packet pl w) plain /\
    forall k pls buf c' buf' s'', 4 <= len buf -> recv_many read_exact C k (receive_cipher c) buf s' = (map Ok pls, (c', buf', s'')) ->
    exists ws, s' = concat ws ++ s'' /\ numbered C (receive_cipher c) (N.of_nat (length plain)) pls ws).
Proof. exact numbers_after_handshake. Qed.
Print Assumptions C32_sequence_numbers.

Example C32_example :
  exists c o ws c', handle_new_client toy_host toy_rng toy_stream [] = (Ok c, [], o) /\
    send_many toy_crypto (send_cipher c) [toy_job; toy_job] = Ok (ws, c') /\ counter c' = 5 /\
    ws = map (fun n => seal toy_crypto (key_length (send_cipher c)) (key_data (send_cipher c)) n (be32 16 ++ [x0a] ++ B "hellozzzzzzzzzz")) [3; 4].
Proof. do 4 eexists. split; [vm_compute; reflexivity|]. split; [vm_compute; reflexivity|]. split; vm_compute; reflexivity. Qed.

(** ** C33: refuted.  The KEXINIT is the same in all connections of all hosts;
    its cookie is "nomnommunchmunch". *)
Theorem C33_cookie_is_fresh_refuted : exists k, ki_cookie k = B "nomnommunchmunch" /\
  forall H R s, host_ok H -> host_rng_ok R -> exists pad raw rest,
  snd (handle_new_client H R s []) = identifier H ++ crlf ++ raw ++ rest /\ is_packet 8 true (wire (Msg_KexInit k)) pad raw.
Proof. exists host_kexinit. split; [reflexivity|exact kexinit_first]. Qed.
Print Assumptions C33_cookie_is_fresh_refuted.

Example C33_example : ntake 16 (ndrop (11 + 2 + 5 + 1) (snd (handle_new_client toy_host toy_rng [] []))) = B "nomnommunchmunch".
Proof. vm_compute. reflexivity. Qed.

(** ** C65: refuted.  RFC 8731 section 3 requires an abort when the shared
    secret is all zero; the handshake completes. *)
Theorem C65_zero_secret_is_refused_refuted : forall H R ls vc ic raw1 k ec raw2 qc raw3 s', host_ok H -> host_rng_ok R ->
  Forall (fun l => Forall (fun b => b <> x0d) l /\ ~ trap l) ls -> ident_ok vc ->
  plain_packet ic raw1 -> len raw1 <= 65536 -> is_wire (Msg_KexInit k) ic -> acceptable k ->
  plain_packet ec raw2 -> len raw2 <= 65536 -> is_wire (Msg_EcdhInit qc) ec -> len qc = 32 ->
  plain_packet (wire Msg_NewKeys) raw3 -> len raw3 <= 65536 ->
  x25519 H (ephermal R) qc = repeat x00 32 ->
  exists c o, handle_new_client H R (as_lines ls ++ vc ++ crlf ++ raw1 ++ raw2 ++ raw3 ++ s') [] = (Ok c, s', o).
Proof. exact zero_secret_accepted. Qed.
Print Assumptions C65_zero_secret_is_refused_refuted.

(** A host whose Diffie-Hellman sends a zero key to zero, as x25519 does. *)
Definition zero_host : Host := {|
  identifier := B "SSH-2.0-toy"; host_q := repeat x04 65;
  host_sign := fun m => (toy_hash (x01 :: m), toy_hash (x02 :: m)); sha256 := toy_hash;
  x25519_public := fun k => toy_hash (x03 :: k);
  x25519 := fun k q => if bytes_eqb q (repeat x00 32) then repeat x00 32 else toy_hash (k ++ q) |}.
Example C65_example :
  let s := toy_ident ++ crlf ++ toy_packet (wire (Msg_KexInit toy_kexinit)) ++ toy_packet (wire (Msg_EcdhInit (repeat x00 32))) ++ toy_packet (wire Msg_NewKeys) in
  x25519 zero_host (ephermal toy_rng) (repeat x00 32) = repeat x00 32 /\
  exists c o, handle_new_client zero_host toy_rng s [] = (Ok c, [], o).
Proof. split; [vm_compute; reflexivity|]. eexists _, _. vm_compute. reflexivity. Qed.

(** ** C66: refuted.  RFC 4253 section 6.4: the sequence number is a uint32 that
    "wraps around to zero after every 2^32 packets". *)
Theorem C66_counter_wraps_refuted : forall C c jobs pls ws c', crypto_ok C -> counter c = 2 ^ 32 - 1 -> Forall2 sends jobs pls ->
  send_many C c jobs = Ok (ws, c') -> forall pl w, nth_error pls 1 = Some pl -> nth_error ws 1 = Some w ->
  be64 (2 ^ 32) <> be64 0 /\ exists pad raw, loose_packet pl pad raw /\ w = seal C (key_length c) (key_data c) (2 ^ 32) raw.
Proof. exact counter_does_not_wrap. Qed.
Print Assumptions C66_counter_wraps_refuted.

Example C66_example :
  let c := {| key_length := B "L"; key_data := B "D"; counter := 2 ^ 32 - 1 |} in
  match send_many toy_crypto c [toy_job; toy_job] with Ok (_, c') => counter c' = 2 ^ 32 + 1 | _ => False end.
Proof. vm_compute. reflexivity. Qed.
