(** The two sides of a handshake end up with the same keys. *)
From Coq Require Import Init.Byte.
From Verif Require Import ChannelThm KexThm HostThm2 PrimThm PrimThm2 HostToy SshdThm DhThm OrderThm SpecDh.
Open Scope res_scope.

Lemma keyed_inj : forall hash K h p c c', keyed hash K h p c -> keyed hash K h p c' -> counter c = counter c' -> c = c'.
Proof.
  intros hash K h p [kl kd n] [kl' kd' n'] A A' N. unfold keyed in *. cbn [key_data key_length counter] in *.
  pose proof (key_blocks_prefix _ _ _ _ _ _ _ A A' ltac:(cbn [length]; lia)) as E. cbn [length firstn] in E.
  injection E as -> ->. subst. reflexivity.
Qed.

Lemma same_keys id q sign R ls vc ic raw1 k ec raw2 e raw3 s' :
  let H := real_host id q sign in
  host_ok H -> host_rng_ok R ->
  Forall (fun l => Forall (fun b => b <> x0d) l /\ ~ trap l) ls -> ident_ok vc ->
  plain_packet ic raw1 -> len raw1 <= 65536 -> is_wire (Msg_KexInit k) ic -> acceptable k ->
  plain_packet ec raw2 -> len raw2 <= 65536 -> is_wire (Msg_EcdhInit (x25519_public_of e)) ec ->
  plain_packet (wire Msg_NewKeys) raw3 -> len raw3 <= 65536 ->
  exists c pad1 is rs1 pad2 r rs2 pad3 rs3,
    handle_new_client H R (as_lines ls ++ vc ++ crlf ++ raw1 ++ raw2 ++ raw3 ++ s') [] =
      (Ok c, s', id ++ crlf ++ rs1 ++ rs2 ++ rs3) /\
    is_packet 8 true is pad1 rs1 /\ is_packet 8 true (wire (Msg_EcdhReply r)) pad2 rs2 /\
    is_packet 8 true (wire Msg_NewKeys) pad3 rs3 /\
    let h := client_hash e vc ic id is r in
    (sb_r (sig_blob (er_signature r)), sb_s (sig_blob (er_signature r))) = sign h /\
    session_identifier c = h /\
    client_ciphers (client_transcript e vc ic id is r) (receive_cipher c) (send_cipher c) /\
    forall cs cr, client_ciphers (client_transcript e vc ic id is r) cs cr -> cs = receive_cipher c /\ cr = send_cipher c.
Proof.
  intros H HO RO LS VC P1 L1 W1 A P2 L2 W2 P3 L3.
  assert (Q : len (x25519_public_of e) = 32) by (unfold x25519_public_of; exact (x25519_len e _)).
  destruct (handshake_determined H R ls vc ic raw1 k ec raw2 _ raw3 s' HO RO LS VC P1 L1 W1 A P2 L2 W2 Q P3 L3)
    as (c & o & E & SW & SI & KC & KS & CC & CS).
  destruct SW as (pad1 & rs1 & pad2 & rs2 & pad3 & rs3 & O & I1 & _ & I2 & _ & I3 & _).
  set (h := exchange_hash H (ephermal R) vc ic (x25519_public_of e)) in *.
  set (r := {| er_key := public_host_key H; er_ephermal := x25519_public H (ephermal R);
               er_signature := {| sig_name := B "ecdsa-sha2-nistp256";
                     sig_blob := {| sb_r := fst (host_sign H h); sb_s := snd (host_sign H h) |} |} |}).
  exists c, pad1, (wire server_kexinit), rs1, pad2, r, rs2, pad3, rs3.
  split; [rewrite E, O; reflexivity|]. split; [exact I1|]. split; [exact I2|]. split; [exact I3|].
  assert (T : client_transcript e vc ic id (wire server_kexinit) r = transcript_of H (ephermal R) vc ic (x25519_public_of e)).
  { unfold client_transcript, transcript_of. cbn [er_key er_ephermal r]. f_equal. f_equal. exact (agreement e (ephermal R)). }
  assert (HH : client_hash e vc ic id (wire server_kexinit) r = h).
  { unfold client_hash. rewrite T. reflexivity. }
  assert (CL : client_ciphers (client_transcript e vc ic id (wire server_kexinit) r) (receive_cipher c) (send_cipher c)).
  { rewrite T. split; [exact KC|]. split; [exact KS|]. split; [exact CC|exact CS]. }
  cbv zeta. rewrite HH. split; [cbn [er_signature sig_blob sb_r sb_s r]; symmetry; apply surjective_pairing|].
  split; [exact SI|]. split; [exact CL|]. intros cs cr (K1 & K2 & N1 & N2). destruct CL as (K1' & K2' & N1' & N2').
  split; [eapply keyed_inj; [exact K1|exact K1'|congruence]|eapply keyed_inj; [exact K2|exact K2'|congruence]].
Qed.

Lemma scalar_is : forall k, decode_scalar k = scalar k.
Proof.
  intro k. unfold decode_scalar, scalar. cbv zeta. f_equal. f_equal. f_equal.
  change (2 ^ 255) with (2 ^ 254 * 2). rewrite N.mod_mul_r by discriminate.
  rewrite (N.mul_comm (2 ^ 254)), N.mod_add by discriminate. apply N.mod_mod. discriminate.
Qed.
Lemma order_is : Z.of_N (8 * base_order) = (8 * ell)%Z.
Proof. reflexivity. Qed.
Lemma contributes : forall a a' b, x25519_of a (x25519_public_of b) = x25519_of a' (x25519_public_of b) ->
  scalar a = scalar a' \/ scalar a + scalar a' = 8 * base_order.
Proof.
  intros a a' b H. apply secret_distinct in H. rewrite !scalar_is in H. destruct H as [H|H]; [left; exact H|right].
  apply N2Z.inj. rewrite H. symmetry. exact order_is.
Qed.

(** ** For examples *)
Lemma same_scalar : forall a a' u, decode_scalar a = decode_scalar a' -> x25519_of a u = x25519_of a' u.
Proof. intros a a' u E. unfold x25519_of. rewrite E. reflexivity. Qed.
Lemma opposite_scalars : forall a a' b, scalar a + scalar a' = 8 * base_order -> x25519_of a (x25519_public_of b) = x25519_of a' (x25519_public_of b).
Proof.
  intros a a' b E. rewrite <- !scalar_is in E. rewrite !shared_times. f_equal.
  generalize (decode_scalar b). intro n. generalize dependent (decode_scalar a'). generalize (decode_scalar a). intros x y E.
  assert (S : e_plus (e_times (x * n) base) (e_times (y * n) base) = e_origin).
  { rewrite <- e_times_add by exact base_on. rewrite <- N.mul_add_distr_r, E. replace (8 * base_order * n) with (8 * n * base_order) by lia.
    rewrite e_times_mul by exact base_on. assert (base_order = Z.to_N ell) as -> by reflexivity. rewrite ell_base. apply e_times_origin. }
  assert (OX : e_on (e_times (x * n) base)) by apply e_on_times, base_on. assert (OY : e_on (e_times (y * n) base)) by apply e_on_times, base_on.
  generalize dependent (e_times (x * n) base). generalize dependent (e_times (y * n) base). intros Q OQ P S OP.
  assert (N : Q = e_neg P).
  { apply (f_equal (e_plus (e_neg P))) in S. rewrite <- e_plus_assoc in S by (try assumption; apply e_on_neg, OP).
    rewrite (e_plus_comm (e_neg P) P), e_plus_neg, e_plus_origin in S by exact OP. rewrite S, e_plus_comm. apply e_plus_origin. }
  rewrite N. reflexivity.
Qed.
Lemma init_packet : forall q, len q = 32 -> is_wire (Msg_EcdhInit q) (wire (Msg_EcdhInit q)) /\
  plain_packet (wire (Msg_EcdhInit q)) (toy_packet (wire (Msg_EcdhInit q))) /\ len (toy_packet (wire (Msg_EcdhInit q))) <= 65536.
Proof.
  intros q L. split.
  - apply wire_is_wire. split; [|exact I]. cbn [message_fields]. repeat constructor; cbn [fld_ok]; try (rewrite L); reflexivity.
  - apply toy_packet_ok. unfold wire. cbn [message_fields]. rewrite len_enc_byte, len_enc_str, len_enc_nil, L. discriminate.
Qed.

Lemma talk c t cs cr : (forall cs cr, client_ciphers t cs cr -> cs = receive_cipher c /\ cr = send_cipher c) -> client_ciphers t cs cr ->
  (forall jobs pls ws c' rbuf rest, Forall2 sends jobs pls -> send_many real_crypto cs jobs = Ok (ws, c') ->
     4 <= len rbuf -> Forall (fun w => len w <= len rbuf) ws ->
     exists rbuf', recv_many read_exact real_crypto (length jobs) (receive_cipher c) rbuf (concat ws ++ rest) = (map Ok pls, (c', rbuf', rest))) /\
  (forall jobs pls ws c' rbuf rest, Forall2 sends jobs pls -> send_many real_crypto (send_cipher c) jobs = Ok (ws, c') ->
     4 <= len rbuf -> Forall (fun w => len w <= len rbuf) ws ->
     exists rbuf', recv_many read_exact real_crypto (length jobs) cr rbuf (concat ws ++ rest) = (map Ok pls, (c', rbuf', rest))).
Proof.
  intros U CL. destruct (U _ _ CL) as [E1 E2]. destruct CL as (_ & _ & N1 & N2).
  split; intros jobs pls ws c' rbuf rest S M L F.
  - rewrite <- E1. apply (channel_in_order real_crypto real_crypto_ok jobs pls cs ws c' rbuf rest S M ltac:(rewrite N1; reflexivity) L F).
  - rewrite <- E2 in M. apply (channel_in_order real_crypto real_crypto_ok jobs pls cr ws c' rbuf rest S M ltac:(rewrite N2; reflexivity) L F).
Qed.
