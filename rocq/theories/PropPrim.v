(** Property theorems C101-C104: what the primitives stand for, and what can be
    said with them that cannot be said with parameters.  The right-hand sides
    are defined in [SpecPrim]. *)
From Coq Require Import Init.Byte Strings.Byte.
From Verif Require Import HostToy PrimThm2 PrimThm PolyThm2 SpecPrim.
Open Scope res_scope.

(** Hexadecimal, for published test vectors. *)
Fixpoint hx (s : string) : bytes :=
  match s with
  | String a (String b s) =>
    let v c := let n := Ascii.N_of_ascii c in if n <? 58 then n - 48 else n - 87 in
    n2b (16 * v a + v b) :: hx s
  | _ => []
  end.

(** ** C101: the assumptions that other theorems make about the primitives are
    met by the published algorithms *)
Theorem C101_crypto_assumption : crypto_ok real_crypto.
Proof. exact real_crypto_ok. Qed.
Print Assumptions C101_crypto_assumption.

Theorem C101_host_assumption : forall id q sign, len id <= 253 -> len q = 65 ->
  (forall m, len (fst (sign m)) = 32 /\ len (snd (sign m)) = 32) -> host_ok (real_host id q sign).
Proof. exact real_host_ok. Qed.
Print Assumptions C101_host_assumption.

(** Every byte of the stream is one of a block: none is the default that a list
    access past the end gives in the model. *)
Theorem C101_block_size : forall key nonce ctr, len key = 32 -> len nonce = 8 ->
  len (chacha_block key nonce ctr) = 64 /\ len (chacha_block32 key nonce ctr) = 64.
Proof. exact block_length. Qed.
Print Assumptions C101_block_size.

(** The tag is the value of a polynomial. *)
Theorem C101_poly1305_is_a_polynomial : forall k m, len k = 32 ->
  poly1305_mac k m = le_bytes 16 (poly_sum (key_r k) m mod (2 ^ 130 - 5) + key_s k).
Proof. exact poly_is_sum. Qed.
Print Assumptions C101_poly1305_is_a_polynomial.

(** The zero-key block; RFC 8439 section 2.5.2; FIPS 180-4, "abc"; RFC 7748
    section 5.2. *)
Example C101_chacha20_vector : forall i, (i < 64)%nat ->
  chacha20_stream chacha_block32 (repeat x00 32) (repeat x00 8) (N.of_nat i) =
  nth i (hx "76b8e0ada0f13d90405d6ae55386bd28bdd219b8a08ded1aa836efcc8b770dc7da41597c5157488d7724e03fb8d84a376a43b8f41518a11cc387b669b2ee6586") x00.
Proof.
  intros i H. unfold chacha20_stream. rewrite N.mod_small, N.div_small, Nat2N.id by lia.
  replace (chacha_block32 (repeat x00 32) (repeat x00 8) 0) with
    (hx "76b8e0ada0f13d90405d6ae55386bd28bdd219b8a08ded1aa836efcc8b770dc7da41597c5157488d7724e03fb8d84a376a43b8f41518a11cc387b669b2ee6586");
    [reflexivity|vm_compute; reflexivity].
Qed.
Definition rfc_key : bytes := hx "85d6be7857556d337f4452fe42d506a80103808afb0db2fd4abff6af4149f51b".
Definition rfc_message : bytes := B "Cryptographic Forum Research Group".
Example C101_poly1305_vector : len rfc_key = 32 /\
  poly1305_mac rfc_key rfc_message = hx "a8061dc1305136c6c22b8baf0c0127a9" /\
  blocks (len rfc_message) = 3 /\ coefficient rfc_message 2 = le_value (B "up") + 256 ^ 2.
Proof. vm_compute. auto. Qed.
Example C101_sha256_vectors :
  sha256_of (B "abc") = hx "ba7816bf8f01cfea414140de5dae2223b00361a396177a9cb410ff61f20015ad" /\
  sha256_of (B "abcdbcdecdefdefgefghfghighijhijkijkljklmklmnlmnomnopnopq") =
    hx "248d6a61d20638b8e5c026930c3e6039a33ce45964ff2167f6ecedd419db06c1".
Proof. vm_compute. auto. Qed.

(** ** C102: refuted.  RFC 8731 section 3 asks to refuse an all-zero secret so
    that both sides contribute to the keys; a client can choose it alone. *)
Theorem C102_both_sides_contribute_refuted : forall id q sign R ls vc ic raw1 k ec raw2 qc raw3 s',
  let H := real_host id q sign in
  host_ok H -> host_rng_ok R ->
  Forall (fun l => Forall (fun b => b <> x0d) l /\ ~ trap l) ls -> ident_ok vc ->
  plain_packet ic raw1 -> len raw1 <= 65536 -> is_wire (Msg_KexInit k) ic -> acceptable k ->
  plain_packet ec raw2 -> len raw2 <= 65536 -> is_wire (Msg_EcdhInit qc) ec -> len qc = 32 -> In (u_value qc) small_order ->
  plain_packet (wire Msg_NewKeys) raw3 -> len raw3 <= 65536 ->
  let h := sha256_of (exchange_bytes
    {| t_vc := vc; t_vs := id; t_ic := ic; t_is := wire server_kexinit; t_key := public_host_key H;
       t_qc := qc; t_qs := x25519_public_of (ephermal R); t_k := 0 |}) in
  exists c o, handle_new_client H R (as_lines ls ++ vc ++ crlf ++ raw1 ++ raw2 ++ raw3 ++ s') [] = (Ok c, s', o) /\
    server_writes H R h o /\ session_identifier c = h /\
    keyed sha256_of 0 h Enc_c2s (receive_cipher c) /\ keyed sha256_of 0 h Enc_s2c (send_cipher c).
Proof. exact zero_keys. Qed.
Print Assumptions C102_both_sides_contribute_refuted.

(** These are the public values with which it can: whatever the secret is. *)
Theorem C102_small_order_values : forall k u, In (u_value u) small_order -> x25519_of k u = repeat x00 32.
Proof. exact small_order_zero. Qed.
Print Assumptions C102_small_order_values.

Definition weak_qc : bytes := le_bytes 32 1.
Definition toy_real_host : Host := real_host (B "SSH-2.0-toy") (repeat x04 65) (fun m => (toy_hash (x01 :: m), toy_hash (x02 :: m))).
Example C102_example : In (u_value weak_qc) small_order /\ len weak_qc = 32 /\ host_ok toy_real_host /\
  is_wire (Msg_EcdhInit weak_qc) (wire (Msg_EcdhInit weak_qc)) /\
  plain_packet (wire (Msg_EcdhInit weak_qc)) (toy_packet (wire (Msg_EcdhInit weak_qc))) /\
  (* a value that is not of small order, the base point *)
  ~ In (u_value (le_bytes 32 9)) small_order /\
  (* each of the values also has an encoding with the top bit set *)
  Forall (fun v => u_value (le_bytes 32 (Z.to_N v + 2 ^ 255)) = v) small_order.
Proof.
  split; [right; left; vm_compute; reflexivity|]. split; [reflexivity|].
  split; [apply (real_host_ok (B "SSH-2.0-toy") (repeat x04 65)); [vm_compute; discriminate|reflexivity|]; intro m; cbn [fst snd]; split; apply toy_hash_ok|].
  split; [apply parse_wire; vm_compute; reflexivity|].
  split; [apply toy_packet_ok; vm_compute; discriminate|].
  split; [vm_compute; intros [X|[X|[X|[X|[X|[]]]]]]; discriminate X|].
  unfold small_order. repeat constructor; vm_compute; reflexivity.
Qed.

(** ** C103: a forged packet is accepted under few one-time keys *)
Theorem C103_forged_packets : forall c w w' (KS : list Stream), w <> w' -> NoDup (map (one_time_key c) KS) ->
  (forall ks, In ks KS -> takes (with_mac ks) c w /\ takes (with_mac ks) c w') ->
  len KS <= 2 ^ 25 * N.max (blocks (len w - 16)) (blocks (len w' - 16)).
Proof. exact forged_packets. Qed.
Print Assumptions C103_forged_packets.

(** ... whereas one packet alone is accepted under 2^128 of them: one for every
    first half of the key. *)
Theorem C103_genuine_packets : forall r m t, len r = 16 -> len t = 16 ->
  exists! s, len s = 16 /\ poly1305_mac (r ++ s) m = t.
Proof. exact one_completion. Qed.
Print Assumptions C103_genuine_packets.

(** Two frames that one stream authenticates, and one that it does not. *)
Definition ex_cipher : Cipher := {| key_length := repeat x01 32; key_data := repeat x02 32; counter := 3 |}.
Definition ex_stream : Stream := chacha20_stream chacha_block32.
Definition ex_frame (m : bytes) : bytes := m ++ poly1305_mac (one_time_key ex_cipher ex_stream) m.
Example C103_example :
  takes (with_mac ex_stream) ex_cipher (ex_frame (repeat x07 20)) /\
  takes (with_mac ex_stream) ex_cipher (ex_frame (repeat x08 36)) /\
  ex_frame (repeat x07 20) <> ex_frame (repeat x08 36) /\
  NoDup (map (one_time_key ex_cipher) [ex_stream; fun _ _ _ => x00]) /\
  ~ takes (with_mac (fun _ _ _ => x00)) ex_cipher (ex_frame (repeat x07 20)).
Proof.
  split; [apply takes_fst; vm_compute; reflexivity|]. split; [apply takes_fst; vm_compute; reflexivity|].
  split; [vm_compute; discriminate|].
  split; [vm_compute; constructor; [intros [X|[]]; discriminate X|constructor; [intros []|constructor]]|].
  rewrite takes_fst. vm_compute. discriminate.
Qed.

(** ** C104: that the crate counts blocks with 32 bits (the FIXME in
    chacha20poly1305.rs:3-4) has no consequence *)
Theorem C104_counters_agree : same_start (chacha20_stream chacha_block32) (chacha20_stream chacha_block).
Proof. exact block32_same. Qed.
Print Assumptions C104_counters_agree.

Theorem C104_sending : forall f g mac jobs c, same_start f g ->
  send_many {| keystream := f; poly1305 := mac |} c jobs = send_many {| keystream := g; poly1305 := mac |} c jobs.
Proof. intros f g mac jobs c S. exact (same_send_many f g mac S jobs c). Qed.
Print Assumptions C104_sending.

Theorem C104_receiving : forall f g mac RS (rd : N -> RS -> res IoError bytes * RS) k c buf s, same_start f g ->
  recv_many rd {| keystream := f; poly1305 := mac |} k c buf s = recv_many rd {| keystream := g; poly1305 := mac |} k c buf s.
Proof. intros f g mac RS rd k c buf s S. exact (same_recv_many f g mac S rd k c buf s). Qed.
Print Assumptions C104_receiving.

(** The two streams do part after 2^38 bytes. *)
Example C104_example : exists i, i < 64 * 2 ^ 32 + 64 /\
  chacha20_stream chacha_block32 (repeat x00 32) (repeat x00 8) i <> chacha20_stream chacha_block (repeat x00 32) (repeat x00 8) i.
Proof. exists (64 * 2 ^ 32). split; [reflexivity|vm_compute; discriminate]. Qed.
Example C104_example_send :
  match send_many real_crypto ex_cipher [toy_job; toy_job] with Ok (ws, _) => length ws = 2%nat | _ => False end.
Proof. vm_compute. reflexivity. Qed.
