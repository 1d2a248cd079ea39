(** Property theorems C107 to C109: logins with the published algorithms.  The
    right-hand sides are defined in [SpecSig]. *)
From Coq Require Import Init.Byte.
From Verif Require Import HostToy AuthToy PrimThm PrimThm2 PropPrim PropDh SshdThm SigThm SigThm2 SigThm3 SpecSig.
Open Scope res_scope.

(** ** C107: what RFC 8032 signs, the server accepts. *)
Theorem C107_signature_accepted : forall seed m, ed_key real_ed (secret_to_public seed) = true /\
  ed_signature real_ed (ed_sign seed m) = true /\ ed_verify real_ed (secret_to_public seed) m (ed_sign seed m) = true.
Proof. exact (fun seed m => conj (public_key_ok seed) (sign_ok seed m)). Qed.
Print Assumptions C107_signature_accepted.

(** A client that computes everything itself, from its secret for the exchange,
    the seed of its key and what the server wrote, gets in. *)
Theorem C107_login : forall id q sign R rng ls vc ic raw1 k ec raw2 e raw3 seed,
  let H := real_host id q sign in
  host_ok H -> host_rng_ok R -> rngs_ok rng ->
  Forall (fun l => Forall (fun b => b <> x0d) l /\ ~ trap l) ls -> ident_ok vc ->
  plain_packet ic raw1 -> len raw1 <= 65536 -> is_wire (Msg_KexInit k) ic -> acceptable k ->
  plain_packet ec raw2 -> len raw2 <= 65536 -> is_wire (Msg_EcdhInit (x25519_public_of e)) ec ->
  plain_packet (wire Msg_NewKeys) raw3 -> len raw3 <= 65536 ->
  exists pad1 is rs1 pad2 r rs2 pad3 rs3,
    is_packet 8 true is pad1 rs1 /\ is_packet 8 true (wire (Msg_EcdhReply r)) pad2 rs2 /\ is_packet 8 true (wire Msg_NewKeys) pad3 rs3 /\
    let t := client_transcript e vc ic id is r in
    (exists cs cr, client_ciphers t cs cr) /\
    forall cs cr user service pl1 pad1' raw1' pl2 pad2' raw2' rest, client_ciphers t cs cr ->
    utf8_valid user = true -> len user + len service <= 700 ->
    let key := secret_to_public seed in
    let sg := ed_sign seed (login_data (client_hash e vc ic id is r) user service key) in
    loose_packet pl1 pad1' raw1' -> len raw1' + 16 <= 35000 -> is_wire (Msg_ServiceRequest (B "ssh-userauth")) pl1 ->
    loose_packet pl2 pad2' raw2' -> len raw2' + 16 <= 35000 -> is_wire (login_request user service key sg) pl2 ->
    forall s, s = as_lines ls ++ vc ++ crlf ++ raw1 ++ raw2 ++ raw3 ++ seal_with real_crypto cs raw1' ++ seal_with real_crypto (bump cs) raw2' ++ rest ->
    exists st c s1, authenticate_new_client H R real_crypto rng (sshd_auth real_ed) s = Some (AO_Auth (Ok user) st) /\ k_in (a_conn st) = rest /\
      handle_new_client H R s [] = (Ok c, s1, id ++ crlf ++ rs1 ++ rs2 ++ rs3).
Proof. exact honest_login. Qed.
Print Assumptions C107_login.

(** the secret of RFC 8032 section 7.1, test 1 *)
Definition test1 : bytes := hx "9d61b19deffd5a60ba844af492ec2cc44449c5697b326919703bac031cae7f60".
(** Bob of RFC 7748 with the key of test 1 enters as root. *)
Definition bob_hello : bytes :=
  toy_ident ++ crlf ++ toy_packet (wire (Msg_KexInit toy_kexinit)) ++ toy_packet (wire (Msg_EcdhInit (x25519_public_of bob))) ++ toy_packet (wire Msg_NewKeys).
Definition bob_login (cs : Cipher) (key sg : bytes) : bytes :=
  bob_hello ++ seal_with real_crypto cs (toy_raw (wire (Msg_ServiceRequest (B "ssh-userauth")))) ++
  seal_with real_crypto (bump cs) (toy_raw (wire (login_request (B "root") (B "ssh-connection") key sg))) ++ B "next".
Lemma bob_enters : exists h cs, forall key sg, len key = 32 -> len sg = 64 -> ed_key real_ed key = true -> ed_signature real_ed sg = true ->
  ed_verify real_ed key (login_data h (B "root") (B "ssh-connection") key) sg = true ->
  exists st, authenticate_new_client toy_real_host toy_rng real_crypto toy_pads (sshd_auth real_ed) (bob_login cs key sg) =
    Some (AO_Auth (Ok (B "root")) st) /\ k_in (a_conn st) = B "next".
Proof.
  destruct bob_packet as (W & P & LP).
  assert (HO : host_ok toy_real_host)
    by (apply (real_host_ok (B "SSH-2.0-toy") (repeat x04 65)); [vm_compute; discriminate|reflexivity|]; intro m; cbn [fst snd]; split; apply toy_hash_ok).
  destruct (logs_in (B "SSH-2.0-toy") (repeat x04 65) (fun m => (toy_hash (x01 :: m), toy_hash (x02 :: m))) toy_rng toy_pads []
    toy_ident (wire (Msg_KexInit toy_kexinit)) (toy_packet (wire (Msg_KexInit toy_kexinit))) toy_kexinit
    (wire (Msg_EcdhInit (x25519_public_of bob))) (toy_packet (wire (Msg_EcdhInit (x25519_public_of bob)))) bob
    (toy_packet (wire Msg_NewKeys)) HO toy_rng_ok toy_pads_ok (Forall_nil _) toy_ident_ok)
    as (pad1 & is & rs1 & pad2 & r & rs2 & pad3 & rs3 & _ & _ & _ & (cs & cr & CC) & F).
  - apply toy_packet_ok; vm_compute; discriminate.
  - vm_compute; discriminate.
  - exact toy_wire.
  - exact toy_acceptable.
  - exact P.
  - exact LP.
  - exact W.
  - apply toy_packet_ok; vm_compute; discriminate.
  - vm_compute; discriminate.
  - exists (client_hash bob toy_ident (wire (Msg_KexInit toy_kexinit)) (B "SSH-2.0-toy") is r), cs. intros key sg LK LG EK ES EV.
    destruct (request_wire (B "root") (B "ssh-connection") key sg) as [W2 L2]; [rewrite LK; vm_compute; discriminate|rewrite LG; vm_compute; discriminate|].
    destruct (toy_raw_ok (wire (Msg_ServiceRequest (B "ssh-userauth")))) as [P1 Q1]; [vm_compute; discriminate|].
    destruct (toy_raw_ok (wire (login_request (B "root") (B "ssh-connection") key sg))) as [P2 Q2]; [lia|].
    assert (LL : len (B "root") + len (B "ssh-connection") + len key <= 800) by (rewrite LK; vm_compute; discriminate).
    assert (S : bob_login cs key sg = as_lines [] ++ toy_ident ++ crlf ++ toy_packet (wire (Msg_KexInit toy_kexinit)) ++ toy_packet (wire (Msg_EcdhInit (x25519_public_of bob))) ++
      toy_packet (wire Msg_NewKeys) ++ seal_with real_crypto cs (toy_raw (wire (Msg_ServiceRequest (B "ssh-userauth")))) ++
      seal_with real_crypto (bump cs) (toy_raw (wire (login_request (B "root") (B "ssh-connection") key sg))) ++ B "next")
      by (unfold bob_login, bob_hello; rewrite <- !app_assoc; reflexivity).
    destruct (F cs cr (B "root") (B "ssh-connection") key sg _ _ _ _ _ _ (B "next") CC eq_refl LL EK ES EV
      P1 ltac:(vm_compute; discriminate) ltac:(apply parse_wire; vm_compute; reflexivity) P2 ltac:(lia) W2 _ S) as (st & c & s1 & A & Z & _).
    exists st. split; [exact A|exact Z].
Qed.
Example C107_example : exists h cs st, let key := secret_to_public test1 in
  let sg := ed_sign test1 (login_data h (B "root") (B "ssh-connection") key) in
  authenticate_new_client toy_real_host toy_rng real_crypto toy_pads (sshd_auth real_ed) (bob_login cs key sg) = Some (AO_Auth (Ok (B "root")) st) /\
  k_in (a_conn st) = B "next".
Proof.
  destruct bob_enters as (h & cs & E). exists h, cs.
  exact (E (secret_to_public test1) (ed_sign test1 (login_data h (B "root") (B "ssh-connection") (secret_to_public test1)))
    (public_length test1) (sign_length test1 _) (public_key_ok test1) (proj1 (sign_ok test1 _)) (proj2 (sign_ok test1 _))).
Qed.

(** ** C108: refuted: with the neutral point as the key, a fixed signature lets
    anyone in, as anyone, in every session. *)
Theorem C108_login_takes_a_secret_refuted : forall id q sign R rng ls vc ic raw1 k ec raw2 e raw3,
  let H := real_host id q sign in
  host_ok H -> host_rng_ok R -> rngs_ok rng ->
  Forall (fun l => Forall (fun b => b <> x0d) l /\ ~ trap l) ls -> ident_ok vc ->
  plain_packet ic raw1 -> len raw1 <= 65536 -> is_wire (Msg_KexInit k) ic -> acceptable k ->
  plain_packet ec raw2 -> len raw2 <= 65536 -> is_wire (Msg_EcdhInit (x25519_public_of e)) ec ->
  plain_packet (wire Msg_NewKeys) raw3 -> len raw3 <= 65536 ->
  exists pad1 is rs1 pad2 r rs2 pad3 rs3,
    is_packet 8 true is pad1 rs1 /\ is_packet 8 true (wire (Msg_EcdhReply r)) pad2 rs2 /\ is_packet 8 true (wire Msg_NewKeys) pad3 rs3 /\
    let t := client_transcript e vc ic id is r in
    (exists cs cr, client_ciphers t cs cr) /\
    forall cs cr user service pl1 pad1' raw1' pl2 pad2' raw2' rest, client_ciphers t cs cr ->
    utf8_valid user = true -> len user + len service <= 700 ->
    let key := weak_key in let sg := weak_signature in
    loose_packet pl1 pad1' raw1' -> len raw1' + 16 <= 35000 -> is_wire (Msg_ServiceRequest (B "ssh-userauth")) pl1 ->
    loose_packet pl2 pad2' raw2' -> len raw2' + 16 <= 35000 -> is_wire (login_request user service key sg) pl2 ->
    forall s, s = as_lines ls ++ vc ++ crlf ++ raw1 ++ raw2 ++ raw3 ++ seal_with real_crypto cs raw1' ++ seal_with real_crypto (bump cs) raw2' ++ rest ->
    exists st c s1, authenticate_new_client H R real_crypto rng (sshd_auth real_ed) s = Some (AO_Auth (Ok user) st) /\ k_in (a_conn st) = rest /\
      handle_new_client H R s [] = (Ok c, s1, id ++ crlf ++ rs1 ++ rs2 ++ rs3).
Proof. exact weak_login. Qed.
Print Assumptions C108_login_takes_a_secret_refuted.
(** What holds: with a key made from a seed, a signature that is accepted in two
    sessions, or for two users, gives a collision of SHA-512 modulo the order. *)
Theorem C108_login_takes_a_secret_partial : forall seed h user service h' user' service' sg,
  Forall (fun s => len s < 2 ^ 32) [h; user; service; h'; user'; service'] -> (h, user, service) <> (h', user', service') ->
  let key := secret_to_public seed in
  ed_verify real_ed key (login_data h user service key) sg = true ->
  ed_verify real_ed key (login_data h' user' service' key) sg = true ->
  let m := ntake 32 sg ++ key ++ login_data h user service key in let m' := ntake 32 sg ++ key ++ login_data h' user' service' key in
  m <> m' /\ le_value (sha512_of m) mod base_order = le_value (sha512_of m') mod base_order.
Proof. exact one_session. Qed.
Print Assumptions C108_login_takes_a_secret_partial.
Example C108_example :
  weak_signature = hx "01000000000000000000000000000000000000000000000000000000000000000000000000000000000000000000000000000000000000000000000000000000" /\
  ed_key real_ed weak_key = true /\ ed_signature real_ed weak_signature = true /\
  map (fun m => ed_verify real_ed weak_key m weak_signature) [[]; B "one"; B "two"] = [true; true; true].
Proof.
  split; [vm_compute; reflexivity|]. split; [vm_compute; reflexivity|]. split; [vm_compute; reflexivity|].
  cbn [map real_ed ed_verify]. change (len weak_signature =? 64) with true. cbn [andb]. rewrite !weak_signs. reflexivity.
Qed.

(** ** C109: who changes the second half of an accepted signature gets one that
    is refused. *)
Theorem C109_second_half_determined : forall key m sg sg', ed_verify real_ed key m sg = true -> ed_verify real_ed key m sg' = true ->
  ntake 32 sg = ntake 32 sg' -> sg = sg'.
Proof. exact second_half. Qed.
Print Assumptions C109_second_half_determined.
(** A signature of zero bytes, and the same with the order added to its second half. *)
Definition plus_order (sg : bytes) : bytes := ntake 32 sg ++ le_bytes 32 (le_value (ndrop 32 sg) + base_order).
Example C109_example : let key := secret_to_public test1 in let sg := ed_sign test1 [] in
  ed_verify real_ed key [] sg = true /\ ntake 32 (plus_order sg) = ntake 32 sg /\ plus_order sg <> sg /\ ed_verify real_ed key [] (plus_order sg) = false.
Proof. exact (order_added test1 []). Qed.
