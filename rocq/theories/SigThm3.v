(** A whole login with the published algorithms. *)
From Coq Require Import Init.Byte.
From Coq Require Import ZArith.
From Verif Require Import HostThm3 PrimThm PrimThm2 DhThm2 AuthThm AuthThm2 SshdThm SigThm SigThm2.
From Verif Require Import SpecSig.

Section Login.
  Variables (id q : bytes) (sign : bytes -> bytes * bytes) (R : HostRng) (rng : N -> N -> bytes) (ls : list bytes) (vc ic raw1 : bytes) (k : KeyExchangeInit) (ec raw2 e raw3 : bytes).
  Let H := real_host id q sign.
  Hypothesis HO : host_ok H.
  Hypothesis RO : host_rng_ok R.
  Hypothesis RR : rngs_ok rng.
  Hypothesis LS : Forall (fun l => Forall (fun b => b <> x0d) l /\ ~ trap l) ls.
  Hypothesis VC : ident_ok vc.
  Hypothesis P1 : plain_packet ic raw1.
  Hypothesis L1 : len raw1 <= 65536.
  Hypothesis W1 : is_wire (Msg_KexInit k) ic.
  Hypothesis AK : acceptable k.
  Hypothesis P2 : plain_packet ec raw2.
  Hypothesis L2 : len raw2 <= 65536.
  Hypothesis W2 : is_wire (Msg_EcdhInit (x25519_public_of e)) ec.
  Hypothesis P3 : plain_packet (wire Msg_NewKeys) raw3.
  Hypothesis L3 : len raw3 <= 65536.

  Lemma logs_in : exists pad1 is rs1 pad2 r rs2 pad3 rs3,
    is_packet 8 true is pad1 rs1 /\ is_packet 8 true (wire (Msg_EcdhReply r)) pad2 rs2 /\ is_packet 8 true (wire Msg_NewKeys) pad3 rs3 /\
    let t := client_transcript e vc ic id is r in
    (exists cs cr, client_ciphers t cs cr) /\
    forall cs cr user service key sg pl1 pad1' raw1' pl2 pad2' raw2' rest, client_ciphers t cs cr ->
    utf8_valid user = true -> len user + len service + len key <= 800 ->
    ed_key real_ed key = true -> ed_signature real_ed sg = true ->
    ed_verify real_ed key (login_data (client_hash e vc ic id is r) user service key) sg = true ->
    loose_packet pl1 pad1' raw1' -> len raw1' + 16 <= 35000 -> is_wire (Msg_ServiceRequest (B "ssh-userauth")) pl1 ->
    loose_packet pl2 pad2' raw2' -> len raw2' + 16 <= 35000 -> is_wire (login_request user service key sg) pl2 ->
    forall s, s = as_lines ls ++ vc ++ crlf ++ raw1 ++ raw2 ++ raw3 ++ seal_with real_crypto cs raw1' ++ seal_with real_crypto (bump cs) raw2' ++ rest ->
    exists st c s1, authenticate_new_client H R real_crypto rng (sshd_auth real_ed) s = Some (AO_Auth (Ok user) st) /\ k_in (a_conn st) = rest /\
      handle_new_client H R s [] = (Ok c, s1, id ++ crlf ++ rs1 ++ rs2 ++ rs3).
  Proof.
    destruct (same_keys id q sign R ls vc ic raw1 k ec raw2 e raw3 [] HO RO LS VC P1 L1 W1 AK P2 L2 W2 P3 L3)
      as (c & pad1 & is & rs1 & pad2 & r & rs2 & pad3 & rs3 & E & K1 & K2 & K3 & _ & S & K & U).
    exists pad1, is, rs1, pad2, r, rs2, pad3, rs3. split; [exact K1|]. split; [exact K2|]. split; [exact K3|].
    cbv zeta. split; [exists (receive_cipher c), (send_cipher c); exact K|].
    intros cs cr user service key sg pl1 pad1' raw1' pl2 pad2' raw2' rest CC UV UL EK ES EV Q1 M1 I1 Q2 M2 I2 s Es.
    destruct (U _ _ CC) as [-> ->].
    pose proof (handshake_local H R _ _ _ _ _ (seal_with real_crypto (receive_cipher c) raw1' ++ seal_with real_crypto (bump (receive_cipher c)) raw2' ++ rest) E) as E'.
    rewrite <- !app_assoc in E'. cbn [app] in E'. rewrite <- Es in E'.
    assert (LSI : len (session_identifier c) = 32) by (apply (handshake_facts H R HO RO _ _ _ _ E')).
    destruct (good_client_admitted H R real_crypto rng (sshd_auth real_ed) HO RO real_crypto_ok RR s c _ _ pl1 pl2 pad1' pad2' raw1' raw2' rest
      user service ed_alg key sg _ user E' eq_refl Q1 M1 I1 Q2 M2 I2 eq_refl) as (st & A & Z).
    - assert (LK : len (named ed_alg key) = 19 + len key) by (unfold named; elen; change (len ed_alg) with 11; lia).
      unfold sign_data. elen. rewrite LSI, LK. change (len ed_alg) with 11. change (len (B "publickey")) with 9. lia.
    - intro log. rewrite S. exact (sshd_accepts real_ed log user service key sg _ EK ES EV UV).
    - exists st, c, (seal_with real_crypto (receive_cipher c) raw1' ++ seal_with real_crypto (bump (receive_cipher c)) raw2' ++ rest). split; [exact A|]. split; [exact Z|exact E'].
  Qed.
End Login.

(** ** The same computed faster, for examples *)
Definition point_addf (P Q : Point) : Point :=
  let a := fmulf (fsubf (p_y P) (p_x P)) (fsubf (p_y Q) (p_x Q)) in
  let b := fmulf (faddf (p_y P) (p_x P)) (faddf (p_y Q) (p_x Q)) in
  let c := fmulf (fmulf (fmulf 2 (p_t P)) (p_t Q)) ed_minus_d in
  let d := fmulf (fmulf 2 (p_z P)) (p_z Q) in
  let e := fsubf b a in let f := fsubf d c in let g := faddf d c in let h := faddf b a in
  {| p_x := fmulf e f; p_y := fmulf g h; p_z := fmulf f g; p_t := fmulf e h |}.
Lemma point_addf_eq P Q : point_addf P Q = point_add P Q.
Proof. unfold point_addf, point_add, fmulf, fsubf, faddf, fmul, fsub, fadd. rewrite !fred_eq. reflexivity. Qed.
Fixpoint point_loopf (s : positive) (Q P : Point) : Point :=
  match s with
  | xH => point_addf Q P
  | xO s => point_loopf s Q (point_addf P P)
  | xI s => point_loopf s (point_addf Q P) (point_addf P P)
  end.
Lemma point_loopf_eq s : forall Q P, point_loopf s Q P = point_loop s Q P.
Proof. induction s as [s IH|s IH|]; intros Q P; cbn [point_loopf point_loop]; rewrite ?point_addf_eq, ?IH; reflexivity. Qed.
Definition point_mulf (s : N) (P : Point) : Point := match s with N0 => point_zero | Npos s => point_loopf s point_zero P end.
Lemma point_mulf_eq s P : point_mulf s P = point_mul s P.
Proof. destruct s; [reflexivity|]. apply point_loopf_eq. Qed.
Definition point_compressf (P : Point) : bytes :=
  let zinv := fpowf (p_z P) (Z.to_pos (p25519 - 2)) in
  let x := fmulf (p_x P) zinv in let y := fmulf (p_y P) zinv in
  le_bytes 32 (Z.to_N y + (if Z.odd x then 2 ^ 255 else 0)).
Lemma point_compressf_eq P : point_compressf P = point_compress P.
Proof. unfold point_compressf, point_compress, finv. cbv zeta. rewrite fpowf_eq. unfold fmulf, fmul. rewrite !fred_eq. reflexivity. Qed.
Definition secret_to_publicf (secret : bytes) : bytes := point_compressf (point_mulf (ed_scalar secret) ed_base).
Lemma secret_to_publicf_eq seed : secret_to_publicf seed = secret_to_public seed.
Proof. unfold secret_to_publicf, secret_to_public. rewrite point_mulf_eq, point_compressf_eq. reflexivity. Qed.
Definition ed_signf (secret msg : bytes) : bytes :=
  let a := ed_scalar secret in
  let A := point_compressf (point_mulf a ed_base) in
  let r := sha512_modq (ed_prefix secret ++ msg) in
  let Rs := point_compressf (point_mulf r ed_base) in
  let h := sha512_modq (Rs ++ A ++ msg) in
  Rs ++ le_bytes 32 ((r + h * a) mod ed_order).
Lemma ed_signf_eq seed msg : ed_signf seed msg = ed_sign seed msg.
Proof. unfold ed_signf, ed_sign. cbv zeta. rewrite !point_mulf_eq, !point_compressf_eq. reflexivity. Qed.

(** ** Requests can be written down *)
Lemma request_wire user service key sg : len user + len service + len key <= 800 -> len sg <= 1000 ->
  is_wire (login_request user service key sg) (wire (login_request user service key sg)) /\ len (wire (login_request user service key sg)) <= 3000.
Proof.
  intros L LG. assert (LA : len ed_alg = 11) by reflexivity.
  assert (LK : len (named ed_alg key) = 19 + len key) by (unfold named; elen; lia).
  assert (LS : len (named ed_alg sg) = 19 + len sg) by (unfold named; elen; lia). split.
  - apply wire_is_wire. split; [|exact I]. unfold login_request. cbn [message_fields userauth_fields ua_user ua_service ua_method method_fields app].
    repeat constructor; cbn [fld_ok]; change (2 ^ 32) with 4294967296; try (change (len (B "publickey")) with 9); lia.
  - unfold wire, login_request. cbn [message_fields userauth_fields ua_user ua_service ua_method method_fields app]. elen. rewrite LA, LK, LS.
    change (len (B "publickey")) with 9. lia.
Qed.

(** ** One session *)
Theorem one_session seed h user service h' user' service' sg :
  Forall (fun s => len s < 2 ^ 32) [h; user; service; h'; user'; service'] -> (h, user, service) <> (h', user', service') ->
  let key := secret_to_public seed in
  ed_verify real_ed key (login_data h user service key) sg = true ->
  ed_verify real_ed key (login_data h' user' service' key) sg = true ->
  let m := ntake 32 sg ++ key ++ login_data h user service key in let m' := ntake 32 sg ++ key ++ login_data h' user' service' key in
  m <> m' /\ le_value (sha512_of m) mod ed_order = le_value (sha512_of m') mod ed_order.
Proof.
  intros F NE key V V' m m'. apply andb_prop in V as [_ V]. apply andb_prop in V' as [_ V'].
  split; [|exact (one_message _ _ _ _ V V')]. intro E. apply NE. unfold m, m' in E. apply app_inv_head in E. apply app_inv_head in E.
  assert (LA : len ed_alg < 2 ^ 32) by reflexivity.
  assert (LK : len (named ed_alg key) < 2 ^ 32).
  { unfold named. elen. unfold key. rewrite public_length. reflexivity. }
  clear V V'. unfold login_data in E. clearbody key. clear m m' NE.
  repeat match goal with X : Forall _ (_ :: _) |- _ => apply Forall_cons_iff in X as [? X] end.
  pose proof (sign_data_inj h user service ed_alg (named ed_alg key) h' user' service' ed_alg (named ed_alg key)
    ltac:(repeat (apply Forall_cons; [assumption|]); apply Forall_nil) ltac:(repeat (apply Forall_cons; [assumption|]); apply Forall_nil) E) as X.
  pose proof (f_equal (fun l => nth 0 l []) X) as X0. pose proof (f_equal (fun l => nth 1 l []) X) as X1. pose proof (f_equal (fun l => nth 2 l []) X) as X2.
  cbn [nth] in X0, X1, X2. rewrite X0, X1, X2. reflexivity.
Qed.

(** ** Logins *)
Lemma honest_login : forall id q sign R rng ls vc ic raw1 k ec raw2 e raw3 seed,
  let H := real_host id q sign in
  host_ok H -> host_rng_ok R -> rngs_ok rng ->
  Forall (fun l => Forall (fun b => b <> x0d) l /\ ~ trap l) ls -> ident_ok vc ->
  plain_packet ic raw1 -> len raw1 <= 65536 -> is_wire (Msg_KexInit k) ic -> acceptable k ->
  plain_packet ec raw2 -> len raw2 <= 65536 -> is_wire (Msg_EcdhInit (x25519_public_of e)) ec ->
  plain_packet (wire Msg_NewKeys) raw3 -> len raw3 <= 65536 ->
  exists pad1 is rs1 pad2 r rs2 pad3 rs3,
    is_packet 8 true is pad1 rs1 /\ is_packet 8 true (wire (Msg_EcdhReply r)) pad2 rs2 /\ is_packet 8 true (wire Msg_NewKeys) pad3 rs3 /\
    let t := client_transcript e vc ic id is r in
    (exists cs cr, client_ciphers t cs cr) /\
    forall cs cr user service pl1 pad1' raw1' pl2 pad2' raw2' rest, client_ciphers t cs cr ->
    utf8_valid user = true -> len user + len service <= 700 ->
    let key := secret_to_public seed in
    let sg := ed_sign seed (login_data (client_hash e vc ic id is r) user service key) in
    loose_packet pl1 pad1' raw1' -> len raw1' + 16 <= 35000 -> is_wire (Msg_ServiceRequest (B "ssh-userauth")) pl1 ->
    loose_packet pl2 pad2' raw2' -> len raw2' + 16 <= 35000 -> is_wire (login_request user service key sg) pl2 ->
    forall s, s = as_lines ls ++ vc ++ crlf ++ raw1 ++ raw2 ++ raw3 ++ seal_with real_crypto cs raw1' ++ seal_with real_crypto (bump cs) raw2' ++ rest ->
    exists st c s1, authenticate_new_client H R real_crypto rng (sshd_auth real_ed) s = Some (AO_Auth (Ok user) st) /\ k_in (a_conn st) = rest /\
      handle_new_client H R s [] = (Ok c, s1, id ++ crlf ++ rs1 ++ rs2 ++ rs3).
Proof.
  intros id q sign R rng ls vc ic raw1 k ec raw2 e raw3 seed H HO RO RR LS VC P1 L1 W1 AK P2 L2 W2 P3 L3.
  destruct (logs_in id q sign R rng ls vc ic raw1 k ec raw2 e raw3 HO RO RR LS VC P1 L1 W1 AK P2 L2 W2 P3 L3)
    as (pad1 & is & rs1 & pad2 & r & rs2 & pad3 & rs3 & K1 & K2 & K3 & K4 & F).
  exists pad1, is, rs1, pad2, r, rs2, pad3, rs3. split; [exact K1|]. split; [exact K2|]. split; [exact K3|]. cbv zeta. split; [exact K4|].
  intros cs cr user service pl1 pad1' raw1' pl2 pad2' raw2' rest CC UV UL.
  refine (F cs cr user service _ _ pl1 pad1' raw1' pl2 pad2' raw2' rest CC UV _ _ _ _).
  - rewrite public_length. lia.
  - apply public_key_ok.
  - apply sign_ok.
  - apply sign_ok.
Qed.
Lemma weak_login : forall id q sign R rng ls vc ic raw1 k ec raw2 e raw3,
  let H := real_host id q sign in
  host_ok H -> host_rng_ok R -> rngs_ok rng ->
  Forall (fun l => Forall (fun b => b <> x0d) l /\ ~ trap l) ls -> ident_ok vc ->
  plain_packet ic raw1 -> len raw1 <= 65536 -> is_wire (Msg_KexInit k) ic -> acceptable k ->
  plain_packet ec raw2 -> len raw2 <= 65536 -> is_wire (Msg_EcdhInit (x25519_public_of e)) ec ->
  plain_packet (wire Msg_NewKeys) raw3 -> len raw3 <= 65536 ->
  exists pad1 is rs1 pad2 r rs2 pad3 rs3,
    is_packet 8 true is pad1 rs1 /\ is_packet 8 true (wire (Msg_EcdhReply r)) pad2 rs2 /\ is_packet 8 true (wire Msg_NewKeys) pad3 rs3 /\
    let t := client_transcript e vc ic id is r in
    (exists cs cr, client_ciphers t cs cr) /\
    forall cs cr user service pl1 pad1' raw1' pl2 pad2' raw2' rest, client_ciphers t cs cr ->
    utf8_valid user = true -> len user + len service <= 700 ->
    let key := weak_key in let sg := weak_signature in
    loose_packet pl1 pad1' raw1' -> len raw1' + 16 <= 35000 -> is_wire (Msg_ServiceRequest (B "ssh-userauth")) pl1 ->
    loose_packet pl2 pad2' raw2' -> len raw2' + 16 <= 35000 -> is_wire (login_request user service key sg) pl2 ->
    forall s, s = as_lines ls ++ vc ++ crlf ++ raw1 ++ raw2 ++ raw3 ++ seal_with real_crypto cs raw1' ++ seal_with real_crypto (bump cs) raw2' ++ rest ->
    exists st c s1, authenticate_new_client H R real_crypto rng (sshd_auth real_ed) s = Some (AO_Auth (Ok user) st) /\ k_in (a_conn st) = rest /\
      handle_new_client H R s [] = (Ok c, s1, id ++ crlf ++ rs1 ++ rs2 ++ rs3).
Proof.
  intros id q sign R rng ls vc ic raw1 k ec raw2 e raw3 H HO RO RR LS VC P1 L1 W1 AK P2 L2 W2 P3 L3.
  destruct (logs_in id q sign R rng ls vc ic raw1 k ec raw2 e raw3 HO RO RR LS VC P1 L1 W1 AK P2 L2 W2 P3 L3)
    as (pad1 & is & rs1 & pad2 & r & rs2 & pad3 & rs3 & K1 & K2 & K3 & K4 & F).
  exists pad1, is, rs1, pad2, r, rs2, pad3, rs3. split; [exact K1|]. split; [exact K2|]. split; [exact K3|]. cbv zeta. split; [exact K4|].
  intros cs cr user service pl1 pad1' raw1' pl2 pad2' raw2' rest CC UV UL.
  refine (F cs cr user service _ _ pl1 pad1' raw1' pl2 pad2' raw2' rest CC UV _ _ _ _).
  - change (len weak_key) with 32. lia.
  - vm_compute. reflexivity.
  - vm_compute. reflexivity.
  - cbn [real_ed ed_verify]. change (len weak_signature =? 64) with true. cbn [andb]. apply weak_signs.
Qed.
