(** Login attempts that end the example server's connection with a panic. *)
From Coq Require Import Init.Byte Strings.Byte.
From Verif Require Export SecThm SshdThm.

Section Attempt.
  Context {U : Type} (H : Host) (R : HostRng) (C : Crypto) (rng : N -> N -> bytes) (h : AHandlers U).
  Context (HO : host_ok H) (RO : host_rng_ok R) (K : crypto_ok C) (RR : rngs_ok rng).

  (** The first request is one about which the handler panics. *)
  Lemma attempt_panics s c s1 o pl1 pl2 pad1 pad2 raw1 raw2 rest q user service auth :
    handle_new_client H R s [] = (Ok c, s1, o) ->
    s1 = seal_with C (receive_cipher c) raw1 ++ seal_with C (bump (receive_cipher c)) raw2 ++ rest ->
    loose_packet pl1 pad1 raw1 -> len raw1 + 16 <= 35000 -> is_wire (Msg_ServiceRequest (B "ssh-userauth")) pl1 ->
    loose_packet pl2 pad2 raw2 -> len raw2 + 16 <= 35000 -> is_wire (Msg_UserAuth (UA_Request q)) pl2 ->
    (forall rd : round U, causes (session_identifier c) q rd -> exists x, rd = Attempt user service auth x) ->
    ~ malformed q -> (forall tail : list (AEvent U), fatal_request (session_identifier c) q tail -> tail = [AE_Authenticate user service auth Panic]) ->
    (forall log, h_authenticate h log user service auth = Panic) ->
    exists st, authenticate_new_client H R C rng h s = Some (AO_Auth Panic st) /\ In (AE_Authenticate user service auth Panic) (a_log st).
  Proof.
    intros E -> P1 L1 W1 P2 L2 W2 CS NM FR HA. destruct (handshake_facts H R HO RO _ _ _ _ E) as (LS & C1 & C2).
    unfold authenticate_new_client. rewrite E. set (k := conn_of c _ o).
    assert (V : ainv (auth_init (U := U) k)).
    { unfold ainv, auth_init. cbn [a_buf a_mini a_message a_conn k_rd k_wr]. rewrite !len_zeros. unfold k. cbn [conn_of k_rd k_wr]. rewrite C1, C2. repeat split. }
    unfold auth_phase. pose proof (auth_service_cases C rng h K RR _ V) as A.
    destruct (auth_service C rng (auth_init k)) as [r st]. destruct r as [[]|[]|]; [|contradiction|].
    2:{ exfalso. destruct A as [A _]. eapply A; [|exact W1]. exists pad1, raw1. eexists. split; [exact P1|]. split; [reflexivity|exact L1]. }
    destruct A as (pl & W & V1 & _ & S1).
    assert (IN : k_rd (a_conn st) = bump (receive_cipher c) /\ k_in (a_conn st) = seal_with C (bump (receive_cipher c)) raw2 ++ rest /\
                 answered_by h (a_log st)).
    { destruct S1 as (A1 & _ & _ & A4 & _ & _ & A7). split; [rewrite A1; symmetry; apply bump_later|].
      split; [|apply A7; apply answered_nil].
      eapply received_unique; [exact K| |exact P1| |exact A4]; [cbn [auth_init a_conn k conn_of k_rd]; rewrite C1; reflexivity|reflexivity]. }
    destruct IN as (IN1 & IN2 & AN).
    pose proof (auth_round_cases C rng h (session_identifier c) K RR ltac:(rewrite LS; reflexivity) st V1) as A.
    assert (NP : next_payload C (k_rd (a_conn st)) 35000 (k_in (a_conn st)) pl2).
    { rewrite IN1, IN2. exists pad2, raw2, rest. auto. }
    cbn [auth_loop]. destruct (auth_round C rng h (session_identifier c) st) as [r st'].
    assert (SAME : forall m, is_wire m pl2 -> is_ecdh_reply m = false -> m = Msg_UserAuth (UA_Request q)).
    { intros m W' N. exact (wire_unique _ _ _ W' W2 N eq_refl). }
    assert (CALL : forall p q' rd, is_wire (Msg_UserAuth (UA_Request q')) p ->
       causes (session_identifier c) q' rd -> astep C h st st' [p] (events rd) -> False).
    { intros p q' rd Wq CA (_ & _ & _ & X & _ & LG & AN'). assert (Y : p = pl2) by (eapply received_same; [exact K| |exact NP|exact X]; apply V1). subst p.
      apply SAME in Wq; [|reflexivity]. injection Wq as ->.
      specialize (AN' AN). pose proof (AN' (a_log st) (call rd) [AE_Sent (reply rd)] LG) as AA.
      destruct (CS rd CA) as (x & ->). cbn [call] in AA. rewrite HA in AA. destruct x; discriminate AA. }
    destruct r as [[u'|]|[]|]; cbn [round_result] in A.
    - exfalso. destruct A as (p & q' & rd & Wq & CA & _ & S & _). eapply CALL; eassumption.
    - exfalso. destruct A as (p & q' & rd & Wq & CA & _ & S & _). eapply CALL; eassumption.
    - exfalso. destruct A as [D _]. destruct (D pl2 NP) as [X|[(u' & X & Y)|(q' & X & Y)]].
      + destruct (X _ W2) as [? Z]. discriminate Z.
      + apply SAME in X; [|reflexivity]. injection X as ->. exact (Y _ eq_refl).
      + apply SAME in X; [|reflexivity]. injection X as ->. exact (NM Y).
    - destruct A as (tail & (p & NP' & X) & (LG & _ & AN')). pose proof (one_payload C K _ _ _ _ _ NP NP') as <-.
      eexists. split; [reflexivity|]. rewrite LG. apply in_or_app. right.
      destruct X as [(m & X & Y & Z & _)|(q' & X & Y)].
      + exfalso. destruct (is_ecdh_reply m) eqn:EC; [destruct m; try discriminate EC; eapply Z; reflexivity|].
        apply SAME in X; [|exact EC]. eapply Y. exact X.
      + apply SAME in X; [|reflexivity]. injection X as ->. rewrite (FR _ Y). left. reflexivity.
  Qed.

  (** An attempt is answered with a panic if and only if it ends everything. *)
  Lemma panic_is_last s r st pre user service auth x post :
    authenticate_new_client H R C rng h s = Some (AO_Auth r st) -> a_log st = pre ++ AE_Authenticate user service auth x :: post ->
    x = h_authenticate h pre user service auth /\ (x = Panic -> r = Panic /\ post = []).
  Proof.
    intros E L. apply (connection_auth H R C rng h HO RO K RR) in E as (c & s1 & o & E & AB & _ & X).
    split; [exact (AB _ _ _ L)|]. intros ->.
    destruct X as [(_ & L' & _)|(pl & pls & rounds & tail & rest & RC & _ & F & L' & X)]; rewrite L' in L; [destruct pre; discriminate L|].
    destruct pre as [|e pre]; [discriminate L|]. cbn [app] in L. apply (f_equal (@tl _)) in L. cbn [tl] in L.
    assert (T : exists pre', tail = pre' ++ AE_Authenticate user service auth Panic :: post).
    { clear - L. revert pre L. induction rounds as [|rd rounds IH]; intros pre L; [exists pre; exact L|].
      destruct pre as [|e1 [|e2 pre]]; cbn [map concat events app] in L.
      - exfalso. apply (f_equal (@hd_error _)) in L. cbn [hd_error] in L. destruct rd as [? ? ? ? []|? ? ? []]; discriminate L.
      - exfalso. apply (f_equal (fun l => hd_error (tl l))) in L. discriminate L.
      - apply (f_equal (fun l => tl (tl l))) in L. cbn [tl] in L. exact (IH pre L). }
    destruct T as (pre' & T). destruct r as [u|e'|]; [destruct X as (-> & _); destruct pre'; discriminate T..|].
    split; [reflexivity|]. destruct X as (_ & FT). apply fatal_tail in FT.
    destruct FT as [->|[(?&?&?&?&?&->)|(?&?&?&->)]]; [destruct pre'; discriminate T| |]; destruct pre' as [|? [|? ?]]; cbn [app] in T; congruence.
  Qed.
End Attempt.

(** ** The example server *)
Lemma login_panics ed log user service auth : h_authenticate (sshd_auth ed) log user service auth = Panic <-> fatal_login ed user auth.
Proof.
  cbn [sshd_auth h_authenticate]. destruct auth as [|p|alg key sg msg]; cbn [sshd_authenticate fatal_login]; [split; [discriminate|contradiction]|split; auto|].
  rewrite <- utf8_valid_iff. unfold from_utf8.
  destruct (bytes_eqb alg (B "ssh-ed25519")) eqn:A; cbn [negb].
  2:{ split; [discriminate|]. intros (-> & _). rewrite bytes_eqb_refl in A. discriminate A. }
  apply bytes_eqb_true in A. destruct (ed_key ed key), (ed_signature ed sg), (ed_verify ed key msg sg), (utf8_valid user); cbn [negb unwrap]; split;
    try discriminate; try (intros (_ & X1 & X2 & X3 & X4); congruence); intros _; repeat split; auto; discriminate.
Qed.
Lemma logins_panic H R C rng ed : host_ok H -> host_rng_ok R -> crypto_ok C -> rngs_ok rng ->
  forall s r st pre user service auth x post, authenticate_new_client H R C rng (sshd_auth ed) s = Some (AO_Auth r st) ->
  a_log st = pre ++ AE_Authenticate user service auth x :: post ->
  (r = Panic /\ x = Panic /\ post = [] <-> fatal_login ed user auth).
Proof.
  intros HO RO K RR s r st pre user service auth x post E L.
  destruct (panic_is_last H R C rng (sshd_auth ed) HO RO K RR _ _ _ _ _ _ _ _ _ E L) as [A B]. rewrite <- (login_panics ed pre user service auth), <- A.
  split; [tauto|]. intros X. destruct (B X). auto.
Qed.

Lemma password_panics H R C rng ed (user service password : bytes) : host_ok H -> host_rng_ok R -> crypto_ok C -> rngs_ok rng ->
  len user + len service + len password <= 2000 ->
  exists s st, authenticate_new_client H R C rng (sshd_auth ed) s = Some (AO_Auth Panic st) /\
    In (AE_Authenticate user service (Auth_Password password) Panic) (a_log st).
Proof.
  intros HO RO K RR L. destruct (anyone_connects H R HO RO) as (c & o & E).
  set (q := {| ua_user := user; ua_service := service; ua_method := M_Password password |}).
  set (m2 := Msg_UserAuth (UA_Request q)).
  assert (L2 : len (wire m2) <= 3000).
  { unfold wire, m2, q. cbn [message_fields userauth_fields ua_user ua_service ua_method method_fields app]. elen.
    change (len (B "password")) with 8. lia. }
  assert (W2 : is_wire m2 (wire m2)).
  { apply wire_is_wire. split; [|exact I]. unfold m2, q. cbn [message_fields userauth_fields ua_user ua_service ua_method method_fields app].
    repeat constructor; cbn [fld_ok]; change (2 ^ 32) with 4294967296; try (change (len (B "password")) with 8); lia. }
  set (m1 := Msg_ServiceRequest (B "ssh-userauth")).
  destruct (toy_raw_ok (wire m1)) as [P1 Q1]; [vm_compute; discriminate|].
  destruct (toy_raw_ok (wire m2)) as [P2 Q2]; [lia|].
  eexists (hello ++ seal_with C (receive_cipher c) (toy_raw (wire m1)) ++ seal_with C (bump (receive_cipher c)) (toy_raw (wire m2)) ++ []).
  eapply (attempt_panics H R C rng (sshd_auth ed) HO RO K RR) with (pl1 := wire m1) (pl2 := wire m2) (raw1 := toy_raw (wire m1)) (raw2 := toy_raw (wire m2)) (q := q) (rest := []).
  - exact (E _).
  - reflexivity.
  - exact P1.
  - vm_compute. discriminate.
  - apply parse_wire. vm_compute. reflexivity.
  - exact P2.
  - lia.
  - exact W2.
  - intros [? ? ? ? ?|user' service' [|p|alg key sg msg] x] Ca; cbn [causes] in Ca; try discriminate Ca; [|destruct Ca as [Ca _]; discriminate Ca].
    unfold q in Ca. injection Ca as <- <- <-. exists x. reflexivity.
  - intros [].
  - intros tail T. exact T.
  - reflexivity.
Qed.

Lemma name_panics H R C rng ed (user service key : bytes) (sign : bytes -> bytes) : host_ok H -> host_rng_ok R -> crypto_ok C -> rngs_ok rng ->
  ~ text_ok user -> len user + len service + len key <= 800 -> ed_key ed key = true ->
  (forall m, ed_signature ed (sign m) = true /\ ed_verify ed key m (sign m) = true /\ len (sign m) <= 1000) ->
  exists s st sg msg, authenticate_new_client H R C rng (sshd_auth ed) s = Some (AO_Auth Panic st) /\
    In (AE_Authenticate user service (Auth_PublicKey (B "ssh-ed25519") key sg msg) Panic) (a_log st).
Proof.
  intros HO RO K RR V L KO SO. destruct (anyone_connects H R HO RO) as (c & o & E).
  set (alg := B "ssh-ed25519"). set (data := sign_data (session_identifier c) user service alg (named alg key)).
  set (q := {| ua_user := user; ua_service := service; ua_method := M_PublicKeySigned alg (named alg key) (named alg (sign data)) |}).
  set (m2 := Msg_UserAuth (UA_Request q)).
  destruct (SO data) as (S1 & S2 & S3).
  assert (LA : len alg = 11) by reflexivity.
  assert (LK : len (named alg key) = 19 + len key) by (unfold named; elen; lia).
  assert (LG : len (named alg (sign data)) = 19 + len (sign data)) by (unfold named; elen; lia).
  assert (LS : len (session_identifier c) = 32) by (apply (handshake_facts H R HO RO _ _ _ _ (E []))).
  assert (LD : len data <= 1024).
  { unfold data, sign_data. elen. rewrite LS, LA, LK. change (len (B "publickey")) with 9. lia. }
  assert (L2 : len (wire m2) <= 3000).
  { unfold wire, m2, q. cbn [message_fields userauth_fields ua_user ua_service ua_method method_fields app]. elen. rewrite LA, LK, LG.
    change (len (B "publickey")) with 9. lia. }
  assert (W2 : is_wire m2 (wire m2)).
  { apply wire_is_wire. split; [|exact I]. unfold m2, q. cbn [message_fields userauth_fields ua_user ua_service ua_method method_fields app].
    repeat constructor; cbn [fld_ok]; change (2 ^ 32) with 4294967296; try (change (len (B "publickey")) with 9); lia. }
  assert (NI : forall x y, len (named alg y) < 2 ^ 32 -> named alg y = named alg x -> x = y).
  { intros x y Lx Q. pose proof (proj2 (blob_of_Ok alg (named alg y) x Lx) Q) as Q1.
    pose proof (proj2 (blob_of_Ok alg (named alg y) y Lx) eq_refl). congruence. }
  assert (B1 : len (named alg key) < 2 ^ 32) by (change (2 ^ 32) with 4294967296; lia).
  assert (B2 : len (named alg (sign data)) < 2 ^ 32) by (change (2 ^ 32) with 4294967296; lia).
  set (m1 := Msg_ServiceRequest (B "ssh-userauth")).
  destruct (toy_raw_ok (wire m1)) as [P1 Q1]; [vm_compute; discriminate|].
  destruct (toy_raw_ok (wire m2)) as [P2 Q2]; [lia|].
  assert (X : exists st, authenticate_new_client H R C rng (sshd_auth ed)
      (hello ++ seal_with C (receive_cipher c) (toy_raw (wire m1)) ++ seal_with C (bump (receive_cipher c)) (toy_raw (wire m2)) ++ []) = Some (AO_Auth Panic st) /\
      In (AE_Authenticate user service (Auth_PublicKey alg key (sign data) data) Panic) (a_log st)).
  { eapply (attempt_panics H R C rng (sshd_auth ed) HO RO K RR) with (pl1 := wire m1) (pl2 := wire m2) (raw1 := toy_raw (wire m1)) (raw2 := toy_raw (wire m2)) (q := q) (rest := []).
    - exact (E _).
    - reflexivity.
    - exact P1.
    - vm_compute. discriminate.
    - apply parse_wire. vm_compute. reflexivity.
    - exact P2.
    - lia.
    - exact W2.
    - intros [? ? ? ? ?|user' service' [|p|alg' key' sg' msg] x] Ca; cbn [causes] in Ca; try discriminate Ca. destruct Ca as [Q ->]. unfold q in Q.
      pose proof (f_equal ua_user Q) as QU. pose proof (f_equal ua_service Q) as QS. cbn [ua_user ua_service] in QU, QS. subst user' service'.
      apply (f_equal (fun x => match ua_method x with M_PublicKeySigned a k s => (a, (k, s)) | _ => ([], ([], [])) end)) in Q.
      cbn [ua_method] in Q. apply pair_eq in Q as [<- Q]. apply pair_eq in Q as [Q3 Q4].
      apply NI in Q3; [|exact B1]. apply NI in Q4; [|exact B2]. subst key' sg'. exists x. reflexivity.
    - cbn [malformed q ua_method]. intros [Y|Y]; eapply Y; reflexivity.
    - intros tail T. cbn [fatal_request q ua_method ua_user ua_service] in T. destruct T as (key' & sg' & Q3 & Q4 & [[_ Y]|Y]); [exfalso; exact (N.lt_irrefl _ (N.lt_le_trans _ _ _ Y LD))|].
      apply NI in Q3; [|exact B1]. apply NI in Q4; [|exact B2]. subst key' sg'. exact Y.
    - intros log. apply login_panics. cbn [fatal_login]. auto. }
  destruct X as (st & X). eexists _, st, _, _. exact X.
Qed.
