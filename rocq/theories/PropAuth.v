(** Property theorems C37-C42 and C67: user authentication.  The right-hand
    sides are defined in [SpecAuth]; the handlers, all cryptography and the
    random sources are parameters. *)
From Coq Require Import Init.Byte Strings.Byte.
From Verif Require Import AuthToy.
Open Scope res_scope.

(** ** C37 *)
Theorem C37_sign_data : forall buf sid user service algorithm blob,
  Forall (fun s => len s < 2 ^ 32) [sid; user; service; algorithm; blob] ->
  let d := sign_data sid user service algorithm blob in
  if len d <=? len buf
  then format_sign_data buf sid user service algorithm blob = (Ok d, d ++ ndrop (len d) buf)
  else fst (format_sign_data buf sid user service algorithm blob) = Err tt.
Proof. exact format_sign_data_spec. Qed.
Print Assumptions C37_sign_data.

Theorem C37_sign_data_binds : forall sid1 user1 service1 alg1 blob1 sid2 user2 service2 alg2 blob2,
  Forall (fun s => len s < 2 ^ 32) [sid1; user1; service1; alg1; blob1] ->
  Forall (fun s => len s < 2 ^ 32) [sid2; user2; service2; alg2; blob2] ->
  sign_data sid1 user1 service1 alg1 blob1 = sign_data sid2 user2 service2 alg2 blob2 ->
  [sid1; user1; service1; alg1; blob1] = [sid2; user2; service2; alg2; blob2].
Proof. exact sign_data_inj. Qed.
Print Assumptions C37_sign_data_binds.

Example C37_example :
  (* moving a byte from the user to the service changes the data *)
  sign_data (B "id") (B "ab") (B "c") (B "x") (B "y") <> sign_data (B "id") (B "a") (B "bc") (B "x") (B "y") /\
  format_sign_data (zeros 100) (B "id") (B "ab") (B "c") (B "x") (B "y") =
    (Ok (be32 2 ++ B "id" ++ [x32] ++ be32 2 ++ B "ab" ++ be32 1 ++ B "c" ++ be32 9 ++ B "publickey" ++ [x01] ++ be32 1 ++ B "x" ++ be32 1 ++ B "y"),
     be32 2 ++ B "id" ++ [x32] ++ be32 2 ++ B "ab" ++ be32 1 ++ B "c" ++ be32 9 ++ B "publickey" ++ [x01] ++ be32 1 ++ B "x" ++ be32 1 ++ B "y" ++ zeros 58).
Proof. split; [vm_compute; discriminate|vm_compute; reflexivity]. Qed.

(** ** The conversation of the examples: no authentication, a wrong password, a
    key query, the key. *)
Definition ex_talk : list Message :=
  [toy_service; toy_request M_None; toy_request (M_Password (B "guess")); toy_request (M_PublicKeyBlob toy_alg (named toy_alg (B "good")));
   toy_request toy_signed].

(** ** C38 *)
Theorem C38_no_session_without_authentication : forall U H R C rng (h : AHandlers U), host_ok H -> host_rng_ok R -> crypto_ok C -> rngs_ok rng ->
  forall s u st, authenticate_new_client H R C rng h s = Some (AO_Auth (Ok u) st) ->
  exists pre user service auth,
    a_log st = pre ++ [AE_Authenticate user service auth (Ok u); AE_Sent (Msg_UserAuth UA_Success)] /\
    h_authenticate h pre user service auth = Ok u /\ ~ In (AE_Sent (Msg_UserAuth UA_Success)) pre /\
    forall user service auth u, ~ In (AE_Authenticate user service auth (Ok u)) pre.
Proof. intros U H R C rng h HO RO K RR. exact (no_session_without_authentication H R C rng h HO RO K RR). Qed.
Print Assumptions C38_no_session_without_authentication.

Theorem C38_no_success_without_session : forall U H R C rng (h : AHandlers U), host_ok H -> host_rng_ok R -> crypto_ok C -> rngs_ok rng ->
  forall s out, authenticate_new_client H R C rng h s = Some out ->
  match out with
  | AO_Auth (Ok _) _ => True
  | AO_Auth _ st => ~ In (AE_Sent (Msg_UserAuth UA_Success)) (a_log st) /\
      forall user service auth u, ~ In (AE_Authenticate user service auth (Ok u)) (a_log st)
  | AO_Handshake _ _ => True
  end.
Proof. intros U H R C rng h HO RO K RR. exact (no_success_without_session H R C rng h HO RO K RR). Qed.
Print Assumptions C38_no_success_without_session.

(** Of every connection there is an end, and the log is what was written and
    what the handlers were asked and answered. *)
Theorem C38_connection_story : forall U H R C rng (h : AHandlers U), host_ok H -> host_rng_ok R -> crypto_ok C -> rngs_ok rng ->
  forall s, exists out, authenticate_new_client H R C rng h s = Some out /\
  match out with
  | AO_Handshake _ _ => forall c s1 o1, handle_new_client H R s [] <> (Ok c, s1, o1)
  | AO_Auth r st => exists c s1 o, handle_new_client H R s [] = (Ok c, s1, o) /\
      auth_outcome C h (session_identifier c) (conn_of c s1 o) r st
  end.
Proof. intros U H R C rng h HO RO K RR. exact (connection_story H R C rng h HO RO K RR). Qed.
Print Assumptions C38_connection_story.

Lemma ex_said : ends (toy_connect ex_talk) = Some (Ok (B "joe")) /\ log_of (toy_connect ex_talk) =
    [AE_Sent (Msg_ServiceAccept (B "ssh-userauth"));
     AE_Authenticate (B "joe") (B "ssh-connection") Auth_None (Err tt); AE_Sent failure;
     AE_Authenticate (B "joe") (B "ssh-connection") (Auth_Password (B "guess")) (Err tt); AE_Sent failure;
     AE_Exists (B "joe") (B "ssh-connection") toy_alg (B "good") (Ok tt);
     AE_Sent (Msg_UserAuth (UA_PublicKeyOk toy_alg (named toy_alg (B "good"))));
     AE_Authenticate (B "joe") (B "ssh-connection") (Auth_PublicKey toy_alg (B "good") (toy_hash toy_message) toy_message) (Ok (B "joe"));
     AE_Sent (Msg_UserAuth UA_Success)].
Proof. apply toy_said. vm_compute. reflexivity. Qed.
Example C38_example : host_ok toy_host /\ host_rng_ok toy_rng /\ crypto_ok toy_crypto /\ rngs_ok toy_pads /\
  ends (toy_connect ex_talk) = Some (Ok (B "joe")) /\
  log_of (toy_connect ex_talk) =
    [AE_Sent (Msg_ServiceAccept (B "ssh-userauth"));
     AE_Authenticate (B "joe") (B "ssh-connection") Auth_None (Err tt); AE_Sent failure;
     AE_Authenticate (B "joe") (B "ssh-connection") (Auth_Password (B "guess")) (Err tt); AE_Sent failure;
     AE_Exists (B "joe") (B "ssh-connection") toy_alg (B "good") (Ok tt);
     AE_Sent (Msg_UserAuth (UA_PublicKeyOk toy_alg (named toy_alg (B "good"))));
     AE_Authenticate (B "joe") (B "ssh-connection") (Auth_PublicKey toy_alg (B "good") (toy_hash toy_message) toy_message) (Ok (B "joe"));
     AE_Sent (Msg_UserAuth UA_Success)] /\
  (* and a client that stops after the key query gets nothing *)
  ends (toy_connect (firstn 4 ex_talk)) = Some (Err tt).
Proof.
  split; [exact toy_host_ok|]. split; [exact toy_rng_ok|]. split; [exact toy_ok|]. split; [exact toy_pads_ok|].
  destruct ex_said as [E1 E2]. split; [exact E1|]. split; [exact E2|].
  refine (eq_trans (f_equal ends (toy_connected _)) _). vm_compute. reflexivity.
Qed.

(** ** C39 *)
Theorem C39_public_key_bound_to_session : forall U H R C rng (h : AHandlers U), host_ok H -> host_rng_ok R -> crypto_ok C -> rngs_ok rng ->
  forall s r st user service alg key sg msg x,
  authenticate_new_client H R C rng h s = Some (AO_Auth r st) ->
  In (AE_Authenticate user service (Auth_PublicKey alg key sg msg) x) (a_log st) ->
  exists c s1 o pls rest pl, handle_new_client H R s [] = (Ok c, s1, o) /\
    msg = sign_data (session_identifier c) user service alg (named alg key) /\
    received_as C (receive_cipher c) s1 pls rest /\ In pl pls /\
    is_wire (Msg_UserAuth (UA_Request {| ua_user := user; ua_service := service;
       ua_method := M_PublicKeySigned alg (named alg key) (named alg sg) |})) pl.
Proof. intros U H R C rng h HO RO K RR. exact (public_key_bound H R C rng h HO RO K RR). Qed.
Print Assumptions C39_public_key_bound_to_session.

(** A signature over the same request for another session is not accepted, nor
    one over another user's request; a key blob of another algorithm ends it. *)
Example C39_example :
  let sig m := toy_request (M_PublicKeySigned toy_alg (named toy_alg (B "good")) (named toy_alg (toy_hash m))) in
  (ends (toy_connect [toy_service; sig toy_message]) = Some (Ok (B "joe")) /\
   log_of (toy_connect [toy_service; sig toy_message]) =
    [AE_Sent (Msg_ServiceAccept (B "ssh-userauth"));
     AE_Authenticate (B "joe") (B "ssh-connection") (Auth_PublicKey toy_alg (B "good") (toy_hash toy_message) toy_message) (Ok (B "joe"));
     AE_Sent (Msg_UserAuth UA_Success)]) /\
  map (fun m => ends (toy_connect [toy_service; m]))
    [sig (sign_data (B "other session") (B "joe") (B "ssh-connection") toy_alg (named toy_alg (B "good")));
     sig (sign_data (session_identifier toy_c) (B "ann") (B "ssh-connection") toy_alg (named toy_alg (B "good")));
     toy_request (M_PublicKeySigned toy_alg (named (B "gla") (B "good")) (named toy_alg (toy_hash toy_message)))]
  = [Some (Err tt); Some (Err tt); Some (Err tt)].
Proof.
  cbv zeta. split; [apply toy_said; vm_compute; reflexivity|].
  erewrite map_ext; [|intros m; exact (f_equal ends (toy_connected [toy_service; m]))]. vm_compute. reflexivity.
Qed.

(** ** C40 *)
Theorem C40_one_reply_per_request : forall U H R C rng (h : AHandlers U), host_ok H -> host_rng_ok R -> crypto_ok C -> rngs_ok rng ->
  forall s r st, authenticate_new_client H R C rng h s = Some (AO_Auth r st) -> a_log st <> [] ->
  exists c s1 o pl pls rounds tail rest, handle_new_client H R s [] = (Ok c, s1, o) /\
    received_as C (receive_cipher c) s1 (pl :: pls) rest /\
    is_wire (Msg_ServiceRequest (B "ssh-userauth")) pl /\
    Forall2 (fun pl rd => exists q, is_wire (Msg_UserAuth (UA_Request q)) pl /\ causes (session_identifier c) q rd) pls rounds /\
    a_log st = AE_Sent (Msg_ServiceAccept (B "ssh-userauth")) :: concat (map events rounds) ++ tail /\
    (r <> Panic -> tail = []) /\ sent tail = [] /\
    written_as C (send_cipher c) o (wire (Msg_ServiceAccept (B "ssh-userauth")) :: map (fun rd => wire (reply rd)) rounds) (k_out (a_conn st)).
Proof. intros U H R C rng h HO RO K RR. exact (one_reply_per_request H R C rng h HO RO K RR). Qed.
Print Assumptions C40_one_reply_per_request.

Example C40_example :
  sent (log_of (toy_connect ex_talk)) =
    [Msg_ServiceAccept (B "ssh-userauth"); failure; failure;
     Msg_UserAuth (UA_PublicKeyOk toy_alg (named toy_alg (B "good"))); Msg_UserAuth UA_Success] /\
  reply (U := bytes) (Query (B "joe") (B "s") (B "a") (B "k") false) = failure.
Proof. destruct ex_said as [_ E]. rewrite E. split; reflexivity. Qed.

(** ** C41: refuted, for every server: a client that completes the handshake and
    disconnects is enough. *)
Theorem C41_preauth_no_panic_refuted : forall U H R C rng (h : AHandlers U), host_ok H -> host_rng_ok R -> crypto_ok C -> rngs_ok rng ->
  exists s st, authenticate_new_client H R C rng h s = Some (AO_Auth Panic st) /\ a_log st = [].
Proof. intros U H R C rng h HO RO K RR. exact (preauth_panic H R C rng h HO RO K RR). Qed.
Print Assumptions C41_preauth_no_panic_refuted.

(** Anything but a request for the user authentication service is. *)
Theorem C41_no_service_panics_refuted : forall U H R C rng (h : AHandlers U), host_ok H -> host_rng_ok R -> crypto_ok C -> rngs_ok rng ->
  forall s c s1 o, handle_new_client H R s [] = (Ok c, s1, o) -> no_service C (receive_cipher c) s1 ->
  exists st, authenticate_new_client H R C rng h s = Some (AO_Auth Panic st) /\ a_log st = [].
Proof. intros U H R C rng h HO RO K RR. exact (no_service_panics H R C rng h HO RO K RR). Qed.
Print Assumptions C41_no_service_panics_refuted.

(** What holds: it is that, or one of the inputs in [fatal]. *)
Theorem C41_preauth_no_panic_partial : forall U H R C rng (h : AHandlers U), host_ok H -> host_rng_ok R -> crypto_ok C -> rngs_ok rng ->
  forall s st, authenticate_new_client H R C rng h s = Some (AO_Auth Panic st) ->
  exists c s1 o, handle_new_client H R s [] = (Ok c, s1, o) /\
    (no_service C (receive_cipher c) s1 \/
     exists pls rest tail, received_as C (receive_cipher c) s1 pls rest /\ fatal (U := U) C (later (len pls) (receive_cipher c)) (session_identifier c) rest tail).
Proof. intros U H R C rng h HO RO K RR. exact (preauth_panics_only H R C rng h HO RO K RR). Qed.
Print Assumptions C41_preauth_no_panic_partial.

(** One client for each: another service, another message first, another
    message later, a password change, host based, an unknown method, too much to
    sign, an accepted key with a long algorithm name. *)
Example C41_example :
  map (fun ms => ends (toy_connect ms))
    [[Msg_ServiceRequest (B "ssh-connection")]; [Msg_Ignore []]; [toy_service; Msg_Ignore []];
     [toy_service; toy_request (M_PasswordRenew (B "a") (B "b"))];
     [toy_service; toy_request (M_HostBased (B "a") (B "b") (B "c") (B "d") (B "e"))];
     [toy_service; toy_request (M_Other (B "keyboard-interactive") (B "x"))];
     [toy_service; toy_request (M_PublicKeySigned toy_alg (named toy_alg (zeros 1000)) (named toy_alg []))];
     [toy_service; let a := repeat x61 104 in toy_request (M_PublicKeyBlob a (named a (B "good")))];
     [toy_service; let a := repeat x61 103 in toy_request (M_PublicKeyBlob a (named a (B "good")))]]
  = repeat (Some Panic) 8 ++ [Some (Err tt)].
Proof. erewrite map_ext; [|intros ms; exact (f_equal ends (toy_connected ms))]. vm_compute. reflexivity. Qed.

(** ** C42 *)
Theorem C42_queries_never_authenticate : forall U H R C rng (h : AHandlers U), host_ok H -> host_rng_ok R -> crypto_ok C -> rngs_ok rng ->
  forall s r st pre user service alg key x post,
  authenticate_new_client H R C rng h s = Some (AO_Auth r st) ->
  a_log st = pre ++ AE_Exists user service alg key x :: post ->
  (post = [] /\ r = Panic) \/
  exists post', post = AE_Sent (match x with Ok _ => Msg_UserAuth (UA_PublicKeyOk alg (named alg key)) | _ => failure end) :: post' /\
    (post' = [] -> forall u, r <> Ok u).
Proof. intros U H R C rng h HO RO K RR. exact (query_never_authenticates H R C rng h HO RO K RR). Qed.
Print Assumptions C42_queries_never_authenticate.

Example C42_example :
  let query k := toy_request (M_PublicKeyBlob toy_alg (named toy_alg k)) in
  log_of (toy_connect [toy_service; query (B "good"); query (B "bad")]) =
    [AE_Sent (Msg_ServiceAccept (B "ssh-userauth"));
     AE_Exists (B "joe") (B "ssh-connection") toy_alg (B "good") (Ok tt);
     AE_Sent (Msg_UserAuth (UA_PublicKeyOk toy_alg (named toy_alg (B "good"))));
     AE_Exists (B "joe") (B "ssh-connection") toy_alg (B "bad") (Err tt); AE_Sent failure] /\
  ends (toy_connect [toy_service; query (B "good"); query (B "bad")]) = Some (Err tt).
Proof. apply and_comm, toy_said. vm_compute. reflexivity. Qed.

(** ** C67: a client with a key the handler accepts is let in, and nothing of
    what it sends next is lost. *)
Theorem C67_good_client_admitted : forall U H R C rng (h : AHandlers U), host_ok H -> host_rng_ok R -> crypto_ok C -> rngs_ok rng ->
  forall s c s1 o pl1 pl2 pad1 pad2 raw1 raw2 rest user service alg key sg data u,
  handle_new_client H R s [] = (Ok c, s1, o) ->
  s1 = seal_with C (receive_cipher c) raw1 ++ seal_with C (bump (receive_cipher c)) raw2 ++ rest ->
  loose_packet pl1 pad1 raw1 -> len raw1 + 16 <= 35000 -> is_wire (Msg_ServiceRequest (B "ssh-userauth")) pl1 ->
  loose_packet pl2 pad2 raw2 -> len raw2 + 16 <= 35000 ->
  is_wire (Msg_UserAuth (UA_Request {| ua_user := user; ua_service := service;
     ua_method := M_PublicKeySigned alg (named alg key) (named alg sg) |})) pl2 ->
  data = sign_data (session_identifier c) user service alg (named alg key) -> len data <= 1024 ->
  (forall log, h_authenticate h log user service (Auth_PublicKey alg key sg data) = Ok u) ->
  exists st, authenticate_new_client H R C rng h s = Some (AO_Auth (Ok u) st) /\ k_in (a_conn st) = rest.
Proof. intros U H R C rng h HO RO K RR. exact (good_client_admitted H R C rng h HO RO K RR). Qed.
Print Assumptions C67_good_client_admitted.

Example C67_example :
  (exists o, handle_new_client toy_host toy_rng (toy_client [toy_service; toy_request toy_signed] ++ B "rest") [] =
     (Ok toy_c, seal_with toy_crypto (receive_cipher toy_c) (toy_raw (wire toy_service)) ++
                seal_with toy_crypto (bump (receive_cipher toy_c)) (toy_raw (wire (toy_request toy_signed))) ++ B "rest", o)) /\
  is_wire toy_service (wire toy_service) /\ is_wire (toy_request toy_signed) (wire (toy_request toy_signed)) /\
  len toy_message <= 1024 /\
  (forall log, h_authenticate toy_handlers log (B "joe") (B "ssh-connection") (Auth_PublicKey toy_alg (B "good") (toy_hash toy_message) toy_message) = Ok (B "joe")).
Proof.
  split; [exists toy_out; unfold toy_client; rewrite <- app_assoc; refine (eq_trans (toy_shakes _) _); vm_compute; reflexivity|].
  split; [apply parse_wire; vm_compute; reflexivity|]. split; [apply parse_wire; vm_compute; reflexivity|].
  split; [vm_compute; discriminate|]. intros log. vm_compute. reflexivity.
Qed.
