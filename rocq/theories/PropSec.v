(** The properties C95-C97: what one connection is worth in another, and which
    logins the example server survives. *)
From Coq Require Import Init.Byte Strings.Byte.
From Verif Require Import SecThm2 PropSshd.

(** ** C95 *)
Theorem C95_no_replay_across_connections : forall U1 U2 H R1 R2 C1 C2 rng1 rng2 (h1 : AHandlers U1) (h2 : AHandlers U2),
  host_ok H -> host_rng_ok R1 -> host_rng_ok R2 -> crypto_ok C1 -> crypto_ok C2 -> rngs_ok rng1 -> rngs_ok rng2 ->
  forall s1 s2 r1 r2 st1 st2 user1 service1 alg1 key1 sg1 x1 user2 service2 alg2 key2 sg2 x2 msg,
  authenticate_new_client H R1 C1 rng1 h1 s1 = Some (AO_Auth r1 st1) ->
  authenticate_new_client H R2 C2 rng2 h2 s2 = Some (AO_Auth r2 st2) ->
  In (AE_Authenticate user1 service1 (Auth_PublicKey alg1 key1 sg1 msg) x1) (a_log st1) ->
  In (AE_Authenticate user2 service2 (Auth_PublicKey alg2 key2 sg2 msg) x2) (a_log st2) ->
  [user1; service1; alg1; key1] = [user2; service2; alg2; key2] /\
  exists vc1 ic1 qc1 t1 vc2 ic2 qc2 t2, client_sent s1 vc1 ic1 qc1 t1 /\ client_sent s2 vc2 ic2 qc2 t2 /\
    (same_exchange H (ephermal R1) vc1 ic1 qc1 (ephermal R2) vc2 ic2 qc2 \/
     exchange_collision H (ephermal R1) vc1 ic1 qc1 (ephermal R2) vc2 ic2 qc2).
Proof. exact no_replay. Qed.
Print Assumptions C95_no_replay_across_connections.
(** Joe logs in.  Against a server with another ephemeral key the session is
    another, and Joe's signature is asked about with another message. *)
Definition other_rng : HostRng :=
  {| pad_kexinit := pad_kexinit toy_rng; ephermal := repeat x56 32; pad_reply := pad_reply toy_rng; pad_newkeys := pad_newkeys toy_rng |}.
Lemma other_rng_ok : host_rng_ok other_rng.
Proof. destruct toy_rng_ok as (X1 & X2 & X3 & _). split; [exact X1|]. split; [exact X2|]. split; [exact X3|reflexivity]. Qed.
Definition other_c : HostClient := Eval vm_compute in client_of (handle_new_client toy_host other_rng toy_stream []).
Definition other_out : bytes := Eval vm_compute in snd (handle_new_client toy_host other_rng toy_stream []).
Lemma other_shakes t : handle_new_client toy_host other_rng (toy_stream ++ t) [] = (Ok other_c, t, other_out).
Proof.
  assert (E : handle_new_client toy_host other_rng toy_stream [] = (Ok other_c, [], other_out)) by (vm_compute; reflexivity).
  exact (handshake_local _ _ _ _ _ _ _ t E).
Qed.
Definition other_connect (ms : list Message) : option (AOutcome bytes) :=
  authenticate_new_client toy_host other_rng toy_crypto toy_pads toy_handlers (toy_stream ++ toy_frames (receive_cipher other_c) (map wire ms)).
Definition other_talk (ms : list Message) : option (AOutcome bytes) :=
  match auth_phase toy_crypto toy_pads toy_handlers (session_identifier other_c) (conn_of other_c (toy_frames (receive_cipher other_c) (map wire ms)) other_out) with
  | Some (r, st) => Some (AO_Auth r st)
  | None => None
  end.
Lemma other_connected ms : other_connect ms = other_talk ms.
Proof. unfold other_connect, authenticate_new_client. rewrite other_shakes. cbv beta iota. unfold other_talk. reflexivity. Qed.
Example C95_example : host_ok toy_host /\ host_rng_ok toy_rng /\ host_rng_ok other_rng /\ crypto_ok toy_crypto /\ rngs_ok toy_pads /\
  (ends (toy_connect [toy_service; toy_request toy_signed]) = Some (Ok (B "joe")) /\
   log_of (toy_connect [toy_service; toy_request toy_signed]) =
    [AE_Sent (Msg_ServiceAccept (B "ssh-userauth"));
     AE_Authenticate (B "joe") (B "ssh-connection") (Auth_PublicKey toy_alg (B "good") (toy_hash toy_message) toy_message) (Ok (B "joe"));
     AE_Sent (Msg_UserAuth UA_Success)]) /\
  let other_message := sign_data (session_identifier other_c) (B "joe") (B "ssh-connection") toy_alg (named toy_alg (B "good")) in
  other_message <> toy_message /\
  log_of (other_connect [toy_service; toy_request toy_signed]) =
    [AE_Sent (Msg_ServiceAccept (B "ssh-userauth"));
     AE_Authenticate (B "joe") (B "ssh-connection") (Auth_PublicKey toy_alg (B "good") (toy_hash toy_message) other_message) (Err tt);
     AE_Sent failure].
Proof.
  split; [exact toy_host_ok|]. split; [exact toy_rng_ok|]. split; [exact other_rng_ok|]. split; [exact toy_ok|]. split; [exact toy_pads_ok|].
  split; [apply toy_said; vm_compute; reflexivity|]. cbv zeta. split; [vm_compute; discriminate|].
  rewrite other_connected. vm_compute. reflexivity.
Qed.

(** ** C96 *)
Theorem C96_keys_of_connections : forall H R1 R2, host_ok H -> host_rng_ok R1 -> host_rng_ok R2 ->
  forall s1 s2 c1 c2 t1 t2 o1 o2,
  handle_new_client H R1 s1 [] = (Ok c1, t1, o1) -> handle_new_client H R2 s2 [] = (Ok c2, t2, o2) ->
  exists vc1 ic1 qc1 vc2 ic2 qc2, client_sent s1 vc1 ic1 qc1 t1 /\ client_sent s2 vc2 ic2 qc2 t2 /\
  forall i j k, nth_error (keys c1) i = Some k -> nth_error (keys c2) j = Some k ->
    i = j /\ same_exchange H (ephermal R1) vc1 ic1 qc1 (ephermal R2) vc2 ic2 qc2 \/
    exchange_collision H (ephermal R1) vc1 ic1 qc1 (ephermal R2) vc2 ic2 qc2 \/
    some_collision (sha256 H) (key_inputs (be_value (x25519 H (ephermal R1) qc1)) c1) (key_inputs (be_value (x25519 H (ephermal R2) qc2)) c2).
Proof. exact keys_apart. Qed.
Print Assumptions C96_keys_of_connections.
Theorem C96_keys_of_a_connection : forall H R, host_ok H -> host_rng_ok R ->
  forall s c s' o, handle_new_client H R s [] = (Ok c, s', o) ->
  exists vc ic qc, client_sent s vc ic qc s' /\
  let inputs := key_inputs (be_value (x25519 H (ephermal R) qc)) c in
  keys c = map (sha256 H) inputs /\ (NoDup (keys c) \/ some_collision (sha256 H) inputs inputs).
Proof. exact keys_differ. Qed.
Print Assumptions C96_keys_of_a_connection.
(** Eight different keys of two connections. *)
Example C96_example :
  handle_new_client toy_host toy_rng (toy_stream ++ B "a") [] = (Ok toy_c, B "a", toy_out) /\
  handle_new_client toy_host other_rng (toy_stream ++ B "b") [] = (Ok other_c, B "b", other_out) /\
  NoDup (keys toy_c ++ keys other_c).
Proof.
  split; [apply toy_shakes|]. split; [apply other_shakes|]. vm_compute.
  repeat (constructor; [intros I; repeat destruct I as [I|I]; [discriminate I..|destruct I]|]). constructor.
Qed.

(** ** C97: refuted: any password of anyone is fatal, *)
Theorem C97_password_refuted : forall H R C rng ed (user service password : bytes), host_ok H -> host_rng_ok R -> crypto_ok C -> rngs_ok rng ->
  len user + len service + len password <= 2000 ->
  exists s st, authenticate_new_client H R C rng (sshd_auth ed) s = Some (AO_Auth Panic st) /\
    In (AE_Authenticate user service (Auth_Password password) Panic) (a_log st).
Proof. exact password_panics. Qed.
Print Assumptions C97_password_refuted.
(** and so is a good signature for a name that is no text. *)
Theorem C97_user_name_refuted : forall H R C rng ed (user service key : bytes) (sign : bytes -> bytes), host_ok H -> host_rng_ok R -> crypto_ok C -> rngs_ok rng ->
  ~ text_ok user -> len user + len service + len key <= 800 -> ed_key ed key = true ->
  (forall m, ed_signature ed (sign m) = true /\ ed_verify ed key m (sign m) = true /\ len (sign m) <= 1000) ->
  exists s st sg msg, authenticate_new_client H R C rng (sshd_auth ed) s = Some (AO_Auth Panic st) /\
    In (AE_Authenticate user service (Auth_PublicKey (B "ssh-ed25519") key sg msg) Panic) (a_log st).
Proof. exact name_panics. Qed.
Print Assumptions C97_user_name_refuted.
(** What holds: no other attempt is. *)
Theorem C97_login_survived_partial : forall H R C rng ed, host_ok H -> host_rng_ok R -> crypto_ok C -> rngs_ok rng ->
  forall s r st pre user service auth x post, authenticate_new_client H R C rng (sshd_auth ed) s = Some (AO_Auth r st) ->
  a_log st = pre ++ AE_Authenticate user service auth x :: post ->
  (r = Panic /\ x = Panic /\ post = [] <-> fatal_login ed user auth).
Proof. exact logins_panic. Qed.
Print Assumptions C97_login_survived_partial.
Example C97_example :
  ~ text_ok [xff] /\ text_ok (B "joe") /\
  map (fun m => match auth_phase toy_crypto toy_pads (sshd_auth toy_ed) (session_identifier toy_c)
                        (conn_of toy_c (toy_frames (receive_cipher toy_c) (map wire [toy_service; toy_request M_None; toy_request m])) toy_out) with
                | Some (r, st) => Some (r, skipn 3 (a_log st))
                | None => None
                end) [M_Password (B "secret"); M_PublicKeySigned (B "ssh-rsa") (named (B "ssh-rsa") (B "mine")) (named (B "ssh-rsa") (toy_hash []))]
  = [Some (Panic, [AE_Authenticate (B "joe") (B "ssh-connection") (Auth_Password (B "secret")) Panic]);
     Some (Err tt, [AE_Authenticate (B "joe") (B "ssh-connection") (Auth_PublicKey (B "ssh-rsa") (B "mine") (toy_hash [])
                      (sign_data (session_identifier toy_c) (B "joe") (B "ssh-connection") (B "ssh-rsa") (named (B "ssh-rsa") (B "mine")))) (Err tt);
                    AE_Sent failure])] /\
  (exists s st sg msg, authenticate_new_client toy_host toy_rng toy_crypto toy_pads (sshd_auth toy_ed) s = Some (AO_Auth Panic st) /\
    In (AE_Authenticate [xff] (B "ssh-connection") (Auth_PublicKey (B "ssh-ed25519") (B "mine") sg msg) Panic) (a_log st)).
Proof.
  assert (N : ~ text_ok [xff]) by (rewrite <- utf8_valid_iff; vm_compute; discriminate).
  split; [exact N|]. split; [apply utf8_valid_iff; reflexivity|]. split; [vm_compute; reflexivity|].
  apply (C97_user_name_refuted toy_host toy_rng toy_crypto toy_pads toy_ed _ _ (B "mine") (fun m => toy_hash (B "mine" ++ m))
    toy_host_ok toy_rng_ok toy_ok toy_pads_ok); [exact N|vm_compute; discriminate|reflexivity|apply C62_example].
Qed.
