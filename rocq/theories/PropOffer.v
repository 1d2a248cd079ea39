(** Property theorem C111: the keys that the example server calls acceptable. *)
From Coq Require Import Init.Byte Strings.Byte.
From Verif Require Import AuthToy OfferThm.
Open Scope res_scope.

(** ** C111: refuted: whatever does not have the length of a key is called
    acceptable whenever somebody asks (or the server panics, if the reply is too
    long), and refused whenever it is used. *)
Theorem C111_acceptable_key_usable_refuted : forall H R C rng key, host_ok H -> host_rng_ok R -> crypto_ok C -> rngs_ok rng -> len key <> 32 ->
  forall s r st, authenticate_new_client H R C rng (sshd_auth real_ed) s = Some (AO_Auth r st) ->
  (forall pre user service x post, a_log st = pre ++ AE_Exists user service (B "ssh-ed25519") key x :: post ->
    x = Ok tt /\ ((post = [] /\ r = Panic) \/
      exists post', post = AE_Sent (Msg_UserAuth (UA_PublicKeyOk (B "ssh-ed25519") (named (B "ssh-ed25519") key))) :: post')) /\
  (forall user service alg sg msg y, In (AE_Authenticate user service (Auth_PublicKey alg key sg msg) y) (a_log st) -> y = Err tt).
Proof.
  intros H R C rng key HO RO K RR L s r st E. split.
  - intros pre user service x post Lg. exact (query_answer H R C rng real_ed HO RO K RR s r st pre user service (B "ssh-ed25519") key x post E Lg).
  - intros user service alg sg msg y I. exact (no_key_no_login H R C rng real_ed key HO RO K RR (short_no_key key L) s r st user service alg sg msg y E I).
Qed.
Print Assumptions C111_acceptable_key_usable_refuted.

(** The same for any ed25519 and all that it does not take for a key. *)
Theorem C111_no_key_acceptable_refuted : forall H R C rng ed key, host_ok H -> host_rng_ok R -> crypto_ok C -> rngs_ok rng -> ed_key ed key = false ->
  forall s r st, authenticate_new_client H R C rng (sshd_auth ed) s = Some (AO_Auth r st) ->
  (forall pre user service x post, a_log st = pre ++ AE_Exists user service (B "ssh-ed25519") key x :: post -> x = Ok tt) /\
  (forall user service alg sg msg y, In (AE_Authenticate user service (Auth_PublicKey alg key sg msg) y) (a_log st) -> y = Err tt).
Proof.
  intros H R C rng ed key HO RO K RR N s r st E. split.
  - intros pre user service x post Lg. exact (proj1 (query_answer H R C rng ed HO RO K RR s r st pre user service (B "ssh-ed25519") key x post E Lg)).
  - intros user service alg sg msg y I. exact (no_key_no_login H R C rng ed key HO RO K RR N s r st user service alg sg msg y E I).
Qed.
Print Assumptions C111_no_key_acceptable_refuted.

(** What holds: a key of another algorithm is never called acceptable.  (One made
    from a secret can be used: C107.) *)
Theorem C111_acceptable_key_usable_partial : forall H R C rng ed, host_ok H -> host_rng_ok R -> crypto_ok C -> rngs_ok rng ->
  forall s r st pre user service alg key x post, authenticate_new_client H R C rng (sshd_auth ed) s = Some (AO_Auth r st) -> alg <> B "ssh-ed25519" ->
  a_log st = pre ++ AE_Exists user service alg key x :: post ->
  x = Err tt /\ ((post = [] /\ r = Panic) \/ exists post', post = AE_Sent failure :: post').
Proof.
  intros H R C rng ed HO RO K RR s r st pre user service alg key x post E N L.
  pose proof (query_answer H R C rng ed HO RO K RR s r st pre user service alg key x post E L) as X.
  destruct (bytes_eqb alg (B "ssh-ed25519")) eqn:Q; [apply bytes_eqb_true in Q; contradiction|exact X].
Qed.
Print Assumptions C111_acceptable_key_usable_partial.

(** A client offers the key "x", uses it, and offers a key of another kind. *)
Example C111_example : let alg := B "ssh-ed25519" in exists st msg,
  offer_connect [toy_service; toy_request (M_PublicKeyBlob alg (named alg (B "x"))); toy_request (M_PublicKeySigned alg (named alg (B "x")) (named alg (zeros 64)));
    toy_request (M_PublicKeyBlob (B "ssh-rsa") (named (B "ssh-rsa") (B "x")))] = Some (AO_Auth (Err tt) st) /\
  a_log st =
   [AE_Sent (Msg_ServiceAccept (B "ssh-userauth"));
    AE_Exists (B "joe") (B "ssh-connection") alg (B "x") (Ok tt); AE_Sent (Msg_UserAuth (UA_PublicKeyOk alg (named alg (B "x"))));
    AE_Authenticate (B "joe") (B "ssh-connection") (Auth_PublicKey alg (B "x") (zeros 64) msg) (Err tt); AE_Sent failure;
    AE_Exists (B "joe") (B "ssh-connection") (B "ssh-rsa") (B "x") (Err tt); AE_Sent failure].
Proof.
  cbv zeta. set (alg := B "ssh-ed25519"). set (m := sign_data (session_identifier toy_c) (B "joe") (B "ssh-connection") alg (named alg (B "x"))).
  assert (X : exists st, offer_connect [toy_service; toy_request (M_PublicKeyBlob alg (named alg (B "x"))); toy_request (M_PublicKeySigned alg (named alg (B "x")) (named alg (zeros 64)));
    toy_request (M_PublicKeyBlob (B "ssh-rsa") (named (B "ssh-rsa") (B "x")))] = Some (AO_Auth (Err tt) st) /\
  a_log st =
   [AE_Sent (Msg_ServiceAccept (B "ssh-userauth"));
    AE_Exists (B "joe") (B "ssh-connection") alg (B "x") (Ok tt); AE_Sent (Msg_UserAuth (UA_PublicKeyOk alg (named alg (B "x"))));
    AE_Authenticate (B "joe") (B "ssh-connection") (Auth_PublicKey alg (B "x") (zeros 64) m) (Err tt); AE_Sent failure;
    AE_Exists (B "joe") (B "ssh-connection") (B "ssh-rsa") (B "x") (Err tt); AE_Sent failure]).
  { apply offer_said. vm_compute. reflexivity. }
  destruct X as (st & X). exists st, m. exact X.
Qed.
