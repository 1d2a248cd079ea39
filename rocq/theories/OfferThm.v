(** Proofs about the keys that the example server calls acceptable. *)
From Coq Require Import Init.Byte Strings.Byte.
From Verif Require Export SshdThm2 Sig.

Lemma log_answered {U} H R C rng (h : AHandlers U) : host_ok H -> host_rng_ok R -> crypto_ok C -> rngs_ok rng ->
  forall s r st, authenticate_new_client H R C rng h s = Some (AO_Auth r st) -> answered_by h (a_log st).
Proof.
  intros HO RO K RR s r st E. destruct (connection_story H R C rng h HO RO K RR s) as (out & E' & X). rewrite E in E'.
  apply (f_equal (fun o => match o with Some o => o | None => out end)) in E'. subst out. destruct X as (c & s1 & o & _ & A & _). exact A.
Qed.
(** What a query gets depends on the algorithm only. *)
Lemma query_answer H R C rng ed : host_ok H -> host_rng_ok R -> crypto_ok C -> rngs_ok rng ->
  forall s r st pre user service alg key x post, authenticate_new_client H R C rng (sshd_auth ed) s = Some (AO_Auth r st) ->
  a_log st = pre ++ AE_Exists user service alg key x :: post ->
  x = (if bytes_eqb alg (B "ssh-ed25519") then Ok tt else Err tt) /\
  ((post = [] /\ r = Panic) \/
   exists post', post = AE_Sent (if bytes_eqb alg (B "ssh-ed25519") then Msg_UserAuth (UA_PublicKeyOk alg (named alg key)) else failure) :: post').
Proof.
  intros HO RO K RR s r st pre user service alg key x post E L.
  pose proof (log_answered H R C rng _ HO RO K RR s r st E _ _ _ L) as A. cbn [sshd_auth h_exists] in A. unfold sshd_exists in A. split; [exact A|].
  destruct (query_never_authenticates H R C rng _ HO RO K RR s r st pre user service alg key x post E L) as [X|(post' & X & _)]; [left; exact X|].
  right. exists post'. rewrite X, A. destruct (bytes_eqb alg (B "ssh-ed25519")); reflexivity.
Qed.
(** A key that is none is refused at every attempt. *)
Lemma no_key_no_login H R C rng ed key : host_ok H -> host_rng_ok R -> crypto_ok C -> rngs_ok rng -> ed_key ed key = false ->
  forall s r st user service alg sg msg y, authenticate_new_client H R C rng (sshd_auth ed) s = Some (AO_Auth r st) ->
  In (AE_Authenticate user service (Auth_PublicKey alg key sg msg) y) (a_log st) -> y = Err tt.
Proof.
  intros HO RO K RR N s r st user service alg sg msg y E I. apply in_split in I as (pre & post & L).
  pose proof (log_answered H R C rng _ HO RO K RR s r st E _ _ _ L) as A. cbn [sshd_auth h_authenticate sshd_authenticate] in A. rewrite N in A. cbn [negb] in A.
  destruct (bytes_eqb alg (B "ssh-ed25519")) in A; exact A.
Qed.
Lemma short_no_key key : len key <> 32 -> ed_key real_ed key = false.
Proof. intros L. cbn [real_ed ed_key]. unfold point_decompress. destruct (N.eqb_spec (len key) 32) as [X|_]; [contradiction|reflexivity]. Qed.

(** A connection of the toy client to the example server. *)
Definition offer_connect (ms : list Message) : option (AOutcome bytes) :=
  authenticate_new_client toy_host toy_rng toy_crypto toy_pads (sshd_auth real_ed) (toy_client ms).
Lemma offer_said ms r log :
  match auth_phase toy_crypto toy_pads (sshd_auth real_ed) (session_identifier toy_c) (conn_of toy_c (toy_frames (receive_cipher toy_c) (map wire ms)) toy_out) with
  | Some (r, st) => Some (r, a_log st) | None => None end = Some (r, log) ->
  exists st, offer_connect ms = Some (AO_Auth r st) /\ a_log st = log.
Proof.
  unfold offer_connect, authenticate_new_client, toy_client. rewrite toy_shakes. cbv beta iota.
  destruct (auth_phase toy_crypto toy_pads (sshd_auth real_ed) (session_identifier toy_c) (conn_of toy_c (toy_frames (receive_cipher toy_c) (map wire ms)) toy_out)) as [[r0 st]|]; [|discriminate].
  intros Q. apply (f_equal (fun x => match x with Some p => p | None => (r, log) end)), pair_equal_spec in Q as [-> <-]. exists st. auto.
Qed.
