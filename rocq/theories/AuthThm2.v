(** What follows from the story of an authentication. *)
From Coq Require Import Init.Byte Strings.Byte.
From Verif Require Export AuthThm HostToy.
Open Scope res_scope.

(** A frame at the start of the input is the one that is received. *)
Lemma received_determined C c s pl pad raw rest pl' rest' : crypto_ok C -> counter c < 2 ^ 64 -> loose_packet pl pad raw ->
  s = seal_with C c raw ++ rest -> received_as C c s [pl'] rest' -> pl' = pl /\ rest' = rest.
Proof.
  intros K L P E (ws & X & W). apply numbered_cons_inv in W as (w & ws' & -> & (pad' & raw' & P' & ->) & W).
  destruct W as [W _]. destruct ws'; [|discriminate W]. cbn [concat] in X. rewrite app_nil_r, N.mod_small in X by exact L.
  fold (seal_with C c raw') in X. set (n := 4 + len raw + len raw' + 16).
  assert (LZ : len (zeros n) = n) by apply len_zeros.
  destruct (recv_after C c (zeros n) raw rest pl pad K ltac:(lia) P ltac:(lia)) as (b1 & _ & R1).
  destruct (recv_after C c (zeros n) raw' rest' pl' pad' K ltac:(lia) P' ltac:(lia)) as (b2 & _ & R2).
  rewrite <- E in R1. rewrite <- X in R2. rewrite R1 in R2. split; congruence.
Qed.
Lemma received_unique C c s pl pad raw rest pl' rest' : crypto_ok C -> counter c < 2 ^ 64 -> loose_packet pl pad raw ->
  s = seal_with C c raw ++ rest -> received_as C c s [pl'] rest' -> rest' = rest.
Proof. intros K L P E X. exact (proj2 (received_determined _ _ _ _ _ _ _ _ _ K L P E X)). Qed.
Lemma received_same C c s size pl pl' rest' : crypto_ok C -> counter c < 2 ^ 64 -> next_payload C c size s pl -> 
  received_as C c s [pl'] rest' -> pl' = pl.
Proof. intros K L (pad & raw & rest & P & E & _) X. exact (proj1 (received_determined _ _ _ _ _ _ _ _ _ K L P E X)). Qed.

Section Story.
  Context {U : Type} (H : Host) (R : HostRng) (C : Crypto) (rng : N -> N -> bytes) (h : AHandlers U).
  Context (HO : host_ok H) (RO : host_rng_ok R) (K : crypto_ok C) (RR : rngs_ok rng).

  (** ** The connection as a whole *)
  Lemma handshake_facts s c s1 o : handle_new_client H R s [] = (Ok c, s1, o) ->
    len (session_identifier c) = 32 /\ counter (receive_cipher c) = 3 /\ counter (send_cipher c) = 3.
  Proof.
    intros E. apply handshake_sound in E; [|assumption..].
    destruct E as (pre & vc & ic & raw1 & k & ec & raw2 & qc & raw3 & _ & _ & _ & _ & _ & _ & _ & _ & _ & _ & -> & _ & _ & C1 & C2).
    split; [|auto]. apply HO.
  Qed.
  Lemma connection_story s : exists out, authenticate_new_client H R C rng h s = Some out /\
    match out with
    | AO_Handshake p o => forall c s1 o1, handle_new_client H R s [] <> (Ok c, s1, o1)
    | AO_Auth r st => exists c s1 o, handle_new_client H R s [] = (Ok c, s1, o) /\
        auth_outcome C h (session_identifier c) (conn_of c s1 o) r st
    end.
  Proof.
    unfold authenticate_new_client. destruct (handle_new_client H R s []) as [[r s1] o] eqn:E. destruct r as [c|e|].
    - destruct (handshake_facts _ _ _ _ E) as (LS & C1 & C2).
      destruct (auth_story C rng h (session_identifier c) K RR ltac:(rewrite LS; reflexivity) (conn_of c s1 o)) as (r & st & E2 & A).
      { cbn [conn_of k_rd]. rewrite C1. reflexivity. }
      { cbn [conn_of k_wr]. rewrite C2. reflexivity. }
      rewrite E2. eexists. split; [reflexivity|]. exists c, s1, o. auto.
    - eexists. split; [reflexivity|]. congruence.
    - eexists. split; [reflexivity|]. congruence.
  Qed.
  Lemma connection_auth s r st : authenticate_new_client H R C rng h s = Some (AO_Auth r st) ->
    exists c s1 o, handle_new_client H R s [] = (Ok c, s1, o) /\ auth_outcome C h (session_identifier c) (conn_of c s1 o) r st.
  Proof. intros E. destruct (connection_story s) as (out & E' & X). rewrite E in E'. injection E' as <-. exact X. Qed.

  (** ** Logs *)
  Notation success := (AE_Sent (U := U) (Msg_UserAuth UA_Success)).
  Lemma in_rounds (e : AEvent U) rounds : In e (concat (map events rounds)) -> exists rd, In rd rounds /\ In e (events rd).
  Proof. intros I. apply in_concat in I as (l & I & J). apply in_map_iff in I as (rd & <- & I). eauto. Qed.
  Lemma not_success (rounds : list (round U)) : Forall (fun rd => ~ successful rd) rounds -> ~ In success (concat (map events rounds)).
  Proof.
    intros F I. apply in_rounds in I as (rd & I & J). rewrite Forall_forall in F. apply (F rd I).
    destruct rd as [user service alg key ok|user service auth [u|]]; cbn [events call reply In] in J.
    - destruct ok; destruct J as [J|[J|[]]]; discriminate J.
    - exists user, service, auth, u. reflexivity.
    - destruct J as [J|[J|[]]]; discriminate J.
  Qed.
  Lemma not_granted (rounds : list (round U)) user service auth u : Forall (fun rd => ~ successful rd) rounds ->
    ~ In (AE_Authenticate user service auth (Ok u)) (concat (map events rounds)).
  Proof.
    intros F I. apply in_rounds in I as (rd & I & J). rewrite Forall_forall in F. apply (F rd I).
    destruct rd as [user' service' alg key ok|user' service' auth' [u'|]]; cbn [events call reply In] in J.
    - destruct J as [J|[J|[]]]; discriminate J.
    - exists user', service', auth', u'. reflexivity.
    - destruct J as [J|[J|[]]]; discriminate J.
  Qed.
  (** The tail of a panic is at most one handler call. *)
  Lemma fatal_tail c sid s tail : fatal (U := U) C c sid s tail ->
    tail = [] \/ (exists user service alg key r, tail = [AE_Exists user service alg key r]) \/
    (exists user service auth, tail = [AE_Authenticate user service auth Panic]).
  Proof.
    intros (p & _ & [(m & _ & _ & _ & ->)|(q & _ & D)]); [auto|]. unfold fatal_request in D.
    destruct (ua_method q); try (subst tail; eauto 10).
    - destruct D as (? & _ & [->|[-> _]]); eauto 10.
    - destruct D as (? & ? & _ & _ & [[-> _]| ->]); eauto 10.
  Qed.

  (** ** C38 *)
  Lemma no_session_without_authentication s u st : authenticate_new_client H R C rng h s = Some (AO_Auth (Ok u) st) ->
    exists pre user service auth, a_log st = pre ++ [AE_Authenticate user service auth (Ok u); success] /\
      h_authenticate h pre user service auth = Ok u /\ ~ In success pre /\
      forall user service auth u, ~ In (AE_Authenticate user service auth (Ok u)) pre.
  Proof.
    intros E. apply connection_auth in E as (c & s1 & o & E & A & _ & [[X _]|X]); [discriminate X|].
    destruct X as (pl & pls & rounds & tail & rest & _ & _ & _ & L & -> & _ & _ & _ & rds & user & service & auth & -> & NS).
    rewrite map_app, concat_app in L. cbn [map concat] in L. rewrite !app_nil_r in L.
    exists (AE_Sent (Msg_ServiceAccept (B "ssh-userauth")) :: concat (map events rds)), user, service, auth.
    split; [exact L|]. split; [|split].
    - symmetry. eapply (A _ (AE_Authenticate user service auth (Ok u))). rewrite L. reflexivity.
    - intros [X|X]; [discriminate X|]. exact (not_success _ NS X).
    - intros user' service' auth' u' [X|X]; [discriminate X|]. exact (not_granted _ _ _ _ _ NS X).
  Qed.
  Lemma no_success_without_session s out : authenticate_new_client H R C rng h s = Some out ->
    match out with
    | AO_Auth (Ok _) _ => True
    | AO_Auth _ st => ~ In success (a_log st) /\ forall user service auth u, ~ In (AE_Authenticate user service auth (Ok u)) (a_log st)
    | AO_Handshake _ _ => True
    end.
  Proof.
    destruct out as [p o|r st]; [intros _; exact I|]. intros E. apply connection_auth in E as (c & s1 & o & _ & _ & _ & X).
    assert (G : r = Panic \/ (exists e, r = Err e) \/ exists u, r = Ok u) by (destruct r; eauto).
    destruct X as [(-> & -> & _)|(pl & pls & rounds & tail & rest & _ & _ & _ & L & X)]; [split; [intros []|intros ? ? ? ? []]|].
    assert (Y : (exists u, r = Ok u) \/ Forall (fun rd => ~ successful rd) rounds /\
               (tail = [] \/ (exists user service alg key r, tail = [AE_Exists user service alg key r]) \/
               (exists user service auth, tail = [AE_Authenticate user service auth Panic]))).
    { destruct r as [u|e|]; [eauto| |]; right.
      - destruct X as (-> & NS & _). auto.
      - destruct X as (NS & F). split; [exact NS|]. eapply fatal_tail; exact F. }
    destruct Y as [[u ->]|[NS T]]; [exact I|].
    assert (Z : ~ In success (a_log st) /\ forall user service auth u, ~ In (AE_Authenticate user service auth (Ok u)) (a_log st)).
    { rewrite L. split.
      - intros [Z|Z]; [discriminate Z|]. apply in_app_or in Z as [Z|Z]; [exact (not_success _ NS Z)|].
        destruct T as [->|[(?&?&?&?&?&->)|(?&?&?&->)]]; [destruct Z|destruct Z as [Z|[]]; discriminate Z..].
      - intros ? ? ? ? [Z|Z]; [discriminate Z|]. apply in_app_or in Z as [Z|Z]; [exact (not_granted _ _ _ _ _ NS Z)|].
        destruct T as [->|[(?&?&?&?&?&->)|(?&?&?&->)]]; [destruct Z|destruct Z as [Z|[]]; discriminate Z..]. }
    destruct r; [exact I|exact Z..].
  Qed.

  (** ** C39 *)
  Lemma Forall2_in {A B} (P : A -> B -> Prop) l1 l2 y : Forall2 P l1 l2 -> In y l2 -> exists x, In x l1 /\ P x y.
  Proof.
    intros F. induction F as [|a b l1 l2 P1 F IH]; intros [].
    - subst y. exists a. split; [left; reflexivity|exact P1].
    - destruct (IH H0) as (x & I & X). exists x. split; [right; exact I|exact X].
  Qed.
  Lemma public_key_bound s r st user service alg key sg msg x :
    authenticate_new_client H R C rng h s = Some (AO_Auth r st) ->
    In (AE_Authenticate user service (Auth_PublicKey alg key sg msg) x) (a_log st) ->
    exists c s1 o pls rest pl, handle_new_client H R s [] = (Ok c, s1, o) /\
      msg = sign_data (session_identifier c) user service alg (named alg key) /\
      received_as C (receive_cipher c) s1 pls rest /\ In pl pls /\
      is_wire (Msg_UserAuth (UA_Request {| ua_user := user; ua_service := service;
         ua_method := M_PublicKeySigned alg (named alg key) (named alg sg) |})) pl.
  Proof.
    intros E I. apply connection_auth in E as (c & s1 & o & E & _ & _ & X). exists c, s1, o.
    destruct X as [(_ & L & _)|(pl & pls & rounds & tail & rest & RC & _ & F & L & X)]; rewrite L in I; [destruct I|].
    destruct I as [I|I]; [discriminate I|]. cbn [conn_of k_rd k_in] in *. apply in_app_or in I as [I|I].
    - apply in_rounds in I as (rd & I & J). destruct (Forall2_in _ _ _ _ F I) as (p & P & q & W & CA).
      exists (pl :: pls), rest, p.
      destruct rd as [user' service' alg' key' ok|user' service' auth u]; [destruct J as [J|[J|[]]]; try discriminate J; destruct ok; discriminate J|].
      destruct J as [J|[J|[]]]; [|discriminate J]. injection J as -> -> -> _. cbn [causes] in CA. destruct CA as [-> ->].
      split; [exact E|]. split; [reflexivity|]. split; [exact RC|]. split; [right; exact P|exact W].
    - destruct r as [u|e|]; [destruct X as (-> & _); destruct I|destruct X as (-> & _); destruct I|].
      destruct X as (_ & p & NP & [(m & _ & _ & _ & ->)|(q & W & D)]); [destruct I|].
      destruct NP as (pad & raw & rest' & P & -> & _).
      exists ((pl :: pls) ++ [p]), rest', p. split; [exact E|].
      destruct q as [user' service' method]. unfold fatal_request in D. cbn [ua_method ua_user ua_service] in D.
      destruct method; try (subst tail; destruct I as [I|[]]; discriminate I); try (subst tail; destruct I).
      + exfalso. destruct D as (? & _ & [->|[-> _]]); destruct I as [I|[]]; discriminate I.
      + destruct D as (key' & s' & -> & -> & [[-> _]| ->]); [destruct I|]. destruct I as [I|[]]. injection I as <- <- <- <- <- <- <-.
        split; [reflexivity|]. split; [|split; [apply in_or_app; right; left; reflexivity|exact W]].
        eapply received_app; [exact RC|]. eapply received_one; [|exact P]. unfold later. cbn [counter]. apply N.mod_lt. discriminate.
  Qed.

  (** ** C42 *)
  Lemma rounds_query (rounds : list (round U)) : forall tail pre user service alg key r post,
    concat (map events rounds) ++ tail = pre ++ AE_Exists user service alg key r :: post ->
    (exists pre', tail = pre' ++ AE_Exists user service alg key r :: post) \/
    exists m post', post = AE_Sent m :: post' /\
      m = match r with Ok _ => Msg_UserAuth (UA_PublicKeyOk alg (named alg key)) | _ => failure end.
  Proof.
    induction rounds as [|rd rounds IH]; intros tail pre user service alg key r post E; [left; eauto|].
    cbn [map concat events app] in E. destruct pre as [|e1 [|e2 pre]]; cbn [app] in E.
    - right. injection E as E1 E2. subst post. exists (reply rd), (concat (map events rounds) ++ tail). split; [reflexivity|].
      destruct rd as [user' service' alg' key' ok|user' service' auth' o]; [|discriminate E1]. injection E1 as -> -> -> -> <-.
      destruct ok; reflexivity.
    - injection E as _ E _. discriminate E.
    - injection E as _ _ E. exact (IH _ _ _ _ _ _ _ _ E).
  Qed.
  Lemma query_never_authenticates s r st pre user service alg key x post :
    authenticate_new_client H R C rng h s = Some (AO_Auth r st) ->
    a_log st = pre ++ AE_Exists user service alg key x :: post ->
    (post = [] /\ r = Panic) \/
    exists post', post = AE_Sent (match x with Ok _ => Msg_UserAuth (UA_PublicKeyOk alg (named alg key)) | _ => failure end) :: post' /\
      (post' = [] -> forall u, r <> Ok u).
  Proof.
    intros E L. pose proof E as E0. apply connection_auth in E as (c & s1 & o & E & _ & _ & X).
    destruct X as [(_ & L' & _)|(pl & pls & rounds & tail & rest & RC & _ & F & L' & X)]; rewrite L' in L; [destruct pre; discriminate L|].
    destruct pre as [|e pre]; [discriminate L|]. cbn [app] in L. apply (f_equal (@tl _)) in L. cbn [tl] in L.
    destruct (rounds_query _ _ _ _ _ _ _ _ _ L) as [(pre' & T)|(m & post' & -> & ->)].
    - left. destruct r as [u|e'|]; [destruct X as (-> & _); destruct pre'; discriminate T..|].
      split; [|reflexivity]. destruct X as (_ & FT). apply fatal_tail in FT.
      destruct FT as [->|[(?&?&?&?&?&->)|(?&?&?&->)]]; [destruct pre'; discriminate T| |]; destruct pre' as [|? [|? ?]]; cbn [app] in T; congruence.
    - right. eexists. split; [reflexivity|]. intros -> u ->.
      apply no_session_without_authentication in E0 as (pre0 & user0 & service0 & auth0 & L0 & _).
      rewrite L', L in L0. rewrite app_comm_cons in L0.
      change (?a :: pre ++ ?b :: [?c]) with (a :: pre ++ [b; c]) in L0.
      assert (Z : forall (A : Type) (l1 l2 : list A) a b a' b', l1 ++ [a; b] = l2 ++ [a'; b'] -> a = a').
      { intros A0 l1 l2 a b a' b' Q. change [a; b] with ([a] ++ [b]) in Q. change [a'; b'] with ([a'] ++ [b']) in Q. rewrite !app_assoc in Q.
        apply app_inj_tail in Q as [Q _]. apply app_inj_tail in Q as [_ Q]. exact Q. }
      apply Z in L0. discriminate L0.
  Qed.

  (** ** A client that says anything else first *)
  Lemma no_service_panics s c s1 o : handle_new_client H R s [] = (Ok c, s1, o) ->
    no_service C (receive_cipher c) s1 ->
    exists st, authenticate_new_client H R C rng h s = Some (AO_Auth Panic st) /\ a_log st = [].
  Proof.
    intros E NS. destruct (handshake_facts _ _ _ _ E) as (LS & C1 & C2).
    unfold authenticate_new_client. rewrite E. set (k := conn_of c s1 o).
    assert (V : ainv (auth_init (U := U) k)).
    { unfold ainv, auth_init. cbn [a_buf a_mini a_message a_conn k_rd k_wr]. rewrite !len_zeros. unfold k. cbn [conn_of k_rd k_wr]. rewrite C1, C2. repeat split. }
    unfold auth_phase. pose proof (auth_service_cases C rng h K RR _ V) as A.
    destruct (auth_service C rng (auth_init k)) as [r st]. destruct r as [[]|[]|]; [|contradiction|].
    - exfalso. destruct A as (pl & W & _ & NP & _). exact (NS pl NP W).
    - exists st. split; [reflexivity|apply A].
  Qed.

  Lemma preauth_panic : exists s st, authenticate_new_client H R C rng h s = Some (AO_Auth Panic st) /\ a_log st = [].
  Proof.
    destruct (handshake_complete H R [] toy_ident (wire (Msg_KexInit toy_kexinit)) (toy_packet (wire (Msg_KexInit toy_kexinit))) toy_kexinit
                (wire (Msg_EcdhInit toy_qc)) (toy_packet (wire (Msg_EcdhInit toy_qc))) toy_qc (toy_packet (wire Msg_NewKeys)) [] HO RO (Forall_nil _) toy_ident_ok)
      as (c & o & E).
    - apply toy_packet_ok. vm_compute. discriminate.
    - apply toy_packet_ok. vm_compute. discriminate.
    - exact toy_wire.
    - exact toy_acceptable.
    - apply toy_packet_ok. vm_compute. discriminate.
    - apply toy_packet_ok. vm_compute. discriminate.
    - exact init_wire.
    - reflexivity.
    - apply toy_packet_ok. vm_compute. discriminate.
    - apply toy_packet_ok. vm_compute. discriminate.
    - eexists. eapply no_service_panics; [exact E|]. intros pl (pad & raw & rest & P & X & _) _.
      apply (f_equal (@len byte)) in X. rewrite len_app, len_nil, seal_len in X; [lia|exact K|]. destruct P as (-> & _). lens. rewrite be32_len. lia.
  Qed.
  Lemma preauth_panics_only s st : authenticate_new_client H R C rng h s = Some (AO_Auth Panic st) ->
    exists c s1 o, handle_new_client H R s [] = (Ok c, s1, o) /\
      (no_service C (receive_cipher c) s1 \/
       exists pls rest tail, received_as C (receive_cipher c) s1 pls rest /\ fatal (U := U) C (later (len pls) (receive_cipher c)) (session_identifier c) rest tail).
  Proof.
    intros E. apply connection_auth in E as (c & s1 & o & E & _ & _ & X). exists c, s1, o. split; [exact E|].
    destruct X as [(_ & _ & X)|(pl & pls & rounds & tail & rest & RC & _ & _ & _ & _ & F)]; [left; exact X|].
    right. exists (pl :: pls), rest, tail. auto.
  Qed.

  (** ** C40 *)
  Lemma sent_rounds (rounds : list (round U)) : sent (concat (map events rounds)) = map reply rounds.
  Proof.
    induction rounds as [|rd rounds IH]; [reflexivity|]. cbn [map concat]. rewrite sent_app, IH.
    destruct rd as [? ? ? ? []|? ? ? []]; reflexivity.
  Qed.
  Lemma one_reply_per_request s r st : authenticate_new_client H R C rng h s = Some (AO_Auth r st) -> a_log st <> [] ->
    exists c s1 o pl pls rounds tail rest, handle_new_client H R s [] = (Ok c, s1, o) /\
      received_as C (receive_cipher c) s1 (pl :: pls) rest /\
      is_wire (Msg_ServiceRequest (B "ssh-userauth")) pl /\
      Forall2 (fun pl rd => exists q, is_wire (Msg_UserAuth (UA_Request q)) pl /\ causes (session_identifier c) q rd) pls rounds /\
      a_log st = AE_Sent (Msg_ServiceAccept (B "ssh-userauth")) :: concat (map events rounds) ++ tail /\
      (r <> Panic -> tail = []) /\ sent tail = [] /\
      written_as C (send_cipher c) o (wire (Msg_ServiceAccept (B "ssh-userauth")) :: map (fun rd => wire (reply rd)) rounds) (k_out (a_conn st)).
  Proof.
    intros E NE. apply connection_auth in E as (c & s1 & o & E & _ & WR & X).
    destruct X as [(_ & X & _)|(pl & pls & rounds & tail & rest & RC & W & F & L & X)]; [contradiction|].
    assert (T : (r <> Panic -> tail = []) /\ sent tail = []).
    { destruct r as [u|e|].
      - destruct X as (-> & _). auto.
      - destruct X as (-> & _). auto.
      - split; [congruence|]. destruct X as (_ & X). apply fatal_tail in X.
        destruct X as [->|[(?&?&?&?&?&->)|(?&?&?&->)]]; reflexivity. }
    exists c, s1, o, pl, pls, rounds, tail, rest. repeat (split; [assumption || apply T|]).
    rewrite L in WR. cbn [sent flat_map app] in WR. fold (sent (concat (map events rounds) ++ tail)) in WR.
    rewrite sent_app, sent_rounds, (proj2 T), app_nil_r in WR. cbn [map] in WR. rewrite map_map in WR. exact WR.
  Qed.

  (** ** A client that does everything right is let in *)
  Lemma good_client_admitted s c s1 o pl1 pl2 pad1 pad2 raw1 raw2 rest user service alg key sg data u :
    handle_new_client H R s [] = (Ok c, s1, o) ->
    s1 = seal_with C (receive_cipher c) raw1 ++ seal_with C (bump (receive_cipher c)) raw2 ++ rest ->
    loose_packet pl1 pad1 raw1 -> len raw1 + 16 <= 35000 -> is_wire (Msg_ServiceRequest (B "ssh-userauth")) pl1 ->
    loose_packet pl2 pad2 raw2 -> len raw2 + 16 <= 35000 ->
    is_wire (Msg_UserAuth (UA_Request {| ua_user := user; ua_service := service;
       ua_method := M_PublicKeySigned alg (named alg key) (named alg sg) |})) pl2 ->
    data = sign_data (session_identifier c) user service alg (named alg key) -> len data <= 1024 ->
    (forall log, h_authenticate h log user service (Auth_PublicKey alg key sg data) = Ok u) ->
    exists st, authenticate_new_client H R C rng h s = Some (AO_Auth (Ok u) st) /\ k_in (a_conn st) = rest.
  Proof.
    intros E -> P1 L1 W1 P2 L2 W2 -> LD HA. destruct (handshake_facts _ _ _ _ E) as (LS & C1 & C2).
    unfold authenticate_new_client. rewrite E. set (k := conn_of c _ o).
    assert (V : ainv (auth_init (U := U) k)).
    { unfold ainv, auth_init. cbn [a_buf a_mini a_message a_conn k_rd k_wr]. rewrite !len_zeros. unfold k. cbn [conn_of k_rd k_wr]. rewrite C1, C2. repeat split. }
    unfold auth_phase. pose proof (auth_service_cases C rng h K RR _ V) as A.
    destruct (auth_service C rng (auth_init k)) as [r st]. destruct r as [[]|[]|]; [|contradiction|].
    2:{ exfalso. destruct A as [A _]. eapply A; [|exact W1]. exists pad1, raw1. eexists. split; [exact P1|]. split; [reflexivity|exact L1]. }
    destruct A as (pl & W & V1 & _ & S1).
    assert (IN : k_rd (a_conn st) = bump (receive_cipher c) /\ k_in (a_conn st) = seal_with C (bump (receive_cipher c)) raw2 ++ rest /\
                 answered_by h (a_log st)).
    { destruct S1 as (A1 & _ & _ & A4 & _ & _ & A7). split; [rewrite A1; symmetry; apply bump_later|].
      split; [|apply A7; apply answered_nil].
      eapply received_unique; [exact K| |exact P1| |exact A4]; [cbn [auth_init a_conn k conn_of k_rd]; rewrite C1; reflexivity|reflexivity]. }
    destruct IN as (IN1 & IN2 & AN).
    pose proof (auth_round_cases C rng h (session_identifier c) K RR ltac:(rewrite LS; reflexivity) st V1) as A.
    assert (NP : next_payload C (k_rd (a_conn st)) 35000 (k_in (a_conn st)) pl2).
    { rewrite IN1, IN2. exists pad2, raw2, rest. auto. }
    assert (CB : counter (k_rd (a_conn st)) < 2 ^ 64) by apply V1.
    cbn [auth_loop]. destruct (auth_round C rng h (session_identifier c) st) as [r st'].
    set (q0 := {| ua_user := user; ua_service := service; ua_method := M_PublicKeySigned alg (named alg key) (named alg sg) |}) in *.
    assert (SAME : forall m, is_wire m pl2 -> is_ecdh_reply m = false -> m = Msg_UserAuth (UA_Request q0)).
    { intros m W' N. exact (wire_unique _ _ _ W' W2 N eq_refl). }
    pose proof (proj1 (proj1 W2)) as F. unfold q0 in F.
    cbn [message_fields userauth_fields ua_user ua_service ua_method app method_fields] in F. finv.
    assert (NI : forall x y, len (named alg y) < 2 ^ 32 -> named alg y = named alg x -> x = y).
    { intros x y L Q. pose proof (proj2 (blob_of_Ok alg (named alg y) x L) Q) as Q1.
      pose proof (proj2 (blob_of_Ok alg (named alg y) y L) eq_refl). congruence. }
    assert (CALL : forall q rd, is_wire (Msg_UserAuth (UA_Request q)) pl2 -> causes (session_identifier c) q rd -> astep C h st st' [pl2] (events rd) ->
       rd = Attempt user service (Auth_PublicKey alg key sg (sign_data (session_identifier c) user service alg (named alg key))) (Some u)).
    { intros q rd Wq CA (_ & _ & _ & _ & _ & LG & AN'). apply SAME in Wq; [|reflexivity]. injection Wq as ->.
      specialize (AN' AN). pose proof (AN' (a_log st) (call rd) [AE_Sent (reply rd)] LG) as AA.
      destruct rd as [? ? ? ? ?|user' service' auth ou]; [discriminate CA|]. destruct auth as [|pw|alg' key' sg' msg]; [discriminate CA..|].
      destruct CA as [Q ->]. unfold q0 in Q.
      pose proof (f_equal ua_user Q) as QU. pose proof (f_equal ua_service Q) as QS. cbn [ua_user ua_service] in QU, QS. subst user' service'.
      apply (f_equal (fun x => match ua_method x with M_PublicKeySigned a k s => (a, (k, s)) | _ => ([], ([], [])) end)) in Q.
      cbn [ua_method] in Q. apply pair_eq in Q as [<- Q]. apply pair_eq in Q as [Q1 Q2].
      apply NI in Q1; [|assumption]. apply NI in Q2; [|assumption]. subst key' sg'. cbn [call] in AA. rewrite HA in AA.
      destruct ou; [|discriminate AA]. congruence. }
    destruct r as [[u'|]|[]|]; cbn [round_result] in A.
    - destruct A as (p & q & rd & Wq & CA & _ & S & user' & service' & auth' & E').
      assert (X : p = pl2 /\ k_in (a_conn st') = rest).
      { destruct S as (_ & _ & _ & X & _). split; [eapply received_same; eassumption|].
        eapply received_unique; [exact K|exact CB|exact P2| |exact X]. rewrite IN1. exact IN2. }
      destruct X as [-> X]. pose proof (CALL q rd Wq CA S) as Y. rewrite Y in E'. injection E' as _ _ _ <-. eexists. split; [reflexivity|exact X].
    - exfalso. destruct A as (p & q & rd & Wq & CA & _ & S & NS).
      assert (X : p = pl2) by (destruct S as (_ & _ & _ & X & _); eapply received_same; eassumption). subst p.
      pose proof (CALL q rd Wq CA S) as Y. apply NS. unfold successful. eauto.
    - exfalso. destruct A as [D _]. destruct (D pl2 NP) as [X|[(u' & X & Y)|(q & X & Y)]].
      + destruct (X _ W2) as [? Z]. discriminate Z.
      + apply SAME in X; [|reflexivity]. injection X as ->. exact (Y _ eq_refl).
      + apply SAME in X; [|reflexivity]. injection X as ->. cbn [q0 malformed ua_method] in Y. destruct Y as [Y|Y]; eapply Y; reflexivity.
    - exfalso. destruct A as (tail & (p & NP' & X) & (LG & _ & AN')). pose proof (one_payload C K _ _ _ _ _ NP NP') as <-.
      destruct X as [(m & X & Y & Z & _)|(q & X & Y)].
      + destruct (is_ecdh_reply m) eqn:EC; [destruct m; try discriminate EC; eapply Z; reflexivity|].
        apply SAME in X; [|exact EC]. eapply Y. exact X.
      + apply SAME in X; [|reflexivity]. injection X as ->. cbn [q0 fatal_request ua_method ua_user ua_service] in Y.
        destruct Y as (key' & sg' & Q1 & Q2 & [[_ Y]|Y]); [exact (N.lt_irrefl _ (N.lt_le_trans _ _ _ Y LD))|]. apply NI in Q1; [|assumption]. apply NI in Q2; [|assumption]. subst key' sg'.
        subst tail. pose proof (AN' AN (a_log st) _ [] LG) as AA. cbn iota in AA. rewrite HA in AA. discriminate AA.
  Qed.
End Story.
