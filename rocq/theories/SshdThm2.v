(** Sessions of the example server. *)
From Coq Require Import Init.Byte Strings.Byte.
From Verif Require Export SshdThm.

(** ** Starting *)
Lemma spawn_never_errs os log ty e : sshd_spawn os log ty <> Err e.
Proof.
  unfold sshd_spawn, sshd_command. destruct ty as [|c].
  - destruct (os_shell os); [destruct (os_start _ _ _)|]; discriminate.
  - destruct (filter _ _); [discriminate|]. destruct (os_start _ _ _); discriminate.
Qed.
Lemma spawn_exec os log command ws : words command ws ->
  sshd_spawn os log (Spawn_Exec command) = if (match ws with [] => false | _ => os_start os log ws end) then Ok all_io else Panic.
Proof. intros W. unfold sshd_spawn. rewrite (exec_command os _ _ W). destruct ws; reflexivity. Qed.
Lemma spawn_shell os log :
  sshd_spawn os log Spawn_Shell = match os_shell os with Some s => if os_start os log [s] then Ok all_io else Panic | None => Panic end.
Proof. unfold sshd_spawn, sshd_command. destruct (os_shell os); reflexivity. Qed.

Definition exec_request (c : N) (command : bytes) : ChRequest :=
  {| rq_recipient := c; rq_ty := B "exec"; rq_want_reply := true; rq_data := enc [FStr command] |}.
Lemma bad_command_panics C rng os write k es st c p old command ws :
  is_session C rng (sshd_session os write) k es (Ok false) st -> k_in (s_conn st) = [] ->
  chan_after (s_log st) c = Some (p, old) -> c < 2 ^ 32 -> len command <= 20000 -> words command ws ->
  (ws = [] \/ forall log, os_start os log ws = false) ->
  exists t st', is_session C rng (sshd_session os write) (more t k) (es ++ [Ev_Packet]) Panic st'.
Proof.
  intros IS E Ch Lc L W Bad. exists (added C st (Msg_Channel (C_Request (exec_request c command)))).
  assert (LD : len (enc [FStr command]) = 4 + len command) by (elen; lia).
  eapply (add_packet _ _ _ _ _ _ _ _ IS E).
  - split; [|exact I]. cbn [message_fields channel_fields exec_request rq_recipient rq_ty rq_want_reply rq_data app].
    repeat constructor; cbn [fld_ok]; try exact I; try reflexivity; auto.
  - unfold wire. cbn [message_fields channel_fields exec_request rq_recipient rq_ty rq_want_reply rq_data app].
    unfold enc in LD |- *. cbn [map concat enc1] in *. lens. rewrite ?be32_len in *. change (len (B "exec")) with 4. lia.
  - reflexivity.
  - eapply (X_Start _ _ (exec_request c command) (SR_Exec command) (Spawn_Exec command) p old _ Ch).
    + split; [|split].
      * split; [|exact I]. repeat constructor. cbn [fld_ok]. change (2 ^ 32) with 4294967296. lia.
      * reflexivity.
      * cbn [session_fields exec_request rq_data]. apply reads_enc.
    + reflexivity.
    + reflexivity.
    + intros io. cbn [sshd_session h_spawn]. rewrite (spawn_exec _ _ _ _ W). destruct ws as [|w ws]; [discriminate|]. destruct Bad as [Bad|Bad]; [discriminate Bad|].
      rewrite Bad. discriminate.
Qed.

(** ** Ending *)
Lemma exit_of_schedule C rng h k es r st n s : is_session C rng h k es r st -> In (SE_Exit n s) (s_log st) -> In (Ev_Exit n s) es.
Proof.
  intros IS I. destruct (session_outcome_of C rng h k es r st IS) as (ts & tail & pls & rest & E & Ts & _ & _ & _ & X).
  assert (Y : exists es1 es2, es = es1 ++ es2 /\ Forall2 prompts es1 ts /\ ~ In (SE_Exit n s) tail).
  { destruct r as [[|]| |].
    - destruct X as (es1 & e & es2 & -> & P & _ & d & ->). exists es1, (e :: es2). split; [reflexivity|]. split; [exact P|]. intros [Q|[]]. discriminate Q.
    - destruct X as (P & -> & _). exists es, []. rewrite app_nil_r. auto.
    - destruct X as (es1 & e0 & es2 & -> & P & _ & -> & _). exists es1, (e0 :: es2). auto.
    - destruct X as (es1 & e & es2 & -> & P & X). exists es1, (e :: es2). split; [reflexivity|]. split; [exact P|].
      destruct X as [(_ & -> & _)|[(_ & X)|(-> & _)]]; auto.
      destruct X; cbn [In]; unfold got; intros Q; repeat (destruct Q as [Q|Q]; [discriminate Q|]); exact Q. }
  destruct Y as (es1 & es2 & -> & P & NI). rewrite E in I. apply in_app_or in I as [I|I]; [|destruct (NI I)].
  apply in_or_app. left. clear - I P Ts. revert Ts I. generalize (@nil SEvent). induction P as [|e t es1 ts He P IH]; intros pre Ts I; [destruct I|].
  inversion Ts as [|pre' t' ts' T Ts' Q1 Q2]. subst. cbn [concat] in I. apply in_app_or in I as [I|I]; [|right; eapply IH; eassumption]. left.
  assert (Hd : exists t', t = SE_Exit n s :: t').
  { clear - T I. destruct T; unfold got, put, dropped, wanted in I; cbn [In app] in I;
      repeat match goal with H : _ \/ _ |- _ => destruct H as [H|H] end; try discriminate; try contradiction; try (eexists; rewrite <- ?H1; congruence);
      repeat match goal with
      | H : In _ (_ ++ _) |- _ => apply in_app_or in H as [H|H]
      | H : In _ (if ?b then _ else _) |- _ => destruct b
      | H : In _ (match ?b with _ => _ end) |- _ => destruct b
      | H : In _ (_ :: _) |- _ => destruct H as [H|H]
      | H : In _ [] |- _ => destruct H
      end; try discriminate; try contradiction.
    all: eexists; rewrite <- I; reflexivity. }
  destruct Hd as (t' & ->). destruct e; cbn [prompts] in He.
  - destruct He as (m & t0 & Q). discriminate Q.
  - destruct He as (d0 & t0 & _ & Q). discriminate Q.
  - destruct He as (t0 & Q). apply pair_cons in Q as [Q _]. injection Q as -> ->. reflexivity.
Qed.
(** The server is told what [sshd_status] makes of how child [n] ends. *)
Definition reports (how : N -> ExitStatus) (es : list Ev) : Prop := forall n s, In (Ev_Exit n s) es -> s = sshd_status (how n).
Lemma status_reported C rng h k es r st how : is_session C rng h k es r st -> reports how es ->
  forall pre n s post, s_log st = pre ++ SE_Exit n s :: post ->
  exists l1 c p ty io l2 post', pre = l1 ++ SE_Spawn c p n ty (Ok io) :: l2 /\ post = put (exit_status p (sshd_status (how n))) :: post' /\ at_rest post'.
Proof.
  intros IS Rp pre n s post E. assert (Q : s = sshd_status (how n)).
  { apply Rp, (exit_of_schedule _ _ _ _ _ _ _ _ _ IS). rewrite E. apply in_or_app. right. left. reflexivity. }
  destruct (exit_delivered C rng h k es r st IS _ _ _ _ E) as (l1 & c & p & ty & io & l2 & post' & E1 & E2 & AR & _). subst s. eauto 12.
Qed.
Lemma no_signal_sent C rng h k es r st : is_session C rng h k es r st -> forall q, In (put (C_Request q)) (s_log st) -> rq_ty q = B "exit-status".
Proof.
  intros IS q I. apply in_split in I as (pre & post & E). destruct (status_caused C rng h k es r st IS _ _ _ E) as (pre' & n & p & s & _ & Q & _).
  unfold exit_status in Q. apply (f_equal (fun c => match c with C_Request q => rq_ty q | _ => [] end)) in Q. exact Q.
Qed.

(** ** Entering *)
Lemma entered_with_signature H R C rng ed : host_ok H -> host_rng_ok R -> crypto_ok C -> rngs_ok rng ->
  forall s u st, authenticate_new_client H R C rng (sshd_auth ed) s = Some (AO_Auth (Ok u) st) ->
  exists c s1 o pls rest pl service key sg, handle_new_client H R s [] = (Ok c, s1, o) /\ received_as C (receive_cipher c) s1 pls rest /\ In pl pls /\
    is_wire (Msg_UserAuth (UA_Request {| ua_user := u; ua_service := service;
       ua_method := M_PublicKeySigned (B "ssh-ed25519") (named (B "ssh-ed25519") key) (named (B "ssh-ed25519") sg) |})) pl /\
    ed_verify ed key (sign_data (session_identifier c) u service (B "ssh-ed25519") (named (B "ssh-ed25519") key)) sg = true.
Proof.
  intros HO RO K RR s u st E.
  destruct (no_session_without_authentication H R C rng _ HO RO K RR s u st E) as (pre & user & service & auth & L & A & _).
  apply sshd_accepted in A as (-> & key & sg & msg & -> & V).
  assert (I : In (AE_Authenticate user service (Auth_PublicKey (B "ssh-ed25519") key sg msg) (Ok user)) (a_log st)).
  { rewrite L. apply in_or_app. right. left. reflexivity. }
  destruct (public_key_bound H R C rng _ HO RO K RR _ _ _ _ _ _ _ _ _ _ E I) as (c & s1 & o & pls & rest & pl & Hs & -> & Rc & Ip & W).
  exists c, s1, o, pls, rest, pl, service, key, sg. auto.
Qed.
Lemma started_words C rng os write k es r st : is_session C rng (sshd_session os write) k es r st ->
  forall pre c p n command io post, s_log st = pre ++ SE_Spawn c p n (Spawn_Exec command) (Ok io) :: post ->
  exists ws, words command ws /\ ws <> [] /\ os_start os pre ws = true /\ io = all_io.
Proof.
  intros IS pre c p n command io post E.
  destruct (spawn_cause _ _ _ (session_told C rng _ k es r st IS) _ _ _ _ _ _ _ E) as (pre' & q0 & q & old & post' & _ & _ & _ & _ & _ & _ & Sp & _).
  destruct (words_exist command) as (ws & W). cbn [sshd_session h_spawn] in Sp. rewrite (spawn_exec _ _ _ _ W) in Sp.
  exists ws. destruct ws as [|w ws]; [discriminate Sp|]. destruct (os_start os pre (w :: ws)) eqn:Q; [|discriminate Sp]. apply Ok_inj in Sp. 
  split; [exact W|]. split; [discriminate|]. auto.
Qed.
(** The server panics about a command exactly if it cannot be run. *)
Lemma start_panics C rng os write k es r st : is_session C rng (sshd_session os write) k es r st ->
  forall pre c p n command x post, s_log st = pre ++ SE_Spawn c p n (Spawn_Exec command) x :: post ->
  forall ws, words command ws -> (r = Panic /\ x = Panic /\ post = [] <-> ws = [] \/ os_start os pre ws = false).
Proof.
  intros IS pre c p n command x post E ws W.
  destruct (spawn_cause _ _ _ (session_told C rng _ k es r st IS) _ _ _ _ _ _ _ E) as (pre' & q0 & q & old & post' & _ & _ & _ & _ & _ & _ & Sp & D).
  cbn [sshd_session h_spawn] in Sp. rewrite (spawn_exec _ _ _ _ W) in Sp. split.
  - intros (_ & -> & _). destruct ws as [|w ws]; [auto|]. right. destruct (os_start os pre (w :: ws)); [discriminate Sp|reflexivity].
  - intros Bad. assert (Q : x = Panic). { subst x. destruct ws as [|w ws]; [reflexivity|]. destruct Bad as [Bad|Bad]; [discriminate Bad|]. rewrite Bad. reflexivity. }
    rewrite Q in *. destruct D as [(_ & _ & io & D)|(-> & -> & _)]; [discriminate D|auto].
Qed.
