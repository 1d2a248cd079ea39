(** The properties of the session phase: what is sent, and clients that panic it. *)
From Coq Require Import Init.Byte Strings.Byte.
From Verif Require Export SessionThm6.
Open Scope res_scope.

Section Sessions.
  Context (C : Crypto) (rng : N -> N -> bytes) (h : SHandlers) (k : Conn) (es : list Ev) (r : res InError bool) (st : SSt).
  Context (IS : is_session C rng h k es r st).
  Let log := s_log st.
  Let T0 : told h r log := session_told C rng h k es r st IS.

  Lemma received_ok m : In (SE_Received m) log -> message_ok m.
  Proof.
    intros I. destruct (session_outcome_of C rng h k es r st IS) as (ts & tail & pls & rest & _ & _ & _ & F & _).
    assert (J : In m (received (s_log st))) by (apply in_flat_map; exists (SE_Received m); split; [exact I|left; reflexivity]).
    revert J. induction F as [|m' pl ms pls W F IH]; [intros []|]. intros [->|J]; [apply W|apply IH, J].
  Qed.
  Lemma chan_peer_ok pre post c p old : log = pre ++ post -> chan_after pre c = Some (p, old) -> p < 2 ^ 32.
  Proof.
    intros E H. eapply at_prefix in H as (l1 & o & l2 & -> & <- & _); [|exact IS|exact E].
    assert (O : message_ok (Msg_Channel (C_Open o))).
    { apply received_ok. rewrite E, <- app_assoc. apply in_or_app. right. left. reflexivity. }
    destruct O as [F _]. cbn [message_fields channel_fields] in F. finv. assumption.
  Qed.
  Lemma spawn_peer_ok pre c p n ty x post : log = pre ++ SE_Spawn c p n ty x :: post -> p < 2 ^ 32.
  Proof.
    intros E. destruct (spawn_cause h r log T0 _ _ _ _ _ _ _ E) as (pre' & r0 & q & old & post' & -> & _ & _ & H & _).
    eapply chan_peer_ok; [|exact H]. rewrite E, <- app_assoc. reflexivity.
  Qed.
  Lemma sent_fits m : In (SE_Sent m) log -> message_ok m /\ len (wire m) <= 300.
  Proof.
    intros I. apply in_split in I as (pre & post & E).
    destruct (sent_because h r log T0 _ _ _ E) as (pre' & s & t1 & c & t2 & post' & -> & -> & -> & Bc & AR).
    change (out_ok c). rewrite <- app_assoc in E. cbn [app] in E.
    destruct Bc as [o i H1 H2|q0 q ty p old io H1 H2 H3 H4|q0 q p old H1 H2 H3 H4|err n p d H1 H2|n p H1|n p H1|n p s H1 H2].
    - apply confirmation_ok; [|exact H2]. apply received_ok. rewrite E. apply in_or_app. right. left. reflexivity.
    - apply short_ok; [eapply chan_peer_ok; [exact E|exact H1]|cbn; auto].
    - apply short_ok; [eapply chan_peer_ok; [exact E|exact H1]|cbn; auto].
    - apply stream_child in H1 as (l1 & c & ty & io & l2 & -> & _). rewrite <- app_assoc in E. apply data_ok; [eapply spawn_peer_ok, E|lia].
    - apply stream_child in H1 as (l1 & c & ty & io & l2 & -> & _). rewrite <- app_assoc in E. apply short_ok; [eapply spawn_peer_ok, E|cbn; auto].
    - apply stream_child in H1 as (l1 & c & ty & io & l2 & -> & _). rewrite <- app_assoc in E. apply short_ok; [eapply spawn_peer_ok, E|cbn; auto].
    - apply wait_child in H1 as (l1 & c & ty & io & l2 & -> & _). rewrite <- app_assoc in E. apply exit_ok; [eapply spawn_peer_ok, E|exact H2].
  Qed.
  Lemma never_extended p ty d : ~ In (put (C_ExtendedData p ty d)) log.
  Proof.
    intros I. apply in_split in I as (pre & post & E). destruct (sent_because h r log T0 _ _ _ E) as (pre' & s & t1 & c & t2 & post' & Q & -> & -> & Bc & AR).
    injection Q as <-. remember (C_ExtendedData p ty d) as c eqn:Qc. destruct Bc; discriminate Qc.
  Qed.
  Lemma never_adjusted p n : ~ In (put (C_WindowAdjust p n)) log.
  Proof.
    intros I. apply in_split in I as (pre & post & E). destruct (sent_because h r log T0 _ _ _ E) as (pre' & s & t1 & c & t2 & post' & Q & -> & -> & Bc & AR).
    injection Q as <-. remember (C_WindowAdjust p n) as c eqn:Qc. destruct Bc; discriminate Qc.
  Qed.
  Lemma no_output_no_status pre c p n ty io post : log = pre ++ SE_Spawn c p n ty (Ok io) :: post ->
    io_stdout io = false -> io_stderr io = false -> forall s, ~ In (SE_Exit n s) log.
  Proof.
    intros E N1 N2 s I. apply in_split in I as (a & b & E2). pose proof E2 as E3. apply (exit_turn C rng h k es r st IS) in E2 as (p' & post' & H & _).
    apply wait_child in H as (l1 & c' & ty' & io' & l2 & -> & X & _). fold log in E3. rewrite <- app_assoc in E3.
    destruct (spawn_unique h _ _ _ _ _ _ _ _ _ _ _ _ _ _ _ T0 E E3) as (_ & Q & _).
    apply (f_equal (fun e => match e with SE_Spawn _ _ _ _ (Ok i) => i | _ => io end)) in Q. subst io'. cbn in X. rewrite N1, N2 in X. discriminate X.
  Qed.
End Sessions.

(** ** The next packet *)
Lemma session_run_app C rng h es1 es2 : forall st,
  session_run C rng h (es1 ++ es2) st =
  match session_run C rng h es1 st with Some (Ok false, st') => session_run C rng h es2 st' | x => x end.
Proof.
  induction es1 as [|e es1 IH]; intros st; cbn [app session_run]; [reflexivity|].
  destruct (session_step C rng h e st) as [[[[|]| |] st']|]; try reflexivity. apply IH.
Qed.
Lemma run_inv C rng h : crypto_ok C -> rngs_ok rng -> forall es st st', sinv st -> session_run C rng h es st = Some (Ok false, st') -> sinv st'.
Proof.
  intros K R es. induction es as [|e es IH]; intros st st' I H; cbn [session_run] in H.
  - apply Some_inj in H. apply pair_eq in H as [_ <-]. exact I.
  - destruct (session_step C rng h e st) as [x|] eqn:Q; [|discriminate H]. apply (session_step_result C rng h K R) in Q; [|exact I].
    destruct x as [[[|]|u|] st1]; try discriminate H. destruct Q as (pls & t & _ & _ & _ & _ & I1). eapply IH; eassumption.
Qed.
(** A frame with a message is received and handled. *)
Lemma packet_handled C rng h k es st pl pad raw rest m : is_session C rng h k es (Ok false) st ->
  k_in (s_conn st) = seal_with C (k_rd (s_conn st)) raw ++ rest -> loose_packet pl pad raw -> len raw + 16 <= 35000 ->
  is_wire m pl -> is_ecdh_reply m = false ->
  exists r' st' t, is_session C rng h k (es ++ [Ev_Packet]) r' st' /\ s_log st' = s_log st ++ SE_Received m :: t.
Proof.
  intros (K & R & L1 & L2 & Q) E P L W NE. pose proof (run_inv C rng h K R _ _ _ (session_init_inv k L1 L2) Q) as I.
  assert (X : exists r' st' t, on_packet C rng h st = (r', st') /\ s_log st' = s_log st ++ SE_Received m :: t).
  { destruct I as (G & A & S). unfold on_packet. unfold sbind at 1. pose proof G as (_ & GL & _).
    destruct (s_recv_cases C K st G) as [(pl' & st1 & E1 & G1 & C1 & Sm1 & NP)|(e & st1 & E1 & _ & _ & NP)].
    2: { exfalso. apply (NP pl). exists pad, raw, rest. auto. }
    rewrite E1. assert (pl' = pl).
    { destruct C1 as (_ & _ & _ & RC & _). exact (proj1 (received_determined _ _ _ _ _ _ _ _ _ K GL P E RC)). }
    subst pl'. unfold sbind at 1. unfold sret at 1. assert (Pm : Message_parse pl = Ok m) by (apply Message_parse_iff; auto).
    rewrite Pm. cbn [unwrap]. unfold sbind at 1.
    destruct (s_event_ok C st1 (SE_Received m) G1 eq_refl) as (st2 & E2 & G2 & C2 & Sm2). rewrite E2.
    pose proof (cstep_trans C _ _ _ _ _ _ _ C1 C2) as C3. cbn [app] in C3.
    assert (L3 : s_log st2 = s_log st ++ [SE_Received m]) by apply C3.
    pose proof (same_trans _ _ _ Sm1 Sm2) as Sm3.
    pose proof (on_message_result C rng h K R (s_log st) st2 m G2 (agree_same _ _ _ A Sm3) S L3 (proj1 W)) as T.
    destruct (on_message C rng h m st2) as [r' st3]. destruct T as (evs & C4 & _). exists r', st3, evs. split; [reflexivity|].
    pose proof (cstep_trans C _ _ _ _ _ _ _ C3 C4) as C5. apply C5. }
  destruct X as (r' & st' & t & X & Y). exists r', st', t. split; [|exact Y].
  split; [exact K|]. split; [exact R|]. split; [exact L1|]. split; [exact L2|]. rewrite session_run_app, Q. cbn [session_run session_step]. rewrite X.
  destruct r' as [[|]| |]; reflexivity.
Qed.
(** The client can panic the server at any time. *)
Lemma panic_any_time C rng h k es st pl pad raw rest m t : is_session C rng h k es (Ok false) st ->
  k_in (s_conn st) = seal_with C (k_rd (s_conn st)) raw ++ rest -> loose_packet pl pad raw -> len raw + 16 <= 35000 ->
  is_wire m pl -> is_ecdh_reply m = false -> crash h (s_log st) (SE_Received m :: t) ->
  exists st', is_session C rng h k (es ++ [Ev_Packet]) Panic st'.
Proof.
  intros IS E P L W NE X. destruct (packet_handled _ _ _ _ _ _ _ _ _ _ _ IS E P L W NE) as (r' & st' & t' & IS' & Q).
  destruct (panics_when _ _ _ _ _ _ _ IS' _ _ _ _ Q X) as [-> _]. exists st'. exact IS'.
Qed.
