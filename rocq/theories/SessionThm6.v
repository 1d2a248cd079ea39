(** The properties of the session phase: output, and panics. *)
From Coq Require Import Init.Byte Strings.Byte.
From Verif Require Export SessionThm5.
Open Scope res_scope.

Section Sessions.
  Context (C : Crypto) (rng : N -> N -> bytes) (h : SHandlers) (k : Conn) (es : list Ev) (r : res InError bool) (st : SSt).
  Context (IS : is_session C rng h k es r st).
  Let log := s_log st.
  Let T0 : told h r log := session_told C rng h k es r st IS.

  (** ** Output *)
  Lemma crash_read pre err n d post : ~ crash h pre (SE_Read err n d :: post).
  Proof. intros X. remember (SE_Read err n d :: post) as t0 eqn:Q. destruct X; discriminate Q. Qed.
  Lemma crash_exit pre n s post : ~ crash h pre (SE_Exit n s :: post).
  Proof. intros X. remember (SE_Exit n s :: post) as t0 eqn:Q. destruct X; discriminate Q. Qed.

  Lemma read_turn pre err n d post : log = pre ++ SE_Read err n d :: post ->
    exists p post', stream_after err pre n = Some p /\ len d <= 256 /\ at_rest post' /\
      post = (match d with [] => if err then [] else [put (C_Eof p); put (C_Close p)] | _ => [put (C_Data p d)] end) ++ post'.
  Proof.
    intros E. destruct (stim_split h r log pre _ post T0 E eq_refl) as [(t & post' & -> & T & AR)|[(_ & _ & d0 & X)|(-> & X)]].
    - remember (SE_Read err n d :: t) as t0 eqn:Q. destruct T as [ | | | | | | |err0 n0 p0 d0 H1 H2|n0 p0 H1|n0 p0 H1| ]; try discriminate Q.
      + apply pair_cons in Q as [Qa <-]. injection Qa as -> -> ->. exists p0, post'. split; [exact H1|]. split; [lia|]. split; [exact AR|].
        destruct d as [|x d]; [change (len (@nil byte)) with 0 in H2; lia|]. reflexivity.
      + apply pair_cons in Q as [Qa <-]. injection Qa as <- <- <-. exists p0, post'. split; [exact H1|]. split; [vm_compute; discriminate|]. split; [exact AR|]. reflexivity.
      + apply pair_cons in Q as [Qa <-]. injection Qa as <- <- <-. exists p0, post'. split; [exact H1|]. split; [vm_compute; discriminate|]. split; [exact AR|]. reflexivity.
    - discriminate X.
    - destruct (crash_read _ _ _ _ _ X).
  Qed.
  Lemma runs_stream err pre n p : stream_after err pre n = Some p -> runs err pre n p.
  Proof. intros H. apply stream_child in H. exact H. Qed.
  (** Two streams of a child are the same child's. *)
  Lemma runs_unique err err' pre1 pre2 post1 post2 n p1 p2 : log = pre1 ++ post1 -> log = pre2 ++ post2 ->
    runs err pre1 n p1 -> runs err' pre2 n p2 -> p1 = p2.
  Proof.
    intros E1 E2 (a1 & c1 & ty1 & io1 & b1 & -> & _) (a2 & c2 & ty2 & io2 & b2 & -> & _).
    rewrite <- app_assoc in E1, E2. cbn [app] in E1, E2. destruct (spawn_unique h _ _ _ _ _ _ _ _ _ _ _ _ _ _ _ T0 E1 E2) as (_ & Q & _).
    injection Q as _ -> _ _. reflexivity.
  Qed.
  Lemma no_read_after_end err pre n mid d post : log = pre ++ SE_Read err n [] :: mid ++ SE_Read err n d :: post -> False.
  Proof.
    intros E. pose proof E as E'.
    apply read_turn in E as (p & post' & H & _). apply stream_child in H as (l1 & c & ty & io & l2 & -> & H1 & H2).
    assert (Q : log = (l1 ++ SE_Spawn c p n ty (Ok io) :: l2 ++ SE_Read err n [] :: mid) ++ SE_Read err n d :: post).
    { rewrite E'. rewrite <- !app_assoc. cbn [app]. rewrite <- !app_assoc. reflexivity. }
    pose proof Q as Q'. apply read_turn in Q as (p' & post'' & H & _). apply stream_child in H as (l3 & c' & ty' & io' & l4 & E2 & _ & N).
    rewrite E2 in Q'. rewrite <- !app_assoc in Q'. cbn [app] in Q'.
    assert (Q2 : log = l1 ++ SE_Spawn c p n ty (Ok io) :: (l2 ++ SE_Read err n [] :: mid ++ SE_Read err n d :: post)).
    { rewrite E'. rewrite <- !app_assoc. reflexivity. }
    destruct (spawn_unique h _ _ _ _ _ _ _ _ _ _ _ _ _ _ _ T0 Q2 Q') as (<- & Es & _).
    apply app_inv_head in E2. apply pair_cons in E2 as [_ E2]. apply N. rewrite <- E2. apply in_or_app. right. left. reflexivity.
  Qed.
  Lemma output_delivered pre err n d post : log = pre ++ SE_Read err n d :: post -> d <> [] ->
    exists p post', runs err pre n p /\ post = put (C_Data p d) :: post' /\ at_rest post'.
  Proof.
    intros E N. apply read_turn in E as (p & post' & H & _ & AR & ->). exists p, post'. split; [apply runs_stream, H|].
    destruct d as [|x d]; [destruct (N eq_refl)|]. split; [reflexivity|exact AR].
  Qed.
  Lemma end_delivered pre n post : log = pre ++ SE_Read false n [] :: post ->
    exists p post', runs false pre n p /\ post = put (C_Eof p) :: put (C_Close p) :: post' /\ at_rest post' /\
      forall d, ~ In (SE_Read false n d) post.
  Proof.
    intros E. pose proof E as E'. apply read_turn in E as (p & post' & H & _ & AR & Ep). exists p, post'. split; [apply runs_stream, H|].
    split; [exact Ep|]. split; [exact AR|]. intros d I. apply in_split in I as (a & b & ->). eapply no_read_after_end, E'.
  Qed.
  Lemma data_caused pre p d post : log = pre ++ put (C_Data p d) :: post ->
    exists pre' err n, pre = pre' ++ [SE_Read err n d] /\ runs err pre' n p /\ d <> [] /\ len d <= 256 /\ at_rest post.
  Proof.
    intros E. destruct (sent_because h r log T0 _ _ _ E) as (pre' & s & t1 & c & t2 & post' & Q & -> & -> & Bc & AR).
    injection Q as <-. remember (C_Data p d) as c eqn:Qc. destruct Bc as [ | | |err n p0 d0 H1 H2| | | ]; try discriminate Qc. injection Qc as -> ->.
    exists pre', err, n. split; [reflexivity|]. split; [apply runs_stream, H1|]. split; [|split; [lia|exact AR]].
    intros ->. change (len (@nil byte)) with 0 in H2. lia.
  Qed.
  Lemma ends_caused pre p post :
    (log = pre ++ put (C_Eof p) :: post -> exists pre' n post', pre = pre' ++ [SE_Read false n []] /\ runs false pre' n p /\ post = put (C_Close p) :: post' /\ at_rest post') /\
    (log = pre ++ put (C_Close p) :: post -> exists pre' n, pre = pre' ++ [SE_Read false n []; put (C_Eof p)] /\ runs false pre' n p /\ at_rest post).
  Proof.
    split; intros E; destruct (sent_because h r log T0 _ _ _ E) as (pre' & s & t1 & c & t2 & post' & Q & -> & -> & Bc & AR); injection Q as <-.
    - remember (C_Eof p) as c eqn:Qc. destruct Bc as [ | | | |n p0 H1| | ]; try discriminate Qc. injection Qc as ->. exists pre', n, post'.
      split; [reflexivity|]. split; [apply runs_stream, H1|]. auto.
    - remember (C_Close p) as c eqn:Qc. destruct Bc as [ | | | | |n p0 H1| ]; try discriminate Qc. injection Qc as ->. exists pre', n.
      split; [reflexivity|]. split; [apply runs_stream, H1|]. auto.
  Qed.

  (** All data on a channel, in order. *)
  Lemma data_sent_app p a b : data_sent p (a ++ b) = data_sent p a ++ data_sent p b.
  Proof. apply flat_map_app. Qed.
  Lemma data_read_app all p a b : data_read all p (a ++ b) = data_read all p a ++ data_read all p b.
  Proof. apply flat_map_app. Qed.
  Lemma data_quiet_drop all p old : data_sent p (dropped old) = [] /\ data_read all p (dropped old) = [].
  Proof. destruct old; auto. Qed.
  Lemma data_quiet_want all p q c : (forall p d, c <> C_Data p d) -> data_sent p (wanted q c) = [] /\ data_read all p (wanted q c) = [].
  Proof.
    intros N. unfold wanted. destruct (rq_want_reply q); [|auto]. split; [|reflexivity]. cbn. destruct c; try reflexivity.
    destruct (N _ _ eq_refl).
  Qed.
  Lemma data_turn p pre t post : log = pre ++ t ++ post -> turn h pre t -> data_sent p t = data_read log p t.
  Proof.
    intros E T. destruct T as [ |r1 q ty p0 old io H1 H2 H3 H4|r1 q p0 old H1 H2 H3|c0 d0 p0 n0 j H1 H2|c0 p0 old H1|c0|d0|err n0 p0 d0 H1 H2|n0 p0 H1|n0 p0 H1|n0 p0 s H1 H2].
    - reflexivity.
    - rewrite !data_sent_app, !data_read_app. destruct (data_quiet_drop log p old) as [-> ->].
      destruct (data_quiet_want log p r1 (C_Success p0)) as [-> ->]; [discriminate|]. reflexivity.
    - change (got (C_Request r1) :: wanted r1 (C_Failure p0)) with ([got (C_Request r1)] ++ wanted r1 (C_Failure p0)).
      rewrite !data_sent_app, !data_read_app. destruct (data_quiet_want log p r1 (C_Failure p0)) as [-> ->]; [discriminate|]. reflexivity.
    - reflexivity.
    - change (got (C_Eof c0) :: dropped old) with ([got (C_Eof c0)] ++ dropped old).
      rewrite !data_sent_app, !data_read_app. destruct (data_quiet_drop log p old) as [-> ->]. reflexivity.
    - set (old := match chan_after pre c0 with Some (_, old) => old | None => None end).
      change (got (C_Close c0) :: dropped old) with ([got (C_Close c0)] ++ dropped old).
      rewrite !data_sent_app, !data_read_app. destruct (data_quiet_drop log p old) as [-> ->]. reflexivity.
    - reflexivity.
    - apply stream_child in H1 as (l1 & c & ty & io & l2 & -> & _). rewrite <- app_assoc in E. cbn [app] in E.
      unfold data_read. cbn [flat_map]. rewrite (peer_of_spawn h _ _ _ _ _ _ _ _ _ T0 E).
      destruct d0 as [|x d0]; [change (len (@nil byte)) with 0 in H2; lia|]. cbn. destruct (p0 =? p); reflexivity.
    - reflexivity.
    - reflexivity.
    - reflexivity.
  Qed.
  Lemma all_data p : data_sent p log = data_read log p log.
  Proof.
    destruct T0 as (ts & tail & E & Ts & En).
    assert (H : forall base, log = base ++ concat ts ++ tail -> turns h base ts -> data_sent p (concat ts) = data_read log p (concat ts)).
    { clear E Ts En. induction ts as [|t ts IH]; intros base E Ts; [reflexivity|]. inversion Ts; subst. cbn [concat].
      rewrite data_sent_app, data_read_app. cbn [concat] in E. rewrite <- app_assoc in E. f_equal.
      - eapply data_turn; eassumption.
      - apply (IH (base ++ t)); [rewrite <- app_assoc; exact E|assumption]. }
    specialize (H [] E Ts). rewrite E at 1 3. rewrite data_sent_app, data_read_app, H. f_equal.
    destruct En as [->|[(_ & d & ->)|(_ & X)]]; [reflexivity|reflexivity|]. destruct X; reflexivity.
  Qed.
  (** What comes after CLOSE. *)
  Lemma after_close pre p post : log = pre ++ put (C_Close p) :: post ->
    exists pre' n, pre = pre' ++ [SE_Read false n []; put (C_Eof p)] /\ runs false pre' n p /\
    forall p' d mid post', post = mid ++ put (C_Data p' d) :: post' ->
      exists mid' err n', mid = mid' ++ [SE_Read err n' d] /\ (n' = n -> err = true).
  Proof.
    intros E. pose proof E as E'. apply ends_caused in E as (pre' & n & -> & H & _). exists pre', n. split; [reflexivity|]. split; [exact H|].
    intros p' d mid post' ->.
    assert (Q : log = (pre' ++ [SE_Read false n []; put (C_Eof p); put (C_Close p)] ++ mid) ++ put (C_Data p' d) :: post').
    { rewrite E'. rewrite <- !app_assoc. reflexivity. }
    apply data_caused in Q as (pre2 & err & n' & Q & _ & Nd & _).
    destruct mid as [|x mid] using rev_ind.
    { exfalso. rewrite app_nil_r in Q. change [SE_Read false n []; put (C_Eof p); put (C_Close p)] with ([SE_Read false n []; put (C_Eof p)] ++ [put (C_Close p)]) in Q.
      rewrite app_assoc in Q. apply app_inj_tail in Q as [_ Q]. discriminate Q. }
    clear IHmid. rewrite !app_assoc in Q. apply app_inj_tail in Q as [Q ->]. exists mid, err, n'. split; [reflexivity|]. intros ->.
    destruct err; [reflexivity|exfalso].
    eapply (no_read_after_end false pre' n (put (C_Eof p) :: put (C_Close p) :: mid) d (put (C_Data p' d) :: post')).
    rewrite E'. rewrite <- !app_assoc. reflexivity.
  Qed.
  (** ** Exits *)
  Lemma exit_turn pre n s post : log = pre ++ SE_Exit n s :: post ->
    exists p post', wait_after pre n = Some p /\ s < 2 ^ 32 /\ post = put (exit_status p s) :: post' /\ at_rest post'.
  Proof.
    intros E. destruct (stim_split h r log pre _ post T0 E eq_refl) as [(t & post' & -> & T & AR)|[(_ & _ & d0 & X)|(-> & X)]].
    - remember (SE_Exit n s :: t) as t0 eqn:Q. destruct T as [ | | | | | | | | | |n0 p0 s0 H1 H2]; try discriminate Q.
      apply pair_cons in Q as [Qa <-]. injection Qa as -> ->. exists p0, post'. auto.
    - discriminate X.
    - destruct (crash_exit _ _ _ _ X).
  Qed.
  Lemma one_exit pre n s mid s' post : log = pre ++ SE_Exit n s :: mid ++ SE_Exit n s' :: post -> False.
  Proof.
    intros E. pose proof E as E'.
    apply exit_turn in E as (p & post' & H & _). apply wait_child in H as (l1 & c & ty & io & l2 & -> & H1 & H2).
    assert (Q : log = (l1 ++ SE_Spawn c p n ty (Ok io) :: l2 ++ SE_Exit n s :: mid) ++ SE_Exit n s' :: post).
    { rewrite E'. rewrite <- !app_assoc. cbn [app]. rewrite <- !app_assoc. reflexivity. }
    pose proof Q as Q'. apply exit_turn in Q as (p' & post'' & H & _). apply wait_child in H as (l3 & c' & ty' & io' & l4 & E2 & _ & N).
    rewrite E2 in Q'. rewrite <- !app_assoc in Q'. cbn [app] in Q'.
    assert (Q2 : log = l1 ++ SE_Spawn c p n ty (Ok io) :: (l2 ++ SE_Exit n s :: mid ++ SE_Exit n s' :: post)).
    { rewrite E'. rewrite <- !app_assoc. reflexivity. }
    destruct (spawn_unique h _ _ _ _ _ _ _ _ _ _ _ _ _ _ _ T0 Q2 Q') as (<- & Es & _).
    apply app_inv_head in E2. apply pair_cons in E2 as [_ E2]. apply (N s). rewrite <- E2. apply in_or_app. right. left. reflexivity.
  Qed.
  Lemma exit_delivered pre n s post : log = pre ++ SE_Exit n s :: post ->
    exists l1 c p ty io l2 post', pre = l1 ++ SE_Spawn c p n ty (Ok io) :: l2 /\ post = put (exit_status p s) :: post' /\ at_rest post' /\
      forall s', ~ In (SE_Exit n s') (pre ++ post).
  Proof.
    intros E. pose proof E as E'. apply exit_turn in E as (p & post' & H & _ & Ep & AR). apply wait_child in H as (l1 & c & ty & io & l2 & E2 & _).
    exists l1, c, p, ty, io, l2, post'. split; [exact E2|]. split; [exact Ep|]. split; [exact AR|]. intros s' I.
    apply in_app_or in I as [I|I]; apply in_split in I as (a & b & ->).
    - rewrite <- app_assoc in E'. eapply one_exit, E'.
    - eapply one_exit, E'.
  Qed.
  Lemma status_caused pre q post : log = pre ++ put (C_Request q) :: post ->
    exists pre' n p s, pre = pre' ++ [SE_Exit n s] /\ C_Request q = exit_status p s /\ wait_after pre' n = Some p /\ at_rest post.
  Proof.
    intros E. destruct (sent_because h r log T0 _ _ _ E) as (pre' & s & t1 & c & t2 & post' & Q & -> & -> & Bc & AR).
    injection Q as <-. remember (C_Request q) as c eqn:Qc. destruct Bc as [ | | | | | |n p s H1 H2]; try discriminate Qc. exists pre', n, p, s. auto.
  Qed.

  (** ** Panics *)
  Lemma turn_or_crash pre e t t' : turn h pre (e :: t) -> crash h pre (e :: t') -> False.
  Proof.
    intros T X. remember (e :: t) as a eqn:Ea. remember (e :: t') as b eqn:Eb.
    destruct T as [o i H1 H2|r1 q ty p0 old io H1 H2 H3 H4|r1 q p0 old H1 H2 H3|c0 d0 p0 n0 j H1 H2|c0 p0 old H1|c0|d0|err n0 p0 d0 H1 H2|n0 p0 H1|n0 p0 H1|n0 p0 s H1 H2];
      cbn [app] in Ea; apply pair_cons in Ea as [<- _];
      destruct X as [o' i' X1 X2|m X|m c1 X1 X2|r2 X1 X2|r2 q2 ty2 p2 old2 x X1 X2 X3 X4 X5|c1 d1 p1 X1|c1 d1 p1 n1 x X1 X2 X3];
      apply pair_cons in Eb as [Q _]; try discriminate Q; unfold got in Q;
      try (injection Q; intros; subst; try discriminate; try congruence; fail).
    - injection Q as ->. destruct X1 as [Xa Xb]. destruct H1 as [Ha Hb].
      assert (i < i') by lia. destruct (Xb i); assumption.
    - injection Q as ->. cbn in X1. injection X1 as <-. congruence.
    - injection Q as ->. destruct (X2 _ H2). congruence.
    - injection Q as ->. pose proof (session_request_unique _ _ _ H2 X2). subst q2. assert (ty2 = ty) by congruence. subst ty2.
      destruct (X5 io). congruence.
    - injection Q as ->. cbn in X1. injection X1 as <-. congruence.
    - injection Q as ->. destruct (X2 _ H2). congruence.
    - injection Q as ->. pose proof (session_request_unique _ _ _ H2 X2). subst q2. destruct q; discriminate.
    - injection Q as ->. cbn in X1. injection X1 as <-. congruence.
    - injection Q as ->. cbn in X1. injection X1 as <-. congruence.
  Qed.
  Lemma panics_when pre m post t : log = pre ++ SE_Received m :: post -> crash h pre (SE_Received m :: t) ->
    r = Panic /\ s_sent post = [] /\ crash h pre (SE_Received m :: post).
  Proof.
    intros E X. destruct (stim_split h r log pre _ post T0 E eq_refl) as [(t' & post' & -> & T & AR)|[(_ & -> & d & Q)|(-> & X')]].
    - destruct (turn_or_crash _ _ _ _ T X).
    - injection Q as ->. exfalso. remember (SE_Received (Msg_Disconnect d) :: t) as a eqn:Ea.
      destruct X; apply pair_cons in Ea as [Q _]; try discriminate Q; injection Q as ->; discriminate.
    - split; [reflexivity|]. split; [|exact X']. remember (SE_Received m :: post) as a eqn:Ea.
      destruct X'; apply pair_cons in Ea as [_ <-]; reflexivity.
  Qed.
  Lemma panic_only : r = Panic ->
    exists es1 e es2 ts, es = es1 ++ e :: es2 /\ Forall2 prompts es1 ts /\
      ((e = Ev_Packet /\ log = concat ts /\ exists pls rest pl, received_as C (k_rd k) (k_in k) pls rest /\
          Forall2 (fun m pl => is_wire m pl) (received log) pls /\
          next_payload C (later (len pls) (k_rd k)) 35000 rest pl /\ forall m, is_wire m pl -> exists r, m = Msg_EcdhReply r) \/
       (e = Ev_Packet /\ exists m t, log = concat ts ++ SE_Received m :: t /\ crash h (concat ts) (SE_Received m :: t)) \/
       (exists err n d p, e = Ev_Output err n d /\ runs err (concat ts) n p /\ forall data, d <> Ok data)).
  Proof.
    intros ->. destruct (session_outcome_of C rng h k es _ st IS) as (ts & tail & pls & rest & E & Ts & R1 & R2 & R3 & es1 & e & es2 & -> & P & X).
    exists es1, e, es2, ts. split; [reflexivity|]. split; [exact P|]. destruct X as [(-> & -> & pl & N & W)|[(-> & X)|(-> & err & n & d & -> & S & N)]].
    - left. split; [reflexivity|]. split; [unfold log; rewrite E, app_nil_r; reflexivity|]. exists pls, rest, pl. split; [exact R1|]. split; [exact R2|]. split; [exact N|exact W].
    - right. left. split; [reflexivity|]. assert (Sh : exists m t, tail = SE_Received m :: t) by (destruct X; unfold got; eauto). destruct Sh as (m & t & ->).
      exists m, t. split; [exact E|exact X].
    - right. right. destruct (stream_after err (concat ts) n) as [p|] eqn:Q; [|destruct (S eq_refl)]. exists err, n, d, p.
      split; [reflexivity|]. split; [apply runs_stream, Q|exact N].
  Qed.
End Sessions.
