(** The properties of the session phase, continued. *)
From Coq Require Import Init.Byte Strings.Byte.
From Verif Require Export SessionThm4.
Open Scope res_scope.

Lemma session_request_unique r q1 q2 : session_request r q1 -> session_request r q2 -> q1 = q2.
Proof.
  intros H1 H2. apply SessionRequest_parse_iff in H1, H2. rewrite H1 in H2. apply (f_equal (fun x => match x with Ok q => q | _ => q1 end)) in H2. exact H2.
Qed.

Section Sessions.
  Context (C : Crypto) (rng : N -> N -> bytes) (h : SHandlers) (k : Conn) (es : list Ev) (r : res InError bool) (st : SSt).
  Context (IS : is_session C rng h k es r st).
  Let log := s_log st.

  Lemma session_outcome_of : session_outcome C h k es r st.
  Proof. destruct IS as (H1 & H2 & H3 & H4 & H5). eapply session_story; eassumption. Qed.
  Lemma session_told : told h r log.
  Proof.
    destruct session_outcome_of as (ts & tail & pls & rest & E & Ts & _ & _ & _ & R). exists ts, tail. split; [exact E|]. split; [exact Ts|].
    destruct r as [[|]| |].
    - destruct R as (es1 & e & es2 & _ & _ & _ & D). right. left. auto.
    - left. destruct R as (_ & Q & _). exact Q.
    - destruct R as (es1 & e0 & es2 & _ & _ & _ & -> & _). left. reflexivity.
    - destruct R as (es1 & e0 & es2 & _ & _ & [(_ & -> & _)|[(_ & X)|(-> & _)]]); auto.
  Qed.

  (** ** Opening *)
  Lemma open_answered pre o post : log = pre ++ got (C_Open o) :: post ->
    (exists i post', post = put (confirmation o i) :: post' /\ at_rest post' /\ least_free pre i /\ i < 2 ^ 32 /\
       let after := pre ++ [got (C_Open o); put (confirmation o i)] in
       chan_after after i = Some (op_sender o, None) /\ forall j, j <> i -> chan_after after j = chan_after pre j) \/
    (r = Panic /\ post = [] /\ forall i, i < 2 ^ 32 -> chan_after pre i <> None).
  Proof.
    intros E. destruct (stim_split h r log pre _ post session_told E eq_refl) as [(t & post' & -> & T & AR)|[(_ & _ & d & X)|(-> & X)]].
    - left. remember (got (C_Open o) :: t) as t0 eqn:Q. destruct T; try discriminate Q. apply pair_cons in Q as [Qa <-].
      unfold got in Qa. injection Qa as ->. exists i, post'. cbn [app]. split; [reflexivity|]. split; [exact AR|]. split; [exact H|]. split; [exact H0|].
      cbn zeta. split.
      + rewrite chan_after_app. cbn [fold_left chan_step got put confirmation oc_sender oc_recipient]. rewrite N.eqb_refl. reflexivity.
      + intros j D. rewrite chan_after_app. cbn [fold_left chan_step got put confirmation oc_sender].
        replace (i =? j) with false; [reflexivity|]. symmetry. apply N.eqb_neq. congruence.
    - discriminate X.
    - right. split; [reflexivity|]. remember (got (C_Open o) :: post) as t0 eqn:Q. destruct X; try discriminate Q.
      + apply pair_cons in Q as [_ <-]. split; [reflexivity|]. intros j L. apply H. lia.
      + apply pair_cons in Q as [Qa <-]. unfold got in Qa. injection Qa as ->. discriminate H.
      + apply pair_cons in Q as [Qa <-]. unfold got in Qa. injection Qa as ->. discriminate H.
  Qed.
  Lemma confirmation_caused pre oc post : log = pre ++ put (C_OpenConfirmation oc) :: post ->
    exists pre' o i, pre = pre' ++ [got (C_Open o)] /\ C_OpenConfirmation oc = confirmation o i /\ least_free pre' i /\ at_rest post.
  Proof.
    intros E. destruct (sent_because h r log session_told _ _ _ E) as (pre' & s & t1 & c & t2 & post' & Q & -> & -> & Bc & AR).
    injection Q as <-. remember (C_OpenConfirmation oc) as c eqn:Qc. destruct Bc; try discriminate Qc. exists pre', o, i. auto.
  Qed.
  Lemma at_prefix pre post : log = pre ++ post -> forall c p old, chan_after pre c = Some (p, old) ->
    exists l1 o l2, pre = l1 ++ got (C_Open o) :: put (confirmation o c) :: l2 /\ op_sender o = p /\ least_free l1 c /\ ~ In (got (C_Close c)) l2.
  Proof.
    intros E c p old H. apply chan_opened in H as (l1 & oc & l2 & -> & Qs & Qp & N1 & _). rewrite <- app_assoc in E. cbn [app] in E.
    apply confirmation_caused in E as (pre' & o & i & -> & Qc & LF & _). unfold confirmation in Qc. injection Qc as ->. cbn in Qs, Qp. subst i p.
    exists pre', o, l2. rewrite <- app_assoc. auto.
  Qed.

  (** ** Requests *)
  Lemma request_answered pre q0 post : log = pre ++ got (C_Request q0) :: post ->
    (exists q p old post', chan_after pre (rq_recipient q0) = Some (p, old) /\ session_request q0 q /\ at_rest post' /\
       ((exists ty io, starts q = Some ty /\ h_spawn h (pre ++ [got (C_Request q0)]) ty = Ok io /\
           post = SE_Spawn (rq_recipient q0) p (spawns pre) ty (Ok io) :: dropped old ++ wanted q0 (C_Success p) ++ post') \/
        (refused q = true /\ post = wanted q0 (C_Failure p) ++ post'))) \/
    (r = Panic /\ s_sent post = [] /\
       (chan_after pre (rq_recipient q0) = None \/ (forall q, session_request q0 q -> starts q = None /\ refused q = false) \/
        exists q ty, session_request q0 q /\ starts q = Some ty /\ forall io, h_spawn h (pre ++ [got (C_Request q0)]) ty <> Ok io)).
  Proof.
    intros E. destruct (stim_split h r log pre _ post session_told E eq_refl) as [(t & post' & -> & T & AR)|[(_ & _ & d & X)|(-> & X)]].
    - left. remember (got (C_Request q0) :: t) as t0 eqn:Q. destruct T as [ |r1 q ty p old io H1 H2 H3 H4|r1 q p old H1 H2 H3| | | | | | | | ]; try discriminate Q.
      + cbn [app] in Q. apply pair_cons in Q as [Qa <-]. unfold got in Qa. injection Qa as ->.
        exists q, p, old, post'. split; [exact H1|]. split; [exact H2|]. split; [exact AR|]. left. exists ty, io.
        split; [exact H3|]. split; [exact H4|]. cbn [app]. rewrite <- app_assoc. reflexivity.
      + apply pair_cons in Q as [Qa <-]. unfold got in Qa. injection Qa as ->. exists q, p, old, post'.
        split; [exact H1|]. split; [exact H2|]. split; [exact AR|]. right. auto.
    - discriminate X.
    - right. split; [reflexivity|]. remember (got (C_Request q0) :: post) as t0 eqn:Q.
      destruct X as [o i H1 H2|m H|m c0 H1 H2|r1 H1 H2|r1 q ty p old x H1 H2 H3 H4 H5|c0 d p H1|c0 d p n x H1 H2 H3]; try discriminate Q;
        apply pair_cons in Q as [Qa Qb]; unfold got in Qa; try subst post; (split; [reflexivity|]).
      + injection Qa as ->. discriminate H.
      + injection Qa as ->. cbn in H1. injection H1 as <-. auto.
      + injection Qa as ->. auto.
      + injection Qa as ->. right. right. exists q, ty. rewrite H4. auto.
  Qed.
  Lemma success_caused pre p post : log = pre ++ put (C_Success p) :: post ->
    exists pre' q0 q ty old io, pre = pre' ++ got (C_Request q0) :: SE_Spawn (rq_recipient q0) p (spawns pre') ty (Ok io) :: dropped old /\
      session_request q0 q /\ starts q = Some ty /\ rq_want_reply q0 = true /\ chan_after pre' (rq_recipient q0) = Some (p, old) /\ at_rest post.
  Proof.
    intros E. destruct (sent_because h r log session_told _ _ _ E) as (pre' & s & t1 & c & t2 & post' & Q & -> & -> & Bc & AR).
    injection Q as <-. remember (C_Success p) as c eqn:Qc. destruct Bc as [ |q0 q ty p0 old io H1 H2 H3 H4| | | | | ]; try discriminate Qc.
    injection Qc as ->. exists pre', q0, q, ty, old, io. auto 10.
  Qed.
  Lemma failure_caused pre p post : log = pre ++ put (C_Failure p) :: post ->
    exists pre' q0 q old, pre = pre' ++ [got (C_Request q0)] /\
      session_request q0 q /\ refused q = true /\ rq_want_reply q0 = true /\ chan_after pre' (rq_recipient q0) = Some (p, old) /\ at_rest post.
  Proof.
    intros E. destruct (sent_because h r log session_told _ _ _ E) as (pre' & s & t1 & c & t2 & post' & Q & -> & -> & Bc & AR).
    injection Q as <-. remember (C_Failure p) as c eqn:Qc. destruct Bc as [ | |q0 q p0 old H1 H2 H3 H4| | | | ]; try discriminate Qc.
    injection Qc as ->. exists pre', q0, q, old. auto 10.
  Qed.

  (** ** Stdin *)
  Lemma turns_before n (base : list SEvent) : told h (Ok false) base -> n = spawns base -> forall c p, chan_after base c <> Some (p, Some n).
  Proof.
    intros T -> c p H. apply chan_child in H as (l1 & p' & ty & io & l2 & E & _). pose proof (spawn_number h _ _ T _ _ _ _ _ _ _ E) as N.
    rewrite E in N at 1. rewrite spawns_app in N. unfold spawns in N. cbn [filter is_spawn] in N. rewrite len_cons in N. lia.
  Qed.
  Lemma stdin_early pre post n : log = pre ++ post -> spawns pre <= n -> stdin_data n pre = [].
  Proof.
    intros E L. destruct (stdin_data n pre) as [|d ds] eqn:Q; [reflexivity|]. exfalso.
    assert (I : exists d x, In (SE_Stdin n d x) pre).
    { assert (I : In d (stdin_data n pre)) by (rewrite Q; left; reflexivity). apply in_flat_map in I as (e & Ie & H).
      destruct e as [ | | |n0 d0 x| | | ]; try destruct H. destruct (N.eqb_spec n0 n) as [->|]; [|destruct H]. eauto. }
    destruct I as (d0 & x & I). apply in_split in I as (a & b & ->). rewrite <- app_assoc in E. cbn [app] in E.
    destruct (stdin_cause h r log session_told _ _ _ _ _ E) as (pre' & c & p & -> & H & _). apply chan_child in H as (l1 & p' & ty & io & l2 & -> & _).
    rewrite <- !app_assoc in E. cbn [app] in E. pose proof (spawn_number h r log session_told _ _ _ _ _ _ _ E) as N.
    rewrite !spawns_app in L. unfold spawns in *. cbn [filter is_spawn] in L. rewrite len_cons in L. lia.
  Qed.
  Lemma stdin_exact pre c p n ty io post : log = pre ++ SE_Spawn c p n ty (Ok io) :: post ->
    stdin_data n pre = [] /\ stdin_data n post = if io_stdin io then data_until c post else [].
  Proof.
    intros E. pose proof (spawn_number h r log session_told _ _ _ _ _ _ _ E) as Nn. split.
    - eapply stdin_early; [exact E|]. rewrite Nn. lia.
    - destruct session_told as (ts & tail & El & Ts & En). rewrite El in E.
      assert (En' : ending h ([] ++ concat ts) tail) by (unfold ending; cbn [app]; destruct En as [->|[(_ & D)|(_ & X)]]; auto).
      destruct (turns_split h [] ts tail Ts pre _ post E) as [(ts1 & t1 & t2 & ts2 & -> & -> & -> & T1 & T2 & T3)|(t1 & -> & Q)].
      + cbn [app] in T2, T3, En'. rewrite concat_app in En'. cbn [concat] in En'. destruct (turn_shape h _ _ T2) as (s & t' & Q & S & _).
        destruct t1 as [|s0 t1]; cbn [app] in Q; apply pair_cons in Q as [Qa Qb]; [subst s; discriminate S|]. subst s0.
        pose proof T2 as T2'. apply turn_spawn in T2' as (r0 & q & old & io' & -> & -> & -> & Hn & Eio & H1 & H2 & H3 & H4 & ->).
        apply (f_equal (fun x => match x with Ok i => i | _ => io end)) in Eio. subst io'.
        set (t := [got (C_Request r0)] ++ SE_Spawn (rq_recipient r0) p n ty (Ok io) :: dropped old ++ wanted r0 (C_Success p)) in *.
        assert (FQ : Forall calm (dropped old ++ wanted r0 (C_Success p))) by (apply Forall_app; split; [apply calm_drop|apply calm_want; discriminate]).
        assert (Fresh : forall c p, chan_after (concat ts1) c <> Some (p, Some n)).
        { apply turns_before; [|exact Hn]. exists ts1, []. rewrite app_nil_r. auto. }
        assert (Lt : n < spawns (concat ts1 ++ t)).
        { rewrite spawns_app, Hn. unfold t. cbn [app]. unfold spawns at 3. cbn [filter is_spawn got]. rewrite len_cons. lia. }
        assert (Ch : forall c', chan_after (concat ts1 ++ t) c' =
          if rq_recipient r0 =? c' then Some (p, if io_stdin io then Some n else None) else chan_after (concat ts1) c').
        { intros c'. rewrite chan_after_app. unfold t. cbn [app fold_left chan_step got]. rewrite chan_calm by exact FQ.
          destruct (N.eqb_spec (rq_recipient r0) c') as [<-|D]; [|reflexivity]. rewrite H1. reflexivity. }
        rewrite stdin_data_app, data_until_calm by exact FQ. rewrite no_stdin_quiet. cbn [app].
        rewrite app_assoc in En'. destruct (io_stdin io) eqn:Si.
        * apply (data_active h n (rq_recipient r0) ts2 tail (concat ts1 ++ t)); [exact T3|exact En'|].
          split; [exact Lt|]. split.
          -- exists p. rewrite Ch, N.eqb_refl. reflexivity.
          -- intros c' p' H. rewrite Ch in H. destruct (N.eqb_spec (rq_recipient r0) c') as [->|D]; [reflexivity|]. destruct (Fresh _ _ H).
        * apply (data_inactive h n ts2 tail (concat ts1 ++ t)); [exact T3|exact En'|].
          split; [exact Lt|]. intros c' p' H. rewrite Ch in H. destruct (rq_recipient r0 =? c'); [discriminate H|]. destruct (Fresh _ _ H).
      + destruct En as [->|[(_ & d & ->)|(_ & X)]].
        * destruct t1; discriminate Q.
        * destruct t1 as [|y [|]]; cbn [app] in Q; [|discriminate Q|discriminate Q]. apply pair_cons in Q as [Q _]. discriminate Q.
        * destruct (crash_shape h _ _ X) as (s & t' & Q0 & S & _). rewrite Q0 in Q. destruct t1 as [|s0 t1]; cbn [app] in Q; apply pair_cons in Q as [Qa Qb].
          -- subst s. discriminate S.
          -- subst s0 t'. rewrite Q0 in X. apply crash_spawn in X as (r0 & q & old & _ & _ & _ & _ & _ & N & _). destruct (N io eq_refl).
  Qed.
  Lemma stdin_source pre n d x post : log = pre ++ SE_Stdin n d x :: post ->
    exists pre' c l1 p ty io l2, pre = pre' ++ [got (C_Data c d)] /\ pre' = l1 ++ SE_Spawn c p n ty (Ok io) :: l2 /\ io_stdin io = true /\
      ~ In (got (C_Close c)) l2 /\ ~ In (got (C_Eof c)) l2 /\ (forall p' n' ty' io', ~ In (SE_Spawn c p' n' ty' (Ok io')) l2).
  Proof.
    intros E. destruct (stdin_cause h r log session_told _ _ _ _ _ E) as (pre' & c & p & -> & H & _).
    apply chan_child in H as (l1 & p' & ty & io & l2 & -> & H1 & H2 & H3 & H4 & H5). exists (l1 ++ SE_Spawn c p' n ty (Ok io) :: l2), c, l1, p', ty, io, l2. auto 10.
  Qed.
  Lemma data_goes pre c d post : log = pre ++ got (C_Data c d) :: post ->
    (exists p n x post', chan_after pre c = Some (p, Some n) /\ post = SE_Stdin n d x :: post' /\ at_rest post' /\
       h_write h (pre ++ [got (C_Data c d)]) n d = x /\ ((exists j, x = Ok j) \/ r = Panic /\ post' = [])) \/
    (r = Panic /\ post = [] /\ forall p n, chan_after pre c <> Some (p, Some n)).
  Proof.
    intros E. destruct (stim_split h r log pre _ post session_told E eq_refl) as [(t & post' & -> & T & AR)|[(_ & _ & d0 & X)|(-> & X)]].
    - left. remember (got (C_Data c d) :: t) as t0 eqn:Q. destruct T as [ | | |c0 d0 p n j H1 H2| | | | | | | ]; try discriminate Q.
      apply pair_cons in Q as [Qa <-]. unfold got in Qa. injection Qa as -> ->. exists p, n, (Ok j), post'. cbn [app]. repeat (split; [auto; fail|]). left. eauto.
    - discriminate X.
    - remember (got (C_Data c d) :: post) as t0 eqn:Q.
      destruct X as [o i H1 H2|m H|m c0 H1 H2|r1 H1 H2|r1 q ty p old x H1 H2 H3 H4 H5|c0 d0 p H1|c0 d0 p n x H1 H2 H3]; try discriminate Q;
        apply pair_cons in Q as [Qa Qb]; unfold got in Qa; try discriminate Qa.
      + injection Qa as ->. discriminate H.
      + injection Qa as ->. cbn in H1. injection H1 as <-. right. split; [reflexivity|]. split; [auto|]. intros p n. congruence.
      + injection Qa as -> ->. right. split; [reflexivity|]. split; [auto|]. intros p' n. congruence.
      + injection Qa as -> ->. left. exists p, n, x, []. split; [exact H1|]. split; [auto|]. split; [exact I|]. split; [exact H2|]. right. auto.
  Qed.
  Lemma stdin_complete n pre c p ty io post : (forall l d, h_write h l n d = Ok (len d)) ->
    log = pre ++ SE_Spawn c p n ty (Ok io) :: post -> io_stdin io = true -> stdin_taken n post = concat (data_until c post).
  Proof.
    intros W E Si. destruct (stdin_exact _ _ _ _ _ _ _ E) as [_ S]. rewrite Si in S. rewrite <- S.
    assert (H : forall a b, log = a ++ b -> stdin_taken n b = concat (stdin_data n b)).
    { intros a b. revert a. induction b as [|e b IH]; intros a Q; [reflexivity|].
      specialize (IH (a ++ [e])). rewrite <- app_assoc in IH. specialize (IH Q).
      unfold stdin_taken, stdin_data in *. cbn [flat_map]. rewrite concat_app, IH. f_equal.
      destruct e as [ | | |n0 d x| | | ]; try reflexivity. destruct (N.eqb_spec n0 n) as [->|D]; [|destruct x; reflexivity].
      destruct (stdin_cause h r log session_told _ _ _ _ _ Q) as (pre' & c' & p' & _ & _ & Hw & _). rewrite W in Hw. subst x.
      cbn [concat]. rewrite app_nil_r. unfold ntake, len. rewrite Nat2N.id. apply firstn_all. }
    apply (H (pre ++ [SE_Spawn c p n ty (Ok io)])). rewrite <- app_assoc. exact E.
  Qed.
End Sessions.
