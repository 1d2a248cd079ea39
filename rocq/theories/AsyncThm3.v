(** C92-C94: messages, turns and being dropped. *)
From Coq Require Import Init.Byte.
From Verif Require Export AsyncThm2.
Open Scope res_scope.

Section Turns.
  Context (lim : N) (C : Crypto) (rng : N -> N -> bytes) (h : SHandlers).
  Notation sin st := (k_in (s_conn st)).
  Notation sout st := (k_out (s_conn st)).
  Notation eval := (eval lim).
  Notation visits := (visits lim).

  Lemma visits_last m r st s : len (sout st) <= lim ->
    (visits (co_send C rng m (Co_Ret r)) st s <-> exists n, s_cut C rng n m st = (Ok tt, s) /\ len (sout s) <= lim).
  Proof.
    intros L. rewrite visits_send. split.
    - intros [(n & E & H)|(w & c & buf & _ & _ & [])]. exists n. split; [exact E|]. destruct H as [->|H]; [|exact H].
      unfold s_cut in E. destruct (conn_send _ _ _ _ _) as [[k b]|e|] eqn:CS; try discriminate E. destruct (_ <? _); [|discriminate E].
      apply pair_eq in E as [_ <-]. cbn [s_set s_conn with_out k_out]. rewrite len_ntake. lia.
    - intros (n & E & H). left. exists n. auto.
  Qed.

  (** ** Eval of the code after a message *)
  Lemma ev_send m k kb st : len (sout st) <= lim -> (forall st1, len (sout st1) <= lim -> outcome (eval k st1) = kb tt st1) ->
    outcome (eval (co_send C rng m k) st) = bbind (s_send_b lim C rng m) kb st.
  Proof.
    intros L K. rewrite eval_send by exact L. unfold bbind. destruct (s_send_b lim C rng m st) as [[[]|e|] st1] eqn:E; try reflexivity.
    apply K. exact (send_b_out _ _ _ _ _ _ E).
  Qed.
  Lemma ev_do {X} (f : SM X) k kb st : sout (snd (f st)) = sout st -> len (sout st) <= lim ->
    (forall x st1, len (sout st1) <= lim -> outcome (eval (k x) st1) = kb x st1) ->
    outcome (eval (Co_Do f k) st) = bbind (on f) kb st.
  Proof.
    intros M L K. cbn [AsyncThm.eval]. unfold bbind, on. destruct (f st) as [[x|e|] st1]; cbn [map_err snd] in *; try reflexivity. apply K. rewrite M. exact L.
  Qed.
  Lemma ev_parse {F X} (r : res F X) k kb st : len (sout st) <= lim -> (forall x, outcome (eval (k x) st) = kb x st) ->
    outcome (eval (Co_Do (sret (unwrap r)) k) st) = bbind (bret (unwrap r)) kb st.
  Proof. intros L K. cbn [AsyncThm.eval]. unfold bbind, bret, sret. destruct r as [x|e|]; cbn [unwrap]; try reflexivity. apply K. Qed.
  Lemma new_io_none n io p st : io_stdout io || io_stderr io = false -> s_new_io n io p st = (Ok tt, st).
  Proof. intros E. apply orb_false_iff in E as [E1 E2]. unfold s_new_io. rewrite E1, E2. destruct st. reflexivity. Qed.

  Lemma eval_borrow c k st : eval (Co_Borrow c k) st = eval k st.
  Proof. reflexivity. Qed.

  Lemma eval_message m st : len (sout st) <= lim -> outcome (eval (co_message C rng h m) st) = on_message_b lim C rng h m st.
  Proof.
    intros L. destruct m as [| | | | | | | | | | |c]; try reflexivity. destruct c; try reflexivity; cbn [co_message on_message_b].
    - (* open *)
      rewrite eval_borrow. apply (ev_do _ _ (fun i => bbind (s_channel_b lim C rng _) (fun _ => bret (Ok false)))); [|exact L|].
      { unfold s_insert. destruct (arena_insert _ _); reflexivity. }
      intros i st1 L1. cbn [AsyncThm.eval]. apply ev_send; [exact L1|]. intros st2 _. reflexivity.
    - (* data *)
      cbn [AsyncThm.eval on_message]. unfold on, sbind. destruct (s_get recipient st) as [[ch|e|] st1]; cbn [map_err]; try reflexivity.
      destruct (ch_stdin ch); [|reflexivity]. cbn [AsyncThm.eval]. destruct (s_write h n data st1) as [[[]|e|] st2]; reflexivity.
    - (* eof *)
      cbn [AsyncThm.eval on_message]. unfold on, sbind. destruct (s_get recipient st) as [[ch|e|] st1]; cbn [map_err]; try reflexivity.
      destruct (s_put _ _ st1) as [[x|e|] st2]; cbn [map_err]; try reflexivity. destruct (s_drop _ st2) as [[x0|e|] st3]; reflexivity.
    - (* close *)
      cbn [AsyncThm.eval on_message]. unfold on, sbind. destruct (arena_remove (s_chans st) recipient) as [x a].
      destruct (s_drop _ (set_chans a st)) as [[x0|e|] st3]; reflexivity.
    - (* request *)
      rewrite eval_borrow. refine (ev_do _ _ (fun ch => _) st _ L _); [reflexivity|]. intros ch st1 L1. apply ev_parse; [exact L1|]. intros q.
      assert (R : forall answer st, len (sout st) <= lim ->
        outcome (eval (co_reply C rng r answer N_Again) st) = bbind (if rq_want_reply r then s_channel_b lim C rng answer else bret (Ok tt)) (fun _ => bret (Ok false)) st).
      { intros answer st2 L2. unfold co_reply. cbn [AsyncThm.eval]. destruct (rq_want_reply r); [|reflexivity]. apply ev_send; [exact L2|]. intros st3 _. reflexivity. }
      assert (S : forall ty, outcome (eval (co_spawn C rng h r ch ty) st1) = bbind (on_spawn_b lim C rng h r ch ty) (fun _ => bret (Ok false)) st1).
      { intros ty. unfold co_spawn, on_spawn_b. cbn [AsyncThm.eval]. unfold bbind at 1 2, on at 1.
        destruct (s_spawn h (rq_recipient r) ch ty st1) as [[[n io]|e|] st2] eqn:E; cbn [map_err]; try reflexivity.
        assert (L2 : len (sout st2) <= lim) by (apply (f_equal snd) in E; cbn [s_spawn snd] in E; subst st2; exact L1).
        cbn [AsyncThm.eval s_put]. unfold bbind at 1, on at 1. cbn [s_put map_err].
        set (st3 := set_chans _ st2). assert (L3 : len (sout st3) <= lim) by exact L2.
        unfold bbind at 1, on at 1. destruct (s_drop (ch_stdin ch) st3) as [r4 st4] eqn:D.
        assert (D' : r4 = Ok tt /\ len (sout st4) <= lim).
        { destruct (ch_stdin ch); cbn [s_drop] in D; apply pair_eq in D as [<- <-]; auto. }
        destruct D' as [-> L4]. cbn [map_err]. unfold co_reply. cbn [AsyncThm.eval].
        destruct (io_stdout io || io_stderr io) eqn:IO.
        - destruct (rq_want_reply r); [|reflexivity]. unfold co_channel. rewrite eval_send by exact L4. unfold bbind, s_channel_b.
          destruct (s_send_b lim C rng _ st4) as [[[]|e|] st5]; reflexivity.
        - destruct (rq_want_reply r).
          + unfold co_channel. rewrite eval_send by exact L4. unfold bbind, s_channel_b.
            destruct (s_send_b lim C rng _ st4) as [[[]|e|] st5]; try reflexivity. unfold on. rewrite new_io_none by exact IO. reflexivity.
          + unfold bbind, bret, on. rewrite new_io_none by exact IO. reflexivity. }
      destruct q; try reflexivity; try apply S; apply R, L1.
  Qed.

  Lemma recv_out st : sout (snd (s_recv C st)) = sout st.
  Proof. unfold s_recv, conn_recv. destruct (In_recv _ _ _ _) as [r [[c b] i]]. reflexivity. Qed.
  Lemma eval_loop st : len (sout st) <= lim ->
    fst (outcome (eval (co_loop C rng h) st)) = fst (on_packet_b lim C rng h st) /\
    ends_alike (fst (on_packet_b lim C rng h st)) (snd (outcome (eval (co_loop C rng h) st))) (snd (on_packet_b lim C rng h st)).
  Proof.
    intros L. unfold co_loop, on_packet_b. pose proof (recv_out st) as RO.
    match goal with |- context [co_recv C ?k] => pose proof (eval_recv lim C rng k st) as X end.
    assert (Y : (data <* on (s_recv C) ;; m <* bret (unwrap (Message_parse data)) ;; _ <* on (s_event (SE_Received m)) ;; on_message_b lim C rng h m) st =
      match s_recv C st with
      | (Ok data, st) => (m <* bret (unwrap (Message_parse data)) ;; _ <* on (s_event (SE_Received m)) ;; on_message_b lim C rng h m) st
      | (Err e, st) => (Err (RE_In e), st)
      | (Panic, st) => (Panic, st)
      end).
    { unfold bbind at 1, on at 1. destruct (s_recv C st) as [[p|e|] st1]; reflexivity. }
    rewrite Y. clear Y. destruct (s_recv C st) as [[p|e|] st1]; cbn [map_err snd] in *.
    - rewrite X.
      assert (Q : forall x y : res ReceiveError bool * SSt, x = y -> fst x = fst y /\ ends_alike (fst y) (snd x) (snd y)).
      { intros x y ->. split; [reflexivity|]. unfold ends_alike. destruct (fst y) as [b|[[]|]|]; try reflexivity. unfold same_but_buf. auto 10. }
      apply Q. apply ev_parse; [rewrite RO; exact L|]. intros m. refine (ev_do _ _ (fun _ => _) st1 _ _ _); [reflexivity|rewrite RO; exact L|].
      intros _ st2 L2. apply eval_message, L2.
    - destruct e; try (rewrite X; split; reflexivity). destruct X as (st2 & X & S). rewrite X. split; [reflexivity|]. exact S.
    - rewrite X. split; reflexivity.
  Qed.

  Lemma eval_branch e st : e <> Ev_Packet -> len (sout st) <= lim ->
    session_step_b lim C rng h e st = match co_branch C rng e st with Some co => Some (outcome (eval co st)) | None => None end.
  Proof.
    intros NP L. destruct e as [|err n data|n status]; [congruence| |]; cbn [session_step_b co_branch].
    - destruct (look n _) as [peer|]; [|reflexivity]. destruct (match data with Ok d => _ | _ => true end); [|reflexivity]. f_equal. symmetry.
      unfold co_output, on_output_b. apply ev_parse; [exact L|]. intros d. refine (ev_do _ _ (fun _ => _) st _ _ _); [reflexivity|exact L|]. intros _ st1 L1.
      destruct (0 <? len d).
      + apply ev_send; [exact L1|]. intros st2 _. reflexivity.
      + unfold bbind at 1 2.
        set (f := fun st0 : SSt => set_reads err (forget n (if err then s_stderr st0 else s_stdout st0)) st0).
        change (on (set_reads err (forget n (if err then s_stderr st1 else s_stdout st1))) st1) with (on f st1).
        destruct err.
        * reflexivity.
        * change (outcome (eval (Co_Do f (fun _ => co_channel C rng (C_Eof peer) (co_channel C rng (C_Close peer) (Co_Ret (Ok N_Again))))) st1) =
            match on f st1 with
            | (Ok _, st2) => match bbind (s_channel_b lim C rng (C_Eof peer)) (fun _ => s_channel_b lim C rng (C_Close peer)) st2 with
              | (Ok _, st3) => (Ok false, st3) | (Err e, st3) => (Err e, st3) | (Panic, st3) => (Panic, st3) end
            | (Err e, st2) => (Err e, st2) | (Panic, st2) => (Panic, st2) end).
          cbn [AsyncThm.eval]. unfold on. set (st2 := snd (f st1)). change (f st1) with (@Ok InError unit tt, st2). cbn [map_err].
          assert (L2 : len (sout st2) <= lim) by exact L1. unfold co_channel, s_channel_b.
          rewrite (ev_send _ _ (fun _ => bbind (s_send_b lim C rng (Msg_Channel (C_Close peer))) (fun _ => bret (Ok false)))).
          -- unfold bbind. destruct (s_send_b lim C rng (Msg_Channel (C_Eof peer)) st2) as [[[]|e|] st3]; reflexivity.
          -- exact L2.
          -- intros st3 L3. apply ev_send; [exact L3|]. intros st4 _. reflexivity.
    - destruct (look n (s_wait st)) as [peer|]; [|reflexivity]. destruct (is_u32 status); [|reflexivity]. f_equal. symmetry. unfold co_exit, on_exit_b.
      set (f := fun st0 : SSt => set_wait (forget n (s_wait st0)) st0).
      match goal with |- _ = bbind _ ?K st => change (bbind (on (set_wait (forget n (s_wait st)))) K st) with (bbind (on f) K st) end.
      refine (ev_do _ _ (fun _ => _) st _ _ _); [reflexivity|exact L|]. intros _ st1 L1.
      refine (ev_do _ _ (fun _ => _) st1 _ _ _); [reflexivity|exact L1|]. intros _ st2 L2. apply ev_parse; [exact L2|]. intros [ty data].
      apply ev_send; [exact L2|]. intros st3 _. reflexivity.
  Qed.

  (** ** Being dropped *)
  Lemma visits_message m st s : len (sout st) <= lim ->
    (visits (co_message C rng h m) st s <->
     (waits_for_handler (s_chans st) m = true /\ s = st) \/ (exists n, on_message_cut C rng h n m st = (Ok tt, s) /\ len (sout s) <= lim)).
  Proof.
    intros L.
    assert (NONE : forall P : Prop, (False <-> P) -> (False <-> (false = true /\ s = st) \/ P)).
    { intros P E. split; [intros []|]. intros [[X _]|X]; [discriminate X|apply E, X]. }
    assert (NO : False <-> exists n : N, @sret unit Panic st = (Ok tt, s) /\ len (sout s) <= lim).
    { split; [intros []|]. intros (n & E & _). discriminate E. }
    assert (NEVER : forall V : Prop, (V -> False) -> (V <-> (false = true /\ s = st) \/ exists n : N, @sret unit Panic st = (Ok tt, s) /\ len (sout s) <= lim)).
    { intros V E. split; [intros X; destruct (E X)|]. intros X. destruct (proj2 (NONE _ NO) X). }
    destruct m as [| | | | | | | | | | |c]; try (apply NONE, NO). destruct c; try (apply NONE, NO); cbn [co_message waits_for_handler on_message_cut].
    - (* open *)
      cbn [AsyncThm.visits]. unfold sbind. destruct (s_insert _ st) as [[i|e|] st1] eqn:E.
      + assert (L1 : len (sout st1) <= lim).
        { unfold s_insert in E. destruct (arena_insert _ _) as [q a]. apply pair_eq in E as [_ <-]. exact L. }
        cbn [AsyncThm.visits]. unfold co_channel. rewrite visits_last by exact L1. split; [intros X; right; exact X|]. intros [[X _]|X]; [discriminate X|exact X].
      + apply NONE. split; [intros []|]. intros (n & X & _). discriminate X.
      + apply NONE. split; [intros []|]. intros (n & X & _). discriminate X.
    - (* data *)
      cbn [AsyncThm.visits]. unfold s_get. destruct (arena_get (s_chans st) recipient) as [ch|]; [|apply NONE, NO].
      destruct (ch_stdin ch) as [n|]; [|apply NONE, NO]. cbn [AsyncThm.visits]. split.
      + intros [->|X]; [left; auto|]. destruct (s_write h n data st) as [[x|e|] st1]; destruct X.
      + intros [[_ ->]|(i & X & _)]; [left; reflexivity|discriminate X].
    - (* eof *)
      apply NEVER. cbn [AsyncThm.visits]. unfold s_get. destruct (arena_get (s_chans st) recipient) as [ch|]; [|intros []].
      cbn [AsyncThm.visits]. destruct (s_put _ _ st) as [[x|e|] st1]; try (intros []). destruct (s_drop _ st1) as [[x0|e|] st2]; intros [].
    - (* close *)
      apply NEVER. cbn [AsyncThm.visits]. destruct (arena_remove (s_chans st) recipient) as [x a].
      destruct (s_drop _ _) as [[x0|e|] st2]; intros [].
    - (* request *)
      cbn [AsyncThm.visits]. unfold sbind at 1. unfold s_get. destruct (arena_get (s_chans st) (rq_recipient r)) as [ch|].
      2:{ apply NONE. split; [intros []|]. intros (n & X & _). discriminate X. }
      unfold sret at 1. unfold sbind at 1, sret at 1.
      destruct (SessionRequest_parse (rq_ty r) (rq_data r)) as [q|e|]; cbn [unwrap].
      2,3: apply NONE; split; [intros []|]; intros (n & X & _); discriminate X.
      assert (R : forall answer st1, len (sout st1) <= lim -> visits (co_reply C rng r answer N_Again) st1 s <->
        exists n, (if rq_want_reply r then s_cut C rng n (Msg_Channel answer) else sret Panic) st1 = (Ok tt, s) /\ len (sout s) <= lim).
      { intros answer st1 L1. unfold co_reply. cbn [AsyncThm.visits]. destruct (rq_want_reply r).
        - apply visits_last, L1.
        - split; [intros []|]. intros (n & X & _). discriminate X. }
      assert (S : forall ty, visits (co_spawn C rng h r ch ty) st s <->
        (true = true /\ s = st) \/ exists n, on_spawn_cut C rng h n r ch ty st = (Ok tt, s) /\ len (sout s) <= lim).
      { intros ty. unfold co_spawn, on_spawn_cut. cbn [AsyncThm.visits]. unfold sbind at 1.
        destruct (s_spawn h (rq_recipient r) ch ty st) as [[[i io]|e|] st2] eqn:E.
        - assert (L2 : len (sout st2) <= lim) by (apply (f_equal snd) in E; cbn [s_spawn snd] in E; subst st2; exact L).
          cbn [AsyncThm.visits s_put]. unfold sbind at 1. cbn [s_put]. set (st3 := set_chans _ st2). assert (L3 : len (sout st3) <= lim) by exact L2.
          unfold sbind at 1. destruct (s_drop (ch_stdin ch) st3) as [r4 st4] eqn:D.
          assert (D' : r4 = Ok tt /\ len (sout st4) <= lim).
          { destruct (ch_stdin ch); cbn [s_drop] in D; apply pair_eq in D as [<- <-]; auto. }
          destruct D' as [-> L4].
          assert (V : visits (co_reply C rng r (C_Success (ch_peer ch)) (if io_stdout io || io_stderr io then N_Io i io (ch_peer ch) else N_Again)) st4 s <->
            exists n, (if rq_want_reply r then s_cut C rng n (Msg_Channel (C_Success (ch_peer ch))) else sret Panic) st4 = (Ok tt, s) /\ len (sout s) <= lim).
          { unfold co_reply. cbn [AsyncThm.visits]. destruct (rq_want_reply r).
            - apply visits_last, L4.
            - split; [intros []|]. intros (n & X & _). discriminate X. }
          rewrite V. split; [intros [->|X]; auto|]. intros [[_ ->]|X]; auto.
        - split; [intros [->|[]]; auto|]. intros [[_ ->]|(n & X & _)]; [auto|discriminate X].
        - split; [intros [->|[]]; auto|]. intros [[_ ->]|(n & X & _)]; [auto|discriminate X]. }
      assert (W : forall V P : Prop, (V <-> P) -> (V <-> (false = true /\ s = st) \/ P)).
      { intros V P E. rewrite E. split; [auto|]. intros [[X _]|X]; [discriminate X|exact X]. }
      destruct q; try apply S; try (apply W, R, L); apply NONE, NO.
  Qed.

  (** While it waits, [receive] can be dropped as [Cancel] says, and nowhere else. *)
  Lemma visits_loop st s : len (sout st) <= lim -> (visits (co_loop C rng h) st s <-> exists c, cut_step_b lim C rng h c st = Some s).
  Proof.
    intros L. unfold co_loop. rewrite (visits_recv lim C rng). cbn [AsyncThm.visits].
    assert (MSG : (exists p st1, s_recv C st = (Ok p, st1) /\
        match sret (unwrap (Message_parse p)) st1 with
        | (Ok m, st2) => match s_event (SE_Received m) st2 with (Ok _, st3) => visits (co_message C rng h m) st3 s | _ => False end
        | _ => False end) <->
      exists m st3, s_message C st = (Ok m, st3) /\ visits (co_message C rng h m) st3 s).
    { unfold s_message, sbind, sret. split.
      - intros (p & st1 & E & V). rewrite E. destruct (unwrap (Message_parse p)) as [m|e|]; [|destruct V..]. exists m. eexists. split; [reflexivity|exact V].
      - intros (m & st3 & E & V). destruct (s_recv C st) as [[p|e|] st1]; try discriminate E. exists p, st1. split; [reflexivity|].
        destruct (unwrap (Message_parse p)) as [m'|e|]; try discriminate E. cbn [s_event] in *. apply pair_eq in E as [E <-]. apply Ok_inj in E. subst m'. exact V. }
    rewrite MSG. clear MSG.
    assert (LM : forall m st3, s_message C st = (Ok m, st3) -> len (sout st3) <= lim).
    { intros m st3 E. destruct (sm_message C st) as [X _]. rewrite E in X. cbn [snd] in X. rewrite X. exact L. }
    unfold cut_step_b. split.
    - intros [(n & E)|(m & st3 & E & V)].
      + exists (Cut_Read n). cbn [cut_step]. rewrite E. apply (cut_read_iff C rng) in E as (_ & _ & -> & _). change (sout (took 0 n st)) with (sout st).
        replace (len (sout st) <=? lim) with true by lia. reflexivity.
      + pose proof (LM _ _ E) as L3. apply visits_message in V; [|exact L3]. destruct V as [[W ->]|(n & E2 & L4)].
        * exists Cut_Handler. cbn [cut_step]. unfold cut_handler. rewrite E, W. replace (len (sout st3) <=? lim) with true by lia. reflexivity.
        * exists (Cut_Reply n). cbn [cut_step]. unfold cut_reply, sbind. rewrite E, E2. replace (len (sout s) <=? lim) with true by lia. reflexivity.
    - intros (c & E). destruct (cut_step C rng h c st) as [s0|] eqn:E0; [|discriminate E]. destruct (N.leb_spec (len (sout s0)) lim) as [L0|]; [|discriminate E].
      apply Some_inj in E. subst s0. destruct c as [n| |n]; cbn [cut_step] in E0.
      + left. exists n. exact E0.
      + right. unfold cut_handler in E0. destruct (s_message C st) as [[m|e|] st3] eqn:E; try discriminate E0. exists m, st3. split; [reflexivity|].
        destruct (waits_for_handler (s_chans st3) m) eqn:W; [|discriminate E0]. apply Some_inj in E0. subst s. apply visits_message; [exact (LM _ _ eq_refl)|]. left. auto.
      + right. unfold cut_reply, sbind in E0. destruct (s_message C st) as [[m|e|] st3] eqn:E; try discriminate E0. exists m, st3. split; [reflexivity|].
        destruct (on_message_cut C rng h n m st3) as [[[]|e|] s0] eqn:E2; try discriminate E0. apply Some_inj in E0. subst s0.
        apply visits_message; [exact (LM _ _ eq_refl)|]. right. exists n. auto.
  Qed.
End Turns.
