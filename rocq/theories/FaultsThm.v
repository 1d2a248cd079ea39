(** Breaking and cancellation together: sessions. *)
From Coq Require Import Init.Byte Strings.Byte.
From Verif Require Export BrokenThm3 CancelThm8 SpecFaults.
Open Scope res_scope.

Section Session.
  Context (lim : N) (C : Crypto) (rng : N -> N -> bytes) (h : SHandlers).
  Notation sout st := (k_out (s_conn st)).

  (** ** Being cut adds to what was written and logged *)
  Lemma mute_grows {A} (m : SM A) : s_mute m -> s_grows m.
  Proof. intros F st. destruct (F st) as [E1 E2]. split; [exists []; rewrite app_nil_r|]; auto. Qed.
  Lemma gr_bind {A D} (m : SM A) (k : A -> SM D) : s_grows m -> (forall a, s_grows (k a)) -> s_grows (sbind m k).
  Proof.
    intros G F st. specialize (G st). unfold sbind. destruct (m st) as [[a|e|] st1]; cbn [snd] in *; auto.
    eapply s_ext_trans; [exact G|]. apply F.
  Qed.
  Lemma gr_ret {A} (r : res InError A) : s_grows (sret r).
  Proof. intros st. apply s_ext_refl. Qed.
  Lemma gr_cut n m : s_grows (s_cut C rng n m).
  Proof.
    intros st. unfold s_cut. pose proof (conn_send_breaks lim C rng m (s_buf st) (s_conn st)) as X.
    destruct (conn_send C rng m (s_buf st) (s_conn st)) as [[k b]|e|]; [|apply s_ext_refl..]. destruct X as [(w & X) _].
    destruct (len (sout st) + n <? len (k_out k)); [|apply s_ext_refl]. cbn [snd s_set s_conn s_log with_out k_out]. split.
    - cbn [s_set s_conn with_out k_out]. rewrite X. exists (ntake n w). unfold ntake, len. rewrite firstn_app. 
      rewrite firstn_all2 by lia. f_equal. f_equal. lia.
    - exists []. rewrite app_nil_r. reflexivity.
  Qed.
  Lemma sm_message : s_mute (s_message C).
  Proof.
    unfold s_message. apply sm_bind; [apply sm_recv|]. intros data. apply sm_bind; [apply sm_ret|]. intros m. apply sm_bind; [apply sm_event|].
    intros _. apply sm_ret.
  Qed.
  Lemma gr_message_cut n m : s_grows (on_message_cut C rng h n m).
  Proof.
    destruct m as [| | | | | | | | | | |c]; try apply gr_ret. destruct c; cbn [on_message_cut]; try apply gr_ret.
    - apply gr_bind; [apply mute_grows, sm_insert|]. intros i. apply gr_cut.
    - apply gr_bind; [apply mute_grows, sm_get|]. intros ch. apply gr_bind; [apply gr_ret|]. intros q.
      assert (S : forall ty, s_grows (on_spawn_cut C rng h n r ch ty)).
      { intros ty. unfold on_spawn_cut. apply gr_bind; [apply mute_grows, sm_spawn|]. intros [i io].
        apply gr_bind; [apply mute_grows, sm_put|]. intros _. apply gr_bind; [apply mute_grows, sm_drop|]. intros _.
        destruct (rq_want_reply r); [apply gr_cut|apply gr_ret]. }
      destruct q; try apply gr_ret; try apply S; (destruct (rq_want_reply r); [apply gr_cut|apply gr_ret]).
  Qed.
  Lemma cut_grows c st st1 : cut_step C rng h c st = Some st1 -> s_ext st st1.
  Proof.
    destruct c as [n| |n]; cbn [cut_step].
    - unfold cut_read. destruct (n <=? len (k_in (s_conn st))); [|discriminate].
      destruct (fst _) as [x|[]|]; try discriminate. intros E. apply Some_inj in E. subst st1. split; exists []; rewrite app_nil_r; reflexivity.
    - unfold cut_handler. pose proof (mute_grows _ sm_message st) as G. destruct (s_message C st) as [[m|e|] st2]; try discriminate.
      destruct (waits_for_handler (s_chans st2) m); [|discriminate]. intros E. apply Some_inj in E. subst st1. exact G.
    - unfold cut_reply. pose proof (gr_bind _ _ (mute_grows _ sm_message) (gr_message_cut n) st) as G.
      destruct (sbind (s_message C) (on_message_cut C rng h n) st) as [[m|e|] st2]; try discriminate. intros E. apply Some_inj in E. subst st1. exact G.
  Qed.

  (** ** A reply that is cut beyond what the transport takes is one that breaks *)
  Definition breaks {A} (mc : SM unit) (mb : BM A) : Prop := forall st st1, mc st = (Ok tt, st1) -> lim < len (sout st1) ->
    exists st2, mb st = (Err RE_Out, st2) /\ sout st2 = ntake lim (sout st1) /\ s_log st2 = s_log st1.
  Lemma bk_bind {X A} (m : SM X) k (kb : X -> BM A) : (forall x, breaks (k x) (kb x)) -> breaks (sbind m k) (bbind (on m) kb).
  Proof.
    intros F st st1 E L. unfold sbind in E. unfold bbind, on. destruct (m st) as [[x|e|] st0]; cbn [map_err]; try discriminate E. exact (F x _ _ E L).
  Qed.
  Lemma bk_parse {F X A} (r : res F X) k (kb : X -> BM A) : (forall x, breaks (k x) (kb x)) -> breaks (sbind (sret (unwrap r)) k) (bbind (bret (unwrap r)) kb).
  Proof.
    intros B st st1 E L. unfold sbind, sret in E. unfold bbind, bret. destruct r as [x|e|]; cbn [unwrap] in *; try discriminate E. exact (B x _ _ E L).
  Qed.
  Lemma bk_then {A D} mc (mb : BM A) (kb : A -> BM D) : breaks mc mb -> breaks mc (bbind mb kb).
  Proof. intros B st st1 E L. destruct (B st st1 E L) as (st2 & E2 & X). exists st2. unfold bbind. rewrite E2. auto. Qed.
  Lemma bk_none {A} (mb : BM A) : breaks (sret Panic) mb.
  Proof. intros st st1 E. apply pair_eq in E as [E _]. discriminate E. Qed.
  Lemma ntake_ntake a b (x : bytes) : a <= b -> ntake a (ntake b x) = ntake a x.
  Proof. intros L. unfold ntake. rewrite firstn_firstn. f_equal. lia. Qed.
  Lemma bk_cut n m : breaks (s_cut C rng n m) (s_send_b lim C rng m).
  Proof.
    intros st st1 E L. unfold s_cut in E. unfold s_send_b. pose proof (conn_send_breaks lim C rng m (s_buf st) (s_conn st)) as X.
    destruct (conn_send C rng m (s_buf st) (s_conn st)) as [[k b]|e|]; [|discriminate E..]. destruct X as [(w & W) X].
    destruct (len (sout st) + n <? len (k_out k)) eqn:LT; [|discriminate E]. apply pair_eq in E as [_ <-]. cbn [s_set s_conn s_log with_out k_out] in *.
    apply N.ltb_lt in LT. rewrite len_ntake in L. destruct X as [[X _]|(X & k2 & -> & E2)]; [lia|].
    eexists. split; [reflexivity|]. cbn [s_conn s_log]. rewrite app_nil_r. split; [|reflexivity]. rewrite E2, ntake_ntake by lia. reflexivity.
  Qed.
  Lemma bk_message n m : breaks (on_message_cut C rng h n m) (on_message_b lim C rng h m).
  Proof.
    destruct m as [| | | | | | | | | | |c]; try apply bk_none. destruct c; cbn [on_message_cut on_message_b]; try apply bk_none.
    - apply bk_bind. intros i. apply bk_then, bk_cut.
    - apply bk_bind. intros ch. apply bk_parse. intros q. apply bk_then.
      assert (S : forall ty, breaks (on_spawn_cut C rng h n r ch ty) (on_spawn_b lim C rng h r ch ty)).
      { intros ty. unfold on_spawn_cut, on_spawn_b. apply bk_bind. intros [i io].
        apply bk_bind. intros _. apply bk_bind. intros _.
        destruct (rq_want_reply r); [apply bk_then, bk_cut|apply bk_none]. }
      destruct q; try apply bk_none; try apply S; unfold on_refused_b; (destruct (rq_want_reply r); [apply bk_cut|apply bk_none]).
  Qed.
  Lemma cut_breaks c st st1 : cut_step C rng h c st = Some st1 -> len (sout st) <= lim < len (sout st1) ->
    (exists n, c = Cut_Reply n) /\
    exists st2, session_step_b lim C rng h Ev_Packet st = Some (Err RE_Out, st2) /\ sout st2 = ntake lim (sout st1) /\ s_log st2 = s_log st1.
  Proof.
    destruct c as [n| |n]; cbn [cut_step]; intros E L.
    - exfalso. unfold cut_read in E. destruct (n <=? len (k_in (s_conn st))); [|discriminate].
      destruct (fst _) as [x|[]|]; try discriminate. apply Some_inj in E. subst st1. cbn [s_set s_conn with_in k_out] in L. lia.
    - exfalso. unfold cut_handler in E. destruct (sm_message st) as [G _]. destruct (s_message C st) as [[m|e|] st2]; try discriminate.
      destruct (waits_for_handler (s_chans st2) m); [|discriminate]. apply Some_inj in E. subst st1. cbn [snd] in G. rewrite G in L. lia.
    - split; [eauto|]. unfold cut_reply in E.
      destruct (sbind (s_message C) (on_message_cut C rng h n) st) as [[m|e|] st2] eqn:E2; try discriminate. apply Some_inj in E. subst st2.
      assert (Q : sbind (s_message C) (on_message_cut C rng h n) st =
        sbind (s_recv C) (fun data => sbind (sret (unwrap (Message_parse data))) (fun m => sbind (s_event (SE_Received m)) (fun _ => on_message_cut C rng h n m))) st).
      { unfold s_message, sbind, sret. destruct (s_recv C st) as [[d|e|] s0]; try reflexivity. destruct (unwrap (Message_parse d)) as [m0|e|]; try reflexivity. }
      rewrite Q in E2. destruct m.
      assert (B : breaks (sbind (s_recv C) (fun data => sbind (sret (unwrap (Message_parse data))) (fun m => sbind (s_event (SE_Received m)) (fun _ => on_message_cut C rng h n m))))
                         (on_packet_b lim C rng h)).
      { apply bk_bind. intros d. apply bk_parse. intros m. apply bk_bind. intros _. apply bk_message. }
      destruct (B _ _ E2) as (st2 & E3 & X); [apply L|]. exists st2. cbn [session_step_b]. rewrite E3. auto.
  Qed.

  (** ** Sessions *)
  Lemma cut_run_grows es : forall st r st1, cut_run C rng h es st = Some (r, st1) -> s_ext st st1.
  Proof.
    induction es as [|[e|c] es IH]; intros st r st1 E; cbn [cut_run] in E.
    - apply Some_inj, pair_eq in E as [_ <-]. apply s_ext_refl.
    - pose proof (step_breaks lim C rng h e st) as X. destruct (session_step C rng h e st) as [[r0 st0]|]; [|discriminate E]. destruct X as [G _].
      destruct r0 as [[|]|x|]; [|exact (s_ext_trans _ _ _ G (IH _ _ _ E))|..]; apply Some_inj, pair_eq in E as [_ <-]; exact G.
    - destruct (elsewhere es); [|discriminate E]. destruct (cut_step C rng h c st) as [st0|] eqn:X; [|discriminate E].
      eapply s_ext_trans; [exact (cut_grows _ _ _ X)|exact (IH _ _ _ E)].
  Qed.
  (** A turn. *)
  Lemma turn_run t ts st : cut_run C rng h (schedule (t :: ts)) st =
    match cut_run C rng h (schedule [t]) st with Some (Ok false, st1) => cut_run C rng h (schedule ts) st1 | x => x end.
  Proof.
    destruct t as [[c|] e]; cbn [schedule flat_map app cut_run elsewhere].
    - destruct e; [reflexivity|..]; (destruct (cut_step C rng h c st) as [st0|]; [|reflexivity]; cbn [cut_run];
        match goal with |- context [session_step C rng h ?e st0] => destruct (session_step C rng h e st0) as [[[[|]|x|] st1]|]; reflexivity end).
    - destruct (session_step C rng h e st) as [[[[|]|x|] st1]|]; reflexivity.
  Qed.
  Lemma turn_plain c e st : e <> Ev_Packet -> cut_run C rng h (schedule [(Some c, e)]) st =
    match cut_step C rng h c st with Some st0 => session_step C rng h e st0 | None => None end.
  Proof.
    intros D. cbn [schedule flat_map app cut_run elsewhere]. destruct e; [congruence|..]; (destruct (cut_step C rng h c st) as [st0|]; [|reflexivity];
      match goal with |- context [session_step C rng h ?e st0] => destruct (session_step C rng h e st0) as [[[[|]|x|] st1]|]; reflexivity end).
  Qed.
  Lemma turn_plain_none e st : cut_run C rng h (schedule [(None, e)]) st = session_step C rng h e st.
  Proof. cbn [schedule flat_map app cut_run]. destruct (session_step C rng h e st) as [[[[|]|x|] st1]|]; reflexivity. Qed.
  Lemma packet_dec e : {e = Ev_Packet} + {e <> Ev_Packet}.
  Proof. destruct e; [left; reflexivity|right; discriminate..]. Qed.
  Lemma fault_some c e st : e <> Ev_Packet -> fault_step lim C rng h (Some c, e) st =
    match cut_step_b lim C rng h c st with Some st0 => session_step_b lim C rng h e st0 | None => None end.
  Proof. intros D. destruct e; [congruence|reflexivity..]. Qed.
  (** [Some r] is what the turn comes to: nothing new unless it breaks. *)
  Lemma fault_turn t st : len (sout st) <= lim ->
    match fault_step lim C rng h t st with
    | Some (rb, st') => exists r st1, cut_run C rng h (schedule [t]) st = Some (r, st1) /\
        ((len (sout st1) <= lim /\ rb = map_err RE_In r /\ st' = st1) \/ (rb = Err RE_Out /\ s_broke lim st1 st'))
    | None => forall r st1, cut_run C rng h (schedule [t]) st = Some (r, st1) ->
        exists c e st0, t = (Some c, e) /\ cut_step C rng h c st = Some st0 /\ lim < len (sout st0)
    end.
  Proof.
    intros L. destruct t as [[c|] e].
    - destruct (packet_dec e) as [->|D]; [cbn [fault_step]; intros r st1 E; discriminate E|].
      rewrite fault_some by exact D. unfold cut_step_b. rewrite (turn_plain c e st D). destruct (cut_step C rng h c st) as [st0|] eqn:X; [|discriminate].
      destruct (N.leb_spec (len (sout st0)) lim) as [L0|L0].
      + pose proof (step_breaks lim C rng h e st0) as Y. destruct (session_step C rng h e st0) as [[r0 st1]|]; [|rewrite Y; discriminate].
        destruct Y as [G Y]. destruct (Y L0) as [[L1 ->]|(st2 & -> & B)]; exists r0, st1; auto.
      + intros r st1 _. exists c, e, st0. auto.
    - cbn [fault_step]. rewrite turn_plain_none. pose proof (step_breaks lim C rng h e st) as Y. destruct (session_step C rng h e st) as [[r0 st1]|]; [|rewrite Y; discriminate].
      destruct Y as [G Y]. destruct (Y L) as [[L1 ->]|(st2 & -> & B)]; exists r0, st1; auto.
  Qed.
  Lemma fault_is_cut ts : forall st rb st', fault_run lim C rng h ts st = Some (rb, st') -> len (sout st) <= lim ->
    exists ts1 ts2 r st1, ts = ts1 ++ ts2 /\ cut_run C rng h (schedule ts1) st = Some (r, st1) /\
      ((ts2 = [] /\ len (sout st1) <= lim /\ rb = map_err RE_In r /\ st' = st1) \/ (rb = Err RE_Out /\ s_broke lim st1 st')).
  Proof.
    induction ts as [|t ts IH]; intros st rb st' E L; cbn [fault_run] in E.
    - apply Some_inj, pair_eq in E as [<- <-]. exists [], [], (Ok false), st. split; [reflexivity|]. split; [reflexivity|]. left. auto.
    - pose proof (fault_turn t st L) as X. destruct (fault_step lim C rng h t st) as [[r0 st0]|]; [|discriminate E].
      destruct X as (r1 & st1 & T & [(L1 & -> & ->)|(-> & B)]).
      + destruct r1 as [[|]|x|]; cbn [map_err] in E.
        2: { destruct (IH _ _ _ E L1) as (ts1 & ts2 & r & st2 & -> & R & Y). exists (t :: ts1), ts2, r, st2. split; [reflexivity|].
             rewrite turn_run, T. auto. }
        all: apply Some_inj, pair_eq in E as [<- <-].
        all: exists (t :: ts), []; rewrite app_nil_r; rewrite turn_run, T; eexists; eexists; (split; [reflexivity|]); (split; [reflexivity|]); left; auto.
      + apply Some_inj, pair_eq in E as [<- <-]. exists [t], ts, r1, st1. split; [reflexivity|]. split; [exact T|]. right. auto.
  Qed.
  (** The other way round: turn [t] is the one that breaks, or it is the reply
      that [t] drops. *)
  Lemma cut_is_fault ts : forall st r st1, cut_run C rng h (schedule ts) st = Some (r, st1) -> len (sout st) <= lim ->
    (len (sout st1) <= lim /\ fault_run lim C rng h ts st = Some (map_err RE_In r, st1)) \/
    exists ts1 t t' ts2 st2, ts = ts1 ++ t :: ts2 /\ fault_run lim C rng h (ts1 ++ [t']) st = Some (Err RE_Out, st2) /\
      (t' = t \/ exists n e, t = (Some (Cut_Reply n), e) /\ t' = (None, Ev_Packet)) /\
      lim < len (sout st1) /\ sout st2 = ntake lim (sout st1) /\ begins (s_log st2) (s_log st1).
  Proof.
    induction ts as [|t ts IH]; intros st r st1 E L.
    - cbn [schedule flat_map cut_run] in E. apply Some_inj, pair_eq in E as [<- <-]. left. auto.
    - pose proof (cut_run_grows _ _ _ _ E) as G. rewrite turn_run in E. cbn [fault_run].
      assert (HB : forall t' st0 st2, fault_step lim C rng h t' st = Some (Err RE_Out, st2) -> s_ext st0 st1 -> lim < len (sout st0) -> sout st2 = ntake lim (sout st0) ->
                begins (s_log st2) (s_log st0) -> (t' = t \/ exists n e, t = (Some (Cut_Reply n), e) /\ t' = (None, Ev_Packet)) ->
        exists ts1 t0 t' ts2 st2, t :: ts = ts1 ++ t0 :: ts2 /\ fault_run lim C rng h (ts1 ++ [t']) st = Some (Err RE_Out, st2) /\
          (t' = t0 \/ exists n e, t0 = (Some (Cut_Reply n), e) /\ t' = (None, Ev_Packet)) /\
          lim < len (sout st1) /\ sout st2 = ntake lim (sout st1) /\ begins (s_log st2) (s_log st1)).
      { intros t' st0 st2 F [(w & A1) (t1 & A2)] B1 B2 (t2 & B3) B4. exists [], t, t', ts, st2. split; [reflexivity|]. split; [cbn [app fault_run]; rewrite F; reflexivity|].
        split; [exact B4|]. rewrite A1, A2, B3, B2, ntake_more by exact B1. split; [lens; lia|]. split; [reflexivity|]. exists (t2 ++ t1). rewrite <- app_assoc. reflexivity. }
      destruct (cut_run C rng h (schedule [t]) st) as [[r0 st0]|] eqn:T; [|discriminate E].
      assert (G0 : s_ext st0 st1).
      { destruct r0 as [[|]|x|]; [|exact (cut_run_grows _ _ _ _ E)|..]; apply Some_inj, pair_eq in E as [_ <-]; apply s_ext_refl. }
      pose proof (fault_turn t st L) as X. destruct (fault_step lim C rng h t st) as [[rb st']|] eqn:F.
      + destruct X as (r1 & st2 & T' & X). rewrite T in T'. apply Some_inj, pair_eq in T' as [<- <-]. destruct X as [(L1 & -> & ->)|(-> & B1 & B2 & m & t1 & B3)].
        * destruct r0 as [[|]|x|]; cbn [map_err].
          2: { destruct (IH _ _ _ E L1) as [Y|(ts1 & t0 & t' & ts2 & st2 & -> & Y & Z)]; [left; exact Y|right].
               exists (t :: ts1), t0, t', ts2, st2. split; [reflexivity|]. cbn [app fault_run]. rewrite F. cbn [map_err]. auto. }
          all: apply Some_inj, pair_eq in E as [<- <-]; left; auto.
        * right. eapply HB; [exact F|exact G0|exact B1|exact B2|eexists; exact B3|left; reflexivity].
      + destruct (X _ _ T) as (c & e & st2 & -> & CS & L2). right.
        destruct (cut_breaks c st st2 CS) as ((n & ->) & st3 & P1 & P2 & P3); [split; assumption|].
        eapply (HB (None, Ev_Packet)); [exact P1| |exact L2|exact P2|exists []; rewrite P3, app_nil_r; reflexivity|right; eauto].
        destruct (packet_dec e) as [->|D]; [discriminate T|]. rewrite (turn_plain _ _ _ D), CS in T.
        pose proof (step_breaks lim C rng h e st2) as Y. rewrite T in Y. eapply s_ext_trans; [apply Y|exact G0].
  Qed.
  Lemma fault_panics_no_more ts st st' : fault_run lim C rng h ts st = Some (Panic, st') -> len (sout st) <= lim ->
    cut_run C rng h (schedule ts) st = Some (Panic, st').
  Proof.
    intros E L. destruct (fault_is_cut ts st _ _ E L) as (es1 & es2 & r & st1 & -> & R & [(-> & _ & Q & ->)|(Q & _)]); [|discriminate Q].
    rewrite app_nil_r. destruct r; [discriminate Q|discriminate Q|]. exact R.
  Qed.
End Session.
