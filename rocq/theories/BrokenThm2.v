(** A transport that breaks: sessions and the server. *)
From Coq Require Import Init.Byte Strings.Byte.
From Verif Require Export BrokenThm.
Open Scope res_scope.

Section SessionSim.
  Context (lim : N) (C : Crypto) (rng : N -> N -> bytes) (h : SHandlers).
  Notation sout st := (k_out (s_conn st)).
  Definition s_ext (st st1 : SSt) : Prop := (exists w, sout st1 = sout st ++ w) /\ exists t, s_log st1 = s_log st ++ t.
  Lemma s_ext_refl st : s_ext st st.
  Proof. split; exists []; rewrite app_nil_r; reflexivity. Qed.
  Lemma s_ext_trans a b c : s_ext a b -> s_ext b c -> s_ext a c.
  Proof. intros [(w1 & A1) (t1 & A2)] [(w2 & B1) (t2 & B2)]. split; [exists (w1 ++ w2)|exists (t1 ++ t2)]; rewrite app_assoc; congruence. Qed.
  Lemma s_broke_ext st st1 st2 : s_broke lim st st2 -> s_ext st st1 -> s_broke lim st1 st2.
  Proof.
    intros (L & O & m & t & E) [(w & A1) (t1 & A2)]. unfold s_broke. rewrite A1, A2, O, E, ntake_more by exact L.
    split; [lens; lia|]. split; [reflexivity|]. exists m, (t ++ t1). rewrite <- app_assoc. reflexivity.
  Qed.
  Definition as_b {A} (x : res InError A * SSt) : res ReceiveError A * SSt := (map_err RE_In (fst x), snd x).
  Definition s_grows {A} (m : SM A) : Prop := forall st, s_ext st (snd (m st)).
  Definition s_sim {A} (m : SM A) (mb : BM A) : Prop := s_grows m /\ forall st, len (sout st) <= lim ->
    (len (sout (snd (m st))) <= lim /\ mb st = as_b (m st)) \/ (exists st2, mb st = (Err RE_Out, st2) /\ s_broke lim (snd (m st)) st2).
  Lemma ss_bind {A D} (m : SM A) mb (k : A -> SM D) (kb : A -> BM D) : s_sim m mb -> (forall a, s_sim (k a) (kb a)) -> s_sim (sbind m k) (bbind mb kb).
  Proof.
    intros [G S] F. split.
    - intros st. specialize (G st). unfold sbind. destruct (m st) as [[a|e|] st1]; cbn [snd] in *; auto.
      eapply s_ext_trans; [exact G|]. apply (proj1 (F a)).
    - intros st L. specialize (S st L). unfold sbind, bbind. destruct (m st) as [r st1]. cbn [snd] in S. destruct S as [[L1 ->]|(st2 & -> & B)].
      + unfold as_b. cbn [fst snd]. destruct r as [a|e|]; cbn [map_err]; [|left; auto..]. exact (proj2 (F a) st1 L1).
      + right. exists st2. split; [reflexivity|]. destruct r as [a|e|]; [|exact B..]. eapply s_broke_ext; [exact B|]. apply (proj1 (F a)).
  Qed.
  Definition s_mute {A} (m : SM A) : Prop := forall st, sout (snd (m st)) = sout st /\ exists t, s_log (snd (m st)) = s_log st ++ t.
  Lemma ss_on {A} (m : SM A) : s_mute m -> s_sim m (on m).
  Proof.
    intros F. split.
    - intros st. destruct (F st) as [E1 E2]. split; [exists []; rewrite app_nil_r|]; auto.
    - intros st L. left. rewrite (proj1 (F st)). split; [exact L|]. unfold on, as_b. destruct (m st). reflexivity.
  Qed.
  Lemma ss_ret {A} (r : res InError A) (rb : res ReceiveError A) : rb = map_err RE_In r -> s_sim (sret r) (bret rb).
  Proof. intros ->. split; [intros st; apply s_ext_refl|]. intros st L. left. auto. Qed.
  Lemma unwrap_any {E A} (x : res E A) : unwrap (F:=ReceiveError) x = map_err RE_In (unwrap x).
  Proof. destruct x; reflexivity. Qed.

  (** Code that writes nothing. *)
  Lemma sm_same {A} (m : SM A) : (forall st, sout (snd (m st)) = sout st /\ s_log (snd (m st)) = s_log st) -> s_mute m.
  Proof. intros F st. destruct (F st) as [E1 E2]. split; [exact E1|]. exists []. rewrite app_nil_r. exact E2. Qed.
  Lemma sm_bind {A D} (m : SM A) (k : A -> SM D) : s_mute m -> (forall a, s_mute (k a)) -> s_mute (sbind m k).
  Proof.
    intros M F st. unfold sbind. destruct (M st) as [E1 (t & E2)]. destruct (m st) as [[a|e|] st1]; cbn [snd] in *; [|eauto..].
    destruct (F a st1) as [F1 (t1 & F2)]. split; [congruence|]. exists (t ++ t1). rewrite F2, E2, app_assoc. reflexivity.
  Qed.
  Lemma sm_ret {A} (r : res InError A) : s_mute (sret r).
  Proof. apply sm_same. split; reflexivity. Qed.
  Lemma sm_event e : s_mute (s_event e).
  Proof. intros st. split; [reflexivity|]. eexists. reflexivity. Qed.
  Lemma sm_insert c : s_mute (s_insert c).
  Proof. apply sm_same. intros st. unfold s_insert. destruct (arena_insert (s_chans st) c). split; reflexivity. Qed.
  Lemma sm_get i : s_mute (s_get i).
  Proof. apply sm_same. split; reflexivity. Qed.
  Lemma sm_put i x : s_mute (s_put i x).
  Proof. apply sm_same. split; reflexivity. Qed.
  Lemma sm_drop x : s_mute (s_drop x).
  Proof. destruct x; [apply sm_event|apply sm_ret]. Qed.
  Lemma sm_spawn i ch ty : s_mute (s_spawn h i ch ty).
  Proof. intros st. split; [reflexivity|]. eexists. reflexivity. Qed.
  Lemma sm_write n d : s_mute (s_write h n d).
  Proof. intros st. split; [reflexivity|]. eexists. reflexivity. Qed.
  Lemma sm_new_io n io p : s_mute (s_new_io n io p).
  Proof. apply sm_same. split; reflexivity. Qed.
  Lemma sm_reads err l : s_mute (set_reads err l).
  Proof. apply sm_same. split; reflexivity. Qed.
  Lemma sm_wait l : s_mute (set_wait l).
  Proof. apply sm_same. split; reflexivity. Qed.
  Lemma sm_recv : s_mute (s_recv C).
  Proof.
    apply sm_same. intros st. unfold s_recv, conn_recv. destruct (In_recv C (k_rd (s_conn st)) (s_buf st) (k_in (s_conn st))) as [r [[c b] s]]. split; reflexivity.
  Qed.
  Lemma ss_send m : s_sim (s_send C rng m) (s_send_b lim C rng m).
  Proof.
    split.
    - intros st. unfold s_send. pose proof (conn_send_breaks lim C rng m (s_buf st) (s_conn st)) as X.
      destruct (conn_send C rng m (s_buf st) (s_conn st)) as [[k b]|e|]; [|apply s_ext_refl..]. split; [exact (proj1 X)|]. eexists. reflexivity.
    - intros st L. unfold s_send, s_send_b. pose proof (conn_send_breaks lim C rng m (s_buf st) (s_conn st)) as X.
      destruct (conn_send C rng m (s_buf st) (s_conn st)) as [[k b]|e|]; [|left; rewrite X; auto..].
      destruct X as [_ [[L1 ->]|(L1 & k2 & -> & E)]]; [left|right].
      + split; [exact L1|reflexivity].
      + eexists. split; [reflexivity|]. split; [exact L1|]. split; [exact E|]. exists m, []. cbn [snd s_log]. rewrite app_nil_r. reflexivity.
  Qed.
  Lemma ss_view {A X} (v : SSt -> X) (m : X -> SM A) (mb : X -> BM A) : (forall x, s_sim (m x) (mb x)) -> s_sim (fun st => m (v st) st) (fun st => mb (v st) st).
  Proof. intros F. split; [intros st; apply (proj1 (F (v st)))|]. intros st L. apply (proj2 (F (v st))), L. Qed.
  Ltac sm := repeat lazymatch goal with
    | |- s_mute (sbind _ _) => refine (sm_bind _ _ _ _); [|intros ?]
    | |- s_mute (sret _) => exact (sm_ret _)
    | |- s_mute (s_event _) => exact (sm_event _)
    | |- s_mute (s_insert _) => exact (sm_insert _)
    | |- s_mute (s_get _) => exact (sm_get _)
    | |- s_mute (s_put _ _) => exact (sm_put _ _)
    | |- s_mute (s_drop _) => exact (sm_drop _)
    | |- s_mute (s_spawn _ _ _ _) => exact (sm_spawn _ _ _)
    | |- s_mute (s_write _ _ _) => exact (sm_write _ _)
    | |- s_mute (s_new_io _ _ _) => exact (sm_new_io _ _ _)
    | |- s_mute (set_reads _ _) => exact (sm_reads _ _)
    | |- s_mute (set_wait _) => exact (sm_wait _)
    | |- s_mute (s_recv _) => exact sm_recv
    | |- s_mute (if ?x then _ else _) => destruct x
    | |- s_mute (match ?x with _ => _ end) => destruct x
    end.
  Ltac ss := repeat lazymatch goal with
    | |- s_sim ?m (on ?m) => apply ss_on; sm
    | |- s_sim (sbind _ _) _ => refine (ss_bind _ _ _ _ _ _); [|intros ?]
    | |- s_sim (sret _) _ => apply ss_ret; first [reflexivity | apply unwrap_any]
    | |- s_sim (s_send _ _ _) _ => exact (ss_send _)
    | |- s_sim (s_channel _ _ _) _ => exact (ss_send _)
    | |- s_sim (on_spawn _ _ _ _ _ _) _ => unfold on_spawn, on_spawn_b
    | |- s_sim (on_refused _ _ _ _) _ => unfold on_refused, on_refused_b
    | |- s_sim (if ?x then _ else _) _ => destruct x
    | |- s_sim (match ?x with _ => _ end) _ => destruct x
    end.
  Lemma ss_message m : s_sim (on_message C rng h m) (on_message_b lim C rng h m).
  Proof.
    destruct m as [| | | | | | | | | | |c]; try (apply ss_on; cbn [on_message]; sm).
    destruct c; cbn [on_message on_message_b]; ss.
    intros st. match goal with |- context [arena_remove (s_chans st) ?c] => destruct (arena_remove (s_chans st) c) as [x a] end.
    exact (sm_bind (s_drop _) (fun _ => sret (Ok false)) (sm_drop _) (fun _ => sm_ret _) (set_chans a st)).
  Qed.
  Lemma ss_packet : s_sim (on_packet C rng h) (on_packet_b lim C rng h).
  Proof. unfold on_packet, on_packet_b. ss. apply ss_message. Qed.
  Lemma ss_output err n p d : s_sim (on_output C rng err n p d) (on_output_b lim C rng err n p d).
  Proof.
    unfold on_output, on_output_b. ss.
    apply (ss_view (fun st => if err then s_stderr st else s_stdout st)
      (fun l => sbind (set_reads err (forget n l)) (fun _ => if err then sret (Ok tt) else sbind (s_channel C rng (C_Eof p)) (fun _ => s_channel C rng (C_Close p))))
      (fun l => bbind (on (set_reads err (forget n l))) (fun _ => if err then bret (Ok tt) else bbind (s_channel_b lim C rng (C_Eof p)) (fun _ => s_channel_b lim C rng (C_Close p))))).
    intros x. ss.
  Qed.
  Lemma ss_exit n p status : s_sim (on_exit C rng n p status) (on_exit_b lim C rng n p status).
  Proof.
    unfold on_exit, on_exit_b.
    apply (ss_view s_wait (fun l => sbind (set_wait (forget n l)) (fun _ => sbind (s_event (SE_Exit n status)) (fun _ =>
       sbind (sret (unwrap (session_written (SR_ExitStatus status) (zeros 256)))) (fun x => let '(ty, data) := x in
       sbind (s_channel C rng (C_Request {| rq_recipient := p; rq_ty := ty; rq_want_reply := false; rq_data := data |})) (fun _ => sret (Ok false))))))
      (fun l => bbind (on (set_wait (forget n l))) (fun _ => bbind (on (s_event (SE_Exit n status))) (fun _ =>
       bbind (bret (unwrap (session_written (SR_ExitStatus status) (zeros 256)))) (fun x => let '(ty, data) := x in
       bbind (s_channel_b lim C rng (C_Request {| rq_recipient := p; rq_ty := ty; rq_want_reply := false; rq_data := data |})) (fun _ => bret (Ok false))))))).
    generalize (session_written (SR_ExitStatus status) (zeros 256)). intros w x. ss.
  Qed.
  Lemma step_breaks e st : 
    match session_step C rng h e st with
    | None => session_step_b lim C rng h e st = None
    | Some (r, st1) => s_ext st st1 /\ (len (sout st) <= lim ->
        (len (sout st1) <= lim /\ session_step_b lim C rng h e st = Some (map_err RE_In r, st1)) \/
        exists st2, session_step_b lim C rng h e st = Some (Err RE_Out, st2) /\ s_broke lim st1 st2)
    end.
  Proof.
    assert (X : forall m mb, s_sim m mb -> let '(r, st1) := m st in s_ext st st1 /\ (len (sout st) <= lim ->
        (len (sout st1) <= lim /\ Some (mb st) = Some (map_err RE_In (r : res InError bool), st1)) \/
        exists st2, Some (mb st) = Some (Err RE_Out, st2) /\ s_broke lim st1 st2)).
    { intros m mb [G S]. specialize (G st). specialize (S st). destruct (m st) as [r st1]. cbn [snd] in *. split; [exact G|]. intros L.
      destruct (S L) as [[L1 ->]|(st2 & -> & B)]; [left|right]; eauto. }
    destruct e as [|err n d|n status]; cbn [session_step session_step_b].
    - specialize (X _ _ ss_packet). destruct (on_packet C rng h st) as [r st1]. exact X.
    - destruct (look n (if err then s_stderr st else s_stdout st)) as [p|]; [|reflexivity].
      destruct (match d with Ok d => len d <=? 256 | _ => true end); [|reflexivity].
      specialize (X _ _ (ss_output err n p d)). destruct (on_output C rng err n p d st) as [r st1]. exact X.
    - destruct (look n (s_wait st)) as [p|]; [|reflexivity]. destruct (is_u32 status); [|reflexivity].
      specialize (X _ _ (ss_exit n p status)). destruct (on_exit C rng n p status st) as [r st1]. exact X.
  Qed.
  (** A whole session. *)
  Lemma run_grows es : forall st r st1, session_run C rng h es st = Some (r, st1) -> s_ext st st1.
  Proof.
    induction es as [|e es IH]; intros st r st1 E; cbn [session_run] in E.
    - apply Some_inj, pair_eq in E as [_ <-]. apply s_ext_refl.
    - pose proof (step_breaks e st) as X. destruct (session_step C rng h e st) as [[r0 st0]|]; [|discriminate E]. destruct X as [G _].
      destruct r0 as [[|]|x|]; [|exact (s_ext_trans _ _ _ G (IH _ _ _ E))|..]; apply Some_inj, pair_eq in E as [_ <-]; exact G.
  Qed.
  Lemma run_breaks es : forall st r st1, session_run C rng h es st = Some (r, st1) -> len (sout st) <= lim ->
    (len (sout st1) <= lim /\ session_run_b lim C rng h es st = Some (map_err RE_In r, st1)) \/
    exists st2, session_run_b lim C rng h es st = Some (Err RE_Out, st2) /\ s_broke lim st1 st2.
  Proof.
    induction es as [|e es IH]; intros st r st1 E L; cbn [session_run session_run_b] in *.
    - apply Some_inj, pair_eq in E as [<- <-]. auto.
    - pose proof (step_breaks e st) as X. destruct (session_step C rng h e st) as [[r0 st0]|]; [|discriminate E]. destruct X as [G X].
      destruct (X L) as [[L0 ->]|(st2 & -> & B)].
      + destruct r0 as [[|]|x|]; cbn [map_err]; [|exact (IH _ _ _ E L0)|..]; apply Some_inj, pair_eq in E as [<- <-]; auto.
      + right. exists st2. split; [reflexivity|]. destruct r0 as [[|]|x|]; [|eapply s_broke_ext; [exact B|exact (run_grows _ _ _ _ E)]|..];
          apply Some_inj, pair_eq in E as [_ <-]; exact B.
  Qed.
  Lemma broken_run es : forall st rb st', session_run_b lim C rng h es st = Some (rb, st') -> len (sout st) <= lim ->
    exists es1 es2 r st1, es = es1 ++ es2 /\ session_run C rng h es1 st = Some (r, st1) /\
      ((es2 = [] /\ len (sout st1) <= lim /\ rb = map_err RE_In r /\ st' = st1) \/ (rb = Err RE_Out /\ s_broke lim st1 st')).
  Proof.
    induction es as [|e es IH]; intros st rb st' E L; cbn [session_run_b] in *.
    - apply Some_inj, pair_eq in E as [<- <-]. exists [], [], (Ok false), st. split; [reflexivity|]. split; [reflexivity|]. left. auto.
    - pose proof (step_breaks e st) as X. destruct (session_step C rng h e st) as [[r0 st0]|] eqn:S; [|rewrite X in E; discriminate E]. destruct X as [G X].
      destruct (X L) as [[L0 X0]|(st2 & X0 & B)]; rewrite X0 in E.
      + destruct r0 as [[|]|x|]; cbn [map_err] in E.
        2: { destruct (IH _ _ _ E L0) as (es1 & es2 & r & st1 & -> & R & Y). exists (e :: es1), es2, r, st1. split; [reflexivity|].
             cbn [session_run]. rewrite S. auto. }
        all: apply Some_inj, pair_eq in E as [<- <-]. 
        all: exists (e :: es), []; rewrite app_nil_r; cbn [session_run]; rewrite S; eexists; eexists; (split; [reflexivity|]); (split; [reflexivity|]); left; auto.
      + apply Some_inj, pair_eq in E as [<- <-]. exists [e], es. cbn [session_run]. rewrite S. destruct r0 as [[|]|x|]; eexists; eexists; (split; [reflexivity|]); (split; [reflexivity|]); right; auto.
  Qed.
End SessionSim.
