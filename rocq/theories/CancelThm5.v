(** A cancelled session is beside a plain one. *)
From Coq Require Import Init.Byte Strings.Byte.
From Verif Require Export SessionThm10 SpecCancel2.
Open Scope res_scope.
Open Scope s_scope.

Definition relog (v : list SEvent) (st : SSt) : SSt :=
  {| s_conn := s_conn st; s_buf := s_buf st; s_chans := s_chans st; s_stdout := s_stdout st; s_stderr := s_stderr st;
     s_wait := s_wait st; s_children := s_children st; s_log := v |}.
(** Handlers that see another past. *)
Definition misled (f : list SEvent -> list SEvent) (g : res unit IoSet -> res unit IoSet) (h : SHandlers) : SHandlers :=
  {| h_spawn := fun log ty => g (h_spawn h (f log) ty); h_write := fun log n d => h_write h (f log) n d |}.
Definition past (a v : list SEvent) (log : list SEvent) : list SEvent := a ++ skipn (length v) log.
Lemma past_app a v t : past a v (v ++ t) = a ++ t.
Proof. unfold past. rewrite skipn_app, skipn_all, Nat.sub_diag. reflexivity. Qed.

Section Relog.
  Context (C : Crypto) (rng : N -> N -> bytes) (h : SHandlers) (a v : list SEvent).
  Notation h2 := (misled (past a v) (fun x => x) h).
  Definition follows {A} (m m2 : SM A) : Prop := forall st t, s_log st = a ++ t ->
    exists t', s_log (snd (m st)) = a ++ t' /\ m2 (relog (v ++ t) st) = (fst (m st), relog (v ++ t') (snd (m st))).
  Lemma fl_bind {A D} (m m2 : SM A) (f f2 : A -> SM D) : follows m m2 -> (forall x, follows (f x) (f2 x)) -> follows (sbind m f) (sbind m2 f2).
  Proof.
    intros M F st t L. destruct (M st t L) as (t1 & L1 & E). unfold sbind. rewrite E. destruct (m st) as [[x|e|] s]; cbn [fst snd] in *.
    - exact (F x s t1 L1).
    - exists t1. auto.
    - exists t1. auto.
  Qed.
  Lemma fl_ret {A} (r : res InError A) : follows (sret r) (sret r).
  Proof. intros st t L. exists t. auto. Qed.
  Lemma fl_event e : follows (s_event e) (s_event e).
  Proof. intros st t L. exists (t ++ [e]). unfold s_event, relog. cbn [fst snd s_log]. rewrite L, !app_assoc. auto. Qed.
  Lemma fl_quiet {A} (m : SM A) : (forall st l, s_log (snd (m st)) = s_log st /\ m (relog l st) = (fst (m st), relog l (snd (m st)))) -> follows m m.
  Proof. intros F st t L. destruct (F st (v ++ t)) as [E1 E2]. exists t. rewrite E1. auto. Qed.
  Lemma fl_insert ch : follows (s_insert ch) (s_insert ch).
  Proof. apply fl_quiet. intros st l. unfold s_insert. change (s_chans (relog l st)) with (s_chans st). destruct (arena_insert _ _). split; reflexivity. Qed.
  Lemma fl_get i : follows (s_get i) (s_get i).
  Proof. apply fl_quiet. intros st l. split; reflexivity. Qed.
  Lemma fl_put i x : follows (s_put i x) (s_put i x).
  Proof. apply fl_quiet. intros st l. split; reflexivity. Qed.
  Lemma fl_drop x : follows (s_drop x) (s_drop x).
  Proof. destruct x; [apply fl_event|apply fl_ret]. Qed.
  Lemma fl_new_io n io p : follows (s_new_io n io p) (s_new_io n io p).
  Proof. apply fl_quiet. intros st l. split; reflexivity. Qed.
  Lemma fl_send m : follows (s_send C rng m) (s_send C rng m).
  Proof.
    intros st t L. unfold s_send. change (s_buf (relog (v ++ t) st)) with (s_buf st). change (s_conn (relog (v ++ t) st)) with (s_conn st).
    destruct (conn_send C rng m (s_buf st) (s_conn st)) as [[k buf]|e|]; cbn [fst snd].
    - exists (t ++ [SE_Sent m]). unfold relog. cbn [s_log]. rewrite L, !app_assoc. auto.
    - exists t. auto.
    - exists t. auto.
  Qed.
  Lemma fl_spawn i ch ty : follows (s_spawn h i ch ty) (s_spawn h2 i ch ty).
  Proof.
    intros st t L. exists (t ++ [SE_Spawn i (ch_peer ch) (s_children st) ty (h_spawn h (s_log st) ty)]). unfold s_spawn, relog.
    cbn [fst snd s_log s_conn s_buf s_chans s_stdout s_stderr s_wait s_children misled h_spawn]. rewrite past_app, L, !app_assoc. auto.
  Qed.
  Lemma fl_write n d : follows (s_write h n d) (s_write h2 n d).
  Proof.
    intros st t L. exists (t ++ [SE_Stdin n d (h_write h (s_log st) n d)]). unfold s_write, relog.
    cbn [fst snd s_log s_conn s_buf s_chans s_stdout s_stderr s_wait s_children misled h_write]. rewrite past_app, L, !app_assoc. auto.
  Qed.
  Lemma fl_recv : follows (s_recv C) (s_recv C).
  Proof.
    apply fl_quiet. intros st l. unfold s_recv. change (s_buf (relog l st)) with (s_buf st). change (s_conn (relog l st)) with (s_conn st).
    destruct (conn_recv C (s_buf st) (s_conn st)) as [r [k buf]]. split; reflexivity.
  Qed.
  Lemma fl_reads err l0 : follows (set_reads err l0) (set_reads err l0).
  Proof. apply fl_quiet. intros st l. split; reflexivity. Qed.
  Lemma fl_set_wait l0 : follows (set_wait l0) (set_wait l0).
  Proof. apply fl_quiet. intros st l. split; reflexivity. Qed.
  Lemma fl_on_spawn r ch ty : follows (on_spawn C rng h r ch ty) (on_spawn C rng h2 r ch ty).
  Proof.
    apply fl_bind; [apply fl_spawn|]. intros [n io]. apply fl_bind; [apply fl_put|]. intros _. apply fl_bind; [apply fl_drop|]. intros _.
    apply fl_bind; [|intros _; apply fl_new_io]. destruct (rq_want_reply r); [apply fl_send|apply fl_ret].
  Qed.
  Lemma fl_on_refused r ch : follows (on_refused C rng r ch) (on_refused C rng r ch).
  Proof. unfold on_refused. destruct (rq_want_reply r); [apply fl_send|apply fl_ret]. Qed.
  Lemma fl_message m : follows (on_message C rng h m) (on_message C rng h2 m).
  Proof.
    destruct m as [| | | | | | | | | | |c]; try apply fl_ret. destruct c; cbn [on_message]; try apply fl_ret.
    - apply fl_bind; [apply fl_insert|]. intros i. apply fl_bind; [apply fl_send|]. intros _. apply fl_ret.
    - apply fl_bind; [apply fl_get|]. intros ch. apply fl_bind; [|intros _; apply fl_ret]. destruct (ch_stdin ch); [apply fl_write|apply fl_ret].
    - apply fl_bind; [apply fl_get|]. intros ch. apply fl_bind; [apply fl_put|]. intros _. apply fl_bind; [apply fl_drop|]. intros _. apply fl_ret.
    - intros st t L. cbv beta. change (s_chans (relog (v ++ t) st)) with (s_chans st). destruct (arena_remove (s_chans st) _) as [x a'].
      change (set_chans a' (relog (v ++ t) st)) with (relog (v ++ t) (set_chans a' st)).
      refine (fl_bind _ _ _ _ (fl_drop _) (fun _ => fl_ret _) (set_chans a' st) t L).
    - apply fl_bind; [apply fl_get|]. intros ch. apply fl_bind; [apply fl_ret|]. intros q. apply fl_bind; [|intros _; apply fl_ret].
      destruct q; first [apply fl_on_spawn|apply fl_on_refused|apply fl_ret].
  Qed.
  Lemma fl_packet : follows (on_packet C rng h) (on_packet C rng h2).
  Proof.
    apply fl_bind; [apply fl_recv|]. intros d. apply fl_bind; [apply fl_ret|]. intros m. apply fl_bind; [apply fl_event|]. intros _. apply fl_message.
  Qed.
  Lemma fl_output err n p d : follows (on_output C rng err n p d) (on_output C rng err n p d).
  Proof.
    apply fl_bind; [apply fl_ret|]. intros data. apply fl_bind; [apply fl_event|]. intros _. apply fl_bind; [|intros _; apply fl_ret].
    destruct (0 <? len data); [apply fl_send|]. intros st t L.
    change (s_stdout (relog (v ++ t) st)) with (s_stdout st). change (s_stderr (relog (v ++ t) st)) with (s_stderr st).
    refine (fl_bind _ _ _ _ (fl_reads _ _) (fun _ => _) st t L). destruct err; [apply fl_ret|]. apply fl_bind; [apply fl_send|]. intros _. apply fl_send.
  Qed.
  Lemma fl_exit n p s : follows (on_exit C rng n p s) (on_exit C rng n p s).
  Proof.
    intros st t L. unfold on_exit. change (s_wait (relog (v ++ t) st)) with (s_wait st).
    refine (fl_bind _ _ _ _ (fl_set_wait _) (fun _ => _) st t L). apply fl_bind; [apply fl_event|]. intros _. apply fl_bind; [apply fl_ret|]. intros [ty d].
    apply fl_bind; [apply fl_send|]. intros _. apply fl_ret.
  Qed.
  Lemma step_follows e st r st' : s_log st = a -> session_step C rng h e st = Some (r, st') ->
    exists t, s_log st' = a ++ t /\ session_step C rng h2 e (relog v st) = Some (r, relog (v ++ t) st').
  Proof.
    intros L H. rewrite <- (app_nil_r a) in L.
    assert (X : forall m m2 : SM bool, follows m m2 -> Some (m st) = Some (r, st') ->
      exists t, s_log st' = a ++ t /\ Some (m2 (relog v st)) = Some (r, relog (v ++ t) st')).
    { intros m m2 F Q. apply Some_inj in Q. destruct (F st [] L) as (t & E1 & E2). rewrite app_nil_r in E2. rewrite Q in E1, E2. cbn [fst snd] in E1, E2. rewrite E2. exists t. split; [exact E1|reflexivity]. }
    destruct e as [|err n d|n s]; cbn [session_step] in H |- *.
    - exact (X _ _ fl_packet H).
    - change (s_stdout (relog v st)) with (s_stdout st). change (s_stderr (relog v st)) with (s_stderr st).
      destruct (look n (if err then s_stderr st else s_stdout st)) as [p|]; [|discriminate H].
      destruct (match d with Ok d0 => len d0 <=? 256 | _ => true end); [|discriminate H]. exact (X _ _ (fl_output _ _ _ _) H).
    - change (s_wait (relog v st)) with (s_wait st). destruct (look n (s_wait st)) as [p|]; [|discriminate H].
      destruct (is_u32 s); [|discriminate H]. exact (X _ _ (fl_exit _ _ _) H).
  Qed.
End Relog.

(** All but what is written and the log. *)
Definition near (x y : SSt) : Prop :=
  s_buf x = s_buf y /\ s_chans x = s_chans y /\ s_stdout x = s_stdout y /\ s_stderr x = s_stderr y /\ s_wait x = s_wait y /\
  s_children x = s_children y /\ k_rd (s_conn x) = k_rd (s_conn y) /\ k_wr (s_conn x) = k_wr (s_conn y) /\ k_in (s_conn x) = k_in (s_conn y).
Section Reply.
  Context (C : Crypto) (rng : N -> N -> bytes) (h : SHandlers).
  Lemma cut_send n m st st1 l : s_cut C rng n m st = (Ok tt, st1) ->
    exists st2, s_send C rng m (relog l st) = (Ok tt, st2) /\ near st1 st2 /\ s_log st1 = s_log st /\ s_log st2 = l ++ [SE_Sent m].
  Proof.
    unfold s_cut, s_send. change (s_buf (relog l st)) with (s_buf st). change (s_conn (relog l st)) with (s_conn st).
    destruct (conn_send C rng m (s_buf st) (s_conn st)) as [[k buf]|e|]; try discriminate. destruct (_ <? _); [|discriminate].
    intros Q. apply pair_eq in Q as [_ <-]. eexists. split; [reflexivity|]. repeat split.
  Qed.
  Context (a v : list SEvent).
  Notation h2 := (misled (past a v) (map_ok deaf) h).
  Lemma cut_spawned n r ch ty st u st1 : s_log st = a ++ [got (C_Request r)] -> on_spawn_cut C rng h n r ch ty st = (Ok u, st1) ->
    exists st2 x y, on_spawn C rng h2 r ch ty (relog (v ++ [got (C_Request r)]) st) = (Ok tt, st2) /\ near st1 st2 /\
      s_log st1 = a ++ x /\ s_log st2 = v ++ y /\ beside (X_Cut (Cut_Reply n)) x y.
  Proof.
    intros L H. unfold on_spawn_cut in H. unfold sbind at 1, s_spawn in H. rewrite L in H.
    unfold on_spawn. unfold sbind at 1, s_spawn.
    change (s_children (relog (v ++ [got (C_Request r)]) st)) with (s_children st). change (s_log (relog (v ++ [got (C_Request r)]) st)) with (v ++ [got (C_Request r)]).
    cbn [misled h_spawn]. rewrite past_app. destruct (h_spawn h (a ++ [got (C_Request r)]) ty) as [io|e|] eqn:HS; cbn [map_ok unwrap] in H |- *; try discriminate H.
    unfold sbind at 1, s_put in H. unfold sbind at 1, s_put.
    remember (arena_put _ _ _) as ar eqn:QA in H. cbn [s_chans relog deaf io_stdin].
    change (s_chans st) with (s_chans {| s_conn := s_conn st; s_buf := s_buf st; s_chans := s_chans st; s_stdout := s_stdout st; s_stderr := s_stderr st; s_wait := s_wait st;
      s_children := 1 + s_children st; s_log := (a ++ [got (C_Request r)]) ++ [SE_Spawn (rq_recipient r) (ch_peer ch) (s_children st) ty (Ok io)] |}) at 1. rewrite <- QA. clear QA.
    match type of H with context [set_chans ar ?s] => set (sa := set_chans ar s) in H end.
    match goal with |- context [set_chans ar ?s] => set (sv := set_chans ar s) end.
    assert (Ev : sv = relog (v ++ [got (C_Request r); SE_Spawn (rq_recipient r) (ch_peer ch) (s_children st) ty (Ok (deaf io))]) sa).
    { unfold sv, sa, set_chans, relog. cbn [s_conn s_buf s_chans s_stdout s_stderr s_wait s_children s_log]. rewrite <- app_assoc. reflexivity. }
    assert (Ea : s_log sa = a ++ [got (C_Request r); SE_Spawn (rq_recipient r) (ch_peer ch) (s_children st) ty (Ok io)]).
    { unfold sa, set_chans. cbn [s_log]. rewrite <- app_assoc. reflexivity. }
    clearbody sa sv. subst sv. unfold sbind at 1 in H. unfold sbind at 1.
    assert (X : exists sb, s_drop (ch_stdin ch) sa = (Ok tt, sb) /\ s_log sb = a ++ got (C_Request r) :: SE_Spawn (rq_recipient r) (ch_peer ch) (s_children st) ty (Ok io) :: dropped (ch_stdin ch) /\
      s_drop (ch_stdin ch) (relog (v ++ [got (C_Request r); SE_Spawn (rq_recipient r) (ch_peer ch) (s_children st) ty (Ok (deaf io))]) sa) =
        (Ok tt, relog (v ++ got (C_Request r) :: SE_Spawn (rq_recipient r) (ch_peer ch) (s_children st) ty (Ok (deaf io)) :: dropped (ch_stdin ch)) sb)).
    { destruct (ch_stdin ch) as [j|]; cbn [s_drop dropped].
      - eexists. split; [reflexivity|]. unfold relog. cbn [s_log s_conn s_buf s_chans s_stdout s_stderr s_wait s_children]. rewrite Ea, <- !app_assoc. split; [reflexivity|].
        unfold s_event. cbn [s_log s_conn s_buf s_chans s_stdout s_stderr s_wait s_children]. rewrite <- !app_assoc. reflexivity.
      - exists sa. split; [reflexivity|]. split; [exact Ea|reflexivity]. }
    destruct X as (sb & E1 & L1 & E2). rewrite E1 in H. rewrite E2. destruct (rq_want_reply r) eqn:WR; [|discriminate H].
    destruct u. apply (cut_send _ _ _ _ (v ++ got (C_Request r) :: SE_Spawn (rq_recipient r) (ch_peer ch) (s_children st) ty (Ok (deaf io)) :: dropped (ch_stdin ch))) in H as (sc & E3 & NR & L3 & L4).
    unfold sbind. unfold s_channel. rewrite E3. unfold s_new_io. cbn [deaf io_stdout io_stderr orb app].
    eexists. eexists _, _. split; [reflexivity|]. split; [exact NR|]. split; [rewrite L3; exact L1|]. cbn [s_log]. split.
    - rewrite L4, <- app_assoc. cbn [app]. reflexivity.
    - constructor. exact WR.
  Qed.
  Lemma cut_plain n m st u st1 : s_log st = a ++ [SE_Received m] -> on_message_cut C rng h n m st = (Ok u, st1) ->
    exists st2 x y, on_message C rng h2 m (relog (v ++ [SE_Received m]) st) = (Ok false, st2) /\ near st1 st2 /\
      s_log st1 = a ++ x /\ s_log st2 = v ++ y /\ beside (X_Cut (Cut_Reply n)) x y.
  Proof.
    intros L H. destruct m as [| | | | | | | | | | |c]; try discriminate H. destruct c as [o| | | | | | | |r| |]; try discriminate H.
    - cbn [on_message_cut] in H. cbn [on_message]. unfold sbind at 1, s_insert in H. unfold sbind at 1, s_insert.
      change (s_chans (relog (v ++ [SE_Received (Msg_Channel (C_Open o))]) st)) with (s_chans st). destruct (arena_insert (s_chans st) _) as [[i|e|] ar]; try discriminate H.
      change (set_chans ar (relog (v ++ [SE_Received (Msg_Channel (C_Open o))]) st)) with (relog (v ++ [got (C_Open o)]) (set_chans ar st)).
      destruct u. apply (cut_send _ _ _ _ (v ++ [got (C_Open o)])) in H as (sc & E3 & NR & L3 & L4). unfold sbind, s_channel. rewrite E3.
      exists sc, [got (C_Open o)], [got (C_Open o); put (confirmation o i)]. split; [reflexivity|]. split; [exact NR|]. split; [rewrite L3; exact L|].
      split; [rewrite L4, <- app_assoc; reflexivity|]. constructor.
    - cbn [on_message_cut] in H. cbn [on_message]. unfold sbind at 1, s_get in H. unfold sbind at 1, s_get.
      change (s_chans (relog (v ++ [SE_Received (Msg_Channel (C_Request r))]) st)) with (s_chans st).
      destruct (arena_get (s_chans st) (rq_recipient r)) as [ch|]; [|discriminate H]. unfold sbind at 1, sret at 1 in H. unfold sbind at 1, sret at 1.
      destruct (SessionRequest_parse (rq_ty r) (rq_data r)) as [q|e|]; cbn [unwrap] in H |- *; try discriminate H.
      assert (XR : (if rq_want_reply r then s_cut C rng n (Msg_Channel (C_Failure (ch_peer ch))) else sret Panic) st = (Ok u, st1) ->
        exists st2 x y, (_ <: on_refused C rng r ch ;; sret (Ok false)) (relog (v ++ [got (C_Request r)]) st) = (Ok false, st2) /\ near st1 st2 /\
          s_log st1 = a ++ x /\ s_log st2 = v ++ y /\ beside (X_Cut (Cut_Reply n)) x y).
      { unfold on_refused. destruct (rq_want_reply r) eqn:WR; [|discriminate]. intros X. destruct u.
        apply (cut_send _ _ _ _ (v ++ [got (C_Request r)])) in X as (sc & E3 & NR & L3 & L4). unfold sbind, s_channel. rewrite E3.
        exists sc, [got (C_Request r)], [got (C_Request r); put (C_Failure (ch_peer ch))]. split; [reflexivity|]. split; [exact NR|]. split; [rewrite L3; exact L|].
        split; [rewrite L4, <- app_assoc; reflexivity|]. constructor. exact WR. }
      assert (XS : forall ty, on_spawn_cut C rng h n r ch ty st = (Ok u, st1) ->
        exists st2 x y, (_ <: on_spawn C rng h2 r ch ty ;; sret (Ok false)) (relog (v ++ [got (C_Request r)]) st) = (Ok false, st2) /\ near st1 st2 /\
          s_log st1 = a ++ x /\ s_log st2 = v ++ y /\ beside (X_Cut (Cut_Reply n)) x y).
      { intros ty X. destruct (cut_spawned _ _ _ _ _ _ _ L X) as (st2 & x & y & E & F). exists st2, x, y. split; [|exact F]. unfold sbind. rewrite E. reflexivity. }
      destruct q; try discriminate H; first [exact (XR H)|exact (XS _ H)].
  Qed.
End Reply.
