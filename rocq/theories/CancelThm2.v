(** Proofs about cancelled sessions: what is lost. *)
From Coq Require Import Init.Byte Strings.Byte.
From Verif Require Export CancelThm.
Open Scope res_scope.
Open Scope s_scope.

(** *** What code may write to the log *)
Lemma count_app f a b : count f (a ++ b) = count f a + count f b.
Proof. unfold count. rewrite filter_app, len_app. reflexivity. Qed.
Lemma count_cons f e l : count f (e :: l) = (if f e then 1 else 0) + count f l.
Proof. unfold count. cbn [filter]. destruct (f e); [rewrite len_cons; reflexivity|reflexivity]. Qed.
Lemma count_nil f : count f [] = 0.
Proof. reflexivity. Qed.

Section Upto.
  Context (C : Crypto) (rng : N -> N -> bytes) (h : SHandlers) (f : SEvent -> bool).

  (** At most [n] events of a kind, and no reading. *)
  Definition upto {A} (n : N) (m : SM A) : Prop := forall st,
    k_in (s_conn (snd (m st))) = k_in (s_conn st) /\ exists t, s_log (snd (m st)) = s_log st ++ t /\ count f t <= n.
  Lemma up_weaken {A} a b (m : SM A) : a <= b -> upto a m -> upto b m.
  Proof. intros L M st. destruct (M st) as (E & t & E1 & E2). split; [exact E|]. exists t. split; [exact E1|lia]. Qed.
  Lemma up_bind {A D} a b (m : SM A) (k : A -> SM D) : upto a m -> (forall x, upto b (k x)) -> upto (a + b) (sbind m k).
  Proof.
    intros M F st. destruct (M st) as (E & t & E1 & E2). unfold sbind. destruct (m st) as [r s]. cbn [snd] in *.
    destruct r as [x|e|]; cbn [snd].
    - destruct (F x s) as (G & u & G1 & G2). split; [congruence|]. exists (t ++ u). rewrite G1, E1, count_app, app_assoc. split; [reflexivity|lia].
    - split; [exact E|]. exists t. split; [exact E1|lia].
    - split; [exact E|]. exists t. split; [exact E1|lia].
  Qed.
  Lemma up_none {A} (m : SM A) : (forall st, k_in (s_conn (snd (m st))) = k_in (s_conn st) /\ s_log (snd (m st)) = s_log st) -> upto 0 m.
  Proof. intros F st. destruct (F st) as [E1 E2]. split; [exact E1|]. exists []. rewrite E2, app_nil_r. split; [reflexivity|]. rewrite count_nil. lia. Qed.
  Lemma up_ret {A} (r : res InError A) : upto 0 (sret r).
  Proof. apply up_none. intros st. split; reflexivity. Qed.
  Lemma up_event e : upto (if f e then 1 else 0) (s_event e).
  Proof. intros st. split; [reflexivity|]. exists [e]. split; [reflexivity|]. rewrite count_cons, count_nil. lia. Qed.
  Lemma up_insert c : upto 0 (s_insert c).
  Proof. apply up_none. intros st. unfold s_insert. destruct (arena_insert (s_chans st) c). split; reflexivity. Qed.
  Lemma up_get i : upto 0 (s_get i).
  Proof. apply up_none. intros st. split; reflexivity. Qed.
  Lemma up_put i x : upto 0 (s_put i x).
  Proof. apply up_none. intros st. split; reflexivity. Qed.
  Lemma up_new_io n io p : upto 0 (s_new_io n io p).
  Proof. apply up_none. intros st. split; reflexivity. Qed.
  Lemma up_reads err l : upto 0 (set_reads err l).
  Proof. apply up_none. intros st. split; reflexivity. Qed.
  Lemma up_wait l : upto 0 (set_wait l).
  Proof. apply up_none. intros st. split; reflexivity. Qed.
  Lemma up_drop x : (forall n, f (SE_Dropped n) = false) -> upto 0 (s_drop x).
  Proof. intros F. destruct x as [n|]; [|apply up_ret]. pose proof (up_event (SE_Dropped n)) as X. rewrite F in X. exact X. Qed.
  Lemma up_spawn i ch ty : (forall i p n ty r, f (SE_Spawn i p n ty r) = false) -> upto 0 (s_spawn h i ch ty).
  Proof. intros F st. split; [reflexivity|]. eexists. split; [reflexivity|]. rewrite count_cons, count_nil, F. lia. Qed.
  Lemma up_write n d : upto 1 (s_write h n d).
  Proof. intros st. split; [reflexivity|]. eexists. split; [reflexivity|]. rewrite count_cons, count_nil. destruct (f _); lia. Qed.
  Lemma up_write0 n d : (forall n d r, f (SE_Stdin n d r) = false) -> upto 0 (s_write h n d).
  Proof. intros F st. split; [reflexivity|]. eexists. split; [reflexivity|]. rewrite count_cons, count_nil, F. lia. Qed.
  Lemma up_send m : upto (if f (SE_Sent m) then 1 else 0) (s_send C rng m).
  Proof.
    intros st. unfold s_send, conn_send.
    destruct (Out_send C (k_wr (s_conn st)) (s_buf st) (fill_message m) (rng (k_sent (s_conn st)))) as [[[w c] b]|e|]; cbn [bind snd].
    - split; [reflexivity|]. exists [SE_Sent m]. split; [reflexivity|]. rewrite count_cons, count_nil. lia.
    - split; [reflexivity|]. exists []. rewrite app_nil_r. split; [reflexivity|]. rewrite count_nil. lia.
    - split; [reflexivity|]. exists []. rewrite app_nil_r. split; [reflexivity|]. rewrite count_nil. lia.
  Qed.
  Lemma up_cut n m : upto 0 (s_cut C rng n m).
  Proof.
    apply up_none. intros st. unfold s_cut, conn_send.
    destruct (Out_send C (k_wr (s_conn st)) (s_buf st) (fill_message m) (rng (k_sent (s_conn st)))) as [[[w c] b]|e|]; cbn [bind]; [|split; reflexivity..].
    destruct (_ <? _); split; reflexivity.
  Qed.
  Lemma up_view {A X} n (v : SSt -> X) (m : X -> SM A) : (forall x, upto n (m x)) -> upto n (fun st => m (v st) st).
  Proof. intros F st. apply F. Qed.

  (** A kind of events that only an open or data from the client leads to. *)
  Definition opens_or_data : Prop :=
    (forall n, f (SE_Dropped n) = false) /\ (forall i p n ty r, f (SE_Spawn i p n ty r) = false) /\
    (forall c, f (put (C_Success c)) = false) /\ (forall c, f (put (C_Failure c)) = false) /\ (forall c, f (put (C_Eof c)) = false) /\
    (forall c, f (put (C_Close c)) = false) /\ (forall c d, f (put (C_Data c d)) = false) /\ (forall r, f (put (C_Request r)) = false) /\
    (forall err n d, f (SE_Read err n d) = false) /\ (forall n s, f (SE_Exit n s) = false) /\
    (forall o o' i, f (put (confirmation o i)) = f (put (confirmation o' 0))) /\
    (forall n d r, f (SE_Stdin n d r) = f (SE_Stdin 0 [] (Err tt))).
  Hypothesis (F : opens_or_data).
  Lemma up_event0 e : f e = false -> upto 0 (s_event e).
  Proof. intros E. pose proof (up_event e) as X. rewrite E in X. exact X. Qed.
  Lemma up_send0 c : f (put c) = false -> upto 0 (s_channel C rng c).
  Proof. intros E. pose proof (up_send (Msg_Channel c)) as X. unfold put in E. rewrite E in X. exact X. Qed.
  Ltac up0 := repeat lazymatch goal with
    | |- upto 0 (sbind _ _) => change 0 with (0 + 0); refine (up_bind _ _ _ _ _ _); [|intros ?]
    | |- upto 0 (sret _) => exact (up_ret _)
    | |- upto 0 (s_insert _) => exact (up_insert _)
    | |- upto 0 (s_get _) => exact (up_get _)
    | |- upto 0 (s_put _ _) => exact (up_put _ _)
    | |- upto 0 (s_new_io _ _ _) => exact (up_new_io _ _ _)
    | |- upto 0 (set_reads _ _) => exact (up_reads _ _)
    | |- upto 0 (set_wait _) => exact (up_wait _)
    | |- upto 0 (s_drop _) => apply up_drop, F
    | |- upto 0 (s_spawn _ _ _ _) => apply up_spawn, F
    | |- upto 0 (s_cut _ _ _ _) => exact (up_cut _ _)
    | |- upto 0 (s_event _) => apply up_event0, F
    | |- upto 0 (s_channel C rng _) => apply up_send0, F
    | |- upto 0 (on_spawn _ _ _ _ _ _) => unfold on_spawn
    | |- upto 0 (on_spawn_cut _ _ _ _ _ _ _) => unfold on_spawn_cut
    | |- upto 0 (on_refused _ _ _ _) => unfold on_refused
    | |- upto 0 (if ?x then _ else _) => destruct x
    | |- upto 0 (match ?x with _ => _ end) => destruct x
    end.
  Definition leads (m : Message) : N := match m with
    | Msg_Channel (C_Open o) => if f (put (confirmation o 0)) then 1 else 0
    | Msg_Channel (C_Data _ _) => if f (SE_Stdin 0 [] (Err tt)) then 1 else 0
    | _ => 0 end.
  Lemma up_message m : upto (leads m) (on_message C rng h m).
  Proof.
    pose proof F as (_ & _ & _ & _ & _ & _ & _ & _ & _ & _ & FO & FS).
    destruct m as [d|d|n|d|s|s|ki| |e|e|u|c]; cbn [on_message leads]; try (up0; fail).
    destruct c as [o|o|c r d l|c n|c d|c t d|c|c|r|c|c]; cbn [on_message leads]; try (up0; fail).
    - refine (up_weaken (0 + ((if f (put (confirmation o 0)) then 1 else 0) + 0)) _ _ _ (up_bind _ _ _ _ _ (fun i => up_bind _ _ _ _ _ (fun _ => _)))).
      + destruct (f (put (confirmation o 0))); lia.
      + up0.
      + pose proof (up_send (Msg_Channel (confirmation o i))) as X. change (SE_Sent (Msg_Channel (confirmation o i))) with (put (confirmation o i)) in X.
        rewrite (FO o o i) in X. exact X.
      + up0.
    - destruct (f (SE_Stdin 0 [] (Err tt))) eqn:E.
      + change 1 with (0 + (1 + 0)). apply up_bind; [up0|]. intros ch. apply up_bind; [|intros; up0].
        destruct (ch_stdin ch) as [n|]; [apply up_write|]. apply (up_weaken 0); [lia|up0].
      + up0. apply up_write0. intros n1 d1 r1. apply FS.
    - intros st. destruct (arena_remove (s_chans st) c) as [x a].
      assert (X : upto 0 (_ <: s_drop (match x with Some ch => ch_stdin ch | None => None end) ;; sret (Ok false))) by up0.
      exact (X (set_chans a st)).
  Qed.
  Lemma up_message_cut n m : upto 0 (on_message_cut C rng h n m).
  Proof. unfold on_message_cut. up0. Qed.
  Lemma up_output err n p d : upto 0 (on_output C rng err n p d).
  Proof.
    unfold on_output. up0. apply (up_view 0 (fun st => forget n (if err then s_stderr st else s_stdout st)) (fun l => _ <: set_reads err l ;; if err then sret (Ok tt) else _ <: s_channel C rng (C_Eof p) ;; s_channel C rng (C_Close p))). intros l. up0.
  Qed.
  Lemma up_exit n p s : upto 0 (on_exit C rng n p s).
  Proof.
    unfold on_exit. generalize (session_written (SR_ExitStatus s) (zeros 256)). intros w.
    apply (up_view 0 (fun st => forget n (s_wait st)) (fun l => _ <: set_wait l ;; _ <: s_event (SE_Exit n s) ;; '(ty, data) <: sret (unwrap w) ;;
     _ <: s_channel C rng (C_Request {| rq_recipient := p; rq_ty := ty; rq_want_reply := false; rq_data := data |}) ;;
     sret (Ok false))). intros l. up0.
  Qed.
  (** What children do. *)
  Lemma up_child e st r st' : session_step C rng h e st = Some (r, st') -> e <> Ev_Packet ->
    k_in (s_conn st') = k_in (s_conn st) /\ exists t, s_log st' = s_log st ++ t /\ count f t = 0.
  Proof.
    intros H N. assert (X : k_in (s_conn st') = k_in (s_conn st) /\ exists t, s_log st' = s_log st ++ t /\ count f t <= 0).
    { destruct e as [|err n d|n s]; [congruence|..]; cbn [session_step] in H.
      - destruct (look n _) as [p|]; [|discriminate H]. destruct (match d with Ok d => _ | _ => _ end); [|discriminate H]. apply Some_inj in H.
        change st' with (snd (r, st')). rewrite <- H. apply up_output.
      - destruct (look n _) as [p|]; [|discriminate H]. destruct (is_u32 s); [|discriminate H]. apply Some_inj in H.
        change st' with (snd (r, st')). rewrite <- H. apply up_exit. }
    destruct X as (E & t & E1 & E2). split; [exact E|]. exists t. split; [exact E1|lia].
  Qed.
End Upto.

Lemma recv_log C st : s_log (snd (s_recv C st)) = s_log st.
Proof. unfold s_recv. destruct (conn_recv C (s_buf st) (s_conn st)) as [r [k b]]. reflexivity. Qed.
(** Receiving a message. *)
Lemma message_log C st : match s_message C st with
  | (Ok m, st') => s_log st' = s_log st ++ [SE_Received m]
  | (_, st') => s_log st' = s_log st end.
Proof.
  unfold s_message. unfold sbind at 1. pose proof (recv_log C st) as L. destruct (s_recv C st) as [[d|e|] s]; cbn [snd] in L; [|exact L..].
  unfold sbind at 1, sret at 1. destruct (unwrap (Message_parse d)) as [m|e|]; [|exact L..]. cbn. rewrite L. reflexivity.
Qed.
Lemma packet_message C rng h st : on_packet C rng h st =
  match s_message C st with (Ok m, st') => on_message C rng h m st' | (Err e, st') => (Err e, st') | (Panic, st') => (Panic, st') end.
Proof.
  unfold on_packet, s_message. unfold sbind at 1 4. destruct (s_recv C st) as [[d|e|] s]; [|reflexivity..].
  unfold sbind at 1 3, sret at 1 2. destruct (unwrap (Message_parse d)) as [m|e|]; reflexivity.
Qed.

Section Ahead.
  Context (C : Crypto) (rng : N -> N -> bytes) (h : SHandlers) (f g : SEvent -> bool).
  (** For each event of the kind [g] there is one of the kind [f] before it. *)
  Definition precedes : Prop := opens_or_data g /\ forall m, g (SE_Received m) = false /\ leads g m = if f (SE_Received m) then 1 else 0.
  Hypothesis (P : precedes).
  Definition more (st st' : SSt) : Prop := exists t, s_log st' = s_log st ++ t /\ count g t <= count f t.
  Lemma more_refl st : more st st.
  Proof. exists []. rewrite app_nil_r. split; [reflexivity|]. rewrite !count_nil. lia. Qed.
  Lemma more_trans a b c : more a b -> more b c -> more a c.
  Proof. intros (t & E1 & L1) (u & E2 & L2). exists (t ++ u). rewrite E2, E1, !count_app, app_assoc. split; [reflexivity|lia]. Qed.
  Lemma more_packet st : more st (snd (on_packet C rng h st)).
  Proof.
    rewrite packet_message. pose proof (message_log C st) as L. destruct (s_message C st) as [[m|e|] s]; cbn [snd].
    2,3: exists []; rewrite L, app_nil_r, !count_nil; split; [reflexivity|lia].
    destruct P as [P1 P2]. destruct (P2 m) as [E1 E2]. destruct (up_message C rng h g P1 m s) as (_ & t & E & LE).
    exists ([SE_Received m] ++ t). rewrite E, L, app_assoc. split; [reflexivity|]. rewrite !count_app, !count_cons, !count_nil, E1. rewrite E2 in LE. lia.
  Qed.
  Lemma more_step e st r st' : session_step C rng h e st = Some (r, st') -> more st st'.
  Proof.
    intros H. destruct e as [|err n d|n s].
    - cbn [session_step] in H. apply Some_inj in H. pose proof (more_packet st) as M. rewrite H in M. exact M.
    - apply (up_child C rng h g (proj1 P)) in H as (_ & t & E & L); [|discriminate]. exists t. split; [exact E|lia].
    - apply (up_child C rng h g (proj1 P)) in H as (_ & t & E & L); [|discriminate]. exists t. split; [exact E|lia].
  Qed.
  Lemma reply_log n st st' : cut_reply C rng h n st = Some st' -> exists m t, s_log st' = s_log st ++ SE_Received m :: t /\ count g t = 0.
  Proof.
    unfold cut_reply. intros H. unfold sbind at 1 in H. pose proof (message_log C st) as L. destruct (s_message C st) as [[m|e|] s]; try discriminate H.
    destruct P as [P1 _]. pose proof (up_message_cut C rng h g P1 n m s) as (_ & t & E & LE). destruct (on_message_cut C rng h n m s) as [[x|e|] s1]; try discriminate H.
    apply Some_inj in H as <-. cbn [snd] in E. exists m, t. rewrite E, L, <- app_assoc. split; [reflexivity|lia].
  Qed.
  Lemma handler_log st st' : cut_handler C st = Some st' -> exists m, s_log st' = s_log st ++ [SE_Received m].
  Proof.
    unfold cut_handler. intros H. pose proof (message_log C st) as L. destruct (s_message C st) as [[m|e|] s]; try discriminate H.
    destruct (waits_for_handler _ _); [|discriminate H]. apply Some_inj in H as <-. eauto.
  Qed.
  Lemma read_log n st st' : cut_read C n st = Some st' -> s_log st' = s_log st.
  Proof. intros H. apply cut_read_same in H as (d & rest & _ & _ & b & _ & ->). reflexivity. Qed.
  Lemma more_cut c st st' : cut_step C rng h c st = Some st' -> more st st'.
  Proof.
    destruct P as [_ P2]. destruct c as [n| |n]; cbn [cut_step]; intros H.
    - apply read_log in H. exists []. rewrite app_nil_r, !count_nil. split; [exact H|lia].
    - apply handler_log in H as (m & H). exists [SE_Received m]. split; [exact H|]. destruct (P2 m) as [E _]. rewrite !count_cons, !count_nil, E. lia.
    - apply reply_log in H as (m & t & H & L). exists (SE_Received m :: t). split; [exact H|]. destruct (P2 m) as [E _]. rewrite !count_cons, E. lia.
  Qed.
  Lemma more_run es : forall st r st', cut_run C rng h es st = Some (r, st') -> more st st'.
  Proof.
    induction es as [|[e|c] es IH]; intros st r st' H; cbn [cut_run] in H.
    - apply Some_inj, pair_eq in H as [_ <-]. apply more_refl.
    - destruct (session_step C rng h e st) as [[[[|]|x|] s]|] eqn:E; try discriminate H; try (apply Some_inj, pair_eq in H as [_ <-]; exact (more_step _ _ _ _ E)).
      exact (more_trans _ _ _ (more_step _ _ _ _ E) (IH _ _ _ H)).
    - destruct (elsewhere es); [|discriminate H]. destruct (cut_step C rng h c st) as [s|] eqn:E; [|discriminate H].
      exact (more_trans _ _ _ (more_cut _ _ _ E) (IH _ _ _ H)).
  Qed.
  (** Once one of the kind [f] was for nothing, there is always one more. *)
  Lemma behind es st st1 r st' m : more (session_init (s_conn st)) st -> s_log st1 = s_log st ++ [SE_Received m] -> f (SE_Received m) = true ->
    cut_run C rng h es st1 = Some (r, st') -> count g (s_log st') < count f (s_log st').
  Proof.
    intros (t & E1 & L1) E2 Fm H. apply more_run in H as (u & E3 & L3). cbn [session_init s_log app] in E1.
    rewrite E3, E2, E1, !count_app, !count_cons, !count_nil, Fm. destruct P as [_ P2]. destruct (P2 m) as [-> _]. lia.
  Qed.
End Ahead.
Lemma opens_first : precedes got_open put_confirmation.
Proof. split; [repeat split|]. intros m. destruct m as [d|d|n|d|s|s|ki| |e|e|u|[o|o|c r d l|c n|c d|c t d|c|c|r|c|c]]; split; reflexivity. Qed.
Lemma data_first : precedes got_data put_stdin.
Proof. split; [repeat split|]. intros m. destruct m as [d|d|n|d|s|s|ki| |e|e|u|[o|o|c r d l|c n|c d|c t d|c|c|r|c|c]]; split; reflexivity. Qed.

(** *** Possible cuts *)
Lemma conn_send_grows C rng m b k k' b' : crypto_ok C -> rngs_ok rng -> conn_send C rng m b k = Ok (k', b') ->
  exists w, k_out k' = k_out k ++ w /\ 0 < len w.
Proof.
  intros K R H. destruct (fill_blind m (ndrop 5 b) (ndrop 5 b) eq_refl) as [(pl & r1 & r2 & F1 & _)|[F1 _]]; unfold conn_send in H.
  2:{ rewrite (send_panic _ _ _ _ _ F1) in H. discriminate H. }
  pose proof (wrap_pad_least B8 false (len pl)) as LP. cbn [bs_usize] in LP.
  set (p := wrap_pad 8 false (len pl)) in *. clearbody p. pose proof (R (k_sent k)) as Rk.
  rewrite (send_exact C (k_wr k) b _ (rng (k_sent k)) pl r1 p K Rk F1 LP) in H.
  destruct ((21 + len pl + p <=? len b) && (1 + len pl + p <? 2 ^ 32)) eqn:G; [|discriminate H]. cbn [bind] in H.
  pose proof (Rk p) as Lr. set (raw := be32 (1 + len pl + p) ++ [n2b p] ++ pl ++ rng (k_sent k) p) in *.
  assert (LW : 0 < len (seal_with C (k_wr k) raw)).
  { unfold raw. rewrite seal_len; [|exact K|lens; rewrite be32_len; lia]. lens. rewrite be32_len. lia. }
  set (w := seal_with C (k_wr k) raw) in *. clearbody w. apply Ok_inj, pair_eq in H as [<- _]. exists w. split; [reflexivity|exact LW].
Qed.
Lemma send_cut C rng n m st st' : s_send C rng m st = (Ok tt, st') -> len (k_out (s_conn st)) + n < len (k_out (s_conn st')) ->
  exists st1, s_cut C rng n m st = (Ok tt, st1) /\ s_log st1 = s_log st /\ same st st1.
Proof.
  unfold s_send, s_cut. destruct (conn_send C rng m (s_buf st) (s_conn st)) as [[k b]|e|]; intros H L; try discriminate H.
  apply pair_eq in H as [_ <-]. cbn [s_conn] in L. replace (_ <? _) with true by lia. eexists. split; [reflexivity|]. split; [reflexivity|]. repeat split.
Qed.
Lemma send_grows C rng m st st' : crypto_ok C -> rngs_ok rng -> s_send C rng m st = (Ok tt, st') -> len (k_out (s_conn st)) < len (k_out (s_conn st')).
Proof.
  intros K R. unfold s_send. destruct (conn_send C rng m (s_buf st) (s_conn st)) as [[k b]|e|] eqn:E; intros H; try discriminate H.
  apply pair_eq in H as [_ <-]. cbn [s_conn]. apply conn_send_grows in E as (w & -> & L); [|assumption..]. rewrite len_app. lia.
Qed.
Lemma recv_out C st : k_out (s_conn (snd (s_recv C st))) = k_out (s_conn st) /\ same st (snd (s_recv C st)).
Proof.
  unfold s_recv, conn_recv. destruct (In_recv C (k_rd (s_conn st)) (s_buf st) (k_in (s_conn st))) as [r [[c b] s]]. cbn. repeat split.
Qed.
Lemma message_out C st r s' : s_message C st = (r, s') -> k_out (s_conn s') = k_out (s_conn st) /\ same st s'.
Proof.
  unfold s_message. unfold sbind at 1. intros H. pose proof (recv_out C st) as L.
  destruct (s_recv C st) as [[d|e|] s]; cbn [snd] in L; [|apply pair_eq in H as [_ <-]; exact L..].
  unfold sbind at 1, sret at 1 in H. destruct (unwrap (Message_parse d)) as [m|e|]; apply pair_eq in H as [_ <-]; exact L.
Qed.

(** The message of a packet. *)
Lemma packet_inv C rng h st r st' m t : on_packet C rng h st = (r, st') -> s_log st' = s_log st ++ SE_Received m :: t ->
  exists s, s_message C st = (Ok m, s) /\ on_message C rng h m s = (r, st') /\ s_log s = s_log st ++ [SE_Received m] /\
    k_out (s_conn s) = k_out (s_conn st) /\ same st s.
Proof.
  intros H E. rewrite packet_message in H. pose proof (message_log C st) as L. pose proof (message_out C st) as O. destruct (s_message C st) as [[m'|e|] s] eqn:Q; specialize (O _ _ eq_refl).
  - assert (X : exists u, s_log st' = s_log s ++ u).
    { pose proof (up_message C rng h (fun _ => false) ltac:(repeat split) m' s) as (_ & u & U & _). rewrite H in U. exists u. exact U. }
    destruct X as (u & U). rewrite U, L, <- app_assoc in E. apply app_inv_head in E. apply (f_equal (fun l => match l with e :: _ => Some e | [] => None end)) in E. cbn [app] in E.
    apply Some_inj in E. assert (m' = m) as -> by congruence. exists s. destruct O as [O1 O2]. auto 6.
  - apply pair_eq in H as [_ <-]. rewrite L in E. apply (f_equal len) in E. rewrite len_app, len_cons in E. lia.
  - apply pair_eq in H as [_ <-]. rewrite L in E. apply (f_equal len) in E. rewrite len_app, len_cons in E. lia.
Qed.
Lemma open_cut C rng h n st st' o t : crypto_ok C -> rngs_ok rng -> on_packet C rng h st = (Ok false, st') -> s_log st' = s_log st ++ got (C_Open o) :: t ->
  (n = 0 \/ len (k_out (s_conn st)) + n < len (k_out (s_conn st'))) ->
  exists st1, cut_reply C rng h n st = Some st1 /\ s_log st1 = s_log st ++ [got (C_Open o)] /\ s_stdout st1 = s_stdout st /\ s_stderr st1 = s_stderr st.
Proof.
  intros K R H E L. apply (packet_inv _ _ _ _ _ _ _ _ H) in E as (s & E1 & E2 & E3 & E4 & (M1 & M2 & M3 & _)). cbn [on_message] in E2.
  unfold cut_reply. unfold sbind at 1. rewrite E1. cbn [on_message_cut]. unfold sbind at 1. unfold sbind at 1 in E2.
  unfold s_insert in E2 |- *. destruct (arena_insert (s_chans s) _) as [[i|e|] a]; try discriminate E2. unfold sbind at 1, s_channel in E2.
  set (m := Msg_Channel (C_OpenConfirmation _)) in *. destruct (s_send C rng m (set_chans a s)) as [[[]|e|] s2] eqn:S; try discriminate E2.
  apply pair_eq in E2 as [_ <-].
  destruct (send_cut C rng n m _ _ S) as (s3 & C3 & L3 & (N1 & N2 & N3 & _)).
  { destruct L as [->|L]; [pose proof (send_grows C rng m _ _ K R S); lia|]. cbn [set_chans s_conn]. rewrite E4. exact L. }
  exists s3. fold m. rewrite C3. split; [reflexivity|]. rewrite L3. split; [exact E3|]. cbn [set_chans s_stdout s_stderr] in *. split; congruence.
Qed.
Lemma data_cut C rng h st st' c d t : on_packet C rng h st = (Ok false, st') -> s_log st' = s_log st ++ got (C_Data c d) :: t ->
  exists st1, cut_handler C st = Some st1 /\ s_log st1 = s_log st ++ [got (C_Data c d)].
Proof.
  intros H E. apply (packet_inv _ _ _ _ _ _ _ _ H) in E as (s & E1 & E2 & E3 & E4 & _). cbn [on_message] in E2.
  unfold cut_handler. rewrite E1. cbn [waits_for_handler]. unfold sbind at 1, s_get in E2.
  destruct (arena_get (s_chans s) c) as [ch|]; [|discriminate E2]. unfold sbind at 1 in E2.
  destruct (ch_stdin ch) as [x|]; [|discriminate E2]. exists s. split; [reflexivity|exact E3].
Qed.
Lemma start_cut C rng h n st st' q i p x ty io t : crypto_ok C -> rngs_ok rng -> on_packet C rng h st = (Ok false, st') ->
  s_log st' = s_log st ++ got (C_Request q) :: SE_Spawn i p x ty (Ok io) :: t -> rq_want_reply q = true ->
  (n = 0 \/ len (k_out (s_conn st)) + n < len (k_out (s_conn st'))) ->
  exists st1 old, cut_reply C rng h n st = Some st1 /\ s_log st1 = s_log st ++ got (C_Request q) :: SE_Spawn i p x ty (Ok io) :: dropped old /\
    x = s_children st /\ s_children st1 = 1 + s_children st /\
    s_stdout st1 = s_stdout st /\ s_stderr st1 = s_stderr st /\ s_wait st1 = s_wait st.
Proof.
  intros K R H E W L. pose proof E as E'. apply (packet_inv _ _ _ _ _ _ _ _ H) in E as (s & E1 & E2 & E3 & E4 & (M1 & M2 & M3 & M4 & M5)). cbn [on_message] in E2.
  unfold cut_reply. unfold sbind at 1. rewrite E1. cbn [on_message_cut]. unfold sbind at 1, s_get. unfold sbind at 1, s_get in E2.
  destruct (arena_get (s_chans s) (rq_recipient q)) as [ch|]; [|discriminate E2]. unfold sbind at 1, sret at 1. unfold sbind at 1, sret at 1 in E2.
  destruct (unwrap (SessionRequest_parse (rq_ty q) (rq_data q))) as [req|e|]; try discriminate E2. unfold sbind at 1 in E2.
  assert (X : exists ty', match req with SR_Shell => on_spawn C rng h q ch Spawn_Shell | SR_Exec c => on_spawn C rng h q ch (Spawn_Exec c)
      | SR_Pty _ _ _ _ _ _ | SR_Env _ _ => on_refused C rng q ch | _ => sret Panic end s = on_spawn C rng h q ch ty' s /\
    match req with SR_Shell => on_spawn_cut C rng h n q ch Spawn_Shell | SR_Exec c => on_spawn_cut C rng h n q ch (Spawn_Exec c)
      | SR_Pty _ _ _ _ _ _ | SR_Env _ _ => if rq_want_reply q then s_cut C rng n (Msg_Channel (C_Failure (ch_peer ch))) else sret Panic | _ => sret Panic end s
      = on_spawn_cut C rng h n q ch ty' s).
  { destruct req; try discriminate E2; [exfalso|exfalso|eexists; split; reflexivity..].
    all: unfold on_refused in E2; rewrite W in E2; unfold s_channel, s_send in E2;
      destruct (conn_send C rng _ _ _) as [[k1 b1]|e1|]; try discriminate E2; apply pair_eq in E2 as [_ <-]; cbn [s_log] in E';
      rewrite E3, <- app_assoc in E'; apply app_inv_head in E'; discriminate E'. }
  destruct X as (ty' & X1 & X2). rewrite X1 in E2. rewrite X2. clear X1 X2 req.
  unfold on_spawn in E2. unfold on_spawn_cut. rewrite W in *. unfold sbind at 1, s_spawn in E2. unfold sbind at 1, s_spawn.
  destruct (h_spawn h (s_log s) ty') as [io'|e|] eqn:HS; try discriminate E2. cbn [unwrap map_ok] in *.
  unfold sbind at 1, s_put in E2. unfold sbind at 1, s_put. unfold set_chans in *. cbn [s_conn s_buf s_chans s_stdout s_stderr s_wait s_children s_log] in *.
  set (s1 := {| s_conn := _ |}) in *.
  assert (DR : exists s2, s_drop (ch_stdin ch) s1 = (Ok tt, s2) /\ s_log s2 = s_log s1 ++ dropped (ch_stdin ch) /\ same s1 s2 /\ s_conn s2 = s_conn s1).
  { clear. destruct (ch_stdin ch) as [y|]; cbn [s_drop]; [eexists; split; [reflexivity|]|exists s1; split; [reflexivity|]; cbn [dropped]; rewrite app_nil_r];
      (split; [reflexivity|]; split; [repeat split|reflexivity]). }
  destruct DR as (s2 & DR & LU & (N1 & N2 & N3 & N4 & N5) & NC). unfold sbind at 1 in E2. unfold sbind at 1. rewrite DR in *.
  unfold sbind at 1, s_channel in E2. destruct (s_send C rng (Msg_Channel (C_Success (ch_peer ch))) s2) as [[[]|e|] s3] eqn:S; try discriminate E2.
  assert (E5 : s_log st' = s_log s3 /\ s_conn st' = s_conn s3) by (apply pair_eq in E2 as [_ <-]; split; reflexivity). destruct E5 as [E5 E6].
  destruct (send_cut C rng n _ _ _ S) as (s4 & C4 & L4 & (O1 & O2 & O3 & O4 & O5)).
  { destruct L as [->|L]; [pose proof (send_grows C rng _ _ _ K R S); lia|]. rewrite NC. cbn [s1 s_conn]. rewrite E4, <- E6. exact L. }
  assert (L3 : exists v, s_log s3 = s_log s2 ++ v).
  { unfold s_send in S. destruct (conn_send C rng _ (s_buf s2) (s_conn s2)) as [[k1 b1]|e1|]; try discriminate S. apply pair_eq in S as [_ <-]. eexists. reflexivity. }
  destruct L3 as (v & L3). rewrite C4. rewrite E5, L3, LU in E'. cbn [s1 s_log] in E'. rewrite E3, <- !app_assoc in E'. apply app_inv_head in E'. cbn [app] in E'.
  apply pair_cons in E' as [_ E']. apply pair_cons in E' as [E' _].
  exists s4, (ch_stdin ch). split; [reflexivity|]. rewrite L4, LU. cbn [s1 s_log]. rewrite E3, <- !app_assoc. cbn [app].
  split; [rewrite E'; reflexivity|]. split; [congruence|].
  rewrite O5, N5, O2, N2, O3, N3, O4, N4. cbn [s1 s_children s_stdout s_stderr s_wait]. rewrite M2, M3, M4, M5. repeat split.
Qed.
