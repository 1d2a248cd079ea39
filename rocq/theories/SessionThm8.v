(** What a session does depends only on the bytes it reads. *)
From Coq Require Import Init.Byte Strings.Byte.
From Verif Require Export AuthThm3 SessionToy.
Open Scope res_scope.

Section Local.
  Context (C : Crypto) (rng : N -> N -> bytes) (h : SHandlers).

  Definition s_local {A} (m : SM A) : Prop := forall st a st1 t, m st = (Ok a, st1) -> m (s_more t st) = (Ok a, s_more t st1).
  Lemma sl_bind {A D} (m : SM A) (k : A -> SM D) : s_local m -> (forall a, s_local (k a)) -> s_local (sbind m k).
  Proof.
    intros M F st d st1 t H. unfold sbind in *. destruct (m st) as [[a|e|] st2] eqn:E; [|discriminate H..].
    rewrite (M _ _ _ t E). apply F, H.
  Qed.
  Lemma sl_ret {A} (r : res InError A) : s_local (sret r).
  Proof. intros st a st1 t H. unfold sret in *. apply pair_eq in H as [-> ->]. reflexivity. Qed.
  Lemma sl_event e : s_local (s_event e).
  Proof. intros st a st1 t H. unfold s_event in *. apply pair_eq in H as [-> <-]. reflexivity. Qed.
  Lemma sl_insert c : s_local (s_insert c).
  Proof.
    intros st a st1 t H. unfold s_insert in *. cbn [s_more s_chans]. destruct (arena_insert (s_chans st) c) as [r x].
    apply pair_eq in H as [-> <-]. reflexivity.
  Qed.
  Lemma sl_get i : s_local (s_get i).
  Proof. intros st a st1 t H. unfold s_get in *. cbn [s_more s_chans]. apply pair_eq in H as [-> <-]. reflexivity. Qed.
  Lemma sl_put i x : s_local (s_put i x).
  Proof. intros st a st1 t H. unfold s_put in *. apply pair_eq in H as [-> <-]. reflexivity. Qed.
  Lemma sl_drop x : s_local (s_drop x).
  Proof. destruct x; [apply sl_event|apply sl_ret]. Qed.
  Lemma sl_send m : s_local (s_send C rng m).
  Proof.
    intros st a st1 t H. unfold s_send in *. cbn [s_more s_buf s_conn s_chans s_stdout s_stderr s_wait s_children s_log]. rewrite conn_send_more.
    destruct (conn_send C rng m (s_buf st) (s_conn st)) as [[k b]|e|]; [|discriminate H..]. cbn [map_ok fst snd].
    apply pair_eq in H as [-> <-]. reflexivity.
  Qed.
  Lemma sl_spawn i ch ty : s_local (s_spawn h i ch ty).
  Proof. intros st a st1 t H. unfold s_spawn in *. apply pair_eq in H as [H <-]. cbn [s_more s_log s_children]. rewrite H. reflexivity. Qed.
  Lemma sl_write n d : s_local (s_write h n d).
  Proof. intros st a st1 t H. unfold s_write in *. apply pair_eq in H as [H <-]. cbn [s_more s_log s_children]. rewrite H. reflexivity. Qed.
  Lemma sl_new_io n io p : s_local (s_new_io n io p).
  Proof. intros st a st1 t H. unfold s_new_io in *. apply pair_eq in H as [-> <-]. reflexivity. Qed.
  Lemma sl_reads err l : s_local (set_reads err l).
  Proof. intros st a st1 t H. unfold set_reads in *. apply pair_eq in H as [-> <-]. destruct err; reflexivity. Qed.
  Lemma sl_wait l : s_local (set_wait l).
  Proof. intros st a st1 t H. unfold set_wait in *. apply pair_eq in H as [-> <-]. reflexivity. Qed.
  Lemma sl_recv : s_local (s_recv C).
  Proof.
    intros st a st1 t H. unfold s_recv in *. cbn [s_more s_buf s_conn s_chans s_stdout s_stderr s_wait s_children s_log].
    destruct (conn_recv C (s_buf st) (s_conn st)) as [r [k b]] eqn:E. apply pair_eq in H as [-> <-].
    rewrite (conn_recv_local _ _ _ _ _ _ t E). reflexivity.
  Qed.
  (** Code that looks at the state in ways that do not show the input. *)
  Lemma sl_view {A X} (v : SSt -> X) (m : X -> SM A) : (forall t st, v (s_more t st) = v st) -> (forall x, s_local (m x)) -> s_local (fun st => m (v st) st).
  Proof. intros V F st a st1 t H. rewrite V. apply F, H. Qed.
  Ltac sl := repeat lazymatch goal with
    | |- s_local (sbind _ _) => refine (sl_bind _ _ _ _); [|intros ?]
    | |- s_local (sret _) => exact (sl_ret _)
    | |- s_local (s_event _) => exact (sl_event _)
    | |- s_local (s_insert _) => exact (sl_insert _)
    | |- s_local (s_get _) => exact (sl_get _)
    | |- s_local (s_put _ _) => exact (sl_put _ _)
    | |- s_local (s_drop _) => exact (sl_drop _)
    | |- s_local (s_send _ _ _) => exact (sl_send _)
    | |- s_local (s_channel _ _ _) => exact (sl_send _)
    | |- s_local (s_spawn _ _ _ _) => exact (sl_spawn _ _ _)
    | |- s_local (s_write _ _ _) => exact (sl_write _ _)
    | |- s_local (s_new_io _ _ _) => exact (sl_new_io _ _ _)
    | |- s_local (set_reads _ _) => exact (sl_reads _ _)
    | |- s_local (set_wait _) => exact (sl_wait _)
    | |- s_local (s_recv _) => exact sl_recv
    | |- s_local (on_spawn _ _ _ _ _ _) => unfold on_spawn
    | |- s_local (on_refused _ _ _ _) => unfold on_refused
    | |- s_local (if ?x then _ else _) => destruct x
    | |- s_local (match ?x with _ => _ end) => destruct x
    end.
  Lemma sl_message m : s_local (on_message C rng h m).
  Proof.
    unfold on_message. sl.
    intros st a st1 t H. cbn [s_more s_chans]. match goal with |- context [arena_remove (s_chans st) ?c] => destruct (arena_remove (s_chans st) c) as [x y] end.
    change (set_chans y (s_more t st)) with (s_more t (set_chans y st)). revert H. generalize (set_chans y st). intros st' H.
    eapply (sl_bind (s_drop _) (fun _ => sret (Ok false))); [apply sl_drop|intros; apply sl_ret|exact H].
  Qed.
  Lemma sl_packet : s_local (on_packet C rng h).
  Proof. unfold on_packet. sl. apply sl_message. Qed.
  Lemma sl_output err n p d : s_local (on_output C rng err n p d).
  Proof.
    unfold on_output. sl.
    apply (sl_view (fun st => if err then s_stderr st else s_stdout st)
      (fun l => sbind (set_reads err (forget n l)) (fun _ => if err then sret (Ok tt) else sbind (s_channel C rng (C_Eof p)) (fun _ => s_channel C rng (C_Close p))))).
    - intros t st. destruct err; reflexivity.
    - intros x. sl.
  Qed.
  Lemma sl_exit n p status : s_local (on_exit C rng n p status).
  Proof.
    unfold on_exit.
    apply (sl_view s_wait (fun l => sbind (set_wait (forget n l)) (fun _ => sbind (s_event (SE_Exit n status)) (fun _ =>
       sbind (sret (unwrap (session_written (SR_ExitStatus status) (zeros 256)))) (fun x => let '(ty, data) := x in
       sbind (s_channel C rng (C_Request {| rq_recipient := p; rq_ty := ty; rq_want_reply := false; rq_data := data |})) (fun _ => sret (Ok false))))))).
    - reflexivity.
    - intros x. sl.
  Qed.
  Lemma step_local e st b st1 t : session_step C rng h e st = Some (Ok b, st1) -> session_step C rng h e (s_more t st) = Some (Ok b, s_more t st1).
  Proof.
    destruct e as [|err n d|n status]; cbn [session_step].
    - intros H. apply Some_inj in H. f_equal. apply sl_packet, H.
    - change (if err then s_stderr (s_more t st) else s_stdout (s_more t st)) with (if err then s_stderr st else s_stdout st).
      destruct (look n (if err then s_stderr st else s_stdout st)) as [p|]; [|intros X; discriminate X].
      destruct (match d with Ok d => len d <=? 256 | _ => true end); [|intros X; discriminate X].
      intros H. apply Some_inj in H. f_equal. apply sl_output, H.
    - change (s_wait (s_more t st)) with (s_wait st). destruct (look n (s_wait st)) as [p|]; [|intros X; discriminate X].
      destruct (is_u32 status); [|intros X; discriminate X].
      intros H. apply Some_inj in H. f_equal. apply sl_exit, H.
  Qed.
  Lemma run_local es : forall st b st1 t, session_run C rng h es st = Some (Ok b, st1) -> session_run C rng h es (s_more t st) = Some (Ok b, s_more t st1).
  Proof.
    induction es as [|e es IH]; intros st b st1 t H; cbn [session_run] in *.
    - apply Some_inj, pair_eq in H as [H ->]. apply Ok_inj in H as <-. reflexivity.
    - destruct (session_step C rng h e st) as [[[[|]|x|] st2]|] eqn:E; [..|discriminate H]; [| |discriminate H..]; rewrite (step_local _ _ _ _ t E).
      + apply Some_inj, pair_eq in H as [H ->]. rewrite H. reflexivity.
      + apply IH, H.
  Qed.
End Local.
Lemma init_more t k : session_init (more t k) = s_more t (session_init k).
Proof. unfold session_init, s_more. reflexivity. Qed.
Lemma session_local C rng h k es b st t : is_session C rng h k es (Ok b) st -> is_session C rng h (more t k) es (Ok b) (s_more t st).
Proof.
  intros (K & R & A & D & H). split; [exact K|]. split; [exact R|]. split; [exact A|]. split; [exact D|]. rewrite init_more. revert H.
  generalize (session_init k). intros st0 H. apply run_local, H.
Qed.

(** A packet that the client adds to what it sends. *)
Definition added C (st : SSt) (m : Message) : bytes := seal_with C (k_rd (s_conn st)) (toy_raw (wire m)).
Lemma add_packet C rng h k es st m t : is_session C rng h k es (Ok false) st -> k_in (s_conn st) = [] -> message_ok m -> len (wire m) <= 30000 ->
  is_ecdh_reply m = false -> crash h (s_log st) (SE_Received m :: t) ->
  exists st', is_session C rng h (more (added C st m) k) (es ++ [Ev_Packet]) Panic st'.
Proof.
  intros IS E OK L NE X. destruct (toy_raw_ok (wire m)) as [P Q]; [lia|].
  apply (session_local _ _ _ _ _ _ _ (added C st m)) in IS.
  eapply (panic_any_time C rng h _ es _ (wire m) _ (toy_raw (wire m)) [] m t IS); auto.
  - cbn [s_more s_conn more k_in k_rd]. rewrite E, app_nil_r. reflexivity.
  - exact P.
  - lia.
  - apply wire_is_wire, OK.
Qed.
Lemma any_session_panics C rng h k es st : is_session C rng h k es (Ok false) st -> k_in (s_conn st) = [] ->
  exists t st', is_session C rng h (more t k) (es ++ [Ev_Packet]) Panic st'.
Proof.
  intros IS E. exists (added C st (Msg_Channel (C_WindowAdjust 0 0))). apply (add_packet _ _ _ _ _ _ _ [] IS E).
  - split; [|exact I]. repeat constructor.
  - vm_compute. discriminate.
  - reflexivity.
  - apply X_Unsupported. reflexivity.
Qed.
