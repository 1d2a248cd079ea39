(** Proofs about cancelled sessions: children that are not heard, packets that are
    lost, and the lemmas for the properties. *)
From Coq Require Import Init.Byte Strings.Byte.
From Verif Require Export CancelThm2.
Open Scope res_scope.
Open Scope s_scope.

Section Quiet.
  Context (C : Crypto) (rng : N -> N -> bytes) (h : SHandlers) (c : N).
  (** Nobody listens to child [c]. *)
  Definition quiet (st : SSt) : Prop :=
    look c (s_stdout st) = None /\ look c (s_stderr st) = None /\ look c (s_wait st) = None /\ c < s_children st.
  Definition hush {A} (V : A -> Prop) (m : SM A) : Prop := forall st, quiet st ->
    quiet (snd (m st)) /\ (exists t, s_log (snd (m st)) = s_log st ++ t /\ count (heard c) t = 0) /\
    match fst (m st) with Ok a => V a | _ => True end.
  Definition any {A} (_ : A) : Prop := True.
  Lemma hu_bind {A D} (V : A -> Prop) (W : D -> Prop) (m : SM A) (k : A -> SM D) : hush V m -> (forall x, V x -> hush W (k x)) -> hush W (sbind m k).
  Proof.
    intros M F st Q. destruct (M st Q) as (Q1 & (t & E1 & L1) & Vx). unfold sbind. destruct (m st) as [[x|e|] s]; cbn [fst snd] in *.
    - destruct (F x Vx s Q1) as (Q2 & (u & E2 & L2) & Wx). split; [exact Q2|]. split; [|exact Wx].
      exists (t ++ u). rewrite E2, E1, app_assoc, count_app. split; [reflexivity|lia].
    - split; [exact Q1|]. split; [|exact I]. exists t. split; [exact E1|exact L1].
    - split; [exact Q1|]. split; [|exact I]. exists t. split; [exact E1|exact L1].
  Qed.
  Lemma hu_same {A} (m : SM A) : (forall st, same st (snd (m st)) /\ exists t, s_log (snd (m st)) = s_log st ++ t /\ count (heard c) t = 0) -> hush any m.
  Proof.
    intros F st (Q1 & Q2 & Q3 & Q4). destruct (F st) as [(E1 & E2 & E3 & E4 & E5) T]. split; [|split; [exact T|destruct (fst (m st)); exact I]].
    unfold quiet. rewrite E2, E3, E4, E5. auto.
  Qed.
  Lemma hu_chans {A} (m : SM A) : (forall st, exists a, snd (m st) = set_chans a st) -> hush any m.
  Proof.
    intros F st Q. destruct (F st) as (a & E). rewrite E. split; [exact Q|]. split; [|destruct (fst (m st)); exact I].
    exists []. rewrite app_nil_r. split; reflexivity.
  Qed.
  Lemma hu_ret {A} (r : res InError A) : hush any (sret r).
  Proof. apply hu_same. intros st. split; [repeat split|]. exists []. rewrite app_nil_r. split; reflexivity. Qed.
  Lemma hu_event e : heard c e = false -> hush any (s_event e).
  Proof. intros E. apply hu_same. intros st. split; [repeat split|]. exists [e]. split; [reflexivity|]. rewrite count_cons, E. reflexivity. Qed.
  Lemma hu_insert x : hush any (s_insert x).
  Proof. apply hu_chans. intros st. unfold s_insert. destruct (arena_insert (s_chans st) x) as [r a]. exists a. reflexivity. Qed.
  Lemma hu_get i : hush any (s_get i).
  Proof. apply hu_same. intros st. split; [repeat split|]. exists []. rewrite app_nil_r. split; reflexivity. Qed.
  Lemma hu_put i x : hush any (s_put i x).
  Proof. apply hu_chans. intros st. eexists. reflexivity. Qed.
  Lemma hu_drop x : hush any (s_drop x).
  Proof. destruct x; [apply hu_event; reflexivity|apply hu_ret]. Qed.
  Lemma hu_spawn i ch ty : hush (fun x : N * IoSet => fst x <> c) (s_spawn h i ch ty).
  Proof.
    intros st (Q1 & Q2 & Q3 & Q4). unfold s_spawn. cbn [fst snd]. split; [unfold quiet; cbn [s_stdout s_stderr s_wait s_children]; repeat split; auto; lia|].
    split; [eexists; split; [reflexivity|reflexivity]|]. destruct (unwrap (h_spawn h (s_log st) ty)); cbn [map_ok]; [|exact I..]. cbn [fst]. lia.
  Qed.
  Lemma hu_write n d : hush any (s_write h n d).
  Proof. apply hu_same. intros st. split; [repeat split|]. eexists. split; [reflexivity|reflexivity]. Qed.
  Lemma hu_send m : hush any (s_send C rng m).
  Proof.
    apply hu_same. intros st. unfold s_send. destruct (conn_send C rng m (s_buf st) (s_conn st)) as [[k b]|e|]; cbn [snd].
    - split; [repeat split|]. exists [SE_Sent m]. split; reflexivity.
    - split; [repeat split|]. exists []. rewrite app_nil_r. split; reflexivity.
    - split; [repeat split|]. exists []. rewrite app_nil_r. split; reflexivity.
  Qed.
  Lemma hu_cut n m : hush any (s_cut C rng n m).
  Proof.
    apply hu_same. intros st. unfold s_cut. destruct (conn_send C rng m (s_buf st) (s_conn st)) as [[k b]|e|]; [destruct (_ <? _)|..]; cbn [snd];
      (split; [repeat split|]; exists []; rewrite app_nil_r; split; reflexivity).
  Qed.
  Lemma hu_new_io n io p : n <> c -> hush any (s_new_io n io p).
  Proof.
    intros D st (Q1 & Q2 & Q3 & Q4). unfold s_new_io. cbn [fst snd]. split; [|split; [exists []; rewrite app_nil_r; split; reflexivity|exact I]].
    unfold quiet. cbn [s_stdout s_stderr s_wait s_children]. 
    destruct (io_stdout io), (io_stderr io); cbn [orb app look]; replace (n =? c) with false by lia; auto.
  Qed.
  Lemma hu_reads err n : hush any (fun st => set_reads err (forget n (if err then s_stderr st else s_stdout st)) st).
  Proof.
    intros st (Q1 & Q2 & Q3 & Q4). unfold set_reads. cbn [fst snd]. split; [|split; [exists []; rewrite app_nil_r; split; reflexivity|exact I]].
    unfold quiet. cbn [s_stdout s_stderr s_wait s_children]. destruct err; rewrite ?look_forget, ?Q1, ?Q2; destruct (n =? c); auto.
  Qed.
  Lemma hu_wait n : hush any (fun st => set_wait (forget n (s_wait st)) st).
  Proof.
    intros st (Q1 & Q2 & Q3 & Q4). unfold set_wait. cbn [fst snd]. split; [|split; [exists []; rewrite app_nil_r; split; reflexivity|exact I]].
    unfold quiet. cbn [s_stdout s_stderr s_wait s_children]. rewrite look_forget, Q3. destruct (n =? c); auto.
  Qed.
  Lemma hu_recv : hush any (s_recv C).
  Proof.
    apply hu_same. intros st. destruct (recv_out C st) as [_ S]. split; [exact S|]. exists []. rewrite app_nil_r. split; [apply recv_log|reflexivity].
  Qed.
  Ltac hu := repeat lazymatch goal with
    | |- hush _ (sbind (s_spawn _ _ _ _) _) => refine (hu_bind _ _ _ _ (hu_spawn _ _ _) _); intros [? ?] ?; cbn [fst] in *
    | |- hush _ (sbind _ _) => refine (hu_bind any _ _ _ _ _); [|intros ? _]
    | |- hush _ (sret _) => exact (hu_ret _)
    | |- hush _ (s_insert _) => exact (hu_insert _)
    | |- hush _ (s_get _) => exact (hu_get _)
    | |- hush _ (s_put _ _) => exact (hu_put _ _)
    | |- hush _ (s_drop _) => exact (hu_drop _)
    | |- hush _ (s_write _ _ _) => exact (hu_write _ _)
    | |- hush _ (s_cut _ _ _ _) => exact (hu_cut _ _)
    | |- hush _ (s_channel C rng _) => exact (hu_send _)
    | |- hush _ (s_new_io _ _ _) => apply hu_new_io; assumption
    | |- hush _ (s_recv _) => exact hu_recv
    | |- hush _ (on_spawn _ _ _ _ _ _) => unfold on_spawn
    | |- hush _ (on_spawn_cut _ _ _ _ _ _ _) => unfold on_spawn_cut
    | |- hush _ (on_refused _ _ _ _) => unfold on_refused
    | |- hush _ (if ?x then _ else _) => destruct x
    | |- hush _ (match ?x with _ => _ end) => destruct x
    end.
  Lemma hu_message m : hush any (on_message C rng h m).
  Proof.
    destruct m as [d|d|n|d|s|s|ki| |e|e|u|ch]; cbn [on_message]; try (hu; fail).
    destruct ch as [o|o|i r d l|i n|i d|i t d|i|i|r|i|i]; cbn [on_message]; try (hu; fail).
    intros st Q. destruct (arena_remove (s_chans st) i) as [x a].
    assert (X : hush any (_ <: s_drop (match x with Some ch => ch_stdin ch | None => None end) ;; sret (Ok false))) by hu.
    exact (X (set_chans a st) Q).
  Qed.
  Lemma hu_message_cut n m : hush any (on_message_cut C rng h n m).
  Proof. unfold on_message_cut. hu. Qed.
  Lemma hu_get_message : hush any (s_message C).
  Proof. unfold s_message. hu. apply hu_event. reflexivity. Qed.
  Lemma hu_packet : hush any (on_packet C rng h).
  Proof. unfold on_packet. hu; [apply hu_event; reflexivity|]. apply hu_message. Qed.
  Lemma hu_output err n p d : n <> c -> hush any (on_output C rng err n p d).
  Proof.
    intros D. unfold on_output. hu; [apply hu_event; cbn [heard]; lia|].
    refine (hu_bind any any (fun st => set_reads err (forget n (if err then s_stderr st else s_stdout st)) st)
      (fun _ => if err then sret (Ok tt) else _ <: s_channel C rng (C_Eof p) ;; s_channel C rng (C_Close p)) (hu_reads err n) _). intros _ _. hu.
  Qed.
  Lemma hu_exit n p s : n <> c -> hush any (on_exit C rng n p s).
  Proof.
    intros D. unfold on_exit. generalize (session_written (SR_ExitStatus s) (zeros 256)). intros w.
    refine (hu_bind any any (fun st => set_wait (forget n (s_wait st)) st) (fun _ => _ <: s_event (SE_Exit n s) ;; '(ty, data) <: sret (unwrap w) ;;
     _ <: s_channel C rng (C_Request {| rq_recipient := p; rq_ty := ty; rq_want_reply := false; rq_data := data |}) ;;
     sret (Ok false)) (hu_wait n) _). intros _ _. hu. apply hu_event; cbn [heard]; lia.
  Qed.
  Definition stays (st st' : SSt) : Prop := quiet st' /\ exists t, s_log st' = s_log st ++ t /\ count (heard c) t = 0.
  Lemma stays_step e st r st' : quiet st -> session_step C rng h e st = Some (r, st') -> stays st st'.
  Proof.
    intros Q H. destruct e as [|err n d|n s]; cbn [session_step] in H.
    - apply Some_inj in H. destruct (hu_packet st Q) as (A & B & _). rewrite H in *. split; assumption.
    - destruct (look n _) as [p|] eqn:E; [|discriminate H]. destruct (match d with Ok d => _ | _ => _ end); [|discriminate H]. apply Some_inj in H.
      assert (D : n <> c) by (intros ->; destruct Q as (Q1 & Q2 & _); destruct err; congruence).
      destruct (hu_output err n p d D st Q) as (A & B & _). rewrite H in *. split; assumption.
    - destruct (look n _) as [p|] eqn:E; [|discriminate H]. destruct (is_u32 s); [|discriminate H]. apply Some_inj in H.
      assert (D : n <> c) by (intros ->; destruct Q as (_ & _ & Q3 & _); congruence).
      destruct (hu_exit n p s D st Q) as (A & B & _). rewrite H in *. split; assumption.
  Qed.
  Lemma stays_cut x st st' : quiet st -> cut_step C rng h x st = Some st' -> stays st st'.
  Proof.
    intros Q H. destruct x as [n| |n]; cbn [cut_step] in H.
    - apply cut_read_same in H as (d & rest & _ & _ & b & _ & ->). split; [exact Q|]. exists []. rewrite app_nil_r. split; reflexivity.
    - unfold cut_handler in H. destruct (hu_get_message st Q) as (A & B & _). destruct (s_message C st) as [[m|e|] s]; try discriminate H.
      destruct (waits_for_handler _ _); [|discriminate H]. apply Some_inj in H as <-. split; assumption.
    - unfold cut_reply in H. assert (X : hush any (m <: s_message C ;; on_message_cut C rng h n m)).
      { refine (hu_bind any _ _ _ hu_get_message _). intros m _. apply hu_message_cut. }
      destruct (X st Q) as (A & B & _). destruct ((m <: s_message C ;; on_message_cut C rng h n m) st) as [[m|e|] s]; try discriminate H.
      apply Some_inj in H as <-. split; assumption.
  Qed.
  Lemma stays_run es : forall st r st', quiet st -> cut_run C rng h es st = Some (r, st') -> stays st st'.
  Proof.
    assert (T : forall a b d, stays a b -> stays b d -> stays a d).
    { intros a b d (_ & t & E1 & L1) (Q & u & E2 & L2). split; [exact Q|]. exists (t ++ u). rewrite E2, E1, app_assoc, count_app. split; [reflexivity|lia]. }
    induction es as [|[e|x] es IH]; intros st r st' Q H; cbn [cut_run] in H.
    - apply Some_inj, pair_eq in H as [_ <-]. split; [exact Q|]. exists []. rewrite app_nil_r. split; reflexivity.
    - destruct (session_step C rng h e st) as [[[[|]|y|] s]|] eqn:E; try discriminate H;
        pose proof (stays_step _ _ _ _ Q E) as S; try (apply Some_inj, pair_eq in H as [_ <-]; exact S).
      exact (T _ _ _ S (IH _ _ _ (proj1 S) H)).
    - destruct (elsewhere es); [|discriminate H]. destruct (cut_step C rng h x st) as [s|] eqn:E; [|discriminate H].
      pose proof (stays_cut _ _ _ Q E) as S. exact (T _ _ _ S (IH _ _ _ (proj1 S) H)).
  Qed.
End Quiet.

(** *** Fewer than four bytes are no packet *)
Definition starved (st : SSt) : Prop := len (k_in (s_conn st)) < 4.
Lemma starved_message C st : starved st -> exists r st', s_message C st = (r, st') /\ (forall m, r <> Ok m) /\ s_log st' = s_log st.
Proof.
  intros S. unfold s_message. unfold sbind at 1, s_recv, conn_recv. destruct (N.ltb_spec (len (s_buf st)) 4) as [L|L].
  - rewrite recv_short by lia. eexists _, _. split; [reflexivity|]. split; [discriminate|reflexivity].
  - rewrite recv_eof by (assumption || lia). eexists _, _. split; [reflexivity|]. split; [discriminate|reflexivity].
Qed.
Definition is_received (e : SEvent) : bool := match e with SE_Received _ => true | _ => false end.
Lemma received_none log : count is_received log = 0 -> received log = [].
Proof.
  induction log as [|e log IH]; [reflexivity|]. rewrite count_cons. intros H. destruct e; cbn [is_received] in H; cbn [received flat_map app]; try (apply IH; lia). lia.
Qed.
Lemma starved_run C rng h es : forall st r st', starved st -> cut_run C rng h es st = Some (r, st') -> received (s_log st') = received (s_log st).
Proof.
  induction es as [|[e|x] es IH]; intros st r st' S H; cbn [cut_run] in H.
  - apply Some_inj, pair_eq in H as [_ <-]. reflexivity.
  - assert (X : e = Ev_Packet \/ e <> Ev_Packet) by (destruct e; [left; reflexivity|right; discriminate..]). destruct X as [->|N].
    + cbn [session_step] in H. rewrite packet_message in H. destruct (starved_message C st S) as (y & s & E & NO & L). rewrite E in H.
      destruct y as [m|e|]; [destruct (NO m eq_refl)|..]; apply Some_inj, pair_eq in H as [_ <-]; rewrite L; reflexivity.
    + destruct (session_step C rng h e st) as [[y s]|] eqn:E; [|discriminate H].
      destruct (up_child C rng h is_received ltac:(repeat split) _ _ _ _ E N) as (E1 & t & E2 & E3).
      assert (Q : received (s_log s) = received (s_log st)) by (rewrite E2, received_ev_app, (received_none t E3), app_nil_r; reflexivity).
      destruct y as [[|]|y|]; try (apply Some_inj, pair_eq in H as [_ <-]; exact Q).
      rewrite <- Q. apply (IH _ _ _ ltac:(unfold starved in *; rewrite E1; exact S) H).
  - destruct (elsewhere es); [|discriminate H]. destruct (cut_step C rng h x st) as [s|] eqn:E; [|discriminate H].
    destruct x as [n| |n]; cbn [cut_step] in E.
    + apply cut_read_same in E as (d & rest & E1 & _ & b & _ & ->). apply IH in H; [exact H|]. unfold starved in *.
      cbn [s_with s_in s_conn with_in k_in]. rewrite E1, len_app in S. lia.
    + unfold cut_handler in E. destruct (starved_message C st S) as (y & s1 & E1 & NO & _). rewrite E1 in E.
      destruct y as [m|e|]; [destruct (NO m eq_refl)|discriminate E..].
    + unfold cut_reply in E. unfold sbind at 1 in E. destruct (starved_message C st S) as (y & s1 & E1 & NO & _). rewrite E1 in E.
      destruct y as [m|e|]; [destruct (NO m eq_refl)|discriminate E..].
Qed.

(** *** Sessions *)
Lemma after C rng h k es st xs r st' : is_session C rng h k es (Ok false) st ->
  (is_cut_session C rng h k (map X_Turn es ++ xs) r st' <-> cut_run C rng h xs st = Some (r, st')).
Proof.
  intros (K & R & L1 & L2 & H). unfold is_cut_session. rewrite cut_run_turns. 
  pose proof (init_fields k) as _. revert H. generalize (session_init k). intros s0 H. rewrite H. split; [intros (_ & _ & _ & _ & X); exact X|intros X; auto].
Qed.
Lemma one_more C rng h k es e r st st' : is_session C rng h k es (Ok false) st -> is_session C rng h k (es ++ [e]) r st' ->
  session_step C rng h e st = Some (r, st').
Proof.
  intros (_ & _ & _ & _ & H) (_ & _ & _ & _ & H'). rewrite session_run_app in H'. revert H H'. generalize (session_init k). intros s0 H H'. rewrite H in H'.
  cbn [session_run] in H'. destruct (session_step C rng h e st) as [[[[|]|x|] s]|]; exact H'.
Qed.
Lemma cut_first C rng h x e st st1 : cut_step C rng h x st = Some st1 -> e <> Ev_Packet ->
  cut_run C rng h [X_Cut x; X_Turn e] st = match session_step C rng h e st1 with Some (Ok false, st2) => Some (Ok false, st2) | y => y end.
Proof. intros E N. cbn [cut_run elsewhere]. destruct e; [congruence|..]; rewrite E; reflexivity. Qed.

(** A packet is lost. *)
Lemma packet_lost C rng h k es st pl pad raw n : is_session C rng h k es (Ok false) st ->
  k_in (s_conn st) = seal_with C (k_rd (s_conn st)) raw -> loose_packet pl pad raw -> len raw + 16 <= 35000 ->
  n < len (k_in (s_conn st)) <= n + 3 ->
  (forall e st', e <> Ev_Packet -> is_session C rng h k (es ++ [e]) (Ok false) st' ->
     exists st2, is_cut_session C rng h k (map X_Turn es ++ [X_Cut (Cut_Read n); X_Turn e]) (Ok false) st2) /\
  forall es' r st2, is_cut_session C rng h k (map X_Turn es ++ X_Cut (Cut_Read n) :: es') r st2 -> received (s_log st2) = received (s_log st).
Proof.
  intros IS E P L Ln. pose proof IS as (K & R & L1 & L2 & H).
  pose proof (run_inv C rng h K R _ _ _ (session_init_inv k L1 L2) H) as ((LB & _) & _ & _).
  assert (CR : exists st1, cut_read C n st = Some st1).
  { unfold cut_read. replace (n <=? len (k_in (s_conn st))) with true by lia. unfold conn_recv. cbn [with_in k_rd k_in k_wr k_out k_sent].
    destruct (pending C (k_rd (s_conn st)) (s_buf st) pl pad raw (ntake n (k_in (s_conn st))) (ndrop n (k_in (s_conn st)))) as ([[c b] s] & Q);
      [exact K|lia|exact P|lia|rewrite ntake_ndrop; symmetry; exact E| |].
    - intros X. apply (f_equal len) in X. rewrite len_ndrop, len_nil in X. lia.
    - rewrite Q. cbn [fst]. eexists. reflexivity. }
  destruct CR as (st1 & CR). destruct (cut_read_same _ _ _ _ CR) as (d & rest & E1 & Ld & SM). split.
  - intros e st' N IS'. apply (one_more _ _ _ _ _ _ _ _ _ IS) in IS'.
    destruct (step_eats C rng h K _ _ _ _ IS') as (c & E2 & E3). destruct (up_child C rng h is_received ltac:(repeat split) _ _ _ _ IS' N) as (E4 & _).
    assert (c = []) as ->. { rewrite E4 in E2. apply (f_equal len) in E2. rewrite len_app in E2. destruct c; [reflexivity|rewrite len_cons in E2; lia]. }
    specialize (E3 rest). cbn [app] in E3. pose proof (step_blind C rng h K R e _ _ SM) as B. rewrite E3 in B. unfold same_run in B.
    destruct (session_step C rng h e st1) as [[y s]|] eqn:E5; [|contradiction]. destruct B as [<- _]. exists s.
    apply (after _ _ _ _ _ _ _ _ _ IS). rewrite (cut_first C rng h (Cut_Read n) e st st1 CR N), E5. reflexivity.
  - intros es' r st2 H2. apply (after _ _ _ _ _ _ _ _ _ IS) in H2. cbn [cut_run cut_step] in H2. destruct (elsewhere es'); [|discriminate H2]. rewrite CR in H2.
    apply starved_run in H2.
    + destruct SM as (b & _ & ->). exact H2.
    + destruct SM as (b & _ & ->). unfold starved. cbn [s_with s_in s_conn with_in k_in]. rewrite E1, len_app in Ln. lia.
Qed.

(** An open is not confirmed, data is not passed on, and a child is not heard. *)
Lemma plain_more C rng h f g k es r st : precedes f g -> is_session C rng h k es r st -> more f g (session_init (s_conn st)) st.
Proof.
  intros P (_ & _ & _ & _ & H).
  assert (X : cut_run C rng h (map X_Turn es ++ []) (session_init k) = Some (r, st)).
  { rewrite cut_run_turns. revert H. generalize (session_init k). intros s H. rewrite H. destruct r as [[|]|x|]; reflexivity. }
  apply (more_run C rng h f g P) in X as (t & E & L). exists t. split; [exact E|exact L].
Qed.
Lemma open_lost C rng h k es st st' o t n : is_session C rng h k es (Ok false) st -> is_session C rng h k (es ++ [Ev_Packet]) (Ok false) st' ->
  s_log st' = s_log st ++ got (C_Open o) :: t -> n = 0 \/ len (k_out (s_conn st)) + n < len (k_out (s_conn st')) ->
  (exists st1, is_cut_session C rng h k (map X_Turn es ++ [X_Cut (Cut_Reply n)]) (Ok false) st1) /\
  forall es' r st2, is_cut_session C rng h k (map X_Turn es ++ X_Cut (Cut_Reply n) :: es') r st2 ->
    count put_confirmation (s_log st2) < count got_open (s_log st2).
Proof.
  intros IS IS' E L. pose proof (one_more _ _ _ _ _ _ _ _ _ IS IS') as S. cbn [session_step] in S. apply Some_inj in S. pose proof IS as (K & R & _).
  destruct (open_cut C rng h n st st' o t K R S E L) as (st1 & C1 & E1 & _). split.
  - exists st1. apply (after _ _ _ _ _ _ _ _ _ IS). cbn [cut_run elsewhere cut_step]. rewrite C1. reflexivity.
  - intros es' r st2 H2. apply (after _ _ _ _ _ _ _ _ _ IS) in H2. cbn [cut_run cut_step] in H2. destruct (elsewhere es'); [|discriminate H2]. rewrite C1 in H2.
    exact (behind C rng h got_open put_confirmation opens_first es' st st1 r st2 _ (plain_more _ _ _ _ _ _ _ _ _ opens_first IS) E1 eq_refl H2).
Qed.
Lemma data_lost C rng h k es st st' c d t : is_session C rng h k es (Ok false) st -> is_session C rng h k (es ++ [Ev_Packet]) (Ok false) st' ->
  s_log st' = s_log st ++ got (C_Data c d) :: t ->
  (exists st1, is_cut_session C rng h k (map X_Turn es ++ [X_Cut Cut_Handler]) (Ok false) st1) /\
  forall es' r st2, is_cut_session C rng h k (map X_Turn es ++ X_Cut Cut_Handler :: es') r st2 ->
    count put_stdin (s_log st2) < count got_data (s_log st2).
Proof.
  intros IS IS' E. pose proof (one_more _ _ _ _ _ _ _ _ _ IS IS') as S. cbn [session_step] in S. apply Some_inj in S.
  destruct (data_cut C rng h st st' c d t S E) as (st1 & C1 & E1). split.
  - exists st1. apply (after _ _ _ _ _ _ _ _ _ IS). cbn [cut_run elsewhere cut_step]. rewrite C1. reflexivity.
  - intros es' r st2 H2. apply (after _ _ _ _ _ _ _ _ _ IS) in H2. cbn [cut_run cut_step] in H2. destruct (elsewhere es'); [|discriminate H2]. rewrite C1 in H2.
    exact (behind C rng h got_data put_stdin data_first es' st st1 r st2 _ (plain_more _ _ _ _ _ _ _ _ _ data_first IS) E1 eq_refl H2).
Qed.
(** No child is listened to before it is started. *)
Lemma not_before C rng h k es r st n pre post : is_session C rng h k es r st -> s_log st = pre ++ post -> spawns pre <= n ->
  (forall err, stream_after err pre n = None) /\ wait_after pre n = None.
Proof.
  intros IS E L. assert (X : forall l1 c p ty io l2, pre <> l1 ++ SE_Spawn c p n ty (Ok io) :: l2).
  { intros l1 c p ty io l2 ->. rewrite <- app_assoc in E. apply (spawn_number h r (s_log st) (session_told C rng h k es r st IS)) in E as ->.
    rewrite spawns_app in L. unfold spawns in L. cbn [filter is_spawn] in L. rewrite len_cons in L. lia. }
  split; [intros err; destruct (stream_after err pre n) as [p|] eqn:Q|destruct (wait_after pre n) as [p|] eqn:Q]; try reflexivity; exfalso.
  - apply stream_child in Q as (l1 & c & ty & io & l2 & Q & _). exact (X _ _ _ _ _ _ Q).
  - apply wait_child in Q as (l1 & c & ty & io & l2 & Q & _). exact (X _ _ _ _ _ _ Q).
Qed.
Lemma count_in f log : count f log = 0 <-> forall e, In e log -> f e = false.
Proof.
  induction log as [|e log IH]; [split; [intros _ x []|reflexivity]|]. rewrite count_cons. split.
  - intros H x [<-|I]; [destruct (f e); [lia|reflexivity]|]. apply IH; [lia|exact I].
  - intros H. rewrite (H e (or_introl eq_refl)). apply IH. intros x I. apply H. right. exact I.
Qed.
Lemma unheard C rng h k es r st n : is_session C rng h k es r st -> spawns (s_log st) <= n ->
  (forall err, stream_after err (s_log st) n = None) /\ wait_after (s_log st) n = None /\ count (heard n) (s_log st) = 0.
Proof.
  intros IS L. destruct (not_before C rng h k es r st n (s_log st) [] IS ltac:(rewrite app_nil_r; reflexivity) L) as [A B].
  split; [exact A|]. split; [exact B|]. apply count_in. intros e I. apply in_split in I as (pre & post & E).
  assert (Lp : spawns pre <= n) by (rewrite E, spawns_app in L; lia).
  destruct (not_before C rng h k es r st n pre _ IS E Lp) as [A1 B1].
  destruct e as [m|m|i p0 n0 ty io|n0 d x|n0|err n0 d|n0 s]; try reflexivity; cbn [heard]; apply N.eqb_neq; intros ->.
  - apply (read_turn C rng h k es r st IS) in E as (p & _ & Q & _). rewrite A1 in Q. discriminate Q.
  - apply (exit_turn C rng h k es r st IS) in E as (p & _ & Q & _). rewrite B1 in Q. discriminate Q.
Qed.
Lemma start_lost C rng h k es st st' q i p x ty io t n : is_session C rng h k es (Ok false) st -> is_session C rng h k (es ++ [Ev_Packet]) (Ok false) st' ->
  s_log st' = s_log st ++ got (C_Request q) :: SE_Spawn i p x ty (Ok io) :: t -> rq_want_reply q = true ->
  n = 0 \/ len (k_out (s_conn st)) + n < len (k_out (s_conn st')) ->
  (exists st1, is_cut_session C rng h k (map X_Turn es ++ [X_Cut (Cut_Reply n)]) (Ok false) st1) /\
  forall es' r st2, is_cut_session C rng h k (map X_Turn es ++ X_Cut (Cut_Reply n) :: es') r st2 ->
    In (SE_Spawn i p x ty (Ok io)) (s_log st2) /\ count (heard x) (s_log st2) = 0.
Proof.
  intros IS IS' E W L. pose proof (one_more _ _ _ _ _ _ _ _ _ IS IS') as S. cbn [session_step] in S. apply Some_inj in S. pose proof IS as (K & R & L1 & L2 & H).
  destruct (start_cut C rng h n st st' q i p x ty io t K R S E W L) as (st1 & u & C1 & E1 & -> & E2 & E3 & E4 & E5). split.
  - exists st1. apply (after _ _ _ _ _ _ _ _ _ IS). cbn [cut_run elsewhere cut_step]. rewrite C1. reflexivity.
  - intros es' r st2 H2. apply (after _ _ _ _ _ _ _ _ _ IS) in H2. cbn [cut_run cut_step] in H2. destruct (elsewhere es'); [|discriminate H2]. rewrite C1 in H2.
    pose proof (run_inv C rng h K R _ _ _ (session_init_inv k L1 L2) H) as (_ & (_ & A2 & A3 & A4 & A5) & _).
    destruct (unheard C rng h k es _ st (s_children st) IS ltac:(lia)) as (U1 & U2 & U3).
    assert (Q : quiet (s_children st) st1).
    { unfold quiet. rewrite E2, E3, E4, E5, A2, A3, A4, !U1, U2. repeat split. lia. }
    apply (stays_run C rng h _ es' _ _ _ Q) in H2 as (_ & v & E6 & L6). rewrite E6, E1, <- app_assoc. split.
    + apply in_or_app. right. right. left. reflexivity.
    + rewrite count_app, U3. cbn [app]. rewrite !count_cons, count_app, L6. cbn [heard got]. destruct u; reflexivity.
Qed.

(** *** When only reading is cancelled *)
Lemma turn_counts h pre t : turn h pre t -> count put_confirmation t = count got_open t /\ count put_stdin t = count got_data t.
Proof.
  assert (D : forall f o, (forall n, f (SE_Dropped n) = false) -> count f (dropped o) = 0).
  { intros f [n|] F; cbn [dropped]; [rewrite count_cons, F|]; reflexivity. }
  assert (W : forall f r c, f (put c) = false -> count f (wanted r c) = 0).
  { intros f r c F. unfold wanted. destruct (rq_want_reply r); [rewrite count_cons, F|]; reflexivity. }
  intros T. destruct T; split; try reflexivity; cbn [app]; rewrite ?count_cons, ?count_app, ?D, ?W by (intros; reflexivity); reflexivity.
Qed.
Lemma turns_counts h pre ts : turns h pre ts ->
  count put_confirmation (concat ts) = count got_open (concat ts) /\ count put_stdin (concat ts) = count got_data (concat ts).
Proof.
  induction 1 as [pre|pre t ts T _ [IH1 IH2]]; cbn [concat]; [split; reflexivity|]. rewrite !count_app. apply turn_counts in T as [-> ->]. lia.
Qed.
Lemma same_log st st' : s_same st st' -> s_log st = s_log st'.
Proof. intros (b & _ & ->). reflexivity. Qed.
Lemma reading_counts C rng h k es st : is_cut_session C rng h k es (Ok false) st -> cuts_reading es ->
  count put_confirmation (s_log st) = count got_open (s_log st) /\ count put_stdin (s_log st) = count got_data (s_log st).
Proof.
  intros IS CR. destruct (thin_session _ _ _ _ _ _ _ IS CR) as (t & n & st' & _ & _ & IS' & S). apply same_log in S. rewrite <- S.
  apply session_outcome_of in IS' as (ts & tail & pls & rest & E & T & _ & _ & _ & _ & -> & _). rewrite E, app_nil_r. exact (turns_counts _ _ _ T).
Qed.
Lemma stream_runs err log n p : runs err log n p -> stream_after err log n <> None.
Proof.
  intros (l1 & c & ty & io & l2 & -> & Hi & NI). rewrite stream_after_app. cbn [fold_left stream_step]. rewrite N.eqb_refl, Hi. cbn [andb].
  generalize p. induction l2 as [|e l2 IH]; intros p0; cbn [fold_left]; [discriminate|].
  assert (X : exists q, stream_step err n (Some p0) e = Some q).
  { destruct e as [m|m|i p1 n1 ty1 [io1|x1|]|n1 d x|n1|err1 n1 d|n1 s]; cbn [stream_step]; eauto; [destruct (_ && _); eauto|].
    destruct d; [|eauto]. destruct (eqb err1 err) eqn:Q1; cbn [andb]; [|eauto]. destruct (N.eqb_spec n1 n) as [->|]; [|eauto]. apply eqb_prop in Q1 as ->.
    exfalso. apply NI. left. reflexivity. }
  destruct X as (q & ->). apply IH. intros I. apply NI. right. exact I.
Qed.
Lemma still_listening C rng h k es st : is_cut_session C rng h k es (Ok false) st -> cuts_reading es ->
  forall err n p d, runs err (s_log st) n p -> len d <= 256 -> session_step C rng h (Ev_Output err n (Ok d)) st <> None.
Proof.
  intros IS CR err n p d RU L. destruct (thin_session _ _ _ _ _ _ _ IS CR) as (t & m & st' & _ & _ & IS' & S).
  pose proof IS' as (K & R & L1 & L2 & H).
  pose proof (run_inv C rng h K R _ _ _ (session_init_inv (with_in t k) L1 L2) H) as (_ & (_ & A2 & A3 & _) & _).
  destruct S as (b & _ & ->). cbn [s_with s_log] in RU. apply stream_runs in RU. cbn [session_step s_with s_stderr s_stdout].
  replace (look n (if err then s_stderr st' else s_stdout st')) with (stream_after err (s_log st') n) by (destruct err; symmetry; [apply A3|apply A2]).
  destruct (stream_after err (s_log st') n) as [q|]; [|congruence]. replace (len d <=? 256) with true by lia. discriminate.
Qed.
Lemma still_written C rng h k es r st : is_cut_session C rng h k es r st -> cuts_reading es ->
  written_as C (k_wr k) (k_out k) (map wire (s_sent (s_log st))) (k_out (s_conn st)).
Proof.
  intros IS CR. destruct (thin_session _ _ _ _ _ _ _ IS CR) as (t & m & st' & _ & _ & IS' & (b & _ & ->)).
  apply session_outcome_of in IS' as (ts & tail & pls & rest & E & T & _ & _ & W & _). exact W.
Qed.
Lemma harmless C rng h k es r st : is_cut_session C rng h k es r st -> cuts_reading es -> wasted es = 0 ->
  exists st', is_session C rng h k (turns_of es) r st' /\ s_same st' st.
Proof.
  intros IS CR Z. destruct (thin_session _ _ _ _ _ _ _ IS CR) as (t & n & st' & L & T & IS' & S). assert (n = 0) as -> by lia. apply thin_none in T as ->.
  exists st'. split; [|exact S]. replace (with_in (k_in k) k) with k in IS'; [exact IS'|]. destruct k; reflexivity.
Qed.
(** At most as many answers as questions, however the session is cancelled. *)
Lemma cut_counts C rng h k es r st : is_cut_session C rng h k es r st ->
  count put_confirmation (s_log st) <= count got_open (s_log st) /\ count put_stdin (s_log st) <= count got_data (s_log st).
Proof.
  intros (_ & _ & _ & _ & H). destruct (init_fields k) as (_ & _ & _ & _ & _ & _ & _ & E).
  pose proof (more_run C rng h _ _ opens_first _ _ _ _ H) as (t & E1 & L1). pose proof (more_run C rng h _ _ data_first _ _ _ _ H) as (t' & E2 & L2).
  rewrite E in E1, E2. cbn [app] in E1, E2. split; [rewrite E1; exact L1|rewrite E2; exact L2].
Qed.
