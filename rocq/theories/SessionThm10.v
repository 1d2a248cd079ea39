(** Sessions that can be gone on with. *)
From Coq Require Import Init.Byte Strings.Byte.
From Verif Require Export SessionThm9.
Open Scope res_scope.

Lemma wait_waited log n p : waited log n p -> wait_after log n <> None.
Proof.
  intros (l1 & c & ty & io & l2 & -> & Hi & NI). unfold wait_after. rewrite fold_left_app. cbn [fold_left wait_step]. rewrite N.eqb_refl, Hi. cbn [andb].
  generalize p. induction l2 as [|e l2 IH]; intros p0; cbn [fold_left]; [discriminate|].
  assert (X : exists q, wait_step n (Some p0) e = Some q).
  { destruct e as [m|m|i p1 n1 ty1 [io1|x1|]|n1 d x|n1|err1 n1 d|n1 s]; cbn [wait_step]; eauto; [destruct (_ && _); eauto|].
    destruct (N.eqb_spec n1 n) as [->|]; [|eauto]. exfalso. apply (NI s). left. reflexivity. }
  destruct X as (q & ->). apply IH. intros s I. apply (NI s). right. exact I.
Qed.
Section Go.
  Context (C : Crypto) (rng : N -> N -> bytes) (h : SHandlers) (k : Conn) (es : list Ev) (st : SSt).
  Context (IS : is_session C rng h k es (Ok false) st).
  Lemma peer_unique c1 p1 n ty1 x1 l1 l2 c2 p2 ty2 x2 l3 l4 : s_log st = l1 ++ SE_Spawn c1 p1 n ty1 x1 :: l2 -> s_log st = l3 ++ SE_Spawn c2 p2 n ty2 x2 :: l4 -> p1 = p2.
  Proof.
    intros E1 E2. destruct (spawn_unique h _ _ _ _ _ _ _ _ _ _ _ _ _ _ _ (session_told _ _ _ _ _ _ _ IS) E1 E2) as (_ & Q & _). injection Q as _ -> _ _. reflexivity.
  Qed.
  Lemma runs_after err n p : runs err (s_log st) n p -> stream_after err (s_log st) n = Some p.
  Proof.
    intros RU. pose proof (stream_runs _ _ _ _ RU) as N. destruct (stream_after err (s_log st) n) as [q|] eqn:E; [|congruence].
    apply stream_child in E as (l1 & c1 & ty1 & io1 & l2 & E1 & _). destruct RU as (l3 & c3 & ty3 & io3 & l4 & E3 & _). rewrite (peer_unique _ _ _ _ _ _ _ _ _ _ _ _ _ E1 E3). reflexivity.
  Qed.
  Lemma waited_after n p : waited (s_log st) n p -> wait_after (s_log st) n = Some p.
  Proof.
    intros RU. pose proof (wait_waited _ _ _ RU) as N. destruct (wait_after (s_log st) n) as [q|] eqn:E; [|congruence].
    apply wait_child in E as (l1 & c1 & ty1 & io1 & l2 & E1 & _). destruct RU as (l3 & c3 & ty3 & io3 & l4 & E3 & _). rewrite (peer_unique _ _ _ _ _ _ _ _ _ _ _ _ _ E1 E3). reflexivity.
  Qed.
  Lemma child_turn t : turn h (s_log st) t -> (forall m t', t <> SE_Received m :: t') ->
    exists e st', prompts e t /\ is_session C rng h k (es ++ [e]) (Ok false) st' /\ s_log st' = s_log st ++ t.
  Proof.
    intros T N. destruct (turn_taken C rng h k es st t IS T) as (e & st' & pls & P & IS' & Cs & _); [intros m t' Q; destruct (N _ _ Q)|].
    exists e, st'. split; [exact P|]. split; [exact IS'|apply Cs].
  Qed.
  Lemma go_output err n p d : runs err (s_log st) n p -> 0 < len d <= 256 ->
    exists st', is_session C rng h k (es ++ [Ev_Output err n (Ok d)]) (Ok false) st' /\ s_log st' = s_log st ++ [SE_Read err n d; put (C_Data p d)].
  Proof.
    intros RU L. destruct (child_turn [SE_Read err n d; put (C_Data p d)]) as (e & st' & P & IS' & E); [apply T_Output; [apply runs_after, RU|exact L]|discriminate|].
    apply prompts_read in P as ->. eauto.
  Qed.
  Lemma go_end n p : runs false (s_log st) n p ->
    exists st', is_session C rng h k (es ++ [Ev_Output false n (Ok [])]) (Ok false) st' /\ s_log st' = s_log st ++ [SE_Read false n []; put (C_Eof p); put (C_Close p)].
  Proof.
    intros RU. destruct (child_turn [SE_Read false n []; put (C_Eof p); put (C_Close p)]) as (e & st' & P & IS' & E); [apply T_End; apply runs_after, RU|discriminate|].
    apply prompts_read in P as ->. eauto.
  Qed.
  Lemma go_exit n p s : waited (s_log st) n p -> s < 2 ^ 32 ->
    exists st', is_session C rng h k (es ++ [Ev_Exit n s]) (Ok false) st' /\ s_log st' = s_log st ++ [SE_Exit n s; put (exit_status p s)].
  Proof.
    intros RU L. destruct (child_turn [SE_Exit n s; put (exit_status p s)]) as (e & st' & P & IS' & E); [apply T_Exit; [apply waited_after, RU|exact L]|discriminate|].
    apply prompts_exit in P as ->. eauto.
  Qed.
End Go.

Lemma runs_more err log n p l : runs err log n p -> ~ In (SE_Read err n []) l -> runs err (log ++ l) n p.
Proof.
  intros (l1 & c & ty & io & l2 & -> & Hi & NI) N. exists l1, c, ty, io, (l2 ++ l). rewrite <- app_assoc. split; [reflexivity|]. split; [exact Hi|].
  intros I. apply in_app_or in I as [I|I]; auto.
Qed.
Lemma waited_more log n p l : waited log n p -> (forall s, ~ In (SE_Exit n s) l) -> waited (log ++ l) n p.
Proof.
  intros (l1 & c & ty & io & l2 & -> & Hi & NI) N. exists l1, c, ty, io, (l2 ++ l). rewrite <- app_assoc. split; [reflexivity|]. split; [exact Hi|].
  intros s I. apply in_app_or in I as [I|I]; [exact (NI s I)|exact (N s I)].
Qed.

Lemma late_stderr C rng h k es st n p d : is_session C rng h k es (Ok false) st -> runs false (s_log st) n p -> runs true (s_log st) n p -> 0 < len d <= 256 ->
  exists st', is_session C rng h k (es ++ [Ev_Output false n (Ok []); Ev_Output true n (Ok d)]) (Ok false) st' /\
    s_log st' = s_log st ++ [SE_Read false n []; put (C_Eof p); put (C_Close p)] ++ [SE_Read true n d; put (C_Data p d)].
Proof.
  intros IS R1 R2 L. destruct (go_end _ _ _ _ _ _ IS n p R1) as (st1 & IS1 & E1).
  destruct (go_output _ _ _ _ _ _ IS1 true n p d) as (st2 & IS2 & E2); [rewrite E1; apply runs_more; [exact R2|]|exact L|].
  - intros [I|[I|[I|[]]]]; discriminate I.
  - exists st2. rewrite <- app_assoc in IS2. split; [exact IS2|]. rewrite E2, E1, <- app_assoc. reflexivity.
Qed.
Lemma late_status C rng h k es st n p s : is_session C rng h k es (Ok false) st -> runs false (s_log st) n p -> waited (s_log st) n p -> s < 2 ^ 32 ->
  exists st', is_session C rng h k (es ++ [Ev_Output false n (Ok []); Ev_Exit n s]) (Ok false) st' /\
    s_log st' = s_log st ++ [SE_Read false n []; put (C_Eof p); put (C_Close p)] ++ [SE_Exit n s; put (exit_status p s)].
Proof.
  intros IS R1 R2 L. destruct (go_end _ _ _ _ _ _ IS n p R1) as (st1 & IS1 & E1).
  destruct (go_exit _ _ _ _ _ _ IS1 n p s) as (st2 & IS2 & E2); [rewrite E1; apply waited_more; [exact R2|]|exact L|].
  - intros s' [I|[I|[I|[]]]]; discriminate I.
  - exists st2. rewrite <- app_assoc in IS2. split; [exact IS2|]. rewrite E2, E1, <- app_assoc. reflexivity.
Qed.
(** A client that closes a channel still gets output. *)
Lemma go_packet C rng h k es st pl pad raw rest m t : is_session C rng h k es (Ok false) st ->
  k_in (s_conn st) = seal_with C (k_rd (s_conn st)) raw ++ rest -> loose_packet pl pad raw -> len raw + 16 <= 35000 -> is_wire m pl -> turn h (s_log st) (SE_Received m :: t) ->
  exists st', is_session C rng h k (es ++ [Ev_Packet]) (Ok false) st' /\ s_log st' = s_log st ++ SE_Received m :: t /\ k_in (s_conn st') = rest /\ k_rd (s_conn st') = bump (k_rd (s_conn st)).
Proof.
  intros IS E P L W T. destruct (turn_taken C rng h k es st _ IS T) as (e & st' & pls & Pr & IS' & Cs & W2).
  { intros m2 t2 Q. apply pair_cons in Q as [Q _]. injection Q as <-. exists pl, pad, raw, rest. auto. }
  assert (e = Ev_Packet) as ->.
  { destruct e as [|err n d|n s]; [reflexivity| |]; [destruct Pr as (d2 & t2 & _ & Q)|destruct Pr as (t2 & Q)]; discriminate Q. }
  exists st'. split; [exact IS'|]. destruct Cs as (C1 & _ & _ & C4 & _ & C6). split; [exact C6|].
  assert (X : exists pl2, pls = [pl2]).
  { change (SE_Received m :: t) with ([SE_Received m] ++ t) in W2. rewrite received_ev_app in W2. rewrite (turn_received _ _ _ _ T) in W2.
    change (received [SE_Received m] ++ []) with [m] in W2. remember [m] as ms eqn:Q. destruct W2 as [|m1 pl2 ms2 pls2 _ W2]; [discriminate Q|]. apply pair_cons in Q as [_ ->].
    remember (@nil Message) as ms eqn:Q. destruct W2; [|discriminate Q]. eauto. }
  destruct X as (pl2 & ->). pose proof IS as (K & _). pose proof (sess_inv _ _ _ _ _ _ IS) as ((_ & GL & _) & _).
  destruct (received_determined _ _ _ _ _ _ _ _ _ K GL P E C4) as [_ ->]. split; [reflexivity|]. rewrite C1. symmetry. exact (bump_later _).
Qed.
Lemma late_data C rng h k es st pl pad raw rest c p old n d : is_session C rng h k es (Ok false) st ->
  k_in (s_conn st) = seal_with C (k_rd (s_conn st)) raw ++ rest -> loose_packet pl pad raw -> len raw + 16 <= 35000 -> is_wire (Msg_Channel (C_Close c)) pl ->
  chan_after (s_log st) c = Some (p, old) -> runs false (s_log st) n p -> 0 < len d <= 256 ->
  exists st', is_session C rng h k (es ++ [Ev_Packet; Ev_Output false n (Ok d)]) (Ok false) st' /\
    s_log st' = s_log st ++ (got (C_Close c) :: dropped old) ++ [SE_Read false n d; put (C_Data p d)].
Proof.
  intros IS E P L W CA RU Ld. pose proof (T_Close h (s_log st) c) as T. rewrite CA in T.
  destruct (go_packet _ _ _ _ _ _ _ _ _ _ _ _ IS E P L W T) as (st1 & IS1 & E1 & _).
  destruct (go_output _ _ _ _ _ _ IS1 false n p d) as (st2 & IS2 & E2); [rewrite E1; apply runs_more; [exact RU|]|exact Ld|].
  - intros [I|I]; [discriminate I|]. destruct old; [destruct I as [I|[]]; discriminate I|destruct I].
  - exists st2. rewrite <- app_assoc in IS2. split; [exact IS2|]. rewrite E2, E1, <- app_assoc. reflexivity.
Qed.
(** There is no limit to the data that is sent while the client is silent. *)
Lemma no_limit C rng h k n p (w : nat) : forall es st, is_session C rng h k es (Ok false) st -> runs false (s_log st) n p ->
  exists es' st', is_session C rng h k (es ++ es') (Ok false) st' /\ received (s_log st') = received (s_log st) /\
    len (concat (data_sent p (s_log st'))) = N.of_nat w + len (concat (data_sent p (s_log st))).
Proof.
  induction w as [|w IH]; intros es st IS RU.
  - exists [], st. rewrite app_nil_r. split; [exact IS|]. split; [reflexivity|lia].
  - destruct (go_output _ _ _ _ _ _ IS false n p [x00] RU) as (st1 & IS1 & E1); [vm_compute; split; [reflexivity|discriminate]|].
    destruct (IH _ _ IS1) as (es' & st2 & IS2 & E2 & E3).
    { rewrite E1. apply runs_more; [exact RU|]. intros [I|[I|[]]]; discriminate I. }
    exists (Ev_Output false n (Ok [x00]) :: es'), st2. rewrite <- app_assoc in IS2. split; [exact IS2|]. rewrite E2, E3, E1. rewrite received_ev_app, data_sent_app. 
    cbn [received data_sent flat_map put app]. rewrite app_nil_r, N.eqb_refl, concat_app, len_app. split; [reflexivity|].
    change (len (concat ([[x00]] ++ []))) with 1. lia.
Qed.
(** What a child does not take at once is lost. *)
Lemma taken_less n log : len (stdin_taken n log) <= len (concat (stdin_data n log)).
Proof.
  induction log as [|e log IH]; [reflexivity|]. change (e :: log) with ([e] ++ log). unfold stdin_taken, stdin_data in *. rewrite !flat_map_app, concat_app, !len_app.
  enough (len (flat_map (fun e => match e with SE_Stdin n' d (Ok k) => if n' =? n then ntake k d else [] | _ => [] end) [e]) <=
          len (concat (flat_map (fun e => match e with SE_Stdin n' d _ => if n' =? n then [d] else [] | _ => [] end) [e]))) by lia.
  cbn [flat_map]. rewrite !app_nil_r. destruct e as [m|m|i p1 n1 ty1 x|n1 d [j|x|]|n1|err1 n1 d|n1 s]; try reflexivity; destruct (n1 =? n); try reflexivity; cbn [concat]; rewrite ?app_nil_r; lens; lia.
Qed.
Lemma short_lost C rng h k es r st : is_session C rng h k es r st -> forall pre c p n ty io l1 d j l2,
  s_log st = pre ++ SE_Spawn c p n ty (Ok io) :: l1 ++ SE_Stdin n d (Ok j) :: l2 -> j < len d ->
  len (stdin_taken n (l1 ++ SE_Stdin n d (Ok j) :: l2)) < len (concat (data_until c (l1 ++ SE_Stdin n d (Ok j) :: l2))).
Proof.
  intros IS pre c p n ty io l1 d j l2 E L. destruct (stdin_exact _ _ _ _ _ _ _ IS _ _ _ _ _ _ _ E) as [_ X].
  assert (Y : len (stdin_taken n (l1 ++ SE_Stdin n d (Ok j) :: l2)) < len (concat (stdin_data n (l1 ++ SE_Stdin n d (Ok j) :: l2)))).
  { change (SE_Stdin n d (Ok j) :: l2) with ([SE_Stdin n d (Ok j)] ++ l2). unfold stdin_taken at 1, stdin_data at 1. rewrite !flat_map_app, !concat_app, !len_app.
    fold (stdin_taken n l1). fold (stdin_taken n l2). fold (stdin_data n l1). fold (stdin_data n l2).
    cbn [flat_map]. rewrite N.eqb_refl. cbn [app concat]. rewrite !app_nil_r. pose proof (taken_less n l1). pose proof (taken_less n l2). lens. lia. }
  destruct (io_stdin io); [rewrite <- X; exact Y|]. rewrite X in Y. change (len (concat (@nil bytes))) with 0 in Y. lia.
Qed.

(** How a session ends. *)
Lemma go_disconnect C rng h k es st pl pad raw rest d : is_session C rng h k es (Ok false) st ->
  k_in (s_conn st) = seal_with C (k_rd (s_conn st)) raw ++ rest -> loose_packet pl pad raw -> len raw + 16 <= 35000 -> is_wire (Msg_Disconnect d) pl ->
  exists st', is_session C rng h k (es ++ [Ev_Packet]) (Ok true) st' /\ s_log st' = s_log st ++ [SE_Received (Msg_Disconnect d)].
Proof.
  intros IS E P L W. destruct (packet_handled _ _ _ _ _ _ _ _ _ _ _ IS E P L W eq_refl) as (r' & st' & t & IS' & Q).
  destruct (stim_split h _ _ _ _ _ (session_told _ _ _ _ _ _ _ IS') Q eq_refl) as [(t' & post' & -> & T & AR)|[(-> & -> & _)|(-> & X)]].
  - exfalso. remember (SE_Received (Msg_Disconnect d) :: t') as a eqn:Qa. destruct T; cbn [app] in Qa; apply pair_cons in Qa as [Qa _]; discriminate Qa.
  - eauto.
  - exfalso. remember (SE_Received (Msg_Disconnect d) :: t) as a eqn:Qa. destruct X as [ |m X|m c X| | | | ]; apply pair_cons in Qa as [Qa _]; try discriminate Qa; injection Qa as ->; discriminate X.
Qed.
Lemma go_broken C rng h k es st : is_session C rng h k es (Ok false) st -> (forall pl, ~ next_payload C (k_rd (s_conn st)) 35000 (k_in (s_conn st)) pl) ->
  exists e st', is_session C rng h k (es ++ [Ev_Packet]) (Err e) st' /\ s_log st' = s_log st.
Proof.
  intros IS N. pose proof IS as (K & _). pose proof (sess_inv _ _ _ _ _ _ IS) as (G & _).
  destruct (s_recv_cases C K st G) as [(pl' & st1 & E1 & G1 & C1 & Sm1 & NP)|(e & st1 & E1 & LG & _ & NP)].
  - destruct (N _ NP).
  - exists e, st1. split; [|exact LG]. eapply one_more_is; [exact IS|]. cbn [session_step]. unfold on_packet. unfold sbind at 1. rewrite E1. reflexivity.
Qed.
