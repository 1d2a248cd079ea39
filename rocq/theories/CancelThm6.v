(** A cancelled session is beside a plain one: all of it. *)
From Coq Require Import Init.Byte Strings.Byte.
From Verif Require Export CancelThm5.
Open Scope res_scope.
Open Scope s_scope.

(** Handlers that give answers from lists. *)
Definition spawn_answers (log : list SEvent) : list (res unit IoSet) := flat_map (fun e => match e with SE_Spawn _ _ _ _ x => [x] | _ => [] end) log.
Definition write_answers (log : list SEvent) : list (res unit N) := flat_map (fun e => match e with SE_Stdin _ _ x => [x] | _ => [] end) log.
Definition answering (sp : list (res unit IoSet)) (wr : list (res unit N)) : SHandlers :=
  {| h_spawn := fun log _ => nth (length (spawn_answers log)) sp (Err tt); h_write := fun log _ _ => nth (length (write_answers log)) wr (Err tt) |}.
Lemma spawn_answers_app a b : spawn_answers (a ++ b) = spawn_answers a ++ spawn_answers b.
Proof. apply flat_map_app. Qed.
Lemma write_answers_app a b : write_answers (a ++ b) = write_answers a ++ write_answers b.
Proof. apply flat_map_app. Qed.
Lemma begins_app {A} (a b c : list A) : begins (a ++ b) c -> begins a c.
Proof. intros (x & ->). exists (b ++ x). symmetry. apply app_assoc. Qed.
Lemma begins_self {A} (a : list A) : begins a a.
Proof. exists []. symmetry. apply app_nil_r. Qed.
Lemma turn_answered h v t sp wr : turn h v t -> begins (spawn_answers (v ++ t)) sp -> begins (write_answers (v ++ t)) wr -> turn (answering sp wr) v t.
Proof.
  intros T (cs & E1) (cw & E2). rewrite spawn_answers_app, <- app_assoc in E1. rewrite write_answers_app, <- app_assoc in E2. destruct T; try (econstructor; eassumption).
  - eapply T_Start; try eassumption. cbn [answering h_spawn]. rewrite spawn_answers_app, app_length. cbn [got spawn_answers flat_map length].
    rewrite Nat.add_0_r, E1. cbn [app spawn_answers flat_map]. apply nth_middle.
  - eapply T_Data; try eassumption. cbn [answering h_write]. rewrite write_answers_app, app_length. cbn [got write_answers flat_map length].
    rewrite Nat.add_0_r, E2. cbn [app write_answers flat_map]. apply nth_middle.
Qed.

Definition framable (m : Message) (raw : bytes) : Prop := exists pl pad, loose_packet pl pad raw /\ len raw + 16 <= 35000 /\ is_wire m pl.

Section Beside.
  Context (C : Crypto) (rng : N -> N -> bytes) (K : crypto_ok C) (R : rngs_ok rng).
  Lemma message_read st m st1 : good st -> s_message C st = (Ok m, st1) ->
    good st1 /\ same st st1 /\ s_log st1 = s_log st ++ [SE_Received m] /\ k_wr (s_conn st1) = k_wr (s_conn st) /\ message_ok m /\ exists raw, framable m raw.
  Proof.
    intros G H. pose proof (message_log C st) as L. rewrite H in L. unfold s_message in H. unfold sbind at 1 in H.
    destruct (s_recv_cases C K st G) as [(pl & s & E & G1 & Cs & Sm & (pad & raw & rest & P & _ & LR))|(e & s & E & _)]; rewrite E in H; [|discriminate H].
    unfold sbind at 1, sret at 1 in H. destruct (Received_parse pl) as [(m' & E2 & W & _)|[N _]].
    - rewrite E2 in H. cbn [unwrap] in H. unfold sbind, sret, s_event in H. apply pair_eq in H as [Q <-]. apply Ok_inj in Q. subst m'.
      split; [exact G1|]. split; [exact Sm|]. split; [exact L|]. split.
      { cbn [s_conn]. rewrite (proj1 (proj2 Cs)). cbn [s_sent flat_map]. change (len (@nil Message)) with 0. apply later_0. apply G. }
      split; [exact (proj1 W)|]. exists raw, pl, pad. auto.
    - destruct (Message_parse pl) as [m'|e|]; [destruct (N _ eq_refl)|discriminate H..].
  Qed.
  Lemma step_frames h e st st' t : sinv st -> session_step C rng h e st = Some (Ok false, st') -> s_log st' = s_log st ++ t -> turn h (s_log st) t -> prompts e t ->
    exists raws, Forall2 framable (received t) raws.
  Proof.
    intros I H L T P. destruct (turn_shape h _ _ T) as (s & t' & -> & _ & _). change (s :: t') with ([s] ++ t'). rewrite received_ev_app, (turn_received h _ _ _ T), app_nil_r.
    destruct e as [|err n d|n x].
    - destruct P as (m & t2 & Q). apply pair_cons in Q as [-> ->]. apply Some_inj in H. destruct (packet_inv _ _ _ _ _ _ _ _ H L) as (s & E & _).
      destruct (message_read _ _ _ (proj1 I) E) as (_ & _ & _ & _ & _ & raw & F). exists [raw]. constructor; [exact F|constructor].
    - destruct P as (d' & t2 & _ & Q). apply pair_cons in Q as [-> _]. exists []. constructor.
    - destruct P as (t2 & Q). apply pair_cons in Q as [-> _]. exists []. constructor.
  Qed.

  Definition shadowed (k : Conn) (es : list XEv) (st : SSt) : Prop := exists ts raws,
    let v := concat ts in
    sinv (relog v st) /\ all_beside es (s_log st) v /\ Forall2 prompts (plain_events es) ts /\
    (forall sp wr, begins (spawn_answers v) sp -> begins (write_answers v) wr -> turns (answering sp wr) [] ts) /\
    Forall2 framable (received v) raws /\ k_wr (s_conn st) = later (len (s_sent v)) (k_wr k).
  Lemma sinv_moved v st k buf : sinv (relog v st) -> len buf = 35000 -> counter (k_rd k) < 2 ^ 64 -> counter (k_wr k) < 2 ^ 64 -> sinv (relog v (s_set k buf st)).
  Proof. intros (_ & I) L1 L2 L3. split; [split; [exact L1|split; [exact L2|exact L3]]|exact I]. Qed.
  Lemma plain_snoc es x : plain_events (es ++ [x]) = plain_events es ++ plain_events [x].
  Proof. apply flat_map_app. Qed.
  (** One more turn of the plain session. *)
  Lemma shadow_turn k es x st st2 ts raws t b e h2 : let v := concat ts in
    sinv (relog (v ++ t) st2) -> s_log st2 = s_log st ++ b -> beside x b t -> plain_events [x] = [e] -> prompts e t -> turn h2 v t -> (exists rs, Forall2 framable (received t) rs) ->
    k_wr (s_conn st2) = later (len (s_sent t)) (k_wr (s_conn st)) ->
    all_beside es (s_log st) v -> Forall2 prompts (plain_events es) ts ->
    (forall sp wr, begins (spawn_answers v) sp -> begins (write_answers v) wr -> turns (answering sp wr) [] ts) ->
    Forall2 framable (received v) raws -> k_wr (s_conn st) = later (len (s_sent v)) (k_wr k) -> shadowed k (es ++ [x]) st2.
  Proof.
    intros v I L B X P T (rs & F) W A PS TS FS WS. exists (ts ++ [t]), (raws ++ rs). cbv zeta. rewrite concat_app. cbn [concat]. rewrite app_nil_r. fold v.
    split; [exact I|]. split; [rewrite L; constructor; assumption|]. split; [rewrite plain_snoc, X; apply Forall2_app; [exact PS|constructor; [exact P|constructor]]|].
    split; [|split; [rewrite received_ev_app; apply Forall2_app; assumption|rewrite W, WS, later_later, s_sent_app, len_app; reflexivity]].
    intros sp wr B1 B2. pose proof B1 as B3. pose proof B2 as B4. rewrite spawn_answers_app in B3. rewrite write_answers_app in B4.
    apply turns_app; [apply TS; eapply begins_app; eassumption|]. cbn [app]. fold v. eapply turn_answered; eassumption.
  Qed.
  Lemma shadow_step h k es e st st' : shadowed k es st -> session_step C rng h e st = Some (Ok false, st') -> shadowed k (es ++ [X_Turn e]) st'.
  Proof.
    intros (ts & raws & I & A & PS & TS & FS & WS) H. cbv zeta in *. set (v := concat ts) in *.
    destruct (step_follows C rng h (s_log st) v e st _ _ eq_refl H) as (t & L & H2).
    pose proof (session_step_result C rng _ K R _ _ _ I H2) as (pls & t2 & Cs & T & P & W & I2).
    assert (t2 = t) as ->. { assert (X : s_log (relog (v ++ t) st') = s_log (relog v st) ++ t2) by apply Cs. cbn [relog s_log] in X. apply app_inv_head in X. congruence. }
    assert (NS : forall x, In x (tl t) -> stimulus x = false) by (destruct (turn_shape _ _ _ T) as (z & t' & -> & _ & X); exact X).
    refine (shadow_turn k es (X_Turn e) st st' ts raws t t e _ I2 L (Bs_turn e t P NS) eq_refl P T _ _ A PS TS FS WS).
    - eapply step_frames; [exact I|exact H2|reflexivity|exact T|exact P].
    - exact (proj1 (proj2 Cs)).
  Qed.
  Lemma shadow_read k es n st st' : shadowed k es st -> cut_read C n st = Some st' -> shadowed k (es ++ [X_Cut (Cut_Read n)]) st'.
  Proof.
    intros (ts & raws & I & A & PS & TS & FS & WS) H. cbv zeta in *.
    destruct (cut_read_same _ _ _ _ H) as (d & rest & _ & _ & (buf & LB & ->)). exists ts, raws. cbv zeta.
    split.
    { destruct I as ((G1 & G2 & G3) & I). split; [|exact I]. split; [|split; [exact G2|exact G3]]. rewrite <- G1. exact LB. }
    split; [rewrite <- (app_nil_r (concat ts)); rewrite <- (app_nil_r (s_log _)); constructor; [exact A|constructor]|].
    rewrite plain_snoc, app_nil_r. auto.
  Qed.
  Lemma shadow_handler k es st st' : shadowed k es st -> cut_handler C st = Some st' -> shadowed k (es ++ [X_Cut Cut_Handler]) st'.
  Proof.
    intros (ts & raws & I & A & PS & TS & FS & WS) H. cbv zeta in *. unfold cut_handler in H. destruct (s_message C st) as [[m|e|] s] eqn:E; try discriminate H.
    destruct (waits_for_handler (s_chans s) m) eqn:WF; [|discriminate H]. apply Some_inj in H. subst s.
    destruct (message_read st _ _ (proj1 I) E) as (G & Sm & L & KW & _). exists ts, raws. cbv zeta. split.
    { destruct I as (_ & I1 & I2). split; [exact G|]. split; [|exact I2]. exact (agree_same _ _ _ I1 Sm). }
    split. { rewrite L. rewrite <- (app_nil_r (concat ts)). constructor; [exact A|]. constructor.
      destruct m as [| | | | | | | | | | |c]; try discriminate WF. destruct c; try discriminate WF; eexists; (split; [reflexivity|]); eauto. }
    rewrite plain_snoc, app_nil_r, KW. auto.
  Qed.
  Lemma sinv_near v st1 st2 : near st1 st2 -> good st2 -> agree v st2 -> small v -> sinv (relog v st1).
  Proof.
    intros (E1 & E2 & E3 & E4 & E5 & E6 & E7 & E8 & E9) G A S. split; [|split; [|exact S]].
    - unfold good. change (s_buf (relog v st1)) with (s_buf st1). change (s_conn (relog v st1)) with (s_conn st1). rewrite E1, E7, E8. exact G.
    - unfold agree. cbn [relog s_chans s_stdout s_stderr s_wait s_children]. rewrite E2, E3, E4, E5, E6. exact A.
  Qed.
  Lemma shadow_reply h k es n st st' : shadowed k es st -> cut_reply C rng h n st = Some st' -> shadowed k (es ++ [X_Cut (Cut_Reply n)]) st'.
  Proof.
    intros (ts & raws & I & A & PS & TS & FS & WS) H. cbv zeta in *. set (v := concat ts) in *. unfold cut_reply in H. unfold sbind at 1 in H.
    destruct (s_message C st) as [[m|e|] s] eqn:E; try discriminate H.
    destruct (message_read st _ _ (proj1 I) E) as (G & Sm & L & KW & MO & raw & FR).
    destruct (on_message_cut C rng h n m s) as [[u|x|] s1] eqn:E1; try discriminate H. apply Some_inj in H. subst s1.
    destruct (cut_plain C rng h (s_log st) v n m s u st' L E1) as (st2 & b & t & E2 & NR & L1 & L2 & B).
    pose proof I as (_ & IA & IS). cbn [relog s_log] in IS.
    assert (X : s_log (relog (v ++ [SE_Received m]) s) = v ++ [SE_Received m]) by reflexivity.
    pose proof (on_message_result C rng (misled (past (s_log st) v) (map_ok deaf) h) K R v (relog (v ++ [SE_Received m]) s) m G (agree_same v st s IA Sm) IS X MO) as TR. rewrite E2 in TR.
    destruct TR as (evs & Cs & G2 & T & A2). assert (Q : t = SE_Received m :: evs).
    { assert (Y : s_log st2 = (v ++ [SE_Received m]) ++ evs) by apply Cs. rewrite L2, <- app_assoc in Y. apply app_inv_head in Y. exact Y. }
    subst t. refine (shadow_turn k es (X_Cut (Cut_Reply n)) st st' ts raws _ b Ev_Packet _ _ L1 B eq_refl _ T _ _ A PS TS FS WS); fold v.
    - eapply sinv_near; [exact NR|exact G2|exact A2|]. eapply turn_small; [exact IS|exact T|].
      intros o IN. apply (received_of_turn _ _ _ T) in IN as [t' Q]. apply pair_cons in Q as [Q _]. injection Q as ->.
      destruct MO as [F _]. cbn [message_fields channel_fields] in F. finv. assumption.
    - exists m, evs. reflexivity.
    - exists [raw]. change (SE_Received m :: evs) with ([SE_Received m] ++ evs). rewrite received_ev_app, (turn_received _ _ _ _ T), app_nil_r. constructor; [exact FR|constructor].
    - assert (Y : k_wr (s_conn st') = k_wr (s_conn st2)) by apply NR. rewrite Y, (proj1 (proj2 Cs)). change (s_conn (relog (v ++ [SE_Received m]) s)) with (s_conn s). rewrite KW. reflexivity.
  Qed.
  Lemma shadow_run h k es : forall es0 st st', shadowed k es0 st -> cut_run C rng h es st = Some (Ok false, st') -> shadowed k (es0 ++ es) st'.
  Proof.
    induction es as [|x es IH]; intros es0 st st' S H; cbn [cut_run] in H.
    - apply Some_inj, pair_eq in H as [_ <-]. rewrite app_nil_r. exact S.
    - change (x :: es) with ([x] ++ es). rewrite app_assoc. destruct x as [e|c].
      + destruct (session_step C rng h e st) as [[[[|]|y|] s]|] eqn:E; try discriminate H. eapply IH; [|exact H]. eapply shadow_step; eassumption.
      + destruct (elsewhere es); [|discriminate H]. destruct (cut_step C rng h c st) as [s|] eqn:E; [|discriminate H]. eapply IH; [|exact H].
        destruct c as [n| |n]; cbn [cut_step] in E; [eapply shadow_read|eapply shadow_handler|eapply shadow_reply]; eassumption.
  Qed.
  Lemma shadow_init k : counter (k_rd k) < 2 ^ 64 -> counter (k_wr k) < 2 ^ 64 -> shadowed k [] (session_init k).
  Proof.
    intros L1 L2. pose proof (session_init_inv k L1 L2) as I. destruct (init_fields k) as (E1 & _ & _ & _ & _ & _ & _ & E8). exists [], []. cbv zeta. cbn [concat].
    rewrite E1, E8. split; [|split; [constructor|]; split; [constructor|]; split; [intros; constructor|]; split; [constructor|symmetry; apply later_0; exact L2]].
    destruct I as (I1 & I2 & I3). rewrite E8 in I2, I3. split; [exact I1|]. split; [exact I2|exact I3].
  Qed.
  (** A stream of given packets. *)
  Lemma stream_of ms raws : Forall2 framable ms raws -> forall c, counter c < 2 ^ 64 -> exists s pls, framed_as C c s pls [] /\ Forall2 (fun m pl => is_wire m pl) ms pls.
  Proof.
    intros F. induction F as [|m raw ms raws (pl & pad & P & LR & W) F IH]; intros c L.
    - exists [], []. split; [|constructor]. exists []. split; [reflexivity|]. split; [apply numbered_nil|constructor].
    - destruct (IH (bump c) (bump_lt c)) as (s & pls & (ws & E & N & FL) & FW). exists (seal_with C c raw ++ s), (pl :: pls). split; [|constructor; assumption].
      exists (seal_with C c raw :: ws). cbn [concat]. rewrite <- app_assoc, <- E. split; [reflexivity|]. split.
      + apply numbered_cons; [exists pad, raw; split; [exact P|rewrite N.mod_small by exact L; reflexivity]|]. rewrite (bump_later c) in N.
        apply (proj1 (numbered_mod C c (counter c + 1) pls ws)). exact (proj1 (ConnFacts.numbered_later C c 1 _ pls ws) N).
      + constructor; [|exact FL]. rewrite seal_len; [exact LR|exact K|]. destruct P as (-> & _). lens. rewrite be32_len. lia.
  Qed.
End Beside.
Lemma prompts_unique e e' t : prompts e t -> prompts e' t -> e = e'.
Proof.
  destruct e as [|err n d|n s]; cbn [prompts].
  - intros (m & t1 & ->). destruct e' as [|err n d|n s]; cbn [prompts]; [reflexivity|intros (d1 & t2 & _ & Q); discriminate Q|intros (t2 & Q); discriminate Q].
  - intros (d1 & t1 & -> & ->) P. symmetry. exact (prompts_read _ _ _ _ _ P).
  - intros (t1 & ->) P. symmetry. exact (prompts_exit _ _ _ _ P).
Qed.
Lemma all_prompts_unique es ts : Forall2 prompts es ts -> forall es', Forall2 prompts es' ts -> es = es'.
Proof.
  intros F. induction F as [|e t es ts P F IH]; intros es' F'.
  - remember [] as ts eqn:Q. destruct F'; [reflexivity|discriminate Q].
  - remember (t :: ts) as tts eqn:Q. destruct F' as [|e' t' es' ts' P' F']; [discriminate Q|]. apply pair_cons in Q as [-> ->]. f_equal; [exact (prompts_unique _ _ _ P P')|exact (IH _ F')].
Qed.
Lemma run_wr C rng h : crypto_ok C -> rngs_ok rng -> forall es st st', sinv st -> session_run C rng h es st = Some (Ok false, st') ->
  exists t, s_log st' = s_log st ++ t /\ k_wr (s_conn st') = later (len (s_sent t)) (k_wr (s_conn st)).
Proof.
  intros K R es. induction es as [|e es IH]; intros st st' I H; cbn [session_run] in H.
  - apply Some_inj, pair_eq in H as [_ <-]. exists []. rewrite app_nil_r. split; [reflexivity|]. symmetry. apply later_0. apply I.
  - destruct (session_step C rng h e st) as [[[[|]|y|] s]|] eqn:E; try discriminate H.
    destruct (session_step_result C rng h K R _ _ _ I E) as (pls & t & Cs & _ & _ & _ & I2). destruct (IH _ _ I2 H) as (t2 & L2 & W2).
    exists (t ++ t2). rewrite L2, W2, (proj1 (proj2 Cs)), later_later, s_sent_app, len_app. split; [|reflexivity].
    assert (X : s_log s = s_log st ++ t) by apply Cs. rewrite X, app_assoc. reflexivity.
Qed.
Lemma plain_beside C rng h k es st : is_cut_session C rng h k es (Ok false) st ->
  exists h' s st', is_session C rng h' (with_in s k) (plain_events es) (Ok false) st' /\ all_beside es (s_log st) (s_log st') /\ in_step st st'.
Proof.
  intros (K & R & L1 & L2 & H). destruct (shadow_run C rng K R h k es [] _ _ (shadow_init k L1 L2) H) as (ts & raws & I & A & PS & TS & FS & WS). cbv zeta in *. cbn [app] in *.
  destruct (stream_of C K _ _ FS (k_rd k) L1) as (s & pls & F & FW).
  exists (answering (spawn_answers (concat ts)) (write_answers (concat ts))), s.
  destruct (every_transcript C rng _ (with_in s k) ts pls [] K R L1 L2 (TS _ _ (begins_self _) (begins_self _)) F FW) as (es' & st' & IS & P & L & _).
  rewrite <- (all_prompts_unique _ _ PS _ P) in IS. exists st'. split; [exact IS|]. rewrite L. split; [exact A|].
  pose proof (sess_inv _ _ _ _ _ _ IS) as (_ & (A1 & A2 & A3 & A4 & A5) & _). destruct I as (_ & (B1 & B2 & B3 & B4 & B5) & _). cbn [relog s_log s_chans s_stdout s_stderr s_wait s_children] in *.
  rewrite L in *. split; [|repeat split; intros; try congruence].
  - intros c. specialize (A1 c). rewrite <- B1 in A1. destruct (arena_get (s_chans st) c) as [x|], (arena_get (s_chans st') c) as [y|]; try discriminate A1; [|reflexivity].
    cbn [option_map] in A1. apply Some_inj, pair_eq in A1 as [A1 A1']. destruct x, y. cbn in A1, A1'. congruence.
  - destruct IS as (_ & _ & _ & _ & RN). pose proof (session_init_inv (with_in s k) L1 L2) as I0. destruct (init_fields (with_in s k)) as (E1 & _ & _ & _ & _ & _ & _ & E8).
    destruct (run_wr C rng _ K R _ _ _ I0 RN) as (t & L' & W'). rewrite E8 in L'. rewrite E1 in W'. cbn [app] in L'. rewrite W', <- L', L, WS. reflexivity.
Qed.
