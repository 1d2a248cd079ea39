(** Proofs about cancelled sessions: what is written. *)
From Coq Require Import Init.Byte Strings.Byte.
From Verif Require Export CancelThm3.
Open Scope res_scope.
Open Scope s_scope.

Lemma pieces_app C c p1 o1 c1 p2 o2 c2 : pieces C c p1 o1 c1 -> pieces C c1 p2 o2 c2 -> pieces C c (p1 ++ p2) (o1 ++ o2) c2.
Proof. intros A D. induction A; cbn [app]; rewrite <- ?app_assoc; [exact D|econstructor; eauto..]. Qed.
Lemma whole_app a b : whole_ones (a ++ b) = whole_ones a ++ whole_ones b.
Proof. apply flat_map_app. Qed.
Lemma cut_app a b : cut_ones (a ++ b) = cut_ones a ++ cut_ones b.
Proof. apply flat_map_app. Qed.

Section Emits.
  Context (C : Crypto) (rng : N -> N -> bytes) (h : SHandlers).
  Context (K : crypto_ok C) (R : rngs_ok rng).
  Definition lows (l : list (N * N)) : Prop := forall n p, look n l = Some p -> p < 2 ^ 32.
  Definition low (ch : Chan) : Prop := ch_peer ch < 2 ^ 32.
  Definition fine (st : SSt) : Prop :=
    good st /\ (forall i ch, arena_get (s_chans st) i = Some ch -> low ch) /\ lows (s_stdout st) /\ lows (s_stderr st) /\ lows (s_wait st).
  Definition grows (st st' : SSt) (cs : list N) : Prop :=
    exists ps o t, k_out (s_conn st') = k_out (s_conn st) ++ o /\ pieces C (k_wr (s_conn st)) ps o (k_wr (s_conn st')) /\
      s_log st' = s_log st ++ t /\ whole_ones ps = map wire (s_sent t) /\ cut_ones ps = cs.
  Lemma grows_none st st' t : k_out (s_conn st') = k_out (s_conn st) -> k_wr (s_conn st') = k_wr (s_conn st) -> s_log st' = s_log st ++ t -> s_sent t = [] ->
    grows st st' [].
  Proof.
    intros E1 E2 E3 E4. exists [], [], t. rewrite E1, E2, E3, E4, app_nil_r. repeat split. constructor.
  Qed.
  Lemma grows_trans a b c x y : grows a b x -> grows b c y -> grows a c (x ++ y).
  Proof.
    intros (p1 & o1 & t1 & A1 & A2 & A3 & A4 & A5) (p2 & o2 & t2 & B1 & B2 & B3 & B4 & B5). exists (p1 ++ p2), (o1 ++ o2), (t1 ++ t2).
    rewrite B1, A1, B3, A3, whole_app, cut_app, A4, B4, A5, B5, s_sent_app, map_app, <- !app_assoc. repeat split. eapply pieces_app; eassumption.
  Qed.
  Definition emits {A} (cs : list N) (V : A -> Prop) (m : SM A) : Prop := forall st, fine st ->
    match m st with
    | (Ok a, st') => V a /\ fine st' /\ grows st st' cs
    | (_, st') => cs = [] -> grows st st' []
    end.
  Lemma em_bind {A D} cs (V : A -> Prop) (W : D -> Prop) (m : SM A) (k : A -> SM D) : emits [] V m -> (forall x, V x -> emits cs W (k x)) -> emits cs W (sbind m k).
  Proof.
    intros M F st J. specialize (M st J). unfold sbind. destruct (m st) as [[x|e|] s].
    - destruct M as (Vx & J' & G). specialize (F x Vx s J'). destruct (k x s) as [[y|e|] s'].
      + destruct F as (Wy & J2 & G2). split; [exact Wy|]. split; [exact J2|]. exact (grows_trans _ _ _ [] cs G G2).
      + intros Q. exact (grows_trans _ _ _ [] [] G (F Q)).
      + intros Q. exact (grows_trans _ _ _ [] [] G (F Q)).
    - auto.
    - auto.
  Qed.
  Definition anything {A} (_ : A) : Prop := True.
  Lemma grows_self st : grows st st [].
  Proof. apply (grows_none _ _ []); rewrite ?app_nil_r; reflexivity. Qed.
  Lemma em_ret {A} (V : A -> Prop) (r : res InError A) : (forall a, r = Ok a -> V a) -> emits [] V (sret r).
  Proof. intros F st J. unfold sret. destruct r as [a|e|]; [split; [apply F; reflexivity|]; split; [exact J|apply grows_self]|intros _; apply grows_self..]. Qed.
  Lemma em_stop {A} cs (V : A -> Prop) : cs <> [] -> emits cs V (sret Panic).
  Proof. intros D st J Q. destruct (D Q). Qed.
  Lemma em_event e : s_sent [e] = [] -> emits [] anything (s_event e).
  Proof. intros E st J. split; [exact I|]. split; [exact J|]. apply (grows_none st _ [e]); try reflexivity. exact E. Qed.
  Lemma em_drop x : emits [] anything (s_drop x).
  Proof. destruct x; [apply em_event; reflexivity|apply em_ret; intros; exact I]. Qed.
  Lemma em_get i : emits [] low (s_get i).
  Proof.
    intros st J. unfold s_get. destruct (arena_get (s_chans st) i) as [ch|] eqn:E; [|intros _; apply grows_self].
    split; [exact (proj1 (proj2 J) _ _ E)|]. split; [exact J|apply grows_self].
  Qed.
  Lemma em_write n d : emits [] anything (s_write h n d).
  Proof.
    intros st J. unfold s_write. destruct (unwrap _); cbn [map_ok]; [split; [exact I|]; split; [exact J|]|intros _..];
      eapply grows_none; try reflexivity.
  Qed.
  Lemma em_spawn i ch ty : emits [] anything (s_spawn h i ch ty).
  Proof.
    intros st J. unfold s_spawn. destruct (unwrap _); cbn [map_ok]; [split; [exact I|]; split; [exact J|]|intros _..];
      eapply grows_none; try reflexivity.
  Qed.
  Lemma fine_chans st a : fine st -> (forall i ch, arena_get a i = Some ch -> low ch) -> fine (set_chans a st).
  Proof. intros (G & _ & J) F. split; [exact G|]. split; [exact F|exact J]. Qed.
  Lemma em_insert ch : low ch -> emits [] (fun i => i < 2 ^ 32) (s_insert ch).
  Proof.
    intros L st J. unfold s_insert, arena_insert. pose proof (arena_slot_spec (s_chans st) ch) as S. destruct (arena_slot (s_chans st) ch) as [i a].
    destruct S as (_ & _ & S). unfold u32_try_unwrap, is_u32, u32_max1. change 4294967296 with (2 ^ 32). destruct (N.ltb_spec i (2 ^ 32)) as [Li|Li].
    - split; [exact Li|]. split; [|exact (grows_self st)]. apply fine_chans; [exact J|]. intros j c. rewrite S. destruct (j =? i); [|exact (proj1 (proj2 J) j c)].
      intros Q. apply Some_inj in Q. subst c. exact L.
    - intros _. exact (grows_self st).
  Qed.
  Lemma put_back {T} (a : Arena T) i x : forall j c, arena_get (arena_put a i (Some x)) j = Some c -> c = x \/ arena_get a j = Some c.
  Proof.
    revert i. induction a as [|y a IH]; intros i j c; cbn [arena_put arena_get]; [discriminate|].
    destruct (N.eqb_spec i 0) as [->|Z]; cbn [arena_get]; destruct (j =? 0).
    - intros Q. apply Some_inj in Q. auto.
    - auto.
    - auto.
    - apply IH.
  Qed.
  Lemma em_put i ch : low ch -> emits [] anything (s_put i (Some ch)).
  Proof.
    intros L st J. split; [exact I|]. split; [|exact (grows_self st)]. apply fine_chans; [exact J|].
    intros j c Q. apply put_back in Q as [->|Q]; [exact L|exact (proj1 (proj2 J) _ _ Q)].
  Qed.
  Lemma em_new_io n io p : p < 2 ^ 32 -> emits [] anything (s_new_io n io p).
  Proof.
    intros L st (G & J1 & J2 & J3 & J4). split; [exact I|]. split; [|apply (grows_none _ _ []); try reflexivity; cbn [s_log]; rewrite app_nil_r; reflexivity].
    assert (X : forall (b : bool) l, lows l -> lows ((if b then [(n, p)] else []) ++ l)).
    { intros b l Y m q. destruct b; cbn [app look]; [|apply Y]. destruct (n =? m); [|apply Y]. intros Q. apply Some_inj in Q. lia. }
    split; [exact G|]. split; [exact J1|]. cbn [s_stdout s_stderr s_wait]. auto.
  Qed.
  Lemma lows_forget n l : lows l -> lows (forget n l).
  Proof. intros Y m q. rewrite look_forget. destruct (n =? m); [discriminate|apply Y]. Qed.
  Lemma em_reads err n : emits [] anything (fun st => set_reads err (forget n (if err then s_stderr st else s_stdout st)) st).
  Proof.
    intros st (G & J1 & J2 & J3 & J4). split; [exact I|]. split; [|apply (grows_none _ _ []); try reflexivity; cbn [s_log]; rewrite app_nil_r; reflexivity].
    split; [exact G|]. split; [exact J1|]. cbn [s_stdout s_stderr s_wait]. destruct err; auto using lows_forget.
  Qed.
  Lemma em_wait n : emits [] anything (fun st => set_wait (forget n (s_wait st)) st).
  Proof.
    intros st (G & J1 & J2 & J3 & J4). split; [exact I|]. split; [|apply (grows_none _ _ []); try reflexivity; cbn [s_log]; rewrite app_nil_r; reflexivity].
    split; [exact G|]. split; [exact J1|]. cbn [s_stdout s_stderr s_wait]. auto using lows_forget.
  Qed.
  (** One frame. *)
  Lemma frame_of st c (k' : Conn) : written_as C (k_wr (s_conn st)) (k_out (s_conn st)) [c] (k_out k') -> counter (k_wr (s_conn st)) < 2 ^ 64 ->
    exists pad raw, loose_packet c pad raw /\ k_out k' = k_out (s_conn st) ++ seal_with C (k_wr (s_conn st)) raw.
  Proof.
    intros (ws & E & W) L. apply numbered_cons_inv in W as (w & ws' & -> & (pad & raw & P & ->) & W).
    destruct W as [W _]. destruct ws'; [|discriminate W]. cbn [concat] in E. rewrite app_nil_r, N.mod_small in E by exact L.
    exists pad, raw. split; [exact P|exact E].
  Qed.
  Lemma em_channel c : out_ok c -> emits [] anything (s_channel C rng c).
  Proof.
    intros O st (G & J). destruct (s_channel_ok C rng K R st c G O) as (st' & -> & G' & (S1 & S2 & S3 & S4 & S5 & S6) & (E1 & E2 & E3 & E4 & _)).
    split; [exact I|]. split; [split; [exact G'|]; rewrite E1, E2, E3, E4; exact J|].
    destruct (frame_of st _ _ S5 (proj2 (proj2 G))) as (pad & raw & P & E).
    exists [(wire (Msg_Channel c), None)], (seal_with C (k_wr (s_conn st)) raw), [put c]. split; [exact E|]. split; [|split; [exact S6|split; reflexivity]].
    rewrite <- (app_nil_r (seal_with _ _ _)). eapply Pc_whole; [exact P|]. rewrite S2. change (len (s_sent [put c])) with 1. rewrite <- (bump_later (k_wr (s_conn st))). constructor.
  Qed.
  Lemma em_cut n c : out_ok c -> emits [n] anything (s_cut C rng n (Msg_Channel c)).
  Proof.
    intros [M O] st ((LB & L1 & L2) & J). pose proof (conn_send_spec C rng (Msg_Channel c) (s_buf st) (s_conn st) K R M) as S.
    rewrite LB in S. specialize (S eq_refl). pose proof (room_range (len (wire (Msg_Channel c)))) as RR.
    replace (_ <=? 35000) with true in S by lia. destruct S as (k' & buf' & E & LB' & (Q1 & Q2 & Q3 & Q4 & Q5)).
    unfold s_cut. rewrite E. destruct (N.ltb_spec (len (k_out (s_conn st)) + n) (len (k_out k'))) as [L|L]; [|discriminate].
    destruct (frame_of st _ _ (Q5 L2) L2) as (pad & raw & P & EO). rewrite EO in L |- *. rewrite len_app in L.
    split; [exact I|]. split.
    { split; [|exact J]. unfold good, s_set, with_out. cbn [s_buf s_conn k_rd k_wr]. rewrite Q1, Q4. split; [congruence|]. split; [exact L1|apply bump_lt]. }
    exists [(wire (Msg_Channel c), Some n)], (ntake n (seal_with C (k_wr (s_conn st)) raw)), []. unfold s_set, with_out. cbn [s_conn k_out k_wr s_log].
    split; [|split; [|split; [rewrite app_nil_r; reflexivity|split; reflexivity]]].
    - rewrite ntake_app_ge by lia. do 2 f_equal. lia.
    - rewrite <- (app_nil_r (ntake _ _)). eapply Pc_cut; [exact P|lia|]. rewrite Q4. constructor.
  Qed.
  Lemma em_recv : emits [] anything (s_recv C).
  Proof.
    intros st (G & J). destruct (s_recv_cases C K st G) as [(pl & st' & -> & G' & (S1 & S2 & S3 & S4 & S5 & S6) & (E1 & E2 & E3 & E4 & _) & _)|(e & st' & E & L & O & _)].
    - split; [exact I|]. split; [split; [exact G'|]; rewrite E1, E2, E3, E4; exact J|].
      destruct S5 as (ws & S5 & [W _]). destruct ws; [|discriminate W]. cbn [concat] in S5. rewrite app_nil_r in S5.
      apply (grows_none _ _ []); [exact S5| |exact S6|reflexivity]. rewrite S2. change (len (s_sent [])) with 0. apply later_0, G.
    - rewrite E. intros _. apply (grows_none _ _ []); [exact O| |rewrite app_nil_r; exact L|reflexivity].
      unfold s_recv, conn_recv in E. destruct (In_recv _ _ _ _) as [r [[c b] s]]. apply pair_eq in E as [_ <-]. reflexivity.
  Qed.
  Lemma em_weaken {A} cs (V W : A -> Prop) (m : SM A) : emits cs V m -> (forall a, V a -> W a) -> emits cs W m.
  Proof. intros M F st J. specialize (M st J). destruct (m st) as [[a|e|] s]; [|exact M..]. destruct M as (Va & M). split; [apply F, Va|exact M]. Qed.
  Ltac em := repeat lazymatch goal with
    | |- emits _ _ (sbind (s_get _) _) => refine (em_bind _ low _ _ _ (em_get _) _); intros ? ?
    | |- emits _ _ (sbind _ _) => refine (em_bind _ anything _ _ _ _ _); [|intros ? _]
    | |- emits [] _ (sret _) => apply em_ret; intros; exact I
    | |- emits [_] _ (sret _) => apply em_stop; discriminate
    | |- emits _ _ (s_put _ _) => apply em_put; unfold low in *; cbn [ch_peer]; assumption
    | |- emits _ _ (s_drop _) => exact (em_drop _)
    | |- emits _ _ (s_write _ _ _) => exact (em_write _ _)
    | |- emits _ _ (s_spawn _ _ _ _) => exact (em_spawn _ _ _)
    | |- emits _ _ (s_cut _ _ _ _) => apply em_cut; apply short_ok; [assumption|cbn; auto]
    | |- emits _ _ (s_channel C rng _) => apply em_channel; apply short_ok; [assumption|cbn; auto]
    | |- emits _ _ (s_new_io _ _ _) => apply em_new_io; assumption
    | |- emits _ _ (on_spawn _ _ _ _ _ _) => unfold on_spawn
    | |- emits _ _ (on_spawn_cut _ _ _ _ _ _ _) => unfold on_spawn_cut
    | |- emits _ _ (on_refused _ _ _ _) => unfold on_refused
    | |- emits _ _ (if ?x then _ else _) => destruct x
    | |- emits _ _ (match ?x with _ => _ end) => destruct x
    end.
  Lemma em_message m : message_ok m -> emits [] anything (on_message C rng h m).
  Proof.
    intros M. destruct m as [d|d|n|d|s|s|ki| |e|e|u|ch]; cbn [on_message]; try (em; fail).
    destruct ch as [o|o|i r d l|i n|i d|i t d|i|i|r|i|i]; cbn [on_message]; try (em; fail).
    - refine (em_bind _ _ _ _ _ (em_insert _ _) _).
      + unfold low. cbn [ch_peer]. destruct M as [F _]. cbn [message_fields channel_fields] in F. finv. assumption.
      + intros i L. refine (em_bind _ anything _ _ _ (em_channel _ _) _); [exact (confirmation_ok o i M L)|]. intros ? _. em.
    - intros st J. unfold arena_remove.
      assert (X : emits [] anything (_ <: s_drop (match arena_get (s_chans st) i with Some ch => ch_stdin ch | None => None end) ;; sret (Ok false))) by em.
      specialize (X (set_chans (arena_put (s_chans st) i None) st)). cbv zeta. apply X. apply fine_chans; [exact J|].
      intros j c. rewrite arena_put_get by (right; reflexivity). destruct (j =? i); [discriminate|exact (proj1 (proj2 J) j c)].
  Qed.
  Lemma em_message_cut n m : message_ok m -> emits [n] anything (on_message_cut C rng h n m).
  Proof.
    intros M. destruct m as [d|d|n0|d|s|s|ki| |e|e|u|ch]; cbn [on_message_cut]; try (em; fail).
    destruct ch as [o|o|i r d l|i n0|i d|i t d|i|i|r|i|i]; cbn [on_message_cut]; try (em; fail).
    refine (em_bind _ _ _ _ _ (em_insert _ _) _).
    + unfold low. cbn [ch_peer]. destruct M as [F _]. cbn [message_fields channel_fields] in F. finv. assumption.
    + intros i L. exact (em_cut n _ (confirmation_ok o i M L)).
  Qed.
  Lemma em_get_message : emits [] message_ok (s_message C).
  Proof.
    unfold s_message. refine (em_bind _ anything _ _ _ em_recv _). intros pl _.
    refine (em_bind _ message_ok _ _ _ (em_ret _ _ _) _).
    - intros m Q. destruct (Received_parse pl) as [(m' & P & W & _)|(P & W)].
      + rewrite P in Q. cbn [unwrap] in Q. apply Ok_inj in Q. subst m'. apply W.
      + destruct (Message_parse pl) as [m'|e|]; [destruct (P m' eq_refl)|discriminate Q..].
    - intros m M. refine (em_bind _ anything _ _ _ _ _); [apply em_event; reflexivity|]. intros _ _. apply em_ret. intros a Q. apply Ok_inj in Q. subst a. exact M.
  Qed.
  Lemma em_packet : emits [] anything (on_packet C rng h).
  Proof.
    intros st J. rewrite packet_message. pose proof (em_bind [] message_ok anything _ (on_message C rng h) em_get_message em_message st J) as X.
    unfold sbind in X. destruct (s_message C st) as [[m|e|] s]; exact X.
  Qed.
  Lemma em_output err n p d : p < 2 ^ 32 -> match d with Ok d => len d <= 256 | _ => True end -> emits [] anything (on_output C rng err n p d).
  Proof.
    intros L D. unfold on_output. refine (em_bind _ (fun x => len x <= 256) _ _ _ (em_ret _ _ _) _).
    { intros x Q. destruct d as [y|e|]; try discriminate Q. apply Ok_inj in Q. subst y. exact D. }
    intros x Lx. refine (em_bind _ anything _ _ _ _ _); [apply em_event; reflexivity|]. intros _ _. refine (em_bind _ anything _ _ _ _ _); [|intros _ _; em].
    destruct (0 <? len x); [apply em_channel, data_ok; assumption|].
    assert (X : emits [] anything (sbind (fun st => set_reads err (forget n (if err then s_stderr st else s_stdout st)) st)
       (fun _ => if err then sret (Ok tt) else _ <: s_channel C rng (C_Eof p) ;; s_channel C rng (C_Close p)))).
    { refine (em_bind _ anything _ _ _ (em_reads err n) _). intros _ _. em. }
    exact X.
  Qed.
  Lemma em_exit n p s : p < 2 ^ 32 -> s < 2 ^ 32 -> emits [] anything (on_exit C rng n p s).
  Proof.
    intros L Ls. unfold on_exit.
    assert (X : emits [] anything (sbind (fun st => set_wait (forget n (s_wait st)) st) (fun _ =>
      _ <: s_event (SE_Exit n s) ;; '(ty, data) <: sret (unwrap (session_written (SR_ExitStatus s) (zeros 256))) ;;
      _ <: s_channel C rng (C_Request {| rq_recipient := p; rq_ty := ty; rq_want_reply := false; rq_data := data |}) ;; sret (Ok false)))); [|exact X].
    refine (em_bind _ anything _ _ _ (em_wait n) _). intros _ _. refine (em_bind _ anything _ _ _ _ _); [apply em_event; reflexivity|]. intros _ _.
    rewrite session_written_eq by (split; [cbn; repeat constructor; exact Ls|exact I]).
    replace (_ <=? _) with true by (cbn [session_fields]; unfold enc; cbn [map concat enc1]; lens; rewrite be32_len, len_zeros; reflexivity).
    cbn [unwrap].
    assert (EQ : C_Request {| rq_recipient := p; rq_ty := session_name (SR_ExitStatus s); rq_want_reply := false;
                              rq_data := enc (session_fields (SR_ExitStatus s)) |} = exit_status p s).
    { unfold exit_status. cbn [session_fields session_name]. unfold enc. cbn [map concat enc1]. rewrite app_nil_r. reflexivity. }
    intros st J. unfold sbind at 1, sret at 1. cbv beta iota. rewrite EQ. revert st J.
    change (emits [] anything (_ <: s_channel C rng (exit_status p s) ;; sret (Ok false))).
    refine (em_bind _ anything _ _ _ (em_channel _ (exit_ok _ _ L Ls)) _). intros _ _. em.
  Qed.
  Lemma em_step e st : fine st ->
    match session_step C rng h e st with
    | Some (Ok _, st') => fine st' /\ grows st st' []
    | Some (_, st') => grows st st' []
    | None => True
    end.
  Proof.
    intros J. assert (Y : forall m : SM bool, emits [] anything m -> match Some (m st) with
      | Some (Ok _, st') => fine st' /\ grows st st' [] | Some (_, st') => grows st st' [] | None => True end).
    { intros m M. specialize (M st J). destruct (m st) as [[b|e0|] s]; [apply M|apply M; reflexivity..]. }
    destruct J as (G & J1 & J2 & J3 & J4). destruct e as [|err n d|n s]; cbn [session_step].
    - apply Y, em_packet.
    - destruct (look n (if err then s_stderr st else s_stdout st)) as [p|] eqn:E; [|exact I].
      destruct (match d with Ok d => len d <=? 256 | _ => true end) eqn:D; [|exact I].
      apply Y, em_output; [destruct err; [eapply J3, E|eapply J2, E]|]. destruct d; [lia|exact I..].
    - destruct (look n (s_wait st)) as [p|] eqn:E; [|exact I]. unfold is_u32, u32_max1. destruct (N.ltb_spec s 4294967296) as [L|L]; [|exact I].
      apply Y, em_exit; [eapply J4, E|exact L].
  Qed.
  Lemma em_cut_step c st st' : fine st -> cut_step C rng h c st = Some st' ->
    fine st' /\ grows st st' (match c with Cut_Reply n => [n] | _ => [] end).
  Proof.
    intros J. destruct c as [n| |n]; cbn [cut_step].
    - intros E. apply cut_read_same in E as (d & rest & _ & _ & (b & L & ->)). unfold s_in in L. cbn [s_buf] in L.
      destruct J as ((G1 & G2 & G3) & J). split.
      + split; [|exact J]. split; [unfold s_with; cbn [s_buf]; congruence|]. split; assumption.
      + apply (grows_none _ _ []); try reflexivity. rewrite app_nil_r. reflexivity.
    - unfold cut_handler. pose proof (em_get_message st J) as X. destruct (s_message C st) as [[m|e|] s]; try discriminate.
      destruct (waits_for_handler _ _); [|discriminate]. intros Q. apply Some_inj in Q. subst s. apply X.
    - unfold cut_reply. pose proof (em_bind [n] message_ok anything _ (on_message_cut C rng h n) em_get_message (em_message_cut n) st J) as X.
      destruct (sbind _ _ st) as [[m|e|] s]; try discriminate. intros Q. apply Some_inj in Q. subst s. apply X.
  Qed.
  Lemma em_run es : forall st r st', fine st -> cut_run C rng h es st = Some (r, st') ->
    exists es1 es2, es = es1 ++ es2 /\ (r = Ok false -> es2 = [] /\ fine st') /\ grows st st' (reply_cuts es1).
  Proof.
    induction es as [|[e|c] es IH]; intros st r st' J E; cbn [cut_run] in E.
    - apply Some_inj, pair_eq in E as [<- <-]. exists [], []. split; [reflexivity|]. split; [auto|apply grows_self].
    - pose proof (em_step e st J) as X. destruct (session_step C rng h e st) as [[[[|]|e0|] s]|]; try discriminate E.
      2:{ destruct X as [J' X]. destruct (IH _ _ _ J' E) as (es1 & es2 & -> & Q & Y). exists (X_Turn e :: es1), es2.
          split; [reflexivity|]. split; [exact Q|]. exact (grows_trans _ _ _ [] _ X Y). }
      all: apply Some_inj, pair_eq in E as [<- <-]; exists [X_Turn e], es; (split; [reflexivity|]); (split; [discriminate|]); apply X.
    - destruct (elsewhere es); [|discriminate E]. destruct (cut_step C rng h c st) as [s|] eqn:S; [|discriminate E].
      apply em_cut_step in S as [J' X]; [|exact J]. destruct (IH _ _ _ J' E) as (es1 & es2 & -> & Q & Y). exists (X_Cut c :: es1), es2.
      split; [reflexivity|]. split; [exact Q|]. pose proof (grows_trans _ _ _ _ _ X Y) as Z. destruct c; exact Z.
  Qed.
End Emits.
Lemma fine_init k : counter (k_rd k) < 2 ^ 64 -> counter (k_wr k) < 2 ^ 64 -> fine (session_init k).
Proof.
  intros L1 L2. split; [exact (proj1 (session_init_inv k L1 L2))|]. destruct (init_fields k) as (E1 & E2 & E3 & E4 & E5 & E6 & E7 & E8).
  rewrite E3, E4, E5, E6. split; [discriminate|]. repeat split; intros n p; discriminate.
Qed.
(** All that is written, whatever is cancelled. *)
Lemma cut_written C rng h k es r st : is_cut_session C rng h k es r st ->
  exists es1 es2 ps o, es = es1 ++ es2 /\ (r = Ok false -> es2 = []) /\
    k_out (s_conn st) = k_out k ++ o /\ pieces C (k_wr k) ps o (k_wr (s_conn st)) /\
    whole_ones ps = map wire (s_sent (s_log st)) /\ cut_ones ps = reply_cuts es1.
Proof.
  intros (K & R & L1 & L2 & H). pose proof (fine_init k L1 L2) as J. destruct (init_fields k) as (E1 & _ & _ & _ & _ & _ & _ & E8).
  destruct (em_run C rng h K R es _ _ _ J H) as (es1 & es2 & E & Q & (ps & o & t & A1 & A2 & A3 & A4 & A5)).
  rewrite E1 in A1, A2. rewrite E8 in A3. cbn [app] in A3. exists es1, es2, ps, o. rewrite A3. assert (Q' : r = Ok false -> es2 = []) by (intros X; apply Q, X). auto 8.
Qed.

(** *** A skipped number *)
Lemma plain_fine C rng h k es st : is_session C rng h k es (Ok false) st -> fine st.
Proof.
  intros (K & R & L1 & L2 & H).
  assert (X : cut_run C rng h (map X_Turn es ++ []) (session_init k) = Some (Ok false, st)).
  { rewrite cut_run_turns. revert H. generalize (session_init k). intros s H. rewrite H. reflexivity. }
  destruct (em_run C rng h K R _ _ _ _ (fine_init k L1 L2) X) as (es1 & es2 & _ & Q & _). apply Q. reflexivity.
Qed.
Lemma output_step C rng h st (err : bool) n q d : crypto_ok C -> rngs_ok rng -> fine st -> look n (if err then s_stderr st else s_stdout st) = Some q -> 0 < len d <= 256 ->
  exists st2 pad raw, session_step C rng h (Ev_Output err n (Ok d)) st = Some (Ok false, st2) /\ fine st2 /\
    loose_packet (wire (Msg_Channel (C_Data q d))) pad raw /\ len raw + 16 <= 35000 /\ k_wr (s_conn st2) = bump (k_wr (s_conn st)) /\
    k_out (s_conn st2) = k_out (s_conn st) ++ seal_with C (k_wr (s_conn st)) raw /\
    s_sent (s_log st2) = s_sent (s_log st) ++ [Msg_Channel (C_Data q d)].
Proof.
  intros K R J LK Ld. cbn [session_step]. rewrite LK. replace (len d <=? 256) with true by lia.
  unfold on_output. unfold sbind at 1, sret at 1. cbn [unwrap]. unfold sbind at 1, s_event at 1. replace (0 <? len d) with true by lia.
  set (s1 := {| s_conn := _ |}). assert (J1 : fine s1) by exact J. destruct J as (_ & _ & J2 & J3 & _).
  assert (Lq : q < 2 ^ 32) by (destruct err; [eapply J3, LK|eapply J2, LK]).
  pose proof (data_ok q d Lq (proj2 Ld)) as O. unfold sbind at 1. pose proof J1 as (G1 & _).
  destruct (s_channel_ok C rng K R s1 _ G1 O) as (s2 & E & G2 & (S1 & S2 & S3 & S4 & S5 & S6) & (E1 & E2 & E3 & E4 & _)). rewrite E.
  destruct (frame_of C s1 _ _ S5 (proj2 (proj2 G1))) as (pad & raw & P & EO). exists s2, pad, raw.
  split; [reflexivity|]. split; [destruct J1 as (_ & J1); split; [exact G2|]; rewrite E1, E2, E3, E4; exact J1|]. split; [exact P|].
  split. { destruct P as (-> & P & _). destruct O as [_ O]. lens. rewrite be32_len. lia. }
  split; [rewrite S2; symmetry; exact (bump_later _)|]. split; [exact EO|]. rewrite S6, s_sent_app. unfold s1. cbn [s_log].
  rewrite s_sent_app. cbn [s_sent flat_map app]. rewrite app_nil_r. reflexivity.
Qed.
Lemma skipped C rng h k es st st' o t err n p d : is_session C rng h k es (Ok false) st -> is_session C rng h k (es ++ [Ev_Packet]) (Ok false) st' ->
  s_log st' = s_log st ++ got (C_Open o) :: t -> runs err (s_log st) n p -> 0 < len d <= 256 -> told_apart C (k_wr (s_conn st)) ->
  (exists st2 q, is_cut_session C rng h k (map X_Turn es ++ [X_Cut (Cut_Reply 0); X_Turn (Ev_Output err n (Ok d))]) (Ok false) st2 /\
     s_sent (s_log st2) = s_sent (s_log st) ++ [Msg_Channel (C_Data q d)]) /\
  forall es' r st2, is_cut_session C rng h k (map X_Turn es ++ X_Cut (Cut_Reply 0) :: X_Turn (Ev_Output err n (Ok d)) :: es') r st2 ->
    exists w, k_out (s_conn st2) = k_out (s_conn st) ++ w /\ w <> [] /\ forall pl, ~ next_payload C (k_wr (s_conn st)) 35000 w pl.
Proof.
  intros IS IS' E RU Ld TA. pose proof (one_more _ _ _ _ _ _ _ _ _ IS IS') as S. cbn [session_step] in S. apply Some_inj in S. pose proof IS as (K & R & L1 & L2 & H).
  destruct (open_cut C rng h 0 st st' o t K R S E (or_introl eq_refl)) as (st1 & C1 & E1 & S1 & S2).
  pose proof (plain_fine _ _ _ _ _ _ IS) as J. pose proof (em_cut_step C rng h K R (Cut_Reply 0) _ _ J C1) as (J1 & (ps & w & t1 & A1 & A2 & A3 & A4 & A5)).
  pose proof (run_inv C rng h K R _ _ _ (session_init_inv k L1 L2) H) as (_ & (_ & B2 & B3 & _) & _). apply stream_runs in RU.
  assert (LK : exists q, look n (if err then s_stderr st1 else s_stdout st1) = Some q).
  { rewrite S1, S2. replace (look n _) with (stream_after err (s_log st) n) by (destruct err; symmetry; [apply B3|apply B2]).
    destruct (stream_after err (s_log st) n) as [q|]; [eauto|congruence]. }
  destruct LK as (q & LK). destruct (output_step C rng h st1 err n q d K R J1 LK Ld) as (s2 & pad & raw & T1 & J2 & P & LR & T2 & T3 & T4).
  assert (X : w = [] /\ k_wr (s_conn st1) = bump (k_wr (s_conn st)) /\ s_sent (s_log st1) = s_sent (s_log st)).
  { rewrite E1 in A3. apply app_inv_head in A3. subst t1. change (map wire (s_sent [got (C_Open o)])) with (@nil bytes) in A4. rewrite E1, s_sent_app.
    change (s_sent [got (C_Open o)]) with (@nil Message). rewrite app_nil_r.
    destruct A2 as [c|c pl pad' raw' ps w c' P1 A2|c pl pad' raw' m ps w c' P1 Lm A2]; [discriminate A5|discriminate A4|].
    cbn [cut_ones flat_map snd app] in A5. cbn [whole_ones flat_map snd app] in A4.
    injection A5 as -> A5. fold (cut_ones ps) in A5. fold (whole_ones ps) in A4.
    destruct A2; [auto|discriminate A4|discriminate A5]. }
  destruct X as (-> & X2 & X3). rewrite app_nil_r in A1. split.
  - exists s2, q. split; [|rewrite T4, X3; reflexivity]. apply (after _ _ _ _ _ _ _ _ _ IS).
    rewrite (cut_first C rng h (Cut_Reply 0) _ st st1 C1) by discriminate. rewrite T1. reflexivity.
  - intros es' r st2 H2. apply (after _ _ _ _ _ _ _ _ _ IS) in H2. cbn [cut_run elsewhere cut_step] in H2. rewrite C1, T1 in H2.
    destruct (em_run C rng h K R _ _ _ _ J2 H2) as (es1 & es2 & _ & _ & (ps2 & w2 & t2 & D1 & _)). rewrite T3, A1, <- app_assoc in D1. rewrite X2 in D1.
    exists (seal_with C (bump (k_wr (s_conn st))) raw ++ w2). split; [exact D1|]. split.
    + intros Q. apply (f_equal len) in Q. rewrite len_app, seal_len, len_nil in Q; [lia|exact K|]. destruct P as (-> & _). lens. rewrite be32_len. lia.
    + intros pl (pad' & raw' & rest & P' & Q & L'). exact (TA _ _ _ _ _ _ _ _ P' P L' LR (eq_sym Q)).
Qed.
