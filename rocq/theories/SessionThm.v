(** Proofs about the session phase: the story. *)
From Coq Require Import Init.Byte Strings.Byte.
From Verif Require Export AuthThm2 ArenaThm.
Open Scope res_scope.
Open Scope s_scope.

(** ** Logs *)
Lemma chan_after_app l evs c : chan_after (l ++ evs) c = fold_left (chan_step c) evs (chan_after l c).
Proof. apply fold_left_app. Qed.
Lemma stream_after_app err l evs n : stream_after err (l ++ evs) n = fold_left (stream_step err n) evs (stream_after err l n).
Proof. apply fold_left_app. Qed.
Lemma wait_after_app l evs n : wait_after (l ++ evs) n = fold_left (wait_step n) evs (wait_after l n).
Proof. apply fold_left_app. Qed.
Lemma spawns_app a b : spawns (a ++ b) = spawns a + spawns b.
Proof. unfold spawns. rewrite filter_app, len_app. reflexivity. Qed.
Lemma s_sent_app a b : s_sent (a ++ b) = s_sent a ++ s_sent b.
Proof. apply flat_map_app. Qed.
Lemma received_ev_app a b : received (a ++ b) = received a ++ received b.
Proof. apply flat_map_app. Qed.

Lemma look_forget m n l : look m (forget n l) = if n =? m then None else look m l.
Proof.
  induction l as [|[c p] l IH]; cbn [forget filter look fst].
  - destruct (n =? m); reflexivity.
  - fold (forget n l). destruct (N.eqb_spec c n) as [->|D]; cbn [negb look].
    + rewrite IH. destruct (n =? m); reflexivity.
    + rewrite IH. destruct (N.eqb_spec c m) as [->|D2]; [|reflexivity]. replace (n =? m) with false by lia. reflexivity.
Qed.

Lemma turns_app h pre ts : forall t, turns h pre ts -> turn h (pre ++ concat ts) t -> turns h pre (ts ++ [t]).
Proof.
  revert pre. induction ts as [|t0 ts IH]; intros pre t A D; cbn [concat app] in *.
  - constructor; [rewrite app_nil_r in D; exact D|constructor].
  - inversion A; subst. constructor; [assumption|]. apply IH; [assumption|]. rewrite <- app_assoc. exact D.
Qed.

Section Story.
  Context (C : Crypto) (rng : N -> N -> bytes) (h : SHandlers).
  Context (K : crypto_ok C) (R : rngs_ok rng).

  (** *** Traffic *)
  Definition good (st : SSt) : Prop :=
    len (s_buf st) = 35000 /\ counter (k_rd (s_conn st)) < 2 ^ 64 /\ counter (k_wr (s_conn st)) < 2 ^ 64.
  Definition cstep (st st' : SSt) (pls : list bytes) (evs : list SEvent) : Prop :=
    k_rd (s_conn st') = later (len pls) (k_rd (s_conn st)) /\
    k_wr (s_conn st') = later (len (s_sent evs)) (k_wr (s_conn st)) /\
    k_sent (s_conn st') = k_sent (s_conn st) + len (s_sent evs) /\
    received_as C (k_rd (s_conn st)) (k_in (s_conn st)) pls (k_in (s_conn st')) /\
    written_as C (k_wr (s_conn st)) (k_out (s_conn st)) (map wire (s_sent evs)) (k_out (s_conn st')) /\
    s_log st' = s_log st ++ evs.
  Lemma cstep_refl st : good st -> cstep st st [] [].
  Proof.
    intros (_ & L1 & L2). unfold cstep. cbn [s_sent flat_map map]. rewrite len_nil, !later_0, N.add_0_r, app_nil_r by assumption.
    repeat split; auto; [apply received_nil|apply written_nil].
  Qed.
  Lemma cstep_trans st1 st2 st3 p1 e1 p2 e2 : cstep st1 st2 p1 e1 -> cstep st2 st3 p2 e2 -> cstep st1 st3 (p1 ++ p2) (e1 ++ e2).
  Proof.
    intros (A1 & B1 & C1 & D1 & E1 & F1) (A2 & B2 & C2 & D2 & E2 & F2). unfold cstep.
    rewrite s_sent_app, map_app, !len_app. split; [rewrite A2, A1, later_later; reflexivity|].
    split; [rewrite B2, B1, later_later; reflexivity|]. split; [lia|].
    split; [eapply received_app; [exact D1|]; rewrite <- A1; exact D2|].
    split; [eapply written_app; [exact E1|]; unfold len; rewrite map_length; fold (len (s_sent e1)); rewrite <- B1; exact E2|].
    rewrite F2, F1, app_assoc; reflexivity.
  Qed.

  Definition same (st st' : SSt) : Prop :=
    s_chans st' = s_chans st /\ s_stdout st' = s_stdout st /\ s_stderr st' = s_stderr st /\
    s_wait st' = s_wait st /\ s_children st' = s_children st.
  Lemma same_trans st1 st2 st3 : same st1 st2 -> same st2 st3 -> same st1 st3.
  Proof. intros (A1 & B1 & C1 & D1 & E1) (A2 & B2 & C2 & D2 & E2). unfold same. rewrite A2, B2, C2, D2, E2. auto. Qed.

  Lemma s_send_ok st m : good st -> message_ok m -> len (wire m) <= 30000 ->
    exists st', s_send C rng m st = (Ok tt, st') /\ good st' /\ cstep st st' [] [SE_Sent m] /\ same st st'.
  Proof.
    intros (LB & L1 & L2) M LW. pose proof (conn_send_spec C rng m (s_buf st) (s_conn st) K R M) as S.
    rewrite LB in S. specialize (S eq_refl). pose proof (room_range (len (wire m))) as RR.
    replace (_ <=? 35000) with true in S by lia. destruct S as (k' & buf' & E & LB' & (Q1 & Q2 & Q3 & Q4 & Q5)).
    unfold s_send. rewrite E. eexists. split; [reflexivity|]. unfold good, cstep, same. cbn [s_conn s_buf s_log s_chans s_stdout s_stderr s_wait s_children].
    split. { rewrite Q1, Q4. split; [exact LB'|]. split; [exact L1|apply bump_lt]. }
    split; [|repeat split].
    cbn [s_sent flat_map map app]. rewrite Q1, Q2, Q3, Q4, len_nil, later_0 by assumption.
    split; [reflexivity|]. split; [apply bump_later|]. split; [reflexivity|]. split; [apply received_nil|]. split; [apply Q5, L2|reflexivity].
  Qed.
  Lemma s_event_ok st e : good st -> s_sent [e] = [] ->
    exists st', s_event e st = (Ok tt, st') /\ good st' /\ cstep st st' [] [e] /\ same st st'.
  Proof.
    intros G N. eexists. split; [reflexivity|]. split; [exact G|]. split; [|repeat split].
    destruct (cstep_refl st G) as (A1 & B1 & C1 & D1 & E1 & F1). unfold cstep.
    cbn [s_conn s_log]. rewrite N. cbn [s_sent flat_map] in *. repeat split; assumption.
  Qed.
  Lemma s_recv_cases st : good st ->
    (exists pl st', s_recv C st = (Ok pl, st') /\ good st' /\ cstep st st' [pl] [] /\ same st st' /\
       next_payload C (k_rd (s_conn st)) 35000 (k_in (s_conn st)) pl) \/
    (exists e st', s_recv C st = (Err e, st') /\ s_log st' = s_log st /\ k_out (s_conn st') = k_out (s_conn st) /\
       forall pl, ~ next_payload C (k_rd (s_conn st)) 35000 (k_in (s_conn st)) pl).
  Proof.
    intros G. pose proof G as (LB & L1 & L2).
    destruct (conn_recv_spec C (s_buf st) (s_conn st) K) as [(pl & pad & raw & rest & buf' & P & E & LR & LB' & Q)|(NP & e & c' & s' & buf' & Q)];
      [rewrite LB; lia| |]; unfold s_recv; rewrite Q.
    - left. eexists _, _. split; [reflexivity|]. unfold good, cstep, same. cbn [s_conn s_buf s_log s_chans s_stdout s_stderr s_wait s_children k_rd k_wr k_in k_out k_sent].
      split; [split; [congruence|]; split; [apply bump_lt|exact L2]|].
      split; [|split; [repeat split|exists pad, raw, rest; rewrite <- LB; auto]].
      cbn [s_sent flat_map map]. rewrite app_nil_r, len_nil, later_0, N.add_0_r by exact L2.
      split; [apply bump_later|]. split; [reflexivity|]. split; [reflexivity|].
      split; [rewrite E; eapply received_one; eassumption|]. split; [apply written_nil|reflexivity].
    - right. eexists _, _. split; [reflexivity|]. split; [reflexivity|]. split; [reflexivity|]. rewrite LB in NP. exact NP.
  Qed.

  (** *** The log and the tables agree *)
  Definition view (ch : Chan) : N * option N := (ch_peer ch, ch_stdin ch).
  Definition agree (log : list SEvent) (st : SSt) : Prop :=
    (forall c, option_map view (arena_get (s_chans st) c) = chan_after log c) /\
    (forall n, look n (s_stdout st) = stream_after false log n) /\
    (forall n, look n (s_stderr st) = stream_after true log n) /\
    (forall n, look n (s_wait st) = wait_after log n) /\
    s_children st = spawns log.
  Lemma agree_same log st st' : agree log st -> same st st' -> agree log st'.
  Proof. intros A (E1 & E2 & E3 & E4 & E5). unfold agree. rewrite E1, E2, E3, E4, E5. exact A. Qed.
  (** Numbers of the peer are 32 bits. *)
  Definition small (log : list SEvent) : Prop :=
    (forall c p o, chan_after log c = Some (p, o) -> p < 2 ^ 32) /\
    (forall err n p, stream_after err log n = Some p -> p < 2 ^ 32) /\
    (forall n p, wait_after log n = Some p -> p < 2 ^ 32).

  Lemma agree_chan log st c : agree log st ->
    match arena_get (s_chans st) c with
    | Some ch => chan_after log c = Some (ch_peer ch, ch_stdin ch)
    | None => chan_after log c = None
    end.
  Proof. intros (A & _). specialize (A c). destruct (arena_get (s_chans st) c); symmetry; exact A. Qed.

  (** The result of handling a message, or of another turn that begins with the
      event [e]; [st] is the state in which [e] is in the log already. *)
  Definition turn_result (pre : list SEvent) (e : SEvent) (st : SSt) (x : res InError bool * SSt) : Prop :=
    let '(r, st') := x in
    exists evs, cstep st st' [] evs /\
    match r with
    | Ok false => good st' /\ turn h pre (e :: evs) /\ agree (pre ++ e :: evs) st'
    | Ok true => evs = [] /\ exists d, e = SE_Received (Msg_Disconnect d)
    | Err _ => False
    | Panic => crash h pre (e :: evs)
    end.

  Lemma set_chans_cstep st st' a pls evs : cstep st st' pls evs -> cstep st (set_chans a st') pls evs.
  Proof. intros H. exact H. Qed.
  Lemma set_chans_cstep_l st st' a pls evs : cstep (set_chans a st) st' pls evs -> cstep st st' pls evs.
  Proof. intros H. exact H. Qed.
  Lemma good_set a st : good st -> good (set_chans a st).
  Proof. intros H. exact H. Qed.

  (** *** The messages of the session phase *)
  Definition out_ok (c : Channel) : Prop := message_ok (Msg_Channel c) /\ len (wire (Msg_Channel c)) <= 300.
  Lemma confirmation_ok o i : message_ok (Msg_Channel (C_Open o)) -> i < 2 ^ 32 -> out_ok (confirmation o i).
  Proof.
    intros [F _] L. cbn [message_fields channel_fields] in F. finv. cbn [fld_ok] in *. unfold confirmation.
    split; [split; [|exact I]|].
    - cbn [message_fields channel_fields oc_recipient oc_sender oc_window oc_max_packet oc_data].
      repeat (constructor; [cbn [fld_ok]; auto; try lia|]). constructor.
    - unfold wire, enc. cbn [message_fields channel_fields oc_recipient oc_sender oc_window oc_max_packet oc_data map concat enc1].
      lens. rewrite ?be32_len. lia.
  Qed.
  Lemma data_ok p d : p < 2 ^ 32 -> len d <= 256 -> out_ok (C_Data p d).
  Proof.
    intros L L2. split; [split; [|exact I]|].
    - cbn [message_fields channel_fields]. repeat (constructor; [cbn [fld_ok]; auto; try lia|]). constructor.
    - unfold wire, enc. cbn [message_fields channel_fields map concat enc1]. lens. rewrite ?be32_len. lia.
  Qed.
  Definition numbered_only (c : N -> Channel) : Prop := In c [C_Eof; C_Close; C_Success; C_Failure].
  Lemma short_ok c p : p < 2 ^ 32 -> numbered_only c -> out_ok (c p).
  Proof.
    intros L H. unfold numbered_only in H. cbn [In] in H. destruct H as [<-|[<-|[<-|[<-|[]]]]];
    (split; [split; [|exact I]|];
      [cbn [message_fields channel_fields]; repeat (constructor; [cbn [fld_ok]; auto; try lia|]); constructor
      |unfold wire, enc; cbn [message_fields channel_fields map concat enc1]; lens; rewrite ?be32_len; lia]).
  Qed.
  Lemma exit_ok p s : p < 2 ^ 32 -> s < 2 ^ 32 -> out_ok (exit_status p s).
  Proof.
    intros L L2. unfold exit_status. split; [split; [|exact I]|].
    - cbn [message_fields channel_fields rq_recipient rq_ty rq_want_reply rq_data].
      repeat (constructor; [cbn [fld_ok]; auto; try lia; try reflexivity|]). constructor.
    - unfold wire, enc. cbn [message_fields channel_fields rq_recipient rq_ty rq_want_reply rq_data map concat enc1].
      lens. rewrite ?be32_len. change (len (B "exit-status")) with 11. lia.
  Qed.
  Lemma s_channel_ok st c : good st -> out_ok c ->
    exists st', s_channel C rng c st = (Ok tt, st') /\ good st' /\ cstep st st' [] [put c] /\ same st st'.
  Proof. intros G [M L]. apply s_send_ok; [exact G|exact M|lia]. Qed.

  Lemma agree_intro pre evs st st' : agree pre st ->
    (forall c, option_map view (arena_get (s_chans st') c) = fold_left (chan_step c) evs (option_map view (arena_get (s_chans st) c))) ->
    (forall n, look n (s_stdout st') = fold_left (stream_step false n) evs (look n (s_stdout st))) ->
    (forall n, look n (s_stderr st') = fold_left (stream_step true n) evs (look n (s_stderr st))) ->
    (forall n, look n (s_wait st') = fold_left (wait_step n) evs (look n (s_wait st))) ->
    s_children st' = s_children st + spawns evs -> agree (pre ++ evs) st'.
  Proof.
    intros (A1 & A2 & A3 & A4 & A5) E1 E2 E3 E4 E5. unfold agree.
    split; [intros c; rewrite E1, A1, chan_after_app; reflexivity|].
    split; [intros n; rewrite E2, A2, stream_after_app; reflexivity|].
    split; [intros n; rewrite E3, A3, stream_after_app; reflexivity|].
    split; [intros n; rewrite E4, A4, wait_after_app; reflexivity|].
    rewrite E5, A5, spawns_app. reflexivity.
  Qed.
  (** Events without effect on the tables. *)
  Definition idle (e : SEvent) : Prop :=
    (forall c s, chan_step c s e = s) /\ (forall err n s, stream_step err n s e = s) /\ (forall n s, wait_step n s e = s) /\ is_spawn e = false.
  Lemma agree_idle pre evs st st' : agree pre st -> same st st' -> Forall idle evs -> agree (pre ++ evs) st'.
  Proof.
    intros A (E1 & E2 & E3 & E4 & E5) F. apply (agree_intro pre evs st st' A); rewrite ?E1, ?E2, ?E3, ?E4, ?E5; try (intros n).
    all: induction F as [|e evs (I1 & I2 & I3 & I4) F IH]; cbn [fold_left]; rewrite ?I1, ?I2, ?I3; auto.
    - cbn. lia.
    - unfold spawns in *. cbn [filter]. rewrite I4. exact IH.
  Qed.
  Lemma idle_dropped n : idle (SE_Dropped n).
  Proof. repeat split. Qed.
  Lemma idle_put c : (forall o, c <> C_OpenConfirmation o) -> idle (put c).
  Proof. intros H. split; [|repeat split]. intros n s. destruct c; try reflexivity. destruct (H o eq_refl). Qed.

  (** *** Messages *)
  Lemma on_open pre st o : good st -> agree pre st -> message_ok (Msg_Channel (C_Open o)) ->
    turn_result pre (got (C_Open o)) st (on_message C rng h (Msg_Channel (C_Open o)) st).
  Proof.
    intros G A M. cbn [on_message]. unfold sbind at 1. unfold s_insert, arena_insert.
    set (ch := {| ch_peer := op_sender o; ch_stdin := None |}).
    pose proof (arena_slot_spec (s_chans st) ch) as S. destruct (arena_slot (s_chans st) ch) as [i a]. destruct S as (S1 & S2 & S3).
    assert (LF : least_free pre i).
    { split; [pose proof (agree_chan pre st i A) as X; rewrite S1 in X; exact X|]. intros j Lj.
      specialize (S2 j Lj). pose proof (agree_chan pre st j A) as X. destruct (arena_get (s_chans st) j); [congruence|destruct (S2 eq_refl)]. }
    unfold u32_try_unwrap, is_u32, u32_max1. change 4294967296 with (2 ^ 32). destruct (N.ltb_spec i (2 ^ 32)) as [L|L].
    - destruct (s_channel_ok (set_chans a st) _ (good_set a st G) (confirmation_ok o i M L)) as (st' & E & G' & S' & Sm).
      unfold sbind. cbv beta iota. unfold confirmation in E. rewrite E. exists [put (confirmation o i)]. split; [exact S'|]. split; [exact G'|].
      split; [apply T_Open; assumption|]. destruct Sm as (E1 & E2 & E3 & E4 & E5).
      apply (agree_intro pre _ st st' A); rewrite ?E1, ?E2, ?E3, ?E4, ?E5; cbn [set_chans s_chans s_stdout s_stderr s_wait s_children]; auto; try (cbn; lia).
      intros c. rewrite S3. cbn [fold_left chan_step got put confirmation oc_sender oc_recipient]. rewrite (N.eqb_sym i c).
      destruct (c =? i); reflexivity.
    - exists []. split; [apply (cstep_refl (set_chans a st)), G|]. eapply X_Full; eassumption.
  Qed.

  Lemma s_drop_ok st old : good st ->
    exists st', s_drop old st = (Ok tt, st') /\ good st' /\ cstep st st' [] (dropped old) /\ same st st'.
  Proof.
    intros G. destruct old as [n|]; cbn [s_drop dropped].
    - apply s_event_ok; [exact G|reflexivity].
    - exists st. split; [reflexivity|]. split; [exact G|]. split; [apply cstep_refl, G|]. repeat split.
  Qed.
  Lemma idle_drops old : Forall idle (dropped old).
  Proof. destruct old; repeat constructor. Qed.

  Lemma on_eof pre st c : good st -> agree pre st ->
    turn_result pre (got (C_Eof c)) st (on_message C rng h (Msg_Channel (C_Eof c)) st).
  Proof.
    intros G A. cbn [on_message]. unfold sbind at 1. unfold s_get.
    pose proof (agree_chan pre st c A) as X. destruct (arena_get (s_chans st) c) as [ch|] eqn:Q.
    - unfold sbind at 1. cbn [s_put].
      set (a := arena_put _ _ _).
      destruct (s_drop_ok (set_chans a st) (ch_stdin ch) (good_set a st G)) as (st' & E & G' & S' & Sm).
      unfold sbind. rewrite E. exists (dropped (ch_stdin ch)). split; [exact S'|]. split; [exact G'|].
      split; [eapply T_Eof; exact X|]. destruct Sm as (E1 & E2 & E3 & E4 & E5).
      change (got (C_Eof c) :: dropped (ch_stdin ch)) with ([got (C_Eof c)] ++ dropped (ch_stdin ch)). rewrite app_assoc.
      apply (agree_idle _ _ (set_chans a st)); [|repeat split; assumption|apply idle_drops].
      apply (agree_intro pre _ st _ A); cbn [set_chans s_chans s_stdout s_stderr s_wait s_children]; auto; try (cbn; lia).
      intros j. unfold a. rewrite arena_put_get by (left; congruence). cbn [fold_left chan_step got].
      rewrite (N.eqb_sym j c). destruct (N.eqb_spec c j) as [<-|]; [rewrite Q|]; reflexivity.
    - exists []. split; [apply cstep_refl, G|]. eapply X_Channel; [reflexivity|exact X].
  Qed.
  Lemma on_close pre st c : good st -> agree pre st ->
    turn_result pre (got (C_Close c)) st (on_message C rng h (Msg_Channel (C_Close c)) st).
  Proof.
    intros G A. cbn [on_message]. unfold arena_remove.
    pose proof (agree_chan pre st c A) as X. set (a := arena_put _ _ _). set (old := match arena_get _ _ with Some ch => _ | None => _ end).
    destruct (s_drop_ok (set_chans a st) old (good_set a st G)) as (st' & E & G' & S' & Sm).
    unfold sbind. rewrite E. exists (dropped old). split; [exact S'|]. split; [exact G'|].
    assert (Y : old = match chan_after pre c with Some (_, old) => old | None => None end).
    { unfold old. destruct (arena_get (s_chans st) c); rewrite X; reflexivity. }
    split; [rewrite Y; apply T_Close|]. destruct Sm as (E1 & E2 & E3 & E4 & E5).
    change (got (C_Close c) :: dropped old) with ([got (C_Close c)] ++ dropped old). rewrite app_assoc.
    apply (agree_idle _ _ (set_chans a st)); [|repeat split; assumption|apply idle_drops].
    apply (agree_intro pre _ st _ A); cbn [set_chans s_chans s_stdout s_stderr s_wait s_children]; auto; try (cbn; lia).
    intros j. unfold a. rewrite arena_put_get by (right; reflexivity). cbn [fold_left chan_step got].
    rewrite (N.eqb_sym j c). destruct (c =? j); reflexivity.
  Qed.
  Lemma idle_stdin n d r : idle (SE_Stdin n d r).
  Proof. repeat split. Qed.
  Lemma on_data pre st c d : good st -> agree pre st -> s_log st = pre ++ [got (C_Data c d)] ->
    turn_result pre (got (C_Data c d)) st (on_message C rng h (Msg_Channel (C_Data c d)) st).
  Proof.
    intros G A L. cbn [on_message]. unfold sbind at 1. unfold s_get.
    pose proof (agree_chan pre st c A) as X. destruct (arena_get (s_chans st) c) as [ch|] eqn:Q.
    - destruct (ch_stdin ch) as [n|] eqn:I.
      + unfold sbind, s_write. rewrite L.
        destruct (s_event_ok st (SE_Stdin n d (h_write h (pre ++ [got (C_Data c d)]) n d)) G eq_refl) as (st' & E & G' & S' & Sm).
        unfold s_event in E. apply pair_eq in E as [_ <-]. rewrite L in S', G', Sm.
        destruct (h_write h (pre ++ [got (C_Data c d)]) n d) as [k|[]|] eqn:W; cbn [unwrap map_ok sret]; eexists; (split; [exact S'|]).
        * split; [exact G'|]. split; [eapply T_Data; eassumption|].
          eapply agree_idle; [exact A|exact Sm|]. repeat constructor.
        * eapply X_Write; [exact X|exact W|discriminate].
        * eapply X_Write; [exact X|exact W|discriminate].
      + exists []. split; [apply cstep_refl, G|]. eapply X_Data; exact X.
    - exists []. split; [apply cstep_refl, G|]. eapply X_Channel; [reflexivity|exact X].
  Qed.

  Lemma s_wanted_ok st r c : good st -> out_ok c ->
    exists st', (if rq_want_reply r then s_channel C rng c else sret (Ok tt)) st = (Ok tt, st') /\
      good st' /\ cstep st st' [] (wanted r c) /\ same st st'.
  Proof.
    intros G O. unfold wanted. destruct (rq_want_reply r); [apply s_channel_ok; assumption|].
    exists st. split; [reflexivity|]. split; [exact G|]. split; [apply cstep_refl, G|repeat split].
  Qed.
  Lemma idle_wanted r c : (forall o, c <> C_OpenConfirmation o) -> Forall idle (wanted r c).
  Proof. intros H. unfold wanted. destruct (rq_want_reply r); repeat constructor. apply idle_put, H. Qed.

  Definition unit_result (pre : list SEvent) (e : SEvent) (st : SSt) (x : res InError unit * SSt) : Prop :=
    let '(r, st') := x in
    exists evs, cstep st st' [] evs /\
    match r with
    | Ok _ => good st' /\ turn h pre (e :: evs) /\ agree (pre ++ e :: evs) st'
    | Err _ => False
    | Panic => crash h pre (e :: evs)
    end.
  Lemma unit_turn pre e st (m : SM unit) : unit_result pre e st (m st) -> turn_result pre e st ((_ <: m ;; sret (Ok false)) st).
  Proof.
    unfold sbind, sret. destruct (m st) as [[[]|?|] st']; unfold unit_result, turn_result; intros H; exact H.
  Qed.

  Lemma on_start pre st r ch q ty : good st -> agree pre st -> small pre -> s_log st = pre ++ [got (C_Request r)] ->
    arena_get (s_chans st) (rq_recipient r) = Some ch -> session_request r q -> starts q = Some ty ->
    unit_result pre (got (C_Request r)) st (on_spawn C rng h r ch ty st).
  Proof.
    intros G A Sm0 L Q SR T. pose proof (agree_chan pre st (rq_recipient r) A) as X. rewrite Q in X.
    destruct (A) as (_ & _ & _ & _ & AC).
    unfold on_spawn. unfold sbind at 1. unfold s_spawn. rewrite L.
    set (x := h_spawn h (pre ++ [got (C_Request r)]) ty).
    destruct (s_event_ok st (SE_Spawn (rq_recipient r) (ch_peer ch) (s_children st) ty x) G eq_refl) as (st1 & E1 & G1 & S1 & Sm1).
    unfold s_event in E1. rewrite L in E1. apply pair_eq in E1 as [_ E1]. 
    set (st2 := {| s_conn := s_conn st; s_buf := s_buf st; s_chans := s_chans st; s_stdout := s_stdout st; s_stderr := s_stderr st;
        s_wait := s_wait st; s_children := 1 + s_children st; s_log := _ |}).
    assert (G2 : good st2) by exact G.
    assert (S2 : cstep st st2 [] [SE_Spawn (rq_recipient r) (ch_peer ch) (s_children st) ty x]).
    { rewrite <- E1 in S1. exact S1. }
    clear E1 S1 G1 Sm1 st1. rewrite AC in S2 at 1.
    destruct x as [io|[]|] eqn:W; cbn [unwrap map_ok].
    - unfold sbind at 1. cbn [s_put]. set (a := arena_put _ _ _).
      destruct (s_drop_ok (set_chans a st2) (ch_stdin ch) G2) as (st3 & E3 & G3 & S3 & Sm3).
      unfold sbind at 1. rewrite E3.
      assert (O : out_ok (C_Success (ch_peer ch))).
      { apply short_ok; [destruct Sm0 as (Sm0 & _); eapply Sm0, X|cbn; auto]. }
      destruct (s_wanted_ok st3 r _ G3 O) as (st4 & E4 & G4 & S4 & Sm4).
      unfold sbind. rewrite E4. unfold s_new_io.
      eexists. split.
      { refine (cstep_trans _ _ _ [] _ [] _ S2 _). refine (cstep_trans _ _ _ [] _ [] _ S3 _). exact S4. }
      split; [exact G4|]. split.
      { cbn [app]. eapply (T_Start h pre r q ty (ch_peer ch) (ch_stdin ch) io); assumption. }
      pose proof (same_trans _ _ _ Sm3 Sm4) as (E1 & E2 & E5 & E6 & E7).
      set (tl := dropped (ch_stdin ch) ++ wanted r (C_Success (ch_peer ch))).
      change (pre ++ got (C_Request r) :: [SE_Spawn (rq_recipient r) (ch_peer ch) (spawns pre) ty (Ok io)] ++ tl)
        with (pre ++ [got (C_Request r); SE_Spawn (rq_recipient r) (ch_peer ch) (spawns pre) ty (Ok io)] ++ tl).
      rewrite app_assoc. eapply agree_idle; [|repeat split; reflexivity|].
      2: { apply Forall_app. split; [apply idle_drops|apply idle_wanted; discriminate]. }
      apply (agree_intro pre _ st _ A); cbn [set_chans s_chans s_stdout s_stderr s_wait s_children]; rewrite ?E1, ?E2, ?E5, ?E6, ?E7;
        cbn [set_chans s_chans s_stdout s_stderr s_wait s_children st2 fold_left chan_step stream_step wait_step got has].
      + intros c. unfold a, st2. cbn [s_chans]. rewrite arena_put_get by (left; congruence). rewrite (N.eqb_sym c).
        destruct (N.eqb_spec (rq_recipient r) c) as [<-|]; [rewrite Q, <- AC|]; reflexivity.
      + intros n. unfold st2. cbn [s_stdout]. rewrite <- AC. destruct (io_stdout io); cbn [app look]; [rewrite andb_true_r|rewrite andb_false_r]; reflexivity.
      + intros n. unfold st2. cbn [s_stderr]. rewrite <- AC. destruct (io_stderr io); cbn [app look]; [rewrite andb_true_r|rewrite andb_false_r]; reflexivity.
      + intros n. unfold st2. cbn [s_wait]. rewrite <- AC. destruct (io_stdout io || io_stderr io); cbn [app look]; [rewrite andb_true_r|rewrite andb_false_r]; reflexivity.
      + unfold st2, spawns. cbn. lia.
    - eexists. split; [exact S2|]. eapply X_Start; try eassumption. discriminate.
    - eexists. split; [exact S2|]. eapply X_Start; try eassumption. discriminate.
  Qed.
  Lemma on_refuse pre st r ch q : good st -> agree pre st -> small pre ->
    arena_get (s_chans st) (rq_recipient r) = Some ch -> session_request r q -> refused q = true ->
    unit_result pre (got (C_Request r)) st (on_refused C rng r ch st).
  Proof.
    intros G A Sm0 Q SR T. pose proof (agree_chan pre st (rq_recipient r) A) as X. rewrite Q in X.
    assert (O : out_ok (C_Failure (ch_peer ch))).
    { apply short_ok; [destruct Sm0 as (Sm0 & _); eapply Sm0, X|cbn; auto]. }
    unfold on_refused. destruct (s_wanted_ok st r _ G O) as (st4 & E4 & G4 & S4 & Sm4). rewrite E4.
    eexists. split; [exact S4|]. split; [exact G4|]. split; [eapply T_Refuse; eassumption|].
    eapply agree_idle; [exact A|exact Sm4|]. constructor; [repeat split|apply idle_wanted; discriminate].
  Qed.
  Lemma on_request pre st r : good st -> agree pre st -> small pre -> s_log st = pre ++ [got (C_Request r)] ->
    turn_result pre (got (C_Request r)) st (on_message C rng h (Msg_Channel (C_Request r)) st).
  Proof.
    intros G A Sm0 L. cbn [on_message]. unfold sbind at 1. unfold s_get.
    pose proof (agree_chan pre st (rq_recipient r) A) as X. destruct (arena_get (s_chans st) (rq_recipient r)) as [ch|] eqn:Q.
    2: { exists []. split; [apply cstep_refl, G|]. eapply X_Channel; [reflexivity|exact X]. }
    unfold sbind at 1. unfold sret at 1.
    pose proof (fun q => SessionRequest_parse_iff (rq_ty r) (rq_data r) q) as PI.
    assert (Bad : (forall q, SessionRequest_parse (rq_ty r) (rq_data r) = Ok q -> starts q = None /\ refused q = false) ->
                  exists evs, cstep st st [] evs /\ crash h pre (got (C_Request r) :: evs)).
    { intros H. exists []. split; [apply cstep_refl, G|]. apply X_Request; [congruence|]. intros q SR. apply H, PI, SR. }
    destruct (SessionRequest_parse (rq_ty r) (rq_data r)) as [q|e|] eqn:P; cbn [unwrap].
    2: { apply Bad. discriminate. }
    2: { apply Bad. discriminate. }
    pose proof (proj1 (PI q) eq_refl) as SR. fold (session_request r q) in SR.
    destruct q; try (unfold sbind, sret; apply Bad; intros q0 E0; apply Ok_inj in E0; subst q0; split; reflexivity);
      apply unit_turn.
    - eapply on_refuse; try eassumption. reflexivity.
    - eapply on_refuse; try eassumption. reflexivity.
    - eapply on_start; try eassumption. reflexivity.
    - eapply on_start; try eassumption. reflexivity.
  Qed.

  Lemma on_message_result pre st m : good st -> agree pre st -> small pre -> s_log st = pre ++ [SE_Received m] -> message_ok m ->
    turn_result pre (SE_Received m) st (on_message C rng h m st).
  Proof.
    intros G A Sm0 L M.
    assert (U : unsupported m = true -> exists evs, cstep st st [] evs /\ crash h pre (SE_Received m :: evs)).
    { intros H. exists []. split; [apply cstep_refl, G|]. apply X_Unsupported, H. }
    destruct m as [d|d|x|x|x|x|x| |x|x|x|c]; try (apply U; reflexivity).
    - exists []. split; [apply cstep_refl, G|]. split; [reflexivity|]. exists d. reflexivity.
    - exists []. split; [apply cstep_refl, G|]. split; [exact G|]. split; [apply T_Ignore|].
      eapply agree_idle; [exact A|repeat split|repeat constructor].
    - destruct c; try (apply U; reflexivity).
      + apply on_open; assumption.
      + apply on_data; assumption.
      + apply on_eof; assumption.
      + apply on_close; assumption.
      + apply on_request; assumption.
  Qed.

  (** *** Numbers stay small *)
  Definition names (e : SEvent) : option N :=
    match e with
    | SE_Sent (Msg_Channel (C_OpenConfirmation o)) => Some (oc_recipient o)
    | SE_Spawn _ p _ _ _ => Some p
    | _ => None
    end.
  Definition event_ok (e : SEvent) : Prop := match names e with Some p => p < 2 ^ 32 | None => True end.
  Lemma chan_step_names c s e p x : chan_step c s e = Some (p, x) -> names e = Some p \/ exists y, s = Some (p, y).
  Proof.
    assert (S : forall s : option (N * option N), s = Some (p, x) -> exists y, s = Some (p, y)) by eauto.
    intros H. destruct e as [m|m|i p0 n ty io| | | | ]; cbn [chan_step names] in *; auto.
    - destruct m as [ | | | | | | | | | | |ch]; auto. destruct ch; auto; destruct (_ =? c); auto; [|discriminate H].
      destruct s as [[p1 o1]|]; [|discriminate H]. cbn in H. injection H as <- _. eauto.
    - destruct m as [ | | | | | | | | | | |ch]; auto. destruct ch; auto. destruct (_ =? c); auto. injection H as <- _. auto.
    - destruct io as [io| |]; auto. destruct (i =? c); auto.
      destruct s as [[p1 o1]|]; [|discriminate H]. cbn in H. injection H as <- _. eauto.
  Qed.
  Lemma stream_step_names err n s e p : stream_step err n s e = Some p -> names e = Some p \/ s = Some p.
  Proof.
    intros H. destruct e as [m|m|i p0 n0 ty io| | |err0 n0 d| ]; cbn [stream_step names] in *; auto.
    - destruct io as [io| |]; auto. destruct (_ && _); auto.
    - destruct d; auto. destruct (_ && _); [discriminate H|auto].
  Qed.
  Lemma wait_step_names n s e p : wait_step n s e = Some p -> names e = Some p \/ s = Some p.
  Proof.
    intros H. destruct e as [m|m|i p0 n0 ty io| | | | ]; cbn [wait_step names] in *; auto.
    - destruct io as [io| |]; auto. destruct (_ && _); auto.
    - destruct (_ =? n); [discriminate H|auto].
  Qed.
  Lemma small_app log evs : small log -> Forall event_ok evs -> small (log ++ evs).
  Proof.
    revert log. induction evs as [|e evs IH]; intros log S F; [rewrite app_nil_r; exact S|].
    apply Forall_cons_iff in F as [O F]. change (log ++ e :: evs) with (log ++ [e] ++ evs). rewrite app_assoc. apply IH; [|exact F].
    destruct S as (S1 & S2 & S3). unfold event_ok in O. repeat split.
    - intros c p x H. rewrite chan_after_app in H. cbn [fold_left] in H. apply chan_step_names in H as [H|[y H]]; [rewrite H in O; exact O|eauto].
    - intros err n p H. rewrite stream_after_app in H. cbn [fold_left] in H. apply stream_step_names in H as [H|H]; [rewrite H in O; exact O|eauto].
    - intros n p H. rewrite wait_after_app in H. cbn [fold_left] in H. apply wait_step_names in H as [H|H]; [rewrite H in O; exact O|eauto].
  Qed.
  Lemma turn_small pre t : small pre -> turn h pre t -> (forall o, In (got (C_Open o)) t -> op_sender o < 2 ^ 32) -> small (pre ++ t).
  Proof.
    intros S T O. apply small_app; [exact S|]. destruct S as (S1 & S2 & S3).
    destruct T; try (repeat constructor; fail).
    - constructor; [exact I|]. constructor; [|constructor]. unfold event_ok. cbn. apply O. left. reflexivity.
    - constructor; [exact I|]. constructor; [unfold event_ok; cbn; eauto|]. apply Forall_app. split; [destruct old; repeat constructor|].
      unfold wanted. destruct (rq_want_reply r); repeat constructor.
    - constructor; [exact I|]. unfold wanted. destruct (rq_want_reply r); repeat constructor.
    - constructor; [exact I|]. destruct old; repeat constructor.
    - constructor; [exact I|]. destruct (chan_after pre c) as [[? [|]]|]; repeat constructor.
  Qed.

  (** *** Turns *)
  Lemma Received_parse pl : 
    (exists m, Message_parse pl = Ok m /\ is_wire m pl /\ is_ecdh_reply m = false) \/
    ((forall m, Message_parse pl <> Ok m) /\ forall m, is_wire m pl -> exists r, m = Msg_EcdhReply r).
  Proof.
    destruct (Message_parse pl) as [m|e|] eqn:E.
    - left. exists m. split; [reflexivity|]. apply Message_parse_iff, E.
    - right. split; [discriminate|]. intros m W. destruct (is_ecdh_reply m) eqn:Q.
      + destruct m; try discriminate Q. eauto.
      + exfalso. assert (X : Message_parse pl = Ok m) by (apply Message_parse_iff; auto). congruence.
    - exfalso. exact (Message_parse_np pl E).
  Qed.

  Definition sinv (st : SSt) : Prop := good st /\ agree (s_log st) st /\ small (s_log st).
  Definition packet_result (st : SSt) (x : res InError bool * SSt) : Prop :=
    let '(r, st') := x in
    match r with
    | Ok b => exists pl m evs, cstep st st' [pl] (SE_Received m :: evs) /\ is_wire m pl /\
        if b then evs = [] /\ exists d, m = Msg_Disconnect d else turn h (s_log st) (SE_Received m :: evs) /\ sinv st'
    | Err _ => s_log st' = s_log st /\ k_out (s_conn st') = k_out (s_conn st) /\
        forall pl, ~ next_payload C (k_rd (s_conn st)) 35000 (k_in (s_conn st)) pl
    | Panic =>
        (s_log st' = s_log st /\ k_out (s_conn st') = k_out (s_conn st) /\
         exists pl, next_payload C (k_rd (s_conn st)) 35000 (k_in (s_conn st)) pl /\ forall m, is_wire m pl -> exists r, m = Msg_EcdhReply r) \/
        exists pl m evs, cstep st st' [pl] (SE_Received m :: evs) /\ is_wire m pl /\ crash h (s_log st) (SE_Received m :: evs)
    end.
  Lemma received_of_turn pre t : turn h pre t -> forall m, In (SE_Received m) t -> exists t', t = SE_Received m :: t'.
  Proof.
    intros T m H. assert (D : forall o, ~ In (SE_Received m) (dropped o)) by (intros [?|]; cbn; intuition discriminate).
    assert (W : forall r c, ~ In (SE_Received m) (wanted r c)) by (intros r c; unfold wanted; destruct (rq_want_reply r); cbn; intuition discriminate).
    destruct T; cbn [app In] in H; repeat (destruct H as [H|H]; [try discriminate H; injection H as <-; eexists; reflexivity|]);
      try contradiction; try (apply in_app_or in H as [H|H]); try (edestruct D; eassumption); edestruct W; eassumption.
  Qed.
  Lemma on_packet_result st : sinv st -> packet_result st (on_packet C rng h st).
  Proof.
    intros (G & A & S). unfold on_packet. unfold sbind at 1.
    destruct (s_recv_cases st G) as [(pl & st1 & E1 & G1 & C1 & Sm1 & NP)|(e & st1 & E1 & L1 & O1 & NP)]; rewrite E1.
    2: { split; [exact L1|]. split; [exact O1|exact NP]. }
    unfold sbind at 1. unfold sret at 1.
    destruct (Received_parse pl) as [(m & P & W & _)|(P & W)].
    2: { destruct (Message_parse pl) as [m|e|] eqn:Q; [destruct (P m eq_refl)| |]; cbn [unwrap]; left;
         (split; [destruct C1 as (_ & _ & _ & _ & _ & F); rewrite app_nil_r in F; exact F|]);
         (split; [|exists pl; auto]); destruct C1 as (_ & _ & _ & _ & (ws & F & N) & _); destruct N as [N _];
         cbn [s_sent flat_map map] in N; destruct ws; [|discriminate N|idtac|discriminate N]; rewrite F; cbn [concat]; apply app_nil_r. }
    rewrite P. cbn [unwrap]. unfold sbind at 1.
    destruct (s_event_ok st1 (SE_Received m) G1 eq_refl) as (st2 & E2 & G2 & C2 & Sm2). rewrite E2.
    pose proof (cstep_trans _ _ _ _ _ _ _ C1 C2) as C3. cbn [app] in C3.
    assert (L3 : s_log st2 = s_log st ++ [SE_Received m]) by apply C3.
    pose proof (same_trans _ _ _ Sm1 Sm2) as Sm3.
    pose proof (on_message_result (s_log st) st2 m G2 (agree_same _ _ _ A Sm3) S L3 (proj1 W)) as T.
    destruct (on_message C rng h m st2) as [r st3]. destruct T as (evs & C4 & T).
    pose proof (cstep_trans _ _ _ _ _ _ _ C3 C4) as C5. cbn [app] in C5.
    destruct r as [[|]|e|].
    - exists pl, m, evs. split; [exact C5|]. split; [exact W|]. destruct T as (-> & d & T). split; [reflexivity|].
      exists d. apply (f_equal (fun e => match e with SE_Received m => m | _ => m end)) in T. exact T.
    - exists pl, m, evs. split; [exact C5|]. split; [exact W|]. destruct T as (G5 & T & A5).
      assert (L5 : s_log st3 = s_log st ++ SE_Received m :: evs) by apply C5.
      split; [exact T|]. split; [exact G5|]. rewrite L5. split; [exact A5|]. apply turn_small; [exact S|exact T|].
      intros o I. apply (received_of_turn _ _ T) in I as [t' I].
      apply (f_equal (hd (SE_Dropped 0))) in I. cbn [hd] in I. apply (f_equal (fun e => match e with SE_Received m => m | _ => m end)) in I. subst m.
      destruct W as [[F _] _]. cbn [message_fields channel_fields] in F. finv. assumption.
    - destruct T.
    - right. exists pl, m, evs. auto.
  Qed.

  Lemma no_open pre t e : turn h pre (e :: t) -> (forall m, e <> SE_Received m) -> forall o, In (got (C_Open o)) (e :: t) -> op_sender o < 2 ^ 32.
  Proof.
    intros T H o I. apply (received_of_turn _ _ T) in I as [t' I]. exfalso.
    apply (f_equal (hd (SE_Dropped 0))) in I. cbn [hd] in I. eapply H, I.
  Qed.
  Definition other_result (e : Ev) (st : SSt) (x : res InError bool * SSt) : Prop :=
    let '(r, st') := x in
    r = Ok false /\ exists t, cstep st st' [] t /\ turn h (s_log st) t /\ prompts e t /\ sinv st'.
  Lemma on_output_result st err n peer data : sinv st -> stream_after err (s_log st) n = Some peer -> len data <= 256 ->
    other_result (Ev_Output err n (Ok data)) st (on_output C rng err n peer (Ok data) st).
  Proof.
    intros (G & A & S) T L. assert (Lp : peer < 2 ^ 32) by (destruct S as (_ & S & _); eapply S, T).
    unfold on_output. unfold sbind at 1. unfold sret at 1. cbn [unwrap]. unfold sbind at 1.
    destruct (s_event_ok st (SE_Read err n data) G eq_refl) as (st1 & E1 & G1 & C1 & Sm1). rewrite E1.
    destruct (N.ltb_spec 0 (len data)) as [P|P].
    - destruct (s_channel_ok st1 _ G1 (data_ok peer data Lp L)) as (st2 & E2 & G2 & C2 & Sm2).
      unfold sbind. rewrite E2. split; [reflexivity|].
      pose proof (cstep_trans _ _ _ _ _ _ _ C1 C2) as C3. cbn [app] in C3.
      assert (T2 : turn h (s_log st) [SE_Read err n data; put (C_Data peer data)]) by (apply T_Output; [exact T|lia]).
      eexists. split; [exact C3|]. split; [exact T2|]. split; [exists data; eauto|].
      assert (L3 : s_log st2 = s_log st ++ [SE_Read err n data; put (C_Data peer data)]) by apply C3.
      split; [exact G2|]. rewrite L3. split.
      + eapply agree_idle; [exact A|eapply same_trans; eassumption|]. constructor; [|constructor; [apply idle_put; discriminate|constructor]].
        repeat split. intros err0 n0 s0. destruct data; [exfalso; apply N.lt_irrefl in P; exact P|reflexivity].
      + apply turn_small; [exact S|exact T2|]. eapply no_open; [exact T2|discriminate].
    - assert (Z : data = []) by (destruct data; [reflexivity|rewrite len_cons in P; lia]). subst data. clear P L.
      destruct Sm1 as (Y1 & Y2 & Y3 & Y4 & Y5).
      assert (Ag : forall st', s_chans st' = s_chans st1 -> s_wait st' = s_wait st1 -> s_children st' = s_children st1 ->
        (if err then s_stdout st' = s_stdout st1 /\ s_stderr st' = forget n (s_stderr st1)
         else s_stderr st' = s_stderr st1 /\ s_stdout st' = forget n (s_stdout st1)) -> agree (s_log st ++ [SE_Read err n []]) st').
      { intros st' W1 W2 W3 W4. apply (agree_intro (s_log st) _ st st' A); cbn [fold_left chan_step stream_step wait_step].
        - intros c. rewrite W1, Y1. reflexivity.
        - intros m. destruct err; destruct W4 as [W4 W5]; cbn [eqb andb].
          + rewrite W4, Y2. reflexivity.
          + rewrite W5, look_forget, Y2. reflexivity.
        - intros m. destruct err; destruct W4 as [W4 W5]; cbn [eqb andb].
          + rewrite W5, look_forget, Y3. reflexivity.
          + rewrite W4, Y3. reflexivity.
        - intros m. rewrite W2, Y4. reflexivity.
        - rewrite W3, Y5. cbn. lia. }
      destruct err.
      + unfold sbind, set_reads, sret. cbv beta iota. split; [reflexivity|]. exists [SE_Read true n []]. split; [exact C1|].
        assert (T2 : turn h (s_log st) [SE_Read true n []]) by (eapply T_Err_end; exact T).
        split; [exact T2|]. split; [exists []; eauto|]. assert (L3 : s_log st1 = s_log st ++ [SE_Read true n []]) by apply C1.
        split; [exact G1|]. cbn [s_log]. rewrite L3. split; [apply Ag; cbn [s_chans s_wait s_children s_stdout s_stderr]; auto|].
        apply turn_small; [exact S|exact T2|]. eapply no_open; [exact T2|discriminate].
      + unfold sbind at 1. unfold sbind at 1. cbn [set_reads].
        set (st2 := Build_SSt (s_conn st1) _ _ _ _ _ _ _).
        assert (G2 : good st2) by exact G1. assert (C2 : cstep st st2 [] [SE_Read false n []]) by exact C1.
        destruct (s_channel_ok st2 _ G2 (short_ok C_Eof peer Lp ltac:(cbn; auto))) as (st3 & E3 & G3 & C3 & Sm3).
        destruct (s_channel_ok st3 _ G3 (short_ok C_Close peer Lp ltac:(cbn; auto))) as (st4 & E4 & G4 & C4 & Sm4).
        unfold sbind. rewrite E3, E4. split; [reflexivity|].
        pose proof (cstep_trans _ _ _ _ _ _ _ (cstep_trans _ _ _ _ _ _ _ C2 C3) C4) as C5. cbn [app] in C5.
        eexists. split; [exact C5|].
        assert (T2 : turn h (s_log st) [SE_Read false n []; put (C_Eof peer); put (C_Close peer)]) by (apply T_End; exact T).
        split; [exact T2|]. split; [exists []; eauto|].
        assert (L3 : s_log st4 = s_log st ++ [SE_Read false n []; put (C_Eof peer); put (C_Close peer)]) by apply C5.
        split; [exact G4|]. rewrite L3. split.
        * change [SE_Read false n []; put (C_Eof peer); put (C_Close peer)] with ([SE_Read false n []] ++ [put (C_Eof peer); put (C_Close peer)]).
          rewrite app_assoc. eapply (agree_idle _ _ st2); [|eapply same_trans; eassumption|].
          { apply Ag; auto. }
          constructor; [apply idle_put; discriminate|]. constructor; [apply idle_put; discriminate|constructor].
        * apply turn_small; [exact S|exact T2|]. eapply no_open; [exact T2|discriminate].
  Qed.
  Lemma on_exit_result st n peer status : sinv st -> wait_after (s_log st) n = Some peer -> status < 2 ^ 32 ->
    other_result (Ev_Exit n status) st (on_exit C rng n peer status st).
  Proof.
    intros (G & A & S) T L. assert (Lp : peer < 2 ^ 32) by (destruct S as (_ & _ & S); eapply S, T).
    unfold on_exit. unfold sbind at 1. cbn [set_wait]. set (st1 := Build_SSt (s_conn st) _ _ _ _ _ _ _).
    assert (G1 : good st1) by exact G.
    destruct (s_event_ok st1 (SE_Exit n status) G1 eq_refl) as (st2 & E2 & G2 & C2 & Sm2).
    unfold sbind at 1. rewrite E2. unfold sbind at 1. unfold sret at 1.
    rewrite session_written_eq by (split; [cbn; repeat constructor; exact L|exact I]).
    replace (_ <=? _) with true by (cbn [session_fields]; unfold enc; cbn [map concat enc1]; lens; rewrite be32_len, len_zeros; reflexivity).
    cbn [unwrap]. cbv beta iota.
    assert (EQ : C_Request {| rq_recipient := peer; rq_ty := session_name (SR_ExitStatus status); rq_want_reply := false;
                              rq_data := enc (session_fields (SR_ExitStatus status)) |} = exit_status peer status).
    { unfold exit_status. cbn [session_fields session_name]. unfold enc. cbn [map concat enc1]. rewrite app_nil_r. reflexivity. }
    rewrite EQ. destruct (s_channel_ok st2 _ G2 (exit_ok peer status Lp L)) as (st3 & E3 & G3 & C3 & Sm3).
    unfold sbind. rewrite E3. split; [reflexivity|].
    pose proof (cstep_trans _ _ _ _ _ _ _ C2 C3) as C5. cbn [app] in C5.
    exists [SE_Exit n status; put (exit_status peer status)]. split; [exact C5|].
    assert (T2 : turn h (s_log st) [SE_Exit n status; put (exit_status peer status)]) by (apply T_Exit; assumption).
    split; [exact T2|]. split; [exists [put (exit_status peer status)]; reflexivity|].
    assert (L3 : s_log st3 = s_log st ++ [SE_Exit n status; put (exit_status peer status)]) by apply C5.
    split; [exact G3|]. rewrite L3. split.
    - pose proof (same_trans _ _ _ Sm2 Sm3) as (E1 & E4 & E5 & E6 & E7).
      apply (agree_intro _ _ st st3 A); rewrite ?E1, ?E4, ?E5, ?E6, ?E7; unfold st1; cbn [s_chans s_stdout s_stderr s_wait s_children]; auto.
      + intros m. cbn [fold_left wait_step put exit_status]. apply look_forget.
      + cbn. lia.
    - apply turn_small; [exact S|exact T2|]. eapply no_open; [exact T2|discriminate].
  Qed.

  Lemma turn_received pre e evs : turn h pre (e :: evs) -> received evs = [].
  Proof.
    assert (D : forall o, received (dropped o) = []) by (intros [?|]; reflexivity).
    assert (W : forall r c, received (wanted r c) = []) by (intros r c; unfold wanted; destruct (rq_want_reply r); reflexivity).
    intros T. inversion T; subst; try reflexivity; try apply D; try apply W.
    cbn [received flat_map app]. fold (received (dropped old ++ wanted r (C_Success p))). rewrite received_ev_app, D, W. reflexivity.
  Qed.
  Lemma crash_received pre e evs : crash h pre (e :: evs) -> received evs = [].
  Proof. intros T. inversion T; subst; reflexivity. Qed.

  Definition outcome_at (k : Conn) (log : list SEvent) (es : list Ev) (r : res InError bool) (st' : SSt) : Prop :=
    exists ts tail pls rest,
      s_log st' = log ++ concat ts ++ tail /\ turns h log ts /\
      received_as C (k_rd k) (k_in k) pls rest /\ Forall2 (fun m pl => is_wire m pl) (received (concat ts ++ tail)) pls /\
      written_as C (k_wr k) (k_out k) (map wire (s_sent (concat ts ++ tail))) (k_out (s_conn st')) /\
      let c := later (len pls) (k_rd k) in
      match r with
      | Ok false => Forall2 prompts es ts /\ tail = [] /\ k_in (s_conn st') = rest /\ k_rd (s_conn st') = c
      | _ => exists es1 e es2, es = es1 ++ e :: es2 /\ Forall2 prompts es1 ts /\
        match r with
        | Ok _ => e = Ev_Packet /\ exists d, tail = [SE_Received (Msg_Disconnect d)]
        | Err _ => e = Ev_Packet /\ tail = [] /\ forall pl, ~ next_payload C c 35000 rest pl
        | Panic =>
          e = Ev_Packet /\ tail = [] /\
            (exists pl, next_payload C c 35000 rest pl /\ forall m, is_wire m pl -> exists r, m = Msg_EcdhReply r) \/
          e = Ev_Packet /\ crash h (log ++ concat ts) tail \/
          tail = [] /\ exists err n d, e = Ev_Output err n d /\ stream_after err (log ++ concat ts) n <> None /\ forall data, d <> Ok data
        end
      end.
  Definition outcome_from (st : SSt) : list Ev -> res InError bool -> SSt -> Prop := outcome_at (s_conn st) (s_log st).

  Lemma outcome_turn st st1 st' pls1 e t es r : cstep st st1 pls1 t -> turn h (s_log st) t -> prompts e t ->
    Forall2 (fun m pl => is_wire m pl) (received t) pls1 ->
    outcome_from st1 es r st' -> outcome_from st (e :: es) r st'.
  Proof.
    intros (A1 & B1 & C1 & D1 & E1 & F1) T P W (ts & tail & pls & rest & L & Ts & Rc & FW & Wr & O). cbv zeta in O.
    exists (t :: ts), tail, (pls1 ++ pls), rest. cbn [concat]. rewrite <- app_assoc.
    split; [rewrite L, F1, <- app_assoc; reflexivity|].
    split; [constructor; [exact T|]; rewrite <- F1; exact Ts|].
    split; [eapply received_app; [exact D1|]; rewrite <- A1; exact Rc|].
    split; [rewrite received_ev_app; apply Forall2_app; assumption|].
    split; [rewrite s_sent_app, map_app; eapply written_app; [exact E1|]; unfold len; rewrite map_length; fold (len (s_sent t)); rewrite <- B1; exact Wr|].
    cbv zeta. rewrite A1, later_later, <- len_app in O. rewrite F1 in O. rewrite app_assoc.
    destruct r as [[|]|x|].
    - destruct O as (es1 & e1 & es2 & -> & O1 & O2). exists (e :: es1), e1, es2. split; [reflexivity|]. split; [constructor; assumption|exact O2].
    - destruct O as (O1 & O2). split; [constructor; assumption|exact O2].
    - destruct O as (es1 & e1 & es2 & -> & O1 & O2). exists (e :: es1), e1, es2. split; [reflexivity|]. split; [constructor; assumption|exact O2].
    - destruct O as (es1 & e1 & es2 & -> & O1 & O2). exists (e :: es1), e1, es2. split; [reflexivity|]. split; [constructor; assumption|exact O2].
  Qed.

  (** One turn of the loop: as above, or the end. *)
  Definition step_result (e : Ev) (st : SSt) (x : res InError bool * SSt) : Prop :=
    let '(r, st') := x in
    match r with
    | Ok false => exists pls t, cstep st st' pls t /\ turn h (s_log st) t /\ prompts e t /\
        Forall2 (fun m pl => is_wire m pl) (received t) pls /\ sinv st'
    | _ => forall es, outcome_from st (e :: es) r st'
    end.
  Lemma end_quiet st st' e es r : good st -> r <> Ok true -> r <> Ok false -> s_log st' = s_log st -> k_out (s_conn st') = k_out (s_conn st) ->
    match r with
    | Ok _ => False
    | Err _ => e = Ev_Packet /\ forall pl, ~ next_payload C (k_rd (s_conn st)) 35000 (k_in (s_conn st)) pl
    | Panic =>
      e = Ev_Packet /\ 
        (exists pl, next_payload C (k_rd (s_conn st)) 35000 (k_in (s_conn st)) pl /\ forall m, is_wire m pl -> exists r, m = Msg_EcdhReply r) \/
      exists err n d, e = Ev_Output err n d /\ stream_after err (s_log st) n <> None /\ forall data, d <> Ok data
    end -> outcome_from st (e :: es) r st'.
  Proof.
    intros G N1 N2 F1 O1 H. pose proof G as (_ & L1 & _).
    exists [], [], [], (k_in (s_conn st)). cbn [concat app]. rewrite !app_nil_r.
    split; [exact F1|]. split; [constructor|]. split; [apply received_nil|]. split; [constructor|]. split; [rewrite O1; apply written_nil|].
    cbv zeta. rewrite len_nil, later_0 by exact L1.
    destruct r as [b|x|].
    - destruct b; contradiction.
    - exists [], e, es. split; [reflexivity|]. split; [constructor|]. destruct H as [H1 H2]. auto.
    - exists [], e, es. split; [reflexivity|]. split; [constructor|]. destruct H as [[H1 H2]|H]; [left|right; right]; auto.
  Qed.
  Lemma packet_step st : sinv st -> step_result Ev_Packet st (on_packet C rng h st).
  Proof.
    intros I. pose proof I as (G & _ & _). pose proof (on_packet_result st I) as P. destruct (on_packet C rng h st) as [r1 st1].
    destruct r1 as [[|]|x|]; unfold packet_result in P; unfold step_result.
    - intros es. destruct P as (pl & m & evs & (A1 & B1 & C1 & D1 & E1 & F1) & W & -> & d & ->).
      exists [], [SE_Received (Msg_Disconnect d)], [pl], (k_in (s_conn st1)). cbn [concat app].
      split; [exact F1|]. split; [constructor|]. split; [exact D1|]. split; [constructor; [exact W|constructor]|]. split; [exact E1|].
      exists [], Ev_Packet, es. split; [reflexivity|]. split; [constructor|]. split; [reflexivity|]. exists d. reflexivity.
    - destruct P as (pl & m & evs & Cs & W & T & I1). exists [pl], (SE_Received m :: evs).
      split; [exact Cs|]. split; [exact T|]. split; [exists m, evs; reflexivity|]. split; [|exact I1].
      cbn [received flat_map app]. fold (received evs). rewrite (turn_received _ _ _ T). constructor; [exact W|constructor].
    - intros es. destruct P as (F1 & O1 & NP). apply end_quiet; try assumption; try discriminate. split; [reflexivity|exact NP].
    - intros es. destruct P as [(F1 & O1 & NP)|(pl & m & evs & (A1 & B1 & C1 & D1 & E1 & F1) & W & X)].
      + apply end_quiet; try assumption; try discriminate. left. split; [reflexivity|exact NP].
      + exists [], (SE_Received m :: evs), [pl], (k_in (s_conn st1)). cbn [concat app]. rewrite app_nil_r.
        split; [exact F1|]. split; [constructor|]. split; [exact D1|]. split.
        { cbn [received flat_map app]. fold (received evs). rewrite (crash_received _ _ _ X). constructor; [exact W|constructor]. }
        split; [exact E1|]. exists [], Ev_Packet, es. split; [reflexivity|]. split; [constructor|]. right. left. split; [reflexivity|exact X].
  Qed.
  Lemma other_step e st x : other_result e st x -> (forall t, prompts e t -> exists e0 t', t = e0 :: t' /\ received [e0] = []) -> step_result e st x.
  Proof.
    destruct x as [r st1]. intros (-> & t & Cs & T & P & I1) H. exists [], t. split; [exact Cs|]. split; [exact T|]. split; [exact P|].
    split; [|exact I1]. destruct (H t P) as (e0 & t' & -> & N). change (e0 :: t') with ([e0] ++ t'). rewrite received_ev_app, N.
    rewrite (turn_received _ _ _ T). constructor.
  Qed.
  Lemma Some_inj {A} (x y : A) : Some x = Some y -> x = y.
  Proof. intros H. injection H as ->. reflexivity. Qed.
  Lemma on_output_bad err n peer d st : (forall data, d <> Ok data) -> on_output C rng err n peer d st = (Panic, st).
  Proof. intros H. destruct d as [data|u|]; [destruct (H data eq_refl)|reflexivity|reflexivity]. Qed.
  Lemma output_bad_step err n d st : sinv st -> stream_after err (s_log st) n <> None -> (forall data, d <> Ok data) ->
    step_result (Ev_Output err n d) st (Panic, st).
  Proof.
    intros (G & _ & _) T H es. apply end_quiet; [exact G|discriminate|discriminate|reflexivity|reflexivity|].
    right. exists err, n, d. auto.
  Qed.
  Lemma output_step err n d st x : sinv st -> session_step C rng h (Ev_Output err n d) st = Some x -> step_result (Ev_Output err n d) st x.
  Proof.
    intros I H. pose proof I as (G & A & S). pose proof A as (_ & A2 & A3 & A4 & _). cbn [session_step] in H.
    assert (LK : look n (if err then s_stderr st else s_stdout st) = stream_after err (s_log st) n) by (destruct err; auto).
    rewrite LK in H. destruct (stream_after err (s_log st) n) as [peer|] eqn:T; [|discriminate H].
    assert (D : (exists data, d = Ok data) \/ forall data, d <> Ok data) by (destruct d; [left; eauto|right; discriminate|right; discriminate]).
    destruct D as [[data ->]|D].
    - destruct (N.leb_spec (len data) 256) as [L|L]; [|discriminate H]. apply Some_inj in H. subst x. apply other_step.
      + apply on_output_result; assumption.
      + intros t (d & t' & _ & ->). eauto.
    - rewrite on_output_bad in H by exact D. assert (E : Some (Panic, st) = Some x) by (destruct d; [destruct (D a eq_refl)|exact H|exact H]).
      apply Some_inj in E. subst x. apply output_bad_step; [exact I|congruence|exact D].
  Qed.
  Lemma is_u32_lt n : is_u32 n = true -> n < 2 ^ 32.
  Proof. apply N.ltb_lt. Qed.
  Lemma exit_step n status st x : sinv st -> session_step C rng h (Ev_Exit n status) st = Some x -> step_result (Ev_Exit n status) st x.
  Proof.
    intros I H. pose proof I as (G & A & S). pose proof A as (_ & A2 & A3 & A4 & _). cbn [session_step] in H.
    rewrite A4 in H. destruct (wait_after (s_log st) n) as [peer|] eqn:T; [|discriminate H].
    destruct (is_u32 status) eqn:L; [|discriminate H]. apply Some_inj in H. subst x. apply is_u32_lt in L. apply other_step.
    - apply on_exit_result; assumption.
    - intros t (t' & ->). eauto.
  Qed.
  Lemma session_step_result e st x : sinv st -> session_step C rng h e st = Some x -> step_result e st x.
  Proof.
    intros I H. destruct e as [|err n d|n status].
    - apply Some_inj in H. subst x. apply packet_step, I.
    - apply output_step; assumption.
    - apply exit_step; assumption.
  Qed.
  Lemma session_run_from es : forall st r st', sinv st -> session_run C rng h es st = Some (r, st') -> outcome_from st es r st'.
  Proof.
    induction es as [|e es IH]; intros st r st' I H; cbn [session_run] in H.
    - injection H as <- <-. exists [], [], [], (k_in (s_conn st)). cbn [concat app]. rewrite app_nil_r.
      destruct I as (G & _ & _). pose proof G as (_ & L1 & _).
      split; [reflexivity|]. split; [constructor|]. split; [apply received_nil|]. split; [constructor|]. split; [apply written_nil|].
      split; [constructor|]. split; [reflexivity|]. split; [reflexivity|]. rewrite len_nil, later_0 by exact L1. reflexivity.
    - destruct (session_step C rng h e st) as [x|] eqn:Q; [|discriminate H]. apply session_step_result in Q; [|exact I].
      destruct x as [[[|]|u|] st1]; unfold step_result in Q; try (injection H as <- <-; apply Q).
      destruct Q as (pls & t & Cs & T & P & W & I1). eapply outcome_turn; [exact Cs|exact T|exact P|exact W|apply IH; assumption].
  Qed.

  Lemma init_fields k : s_conn (session_init k) = k /\ s_buf (session_init k) = zeros 35000 /\ s_chans (session_init k) = [] /\
    s_stdout (session_init k) = [] /\ s_stderr (session_init k) = [] /\ s_wait (session_init k) = [] /\
    s_children (session_init k) = 0 /\ s_log (session_init k) = [].
  Proof. unfold session_init. repeat split. Qed.
  Lemma small_nil : small [].
  Proof. repeat split; discriminate. Qed.
  Lemma session_init_inv k : counter (k_rd k) < 2 ^ 64 -> counter (k_wr k) < 2 ^ 64 -> sinv (session_init k).
  Proof.
    intros L1 L2. destruct (init_fields k) as (E1 & E2 & E3 & E4 & E5 & E6 & E7 & E8). unfold sinv, good, agree.
    rewrite E1, E2, E3, E4, E5, E6, E7, E8, len_zeros. split; [auto|]. split; [|exact small_nil]. repeat split.
  Qed.
  Lemma outcome_nil k es r st : outcome_at k [] es r st -> session_outcome C h k es r st.
  Proof.
    intros (ts & tail & pls & rest & L & O). exists ts, tail, pls, rest. cbn [app] in L, O. rewrite L. split; [reflexivity|]. exact O.
  Qed.
  Theorem session_story k es r st : counter (k_rd k) < 2 ^ 64 -> counter (k_wr k) < 2 ^ 64 ->
    session_run C rng h es (session_init k) = Some (r, st) -> session_outcome C h k es r st.
  Proof.
    intros L1 L2 H. pose proof (session_run_from es _ r st (session_init_inv k L1 L2) H) as O.
    unfold outcome_from in O. destruct (init_fields k) as (E1 & _ & _ & _ & _ & _ & _ & E8). rewrite E1, E8 in O.
    apply outcome_nil, O.
  Qed.
End Story.
