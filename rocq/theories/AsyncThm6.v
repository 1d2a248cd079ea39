(** C92, C93: no clash, going on, and what has been done so far. *)
From Coq Require Import Init.Byte.
From Verif Require Export AsyncThm5.
Open Scope res_scope.

Section Fit.
  Context (lim : N) (C : Crypto) (rng : N -> N -> bytes) (h : SHandlers).
  Notation sin st := (k_in (s_conn st)).
  Notation sout st := (k_out (s_conn st)).
  Notation eval := (eval lim).
  Notation visits := (visits lim).
  Notation pstep := (p_step lim C rng h).
  Notation prun := (p_run lim C rng h).
  Notation st_of l := (w_st (l_world l)).

  Lemma ready_fit l e o : fit l -> pstep (P_Ready e) l = Some o ->
    exists co, o = O_Goes {| l_body := true; l_co := co; l_world := release_all (l_world l) |} /\ co_branch C rng e (st_of l) = Some co /\
      l_body l = false /\ waiting (l_co l) (st_of l) = true /\ at_ease (release_all (l_world l)) /\ w_st (release_all (l_world l)) = st_of l /\
      fit {| l_body := true; l_co := co; l_world := release_all (l_world l) |}.
  Proof.
    intros [S G] E. unfold p_step in E. destruct (negb (l_body l) && waiting (l_co l) (st_of l)) eqn:W; [|destruct (l_co l); discriminate E].
    apply andb_true_iff in W as [W1 W2]. apply negb_true_iff in W1.
    assert (E' : match co_branch C rng e (st_of l) with Some co => goes true co (release_all (l_world l)) | None => None end = Some o) by (destruct (l_co l); exact E).
    clear E. destruct (co_branch C rng e (st_of l)) as [co|] eqn:B; [|discriminate E']. unfold goes in E'. apply Some_inj in E'. subst o.
    destruct (release_all_ease _ S) as [A1 A2]. exists co. do 6 (split; [auto|]).
    split; cbn [l_world l_co]; [exact (ease_sound _ A1)|]. destruct A1 as (_ & _ & ->). exact (good_branch lim _ _ _ _ _ B).
  Qed.
  Lemma done_fit l r o : fit l -> l_co l = Co_Ret r -> pstep P_Run l = Some o ->
    match o with
    | O_Goes l' => fit l' /\ l_body l' = false /\ (l_co l' = co_receive C rng h /\ at_ease (l_world l') \/
        l_co l' = co_loop C rng h /\ incl (w_cells (l_world l')) [Cell_Read] /\ w_mutex (l_world l') = mutex_new)
    | O_Over _ st => st = st_of l
    | O_Clash => False
    end.
  Proof.
    intros [S G] Q E. unfold p_step in E. rewrite Q in E, G. destruct (release_all_ease _ S) as [A1 A2]. destruct r as [[| |n io peer]|e|]; cbn [co_done] in E.
    - destruct (l_body l); apply Some_inj in E; subst o.
      + split; [exact (fit_receive lim C rng h _ _ A1)|]. auto.
      + split; [split; [exact S|apply (good_loop lim); exact G]|]. split; [reflexivity|]. right. split; [reflexivity|]. cbn [l_world]. destruct S as (S1 & S2 & _). rewrite S1, S2.
        destruct G as [-> | ->]; cbn [flat_map cell_of app existsb AsyncThm.is_write orb]; (split; [|reflexivity]); [apply incl_nil_l|apply incl_refl].
    - apply Some_inj in E. subst o. reflexivity.
    - apply Some_inj in E. subst o. split; [apply (fit_receive lim); exact A1|]. split; [reflexivity|]. left. split; [reflexivity|exact A1].
    - apply Some_inj in E. subst o. reflexivity.
    - apply Some_inj in E. subst o. reflexivity.
  Qed.
  Lemma fit_step l e o : fit l -> pstep e l = Some o -> match o with O_Goes l' => fit l' | O_Over _ _ => True | O_Clash => False end.
  Proof.
    intros F E. destruct (ready_dec e) as [(ev & ->)|NR].
    { destruct (ready_fit l ev o F E) as (co & -> & H). apply H. }
    destruct (ret_dec (l_co l)) as [(r & Q)|NRet].
    { assert (e = P_Run) as ->. { unfold p_step in E. rewrite Q in E. destruct e; try discriminate E; [reflexivity|]. destruct (NR e eq_refl). }
      pose proof (done_fit l r o F Q E) as X. destruct o; [apply X|exact I|exact X]. }
    destruct (step_onward lim C rng h e l o F E NR NRet) as (l' & -> & F' & _). exact F'.
  Qed.
  Lemma fit_run es : forall l o, fit l -> prun es l = Some o -> match o with O_Goes l' => fit l' | O_Over _ _ => True | O_Clash => False end.
  Proof.
    induction es as [|e es IH]; intros l o F E; cbn [p_run] in E.
    - apply Some_inj in E. subst o. exact F.
    - destruct (pstep e l) as [o1|] eqn:P; [|discriminate E]. pose proof (fit_step l e o1 F P) as X. destruct o1 as [l1|r st|]; [exact (IH _ _ X E)|apply Some_inj in E; subst o; exact X..].
  Qed.
  Lemma init_fit k : fit (loop_init C rng h k).
  Proof. apply (fit_receive lim). split; [|split]; reflexivity. Qed.
  Lemma fit_locks l : fit l -> locks_at_once l /\ mx_queue (w_mutex (l_world l)) = [].
  Proof.
    intros [(_ & S & _) G]. rewrite S. split; [|reflexivity]. intros reg k Q. rewrite Q in G. cbn [AsyncThm.good] in G. destruct G as (-> & NI & _). split; [reflexivity|]. rewrite S. cbn [mx_borrowed].
    destruct (existsb AsyncThm.is_write (w_held (l_world l))) eqn:X; [|reflexivity]. destruct (NI (proj1 (AsyncThm.in_write _) X)).
  Qed.
  (** It is never stuck. *)
  Lemma fit_goes l : fit l -> (awaits_others (l_co l) \/ exists o, pstep P_Run l = Some o).
  Proof.
    intros [S G]. destruct l as [body co w]. cbn [l_co l_world] in *. unfold p_step. cbn [l_body l_co l_world]. destruct co as [r|X f k|c k|reg k|g k|m from k|X f k|b k]; cbn [awaits_others]; auto.
    - right. destruct r as [[| |n io peer]|e|]; cbn [co_done]; try (eexists; reflexivity). destruct body; eexists; reflexivity.
    - right. destruct (f (w_st w)). eexists. reflexivity.
    - right. destruct (borrow c w); eexists; reflexivity.
    - right. destruct (future_poll (w_mutex w) reg 0) as [[[|] m] r']; eexists; reflexivity.
    - right. eexists. reflexivity.
    - destruct (N.eqb_spec m 0) as [->|N]; [|auto]. right. destruct (negb _); eexists; reflexivity.
    - destruct b as [|x b]; [right; eexists; reflexivity|left; discriminate].
  Qed.
  (** Those it waits for go on: bytes arrive, or the input is at its end; the
      handler answers; bytes are taken, or the transport is broken. *)
  Lemma others_go l : awaits_others (l_co l) -> exists e o, own_step e /\ pstep e l = Some o.
  Proof.
    intros A. destruct l as [body co w]. cbn [l_co] in A. destruct co as [r|X f k|c k|reg k|g k|m from k|X f k|b k]; cbn [awaits_others] in A; try contradiction.
    - destruct (from + m <=? len (s_buf (w_st w))) eqn:L.
      + destruct (sin (w_st w)) as [|x i] eqn:I.
        * exists P_End. eexists. split; [exact Logic.I|]. unfold p_step. cbn [l_co l_world]. rewrite L, I. replace (0 <? m) with true by lia. reflexivity.
        * exists (P_Arrive 1). eexists. split; [exact Logic.I|]. unfold p_step. cbn [l_co l_world]. rewrite L, I. replace (0 <? 1) with true by lia. replace (1 <=? m) with true by lia.
          replace (1 <=? len (x :: i)) with true by (unfold len; cbn [length]; lia). reflexivity.
      + exists P_Run. eexists. split; [exact Logic.I|]. unfold p_step. cbn [l_co l_world]. rewrite L. reflexivity.
    - exists P_Answer. destruct (f (w_st w)) as [r st] eqn:E. eexists. split; [exact Logic.I|]. unfold p_step. cbn [l_co l_world]. rewrite E. reflexivity.
    - destruct (N.leb_spec lim (len (sout (w_st w)))) as [L|L].
      + exists P_Broken. eexists. split; [exact Logic.I|]. unfold p_step. cbn [l_co l_world]. destruct b; [congruence|]. cbn [is_empty negb andb]. replace (lim <=? len (sout (w_st w))) with true by lia. reflexivity.
      + exists (P_Taken 1). eexists. split; [exact Logic.I|]. unfold p_step. cbn [l_co l_world]. destruct b as [|x b]; [congruence|].
        replace (0 <? 1) with true by lia. replace (1 <=? len (x :: b)) with true by (unfold len; cbn [length]; lia). replace (len (sout (w_st w)) + 1 <=? lim) with true by lia. reflexivity.
  Qed.

  (** ** What has been done so far *)
  Fixpoint adds (co : Co Next) : Prop :=
    match co with
    | Co_Ret _ => True
    | Co_Do f k | Co_Call f k => (forall st, s_ext st (snd (f st))) /\ forall x, adds (k x)
    | Co_Borrow _ k | Co_Lock _ k | Co_Drop _ k | Co_Write _ k => adds k
    | Co_Read _ _ k => forall d, adds (k d)
    end.
  Lemma took_ext from n st : s_ext st (took from n st).
  Proof. split; exists []; rewrite app_nil_r; reflexivity. Qed.
  Lemma wrote_ext b st : s_ext st (wrote b st).
  Proof. split; [exists b; reflexivity|exists []; rewrite app_nil_r; reflexivity]. Qed.
  Lemma eval_adds co : forall st, adds co -> s_ext st (snd (eval co st)).
  Proof.
    induction co as [r|X f k IH|c k IH|reg k IH|g k IH|m from k IH|X f k IH|b k IH]; intros st A; cbn [adds AsyncThm.eval] in *; auto.
    - apply s_ext_refl.
    - destruct A as [A1 A2]. specialize (A1 st). destruct (f st) as [[x|e|] st1]; cbn [snd] in *; [|exact A1..]. eapply s_ext_trans; [exact A1|]. apply IH, A2.
    - destruct (negb _); [apply s_ext_refl|]. destruct (m <=? len (sin st)); [|apply took_ext]. eapply s_ext_trans; [apply took_ext|]. apply IH, A.
    - destruct A as [A1 A2]. specialize (A1 st). destruct (f st) as [[x|e|] st1]; cbn [snd] in *; [|exact A1..]. eapply s_ext_trans; [exact A1|]. apply IH, A2.
    - destruct (is_empty b || _); [eapply s_ext_trans; [apply wrote_ext|]; apply IH, A|]. destruct (lim <=? len (sout st)); [apply s_ext_refl|]. apply wrote_ext.
  Qed.
  Lemma adds_co_step {X} (r : res InError X) k : (forall x, adds (k x)) -> adds (co_step r k).
  Proof. intros A. destruct r; cbn [co_step adds]; auto. Qed.
  Lemma adds_do {X} (f : SM X) k : s_mute f -> (forall x, adds (k x)) -> adds (Co_Do f k).
  Proof. intros M A. split; [exact (mute_grows _ M)|exact A]. Qed.
  Lemma adds_call {X} (f : SM X) k : s_mute f -> (forall x, adds (k x)) -> adds (Co_Call f k).
  Proof. intros M A. split; [exact (mute_grows _ M)|exact A]. Qed.
  Lemma mute_seal m : s_mute (co_seal C rng m).
  Proof. intros st. unfold co_seal. destruct (Out_send _ _ _ _ _) as [[[w c] b]|e|]; split; try reflexivity; exists []; rewrite app_nil_r; reflexivity. Qed.
  Lemma mute_length hd : s_mute (co_length C hd).
  Proof. intros st. split; [reflexivity|]. exists []. rewrite app_nil_r. reflexivity. Qed.
  Lemma mute_data lenb l : s_mute (co_data C lenb l).
  Proof.
    intros st. unfold co_data. destruct (idx_to _ _) as [d|e|]; [|split; [reflexivity|exists []; rewrite app_nil_r; reflexivity]..].
    destruct (decrypt_data _ _ _) as [[x|e|] [c d']]; (split; [reflexivity|exists []; rewrite app_nil_r; reflexivity]).
  Qed.
  Lemma adds_send m k : adds k -> adds (co_send C rng m k).
  Proof. intros A. unfold co_send. cbn [adds]. split; [exact (mute_grows _ (mute_seal m))|]. intros w. split; [|auto]. exact (mute_grows _ (sm_event _)). Qed.
  Lemma adds_reply r a next : adds (co_reply C rng r a next).
  Proof. unfold co_reply, co_channel. cbn [adds]. destruct (rq_want_reply r); [|exact I]. apply adds_send. exact I. Qed.
  Lemma adds_spawn r ch ty : adds (co_spawn C rng h r ch ty).
  Proof.
    unfold co_spawn. cbn [adds]. split; [exact (mute_grows _ (sm_spawn _ _ _ _))|]. intros [n io]. apply adds_do; [apply sm_put|]. intros _. apply adds_do; [apply sm_drop|].
    intros _. apply adds_reply.
  Qed.
  Lemma adds_borrow c k : adds k -> adds (Co_Borrow c k).
  Proof. auto. Qed.
  Lemma adds_message m : adds (co_message C rng h m).
  Proof.
    destruct m as [| | | | | | | | | | |c]; try exact I. destruct c; cbn [co_message]; try exact I; apply adds_borrow.
    - apply adds_do; [apply sm_insert|]. intros i. change (adds (co_channel C rng (C_OpenConfirmation {| oc_recipient := op_sender o; oc_sender := i; oc_window := op_window o; oc_max_packet := op_max_packet o; oc_data := [] |}) (Co_Ret (Ok N_Again)))). apply adds_send. exact I.
    - apply adds_do; [apply sm_get|]. intros ch. destruct (ch_stdin ch); [|exact I]. apply adds_call; [apply sm_write|]. intros _. exact I.
    - apply adds_do; [apply sm_get|]. intros ch. apply adds_do; [apply sm_put|]. intros _. apply adds_do; [apply sm_drop|]. intros _. exact I.
    - split.
      + intros st. destruct (arena_remove _ _) as [x a]. cbn [snd]. split; exists []; rewrite app_nil_r; reflexivity.
      + intros x. apply adds_do; [apply sm_drop|]. intros _. exact I.
    - apply adds_do; [apply sm_get|]. intros ch. apply adds_do; [apply sm_ret|]. intros q. destruct q; try exact I; try apply adds_spawn; apply adds_reply.
  Qed.
  Lemma adds_loop : adds (co_loop C rng h).
  Proof.
    unfold co_loop, co_recv. cbn [adds]. intros hd. split; [exact (mute_grows _ (mute_length hd))|]. intros x d. split; [exact (mute_grows _ (mute_data _ _))|]. intros p.
    split; [exact (mute_grows _ (sm_ret _))|]. intros m. split; [exact (mute_grows _ (sm_event _))|]. intros _. apply adds_message.
  Qed.
  Lemma adds_branch e st co : co_branch C rng e st = Some co -> adds co.
  Proof.
    destruct e as [|err n data|n status]; cbn [co_branch]; [discriminate|..].
    - destruct (look _ _) as [peer|]; [|discriminate]. destruct (match data with Ok d => _ | _ => true end); [|discriminate]. intros E. apply Some_inj in E. subst co.
      unfold co_output. apply adds_do; [apply sm_ret|]. intros d. apply adds_do; [apply sm_event|]. intros _. destruct (0 <? len d); [apply adds_send; exact I|].
      split; [|intros _; destruct err; [exact I|]; apply adds_send, adds_send; exact I]. intros st1. split; exists []; rewrite app_nil_r; reflexivity.
    - destruct (look _ _) as [peer|]; [|discriminate]. destruct (is_u32 status); [|discriminate]. intros E. apply Some_inj in E. subst co.
      unfold co_exit. split; [intros st1; split; exists []; rewrite app_nil_r; reflexivity|]. intros _. apply adds_do; [apply sm_event|]. intros _. apply adds_do; [apply sm_ret|].
      intros x. apply adds_send. exact I.
  Qed.
  Lemma adds_step l e o : adds (l_co l) -> pstep e l = Some o -> match o with O_Goes l' => adds (l_co l') | _ => True end.
  Proof.
    intros A E. destruct l as [body co w]. cbn [l_co] in A. unfold p_step in E. cbn [l_body l_co l_world] in E.
    assert (RD : forall ev, (if negb body && waiting co (w_st w) then match co_branch C rng ev (w_st w) with Some co => goes true co (release_all w) | None => None end else None) = Some o ->
      match o with O_Goes l' => adds (l_co l') | _ => True end).
    { intros ev X. destruct (negb body && _); [|discriminate X]. destruct (co_branch C rng ev (w_st w)) as [co'|] eqn:B; [|discriminate X]. apply Some_inj in X. subst o. exact (adds_branch _ _ _ B). }
    destruct e; destruct co as [r|X f k|c k|reg k|g k|m from k|X f k|b k]; try discriminate E; try (exact (RD _ E)); clear RD; cbn [adds] in A.
    - destruct r as [[| |n io peer]|e|]; cbn [co_done] in E; [destruct body|..]; apply Some_inj in E; subst o; try exact I; try exact adds_loop.
    - destruct (f (w_st w)) as [r st]. apply Some_inj in E. subst o. apply adds_co_step, A.
    - destruct (borrow c w); apply Some_inj in E; subst o; [exact A|exact I].
    - destruct (future_poll _ _ _) as [[[|] m] r']; apply Some_inj in E; subst o; exact A.
    - apply Some_inj in E. subst o. exact A.
    - destruct (negb _); [apply Some_inj in E; subst o; exact I|]. destruct (m =? 0); [|discriminate E]. apply Some_inj in E. subst o. apply A.
    - destruct (is_empty b); [|discriminate E]. apply Some_inj in E. subst o. exact A.
    - destruct (_ && _); [|discriminate E]. apply Some_inj in E. subst o. cbn [l_co]. destruct (n =? m); [apply A|]. cbn [adds]. intros d. apply A.
    - destruct (_ && _); [|discriminate E]. apply Some_inj in E. subst o. exact I.
    - destruct (f (w_st w)) as [r st]. apply Some_inj in E. subst o. apply adds_co_step, A.
    - destruct (_ && _); [|discriminate E]. apply Some_inj in E. subst o. cbn [l_co]. destruct (n =? len b); exact A.
    - destruct (_ && _); [|discriminate E]. apply Some_inj in E. subst o. exact I.
  Qed.
  Lemma adds_run es : forall l l', adds (l_co l) -> prun es l = Some (O_Goes l') -> adds (l_co l').
  Proof.
    induction es as [|e es IH]; intros l l' A E; cbn [p_run] in E; [apply Some_inj in E; congruence|].
    destruct (pstep e l) as [o|] eqn:P; [|discriminate E]. pose proof (adds_step l e o A P) as X. destruct o as [l1| |]; try discriminate E. exact (IH _ _ X E).
  Qed.
  (** Whatever was done so far, some session of turns begins with. *)
  Lemma so_far k es l : len (k_out k) <= lim -> prun es (loop_init C rng h k) = Some (O_Goes l) ->
    exists ts r st, fault_run lim C rng h ts (session_init k) = Some (r, st) /\ s_ext (st_of l) st.
  Proof.
    intros L E. pose proof (inv_run lim C rng h k es _ _ (inv_init lim C rng h k L) E) as (FT & ts & st0 & F & L0 & M).
    assert (A : adds (l_co l)) by (apply (adds_run es (loop_init C rng h k)); [exact adds_loop|exact E]).
    pose proof (eval_adds (l_co l) (st_of l) A) as X. unfold midway in M.
    assert (OC : s_ext (st_of l) (snd (outcome (eval (l_co l) (st_of l))))).
    { destruct (eval (l_co l) (st_of l)) as [[[| |n io peer]|e|] st]; cbn [outcome snd] in *; exact X. }
    destruct (l_body l).
    - destruct M as (t & M). exists (ts ++ [t]). destruct (outcome (eval (l_co l) (st_of l))) as [r st]. exists r, st. split; [|exact OC]. rewrite (frun_snoc lim C rng h _ _ _ _ F). exact M.
    - destruct M as (M & _). rewrite M in OC. destruct (eval_loop lim C rng h st0 L0) as [E1 E2]. exists (ts ++ [(None, Ev_Packet)]), (fst (on_packet_b lim C rng h st0)), (snd (on_packet_b lim C rng h st0)).
      split; [rewrite (frun_snoc lim C rng h _ _ _ _ F); cbn [fault_step session_step_b]; destruct (on_packet_b lim C rng h st0); reflexivity|].
      destruct (fst (on_packet_b lim C rng h st0)) as [|[[]|]|]; cbn [ends_alike] in E2; try (rewrite <- E2; exact OC).
      destruct E2 as (U1 & _ & _ & _ & _ & _ & U7). destruct OC as [O1 O2]. split; [rewrite <- U1; exact O1|rewrite <- U7; exact O2].
  Qed.
End Fit.
