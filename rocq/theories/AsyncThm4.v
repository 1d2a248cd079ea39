(** C92-C94: sessions. *)
From Coq Require Import Init.Byte.
From Verif Require Export AsyncThm3 FaultsThm CancelThm6.
Open Scope res_scope.

Section Sessions.
  Context (lim : N) (C : Crypto) (rng : N -> N -> bytes) (h : SHandlers).
  Notation sin st := (k_in (s_conn st)).
  Notation sout st := (k_out (s_conn st)).
  Notation eval := (eval lim).
  Notation visits := (visits lim).
  Notation fstep := (fault_step lim C rng h).
  Notation frun := (fault_run lim C rng h).
  Notation pstep := (p_step lim C rng h).
  Notation prun := (p_run lim C rng h).
  Notation st_of l := (w_st (l_world l)).

  Lemma frun_app ts1 ts2 : forall st, frun (ts1 ++ ts2) st = match frun ts1 st with Some (Ok false, st) => frun ts2 st | x => x end.
  Proof.
    induction ts1 as [|t ts1 IH]; intros st; cbn [app fault_run]; [reflexivity|]. destruct (fstep t st) as [[[[|]|e|] st1]|]; try reflexivity. apply IH.
  Qed.
  Lemma frun_snoc ts t st st0 : frun ts st = Some (Ok false, st0) -> frun (ts ++ [t]) st = fstep t st0.
  Proof. intros E. rewrite frun_app, E. cbn [fault_run]. destruct (fstep t st0) as [[[[|]|e|] st1]|]; reflexivity. Qed.
  Lemma fstep_out t st st' : len (sout st) <= lim -> fstep t st = Some (Ok false, st') -> len (sout st') <= lim.
  Proof.
    intros L E. pose proof (fault_turn lim C rng h t st L) as X. rewrite E in X. destruct X as (r & st1 & _ & [(L1 & _ & ->)|(Q & _)]); [exact L1|discriminate Q].
  Qed.
  Lemma frun_out ts : forall st st', len (sout st) <= lim -> frun ts st = Some (Ok false, st') -> len (sout st') <= lim.
  Proof.
    induction ts as [|t ts IH]; intros st st' L E; cbn [fault_run] in E.
    - apply Some_inj, pair_eq in E as [_ <-]. exact L.
    - destruct (fstep t st) as [[[[|]|e|] st1]|] eqn:F; try discriminate E. exact (IH _ _ (fstep_out _ _ _ L F) E).
  Qed.

  (** ** Every run is one of turns *)
  (** What [l] is in the middle of. *)
  Definition midway (st0 : SSt) (l : Loop) : Prop :=
    if l_body l then exists t, fstep t st0 = Some (outcome (eval (l_co l) (st_of l)))
    else eval (l_co l) (st_of l) = eval (co_loop C rng h) st0 /\ (forall s, visits (l_co l) (st_of l) s -> visits (co_loop C rng h) st0 s).
  Definition inv (k : Conn) (l : Loop) : Prop :=
    fit l /\ exists ts st0, frun ts (session_init k) = Some (Ok false, st0) /\ len (sout st0) <= lim /\ midway st0 l.

  Lemma fresh_midway l : afresh C rng h l -> midway (st_of l) l.
  Proof. intros [B E]. unfold midway. rewrite B. destruct E as [-> | ->]; auto. Qed.
  Lemma fit_receive w body : at_ease w -> fit {| l_body := body; l_co := co_receive C rng h; l_world := w |}.
  Proof. intros A. split; cbn [l_world l_co]; [exact (ease_sound _ A)|]. destruct A as (_ & _ & ->). exact (good_receive lim C rng h). Qed.
  Lemma inv_init k : len (k_out k) <= lim -> inv k (loop_init C rng h k).
  Proof.
    intros L. split; [apply fit_receive; split; [|split]; reflexivity|]. exists [], (session_init k). split; [reflexivity|]. split; [exact L|].
    apply fresh_midway. split; [reflexivity|]. left. reflexivity.
  Qed.

  (** The end of a program is the end of a turn. *)
  Lemma done_step k l r o : inv k l -> l_co l = Co_Ret r -> co_done C rng h (l_body l) r (l_world l) = Some o ->
    match o with
    | O_Goes l' => afresh C rng h l' /\ inv k l' /\ exists ts, frun ts (session_init k) = Some (Ok false, st_of l')
    | O_Over r st => exists ts st', frun ts (session_init k) = Some (r, st') /\ ends_alike r st st'
    | O_Clash => False
    end.
  Proof.
    intros ([S G] & ts & st0 & F & L & M) E D. unfold midway in M. rewrite E in M, G.
    assert (T : exists t x, fstep t st0 = Some x /\ fst x = fst (outcome (r, st_of l)) /\ ends_alike (fst x) (snd (outcome (r, st_of l))) (snd x)).
    { destruct (l_body l).
      - destruct M as (t & M). exists t, (outcome (r, st_of l)). split; [exact M|]. split; [reflexivity|]. destruct (fst _) as [|[[]|]|]; cbn [ends_alike]; try reflexivity. repeat split; reflexivity.
      - destruct M as (M & _). cbn [AsyncThm.eval] in M. exists (None, Ev_Packet), (on_packet_b lim C rng h st0). split; [reflexivity|].
        destruct (eval_loop lim C rng h st0 L) as [E1 E2]. rewrite <- M in E1, E2. auto. }
    destruct T as (t & [r1 st1] & T & E1 & E2). cbn [fst snd] in E1, E2.
    pose proof (frun_snoc ts t _ _ F) as F1. rewrite T in F1.
    assert (OUT : forall st, r1 = Ok false -> st1 = st -> len (sout st) <= lim) by (intros st -> <-; exact (fstep_out _ _ _ L T)).
    destruct (release_all_ease _ S) as [A1 A2].
    destruct r as [[| |n io peer]|e|]; cbn [co_done outcome fst snd] in *; subst r1; cbn [ends_alike] in E2.
    - assert (OK : forall co w, co = co_receive C rng h \/ co = co_loop C rng h -> fit {| l_body := false; l_co := co; l_world := w |} -> w_st w = st1 ->
        afresh C rng h {| l_body := false; l_co := co; l_world := w |} /\ inv k {| l_body := false; l_co := co; l_world := w |} /\
        exists ts, frun ts (session_init k) = Some (Ok false, w_st w)).
      { intros co w Q FT W. assert (AF : afresh C rng h {| l_body := false; l_co := co; l_world := w |}) by (split; [reflexivity|exact Q]). split; [exact AF|].
        split; [|exists (ts ++ [t]); rewrite W; exact F1]. split; [exact FT|]. exists (ts ++ [t]), st1. split; [exact F1|]. split; [exact (OUT _ eq_refl eq_refl)|].
        rewrite <- W. exact (fresh_midway _ AF). }
      destruct (l_body l); apply Some_inj in D; subst o.
      + apply OK; [left; reflexivity|apply fit_receive, A1|exact (eq_trans A2 E2)].
      + apply OK; [right; reflexivity| |exact E2]. split; cbn [l_world l_co]; [exact S|]. apply (good_loop lim). exact G.
    - apply Some_inj in D. subst o. exists (ts ++ [t]), st1. auto.
    - apply Some_inj in D. subst o. set (w1 := w_set _ _).
      assert (AF : afresh C rng h {| l_body := false; l_co := co_receive C rng h; l_world := w1 |}) by (split; [reflexivity|left; reflexivity]).
      assert (W : w_st w1 = st1) by (subst w1; cbn [w_set w_st]; rewrite A2; exact E2).
      split; [exact AF|]. split; [|exists (ts ++ [t]); cbn [l_world]; rewrite W; exact F1]. split.
      + apply fit_receive. exact A1.
      + exists (ts ++ [t]), st1. split; [exact F1|]. split; [exact (OUT _ eq_refl eq_refl)|]. rewrite <- W. exact (fresh_midway _ AF).
    - apply Some_inj in D. subst o. exists (ts ++ [t]), st1. auto.
    - apply Some_inj in D. subst o. exists (ts ++ [t]), st1. auto.
  Qed.
  (** Another branch is ready. *)
  Lemma ready_step k l e o : inv k l -> pstep (P_Ready e) l = Some o ->
    exists co ts c st0, o = O_Goes {| l_body := true; l_co := co; l_world := release_all (l_world l) |} /\ co_branch C rng e (st_of l) = Some co /\
      frun ts (session_init k) = Some (Ok false, st0) /\ cut_step_b lim C rng h c st0 = Some (st_of l) /\ l_body l = false /\
      inv k {| l_body := true; l_co := co; l_world := release_all (l_world l) |}.
  Proof.
    intros ([S G] & ts & st0 & F & L & M) E. unfold p_step in E. destruct (negb (l_body l) && waiting (l_co l) (st_of l)) eqn:W; [|destruct (l_co l); discriminate E].
    apply andb_true_iff in W as [W1 W2]. apply negb_true_iff in W1. unfold midway in M. rewrite W1 in M. destruct M as [_ M].
    specialize (M _ (waiting_visits lim rng _ _ _ G W2)). apply visits_loop in M; [|exact L]. destruct M as (c & CS).
    assert (E' : match co_branch C rng e (st_of l) with Some co => goes true co (release_all (l_world l)) | None => None end = Some o) by (destruct (l_co l); exact E).
    clear E. destruct (co_branch C rng e (st_of l)) as [co|] eqn:B; [|discriminate E']. unfold goes in E'. apply Some_inj in E'. subst o.
    destruct (release_all_ease _ S) as [A1 A2].
    exists co, ts, c, st0. split; [reflexivity|]. split; [reflexivity|]. split; [exact F|]. split; [exact CS|]. split; [exact W1|]. split.
    - split; cbn [l_world l_co]; [exact (ease_sound _ A1)|]. destruct A1 as (_ & _ & ->). exact (good_branch lim _ _ _ _ _ B).
    - exists ts, st0. split; [exact F|]. split; [exact L|]. unfold midway. cbn [l_body l_co l_world]. exists (Some c, e). rewrite A2.
      assert (NP : e <> Ev_Packet) by (intros ->; discriminate B). rewrite fault_some, CS by exact NP.
      rewrite eval_branch, B; [reflexivity|exact NP|]. unfold cut_step_b in CS. destruct (cut_step _ _ _ _ _) as [s|]; [|discriminate CS].
      destruct (N.leb_spec (len (sout s)) lim); [|discriminate CS]. apply Some_inj in CS. subst s. assumption.
  Qed.
  Lemma ret_dec co : (exists r, co = Co_Ret r) \/ (forall r, co <> @Co_Ret Next r).
  Proof. destruct co; [left; eauto|right; discriminate..]. Qed.
  Lemma ready_dec e : (exists ev, e = P_Ready ev) \/ (forall ev, e <> P_Ready ev).
  Proof. destruct e; try (right; discriminate). left. eauto. Qed.
  Lemma inv_step k l e o : inv k l -> pstep e l = Some o ->
    match o with
    | O_Goes l' => inv k l'
    | O_Over r st => exists ts st', frun ts (session_init k) = Some (r, st') /\ ends_alike r st st'
    | O_Clash => False
    end.
  Proof.
    intros I E. destruct (ready_dec e) as [(ev & ->)|NR].
    { destruct (ready_step k l ev o I E) as (co & ts & c & st0 & -> & _ & _ & _ & _ & I'). exact I'. }
    destruct (ret_dec (l_co l)) as [(r & Q)|NRet].
    { assert (D : co_done C rng h (l_body l) r (l_world l) = Some o).
      { unfold p_step in E. rewrite Q in E. destruct e; try discriminate E; [exact E|]. destruct (NR e eq_refl). }
      pose proof (done_step k l r o I Q D) as X. destruct o as [l'|r' st|]; [apply X|exact X|exact X]. }
    destruct I as (FT & ts & st0 & F & L & M). destruct (step_onward lim C rng h e l o FT E NR NRet) as (l' & -> & FT' & B & EV & V).
    split; [exact FT'|]. exists ts, st0. split; [exact F|]. split; [exact L|]. unfold midway in *. rewrite B, EV. destruct (l_body l); [exact M|].
    destruct M as [M1 M2]. split; [exact M1|]. auto.
  Qed.
  Lemma inv_run k es : forall l o, inv k l -> prun es l = Some o ->
    match o with
    | O_Goes l' => inv k l'
    | O_Over r st => exists ts st', frun ts (session_init k) = Some (r, st') /\ ends_alike r st st'
    | O_Clash => False
    end.
  Proof.
    induction es as [|e es IH]; intros l o I E; cbn [p_run] in E.
    - apply Some_inj in E. subst o. exact I.
    - destruct (pstep e l) as [o1|] eqn:P; [|discriminate E]. pose proof (inv_step k l e o1 I P) as X.
      destruct o1 as [l1|r st|]; [exact (IH _ _ X E)|apply Some_inj in E; subst o; exact X..].
  Qed.
End Sessions.
