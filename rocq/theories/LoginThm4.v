(** Connections await by await: each by itself; and as [Faults] has them. *)
From Coq Require Import Init.Byte Strings.Byte.
From Verif Require Export LoginThm3 AsyncThm6 FaultsThm3.
Open Scope res_scope.

Definition l_target (e : LvEv) : option (N * OEv) :=
  match e with LV_Accept _ => None | LV_Login i e => Some (i, OE_Login e) | LV_Client i e => Some (i, OE_Client e) end.
Lemma l_own_snoc i es e : l_own i (es ++ [e]) = l_own i es ++ l_about i e.
Proof. unfold l_own. rewrite flat_map_app. cbn [flat_map]. rewrite app_nil_r. reflexivity. Qed.
Lemma l_accepted_app es es' : l_accepted (es ++ es') = l_accepted es ++ l_accepted es'.
Proof. apply flat_map_app. Qed.
Lemma l_accepted_snoc es e : l_accepted (es ++ [e]) = l_accepted es ++ match e with LV_Accept s => [s] | _ => [] end.
Proof. rewrite l_accepted_app. cbn [l_accepted flat_map]. rewrite app_nil_r. reflexivity. Qed.
Lemma l_about_target i e : l_about i e = match l_target e with Some (j, x) => if j =? i then [x] else [] | None => [] end.
Proof. destruct e; reflexivity. Qed.
Lemma set_at_len {A} i (x : A) l : len (set_at i x l) = len l.
Proof. unfold len, set_at. rewrite set_nth_length. reflexivity. Qed.
Lemma set_at_twice {A} i (x y : A) l : set_at i x (set_at i y l) = set_at i x l.
Proof. unfold set_at. generalize (N.to_nat i). intros n. revert n. induction l as [|a l IH]; intros [|n]; cbn; congruence. Qed.

Section Lane.
  Context {U : Type} (H : Host) (C : Crypto) (p : Peer U) (lim : N).
  Notation pstep u := (p_step lim C (p_rng p) (p_session p u)).
  Notation prun u := (p_run lim C (p_rng p) (p_session p u)).
  Notation st_of l := (w_st (l_world l)).
  Notation sout st := (k_out (s_conn st)).

  Definition settle (out : AOutcome U) : res unit (Lane U) :=
    match out with
    | AO_Handshake true _ => Panic
    | AO_Handshake false o => Ok (Ln_Refused (AO_Handshake false o))
    | AO_Auth (Ok u) a => Ok (Ln_Client u a (loop_init C (p_rng p) (p_session p u) (a_conn a)))
    | AO_Auth (Err e) a => Ok (Ln_Refused (AO_Auth (Err e) a))
    | AO_Auth Panic _ => Panic
    end.
  Definition lane_step (x : OEv) (l : Lane U) : option (res unit (Lane U)) :=
    match x, l with
    | OE_Login e, Ln_Login g => lane_login C lim p e g
    | OE_Client e, Ln_Client u a l => lane_client C lim p e u a l
    | _, _ => None
    end.
  Lemma lane_login_eq e g : lane_login C lim p e g =
    match g_step lim e g with
    | Some g => match g_co g with Lg_Ret x => Some (settle (l_outcome x (g_in g) (g_out g))) | _ => Some (Ok (Ln_Login g)) end
    | None => None
    end.
  Proof.
    unfold lane_login. destruct (g_step lim e g) as [g1|]; [|reflexivity]. destruct (g_co g1) as [x| | |]; try reflexivity.
    destruct (l_outcome x (g_in g1) (g_out g1)) as [[|] o|[u|e0|] a]; reflexivity.
  Qed.
  Lemma login_next es g g1 e s : logging_in H C p lim s es g -> g_step lim e g = Some g1 -> logging_in H C p lim s (es ++ [e]) g1.
  Proof. unfold logging_in. intros E S. rewrite LoginThm.run_app, E. cbn [g_run]. rewrite S. reflexivity. Qed.
  Lemma begins_under_way s : under_way (login_begins H C p s).
  Proof. intros x E. discriminate E. Qed.
  Lemma ret_dec_l (co : Lg (LResult U)) : (exists x, co = Lg_Ret x) \/ forall x, co <> Lg_Ret x.
  Proof. destruct co; [left; eauto|right; discriminate..]. Qed.
  Lemma lane_login_cases s es g e : logging_in H C p lim s es g ->
    match lane_login C lim p e g with
    | Some r => (exists g1, r = Ok (Ln_Login g1) /\ logging_in H C p lim s (es ++ [e]) g1 /\ under_way g1) \/
        exists out, logged_in H C p lim s (es ++ [e]) out /\ r = settle out
    | None => True
    end.
  Proof.
    intros E. rewrite lane_login_eq. destruct (g_step lim e g) as [g1|] eqn:S; [|exact I]. pose proof (login_next _ _ _ _ _ E S) as E1.
    destruct (ret_dec_l (g_co g1)) as [(x & Q)|NR].
    - rewrite Q. right. exists (l_outcome x (g_in g1) (g_out g1)). split; [|reflexivity]. exists g1, x. auto.
    - assert (X : match g_co g1 with Lg_Ret x => Some (settle (l_outcome x (g_in g1) (g_out g1))) | _ => Some (Ok (Ln_Login g1)) end = Some (Ok (Ln_Login g1)))
        by (destruct (g_co g1) as [x| | |]; [destruct (NR x eq_refl)|reflexivity..]).
      rewrite X. left. exists g1. auto.
  Qed.

  (** ** By itself *)
  Lemma polls_next u a es l e : session_polls C p lim u a es = Some (O_Goes l) -> session_polls C p lim u a (es ++ [e]) = pstep u e l.
  Proof.
    unfold session_polls. intros E. rewrite (AsyncThm.run_app lim C _ _ _ _ _ _ E). cbn [p_run]. destruct (pstep u e l) as [[l1|r st|]|]; reflexivity.
  Qed.
  Lemma polls_fit u a es l : session_polls C p lim u a es = Some (O_Goes l) -> fit l.
  Proof. intros E. exact (fit_run lim C _ _ es _ _ (init_fit lim C _ _ (a_conn a)) E). Qed.
  Lemma itself_next s es l x : by_itself H C p lim s es l ->
    match lane_step x l with
    | Some (Ok l') => by_itself H C p lim s (es ++ [x]) l'
    | Some Panic => dies_itself H C p lim s (es ++ [x])
    | Some (Err _) => False
    | None => True
    end.
  Proof.
    intros B. destruct x as [e|e], B as [es g E N|es u a es' l E S|es out E X|es u a es' r st E S X]; cbn [lane_step]; try exact I.
    - pose proof (lane_login_cases s es g e E) as Q. destruct (lane_login C lim p e g) as [r|]; [|exact I].
      change [OE_Login e] with (map OE_Login [e]). rewrite <- map_app. destruct Q as [(g1 & -> & E1 & N1)|(out & E1 & ->)].
      + constructor; assumption.
      + unfold settle. destruct out as [[|] o|[u|e0|] a].
        * eapply D_Login; [exact E1|reflexivity].
        * apply I_Refused; [exact E1|reflexivity].
        * rewrite <- (app_nil_r (map _ _)). apply (I_Client _ _ _ _ _ _ u a []); [exact E1|reflexivity].
        * apply I_Refused; [exact E1|eauto].
        * eapply D_Login; [exact E1|reflexivity].
    - unfold lane_client. pose proof (polls_next _ _ _ _ e S) as S1. pose proof (fit_step lim C (p_rng p) (p_session p u) l e) as F.
      rewrite <- app_assoc. change [OE_Client e] with (map OE_Client [e]). rewrite <- map_app.
      destruct (pstep u e l) as [[l1|[b|e0|] st|]|] eqn:Q; try exact I.
      + eapply I_Client; [exact E|exact S1].
      + eapply I_Over; [exact E|exact S1|discriminate].
      + eapply I_Over; [exact E|exact S1|discriminate].
      + eapply D_Client; [exact E|exact S1].
      + destruct (F _ (polls_fit _ _ _ _ S) eq_refl).
  Qed.

  (** ** As [Faults] *)
  Definition sim (l : Lane U) (t : Task U) : Prop :=
    match l, t with
    | Ln_Client u a l, T_Client u' a' st => u = u' /\ a = a' /\ fit l /\ len (sout st) <= lim /\ AsyncThm4.midway lim C (p_rng p) (p_session p u) st l /\
        exists l0, afresh C (p_rng p) (p_session p u) l0 /\ st_of l0 = st /\ turn_to lim C (p_rng p) (p_session p u) l0 l
    | _, _ => seen_as H C p lim l t
    end.
  Lemma sim_seen l t : sim l t -> seen_as H C p lim l t.
  Proof. destruct l, t; try (intros X; exact X). cbn [sim seen_as]. intros (A & B & _ & _ & _ & X). auto. Qed.
  Lemma alike_but r st st' : ends_alike r st st' -> same_but_buf st st'.
  Proof. destruct r as [|[[]|]|]; cbn [ends_alike]; try (intros ->; repeat split; reflexivity). exact (fun x => x). Qed.

  Section Turn.
    Context (u : U).
    Notation rng := (p_rng p).
    Notation h := (p_session p u).
    Notation fstep := (fault_step lim C rng h).
    (** The end of a turn, and the middle. *)
    Lemma turn_ends st0 l r o : fit l -> len (sout st0) <= lim -> AsyncThm4.midway lim C rng h st0 l -> l_co l = Co_Ret r -> co_done C rng h (l_body l) r (l_world l) = Some o ->
      match o with
      | O_Goes l' => afresh C rng h l' /\ fit l' /\ exists t, fstep t st0 = Some (Ok false, st_of l')
      | O_Over r st => r <> Ok false /\ exists t st', fstep t st0 = Some (r, st') /\ ends_alike r st st'
      | O_Clash => False
      end.
    Proof.
      intros [S G] L M E D. unfold AsyncThm4.midway in M. rewrite E in M, G.
      assert (T : exists t x, fstep t st0 = Some x /\ fst x = fst (outcome (r, st_of l)) /\ ends_alike (fst x) (snd (outcome (r, st_of l))) (snd x)).
      { destruct (l_body l).
        - destruct M as (t & M). exists t, (outcome (r, st_of l)). split; [exact M|]. split; [reflexivity|]. apply AsyncThm5.alike_refl.
        - destruct M as (M & _). cbn [AsyncThm.eval] in M. exists (None, Ev_Packet), (on_packet_b lim C rng h st0). split; [reflexivity|].
          destruct (eval_loop lim C rng h st0 L) as [E1 E2]. rewrite <- M in E1, E2. auto. }
      destruct T as (t & [r1 st1] & T & E1 & E2). cbn [fst snd] in E1, E2. destruct (release_all_ease _ S) as [A1 A2].
      destruct r as [[| |n io peer]|e|]; cbn [co_done outcome fst snd] in *; subst r1; cbn [ends_alike] in E2.
      - destruct (l_body l); apply Some_inj in D; subst o.
        + split; [split; [reflexivity|left; reflexivity]|]. split; [apply (fit_receive lim), A1|]. exists t. cbn [l_world]. rewrite A2, E2. exact T.
        + split; [split; [reflexivity|right; reflexivity]|]. split; [split; cbn [l_world l_co]; [exact S|]; apply (good_loop lim); exact G|]. exists t. cbn [l_world]. rewrite E2. exact T.
      - apply Some_inj in D. subst o. split; [discriminate|]. eauto.
      - apply Some_inj in D. subst o. split; [split; [reflexivity|left; reflexivity]|]. split; [apply (fit_receive lim); exact A1|].
        exists t. cbn [l_world w_set w_st]. rewrite A2, E2. exact T.
      - apply Some_inj in D. subst o. split; [discriminate|]. eauto.
      - apply Some_inj in D. subst o. split; [discriminate|]. eauto.
    Qed.
    Lemma turn_readies st0 l e o : fit l -> len (sout st0) <= lim -> AsyncThm4.midway lim C rng h st0 l -> pstep u (P_Ready e) l = Some o ->
      exists l', o = O_Goes l' /\ fit l' /\ AsyncThm4.midway lim C rng h st0 l' /\ forall r, l_co l <> Co_Ret r.
    Proof.
      intros [S G] L M E. unfold p_step in E. destruct (negb (l_body l) && waiting (l_co l) (st_of l)) eqn:W; [|destruct (l_co l); discriminate E].
      apply andb_true_iff in W as [W1 W2]. apply negb_true_iff in W1. unfold AsyncThm4.midway in M. rewrite W1 in M. destruct M as [_ M].
      specialize (M _ (waiting_visits lim rng _ _ _ G W2)). apply visits_loop in M; [|exact L]. destruct M as (c & CS).
      assert (E' : match co_branch C rng e (st_of l) with Some co => goes true co (release_all (l_world l)) | None => None end = Some o) by (destruct (l_co l); exact E).
      clear E. destruct (co_branch C rng e (st_of l)) as [co|] eqn:B; [|discriminate E']. unfold goes in E'. apply Some_inj in E'. subst o.
      destruct (release_all_ease _ S) as [A1 A2]. eexists. split; [reflexivity|]. split; [|split].
      - split; cbn [l_world l_co]; [exact (ease_sound _ A1)|]. destruct A1 as (_ & _ & ->). exact (good_branch lim _ _ _ _ _ B).
      - unfold AsyncThm4.midway. cbn [l_body l_co l_world]. exists (Some c, e). rewrite A2.
        assert (NP : e <> Ev_Packet) by (intros ->; discriminate B). rewrite fault_some, CS by exact NP.
        rewrite eval_branch, B; [reflexivity|exact NP|]. unfold cut_step_b in CS. destruct (cut_step _ _ _ _ _) as [s|]; [|discriminate CS].
        destruct (N.leb_spec (len (sout s)) lim); [|discriminate CS]. apply Some_inj in CS. subst s. assumption.
      - intros r Q. rewrite Q in W2. discriminate W2.
    Qed.
    Lemma turn_goes st0 l e o : fit l -> len (sout st0) <= lim -> AsyncThm4.midway lim C rng h st0 l -> pstep u e l = Some o ->
      (exists l', o = O_Goes l' /\ fit l' /\ AsyncThm4.midway lim C rng h st0 l' /\ forall r, l_co l <> Co_Ret r) \/
      match o with
      | O_Goes l' => afresh C rng h l' /\ fit l' /\ exists t, fstep t st0 = Some (Ok false, st_of l')
      | O_Over r st => r <> Ok false /\ exists t st', fstep t st0 = Some (r, st') /\ ends_alike r st st'
      | O_Clash => False
      end.
    Proof.
      intros F L M E. destruct (ready_dec e) as [(ev & ->)|NR]; [left; exact (turn_readies st0 l ev o F L M E)|].
      destruct (ret_dec (l_co l)) as [(r & Q)|NRet].
      - right. apply (turn_ends st0 l r o F L M Q). unfold p_step in E. rewrite Q in E. destruct e; try discriminate E; [exact E|]. destruct (NR e eq_refl).
      - left. destruct (step_onward lim C rng h e l o F E NR NRet) as (l' & -> & F' & B & EV & V). exists l'. split; [reflexivity|]. split; [exact F'|]. split; [|exact NRet].
        unfold AsyncThm4.midway in *. rewrite B, EV. destruct (l_body l); [exact M|]. destruct M as [M1 M2]. split; [exact M1|]. auto.
    Qed.
  End Turn.

  Lemma sim_new u a : len (k_out (a_conn a)) <= lim -> sim (Ln_Client u a (loop_init C (p_rng p) (p_session p u) (a_conn a))) (T_Client u a (session_init (a_conn a))).
  Proof.
    intros L. set (l0 := loop_init C (p_rng p) (p_session p u) (a_conn a)). assert (AF : afresh C (p_rng p) (p_session p u) l0) by (split; [reflexivity|left; reflexivity]).
    cbn [sim]. split; [reflexivity|]. split; [reflexivity|]. split; [apply (init_fit lim)|]. split; [exact L|].
    split; [exact (AsyncThm4.fresh_midway lim C _ _ l0 AF)|]. exists l0. split; [exact AF|]. split; [reflexivity|constructor].
  Qed.
  Lemma sim_next l t x : sim l t ->
    match lane_step x l with
    | Some (Ok l') => sim l' t \/ exists y t', conn_step_f H C lim p y t = Some (Ok t') /\ sim l' t'
    | Some Panic => exists y, conn_step_f H C lim p y t = Some Panic
    | Some (Err _) => False
    | None => True
    end.
  Proof.
    intros SM. destruct x as [e|e], l as [g|u a l|out|u a st], t as [s|u' a' st'|out'|u' a' st']; cbn [lane_step]; try exact I; try (destruct SM; fail).
    - cbn [sim seen_as] in SM. destruct SM as (es & E). pose proof (lane_login_cases s es g e E) as Q. destruct (lane_login C lim p e g) as [r|]; [|exact I].
      destruct Q as [(g1 & -> & E1 & _)|(out & E1 & ->)]; [left; cbn [sim seen_as]; eauto|]. pose proof (login_ends H C p lim s _ _ E1) as A.
      assert (LO : len (written out) <= lim).
      { destruct E1 as (g1 & x & E1 & _). destruct (login_so_far H C p lim s _ _ E1) as (out1 & A1 & _ & L1 & _). rewrite A in A1. apply Some_inj in A1. subst out1. exact L1. }
      assert (Y : conn_step_f H C lim p FE_Auth (T_New s) = sv_auth_b H C lim p s) by reflexivity. unfold sv_auth_b in Y. rewrite A in Y.
      unfold settle. destruct out as [[|] o|[u|e0|] a].
      + exists FE_Auth. exact Y.
      + right. exists FE_Auth. eexists. split; [exact Y|]. cbn [sim seen_as]. reflexivity.
      + right. exists FE_Auth. eexists. split; [exact Y|]. apply sim_new. exact LO.
      + right. exists FE_Auth. eexists. split; [exact Y|]. cbn [sim seen_as]. reflexivity.
      + exists FE_Auth. exact Y.
    - destruct SM as (<- & <- & F & L & M & l0 & A0 & W0 & IT). unfold lane_client. destruct (pstep u e l) as [o|] eqn:P; [|exact I].
      destruct (turn_goes u st' l e o F L M P) as [(l' & -> & F' & M' & NR)|X].
      + left. cbn [sim]. split; [reflexivity|]. split; [reflexivity|]. split; [exact F'|]. split; [exact L|]. split; [exact M'|]. exists l0. split; [exact A0|]. split; [exact W0|].
        exact (T_Goes _ _ _ _ _ e l l' IT NR P).
      + destruct o as [l'|r st|]; [| |destruct X].
        * destruct X as (AF & F' & t & T). right. exists (FE_Turn t), (T_Client u a (st_of l')). split; [cbn [conn_step_f]; unfold fv_client; rewrite T; reflexivity|].
          cbn [sim]. split; [reflexivity|]. split; [reflexivity|]. split; [exact F'|]. split; [exact (fstep_out lim C _ _ _ _ _ L T)|]. split; [exact (AsyncThm4.fresh_midway lim C _ _ l' AF)|].
          exists l'. split; [exact AF|]. split; [reflexivity|constructor].
        * destruct X as (NF & t & st1 & T & EA). assert (Y : conn_step_f H C lim p (FE_Turn t) (T_Client u a st') = match r with Ok false => Some (Ok (T_Client u a st1)) | Panic => Some Panic | _ => Some (Ok (T_Over u a st1)) end)
            by (cbn [conn_step_f]; unfold fv_client; rewrite T; destruct r as [[|]|e0|]; reflexivity).
          destruct r as [[|]|e0|].
          -- right. exists (FE_Turn t). eexists. split; [exact Y|]. cbn [sim seen_as]. split; [reflexivity|]. split; [reflexivity|]. exact (alike_but _ _ _ EA).
          -- destruct (NF eq_refl).
          -- right. exists (FE_Turn t). eexists. split; [exact Y|]. cbn [sim seen_as]. split; [reflexivity|]. split; [reflexivity|]. exact (alike_but _ _ _ EA).
          -- exists (FE_Turn t). exact Y.
  Qed.
End Lane.
