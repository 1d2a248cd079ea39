(** C92-C94: every session of turns happens; going on. *)
From Coq Require Import Init.Byte.
From Verif Require Export AsyncThm4.
Open Scope res_scope.

Section Sessions.
  Context (lim : N) (C : Crypto) (rng : N -> N -> bytes) (h : SHandlers).
  Notation sin st := (k_in (s_conn st)).
  Notation sout st := (k_out (s_conn st)).
  Notation eval := (eval lim).
  Notation visits := (visits lim).
  Notation fstep := (fault_step lim C rng h).
  Notation frun := (fault_run lim C rng h).
  Notation pstep := (p_step lim C rng h).
  Notation prun := (p_run lim C rng h).
  Notation st_of l := (w_st (l_world l)).

  (** The program can be run to its end. *)
  Definition turned (x : res ReceiveError bool * SSt) (o : Out) : Prop :=
    match fst x with
    | Ok false => exists l, o = O_Goes l /\ afresh C rng h l /\ fit l /\ st_of l = snd x
    | r => exists st, o = O_Over r st /\ ends_alike r st (snd x)
    end.
  Lemma alike_refl r st : ends_alike r st st.
  Proof. destruct r as [|[[]|]|]; cbn [ends_alike]; try reflexivity. repeat split; reflexivity. Qed.
  Lemma turned_over r st : r <> Ok false -> turned (r, st) (O_Over r st).
  Proof. intros N. unfold turned. cbn [fst snd]. destruct r as [[|]|e|]; try congruence; eexists; (split; [reflexivity|apply alike_refl]). Qed.
  Lemma finish l : fit l -> exists es o, Forall own_step es /\ prun es l = Some o /\ turned (outcome (eval (l_co l) (st_of l))) o.
  Proof.
    intros F. destruct l as [body co w]. destruct (reach_end lim C rng h co body w F) as (l1 & (F1 & B & es & CA & E) & R & W). cbn [l_co l_world l_body] in *.
    destruct (eval co (w_st w)) as [r st]. cbn [fst snd] in R, W. subst st.
    assert (D : exists o, co_done C rng h (l_body l1) r (l_world l1) = Some o /\ turned (outcome (r, st_of l1)) o).
    { destruct F1 as [S G]. rewrite R in G. destruct (release_all_ease _ S) as [A1 A2]. destruct r as [[| |n io peer]|e|]; cbn [co_done outcome].
      - destruct (l_body l1); (eexists; split; [reflexivity|]); unfold turned; cbn [fst snd]; eexists; (split; [reflexivity|]).
        + split; [split; [reflexivity|left; reflexivity]|]. split; [exact (fit_receive lim C rng h _ _ A1)|exact A2].
        + split; [split; [reflexivity|right; reflexivity]|]. split; [|reflexivity]. split; [exact S|]. apply (good_loop lim). exact G.
      - eexists. split; [reflexivity|]. apply turned_over. discriminate.
      - eexists. split; [reflexivity|]. unfold turned. cbn [fst snd]. eexists. split; [reflexivity|]. split; [split; [reflexivity|left; reflexivity]|].
        split; [apply (fit_receive lim); exact A1|]. cbn [l_world w_set w_st]. rewrite A2. reflexivity.
      - eexists. split; [reflexivity|]. apply turned_over. discriminate.
      - eexists. split; [reflexivity|]. apply turned_over. discriminate. }
    destruct D as (o & D & T). exists (es ++ [P_Run]), o. split; [apply Forall_app; split; [exact CA|constructor; [exact I|constructor]]|]. split; [|exact T]. rewrite (run_app lim C rng h _ _ _ _ E). cbn [p_run]. unfold p_step. rewrite R, D.
    destruct o; reflexivity.
  Qed.
  Lemma fresh_eval l : afresh C rng h l -> eval (l_co l) (st_of l) = eval (co_loop C rng h) (st_of l).
  Proof. intros [_ [-> | ->]]; reflexivity. Qed.
  Lemma fresh_visits l s : afresh C rng h l -> visits (co_loop C rng h) (st_of l) s -> visits (l_co l) (st_of l) s.
  Proof. intros [_ [-> | ->]] V; exact V. Qed.

  (** ** One more turn *)
  Lemma ready_turn l e s x : fit l -> afresh C rng h l -> visits (co_loop C rng h) (st_of l) s -> len (sout s) <= lim -> e <> Ev_Packet ->
    session_step_b lim C rng h e s = Some x -> exists es o, prun es l = Some o /\ turned x o.
  Proof.
    intros F A V L NP E. pose proof (fresh_visits l s A V) as V'. rewrite eval_branch in E by assumption.
    destruct (co_branch C rng e s) as [co|] eqn:B; [|discriminate E]. apply Some_inj in E. subst x.
    destruct (reach_visit lim C rng h (l_co l) (l_body l) (l_world l) s) as (l1 & (F1 & B1 & es & _ & R) & W & <-); [destruct l; exact F|exact V'|].
    destruct F1 as [S1 G1]. destruct (release_all_ease _ S1) as [A1 A2].
    set (l2 := {| l_body := true; l_co := co; l_world := release_all (l_world l1) |}).
    assert (F2 : fit l2).
    { split; cbn [l2 l_world l_co]; [exact (ease_sound _ A1)|]. destruct A1 as (_ & _ & ->). exact (good_branch lim _ _ _ _ _ B). }
    assert (P : pstep (P_Ready e) l1 = Some (O_Goes l2)).
    { unfold p_step. rewrite B1. cbn [l_body]. rewrite (proj1 A). cbn [negb andb]. destruct (l_co l1); cbn [waiting] in W |- *; try discriminate W; rewrite ?W, B; reflexivity. }
    destruct (finish l2 F2) as (es2 & o & _ & R2 & T). cbn [l2 l_co l_world] in T. rewrite A2 in T.
    exists (es ++ P_Ready e :: es2), o. split; [|exact T].
    replace l with {| l_body := l_body l; l_co := l_co l; l_world := l_world l |} by (destruct l; reflexivity).
    rewrite (run_app lim C rng h _ _ _ _ R). cbn [p_run]. rewrite P. exact R2.
  Qed.
  Lemma one_turn l t x : fit l -> afresh C rng h l -> len (sout (st_of l)) <= lim -> 4 <= len (s_buf (st_of l)) -> fstep t (st_of l) = Some x ->
    exists es o, prun es l = Some o /\ turned x o.
  Proof.
    intros F A L B E. destruct t as [[c|] e].
    - destruct (packet_dec e) as [->|NP]; [discriminate E|]. rewrite fault_some in E by exact NP.
      destruct (cut_step_b lim C rng h c (st_of l)) as [s|] eqn:CS; [|discriminate E]. apply (ready_turn l e s x); try assumption.
      + apply visits_loop; [exact L|]. exists c. exact CS.
      + unfold cut_step_b in CS. destruct (cut_step _ _ _ _ _) as [s'|]; [|discriminate CS].
        destruct (N.leb_spec (len (sout s')) lim); [|discriminate CS]. apply Some_inj in CS. subst s'. assumption.
    - cbn [fault_step] in E. destruct (packet_dec e) as [->|NP].
      + cbn [session_step_b] in E. apply Some_inj in E. subst x. destruct (finish l F) as (es & o & _ & R & T). exists es, o. split; [exact R|].
        rewrite fresh_eval in T by exact A. destruct (eval_loop lim C rng h (st_of l) L) as [E1 E2]. unfold turned in *. rewrite E1 in T.
        destruct (fst (on_packet_b lim C rng h (st_of l))) as [[|]|y|]; cbn [ends_alike] in E2.
        * destruct T as (st & -> & T). exists st. split; [reflexivity|]. cbn [ends_alike] in *. congruence.
        * destruct T as (l' & T1 & T2 & T3 & T4). exists l'. split; [exact T1|]. split; [exact T2|]. split; [exact T3|]. congruence.
        * destruct T as (st & -> & T). exists st. split; [reflexivity|]. destruct y as [[]|]; cbn [ends_alike] in *; try congruence.
          destruct T as (T1 & T2 & T3 & T4 & T5 & T6 & T7). destruct E2 as (U1 & U2 & U3 & U4 & U5 & U6 & U7). repeat split; congruence.
        * destruct T as (st & -> & T). exists st. split; [reflexivity|]. cbn [ends_alike] in *. congruence.
      + apply (ready_turn l e (st_of l) x); try assumption. unfold co_loop, co_recv. cbn [AsyncThm.visits]. split; [lia|]. left. exists 0. split; [lia|]. split; [lia|]. symmetry. apply took_0.
  Qed.

  (** ** Sessions *)
  Section All.
    Context (k : Conn) (K : crypto_ok C) (R : forall n, rng_ok (rng n)) (L1 : counter (k_rd k) < 2 ^ 64) (L2 : counter (k_wr k) < 2 ^ 64).
    Context (LO : len (k_out k) <= lim).
    Lemma frun_buf ts st : frun ts (session_init k) = Some (Ok false, st) -> len (s_buf st) = 35000.
    Proof.
      intros E. destruct (fault_is_cut lim C rng h ts _ _ _ E LO) as (ts1 & ts2 & r & st1 & -> & CR & [(-> & _ & Q & ->)|(Q & _)]); [|discriminate Q].
      destruct r as [b|e|]; try discriminate Q. cbn [map_err] in Q. apply Ok_inj in Q. subst b.
      destruct (shadow_run C rng K R h k _ [] _ _ (shadow_init k L1 L2) CR) as (v & raws & I & _). apply I.
    Qed.
    Lemma complete ts : forall ts0 l r st, frun ts0 (session_init k) = Some (Ok false, st_of l) -> fit l -> afresh C rng h l -> frun ts (st_of l) = Some (r, st) ->
      exists es o, prun es l = Some o /\ turned (r, st) o.
    Proof.
      induction ts as [|t ts IH]; intros ts0 l r st E0 F A E; cbn [fault_run] in E.
      - apply Some_inj, pair_eq in E as [<- <-]. exists [], (O_Goes l). split; [reflexivity|]. unfold turned. cbn [fst snd]. eauto 10.
      - destruct (fstep t (st_of l)) as [[r1 st1]|] eqn:S; [|discriminate E].
        destruct (one_turn l t (r1, st1) F A) as (es & o & P & T); [exact (frun_out lim C rng h ts0 (session_init k) _ LO E0)|rewrite (frun_buf _ _ E0); lia|exact S|].
        destruct r1 as [[|]|e|].
        2: { unfold turned in T. cbn [fst snd] in T. destruct T as (l1 & -> & A1 & F1 & <-).
             destruct (IH (ts0 ++ [t]) l1 r st) as (es2 & o2 & P2 & T2); [rewrite (frun_snoc lim C rng h _ _ _ _ E0); exact S|exact F1|exact A1|exact E|].
             exists (es ++ es2), o2. split; [|exact T2]. rewrite (run_app lim C rng h _ _ _ _ P). exact P2. }
        all: apply Some_inj, pair_eq in E as [<- <-]; exists es, o; auto.
    Qed.
    Lemma drops ts c st s : frun ts (session_init k) = Some (Ok false, st) -> cut_step_b lim C rng h c st = Some s ->
      exists es l, prun es (loop_init C rng h k) = Some (O_Goes l) /\ l_body l = false /\ waiting (l_co l) (st_of l) = true /\ st_of l = s.
    Proof.
      intros E CS.
      assert (F0 : fit (loop_init C rng h k)) by (apply (fit_receive lim); split; [|split]; reflexivity).
      destruct (complete ts [] (loop_init C rng h k) (Ok false) st eq_refl F0 (conj eq_refl (or_introl eq_refl)) E) as (es & o & P & T).
      unfold turned in T. cbn [fst snd] in T. destruct T as (l & -> & A & F & <-).
      assert (V : visits (co_loop C rng h) (st_of l) s) by (apply visits_loop; [exact (frun_out lim C rng h ts (session_init k) _ LO E)|exists c; exact CS]).
      destruct (reach_visit lim C rng h (l_co l) (l_body l) (l_world l) s) as (l1 & (F1 & B1 & es1 & _ & R1) & W & W'); [destruct l; exact F|exact (fresh_visits l s A V)|].
      exists (es ++ es1), l1. split; [|split; [|split; assumption]].
      - rewrite (run_app lim C rng h _ _ _ _ P). replace l with {| l_body := l_body l; l_co := l_co l; l_world := l_world l |} by (destruct l; reflexivity). exact R1.
      - rewrite B1. exact (proj1 A).
    Qed.
  End All.
End Sessions.
