(** Breaking and cancellation together: what is known of clients. *)
From Coq Require Import Init.Byte Strings.Byte.
From Verif Require Export FaultsThm2.
Open Scope res_scope.

Section Client.
  Context {U : Type} (H : Host) (C : Crypto) (P : N -> Peer U) (L : N -> N) (es : list FvEv) (ts : list (Task U)).
  Hypothesis (HO : host_ok H) (K : crypto_ok C) (PO : forall i, host_rng_ok (p_host_rng (P i)) /\ rngs_ok (p_rng (P i))).
  Hypothesis R : fv_run H C P L es [] = Some (Ok ts).
  Notation sout st := (k_out (s_conn st)).

  Lemma is_cut i s u a tn r st : authenticated H C (P i) s u a -> cut_session_of C (P i) u a tn r st ->
    connection H C (P i) s u a (session_init (a_conn a)) /\ is_cut_session C (p_rng (P i)) (p_session (P i) u) (a_conn a) (schedule tn) r st.
  Proof.
    intros A S. destruct (PO i) as [RO RR].
    assert (S0 : session_of C (P i) u a [] (Ok false) (session_init (a_conn a))) by reflexivity.
    split; [exact (whole_connection H C (P i) s u a [] _ _ HO RO K RR A S0)|].
    destruct (auth_gives_session _ _ _ _ _ _ HO RO K RR A _ _ _ S0) as (X1 & X2 & X3 & X4 & _).
    split; [exact X1|]. split; [exact X2|]. split; [exact X3|]. split; [exact X4|exact S].
  Qed.
  Lemma connections_f i u a st : client_at i ts u a st ->
    exists s tn, get_at i (f_accepted es) = Some s /\ f_own i es = FE_Auth :: map FE_Turn tn /\
      connection H C (P i) s u a (session_init (a_conn a)) /\ came_to C (P i) (L i) u a tn st.
  Proof.
    intros G. destruct (each_f_run H C P L HO K PO es ts R) as (_ & _ & A).
    destruct G as [G|G]; destruct (A i _ G) as (s & Gs & At); remember (f_own i es) as l eqn:Ql; exists s.
    - remember (T_Client u a st) as t eqn:Q.
      destruct At as [ |u0 a0 tn st0 Au S LS|out Au X LO|u0 a0 tn t0 st0 r st1 Au S0 S X LS|LB|u0 a0 tn t0 st0 r st1 st' Au S0 LS S B]; try discriminate Q.
      injection Q as -> -> ->. destruct (is_cut _ _ _ _ _ _ _ Au S) as [X1 X2]. exists tn. split; [exact Gs|]. split; [reflexivity|]. split; [exact X1|].
      exists (Ok false), st. auto.
    - remember (T_Over u a st) as t eqn:Q.
      destruct At as [ |u0 a0 tn st0 Au S LS|out Au X LO|u0 a0 tn t0 st0 r st1 Au S0 S X LS|LB|u0 a0 tn t0 st0 r st1 st' Au S0 LS S B]; try discriminate Q;
        injection Q as -> -> ->; destruct (is_cut _ _ _ _ _ _ _ Au S) as [X1 X2]; exists (tn ++ [t0]); (split; [exact Gs|]); (split; [reflexivity|]); (split; [exact X1|]).
      + exists r, st. auto.
      + exists r, st1. auto.
  Qed.
  (** Its log is that of a session over a transport that takes all, to the end or
      to the message that broke. *)
  Lemma client_log i u a st : client_at i ts u a st -> exists tn r st1 x, f_own i es = FE_Auth :: map FE_Turn tn /\
    is_cut_session C (p_rng (P i)) (p_session (P i) u) (a_conn a) (schedule tn) r st1 /\ s_log st1 = s_log st ++ x /\
    ((x = [] /\ len (sout st) <= L i /\ st = st1) \/ (broke_off (L i) i ts u a st /\ sout st = ntake (L i) (sout st1) /\ exists m t, x = SE_Sent m :: t)).
  Proof.
    intros G. assert (X : exists tn, f_own i es = FE_Auth :: map FE_Turn tn /\ came_to C (P i) (L i) u a tn st /\ (get_at i ts = Some (T_Client u a st) -> len (sout st) < L i \/ len (sout st) <= L i /\ exists r, cut_session_of C (P i) u a tn r st)).
    { destruct (connections_f _ _ _ _ G) as (s & tn & _ & Q & _ & X). exists tn. split; [exact Q|]. split; [exact X|]. intros G'.
      destruct (each_f_run H C P L HO K PO es ts R) as (_ & _ & A). destruct (A i _ G') as (s0 & Gs & At). rewrite Q in At. 
      remember (T_Client u a st) as t eqn:Qt. remember (FE_Auth :: map FE_Turn tn) as l eqn:Ql.
      destruct At as [ |u0 a0 tn0 st0 Au S LS|out Au X0 LO|u0 a0 tn0 t0 st0 r st1 Au S0 S X0 LS|LB|u0 a0 tn0 t0 st0 r st1 st' Au S0 LS S B]; try discriminate Qt.
      injection Qt as -> -> ->. right. split; [exact LS|]. exists (Ok false). injection Ql as Ql.
      assert (tn0 = tn) as <-; [|exact S]. clear - Ql. revert tn Ql. induction tn0 as [|y l IH]; intros [|z l'] Q; try discriminate Q; [reflexivity|].
      cbn [map] in Q. injection Q as <- Q. f_equal. apply IH, Q. }
    destruct X as (tn & OW & (r & st1 & IS & [[LS ->]|B]) & X).
    - exists tn, r, st1, []. split; [exact OW|]. split; [exact IS|]. split; [rewrite app_nil_r; reflexivity|]. left. auto.
    - pose proof B as (B1 & B2 & m & t & B3).
      assert (LN : len (sout st) = L i) by (rewrite B2, len_ntake; lia).
      destruct G as [G|G].
      + exfalso. destruct (X G) as [X1|(_ & r' & X1)]; [lia|]. destruct IS as (_ & _ & _ & _ & IS). unfold cut_session_of in X1. rewrite IS in X1.
        apply Some_inj, pair_eq in X1 as [_ ->]. lia.
      + exists tn, r, st1, (SE_Sent m :: t). split; [exact OW|]. split; [exact IS|]. split; [exact B3|]. right. split; [split; [exact G|exact LN]|]. eauto.
  Qed.

  Context (i : N) (u : U) (a : ASt U) (st : SSt).
  Hypothesis G : client_at i ts u a st.
  Notation gone := (broke_off (L i) i ts u a st).
  Lemma rest_prefix (x y : list SEvent) : at_rest (x ++ y) -> at_rest x.
  Proof. destruct x; [intros _; exact I|intros A; exact A]. Qed.
  Ltac known tn r st1 x OW IS E X := destruct (client_log _ _ _ _ G) as (tn & r & st1 & x & OW & IS & E & X).
  Lemma more {A} (l : list A) pre e post x l1 : l = pre ++ e :: post -> l1 = l ++ x -> l1 = pre ++ e :: (post ++ x).
  Proof. intros -> ->. rewrite <- app_assoc. reflexivity. Qed.
  Lemma f_output pre err n d post : s_log st = pre ++ SE_Read err n d :: post -> d <> [] ->
    exists p, runs err pre n p /\ ((exists post', post = put (C_Data p d) :: post' /\ at_rest post') \/ (post = [] /\ gone)).
  Proof.
    intros E D. known tn r st1 x OW IS E1 X. destruct (all_output _ _ _ _ _ _ _ IS _ _ _ _ _ (more _ _ _ _ _ _ E E1) D) as (p & post' & RU & Q & AR).
    exists p. split; [exact RU|]. destruct post as [|y post].
    - destruct X as [(-> & _)|(X & _)]; [discriminate Q|]. right. auto.
    - left. cbn [app] in Q. apply pair_cons in Q as [-> <-]. exists post. split; [reflexivity|]. eapply rest_prefix, AR.
  Qed.
  Lemma f_ends pre n post : s_log st = pre ++ SE_Read false n [] :: post ->
    exists p, runs false pre n p /\ (forall d, ~ In (SE_Read false n d) post) /\
      ((exists post', post = put (C_Eof p) :: put (C_Close p) :: post' /\ at_rest post') \/ ((post = [] \/ post = [put (C_Eof p)]) /\ gone)).
  Proof.
    intros E. known tn r st1 x OW IS E1 X. destruct (all_ends _ _ _ _ _ _ _ IS _ _ _ (more _ _ _ _ _ _ E E1)) as (p & post' & RU & Q & AR & NI).
    exists p. split; [exact RU|]. split; [intros d I; apply (NI d), in_or_app; auto|].
    destruct post as [|y [|z post]]; cbn [app] in Q.
    - destruct X as [(-> & _)|(X & _)]; [discriminate Q|]. right. auto.
    - apply pair_cons in Q as [-> Q]. destruct X as [(-> & _)|(X & _)]; [discriminate Q|]. right. auto.
    - apply pair_cons in Q as [-> Q]. apply pair_cons in Q as [-> <-]. left. exists post. split; [reflexivity|]. eapply rest_prefix, AR.
  Qed.
  Lemma f_exit pre n s post : s_log st = pre ++ SE_Exit n s :: post ->
    (forall s', ~ In (SE_Exit n s') (pre ++ post)) /\ exists l1 c p ty io l2, pre = l1 ++ SE_Spawn c p n ty (Ok io) :: l2 /\
      ((exists post', post = put (exit_status p s) :: post' /\ at_rest post') \/ (post = [] /\ gone)).
  Proof.
    intros E. known tn r st1 x OW IS E1 X. destruct (all_exit _ _ _ _ _ _ _ IS _ _ _ _ (more _ _ _ _ _ _ E E1)) as (l1 & c & p & ty & io & l2 & post' & -> & Q & AR & NI).
    split; [intros s' I; apply (NI s'); rewrite app_assoc; apply in_or_app; auto|]. exists l1, c, p, ty, io, l2. split; [reflexivity|]. destruct post as [|y post]; cbn [app] in Q.
    - destruct X as [(-> & _)|(X & _)]; [discriminate Q|]. right. auto.
    - apply pair_cons in Q as [-> <-]. left. exists post. split; [reflexivity|]. eapply rest_prefix, AR.
  Qed.
  Lemma f_data_caused pre p d post : s_log st = pre ++ put (C_Data p d) :: post ->
    exists pre' err n, pre = pre' ++ [SE_Read err n d] /\ runs err pre' n p /\ d <> [] /\ len d <= 256 /\ at_rest post.
  Proof.
    intros E. known tn r st1 x OW IS E1 X. destruct (all_data_caused _ _ _ _ _ _ _ IS _ _ _ _ (more _ _ _ _ _ _ E E1)) as (pre' & err & n & Q1 & Q2 & Q3 & Q4 & AR).
    exists pre', err, n. split; [exact Q1|]. split; [exact Q2|]. split; [exact Q3|]. split; [exact Q4|]. eapply rest_prefix, AR.
  Qed.
  Lemma f_status_caused pre q post : s_log st = pre ++ put (C_Request q) :: post ->
    exists pre' n p s, pre = pre' ++ [SE_Exit n s] /\ C_Request q = exit_status p s /\ at_rest post /\ exists c ty io, In (SE_Spawn c p n ty (Ok io)) pre'.
  Proof.
    intros E. known tn r st1 x OW IS E1 X. destruct (all_status_caused _ _ _ _ _ _ _ IS _ _ _ (more _ _ _ _ _ _ E E1)) as (pre' & n & p & s & Q1 & Q2 & AR & Q3).
    exists pre', n, p, s. split; [exact Q1|]. split; [exact Q2|]. split; [eapply rest_prefix, AR|exact Q3].
  Qed.
  Lemma f_numbers l1 oc1 l2 oc2 l3 : s_log st = l1 ++ put (C_OpenConfirmation oc1) :: l2 ++ put (C_OpenConfirmation oc2) :: l3 ->
    oc_sender oc1 = oc_sender oc2 -> In (got (C_Close (oc_sender oc1))) l2.
  Proof.
    intros E. known tn r st1 x OW IS E1 X. apply (all_numbers _ _ _ _ _ _ _ IS l1 oc1 l2 oc2 (l3 ++ x)). rewrite E1, E, <- app_assoc. cbn [app]. rewrite <- app_assoc. reflexivity.
  Qed.
  Lemma f_because pre m post : s_log st = pre ++ SE_Sent m :: post ->
    exists tn es1 pre' v s t1 c t2, f_own i es = FE_Auth :: map FE_Turn tn /\ m = Msg_Channel c /\ pre = pre' ++ s :: t1 /\
      begins es1 (schedule tn) /\ all_beside es1 pre' v /\ because v s t1 c t2 /\
      ((exists post', post = t2 ++ post' /\ at_rest post') \/ (begins post t2 /\ gone)).
  Proof.
    intros E. known tn r st1 x OW IS E1 X. destruct (all_because _ _ _ _ _ _ _ IS _ _ _ (more _ _ _ _ _ _ E E1)) as (es1 & pre' & v & s & t1 & c & t2 & post' & Q1 & Q2 & Q & AR & Q3 & Q4 & Q5).
    exists tn, es1, pre', v, s, t1, c, t2. split; [exact OW|]. split; [exact Q1|]. split; [exact Q2|]. split; [exact Q3|]. split; [exact Q4|]. split; [exact Q5|].
    apply app_eq_app in Q as (l & [[-> ->]|[-> ->]]).
    - left. exists l. split; [reflexivity|]. eapply rest_prefix, AR.
    - destruct X as [(X & _)|(X & _)]; [|right; split; [exists l; reflexivity|exact X]].
      apply app_eq_nil in X as [-> ->]. left. exists []. rewrite !app_nil_r. split; [reflexivity|exact I].
  Qed.
  Lemma f_written : exists tn es1 ps o c', f_own i es = FE_Auth :: map FE_Turn tn /\ begins es1 (schedule tn) /\
    sout st = ntake (L i) (k_out (a_conn a) ++ o) /\ pieces C (k_wr (a_conn a)) ps o c' /\
    cut_ones ps = reply_cuts es1 /\ begins (map wire (s_sent (s_log st))) (whole_ones ps) /\
    (map wire (s_sent (s_log st)) = whole_ones ps \/ gone).
  Proof.
    known tn r st1 x OW IS E1 X. destruct (cut_written _ _ _ _ _ _ _ IS) as (es1 & es2 & ps & o & Q & _ & W & PC & WO & CO).
    exists tn, es1, ps, o, (k_wr (s_conn st1)). split; [exact OW|]. split; [exists es2; exact Q|]. rewrite <- W.
    assert (S : map wire (s_sent (s_log st1)) = map wire (s_sent (s_log st)) ++ map wire (s_sent x)).
    { rewrite E1. unfold s_sent. rewrite flat_map_app, map_app. reflexivity. }
    split.
    - destruct X as [(_ & LE & ->)|(_ & X & _)]; [|exact X]. unfold ntake. rewrite firstn_all2; [reflexivity|]. unfold len in LE. lia.
    - split; [exact PC|]. split; [exact CO|]. split; [exists (map wire (s_sent x)); congruence|].
      destruct X as [(-> & _)|(X & _)]; [left|right; exact X]. cbn [s_sent flat_map map] in S. rewrite app_nil_r in S. congruence.
  Qed.
End Client.

(** * A server without cancellation *)
Definition plain_event (e : SvEv) : FvEv := match e with SV_Accept s => FV_Accept s | SV_Auth i => FV_Auth i | SV_Client i e => FV_Client i (None, e) end.
Lemma fv_plain {U} H C (P : N -> Peer U) L es : forall ts, fv_run H C P L (map plain_event es) ts = sv_run_b H C P L es ts.
Proof.
  induction es as [|e es IH]; intros ts; cbn [map fv_run sv_run_b]; [reflexivity|].
  assert (E : fv_step H C P L (plain_event e) ts = sv_step_b H C P L e ts) by (destruct e; reflexivity).
  rewrite E. destruct (sv_step_b H C P L e ts) as [[t| |]|]; auto.
Qed.
