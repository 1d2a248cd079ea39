(** Consequences of the story of the session phase: events and their causes. *)
From Coq Require Import Init.Byte Strings.Byte.
From Verif Require Export SessionThm2.
Open Scope res_scope.

(** ** What the log says about channels and children *)
Lemma snoc_ind {A} (P : list A -> Prop) : P [] -> (forall l x, P l -> P (l ++ [x])) -> forall l, P l.
Proof. intros H1 H2 l. induction l using rev_ind; auto. Qed.
Lemma in_snoc {A} (x y : A) l : In x (l ++ [y]) <-> In x l \/ x = y.
Proof. rewrite in_app_iff. cbn [In]. intuition. Qed.

Lemma chan_opened c p o : forall log, chan_after log c = Some (p, o) ->
  exists l1 oc l2, log = l1 ++ put (C_OpenConfirmation oc) :: l2 /\ oc_sender oc = c /\ oc_recipient oc = p /\
    ~ In (got (C_Close c)) l2 /\ forall oc', oc_sender oc' = c -> ~ In (put (C_OpenConfirmation oc')) l2.
Proof.
  intros log. revert o. induction log as [|log e IH] using snoc_ind; intros o H; [discriminate H|].
  rewrite chan_after_app in H. cbn [fold_left] in H.
  assert (K : (exists o', chan_after log c = Some (p, o')) -> e <> got (C_Close c) ->
              (forall oc, oc_sender oc = c -> e <> put (C_OpenConfirmation oc)) ->
    exists l1 oc l2, log ++ [e] = l1 ++ put (C_OpenConfirmation oc) :: l2 /\ oc_sender oc = c /\ oc_recipient oc = p /\
      ~ In (got (C_Close c)) l2 /\ forall oc', oc_sender oc' = c -> ~ In (put (C_OpenConfirmation oc')) l2).
  { intros [o' E] N1 N2. destruct (IH o' E) as (l1 & oc & l2 & -> & A1 & A2 & A3 & A4). exists l1, oc, (l2 ++ [e]).
    rewrite <- app_assoc. split; [reflexivity|]. split; [exact A1|]. split; [exact A2|]. split.
    - rewrite in_snoc. intuition.
    - intros oc' E'. rewrite in_snoc. intros [I|I]; [eapply A4; eassumption|]. eapply N2; [exact E'|congruence]. }
  destruct e as [m|m|i p0 n ty io| | | | ]; cbn [chan_step] in H; try (apply K; [solve [eauto]|discriminate|discriminate]).
  - destruct m as [ | | | | | | | | | | |ch]; try (apply K; [solve [eauto]|discriminate|discriminate]).
    destruct ch; try (apply K; [solve [eauto]|discriminate|discriminate]).
    + apply K; [|discriminate|discriminate]. destruct (_ =? c); [|eauto].
      destruct (chan_after log c) as [[p1 o1]|]; [|discriminate H]. cbn in H. injection H as <- _. eauto.
    + destruct (N.eqb_spec recipient c) as [->|D]; [discriminate H|]. apply K; [eauto| |discriminate]. unfold got. congruence.
  - destruct m as [ | | | | | | | | | | |ch]; try (apply K; [solve [eauto]|discriminate|discriminate]).
    destruct ch as [ |oc| | | | | | | | | ]; try (apply K; [solve [eauto]|discriminate|discriminate]).
    destruct (N.eqb_spec (oc_sender oc) c) as [D|D].
    + injection H as <- _. exists log, oc, []. split; [reflexivity|]. split; [exact D|]. split; [reflexivity|]. split; intros; intros [].
    + apply K; [eauto|discriminate|]. intros oc' E'. unfold put. congruence.
  - apply K; [|discriminate|discriminate]. destruct io as [io| |]; [|eauto..]. destruct (i =? c); [|eauto].
    destruct (chan_after log c) as [[p1 o1]|]; [|discriminate H]. cbn in H. injection H as <- _. eauto.
Qed.

Lemma chan_child c p n : forall log, chan_after log c = Some (p, Some n) ->
  exists l1 p' ty io l2, log = l1 ++ SE_Spawn c p' n ty (Ok io) :: l2 /\ io_stdin io = true /\
    ~ In (got (C_Close c)) l2 /\ ~ In (got (C_Eof c)) l2 /\
    (forall oc, oc_sender oc = c -> ~ In (put (C_OpenConfirmation oc)) l2) /\
    (forall p' n' ty' io', ~ In (SE_Spawn c p' n' ty' (Ok io')) l2).
Proof.
  intros log. induction log as [|log e IH] using snoc_ind; intros H; [discriminate H|].
  rewrite chan_after_app in H. cbn [fold_left] in H.
  assert (K : chan_after log c = Some (p, Some n) -> e <> got (C_Close c) -> e <> got (C_Eof c) ->
              (forall oc, oc_sender oc = c -> e <> put (C_OpenConfirmation oc)) ->
              (forall p' n' ty' io', e <> SE_Spawn c p' n' ty' (Ok io')) ->
    exists l1 p' ty io l2, log ++ [e] = l1 ++ SE_Spawn c p' n ty (Ok io) :: l2 /\ io_stdin io = true /\
      ~ In (got (C_Close c)) l2 /\ ~ In (got (C_Eof c)) l2 /\
      (forall oc, oc_sender oc = c -> ~ In (put (C_OpenConfirmation oc)) l2) /\
      (forall p' n' ty' io', ~ In (SE_Spawn c p' n' ty' (Ok io')) l2)).
  { intros E N1 N2 N3 N4. destruct (IH E) as (l1 & p' & ty & io & l2 & -> & A1 & A2 & A3 & A4 & A5). exists l1, p', ty, io, (l2 ++ [e]).
    rewrite <- app_assoc. split; [reflexivity|]. split; [exact A1|].
    split; [rewrite in_snoc; intuition|]. split; [rewrite in_snoc; intuition|]. split.
    - intros oc E'. rewrite in_snoc. intros [I|I]; [eapply A4; eassumption|]. eapply N3; [exact E'|congruence].
    - intros p0 n0 ty0 io0. rewrite in_snoc. intros [I|I]; [eapply A5; eassumption|]. eapply N4. symmetry. exact I. }
  destruct e as [m|m|i p0 n0 ty io| | | | ]; cbn [chan_step] in H; try (apply K; [exact H|discriminate..]).
  - destruct m as [ | | | | | | | | | | |ch]; try (apply K; [exact H|discriminate..]).
    destruct ch; try (apply K; [exact H|discriminate..]).
    + destruct (N.eqb_spec recipient c) as [->|D].
      * destruct (chan_after log c) as [[p1 o1]|]; [|discriminate H]. cbn in H. discriminate H.
      * apply K; [exact H| | | |]; try discriminate. unfold got. congruence.
    + destruct (N.eqb_spec recipient c) as [->|D]; [discriminate H|]. apply K; [exact H| | | |]; try discriminate. unfold got. congruence.
  - destruct m as [ | | | | | | | | | | |ch]; try (apply K; [exact H|discriminate..]).
    destruct ch as [ |oc| | | | | | | | | ]; try (apply K; [exact H|discriminate..]).
    destruct (N.eqb_spec (oc_sender oc) c) as [D|D]; [discriminate H|].
    apply K; [exact H|discriminate|discriminate| |discriminate]. intros oc' E'. unfold put. congruence.
  - destruct io as [io| |]; try (apply K; [exact H|discriminate..]).
    destruct (N.eqb_spec i c) as [->|D].
    + destruct (chan_after log c) as [[p1 o1]|]; [|discriminate H]. cbn in H.
      destruct (io_stdin io) eqn:Q; [|discriminate H]. injection H as _ <-.
      exists log, p0, ty, io, []. split; [reflexivity|]. split; [exact Q|]. repeat split; intros; intros [].
    + apply K; [exact H|discriminate|discriminate|discriminate|]. congruence.
Qed.

Lemma stream_child err n p : forall log, stream_after err log n = Some p ->
  exists l1 c ty io l2, log = l1 ++ SE_Spawn c p n ty (Ok io) :: l2 /\ has err io = true /\ ~ In (SE_Read err n []) l2.
Proof.
  intros log. induction log as [|log e IH] using snoc_ind; intros H; [discriminate H|].
  rewrite stream_after_app in H. cbn [fold_left] in H.
  assert (K : stream_after err log n = Some p -> e <> SE_Read err n [] ->
    exists l1 c ty io l2, log ++ [e] = l1 ++ SE_Spawn c p n ty (Ok io) :: l2 /\ has err io = true /\ ~ In (SE_Read err n []) l2).
  { intros E N1. destruct (IH E) as (l1 & c & ty & io & l2 & -> & A1 & A2). exists l1, c, ty, io, (l2 ++ [e]).
    rewrite <- app_assoc. split; [reflexivity|]. split; [exact A1|]. rewrite in_snoc. intuition. }
  destruct e as [m|m|i p0 n0 ty io| | |err0 n0 d| ]; cbn [stream_step] in H; try (apply K; [exact H|discriminate]).
  - destruct io as [io| |]; try (apply K; [exact H|discriminate]).
    destruct (N.eqb_spec n0 n) as [->|D]; cbn [andb] in H; [|apply K; [exact H|discriminate]].
    destruct (has err io) eqn:Q; [|apply K; [exact H|discriminate]]. injection H as <-.
    exists log, i, ty, io, []. split; [reflexivity|]. split; [exact Q|intros []].
  - destruct d as [|b d]; [|apply K; [exact H|congruence]].
    destruct (eqb err0 err) eqn:Q; cbn [andb] in H.
    + destruct (N.eqb_spec n0 n) as [->|D]; [discriminate H|]. apply K; [exact H|congruence].
    + apply K; [exact H|]. apply eqb_false_iff in Q. congruence.
Qed.
Lemma wait_child n p : forall log, wait_after log n = Some p ->
  exists l1 c ty io l2, log = l1 ++ SE_Spawn c p n ty (Ok io) :: l2 /\ (has false io || has true io) = true /\ forall s, ~ In (SE_Exit n s) l2.
Proof.
  intros log. induction log as [|log e IH] using snoc_ind; intros H; [discriminate H|].
  rewrite wait_after_app in H. cbn [fold_left] in H.
  assert (K : wait_after log n = Some p -> (forall s, e <> SE_Exit n s) ->
    exists l1 c ty io l2, log ++ [e] = l1 ++ SE_Spawn c p n ty (Ok io) :: l2 /\ (has false io || has true io) = true /\ forall s, ~ In (SE_Exit n s) l2).
  { intros E N1. destruct (IH E) as (l1 & c & ty & io & l2 & -> & A1 & A2). exists l1, c, ty, io, (l2 ++ [e]).
    rewrite <- app_assoc. split; [reflexivity|]. split; [exact A1|]. intros s. rewrite in_snoc. intros [I|I]; [eapply A2, I|]. eapply N1. symmetry. exact I. }
  destruct e as [m|m|i p0 n0 ty io| | | |n0 s]; cbn [wait_step] in H; try (apply K; [exact H|discriminate]).
  - destruct io as [io| |]; try (apply K; [exact H|discriminate]).
    destruct (N.eqb_spec n0 n) as [->|D]; cbn [andb] in H; [|apply K; [exact H|discriminate]].
    destruct (has false io || has true io) eqn:Q; [|apply K; [exact H|discriminate]]. injection H as <-.
    exists log, i, ty, io, []. split; [reflexivity|]. split; [exact Q|intros s []].
  - destruct (N.eqb_spec n0 n) as [->|D]; [discriminate H|]. apply K; [exact H|congruence].
Qed.

Lemma pair_cons {A} (x y : A) l m : x :: l = y :: m -> x = y /\ l = m.
Proof. intros E. split; [apply (f_equal (hd x)) in E; exact E|apply (f_equal (@tl A)) in E; exact E]. Qed.

(** ** Events and their causes *)
Section Causes.
  Context (h : SHandlers).


  Lemma drop_want old r c (t1 t2 : list SEvent) e : dropped old ++ wanted r c = t1 ++ e :: t2 ->
    (exists n, old = Some n /\ e = SE_Dropped n /\ t1 = [] /\ t2 = wanted r c) \/
    (rq_want_reply r = true /\ e = put c /\ t1 = dropped old /\ t2 = []).
  Proof.
    unfold dropped, wanted. destruct old as [n|], (rq_want_reply r); cbn [app]; intros E;
      destruct t1 as [|x1 [|x2 [|]]]; cbn [app] in E; try discriminate E; injection E; intros; subst; try discriminate; eauto 10.
  Qed.
  Lemma turn_spawn pre s t1 c p n ty x t2 : turn h pre (s :: t1 ++ SE_Spawn c p n ty x :: t2) ->
    exists r q old io, s = got (C_Request r) /\ t1 = [] /\ c = rq_recipient r /\ n = spawns pre /\ x = Ok io /\
      chan_after pre c = Some (p, old) /\ session_request r q /\ starts q = Some ty /\
      h_spawn h (pre ++ [got (C_Request r)]) ty = Ok io /\ t2 = dropped old ++ wanted r (C_Success p).
  Proof.
    intros T. remember (s :: t1 ++ SE_Spawn c p n ty x :: t2) as t eqn:E.
    destruct T as [o i H1 H2|r q ty0 p0 old io H1 H2 H3 H4|r q p0 old H1 H2 H3|c0 d p0 n0 k H1 H2|c0 p0 old H1|c0|d|err n0 p0 d H1 H2|n0 p0 H1|n0 p0 H1|n0 p0 st H1 H2].
    all: try (exfalso; destruct t1 as [|y1 [|y2 [|]]]; cbn [app] in E; (discriminate E || (injection E; intros; discriminate))).
    - cbn [app] in E. injection E as Es E. destruct t1 as [|y t1]; cbn [app] in E.
      + injection E as E1 E2 E3 E4 E5 E6. subst. exists r, q, old, io. repeat split; auto; apply H2.
      + injection E as _ E. apply drop_want in E as [(? & _ & E & _)|(_ & E & _)]; discriminate E.
    - exfalso. unfold wanted in E. destruct (rq_want_reply r); destruct t1 as [|y1 [|y2 [|]]]; cbn [app] in E; (discriminate E || (injection E; intros; discriminate)).
    - exfalso. destruct old; destruct t1 as [|y1 [|y2 [|]]]; cbn [app dropped] in E; (discriminate E || (injection E; intros; discriminate)).
    - exfalso. destruct (match chan_after pre c0 with Some (_, old) => old | None => None end); destruct t1 as [|y1 [|y2 [|]]]; cbn [app dropped] in E; (discriminate E || (injection E; intros; discriminate)).
  Qed.
  Ltac tcases T := destruct T as [o i H1 H2|r q ty0 p0 old io H1 H2 H3 H4|r q p0 old H1 H2 H3|c0 d0 p0 n0 k H1 H2|c0 p0 old H1|c0|d0|err n0 p0 d0 H1 H2|n0 p0 H1|n0 p0 H1|n0 p0 st H1 H2].
  Ltac bye E := exfalso; (discriminate E || (injection E; intros; discriminate)).
  Ltac old_of c0 := let o := fresh "old" in set (o := match chan_after _ c0 with Some (_, old) => old | None => None end) in *; clearbody o.

  Lemma turn_stdin pre s t1 n d x t2 : turn h pre (s :: t1 ++ SE_Stdin n d x :: t2) ->
    exists c p k, s = got (C_Data c d) /\ t1 = [] /\ t2 = [] /\ x = Ok k /\ chan_after pre c = Some (p, Some n) /\
      h_write h (pre ++ [got (C_Data c d)]) n d = Ok k.
  Proof.
    intros T. remember (s :: t1 ++ SE_Stdin n d x :: t2) as t eqn:E. tcases T.
    all: try (destruct t1 as [|y1 [|y2 [|]]]; cbn [app] in E; bye E).
    - cbn [app] in E. injection E as Es E. destruct t1 as [|y t1]; cbn [app] in E; [discriminate E|].
      injection E as _ E. apply drop_want in E as [(? & _ & E & _)|(_ & E & _)]; discriminate E.
    - unfold wanted in E. destruct (rq_want_reply r); destruct t1 as [|y1 [|y2 [|]]]; cbn [app] in E; bye E.
    - destruct t1 as [|y1 [|y2 [|]]]; cbn [app] in E; try (bye E). injection E as <- <- <- <- <-. eauto 10.
    - destruct old; destruct t1 as [|y1 [|y2 [|]]]; cbn [app dropped] in E; bye E.
    - destruct (match chan_after pre c0 with Some (_, old) => old | None => None end); destruct t1 as [|y1 [|y2 [|]]]; cbn [app dropped] in E; bye E.
  Qed.
  Lemma turn_sent pre s t1 m t2 : turn h pre (s :: t1 ++ SE_Sent m :: t2) ->
    exists c, m = Msg_Channel c /\ because pre s t1 c t2.
  Proof.
    intros T. remember (s :: t1 ++ SE_Sent m :: t2) as t eqn:E. tcases T.
    - destruct t1 as [|y1 [|y2 [|]]]; cbn [app] in E; try (bye E). injection E as <- <- <-. eexists. split; [reflexivity|]. constructor; assumption.
    - cbn [app] in E. injection E as <- E. destruct t1 as [|y t1]; cbn [app] in E; [discriminate E|].
      injection E as <- E. apply drop_want in E as [(? & _ & E & _)|(W & E & -> & ->)]; [discriminate E|].
      injection E as ->. eexists. split; [reflexivity|]. eapply B_Success; eassumption.
    - unfold wanted in E. destruct (rq_want_reply r) eqn:W; destruct t1 as [|y1 [|y2 [|]]]; cbn [app] in E; try (bye E).
      injection E as <- <- <-. eexists. split; [reflexivity|]. eapply B_Failure; eassumption.
    - destruct t1 as [|y1 [|y2 [|]]]; cbn [app] in E; bye E.
    - destruct old; destruct t1 as [|y1 [|y2 [|]]]; cbn [app dropped] in E; bye E.
    - destruct (match chan_after pre c0 with Some (_, old) => old | None => None end); destruct t1 as [|y1 [|y2 [|]]]; cbn [app dropped] in E; bye E.
    - destruct t1 as [|y1 [|y2 [|]]]; cbn [app] in E; bye E.
    - destruct t1 as [|y1 [|y2 [|]]]; cbn [app] in E; try (bye E). injection E as <- <- <-. eexists. split; [reflexivity|]. constructor; assumption.
    - destruct t1 as [|y1 [|y2 [|]]]; cbn [app] in E; try (bye E).
      + injection E as <- <- <-. eexists. split; [reflexivity|]. constructor; assumption.
      + injection E as <- <- <- <-. eexists. split; [reflexivity|]. constructor; assumption.
    - destruct t1 as [|y1 [|y2 [|]]]; cbn [app] in E; bye E.
    - destruct t1 as [|y1 [|y2 [|]]]; cbn [app] in E; try (bye E). apply pair_cons in E as [<- E]. apply pair_cons in E as [E <-].
      unfold put in E. apply (f_equal (fun e => match e with SE_Sent m => m | _ => m end)) in E. subst m.
      eexists. split; [reflexivity|]. constructor; assumption.
  Qed.
  Lemma crash_sent pre s t1 m t2 : ~ crash h pre (s :: t1 ++ SE_Sent m :: t2).
  Proof.
    intros T. remember (s :: t1 ++ SE_Sent m :: t2) as t eqn:E. destruct T; destruct t1 as [|y1 [|y2 [|]]]; cbn [app] in E; bye E.
  Qed.
  Lemma crash_stdin pre s t1 n d x t2 : crash h pre (s :: t1 ++ SE_Stdin n d x :: t2) ->
    exists c p, s = got (C_Data c d) /\ t1 = [] /\ t2 = [] /\ chan_after pre c = Some (p, Some n) /\
      h_write h (pre ++ [got (C_Data c d)]) n d = x.
  Proof.
    intros T. remember (s :: t1 ++ SE_Stdin n d x :: t2) as t eqn:E.
    destruct T as [o i H1 H2|m H|m c H1 H2|r H1 H2|r q ty p old x0 H1 H2 H3 H4 H5|c d0 p H1|c d0 p n0 x0 H1 H2 H3];
      destruct t1 as [|y1 [|y2 [|]]]; cbn [app] in E; try (bye E).
    injection E as <- <- <- <- <-. exists c, p. auto.
  Qed.
  Lemma crash_spawn pre s t1 c p n ty x t2 : crash h pre (s :: t1 ++ SE_Spawn c p n ty x :: t2) ->
    exists r q old, s = got (C_Request r) /\ t1 = [] /\ t2 = [] /\ c = rq_recipient r /\ n = spawns pre /\ (forall io, x <> Ok io) /\
      chan_after pre c = Some (p, old) /\ session_request r q /\ starts q = Some ty /\ h_spawn h (pre ++ [got (C_Request r)]) ty = x.
  Proof.
    intros T. remember (s :: t1 ++ SE_Spawn c p n ty x :: t2) as t eqn:E.
    destruct T as [o i H1 H2|m H|m c0 H1 H2|r H1 H2|r q ty0 p0 old x0 H1 H2 H3 H4 H5|c0 d0 p0 H1|c0 d0 p0 n0 x0 H1 H2 H3];
      destruct t1 as [|y1 [|y2 [|]]]; cbn [app] in E; try (bye E).
    injection E as E1 E2 E3 E4 E5 E6 E7. subst s c p n ty x t2. exists r, q, old. repeat split; auto; apply H2.
  Qed.

  (** ** In a log *)
  Context (r : res InError bool) (log : list SEvent) (T : told h r log).
  Lemma sent_because pre m post : log = pre ++ SE_Sent m :: post ->
    exists pre' s t1 c t2 post', m = Msg_Channel c /\ pre = pre' ++ s :: t1 /\ post = t2 ++ post' /\ because pre' s t1 c t2 /\ at_rest post'.
  Proof.
    intros E. destruct (resp_split h r log pre _ post T E eq_refl) as (pre' & s & t1 & t2 & post' & -> & -> & S & [[X AR]|(_ & _ & X)]).
    - apply turn_sent in X as (c & -> & B). exists pre', s, t1, c, t2, post'. auto.
    - destruct (crash_sent _ _ _ _ _ X).
  Qed.
  Lemma spawn_cause pre c p n ty x post : log = pre ++ SE_Spawn c p n ty x :: post ->
    exists pre' r0 q old post', pre = pre' ++ [got (C_Request r0)] /\ c = rq_recipient r0 /\ n = spawns pre' /\
      chan_after pre' c = Some (p, old) /\ session_request r0 q /\ starts q = Some ty /\ h_spawn h pre ty = x /\
      (post = dropped old ++ wanted r0 (C_Success p) ++ post' /\ at_rest post' /\ (exists io, x = Ok io) \/ r = Panic /\ post = [] /\ forall io, x <> Ok io).
  Proof.
    intros E. destruct (resp_split h r log pre _ post T E eq_refl) as (pre' & s & t1 & t2 & post' & -> & -> & S & [[X AR]|(R & -> & X)]).
    - apply turn_spawn in X as (r0 & q & old & io & -> & -> & -> & -> & -> & H1 & H2 & H3 & H4 & ->).
      exists pre', r0, q, old, post'. rewrite <- app_assoc. repeat (split; [auto; fail|]).
      left. eauto.
    - apply crash_spawn in X as (r0 & q & old & -> & -> & -> & -> & -> & NI & H1 & H2 & H3 & H4).
      exists pre', r0, q, old, []. repeat (split; [auto; fail|]). right. auto.
  Qed.
  Lemma stdin_cause pre n d x post : log = pre ++ SE_Stdin n d x :: post ->
    exists pre' c p, pre = pre' ++ [got (C_Data c d)] /\ chan_after pre' c = Some (p, Some n) /\ h_write h pre n d = x /\
      (at_rest post /\ (exists k, x = Ok k) \/ r = Panic /\ post = []).
  Proof.
    intros E. destruct (resp_split h r log pre _ post T E eq_refl) as (pre' & s & t1 & t2 & post' & -> & -> & S & [[X AR]|(R & -> & X)]).
    - apply turn_stdin in X as (c & p & k & -> & -> & -> & -> & H1 & H2). exists pre', c, p. repeat (split; [auto; fail|]). left. eauto.
    - apply crash_stdin in X as (c & p & -> & -> & -> & H1 & H2). exists pre', c, p. repeat (split; [auto; fail|]). right. auto.
  Qed.
  (** Children are numbered. *)
  Lemma spawn_number pre c p n ty x post : log = pre ++ SE_Spawn c p n ty x :: post -> n = spawns pre.
  Proof.
    intros E. apply spawn_cause in E as (pre' & r0 & q & old & post' & -> & _ & -> & _). rewrite spawns_app. cbn. lia.
  Qed.
End Causes.
