(** What survives cancellation. *)
From Coq Require Import Init.Byte Strings.Byte.
From Verif Require Export CancelThm6.
Open Scope res_scope.

Lemma like_refl a : like a a.
Proof. induction a; constructor; assumption. Qed.
Lemma like_app a b c d : like a b -> like c d -> like (a ++ c) (b ++ d).
Proof. intros A D. induction A; cbn [app]; try (constructor; assumption). exact D. Qed.
Lemma beside_like e x y : beside e x y -> like x y.
Proof.
  intros B. destruct B; try apply like_refl.
  - constructor; [assumption|constructor].
  - constructor. constructor; [reflexivity|]. constructor.
  - constructor. constructor; [reflexivity|]. constructor.
  - constructor. constructor. rewrite <- (app_nil_r (dropped old)) at 1. apply like_app; [apply like_refl|]. constructor; [reflexivity|constructor].
Qed.
Lemma all_beside_like es a b : all_beside es a b -> like a b.
Proof. intros A. induction A as [|es a b e x y A IH B]; [constructor|]. apply like_app; [exact IH|exact (beside_like _ _ _ B)]. Qed.

(** *** Positions *)
Lemma like_left x l1 l2 v : like (l1 ++ x :: l2) v -> match x with SE_Received _ => False | _ => True end ->
  exists v1 y v2, v = v1 ++ y :: v2 /\ like l1 v1 /\ like l2 v2 /\
    (y = x \/ exists c p n ty io, x = SE_Spawn c p n ty (Ok io) /\ y = SE_Spawn c p n ty (Ok (deaf io))).
Proof.
  intros L X. remember (l1 ++ x :: l2) as l eqn:E. revert l1 E. induction L as [|e a b L IH|m a b Hm L IH|c a b Hc L IH|c p n ty io a b L IH]; intros l1 E.
  - destruct l1; discriminate E.
  - destruct l1 as [|e1 l1]; cbn [app] in E; apply pair_cons in E as [<- ->].
    + exists [], e, b. split; [reflexivity|]. split; [constructor|]. auto.
    + destruct (IH l1 eq_refl) as (v1 & y & v2 & -> & A1 & A2 & A3). exists (e :: v1), y, v2. split; [reflexivity|]. split; [constructor; exact A1|]. auto.
  - destruct l1 as [|e1 l1]; cbn [app] in E; apply pair_cons in E as [<- ->]; [destruct X|].
    destruct (IH l1 eq_refl) as (v1 & y & v2 & -> & A1 & A2 & A3). exists v1, y, v2. split; [reflexivity|]. split; [constructor; assumption|]. auto.
  - destruct (IH l1 E) as (v1 & y & v2 & -> & A1 & A2 & A3). exists (put c :: v1), y, v2. split; [reflexivity|]. split; [constructor; assumption|]. auto.
  - destruct l1 as [|e1 l1]; cbn [app] in E; apply pair_cons in E as [<- ->].
    + exists [], (SE_Spawn c p n ty (Ok (deaf io))), b. split; [reflexivity|]. split; [constructor|]. split; [exact L|]. right. exists c, p, n, ty, io. auto.
    + destruct (IH l1 eq_refl) as (v1 & y & v2 & -> & A1 & A2 & A3). exists (SE_Spawn c p n ty (Ok (deaf io)) :: v1), y, v2. split; [reflexivity|]. split; [constructor; exact A1|]. auto.
Qed.
Lemma like_right y l v1 v2 : like l (v1 ++ y :: v2) -> match y with SE_Sent _ => False | _ => True end ->
  exists l1 x l2, l = l1 ++ x :: l2 /\ like l1 v1 /\ like l2 v2 /\
    (y = x \/ exists c p n ty io, x = SE_Spawn c p n ty (Ok io) /\ y = SE_Spawn c p n ty (Ok (deaf io))).
Proof.
  intros L X. remember (v1 ++ y :: v2) as v eqn:E. revert v1 E. induction L as [|e a b L IH|m a b Hm L IH|c a b Hc L IH|c p n ty io a b L IH]; intros v1 E.
  - destruct v1; discriminate E.
  - destruct v1 as [|e1 v1]; cbn [app] in E; apply pair_cons in E as [<- ->].
    + exists [], e, a. split; [reflexivity|]. split; [constructor|]. auto.
    + destruct (IH v1 eq_refl) as (l1 & x & l2 & -> & A1 & A2 & A3). exists (e :: l1), x, l2. split; [reflexivity|]. split; [constructor; exact A1|]. auto.
  - destruct (IH v1 E) as (l1 & x & l2 & -> & A1 & A2 & A3). exists (SE_Received m :: l1), x, l2. split; [reflexivity|]. split; [constructor; assumption|]. auto.
  - destruct v1 as [|e1 v1]; cbn [app] in E; apply pair_cons in E as [<- ->]; [destruct X|].
    destruct (IH v1 eq_refl) as (l1 & x & l2 & -> & A1 & A2 & A3). exists l1, x, l2. split; [reflexivity|]. split; [constructor; assumption|]. auto.
  - destruct v1 as [|e1 v1]; cbn [app] in E; apply pair_cons in E as [<- ->].
    + exists [], (SE_Spawn c p n ty (Ok io)), a. split; [reflexivity|]. split; [constructor|]. split; [exact L|]. right. exists c, p, n, ty, io. auto.
    + destruct (IH v1 eq_refl) as (l1 & x & l2 & -> & A1 & A2 & A3). exists (SE_Spawn c p n ty (Ok io) :: l1), x, l2. split; [reflexivity|]. split; [constructor; exact A1|]. auto.
Qed.
Definition plainly (e : SEvent) : Prop := match e with SE_Received _ | SE_Sent _ | SE_Spawn _ _ _ _ _ => False | _ => True end.
Lemma like_in x a b : like a b -> plainly x -> In x a <-> In x b.
Proof.
  intros L P. induction L; cbn [In]; try tauto.
  - split; [intros [<-|I]; [destruct P|tauto]|tauto].
  - split; [tauto|intros [<-|I]; [destruct P|tauto]].
  - split; (intros [<-|I]; [destruct P|tauto]).
Qed.
Lemma got_close_in i a b : like a b -> In (got (C_Close i)) b -> In (got (C_Close i)) a.
Proof.
  intros L. induction L as [|e a b L IH|m a b Hm L IH|c a b Hc L IH|c p n ty io a b L IH]; cbn [In]; try tauto.
  - intros [Q|I]; [discriminate Q|auto].
  - intros [Q|I]; [discriminate Q|auto].
Qed.

(** *** Segments *)
Lemma all_beside_app es1 a1 b1 es2 a2 b2 : all_beside es1 a1 b1 -> all_beside es2 a2 b2 -> all_beside (es1 ++ es2) (a1 ++ a2) (b1 ++ b2).
Proof. intros A D. induction D; rewrite ?app_nil_r; [exact A|]. rewrite !app_assoc. constructor; assumption. Qed.
Lemma beside_one e x y : beside e x y -> all_beside [e] x y.
Proof. intros B. exact (Ab_snoc [] [] [] e x y Ab_nil B). Qed.
Lemma app_split_at {A} (a b : list A) l1 x l2 : a ++ b = l1 ++ x :: l2 ->
  (exists r, a = l1 ++ x :: r /\ l2 = r ++ b) \/ (exists r, l1 = a ++ r /\ b = r ++ x :: l2).
Proof.
  revert l1. induction a as [|y a IH]; intros l1 E; cbn [app] in E.
  - right. exists l1. auto.
  - destruct l1 as [|z l1]; cbn [app] in E; apply pair_cons in E as [<- E].
    + left. exists a. auto.
    + destruct (IH _ E) as [(r & -> & ->)|(r & -> & ->)]; [left|right]; exists r; auto.
Qed.
Lemma segment es a b l1 x l2 : all_beside es a b -> a = l1 ++ x :: l2 ->
  exists es1 e es2 A1 s1 s2 t A2 B1 B2, es = es1 ++ e :: es2 /\ l1 = A1 ++ s1 /\ l2 = s2 ++ A2 /\ b = B1 ++ t ++ B2 /\
    all_beside es1 A1 B1 /\ beside e (s1 ++ x :: s2) t /\ all_beside es2 A2 B2.
Proof.
  intros A. revert l2. induction A as [|es a b e s t A IH B]; intros l2 E; [destruct l1; discriminate E|].
  destruct (app_split_at _ _ _ _ _ E) as [(r & E1 & ->)|(r & -> & E1)].
  - destruct (IH _ E1) as (es1 & e' & es2 & A1 & s1 & s2 & t' & A2 & B1 & B2 & -> & -> & -> & -> & X1 & X2 & X3).
    exists es1, e', (es2 ++ [e]), A1, s1, s2, t', (A2 ++ s), B1, (B2 ++ t). rewrite <- !app_assoc. cbn [app]. repeat (split; [reflexivity|]).
    split; [exact X1|]. split; [exact X2|]. constructor; assumption.
  - exists es, e, [], a, r, l2, t, [], b, []. rewrite !app_nil_r. repeat (split; [reflexivity|]). split; [exact A|]. split; [rewrite <- E1; exact B|constructor].
Qed.
Lemma beside_rest e x y : beside e x y -> at_rest x /\ at_rest y.
Proof.
  intros B. destruct B as [e t P NS| | | | |]; try (split; first [reflexivity|exact I]).
  - destruct e as [|err n d|n s]; cbn [prompts] in P; [destruct P as (m & t' & ->)|destruct P as (d' & t' & _ & ->)|destruct P as (t' & ->)]; split; reflexivity.
Qed.
Lemma rest_app a b : at_rest a -> at_rest b -> at_rest (a ++ b).
Proof. destruct a; cbn [app]; auto. Qed.
Lemma all_beside_rest es a b : all_beside es a b -> at_rest a /\ at_rest b.
Proof.
  intros A. induction A as [|es a b e x y A [IH1 IH2] B]; [split; exact I|]. destruct (beside_rest _ _ _ B). split; apply rest_app; assumption.
Qed.
(** Events of turns are where they are in the plain session. *)
Lemma in_turn e s1 x s2 t : beside e (s1 ++ x :: s2) t -> match x with SE_Read _ _ _ | SE_Exit _ _ | SE_Sent _ | SE_Stdin _ _ _ => True | _ => False end ->
  t = s1 ++ x :: s2 /\ exists e', e = X_Turn e' /\ prompts e' t /\ forall y, In y (tl t) -> stimulus y = false.
Proof.
  intros B X. remember (s1 ++ x :: s2) as s eqn:E. assert (I : In x s) by (rewrite E; apply in_elt).
  destruct B as [e t P NS|n|m H|n o i|n r p W|n r p i ty io old W].
  - subst t. split; [reflexivity|]. eauto.
  - destruct I.
  - destruct I as [<-|[]]. destruct X.
  - destruct I as [<-|[]]. destruct X.
  - destruct I as [<-|[]]. destruct X.
  - destruct I as [<-|[<-|I]]; [destruct X|destruct X|]. destruct old as [j|]; cbn [dropped In] in I; [destruct I as [<-|[]]; destruct X|destruct I].
Qed.
(** *** The end *)
Lemma cut_run_prefix C rng h : forall es st r st', cut_run C rng h es st = Some (r, st') -> r <> Ok false ->
  exists es1 e es2 st1, es = es1 ++ X_Turn e :: es2 /\ cut_run C rng h es1 st = Some (Ok false, st1) /\ session_step C rng h e st1 = Some (r, st').
Proof.
  induction es as [|x es IH]; intros st r st' H N; cbn [cut_run] in H.
  - apply Some_inj, pair_eq in H as [<- _]. destruct (N eq_refl).
  - destruct x as [e|c].
    + destruct (session_step C rng h e st) as [[r1 s]|] eqn:E; [|discriminate H].
      assert (D : r1 = Ok false \/ r1 <> Ok false) by (destruct r1 as [[|]|y|]; [right; discriminate|left; reflexivity|right; discriminate..]). destruct D as [->|D].
      * destruct (IH _ _ _ H N) as (es1 & e' & es2 & st1 & -> & H1 & H2). exists (X_Turn e :: es1), e', es2, st1. split; [reflexivity|]. split; [|exact H2].
        cbn [cut_run]. rewrite E. exact H1.
      * assert (Q : Some (r1, s) = Some (r, st')) by (destruct r1 as [[|]|y|]; [exact H|destruct (D eq_refl)|exact H..]).
        apply Some_inj, pair_eq in Q as [-> ->]. exists [], e, es, st. split; [reflexivity|]. split; [reflexivity|exact E].
    + destruct (elsewhere es) eqn:EL; [|discriminate H]. destruct (cut_step C rng h c st) as [s|] eqn:E; [|discriminate H].
      destruct (IH _ _ _ H N) as (es1 & e' & es2 & st1 & -> & H1 & H2). exists (X_Cut c :: es1), e', es2, st1. split; [reflexivity|]. split; [|exact H2].
      cbn [cut_run]. assert (EL1 : elsewhere es1 = true) by (destruct es1 as [|y es1]; [reflexivity|exact EL]). rewrite EL1, E. exact H1.
Qed.
Lemma crash_words h pre t : crash h pre t -> last_words t.
Proof.
  intros X. right. destruct X; eexists; eexists; (split; [reflexivity|]); auto.
  - right. left. do 5 eexists. split; [reflexivity|assumption].
  - right. right. do 3 eexists. split; [reflexivity|assumption].
Qed.
Lemma cut_end C rng h k es r st : is_cut_session C rng h k es r st -> r <> Ok false ->
  exists es1 e es2 st1 tail, es = es1 ++ X_Turn e :: es2 /\ is_cut_session C rng h k es1 (Ok false) st1 /\ session_step C rng h e st1 = Some (r, st) /\
    s_log st = s_log st1 ++ tail /\ last_words tail.
Proof.
  intros (K & R & L1 & L2 & H) N. destruct (cut_run_prefix _ _ _ _ _ _ _ H N) as (es1 & e & es2 & st1 & -> & H1 & H2).
  destruct (shadow_run C rng K R h k es1 [] _ _ (shadow_init k L1 L2) H1) as (ts & raws & I & _). cbv zeta in I.
  destruct (step_follows C rng h (s_log st1) (concat ts) e st1 _ _ eq_refl H2) as (t & L & H3).
  exists es1, e, es2, st1, t. split; [reflexivity|]. split; [split; [exact K|]; split; [exact R|]; auto|]. split; [exact H2|]. split; [exact L|].
  apply (session_step_result C rng _ K R _ _ _ I) in H3. unfold step_result in H3.
  assert (X : outcome_from C (misled (past (s_log st1) (concat ts)) (fun x => x) h) (relog (concat ts) st1) [e] r (relog (concat ts ++ t) st)).
  { destruct r as [[|]|y|]; [apply H3|destruct (N eq_refl)|apply H3..]. }
  destruct X as (ts' & tail & pls & rest & E & _ & _ & _ & _ & X). cbv zeta in X. cbn [relog s_log] in E. apply app_inv_head in E.
  assert (Y : forall P, (exists es1 e0 es2, [e] = es1 ++ e0 :: es2 /\ Forall2 prompts es1 ts' /\ P e0) -> ts' = [] /\ P e).
  { intros P (l1 & e0 & l2 & Q & F & HP). destruct l1 as [|y l1]; [|destruct l1; discriminate Q]. cbn [app] in Q. injection Q as <- _. split; [|exact HP].
    remember [] as l eqn:Ql. destruct F; [reflexivity|discriminate Ql]. }
  destruct r as [[|]|y|].
  - apply Y in X as (-> & _ & d & ->). cbn [concat app] in E. subst t. right. exists (Msg_Disconnect d), []. auto.
  - destruct (N eq_refl).
  - apply Y in X as (-> & _ & -> & _). cbn [concat app] in E. left. exact E.
  - apply Y in X as (-> & [(_ & -> & _)|[(_ & X)|(-> & _)]]); cbn [concat app] in E; subst t; [left; reflexivity|exact (crash_words _ _ _ X)|left; reflexivity].
Qed.
