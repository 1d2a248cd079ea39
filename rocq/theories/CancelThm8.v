(** What survives cancellation: consequences. *)
From Coq Require Import Init.Byte Strings.Byte.
From Verif Require Export CancelThm7.
Open Scope res_scope.

Lemma runs_beside err a b n p : like a b -> runs err b n p -> runs err a n p.
Proof.
  intros L (v1 & c & ty & io & v2 & -> & H & N).
  destruct (like_right _ _ _ _ L I) as (l1 & x & l2 & -> & _ & L2 & X). assert (N2 : ~ In (SE_Read err n []) l2) by (intros Q; apply N; exact (proj1 (like_in (SE_Read err n []) _ _ L2 I) Q)).
  destruct X as [<-|(c' & p' & n' & ty' & io' & -> & Q)].
  - exists l1, c, ty, io, l2. auto.
  - injection Q as -> -> -> -> ->. destruct err; discriminate H.
Qed.
Lemma like_data_sent p a b : like a b -> data_sent p a = data_sent p b.
Proof.
  intros L. induction L as [|e a b L IH|m a b Hm L IH|c a b Hc L IH|c p' n ty io a b L IH]; try exact IH.
  - reflexivity.
  - unfold data_sent in *. cbn [flat_map]. rewrite IH. reflexivity.
  - destruct c; try discriminate Hc; exact IH.
Qed.
Lemma like_peer n a b : like a b -> peer_of n a = peer_of n b.
Proof.
  intros L. induction L as [|e a b L IH|m a b Hm L IH|c a b Hc L IH|c p' n' ty io a b L IH]; try exact IH.
  - reflexivity.
  - destruct e; cbn [peer_of]; rewrite IH; reflexivity.
  - cbn [peer_of]. rewrite IH. reflexivity.
Qed.
Lemma like_data_read p all all' a b : (forall n, peer_of n all = peer_of n all') -> like a b -> data_read all p a = data_read all' p b.
Proof.
  intros P L. induction L as [|e a b L IH|m a b Hm L IH|c a b Hc L IH|c p' n' ty io a b L IH]; try exact IH.
  - reflexivity.
  - unfold data_read in *. cbn [flat_map]. rewrite IH. f_equal. destruct e; try reflexivity. rewrite P. reflexivity.
Qed.
Lemma like_stdin n a b : like a b -> stdin_data n a = stdin_data n b.
Proof.
  intros L. induction L as [|e a b L IH|m a b Hm L IH|c a b Hc L IH|c p' n' ty io a b L IH]; try exact IH.
  - reflexivity.
  - unfold stdin_data in *. cbn [flat_map]. rewrite IH. reflexivity.
Qed.
Lemma some_of_refl {A} (l : list A) : some_of l l.
Proof. induction l; constructor; assumption. Qed.
Lemma some_of_nil {A} (l : list A) : some_of [] l.
Proof. induction l; constructor; assumption. Qed.
Lemma like_until c a b : like a b -> some_of (data_until c b) (data_until c a).
Proof.
  intros L. induction L as [|e a b L IH|m a b Hm L IH|x a b Hc L IH|x p' n' ty io a b L IH].
  - constructor.
  - destruct e as [m| | | | | |]; cbn [data_until]; try exact IH; [destruct m as [| | | | | | | | | | |x]; try exact IH; destruct x; try exact IH|];
      match goal with |- context [if ?t then _ else _] => destruct t end; try exact IH; constructor; exact IH.
  - destruct Hm as (x & -> & [(r & ->)|(i & d & ->)]); cbn [data_until]; [exact IH|]. destruct (i =? c); [constructor|]; exact IH.
  - exact IH.
  - cbn [data_until]. destruct (x =? c); [constructor|exact IH].
Qed.
Lemma like_got c a b : like a b -> ~ handled (Msg_Channel c) -> In (got c) a <-> In (got c) b.
Proof.
  intros L N. induction L as [|e a b L IH|m a b Hm L IH|x a b Hc L IH|x p' n' ty io a b L IH]; cbn [In]; try tauto.
  - split; [intros [Q|I]; [injection Q as ->; tauto|tauto]|tauto].
  - split; [tauto|intros [Q|I]; [discriminate Q|tauto]].
  - split; (intros [Q|I]; [discriminate Q|tauto]).
Qed.
Lemma like_spawn c a b : like a b -> (exists p n ty io, In (SE_Spawn c p n ty (Ok io)) a) -> exists p n ty io, In (SE_Spawn c p n ty (Ok io)) b.
Proof.
  intros L (p & n & ty & io & I). apply in_split in I as (l1 & l2 & ->). destruct (like_left _ _ _ _ L Logic.I) as (v1 & y & v2 & -> & _ & _ & [->|(c' & p' & n' & ty' & io' & Q & ->)]).
  - exists p, n, ty, io. apply in_elt.
  - injection Q as <- <- <- <- <-. exists p, n, ty, (deaf io). apply in_elt.
Qed.

Lemma words_rest t : last_words t -> at_rest t.
Proof. intros [->|(m & t' & -> & _)]; [exact I|reflexivity]. Qed.
Lemma words_not t x : last_words t -> match x with SE_Read _ _ _ | SE_Exit _ _ | SE_Sent _ => True | _ => False end -> ~ In x t.
Proof.
  intros [->|(m & t' & -> & W)] X; [intros []|]. intros [<-|I]; [destruct X|].
  destruct W as [->|[(c & p & n & ty & y & -> & _)|(n & d & y & -> & _)]]; [destruct I|destruct I as [<-|[]]; destruct X..].
Qed.

Lemma rest_unique (a b c d : list SEvent) : at_rest b -> at_rest d -> Forall (fun e => stimulus e = false) c -> Forall (fun e => stimulus e = false) a ->
  a ++ b = c ++ d -> a = c /\ b = d.
Proof.
  intros Rb Rd Fc. revert a. induction Fc as [|x c Sx Fc IH]; intros a Fa E; cbn [app] in E.
  - destruct Fa as [|y a Sy Fa]; [auto|]. cbn [app] in E. subst d. cbn [at_rest] in Rd. congruence.
  - destruct Fa as [|y a Sy Fa]; cbn [app] in E.
    + subst b. cbn [at_rest] in Rb. congruence.
    + apply pair_cons in E as [-> E]. destruct (IH _ Fa E) as [-> ->]. auto.
Qed.
Lemma in_dec_close c l : In (got (C_Close c)) l \/ ~ In (got (C_Close c)) l.
Proof.
  induction l as [|e l [IH|IH]]; [right; intros []|left; right; exact IH|].
  assert (D : e = got (C_Close c) \/ e <> got (C_Close c)).
  { destruct e as [m| | | | | |]; try (right; discriminate). destruct m as [| | | | | | | | | | |x]; try (right; discriminate). destruct x as [| | | | | | |i| | |]; try (right; discriminate).
    destruct (N.eqb_spec i c) as [->|D]; [left; reflexivity|right; unfold got; congruence]. }
  destruct D as [->|D]; [left; left; reflexivity|right; intros [Q|J]; auto].
Qed.

(** A session with cancellation, [log], and what it is beside, [v]. *)
Section Survives.
  Context (C : Crypto) (rng : N -> N -> bytes) (h' : SHandlers) (k' : Conn) (es' : list Ev) (st' : SSt).
  Context (IS : is_session C rng h' k' es' (Ok false) st').
  Context (es : list XEv) (a tail : list SEvent) (A : all_beside es a (s_log st')) (LW : last_words tail).
  Notation log := (a ++ tail).

  Lemma located_in pre x post : a = pre ++ x :: post -> match x with SE_Read _ _ _ | SE_Exit _ _ | SE_Sent _ | SE_Stdin _ _ _ => True | _ => False end ->
    exists A1 s1 s2 A2 B1 B2 e, pre = A1 ++ s1 /\ post = s2 ++ A2 /\ at_rest A2 /\ s_log st' = B1 ++ s1 ++ x :: s2 ++ B2 /\ at_rest B2 /\
      prompts e (s1 ++ x :: s2) /\ (forall y, In y (tl (s1 ++ x :: s2)) -> stimulus y = false) /\ like A1 B1 /\ like A2 B2 /\ exists es1, begins es1 es /\ all_beside es1 A1 B1.
  Proof.
    intros E X. destruct (segment _ _ _ _ _ _ A E) as (es1 & e & es2 & A1 & s1 & s2 & t & A2 & B1 & B2 & Qes & -> & -> & E2 & X1 & X2 & X3).
    destruct (in_turn _ _ _ _ _ X2 X) as (-> & e' & -> & P & NS). exists A1, s1, s2, A2, B1, B2, e'.
    split; [reflexivity|]. split; [reflexivity|]. split; [apply (all_beside_rest _ _ _ X3)|].
    split; [rewrite E2, <- app_assoc; reflexivity|]. split; [apply (all_beside_rest _ _ _ X3)|]. split; [exact P|]. split; [exact NS|].
    split; [exact (all_beside_like _ _ _ X1)|]. split; [exact (all_beside_like _ _ _ X3)|]. exists es1. split; [|exact X1]. exists (X_Turn e' :: es2). exact Qes.
  Qed.
  Lemma located pre x post : log = pre ++ x :: post -> match x with SE_Read _ _ _ | SE_Exit _ _ | SE_Sent _ => True | _ => False end ->
    exists A1 s1 s2 A2 B1 B2 e, pre = A1 ++ s1 /\ post = s2 ++ A2 /\ at_rest A2 /\ s_log st' = B1 ++ s1 ++ x :: s2 ++ B2 /\ at_rest B2 /\
      prompts e (s1 ++ x :: s2) /\ (forall y, In y (tl (s1 ++ x :: s2)) -> stimulus y = false) /\ like A1 B1 /\ (forall y, plainly y -> match y with SE_Stdin _ _ _ => False | _ => True end -> In y A2 -> In y B2) /\
      exists es1, begins es1 es /\ all_beside es1 A1 B1.
  Proof.
    intros E X. destruct (app_split_at _ _ _ _ _ E) as [(r & E1 & ->)|(r & -> & E1)].
    - destruct (located_in _ _ _ E1) as (A1 & s1 & s2 & A2 & B1 & B2 & e & -> & -> & R1 & E2 & R2 & P & NS & L1 & L2 & X1). { destruct x; first [exact I|exact X]. }
      exists A1, s1, s2, (A2 ++ tail), B1, B2, e. split; [reflexivity|]. split; [symmetry; apply app_assoc|]. split; [apply rest_app; [exact R1|exact (words_rest _ LW)]|].
      split; [exact E2|]. split; [exact R2|]. split; [exact P|]. split; [exact NS|]. split; [exact L1|]. split; [|exact X1]. intros y Y Y2 I. apply in_app_or in I as [I|I]; [exact (proj1 (like_in _ _ _ L2 Y) I)|].
      exfalso. revert I. destruct LW as [->|(m & t' & -> & W)]; [intros []|]. intros [<-|I]; [exact Y|].
      destruct W as [->|[(c & p & n & ty & z & -> & _)|(n & d & z & -> & _)]]; [destruct I|destruct I as [<-|[]]; [exact Y]|destruct I as [<-|[]]; exact Y2].
    - exfalso. apply (words_not tail x LW X). rewrite E1. apply in_elt.
  Qed.

  (** What a child says is sent on. *)
  Lemma tail_of (s2 A2 B2 : list SEvent) x y : stimulus x = false -> at_rest B2 -> s2 ++ B2 = x :: y -> exists s, s2 = x :: s /\ y = s ++ B2.
  Proof.
    intros S R E. destruct s2 as [|z s]; cbn [app] in E.
    - subst B2. cbn [at_rest] in R. congruence.
    - apply pair_cons in E as [-> <-]. eauto.
  Qed.
  Lemma rest_swap (s A2 B2 : list SEvent) : at_rest (s ++ B2) -> at_rest A2 -> at_rest (s ++ A2).
  Proof. destruct s; cbn [app]; auto. Qed.
  Lemma cut_output pre err n d post : log = pre ++ SE_Read err n d :: post -> d <> [] ->
    exists p post', runs err pre n p /\ post = put (C_Data p d) :: post' /\ at_rest post'.
  Proof.
    intros E N. destruct (located _ _ _ E I) as (A1 & s1 & s2 & A2 & B1 & B2 & e & -> & -> & R1 & E2 & R2 & P & NS & L1 & _). rewrite app_assoc in E2.
    destruct (output_delivered _ _ _ _ _ _ _ IS _ _ _ _ _ E2 N) as (p & post' & RU & Q & AR).
    destruct (tail_of s2 A2 B2 (put (C_Data p d)) post' eq_refl R2 Q) as (s & -> & ->). exists p, (s ++ A2). split; [eapply runs_beside; [|exact RU]; apply like_app; [exact L1|apply like_refl]|].
    split; [reflexivity|]. exact (rest_swap _ _ _ AR R1).
  Qed.
  Lemma cut_ends pre n post : log = pre ++ SE_Read false n [] :: post ->
    exists p post', runs false pre n p /\ post = put (C_Eof p) :: put (C_Close p) :: post' /\ at_rest post' /\ forall d, ~ In (SE_Read false n d) post.
  Proof.
    intros E. destruct (located _ _ _ E I) as (A1 & s1 & s2 & A2 & B1 & B2 & e & -> & -> & R1 & E2 & R2 & P & NS & L1 & L2 & _). rewrite app_assoc in E2.
    destruct (end_delivered _ _ _ _ _ _ _ IS _ _ _ E2) as (p & post' & RU & Q & AR & NR).
    destruct (tail_of s2 A2 B2 (put (C_Eof p)) _ eq_refl R2 Q) as (s & -> & Q1). symmetry in Q1.
    destruct (tail_of s A2 B2 (put (C_Close p)) _ eq_refl R2 Q1) as (s' & -> & ->). exists p, (s' ++ A2).
    split; [eapply runs_beside; [|exact RU]; apply like_app; [exact L1|apply like_refl]|].
    split; [reflexivity|]. split; [exact (rest_swap _ _ _ AR R1)|]. intros d J. apply (NR d). apply in_app_or in J as [J|J]; apply in_or_app; [left; exact J|right]. apply L2; [exact I|exact I|exact J].
  Qed.
  Lemma cut_exit pre n s post : log = pre ++ SE_Exit n s :: post ->
    exists l1 c p ty io l2 post', pre = l1 ++ SE_Spawn c p n ty (Ok io) :: l2 /\ post = put (exit_status p s) :: post' /\ at_rest post' /\
      forall s', ~ In (SE_Exit n s') (pre ++ post).
  Proof.
    intros E. destruct (located _ _ _ E I) as (A1 & s1 & s2 & A2 & B1 & B2 & e & -> & -> & R1 & E2 & R2 & P & NS & L1 & L2 & _). rewrite app_assoc in E2.
    destruct (exit_delivered _ _ _ _ _ _ _ IS _ _ _ _ E2) as (l1 & c & p & ty & io & l2 & post' & Q1 & Q2 & AR & NE).
    destruct (tail_of s2 A2 B2 (put (exit_status p s)) _ eq_refl R2 Q2) as (t & -> & ->).
    assert (LA : like (A1 ++ s1) (B1 ++ s1)) by (apply like_app; [exact L1|apply like_refl]).
    assert (G : forall s', ~ In (SE_Exit n s') ((A1 ++ s1) ++ (put (exit_status p s) :: t) ++ A2)).
    { intros s' J. apply (NE s'). apply in_app_or in J as [J|J]; apply in_or_app; [left; exact (proj1 (like_in (SE_Exit n s') _ _ LA I) J)|right].
      apply in_app_or in J as [J|J]; apply in_or_app; [left; exact J|right; apply L2; [exact I|exact I|exact J]]. }
    rewrite Q1 in LA. destruct (like_right _ _ _ _ LA I) as (m1 & x & m2 & Q3 & _ & _ & X). rewrite Q3 in G |- *.
    destruct X as [<-|(c' & p' & n' & ty' & io' & -> & Q)].
    - exists m1, c, p, ty, io, m2, (t ++ A2). split; [reflexivity|]. split; [reflexivity|]. split; [exact (rest_swap _ _ _ AR R1)|exact G].
    - injection Q as <- <- <- <- ->. exists m1, c, p, ty, io', m2, (t ++ A2). split; [reflexivity|]. split; [reflexivity|]. split; [exact (rest_swap _ _ _ AR R1)|exact G].
  Qed.
  Lemma words_data p all : data_sent p tail = [] /\ data_read all p tail = [].
  Proof. destruct LW as [->|(m & t' & -> & [->|[(c & p' & n & ty & z & -> & _)|(n & d & z & -> & _)]])]; split; reflexivity. Qed.
  Lemma peer_app n l1 l2 : peer_of n (l1 ++ l2) = match peer_of n l1 with Some p => Some p | None => peer_of n l2 end.
  Proof. induction l1 as [|e l1 IH]; [reflexivity|]. destruct e; cbn [app peer_of]; rewrite ?IH; try reflexivity. destruct (_ =? n); reflexivity. Qed.
  Lemma peer_in c p n ty x l : In (SE_Spawn c p n ty x) l -> peer_of n l <> None.
  Proof.
    induction l as [|e l IH]; intros J; [destruct J|]. destruct J as [->|J]; cbn [peer_of]; [rewrite N.eqb_refl; discriminate|].
    destruct e; try exact (IH J). destruct (_ =? n); [discriminate|exact (IH J)].
  Qed.
  Lemma data_read_ext all all' p : forall l, (forall err n d, In (SE_Read err n d) l -> d <> [] -> peer_of n all = peer_of n all') -> data_read all p l = data_read all' p l.
  Proof.
    induction l as [|e l IH]; intros H; [reflexivity|]. unfold data_read in *. cbn [flat_map]. rewrite IH by (intros err n d J; apply (H err n d); right; exact J). f_equal.
    destruct e as [| | | | |err n d|]; try reflexivity. destruct d as [|y d]; [reflexivity|]. rewrite (H err n (y :: d)) by (first [left; reflexivity|discriminate]). reflexivity.
  Qed.
  Lemma cut_data p : data_sent p log = data_read log p log.
  Proof.
    destruct (words_data p log) as [W1 W2]. rewrite data_sent_app, data_read_app, W1, W2, !app_nil_r.
    rewrite (like_data_sent p _ _ (all_beside_like _ _ _ A)), (all_data _ _ _ _ _ _ _ IS).
    rewrite <- (like_data_read p a (s_log st') _ _ (fun n => like_peer n _ _ (all_beside_like _ _ _ A)) (all_beside_like _ _ _ A)).
    apply data_read_ext. intros err n d J N. apply in_split in J as (l1 & l2 & E). assert (E' : log = l1 ++ SE_Read err n d :: l2 ++ tail) by (rewrite E, <- app_assoc; reflexivity).
    destruct (cut_output _ _ _ _ _ E' N) as (q & post' & (m1 & c & ty & io & m2 & -> & _) & _).
    assert (P : peer_of n a <> None). { apply (peer_in c q n ty (Ok io)). rewrite E, <- app_assoc. apply in_or_app. right. left. reflexivity. }
    rewrite peer_app. destruct (peer_of n a); [reflexivity|destruct (P eq_refl)].
  Qed.

  (** And only that. *)
  Lemma starts_seg e (s1 : list SEvent) x s2 : prompts e (s1 ++ x :: s2) -> stimulus x = false -> exists s s1', s1 = s :: s1' /\ stimulus s = true.
  Proof.
    intros P S. destruct s1 as [|s s1]; [|exists s, s1; split; [reflexivity|]]; cbn [app] in P.
    - exfalso. destruct e; cbn [prompts] in P; [destruct P as (m & t' & Q)|destruct P as (d' & t' & _ & Q)|destruct P as (t' & Q)]; apply pair_cons in Q as [-> _]; discriminate S.
    - destruct e; cbn [prompts] in P; [destruct P as (m & t' & Q)|destruct P as (d' & t' & _ & Q)|destruct P as (t' & Q)]; apply pair_cons in Q as [-> _]; reflexivity.
  Qed.
  Lemma seg_split (B1 s1 pre' t : list SEvent) s s1' x : B1 ++ s1 = pre' ++ x :: t -> s1 = s :: s1' -> stimulus s = true -> Forall (fun e => stimulus e = false) t ->
    exists s0, pre' = B1 ++ s0 /\ s1 = s0 ++ x :: t.
  Proof.
    intros E -> S F. destruct (app_split_at _ _ _ _ _ E) as [(r & -> & ->)|(r & -> & Q)]; [|eauto].
    exfalso. rewrite Forall_app in F. destruct F as [_ F]. remember (s :: s1') as l eqn:Ql. destruct F as [|y l F1 F2]; [discriminate Ql|]. apply pair_cons in Ql as [-> _]. congruence.
  Qed.
  Lemma cut_because pre m post : log = pre ++ SE_Sent m :: post ->
    exists es1 pre' v s t1 c t2 post', m = Msg_Channel c /\ pre = pre' ++ s :: t1 /\ post = t2 ++ post' /\ at_rest post' /\
      begins es1 es /\ begins v (s_log st') /\ all_beside es1 pre' v /\ because v s t1 c t2.
  Proof.
    intros E. destruct (located _ _ _ E I) as (A1 & s1 & s2 & A2 & B1 & B2 & e & -> & -> & R1 & E2 & R2 & P & NS & L1 & L2 & es1 & Q1 & X1). rewrite app_assoc in E2.
    destruct (starts_seg _ _ _ _ P eq_refl) as (s0 & s1' & Qs & S0).
    destruct (sent_because h' (Ok false) (s_log st') (session_told _ _ _ _ _ _ _ IS) _ _ _ E2) as (pre' & s & t1 & c & t2 & post' & -> & Q2 & Q3 & B & AR).
    assert (F : Forall (fun e => stimulus e = false) t1 /\ Forall (fun e => stimulus e = false) t2 /\ stimulus s = true).
    { destruct B; repeat split; repeat constructor. destruct old as [j|]; repeat constructor. }
    destruct F as (F1 & F2 & S1).
    destruct (seg_split _ _ _ _ _ _ _ Q2 Qs S0 F1) as (u & -> & Q4).
    assert (u = []) as ->.
    { destruct u as [|y u]; [reflexivity|exfalso]. rewrite Q4 in P. rewrite Q4 in NS. rewrite (NS s) in S1; [discriminate S1|]. cbn [app tl]. apply in_or_app. left. apply in_elt. }
    rewrite app_nil_r in *. cbn [app] in Q4. clear Qs. subst s1.
    destruct (rest_unique s2 B2 t2 post' R2 AR F2) as [-> _].
    { apply Forall_forall. intros y J. apply NS. cbn [app tl]. apply in_or_app. right. right. exact J. }
    { exact Q3. }
    exists es1, A1, B1, s, t1, c, t2, A2. split; [reflexivity|]. split; [reflexivity|]. split; [reflexivity|]. split; [exact R1|]. split; [exact Q1|].
    split; [|split; [exact X1|exact B]]. rewrite E2, <- app_assoc. eexists. reflexivity.
  Qed.
  Lemma cut_data_caused pre p d post : log = pre ++ put (C_Data p d) :: post ->
    exists pre' err n, pre = pre' ++ [SE_Read err n d] /\ runs err pre' n p /\ d <> [] /\ len d <= 256 /\ at_rest post.
  Proof.
    intros E. destruct (cut_because _ _ _ E) as (es1 & pre' & v & s & t1 & c & t2 & post' & Q & -> & -> & R & _ & _ & X & B).
    apply (f_equal (fun m => match m with Msg_Channel c => Some c | _ => None end)) in Q. apply Some_inj in Q. remember (C_Data p d) as c0 eqn:Qc. subst c.
    destruct B as [ | | |err n p0 d0 H1 H2| | | ]; try discriminate Qc. injection Qc as -> ->.
    exists pre', err, n. split; [reflexivity|]. split; [eapply runs_beside; [exact (all_beside_like _ _ _ X)|apply runs_stream, H1]|]. split; [|split; [lia|exact R]].
    intros ->. change (len (@nil byte)) with 0 in H2. lia.
  Qed.
  Lemma cut_ends_caused pre p post :
    (log = pre ++ put (C_Eof p) :: post -> exists pre' n post', pre = pre' ++ [SE_Read false n []] /\ runs false pre' n p /\ post = put (C_Close p) :: post' /\ at_rest post') /\
    (log = pre ++ put (C_Close p) :: post -> exists pre' n, pre = pre' ++ [SE_Read false n []; put (C_Eof p)] /\ runs false pre' n p /\ at_rest post).
  Proof.
    split; intros E; destruct (cut_because _ _ _ E) as (es1 & pre' & v & s & t1 & c & t2 & post' & Q & -> & -> & R & _ & _ & X & B);
      apply (f_equal (fun m => match m with Msg_Channel c => Some c | _ => None end)) in Q; apply Some_inj in Q.
    - remember (C_Eof p) as c0 eqn:Qc. subst c. destruct B as [ | | | |n p0 H1| | ]; try discriminate Qc. injection Qc as ->. exists pre', n, post'.
      split; [reflexivity|]. split; [eapply runs_beside; [exact (all_beside_like _ _ _ X)|apply runs_stream, H1]|]. auto.
    - remember (C_Close p) as c0 eqn:Qc. subst c. destruct B as [ | | | | |n p0 H1| ]; try discriminate Qc. injection Qc as ->. exists pre', n.
      split; [reflexivity|]. split; [eapply runs_beside; [exact (all_beside_like _ _ _ X)|apply runs_stream, H1]|]. exact R.
  Qed.
  Lemma cut_status_caused pre q post : log = pre ++ put (C_Request q) :: post ->
    exists pre' n p s, pre = pre' ++ [SE_Exit n s] /\ C_Request q = exit_status p s /\ at_rest post /\ exists c ty io, In (SE_Spawn c p n ty (Ok io)) pre'.
  Proof.
    intros E. destruct (cut_because _ _ _ E) as (es1 & pre' & v & s & t1 & c & t2 & post' & Q & -> & -> & R & _ & _ & X & B).
    apply (f_equal (fun m => match m with Msg_Channel c => Some c | _ => None end)) in Q. apply Some_inj in Q. remember (C_Request q) as c0 eqn:Qc. subst c.
    destruct B as [ | | | | | |n p s H1 H2]; try discriminate Qc. exists pre', n, p, s. split; [reflexivity|]. split; [reflexivity|]. split; [exact R|].
    apply wait_child in H1 as (l1 & c & ty & io & l2 & -> & _). destruct (like_right _ _ _ _ (all_beside_like _ _ _ X) I) as (m1 & x & m2 & -> & _ & _ & [<-|(c' & p' & n' & ty' & io' & -> & Q)]).
    - exists c, ty, io. apply in_elt.
    - injection Q as <- <- <- <- ->. exists c, ty, io'. apply in_elt.
  Qed.

  (** Input. *)
  Lemma cut_stdin pre c p n ty io post : a = pre ++ SE_Spawn c p n ty (Ok io) :: post ->
    stdin_data n pre = [] /\ some_of (stdin_data n post) (if io_stdin io then data_until c post else []).
  Proof.
    intros E. pose proof (all_beside_like _ _ _ A) as L. rewrite E in L. destruct (like_left _ _ _ _ L I) as (v1 & y & v2 & Q & L1 & L2 & Y).
    rewrite (like_stdin n _ _ L1), (like_stdin n _ _ L2). destruct Y as [->|(c' & p' & n' & ty' & io' & Q' & ->)].
    - destruct (stdin_exact _ _ _ _ _ _ _ IS _ _ _ _ _ _ _ Q) as [-> ->]. split; [reflexivity|]. destruct (io_stdin io); [apply like_until, L2|constructor].
    - injection Q' as <- <- <- <- <-. destruct (stdin_exact _ _ _ _ _ _ _ IS _ _ _ _ _ _ _ Q) as [-> ->]. split; [reflexivity|]. cbn [deaf io_stdin].
      destruct (io_stdin io); [apply like_until, L2|constructor].
  Qed.
  Lemma cut_stdin_source pre n d x post : a = pre ++ SE_Stdin n d x :: post ->
    exists pre' c l1 p ty io l2, pre = pre' ++ [got (C_Data c d)] /\ pre' = l1 ++ SE_Spawn c p n ty (Ok io) :: l2 /\ io_stdin io = true /\
      ~ In (got (C_Close c)) l2 /\ ~ In (got (C_Eof c)) l2 /\ (forall p' n' ty' io', ~ In (SE_Spawn c p' n' ty' (Ok io')) l2).
  Proof.
    intros E. destruct (located_in _ _ _ E I) as (A1 & s1 & s2 & A2 & B1 & B2 & e & -> & -> & R1 & E2 & R2 & P & NS & L1 & L2 & _). rewrite app_assoc in E2.
    destruct (stdin_source _ _ _ _ _ _ _ IS _ _ _ _ _ E2) as (pre' & c & l1 & p & ty & io & l2 & Q1 & -> & H1 & H2 & H3 & H4).
    destruct (starts_seg _ _ _ _ P eq_refl) as (s0 & s1' & Qs & S0).
    destruct (seg_split _ _ _ _ _ _ _ Q1 Qs S0 (Forall_nil _)) as (u & Q2 & ->).
    assert (L : like (A1 ++ u) (l1 ++ SE_Spawn c p n ty (Ok io) :: l2)) by (rewrite Q2; apply like_app; [exact L1|apply like_refl]).
    destruct (like_right _ _ _ _ L I) as (m1 & y & m2 & Q3 & _ & LM & Y).
    assert (G : ~ In (got (C_Close c)) m2 /\ ~ In (got (C_Eof c)) m2 /\ (forall p' n' ty' io', ~ In (SE_Spawn c p' n' ty' (Ok io')) m2)).
    { split; [|split].
      - intros J. apply H2. apply (proj1 (like_got (C_Close c) _ _ LM ltac:(intros (z & Qz & [(r & Qr)|(i & d' & Qd)]); congruence)) J).
      - intros J. apply H3. apply (proj1 (like_got (C_Eof c) _ _ LM ltac:(intros (z & Qz & [(r & Qr)|(i & d' & Qd)]); congruence)) J).
      - intros p' n' ty' io' J. destruct (like_spawn c _ _ LM) as (p2 & n2 & ty2 & io2 & J2); [eauto|]. exact (H4 _ _ _ _ J2). }
    exists (A1 ++ u), c, m1, p, ty. destruct Y as [<-|(c' & p' & n' & ty' & io' & -> & Qy)].
    - exists io, m2. split; [apply app_assoc|]. split; [exact Q3|]. split; [exact H1|exact G].
    - injection Qy as <- <- <- <- ->. exists io', m2. split; [apply app_assoc|]. split; [exact Q3|]. split; [exact H1|exact G].
  Qed.

  (** Channel numbers. *)
  Lemma stays_open c : forall l l0, chan_after l0 c <> None -> ~ In (got (C_Close c)) l -> chan_after (l0 ++ l) c <> None.
  Proof.
    intros l. induction l as [|l e IH] using snoc_ind; intros l0 H N; [rewrite app_nil_r; exact H|].
    rewrite app_assoc, chan_after_app. cbn [fold_left]. assert (N' : ~ In (got (C_Close c)) l) by (intros J; apply N, in_or_app; left; exact J). specialize (IH l0 H N').
    assert (N2 : e <> got (C_Close c)) by (intros ->; apply N, in_elt). destruct (chan_after (l0 ++ l) c) as [s|] eqn:Q; [|destruct (IH eq_refl)].
    destruct e as [m|m|i p n ty x| | | |]; cbn [chan_step]; try discriminate.
    - destruct m as [| | | | | | | | | | |x]; try discriminate. destruct x as [| | | | | |i|i| | |]; try discriminate.
      + destruct (i =? c); discriminate.
      + destruct (N.eqb_spec i c) as [->|]; [destruct (N2 eq_refl)|discriminate].
    - destruct m as [| | | | | | | | | | |x]; try discriminate. destruct x; try discriminate. destruct (_ =? c); discriminate.
    - destruct x as [io| |]; try discriminate. destruct (i =? c); discriminate.
  Qed.
  Lemma cut_numbers l1 oc1 l2 oc2 l3 : log = l1 ++ put (C_OpenConfirmation oc1) :: l2 ++ put (C_OpenConfirmation oc2) :: l3 ->
    oc_sender oc1 = oc_sender oc2 -> In (got (C_Close (oc_sender oc1))) l2.
  Proof.
    intros E QS.
    destruct (app_split_at _ _ _ _ _ E) as [(r & E1 & Er)|(r & _ & E1)]; [|exfalso; apply (words_not tail (put (C_OpenConfirmation oc1)) LW I); rewrite E1; apply in_elt].
    symmetry in Er. destruct (app_split_at _ _ _ _ _ Er) as [(r2 & E3 & ->)|(r2 & _ & E3)]; [|exfalso; apply (words_not tail (put (C_OpenConfirmation oc2)) LW I); rewrite E3; apply in_elt].
    subst r. clear Er E. pose proof (all_beside_like _ _ _ A) as L. rewrite E1 in L.
    destruct (like_left _ _ _ _ L I) as (v1 & y & v2 & Q & L1 & L2 & [->|(c' & p' & n' & ty' & io' & Q' & ->)]); [|discriminate Q'].
    destruct (like_left _ _ _ _ L2 I) as (w1 & z & w2 & -> & L3 & L4 & [->|(c' & p' & n' & ty' & io' & Q' & ->)]); [|discriminate Q'].
    refine (proj2 (like_got (C_Close (oc_sender oc1)) _ _ L3 _) _). { intros (z & Qz & [(r & Qr)|(i & d' & Qd)]); congruence. }
    change (put (C_OpenConfirmation oc1) :: w1 ++ put (C_OpenConfirmation oc2) :: w2) with ((put (C_OpenConfirmation oc1) :: w1) ++ put (C_OpenConfirmation oc2) :: w2) in Q. rewrite app_assoc in Q.
    destruct (confirmation_caused _ _ _ _ _ _ _ IS _ _ _ Q) as (pre' & o & i & Q2 & Q3 & LF & _).
    assert (i = oc_sender oc1) as -> by (rewrite QS; injection Q3 as ->; reflexivity).
    destruct (in_dec_close (oc_sender oc1) w1) as [J|J]; [exact J|exfalso].
    assert (X : chan_after (v1 ++ put (C_OpenConfirmation oc1) :: w1) (oc_sender oc1) = None).
    { rewrite Q2, chan_after_app. cbn [fold_left got chan_step]. exact (proj1 LF). }
    change (put (C_OpenConfirmation oc1) :: w1) with ([put (C_OpenConfirmation oc1)] ++ w1) in X. rewrite app_assoc in X. revert X. apply stays_open; [|exact J].
    rewrite chan_after_app. cbn [fold_left put chan_step]. rewrite N.eqb_refl. discriminate.
  Qed.
End Survives.

(** ** All of it *)
Lemma cut_told C rng h k es r st : is_cut_session C rng h k es r st -> exists es1 a tail h' s st',
  begins es1 es /\ s_log st = a ++ tail /\ last_words tail /\ (r = Ok false -> es1 = es /\ tail = []) /\
  is_session C rng h' (with_in s k) (plain_events es1) (Ok false) st' /\ all_beside es1 a (s_log st').
Proof.
  intros IC. assert (D : r = Ok false \/ r <> Ok false) by (destruct r as [[|]|y|]; [right; discriminate|left; reflexivity|right; discriminate..]). destruct D as [->|D].
  - destruct (plain_beside _ _ _ _ _ _ IC) as (h' & s & st' & IS & A & _). exists es, (s_log st), [], h', s, st'. rewrite app_nil_r. split; [apply begins_self|].
    split; [reflexivity|]. split; [left; reflexivity|]. auto.
  - destruct (cut_end _ _ _ _ _ _ _ IC D) as (es1 & e & es2 & st1 & tail & -> & IC1 & _ & L & W). destruct (plain_beside _ _ _ _ _ _ IC1) as (h' & s & st' & IS & A & _).
    exists es1, (s_log st1), tail, h', s, st'. split; [eexists; reflexivity|]. split; [exact L|]. split; [exact W|]. split; [intros ->; destruct (D eq_refl)|]. auto.
Qed.
Section All.
  Context (C : Crypto) (rng : N -> N -> bytes) (h : SHandlers) (k : Conn) (es : list XEv) (r : res InError bool) (st : SSt) (IC : is_cut_session C rng h k es r st).
  Lemma all_output pre err n d post : s_log st = pre ++ SE_Read err n d :: post -> d <> [] ->
    exists p post', runs err pre n p /\ post = put (C_Data p d) :: post' /\ at_rest post'.
  Proof. destruct (cut_told _ _ _ _ _ _ _ IC) as (es1 & a & tail & h' & s & st' & _ & L & W & _ & IS & A). rewrite L. exact (cut_output _ _ _ _ _ _ IS _ _ _ A W pre err n d post). Qed.
  Lemma all_ends pre n post : s_log st = pre ++ SE_Read false n [] :: post ->
    exists p post', runs false pre n p /\ post = put (C_Eof p) :: put (C_Close p) :: post' /\ at_rest post' /\ forall d, ~ In (SE_Read false n d) post.
  Proof. destruct (cut_told _ _ _ _ _ _ _ IC) as (es1 & a & tail & h' & s & st' & _ & L & W & _ & IS & A). rewrite L. exact (cut_ends _ _ _ _ _ _ IS _ _ _ A W pre n post). Qed.
  Lemma all_exit pre n s post : s_log st = pre ++ SE_Exit n s :: post ->
    exists l1 c p ty io l2 post', pre = l1 ++ SE_Spawn c p n ty (Ok io) :: l2 /\ post = put (exit_status p s) :: post' /\ at_rest post' /\
      forall s', ~ In (SE_Exit n s') (pre ++ post).
  Proof. destruct (cut_told _ _ _ _ _ _ _ IC) as (es1 & a & tail & h' & s0 & st' & _ & L & W & _ & IS & A). rewrite L. exact (cut_exit _ _ _ _ _ _ IS _ _ _ A W pre n s post). Qed.
  Lemma all_cut_data p : data_sent p (s_log st) = data_read (s_log st) p (s_log st).
  Proof. destruct (cut_told _ _ _ _ _ _ _ IC) as (es1 & a & tail & h' & s & st' & _ & L & W & _ & IS & A). rewrite L. exact (cut_data _ _ _ _ _ _ IS _ _ _ A W p). Qed.
  Lemma all_because pre m post : s_log st = pre ++ SE_Sent m :: post ->
    exists es1 pre' v s t1 c t2 post', m = Msg_Channel c /\ pre = pre' ++ s :: t1 /\ post = t2 ++ post' /\ at_rest post' /\
      begins es1 es /\ all_beside es1 pre' v /\ because v s t1 c t2.
  Proof.
    destruct (cut_told _ _ _ _ _ _ _ IC) as (es0 & a & tail & h' & s0 & st' & (esr & Qes) & L & W & _ & IS & A). rewrite L. intros E.
    destruct (cut_because _ _ _ _ _ _ IS _ _ _ A W pre m post E) as (es1 & pre' & v & s & t1 & c & t2 & post' & Q1 & Q2 & Q3 & R & (esr2 & Qe) & _ & X & B).
    exists es1, pre', v, s, t1, c, t2, post'. split; [exact Q1|]. split; [exact Q2|]. split; [exact Q3|]. split; [exact R|]. split; [|auto]. exists (esr2 ++ esr). rewrite Qes, Qe, app_assoc. reflexivity.
  Qed.
  Lemma all_data_caused pre p d post : s_log st = pre ++ put (C_Data p d) :: post ->
    exists pre' err n, pre = pre' ++ [SE_Read err n d] /\ runs err pre' n p /\ d <> [] /\ len d <= 256 /\ at_rest post.
  Proof. destruct (cut_told _ _ _ _ _ _ _ IC) as (es1 & a & tail & h' & s & st' & _ & L & W & _ & IS & A). rewrite L. exact (cut_data_caused _ _ _ _ _ _ IS _ _ _ A W pre p d post). Qed.
  Lemma all_ends_caused pre p post :
    (s_log st = pre ++ put (C_Eof p) :: post -> exists pre' n post', pre = pre' ++ [SE_Read false n []] /\ runs false pre' n p /\ post = put (C_Close p) :: post' /\ at_rest post') /\
    (s_log st = pre ++ put (C_Close p) :: post -> exists pre' n, pre = pre' ++ [SE_Read false n []; put (C_Eof p)] /\ runs false pre' n p /\ at_rest post).
  Proof. destruct (cut_told _ _ _ _ _ _ _ IC) as (es1 & a & tail & h' & s & st' & _ & L & W & _ & IS & A). rewrite L. exact (cut_ends_caused _ _ _ _ _ _ IS _ _ _ A W pre p post). Qed.
  Lemma all_status_caused pre q post : s_log st = pre ++ put (C_Request q) :: post ->
    exists pre' n p s, pre = pre' ++ [SE_Exit n s] /\ C_Request q = exit_status p s /\ at_rest post /\ exists c ty io, In (SE_Spawn c p n ty (Ok io)) pre'.
  Proof. destruct (cut_told _ _ _ _ _ _ _ IC) as (es1 & a & tail & h' & s & st' & _ & L & W & _ & IS & A). rewrite L. exact (cut_status_caused _ _ _ _ _ _ IS _ _ _ A W pre q post). Qed.
  Lemma all_numbers l1 oc1 l2 oc2 l3 : s_log st = l1 ++ put (C_OpenConfirmation oc1) :: l2 ++ put (C_OpenConfirmation oc2) :: l3 ->
    oc_sender oc1 = oc_sender oc2 -> In (got (C_Close (oc_sender oc1))) l2.
  Proof. destruct (cut_told _ _ _ _ _ _ _ IC) as (es1 & a & tail & h' & s & st' & _ & L & W & _ & IS & A). rewrite L. exact (cut_numbers _ _ _ _ _ _ IS _ _ _ A W l1 oc1 l2 oc2 l3). Qed.
End All.
Lemma all_stdin C rng h k es st : is_cut_session C rng h k es (Ok false) st -> forall pre c p n ty io post, s_log st = pre ++ SE_Spawn c p n ty (Ok io) :: post ->
  stdin_data n pre = [] /\ some_of (stdin_data n post) (if io_stdin io then data_until c post else []).
Proof. intros IC. destruct (plain_beside _ _ _ _ _ _ IC) as (h' & s & st' & IS & A & _). intros pre c p n ty io post. exact (cut_stdin _ _ _ _ _ _ IS _ _ A pre c p n ty io post). Qed.
Lemma all_stdin_source C rng h k es st : is_cut_session C rng h k es (Ok false) st -> forall pre n d x post, s_log st = pre ++ SE_Stdin n d x :: post ->
  exists pre' c l1 p ty io l2, pre = pre' ++ [got (C_Data c d)] /\ pre' = l1 ++ SE_Spawn c p n ty (Ok io) :: l2 /\ io_stdin io = true /\
    ~ In (got (C_Close c)) l2 /\ ~ In (got (C_Eof c)) l2 /\ (forall p' n' ty' io', ~ In (SE_Spawn c p' n' ty' (Ok io')) l2).
Proof. intros IC. destruct (plain_beside _ _ _ _ _ _ IC) as (h' & s & st' & IS & A & _). intros pre n d x post. exact (cut_stdin_source _ _ _ _ _ _ IS _ _ A pre n d x post). Qed.

(** *** Counts *)
Lemma beside_counts e x y : beside e x y ->
  len (received x) = len (received y) + handler_cuts [e] /\ len (s_sent y) = len (s_sent x) + len (reply_cuts [e]) /\ spawns x = spawns y.
Proof.
  intros B. destruct B as [e t P NS|n|m H|n o i|n r p W|n r p i ty io old W].
  - split; [|split]; [symmetry; apply N.add_0_r|symmetry; apply N.add_0_r|reflexivity].
  - repeat split.
  - repeat split.
  - repeat split.
  - repeat split.
  - destruct old as [j|]; repeat split.
Qed.
Lemma losses es a b : all_beside es a b ->
  len (received a) = len (received b) + handler_cuts es /\ len (s_sent b) = len (s_sent a) + len (reply_cuts es) /\ spawns a = spawns b.
Proof.
  intros A. induction A as [|es a b e x y A (I1 & I2 & I3) B]; [repeat split|]. destruct (beside_counts _ _ _ B) as (B1 & B2 & B3).
  rewrite !received_ev_app, !s_sent_app, !len_app, !spawns_app, I1, I2, I3, B1, B2, B3. unfold handler_cuts, reply_cuts. rewrite filter_app, flat_map_app, !len_app.
  split; [lia|]. split; [lia|reflexivity].
Qed.
Lemma uncut es a b : all_beside es a b -> (forall c, ~ In (X_Cut c) es) -> a = b.
Proof.
  intros A. induction A as [|es a b e x y A IH B]; intros N; [reflexivity|]. rewrite IH by (intros c J; apply (N c), in_or_app; left; exact J). f_equal.
  destruct B; try reflexivity; destruct (N _ (in_elt _ _ _)).
Qed.

Lemma plain_story C rng h k es st : is_cut_session C rng h k es (Ok false) st ->
  exists h' s st', is_session C rng h' (with_in s k) (plain_events es) (Ok false) st' /\ all_beside es (s_log st) (s_log st') /\ in_step st st' /\
    len (received (s_log st)) = len (received (s_log st')) + handler_cuts es /\ len (s_sent (s_log st')) = len (s_sent (s_log st)) + len (reply_cuts es) /\
    spawns (s_log st) = spawns (s_log st') /\ ((forall c, ~ In (X_Cut c) es) -> s_log st = s_log st').
Proof.
  intros IC. destruct (plain_beside _ _ _ _ _ _ IC) as (h' & s & st' & IS & A & S). exists h', s, st'. split; [exact IS|]. split; [exact A|]. split; [exact S|].
  destruct (losses _ _ _ A) as (L1 & L2 & L3). split; [exact L1|]. split; [exact L2|]. split; [exact L3|]. exact (uncut _ _ _ A).
Qed.
