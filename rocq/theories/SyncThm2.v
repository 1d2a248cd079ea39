(** From every state with a holder and a waiter, all waiters can be made to wait
    for ever. *)
From Verif Require Export SyncThm.

(** A new future is scheduled, and a task has a future or a guard, not both. *)
Definition tidy (y : Sys) : Prop :=
  excl y /\ (forall i, flag i (y_futures y) = Some false -> In i (y_scheduled y)) /\
  (forall i, In i (y_guards y) -> flag i (y_futures y) = None).
Lemma sched_other i j l : In i l -> In i (j :: without j l).
Proof. intros H. destruct (N.eq_dec i j) as [->|D]; [left; reflexivity|right; apply without_in; auto]. Qed.
Lemma tidy_step a y y' : tidy y -> sys_step a y = Some y' -> tidy y'.
Proof.
  intros (E & S & G) H. split; [eapply excl_step; eassumption|]. destruct a as [j|j|j|j|j]; cbn [sys_step] in H.
  - destruct (flag j (y_futures y)) eqn:Fj; [discriminate H|]. destruct (mem j (y_guards y)) eqn:M; [discriminate H|]. injection H as <-.
    cbn [y_futures y_scheduled y_guards flag]. split; intros i X.
    + destruct (N.eqb_spec j i) as [->|D]; [left; reflexivity|]. right. apply without_in. split; [auto|congruence].
    + destruct (N.eqb_spec j i) as [->|D]; [apply mem_in in X; congruence|auto].
  - destruct (flag j (y_futures y)) as [b|] eqn:Fj; [|discriminate H]. destruct (mem j (y_scheduled y)) eqn:M; [|discriminate H].
    unfold future_poll in H. destruct (mx_borrowed (y_mutex y)) eqn:Q.
    + assert (K : (forall i, flag i ((j, true) :: unflag j (y_futures y)) = Some false -> In i (without j (y_scheduled y))) /\
                  (forall i, In i (y_guards y) -> flag i ((j, true) :: unflag j (y_futures y)) = None)).
      { split; intros i X; rewrite flag_cons, flag_unflag in *; destruct (N.eqb_spec j i) as [->|D].
        - discriminate X.
        - destruct (N.eqb_spec i j); [congruence|]. apply without_in. auto.
        - rewrite (G _ X) in Fj. discriminate Fj.
        - destruct (N.eqb_spec i j); [congruence|]. auto. }
      destruct b; injection H as <-; cbn [y_futures y_scheduled y_guards]; exact K.
    + injection H as <-. cbn [y_futures y_scheduled y_guards]. split; intros i X.
      * rewrite flag_unflag in X. destruct (N.eqb_spec i j) as [Y|D]; [discriminate X|]. apply without_in. auto.
      * rewrite flag_unflag. destruct (N.eqb_spec i j) as [Y|D]; [reflexivity|]. apply G. destruct X; [congruence|auto].
  - destruct (flag j (y_futures y)) as [b|] eqn:Fj; [|discriminate H]. injection H as <-. cbn [y_futures y_scheduled y_guards].
    split; intros i X; rewrite flag_unflag in *; destruct (N.eqb_spec i j); [discriminate X|auto|reflexivity|auto].
  - destruct (mem j (y_guards y)); [|discriminate H]. destruct (guard_drop (y_mutex y)) as [w m]. injection H as <-.
    cbn [y_futures y_scheduled y_guards]. split; intros i X; [|apply without_in in X; apply G, X].
    destruct w as [w|]; [apply sched_other|]; auto.
  - injection H as <-. cbn [y_futures y_scheduled y_guards]. split; intros i X; [apply sched_other|]; auto.
Qed.
Lemma tidy_run l : forall y y', tidy y -> sys_run l y = Some y' -> tidy y'.
Proof.
  induction l as [|a l IH]; intros y y' T H; cbn [sys_run] in H; [injection H as <-; exact T|].
  destruct (sys_step a y) as [y1|] eqn:S; [|discriminate H]. eapply IH; [eapply tidy_step; eassumption|exact H].
Qed.
Lemma tidy_init : tidy sys_init.
Proof. split; [reflexivity|]. split; [discriminate|intros i []]. Qed.

Definition plain (l : list Act) : Prop := forallb (fun a => negb (wakes a || cancels a)) l = true.
Lemma plain_app a b : plain a -> plain b -> plain (a ++ b).
Proof. unfold plain. intros A B. rewrite forallb_app, A, B. reflexivity. Qed.
Lemma without_short i l : In i l -> (length (without i l) < length l)%nat.
Proof.
  intros H. induction l as [|j l IH]; [destruct H|]. unfold without. cbn [filter fst negb].
  destruct (N.eqb_spec j i) as [->|D]; cbn [negb length].
  - assert (L : forall l, (length (without i l) <= length l)%nat).
    { clear. induction l as [|k l IH]; [apply Nat.le_refl|]. unfold without in *. cbn [filter]. destruct (negb (k =? i)); cbn [length]; lia. }
    specialize (L l). unfold without in L. lia.
  - destruct H as [->|H]; [congruence|]. specialize (IH H). unfold without in IH. lia.
Qed.

(** While somebody holds the mutex, everybody who will poll does. *)
Lemma poll_all n : forall y h, (length (y_scheduled y) <= n)%nat -> mx_borrowed (y_mutex y) = true -> y_guards y = [h] ->
  exists l y', plain l /\ sys_run l y = Some y' /\ mx_borrowed (y_mutex y') = true /\ y_guards y' = [h] /\
    (forall i, flag i (y_futures y') <> None -> ~ In i (y_scheduled y')) /\
    (forall i, flag i (y_futures y') = None <-> flag i (y_futures y) = None) /\
    ((forall i, flag i (y_futures y) <> Some false) -> mx_queue (y_mutex y') = mx_queue (y_mutex y)).
Proof.
  induction n as [|n IH]; intros y h L B G.
  { exists [], y. repeat split; auto. intros i _. destruct (y_scheduled y); [intros []|cbn in L; lia]. }
  destruct (existsb (fun i => match flag i (y_futures y) with Some _ => true | None => false end) (y_scheduled y)) eqn:E.
  - apply existsb_exists in E as (i & I & Fi). destruct (flag i (y_futures y)) as [b|] eqn:F; [|discriminate Fi]. clear Fi.
    assert (S : sys_step (Act_Poll i) y = Some {| y_mutex := if b then y_mutex y else push_waker (y_mutex y) i;
      y_futures := (i, true) :: unflag i (y_futures y); y_guards := y_guards y; y_scheduled := without i (y_scheduled y) |}).
    { cbn [sys_step]. rewrite F. rewrite (proj2 (mem_in i _) I). unfold future_poll. rewrite B. destruct b; reflexivity. }
    set (y1 := {| y_mutex := _ |}) in S.
    destruct (IH y1 h) as (l & y' & P & R & B' & G' & U & V & W); [pose proof (without_short i _ I); cbn [y1 y_scheduled]; lia|destruct b; exact B|exact G|].
    exists (Act_Poll i :: l), y'. split; [exact P|]. split; [cbn [sys_run]; rewrite S; exact R|].
    split; [exact B'|]. split; [exact G'|]. split; [exact U|]. split.
    + intros k. rewrite V. cbn [y1 y_futures]. rewrite flag_cons, flag_unflag.
      destruct (N.eqb_spec i k) as [->|D]; [rewrite F; split; discriminate|]. destruct (N.eqb_spec k i); [congruence|]. reflexivity.
    + intros T. destruct b; [|destruct (T i F)]. rewrite W; [reflexivity|].
      intros k. cbn [y1 y_futures]. rewrite flag_cons, flag_unflag.
      destruct (N.eqb_spec i k) as [->|D]; [discriminate|]. destruct (N.eqb_spec k i); [congruence|]. apply T.
  - exists [], y. repeat split; auto. intros i X I.
    assert (C : existsb (fun i => match flag i (y_futures y) with Some _ => true | None => false end) (y_scheduled y) = true).
    { apply existsb_exists. exists i. split; [exact I|]. destruct (flag i (y_futures y)); congruence. }
    congruence.
Qed.

(** Two tasks pass the mutex to each other until nobody is left to wake. *)
Lemma drain n : forall y h j, (length (mx_queue (y_mutex y)) <= n)%nat -> mx_borrowed (y_mutex y) = true -> y_guards y = [h] ->
  flag h (y_futures y) = None -> flag j (y_futures y) = None -> j <> h ->
  exists l y' h', plain l /\ sys_run l y = Some y' /\ mx_borrowed (y_mutex y') = true /\ y_guards y' = [h'] /\ mx_queue (y_mutex y') = [] /\
    (forall i, flag i (y_futures y') = flag i (y_futures y)).
Proof.
  induction n as [|n IH]; intros y h j L B G Fh Fj D.
  { exists [], y, h. repeat split; auto. destruct (mx_queue (y_mutex y)); [reflexivity|cbn in L; lia]. }
  destruct (pop_spec (y_mutex y)) as [[E _]|(q & w & E & P)].
  { exists [], y, h. repeat split; auto. }
  set (y1 := {| y_mutex := y_mutex y; y_futures := (j, false) :: y_futures y; y_guards := [h]; y_scheduled := j :: without j (y_scheduled y) |}).
  assert (S1 : sys_step (Act_Lock j) y = Some y1).
  { cbn [sys_step]. rewrite Fj, G. cbn [mem existsb]. rewrite (proj2 (N.eqb_neq j h) D). reflexivity. }
  set (y2 := {| y_mutex := {| mx_borrowed := false; mx_queue := q |}; y_futures := (j, false) :: y_futures y; y_guards := [];
                y_scheduled := w :: without w (j :: without j (y_scheduled y)) |}).
  assert (S2 : sys_step (Act_Unlock h) y1 = Some y2).
  { cbn [sys_step y1 y_guards y_mutex y_futures y_scheduled mem existsb]. rewrite N.eqb_refl. cbn [orb]. rewrite P.
    unfold without at 1. cbn [filter]. rewrite N.eqb_refl. reflexivity. }
  set (y3 := {| y_mutex := {| mx_borrowed := true; mx_queue := q |}; y_futures := unflag j ((j, false) :: y_futures y); y_guards := [j];
                y_scheduled := without j (w :: without w (j :: without j (y_scheduled y))) |}).
  assert (S3 : sys_step (Act_Poll j) y2 = Some y3).
  { cbn [sys_step y2 y_futures y_scheduled y_mutex y_guards flag]. rewrite N.eqb_refl.
    rewrite (proj2 (mem_in j _) (sched_other j w _ (in_eq j _))). reflexivity. }
  assert (FF : forall i, flag i (y_futures y3) = flag i (y_futures y)).
  { intros i. cbn [y3 y_futures]. rewrite flag_unflag, flag_cons. destruct (N.eqb_spec i j) as [->|X]; [congruence|].
    destruct (N.eqb_spec j i); [congruence|reflexivity]. }
  destruct (IH y3 j h) as (l & y' & h' & Q1 & Q2 & Q3 & Q4 & Q5 & Q6).
  { cbn [y3 y_mutex mx_queue]. rewrite E, app_length in L. cbn in L. lia. }
  { reflexivity. } { reflexivity. } { rewrite FF. exact Fj. } { rewrite FF. exact Fh. } { congruence. }
  exists (Act_Lock j :: Act_Unlock h :: Act_Poll j :: l), y', h'. split; [exact Q1|].
  split; [cbn [sys_run]; rewrite S1, S2, S3; exact Q2|]. repeat split; auto. intros i. rewrite Q6. apply FF.
Qed.

Lemma all_lost l y h i j : sys_run l sys_init = Some y -> y_guards y = [h] -> flag i (y_futures y) <> None ->
  flag j (y_futures y) = None -> j <> h ->
  exists l' y', forallb (fun a => negb (wakes a || cancels a)) l' = true /\ sys_run l' y = Some y' /\
    stuck y' /\ forall k, flag k (y_futures y) <> None -> waits_forever k y'.
Proof.
  intros R G Fi Fj D. pose proof (tidy_run l _ _ tidy_init R) as (E & T & U).
  assert (B : mx_borrowed (y_mutex y) = true).
  { unfold excl in E. destruct (mx_borrowed (y_mutex y)); [reflexivity|congruence]. }
  destruct (poll_all _ y h (Nat.le_refl _) B G) as (l1 & y1 & P1 & R1 & B1 & G1 & N1 & V1 & _).
  assert (T1 : tidy y1) by (eapply tidy_run; [exact (tidy_run l _ _ tidy_init R)|exact R1]).
  assert (A1 : forall k, flag k (y_futures y1) <> Some false).
  { intros k X. apply (N1 k); [congruence|]. apply T1, X. }
  destruct (drain _ y1 h j (Nat.le_refl _) B1 G1) as (l2 & y2 & h2 & P2 & R2 & B2 & G2 & Q2 & V2).
  { apply V1, U. rewrite G. left. reflexivity. } { apply V1, Fj. } { exact D. }
  destruct (poll_all _ y2 h2 (Nat.le_refl _) B2 G2) as (l3 & y3 & P3 & R3 & B3 & G3 & N3 & V3 & W3).
  assert (T3 : tidy y3).
  { eapply tidy_run; [|exact R3]. eapply tidy_run; [exact T1|exact R2]. }
  assert (Q3 : mx_queue (y_mutex y3) = []) by (rewrite W3; [exact Q2|]; intros k; rewrite V2; apply A1).
  set (y4 := {| y_mutex := {| mx_borrowed := false; mx_queue := [] |}; y_futures := y_futures y3; y_guards := []; y_scheduled := y_scheduled y3 |}).
  assert (S4 : sys_step (Act_Unlock h2) y3 = Some y4).
  { cbn [sys_step]. rewrite G3. cbn [mem existsb]. rewrite N.eqb_refl. cbn [orb].
    destruct (pop_spec (y_mutex y3)) as [[_ X]|(q & w & X & _)]; [|rewrite Q3 in X; destruct q; discriminate X].
    rewrite X. unfold without. cbn [filter]. rewrite N.eqb_refl. reflexivity. }
  assert (L : forall k, flag k (y_futures y) <> None -> flag k (y_futures y3) <> None).
  { intros k X Y. apply X, V1. rewrite <- V2. apply V3, Y. }
  exists (((l1 ++ l2) ++ l3) ++ [Act_Unlock h2]), y4. split.
  { apply plain_app; [|reflexivity]. apply plain_app; [|exact P3]. apply plain_app; assumption. }
  split; [rewrite !sys_run_app, R1, R2, R3; cbn [sys_run]; rewrite S4; reflexivity|]. split.
  - split; [reflexivity|]. split; [exists i; apply L, Fi|exact N3].
  - intros k Fk. apply lost_forever. split; [|split; [intros []|apply N3, L, Fk]].
    cbn [y4 y_futures]. specialize (L k Fk). destruct (flag k (y_futures y3)) as [[|]|] eqn:Q; [reflexivity| |congruence].
    destruct (N3 k); [congruence|]. apply T3, Q.
Qed.
