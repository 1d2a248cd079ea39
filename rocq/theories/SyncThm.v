(** Proofs about the mutex. *)
From Verif Require Export SpecSync.

Lemma mem_in i l : mem i l = true <-> In i l.
Proof. unfold mem. rewrite existsb_exists. split; [intros (x & H & E); apply N.eqb_eq in E; congruence|intros H; exists i; split; [exact H|apply N.eqb_refl]]. Qed.
Lemma without_in i j l : In j (without i l) <-> In j l /\ j <> i.
Proof. unfold without. rewrite filter_In, negb_true_iff, N.eqb_neq. reflexivity. Qed.
Lemma flag_cons i j b l : flag i ((j, b) :: l) = if j =? i then Some b else flag i l.
Proof. reflexivity. Qed.
Lemma flag_unflag i j l : flag i (unflag j l) = if i =? j then None else flag i l.
Proof.
  induction l as [|[k b] l IH]; cbn [unflag filter flag fst]; [destruct (i =? j); reflexivity|].
  destruct (N.eqb_spec k j) as [->|D]; cbn [negb flag].
  - fold (unflag j l). rewrite IH. destruct (N.eqb_spec i j) as [->|D]; [reflexivity|].
    replace (j =? i) with false by (symmetry; apply N.eqb_neq; congruence). reflexivity.
  - fold (unflag j l). destruct (N.eqb_spec k i) as [->|D2].
    + replace (i =? j) with false by (symmetry; apply N.eqb_neq; congruence). reflexivity.
    + exact IH.
Qed.

(** ** Exclusion *)
Definition excl (y : Sys) : Prop := if mx_borrowed (y_mutex y) then exists i, y_guards y = [i] else y_guards y = [].
Lemma pop_borrowed m : mx_borrowed (snd (pop_waker m)) = mx_borrowed m.
Proof. unfold pop_waker. destruct (rev (mx_queue m)); reflexivity. Qed.
Lemma drop_free m : mx_borrowed (snd (guard_drop m)) = false.
Proof. unfold guard_drop. destruct (pop_waker m). reflexivity. Qed.
Lemma excl_step a y y' : excl y -> sys_step a y = Some y' -> excl y'.
Proof.
  unfold excl. intros E H. destruct a as [i|i|i|i|i]; cbn [sys_step] in H.
  - destruct (match flag i (y_futures y) with Some _ => true | None => mem i (y_guards y) end); [discriminate H|]. injection H as <-. exact E.
  - destruct (flag i (y_futures y)) as [b|]; [|discriminate H]. destruct (mem i (y_scheduled y)); [|discriminate H].
    unfold future_poll in H. destruct (mx_borrowed (y_mutex y)) eqn:Q.
    + destruct b; injection H as <-; cbn [y_mutex y_guards push_waker mx_borrowed]; rewrite Q; exact E.
    + injection H as <-. cbn. exists i. rewrite E. reflexivity.
  - destruct (flag i (y_futures y)); [|discriminate H]. injection H as <-. exact E.
  - destruct (mem i (y_guards y)) eqn:M; [|discriminate H]. pose proof (drop_free (y_mutex y)) as F.
    destruct (guard_drop (y_mutex y)) as [w m]. injection H as <-. cbn [y_mutex y_guards snd] in *. rewrite F.
    apply mem_in in M. destruct (mx_borrowed (y_mutex y)); [|rewrite E in M; destruct M].
    destruct E as [j E]. rewrite E in *. destruct M as [->|[]]. unfold without. cbn [filter]. rewrite N.eqb_refl. reflexivity.
  - injection H as <-. exact E.
Qed.
Lemma excl_run l : forall y y', excl y -> sys_run l y = Some y' -> excl y'.
Proof.
  induction l as [|a l IH]; intros y y' E H; cbn [sys_run] in H; [injection H as <-; exact E|].
  destruct (sys_step a y) as [y1|] eqn:S; [|discriminate H]. eapply IH; [eapply excl_step; eassumption|exact H].
Qed.
Lemma exclusion l y : sys_run l sys_init = Some y -> len (y_guards y) <= 1.
Proof.
  intros H. assert (E : excl y) by (eapply excl_run; [|exact H]; reflexivity). unfold excl in E.
  destruct (mx_borrowed (y_mutex y)); [destruct E as [i ->]; vm_compute; discriminate|rewrite E; vm_compute; discriminate].
Qed.
(** A poll gets the mutex exactly if nobody has it. *)
Lemma poll_result l y i y' : sys_run l sys_init = Some y -> sys_step (Act_Poll i) y = Some y' ->
  y_guards y' = match y_guards y with [] => [i] | g => g end.
Proof.
  intros R H. assert (E : excl y) by (eapply excl_run; [|exact R]; reflexivity). unfold excl in E. cbn [sys_step] in H.
  destruct (flag i (y_futures y)) as [b|]; [|discriminate H]. destruct (mem i (y_scheduled y)); [|discriminate H].
  unfold future_poll in H. destruct (mx_borrowed (y_mutex y)).
  - destruct E as [j E]. destruct b; injection H as <-; cbn; rewrite E; reflexivity.
  - injection H as <-. cbn. rewrite E. reflexivity.
Qed.

(** ** Wakeups *)
Definition waits (y : Sys) (i : N) : Prop := flag i (y_futures y) = Some true.
Definition winv (y : Sys) : Prop :=
  excl y /\ NoDup (mx_queue (y_mutex y)) /\
  (forall i, In i (mx_queue (y_mutex y)) -> waits y i) /\
  (forall i, flag i (y_futures y) = Some false -> In i (y_scheduled y)) /\
  (forall i, waits y i -> In i (mx_queue (y_mutex y)) \/ In i (y_scheduled y)) /\
  (y_guards y = [] -> mx_queue (y_mutex y) <> [] -> exists i, waits y i /\ In i (y_scheduled y)).
Lemma pop_spec m :
  (mx_queue m = [] /\ guard_drop m = (None, {| mx_borrowed := false; mx_queue := [] |})) \/
  exists q w, mx_queue m = q ++ [w] /\ guard_drop m = (Some w, {| mx_borrowed := false; mx_queue := q |}).
Proof.
  unfold guard_drop, pop_waker. destruct (rev (mx_queue m)) as [|w q] eqn:E.
  - left. assert (Q : mx_queue m = []) by (rewrite <- (rev_involutive (mx_queue m)), E; reflexivity). rewrite Q. auto.
  - right. exists (rev q), w. assert (Q : mx_queue m = rev q ++ [w]) by (rewrite <- (rev_involutive (mx_queue m)), E; reflexivity). auto.
Qed.
Lemma guards_borrowed y : excl y -> (y_guards y <> [] <-> mx_borrowed (y_mutex y) = true).
Proof.
  unfold excl. destruct (mx_borrowed (y_mutex y)).
  - intros [i ->]. split; [reflexivity|discriminate].
  - intros ->. split; [intros H; destruct (H eq_refl)|discriminate].
Qed.
Lemma winv_step y a y1 : winv y -> sys_step a y = Some y1 ->
  match a with
  | Act_Poll i => flag i (y_futures y) = Some true -> (y_guards y <> [] <-> In i (mx_queue (y_mutex y)))
  | Act_Cancel i => flag i (y_futures y) = Some false
  | _ => True
  end -> winv y1.
Proof.
  intros (E & ND & W1 & W2 & W3 & W4) H O. pose proof (excl_step _ _ _ E H) as E1. pose proof (guards_borrowed _ E) as GB.
  split; [exact E1|]. unfold waits in *. destruct a as [i|i|i|i|i]; cbn [sys_step] in H.
  - destruct (flag i (y_futures y)) as [b|] eqn:F; [discriminate H|]. destruct (mem i (y_guards y)); [discriminate H|]. injection H as <-.
    cbn [y_mutex y_futures y_guards y_scheduled flag]. unfold mutex_lock.
    assert (Ne : forall j, flag j (y_futures y) = Some true -> i =? j = false) by (intros j X; apply N.eqb_neq; congruence).
    assert (Sch : forall j, In j (y_scheduled y) -> In j (i :: without i (y_scheduled y))).
    { intros j X. destruct (N.eq_dec j i) as [->|D]; [left; reflexivity|right; apply without_in; auto]. }
    split; [exact ND|]. split; [intros j Ij; rewrite Ne by (apply W1, Ij); apply W1, Ij|].
    split; [intros j; destruct (N.eqb_spec i j) as [->|D]; [intros _; left; reflexivity|intros X; apply Sch, W2, X]|].
    split; [intros j; destruct (i =? j); [discriminate|]; intros X; destruct (W3 j X); auto|].
    intros G Q. destruct (W4 G Q) as (j & Wj & Sj). exists j. rewrite Ne by exact Wj. auto.
  - destruct (flag i (y_futures y)) as [b|] eqn:F; [|discriminate H]. destruct (mem i (y_scheduled y)) eqn:M; [|discriminate H].
    unfold future_poll in H. destruct (mx_borrowed (y_mutex y)) eqn:Bo.
    + assert (G : y_guards y <> []) by (apply GB; reflexivity).
      destruct b; injection H as <-; cbn [y_mutex y_futures y_guards y_scheduled flag push_waker mx_queue].
      * assert (Iq : In i (mx_queue (y_mutex y))) by (apply O; auto).
        split; [exact ND|]. split; [intros j Ij; rewrite flag_unflag, (N.eqb_sym j i); destruct (N.eqb_spec i j); [reflexivity|]; apply W1, Ij|].
        split; [intros j; rewrite flag_unflag, (N.eqb_sym j i); destruct (N.eqb_spec i j); [discriminate|]; intros X; apply without_in; split; [apply W2, X|congruence]|].
        split; [|intros X; destruct (G X)].
        intros j. rewrite flag_unflag, (N.eqb_sym j i). destruct (N.eqb_spec i j) as [->|D]; [auto|]. intros X.
        destruct (W3 j X) as [Y|Y]; [auto|right; apply without_in; split; [exact Y|congruence]].
      * assert (Niq : ~ In i (mx_queue (y_mutex y))) by (intros X; apply W1 in X; congruence).
        split; [apply NoDup_rev in ND; rewrite <- (rev_involutive (mx_queue (y_mutex y) ++ [i])); apply NoDup_rev; rewrite rev_app_distr; cbn [rev app];
                constructor; [rewrite <- in_rev; exact Niq|exact ND]|].
        split; [intros j Ij; rewrite flag_unflag, (N.eqb_sym j i); destruct (N.eqb_spec i j); [reflexivity|]; apply in_app_or in Ij as [Ij|[Ij|[]]]; [apply W1, Ij|congruence]|].
        split; [intros j; rewrite flag_unflag, (N.eqb_sym j i); destruct (N.eqb_spec i j); [discriminate|]; intros X; apply without_in; split; [apply W2, X|congruence]|].
        split; [|intros X; destruct (G X)].
        intros j. rewrite flag_unflag, (N.eqb_sym j i). destruct (N.eqb_spec i j) as [->|D]; [left; apply in_or_app; right; left; reflexivity|]. intros X.
        destruct (W3 j X) as [Y|Y]; [left; apply in_or_app; auto|right; apply without_in; split; [exact Y|congruence]].
    + injection H as <-. cbn [y_mutex y_futures y_guards y_scheduled mx_queue].
      assert (G : y_guards y = []) by (unfold excl in E; rewrite Bo in E; exact E).
      assert (Niq : ~ In i (mx_queue (y_mutex y))).
      { intros X. pose proof (W1 i X) as Y. rewrite F in Y. injection Y as ->. apply O in X; [|reflexivity]. apply X, G. }
      split; [exact ND|].
      split; [intros j Ij; rewrite flag_unflag; destruct (N.eqb_spec j i) as [->|D]; [destruct (Niq Ij)|apply W1, Ij]|].
      split; [intros j; rewrite flag_unflag; destruct (N.eqb_spec j i); [discriminate|]; intros X; apply without_in; split; [apply W2, X|congruence]|].
      split; [|discriminate].
      intros j. rewrite flag_unflag. destruct (N.eqb_spec j i); [discriminate|]. intros X.
      destruct (W3 j X) as [Y|Y]; [auto|right; apply without_in; split; [exact Y|congruence]].
  - rewrite O in H. injection H as <-. cbn [y_mutex y_futures y_guards y_scheduled].
    assert (Ne : forall j, flag j (y_futures y) = Some true -> flag j (unflag i (y_futures y)) = Some true).
    { intros j X. rewrite flag_unflag. destruct (N.eqb_spec j i) as [->|D]; [congruence|exact X]. }
    assert (Ne2 : forall j b, flag j (unflag i (y_futures y)) = Some b -> flag j (y_futures y) = Some b).
    { intros j b. rewrite flag_unflag. destruct (N.eqb_spec j i); [discriminate|auto]. }
    split; [exact ND|]. split; [auto|]. split; [intros j X; apply W2; auto|]. split; [intros j X; apply W3; auto|].
    intros G Q. destruct (W4 G Q) as (j & Wj & Sj). exists j. auto.
  - destruct (mem i (y_guards y)); [|discriminate H].
    destruct (pop_spec (y_mutex y)) as [[Q D]|(q & w & Q & D)]; rewrite D in H; injection H as <-; cbn [y_mutex y_futures y_guards y_scheduled mx_queue].
    + split; [constructor|]. split; [intros j []|]. split; [exact W2|]. split; [intros j X; rewrite Q in W3; destruct (W3 j X) as [[]|Y]; auto|].
      intros _ X. destruct (X eq_refl).
    + rewrite Q in *. assert (Ww : flag w (y_futures y) = Some true) by (apply W1, in_or_app; right; left; reflexivity).
      assert (Sch : forall j, In j (y_scheduled y) -> In j (w :: without w (y_scheduled y))).
      { intros j X. destruct (N.eq_dec j w) as [->|Dj]; [left; reflexivity|right; apply without_in; auto]. }
      split; [rewrite <- (rev_involutive q); apply NoDup_rev; apply NoDup_rev in ND; rewrite rev_app_distr in ND; cbn [rev app] in ND; inversion ND; assumption|].
      split; [intros j X; apply W1, in_or_app; auto|]. split; [intros j X; apply Sch, W2, X|].
      split; [|intros _ _; exists w; split; [exact Ww|left; reflexivity]].
      intros j X. destruct (W3 j X) as [Y|Y]; [|auto]. apply in_app_or in Y as [Y|[<-|[]]]; [auto|right; left; reflexivity].
  - injection H as <-. cbn [y_mutex y_futures y_guards y_scheduled].
    assert (Sch : forall j, In j (y_scheduled y) -> In j (i :: without i (y_scheduled y))).
    { intros j X. destruct (N.eq_dec j i) as [->|D]; [left; reflexivity|right; apply without_in; auto]. }
    split; [exact ND|]. split; [exact W1|]. split; [intros j X; apply Sch, W2, X|]. split; [intros j X; destruct (W3 j X); auto|].
    intros G Q. destruct (W4 G Q) as (j & Wj & Sj). exists j. auto.
Qed.
Lemma winv_run y l y' : orderly y l y' -> winv y -> winv y'.
Proof. intros O. induction O as [|y a y1 l y2 S C O IH]; auto. intros I. apply IH. eapply winv_step; eassumption. Qed.
Lemma winv_init : winv sys_init.
Proof.
  split; [reflexivity|]. split; [constructor|]. split; [intros i []|]. split; [intros i X; discriminate X|].
  split; [intros i X; discriminate X|]. intros _ X. destruct (X eq_refl).
Qed.
Lemma orderly_not_stuck l y : orderly sys_init l y -> ~ stuck y.
Proof.
  intros O (G & (i & F) & S). destruct (winv_run _ _ _ O winv_init) as (_ & _ & W1 & W2 & W3 & W4). unfold waits in *.
  destruct (flag i (y_futures y)) as [[|]|] eqn:Q; [| |destruct (F eq_refl)].
  - destruct (W3 i Q) as [X|X]; [|apply (S i); [congruence|exact X]].
    destruct (W4 G) as (j & Wj & Sj); [intros Y; rewrite Y in X; destruct X|]. apply (S j); [congruence|exact Sj].
  - apply (S i); [congruence|apply W2, Q].
Qed.

(** ** Starvation *)
Lemma sys_run_app a b y : sys_run (a ++ b) y = match sys_run a y with Some y => sys_run b y | None => None end.
Proof. revert y. induction a as [|x a IH]; intros y; cbn [app sys_run]; [reflexivity|]. destruct (sys_step x y); auto. Qed.
Fixpoint repeats {A} (n : nat) (l : list A) : list A := match n with O => [] | S n => l ++ repeats n l end.
Lemma run_repeats l y n : sys_run l y = Some y -> sys_run (repeats n l) y = Some y.
Proof. intros H. induction n as [|n IH]; cbn [repeats]; [reflexivity|]. rewrite sys_run_app, H. exact IH. Qed.

(** ** Lost wakeups *)
Definition lost (i : N) (y : Sys) : Prop :=
  flag i (y_futures y) = Some true /\ ~ In i (mx_queue (y_mutex y)) /\ ~ In i (y_scheduled y).
Lemma lost_step i y a y' : lost i y -> a <> Act_Wake i -> a <> Act_Cancel i -> sys_step a y = Some y' -> lost i y'.
Proof.
  intros (F & Q & S) NW NC H. unfold lost. destruct a as [j|j|j|j|j]; cbn [sys_step] in H.
  - destruct (flag j (y_futures y)) eqn:Fj; [discriminate H|]. destruct (mem j (y_guards y)); [discriminate H|]. injection H as <-.
    cbn [y_mutex y_futures y_scheduled flag]. assert (D : j <> i) by congruence. rewrite (proj2 (N.eqb_neq j i) D).
    repeat split; auto. intros [X|X]; [congruence|apply without_in in X; tauto].
  - destruct (flag j (y_futures y)) as [b|] eqn:Fj; [|discriminate H]. destruct (mem j (y_scheduled y)) eqn:M; [|discriminate H].
    assert (D : j <> i) by (apply mem_in in M; congruence).
    assert (S' : ~ In i (without j (y_scheduled y))) by (intros X; apply without_in in X; tauto).
    assert (F' : flag i (unflag j (y_futures y)) = Some true) by (rewrite flag_unflag; destruct (N.eqb_spec i j); [congruence|exact F]).
    unfold future_poll in H. destruct (mx_borrowed (y_mutex y)); [destruct b|]; injection H as <-;
      cbn [y_mutex y_futures y_scheduled flag push_waker mx_queue]; rewrite ?(proj2 (N.eqb_neq j i) D); repeat split; auto.
    intros X. apply in_app_or in X as [X|[X|[]]]; auto.
  - destruct (flag j (y_futures y)) as [b|] eqn:Fj; [|discriminate H]. injection H as <-. cbn [y_mutex y_futures y_scheduled].
    rewrite flag_unflag. destruct (N.eqb_spec i j) as [->|D]; [destruct (NC eq_refl)|]. auto.
  - destruct (mem j (y_guards y)); [|discriminate H].
    destruct (pop_spec (y_mutex y)) as [[E D]|(q & w & E & D)]; rewrite D in H; injection H as <-; cbn [y_mutex y_futures y_scheduled mx_queue].
    + auto.
    + rewrite E in Q. repeat split; [exact F|intros X; apply Q, in_or_app; auto|].
      intros [X|X]; [apply Q, in_or_app; right; left; exact X|apply without_in in X; tauto].
  - injection H as <-. cbn [y_mutex y_futures y_scheduled]. repeat split; auto.
    intros [X|X]; [congruence|apply without_in in X; tauto].
Qed.
Lemma lost_run l : forall i y y', lost i y -> ~ In (Act_Wake i) l -> ~ In (Act_Cancel i) l -> sys_run l y = Some y' -> lost i y'.
Proof.
  induction l as [|a l IH]; intros i y y' L NW NC H; cbn [sys_run] in H; [injection H as <-; exact L|].
  destruct (sys_step a y) as [y1|] eqn:S; [|discriminate H].
  apply (IH i y1 y'); [|intros X; apply NW; right; exact X|intros X; apply NC; right; exact X|exact H].
  apply (lost_step i y a y1 L); [intros ->; apply NW; left; reflexivity|intros ->; apply NC; left; reflexivity|exact S].
Qed.
Lemma lost_forever i y : lost i y -> waits_forever i y.
Proof.
  intros L l y' NW NC H. destruct (lost_run l i y y' L NW NC H) as (F & Q & S). repeat split; auto.
  cbn [sys_step]. rewrite F. destruct (mem i (y_scheduled y')) eqn:M; [apply mem_in in M; contradiction|reflexivity].
Qed.
Lemma orderly_app y a y1 b y2 : orderly y a y1 -> orderly y1 b y2 -> orderly y (a ++ b) y2.
Proof. intros H. induction H; auto. intros X. cbn [app]. eapply O_cons; eauto. Qed.
Lemma orderly_repeats y l n : orderly y l y -> orderly y (repeats n l) y.
Proof. intros H. induction n as [|n IH]; [apply O_nil|]. cbn [repeats]. eapply orderly_app; eassumption. Qed.
Lemma starvation n :
  orderly sys_init ([Act_Lock 2; Act_Poll 2; Act_Lock 1; Act_Poll 1] ++
    repeats n [Act_Lock 3; Act_Poll 3; Act_Unlock 2; Act_Poll 3; Act_Lock 2; Act_Poll 2; Act_Unlock 3; Act_Poll 2])
    {| y_mutex := {| mx_borrowed := true; mx_queue := [1] |}; y_futures := [(1, true)]; y_guards := [2]; y_scheduled := [] |}.
Proof.
  eapply orderly_app; [|apply orderly_repeats].
  - repeat (eapply O_cons; [vm_compute; reflexivity|try exact I; try (intros X; discriminate X)|]). apply O_nil.
  - repeat (eapply O_cons; [vm_compute; reflexivity|try exact I; try (intros X; discriminate X)|]); [| |apply O_nil];
      intros _; cbn; (split; [intros Y; destruct (Y eq_refl)|intros [Y|[]]; discriminate Y]).
Qed.
