(** Proofs about the channel table. *)
From Verif Require Export BaseFacts SpecSession.
Open Scope res_scope.

Lemma arena_get_bound {T} (a : Arena T) i v : arena_get a i = Some v <-> bound a i v.
Proof.
  unfold bound. revert i. induction a as [|x a IH]; intros i; cbn [arena_get].
  - destruct (N.to_nat i); split; discriminate.
  - destruct (N.eqb_spec i 0) as [->|Z].
    + cbn. split; intros H; [subst x; reflexivity|injection H as ->; reflexivity].
    + replace (N.to_nat i) with (S (N.to_nat (i - 1))) by lia. apply IH.
Qed.
Lemma arena_get_unbound {T} (a : Arena T) i : arena_get a i = None <-> unbound a i.
Proof.
  unfold unbound. split.
  - intros E v H. apply arena_get_bound in H. congruence.
  - intros H. destruct (arena_get a i) as [v|] eqn:E; [|reflexivity]. exfalso. apply arena_get_bound in E. eapply H, E.
Qed.

Lemma arena_slot_spec {T} (a : Arena T) v :
  let '(i, a') := arena_slot a v in
  arena_get a i = None /\ (forall j, j < i -> arena_get a j <> None) /\
  forall j, arena_get a' j = if j =? i then Some v else arena_get a j.
Proof.
  induction a as [|[x|] a IH]; cbn [arena_slot].
  - split; [reflexivity|]. split; [lia|]. intros j. cbn [arena_get]. destruct (j =? 0); reflexivity.
  - destruct (arena_slot a v) as [i a']. destruct IH as (A & D & E).
    split.
    { cbn [arena_get]. replace (1 + i =? 0) with false by lia. replace (1 + i - 1) with i by lia. exact A. }
    split.
    { intros j L. cbn [arena_get]. destruct (N.eqb_spec j 0); [discriminate|]. apply D. lia. }
    intros j. cbn [arena_get]. destruct (N.eqb_spec j 0) as [->|Z].
    + replace (0 =? 1 + i) with false by lia. reflexivity.
    + rewrite E. replace (j - 1 =? i) with (j =? 1 + i) by lia. reflexivity.
  - split; [reflexivity|]. split; [lia|]. intros j. cbn [arena_get]. destruct (j =? 0); reflexivity.
Qed.
Lemma arena_put_get {T} (a : Arena T) i x j : arena_get a i <> None \/ x = None ->
  arena_get (arena_put a i x) j = if j =? i then x else arena_get a j.
Proof.
  revert i j. induction a as [|y a IH]; intros i j H; cbn [arena_put arena_get].
  - destruct H as [H| ->]; [destruct (H eq_refl)|]. destruct (j =? i); reflexivity.
  - destruct (N.eqb_spec i 0) as [->|Z]; cbn [arena_get].
    + destruct (j =? 0); reflexivity.
    + destruct (N.eqb_spec j 0) as [->|Z2].
      * replace (0 =? i) with false by lia. reflexivity.
      * rewrite IH.
        { replace (j - 1 =? i - 1) with (j =? i) by lia. reflexivity. }
        destruct H as [H|H]; [left|right; exact H]. cbn [arena_get] in H. replace (i =? 0) with false in H by lia. exact H.
Qed.

(** In terms of [bound]. *)
Lemma arena_insert_bound {E T} (a : Arena T) v : exists i a',
  unbound a i /\ (forall j, j < i -> exists w, bound a j w) /\
  (forall j w, bound a' j w <-> (if j =? i then w = v else bound a j w)) /\
  arena_insert (E := E) a v = (if i <? 2 ^ 32 then Ok i else Panic, a').
Proof.
  pose proof (arena_slot_spec a v) as S. unfold arena_insert. destruct (arena_slot a v) as [i a'].
  destruct S as (A & D & F). exists i, a'. split; [apply arena_get_unbound, A|]. split.
  { intros j L. specialize (D j L). destruct (arena_get a j) as [w|] eqn:G; [|destruct (D eq_refl)].
    exists w. apply arena_get_bound, G. }
  split.
  { intros j w. rewrite <- arena_get_bound, F. destruct (j =? i).
    - split; [intros H; injection H as ->; reflexivity|intros ->; reflexivity].
    - apply arena_get_bound. }
  unfold u32_try_unwrap, is_u32. reflexivity.
Qed.
Lemma arena_write_bound {T} (a : Arena T) i v w : bound a i v ->
  arena_get a i = Some v /\ forall j u, bound (arena_put a i (Some w)) j u <-> (if j =? i then u = w else bound a j u).
Proof.
  intros H. apply arena_get_bound in H. split; [exact H|]. intros j u. rewrite <- arena_get_bound, arena_put_get by (left; congruence).
  destruct (j =? i).
  - split; [intros X; injection X as ->; reflexivity|intros ->; reflexivity].
  - apply arena_get_bound.
Qed.
Lemma arena_remove_bound {T} (a : Arena T) i :
  let '(x, a') := arena_remove a i in
  (forall v, x = Some v <-> bound a i v) /\ forall j u, bound a' j u <-> j <> i /\ bound a j u.
Proof.
  unfold arena_remove. split; [intros v; apply arena_get_bound|]. intros j u.
  rewrite <- arena_get_bound, arena_put_get by (right; reflexivity).
  destruct (N.eqb_spec j i); rewrite arena_get_bound || idtac.
  - split; [discriminate|]. intros [X _]. destruct (X e).
  - tauto.
Qed.
