(** The properties of the session phase. *)
From Coq Require Import Init.Byte Strings.Byte.
From Verif Require Export SessionThm3.
Open Scope res_scope.

(** ** Children *)
Lemma two_splits {A} (a b : list A) x y c d : a ++ x :: b = c ++ y :: d ->
  (a = c /\ x = y /\ b = d) \/ (exists m, a = c ++ y :: m) \/ (exists m, c = a ++ x :: m).
Proof.
  revert c. induction a as [|z a IH]; intros [|w c] E; cbn [app] in E; injection E as -> E.
  - left. auto.
  - right. right. exists c. reflexivity.
  - right. left. exists a. reflexivity.
  - apply IH in E as [(-> & -> & ->)|[[m ->]|[m ->]]]; [left; auto|right; left; exists m|right; right; exists m]; reflexivity.
Qed.

Section Properties.
  Context (h : SHandlers).

  Lemma spawn_unique r log l1 c1 p1 n t1 x1 l2 l3 c2 p2 t2 x2 l4 : told h r log ->
    log = l1 ++ SE_Spawn c1 p1 n t1 x1 :: l2 -> log = l3 ++ SE_Spawn c2 p2 n t2 x2 :: l4 ->
    l1 = l3 /\ SE_Spawn c1 p1 n t1 x1 = SE_Spawn c2 p2 n t2 x2 /\ l2 = l4.
  Proof.
    intros T E1 E2. pose proof (spawn_number h r log T _ _ _ _ _ _ _ E1) as N1. pose proof (spawn_number h r log T _ _ _ _ _ _ _ E2) as N2.
    rewrite E1 in E2. apply two_splits in E2 as [E|[[m ->]|[m ->]]]; [exact E| |]; exfalso;
      [rewrite spawns_app in N1|rewrite spawns_app in N2]; unfold spawns in *; cbn [filter is_spawn] in *; rewrite len_cons in *; lia.
  Qed.
  Lemma peer_of_in n p log : peer_of n log = Some p -> exists l1 c ty x l2, log = l1 ++ SE_Spawn c p n ty x :: l2.
  Proof.
    induction log as [|e log IH]; [discriminate|]. intros H.
    assert (K : peer_of n log = Some p -> exists l1 c ty x l2, e :: log = l1 ++ SE_Spawn c p n ty x :: l2).
    { intros E. destruct (IH E) as (l1 & c & ty & x & l2 & ->). exists (e :: l1), c, ty, x, l2. reflexivity. }
    destruct e as [ | |c p0 n0 ty x| | | | ]; cbn [peer_of] in H; try (apply K, H).
    destruct (N.eqb_spec n0 n) as [->|D]; [|apply K, H]. injection H as ->. exists [], c, ty, x, log. reflexivity.
  Qed.
  Lemma in_peer_of n p log l1 c ty x l2 : log = l1 ++ SE_Spawn c p n ty x :: l2 -> peer_of n log <> None.
  Proof.
    intros ->. induction l1 as [|e l1 IH]; cbn [app peer_of].
    - rewrite N.eqb_refl. discriminate.
    - destruct e; auto. destruct (_ =? n); [discriminate|exact IH].
  Qed.
  Lemma peer_of_spawn r log l1 c p n ty x l2 : told h r log -> log = l1 ++ SE_Spawn c p n ty x :: l2 -> peer_of n log = Some p.
  Proof.
    intros T E. pose proof (in_peer_of n p log _ _ _ _ _ E) as N. destruct (peer_of n log) as [p'|] eqn:Q; [|destruct (N eq_refl)].
    apply peer_of_in in Q as (l3 & c' & ty' & x' & l4 & E'). destruct (spawn_unique _ _ _ _ _ _ _ _ _ _ _ _ _ _ _ T E E') as (_ & X & _).
    injection X as _ ->. reflexivity.
  Qed.

  (** ** The stdin of a child *)
  Lemma stdin_data_app n a b : stdin_data n (a ++ b) = stdin_data n a ++ stdin_data n b.
  Proof. apply flat_map_app. Qed.
  Lemma chan_step_child c s e p n : chan_step c s e = Some (p, Some n) ->
    s = Some (p, Some n) \/ exists p' ty io, e = SE_Spawn c p' n ty (Ok io) /\ io_stdin io = true.
  Proof.
    intros H. destruct e as [m|m|i p0 n0 ty io| | | | ]; cbn [chan_step] in H; auto.
    - destruct m as [ | | | | | | | | | | |ch]; auto. destruct ch; auto; destruct (_ =? c); auto; try discriminate H.
      destruct s as [[? ?]|]; discriminate H.
    - destruct m as [ | | | | | | | | | | |ch]; auto. destruct ch; auto; destruct (_ =? c); auto; try discriminate H.
    - destruct io as [io| |]; auto. destruct (N.eqb_spec i c) as [->|D]; auto.
      destruct s as [[? ?]|]; [|discriminate H]. cbn in H. destruct (io_stdin io) eqn:Q; [|discriminate H]. injection H as _ ->. eauto 10.
  Qed.
  Lemma chan_fold_child c evs p n : forall s, fold_left (chan_step c) evs s = Some (p, Some n) ->
    s = Some (p, Some n) \/ exists p' ty io, In (SE_Spawn c p' n ty (Ok io)) evs.
  Proof.
    induction evs as [|e evs IH]; intros s H; cbn [fold_left] in H; auto. apply IH in H as [H|(p' & ty & io & H)].
    - apply chan_step_child in H as [H|(p' & ty & io & -> & _)]; [auto|right]. exists p', ty, io. left. reflexivity.
    - right. exists p', ty, io. right. exact H.
  Qed.
  Lemma turn_spawn_in base t c p n ty x : turn h base t -> In (SE_Spawn c p n ty x) t -> n = spawns base /\ spawns t = 1.
  Proof.
    intros T I. apply in_split in I as (t1 & t2 & ->). destruct (turn_shape h _ _ T) as (s & t' & E & S & _).
    destruct t1 as [|s0 t1]; cbn [app] in *; injection E as E0 E1; subst; [discriminate S|].
    apply turn_spawn in T as (r & q & old & io & -> & -> & _ & -> & _ & _ & _ & _ & _ & ->). split; [reflexivity|].
    unfold spawns. cbn [app filter is_spawn got]. unfold wanted, dropped. destruct old, (rq_want_reply r); reflexivity.
  Qed.
  Lemma spawns_fresh base t n : turn h base t -> n < spawns base -> n < spawns (base ++ t) /\ forall c p ty x, ~ In (SE_Spawn c p n ty x) t.
  Proof.
    intros T L. split; [rewrite spawns_app; lia|]. intros c p ty x I. apply (turn_spawn_in _ _ _ _ _ _ _ T) in I as [-> _]. lia.
  Qed.

  Definition ending (base : list SEvent) (tail : list SEvent) : Prop :=
    tail = [] \/ (exists d, tail = [SE_Received (Msg_Disconnect d)]) \/ crash h base tail.
  Definition idle_child (n : N) (base : list SEvent) : Prop := n < spawns base /\ forall c p, chan_after base c <> Some (p, Some n).
  Lemma idle_turn n base t : turn h base t -> idle_child n base -> idle_child n (base ++ t).
  Proof.
    intros T [L N]. destruct (spawns_fresh _ _ _ T L) as [L2 F]. split; [exact L2|]. intros c p H. rewrite chan_after_app in H.
    apply chan_fold_child in H as [H|(p' & ty & io & H)]; [eapply N, H|eapply F, H].
  Qed.
  Lemma no_stdin_quiet n old r c : stdin_data n (dropped old ++ wanted r c) = [].
  Proof. unfold dropped, wanted. destruct old, (rq_want_reply r); reflexivity. Qed.
  Lemma no_stdin_drop n old : stdin_data n (dropped old) = [].
  Proof. destruct old; reflexivity. Qed.
  Lemma no_stdin_want n r c : stdin_data n (wanted r c) = [].
  Proof. unfold wanted. destruct (rq_want_reply r); reflexivity. Qed.
  Ltac tcases T := destruct T as [o i H1 H2|r q ty0 p0 old io H1 H2 H3 H4|r q p0 old H1 H2 H3|c0 d0 p0 n0 k H1 H2|c0 p0 old H1|c0|d0|err n0 p0 d0 H1 H2|n0 p0 H1|n0 p0 H1|n0 p0 st H1 H2].
  Lemma idle_stdin n base t : turn h base t -> idle_child n base -> stdin_data n t = [].
  Proof.
    intros T [L N]. tcases T; try reflexivity.
    - exact (no_stdin_quiet n old r (C_Success p0)).
    - exact (no_stdin_want n r (C_Failure p0)).
    - cbn. destruct (N.eqb_spec n0 n) as [->|]; [|reflexivity]. destruct (N _ _ H1).
    - exact (no_stdin_drop n old).
    - exact (no_stdin_drop n _).
  Qed.
  Lemma idle_end n base tail : ending base tail -> idle_child n base -> stdin_data n tail = [].
  Proof.
    intros [->|[[d ->]|X]] [L N]; try reflexivity. destruct X; try reflexivity.
    cbn. destruct (N.eqb_spec n0 n) as [->|]; [|reflexivity]. destruct (N _ _ H).
  Qed.
  Lemma data_inactive n ts tail : forall base, turns h base ts -> ending (base ++ concat ts) tail -> idle_child n base ->
    stdin_data n (concat ts ++ tail) = [].
  Proof.
    induction ts as [|t ts IH]; intros base Ts En I.
    - cbn [concat app] in *. rewrite app_nil_r in En. eapply idle_end; eassumption.
    - inversion Ts; subst. cbn [concat]. rewrite <- app_assoc, stdin_data_app. rewrite (idle_stdin n base t) by assumption.
      apply (IH (base ++ t)); [assumption| |apply idle_turn; assumption]. rewrite <- app_assoc. exact En.
  Qed.

  Definition busy_child (n c : N) (base : list SEvent) : Prop :=
    n < spawns base /\ (exists p, chan_after base c = Some (p, Some n)) /\ forall c' p, chan_after base c' = Some (p, Some n) -> c' = c.
  Lemma busy_turn n c base t : turn h base t -> busy_child n c base ->
    (exists p, chan_after (base ++ t) c = Some (p, Some n)) -> busy_child n c (base ++ t).
  Proof.
    intros T (L & P & U) P'. destruct (spawns_fresh _ _ _ T L) as [L2 F]. split; [exact L2|]. split; [exact P'|].
    intros c' p H. rewrite chan_after_app in H. apply chan_fold_child in H as [H|(p' & ty & io & H)]; [eapply U, H|exfalso; eapply F, H].
  Qed.
  Lemma busy_end n c base t : turn h base t -> busy_child n c base ->
    (forall p, chan_after (base ++ t) c <> Some (p, Some n)) -> idle_child n (base ++ t).
  Proof.
    intros T (L & P & U) P'. destruct (spawns_fresh _ _ _ T L) as [L2 F]. split; [exact L2|].
    intros c' p H. pose proof H as H0. rewrite chan_after_app in H. apply chan_fold_child in H as [H|(p' & ty & io & H)]; [|exfalso; eapply F, H].
    apply U in H. subst c'. eapply P', H0.
  Qed.
  Definition calm (e : SEvent) : Prop :=
    match e with
    | SE_Received (Msg_Channel (C_Data _ _)) | SE_Received (Msg_Channel (C_Eof _)) | SE_Received (Msg_Channel (C_Close _)) | SE_Spawn _ _ _ _ _ => False
    | SE_Sent (Msg_Channel (C_OpenConfirmation _)) => False
    | _ => True
    end.
  Lemma data_until_calm c a b : Forall calm a -> data_until c (a ++ b) = data_until c b.
  Proof.
    intros F. induction F as [|e a Q F IH]; [reflexivity|]. cbn [app data_until]. destruct e as [m| | | | | | ]; auto; [|destruct Q].
    destruct m as [ | | | | | | | | | | |ch]; auto. destruct ch; auto; destruct Q.
  Qed.
  Lemma chan_calm c a : Forall calm a -> forall s, fold_left (chan_step c) a s = s.
  Proof.
    intros F. induction F as [|e a Q F IH]; intros s; [reflexivity|]. cbn [fold_left].
    replace (chan_step c s e) with s; [apply IH|]. destruct e as [m|m| | | | | ]; try reflexivity; [| |destruct Q].
    - destruct m as [ | | | | | | | | | | |ch]; try reflexivity. destruct ch; try reflexivity; destruct Q.
    - destruct m as [ | | | | | | | | | | |ch]; try reflexivity. destruct ch; try reflexivity; destruct Q.
  Qed.
  Lemma calm_drop old : Forall calm (dropped old).
  Proof. destruct old; repeat constructor. Qed.
  Lemma calm_want r c : (forall o, c <> C_OpenConfirmation o) -> Forall calm (wanted r c).
  Proof. intros H. unfold wanted. destruct (rq_want_reply r); repeat constructor. cbn. destruct c; try exact I. destruct (H o eq_refl). Qed.

  (** A turn adds to a child's stdin what the client sent, or stops it. *)
  Lemma busy_step n c base t : turn h base t -> busy_child n c base ->
    (exists d, stdin_data n t = d /\ (forall l, data_until c (t ++ l) = d ++ data_until c l) /\ busy_child n c (base ++ t)) \/
    (stdin_data n t = [] /\ (forall l, data_until c (t ++ l) = []) /\ idle_child n (base ++ t)).
  Proof.
    intros T B. pose proof T as T0. pose proof B as (L & (p & P) & U).
    assert (Cm : Forall calm t -> stdin_data n t = [] ->
      exists d, stdin_data n t = d /\ (forall l, data_until c (t ++ l) = d ++ data_until c l) /\ busy_child n c (base ++ t)).
    { intros F S. exists []. split; [exact S|]. split; [intros l; cbn [app]; apply data_until_calm, F|].
      apply busy_turn; [exact T|exact B|]. exists p. rewrite chan_after_app, chan_calm by exact F. exact P. }
    tcases T.
    - left. exists []. split; [reflexivity|]. split; [reflexivity|]. apply busy_turn; [exact T0|exact B|]. exists p.
      rewrite chan_after_app. cbn [fold_left chan_step got put confirmation oc_sender]. replace (i =? c) with false; [exact P|].
      symmetry. apply N.eqb_neq. intros ->. destruct H1 as [H1 _]. congruence.
    - pose proof (no_stdin_quiet n old r (C_Success p0)) as SQ.
      assert (FQ : Forall calm (dropped old ++ wanted r (C_Success p0))) by (apply Forall_app; split; [apply calm_drop|apply calm_want; discriminate]).
      destruct (N.eqb_spec (rq_recipient r) c) as [E|E].
      + right. split; [exact SQ|]. split.
        { intros l. cbn [app data_until got]. rewrite E, N.eqb_refl. reflexivity. }
        apply (busy_end n c); [exact T0|exact B|]. intros p'. rewrite chan_after_app. cbn [app fold_left chan_step got].
        rewrite E, N.eqb_refl, chan_calm by exact FQ. rewrite P. cbn. destruct (io_stdin io); [|discriminate].
        intros X. injection X as _ X. rewrite X in L. exact (N.lt_irrefl _ L).
      + left. exists []. split; [exact SQ|]. split.
        { intros l. cbn [app data_until got]. replace (_ =? c) with false by (symmetry; apply N.eqb_neq, E). apply data_until_calm, FQ. }
        apply busy_turn; [exact T0|exact B|]. exists p. rewrite chan_after_app. cbn [app fold_left chan_step got].
        replace (_ =? c) with false by (symmetry; apply N.eqb_neq, E). rewrite chan_calm by exact FQ. exact P.
    - left. apply Cm; [constructor; [exact I|apply calm_want; discriminate]|]. apply (no_stdin_want n r (C_Failure p0)).
    - left. exists (if n0 =? n then [d0] else []). split; [cbn; destruct (n0 =? n); reflexivity|]. split.
      + intros l. cbn [app data_until got]. destruct (N.eqb_spec c0 c) as [->|D].
        * rewrite P in H1. injection H1 as _ <-. rewrite N.eqb_refl. reflexivity.
        * destruct (N.eqb_spec n0 n) as [->|]; [destruct (D (U _ _ H1))|reflexivity].
      + apply busy_turn; [exact T0|exact B|]. exists p. rewrite chan_after_app. exact P.
    - destruct (N.eqb_spec c0 c) as [->|D].
      + right. split; [apply (no_stdin_drop n old)|]. split; [intros l; cbn [app data_until got]; rewrite N.eqb_refl; reflexivity|].
        apply (busy_end n c); [exact T0|exact B|]. intros p'. rewrite chan_after_app. cbn [fold_left chan_step got].
        rewrite N.eqb_refl, chan_calm by apply calm_drop. rewrite P. discriminate.
      + left. exists []. split; [apply (no_stdin_drop n old)|]. split.
        { intros l. cbn [app data_until got]. replace (_ =? c) with false by (symmetry; apply N.eqb_neq, D). apply data_until_calm, calm_drop. }
        apply busy_turn; [exact T0|exact B|]. exists p. rewrite chan_after_app. cbn [fold_left chan_step got].
        replace (_ =? c) with false by (symmetry; apply N.eqb_neq, D). rewrite chan_calm by apply calm_drop. exact P.
    - set (old := match chan_after base c0 with Some (_, old) => old | None => None end) in *. clearbody old.
      destruct (N.eqb_spec c0 c) as [->|D].
      + right. split; [apply (no_stdin_drop n old)|]. split; [intros l; cbn [app data_until got]; rewrite N.eqb_refl; reflexivity|].
        apply (busy_end n c); [exact T0|exact B|]. intros p'. rewrite chan_after_app. cbn [fold_left chan_step got].
        rewrite N.eqb_refl, chan_calm by apply calm_drop. discriminate.
      + left. exists []. split; [apply (no_stdin_drop n old)|]. split.
        { intros l. cbn [app data_until got]. replace (_ =? c) with false by (symmetry; apply N.eqb_neq, D). apply data_until_calm, calm_drop. }
        apply busy_turn; [exact T0|exact B|]. exists p. rewrite chan_after_app. cbn [fold_left chan_step got].
        replace (_ =? c) with false by (symmetry; apply N.eqb_neq, D). rewrite chan_calm by apply calm_drop. exact P.
    - left. apply Cm; [repeat constructor|reflexivity].
    - left. apply Cm; [repeat constructor|reflexivity].
    - left. apply Cm; [repeat constructor|reflexivity].
    - left. apply Cm; [repeat constructor|reflexivity].
    - left. apply Cm; [repeat constructor|reflexivity].
  Qed.
  Lemma busy_tail n c base tail : ending base tail -> busy_child n c base -> stdin_data n tail = data_until c tail.
  Proof.
    intros [->|[[d ->]|X]] (L & (p & P) & U); try reflexivity.
    destruct X as [o i H1 H2|m H|m c0 H1 H2|r H1 H2|r q ty p0 old x H1 H2 H3 H4 H5|c0 d p0 H1|c0 d p0 n0 x H1 H2 H3]; try reflexivity.
    - destruct m as [ | | | | | | | | | | |ch]; try reflexivity. destruct ch; try reflexivity; discriminate H.
    - assert (D : c0 <> c) by congruence. apply N.eqb_neq in D.
      destruct m as [ | | | | | | | | | | |ch]; try reflexivity. destruct ch; try discriminate H1; injection H1; intros Q0; subst c0; cbn; rewrite ?D; reflexivity.
    - cbn. destruct (_ =? c); reflexivity.
    - cbn. replace (c0 =? c) with false; [reflexivity|]. symmetry. apply N.eqb_neq. intros ->. congruence.
    - cbn. destruct (N.eqb_spec c0 c) as [->|D].
      + rewrite P in H1. injection H1 as _ <-. rewrite N.eqb_refl. reflexivity.
      + destruct (N.eqb_spec n0 n) as [->|]; [destruct (D (U _ _ H1))|reflexivity].
  Qed.
  Lemma data_active n c ts tail : forall base, turns h base ts -> ending (base ++ concat ts) tail -> busy_child n c base ->
    stdin_data n (concat ts ++ tail) = data_until c (concat ts ++ tail).
  Proof.
    induction ts as [|t ts IH]; intros base Ts En B.
    - cbn [concat app] in *. rewrite app_nil_r in En. eapply busy_tail; eassumption.
    - inversion Ts; subst. cbn [concat] in *. rewrite app_assoc in En. rewrite <- app_assoc, stdin_data_app.
      destruct (busy_step n c base t) as [(d & -> & -> & B2)|(-> & -> & I2)]; try assumption.
      + f_equal. apply (IH (base ++ t)); assumption.
      + cbn [app]. apply (data_inactive n ts tail (base ++ t)); assumption.
  Qed.
End Properties.
