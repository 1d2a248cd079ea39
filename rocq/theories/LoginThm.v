(** A login await by await: what a run comes to depends on nothing but what is sent
    and how much is taken. *)
From Coq Require Import Init.Byte Strings.Byte.
From Verif Require Export Login AsyncThm6.
Open Scope res_scope.

(** * What a program comes to, in one go *)
Section Yields.
  Context {A : Type} (lim : N).
  Inductive yields : Lg A -> stream -> bytes -> A -> stream -> bytes -> Prop :=
  | Y_Ret a s o : yields (Lg_Ret a) s o a s o
  | Y_Read n k s o r s1 a s' o' : read_exact n s = (r, s1) -> yields (k r) s1 o a s' o' -> yields (Lg_Read n k) s o a s' o'
  | Y_Write w k s o o1 whole a s' o' : write_lim lim o w = (o1, whole) -> yields (k whole) s o1 a s' o' -> yields (Lg_Write w k) s o a s' o'
  | Y_Call k s o a s' o' : yields k s o a s' o' -> yields (Lg_Call k) s o a s' o'.

  Lemma yields_fun t s o a s' o' : yields t s o a s' o' -> forall b s2 o2, yields t s o b s2 o2 -> a = b /\ s' = s2 /\ o' = o2.
  Proof.
    induction 1 as [a s o|n k s o r s1 a s' o' E Y IH|w k s o o1 whole a s' o' E Y IH|k s o a s' o' Y IH]; intros b s2 o2 Z; inversion Z; subst; auto.
    - apply IH. match goal with X : read_exact _ _ = _ |- _ => rewrite E in X; apply pair_eq in X as [-> ->] end. assumption.
    - apply IH. match goal with X : write_lim _ _ _ = _ |- _ => rewrite E in X; apply pair_eq in X as [-> ->] end. assumption.
  Qed.

  (** ** Pieces *)
  Lemma read_split n i s : i <= n -> i <= len s -> read_exact n s =
    let '(r, s1) := read_exact (n - i) (ndrop i s) in (match r with Ok d => Ok (ntake i s ++ d) | Err e => Err e | Panic => Panic end, s1).
  Proof.
    intros L1 L2. unfold read_exact. rewrite len_ndrop. destruct (N.leb_spec n (len s)), (N.leb_spec (n - i) (len s - i)); try lia; [|reflexivity].
    f_equal; [f_equal|].
    - rewrite <- (ntake_ndrop i (ntake n s)), BaseFacts.ntake_ntake, N.min_l by lia. f_equal. unfold ntake, ndrop. rewrite skipn_firstn_comm, N2Nat.inj_sub. reflexivity.
    - rewrite ndrop_ndrop. f_equal. lia.
  Qed.
  Lemma read_all n s : n <= len s -> read_exact n s = (Ok (ntake n s), ndrop n s).
  Proof. intros L. unfold read_exact. destruct (N.leb_spec n (len s)); [reflexivity|lia]. Qed.
  Lemma read_eof n : 0 < n -> read_exact n [] = (Err UnexpectedEof, []).
  Proof. intros L. unfold read_exact. change (len (@nil byte)) with 0. destruct (N.leb_spec n 0); [lia|reflexivity]. Qed.
  Lemma write_split w i o : i <= len w -> len o + i <= lim -> write_lim lim o w = write_lim lim (o ++ ntake i w) (ndrop i w).
  Proof.
    intros L1 L2. unfold write_lim. rewrite len_app, len_ndrop, len_ntake, <- app_assoc, ntake_ndrop.
    destruct (N.leb_spec (len o + len w) lim), (N.leb_spec (len o + N.min i (len w) + (len w - i)) lim); try lia; reflexivity.
  Qed.
  Lemma write_all w o : len o + len w <= lim -> write_lim lim o w = (o ++ w, true).
  Proof. intros L. unfold write_lim. destruct (N.leb_spec (len o + len w) lim); [reflexivity|lia]. Qed.
  Lemma write_none w o : w <> [] -> len o = lim -> write_lim lim o w = (o, false).
  Proof.
    intros D L. unfold write_lim. destruct (N.leb_spec (len o + len w) lim).
    - assert (len w = 0) by lia. destruct w; [congruence|]. unfold len in *. cbn in *. lia.
    - f_equal. apply ntake_app. symmetry. exact L.
  Qed.
  Lemma write_fits w o o1 whole : len o <= lim -> write_lim lim o w = (o1, whole) -> len o1 <= lim /\ begins o o1.
  Proof.
    intros L E. unfold write_lim in E. destruct (N.leb_spec (len o + len w) lim); apply pair_eq in E as [<- _].
    - split; [rewrite len_app; lia|]. exists w. reflexivity.
    - split; [rewrite len_ntake; lia|]. exists (ntake (lim - len o) w). apply ntake_app_ge, L.
  Qed.

  (** ** Steps *)
  Definition comes_to (g : Going A) (a : A) (s' : stream) (o' : bytes) : Prop := yields (g_co g) (g_in g) (g_out g) a s' o'.
  Lemma step_yields e g g' : len (g_out g) <= lim -> g_step lim e g = Some g' ->
    len (g_out g') <= lim /\ forall a s' o', comes_to g a s' o' <-> comes_to g' a s' o'.
  Proof.
    destruct g as [co s o]. unfold comes_to, g_step. cbn [g_co g_in g_out]. intros L E. destruct e, co as [a|n' k|w k|k]; try discriminate E.
    - destruct (N.eqb_spec n' 0) as [->|]; [|discriminate E]. apply Some_inj in E. subst g'. cbn [g_co g_in g_out]. split; [exact L|].
      assert (Q : read_exact 0 s = (Ok [], s)) by (unfold read_exact; destruct (N.leb_spec 0 (len s)); [reflexivity|lia]).
      intros a s' o'. split; intros Y; [|exact (Y_Read _ _ _ _ _ _ _ _ _ Q Y)]. inversion Y; subst. rewrite Q in *.
      match goal with X : (_, _) = _ |- _ => apply pair_eq in X as [<- <-] end. assumption.
    - destruct w; [|discriminate E]. apply Some_inj in E. subst g'. cbn [g_co g_in g_out]. split; [exact L|].
      assert (Q : write_lim lim o [] = (o, true)) by (rewrite write_all, app_nil_r; [reflexivity|]; change (len (@nil byte)) with 0; lia).
      intros a s' o'. split; intros Y; [|exact (Y_Write _ _ _ _ _ _ _ _ _ Q Y)]. inversion Y; subst. rewrite Q in *.
      match goal with X : (_, _) = _ |- _ => apply pair_eq in X as [<- <-] end. assumption.
    - destruct (N.ltb_spec 0 n), (N.leb_spec n n'), (N.leb_spec n (len s)); try discriminate E. apply Some_inj in E. subst g'. cbn [g_co g_in g_out]. split; [exact L|].
      destruct (N.eqb_spec n n') as [->|D].
      + intros a s' o'. split; intros Y; [|exact (Y_Read _ _ _ _ _ _ _ _ _ (read_all _ _ H1) Y)]. inversion Y; subst. rewrite read_all in * by assumption.
        match goal with X : (_, _) = _ |- _ => apply pair_eq in X as [<- <-] end. assumption.
      + pose proof (read_split n' n s H0 H1) as Q. destruct (read_exact (n' - n) (ndrop n s)) as [r s1] eqn:R. intros a s' o'. split; intros Y.
        * inversion Y; subst. rewrite Q in *. match goal with X : (_, _) = _ |- _ => apply pair_eq in X as [<- <-] end. eapply Y_Read; [exact R|assumption].
        * inversion Y; subst. rewrite R in *. match goal with X : (_, _) = _ |- _ => apply pair_eq in X as [<- <-] end. eapply Y_Read; [exact Q|assumption].
    - destruct (N.ltb_spec 0 n'); [|discriminate E]. destruct s as [|b s]; [|discriminate E]. apply Some_inj in E. subst g'. cbn [g_co g_in g_out]. split; [exact L|].
      assert (Q : read_exact n' [] = (Err UnexpectedEof, [])) by (apply read_eof; assumption).
      intros a s' o'. split; intros Y; [|exact (Y_Read _ _ _ _ _ _ _ _ _ Q Y)]. inversion Y; subst. rewrite Q in *.
      match goal with X : (_, _) = _ |- _ => apply pair_eq in X as [<- <-] end. assumption.
    - apply Some_inj in E. subst g'. cbn [g_co g_in g_out]. split; [exact L|]. intros a s' o'. split; intros Y; [inversion Y; assumption|constructor; exact Y].
    - destruct (N.ltb_spec 0 n), (N.leb_spec n (len w)), (N.leb_spec (len o + n) lim); try discriminate E. apply Some_inj in E. subst g'. cbn [g_co g_in g_out].
      split; [rewrite len_app, len_ntake; lia|]. destruct (N.eqb_spec n (len w)) as [->|D].
      + rewrite ntake_all by lia. intros a s' o'. split; intros Y; [|exact (Y_Write _ _ _ _ _ _ _ _ _ (write_all _ _ H1) Y)]. inversion Y; subst. rewrite write_all in * by assumption.
        match goal with X : (_, _) = _ |- _ => apply pair_eq in X as [<- <-] end. assumption.
      + pose proof (write_split w n o H0 H1) as Q. intros a s' o'. split; intros Y; inversion Y; subst; eapply Y_Write; try eassumption; congruence.
    - destruct w as [|b w]; [discriminate E|]. cbn [is_empty negb andb] in E. destruct (N.leb_spec lim (len o)); [|discriminate E].
      apply Some_inj in E. subst g'. cbn [g_co g_in g_out]. split; [exact L|].
      assert (Q : write_lim lim o (b :: w) = (o, false)) by (apply write_none; [discriminate|lia]).
      intros a s' o'. split; intros Y; [|exact (Y_Write _ _ _ _ _ _ _ _ _ Q Y)]. inversion Y; subst. rewrite Q in *.
      match goal with X : (_, _) = _ |- _ => apply pair_eq in X as [<- <-] end. assumption.
  Qed.
  Lemma run_yields es : forall g g', len (g_out g) <= lim -> g_run lim es g = Some g' ->
    len (g_out g') <= lim /\ forall a s' o', comes_to g a s' o' <-> comes_to g' a s' o'.
  Proof.
    induction es as [|e es IH]; intros g g' L E; cbn [g_run] in E.
    - apply Some_inj in E. subst g'. split; [exact L|]. reflexivity.
    - destruct (g_step lim e g) as [g1|] eqn:S; [|discriminate E]. destruct (step_yields e g g1 L S) as [L1 Q1]. destruct (IH _ _ L1 E) as [L2 Q2].
      split; [exact L2|]. intros a s' o'. rewrite Q1. apply Q2.
  Qed.
  Lemma run_app es es' : forall g, g_run (A:=A) lim (es ++ es') g = match g_run lim es g with Some g => g_run lim es' g | None => None end.
  Proof. induction es as [|e es IH]; intros g; cbn [g_run app]; [reflexivity|]. destruct (g_step lim e g); [apply IH|reflexivity]. Qed.

  (** ** Going on, and getting to the end *)
  Definition is_done (g : Going A) : Prop := exists a, g_co g = Lg_Ret a.
  Lemma going g : is_done g \/ exists e g', g_step lim e g = Some g'.
  Proof.
    destruct g as [[a|n k|w k|k] s o]; [left; exists a; reflexivity|right..].
    - destruct (N.eqb_spec n 0) as [->|D]; [exists L_Run; eexists; reflexivity|]. destruct s as [|b s].
      + exists L_End. unfold g_step. cbn [g_co g_in g_out is_empty]. destruct (N.ltb_spec 0 n); [|lia]. eexists. reflexivity.
      + exists (L_Arrive 1). unfold g_step. cbn [g_co g_in g_out]. destruct (N.leb_spec 1 n), (N.leb_spec 1 (len (b :: s))); try (unfold len in *; cbn [length] in *; lia).
        eexists. reflexivity.
    - destruct w as [|b w]; [exists L_Run; eexists; reflexivity|]. destruct (N.leb_spec lim (len o)) as [L|L].
      + exists L_Broken. unfold g_step. cbn [g_co g_in g_out is_empty negb andb]. destruct (N.leb_spec lim (len o)); [|lia]. eexists. reflexivity.
      + exists (L_Taken 1). unfold g_step. cbn [g_co g_in g_out]. destruct (N.leb_spec 1 (len (b :: w))), (N.leb_spec (len o + 1) lim); try (unfold len in *; cbn [length] in *; lia).
        eexists. reflexivity.
    - exists L_Answer. eexists. reflexivity.
  Qed.
  Definition bounded (g : Going A) (n : nat) : Prop := forall es g', g_run lim es g = Some g' -> (length es <= n)%nat.
  Lemma bounded_step g n : (forall e g', g_step lim e g = Some g' -> bounded g' n) -> bounded g (S n).
  Proof.
    intros X [|e es] g' E; cbn [length]; [lia|]. cbn [g_run] in E. destruct (g_step lim e g) as [g1|] eqn:S; [|discriminate E]. specialize (X _ _ S _ _ E). lia.
  Qed.
  Lemma bounded_mono g n m : (n <= m)%nat -> bounded g n -> bounded g m.
  Proof. intros L X es g' E. specialize (X _ _ E). lia. Qed.
  Lemma read_bounded n0 m : forall n k s o, (N.to_nat n <= m)%nat ->
    (forall r s1, read_exact n s = (r, s1) -> bounded {| g_co := k r; g_in := s1; g_out := o |} n0) ->
    bounded {| g_co := Lg_Read n k; g_in := s; g_out := o |} (S (m + n0)).
  Proof.
    induction m as [|m IH]; intros n k s o L X; apply bounded_step; intros e g' E; unfold g_step in E; cbn [g_co g_in g_out] in E; destruct e; try discriminate E.
    - destruct (N.eqb_spec n 0) as [->|]; [|discriminate E]. apply Some_inj in E. subst g'. apply (X (Ok []) s). apply (read_all 0 s). lia.
    - destruct (N.ltb_spec 0 n1), (N.leb_spec n1 n), (N.leb_spec n1 (len s)); try discriminate E. lia.
    - destruct (N.ltb_spec 0 n); [lia|discriminate E].
    - destruct (N.eqb_spec n 0) as [->|]; [|discriminate E]. apply Some_inj in E. subst g'. apply (bounded_mono _ n0); [lia|]. apply (X (Ok []) s). apply (read_all 0 s). lia.
    - destruct (N.ltb_spec 0 n1), (N.leb_spec n1 n), (N.leb_spec n1 (len s)); try discriminate E. apply Some_inj in E. subst g'. destruct (N.eqb_spec n1 n) as [->|D].
      + apply (bounded_mono _ n0); [lia|]. apply X, read_all. assumption.
      + apply IH; [lia|]. intros r s1 R. apply X. rewrite (read_split n n1 s), R by assumption. reflexivity.
    - destruct (N.ltb_spec 0 n); [|discriminate E]. destruct s as [|b s]; [|discriminate E]. apply Some_inj in E. subst g'. apply (bounded_mono _ n0); [lia|]. apply X, read_eof. assumption.
  Qed.
  Lemma write_bounded n0 m : forall w k s o, (length w <= m)%nat -> len o <= lim ->
    (forall o1 whole, write_lim lim o w = (o1, whole) -> bounded {| g_co := k whole; g_in := s; g_out := o1 |} n0) ->
    bounded {| g_co := Lg_Write w k; g_in := s; g_out := o |} (S (m + n0)).
  Proof.
    induction m as [|m IH]; intros w k s o L LO X; apply bounded_step; intros e g' E; unfold g_step in E; cbn [g_co g_in g_out] in E; destruct e; try discriminate E.
    - destruct w; [|discriminate E]. apply Some_inj in E. subst g'. apply X. rewrite write_all, app_nil_r; [reflexivity|]. change (len (@nil byte)) with 0. lia.
    - destruct (N.ltb_spec 0 n), (N.leb_spec n (len w)); try discriminate E. unfold len in *. lia.
    - destruct w; [discriminate E|cbn [length] in L; lia].
    - destruct w; [|discriminate E]. apply Some_inj in E. subst g'. apply (bounded_mono _ n0); [lia|]. apply X. rewrite write_all, app_nil_r; [reflexivity|]. change (len (@nil byte)) with 0. lia.
    - destruct (N.ltb_spec 0 n), (N.leb_spec n (len w)), (N.leb_spec (len o + n) lim); try discriminate E. apply Some_inj in E. subst g'. destruct (N.eqb_spec n (len w)) as [->|D].
      + apply (bounded_mono _ n0); [lia|]. rewrite ntake_all by lia. apply X, write_all. assumption.
      + apply IH.
        * unfold ndrop, len in *. rewrite skipn_length. lia.
        * rewrite len_app, len_ntake. lia.
        * intros o1 whole R. apply X. rewrite (write_split w n o), R by assumption. reflexivity.
    - destruct w as [|b w]; [discriminate E|]. cbn [is_empty negb andb] in E. destruct (N.leb_spec lim (len o)); [|discriminate E]. apply Some_inj in E. subst g'.
      apply (bounded_mono _ n0); [lia|]. apply X, write_none; [discriminate|lia].
  Qed.
  Lemma yields_bounded t s o a s' o' : yields t s o a s' o' -> len o <= lim -> exists n, bounded {| g_co := t; g_in := s; g_out := o |} n.
  Proof.
    induction 1 as [a s o|n k s o r s1 a s' o' E Y IH|w k s o o1 whole a s' o' E Y IH|k s o a s' o' Y IH]; intros L.
    - exists O. intros [|e es] g' R; [cbn; lia|]. cbn [g_run] in R. destruct e; discriminate R.
    - destruct (IH L) as (n0 & B). exists (S (N.to_nat n + n0)). apply read_bounded; [lia|]. intros r' s1' E'. rewrite E in E'. apply pair_eq in E' as [<- <-]. exact B.
    - destruct (IH (proj1 (write_fits _ _ _ _ L E))) as (n0 & B). exists (S (length w + n0)). apply write_bounded; [lia|exact L|].
      intros o1' whole' E'. rewrite E in E'. apply pair_eq in E' as [<- <-]. exact B.
    - destruct (IH L) as (n0 & B). exists (S n0). apply bounded_step. intros e g' R. unfold g_step in R. cbn [g_co g_in g_out] in R. destruct e; try discriminate R.
      apply Some_inj in R. subst g'. exact B.
  Qed.
  Lemma bounded_ends n : forall g, bounded g n -> exists es g', g_run lim es g = Some g' /\ is_done g'.
  Proof.
    induction n as [|n IH]; intros g B; (destruct (going g) as [D|(e & g1 & S)]; [exists [], g; split; [reflexivity|exact D]|]).
    - specialize (B [e] g1). cbn [g_run] in B. rewrite S in B. specialize (B eq_refl). cbn in B. lia.
    - destruct (IH g1) as (es & g' & R & D).
      + intros es g' R. specialize (B (e :: es) g'). cbn [g_run length] in B. rewrite S in B. specialize (B R). lia.
      + exists (e :: es), g'. cbn [g_run]. rewrite S. auto.
  Qed.
  (** ** So far *)
  Lemma yields_begins t s o a s' o' : yields t s o a s' o' -> len o <= lim -> begins o o' /\ len o' <= lim /\ exists d, s = d ++ s'.
  Proof.
    induction 1 as [a s o|n k s o r s1 a s' o' E Y IH|w k s o o1 whole a s' o' E Y IH|k s o a s' o' Y IH]; intros L; auto.
    - split; [exists []; symmetry; apply app_nil_r|]. split; [exact L|]. exists []. reflexivity.
    - destruct (IH L) as (X1 & X2 & d & ->). split; [exact X1|]. split; [exact X2|]. unfold read_exact in E. destruct (n <=? len s); apply pair_eq in E as [_ E].
      + exists (ntake n s ++ d). rewrite <- app_assoc, <- E, ntake_ndrop. reflexivity.
      + exists s. symmetry in E. apply app_eq_nil in E as [_ ->]. symmetry. apply app_nil_r.
    - destruct (write_fits _ _ _ _ L E) as [L1 (x & X)]. destruct (IH L1) as ((y & X1) & X2 & X3). split; [|auto]. exists (x ++ y). rewrite X1, X, <- app_assoc. reflexivity.
  Qed.
End Yields.
