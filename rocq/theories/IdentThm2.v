(** Exactly which preceding lines leave the identification string alone. *)
From Coq Require Import Init.Byte Strings.Byte.
From Verif Require Export IdentThm ChannelThm SpecMore.
Open Scope res_scope.

Definition mistaken (l : bytes) : Prop := exists k t, l = repeat x53 (2 + k) ++ B "H-" ++ t.

Lemma ss_cases l : forall k, (~ trap (repeat x53 (2 + k) ++ l)) \/ swallows (repeat x53 (2 + k) ++ l) \/ mistaken (repeat x53 (2 + k) ++ l).
Proof.
  induction l as [|b l IH]; intros k.
  - right. left. exists (2 + k)%nat. left. apply app_nil_r.
  - destruct (beq b x53) eqn:E1.
    + apply beq_true in E1. subst b.
      replace (repeat x53 (2 + k) ++ x53 :: l) with (repeat x53 (2 + S k) ++ l); [apply IH|].
      replace (2 + S k)%nat with (S (2 + k)) by lia. rewrite <- Nat.add_1_r, repeat_app, <- app_assoc. reflexivity.
    + assert (N : b <> x53) by (intros ->; discriminate E1).
      (* the head of a trap after its S's *)
      assert (G : forall j k r r', repeat x53 j ++ b :: r = repeat x53 k ++ r' -> (forall r'', r' <> x53 :: r'') -> r' = b :: r).
      { clear - N. induction j as [|j IH]; intros [|k] r r' E Z; cbn [repeat app] in E.
        - symmetry. exact E.
        - injection E as E _. congruence.
        - exfalso. exact (Z _ (eq_sym E)).
        - injection E as E. exact (IH k r r' E Z). }
      assert (G0 : forall j k r, repeat x53 j ++ b :: r <> repeat x53 k).
      { intros j k0 r E. pose proof (G j k0 r [] ltac:(rewrite app_nil_r; exact E) ltac:(discriminate)) as X. discriminate X. }
      destruct (beq b x48) eqn:E2.
      * apply beq_true in E2. subst b. destruct l as [|c l].
        -- right. left. exists k. right. reflexivity.
        -- destruct (beq c x2d) eqn:E3.
           ++ apply beq_true in E3. subst c. right. right. exists k, l. reflexivity.
           ++ left. intros (j & t & [E|[E|E]]).
              ** exact (G0 _ _ _ E).
              ** apply G in E; [discriminate E|discriminate].
              ** apply G in E; [|discriminate]. injection E as E _. rewrite <- E in E3. discriminate E3.
      * left. intros (j & t & [E|[E|E]]).
        -- exact (G0 _ _ _ E).
        -- apply G in E; [|discriminate]. injection E as E _. rewrite <- E in E2. discriminate E2.
        -- apply G in E; [|discriminate]. injection E as E _. rewrite <- E in E2. discriminate E2.
Qed.
Lemma line_cases l : (~ trap l) \/ swallows l \/ mistaken l.
Proof.
  destruct l as [|a l]; [right; left; exists 0%nat; left; reflexivity|].
  destruct (beq a x53) eqn:E1.
  2:{ left. intros (j & t & [E|[E|E]]); [destruct j; [discriminate E|]| |]; injection E as E _; rewrite E in E1; discriminate E1. }
  apply beq_true in E1. subst a.
  destruct l as [|b l]; [right; left; exists 1%nat; left; reflexivity|].
  destruct (beq b x53) eqn:E2.
  2:{ left. intros (j & t & [E|[E|E]]); [destruct j as [|[|j]]; [discriminate E|discriminate E|]| |];
        injection E as E _; rewrite E in E2; discriminate E2. }
  apply beq_true in E2. subst b. exact (ss_cases l 0).
Qed.

Lemma scan_ss k : forall s, ident_scan St_SS (repeat x53 k ++ s) = ident_scan St_SS s.
Proof. induction k as [|k IH]; intros s; [reflexivity|]. cbn [repeat app ident_scan ident_step]. apply IH. Qed.
Lemma scan_swallow l s : swallows l -> ident_scan St_EolLf (l ++ crlf ++ s) = ident_scan St_Ignore s.
Proof.
  intros [k [->| ->]].
  - destruct k as [|[|k]]; [reflexivity|reflexivity|].
    change (ident_scan St_SS (repeat x53 k ++ crlf ++ s) = ident_scan St_Ignore s). rewrite scan_ss. reflexivity.
  - change (ident_scan St_SS ((repeat x53 k ++ B "H") ++ crlf ++ s) = ident_scan St_Ignore s).
    rewrite <- app_assoc, scan_ss. reflexivity.
Qed.
Lemma scan_mistaken k t s : ident_scan St_EolLf ((repeat x53 (2 + k) ++ B "H-" ++ t) ++ s) = (Ok tt, t ++ s).
Proof.
  change (ident_scan St_SS ((repeat x53 k ++ B "H-" ++ t) ++ s) = (Ok tt, t ++ s)).
  rewrite <- !app_assoc, scan_ss. reflexivity.
Qed.

(** Whatever is ignored up to its CR LF, or past it. *)
Lemma scan_long l s : forall st, (st = St_Ignore /\ ~ has_crlf l) \/ (st = St_EolCr /\ ~ has_crlf (cr :: l)) ->
  ident_scan st (l ++ crlf ++ s) = ident_scan St_EolLf s \/ ident_scan st (l ++ crlf ++ s) = ident_scan St_Ignore s.
Proof.
  induction l as [|b l IH]; intros st [[-> H]|[-> H]].
  - left. reflexivity.
  - right. reflexivity.
  - cbn [app ident_scan ident_step]. destruct (beq b cr) eqn:E; apply IH.
    + apply beq_true in E. subst b. right. auto.
    + left. split; [reflexivity|]. eapply no_crlf_cons, H.
  - cbn [app ident_scan ident_step]. destruct (beq b lf) eqn:E.
    + exfalso. apply beq_true in E. subst b. apply H. exists [], l. reflexivity.
    + apply IH. left. split; [reflexivity|]. eapply no_crlf_cons, no_crlf_cons, H.
Qed.

Lemma scan_shrinks s : forall st s', ident_scan st s = (Ok tt, s') -> len s' < len s.
Proof.
  induction s as [|b s IH]; intros st s' H; cbn [ident_scan] in H; [discriminate H|]. rewrite len_cons.
  destruct (ident_step st b); [apply IH in H; lia|]. apply pair_eq in H as [_ <-]. lia.
Qed.
Lemma body_shrinks s : forall g acc r s', ident_body g acc s = (r, s') -> len s' <= len s.
Proof.
  induction s as [|b s IH]; intros g acc r s' H; cbn [ident_body] in H; [apply pair_eq in H as [_ <-]; lia|].
  rewrite len_cons. destruct (ident_body_step g acc b) as [[a|[g' a]]| |]; try (apply pair_eq in H as [_ <-]; lia).
  apply IH in H. lia.
Qed.
Definition after_scan (r : res ParseIdentError unit * stream) : res ParseIdentError bytes * stream :=
  match r with
  | (Err e, s) => (Err e, s)
  | (Panic, s) => (Panic, s)
  | (Ok _, s) =>
    match read_exact 4 s with
    | (Err e, s) => (Err (Ident_Io e), s)
    | (Panic, s) => (Panic, s)
    | (Ok b, s) =>
      if negb (bytes_eqb b (B "2.0-")) then (Err IncompatibleProtocol, s)
      else
        match ident_push_all [] (B "SSH-2.0-") with
        | Err e => (Err e, s)
        | Panic => (Panic, s)
        | Ok acc =>
          match ident_body false acc s with
          | (Err e, s) => (Err e, s)
          | (Panic, s) => (Panic, s)
          | (Ok acc, s) => (ok_or (Identifier_new acc) IdentifierTooLong, s)
          end
        end
    end
  end.
Lemma parse_scan s : ident_parse s = after_scan (ident_scan St_EolLf s).
Proof. reflexivity. Qed.
Lemma after_shrinks st s id s' : after_scan (ident_scan st s) = (Ok id, s') -> len s' < len s.
Proof.
  unfold after_scan. destruct (ident_scan st s) as [[[]| |] s1] eqn:E; try discriminate. apply scan_shrinks in E.
  unfold read_exact. destruct (4 <=? len s1) eqn:L; [|discriminate].
  destruct (negb _); [discriminate|]. change (ident_push_all [] (B "SSH-2.0-")) with (@Ok ParseIdentError bytes (B "SSH-2.0-")). cbn iota.
  destruct (ident_body false (B "SSH-2.0-") (ndrop 4 s1)) as [[a| |] s2] eqn:Q; try discriminate.
  apply body_shrinks in Q. intros X. apply pair_eq in X as [_ <-]. revert Q. lens. lia.
Qed.

(** A line taken for the identification string ends what is read. *)
Lemma body_line v s : Forall (fun b => b <> cr) v -> forall acc a s', ident_body false acc (v ++ crlf ++ s) = (Ok a, s') -> s' = s.
Proof.
  induction 1 as [|b v Hb _ IH]; intros acc a s' H.
  - cbn in H. apply pair_eq in H as [_ <-]. reflexivity.
  - cbn [app ident_body ident_body_step] in H. apply beq_false in Hb. rewrite Hb in H.
    unfold ident_push in H. destruct (len acc <? 253); cbn [bind] in H; [|discriminate H]. exact (IH _ _ _ H).
Qed.
Lemma mistaken_ends l s id s' : Forall (fun b => b <> cr) l -> mistaken l -> ident_parse (l ++ crlf ++ s) = (Ok id, s') -> s' = s.
Proof.
  intros F (k & t & ->) H. rewrite parse_scan, scan_mistaken in H. unfold after_scan, read_exact in H.
  apply Forall_app in F as [_ F]. apply Forall_app in F as [_ F].
  destruct (4 <=? len (t ++ crlf ++ s)) eqn:L; [|discriminate H].
  destruct (negb _) eqn:E; [discriminate H|]. apply negb_false_iff, bytes_eqb_true in E.
  change (ident_push_all [] (B "SSH-2.0-")) with (@Ok ParseIdentError bytes (B "SSH-2.0-")) in H. cbn iota in H.
  destruct t as [|b0 [|b1 [|b2 [|b3 t]]]]; try discriminate E.
  change (ndrop 4 ((b0 :: b1 :: b2 :: b3 :: t) ++ crlf ++ s)) with (t ++ crlf ++ s) in H.
  destruct (ident_body false (B "SSH-2.0-") (t ++ crlf ++ s)) as [[a| |] s2] eqn:Q; try discriminate H.
  apply pair_eq in H as [_ <-]. do 4 (inversion F as [|? ? _ F']; subst; clear F; rename F' into F).
  exact (body_line t s F _ _ _ Q).
Qed.

Lemma as_lines_cons l ls s : as_lines (l :: ls) ++ s = l ++ crlf ++ as_lines ls ++ s.
Proof. unfold as_lines. cbn [map concat]. rewrite <- !app_assoc. reflexivity. Qed.

Lemma heard_exact : forall ls id s, Forall (Forall (fun b => b <> x0d)) ls -> ident_ok id ->
  (ident_parse (as_lines ls ++ ident_send id ++ s) = (Ok id, s) <-> heard ls).
Proof.
  intros ls id s F I. split.
  - remember (length ls) as n eqn:En. assert (Ln : (length ls <= n)%nat) by lia. clear En. revert ls F Ln.
    induction n as [|n IH]; intros ls F Ln H.
    { destruct ls; [constructor|cbn in Ln; lia]. }
    destruct ls as [|l ls]; [constructor|]. cbn [length] in Ln. inversion F as [|? ? F1 F2]; subst. rewrite as_lines_cons in H.
    destruct (line_cases l) as [T|[W|M]].
    + apply Heard_skip; [exact T|]. apply IH; [exact F2|lia|]. rewrite parse_scan, scan_skips in H by assumption. exact H.
    + rewrite parse_scan, scan_swallow in H by exact W. destruct ls as [|l' ls].
      * exfalso. destruct I as (_ & NC & _). unfold as_lines, ident_send in H. cbn [map concat app] in H. rewrite <- app_assoc in H.
        destruct (scan_long id s St_Ignore (or_introl (conj eq_refl NC))) as [E|E]; unfold crlf, cr, lf in *; rewrite E in H;
          apply after_shrinks in H; lia.
      * inversion F2 as [|? ? F3 F4]; subst. apply Heard_pair; [exact W|]. apply IH; [exact F4|cbn in Ln; lia|].
        rewrite as_lines_cons, scan_ignore in H by exact F3. exact H.
    + exfalso. apply mistaken_ends in H; [|exact F1|exact M]. apply (f_equal len) in H. revert H. unfold ident_send. lens.
      change (len [cr; lf]) with 2. lia.
  - intros H. induction H as [|l ls T _ IH|l l' ls W _ IH].
    + apply ident_round, I.
    + inversion F as [|? ? F1 F2]; subst. rewrite as_lines_cons, parse_scan, scan_skips by assumption. apply IH, F2.
    + inversion F as [|? ? F1 F2]; subst. inversion F2 as [|? ? F3 F4]; subst.
      rewrite !as_lines_cons, parse_scan, scan_swallow by assumption. rewrite scan_ignore by exact F3. apply IH, F4.
Qed.

(** A lone swallowing line before any identification string ends the exchange. *)
Lemma swallowed l id : swallows l -> ident_ok id -> ident_parse (as_lines [l] ++ ident_send id) = (Err (Ident_Io UnexpectedEof), []).
Proof.
  intros W (_ & NC & _). rewrite as_lines_cons, parse_scan, scan_swallow by exact W. unfold as_lines, ident_send. cbn [map concat app].
  pose proof (scan_long id [] St_Ignore (or_introl (conj eq_refl NC))) as X. unfold crlf in X. cbn [app] in X.
  change [cr; lf] with [x0d; x0a]. destruct X as [X|X]; rewrite X; reflexivity.
Qed.
(** Such lines are allowed before the identification string. *)
Lemma swallows_other l : swallows l -> other_line l.
Proof.
  intros W.
  assert (NC : Forall (fun b => b <> cr) l).
  { destruct W as [k [->| ->]]; [|apply Forall_app; split; [|repeat constructor; discriminate]];
      apply Forall_forall; intros b X; apply repeat_spec in X; subst b; discriminate. }
  split.
  - intros [v E]. destruct W as [k [->| ->]].
    + destruct k as [|[|[|k]]]; discriminate E.
    + destruct k as [|[|k]]; discriminate E.
  - intros (a & b & ->). apply Forall_app in NC as [_ NC]. inversion NC as [|? ? X _]; subst. apply X. reflexivity.
Qed.
