(** Identification strings. *)
From Coq Require Import Init.Byte Strings.Byte.
From Verif Require Export Ident SpecIdent PacketFacts.
Open Scope res_scope.

Lemma scan_ssh st s : st = St_EolLf -> ident_scan st (B "SSH-" ++ s) = (Ok tt, s).
Proof. intros ->. reflexivity. Qed.

(** ** The body *)
(** What is still to come, when [got_cr], includes the CR already read. *)
Lemma no_crlf_cons b l : ~ has_crlf (b :: l) -> ~ has_crlf l.
Proof. intros H (x & y & ->). apply H. exists (b :: x), y. reflexivity. Qed.

Lemma body_reads v : forall g acc s,
  ~ has_crlf ((if g : bool then [cr] else []) ++ v) ->
  len acc + (if g then 1 else 0) + len v <= 253 ->
  ident_body g acc (v ++ crlf ++ s) = (Ok (acc ++ (if g then [cr] else []) ++ v), s).
Proof.
  induction v as [|b v IH]; intros g acc s Hn Hl.
  - destruct g; cbn [app crlf ident_body ident_body_step].
    + change (beq x0d cr) with true. cbn iota. unfold ident_push.
      replace (len acc <? 253) with true by (rewrite len_nil in Hl; lia). cbn [bind].
      change (beq x0a cr) with false. change (beq x0a lf) with true. cbn iota. reflexivity.
    + change (beq x0d cr) with true. cbn iota beta.
      change (beq x0a cr) with false. change (beq x0a lf) with true. cbn iota beta. rewrite app_nil_r. reflexivity.
  - rewrite len_cons in Hl. destruct g; cbn [app ident_body ident_body_step] in *.
    + destruct (beq b cr) eqn:E.
      * apply beq_true in E. subst b. unfold ident_push. replace (len acc <? 253) with true by lia. cbn [bind].
        rewrite (IH true); [rewrite <- !app_assoc; reflexivity|eapply no_crlf_cons, Hn|lens; lia].
      * destruct (beq b lf) eqn:E2.
        { apply beq_true in E2. subst b. exfalso. apply Hn. exists [], v. reflexivity. }
        unfold ident_push. replace (len acc <? 253) with true by lia. cbn [bind].
        rewrite len_app, len_cons, len_nil. replace (_ <? 253) with true by lia. cbn [bind].
        rewrite (IH false); [rewrite <- !app_assoc; reflexivity| |lens; lia].
        cbn [app]. eapply no_crlf_cons, no_crlf_cons, Hn.
    + destruct (beq b cr) eqn:E.
      * apply beq_true in E. subst b. rewrite (IH true); [reflexivity|exact Hn|lia].
      * unfold ident_push. replace (len acc <? 253) with true by lia. cbn [bind].
        rewrite (IH false); [rewrite <- !app_assoc; reflexivity| |lens; lia].
        cbn [app]. eapply no_crlf_cons, Hn.
Qed.

(** ** C34 *)
Lemma parse_line v s : len v <= 245 -> ~ has_crlf (B "SSH-2.0-" ++ v) ->
  ident_parse (B "SSH-2.0-" ++ v ++ crlf ++ s) = (Ok (B "SSH-2.0-" ++ v), s).
Proof.
  intros L H. unfold ident_parse.
  change (B "SSH-2.0-" ++ v ++ crlf ++ s) with (B "SSH-" ++ B "2.0-" ++ v ++ crlf ++ s).
  rewrite scan_ssh by reflexivity. unfold read_exact.
  replace (4 <=? _) with true by (lens; change (len (B "2.0-")) with 4; lia).
  rewrite ntake_app, ndrop_app by reflexivity.
  change (negb (bytes_eqb (B "2.0-") (B "2.0-"))) with false. cbn iota.
  change (ident_push_all [] (B "SSH-2.0-")) with (@Ok ParseIdentError bytes (B "SSH-2.0-")). cbn iota.
  rewrite body_reads; cbn [app].
  - unfold Identifier_new. change IDENT_MAX_LEN with 253.
    replace (_ <=? 253) with true by (lens; change (len (B "SSH-2.0-")) with 8; lia). reflexivity.
  - cbn [app]. intros (x & y & E). apply H. exists (B "SSH-2.0-" ++ x), y. rewrite E, <- app_assoc. reflexivity.
  - change (len (B "SSH-2.0-")) with 8. lia.
Qed.

Lemma ident_round id s : ident_ok id -> ident_parse (ident_send id ++ s) = (Ok id, s).
Proof.
  intros ([v ->] & N & L). unfold ident_send. rewrite <- !app_assoc.
  apply parse_line; [|exact N]. rewrite len_app in L. change (len (B "SSH-2.0-")) with 8 in L. lia.
Qed.

(** ** C36 *)
(** Invariant of the body: no CR LF in what is pushed, nor across the pending CR. *)
Lemma has_crlf_snoc l b : has_crlf (l ++ [b]) -> has_crlf l \/ b = x0a /\ exists l', l = l' ++ [x0d].
Proof.
  intros (x & y & E). destruct (List.rev y) as [|z y'] eqn:R.
  - apply (f_equal (@List.rev byte)) in R. rewrite rev_involutive in R. cbn in R. subst y.
    rewrite app_nil_r in E. unfold crlf in E. change [x0d; x0a] with ([x0d] ++ [x0a]) in E. rewrite app_assoc in E.
    apply app_inj_tail in E as [-> ->]. right. eauto.
  - apply (f_equal (@List.rev byte)) in R. rewrite rev_involutive in R. cbn in R. subst y.
    rewrite !app_assoc in E. apply app_inj_tail in E as [-> ->]. left. exists x, (List.rev y'). rewrite <- app_assoc. reflexivity.
Qed.
Definition binv (g : bool) (acc : bytes) : Prop :=
  ~ has_crlf acc /\ (g = false -> forall l, acc <> l ++ [x0d]) /\ len acc <= 253 /\ exists v, acc = B "SSH-2.0-" ++ v.

Lemma snoc_neq (l l' : bytes) a b : a <> b -> l ++ [a] <> l' ++ [b].
Proof. intros D E. apply app_inj_tail in E as [_ E]. congruence. Qed.

Lemma body_inv s : forall g acc, binv g acc ->
  fst (ident_body g acc s) <> Panic /\
  forall id s', ident_body g acc s = (Ok id, s') -> ident_ok id.
Proof.
  induction s as [|b s IH]; intros g acc (I1 & I2 & I3 & I4); cbn [ident_body].
  - split; [discriminate|]. discriminate.
  - assert (P0 : forall a c, ident_push a c <> Panic) by (intros a c; unfold ident_push; destruct (_ <? _); discriminate).
    assert (P1 : forall a c a', ident_push a c = Ok a' -> a' = a ++ [c] /\ len a' <= 253).
    { intros a c a'. unfold ident_push. destruct (N.ltb_spec (len a) 253); [|discriminate].
      intros X. apply Ok_inj in X. subst. split; [reflexivity|lens; lia]. }
    assert (PV : forall a c, (exists v, a = B "SSH-2.0-" ++ v) -> exists v, a ++ [c] = B "SSH-2.0-" ++ v).
    { intros a c [v ->]. exists (v ++ [c]). rewrite <- app_assoc. reflexivity. }
    destruct g; cbn [ident_body_step].
    + destruct (beq b cr) eqn:E1.
      * apply beq_true in E1. subst b. destruct (ident_push acc cr) as [a| |] eqn:E; cbn [bind];
          [|split; [discriminate|discriminate]|exfalso; exact (P0 _ _ E)].
        apply P1 in E as [-> L]. apply IH. split; [|split; [discriminate|split; [exact L|apply PV, I4]]].
        intros X. apply has_crlf_snoc in X as [X|[X _]]; [auto|discriminate].
      * destruct (beq b lf) eqn:E2.
        { split; [discriminate|]. intros id s' X. inversion X; subst. split; [exact I4|]. split; [exact I1|exact I3]. }
        apply beq_false in E1. apply beq_false in E2.
        destruct (ident_push acc cr) as [a| |] eqn:E; cbn [bind];
          [|split; [discriminate|discriminate]|exfalso; exact (P0 _ _ E)].
        apply P1 in E as [-> L].
        destruct (ident_push (acc ++ [cr]) b) as [a| |] eqn:E; cbn [bind];
          [|split; [discriminate|discriminate]|exfalso; exact (P0 _ _ E)].
        apply P1 in E as [-> L']. apply IH. split; [|split; [intros _ l; apply snoc_neq; exact E1|split; [exact L'|apply PV, PV, I4]]].
        intros X. apply has_crlf_snoc in X as [X|[X _]]; [|exact (E2 X)].
        apply has_crlf_snoc in X as [X|[X _]]; [auto|discriminate].
    + destruct (beq b cr) eqn:E1.
      * apply IH. split; [exact I1|]. split; [discriminate|]. split; [exact I3|exact I4].
      * apply beq_false in E1. destruct (ident_push acc b) as [a| |] eqn:E; cbn [bind];
          [|split; [discriminate|discriminate]|exfalso; exact (P0 _ _ E)].
        apply P1 in E as [-> L]. apply IH. split; [|split; [intros _ l; apply snoc_neq; exact E1|split; [exact L|apply PV, I4]]].
        intros X. apply has_crlf_snoc in X as [X|[_ [l' X]]]; [auto|]. exact (I2 eq_refl _ X).
Qed.

Lemma scan_np s : forall st, fst (ident_scan st s) <> Panic.
Proof.
  induction s as [|b s IH]; intros st; cbn [ident_scan]; [discriminate|].
  destruct (ident_step st b); [apply IH|discriminate].
Qed.

Lemma no_crlf_8 : ~ has_crlf (B "SSH-2.0-").
Proof.
  intros (x & y & E).
  change (B "SSH-2.0-") with [x53; x53; x48; x2d; x32; x2e; x30; x2d] in E.
  do 8 (destruct x as [|? x]; [discriminate E|]; apply (f_equal (@List.tl byte)) in E; cbn [List.tl app] in E).
  destruct x; discriminate E.
Qed.

Lemma ident_safe s : fst (ident_parse s) <> Panic /\ forall id s', ident_parse s = (Ok id, s') -> ident_ok id.
Proof.
  unfold ident_parse. pose proof (scan_np s St_EolLf) as S.
  destruct (ident_scan St_EolLf s) as [[[]|e|] s1]; cbn [fst] in *; [|split; discriminate|congruence].
  unfold read_exact. destruct (4 <=? len s1); [|split; discriminate].
  destruct (negb _); [split; discriminate|].
  change (ident_push_all [] (B "SSH-2.0-")) with (@Ok ParseIdentError bytes (B "SSH-2.0-")). cbn iota.
  assert (I : binv false (B "SSH-2.0-")).
  { split; [exact no_crlf_8|]. split; [|split; [vm_compute; discriminate|exists []; reflexivity]].
    intros _ l. change (B "SSH-2.0-") with (B "SSH-2.0" ++ [x2d]). apply snoc_neq. discriminate. }
  destruct (body_inv (ndrop 4 s1) false _ I) as [Q1 Q2].
  destruct (ident_body false (B "SSH-2.0-") (ndrop 4 s1)) as [[id|e|] s2]; cbn [fst] in *;
    [|split; discriminate|congruence].
  specialize (Q2 id s2 eq_refl). unfold Identifier_new. change IDENT_MAX_LEN with 253.
  destruct Q2 as (Q2 & Q3 & Q4). replace (len id <=? 253) with true by lia. cbn [then_ok ok_or].
  split; [discriminate|]. intros id' s' X. inversion X; subst. split; [exact Q2|]. split; [exact Q3|exact Q4].
Qed.

(** ** C35 *)
Lemma scan_ignore l : Forall (fun b => b <> cr) l -> forall s,
  ident_scan St_Ignore (l ++ crlf ++ s) = ident_scan St_EolLf s.
Proof.
  induction 1 as [|b l Hb _ IH]; intros s; cbn [app ident_scan ident_step]; [reflexivity|].
  apply beq_false in Hb. rewrite Hb. apply IH.
Qed.

Lemma scan_skips l s : Forall (fun b => b <> cr) l -> ~ trap l ->
  ident_scan St_EolLf (l ++ crlf ++ s) = ident_scan St_EolLf s.
Proof.
  intros F T.
  assert (SS : forall l k, Forall (fun b => b <> cr) l -> ~ trap (repeat x53 (2 + k) ++ l) ->
            ident_scan St_SS (l ++ crlf ++ s) = ident_scan St_EolLf s).
  { clear l F T. induction l as [|b l IH]; intros k F T.
    - exfalso. apply T. exists (2 + k)%nat, []. left. rewrite app_nil_r. reflexivity.
    - inversion F as [|? ? Fb Fl]; subst. cbn [app ident_scan ident_step].
      destruct (beq b x53) eqn:E1.
      + apply beq_true in E1. subst b. apply (IH (S k)); [exact Fl|]. intros X. apply T.
        replace (repeat x53 (2 + k) ++ x53 :: l) with (repeat x53 (2 + S k) ++ l); [exact X|].
        replace (2 + S k)%nat with (S (2 + k)) by lia. rewrite <- Nat.add_1_r, repeat_app, <- app_assoc. reflexivity.
      + destruct (beq b x48) eqn:E2; [|apply scan_ignore; exact Fl].
        apply beq_true in E2. subst b. destruct l as [|c l].
        * exfalso. apply T. exists k, []. right. left. reflexivity.
        * cbn [app ident_scan ident_step]. inversion Fl as [|? ? Fc Fl']; subst.
          destruct (beq c x2d) eqn:E3; [|apply scan_ignore; exact Fl'].
          apply beq_true in E3. subst c. exfalso. apply T. exists k, l. right. right. reflexivity. }
  destruct l as [|a l].
  - exfalso. apply T. exists 0%nat, []. left. reflexivity.
  - inversion F as [|? ? Fa Fl]; subst. cbn [app ident_scan ident_step].
    destruct (beq a x53) eqn:E1; [|apply scan_ignore; exact Fl].
    apply beq_true in E1. subst a. destruct l as [|b l].
    + exfalso. apply T. exists 1%nat, []. left. reflexivity.
    + inversion Fl as [|? ? Fb Fl']; subst. cbn [app ident_scan ident_step].
      destruct (beq b x53) eqn:E2; [|apply scan_ignore; exact Fl'].
      apply beq_true in E2. subst b. apply (SS l 0%nat); [exact Fl'|exact T].
Qed.

Lemma parse_skips ls s : Forall (fun l => Forall (fun b => b <> cr) l /\ ~ trap l) ls ->
  ident_parse (as_lines ls ++ s) = ident_parse s.
Proof.
  intros F. unfold ident_parse.
  replace (ident_scan St_EolLf (as_lines ls ++ s)) with (ident_scan St_EolLf s); [reflexivity|].
  induction F as [|l ls [F1 F2] _ IH]; [reflexivity|].
  unfold as_lines. cbn [map concat]. rewrite <- !app_assoc. rewrite scan_skips by assumption. exact IH.
Qed.

Lemma short_no_crlf l : len l <= 1 -> ~ has_crlf l.
Proof. intros L (x & y & ->). rewrite !len_app in L. change (len crlf) with 2 in L. lia. Qed.

Lemma lines_witness :
  (exists ls, Forall other_line ls /\
     ident_parse (as_lines ls ++ ident_send (B "SSH-2.0-x")) = (Err (Ident_Io UnexpectedEof), [])) /\
  (exists ls, Forall other_line ls /\
     ident_parse (as_lines ls ++ ident_send (B "SSH-2.0-x") ++ ident_send (B "SSH-2.0-y")) = (Ok (B "SSH-2.0-y"), [])) /\
  (exists ls, Forall other_line ls /\
     ident_parse (as_lines ls ++ ident_send (B "SSH-2.0-x")) = (Ok (B "SSH-2.0-q"), ident_send (B "SSH-2.0-x"))) /\
  ident_ok (B "SSH-2.0-x") /\ ident_ok (B "SSH-2.0-y").
Proof.
  assert (O1 : other_line []).
  { split; [intros [v E]; discriminate E|apply short_no_crlf; vm_compute; discriminate]. }
  assert (O2 : other_line (B "S")).
  { split; [intros [v E]; discriminate E|apply short_no_crlf; vm_compute; discriminate]. }
  assert (O3 : other_line (B "SSSH-2.0-q")).
  { split; [intros [v E]; discriminate E|]. intros (x & y & E). change (B "SSSH-2.0-q") with [x53; x53; x53; x48; x2d; x32; x2e; x30; x2d; x71] in E.
    do 10 (destruct x as [|? x]; [discriminate E|]; apply (f_equal (@List.tl byte)) in E; cbn [List.tl app] in E).
    destruct x; discriminate E. }
  assert (I : forall c, c <> x0a -> ident_ok (B "SSH-2.0-" ++ [c])).
  { intros c D. split; [eauto|]. split; [|rewrite len_app; vm_compute; discriminate].
    intros X. apply has_crlf_snoc in X as [X|[X _]]; [exact (no_crlf_8 X)|exact (D X)]. }
  split; [exists [B "S"]; split; [repeat constructor; exact O2 || apply O2|vm_compute; reflexivity]|].
  split; [exists [[]]; split; [constructor; [exact O1|constructor]|vm_compute; reflexivity]|].
  split; [exists [B "SSSH-2.0-q"]; split; [constructor; [exact O3|constructor]|vm_compute; reflexivity]|].
  split; [apply (I x78)|apply (I x79)]; discriminate.
Qed.
