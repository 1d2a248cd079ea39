(** C92-C94: programs that wait, and what they come to. *)
From Coq Require Import Init.Byte.
From Verif Require Export FaultsThm SpecAsync.
Open Scope res_scope.

(** * Guards *)

(** What a program does with the guards it holds, whatever comes. *)
Fixpoint good (held : list Guard) (co : Co Next) : Prop :=
  match co with
  | Co_Ret r => match r with Ok N_Again => held = [] \/ held = [G_Cell Cell_Read] | _ => True end
  | Co_Do _ k => forall x, good held (k x)
  | Co_Borrow c k => ~ In (G_Cell c) held /\ good (G_Cell c :: held) k
  | Co_Lock reg k => reg = false /\ ~ In G_Write held /\ good (G_Write :: held) k
  | Co_Drop g k => good (filter (fun x => negb (guard_eqb g x)) held) k
  | Co_Read _ _ k => forall d, good held (k d)
  | Co_Call _ k => forall x, good held (k x)
  | Co_Write _ k => good held k
  end.

Definition cell_of (g : Guard) : list Cell := match g with G_Cell c => [c] | G_Write => [] end.
Definition is_write (g : Guard) : bool := match g with G_Write => true | _ => false end.
(** The cells are borrowed by the guards held. *)
Definition sound (w : World) : Prop :=
  w_cells w = flat_map cell_of (w_held w) /\ w_mutex w = {| mx_borrowed := existsb is_write (w_held w); mx_queue := [] |} /\ NoDup (w_held w).

Lemma cell_eqb_eq a b : cell_eqb a b = true <-> a = b.
Proof. destruct a, b; cbn [cell_eqb]; split; congruence. Qed.
Lemma guard_eqb_eq a b : guard_eqb a b = true <-> a = b.
Proof.
  destruct a as [a|], b as [b|]; cbn [guard_eqb]; try (split; congruence). rewrite cell_eqb_eq. split; congruence.
Qed.
Lemma in_cells c gs : In c (flat_map cell_of gs) <-> In (G_Cell c) gs.
Proof.
  rewrite in_flat_map. split.
  - intros ([c'|] & I & J); [|destruct J]. destruct J as [<-|[]]. exact I.
  - intros I. exists (G_Cell c). split; [exact I|left; reflexivity].
Qed.
Lemma in_write gs : existsb is_write gs = true <-> In G_Write gs.
Proof.
  rewrite existsb_exists. split; [|intros I; exists G_Write; auto]. intros ([c|] & I & J); [discriminate J|exact I].
Qed.

Lemma sound_set st w : sound w -> sound (w_set st w).
Proof. auto. Qed.
Lemma sound_borrow c w : sound w -> ~ In (G_Cell c) (w_held w) ->
  exists w', borrow c w = Some w' /\ sound w' /\ w_held w' = G_Cell c :: w_held w /\ w_st w' = w_st w.
Proof.
  intros (SC & SM & SN) NI. unfold borrow. destruct (existsb (cell_eqb c) (w_cells w)) eqn:E.
  - apply existsb_exists in E as (c' & I & E). apply cell_eqb_eq in E. subst c'. rewrite SC in I. apply in_cells in I. contradiction.
  - eexists. split; [reflexivity|]. split; [|auto]. unfold sound. cbn [w_cells w_held w_mutex flat_map cell_of existsb is_write app orb].
    rewrite SC, SM. split; [reflexivity|]. split; [reflexivity|]. constructor; auto.
Qed.
Lemma sound_lock w : sound w -> ~ In G_Write (w_held w) ->
  future_poll (w_mutex w) false 0 = (true, {| mx_borrowed := true; mx_queue := [] |}, false) /\
  sound {| w_st := w_st w; w_cells := w_cells w; w_mutex := {| mx_borrowed := true; mx_queue := [] |}; w_held := G_Write :: w_held w |}.
Proof.
  intros (SC & SM & SN) NI. assert (E : existsb is_write (w_held w) = false).
  { destruct (existsb is_write (w_held w)) eqn:E; [|reflexivity]. apply in_write in E. contradiction. }
  split.
  - unfold future_poll. rewrite SM. cbn [mx_borrowed mx_queue]. rewrite E. reflexivity.
  - unfold sound. cbn [w_cells w_held w_mutex flat_map cell_of existsb is_write app orb]. split; [exact SC|]. split; [reflexivity|]. constructor; auto.
Qed.
Lemma filter_cells c gs : filter (fun x => negb (cell_eqb c x)) (flat_map cell_of gs) = flat_map cell_of (filter (fun x => negb (guard_eqb (G_Cell c) x)) gs).
Proof.
  induction gs as [|[c'|] gs IH]; [reflexivity| |].
  - cbn [flat_map cell_of app filter guard_eqb]. destruct (cell_eqb c c'); cbn [negb]; [exact IH|]. cbn [flat_map cell_of app]. rewrite IH. reflexivity.
  - cbn [flat_map cell_of app filter guard_eqb negb]. exact IH.
Qed.
Lemma filter_no_write gs : flat_map cell_of (filter (fun x => negb (guard_eqb G_Write x)) gs) = flat_map cell_of gs.
Proof.
  induction gs as [|[c'|] gs IH]; [reflexivity| |]; cbn [flat_map cell_of app filter guard_eqb negb]; [|exact IH]. f_equal. exact IH.
Qed.
Lemma filter_write c gs : existsb is_write (filter (fun x => negb (guard_eqb (G_Cell c) x)) gs) = existsb is_write gs.
Proof.
  induction gs as [|[c'|] gs IH]; [reflexivity| |reflexivity]. cbn [filter guard_eqb existsb is_write orb].
  destruct (cell_eqb c c'); cbn [negb existsb is_write orb]; exact IH.
Qed.
Lemma sound_release g w : sound w -> sound (release g w).
Proof.
  intros (SC & SM & SN). unfold sound, release. cbn [w_cells w_held w_mutex]. split; [|split].
  - destruct g as [c|]; rewrite SC; [apply filter_cells|]. symmetry. apply filter_no_write.
  - destruct g as [c|]; rewrite SM.
    + f_equal. symmetry. apply filter_write.
    + cbn. f_equal. symmetry. apply not_true_iff_false. intros E. apply in_write in E. apply filter_In in E as [_ E]. discriminate E.
  - apply NoDup_filter. exact SN.
Qed.
Lemma release_all_sound gs : forall w, sound w -> sound (fold_left (fun w g => release g w) gs w) /\ w_st (fold_left (fun w g => release g w) gs w) = w_st w /\
  w_held (fold_left (fun w g => release g w) gs w) = filter (fun x => negb (existsb (fun g => guard_eqb g x) gs)) (w_held w).
Proof.
  induction gs as [|g gs IH]; intros w S; cbn [fold_left existsb].
  - split; [exact S|]. split; [reflexivity|]. cbn [negb]. induction (w_held w) as [|x l IH]; [reflexivity|]. cbn [filter]. rewrite <- IH. reflexivity.
  - destruct (IH (release g w) (sound_release g w S)) as (S1 & E1 & E2). split; [exact S1|]. split; [exact E1|]. rewrite E2.
    cbn [release w_held]. induction (w_held w) as [|x l IHl]; [reflexivity|]. cbn [filter]. destruct (guard_eqb g x); cbn [negb orb filter].
    + exact IHl.
    + destruct (existsb (fun g0 => guard_eqb g0 x) gs); cbn [negb]; [exact IHl|]. f_equal. exact IHl.
Qed.
Lemma sound_nil w : sound w -> w_held w = [] -> at_ease w.
Proof. intros (SC & SM & SN) E. unfold at_ease. rewrite SC, SM, E. auto. Qed.
Lemma release_all_ease w : sound w -> at_ease (release_all w) /\ w_st (release_all w) = w_st w.
Proof.
  intros S. unfold release_all. destruct (release_all_sound (w_held w) w S) as (S1 & E1 & E2). split; [|exact E1]. apply sound_nil; [exact S1|]. rewrite E2.
  assert (Q : forall gs, (forall x, In x gs -> In x (w_held w)) -> filter (fun x => negb (existsb (fun g => guard_eqb g x) (w_held w))) gs = []).
  { induction gs as [|x gs IH]; intros Q; [reflexivity|]. cbn [filter]. replace (existsb (fun g => guard_eqb g x) (w_held w)) with true.
    - apply IH. intros y I. apply Q. right. exact I.
    - symmetry. apply existsb_exists. exists x. split; [apply Q; left; reflexivity|]. apply guard_eqb_eq. reflexivity. }
  apply Q. auto.
Qed.
Lemma ease_sound w : at_ease w -> sound w.
Proof. intros (E1 & E2 & E3). unfold sound. rewrite E1, E2, E3. split; [reflexivity|]. split; [reflexivity|]. constructor. Qed.

(** * What a program comes to, and where it can be dropped *)

Section Eval.
  Context (lim : N).
  Notation sin st := (k_in (s_conn st)).
  Notation sout st := (k_out (s_conn st)).

  Fixpoint eval (co : Co Next) (st : SSt) : res ReceiveError Next * SSt :=
    match co with
    | Co_Ret r => (r, st)
    | Co_Do f k | Co_Call f k =>
      match f st with
      | (Ok x, st) => eval (k x) st
      | (Err e, st) => (Err (RE_In e), st)
      | (Panic, st) => (Panic, st)
      end
    | Co_Borrow _ k | Co_Lock _ k | Co_Drop _ k => eval k st
    | Co_Read n from k =>
      if negb (from + n <=? len (s_buf st)) then (Panic, st)
      else if n <=? len (sin st) then eval (k (ntake n (sin st))) (took from n st)
      else (Err (RE_In (In_Read UnexpectedEof)), took from (len (sin st)) st)
    | Co_Write b k =>
      if is_empty b || (len (sout st) + len b <=? lim) then eval k (wrote b st)
      else if lim <=? len (sout st) then (Err RE_Out, st)
      else (Err RE_Out, wrote (ntake (lim - len (sout st)) b) st)
    end.
  (** [s] is a state in which it waits. *)
  Fixpoint visits (co : Co Next) (st s : SSt) : Prop :=
    match co with
    | Co_Ret _ => False
    | Co_Do f k => match f st with (Ok x, st) => visits (k x) st s | _ => False end
    | Co_Call f k => s = st \/ match f st with (Ok x, st) => visits (k x) st s | _ => False end
    | Co_Borrow _ k | Co_Lock _ k | Co_Drop _ k => visits k st s
    | Co_Read n from k =>
      from + n <= len (s_buf st) /\
      ((exists i, i < n /\ i <= len (sin st) /\ s = took from i st) \/
       (n <= len (sin st) /\ visits (k (ntake n (sin st))) (took from n st) s))
    | Co_Write b k =>
      (b <> [] /\ s = st) \/
      (exists i, 0 < i < len b /\ len (sout st) + i <= lim /\ s = wrote (ntake i b) st) \/
      ((b = [] \/ len (sout st) + len b <= lim) /\ visits k (wrote b st) s)
    end.

  (** ** Bytes in pieces *)
  Lemma splice_more from a b (buf : bytes) : from + len a + len b <= len buf -> splice (from + len a) b (splice from a buf) = splice from (a ++ b) buf.
  Proof.
    intros L. unfold splice. rewrite ntake_app_ge by (rewrite len_ntake; lia). rewrite ndrop_app_ge by (rewrite len_ntake; lia). rewrite !len_ntake.
    rewrite (ntake_app (from + len a - N.min from (len buf)) a) by lia.
    rewrite (ndrop_app_ge _ a) by lia. rewrite ndrop_ndrop. rewrite <- !app_assoc. do 4 f_equal. rewrite len_app. lia.
  Qed.
  Lemma ntake_more_app i n (l : bytes) : i <= n -> ntake n l = ntake i l ++ ntake (n - i) (ndrop i l).
  Proof.
    intros L. rewrite <- (ntake_ndrop i (ntake n l)). f_equal.
    - rewrite BaseFacts.ntake_ntake. f_equal. lia.
    - unfold ntake, ndrop. rewrite firstn_skipn_comm. f_equal. f_equal. lia.
  Qed.
  Lemma took_more from i n st : i <= n -> n <= len (sin st) -> from + n <= len (s_buf st) -> took (from + i) (n - i) (took from i st) = took from n st.
  Proof.
    intros L1 L2 L3. unfold took. cbn [s_set s_conn s_buf with_in k_in k_rd k_wr k_out k_sent s_chans s_stdout s_stderr s_wait s_children s_log].
    unfold s_set, with_in. cbn [k_in k_rd k_wr k_out k_sent s_conn s_buf s_chans s_stdout s_stderr s_wait s_children s_log].
    rewrite ndrop_ndrop. replace (i + (n - i)) with n by lia.
    assert (E : splice (from + i) (ntake (n - i) (ndrop i (sin st))) (splice from (ntake i (sin st)) (s_buf st)) = splice from (ntake n (sin st)) (s_buf st)).
    { replace (from + i) with (from + len (ntake i (sin st))) by (rewrite len_ntake; lia). rewrite splice_more.
      - rewrite <- ntake_more_app by lia. reflexivity.
      - rewrite !len_ntake, len_ndrop. lia. }
    rewrite E. reflexivity.
  Qed.
  Lemma took_0 from st : took from 0 st = st.
  Proof.
    unfold took. rewrite ntake_0, ndrop_0. unfold splice. cbn [app]. change (len (@nil byte)) with 0. rewrite N.add_0_r, ntake_ndrop.
    destruct st as [k]. destruct k. reflexivity.
  Qed.
  Lemma took_buf from n st : from + n <= len (s_buf st) -> len (s_buf (took from n st)) = len (s_buf st).
  Proof. intros L. unfold took. cbn [s_set s_buf]. apply splice_len. rewrite len_ntake. lia. Qed.
  Lemma took_in from n st : sin (took from n st) = ndrop n (sin st).
  Proof. reflexivity. Qed.
  Lemma wrote_more a b st : wrote b (wrote a st) = wrote (a ++ b) st.
  Proof.
    unfold wrote, s_set, with_out. cbn [k_in k_rd k_wr k_out k_sent s_conn s_buf s_chans s_stdout s_stderr s_wait s_children s_log].
    rewrite app_assoc. reflexivity.
  Qed.
  Lemma wrote_nil st : wrote [] st = st.
  Proof. unfold wrote. rewrite app_nil_r. destruct st as [k]. destruct k. reflexivity. Qed.
  Lemma wrote_out b st : sout (wrote b st) = sout st ++ b.
  Proof. reflexivity. Qed.

  (** ** One step of a program *)
  Context (C : Crypto) (rng : N -> N -> bytes) (h : SHandlers).
  Notation pstep := (p_step lim C rng h).
  Notation prun := (p_run lim C rng h).

  (** [l'] is [l] some way on in the same program. *)
  Definition onward (l l' : Loop) : Prop :=
    l_body l' = l_body l /\ eval (l_co l') (w_st (l_world l')) = eval (l_co l) (w_st (l_world l)) /\
    (forall s, visits (l_co l') (w_st (l_world l')) s -> visits (l_co l) (w_st (l_world l)) s).
  Definition fit (l : Loop) : Prop := sound (l_world l) /\ good (w_held (l_world l)) (l_co l).

  Lemma onward_refl l : onward l l.
  Proof. split; [|split]; auto. Qed.
  Lemma onward_trans a b c : onward a b -> onward b c -> onward a c.
  Proof. intros (A1 & A2 & A3) (B1 & B2 & B3). split; [congruence|]. split; [congruence|]. auto. Qed.

  Lemma good_step {X} held (r : res InError X) k : (forall x, good held (k x)) -> good held (co_step r k).
  Proof. intros G. destruct r as [x|e|]; cbn [co_step good]; auto. Qed.
  Lemma eval_step {X} (r : res InError X) k st : eval (co_step r k) st =
    match r with Ok x => eval (k x) st | Err e => (Err (RE_In e), st) | Panic => (Panic, st) end.
  Proof. destruct r; reflexivity. Qed.

  (** Any step that neither ends the program nor drops it is onward. *)
  Lemma step_onward e l o : fit l -> pstep e l = Some o -> (forall ev, e <> P_Ready ev) -> (forall r, l_co l <> Co_Ret r) ->
    exists l', o = O_Goes l' /\ fit l' /\ onward l l'.
  Proof.
    intros [S G] E NR ND. destruct l as [body co w]. cbn [l_world l_co] in *. unfold p_step, goes in E. cbn [l_world l_co l_body] in E.
    destruct e; [| | | | | |destruct (NR e eq_refl)]; destruct co as [r|X f k|c k|reg k|g k|m from k|X f k|b k]; try discriminate E.
    - destruct (ND r eq_refl).
    - (* do *)
      destruct (f (w_st w)) as [r st] eqn:F. apply Some_inj in E. subst o. eexists. split; [reflexivity|]. split.
      + split; [exact (sound_set st w S)|]. apply good_step. exact G.
      + split; [reflexivity|]. cbn [l_co l_world w_st w_set eval visits]. rewrite F. split; [apply eval_step|]. intros s V. destruct r; auto.
    - (* borrow *)
      cbn [good] in G. destruct G as [NI G]. destruct (sound_borrow c w S NI) as (w' & E1 & S1 & E2 & E3). rewrite E1 in E. apply Some_inj in E. subst o.
      eexists. split; [reflexivity|]. split; [split; cbn [l_world l_co]; [exact S1|rewrite E2; exact G]|].
      split; [reflexivity|]. cbn [l_co l_world]. rewrite E3. split; [reflexivity|auto].
    - (* lock *)
      cbn [good] in G. destruct G as (-> & NI & G). destruct (sound_lock w S NI) as [E1 S1]. rewrite E1 in E. apply Some_inj in E. subst o.
      eexists. split; [reflexivity|]. split; [split; [exact S1|exact G]|]. split; [reflexivity|]. split; [reflexivity|auto].
    - (* drop *)
      apply Some_inj in E. subst o. eexists. split; [reflexivity|]. split; [split; [exact (sound_release g w S)|exact G]|]. split; [reflexivity|]. split; [reflexivity|auto].
    - (* read nothing *)
      destruct (from + m <=? len (s_buf (w_st w))) eqn:L; cbn [negb] in E.
      + destruct (N.eqb_spec m 0) as [->|N0]; [|discriminate E]. apply Some_inj in E. subst o. eexists. split; [reflexivity|]. split; [split; [exact S|apply G]|].
        split; [reflexivity|]. cbn [l_co l_world eval visits]. rewrite L. cbn [negb]. rewrite ntake_0, took_0. replace (0 <=? len (sin (w_st w))) with true by lia. split; [reflexivity|].
        intros s V. split; [lia|]. right. split; [lia|]. exact V.
      + apply Some_inj in E. subst o. eexists. split; [reflexivity|]. split; [split; [exact S|exact I]|]. split; [reflexivity|]. cbn [l_co l_world eval visits]. rewrite L.
        split; [reflexivity|]. intros s [].
    - (* write nothing *)
      destruct (is_empty b) eqn:B; [|discriminate E]. apply is_empty_true in B. subst b. apply Some_inj in E. subst o. eexists. split; [reflexivity|]. split; [split; [exact S|exact G]|].
      split; [reflexivity|]. cbn [l_co l_world eval visits is_empty orb]. rewrite wrote_nil. split; [reflexivity|]. intros s V. right. right. auto.
    - (* bytes arrive *)
      destruct ((from + m <=? len (s_buf (w_st w))) && (0 <? n) && (n <=? m) && (n <=? len (sin (w_st w)))) eqn:L; [|discriminate E].
      apply andb_true_iff in L as [L L4]. apply andb_true_iff in L as [L L3]. apply andb_true_iff in L as [L1 L2]. apply Some_inj in E. subst o.
      eexists. split; [reflexivity|]. cbn [good] in G. split.
      { split; cbn [l_world l_co]; [exact (sound_set _ w S)|]. cbn [w_set w_held]. destruct (n =? m); [apply G|]. cbn [good]. intros d. apply G. }
      split; [reflexivity|]. cbn [l_co l_world w_set w_st]. cbn [eval visits]. rewrite L1. cbn [negb].
      destruct (N.eqb_spec n m) as [->|NE].
      + rewrite L4. split; [reflexivity|]. intros s V. split; [lia|]. right. split; [lia|exact V].
      + assert (LB : len (s_buf (took from n (w_st w))) = len (s_buf (w_st w))) by (apply took_buf; lia). cbn [eval visits]. rewrite LB, took_in, len_ndrop.
        replace (from + n + (m - n)) with (from + m) by lia. rewrite L1. cbn [negb]. split.
        * replace (m - n <=? len (sin (w_st w)) - n) with (m <=? len (sin (w_st w))) by lia.
          destruct (N.leb_spec m (len (sin (w_st w)))).
          -- rewrite took_more by lia. rewrite <- ntake_more_app by lia. reflexivity.
          -- rewrite took_more by lia. reflexivity.
        * intros s (_ & [(i & I1 & I2 & ->)|(I1 & V)]); (split; [lia|]).
          -- left. exists (n + i). split; [lia|]. split; [lia|]. rewrite <- (took_more from n (n + i)) by lia. f_equal. lia.
          -- right. split; [lia|]. rewrite took_more in V by lia. rewrite <- ntake_more_app in V by lia. exact V.
    - (* the end *)
      destruct ((from + m <=? len (s_buf (w_st w))) && (0 <? m) && is_empty (sin (w_st w))) eqn:L; [|discriminate E].
      apply andb_true_iff in L as [L L3]. apply andb_true_iff in L as [L1 L2]. apply is_empty_true in L3. apply Some_inj in E. subst o.
      eexists. split; [reflexivity|]. split; [split; [exact S|exact I]|]. split; [reflexivity|]. cbn [l_co l_world eval visits]. rewrite L1, L3. cbn [negb].
      change (len (@nil byte)) with 0. replace (m <=? 0) with false by lia. rewrite took_0. split; [reflexivity|]. intros s [].
    - (* a handler *)
      destruct (f (w_st w)) as [r st] eqn:F. apply Some_inj in E. subst o. eexists. split; [reflexivity|]. split.
      + split; [exact (sound_set st w S)|]. apply good_step. exact G.
      + split; [reflexivity|]. cbn [l_co l_world w_st w_set eval visits]. rewrite F. split; [apply eval_step|]. intros s V. destruct r; auto; destruct V.
    - (* bytes taken *)
      destruct ((0 <? n) && (n <=? len b) && (len (sout (w_st w)) + n <=? lim)) eqn:L; [|discriminate E].
      apply andb_true_iff in L as [L L3]. apply andb_true_iff in L as [L1 L2]. apply Some_inj in E. subst o.
      assert (NB : is_empty b = false) by (apply is_empty_false; intros ->; change (len (@nil byte)) with 0 in L2; lia).
      eexists. split; [reflexivity|]. cbn [good] in G. split.
      { split; cbn [l_world l_co]; [exact (sound_set _ w S)|]. cbn [w_set w_held]. destruct (n =? len b); exact G. }
      split; [reflexivity|]. cbn [l_co l_world w_set w_st]. cbn [eval visits]. rewrite NB. cbn [orb].
      destruct (N.eqb_spec n (len b)) as [->|NE].
      + rewrite L3. rewrite ntake_all by lia. split; [reflexivity|]. intros s V. right. right. split; [right; lia|exact V].
      + assert (ND' : is_empty (ndrop n b) = false).
        { apply is_empty_false. intros X. apply (f_equal len) in X. rewrite len_ndrop in X. change (len (@nil byte)) with 0 in X. lia. }
        cbn [eval visits]. rewrite ND', wrote_out, len_app, len_ntake, len_ndrop. cbn [orb]. rewrite !wrote_more, ntake_ndrop. split.
        * replace (len (sout (w_st w)) + N.min n (len b) + (len b - n) <=? lim) with (len (sout (w_st w)) + len b <=? lim) by lia.
          destruct (N.leb_spec (len (sout (w_st w)) + len b) lim); [reflexivity|].
          replace (lim <=? len (sout (w_st w))) with false by lia.
          destruct (N.leb_spec lim (len (sout (w_st w)) + N.min n (len b))).
          -- do 3 f_equal. lia.
          -- rewrite (ntake_more_app n (lim - len (sout (w_st w)))) by lia. do 4 f_equal. lia.
        * intros s [(_ & ->)|[(i & I1 & I2 & ->)|(I1 & V)]].
          -- right. left. exists n. split; [lia|]. split; [lia|]. reflexivity.
          -- right. left. exists (n + i). split; [lia|]. split; [lia|]. rewrite wrote_more. f_equal. rewrite (ntake_more_app n (n + i)) by lia. f_equal. f_equal. lia.
          -- right. right. split; [|exact V]. destruct I1 as [I1|I1]; [|right; lia]. rewrite I1 in ND'. discriminate ND'.
    - (* broken *)
      destruct (negb (is_empty b) && (lim <=? len (sout (w_st w)))) eqn:L; [|discriminate E]. apply andb_true_iff in L as [L1 L2]. apply negb_true_iff in L1.
      apply Some_inj in E. subst o. eexists. split; [reflexivity|]. split; [split; [exact S|exact I]|]. split; [reflexivity|]. cbn [l_co l_world eval visits]. rewrite L1. cbn [orb].
      apply is_empty_false in L1. assert (0 < len b) by (destruct b; [congruence|]; unfold len; cbn [length]; lia).
      replace (len (sout (w_st w)) + len b <=? lim) with false by lia. rewrite L2. split; [reflexivity|]. intros s [].
  Qed.

  (** ** Waiting *)
  Lemma waiting_visits held co st : good held co -> waiting co st = true -> visits co st st.
  Proof.
    destruct co as [r|X f k|c k|reg k|g k|m from k|X f k|b k]; cbn [good waiting visits]; intros G W; try discriminate W.
    - destruct G as [-> _]. discriminate W.
    - apply andb_true_iff in W as [W1 W2]. split; [lia|]. left. exists 0. split; [lia|]. split; [lia|]. rewrite took_0. reflexivity.
    - left. reflexivity.
    - left. apply negb_true_iff, is_empty_false in W. auto.
  Qed.

  (** ** Going on *)
  Lemma run_app es1 es2 l l' : prun es1 l = Some (O_Goes l') -> prun (es1 ++ es2) l = prun es2 l'.
  Proof.
    revert l. induction es1 as [|e es1 IH]; intros l E; cbn [p_run app] in *.
    - apply Some_inj in E. congruence.
    - destruct (pstep e l) as [[l1|r st|]|]; try discriminate E. exact (IH _ E).
  Qed.
  Lemma run_one e l l' : pstep e l = Some (O_Goes l') -> prun [e] l = Some (O_Goes l').
  Proof. intros E. cbn [p_run]. rewrite E. reflexivity. Qed.

  (** [l] can go on to [l'] within the program. *)
  Definition comes (l l' : Loop) : Prop := fit l' /\ l_body l' = l_body l /\ exists es, Forall own_step es /\ prun es l = Some (O_Goes l').
  Lemma comes_refl l : fit l -> comes l l.
  Proof. intros F. split; [exact F|]. split; [reflexivity|]. exists []. split; [constructor|reflexivity]. Qed.
  Lemma comes_trans a b c : comes a b -> comes b c -> comes a c.
  Proof.
    intros (_ & B1 & es1 & K1 & E1) (F & B2 & es2 & K2 & E2). split; [exact F|]. split; [congruence|]. exists (es1 ++ es2).
    split; [apply Forall_app; auto|]. rewrite (run_app _ _ _ _ E1). exact E2.
  Qed.
  Lemma comes_one e l l' : fit l -> pstep e l = Some (O_Goes l') -> (forall ev, e <> P_Ready ev) -> (forall r, l_co l <> Co_Ret r) -> comes l l'.
  Proof.
    intros F E NR ND. destruct (step_onward e l _ F E NR ND) as (l1 & E1 & F1 & B & _). assert (l1 = l') by congruence. subst l1.
    split; [exact F1|]. split; [exact B|]. exists [e]. split; [|apply run_one, E]. constructor; [|constructor]. destruct e; try exact I. destruct (NR e eq_refl).
  Qed.

  Local Ltac ev e := eapply (comes_one e); [eassumption|unfold p_step, goes; cbn [l_co l_world l_body w_st]|discriminate|cbn [l_co]; discriminate].

  Definition ends_at (l : Loop) (r : res ReceiveError Next) (st : SSt) : Prop := exists l', comes l l' /\ l_co l' = Co_Ret r /\ w_st (l_world l') = st.
  Lemma ends_comes l l' r st : comes l l' -> ends_at l' r st -> ends_at l r st.
  Proof. intros A (l2 & B & E). exists l2. split; [exact (comes_trans _ _ _ A B)|exact E]. Qed.
  Lemma ends_ret body r w : fit {| l_body := body; l_co := Co_Ret r; l_world := w |} -> ends_at {| l_body := body; l_co := Co_Ret r; l_world := w |} r (w_st w).
  Proof. intros F. eexists. split; [exact (comes_refl _ F)|]. auto. Qed.

  Lemma reach_end co : forall body w, fit {| l_body := body; l_co := co; l_world := w |} ->
    ends_at {| l_body := body; l_co := co; l_world := w |} (fst (eval co (w_st w))) (snd (eval co (w_st w))).
  Proof.
    assert (STEP : forall X (f : SM X) k e body co w, (forall x body w, fit {| l_body := body; l_co := k x; l_world := w |} ->
        ends_at {| l_body := body; l_co := k x; l_world := w |} (fst (eval (k x) (w_st w))) (snd (eval (k x) (w_st w)))) ->
      comes {| l_body := body; l_co := co; l_world := w |} {| l_body := body; l_co := co_step (fst (f (w_st w))) k; l_world := w_set (snd (f (w_st w))) w |} ->
      e = match f (w_st w) with (Ok x, st) => eval (k x) st | (Err e, st) => (Err (RE_In e), st) | (Panic, st) => (Panic, st) end ->
      ends_at {| l_body := body; l_co := co; l_world := w |} (fst e) (snd e)).
    { intros X f k e body co0 w IH A ->. eapply ends_comes; [exact A|]. destruct A as (F & _). destruct (f (w_st w)) as [[x|e|] st]; cbn [fst snd co_step] in *.
      - exact (IH x body (w_set st w) F).
      - exact (ends_ret _ _ _ F).
      - exact (ends_ret _ _ _ F). }
    induction co as [r|X f k IH|c k IH|reg k IH|g k IH|m from k IH|X f k IH|b k IH]; intros body w F.
    - exact (ends_ret _ _ _ F).
    - eapply (STEP X f k); [exact IH| |reflexivity]. ev P_Run. destruct (f (w_st w)); reflexivity.
    - destruct (F) as [S [NI G]]. destruct (sound_borrow c w S NI) as (w' & E1 & S1 & E2 & E3).
      assert (A : comes {| l_body := body; l_co := Co_Borrow c k; l_world := w |} {| l_body := body; l_co := k; l_world := w' |}).
      { ev P_Run. rewrite E1. reflexivity. }
      eapply ends_comes; [exact A|]. cbn [eval]. rewrite <- E3. apply IH, A.
    - destruct (F) as [S (-> & NI & G)]. destruct (sound_lock w S NI) as [E1 S1].
      eassert (A : comes {| l_body := body; l_co := Co_Lock false k; l_world := w |} _).
      { ev P_Run. rewrite E1. reflexivity. }
      eapply ends_comes; [exact A|]. cbn [eval]. exact (IH body _ (proj1 A)).
    - eassert (A : comes {| l_body := body; l_co := Co_Drop g k; l_world := w |} _).
      { ev P_Run. reflexivity. }
      eapply ends_comes; [exact A|]. cbn [eval]. exact (IH body _ (proj1 A)).
    - cbn [eval]. destruct (from + m <=? len (s_buf (w_st w))) eqn:L; cbn [negb].
      + destruct (N.eqb_spec m 0) as [->|N0].
        { eassert (A : comes {| l_body := body; l_co := Co_Read 0 from k; l_world := w |} _).
          { ev P_Run. rewrite L. reflexivity. }
          eapply ends_comes; [exact A|]. replace (0 <=? len (sin (w_st w))) with true by lia. rewrite ntake_0, took_0. exact (IH [] body _ (proj1 A)). }
        destruct (N.leb_spec m (len (sin (w_st w)))) as [LM|LM].
        * eassert (A : comes {| l_body := body; l_co := Co_Read m from k; l_world := w |} _).
          { ev (P_Arrive m). rewrite L. replace (0 <? m) with true by lia. replace (m <=? m) with true by lia. replace (m <=? len (sin (w_st w))) with true by lia.
            cbn [andb]. rewrite N.eqb_refl. reflexivity. }
          eapply ends_comes; [exact A|]. exact (IH _ body _ (proj1 A)).
        * destruct (N.eqb_spec (len (sin (w_st w))) 0) as [Z|NZ].
          -- eassert (A : comes {| l_body := body; l_co := Co_Read m from k; l_world := w |} _).
             { ev P_End. rewrite L. replace (0 <? m) with true by lia. destruct (sin (w_st w)); [|discriminate Z]. reflexivity. }
             eapply ends_comes; [exact A|]. rewrite Z, took_0. exact (ends_ret _ _ _ (proj1 A)).
          -- eassert (A : comes {| l_body := body; l_co := Co_Read m from k; l_world := w |} _).
             { ev (P_Arrive (len (sin (w_st w)))). rewrite L. replace (0 <? len (sin (w_st w))) with true by lia.
               replace (len (sin (w_st w)) <=? m) with true by lia. rewrite N.leb_refl. cbn [andb].
               replace (len (sin (w_st w)) =? m) with false by lia. reflexivity. }
             eapply ends_comes; [exact A|]. destruct A as (F1 & _).
             eassert (A : comes {| l_body := body; l_co := Co_Read (m - len (sin (w_st w))) (from + len (sin (w_st w))) _; l_world := _ |} _).
             { eapply (comes_one P_End); [exact F1|unfold p_step, goes; cbn [l_co l_world l_body w_st w_set]|discriminate|cbn [l_co]; discriminate].
               rewrite took_buf by lia. replace (from + len (sin (w_st w)) + (m - len (sin (w_st w)))) with (from + m) by lia. rewrite L.
               replace (0 <? m - len (sin (w_st w))) with true by lia. rewrite took_in, ndrop_all by lia. reflexivity. }
             eapply ends_comes; [exact A|]. exact (ends_ret _ _ _ (proj1 A)).
      + eassert (A : comes {| l_body := body; l_co := Co_Read m from k; l_world := w |} _).
        { ev P_Run. rewrite L. reflexivity. }
        eapply ends_comes; [exact A|]. exact (ends_ret _ _ _ (proj1 A)).
    - eapply (STEP X f k); [exact IH| |reflexivity]. ev P_Answer. destruct (f (w_st w)); reflexivity.
    - cbn [eval]. destruct (is_empty b) eqn:B; cbn [orb].
      { eassert (A : comes {| l_body := body; l_co := Co_Write b k; l_world := w |} _).
        { ev P_Run. rewrite B. reflexivity. }
        eapply ends_comes; [exact A|]. apply is_empty_true in B. subst b. rewrite wrote_nil. exact (IH body _ (proj1 A)). }
      assert (LB : 0 < len b) by (apply is_empty_false in B; destruct b; [congruence|]; unfold len; cbn [length]; lia).
      destruct (N.leb_spec (len (sout (w_st w)) + len b) lim) as [LM|LM].
      + eassert (A : comes {| l_body := body; l_co := Co_Write b k; l_world := w |} _).
        { ev (P_Taken (len b)). replace (0 <? len b) with true by lia. rewrite N.leb_refl. replace (len (sout (w_st w)) + len b <=? lim) with true by lia. cbn [andb].
          rewrite N.eqb_refl, ntake_all by lia. reflexivity. }
        eapply ends_comes; [exact A|]. exact (IH body _ (proj1 A)).
      + destruct (N.leb_spec lim (len (sout (w_st w)))) as [LO|LO].
        * eassert (A : comes {| l_body := body; l_co := Co_Write b k; l_world := w |} _).
          { ev P_Broken. rewrite B. replace (lim <=? len (sout (w_st w))) with true by lia. reflexivity. }
          eapply ends_comes; [exact A|]. exact (ends_ret _ _ _ (proj1 A)).
        * eassert (A : comes {| l_body := body; l_co := Co_Write b k; l_world := w |} _).
          { ev (P_Taken (lim - len (sout (w_st w)))). replace (0 <? lim - len (sout (w_st w))) with true by lia.
            replace (lim - len (sout (w_st w)) <=? len b) with true by lia. replace (len (sout (w_st w)) + (lim - len (sout (w_st w))) <=? lim) with true by lia. cbn [andb].
            replace (lim - len (sout (w_st w)) =? len b) with false by lia. reflexivity. }
          eapply ends_comes; [exact A|]. destruct A as (F1 & _).
          eassert (A : comes {| l_body := body; l_co := Co_Write (ndrop (lim - len (sout (w_st w))) b) _; l_world := _ |} _).
          { eapply (comes_one P_Broken); [exact F1|unfold p_step, goes; cbn [l_co l_world l_body w_st w_set]|discriminate|cbn [l_co]; discriminate].
            rewrite wrote_out, len_app, len_ntake.
            replace (is_empty (ndrop (lim - len (sout (w_st w))) b)) with false.
            - replace (lim <=? len (sout (w_st w)) + N.min (lim - len (sout (w_st w))) (len b)) with true by lia. reflexivity.
            - symmetry. apply is_empty_false. intros X. apply (f_equal len) in X. rewrite len_ndrop in X. change (len (@nil byte)) with 0 in X. lia. }
          eapply ends_comes; [exact A|]. exact (ends_ret _ _ _ (proj1 A)).
  Qed.

  Definition waits_at (l : Loop) (s : SSt) : Prop :=
    exists l', comes l l' /\ waiting (l_co l') (w_st (l_world l')) = true /\ w_st (l_world l') = s.
  Lemma waits_comes l l' s : comes l l' -> waits_at l' s -> waits_at l s.
  Proof. intros A (l2 & B & E). exists l2. split; [exact (comes_trans _ _ _ A B)|exact E]. Qed.
  Lemma reach_visit co : forall body w s, fit {| l_body := body; l_co := co; l_world := w |} -> visits co (w_st w) s ->
    waits_at {| l_body := body; l_co := co; l_world := w |} s.
  Proof.
    induction co as [r|X f k IH|c k IH|reg k IH|g k IH|m from k IH|X f k IH|b k IH]; intros body w s F V; cbn [visits] in V.
    - destruct V.
    - destruct (f (w_st w)) as [[x|e|] st] eqn:E; [|destruct V..].
      assert (A : comes {| l_body := body; l_co := Co_Do f k; l_world := w |} {| l_body := body; l_co := k x; l_world := w_set st w |}).
      { ev P_Run. rewrite E. reflexivity. }
      eapply waits_comes; [exact A|]. exact (IH x body _ s (proj1 A) V).
    - destruct (F) as [S [NI G]]. destruct (sound_borrow c w S NI) as (w' & E1 & S1 & E2 & E3).
      assert (A : comes {| l_body := body; l_co := Co_Borrow c k; l_world := w |} {| l_body := body; l_co := k; l_world := w' |}).
      { ev P_Run. rewrite E1. reflexivity. }
      eapply waits_comes; [exact A|]. rewrite <- E3 in V. exact (IH body _ s (proj1 A) V).
    - destruct (F) as [S (-> & NI & G)]. destruct (sound_lock w S NI) as [E1 S1].
      eassert (A : comes {| l_body := body; l_co := Co_Lock false k; l_world := w |} _).
      { ev P_Run. rewrite E1. reflexivity. }
      eapply waits_comes; [exact A|]. exact (IH body _ s (proj1 A) V).
    - eassert (A : comes {| l_body := body; l_co := Co_Drop g k; l_world := w |} _).
      { ev P_Run. reflexivity. }
      eapply waits_comes; [exact A|]. exact (IH body _ s (proj1 A) V).
    - destruct V as (L & [(i & I1 & I2 & ->)|(I1 & V)]).
      + destruct (N.eqb_spec i 0) as [->|N0].
        * rewrite took_0. eexists. split; [exact (comes_refl _ F)|]. cbn [l_co l_world waiting]. split; [|reflexivity]. apply andb_true_iff. split; lia.
        * eassert (A : comes {| l_body := body; l_co := Co_Read m from k; l_world := w |} _).
          { ev (P_Arrive i). replace (from + m <=? len (s_buf (w_st w))) with true by lia. replace (0 <? i) with true by lia. replace (i <=? m) with true by lia.
            replace (i <=? len (sin (w_st w))) with true by lia. cbn [andb]. replace (i =? m) with false by lia. reflexivity. }
          eexists. split; [exact A|]. cbn [l_co l_world waiting w_set w_st]. split; [|reflexivity]. rewrite took_buf by lia. apply andb_true_iff. split; lia.
      + destruct (N.eqb_spec m 0) as [->|N0].
        * eassert (A : comes {| l_body := body; l_co := Co_Read 0 from k; l_world := w |} _).
          { ev P_Run. replace (from + 0 <=? len (s_buf (w_st w))) with true by lia. reflexivity. }
          eapply waits_comes; [exact A|]. rewrite ntake_0, took_0 in V. exact (IH [] body _ s (proj1 A) V).
        * eassert (A : comes {| l_body := body; l_co := Co_Read m from k; l_world := w |} _).
          { ev (P_Arrive m). replace (from + m <=? len (s_buf (w_st w))) with true by lia. replace (0 <? m) with true by lia. replace (m <=? m) with true by lia.
            replace (m <=? len (sin (w_st w))) with true by lia. cbn [andb]. rewrite N.eqb_refl. reflexivity. }
          eapply waits_comes; [exact A|]. exact (IH _ body _ s (proj1 A) V).
    - destruct V as [->|V].
      + eexists. split; [exact (comes_refl _ F)|]. auto.
      + destruct (f (w_st w)) as [[x|e|] st] eqn:E; [|destruct V..].
        assert (A : comes {| l_body := body; l_co := Co_Call f k; l_world := w |} {| l_body := body; l_co := k x; l_world := w_set st w |}).
        { ev P_Answer. rewrite E. reflexivity. }
        eapply waits_comes; [exact A|]. exact (IH x body _ s (proj1 A) V).
    - destruct V as [(NB & ->)|[(i & I1 & I2 & ->)|(I1 & V)]].
      + eexists. split; [exact (comes_refl _ F)|]. cbn [l_co l_world waiting]. split; [|reflexivity]. apply negb_true_iff, is_empty_false, NB.
      + eassert (A : comes {| l_body := body; l_co := Co_Write b k; l_world := w |} _).
        { ev (P_Taken i). replace (0 <? i) with true by lia. replace (i <=? len b) with true by lia. replace (len (sout (w_st w)) + i <=? lim) with true by lia. cbn [andb].
          replace (i =? len b) with false by lia. reflexivity. }
        eexists. split; [exact A|]. cbn [l_co l_world waiting w_set w_st]. split; [|reflexivity]. apply negb_true_iff, is_empty_false.
        intros X. apply (f_equal len) in X. rewrite len_ndrop in X. change (len (@nil byte)) with 0 in X. lia.
      + destruct (is_empty b) eqn:B.
        * eassert (A : comes {| l_body := body; l_co := Co_Write b k; l_world := w |} _).
          { ev P_Run. rewrite B. reflexivity. }
          eapply waits_comes; [exact A|]. apply is_empty_true in B. subst b. rewrite wrote_nil in V. exact (IH body _ s (proj1 A) V).
        * assert (LB : 0 < len b) by (apply is_empty_false in B; destruct b; [congruence|]; unfold len; cbn [length]; lia).
          destruct I1 as [->|I1]; [discriminate B|].
          eassert (A : comes {| l_body := body; l_co := Co_Write b k; l_world := w |} _).
          { ev (P_Taken (len b)). replace (0 <? len b) with true by lia. rewrite N.leb_refl. replace (len (sout (w_st w)) + len b <=? lim) with true by lia. cbn [andb].
            rewrite N.eqb_refl, ntake_all by lia. reflexivity. }
          eapply waits_comes; [exact A|]. exact (IH body _ s (proj1 A) V).
  Qed.
End Eval.
