(** Sessions in which [receive] is cancelled. *)
From Coq Require Import Init.Byte Strings.Byte.
From Verif Require Export LeakThm SpecCancel.
Open Scope res_scope.

Lemma s_in_in t s st : s_in t (s_in s st) = s_in t st.
Proof. reflexivity. Qed.
Lemma s_in_self st : s_in (k_in (s_conn st)) st = st.
Proof. destruct st as [[]]. reflexivity. Qed.

Section Eats.
  Context (C : Crypto) (rng : N -> N -> bytes) (h : SHandlers).
  Hypothesis (K : crypto_ok C).

  (** What succeeds takes the front off the input, and does the same whatever
      comes behind. *)
  Definition s_eats {A} (m : SM A) : Prop := forall st a st1, m st = (Ok a, st1) ->
    exists c, k_in (s_conn st) = c ++ k_in (s_conn st1) /\ forall t, m (s_in (c ++ t) st) = (Ok a, s_in t st1).
  Lemma se_bind {A D} (m : SM A) (k : A -> SM D) : s_eats m -> (forall a, s_eats (k a)) -> s_eats (sbind m k).
  Proof.
    intros M F st d st1 H. unfold sbind in *. destruct (m st) as [[a|e|] st2] eqn:E; [|discriminate H..].
    destruct (M _ _ _ E) as (c & E1 & E2). destruct (F _ _ _ _ H) as (c' & F1 & F2). exists (c ++ c'). split.
    - rewrite E1, F1, app_assoc. reflexivity.
    - intros t. rewrite <- app_assoc, E2. apply F2.
  Qed.
  Lemma se_pure {A} (m : SM A) : (forall s st, m (s_in s st) = (fst (m st), s_in s (snd (m st))) /\ k_in (s_conn (snd (m st))) = k_in (s_conn st)) -> s_eats m.
  Proof.
    intros F st a st1 H. exists []. destruct (F [] st) as [_ E]. rewrite H in E. cbn [snd] in E. split; [rewrite E; reflexivity|].
    intros t. destruct (F ([] ++ t) st) as [-> _]. rewrite H. reflexivity.
  Qed.
  Lemma se_ret {A} (r : res InError A) : s_eats (sret r).
  Proof. apply se_pure. intros s st. split; reflexivity. Qed.
  Lemma se_event e : s_eats (s_event e).
  Proof. apply se_pure. intros s st. split; reflexivity. Qed.
  Lemma se_insert c : s_eats (s_insert c).
  Proof. apply se_pure. intros s st. unfold s_insert. cbn [s_in s_chans]. destruct (arena_insert (s_chans st) c) as [r x]. split; reflexivity. Qed.
  Lemma se_get i : s_eats (s_get i).
  Proof. apply se_pure. intros s st. split; reflexivity. Qed.
  Lemma se_put i x : s_eats (s_put i x).
  Proof. apply se_pure. intros s st. split; reflexivity. Qed.
  Lemma se_drop x : s_eats (s_drop x).
  Proof. destruct x; [apply se_event|apply se_ret]. Qed.
  Lemma se_spawn i ch ty : s_eats (s_spawn h i ch ty).
  Proof. apply se_pure. intros s st. split; reflexivity. Qed.
  Lemma se_write n d : s_eats (s_write h n d).
  Proof. apply se_pure. intros s st. split; reflexivity. Qed.
  Lemma se_new_io n io p : s_eats (s_new_io n io p).
  Proof. apply se_pure. intros s st. split; reflexivity. Qed.
  Lemma se_reads err l : s_eats (set_reads err l).
  Proof. apply se_pure. intros s st. split; reflexivity. Qed.
  Lemma se_wait l : s_eats (set_wait l).
  Proof. apply se_pure. intros s st. split; reflexivity. Qed.
  Lemma se_send m : s_eats (s_send C rng m).
  Proof.
    apply se_pure. intros s st. unfold s_send, conn_send. cbn [s_in with_in s_conn s_buf k_wr k_sent k_rd k_in k_out s_chans s_stdout s_stderr s_wait s_children s_log].
    destruct (Out_send C (k_wr (s_conn st)) (s_buf st) (fill_message m) (rng (k_sent (s_conn st)))) as [[[w c] b]|e|]; split; reflexivity.
  Qed.
  Lemma recv_eats c buf s p c1 buf1 s1 : In_recv C c buf s = (Ok p, (c1, buf1, s1)) ->
    exists w, s = w ++ s1 /\ forall t, In_recv C c buf (w ++ t) = (Ok p, (c1, buf1, t)).
  Proof.
    intros H. destruct (N.ltb_spec (len buf) 4) as [L|L]; [rewrite recv_short in H by lia; discriminate H|].
    assert (F : fst (In_recv C c buf s) = Ok p) by (rewrite H; reflexivity).
    apply recv_iff in F as (pad & raw & rest & P & -> & G); [|assumption..].
    destruct (recv_after C c buf raw [] p pad K L P G) as (b & Lb & E). rewrite app_nil_r in E.
    exists (seal_with C c raw). pose proof (recv_local _ _ _ _ _ _ _ _ rest E) as E'. rewrite app_nil_l in E'. rewrite E' in H.
    apply pair_eq in H as [_ H]. apply pair_eq in H as [H <-]. apply pair_eq in H as [<- <-]. split; [reflexivity|].
    intros t. exact (recv_local _ _ _ _ _ _ _ _ t E).
  Qed.
  Lemma se_recv : s_eats (s_recv C).
  Proof.
    intros st a st1 H. unfold s_recv, conn_recv in *. cbn [s_in with_in s_conn s_buf k_wr k_sent k_rd k_in k_out s_chans s_stdout s_stderr s_wait s_children s_log].
    destruct (In_recv C (k_rd (s_conn st)) (s_buf st) (k_in (s_conn st))) as [r [[c b] s]] eqn:E. apply pair_eq in H as [-> <-].
    destruct (recv_eats _ _ _ _ _ _ _ E) as (w & E1 & E2). exists w. split; [exact E1|]. intros t. rewrite E2. reflexivity.
  Qed.
  Lemma se_view {A X} (v : SSt -> X) (m : X -> SM A) : (forall t st, v (s_in t st) = v st) -> (forall x, s_eats (m x)) -> s_eats (fun st => m (v st) st).
  Proof. intros V F st a st1 H. destruct (F _ _ _ _ H) as (c & E1 & E2). exists c. split; [exact E1|]. intros t. rewrite V. apply E2. Qed.
  Ltac se := repeat lazymatch goal with
    | |- s_eats (sbind _ _) => refine (se_bind _ _ _ _); [|intros ?]
    | |- s_eats (sret _) => exact (se_ret _)
    | |- s_eats (s_event _) => exact (se_event _)
    | |- s_eats (s_insert _) => exact (se_insert _)
    | |- s_eats (s_get _) => exact (se_get _)
    | |- s_eats (s_put _ _) => exact (se_put _ _)
    | |- s_eats (s_drop _) => exact (se_drop _)
    | |- s_eats (s_send _ _ _) => exact (se_send _)
    | |- s_eats (s_channel _ _ _) => exact (se_send _)
    | |- s_eats (s_spawn _ _ _ _) => exact (se_spawn _ _ _)
    | |- s_eats (s_write _ _ _) => exact (se_write _ _)
    | |- s_eats (s_new_io _ _ _) => exact (se_new_io _ _ _)
    | |- s_eats (set_reads _ _) => exact (se_reads _ _)
    | |- s_eats (set_wait _) => exact (se_wait _)
    | |- s_eats (s_recv _) => exact se_recv
    | |- s_eats (on_spawn _ _ _ _ _ _) => unfold on_spawn
    | |- s_eats (on_refused _ _ _ _) => unfold on_refused
    | |- s_eats (if ?x then _ else _) => destruct x
    | |- s_eats (match ?x with _ => _ end) => destruct x
    end.
  Lemma se_message m : s_eats (on_message C rng h m).
  Proof.
    unfold on_message. se.
    intros st a st1 H. match type of H with context [arena_remove (s_chans st) ?c] => destruct (arena_remove (s_chans st) c) as [x y] eqn:E end.
    apply (se_bind (s_drop _) (fun _ => sret (Ok false)) (se_drop _) (fun _ => se_ret _)) in H as (w & E1 & E2).
    exists w. split; [exact E1|]. intros t. cbn [s_in s_chans]. rewrite E. exact (E2 t).
  Qed.
  Lemma se_packet : s_eats (on_packet C rng h).
  Proof. unfold on_packet. se. apply se_message. Qed.
  Lemma se_output err n p d : s_eats (on_output C rng err n p d).
  Proof.
    unfold on_output. se.
    apply (se_view (fun st => if err then s_stderr st else s_stdout st)
      (fun l => sbind (set_reads err (forget n l)) (fun _ => if err then sret (Ok tt) else sbind (s_channel C rng (C_Eof p)) (fun _ => s_channel C rng (C_Close p))))).
    - intros b st. destruct err; reflexivity.
    - intros x. se.
  Qed.
  Lemma se_exit n p status : s_eats (on_exit C rng n p status).
  Proof.
    unfold on_exit.
    apply (se_view s_wait (fun l => sbind (set_wait (forget n l)) (fun _ => sbind (s_event (SE_Exit n status)) (fun _ =>
       sbind (sret (unwrap (session_written (SR_ExitStatus status) (zeros 256)))) (fun x => let '(ty, data) := x in
       sbind (s_channel C rng (C_Request {| rq_recipient := p; rq_ty := ty; rq_want_reply := false; rq_data := data |})) (fun _ => sret (Ok false))))))).
    - reflexivity.
    - intros x. se.
  Qed.
  Lemma step_eats e st b st1 : session_step C rng h e st = Some (Ok b, st1) ->
    exists c, k_in (s_conn st) = c ++ k_in (s_conn st1) /\ forall t, session_step C rng h e (s_in (c ++ t) st) = Some (Ok b, s_in t st1).
  Proof.
    destruct e as [|err n d|n status]; cbn [session_step].
    - intros H. apply Some_inj in H. destruct (se_packet _ _ _ H) as (c & E1 & E2). exists c. split; [exact E1|]. intros t. f_equal. apply E2.
    - destruct (look n (if err then s_stderr st else s_stdout st)) as [p|] eqn:LK; [|intros X; discriminate X].
      destruct (match d with Ok d => len d <=? 256 | _ => true end) eqn:LD; [|intros X; discriminate X].
      intros H. apply Some_inj in H. destruct (se_output _ _ _ _ _ _ _ H) as (c & E1 & E2). exists c. split; [exact E1|]. intros t.
      change (if err then s_stderr (s_in (c ++ t) st) else s_stdout (s_in (c ++ t) st)) with (if err then s_stderr st else s_stdout st).
      rewrite LK. f_equal. apply E2.
    - destruct (look n (s_wait st)) as [p|] eqn:LK; [|intros X; discriminate X].
      destruct (is_u32 status); [|intros X; discriminate X].
      intros H. apply Some_inj in H. destruct (se_exit _ _ _ _ _ _ H) as (c & E1 & E2). exists c. split; [exact E1|]. intros t.
      change (s_wait (s_in (c ++ t) st)) with (s_wait st). rewrite LK. f_equal. apply E2.
  Qed.
End Eats.

(** *** Cancelled reading *)
Lemma alike_refl st : s_same st st.
Proof. exists (s_buf st). split; [reflexivity|]. destruct st; reflexivity. Qed.
Lemma alike_trans a b c : s_same a b -> s_same b c -> s_same a c.
Proof. intros (x & L1 & ->) (y & L2 & ->). exists y. cbn [s_with s_buf] in L2. split; [congruence|reflexivity]. Qed.
Lemma alike_sym a b : s_same a b -> s_same b a.
Proof. intros (x & L1 & ->). exists (s_buf a). cbn [s_with s_buf]. split; [congruence|]. destruct a; reflexivity. Qed.
Lemma same_run_trans {E A} (x y z : option (res E A * SSt)) : same_run x y -> same_run y z -> same_run x z.
Proof.
  destruct x as [[r s]|], y as [[r' s']|], z as [[r'' s'']|]; cbn [same_run]; try contradiction; auto.
  intros [-> S1] [-> S2]. split; [reflexivity|exact (alike_trans _ _ _ S1 S2)].
Qed.
Lemma splice_len0 (s b : bytes) : len s <= len b -> len (splice 0 s b) = len b.
Proof. intros L. rewrite splice_0 by exact L. lens. lia. Qed.
Lemma pending_fits C c buf s e st : In_recv C c buf s = (Err (In_Read e), st) -> len s <= len buf.
Proof.
  intros H. destruct (N.ltb_spec (len buf) 4) as [L|L]; [rewrite recv_short in H by lia; discriminate H|].
  destruct (N.ltb_spec (len s) 4) as [L2|L2]; [lia|]. destruct (split4 s L2) as (h & t & -> & Lh).
  rewrite recv_eq in H by (assumption || lia). cbv zeta in H.
  set (l := be_value (decrypt_length C c h)) in *.
  destruct (len buf <? 20 + l) eqn:G1; [discriminate H|]. destruct (len t <? l + 16) eqn:G2; [lens; lia|].
  destruct (bytes_eqb _ _); [|discriminate H].
  apply pair_eq in H as [H _]. revert H. generalize (opened C c h (ntake l t) ++ ntake 16 (ndrop l t) ++ ndrop (20 + l) buf). intros o.
  unfold payload. destruct (wrap_raw o false B8) as [p|x|]; cbn [map_err bind]; [|discriminate..].
  unfold payload_len, packet_len, padding_len, idx_to, u32_of_slice, idx, usize_sub, idx_range.
  destruct (4 <=? len p); cbn [bind]; [|discriminate]. destruct (len (ntake 4 p) =? 4); cbn [bind]; [|discriminate].
  destruct (nth_error p (N.to_nat 4)); cbn [bind]; [|discriminate]. destruct (_ <=? _); cbn [bind]; [|discriminate].
  destruct (1 <=? _); cbn [bind]; [|discriminate]. destruct (_ && _); discriminate.
Qed.
Lemma cut_read_same C n st st' : cut_read C n st = Some st' ->
  exists d rest, k_in (s_conn st) = d ++ rest /\ len d = n /\ s_same (s_in rest st) st'.
Proof.
  unfold cut_read. destruct (N.leb_spec n (len (k_in (s_conn st)))) as [L|L]; [|intros X; discriminate X].
  unfold conn_recv. cbn [with_in k_rd k_in k_wr k_out k_sent].
  destruct (In_recv C (k_rd (s_conn st)) (s_buf st) (ntake n (k_in (s_conn st)))) as [r [[c b] s]] eqn:E. cbn [fst].
  destruct r as [x|[e|m|e|e]|]; intros X; try discriminate X. apply Some_inj in X as <-.
  exists (ntake n (k_in (s_conn st))), (ndrop n (k_in (s_conn st))). split; [symmetry; apply ntake_ndrop|]. split; [lens; lia|].
  exists (splice 0 (ntake n (k_in (s_conn st))) (s_buf st)). split; [|reflexivity]. apply splice_len0. exact (pending_fits _ _ _ _ _ _ E).
Qed.
Lemma cuts_tail x es : cuts_reading (x :: es) -> cuts_reading es.
Proof. intros H c I. apply H. right. exact I. Qed.
Lemma same_in t st st' : s_same st st' -> s_same (s_in t st) (s_in t st').
Proof. intros (b & L & ->). exists b. split; [exact L|reflexivity]. Qed.

Lemma thin C rng h : crypto_ok C -> rngs_ok rng -> forall es st r st1, cut_run C rng h es st = Some (r, st1) -> cuts_reading es ->
  exists t n, n <= wasted es /\ thinned t n (k_in (s_conn st)) /\ same_run (session_run C rng h (turns_of es) (s_in t st)) (Some (r, st1)).
Proof.
  intros K R. induction es as [|[e|c] es IH]; intros st r st1 H CR; cbn [cut_run] in H.
  - apply Some_inj, pair_eq in H as [<- <-]. exists (k_in (s_conn st)), 0. split; [cbn [wasted]; lia|]. split; [apply Th_all|].
    rewrite s_in_self. split; [reflexivity|apply alike_refl].
  - change (turns_of (X_Turn e :: es)) with (e :: turns_of es). change (wasted (X_Turn e :: es)) with (wasted es). cbn [session_run].
    assert (STOP : session_step C rng h e st = Some (r, st1) -> r <> Ok false -> exists t n, n <= wasted es /\ thinned t n (k_in (s_conn st)) /\
      same_run (match session_step C rng h e (s_in t st) with Some (Ok false, st) => session_run C rng h (turns_of es) st | x => x end) (Some (r, st1))).
    { intros E NF. exists (k_in (s_conn st)), 0. split; [lia|]. split; [apply Th_all|]. rewrite s_in_self, E.
      destruct r as [[|]|x|]; [|congruence|..]; (split; [reflexivity|apply alike_refl]). }
    destruct (session_step C rng h e st) as [[[[|]|x|] st2]|] eqn:E; [|clear STOP|..].
    + apply Some_inj, pair_eq in H as [<- <-]. apply STOP; congruence.
    + destruct (IH _ _ _ H (cuts_tail _ _ CR)) as (t & n & L & T & S). destruct (step_eats C rng h K _ _ _ _ E) as (c & E1 & E2).
      exists (c ++ t), n. split; [exact L|]. split; [rewrite E1; apply Th_keep, T|]. rewrite E2. exact S.
    + apply Some_inj, pair_eq in H as [<- <-]. apply STOP; congruence.
    + apply Some_inj, pair_eq in H as [<- <-]. apply STOP; congruence.
    + discriminate H.
  - destruct (elsewhere es); [|discriminate H]. destruct (CR c (or_introl eq_refl)) as (n & ->). cbn [cut_step] in H.
    destruct (cut_read C n st) as [st2|] eqn:E; [|discriminate H].
    destruct (IH _ _ _ H (cuts_tail _ _ CR)) as (t & m & L & T & S). destruct (cut_read_same _ _ _ _ E) as (d & rest & E1 & <- & E2).
    exists t, (len d + m). split; [cbn [wasted]; lia|]. split.
    + rewrite E1. apply Th_drop. destruct E2 as (b & _ & ->). exact T.
    + change (turns_of (X_Cut (Cut_Read (len d)) :: es)) with (turns_of es).
      eapply same_run_trans; [|exact S]. apply run_blind; [exact K|exact R|]. exact (same_in t _ _ E2).
Qed.
Lemma thin_len t n s : thinned t n s -> len t + n = len s.
Proof. induction 1; rewrite ?len_app; lia. Qed.
Lemma thin_none t s : thinned t 0 s -> t = s.
Proof.
  intros H. remember 0 as n eqn:E. revert E. induction H; intros E; [reflexivity|rewrite IHthinned by exact E; reflexivity|].
  destruct c as [|x c]; [|rewrite len_cons in E; lia]. apply IHthinned. rewrite len_nil in E. lia.
Qed.
Lemma init_in t k : session_init (with_in t k) = s_in t (session_init k).
Proof. unfold session_init, s_in. reflexivity. Qed.
Lemma thin_session C rng h k es r st : is_cut_session C rng h k es r st -> cuts_reading es ->
  exists t n st', n <= wasted es /\ thinned t n (k_in k) /\ is_session C rng h (with_in t k) (turns_of es) r st' /\ s_same st' st.
Proof.
  intros (K & R & L1 & L2 & H) CR. destruct (thin C rng h K R es _ _ _ H CR) as (t & n & L & T & S).
  destruct (init_fields k) as (E1 & _). rewrite E1 in T. rewrite <- init_in in S. unfold same_run in S.
  destruct (session_run C rng h (turns_of es) (session_init (with_in t k))) as [[r' st']|] eqn:E; [|contradiction].
  destruct S as [-> S]. exists t, n, st'. split; [exact L|]. split; [exact T|]. split; [|exact S].
  split; [exact K|]. split; [exact R|]. split; [exact L1|]. split; [exact L2|exact E].
Qed.

(** *** Running on *)
Lemma cut_run_turns C rng h es xs : forall st, cut_run C rng h (map X_Turn es ++ xs) st =
  match session_run C rng h es st with Some (Ok false, st') => cut_run C rng h xs st' | x => x end.
Proof.
  induction es as [|e es IH]; intros st; cbn [map app cut_run session_run]; [reflexivity|].
  destruct (session_step C rng h e st) as [[[[|]|x|] st1]|]; try reflexivity. apply IH.
Qed.

