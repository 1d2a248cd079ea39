(** A login await by await: it ends, as [authenticate_new_client_b] says. *)
From Coq Require Import Init.Byte Strings.Byte.
From Verif Require Export LoginThm2 SpecLogin.
Open Scope res_scope.

Section Ends.
  Context {U : Type} (lim : N) (C : Crypto) (rng : N -> N -> bytes) (h : AHandlers U) (sid : bytes).
  Notation ain st := (k_in (a_conn (U:=U) st)).

  (** ** Every turn of authentication reads *)
  Definition keeps {X} (f : @AM U X) : Prop := forall st, ain (snd (f st)) = ain st.
  Lemma keeps_bind {X Y} (m : @AM U X) (f : X -> @AM U Y) : keeps m -> (forall x, keeps (f x)) -> keeps (abind m f).
  Proof. intros A B st. specialize (A st). unfold abind. destruct (m st) as [[x|e|] st1]; cbn [snd] in *; [rewrite (B x st1)|..]; exact A. Qed.
  Lemma keeps_ret {X} (r : res unit X) : keeps (aret r).
  Proof. intros st. reflexivity. Qed.
  Lemma keeps_send mini m : keeps (a_send_b lim C rng mini m).
  Proof.
    intros st. unfold a_send_b, conn_send_b. destruct (Out_send _ _ _ _ _) as [[[w c] buf]|e|]; cbn [bind]; [|reflexivity..].
    destruct (write_lim _ _ _) as [o [|]]; reflexivity.
  Qed.
  Lemma keeps_exists us se al ke : keeps (a_exists h us se al ke).
  Proof. intros st. reflexivity. Qed.
  Lemma keeps_auth us se au : keeps (a_authenticate h us se au).
  Proof. intros st. reflexivity. Qed.
  Lemma keeps_sign us se al bl : keeps (a_sign_data sid us se al bl).
  Proof. intros st. unfold a_sign_data. destruct (format_sign_data _ _ _ _ _ _). reflexivity. Qed.
  Lemma keeps_method ua : keeps (auth_method_b lim C rng h sid ua).
  Proof.
    unfold auth_method_b, auth_method, auth_query_b. destruct (ua_method ua).
    all: repeat first [apply keeps_bind; [|intros ?]|apply keeps_ret|apply keeps_send|apply keeps_exists|apply keeps_sign].
  Qed.
  Lemma recv_shrinks st d st1 : a_recv C st = (Ok d, st1) -> (length (ain st1) < length (ain st))%nat.
  Proof.
    unfold a_recv, conn_recv, In_recv, In_recv_gen. destruct (negb _); [intros E; discriminate E|].
    destruct (read_exact 4 (ain st)) as [r2 s2] eqn:S. destruct r2 as [hd|e|]; [|intros E; discriminate E..].
    assert (L2 : (length s2 < length (ain st))%nat).
    { unfold read_exact in S. destruct (N.leb_spec 4 (len (ain st))); [|discriminate S]. apply pair_eq in S as [_ <-]. unfold ndrop. rewrite skipn_length. unfold len in *. lia. }
    destruct (u32_of_slice _) as [l|e|]; [|intros E; discriminate E..]. destruct (negb _); [intros E; discriminate E|].
    destruct (read_exact (l + TAG_SIZE) s2) as [r3 s3] eqn:S3. destruct r3 as [d3|e|]; [|intros E; discriminate E..].
    assert (L3 : (length s3 <= length s2)%nat).
    { unfold read_exact in S3. destruct (l + TAG_SIZE <=? len s2); [|discriminate S3]. apply pair_eq in S3 as [_ <-]. unfold ndrop. rewrite skipn_length. lia. }
    destruct (idx_to _ _) as [data|e|]; [|intros E; discriminate E..]. destruct (decrypt_data _ _ _) as [[x|e|] [c data']]; intros E; try discriminate E.
    apply pair_eq in E as [_ <-]. cbn [a_conn k_in]. lia.
  Qed.
  Lemma round_shrinks st x st1 : auth_round_b lim C rng h sid st = (Ok x, st1) -> (length (ain st1) < length (ain st))%nat.
  Proof.
    unfold auth_round_b. set (rest := fun data : bytes => _). assert (KR : forall d, keeps (rest d)).
    { intros d. subst rest. cbn beta. apply keeps_bind; [apply keeps_ret|]. intros msg. apply keeps_bind; [apply keeps_ret|]. intros u. apply keeps_bind; [apply keeps_ret|].
      intros ua. apply keeps_bind; [apply keeps_method|]. intros [auth|]; [|apply keeps_ret]. apply keeps_bind; [apply keeps_auth|].
      intros [user|e|]; (apply keeps_bind; [apply keeps_send|intros _; apply keeps_ret]). }
    unfold abind, a_try. destruct (a_recv C st) as [[d|e|] st0] eqn:Q; cbn [map_err]; intros E; try discriminate E. apply recv_shrinks in Q. specialize (KR d st0). rewrite E in KR. cbn [snd] in KR. rewrite KR. exact Q.
  Qed.
  Lemma loop_total fuel : forall st, (length (ain st) < fuel)%nat -> exists x, auth_loop_b lim C rng h sid fuel st = Some x.
  Proof.
    induction fuel as [|fuel IH]; intros st L; [lia|]. cbn [auth_loop_b]. destruct (auth_round_b lim C rng h sid st) as [[[u|]|e|] st1] eqn:Q; eauto.
    apply IH. apply round_shrinks in Q. lia.
  Qed.
  Lemma keeps_recv_le st : (length (ain (snd (a_recv C st))) <= length (ain st))%nat.
  Proof.
    assert (LR : forall n s, (length (snd (read_exact n s)) <= length s)%nat).
    { intros n s. unfold read_exact. destruct (n <=? len s); cbn [snd]; [unfold ndrop; rewrite skipn_length; lia|cbn [length]; lia]. }
    unfold a_recv, conn_recv, In_recv, In_recv_gen. destruct (negb _); [cbn [snd a_conn k_in]; lia|]. pose proof (LR 4 (ain st)) as L1.
    destruct (read_exact 4 (ain st)) as [[hd|e|] s2]; cbn [snd] in L1; [|exact L1..]. destruct (u32_of_slice _) as [l|e|]; [|exact L1..]. destruct (negb _); [exact L1|].
    pose proof (LR (l + TAG_SIZE) s2) as L2. destruct (read_exact (l + TAG_SIZE) s2) as [[d|e|] s3]; cbn [snd] in L2; [|cbn [snd a_conn k_in]; lia..].
    destruct (idx_to _ _) as [data|e|]; [|cbn [snd a_conn k_in]; lia..]. destruct (decrypt_data _ _ _) as [[x|e|] [c data']]; cbn [snd a_conn k_in]; lia.
  Qed.
  Lemma service_le st : (length (ain (snd (auth_service_b lim C rng st))) <= length (ain st))%nat.
  Proof.
    unfold auth_service_b. set (rest := fun data : bytes => _). assert (KR : forall d, keeps (rest d)).
    { intros d. subst rest. cbn beta. apply keeps_bind; [apply keeps_ret|]. intros msg. apply keeps_bind; [apply keeps_ret|]. intros srv.
      destruct (bytes_eqb srv (B "ssh-userauth")); [apply keeps_send|apply keeps_ret]. }
    pose proof (keeps_recv_le st) as L. unfold abind, a_unwrap. destruct (a_recv C st) as [[d|e|] st0]; cbn [unwrap snd] in *; [rewrite (KR d st0)|..]; exact L.
  Qed.
  Lemma phase_total k : exists x, auth_phase_b lim C rng h sid k = Some x.
  Proof.
    rewrite phase_b_eq. pose proof (proj1 (init_io (U:=U) k)) as I. revert I. generalize (auth_init (U:=U) k). intros a I.
    pose proof (service_le a) as L. rewrite I in L. destruct (auth_service_b lim C rng a) as [[x|e|] st]; [|eauto..]. cbn [snd] in L. apply loop_total. lia.
  Qed.
End Ends.

Section Login.
  Context {U : Type} (H : Host) (C : Crypto) (p : Peer U) (lim : N) (s : stream).
  Notation attempt := (authenticate_new_client_b lim H (p_host_rng p) C (p_rng p) (p_auth p) s).
  Lemma attempt_total : exists out, attempt = Some out.
  Proof.
    unfold authenticate_new_client_b. destruct (handle_new_client_b lim H (p_host_rng p) s []) as [[[c|e|] s1] o]; [|eauto..].
    destruct (phase_total lim C (p_rng p) (p_auth p) (session_identifier c) (conn_of c s1 o)) as ([r st] & ->). eauto.
  Qed.
  Lemma login_comes_to es g : logging_in H C p lim s es g -> len (g_out g) <= lim /\ exists x s' o', comes_to lim g x s' o' /\ attempt = Some (l_outcome x s' o').
  Proof.
    intros E. destruct attempt_total as (out & A). destruct (login_yields lim H (p_host_rng p) C (p_rng p) (p_auth p) s out A) as (x & s' & o' & Y & <-).
    destruct (run_yields lim es (login_begins H C p s) g) as [L Q]; [cbn [login_begins g_out]; change (len (@nil byte)) with 0; lia|exact E|].
    split; [exact L|]. exists x, s', o'. split; [apply Q, Y|exact A].
  Qed.
  Lemma login_ends es out : logged_in H C p lim s es out -> attempt = Some out.
  Proof.
    intros (g & x & E & D & ->). destruct (login_comes_to es g E) as (_ & x' & s' & o' & Y & ->). unfold comes_to in Y. rewrite D in Y. inversion Y; subst. reflexivity.
  Qed.
  Lemma login_so_far es g : logging_in H C p lim s es g -> exists out, attempt = Some out /\ begins (g_out g) (written out) /\ len (written out) <= lim /\
    exists d, s = d ++ g_in g.
  Proof.
    intros E. destruct (login_comes_to es g E) as (L & x & s' & o' & Y & A). destruct (yields_begins lim _ _ _ _ _ _ Y L) as (B1 & B2 & _).
    exists (l_outcome x s' o'). split; [exact A|]. split; [destruct x; exact B1|]. split; [destruct x; exact B2|].
    assert (X : forall es (g g' : Going (LResult U)), g_run lim es g = Some g' -> exists d, g_in g = d ++ g_in g').
    { clear. induction es as [|e es IH]; intros g g' R; cbn [g_run] in R; [apply Some_inj in R; subst g'; exists []; reflexivity|].
      destruct (g_step lim e g) as [g1|] eqn:S; [|discriminate R]. destruct (IH _ _ R) as (d & D).
      assert (Y : exists d, g_in g = d ++ g_in g1).
      { destruct g as [co s o]. unfold g_step in S. cbn [g_co g_in g_out] in *. destruct e, co; try discriminate S;
          (match type of S with (if ?b then _ else _) = _ => destruct b; [|discriminate S] | _ => idtac end); apply Some_inj in S; subst g1; cbn [g_in]; try (exists []; reflexivity).
        exists (ntake n s). symmetry. apply ntake_ndrop. }
      destruct Y as (d' & Y). exists (d' ++ d). rewrite Y, D, app_assoc. reflexivity. }
    exact (X es _ g E).
  Qed.
  Lemma login_bounded : exists n, forall es g, logging_in H C p lim s es g -> (length es <= n)%nat.
  Proof.
    destruct attempt_total as (out & A). destruct (login_yields lim H (p_host_rng p) C (p_rng p) (p_auth p) s out A) as (x & s' & o' & Y & _).
    destruct (yields_bounded lim _ _ _ _ _ _ Y) as (n & B); [change (len (@nil byte)) with 0; lia|]. exists n. exact B.
  Qed.
  Lemma login_goes es g : logging_in H C p lim s es g -> (exists x, g_co g = Lg_Ret x) \/ exists e g', g_step lim e g = Some g'.
  Proof. intros _. apply going. Qed.
  Lemma login_finishes es g : logging_in H C p lim s es g -> exists es' out, logged_in H C p lim s (es ++ es') out.
  Proof.
    intros E. destruct (login_comes_to es g E) as (L & x & s' & o' & Y & A). destruct (yields_bounded lim _ _ _ _ _ _ Y L) as (n & B).
    destruct (bounded_ends lim n g) as (es' & g' & R & (y & D)); [destruct g; exact B|]. exists es', (l_outcome y (g_in g') (g_out g')), g', y.
    split; [|split; [exact D|reflexivity]]. unfold logging_in in *. rewrite run_app, E. exact R.
  Qed.
End Login.
