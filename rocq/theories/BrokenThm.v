(** A transport that breaks. *)
From Coq Require Import Init.Byte Strings.Byte.
From Verif Require Export ServerThm SpecBroken.
Open Scope res_scope.

Lemma ntake_more (n : N) (a b : bytes) : n < len a -> ntake n (a ++ b) = ntake n a.
Proof. intros L. unfold ntake, len in *. rewrite firstn_app. replace (N.to_nat n - length a)%nat with 0%nat by lia. rewrite app_nil_r. reflexivity. Qed.
Lemma write_lim_cases lim o b : (len (o ++ b) <= lim /\ write_lim lim o b = (o ++ b, true)) \/
  (lim < len (o ++ b) /\ write_lim lim o b = (ntake lim (o ++ b), false)).
Proof. unfold write_lim. rewrite len_app. destruct (N.leb_spec (len o + len b) lim); [left|right]; auto. Qed.

(** * The handshake *)
Section IoSim.
  Context (lim : N).
  Definition io_grows {A} (m : IO A) : Prop := forall s o, exists w, snd (m s o) = o ++ w.
  Definition io_sim {A} (m mb : IO A) : Prop := io_grows m /\ forall s o, len o <= lim ->
    let '(r, s1, o1) := m s o in
    if len o1 <=? lim then mb s o = (r, s1, o1) else exists s2, mb s o = (Err H_Write, s2, ntake lim o1).
  Lemma ios_bind {A D} (m mb : IO A) (k kb : A -> IO D) : io_sim m mb -> (forall a, io_sim (k a) (kb a)) -> io_sim (io_bind m k) (io_bind mb kb).
  Proof.
    intros [G S] F. split.
    - intros s o. destruct (G s o) as (w & E). unfold io_bind. destruct (m s o) as [[[a|e|] s1] o1]; cbn [snd] in *; subst o1; [|eauto..].
      destruct (proj1 (F a) s1 (o ++ w)) as (w' & ->). rewrite <- app_assoc. eauto.
    - intros s o L. specialize (S s o L). unfold io_bind. destruct (m s o) as [[r s1] o1].
      destruct (N.leb_spec (len o1) lim) as [L1|L1].
      + rewrite S. destruct r as [a|e|]; [|rewrite (proj2 (N.leb_le _ _) L1); reflexivity..]. exact (proj2 (F a) s1 o1 L1).
      + destruct S as (s2 & ->). destruct r as [a|e|]; [|rewrite (proj2 (N.leb_gt _ _) L1); eauto..].
        pose proof (proj1 (F a) s1 o1) as (w & E). destruct (k a s1 o1) as [[r2 s3] o3]. cbn [snd] in E. subst o3.
        rewrite (proj2 (N.leb_gt _ _)) by (lens; lia). exists s2. rewrite ntake_more by exact L1. reflexivity.
  Qed.
  Lemma ios_same {A} (m : IO A) : (forall s o, snd (m s o) = o) -> io_sim m m.
  Proof.
    intros F. split.
    - intros s o. exists []. rewrite app_nil_r. apply F.
    - intros s o L. specialize (F s o). destruct (m s o) as [[r s1] o1]. cbn [snd] in F. subst o1. rewrite (proj2 (N.leb_le _ _) L). reflexivity.
  Qed.
  Lemma ios_write b : io_sim (io_write b) (io_write_lim lim b).
  Proof.
    split.
    - intros s o. exists b. reflexivity.
    - intros s o L. unfold io_write, io_write_lim. destruct (write_lim_cases lim o b) as [[L1 ->]|[L1 ->]].
      + rewrite (proj2 (N.leb_le _ _) L1). reflexivity.
      + rewrite (proj2 (N.leb_gt _ _) L1). eauto.
  Qed.
  Lemma ios_read {E A} (f : stream -> res E A * stream) e : io_sim (io_read f e) (io_read f e).
  Proof. apply ios_same. intros s o. unfold io_read. destruct (f s). reflexivity. Qed.
  Lemma ios_ret {A} (r : res HandleNewClientError A) : io_sim (io_ret r) (io_ret r).
  Proof. apply ios_same. reflexivity. Qed.
  Lemma ios_handshake H R : io_sim (handle_new_client H R) (handle_new_client_b lim H R).
  Proof.
    unfold handle_new_client, handle_new_client_b, handle_new_client_on. cbv zeta. generalize (zeros 65536) (zeros 256). intros z1 z2.
    repeat lazymatch goal with
    | |- io_sim (io_bind _ _) _ => refine (ios_bind _ _ _ _ _ _); [|intros ?]
    | |- io_sim (io_run _) _ => exact (ios_ret _)
    | |- io_sim (io_write _) _ => exact (ios_write _)
    | |- io_sim (io_ret _) _ => exact (ios_ret _)
    | |- io_sim (io_read _ _) _ => exact (ios_read _ _)
    | |- io_sim (let '(_, _) := ?x in _) _ => destruct x
    end.
  Qed.
  Lemma handshake_breaks H R s :
    (len (shaken H R s) <= lim -> handle_new_client_b lim H R s [] = handle_new_client H R s []) /\
    (lim < len (shaken H R s) -> exists s', handle_new_client_b lim H R s [] = (Err H_Write, s', ntake lim (shaken H R s))).
  Proof.
    pose proof (proj2 (ios_handshake H R) s [] (N.le_0_l _)) as X. unfold shaken. destruct (handle_new_client H R s []) as [[r s1] o1]. cbn [snd].
    destruct (N.leb_spec (len o1) lim); (split; intros; [|]); try lia; exact X.
  Qed.
End IoSim.

(** * Sending *)
Lemma conn_send_breaks lim C rng m buf k :
  match conn_send C rng m buf k with
  | Ok (k1, buf1) =>
    (exists w, k_out k1 = k_out k ++ w) /\
    ((len (k_out k1) <= lim /\ conn_send_b lim C rng m buf k = Ok (k1, buf1, true)) \/
     (lim < len (k_out k1) /\ exists k2, conn_send_b lim C rng m buf k = Ok (k2, buf1, false) /\ k_out k2 = ntake lim (k_out k1)))
  | Err e => conn_send_b lim C rng m buf k = Err e
  | Panic => conn_send_b lim C rng m buf k = Panic
  end.
Proof.
  unfold conn_send, conn_send_b. destruct (Out_send C (k_wr k) buf (fill_message m) (rng (k_sent k))) as [[[w c] b]|e|]; cbn [bind]; [|reflexivity..].
  cbn [k_out]. split; [eauto|]. destruct (write_lim_cases lim (k_out k) w) as [[L ->]|[L ->]]; [left|right]; (split; [exact L|]); eauto.
Qed.

(** * Authentication *)
Section AuthSim.
  Context {U : Type} (lim : N) (C : Crypto) (rng : N -> N -> bytes) (h : AHandlers U) (sid : bytes).
  Notation aout st := (k_out (a_conn st)).
  Definition a_ext (st st1 : ASt U) : Prop := (exists w, aout st1 = aout st ++ w) /\ exists t, a_log st1 = a_log st ++ t.
  Lemma a_ext_refl st : a_ext st st.
  Proof. split; exists []; rewrite app_nil_r; reflexivity. Qed.
  Lemma a_ext_trans a b c : a_ext a b -> a_ext b c -> a_ext a c.
  Proof. intros [(w1 & A1) (t1 & A2)] [(w2 & B1) (t2 & B2)]. split; [exists (w1 ++ w2)|exists (t1 ++ t2)]; rewrite app_assoc; congruence. Qed.
  Lemma a_broke_ext st st1 st2 : a_broke lim st st2 -> a_ext st st1 -> a_broke lim st1 st2.
  Proof.
    intros (L & O & m & t & E) [(w & A1) (t1 & A2)]. unfold a_broke. rewrite A1, A2, O, E, ntake_more by exact L.
    split; [lens; lia|]. split; [reflexivity|]. exists m, (t ++ t1). rewrite <- app_assoc. reflexivity.
  Qed.
  Definition a_grows {A} (m : @AM U A) : Prop := forall st, a_ext st (snd (m st)).
  Definition a_sim {A} (m mb : @AM U A) : Prop := a_grows m /\ forall st, len (aout st) <= lim ->
    (len (aout (snd (m st))) <= lim /\ mb st = m st) \/ (exists st2, mb st = (Panic, st2) /\ a_broke lim (snd (m st)) st2).
  Lemma as_bind {A D} (m mb : @AM U A) (k kb : A -> @AM U D) : a_sim m mb -> (forall a, a_sim (k a) (kb a)) -> a_sim (abind m k) (abind mb kb).
  Proof.
    intros [G S] F. split.
    - intros st. specialize (G st). unfold abind. destruct (m st) as [[a|e|] st1]; cbn [snd] in *; auto.
      eapply a_ext_trans; [exact G|]. apply (proj1 (F a)).
    - intros st L. specialize (S st L). unfold abind. destruct (m st) as [r st1]. cbn [snd] in S. destruct S as [[L1 ->]|(st2 & -> & B)].
      + destruct r as [a|e|]; [|left; auto..]. exact (proj2 (F a) st1 L1).
      + right. exists st2. split; [reflexivity|]. destruct r as [a|e|]; [|exact B..]. eapply a_broke_ext; [exact B|]. apply (proj1 (F a)).
  Qed.
  Lemma as_same {A} (m : @AM U A) : (forall st, aout (snd (m st)) = aout st /\ exists t, a_log (snd (m st)) = a_log st ++ t) -> a_sim m m.
  Proof.
    intros F. split.
    - intros st. destruct (F st) as [E1 E2]. split; [exists []; rewrite app_nil_r|]; auto.
    - intros st L. left. rewrite (proj1 (F st)). auto.
  Qed.
  Lemma as_ret {A} (r : res unit A) : a_sim (aret r) (aret r).
  Proof. apply as_same. intros st. split; [reflexivity|exists []; rewrite app_nil_r; reflexivity]. Qed.
  Lemma as_recv : forall st, aout (snd (a_recv C st)) = aout st /\ a_log (snd (a_recv (U:=U) C st)) = a_log st.
  Proof.
    intros st. unfold a_recv, conn_recv. destruct (In_recv C (k_rd (a_conn st)) (a_buf st) (k_in (a_conn st))) as [r [[c b] s]]. split; reflexivity.
  Qed.
  Lemma as_unwrap : a_sim (a_unwrap (a_recv C)) (a_unwrap (a_recv C)).
  Proof.
    apply as_same. intros st. destruct (as_recv st) as [E1 E2]. unfold a_unwrap. destruct (a_recv C st) as [r st1]. cbn [snd] in *. split; [exact E1|].
    exists []. rewrite app_nil_r. exact E2.
  Qed.
  Lemma as_try : a_sim (a_try (a_recv C)) (a_try (a_recv C)).
  Proof.
    apply as_same. intros st. destruct (as_recv st) as [E1 E2]. unfold a_try. destruct (a_recv C st) as [r st1]. cbn [snd] in *. split; [exact E1|].
    exists []. rewrite app_nil_r. exact E2.
  Qed.
  Lemma as_exists u s a k : a_sim (a_exists h u s a k) (a_exists h u s a k).
  Proof. apply as_same. intros st. split; [reflexivity|]. eexists. reflexivity. Qed.
  Lemma as_authenticate u s a : a_sim (a_authenticate h u s a) (a_authenticate h u s a).
  Proof. apply as_same. intros st. split; [reflexivity|]. eexists. reflexivity. Qed.
  Lemma as_sign u s a b : a_sim (a_sign_data sid u s a b) (a_sign_data sid u s a b).
  Proof.
    apply as_same. intros st. unfold a_sign_data. destruct (format_sign_data (a_message st) sid u s a b). split; [reflexivity|].
    exists []. rewrite app_nil_r. reflexivity.
  Qed.
  Lemma as_send_mini m : a_sim (a_send_mini C rng m) (a_send_b lim C rng true m).
  Proof.
    split.
    - intros st. unfold a_send_mini. pose proof (conn_send_breaks lim C rng m (a_mini st) (a_conn st)) as X.
      destruct (conn_send C rng m (a_mini st) (a_conn st)) as [[k b]|e|]; [|apply a_ext_refl..]. split; [exact (proj1 X)|]. eexists. reflexivity.
    - intros st L. unfold a_send_mini, a_send_b. pose proof (conn_send_breaks lim C rng m (a_mini st) (a_conn st)) as X.
      destruct (conn_send C rng m (a_mini st) (a_conn st)) as [[k b]|e|]; [|left; rewrite X; auto..].
      destruct X as [_ [[L1 ->]|(L1 & k2 & -> & E)]]; [left|right].
      + split; [exact L1|reflexivity].
      + eexists. split; [reflexivity|]. split; [exact L1|]. split; [exact E|]. exists m, []. cbn [snd a_log]. rewrite app_nil_r. reflexivity.
  Qed.
  Lemma as_send m : a_sim (a_send C rng m) (a_send_b lim C rng false m).
  Proof.
    split.
    - intros st. unfold a_send. pose proof (conn_send_breaks lim C rng m (a_buf st) (a_conn st)) as X.
      destruct (conn_send C rng m (a_buf st) (a_conn st)) as [[k b]|e|]; [|apply a_ext_refl..]. split; [exact (proj1 X)|]. eexists. reflexivity.
    - intros st L. unfold a_send, a_send_b. pose proof (conn_send_breaks lim C rng m (a_buf st) (a_conn st)) as X.
      destruct (conn_send C rng m (a_buf st) (a_conn st)) as [[k b]|e|]; [|left; rewrite X; auto..].
      destruct X as [_ [[L1 ->]|(L1 & k2 & -> & E)]]; [left|right].
      + split; [exact L1|reflexivity].
      + eexists. split; [reflexivity|]. split; [exact L1|]. split; [exact E|]. exists m, []. cbn [snd a_log]. rewrite app_nil_r. reflexivity.
  Qed.
  Ltac asim := repeat lazymatch goal with
    | |- a_sim (abind _ _) _ => refine (as_bind _ _ _ _ _ _); [|intros ?]
    | |- a_sim (aret _) _ => exact (as_ret _)
    | |- a_sim (a_unwrap _) _ => exact as_unwrap
    | |- a_sim (a_try _) _ => exact as_try
    | |- a_sim (a_send_mini _ _ _) _ => exact (as_send_mini _)
    | |- a_sim (a_send _ _ _) _ => exact (as_send _)
    | |- a_sim (a_exists _ _ _ _ _) _ => exact (as_exists _ _ _ _)
    | |- a_sim (a_authenticate _ _ _ _) _ => exact (as_authenticate _ _ _)
    | |- a_sim (a_sign_data _ _ _ _ _) _ => exact (as_sign _ _ _ _)
    | |- a_sim (auth_query _ _ _ _ _ _) _ => unfold auth_query, auth_query_b
    | |- a_sim (auth_method _ _ _ _ _) _ => unfold auth_method, auth_method_b
    | |- a_sim (if ?x then _ else _) _ => destruct x
    | |- a_sim (match ?x with _ => _ end) _ => destruct x
    end.
  Lemma as_service : a_sim (auth_service C rng) (auth_service_b lim C rng).
  Proof. unfold auth_service, auth_service_b. asim. Qed.
  Lemma as_round : a_sim (auth_round C rng h sid) (auth_round_b lim C rng h sid).
  Proof.
    unfold auth_round, auth_round_b. refine (as_bind _ _ _ _ as_try _). intros d. refine (as_bind _ _ _ _ (as_ret _) _). intros msg.
    refine (as_bind _ _ _ _ (as_ret _) _). intros u. refine (as_bind _ _ _ _ (as_ret _) _). intros ua.
    refine (as_bind _ _ _ _ _ _); [|intros [a|]; asim]. unfold auth_method, auth_method_b. destruct (ua_method ua) eqn:E; unfold auth_method; rewrite ?E; asim.
  Qed.
  Lemma as_loop fuel : forall st r st1, auth_loop C rng h sid fuel st = Some (r, st1) -> a_ext st st1 /\ (len (aout st) <= lim ->
    (len (aout st1) <= lim /\ auth_loop_b lim C rng h sid fuel st = Some (r, st1)) \/
    exists st2, auth_loop_b lim C rng h sid fuel st = Some (Panic, st2) /\ a_broke lim st1 st2).
  Proof.
    induction fuel as [|fuel IH]; intros st r st1 E; [discriminate E|]. cbn [auth_loop auth_loop_b] in *.
    pose proof (proj1 as_round st) as G. pose proof (proj2 as_round st) as S. revert E. destruct (auth_round C rng h sid st) as [r0 st0]. cbn [snd] in *. intros E. split.
    - destruct r0 as [[u|]|e|]; [|eapply a_ext_trans; [exact G|]; apply (IH _ _ _ E)| |]; apply Some_inj, pair_eq in E as [_ <-]; exact G.
    - intros L. destruct (S L) as [[L0 ->]|(st2 & -> & B)].
      + destruct r0 as [[u|]|e|]; [|exact (proj2 (IH _ _ _ E) L0)| |]; apply Some_inj, pair_eq in E as [<- <-]; auto.
      + right. exists st2. split; [reflexivity|]. destruct r0 as [[u|]|e|]; [|eapply a_broke_ext; [exact B|]; apply (IH _ _ _ E)| |];
          apply Some_inj, pair_eq in E as [_ <-]; exact B.
  Qed.
  Lemma phase_breaks k r a : auth_phase C rng h sid k = Some (r, a) -> (exists w, aout a = k_out k ++ w) /\ (len (k_out k) <= lim ->
    (len (aout a) <= lim /\ auth_phase_b lim C rng h sid k = Some (r, a)) \/
    exists a', auth_phase_b lim C rng h sid k = Some (Panic, a') /\ a_broke lim a a').
  Proof.
    unfold auth_phase, auth_phase_b. change (k_out k) with (aout (auth_init (U:=U) k)). generalize (S (length (k_in k))) as fuel.
    generalize (auth_init (U:=U) k). intros st fuel.
    pose proof (proj1 as_service st) as G. pose proof (proj2 as_service st) as S. destruct (auth_service C rng st) as [r0 st0]. cbn [snd] in *. intros E. split.
    - destruct r0 as [u|e|]; [exact (proj1 (a_ext_trans _ _ _ G (proj1 (as_loop _ _ _ _ E))))|..]; apply Some_inj, pair_eq in E as [_ <-]; exact (proj1 G).
    - intros L. destruct (S L) as [[L0 ->]|(st2 & -> & B)].
      + destruct r0 as [u|e|]; [exact (proj2 (as_loop _ _ _ _ E) L0)|..]; apply Some_inj, pair_eq in E as [<- <-]; auto.
      + right. exists st2. split; [reflexivity|]. destruct r0 as [u|e|]; [eapply a_broke_ext; [exact B|exact (proj1 (as_loop _ _ _ _ E))]|..];
          apply Some_inj, pair_eq in E as [_ <-]; exact B.
  Qed.
End AuthSim.

(** Handshake and authentication. *)
Section Attempt.
  Context {U : Type} (lim : N) (H : Host) (R : HostRng) (C : Crypto) (rng : N -> N -> bytes) (h : AHandlers U).
  Lemma attempt_breaks s out : authenticate_new_client H R C rng h s = Some out ->
    (exists w, written out = shaken H R s ++ w) /\
    ((len (written out) <= lim /\ authenticate_new_client_b lim H R C rng h s = Some out) \/
     (lim < len (shaken H R s) /\ authenticate_new_client_b lim H R C rng h s = Some (AO_Handshake false (ntake lim (shaken H R s)))) \/
     (len (shaken H R s) <= lim /\ exists r a a', out = AO_Auth r a /\ authenticate_new_client_b lim H R C rng h s = Some (AO_Auth Panic a') /\ a_broke lim a a')).
  Proof.
    destruct (handshake_breaks lim H R s) as [B1 B2]. unfold authenticate_new_client, authenticate_new_client_b, shaken in *.
    destruct (handle_new_client H R s []) as [[x s1] o]. cbn [snd] in *. intros E.
    destruct x as [c|e|].
    - destruct (auth_phase C rng h (session_identifier c) (conn_of c s1 o)) as [[r a]|] eqn:P; [|discriminate E]. apply Some_inj in E as <-.
      destruct (phase_breaks lim _ _ _ _ _ _ _ P) as [G S]. cbn [written conn_of k_out] in *. split; [exact G|].
      destruct (N.leb_spec (len o) lim) as [L|L].
      + rewrite (B1 L). destruct (S L) as [[L1 ->]|(a' & -> & B)]; [left; auto|]. right. right. split; [exact L|]. exists r, a, a'. auto.
      + right. left. destruct (B2 L) as (s' & ->). auto.
    - apply Some_inj in E as <-. cbn [written]. split; [exists []; rewrite app_nil_r; reflexivity|]. destruct (N.leb_spec (len o) lim) as [L|L].
      + left. rewrite (B1 L). auto.
      + right. left. destruct (B2 L) as (s' & ->). auto.
    - apply Some_inj in E as <-. cbn [written]. split; [exists []; rewrite app_nil_r; reflexivity|]. destruct (N.leb_spec (len o) lim) as [L|L].
      + left. rewrite (B1 L). auto.
      + right. left. destruct (B2 L) as (s' & ->). auto.
  Qed.
End Attempt.
