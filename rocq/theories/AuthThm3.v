(** What an authentication does depends only on the bytes it reads. *)
From Coq Require Import Init.Byte Strings.Byte.
From Verif Require Export HostThm3 AuthThm2 SpecStream.
Open Scope res_scope.

Lemma recv_local C c buf s p c1 buf1 s1 t : In_recv C c buf s = (Ok p, (c1, buf1, s1)) -> In_recv C c buf (s ++ t) = (Ok p, (c1, buf1, s1 ++ t)).
Proof.
  unfold In_recv, In_recv_gen. destruct (negb (4 <=? len buf)); [discriminate|].
  destruct (read_exact 4 s) as [[h|e|] s2] eqn:E; try discriminate. rewrite (local_exact _ _ _ _ t E). cbv zeta.
  destruct (u32_of_slice (decrypt_length C c h)) as [l|e|]; try discriminate.
  destruct (negb (l + TAG_SIZE <=? len (splice 0 h buf) - 4)); [discriminate|].
  destruct (read_exact (l + TAG_SIZE) s2) as [[d|e|] s3] eqn:F; try discriminate. rewrite (local_exact _ _ _ _ t F).
  destruct (idx_to (splice 4 d (splice 0 h buf)) (4 + l + TAG_SIZE)) as [data|e|]; try discriminate.
  destruct (decrypt_data C c data) as [[x|e|] [c2 data2]]; try discriminate.
  rewrite !pair_equal_spec. intros (-> & (-> & ->) & ->). auto.
Qed.
Lemma conn_recv_local C buf k p k1 buf1 t : conn_recv C buf k = (Ok p, (k1, buf1)) -> conn_recv C buf (more t k) = (Ok p, (more t k1, buf1)).
Proof.
  unfold conn_recv. cbn [more k_rd k_in k_wr k_out k_sent]. destruct (In_recv C (k_rd k) buf (k_in k)) as [r [[c b] s]] eqn:E.
  rewrite !pair_equal_spec. intros (-> & <- & ->). rewrite (recv_local _ _ _ _ _ _ _ _ t E). reflexivity.
Qed.
Lemma conn_send_more C rng m buf k t : conn_send C rng m buf (more t k) = map_ok (fun x => (more t (fst x), snd x)) (conn_send C rng m buf k).
Proof.
  unfold conn_send. cbn [more k_wr k_sent k_rd k_in k_out].
  destruct (Out_send C (k_wr k) buf (fill_message m) (rng (k_sent k))) as [[[w c] b]|e|]; reflexivity.
Qed.

Section Local.
  Context {U : Type} (C : Crypto) (rng : N -> N -> bytes) (h : AHandlers U) (sid : bytes).

  Definition a_local {A} (m : @AM U A) : Prop :=
    forall st a st1 t, m st = (Ok a, st1) -> m (a_more t st) = (Ok a, a_more t st1).

  Lemma al_bind {A D} (m : @AM U A) (k : A -> AM D) : a_local m -> (forall a, a_local (k a)) -> a_local (abind m k).
  Proof.
    intros M F st d st1 t H. unfold abind in *. destruct (m st) as [[a|e|] st2] eqn:E; try discriminate.
    rewrite (M _ _ _ t E). apply F, H.
  Qed.
  Lemma al_ret {A} (r : res unit A) : a_local (aret (U := U) r).
  Proof. intros st a st1 t H. unfold aret in *. apply pair_eq in H as [-> ->]. reflexivity. Qed.
  Lemma al_unwrap : a_local (a_unwrap (a_recv C)).
  Proof.
    intros st a st1 t H. unfold a_unwrap, a_recv in *. cbn [a_more a_buf a_conn a_mini a_message a_log].
    destruct (conn_recv C (a_buf st) (a_conn st)) as [r [k b]] eqn:E. apply pair_eq in H as [H <-].
    destruct r; try discriminate H. rewrite (conn_recv_local _ _ _ _ _ _ t E). rewrite H. reflexivity.
  Qed.
  Lemma al_try : a_local (a_try (a_recv C)).
  Proof.
    intros st a st1 t H. unfold a_try, a_recv in *. cbn [a_more a_buf a_conn a_mini a_message a_log].
    destruct (conn_recv C (a_buf st) (a_conn st)) as [r [k b]] eqn:E. apply pair_eq in H as [H <-].
    destruct r; try discriminate H. rewrite (conn_recv_local _ _ _ _ _ _ t E). rewrite H. reflexivity.
  Qed.
  Lemma al_send m : a_local (a_send (U := U) C rng m).
  Proof.
    intros st a st1 t H. unfold a_send in *. cbn [a_more a_buf a_conn a_mini a_message a_log]. rewrite conn_send_more.
    destruct (conn_send C rng m (a_buf st) (a_conn st)) as [[k b]|e|]; try discriminate. cbn [map_ok fst snd].
    apply pair_eq in H as [-> <-]. reflexivity.
  Qed.
  Lemma al_send_mini m : a_local (a_send_mini (U := U) C rng m).
  Proof.
    intros st a st1 t H. unfold a_send_mini in *. cbn [a_more a_buf a_conn a_mini a_message a_log]. rewrite conn_send_more.
    destruct (conn_send C rng m (a_mini st) (a_conn st)) as [[k b]|e|]; try discriminate. cbn [map_ok fst snd].
    apply pair_eq in H as [-> <-]. reflexivity.
  Qed.
  Lemma al_exists user service alg key : a_local (a_exists h user service alg key).
  Proof.
    intros st a st1 t H. unfold a_exists in *. cbn [a_more a_log]. apply pair_eq in H as [H <-]. rewrite H. reflexivity.
  Qed.
  Lemma al_authenticate user service auth : a_local (a_authenticate h user service auth).
  Proof.
    intros st a st1 t H. unfold a_authenticate in *. cbn [a_more a_log]. apply pair_eq in H as [H <-]. rewrite H. reflexivity.
  Qed.
  Lemma al_sign_data user service alg blob : a_local (a_sign_data (U := U) sid user service alg blob).
  Proof.
    intros st a st1 t H. unfold a_sign_data in *. cbn [a_more a_message a_conn a_buf a_mini a_log].
    destruct (format_sign_data (a_message st) sid user service alg blob) as [r m]. apply pair_eq in H as [-> <-]. reflexivity.
  Qed.
  Ltac al := repeat lazymatch goal with
    | |- a_local (abind _ _) => refine (al_bind _ _ _ _); [|intros ?]
    | |- a_local (aret _) => exact (al_ret _)
    | |- a_local (a_unwrap _) => exact al_unwrap
    | |- a_local (a_try _) => exact al_try
    | |- a_local (a_send _ _ _) => exact (al_send _)
    | |- a_local (a_send_mini _ _ _) => exact (al_send_mini _)
    | |- a_local (a_exists _ _ _ _ _) => exact (al_exists _ _ _ _)
    | |- a_local (a_authenticate _ _ _ _) => exact (al_authenticate _ _ _)
    | |- a_local (a_sign_data _ _ _ _ _) => exact (al_sign_data _ _ _ _)
    | |- a_local (match ?x with _ => _ end) => destruct x
    | |- a_local (auth_query _ _ _ _ _ _) => unfold auth_query
    | |- a_local (auth_method _ _ _ _ _) => unfold auth_method
    end.
  Lemma service_local : a_local (auth_service C rng).
  Proof. unfold auth_service. al. Qed.
  Lemma round_local : a_local (auth_round C rng h sid).
  Proof. unfold auth_round. al. Qed.
  Lemma loop_local n : forall st u st1 t m, auth_loop C rng h sid n st = Some (Ok u, st1) -> (n <= m)%nat ->
    auth_loop C rng h sid m (a_more t st) = Some (Ok u, a_more t st1).
  Proof.
    induction n as [|n IH]; intros st u st1 t m H L; [discriminate H|]. destruct m as [|m]; [lia|]. cbn [auth_loop] in *.
    destruct (auth_round C rng h sid st) as [[[x|]|e|] st2] eqn:E; try discriminate; rewrite (round_local _ _ _ t E).
    - injection H as -> ->. reflexivity.
    - apply IH; [exact H|lia].
  Qed.
  Lemma phase_local k u st t : auth_phase C rng h sid k = Some (Ok u, st) -> auth_phase C rng h sid (more t k) = Some (Ok u, a_more t st).
  Proof.
    unfold auth_phase. change (auth_init (U := U) (more t k)) with (a_more t (auth_init (U := U) k)).
    generalize (auth_init (U := U) k). intros i.
    destruct (auth_service C rng i) as [[x|e|] st2] eqn:E; try discriminate. rewrite (service_local _ _ _ t E).
    intros H. eapply loop_local; [exact H|]. cbn [more k_in]. rewrite app_length. lia.
  Qed.
End Local.

Lemma authenticate_local {U} H R C rng (h : AHandlers U) s u st t : authenticate_new_client H R C rng h s = Some (AO_Auth (Ok u) st) ->
  authenticate_new_client H R C rng h (s ++ t) = Some (AO_Auth (Ok u) (a_more t st)).
Proof.
  unfold authenticate_new_client. destruct (handle_new_client H R s []) as [[[c|e|] s1] o] eqn:E; [|discriminate..].
  rewrite (handshake_local H R _ _ _ _ _ t E).
  destruct (auth_phase C rng h (session_identifier c) (conn_of c s1 o)) as [[r st2]|] eqn:F; [|intros X; discriminate X].
  intros Q. assert (r = Ok u /\ st2 = st) as [-> ->] by (split; congruence).
  change (conn_of c (s1 ++ t) o) with (more t (conn_of c s1 o)). rewrite (phase_local _ _ _ _ _ _ _ t F). reflexivity.
Qed.
