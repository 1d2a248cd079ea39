(** Signatures and keys of different connections. *)
From Coq Require Import Init.Byte Strings.Byte ListDec.
From Verif Require Export SpecSec AuthThm2 HostThm3.
Open Scope res_scope.

Lemma transcript_fine H e vc ic qc raw : host_ok H -> ident_ok vc -> plain_packet ic raw -> len qc = 32 ->
  transcript_ok (transcript_of H e vc ic qc).
Proof.
  intros (_ & X1 & X2 & _ & X4 & X5) (_ & _ & I) (pad & _ & _ & _ & P & _) Q.
  unfold transcript_ok, exchange_fields, transcript_of. cbn [t_vc t_vs t_ic t_is t_key t_qc t_qs t_k].
  assert (LK : len (host_key_blob (public_host_key H)) < 2 ^ 32).
  { unfold host_key_blob, public_host_key, enc. cbn [key_name key_blob kb_identifier kb_q map concat enc1]. lens. rewrite !be32_len, X4.
    change (len (B "ecdsa-sha2-nistp256")) with 19. change (len (B "nistp256")) with 8. rewrite ?len_nil. reflexivity. }
  pose proof (mpint32 _ (X2 e qc)) as M. specialize (X1 e).
  repeat constructor; cbn [fld_ok]; try lia; try exact LK; try (vm_compute; reflexivity).
Qed.

Lemma hex (a b : bytes) : {a = b} + {a <> b}.
Proof. destruct (bytes_eqb a b) eqn:E; [left; apply bytes_eqb_true, E|right; apply bytes_eqb_false, E]. Qed.

(** A handshake, with what its client sent. *)
Lemma shaken H R s c s' o : host_ok H -> host_rng_ok R -> handle_new_client H R s [] = (Ok c, s', o) ->
  exists vc ic qc, client_sent s vc ic qc s' /\ transcript_ok (transcript_of H (ephermal R) vc ic qc) /\
    session_identifier c = exchange_hash H (ephermal R) vc ic qc /\
    Forall2 (fun k i => k = sha256 H i) (keys c) (key_inputs (be_value (x25519 H (ephermal R) qc)) c).
Proof.
  intros HO RO E. destruct (handshake_sound H R s c s' o HO RO E) as (pre & vc & ic & raw1 & k & ec & raw2 & qc & raw3 & A1 & A2 & A3 & A4 & A5 & A6 & A7 & A8 & A9 & X).
  cbv zeta in X. destruct X as (_ & X2 & X3 & X4 & _). exists vc, ic, qc. split.
  { exists pre, raw1, k, ec, raw2, raw3. repeat split; auto; try apply A2; try apply A4; try apply A7. }
  split; [eapply transcript_fine; eassumption|]. split; [exact X2|].
  unfold keyed, key_blocks in X3, X4. unfold keys, key_inputs. rewrite X2.
  constructor; [exact (X3 0%nat _ eq_refl)|]. constructor; [exact (X3 1%nat _ eq_refl)|].
  constructor; [exact (X4 0%nat _ eq_refl)|]. constructor; [exact (X4 1%nat _ eq_refl)|]. constructor.
Qed.

(** Equal session identifiers. *)
Lemma same_session H e1 vc1 ic1 qc1 e2 vc2 ic2 qc2 :
  transcript_ok (transcript_of H e1 vc1 ic1 qc1) -> transcript_ok (transcript_of H e2 vc2 ic2 qc2) ->
  exchange_hash H e1 vc1 ic1 qc1 = exchange_hash H e2 vc2 ic2 qc2 ->
  same_exchange H e1 vc1 ic1 qc1 e2 vc2 ic2 qc2 \/ exchange_collision H e1 vc1 ic1 qc1 e2 vc2 ic2 qc2.
Proof.
  intros T1 T2 E. destruct (hex (exchange_bytes (transcript_of H e1 vc1 ic1 qc1)) (exchange_bytes (transcript_of H e2 vc2 ic2 qc2))) as [X|X].
  - left. apply exchange_binds in X; [|assumption..].
    pose proof (f_equal t_vc X) as Y1. pose proof (f_equal t_ic X) as Y2. pose proof (f_equal t_qc X) as Y3. pose proof (f_equal t_qs X) as Y4. pose proof (f_equal t_k X) as Y5.
    cbn [transcript_of t_vc t_ic t_qc t_qs t_k] in *. repeat split; assumption.
  - right. split; [exact X|exact E].
Qed.

(** ** C95 *)
Lemma no_replay U1 U2 H R1 R2 C1 C2 rng1 rng2 (h1 : AHandlers U1) (h2 : AHandlers U2) : host_ok H -> host_rng_ok R1 -> host_rng_ok R2 ->
  crypto_ok C1 -> crypto_ok C2 -> rngs_ok rng1 -> rngs_ok rng2 ->
  forall s1 s2 r1 r2 st1 st2 user1 service1 alg1 key1 sg1 x1 user2 service2 alg2 key2 sg2 x2 msg,
  authenticate_new_client H R1 C1 rng1 h1 s1 = Some (AO_Auth r1 st1) ->
  authenticate_new_client H R2 C2 rng2 h2 s2 = Some (AO_Auth r2 st2) ->
  In (AE_Authenticate user1 service1 (Auth_PublicKey alg1 key1 sg1 msg) x1) (a_log st1) ->
  In (AE_Authenticate user2 service2 (Auth_PublicKey alg2 key2 sg2 msg) x2) (a_log st2) ->
  [user1; service1; alg1; key1] = [user2; service2; alg2; key2] /\
  exists vc1 ic1 qc1 t1 vc2 ic2 qc2 t2, client_sent s1 vc1 ic1 qc1 t1 /\ client_sent s2 vc2 ic2 qc2 t2 /\
    (same_exchange H (ephermal R1) vc1 ic1 qc1 (ephermal R2) vc2 ic2 qc2 \/
     exchange_collision H (ephermal R1) vc1 ic1 qc1 (ephermal R2) vc2 ic2 qc2).
Proof.
  intros HO RO1 RO2 K1 K2 RR1 RR2 s1 s2 r1 r2 st1 st2 user1 service1 alg1 key1 sg1 x1 user2 service2 alg2 key2 sg2 x2 msg A1 A2 I1 I2.
  destruct (public_key_bound H R1 C1 rng1 h1 HO RO1 K1 RR1 _ _ _ _ _ _ _ _ _ _ A1 I1) as (c1 & t1 & o1 & pls1 & rest1 & pl1 & E1 & M1 & _ & _ & W1).
  destruct (public_key_bound H R2 C2 rng2 h2 HO RO2 K2 RR2 _ _ _ _ _ _ _ _ _ _ A2 I2) as (c2 & t2 & o2 & pls2 & rest2 & pl2 & E2 & M2 & _ & _ & W2).
  destruct (shaken H R1 s1 c1 t1 o1 HO RO1 E1) as (vc1 & ic1 & qc1 & S1 & T1 & D1 & _).
  destruct (shaken H R2 s2 c2 t2 o2 HO RO2 E2) as (vc2 & ic2 & qc2 & S2 & T2 & D2 & _).
  assert (L1 : len (session_identifier c1) = 32) by (rewrite D1; apply HO).
  assert (L2 : len (session_identifier c2) = 32) by (rewrite D2; apply HO).
  pose proof (proj1 (proj1 W1)) as F1. pose proof (proj1 (proj1 W2)) as F2.
  cbn [message_fields userauth_fields ua_user ua_service ua_method app method_fields] in F1, F2. finv.
  rewrite M1 in M2. apply sign_data_inj in M2.
  2:{ repeat constructor; try assumption. rewrite L1. reflexivity. }
  2:{ repeat constructor; try assumption. rewrite L2. reflexivity. }
  pose proof (f_equal (fun l => nth 0 l []) M2) as Sd. pose proof (f_equal (fun l => nth 1 l []) M2) as Us.
  pose proof (f_equal (fun l => nth 2 l []) M2) as Se. pose proof (f_equal (fun l => nth 3 l []) M2) as Al. pose proof (f_equal (fun l => nth 4 l []) M2) as Bl.
  cbn [nth] in Sd, Us, Se, Al, Bl. clear M2. subst user2 service2 alg2.
  assert (Kl : forall a k, len k <= len (named a k)).
  { intros a k. unfold named, enc. cbn [map concat enc1]. lens. lia. }
  assert (Kk : key1 = key2).
  { unfold named, enc in Bl. cbn [map concat] in Bl. apply app_inv_head in Bl.
    apply str_inj in Bl as [-> _]; [reflexivity| |]; eapply N.le_lt_trans; try apply Kl; eassumption. }
  subst key2. split; [reflexivity|]. exists vc1, ic1, qc1, t1, vc2, ic2, qc2, t2. split; [exact S1|]. split; [exact S2|].
  apply same_session; [exact T1|exact T2|congruence].
Qed.

(** ** C96 *)
Lemma tail_inj K1 h1 t1 K2 h2 t2 : len (mpint K1) < 2 ^ 32 -> len (mpint K2) < 2 ^ 32 -> len h1 = 32 -> len h2 = 32 ->
  rfc_mpint K1 ++ h1 ++ t1 = rfc_mpint K2 ++ h2 ++ t2 -> h1 = h2 /\ t1 = t2.
Proof.
  intros A1 A2 B1 B2 E. apply (str_inj (mpint K1) (mpint K2)) in E as [_ E]; [|assumption..].
  apply app_len_inj in E; [exact E|congruence].
Qed.

(** The bytes after secret and hash, of each of the four. *)
Definition tails (c : HostClient) : list bytes :=
  [("C"%byte) :: session_identifier c; key_data (receive_cipher c); ("D"%byte) :: session_identifier c; key_data (send_cipher c)].
Lemma inputs_tails K c : key_inputs K c = map (fun t => rfc_mpint K ++ session_identifier c ++ t) (tails c).
Proof. unfold key_inputs, tails, block_input. cbn [List.concat letter map]. rewrite !app_nil_r. reflexivity. Qed.

Lemma some_eq {A} (x y : A) : Some x = Some y -> x = y.
Proof. congruence. Qed.
Lemma F2_nth {A B} (R : A -> B -> Prop) xs : forall ys i x, Forall2 R xs ys -> nth_error xs i = Some x ->
  exists y, nth_error ys i = Some y /\ R x y.
Proof.
  induction xs as [|a xs IH]; intros ys i x F E; [destruct i; discriminate E|]. inversion F as [|? b ? zs Q F']; subst.
  destruct i as [|i]; cbn in E |- *; [injection E as <-; exists b; auto|]. exact (IH _ _ _ F' E).
Qed.

Lemma apart_core H e1 vc1 ic1 qc1 c1 e2 vc2 ic2 qc2 c2 : host_ok H ->
  transcript_ok (transcript_of H e1 vc1 ic1 qc1) -> session_identifier c1 = exchange_hash H e1 vc1 ic1 qc1 ->
  Forall2 (fun k i => k = sha256 H i) (keys c1) (key_inputs (be_value (x25519 H e1 qc1)) c1) ->
  transcript_ok (transcript_of H e2 vc2 ic2 qc2) -> session_identifier c2 = exchange_hash H e2 vc2 ic2 qc2 ->
  Forall2 (fun k i => k = sha256 H i) (keys c2) (key_inputs (be_value (x25519 H e2 qc2)) c2) ->
  forall i j k, nth_error (keys c1) i = Some k -> nth_error (keys c2) j = Some k ->
    i = j /\ same_exchange H e1 vc1 ic1 qc1 e2 vc2 ic2 qc2 \/
    exchange_collision H e1 vc1 ic1 qc1 e2 vc2 ic2 qc2 \/
    some_collision (sha256 H) (key_inputs (be_value (x25519 H e1 qc1)) c1) (key_inputs (be_value (x25519 H e2 qc2)) c2).
Proof.
  intros HO T1 D1 K1 T2 D2 K2 i j k I J.
  set (k1 := be_value (x25519 H e1 qc1)) in *. set (k2 := be_value (x25519 H e2 qc2)) in *.
  assert (M1 : len (mpint k1) < 2 ^ 32).
  { destruct HO as (_ & _ & X & _). pose proof (mpint32 _ (X e1 qc1)). unfold k1. lia. }
  assert (M2 : len (mpint k2) < 2 ^ 32).
  { destruct HO as (_ & _ & X & _). pose proof (mpint32 _ (X e2 qc2)). unfold k2. lia. }
  assert (L1 : len (session_identifier c1) = 32) by (rewrite D1; apply HO).
  assert (L2 : len (session_identifier c2) = 32) by (rewrite D2; apply HO).
  destruct (F2_nth _ _ _ _ _ K1 I) as (a & Ia & Ka). destruct (F2_nth _ _ _ _ _ K2 J) as (b & Jb & Kb).
  destruct (hex a b) as [Q|Q].
  2:{ right. right. exists a, b. split; [eapply nth_error_In, Ia|]. split; [eapply nth_error_In, Jb|]. split; [exact Q|congruence]. }
  rewrite inputs_tails, nth_error_map in Ia, Jb.
  destruct (nth_error (tails c1) i) as [u|] eqn:Iu; [|discriminate Ia]. destruct (nth_error (tails c2) j) as [v|] eqn:Jv; [|discriminate Jb].
  cbn [option_map] in Ia, Jb. injection Ia as Ia. injection Jb as Jb. rewrite <- Ia, <- Jb in Q.
  apply tail_inj in Q as [Q1 Q2]; [|assumption..].
  assert (SS : same_exchange H e1 vc1 ic1 qc1 e2 vc2 ic2 qc2 \/
    exchange_collision H e1 vc1 ic1 qc1 e2 vc2 ic2 qc2) by (apply same_session; [exact T1|exact T2|congruence]).
  destruct (Nat.eq_dec i j) as [D|D]; [destruct SS; auto|].
  assert (R0 : len (key_data (receive_cipher c1)) = 32 /\ len (key_data (send_cipher c1)) = 32 /\
               len (key_data (receive_cipher c2)) = 32 /\ len (key_data (send_cipher c2)) = 32).
  { inversion K1 as [|? ? ? ? P1 X1]; subst. inversion X1 as [|? ? ? ? _ X2]; subst. inversion X2 as [|? ? ? ? P2 _]; subst.
    inversion K2 as [|? ? ? ? P3 X3]; subst. inversion X3 as [|? ? ? ? _ X4]; subst. inversion X4 as [|? ? ? ? P4 _]; subst.
    rewrite P1, P2, P3, P4. repeat split; apply HO. }
  destruct R0 as (N1 & N2 & N3 & N4).
  (* the two length keys, of different directions *)
  assert (X : (i = 1 /\ j = 3 \/ i = 3 /\ j = 1)%nat).
  { unfold tails in Iu, Jv.
    destruct i as [|[|[|[|i]]]], j as [|[|[|[|j]]]]; cbn [nth_error] in Iu, Jv; try (destruct i; discriminate Iu); try (destruct j; discriminate Jv);
      try (exfalso; apply D; reflexivity); try (left; split; reflexivity); try (right; split; reflexivity); exfalso;
      injection Iu as <-; injection Jv as <-;
      solve [discriminate Q2|apply (f_equal len) in Q2; rewrite len_cons in Q2; lia]. }
  right. right. unfold keys in *.
  assert (IN : forall n K c x, nth_error (key_inputs K c) n = Some x -> In x (key_inputs K c)) by (intros; eapply nth_error_In; eassumption).
  destruct X as [[-> ->]|[-> ->]]; cbn [tails nth_error] in Iu, Jv; injection Iu as Iu; injection Jv as Jv.
  - eexists _, _. split; [apply (IN 0%nat); reflexivity|]. split; [apply (IN 2%nat); reflexivity|].
    split.
    + unfold block_input. cbn [letter]. intros Z. apply tail_inj in Z as [_ Z]; [discriminate Z|assumption..].
    + destruct (F2_nth _ _ _ 0%nat _ K1 eq_refl) as (x & X1 & X2). destruct (F2_nth _ _ _ 2%nat _ K2 eq_refl) as (y & Y1 & Y2).
      cbn [key_inputs nth_error] in X1, Y1. apply some_eq in X1. apply some_eq in Y1. rewrite X1, Y1, <- X2, <- Y2, Iu, Jv. exact Q2.
  - eexists _, _. split; [apply (IN 2%nat); reflexivity|]. split; [apply (IN 0%nat); reflexivity|].
    split.
    + unfold block_input. cbn [letter]. intros Z. apply tail_inj in Z as [_ Z]; [discriminate Z|assumption..].
    + destruct (F2_nth _ _ _ 2%nat _ K1 eq_refl) as (x & X1 & X2). destruct (F2_nth _ _ _ 0%nat _ K2 eq_refl) as (y & Y1 & Y2).
      cbn [key_inputs nth_error] in X1, Y1. apply some_eq in X1. apply some_eq in Y1. rewrite X1, Y1, <- X2, <- Y2, Iu, Jv. exact Q2.
Qed.

Lemma keys_apart H R1 R2 : host_ok H -> host_rng_ok R1 -> host_rng_ok R2 ->
  forall s1 s2 c1 c2 t1 t2 o1 o2,
  handle_new_client H R1 s1 [] = (Ok c1, t1, o1) -> handle_new_client H R2 s2 [] = (Ok c2, t2, o2) ->
  exists vc1 ic1 qc1 vc2 ic2 qc2, client_sent s1 vc1 ic1 qc1 t1 /\ client_sent s2 vc2 ic2 qc2 t2 /\
  forall i j k, nth_error (keys c1) i = Some k -> nth_error (keys c2) j = Some k ->
    i = j /\ same_exchange H (ephermal R1) vc1 ic1 qc1 (ephermal R2) vc2 ic2 qc2 \/
    exchange_collision H (ephermal R1) vc1 ic1 qc1 (ephermal R2) vc2 ic2 qc2 \/
    some_collision (sha256 H) (key_inputs (be_value (x25519 H (ephermal R1) qc1)) c1) (key_inputs (be_value (x25519 H (ephermal R2) qc2)) c2).
Proof.
  intros HO RO1 RO2 s1 s2 c1 c2 t1 t2 o1 o2 E1 E2.
  destruct (shaken H R1 s1 c1 t1 o1 HO RO1 E1) as (vc1 & ic1 & qc1 & S1 & T1 & D1 & K1).
  destruct (shaken H R2 s2 c2 t2 o2 HO RO2 E2) as (vc2 & ic2 & qc2 & S2 & T2 & D2 & K2).
  exists vc1, ic1, qc1, vc2, ic2, qc2. split; [exact S1|]. split; [exact S2|]. apply apart_core; assumption.
Qed.

(** Within one connection. *)
Lemma keys_differ H R : host_ok H -> host_rng_ok R ->
  forall s c s' o, handle_new_client H R s [] = (Ok c, s', o) ->
  exists vc ic qc, client_sent s vc ic qc s' /\
  let inputs := key_inputs (be_value (x25519 H (ephermal R) qc)) c in
  keys c = map (sha256 H) inputs /\ (NoDup (keys c) \/ some_collision (sha256 H) inputs inputs).
Proof.
  intros HO RO s c s' o E. destruct (shaken H R s c s' o HO RO E) as (vc & ic & qc & S & T & D & K).
  exists vc, ic, qc. split; [exact S|]. cbv zeta. pose proof (apart_core _ _ _ _ _ _ _ _ _ _ _ HO T D K T D K) as A.
  split. { clear - K. induction K as [|? ? ? ? X _ IH]; [reflexivity|]. cbn [map]. rewrite <- X, <- IH. reflexivity. }
  destruct (ListDec.NoDup_dec hex (keys c)) as [Y|Y]; [left; exact Y|right].
  assert (Z : exists i j k, i <> j /\ nth_error (keys c) i = Some k /\ nth_error (keys c) j = Some k).
  { clear - Y. induction (keys c) as [|x xs IH]; [destruct Y; constructor|].
    destruct (In_dec hex x xs) as [I|I].
    - apply In_nth_error in I as [n I]. exists 0%nat, (S n), x. repeat split; [discriminate|exact I].
    - destruct IH as (i & j & k & X1 & X2 & X3); [intros ND; apply Y; constructor; assumption|].
      exists (S i), (S j), k. repeat split; [congruence|exact X2|exact X3]. }
  destruct Z as (i & j & k & Z1 & Z2 & Z3). destruct (A i j k Z2 Z3) as [[B _]|[[B _]|B]]; [contradiction|destruct (B eq_refl)|exact B].
Qed.
