(** Receiving inside select!. *)
From Coq Require Import Init.Byte Strings.Byte.
From Verif Require Export ChannelThm.
Open Scope res_scope.

Lemma pending C c buf pl pad raw q r : crypto_ok C -> 4 <= len buf -> loose_packet pl pad raw ->
  len raw + 16 <= len buf -> seal_with C c raw = q ++ r -> r <> [] ->
  exists st, In_recv C c buf q = (Err (In_Read UnexpectedEof), st).
Proof.
  intros K H P F E Hr. destruct (N.le_gt_cases 4 (len q)) as [L|L].
  2:{ rewrite recv_eof by lia. eauto. }
  assert (LR : 5 <= len raw) by (destruct P as (-> & _); lens; rewrite be32_len; lia).
  assert (L4 : len (ntake 4 raw) = 4) by (lens; lia).
  pose proof (seal_len C c raw K ltac:(lia)) as SL.
  assert (E' := E). rewrite seal_eq in E' by lia. cbv zeta in E'.
  destruct (opened_len C c (ntake 4 raw) (ndrop 4 raw) L4) as [O1 O2].
  destruct (split4 q L) as (h & t & -> & Lh).
  rewrite <- app_assoc in E'. apply app_len_inj in E' as [<- _]; [|lia].
  rewrite recv_eq by assumption. cbv zeta.
  assert (DI : decrypt_length C c (decrypt_length C c (ntake 4 raw)) = ntake 4 raw) by (unfold decrypt_length; apply apply_invol).
  rewrite DI.
  assert (EL : be_value (ntake 4 raw) = len (ndrop 4 raw)).
  { destruct P as (-> & P1 & P2 & P3). rewrite ntake_app, ndrop_app by (rewrite be32_len; reflexivity).
    rewrite be32_value by (apply u32_pow, P2). lens. lia. }
  rewrite EL. replace (len buf <? _) with false by (lens; lia).
  assert (0 < len r). { destruct r; [congruence|]. rewrite len_cons. lia. }
  apply (f_equal len) in E. rewrite SL, !len_app, O1 in E.
  replace (len t <? _) with true by (lens; lia). eauto.
Qed.

Definition feed (w : bytes) : list RxEvent := map Arrives w.

Lemma rx_frame C c buf pl pad raw : crypto_ok C -> 4 <= len buf -> loose_packet pl pad raw ->
  len raw + 16 <= len buf -> exists buf', len buf' = len buf /\
  forall evs, rx_run C c buf [] (feed (seal_with C c raw) ++ evs) = Ok pl :: rx_run C (bump c) buf' [] evs.
Proof.
  intros K H P F. destruct (recv_after C c buf raw [] pl pad K H P F) as (buf' & Lb & R).
  rewrite app_nil_r in R. exists buf'. split; [exact Lb|]. intros evs.
  assert (G : forall r q, seal_with C c raw = q ++ r -> r <> [] ->
    rx_run C c buf q (feed r ++ evs) = Ok pl :: rx_run C (bump c) buf' [] evs).
  { induction r as [|b r IH]; intros q E Hr; [congruence|]. cbn [feed map app rx_run].
    destruct r as [|b2 r].
    - rewrite <- E, R. reflexivity.
    - assert (E2 : seal_with C c raw = (q ++ [b]) ++ b2 :: r) by (rewrite E, <- app_assoc; reflexivity).
      destruct (pending C c buf pl pad raw (q ++ [b]) (b2 :: r) K H P F E2) as [st ->]; [discriminate|].
      apply IH; [exact E2|discriminate]. }
  apply (G (seal_with C c raw) []); [reflexivity|].
  intros X. pose proof (seal_len C c raw K) as SL. rewrite X, len_nil in SL.
  assert (LR : 5 <= len raw) by (destruct P as (-> & _); lens; rewrite be32_len; lia). lia.
Qed.

Lemma rx_elsewhere C c buf n evs : rx_run C c buf [] (repeat Elsewhere n ++ evs) = rx_run C c buf [] evs.
Proof. induction n as [|n IH]; [reflexivity|exact IH]. Qed.

(** Interruptions between frames are harmless. *)
Lemma rx_between C : crypto_ok C -> forall jobs pls c ws c' rbuf gaps,
  Forall2 sends jobs pls -> send_many C c jobs = Ok (ws, c') ->
  4 <= len rbuf -> Forall (fun w => len w <= len rbuf) ws -> length gaps = length ws ->
  rx_run C c rbuf [] (concat (map (fun '(n, w) => repeat Elsewhere n ++ feed w) (combine gaps ws))) = map Ok pls.
Proof.
  intros K jobs. induction jobs as [|j jobs IH]; intros pls c ws c' rbuf gaps F S Hb Fw G.
  - inversion F; subst. apply Ok_inj in S. injection S as <- <-. destruct gaps; [reflexivity|discriminate].
  - inversion F as [|? pl ? pls' J F']; subst. cbn [send_many] in S.
    apply bind_Ok in S as ([[w c1] b1] & S1 & S). apply bind_Ok in S as ([ws' c2] & S2 & S).
    apply Ok_inj in S. injection S as <- <-.
    destruct (send_Ok _ _ _ _ _ _ _ K J S1) as (pad & raw & P & _ & _ & -> & -> & _ & _).
    inversion Fw as [|? ? Fw1 Fw2]; subst. pose proof (packet_long _ _ _ _ _ P) as LR.
    rewrite seal_len in Fw1 by (auto; lia).
    destruct gaps as [|g gaps]; [discriminate|]. injection G as G.
    cbn [combine map concat]. rewrite <- app_assoc, rx_elsewhere.
    destruct (rx_frame C c rbuf pl pad raw K Hb (is_loose _ _ _ P) Fw1) as (rb & Lb & R).
    rewrite R. cbn [map]. f_equal. apply (IH pls' (bump c) ws' c2); auto; [lia|]. rewrite Lb. exact Fw2.
Qed.

(** An interruption inside a frame is not. *)
Definition toy_crypto : Crypto :=
  {| keystream := fun k n i => n2b (b2n (hd x00 k) + be_value n + i);
     poly1305 := fun k m => be64 (b2n (hd x00 k)) ++ be64 (fold_left (fun a b => a + b2n b) m 0) |}.
Lemma toy_ok : crypto_ok toy_crypto.
Proof. intros k m. cbn [poly1305 toy_crypto]. rewrite len_app, !be64_len. reflexivity. Qed.
Definition toy_cipher : Cipher := {| key_length := B "L"; key_data := B "D"; counter := 3 |}.
Definition toy_job : Job :=
  {| j_buf := repeat x00 64; j_fill := fun body => Ok (5, splice 0 (B "hello") body); j_rng := fun n => repeat x7a (N.to_nat n) |}.
Lemma toy_sends : sends toy_job (B "hello").
Proof.
  split; [intros n; unfold toy_job, len; cbn [j_rng]; rewrite repeat_length; lia|].
  exists (repeat x00 54). split; vm_compute; reflexivity.
Qed.

Lemma rx_inside : exists C c w c' rbuf pre post,
  crypto_ok C /\ send_many C c [toy_job] = Ok ([w], c') /\ len w <= len rbuf /\
  w = pre ++ post /\
  rx_run C c rbuf [] (feed w) = [Ok (B "hello")] /\
  (forall p, ~ In (Ok p) (rx_run C c rbuf [] (feed pre ++ Elsewhere :: feed post))).
Proof.
  destruct (send_many toy_crypto toy_cipher [toy_job]) as [[ws c']| |] eqn:E;
    [|vm_compute in E; discriminate|vm_compute in E; discriminate].
  destruct ws as [|w [|? ?]]; [vm_compute in E; discriminate| |vm_compute in E; discriminate].
  exists toy_crypto, toy_cipher, w, c', (repeat x00 64), (ntake 2 w), (ndrop 2 w).
  assert (W : w = match send_many toy_crypto toy_cipher [toy_job] with Ok ([w], _) => w | _ => [] end) by (rewrite E; reflexivity).
  split; [exact toy_ok|]. split; [exact E|].
  vm_compute in W. subst w. split; [vm_compute; discriminate|]. split; [reflexivity|].
  split; [vm_compute; reflexivity|]. intros p. vm_compute. intuition discriminate.
Qed.
