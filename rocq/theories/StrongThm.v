(** Universal forms of refutations that C06, C18 and C25 give by a witness, and
    the part of C66 that holds. *)
From Coq Require Import Init.Byte Strings.Byte.
From Verif Require Export MsgThm3 HostThm2 RxThm.
Open Scope res_scope.

Lemma reply_lost m buf : message_ok m -> is_ecdh_reply m = true -> len (wire m) <= len buf ->
  exists rest, Message_serialize m buf = Ok (wire m, rest) /\ forall m', Message_parse (wire m) <> Ok m'.
Proof.
  intros K R L. eexists. split.
  - rewrite Message_serialize_eq by exact K. replace (len (wire m) <=? len buf) with true by lia. reflexivity.
  - destruct m; try discriminate R. intros m' H.
    assert (N : message_number m' = 31).
    { destruct (wire (Msg_EcdhReply r)) as [|b d] eqn:E; [discriminate E|]. rewrite (parse_number _ _ _ H).
      change (wire (Msg_EcdhReply r)) with (x1f :: enc (tl (message_fields (Msg_EcdhReply r)))) in E.
      injection E as <- _. reflexivity. }
    destruct m' as [ | | | | | | | | | |[]|[]]; try discriminate N. exact (no_reply_parsed _ _ H).
Qed.

Lemma panics_everywhere buf counted bs : 8 <= len buf < 2 ^ 32 ->
  exists s, len s = 4 /\ fst (packet_parse buf s counted bs) = Panic.
Proof.
  intros L. exists (be32 (len buf)). split; [apply be32_len|]. apply packet_parse_panics. right.
  rewrite be32_len, ntake_all by (rewrite be32_len; lia). rewrite be32_value by (apply u32_pow; lia). lia.
Qed.

Lemma rx_short C c buf : 4 <= len buf -> forall w acc, len acc + len w < 4 -> rx_run C c buf acc (feed w) = [].
Proof.
  intros H. induction w as [|b w IH]; intros acc L; [reflexivity|]. rewrite len_cons in L. cbn [feed map rx_run].
  rewrite recv_eof by (lens; lia). apply IH. lens. lia.
Qed.
Lemma rx_cut C c buf job pl w c' pre post : crypto_ok C -> sends job pl -> send_many C c [job] = Ok ([w], c') ->
  4 <= len buf -> len w <= len buf -> w = pre ++ post -> 0 < len post < 4 ->
  rx_run C c buf [] (feed w) = [Ok pl] /\ rx_run C c buf [] (feed pre ++ Elsewhere :: feed post) = [].
Proof.
  intros K J S Hb Lw E Lp. split.
  { pose proof (rx_between C K [job] [pl] c [w] c' buf [0%nat] (Forall2_cons _ _ J (Forall2_nil _)) S Hb (Forall_cons (P := fun w => len w <= len buf) w Lw (Forall_nil _)) eq_refl) as X.
    cbn [combine map concat repeat app] in X. rewrite app_nil_r in X. exact X. }
  cbn [send_many] in S. apply bind_Ok in S as ([[w1 c1] b1] & S1 & S). cbn [bind] in S. apply Ok_inj in S.
  apply pair_eq in S as [S _]. injection S as ->.
  destruct (send_Ok _ _ _ _ _ _ _ K J S1) as (pad & raw & P & _ & _ & Ew & _ & _ & _). rewrite Ew in Lw, E.
  pose proof (packet_long _ _ _ _ _ P) as LR. rewrite seal_len in Lw by (auto; lia).
  assert (G : forall r q, seal_with C c raw = q ++ r ++ post ->
    rx_run C c buf q (feed r ++ Elsewhere :: feed post) = []).
  { induction r as [|b r IH]; intros q Eq.
    - cbn [feed map app rx_run]. apply rx_short; [exact Hb|]. rewrite len_nil. lia.
    - cbn [feed map app rx_run].
      assert (E2 : seal_with C c raw = (q ++ [b]) ++ r ++ post) by (rewrite Eq, <- app_assoc; reflexivity).
      destruct (pending C c buf pl pad raw (q ++ [b]) (r ++ post) K Hb (is_loose _ _ _ P) Lw E2) as [st ->].
      { intros X. apply (f_equal len) in X. rewrite len_app, len_nil in X. lia. }
      apply IH. exact E2. }
  apply G. exact E.
Qed.

Lemma counter_below_wrap C c jobs pls ws c' : crypto_ok C -> counter c + N.of_nat (length jobs) <= 2 ^ 32 -> Forall2 sends jobs pls ->
  send_many C c jobs = Ok (ws, c') -> forall i pl w, nth_error pls i = Some pl -> nth_error ws i = Some w ->
  exists pad raw, loose_packet pl pad raw /\ w = seal C (key_length c) (key_data c) ((counter c + N.of_nat i) mod 2 ^ 32) raw.
Proof.
  intros K Hc F S i pl w A D.
  assert (Li : (i < length pls)%nat) by (apply nth_error_Some; congruence).
  assert (FL : length jobs = length pls) by (clear -F; induction F; cbn [length]; congruence). assert (Lc : counter c < 2 ^ 64) by lia.
  destruct (sent_numbered C K _ _ _ _ _ F Lc S) as [_ Nu].
  destruct (Nu i pl w A D) as (pad & raw & P & ->). exists pad, raw. split; [exact P|].
  rewrite !N.mod_small by lia. reflexivity.
Qed.
