(** Lemmas behind the property theorems of [PropMsg]. *)
From Coq Require Import Init.Byte Strings.Byte.
From Verif Require Export MsgThm2.
Open Scope res_scope.

Lemma mpint_is_canonical n : mpint_canonical (mpint n) n.
Proof.
  set (s := be_bytes (N.to_nat (N.size n)) n).
  assert (V : be_value s = n).
  { unfold s. rewrite be_value_be_bytes, Nnat.N2Nat.id. apply N.mod_small.
    eapply N.lt_le_trans; [apply N.size_gt|]. apply N.pow_le_mono_l. lia. }
  rewrite <- V at 1. rewrite mpint_strip. cbv zeta. rewrite <- V, <- (strip_zeros_value s).
  pose proof (strip_zeros_head s) as Hd. destruct (strip_zeros s) as [|c t]; [split; reflexivity|].
  destruct (N.leb_spec 128 (b2n c)) as [Hc|Hc].
  - split; [rewrite be_value_cons; change (b2n x00) with 0; lia|]. split; [reflexivity|]. intros _. exact Hc.
  - split; [reflexivity|]. destruct t; [split; assumption|]. split; [exact Hc|]. intros ->. contradiction.
Qed.
Lemma be_value_lead c s : c <> x00 -> 256 ^ len s <= be_value (c :: s).
Proof.
  intros H. rewrite be_value_cons. assert (b2n c <> 0) by (rewrite b2n_zero; exact H).
  pose proof (N.pow_nonzero 256 (len s)). nia.
Qed.
Lemma be_value_inj a b : len a = len b -> be_value a = be_value b -> a = b.
Proof.
  intros L V. rewrite <- (be_bytes_value a), <- (be_bytes_value b), V. f_equal. unfold len in L. lia.
Qed.
(** Canonical encodings have a length determined by the value. *)
Lemma canonical_bounds m n : mpint_canonical m n -> m <> [] ->
  2 * n < 256 ^ len m /\ 256 ^ (len m - 1) <= 2 * n.
Proof.
  intros [V H] Hne. destruct m as [|a m]; [congruence|]. clear Hne.
  assert (Ha : b2n a < 128) by (destruct m; tauto).
  rewrite len_cons. replace (1 + len m - 1) with (len m) by lia.
  rewrite N.add_1_l, N.pow_succ_r' . rewrite be_value_cons in V. pose proof (be_value_lt m) as Lm.
  split; [nia|].
  destruct (byte_dec a x00) as [->|Na].
  - destruct m as [|b m]; [destruct H; congruence|]. destruct H as [_ H]. specialize (H eq_refl).
    rewrite len_cons, N.add_1_l, N.pow_succ_r' in *. rewrite be_value_cons in V.
    change (b2n x00) with 0 in V. nia.
  - assert (b2n a <> 0) by (rewrite b2n_zero; exact Na). nia.
Qed.
Lemma canonical_unique m m' n : mpint_canonical m n -> mpint_canonical m' n -> m = m'.
Proof.
  intros C C'.
  assert (Z : forall m, mpint_canonical m 0 -> m = []).
  { intros [|a k] D; [reflexivity|]. pose proof (canonical_bounds _ _ D ltac:(discriminate)) as [_ B].
    pose proof (N.pow_nonzero 256 (len (a :: k) - 1)). lia. }
  destruct (N.eq_dec n 0) as [->|Hn]; [rewrite (Z m), (Z m') by assumption; reflexivity|].
  assert (Nm : m <> []) by (intros ->; destruct C as [C _]; cbn in C; lia).
  assert (Nm' : m' <> []) by (intros ->; destruct C' as [C' _]; cbn in C'; lia).
  destruct (canonical_bounds _ _ C Nm) as [U L], (canonical_bounds _ _ C' Nm') as [U' L'].
  apply be_value_inj; [|destruct C, C'; congruence].
  assert (len m <> 0) by (destruct m; [congruence|rewrite len_cons; lia]).
  assert (len m' <> 0) by (destruct m'; [congruence|rewrite len_cons; lia]).
  assert (A : 256 ^ (len m - 1) < 256 ^ len m') by lia.
  assert (A' : 256 ^ (len m' - 1) < 256 ^ len m) by lia.
  apply N.pow_lt_mono_r_iff in A, A'; lia.
Qed.

Lemma mpint_written s buf : len s + 1 < 2 ^ 32 ->
  exists m, mpint_canonical m (be_value s) /\
    (4 + len m <= len buf ->
     make_pos_mpint buf s = (Ok (4 + len m), (be32 (len m) ++ m) ++ ndrop (4 + len m) buf)) /\
    (len buf < 4 + len m -> exists b, make_pos_mpint buf s = (Err tt, b)).
Proof.
  intros L. exists (mpint (be_value s)). split; [apply mpint_is_canonical|].
  apply make_pos_mpint_spec. pose proof (mpint_len s). lia.
Qed.

Lemma no_reply_parsed d r : Message_parse d <> Ok (Msg_EcdhReply r).
Proof. intros H. apply Message_parse_iff in H as [_ H]. discriminate. Qed.

Definition sample_reply : EcdhReply :=
  {| er_key := {| key_name := B "ecdsa-sha2-nistp256";
                  key_blob := {| kb_identifier := B "nistp256"; kb_q := B "QQQQ" |} |};
     er_ephermal := B "0123456789abcdef0123456789abcdef";
     er_signature := {| sig_name := B "ecdsa-sha2-nistp256"; sig_blob := {| sb_r := B "rr"; sb_s := B "ss" |} |} |}.
Lemma sample_reply_ok : message_ok (Msg_EcdhReply sample_reply).
Proof. split; [|exact I]. repeat constructor. Qed.

Lemma Signal_round s : Signal_to_bytes (Signal_of_bytes s) = s.
Proof. rewrite Signal_to_name. apply (Signal_of_spec s _). reflexivity. Qed.
Lemma Signal_round' g : signal_ok g -> Signal_of_bytes (Signal_to_bytes g) = g.
Proof. intros H. rewrite Signal_to_name. apply Signal_of_spec. auto. Qed.
Lemma Signal_inj a b : Signal_of_bytes a = Signal_of_bytes b -> a = b.
Proof. intros H. rewrite <- (Signal_round a), <- (Signal_round b), H. reflexivity. Qed.

Lemma session_round r buf : session_ok r -> len (enc (session_fields r)) <= len buf ->
  exists w, session_written r buf = Ok (session_name r, w) /\ SessionRequest_parse (session_name r) w = Ok r.
Proof.
  intros H L. rewrite session_written_eq by exact H. replace (_ <=? _) with true by lia.
  eexists. split; [reflexivity|]. apply SessionRequest_parse_iff. split; [exact H|]. split; [reflexivity|]. apply reads_enc.
Qed.

Lemma namelist_all l : (forall x, NameList_try_from l = Ok x <-> x = l /\ name_list_ok l) /\
  (forall ns fuel, Forall name_ok ns -> l = join ns -> (length ns < fuel)%nat -> NameList_collect fuel l = Ok ns).
Proof.
  split; [intros x; apply NameList_Ok|]. intros ns fuel F -> Hf. apply NameList_collect_join; assumption.
Qed.

Lemma serialize_np m buf : message_ok m -> Message_serialize m buf <> Panic.
Proof. intros H. rewrite Message_serialize_eq by exact H. destruct (_ <=? _); discriminate. Qed.
