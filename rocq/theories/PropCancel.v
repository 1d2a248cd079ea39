(** Property theorems C77-C81: [receive] is cancelled when a child has output or
    exits.  All but what is said of cancelled reading is refuted, for every
    session. *)
From Coq Require Import Init.Byte Strings.Byte.
From Verif Require Import CancelThm4 SessionToy.
Open Scope res_scope.

(** ** C77: refuted: the packet that a child interrupts, all but its last bytes
    read, is never received. *)
Theorem C77_packet_lost_refuted : forall C rng h k es st pl pad raw n, is_session C rng h k es (Ok false) st ->
  k_in (s_conn st) = seal_with C (k_rd (s_conn st)) raw -> loose_packet pl pad raw -> len raw + 16 <= 35000 ->
  n < len (k_in (s_conn st)) <= n + 3 ->
  (forall e st', e <> Ev_Packet -> is_session C rng h k (es ++ [e]) (Ok false) st' ->
     exists st2, is_cut_session C rng h k (map X_Turn es ++ [X_Cut (Cut_Read n); X_Turn e]) (Ok false) st2) /\
  forall es' r st2, is_cut_session C rng h k (map X_Turn es ++ X_Cut (Cut_Read n) :: es') r st2 -> received (s_log st2) = received (s_log st).
Proof. exact packet_lost. Qed.
Print Assumptions C77_packet_lost_refuted.
(** What holds: the session goes as if the client had not sent the bytes read in
    vain, *)
Theorem C77_bytes_lost_partial : forall C rng h k es r st, is_cut_session C rng h k es r st -> cuts_reading es ->
  exists t n st', n <= wasted es /\ thinned t n (k_in k) /\ is_session C rng h (with_in t k) (turns_of es) r st' /\ s_same st' st.
Proof. exact thin_session. Qed.
Print Assumptions C77_bytes_lost_partial.
(** and no harm is done between packets. *)
Theorem C77_between_packets_partial : forall C rng h k es r st, is_cut_session C rng h k es r st -> cuts_reading es -> wasted es = 0 ->
  exists st', is_session C rng h k (turns_of es) r st' /\ s_same st' st.
Proof. exact harmless. Qed.
Print Assumptions C77_between_packets_partial.

(** ** C78: refuted: an open is not confirmed if a child interrupts the reply. *)
Theorem C78_open_lost_refuted : forall C rng h k es st st' o t n, is_session C rng h k es (Ok false) st ->
  is_session C rng h k (es ++ [Ev_Packet]) (Ok false) st' -> s_log st' = s_log st ++ got (C_Open o) :: t ->
  n = 0 \/ len (k_out (s_conn st)) + n < len (k_out (s_conn st')) ->
  (exists st1, is_cut_session C rng h k (map X_Turn es ++ [X_Cut (Cut_Reply n)]) (Ok false) st1) /\
  forall es' r st2, is_cut_session C rng h k (map X_Turn es ++ X_Cut (Cut_Reply n) :: es') r st2 ->
    count put_confirmation (s_log st2) < count got_open (s_log st2).
Proof. exact open_lost. Qed.
Print Assumptions C78_open_lost_refuted.
Theorem C78_opens_answered_partial : forall C rng h k es st, is_cut_session C rng h k es (Ok false) st -> cuts_reading es ->
  count put_confirmation (s_log st) = count got_open (s_log st).
Proof. intros C rng h k es st IS CR. exact (proj1 (reading_counts C rng h k es st IS CR)). Qed.
Print Assumptions C78_opens_answered_partial.
Theorem C78_no_other_answers_partial : forall C rng h k es r st, is_cut_session C rng h k es r st ->
  count put_confirmation (s_log st) <= count got_open (s_log st).
Proof. intros C rng h k es r st IS. exact (proj1 (cut_counts C rng h k es r st IS)). Qed.
Print Assumptions C78_no_other_answers_partial.

(** ** C79: refuted: a child is never heard if another interrupts the reply. *)
Theorem C79_child_lost_refuted : forall C rng h k es st st' q i p x ty io t n, is_session C rng h k es (Ok false) st ->
  is_session C rng h k (es ++ [Ev_Packet]) (Ok false) st' ->
  s_log st' = s_log st ++ got (C_Request q) :: SE_Spawn i p x ty (Ok io) :: t -> rq_want_reply q = true ->
  n = 0 \/ len (k_out (s_conn st)) + n < len (k_out (s_conn st')) ->
  (exists st1, is_cut_session C rng h k (map X_Turn es ++ [X_Cut (Cut_Reply n)]) (Ok false) st1) /\
  forall es' r st2, is_cut_session C rng h k (map X_Turn es ++ X_Cut (Cut_Reply n) :: es') r st2 ->
    In (SE_Spawn i p x ty (Ok io)) (s_log st2) /\ count (heard x) (s_log st2) = 0.
Proof. exact start_lost. Qed.
Print Assumptions C79_child_lost_refuted.
Theorem C79_children_heard_partial : forall C rng h k es st, is_cut_session C rng h k es (Ok false) st -> cuts_reading es ->
  forall err n p d, runs err (s_log st) n p -> len d <= 256 -> session_step C rng h (Ev_Output err n (Ok d)) st <> None.
Proof. exact still_listening. Qed.
Print Assumptions C79_children_heard_partial.

(** ** C80: refuted: data is not offered to a child if another interrupts. *)
Theorem C80_data_lost_refuted : forall C rng h k es st st' c d t, is_session C rng h k es (Ok false) st ->
  is_session C rng h k (es ++ [Ev_Packet]) (Ok false) st' -> s_log st' = s_log st ++ got (C_Data c d) :: t ->
  (exists st1, is_cut_session C rng h k (map X_Turn es ++ [X_Cut Cut_Handler]) (Ok false) st1) /\
  forall es' r st2, is_cut_session C rng h k (map X_Turn es ++ X_Cut Cut_Handler :: es') r st2 ->
    count put_stdin (s_log st2) < count got_data (s_log st2).
Proof. exact data_lost. Qed.
Print Assumptions C80_data_lost_refuted.
Theorem C80_data_offered_partial : forall C rng h k es st, is_cut_session C rng h k es (Ok false) st -> cuts_reading es ->
  count put_stdin (s_log st) = count got_data (s_log st).
Proof. intros C rng h k es st IS CR. exact (proj2 (reading_counts C rng h k es st IS CR)). Qed.
Print Assumptions C80_data_offered_partial.
Theorem C80_no_other_data_partial : forall C rng h k es r st, is_cut_session C rng h k es r st ->
  count put_stdin (s_log st) <= count got_data (s_log st).
Proof. intros C rng h k es r st IS. exact (proj2 (cut_counts C rng h k es r st IS)). Qed.
Print Assumptions C80_no_other_data_partial.

(** ** The examples: [cat] runs, and another channel is opened, or another [cat]
    is started, or data is sent to it, when it has output. *)
Definition toy_cut (ms : list Channel) (xs : list XEv) : option (res InError bool * SSt) :=
  cut_run toy_crypto toy_pads toy_sh xs (session_init (toy_conn (map Msg_Channel ms))).
Definition cat : list Channel := [toy_open 7; toy_req 0 true (SR_Exec (B "cat"))].
Definition output : Ev := Ev_Output false 0 (Ok (B "HI")).
Definition ex_start : list SEvent := firstn 2 ex_log ++ firstn 3 (skipn 4 ex_log).
Definition ex_hi : list SEvent := [SE_Read false 0 (B "HI"); put (C_Data 7 (B "HI"))].
Definition ex_open : list Channel := cat ++ [toy_open 9].
Definition ex_again : list Channel := cat ++ [toy_req 0 true SR_Shell].
Definition ex_data : list Channel := cat ++ [C_Data 0 (B "hello")].
Definition log_is (x : option (res InError bool * SSt)) (log : list SEvent) : Prop :=
  match x with Some (Ok false, st) => s_log st = log | _ => False end.
Lemma log_is_cut ms xs log : log_is (toy_cut ms xs) log ->
  exists st, is_cut_session toy_crypto toy_pads toy_sh (toy_conn (map Msg_Channel ms)) xs (Ok false) st /\ s_log st = log.
Proof.
  unfold log_is, toy_cut. destruct (cut_run _ _ _ _ _) as [[[[|]|x|] st]|] eqn:E; try contradiction. intros L. exists st. split; [|exact L].
  split; [exact toy_ok|]. split; [exact toy_pads_ok|]. split; [reflexivity|]. split; [reflexivity|exact E].
Qed.

Lemma toy_is ms es r st : session_run toy_crypto toy_pads toy_sh es (session_init (toy_conn ms)) = Some (r, st) ->
  is_session toy_crypto toy_pads toy_sh (toy_conn ms) es r st.
Proof. intros E. split; [exact toy_ok|]. split; [exact toy_pads_ok|]. split; [reflexivity|]. split; [reflexivity|exact E]. Qed.
Lemma ex_frame : match session_run toy_crypto toy_pads toy_sh [Ev_Packet; Ev_Packet] (session_init (toy_conn (map Msg_Channel ex_open))) with
  | Some (Ok false, st) => s_log st = ex_start /\ k_in (s_conn st) = seal_with toy_crypto (k_rd (s_conn st)) (toy_raw (wire (Msg_Channel (toy_open 9)))) /\
      len (k_in (s_conn st)) = 52
  | _ => False end.
Proof. vm_compute. split; [reflexivity|]. split; reflexivity. Qed.
Example C77_example : exists st pl pad raw, is_session toy_crypto toy_pads toy_sh (toy_conn (map Msg_Channel ex_open)) [Ev_Packet; Ev_Packet] (Ok false) st /\
  k_in (s_conn st) = seal_with toy_crypto (k_rd (s_conn st)) raw /\ loose_packet pl pad raw /\ len raw + 16 <= 35000 /\
  50 < len (k_in (s_conn st)) <= 50 + 3 /\
  (exists st', is_session toy_crypto toy_pads toy_sh (toy_conn (map Msg_Channel ex_open)) ([Ev_Packet; Ev_Packet] ++ [output]) (Ok false) st').
Proof.
  pose proof ex_frame as F. destruct (session_run _ _ _ _ _) as [[[[|]|x|] st]|] eqn:E; try contradiction. destruct F as (F1 & F2 & F3).
  exists st, (wire (Msg_Channel (toy_open 9))). eexists. exists (toy_raw (wire (Msg_Channel (toy_open 9)))).
  split; [apply toy_is; exact E|].
  split; [exact F2|]. split; [apply toy_raw_ok; vm_compute; discriminate|]. split; [vm_compute; discriminate|]. split; [rewrite F3; split; [reflexivity|discriminate]|].
  destruct (toy_session ex_open ([Ev_Packet; Ev_Packet] ++ [output]) (Ok false) (ex_start ++ ex_hi)) as (st' & H & _); [vm_compute; reflexivity|]. exists st'. exact H.
Qed.
Definition at_read (n : N) : list XEv := [X_Turn Ev_Packet; X_Turn Ev_Packet; X_Cut (Cut_Read n); X_Turn output].
Example C77_example_partial : exists st, is_cut_session toy_crypto toy_pads toy_sh (toy_conn (map Msg_Channel ex_open)) (at_read 50) (Ok false) st /\
  cuts_reading (at_read 50) /\ s_log st = ex_start ++ ex_hi.
Proof.
  destruct (log_is_cut ex_open (at_read 50) (ex_start ++ ex_hi)) as (st & H & L); [vm_compute; reflexivity|]. exists st. split; [exact H|]. split; [|exact L].
  intros c [I|[I|[I|[I|[]]]]]; try discriminate I. exists 50. congruence.
Qed.
Example C77_example_between : exists st, is_cut_session toy_crypto toy_pads toy_sh (toy_conn (map Msg_Channel ex_open)) (at_read 0 ++ [X_Turn Ev_Packet]) (Ok false) st /\
  cuts_reading (at_read 0 ++ [X_Turn Ev_Packet]) /\ wasted (at_read 0 ++ [X_Turn Ev_Packet]) = 0 /\
  s_log st = ex_start ++ ex_hi ++ [got (toy_open 9); put (conf 9 1)].
Proof.
  destruct (log_is_cut ex_open (at_read 0 ++ [X_Turn Ev_Packet]) (ex_start ++ ex_hi ++ [got (toy_open 9); put (conf 9 1)])) as (st & H & L); [vm_compute; reflexivity|].
  exists st. split; [exact H|]. split; [|split; [reflexivity|exact L]].
  intros c [I|[I|[I|[I|[I|[]]]]]]; try discriminate I. exists 0. congruence.
Qed.
Definition before (ms : list Channel) (t : list SEvent) : Prop := exists st st', is_session toy_crypto toy_pads toy_sh (toy_conn (map Msg_Channel ms)) [Ev_Packet; Ev_Packet] (Ok false) st /\
  is_session toy_crypto toy_pads toy_sh (toy_conn (map Msg_Channel ms)) ([Ev_Packet; Ev_Packet] ++ [Ev_Packet]) (Ok false) st' /\ s_log st' = s_log st ++ t.
Lemma is_before ms t : toy_run ms [Ev_Packet; Ev_Packet] = Some (Ok false, ex_start) ->
  toy_run ms ([Ev_Packet; Ev_Packet] ++ [Ev_Packet]) = Some (Ok false, ex_start ++ t) -> before ms t.
Proof.
  intros H H'. destruct (toy_session _ _ _ _ H) as (st & A & L), (toy_session _ _ _ _ H') as (st' & A' & L').
  exists st, st'. split; [exact A|]. split; [exact A'|]. rewrite L, L'. reflexivity.
Qed.
Definition at_reply (n : N) : list XEv := [X_Turn Ev_Packet; X_Turn Ev_Packet; X_Cut (Cut_Reply n); X_Turn output].
Definition at_handler : list XEv := [X_Turn Ev_Packet; X_Turn Ev_Packet; X_Cut Cut_Handler; X_Turn output].
Example C78_example : before ex_open [got (toy_open 9); put (conf 9 1)] /\
  exists st, is_cut_session toy_crypto toy_pads toy_sh (toy_conn (map Msg_Channel ex_open)) (at_reply 0) (Ok false) st /\
  s_log st = ex_start ++ got (toy_open 9) :: ex_hi.
Proof. split; [apply is_before; vm_compute; reflexivity|]. apply log_is_cut. vm_compute. reflexivity. Qed.
Example C79_example : before ex_again [got (toy_req 0 true SR_Shell); SE_Spawn 0 7 1 Spawn_Shell (Ok all_io); SE_Dropped 0; put (C_Success 7)] /\
  exists st, is_cut_session toy_crypto toy_pads toy_sh (toy_conn (map Msg_Channel ex_again)) (at_reply 9) (Ok false) st /\
  s_log st = ex_start ++ [got (toy_req 0 true SR_Shell); SE_Spawn 0 7 1 Spawn_Shell (Ok all_io); SE_Dropped 0] ++ ex_hi.
Proof. split; [apply is_before; vm_compute; reflexivity|]. apply log_is_cut. vm_compute. reflexivity. Qed.
Example C80_example : before ex_data [got (C_Data 0 (B "hello")); SE_Stdin 0 (B "hello") (Ok 5)] /\
  exists st, is_cut_session toy_crypto toy_pads toy_sh (toy_conn (map Msg_Channel ex_data)) at_handler (Ok false) st /\
  s_log st = ex_start ++ got (C_Data 0 (B "hello")) :: ex_hi.
Proof. split; [apply is_before; vm_compute; reflexivity|]. apply log_is_cut. vm_compute. reflexivity. Qed.
Example C79_example_partial : exists st, is_cut_session toy_crypto toy_pads toy_sh (toy_conn (map Msg_Channel ex_open)) (at_read 50) (Ok false) st /\
  runs false (s_log st) 0 7.
Proof.
  destruct C77_example_partial as (st & H & _ & L). exists st. split; [exact H|]. rewrite L.
  eexists (firstn 3 ex_start), 0, (Spawn_Exec (B "cat")), all_io, _. split; [reflexivity|]. split; [reflexivity|]. cbn. intros [I|[I|[I|[]]]]; discriminate I.
Qed.

Definition ex_out (st st2 : SSt) : bytes := ndrop (len (k_out (s_conn st))) (k_out (s_conn st2)).
Lemma ex_skipped : match session_run toy_crypto toy_pads toy_sh [Ev_Packet; Ev_Packet] (session_init (toy_conn (map Msg_Channel ex_open))) with
  | Some (Ok false, st) => match cut_run toy_crypto toy_pads toy_sh [X_Cut (Cut_Reply 0); X_Turn output] st with
    | Some (Ok false, st2) => k_out (s_conn st2) = k_out (s_conn st) ++ ex_out st st2 /\
        s_sent (s_log st2) = s_sent (s_log st) ++ [Msg_Channel (C_Data 7 (B "HI"))] /\
        match fst (In_recv toy_crypto (k_wr (s_conn st)) (zeros 35000) (ex_out st st2)) with Ok _ => False | _ => True end
    | _ => False end
  | _ => False end.
Proof. vm_compute. split; [reflexivity|]. split; [reflexivity|exact I]. Qed.
Lemma toy_undecodable : exists C rng h k es st es' st2 o, is_session C rng h k es (Ok false) st /\
  is_cut_session C rng h k (map X_Turn es ++ X_Cut (Cut_Reply 0) :: es') (Ok false) st2 /\
  k_out (s_conn st2) = k_out (s_conn st) ++ o /\ s_sent (s_log st2) = s_sent (s_log st) ++ [Msg_Channel (C_Data 7 (B "HI"))] /\
  forall pl, ~ next_payload C (k_wr (s_conn st)) 35000 o pl.
Proof.
  pose proof ex_skipped as F. destruct (session_run _ _ _ _ _) as [[[[|]|x|] st]|] eqn:E; try contradiction.
  destruct (cut_run _ _ _ _ _) as [[[[|]|x|] st2]|] eqn:E2; try contradiction. destruct F as (F1 & F2 & F3).
  assert (IS : is_session toy_crypto toy_pads toy_sh (toy_conn (map Msg_Channel ex_open)) [Ev_Packet; Ev_Packet] (Ok false) st).
  { apply toy_is. exact E. }
  pose proof (proj2 (after _ _ _ _ _ _ _ _ _ IS) E2) as IS2. clear E E2.
  exists toy_crypto, toy_pads, toy_sh, (toy_conn (map Msg_Channel ex_open)), [Ev_Packet; Ev_Packet], st, [X_Turn output], st2, (ex_out st st2).
  split; [exact IS|]. split; [exact IS2|]. split; [exact F1|]. split; [exact F2|].
  intros pl (pad & raw & rest & P & Q & L). assert (X : fst (In_recv toy_crypto (k_wr (s_conn st)) (zeros 35000) (ex_out st st2)) = Ok pl).
  { assert (Z : len (zeros 35000) = 35000) by (vm_compute; reflexivity). apply recv_iff; [exact toy_ok|rewrite Z; lia|]. exists pad, raw, rest.
    split; [exact P|]. split; [exact Q|]. rewrite Z. exact L. }
  rewrite X in F3. exact F3.
Qed.

(** ** C81: refuted: in any session, the client cannot decode what a child's output
    makes the server write after an interrupted reply, nor anything later, though
    nothing was written of the reply; unless a frame can be one for two sequence
    numbers. *)
Theorem C81_number_skipped_refuted : forall C rng h k es st st' o t err n p d,
  is_session C rng h k es (Ok false) st -> is_session C rng h k (es ++ [Ev_Packet]) (Ok false) st' ->
  s_log st' = s_log st ++ got (C_Open o) :: t -> runs err (s_log st) n p -> 0 < len d <= 256 -> told_apart C (k_wr (s_conn st)) ->
  (exists st2 q, is_cut_session C rng h k (map X_Turn es ++ [X_Cut (Cut_Reply 0); X_Turn (Ev_Output err n (Ok d))]) (Ok false) st2 /\
     s_sent (s_log st2) = s_sent (s_log st) ++ [Msg_Channel (C_Data q d)]) /\
  forall es' r st2, is_cut_session C rng h k (map X_Turn es ++ X_Cut (Cut_Reply 0) :: X_Turn (Ev_Output err n (Ok d)) :: es') r st2 ->
    exists w, k_out (s_conn st2) = k_out (s_conn st) ++ w /\ w <> [] /\ forall pl, ~ next_payload C (k_wr (s_conn st)) 35000 w pl.
Proof. exact skipped. Qed.
Print Assumptions C81_number_skipped_refuted.
(** A session of which this holds. *)
Theorem C81_undecodable_refuted : exists C rng h k es st es' st2 o, is_session C rng h k es (Ok false) st /\
  is_cut_session C rng h k (map X_Turn es ++ X_Cut (Cut_Reply 0) :: es') (Ok false) st2 /\
  k_out (s_conn st2) = k_out (s_conn st) ++ o /\ s_sent (s_log st2) = s_sent (s_log st) ++ [Msg_Channel (C_Data 7 (B "HI"))] /\
  forall pl, ~ next_payload C (k_wr (s_conn st)) 35000 o pl.
Proof. exact toy_undecodable. Qed.
Print Assumptions C81_undecodable_refuted.
(** What holds: when only reading is interrupted, what is written is the frames of
    the messages sent. *)
Theorem C81_decodable_partial : forall C rng h k es r st, is_cut_session C rng h k es r st -> cuts_reading es ->
  written_as C (k_wr k) (k_out k) (map wire (s_sent (s_log st))) (k_out (s_conn st)).
Proof. exact still_written. Qed.
Print Assumptions C81_decodable_partial.
(** Whatever is interrupted: what is written is frames numbered one by one, of the
    messages sent, and the beginnings of as many more as replies were interrupted. *)
Theorem C81_written_exactly_partial : forall C rng h k es r st, is_cut_session C rng h k es r st ->
  exists es1 es2 ps o, es = es1 ++ es2 /\ (r = Ok false -> es2 = []) /\
    k_out (s_conn st) = k_out k ++ o /\ pieces C (k_wr k) ps o (k_wr (s_conn st)) /\
    whole_ones ps = map wire (s_sent (s_log st)) /\ cut_ones ps = reply_cuts es1.
Proof. exact cut_written. Qed.
Print Assumptions C81_written_exactly_partial.

(** The toy's frames are told apart: their first bytes differ. *)
Lemma toy_hd c pl pad raw rest : counter c < 2 ^ 64 -> loose_packet pl pad raw -> len raw + 16 <= 35000 ->
  exists x, hd x00 (seal_with toy_crypto c raw ++ rest) = x /\ b2n x = (b2n (hd x00 (key_length c)) + counter c) mod 256.
Proof.
  intros L (-> & _ & _ & _) LR. revert LR. lens. rewrite be32_len. intros LR.
  assert (Z : exists a b d, be32 (1 + len pl + len pad) = [x00; a; b; d]).
  { remember (be32 (1 + len pl + len pad)) as q eqn:Q. pose proof (be32_len (1 + len pl + len pad)) as Lq. rewrite <- Q in Lq.
    apply (f_equal be_value) in Q. rewrite be32_value in Q by (unfold is_u32, u32_max1; lia).
    destruct q as [|x0 [|x1 [|x2 [|x3 [|]]]]]; rewrite ?len_cons, ?len_nil in Lq; try lia. unfold be_value in Q. cbn [be_acc] in Q.
    pose proof (b2n_lt x0). pose proof (b2n_lt x1). pose proof (b2n_lt x2). pose proof (b2n_lt x3).
    assert (b2n x0 = 0) by lia. exists x1, x2, x3. f_equal. apply b2n_inj. change (b2n x00) with 0. assumption. }
  destruct Z as (a & b & d & Z). unfold seal_with, seal. rewrite Z. eexists. split; [reflexivity|].
  cbn [app]. change (ntake 4 (x00 :: a :: b :: d :: n2b (len pad) :: pl ++ pad)) with [x00; a; b; d].
  unfold ks_range, xor_bytes. change (N.to_nat 4) with 4%nat. cbn [seq map combine app hd keystream toy_crypto].
  unfold bxor. change (b2n x00) with 0. rewrite N.lxor_0_l, !b2n_n2b, be64_value by exact L. change (0 + N.of_nat 0) with 0. rewrite N.add_0_r.
  apply N.mod_mod. discriminate.
Qed.
Lemma toy_apart c : counter c < 2 ^ 64 -> told_apart toy_crypto c.
Proof.
  intros L pl pad raw pl' pad' raw' rest rest' P P' LR LR' Q. apply (f_equal (hd x00)) in Q.
  destruct (toy_hd c pl pad raw rest L P LR) as (x & X1 & X2). destruct (toy_hd (bump c) pl' pad' raw' rest' (bump_lt c) P' LR') as (y & Y1 & Y2).
  rewrite X1, Y1 in Q. subst y. rewrite X2 in Y2. cbn [bump key_length counter] in Y2. generalize dependent (b2n (hd x00 (key_length c))). intros a _ Y2.
  unfold u64_max1 in Y2. lia.
Qed.
Lemma toy_low ms es st : is_session toy_crypto toy_pads toy_sh (toy_conn ms) es (Ok false) st -> counter (k_wr (s_conn st)) < 2 ^ 64.
Proof. intros H. apply plain_fine in H. apply H. Qed.
Example C81_example : exists st st', is_session toy_crypto toy_pads toy_sh (toy_conn (map Msg_Channel ex_open)) [Ev_Packet; Ev_Packet] (Ok false) st /\
  is_session toy_crypto toy_pads toy_sh (toy_conn (map Msg_Channel ex_open)) ([Ev_Packet; Ev_Packet] ++ [Ev_Packet]) (Ok false) st' /\
  s_log st' = s_log st ++ [got (toy_open 9); put (conf 9 1)] /\ runs false (s_log st) 0 7 /\ told_apart toy_crypto (k_wr (s_conn st)).
Proof.
  destruct (toy_session ex_open [Ev_Packet; Ev_Packet] (Ok false) ex_start) as (st & A & L); [vm_compute; reflexivity|].
  destruct (toy_session ex_open ([Ev_Packet; Ev_Packet] ++ [Ev_Packet]) (Ok false) (ex_start ++ [got (toy_open 9); put (conf 9 1)])) as (st' & A' & L'); [vm_compute; reflexivity|].
  exists st, st'. split; [exact A|]. split; [exact A'|]. rewrite L, L'. split; [reflexivity|]. split; [|apply toy_apart, (toy_low _ _ _ A)].
  eexists (firstn 3 ex_start), 0, (Spawn_Exec (B "cat")), all_io, _. split; [reflexivity|]. split; [reflexivity|]. cbn. intros [I|[]]; discriminate I.
Qed.
