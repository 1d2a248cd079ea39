(** C89-C91: breaking transports, cancellation and many connections at once. *)
From Coq Require Import Init.Byte.
From Verif Require Import FaultsThm3 PropServer PropBroken PropCancel PropCancel2.
Open Scope res_scope.

(** ** C89: a session over a breaking transport, cancelled here and there, is one
    over a transport that takes all until the message that cannot be written; *)
Theorem C89_session_is_cut : forall lim C rng h ts st rb st', fault_run lim C rng h ts st = Some (rb, st') -> len (k_out (s_conn st)) <= lim ->
  exists ts1 ts2 r st1, ts = ts1 ++ ts2 /\ cut_run C rng h (schedule ts1) st = Some (r, st1) /\
    ((ts2 = [] /\ len (k_out (s_conn st1)) <= lim /\ rb = map_err RE_In r /\ st' = st1) \/ (rb = Err RE_Out /\ s_broke lim st1 st')).
Proof. exact fault_is_cut. Qed.
Print Assumptions C89_session_is_cut.
(** so it does not panic more; *)
Theorem C89_panics_no_more : forall lim C rng h ts st st', fault_run lim C rng h ts st = Some (Panic, st') -> len (k_out (s_conn st)) <= lim ->
  cut_run C rng h (schedule ts) st = Some (Panic, st').
Proof. exact fault_panics_no_more. Qed.
Print Assumptions C89_panics_no_more.
(** conversely the latter goes the same over a breaking transport, until a turn
    fails to write, or a reply that the turn would drop later. *)
Theorem C89_cut_breaks : forall lim C rng h ts st r st1, cut_run C rng h (schedule ts) st = Some (r, st1) -> len (k_out (s_conn st)) <= lim ->
  (len (k_out (s_conn st1)) <= lim /\ fault_run lim C rng h ts st = Some (map_err RE_In r, st1)) \/
  exists ts1 t t' ts2 st2, ts = ts1 ++ t :: ts2 /\ fault_run lim C rng h (ts1 ++ [t']) st = Some (Err RE_Out, st2) /\
    (t' = t \/ exists n e, t = (Some (Cut_Reply n), e) /\ t' = (None, Ev_Packet)) /\
    lim < len (k_out (s_conn st1)) /\ k_out (s_conn st2) = ntake lim (k_out (s_conn st1)) /\ begins (s_log st2) (s_log st1).
Proof. exact cut_is_fault. Qed.
Print Assumptions C89_cut_breaks.

(** ** C90: the server panics only if a connection does, on its own; *)
Theorem C90_dies_of_one : forall U H C (P : N -> Peer U) L es, host_ok H -> crypto_ok C ->
  (forall i, host_rng_ok (p_host_rng (P i)) /\ rngs_ok (p_rng (P i))) ->
  (forall e, fv_run H C P L es [] <> Some (Err e)) /\
  (fv_run H C P L es [] = Some Panic ->
   exists es1 e es2 ts i s, es = es1 ++ e :: es2 /\ fv_run H C P L es1 [] = Some (Ok ts) /\ get_at i (f_accepted es1) = Some s /\
     fails H C (P i) (L i) s (f_own i (es1 ++ [e]))).
Proof.
  intros U H C P L es HO K PO. split; [exact (never_errs_f H C P L HO K PO es)|exact (dies_of_one_f H C P L HO K PO es)].
Qed.
Print Assumptions C90_dies_of_one.
(** until then each connection is as if it were alone; *)
Theorem C90_isolated : forall U H C (P : N -> Peer U) L es ts, host_ok H -> crypto_ok C ->
  (forall i, host_rng_ok (p_host_rng (P i)) /\ rngs_ok (p_rng (P i))) -> fv_run H C P L es [] = Some (Ok ts) ->
  len ts = len (f_accepted es) /\
  forall i s, get_at i (f_accepted es) = Some s -> exists t, get_at i ts = Some t /\ endures H C (P i) (L i) s (f_own i es) t.
Proof. intros U H C P L es ts HO K PO. exact (isolated_f H C P L HO K PO es ts). Qed.
Print Assumptions C90_isolated.
(** a client of it authenticated, and its session is one of C89. *)
Theorem C90_whole_connection : forall U H C (P : N -> Peer U) L es ts, host_ok H -> crypto_ok C ->
  (forall i, host_rng_ok (p_host_rng (P i)) /\ rngs_ok (p_rng (P i))) -> fv_run H C P L es [] = Some (Ok ts) ->
  forall i u a st, client_at i ts u a st ->
  exists s tn, get_at i (f_accepted es) = Some s /\ f_own i es = FE_Auth :: map FE_Turn tn /\
    connection H C (P i) s u a (session_init (a_conn a)) /\ came_to C (P i) (L i) u a tn st.
Proof. intros U H C P L es ts HO K PO R. exact (connections_f H C P L es ts HO K PO R). Qed.
Print Assumptions C90_whole_connection.
(** Without cancellation it is the server of C82. *)
Theorem C90_plain : forall U H C (P : N -> Peer U) L es ts, fv_run H C P L (map plain_event es) ts = sv_run_b H C P L es ts.
Proof. intros U H C P L es. exact (fv_plain H C P L es). Qed.
Print Assumptions C90_plain.

(** ** C91: at such a server what a child says is sent to the client that started
    it, at once, or the connection broke; *)
Section Server.
  Context (U : Type) (H : Host) (C : Crypto) (P : N -> Peer U) (L : N -> N) (es : list FvEv) (ts : list (Task U)).
  Definition served : Prop := host_ok H /\ crypto_ok C /\ (forall i, host_rng_ok (p_host_rng (P i)) /\ rngs_ok (p_rng (P i))) /\ fv_run H C P L es [] = Some (Ok ts).
  Theorem C91_output : served -> forall i u a st, client_at i ts u a st ->
    forall pre err n d post, s_log st = pre ++ SE_Read err n d :: post -> d <> [] ->
    exists p, runs err pre n p /\ ((exists post', post = put (C_Data p d) :: post' /\ at_rest post') \/ (post = [] /\ broke_off (L i) i ts u a st)).
  Proof. intros (HO & K & PO & R). exact (f_output H C P L es ts HO K PO R). Qed.
  Theorem C91_end : served -> forall i u a st, client_at i ts u a st ->
    forall pre n post, s_log st = pre ++ SE_Read false n [] :: post ->
    exists p, runs false pre n p /\ (forall d, ~ In (SE_Read false n d) post) /\
      ((exists post', post = put (C_Eof p) :: put (C_Close p) :: post' /\ at_rest post') \/
       ((post = [] \/ post = [put (C_Eof p)]) /\ broke_off (L i) i ts u a st)).
  Proof. intros (HO & K & PO & R). exact (f_ends H C P L es ts HO K PO R). Qed.
  Theorem C91_exit : served -> forall i u a st, client_at i ts u a st ->
    forall pre n s post, s_log st = pre ++ SE_Exit n s :: post ->
    (forall s', ~ In (SE_Exit n s') (pre ++ post)) /\ exists l1 c p ty io l2, pre = l1 ++ SE_Spawn c p n ty (Ok io) :: l2 /\
      ((exists post', post = put (exit_status p s) :: post' /\ at_rest post') \/ (post = [] /\ broke_off (L i) i ts u a st)).
  Proof. intros (HO & K & PO & R). exact (f_exit H C P L es ts HO K PO R). Qed.
  (** a client is sent nothing else of the kind; *)
  Theorem C91_no_other_data : served -> forall i u a st, client_at i ts u a st ->
    forall pre p d post, s_log st = pre ++ put (C_Data p d) :: post ->
    exists pre' err n, pre = pre' ++ [SE_Read err n d] /\ runs err pre' n p /\ d <> [] /\ len d <= 256 /\ at_rest post.
  Proof. intros (HO & K & PO & R). exact (f_data_caused H C P L es ts HO K PO R). Qed.
  Theorem C91_no_other_status : served -> forall i u a st, client_at i ts u a st ->
    forall pre q post, s_log st = pre ++ put (C_Request q) :: post ->
    exists pre' n p s, pre = pre' ++ [SE_Exit n s] /\ C_Request q = exit_status p s /\ at_rest post /\ exists c ty io, In (SE_Spawn c p n ty (Ok io)) pre'.
  Proof. intros (HO & K & PO & R). exact (f_status_caused H C P L es ts HO K PO R). Qed.
  Theorem C91_numbers : served -> forall i u a st, client_at i ts u a st ->
    forall l1 oc1 l2 oc2 l3, s_log st = l1 ++ put (C_OpenConfirmation oc1) :: l2 ++ put (C_OpenConfirmation oc2) :: l3 ->
    oc_sender oc1 = oc_sender oc2 -> In (got (C_Close (oc_sender oc1))) l2.
  Proof. intros (HO & K & PO & R). exact (f_numbers H C P L es ts HO K PO R). Qed.
  Theorem C91_because : served -> forall i u a st, client_at i ts u a st ->
    forall pre m post, s_log st = pre ++ SE_Sent m :: post ->
    exists tn es1 pre' v s t1 c t2, f_own i es = FE_Auth :: map FE_Turn tn /\ m = Msg_Channel c /\ pre = pre' ++ s :: t1 /\
      begins es1 (schedule tn) /\ all_beside es1 pre' v /\ because v s t1 c t2 /\
      ((exists post', post = t2 ++ post' /\ at_rest post') \/ (begins post t2 /\ broke_off (L i) i ts u a st)).
  Proof. intros (HO & K & PO & R). exact (f_because H C P L es ts HO K PO R). Qed.
  (** and what it is written is frames numbered one by one, as far as its
      transport takes them: of the messages sent, and beginnings of the replies
      that were dropped. *)
  Theorem C91_written : served -> forall i u a st, client_at i ts u a st ->
    exists tn es1 ps o c', f_own i es = FE_Auth :: map FE_Turn tn /\ begins es1 (schedule tn) /\
      k_out (s_conn st) = ntake (L i) (k_out (a_conn a) ++ o) /\ pieces C (k_wr (a_conn a)) ps o c' /\
      cut_ones ps = reply_cuts es1 /\ begins (map wire (s_sent (s_log st))) (whole_ones ps) /\
      (map wire (s_sent (s_log st)) = whole_ones ps \/ broke_off (L i) i ts u a st).
  Proof. intros (HO & K & PO & R). exact (f_written H C P L es ts HO K PO R). Qed.
End Server.
Print Assumptions C91_output.
Print Assumptions C91_end.
Print Assumptions C91_exit.
Print Assumptions C91_no_other_data.
Print Assumptions C91_no_other_status.
Print Assumptions C91_numbers.
Print Assumptions C91_because.
Print Assumptions C91_written.

(** ** Cases: the output of [cat] interrupts a reply, and the transport breaks
    before the exit status. *)
Definition run_f (lim : N) (ms : list Channel) (ts : list Turn) : option (res ReceiveError bool * list SEvent) :=
  match fault_run lim toy_crypto toy_pads toy_sh ts (session_init (toy_conn (map Msg_Channel ms))) with
  | Some (r, st) => Some (r, s_log st)
  | None => None
  end.
Notation still e := (@None Cut, e).
Definition ex_faults : list Turn := [still Ev_Packet; still Ev_Packet; (Some (Cut_Reply 9), output); still (Ev_Exit 0 3)].
Definition ex_faults_log : list SEvent := ex_start ++ got (toy_open 9) :: ex_hi ++ [SE_Exit 0 3; put (exit_status 7 3)].
Example C89_example : run_f 177 ex_open ex_faults = Some (Ok false, ex_faults_log) /\ run_f 176 ex_open ex_faults = Some (Err RE_Out, removelast ex_faults_log).
Proof. vm_compute. repeat split. Qed.
(** The transport takes 3 of the 9 bytes of the reply after which [cat] would
    have interrupted. *)
Example C89_example_reply : run_f 83 ex_open ex_faults = None /\
  run_f 83 ex_open [still Ev_Packet; still Ev_Packet; still Ev_Packet] = Some (Err RE_Out, ex_start ++ [got (toy_open 9)]).
Proof. vm_compute. repeat split. Qed.
Definition toy_cat : bytes := toy_client (toy_service :: toy_request toy_signed :: map Msg_Channel ex_open).
Notation serve_f L es := (fv_run toy_host toy_crypto (fun _ => toy_peer) L es []).
Definition ex_busy : list FvEv :=
  [FV_Accept toy_cat; FV_Accept toy_cat; FV_Auth 1; FV_Auth 0; FV_Client 0 (still Ev_Packet); FV_Client 1 (still Ev_Packet); FV_Client 1 (still Ev_Packet);
   FV_Client 0 (still Ev_Packet); FV_Client 0 (Some (Cut_Reply 9), output); FV_Client 1 (Some (Cut_Read 5), output); FV_Client 0 (still (Ev_Exit 0 3)); FV_Client 1 (still (Ev_Exit 0 3))].
Definition ex_limits : N -> N := fun i => if i =? 0 then 725 else 1000000.
Definition ex_busy_logs : list (list SEvent) :=
  [removelast ex_faults_log; ex_start ++ ex_hi ++ [SE_Exit 0 3; put (exit_status 7 3)]].
Definition summary (r : option (res unit (list (Task bytes)))) : list (bool * bytes * list SEvent * N) :=
  match r with
  | Some (Ok ts) => flat_map (fun t => match t with
                                       | T_Client u _ st => [(true, u, s_log st, len (k_out (s_conn st)))]
                                       | T_Over u _ st => [(false, u, s_log st, len (k_out (s_conn st)))]
                                       | _ => [] end) ts
  | _ => []
  end.
Lemma ex_busy_summary : summary (serve_f ex_limits ex_busy) =
  [(false, B "joe", nth 0 ex_busy_logs [], 725); (true, B "joe", nth 1 ex_busy_logs [], 717)].
Proof. vm_compute. reflexivity. Qed.
Lemma ex_busy_two (r : option (res unit (list (Task bytes)))) l0 l1 n0 n1 : summary r = [(false, B "joe", l0, n0); (true, B "joe", l1, n1)] ->
  (forall ts, r = Some (Ok ts) -> len ts = 2) ->
  exists u0 a0 st0 u1 a1 st1, r = Some (Ok [T_Over u0 a0 st0; T_Client u1 a1 st1]) /\ u0 = B "joe" /\ u1 = B "joe" /\ s_log st0 = l0 /\ s_log st1 = l1 /\
    len (k_out (s_conn st0)) = n0 /\ len (k_out (s_conn st1)) = n1.
Proof.
  destruct r as [[ts|e|]|]; try discriminate. cbn [summary]. intros E LE. specialize (LE ts eq_refl).
  destruct ts as [|t0 [|t1 [|t2 ts]]]; try discriminate LE; [|unfold len in LE; cbn [length] in LE; lia].
  destruct t0 as [s0|u0 a0 st0|out0|u0 a0 st0], t1 as [s1|u1 a1 st1|out1|u1 a1 st1]; cbn [flat_map app] in E; try discriminate E.
  apply pair_cons in E as [E0 E]. apply pair_cons in E as [E1 _]. apply pair_equal_spec in E0 as [E0 Q0]. apply pair_equal_spec in E0 as [E0 Q1]. apply pair_equal_spec in E0 as [_ Q2].
  apply pair_equal_spec in E1 as [E1 P0]. apply pair_equal_spec in E1 as [E1 P1]. apply pair_equal_spec in E1 as [_ P2].
  exists u0, a0, st0, u1, a1, st1. auto 8.
Qed.
Example C90_example : exists u0 a0 st0 u1 a1 st1, served bytes toy_host toy_crypto (fun _ => toy_peer) ex_limits ex_busy [T_Over u0 a0 st0; T_Client u1 a1 st1] /\
  s_log st0 = nth 0 ex_busy_logs [] /\ s_log st1 = nth 1 ex_busy_logs [] /\ broke_off (ex_limits 0) 0 [T_Over u0 a0 st0; T_Client u1 a1 st1] u0 a0 st0.
Proof.
  destruct (ex_busy_two _ _ _ _ _ ex_busy_summary) as (u0 & a0 & st0 & u1 & a1 & st1 & R & _ & _ & L0 & L1 & N0 & _).
  { intros ts R. exact (proj1 (isolated_f toy_host toy_crypto (fun _ => toy_peer) ex_limits toy_host_ok toy_ok (fun _ => conj toy_rng_ok toy_pads_ok) _ _ R)). }
  exists u0, a0, st0, u1, a1, st1. split; [split; [exact toy_host_ok|]; split; [exact toy_ok|]; split; [exact (fun _ => conj toy_rng_ok toy_pads_ok)|exact R]|].
  split; [exact L0|]. split; [exact L1|]. split; [reflexivity|exact N0].
Qed.
(** What C91 says of it: the output of both is sent, the exit of one is not, for it broke. *)
Example C91_example : exists ts u0 a0 st0 u1 a1 st1, served bytes toy_host toy_crypto (fun _ => toy_peer) ex_limits ex_busy ts /\
  client_at 0 ts u0 a0 st0 /\ client_at 1 ts u1 a1 st1 /\
  s_log st0 = (ex_start ++ [got (toy_open 9)]) ++ SE_Read false 0 (B "HI") :: put (C_Data 7 (B "HI")) :: [SE_Exit 0 3] /\
  s_log st0 = (ex_start ++ got (toy_open 9) :: ex_hi) ++ SE_Exit 0 3 :: [] /\ broke_off (ex_limits 0) 0 ts u0 a0 st0 /\
  s_log st1 = (ex_start ++ ex_hi) ++ SE_Exit 0 3 :: put (exit_status 7 3) :: [].
Proof.
  destruct C90_example as (u0 & a0 & st0 & u1 & a1 & st1 & S & L0 & L1 & B). exists [T_Over u0 a0 st0; T_Client u1 a1 st1], u0, a0, st0, u1, a1, st1.
  split; [exact S|]. split; [right; reflexivity|]. split; [left; reflexivity|]. rewrite L0, L1. split; [reflexivity|]. split; [reflexivity|]. split; [exact B|reflexivity].
Qed.
