(** C92-C94: a client's session await by await. *)
From Coq Require Import Init.Byte.
From Verif Require Import AsyncThm6 PropServer PropBroken PropCancel PropCancel2 PropFaults.
Open Scope res_scope.

(** ** C92: no [RefCell] is borrowed while it is; *)
Theorem C92_no_clash : forall lim C rng h k es, p_run lim C rng h es (loop_init C rng h k) <> Some O_Clash.
Proof. intros lim C rng h k es E. exact (fit_run lim C rng h es _ _ (init_fit lim C rng h k) E). Qed.
Print Assumptions C92_no_clash.
(** the lock is free whenever it is asked for, and nobody waits for it; *)
Theorem C92_lock_is_free : forall lim C rng h k es l, p_run lim C rng h es (loop_init C rng h k) = Some (O_Goes l) ->
  locks_at_once l /\ mx_queue (w_mutex (l_world l)) = [].
Proof. intros lim C rng h k es l E. exact (fit_locks l (fit_run lim C rng h es _ _ (init_fit lim C rng h k) E)). Qed.
Print Assumptions C92_lock_is_free.
(** nothing is borrowed when another branch's body begins, wherever [receive] was
    dropped; *)
Theorem C92_dropped_lets_go : forall lim C rng h k es l e o, p_run lim C rng h es (loop_init C rng h k) = Some (O_Goes l) ->
  p_step lim C rng h (P_Ready e) l = Some o ->
  exists co, co_branch C rng e (w_st (l_world l)) = Some co /\
    o = O_Goes {| l_body := true; l_co := co; l_world := release_all (l_world l) |} /\
    at_ease (release_all (l_world l)) /\ w_st (release_all (l_world l)) = w_st (l_world l).
Proof.
  intros lim C rng h k es l e o E P.
  destruct (ready_fit lim C rng h l e o (fit_run lim C rng h es _ _ (init_fit lim C rng h k) E) P) as (co & A1 & A2 & _ & _ & A3 & A4 & _). eauto.
Qed.
Print Assumptions C92_dropped_lets_go.
(** nor when [receive] begins; when its loop goes round it has [read]. *)
Theorem C92_afresh_lets_go : forall lim C rng h k es l r l', p_run lim C rng h es (loop_init C rng h k) = Some (O_Goes l) ->
  l_co l = Co_Ret r -> p_step lim C rng h P_Run l = Some (O_Goes l') ->
  l_body l' = false /\ (l_co l' = co_receive C rng h /\ at_ease (l_world l') \/
    l_co l' = co_loop C rng h /\ incl (w_cells (l_world l')) [Cell_Read] /\ w_mutex (l_world l') = mutex_new).
Proof.
  intros lim C rng h k es l r l' E Q P. exact (proj2 (done_fit lim C rng h l r _ (fit_run lim C rng h es _ _ (init_fit lim C rng h k) E) Q P)).
Qed.
Print Assumptions C92_afresh_lets_go.
(** It waits for nothing but the transport and handlers, *)
Theorem C92_never_stuck : forall lim C rng h k es l, p_run lim C rng h es (loop_init C rng h k) = Some (O_Goes l) ->
  (awaits_others (l_co l) /\ exists e o, own_step e /\ p_step lim C rng h e l = Some o) \/ exists o, p_step lim C rng h P_Run l = Some o.
Proof.
  intros lim C rng h k es l E. destruct (fit_goes lim C rng h l (fit_run lim C rng h es _ _ (init_fit lim C rng h k) E)) as [A|X]; [left|right; exact X].
  split; [exact A|]. exact (others_go lim C rng h l A).
Qed.
Print Assumptions C92_never_stuck.
(** and if those go on it gets to the end of the turn, with no other branch. *)
Theorem C92_turns_end : forall lim C rng h k es l, p_run lim C rng h es (loop_init C rng h k) = Some (O_Goes l) ->
  exists es' o, Forall own_step es' /\ p_run lim C rng h es' l = Some o /\
    ((exists r st, o = O_Over r st) \/ exists l', o = O_Goes l' /\ afresh C rng h l').
Proof.
  intros lim C rng h k es l E. destruct (finish lim C rng h l (fit_run lim C rng h es _ _ (init_fit lim C rng h k) E)) as (es' & o & A & R & T).
  exists es', o. split; [exact A|]. split; [exact R|]. unfold turned in T. destruct (fst _) as [[|]|x|].
  2: { destruct T as (l' & T1 & T2 & _). eauto. }
  all: destruct T as (st & T & _); eauto.
Qed.
Print Assumptions C92_turns_end.

(** ** C93: a session that is over is one of turns; *)
Theorem C93_over : forall lim C rng h k es r st, len (k_out k) <= lim -> p_run lim C rng h es (loop_init C rng h k) = Some (O_Over r st) ->
  exists ts st', fault_run lim C rng h ts (session_init k) = Some (r, st') /\ ends_alike r st st'.
Proof. intros lim C rng h k es r st L E. exact (inv_run lim C rng h k es _ _ (inv_init lim C rng h k L) E). Qed.
Print Assumptions C93_over.
(** so it is between turns; *)
Theorem C93_between : forall lim C rng h k es l r l', len (k_out k) <= lim -> p_run lim C rng h es (loop_init C rng h k) = Some (O_Goes l) ->
  l_co l = Co_Ret r -> p_step lim C rng h P_Run l = Some (O_Goes l') ->
  afresh C rng h l' /\ exists ts, fault_run lim C rng h ts (session_init k) = Some (Ok false, w_st (l_world l')).
Proof.
  intros lim C rng h k es l r l' L E Q P. pose proof (inv_run lim C rng h k es _ _ (inv_init lim C rng h k L) E) as I.
  destruct (done_step lim C rng h k l r (O_Goes l') I Q) as (A & _ & B); [|split; [exact A|exact B]]. unfold p_step in P. rewrite Q in P. exact P.
Qed.
Print Assumptions C93_between.
(** [receive] is dropped only where [Cancel] says; *)
Theorem C93_dropped : forall lim C rng h k es l e o, len (k_out k) <= lim -> p_run lim C rng h es (loop_init C rng h k) = Some (O_Goes l) ->
  p_step lim C rng h (P_Ready e) l = Some o ->
  exists ts c st, fault_run lim C rng h ts (session_init k) = Some (Ok false, st) /\ cut_step_b lim C rng h c st = Some (w_st (l_world l)).
Proof.
  intros lim C rng h k es l e o L E P. destruct (ready_step lim C rng h k l e o (inv_run lim C rng h k es _ _ (inv_init lim C rng h k L) E) P) as (co & ts & c & st & _ & _ & A & B & _).
  eauto.
Qed.
Print Assumptions C93_dropped.
(** and whatever was written and done by the middle of a turn, some session of
    turns begins with. *)
Theorem C93_so_far : forall lim C rng h k es l, len (k_out k) <= lim -> p_run lim C rng h es (loop_init C rng h k) = Some (O_Goes l) ->
  exists ts r st, fault_run lim C rng h ts (session_init k) = Some (r, st) /\
    begins (k_out (s_conn (w_st (l_world l)))) (k_out (s_conn st)) /\ begins (s_log (w_st (l_world l))) (s_log st).
Proof.
  intros lim C rng h k es l L E. destruct (so_far lim C rng h k es l L E) as (ts & r & st & F & X1 & X2). exists ts, r, st. split; [exact F|]. split; assumption.
Qed.
Print Assumptions C93_so_far.

(** ** C94: every session of turns happens, *)
Theorem C94_turns_happen : forall lim C rng h k ts r st, crypto_ok C -> (forall n, rng_ok (rng n)) ->
  counter (k_rd k) < 2 ^ 64 -> counter (k_wr k) < 2 ^ 64 -> len (k_out k) <= lim ->
  fault_run lim C rng h ts (session_init k) = Some (r, st) ->
  exists es o, p_run lim C rng h es (loop_init C rng h k) = Some o /\
    match r with
    | Ok false => exists l, o = O_Goes l /\ afresh C rng h l /\ w_st (l_world l) = st
    | _ => exists st', o = O_Over r st' /\ ends_alike r st' st
    end.
Proof.
  intros lim C rng h k ts r st K R L1 L2 L E.
  destruct (complete lim C rng h k K R L1 L2 L ts [] (loop_init C rng h k) r st eq_refl (init_fit lim C rng h k) (conj eq_refl (or_introl eq_refl)) E) as (es & o & P & T).
  exists es, o. split; [exact P|]. unfold turned in T. cbn [fst snd] in T. destruct r as [[|]|x|]; try exact T. destruct T as (l & T1 & T2 & _ & T3). eauto.
Qed.
Print Assumptions C94_turns_happen.
(** and [receive] waits wherever [Cancel] drops it. *)
Theorem C94_drops_happen : forall lim C rng h k ts c st s, crypto_ok C -> (forall n, rng_ok (rng n)) ->
  counter (k_rd k) < 2 ^ 64 -> counter (k_wr k) < 2 ^ 64 -> len (k_out k) <= lim ->
  fault_run lim C rng h ts (session_init k) = Some (Ok false, st) -> cut_step_b lim C rng h c st = Some s ->
  exists es l, p_run lim C rng h es (loop_init C rng h k) = Some (O_Goes l) /\ l_body l = false /\ waiting (l_co l) (w_st (l_world l)) = true /\ w_st (l_world l) = s.
Proof. intros lim C rng h k ts c st s K R L1 L2 L E CS. exact (drops lim C rng h k K R L1 L2 L ts c st s E CS). Qed.
Print Assumptions C94_drops_happen.

(** ** Cases: [cat] is started by packets that arrive in pieces, its output
    interrupts a reply after 9 bytes, and it exits; as [C89_example]. *)
Notation toy_p lim es := (p_run lim toy_crypto toy_pads toy_sh es (loop_init toy_crypto toy_pads toy_sh (toy_conn (map Msg_Channel ex_open)))).
Definition runs (n : nat) : list PEv := repeat P_Run n.
Definition ex_started : list PEv :=
  runs 1 ++ [P_Arrive 1; P_Arrive 3] ++ runs 1 ++ [P_Arrive 40; P_Arrive 8] ++ runs 9 ++ [P_Taken 44] ++ runs 4 ++
  [P_Arrive 4] ++ runs 1 ++ [P_Arrive 48] ++ runs 7 ++ [P_Answer] ++ runs 7 ++ [P_Taken 30; P_Taken 6] ++ runs 5 ++
  [P_Arrive 4] ++ runs 1 ++ [P_Arrive 48] ++ runs 9 ++ [P_Taken 9].
Definition ex_polls : list PEv :=
  ex_started ++ [P_Ready output] ++ runs 5 ++ [P_Taken 36] ++ runs 5 ++
  [P_Ready (Ev_Exit 0 3)] ++ runs 6 ++ [P_Taken 52] ++ runs 4.
Definition seen (x : option Out) : option (option (res ReceiveError bool) * list SEvent) :=
  match x with
  | Some (O_Goes l) => Some (None, s_log (w_st (l_world l)))
  | Some (O_Over r st) => Some (Some r, s_log st)
  | _ => None
  end.
Example C92_example : seen (toy_p 177 ex_polls) = Some (None, ex_faults_log) /\
  match toy_p 177 ex_started with
  | Some (O_Goes l) => w_held (l_world l) = [G_Cell Cell_Rng; G_Write; G_Cell Cell_Read] /\ mx_borrowed (w_mutex (l_world l)) = true /\
      match p_step 177 toy_crypto toy_pads toy_sh (P_Ready output) l with Some (O_Goes l') => w_held (l_world l') = [] | _ => False end
  | _ => False
  end.
Proof. vm_compute. repeat split. Qed.
(** Were [receive] not dropped, the body would wait for it for good, holding on
    to the lock: *)
Example C92_example_kept : match toy_p 177 ex_started with
  | Some (O_Goes l) =>
    match p_run 177 toy_crypto toy_pads toy_sh (runs 3) {| l_body := true; l_co := co_output toy_crypto toy_pads false 0 7 (Ok (B "HI")); l_world := l_world l |} with
    | Some (O_Goes {| l_co := Co_Lock true _; l_world := w |}) => mx_borrowed (w_mutex w) = true
    | _ => False
    end
  | _ => False
  end.
Proof. vm_compute. reflexivity. Qed.
(** and [receive] that begins while it goes on would panic. *)
Example C92_example_clash : match toy_p 177 ex_started with
  | Some (O_Goes l) =>
    p_run 177 toy_crypto toy_pads toy_sh (runs 1) {| l_body := false; l_co := co_receive toy_crypto toy_pads toy_sh; l_world := l_world l |} = Some O_Clash
  | _ => False
  end.
Proof. vm_compute. reflexivity. Qed.
(** The transport breaks after 176 bytes; the session ends as in [C89_example]. *)
Example C93_example : seen (toy_p 176 (ex_started ++ [P_Ready output] ++ runs 5 ++ [P_Taken 36] ++ runs 5 ++
    [P_Ready (Ev_Exit 0 3)] ++ runs 6 ++ [P_Taken 51; P_Broken] ++ runs 1)) = Some (Some (Err RE_Out), removelast ex_faults_log) /\
  run_f 176 ex_open ex_faults = Some (Err RE_Out, removelast ex_faults_log).
Proof. vm_compute. repeat split. Qed.
Notation ex_k := (toy_conn (map Msg_Channel ex_open)).
(** The transport ends within a packet; only the buffer differs. *)
Notation ex_short := (with_in (ntake 107 (k_in ex_k)) ex_k).
Example C93_example_end :
  match p_run 1000 toy_crypto toy_pads toy_sh
     (runs 1 ++ [P_Arrive 4] ++ runs 1 ++ [P_Arrive 48] ++ runs 9 ++ [P_Taken 44] ++ runs 4 ++
      [P_Arrive 4] ++ runs 1 ++ [P_Arrive 48] ++ runs 7 ++ [P_Answer] ++ runs 7 ++ [P_Taken 36] ++ runs 5 ++
      [P_Arrive 3; P_End] ++ runs 1) (loop_init toy_crypto toy_pads toy_sh ex_short),
    fault_run 1000 toy_crypto toy_pads toy_sh [still Ev_Packet; still Ev_Packet; still Ev_Packet] (session_init ex_short) with
  | Some (O_Over r st), Some (r', st') => r = Err (RE_In (In_Read UnexpectedEof)) /\ r' = r /\ s_log st = s_log st' /\ s_conn st = s_conn st' /\
      bytes_eqb (s_buf st) (s_buf st') = false
  | _, _ => False
  end.
Proof. vm_compute. repeat split. Qed.
Example C94_example : crypto_ok toy_crypto /\ (forall n, rng_ok (toy_pads n)) /\ counter (k_rd ex_k) < 2 ^ 64 /\ counter (k_wr ex_k) < 2 ^ 64 /\ len (k_out ex_k) <= 177 /\
  run_f 177 ex_open ex_faults = Some (Ok false, ex_faults_log) /\ seen (toy_p 177 ex_polls) = Some (None, ex_faults_log).
Proof. split; [exact toy_ok|]. split; [exact toy_pads_ok|]. vm_compute. repeat split. discriminate. Qed.
