(** C98-C100: logins and the server await by await. *)
From Coq Require Import Init.Byte.
From Verif Require Import LoginThm5 PropServer PropBroken PropCancel PropCancel2 PropFaults PropAsync.
Open Scope res_scope.

(** ** C98: a login that is over ended as the one in one step does; *)
Theorem C98_ends_so : forall U H C (p : Peer U) lim s es out, logged_in H C p lim s es out ->
  authenticate_new_client_b lim H (p_host_rng p) C (p_rng p) (p_auth p) s = Some out.
Proof. intros U H C p lim s es out E. exact (login_ends H C p lim s es out E). Qed.
Print Assumptions C98_ends_so.
(** it waits for nothing but the transport and handlers, *)
Theorem C98_never_stuck : forall U H C (p : Peer U) lim s es g, logging_in H C p lim s es g -> under_way g -> exists e g', g_step lim e g = Some g'.
Proof. intros U H C p lim s es g E W. destruct (login_goes H C p lim s es g E) as [(x & Q)|X]; [destruct (W x Q)|exact X]. Qed.
Print Assumptions C98_never_stuck.
(** comes to an end, *)
Theorem C98_bounded : forall U H C (p : Peer U) lim s, exists n, forall es g, logging_in H C p lim s es g -> (length es <= n)%nat.
Proof. intros U H C p lim s. exact (login_bounded H C p lim s). Qed.
Print Assumptions C98_bounded.
Theorem C98_ends : forall U H C (p : Peer U) lim s es g, logging_in H C p lim s es g -> exists es' out, logged_in H C p lim s (es ++ es') out.
Proof. intros U H C p lim s es g E. exact (login_finishes H C p lim s es g E). Qed.
Print Assumptions C98_ends.
(** and until then has written a beginning of what it will have, of what the
    transport takes, and has read only from the front. *)
Theorem C98_so_far : forall U H C (p : Peer U) lim s es g, logging_in H C p lim s es g ->
  exists out, authenticate_new_client_b lim H (p_host_rng p) C (p_rng p) (p_auth p) s = Some out /\
    begins (g_out g) (written out) /\ len (written out) <= lim /\ exists d, s = d ++ g_in g.
Proof. intros U H C p lim s es g E. exact (login_so_far H C p lim s es g E). Qed.
Print Assumptions C98_so_far.

(** ** C99: each connection does what it does by itself; *)
Theorem C99_isolated : forall U H C (P : N -> Peer U) L es ls, lv_run H C P L es [] = Some (Ok ls) ->
  len ls = len (l_accepted es) /\
  forall i s, get_at i (l_accepted es) = Some s -> exists l, get_at i ls = Some l /\ by_itself H C (P i) (L i) s (l_own i es) l.
Proof. intros U H C P L es ls R. exact (isolated_l H C P L es ls R). Qed.
Print Assumptions C99_isolated.
(** the server ends when one of them does so by itself, and not otherwise; *)
Theorem C99_dies_of_one : forall U H C (P : N -> Peer U) L es,
  (forall e, lv_run H C P L es [] <> Some (Err e)) /\
  (lv_run H C P L es [] = Some Panic ->
   exists es1 e es2 ls i s, es = es1 ++ e :: es2 /\ lv_run H C P L es1 [] = Some (Ok ls) /\ get_at i (l_accepted es1) = Some s /\
     dies_itself H C (P i) (L i) s (l_own i (es1 ++ [e]))).
Proof. intros U H C P L es. split; [exact (never_errs_l H C P L es)|exact (dies_of_one_l H C P L es)]. Qed.
Print Assumptions C99_dies_of_one.
(** and whatever the others do, one that is not over can go on, changing only
    itself (or ending all). *)
Theorem C99_nobody_waits : forall U H C (P : N -> Peer U) L es ls i l, lv_run H C P L es [] = Some (Ok ls) -> get_at i ls = Some l ->
  match l with Ln_Login _ | Ln_Client _ _ _ => True | _ => False end ->
  exists e, l_about i e <> [] /\ (lv_step H C P L e ls = Some Panic \/ exists l', lv_step H C P L e ls = Some (Ok (set_at i l' ls))).
Proof. intros U H C P L es ls i l R G A. exact (nobody_waits H C P L es ls i l R G A). Qed.
Print Assumptions C99_nobody_waits.

(** ** C100: it does what the server of turns does, *)
Theorem C100_adds_nothing : forall U H C (P : N -> Peer U) L es ls, lv_run H C P L es [] = Some (Ok ls) ->
  exists es' ts, fv_run H C P L es' [] = Some (Ok ts) /\ f_accepted es' = l_accepted es /\ len ts = len ls /\
    forall i l, get_at i ls = Some l -> exists t, get_at i ts = Some t /\ seen_as H C (P i) (L i) l t.
Proof. intros U H C P L es ls R. exact (sound_l H C P L es ls R). Qed.
Print Assumptions C100_adds_nothing.
Theorem C100_adds_no_panic : forall U H C (P : N -> Peer U) L es, lv_run H C P L es [] = Some Panic ->
  exists es1 e es2 ls es', es = es1 ++ e :: es2 /\ lv_run H C P L es1 [] = Some (Ok ls) /\ fv_run H C P L es' [] = Some Panic /\ f_accepted es' = l_accepted es1.
Proof. intros U H C P L es R. exact (sound_panic_l H C P L es R). Qed.
Print Assumptions C100_adds_no_panic.
(** and all of it. *)
Theorem C100_loses_nothing : forall U H C (P : N -> Peer U) L es' ts, host_ok H -> crypto_ok C ->
  (forall i, host_rng_ok (p_host_rng (P i)) /\ rngs_ok (p_rng (P i))) -> fv_run H C P L es' [] = Some (Ok ts) ->
  exists es ls, lv_run H C P L es [] = Some (Ok ls) /\ l_accepted es = f_accepted es' /\ len ls = len ts /\
    forall i t, get_at i ts = Some t -> exists l, get_at i ls = Some l /\ seen_as H C (P i) (L i) l t /\ rests H C (P i) l t.
Proof. intros U H C P L es' ts HO K PO R. exact (complete_seen_l H C P L HO K PO es' ts R). Qed.
Print Assumptions C100_loses_nothing.
Theorem C100_loses_no_panic : forall U H C (P : N -> Peer U) L es', host_ok H -> crypto_ok C ->
  (forall i, host_rng_ok (p_host_rng (P i)) /\ rngs_ok (p_rng (P i))) -> fv_run H C P L es' [] = Some Panic ->
  exists es es1 e es2, lv_run H C P L es [] = Some Panic /\ es' = es1 ++ e :: es2 /\ l_accepted es = f_accepted es1 /\
    fv_run H C P L (es1 ++ [e]) [] = Some Panic.
Proof. intros U H C P L es' HO K PO R. exact (complete_panic_l H C P L HO K PO es' R). Qed.
Print Assumptions C100_loses_no_panic.

(** ** Cases.  Something that can happen next, at most [c] bytes at a time. *)
Definition next_login (lim c : N) (g : Going (LResult bytes)) : option LEv :=
  match g_co g with
  | Lg_Ret _ => None
  | Lg_Read n _ => if n =? 0 then Some L_Run else if is_empty (g_in g) then Some L_End else Some (L_Arrive (N.min c (N.min n (len (g_in g)))))
  | Lg_Write w _ => if is_empty w then Some L_Run else if lim <=? len (g_out g) then Some L_Broken else Some (L_Taken (N.min c (N.min (len w) (lim - len (g_out g)))))
  | Lg_Call _ => Some L_Answer
  end.
Definition next_client (lim c : N) (l : Loop) : option PEv :=
  let k := s_conn (w_st (l_world l)) in
  match l_co l with
  | Co_Read n _ _ => if n =? 0 then Some P_Run else if is_empty (k_in k) then None else Some (P_Arrive (N.min c (N.min n (len (k_in k)))))
  | Co_Write w _ => if is_empty w then Some P_Run else if lim <=? len (k_out k) then Some P_Broken else Some (P_Taken (N.min c (N.min (len w) (lim - len (k_out k)))))
  | Co_Call _ _ => Some P_Answer
  | _ => Some P_Run
  end.
Fixpoint drive (fuel : nat) (lim c : N) (g : Going (LResult bytes)) : list LEv :=
  match fuel with
  | O => []
  | S fuel =>
    match next_login lim c g with
    | Some e => match g_step lim e g with Some g => e :: drive fuel lim c g | None => [] end
    | None => []
    end
  end.
(** All connections in turn, the [i]th [c i] bytes at a time. *)
Fixpoint serve_l (fuel : nat) (L c : N -> N) (i : N) (ls : list (Lane bytes)) : list LvEv :=
  match fuel with
  | O => []
  | S fuel =>
    let j := if i + 1 <? len ls then i + 1 else 0 in
    let e := match get_at i ls with
      | Some (Ln_Login g) => match next_login (L i) (c i) g with Some e => Some (LV_Login i e) | None => None end
      | Some (Ln_Client _ _ l) => match next_client (L i) (c i) l with Some e => Some (LV_Client i e) | None => None end
      | _ => None
      end in
    match e with
    | Some e =>
      match lv_step toy_host toy_crypto (fun _ => toy_peer) L e ls with
      | Some (Ok ls) => e :: serve_l fuel L c j ls
      | Some _ => [e]
      | None => []
      end
    | None => serve_l fuel L c j ls
    end
  end.
Definition begun (ss : list stream) : list (Lane bytes) := map (lane_new toy_host toy_crypto toy_peer) ss.
Definition lane_brief (l : Lane bytes) : option bytes * list SEvent :=
  match l with
  | Ln_Login _ => (None, []) | Ln_Refused _ => (Some [], [])
  | Ln_Client u _ l => (Some u, s_log (w_st (l_world l))) | Ln_Over u _ st => (Some u, s_log st)
  end.

Definition lanes_brief (r : option (res unit (list (Lane bytes)))) : list (option bytes * list SEvent) :=
  match r with Some (Ok ls) => map lane_brief ls | _ => [] end.
(** How far a login is: its result, how much it wrote. *)
Definition login_brief (g : option (Going (LResult bytes))) : option (option (res unit bytes) * N) :=
  match g with
  | Some g => Some (match g_co g with Lg_Ret (LR_Auth r _) => Some r | _ => None end, len (g_out g))
  | None => None
  end.
(** Joe logs in, three bytes at a time. *)
Notation toy_login s := (login_begins toy_host toy_crypto toy_peer s).
Definition ex_login : list LEv := Eval vm_compute in drive 2000 1000 3 (toy_login toy_visit).
Example C98_example : len ex_login = 372 /\ login_brief (g_run 1000 ex_login (toy_login toy_visit)) = Some (Some (Ok (B "joe")), 549).
Proof. vm_compute. split; reflexivity. Qed.
(** The transport breaks during authentication (C82). *)
Example C98_example_broken : login_brief (g_run 530 (drive 2000 530 50 (toy_login toy_visit)) (toy_login toy_visit)) = Some (Some Panic, 530).
Proof. vm_compute. reflexivity. Qed.
(** And somewhere in the middle. *)
Example C98_example_middle : login_brief (g_run 1000 (firstn 60 ex_login) (toy_login toy_visit)) = Some (None, 178).
Proof. vm_compute. reflexivity. Qed.
(** Two such clients next to one that is none. *)
Definition ex_three : list stream := [toy_visit; B "GET / HTTP/1.0" ++ crlf; toy_visit].
Notation ex_room := (fun _ : N => 100000).
Notation ex_bits := (fun i : N => 2 * i + 3).
Definition ex_crowd : list LvEv := Eval vm_compute in map LV_Accept ex_three ++ serve_l 3000 ex_room ex_bits 0 (begun ex_three).
Notation toy_lv L es := (lv_run toy_host toy_crypto (fun _ => toy_peer) L es []).
Example C99_example : lanes_brief (toy_lv ex_room ex_crowd) = [ex_joe; (Some [], []); ex_joe].
Proof. vm_compute. reflexivity. Qed.
(** One that leaves after the handshake ends the others' logins. *)
Definition ex_two : list stream := [toy_visit; toy_stream].
Definition ex_end : list LvEv := Eval vm_compute in map LV_Accept ex_two ++ serve_l 3000 ex_room (fun i => if i =? 0 then 3 else 1000) 0 (begun ex_two).
Example C99_example_dies : toy_lv ex_room ex_end = Some Panic /\
  lanes_brief (toy_lv ex_room (removelast ex_end)) = [(None, []); (None, [])].
Proof. vm_compute. repeat split. Qed.
(** The server of turns does the same. *)
Example C100_example : match fv_run toy_host toy_crypto (fun _ => toy_peer) ex_room (map plain_event
    [SV_Accept toy_visit; SV_Accept (B "GET / HTTP/1.0" ++ crlf); SV_Accept toy_visit; SV_Auth 0; SV_Auth 1; SV_Auth 2;
     SV_Client 0 Ev_Packet; SV_Client 2 Ev_Packet; SV_Client 0 Ev_Packet; SV_Client 2 Ev_Packet]) [] with
  | Some (Ok ts) => map brief ts | _ => [] end = [ex_joe; (Some [], []); ex_joe] /\
  host_ok toy_host /\ crypto_ok toy_crypto /\ (forall i : N, host_rng_ok (p_host_rng toy_peer) /\ rngs_ok (p_rng toy_peer)).
Proof. split; [vm_compute; reflexivity|]. split; [exact toy_host_ok|]. split; [exact toy_ok|]. exact (fun _ => conj toy_rng_ok toy_pads_ok). Qed.
Example C100_example_panics : fv_run toy_host toy_crypto (fun _ => toy_peer) ex_room
  [FV_Accept toy_visit; FV_Accept toy_stream; FV_Auth 1] [] = Some Panic.
Proof. vm_compute. reflexivity. Qed.
