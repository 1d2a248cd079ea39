(** Proofs about the server. *)
From Coq Require Import Init.Byte Strings.Byte.
From Verif Require Export SpecServer SessionThm8.

Lemma set_nth_same {A} n (x : A) l : (n < length l)%nat -> nth_error (set_nth n x l) n = Some x.
Proof. revert n. induction l as [|y l IH]; intros [|n] L; cbn in *; try lia; auto. apply IH. lia. Qed.
Lemma set_nth_other {A} n m (x : A) l : n <> m -> nth_error (set_nth n x l) m = nth_error l m.
Proof. revert n m. induction l as [|y l IH]; intros [|n] [|m] D; cbn; auto; try congruence. Qed.
Lemma set_nth_length {A} n (x : A) l : length (set_nth n x l) = length l.
Proof. revert n. induction l as [|y l IH]; intros [|n]; cbn; auto. Qed.
Lemma set_at_same {A} i (x y : A) l : get_at i l = Some y -> get_at i (set_at i x l) = Some x.
Proof. unfold get_at, set_at. intros E. apply set_nth_same, nth_error_Some. congruence. Qed.
Lemma set_at_other {A} i j (x : A) l : i <> j -> get_at j (set_at i x l) = get_at j l.
Proof. unfold get_at, set_at. intros D. apply set_nth_other. lia. Qed.
Lemma get_app {A} i (l : list A) x : get_at i (l ++ [x]) = if i =? len l then Some x else get_at i l.
Proof.
  unfold get_at, len. destruct (N.eqb_spec i (N.of_nat (length l))) as [->|D].
  - rewrite nth_error_app2 by lia. replace (N.to_nat (N.of_nat (length l)) - length l)%nat with 0%nat by lia. reflexivity.
  - destruct (Nat.lt_ge_cases (N.to_nat i) (length l)); [apply nth_error_app1; auto|].
    rewrite (proj2 (nth_error_None _ _)), (proj2 (nth_error_None _ _)); auto. rewrite app_length. cbn. lia.
Qed.
Lemma get_none {A} i (l : list A) : get_at i l = None <-> len l <= i.
Proof. unfold get_at, len. rewrite nth_error_None. lia. Qed.

Section Server.
  Context {U : Type} (H : Host) (C : Crypto) (P : N -> Peer U).

  (** ** One connection *)
  Definition conn_step (p : Peer U) (x : CEv) (t : Task U) : option (res unit (Task U)) :=
    match x, t with
    | CE_Auth, T_New s => sv_auth H C p s
    | CE_Turn e, T_Client u a st => sv_client C p e u a st
    | _, _ => None
    end.
  Fixpoint conn_run (p : Peer U) (l : list CEv) (t : Task U) : option (res unit (Task U)) :=
    match l with
    | [] => Some (Ok t)
    | x :: l => match conn_step p x t with Some (Ok t) => conn_run p l t | y => y end
    end.
  Lemma conn_run_snoc p l x : forall t, conn_run p (l ++ [x]) t = match conn_run p l t with Some (Ok t) => conn_step p x t | y => y end.
  Proof.
    induction l as [|y l IH]; intros t; cbn [conn_run app].
    - destruct (conn_step p x t) as [[t'| |]|]; reflexivity.
    - destruct (conn_step p y t) as [[t'| |]|]; auto.
  Qed.
  Lemma turns_run (p : Peer U) u a es : forall st0 st, session_run C (p_rng p) (p_session p u) es st0 = Some (Ok false, st) ->
    conn_run p (map CE_Turn es) (T_Client u a st0) = Some (Ok (T_Client u a st)).
  Proof.
    induction es as [|e es IH]; intros st0 st E; cbn [session_run map conn_run conn_step] in *.
    - apply Some_inj, pair_eq in E as [_ ->]. reflexivity.
    - unfold sv_client. destruct (session_step C (p_rng p) (p_session p u) e st0) as [[[[|]|e0|] st1]|]; try discriminate E. apply IH, E.
  Qed.
  Lemma auth_first (p : Peer U) s u a : authenticated H C p s u a -> sv_auth H C p s = Some (Ok (T_Client u a (session_init (a_conn a)))).
  Proof. unfold authenticated, sv_auth. intros ->. reflexivity. Qed.
  Lemma run_last (p : Peer U) u es e st0 st r : session_run C (p_rng p) (p_session p u) es st0 = Some (Ok false, st) ->
    session_run C (p_rng p) (p_session p u) (es ++ [e]) st0 = Some r -> session_step C (p_rng p) (p_session p u) e st = Some r.
  Proof.
    rewrite session_run_app. intros ->. cbn [session_run]. destruct (session_step C (p_rng p) (p_session p u) e st) as [[[[|]|e0|] st1]|]; auto.
  Qed.
  Lemma run_last' (p : Peer U) u es e st0 st r : session_run C (p_rng p) (p_session p u) es st0 = Some (Ok false, st) ->
    session_step C (p_rng p) (p_session p u) e st = Some r -> session_run C (p_rng p) (p_session p u) (es ++ [e]) st0 = Some r.
  Proof.
    rewrite session_run_app. intros ->. cbn [session_run]. intros ->. destruct r as [[[|]|e0|] st1]; reflexivity.
  Qed.
  Lemma alone_run (p : Peer U) s l t : alone H C p s l t -> conn_run p l (T_New s) = Some (Ok t).
  Proof.
    intros [ |u a es st A S|out A X|u a es e st0 r st A S0 S X].
    - reflexivity.
    - cbn [conn_run conn_step]. rewrite (auth_first _ _ _ _ A). apply turns_run, S.
    - cbn [conn_run conn_step]. unfold sv_auth. rewrite A. destruct out as [b o|r st]; [subst b; reflexivity|]. destruct X as (e & ->). reflexivity.
    - cbn [conn_run conn_step]. rewrite (auth_first _ _ _ _ A), map_app. cbn [map]. rewrite conn_run_snoc, (turns_run _ _ _ _ _ _ S0).
      cbn [conn_step]. unfold sv_client. rewrite (run_last _ _ _ _ _ _ _ S0 S). destruct r as [b|e0|]; [subst b|..]; auto. destruct X.
  Qed.
  Lemma panics_run (p : Peer U) s l : panics H C p s l -> conn_run p l (T_New s) = Some Panic.
  Proof.
    intros [out A X|u a es e st0 st A S0 S].
    - cbn [conn_run conn_step]. unfold sv_auth. rewrite A. destruct out as [b o|r st]; subst; reflexivity.
    - cbn [conn_run conn_step]. rewrite (auth_first _ _ _ _ A), map_app. cbn [map]. rewrite conn_run_snoc, (turns_run _ _ _ _ _ _ S0).
      cbn [conn_step]. unfold sv_client. rewrite (run_last _ _ _ _ _ _ _ S0 S). reflexivity.
  Qed.
  Lemma alone_next (p : Peer U) s l t x : alone H C p s l t ->
    match conn_step p x t with
    | Some (Ok t') => alone H C p s (l ++ [x]) t'
    | Some Panic => panics H C p s (l ++ [x])
    | Some (Err _) => False
    | None => True
    end.
  Proof.
    intros A. destruct x as [|e], A as [ |u a es st A S|out A X|u a es e0 st0 r st A S0 S X]; cbn [conn_step app]; [|exact I|exact I|exact I|exact I| |exact I|exact I].
    - unfold sv_auth. destruct (authenticate_new_client H (p_host_rng p) C (p_rng p) (p_auth p) s) as [[[|] o|[u|e|] a]|] eqn:E; [| | | | |exact I].
      + eapply P_Auth; [exact E|reflexivity].
      + apply L_Refused; [exact E|reflexivity].
      + apply (L_Client _ _ _ _ u a []); [exact E|reflexivity].
      + apply L_Refused; [exact E|]. exists e. reflexivity.
      + eapply P_Auth; [exact E|reflexivity].
    - unfold sv_client. destruct (session_step C (p_rng p) (p_session p u) e st) as [[r st1]|] eqn:E; [|exact I].
      pose proof (run_last' _ _ _ _ _ _ _ S E) as S'. change [CE_Turn e] with (map CE_Turn [e]). rewrite <- map_app. destruct r as [[|]|e0|].
      + eapply L_Over; [exact A|exact S|exact S'|reflexivity].
      + eapply L_Client; [exact A|exact S'].
      + eapply L_Over; [exact A|exact S|exact S'|exact I].
      + eapply P_Session; [exact A|exact S|exact S'].
  Qed.

  (** ** All *)
  Lemma sv_run_snoc es e : forall ts, sv_run H C P (es ++ [e]) ts = match sv_run H C P es ts with Some (Ok ts) => sv_step H C P e ts | x => x end.
  Proof.
    induction es as [|y es IH]; intros ts; cbn [sv_run app].
    - destruct (sv_step H C P e ts) as [[t'| |]|]; reflexivity.
    - destruct (sv_step H C P y ts) as [[t'| |]|]; auto.
  Qed.
  Definition each (es : list SvEv) (ts : list (Task U)) : Prop :=
    len ts = len (accepted es) /\ (forall i, len ts <= i -> own i es = []) /\
    forall i t, get_at i ts = Some t -> exists s, get_at i (accepted es) = Some s /\ alone H C (P i) s (own i es) t.
  Lemma own_snoc i es e : own i (es ++ [e]) = own i es ++ about i e.
  Proof. unfold own. rewrite flat_map_app. cbn [flat_map]. rewrite app_nil_r. reflexivity. Qed.
  Lemma accepted_snoc es e : accepted (es ++ [e]) = accepted es ++ match e with SV_Accept s => [s] | _ => [] end.
  Proof. unfold accepted. rewrite flat_map_app. cbn [flat_map]. rewrite app_nil_r. reflexivity. Qed.
  Lemma about_target i e : about i e = match target e with Some (j, x) => if j =? i then [x] else [] | None => [] end.
  Proof. destruct e; reflexivity. Qed.
  Lemma sv_step_eq e ts : sv_step H C P e ts =
    match target e with
    | None => match e with SV_Accept s => Some (Ok (ts ++ [T_New s])) | _ => None end
    | Some (i, x) => match get_at i ts with Some t => sv_set i ts (conn_step (P i) x t) | None => None end
    end.
  Proof. destruct e; cbn [target sv_step]; [reflexivity|destruct (get_at i ts) as [[]|]; reflexivity..]. Qed.
  Lemma each_step es ts e : each es ts ->
    match sv_step H C P e ts with
    | Some (Ok ts') => each (es ++ [e]) ts'
    | Some Panic => exists i s, get_at i (accepted es) = Some s /\ panics H C (P i) s (own i (es ++ [e]))
    | Some (Err _) => False
    | None => True
    end.
  Proof.
    intros (L & O & A). rewrite sv_step_eq. destruct (target e) as [[i x]|] eqn:T.
    - assert (NA : match e with SV_Accept s => [s] | _ => [] end = []) by (destruct e; [discriminate T|reflexivity..]).
      destruct (get_at i ts) as [t|] eqn:G; [|exact I]. destruct (A i t G) as (s & Gs & At). pose proof (alone_next _ _ _ _ x At) as N.
      assert (Own : forall j, own j (es ++ [e]) = own j es ++ if i =? j then [x] else []) by (intros j; rewrite own_snoc, about_target, T; reflexivity).
      destruct (conn_step (P i) x t) as [[t'|e0|]|]; cbn [sv_set]; auto.
      + unfold each. rewrite accepted_snoc, NA, app_nil_r. assert (LS : len (set_at i t' ts) = len ts) by (unfold len, set_at; rewrite set_nth_length; reflexivity).
        rewrite LS. split; [exact L|]. split.
        * intros j Lj. rewrite Own, (O j Lj). destruct (N.eqb_spec i j) as [<-|]; [|reflexivity].
          apply get_none in Lj. rewrite G in Lj. discriminate Lj.
        * intros j t0 G0. rewrite Own. destruct (N.eqb_spec i j) as [<-|D].
          -- rewrite (set_at_same _ _ _ _ G) in G0. apply Some_inj in G0. subst t0. exists s. auto.
          -- rewrite set_at_other in G0 by exact D. rewrite app_nil_r. auto.
      + exists i, s. split; [exact Gs|]. rewrite Own, N.eqb_refl. exact N.
    - destruct e as [s|i|i e]; try discriminate T. unfold each. rewrite accepted_snoc.
      assert (Own : forall j, own j (es ++ [SV_Accept s]) = own j es) by (intros j; rewrite own_snoc; apply app_nil_r).
      split; [rewrite !len_app, L; reflexivity|]. split.
      + intros j Lj. rewrite Own. apply O. rewrite len_app in Lj. lia.
      + intros j t G. rewrite Own. rewrite get_app in G. rewrite get_app, <- L. destruct (N.eqb_spec j (len ts)) as [->|D]; [|apply A, G].
        apply Some_inj in G. subst t. exists s. split; [reflexivity|]. rewrite O by lia. constructor.
  Qed.
  Lemma each_run es ts : sv_run H C P es [] = Some (Ok ts) -> each es ts.
  Proof.
    revert ts. induction es as [|e es IH] using rev_ind; intros ts R.
    - cbn in R. apply Some_inj, Ok_inj in R. subst ts. split; [reflexivity|]. split; [reflexivity|]. intros i t G. unfold get_at in G. destruct (N.to_nat i); discriminate G.
    - rewrite sv_run_snoc in R. destruct (sv_run H C P es []) as [[ts0|e0|]|]; try discriminate R.
      pose proof (each_step es ts0 e (IH ts0 eq_refl)) as X. rewrite R in X. exact X.
  Qed.

  Lemma isolated es ts : sv_run H C P es [] = Some (Ok ts) ->
    len ts = len (accepted es) /\ forall i s, get_at i (accepted es) = Some s -> exists t, get_at i ts = Some t /\ alone H C (P i) s (own i es) t.
  Proof.
    intros R. destruct (each_run es ts R) as (L & _ & A). split; [exact L|]. intros i s G. destruct (get_at i ts) as [t|] eqn:Gt.
    - destruct (A i t Gt) as (s' & Gs & At). rewrite G in Gs. apply Some_inj in Gs. subst s'. eauto.
    - apply get_none in Gt. rewrite L in Gt. apply get_none in Gt. congruence.
  Qed.
  Lemma never_errs es e : sv_run H C P es [] <> Some (Err e).
  Proof.
    induction es as [|e0 es IH] using rev_ind; [discriminate|]. rewrite sv_run_snoc. destruct (sv_run H C P es []) as [[ts0|e1|]|] eqn:R; try congruence.
    intros X. pose proof (each_step es ts0 e0 (each_run _ _ R)) as Y. rewrite X in Y. exact Y.
  Qed.
  Lemma dies_of_one es : sv_run H C P es [] = Some Panic ->
    exists es1 e es2 ts i s, es = es1 ++ e :: es2 /\ sv_run H C P es1 [] = Some (Ok ts) /\ get_at i (accepted es1) = Some s /\
      panics H C (P i) s (own i (es1 ++ [e])).
  Proof.
    induction es as [|e0 es IH] using rev_ind; [discriminate|]. rewrite sv_run_snoc. destruct (sv_run H C P es []) as [[ts0|e1|]|] eqn:R; try congruence.
    - intros X. pose proof (each_step es ts0 e0 (each_run _ _ R)) as Y. rewrite X in Y. destruct Y as (i & s & G & Y). exists es, e0, [], ts0, i, s. auto.
    - intros _. destruct (IH eq_refl) as (es1 & e & es2 & ts & i & s & -> & X). exists es1, e, (es2 ++ [e0]), ts, i, s. rewrite <- app_assoc. auto.
  Qed.
  (** What can happen to a connection on its own, can happen in the server. *)
  Lemma goes_on es ts e i x s : sv_run H C P es [] = Some (Ok ts) -> target e = Some (i, x) -> get_at i (accepted es) = Some s ->
    (forall t, alone H C (P i) s (own i es ++ [x]) t -> sv_run H C P (es ++ [e]) [] = Some (Ok (set_at i t ts))) /\
    (panics H C (P i) s (own i es ++ [x]) -> sv_run H C P (es ++ [e]) [] = Some Panic).
  Proof.
    intros R T G. destruct (isolated es ts R) as (L & A). destruct (A i s G) as (t0 & G0 & At). rewrite sv_run_snoc, R, sv_step_eq, T, G0.
    apply alone_run in At. split.
    - intros t X. apply alone_run in X. rewrite conn_run_snoc, At in X. rewrite X. reflexivity.
    - intros X. apply panics_run in X. rewrite conn_run_snoc, At in X. rewrite X. reflexivity.
  Qed.
  Lemma accept_any es ts s : sv_run H C P es [] = Some (Ok ts) -> sv_run H C P (es ++ [SV_Accept s]) [] = Some (Ok (ts ++ [T_New s])).
  Proof. intros R. rewrite sv_run_snoc, R. reflexivity. Qed.
  Lemma one_kills_all es ts : host_ok H -> host_rng_ok (p_host_rng (P (len ts))) -> sv_run H C P es [] = Some (Ok ts) ->
    exists s, sv_run H C P (es ++ [SV_Accept s; SV_Auth (len ts)]) [] = Some Panic.
  Proof.
    intros HO RO R. set (s := as_lines [] ++ toy_ident ++ crlf ++ be32 65533). exists s.
    change [SV_Accept s; SV_Auth (len ts)] with ([SV_Accept s] ++ [SV_Auth (len ts)]). rewrite app_assoc, sv_run_snoc, (accept_any _ _ s R).
    cbn [sv_step]. rewrite get_app, N.eqb_refl.
    assert (X : fst (fst (handle_new_client H (p_host_rng (P (len ts))) s [])) = Panic).
    { apply (panics_exactly H (p_host_rng (P (len ts))) [] toy_ident (be32 65533) HO RO (Forall_nil _) toy_ident_ok). left. vm_compute. repeat split; discriminate. }
    unfold sv_auth, authenticate_new_client. revert X. generalize (handle_new_client H (p_host_rng (P (len ts))) s []). intros [[r s1] o1] X. cbn [fst] in X. subst r. reflexivity.
  Qed.
End Server.

(** ** A whole connection *)
Lemma auth_gives_session {U} H C (p : Peer U) s u a : host_ok H -> host_rng_ok (p_host_rng p) -> crypto_ok C -> rngs_ok (p_rng p) ->
  authenticated H C p s u a -> forall es r st, session_of C p u a es r st -> is_session C (p_rng p) (p_session p u) (a_conn a) es r st.
Proof.
  intros HO RO K RR A es r st S.
  destruct (connection_story H (p_host_rng p) C (p_rng p) (p_auth p) HO RO K RR s) as (out & E & X). unfold authenticated in A. rewrite A in E.
  apply Some_inj in E. subst out. destruct X as (c & s1 & o & Hs & _ & _ & X). destruct X as [(Q & _)|X]; [discriminate Q|].
  destruct X as (pl & pls & rounds & tail & rest & _ & _ & _ & _ & X). destruct X as (_ & _ & X1 & X2 & _).
  split; [exact K|]. split; [exact RR|]. rewrite X1, X2, !later_counter. split; [apply N.mod_lt; discriminate|]. split; [apply N.mod_lt; discriminate|]. exact S.
Qed.
Lemma whole_connection {U} H C (p : Peer U) s u a es r st : host_ok H -> host_rng_ok (p_host_rng p) -> crypto_ok C -> rngs_ok (p_rng p) ->
  authenticated H C p s u a -> session_of C p u a es r st -> connection H C p s u a st.
Proof.
  intros HO RO K RR A S. pose proof (auth_gives_session _ _ _ _ _ _ HO RO K RR A _ _ _ S) as IS.
  destruct (connection_story H (p_host_rng p) C (p_rng p) (p_auth p) HO RO K RR s) as (out & E & X). unfold authenticated in A. rewrite A in E.
  apply Some_inj in E. subst out. destruct X as (c & s1 & o & Hs & An & Wr & X). destruct X as [(Q & _)|X]; [discriminate Q|].
  destruct X as (pl & pls & rounds & tail & rest & Rc & Ws & F & L & X). destruct X as (-> & X0 & X1 & X2 & rds & user & service & auth & -> & NS).
  rewrite app_nil_r in L. destruct (session_outcome_of _ _ _ _ _ _ _ IS) as (ts & tl & pls2 & rest2 & _ & _ & Rc2 & F2 & Wr2 & _).
  destruct (handshake_facts H (p_host_rng p) HO RO _ _ _ _ Hs) as (_ & C1 & C2).
  cbn [conn_of k_rd k_wr k_in k_out] in *. rewrite X0, X1 in Rc2. rewrite X2 in Wr2.
  exists c, s1, o, pl, pls, pls2, rest2, rds, user, service, auth. cbv zeta.
  split; [exact Hs|]. split; [exact C1|]. split; [exact C2|]. split; [exact (received_app _ _ _ _ _ _ _ Rc Rc2)|].
  split; [exact Ws|]. split; [exact F|]. split; [exact F2|]. split; [exact L|]. split; [exact An|]. split; [exact NS|].
  assert (Q : sent (a_log a) = Msg_ServiceAccept (B "ssh-userauth") :: map reply (rds ++ [Attempt user service auth (Some u)])).
  { rewrite L. cbn [sent flat_map app]. f_equal. apply sent_rounds. }
  rewrite Q in Wr, Wr2. rewrite app_comm_cons, map_app. eapply written_app; [exact Wr|]. replace (len (map wire (Msg_ServiceAccept (B "ssh-userauth") :: map reply (rds ++ [Attempt user service auth (Some u)]))))
    with (len (Msg_ServiceAccept (B "ssh-userauth") :: map reply (rds ++ [Attempt user service auth (Some u)]))) by (unfold len; rewrite map_length; reflexivity).
  exact Wr2.
Qed.
Lemma server_connections {U} H C (P : N -> Peer U) es ts : host_ok H -> crypto_ok C -> (forall i, host_rng_ok (p_host_rng (P i)) /\ rngs_ok (p_rng (P i))) ->
  sv_run H C P es [] = Some (Ok ts) -> forall i u a st, get_at i ts = Some (T_Client u a st) \/ get_at i ts = Some (T_Over u a st) ->
  exists s, get_at i (accepted es) = Some s /\ connection H C (P i) s u a st.
Proof.
  intros HO K RR R i u a st G. destruct (RR i) as [RO RR']. destruct (each_run H C P es ts R) as (_ & _ & A).
  destruct G as [G|G]; destruct (A i _ G) as (s & Gs & At); exists s; (split; [exact Gs|]).
  - remember (T_Client u a st) as t eqn:Q. destruct At as [ |u0 a0 es0 st0 Au S|out Au X|u0 a0 es0 e st1 r st0 Au S0 S X]; try discriminate Q.
    injection Q as -> -> ->. eapply whole_connection; eassumption.
  - remember (T_Over u a st) as t eqn:Q. destruct At as [ |u0 a0 es0 st0 Au S|out Au X|u0 a0 es0 e st1 r st0 Au S0 S X]; try discriminate Q.
    injection Q as -> -> ->. eapply whole_connection; eassumption.
Qed.
