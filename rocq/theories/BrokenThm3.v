(** A transport that breaks: the server. *)
From Coq Require Import Init.Byte Strings.Byte.
From Verif Require Export BrokenThm2 SshdThm.
Open Scope res_scope.

Section Server.
  Context {U : Type} (H : Host) (C : Crypto) (P : N -> Peer U) (L : N -> N).
  Hypothesis (HO : host_ok H) (K : crypto_ok C) (PO : forall i, host_rng_ok (p_host_rng (P i)) /\ rngs_ok (p_rng (P i))).
  Notation sout st := (k_out (s_conn st)).

  (** ** One connection *)
  Definition conn_step_b (lim : N) (p : Peer U) (x : CEv) (t : Task U) : option (res unit (Task U)) :=
    match x, t with
    | CE_Auth, T_New s => sv_auth_b H C lim p s
    | CE_Turn e, T_Client u a st => sv_client_b C lim p e u a st
    | _, _ => None
    end.
  Lemma attempt_some i s : exists out, authenticate_new_client H (p_host_rng (P i)) C (p_rng (P i)) (p_auth (P i)) s = Some out.
  Proof.
    destruct (PO i) as [P1 P2].
    destruct (connection_story H (p_host_rng (P i)) C (p_rng (P i)) (p_auth (P i)) HO P1 K P2 s) as (out & E & _). eauto.
  Qed.
  Lemma lives_next i s l t x : lives H C (P i) (L i) s l t ->
    match conn_step_b (L i) (P i) x t with
    | Some (Ok t') => lives H C (P i) (L i) s (l ++ [x]) t'
    | Some Panic => dies H C (P i) (L i) s (l ++ [x])
    | Some (Err _) => False
    | None => True
    end.
  Proof.
    intros A. destruct x as [|e], A as [ |u a es st A S LS|out A X LO|u a es e0 st0 r st A S0 S X LS|LB|u a es e0 st0 r st st' A S0 LS S B];
      cbn [conn_step_b app]; try exact I.
    - destruct (attempt_some i s) as (out & A). unfold sv_auth_b.
      destruct (attempt_breaks (L i) _ _ _ _ _ _ _ A) as [_ [[L1 ->]|[[L1 ->]|(L1 & r & a & a' & -> & -> & B)]]].
      + destruct out as [[|] o|[u|e|] a].
        * eapply D_Auth; [exact A|reflexivity|exact L1].
        * apply V_Refused; [exact A|reflexivity|exact L1].
        * apply (V_Client _ _ _ _ _ u a []); [exact A|reflexivity|exact L1].
        * apply V_Refused; [exact A|eauto|exact L1].
        * eapply D_Auth; [exact A|reflexivity|exact L1].
      + apply V_BrokeHandshake, L1.
      + eapply D_Broke; [exact A|exact L1|apply B].
    - unfold sv_client_b. pose proof (step_breaks (L i) C (p_rng (P i)) (p_session (P i) u) e st) as X.
      destruct (session_step C (p_rng (P i)) (p_session (P i) u) e st) as [[r st1]|] eqn:E; [|rewrite X; exact I].
      destruct X as [_ X]. pose proof (run_last' C (P i) _ _ _ _ _ _ S E) as S'. change [CE_Turn e] with (map CE_Turn [e]). rewrite <- map_app.
      destruct (X LS) as [[L1 ->]|(st2 & -> & B)].
      + destruct r as [[|]|e0|]; cbn [map_err].
        * eapply V_Over; [exact A|exact S|exact S'|reflexivity|exact L1].
        * eapply V_Client; [exact A|exact S'|exact L1].
        * eapply V_Over; [exact A|exact S|exact S'|exact I|exact L1].
        * eapply D_Session; [exact A|exact S|exact S'|exact L1].
      + eapply V_BrokeSession; [exact A|exact S|exact LS|exact S'|exact B].
  Qed.

  (** ** All *)
  Lemma sv_run_b_snoc es e : forall ts, sv_run_b H C P L (es ++ [e]) ts = match sv_run_b H C P L es ts with Some (Ok ts) => sv_step_b H C P L e ts | x => x end.
  Proof.
    induction es as [|y es IH]; intros ts; cbn [sv_run_b app].
    - destruct (sv_step_b H C P L e ts) as [[t'| |]|]; reflexivity.
    - destruct (sv_step_b H C P L y ts) as [[t'| |]|]; auto.
  Qed.
  Definition each_b (es : list SvEv) (ts : list (Task U)) : Prop :=
    len ts = len (accepted es) /\ (forall i, len ts <= i -> own i es = []) /\
    forall i t, get_at i ts = Some t -> exists s, get_at i (accepted es) = Some s /\ lives H C (P i) (L i) s (own i es) t.
  Lemma sv_step_b_eq e ts : sv_step_b H C P L e ts =
    match target e with
    | None => match e with SV_Accept s => Some (Ok (ts ++ [T_New s])) | _ => None end
    | Some (i, x) => match get_at i ts with Some t => sv_set i ts (conn_step_b (L i) (P i) x t) | None => None end
    end.
  Proof. destruct e; cbn [target sv_step_b]; [reflexivity|destruct (get_at i ts) as [[]|]; reflexivity..]. Qed.
  Lemma each_b_step es ts e : each_b es ts ->
    match sv_step_b H C P L e ts with
    | Some (Ok ts') => each_b (es ++ [e]) ts'
    | Some Panic => exists i s, get_at i (accepted es) = Some s /\ dies H C (P i) (L i) s (own i (es ++ [e]))
    | Some (Err _) => False
    | None => True
    end.
  Proof.
    intros (LE & O & A). rewrite sv_step_b_eq. destruct (target e) as [[i x]|] eqn:T.
    - assert (NA : match e with SV_Accept s => [s] | _ => [] end = []) by (destruct e; [discriminate T|reflexivity..]).
      destruct (get_at i ts) as [t|] eqn:G; [|exact I]. destruct (A i t G) as (s & Gs & At). pose proof (lives_next _ _ _ _ x At) as N.
      assert (Own : forall j, own j (es ++ [e]) = own j es ++ if i =? j then [x] else []) by (intros j; rewrite own_snoc, about_target, T; reflexivity).
      destruct (conn_step_b (L i) (P i) x t) as [[t'|e0|]|]; cbn [sv_set]; auto.
      + unfold each_b. rewrite accepted_snoc, NA, app_nil_r. assert (LS : len (set_at i t' ts) = len ts) by (unfold len, set_at; rewrite set_nth_length; reflexivity).
        rewrite LS. split; [exact LE|]. split.
        * intros j Lj. rewrite Own, (O j Lj). destruct (N.eqb_spec i j) as [<-|]; [|reflexivity].
          apply get_none in Lj. rewrite G in Lj. discriminate Lj.
        * intros j t0 G0. rewrite Own. destruct (N.eqb_spec i j) as [<-|D].
          -- rewrite (set_at_same _ _ _ _ G) in G0. apply Some_inj in G0. subst t0. exists s. auto.
          -- rewrite set_at_other in G0 by exact D. rewrite app_nil_r. auto.
      + exists i, s. split; [exact Gs|]. rewrite Own, N.eqb_refl. exact N.
    - destruct e as [s|i|i e]; try discriminate T. unfold each_b. rewrite accepted_snoc.
      assert (Own : forall j, own j (es ++ [SV_Accept s]) = own j es) by (intros j; rewrite own_snoc; apply app_nil_r).
      split; [rewrite !len_app, LE; reflexivity|]. split.
      + intros j Lj. rewrite Own. apply O. rewrite len_app in Lj. lia.
      + intros j t G. rewrite Own. rewrite get_app in G. rewrite get_app, <- LE. destruct (N.eqb_spec j (len ts)) as [->|D]; [|apply A, G].
        apply Some_inj in G. subst t. exists s. split; [reflexivity|]. rewrite O by lia. constructor.
  Qed.
  Lemma each_b_run es ts : sv_run_b H C P L es [] = Some (Ok ts) -> each_b es ts.
  Proof.
    revert ts. induction es as [|e es IH] using rev_ind; intros ts R.
    - cbn in R. apply Some_inj, Ok_inj in R. subst ts. split; [reflexivity|]. split; [reflexivity|]. intros i t G. unfold get_at in G. destruct (N.to_nat i); discriminate G.
    - rewrite sv_run_b_snoc in R. destruct (sv_run_b H C P L es []) as [[ts0|e0|]|]; try discriminate R.
      pose proof (each_b_step es ts0 e (IH ts0 eq_refl)) as X. rewrite R in X. exact X.
  Qed.
  Lemma isolated_b es ts : sv_run_b H C P L es [] = Some (Ok ts) ->
    len ts = len (accepted es) /\ forall i s, get_at i (accepted es) = Some s -> exists t, get_at i ts = Some t /\ lives H C (P i) (L i) s (own i es) t.
  Proof.
    intros R. destruct (each_b_run es ts R) as (LE & _ & A). split; [exact LE|]. intros i s G. destruct (get_at i ts) as [t|] eqn:Gt.
    - destruct (A i t Gt) as (s' & Gs & At). rewrite G in Gs. apply Some_inj in Gs. subst s'. eauto.
    - apply get_none in Gt. rewrite LE in Gt. apply get_none in Gt. congruence.
  Qed.
  Lemma never_errs_b es e : sv_run_b H C P L es [] <> Some (Err e).
  Proof.
    induction es as [|e0 es IH] using rev_ind; [discriminate|]. rewrite sv_run_b_snoc. destruct (sv_run_b H C P L es []) as [[ts0|e1|]|] eqn:R; try congruence.
    intros X. pose proof (each_b_step es ts0 e0 (each_b_run _ _ R)) as Y. rewrite X in Y. exact Y.
  Qed.
  Lemma dies_of_one_b es : sv_run_b H C P L es [] = Some Panic ->
    exists es1 e es2 ts i s, es = es1 ++ e :: es2 /\ sv_run_b H C P L es1 [] = Some (Ok ts) /\ get_at i (accepted es1) = Some s /\
      dies H C (P i) (L i) s (own i (es1 ++ [e])).
  Proof.
    induction es as [|e0 es IH] using rev_ind; [discriminate|]. rewrite sv_run_b_snoc. destruct (sv_run_b H C P L es []) as [[ts0|e1|]|] eqn:R; try congruence.
    - intros X. pose proof (each_b_step es ts0 e0 (each_b_run _ _ R)) as Y. rewrite X in Y. destruct Y as (i & s & G & Y). exists es, e0, [], ts0, i, s. auto.
    - intros _. destruct (IH eq_refl) as (es1 & e & es2 & ts & i & s & -> & X). exists es1, e, (es2 ++ [e0]), ts, i, s. rewrite <- app_assoc. auto.
  Qed.
  (** ** Breaking in the authentication *)
  Lemma attempt_b es ts s : sv_run_b H C P L es [] = Some (Ok ts) ->
    sv_run_b H C P L (es ++ [SV_Accept s; SV_Auth (len ts)]) [] = sv_set (len ts) (ts ++ [T_New s]) (sv_auth_b H C (L (len ts)) (P (len ts)) s).
  Proof.
    intros R. change [SV_Accept s; SV_Auth (len ts)] with ([SV_Accept s] ++ [SV_Auth (len ts)]). rewrite app_assoc, !sv_run_b_snoc, R.
    cbn [sv_step_b]. rewrite get_app, N.eqb_refl. reflexivity.
  Qed.
  Lemma broken_kills_all es ts s r a : sv_run_b H C P L es [] = Some (Ok ts) ->
    let p := P (len ts) in
    authenticate_new_client H (p_host_rng p) C (p_rng p) (p_auth p) s = Some (AO_Auth r a) ->
    len (shaken H (p_host_rng p) s) <= L (len ts) -> L (len ts) < len (k_out (a_conn a)) ->
    sv_run_b H C P L (es ++ [SV_Accept s; SV_Auth (len ts)]) [] = Some Panic.
  Proof.
    intros R p A L1 L2. rewrite (attempt_b _ _ _ R). unfold sv_auth_b. fold p.
    destruct (attempt_breaks (L (len ts)) _ _ _ _ _ _ _ A) as [_ [[X _]|[[X _]|(_ & r' & a0 & a' & _ & -> & _)]]].
    - cbn [SpecBroken.written] in X. lia.
    - lia.
    - reflexivity.
  Qed.
End Server.

(** A client that asks for the service and leaves. *)
Section Leaves.
  Context {U : Type} (H : Host) (R : HostRng) (C : Crypto) (rng : N -> N -> bytes) (h : AHandlers U).
  Hypothesis (HO : host_ok H) (RO : host_rng_ok R) (K : crypto_ok C) (RR : rngs_ok rng).
  Lemma leaver : exists s a, authenticate_new_client H R C rng h s = Some (AO_Auth (Err tt) a) /\ len (shaken H R s) < len (k_out (a_conn a)).
  Proof.
    destruct (anyone_connects H R HO RO) as (c & o & E). set (m1 := Msg_ServiceRequest (B "ssh-userauth")).
    destruct (toy_raw_ok (wire m1)) as [P1 Q1]; [vm_compute; discriminate|].
    set (s1 := seal_with C (receive_cipher c) (toy_raw (wire m1)) ++ []).
    exists (hello ++ s1). destruct (handshake_facts H R HO RO _ _ _ _ (E s1)) as (LS & C1 & C2).
    unfold authenticate_new_client, shaken. rewrite E. cbn [snd]. set (k := conn_of c s1 o).
    assert (V : ainv (auth_init (U := U) k)).
    { unfold ainv, auth_init. cbn [a_buf a_mini a_message a_conn k_rd k_wr]. rewrite !len_zeros. unfold k. cbn [conn_of k_rd k_wr]. rewrite C1, C2. repeat split. }
    unfold auth_phase. pose proof (auth_service_cases C rng h K RR _ V) as A.
    destruct (auth_service C rng (auth_init k)) as [r st]. destruct r as [[]|[]|]; [|contradiction|].
    2:{ exfalso. destruct A as [A _]. apply (A (wire m1)); [|apply parse_wire; vm_compute; reflexivity].
        eexists. exists (toy_raw (wire m1)), []. split; [exact P1|]. split; [reflexivity|vm_compute; discriminate]. }
    destruct A as (pl & W & V1 & _ & S1).
    assert (IN : k_in (a_conn st) = []).
    { destruct S1 as (_ & _ & _ & A4 & _). eapply received_unique; [exact K| |exact P1| |exact A4]; [cbn [auth_init a_conn k conn_of k_rd]; rewrite C1; reflexivity|reflexivity]. }
    assert (OUT : len o < len (k_out (a_conn st))).
    { destruct S1 as (_ & _ & _ & _ & (ws & X & Y) & _). cbn [auth_init a_conn] in X. rewrite X. unfold k. cbn [conn_of k_out]. lens.
      cbn [sent flat_map app map auth_init a_conn] in Y. destruct Y as (Y1 & Y2). destruct ws as [|w ws]; [discriminate Y1|].
      cbn [concat]. lens.
      enough (0 < len w) by lia.
      destruct (Y2 0%nat (wire (Msg_ServiceAccept (B "ssh-userauth"))) w) as (pad & raw & PK & ->); try reflexivity.
      match goal with |- context [seal C ?kl ?kd ?n raw] => change (seal C kl kd n raw) with (seal_with C {| key_length := kl; key_data := kd; counter := n |} raw) end.
      rewrite seal_len; [lia|exact K|]. destruct PK as (PK & _). rewrite PK. lens. rewrite be32_len. lia. }
    destruct (a_recv_cases C h K st V1) as [(pl' & st1 & _ & _ & _ & NP)|(e & st1 & X & LG & LO & _)].
    - exfalso. rewrite IN in NP. destruct NP as (pad & raw & rest & PK & X & _). symmetry in X. apply app_eq_nil in X as [X _]. apply (f_equal (@len byte)) in X.
      rewrite seal_len in X; [|exact K|]; [rewrite len_nil in X; lia|]. destruct PK as (PK & _). rewrite PK. lens. rewrite be32_len. lia.
    - assert (AR : auth_round C rng h (session_identifier c) st = (Err tt, st1)).
      { unfold auth_round, abind at 1, a_try. rewrite X. reflexivity. }
      exists st1. rewrite LO. split; [|exact OUT].
      cbn [auth_loop]. rewrite AR. reflexivity.
  Qed.
End Leaves.

(** ** Every server *)
Section Every.
  Context {U : Type} (H : Host) (C : Crypto) (P : N -> Peer U).
  Lemma set_last {A} (x y : A) l : set_at (len l) y (l ++ [x]) = l ++ [y].
  Proof.
    unfold set_at, len. rewrite Nat2N.id. induction l as [|z l IH]; [reflexivity|]. cbn [app length set_nth]. f_equal. exact IH.
  Qed.
  Lemma get_some {A} i (l : list A) x : get_at i l = Some x -> i < len l.
  Proof. intros G. destruct (N.lt_ge_cases i (len l)) as [Hlt|Hge]; [exact Hlt|]. apply get_none in Hge. rewrite G in Hge. discriminate Hge. Qed.
  Lemma step_same_limits L L' e ts : (forall i, i < len ts -> L' i = L i) -> sv_step_b H C P L' e ts = sv_step_b H C P L e ts.
  Proof.
    intros S. rewrite !sv_step_b_eq. destruct (target e) as [[i x]|]; [|reflexivity].
    destruct (get_at i ts) as [t|] eqn:G; [|reflexivity]. rewrite (S i); [reflexivity|]. eapply get_some, G.
  Qed.
  Lemma step_longer L e ts ts' : sv_step_b H C P L e ts = Some (Ok ts') -> len ts <= len ts'.
  Proof.
    rewrite sv_step_b_eq. destruct (target e) as [[i x]|].
    - destruct (get_at i ts) as [t|]; [|discriminate]. destruct (conn_step_b H C (L i) (P i) x t) as [[t'|e0|]|]; cbn [sv_set]; try discriminate.
      intros X. apply Some_inj, Ok_inj in X. subst ts'. unfold len, set_at. rewrite set_nth_length. lia.
    - destruct e; try discriminate. intros X. apply Some_inj, Ok_inj in X. subst ts'. lens. lia.
  Qed.
  Lemma same_limits L L' es : forall ts, sv_run_b H C P L es [] = Some (Ok ts) -> (forall i, i < len ts -> L' i = L i) ->
    sv_run_b H C P L' es [] = Some (Ok ts).
  Proof.
    induction es as [|e es IH] using rev_ind; intros ts R S; [exact R|].
    rewrite sv_run_b_snoc in R. rewrite sv_run_b_snoc. destruct (sv_run_b H C P L es []) as [[ts0|e0|]|]; try discriminate R.
    pose proof (step_longer _ _ _ _ R) as LE. rewrite (IH ts0 eq_refl) by (intros; apply S; lia).
    rewrite (step_same_limits L L'); [exact R|]. intros; apply S; lia.
  Qed.
  Hypothesis (HO : host_ok H) (K : crypto_ok C) (PO : forall i, host_rng_ok (p_host_rng (P i)) /\ rngs_ok (p_rng (P i))).
  Lemma any_server_dies L es ts : sv_run_b H C P L es [] = Some (Ok ts) ->
    exists s n big t, n < big /\ forall L', (forall i, i < len ts -> L' i = L i) ->
      (L' (len ts) = n -> sv_run_b H C P L' (es ++ [SV_Accept s; SV_Auth (len ts)]) [] = Some Panic) /\
      (big <= L' (len ts) -> sv_run_b H C P L' (es ++ [SV_Accept s; SV_Auth (len ts)]) [] = Some (Ok (ts ++ [t]))).
  Proof.
    intros R. destruct (PO (len ts)) as [P1 P2]. set (p := P (len ts)) in *.
    destruct (leaver H (p_host_rng p) C (p_rng p) (p_auth p) HO P1 K P2) as (s & a & A & LT).
    exists s, (len (shaken H (p_host_rng p) s)), (len (k_out (a_conn a))), (T_Refused (AO_Auth (Err tt) a)). split; [exact LT|].
    intros L' S. pose proof (same_limits L L' es ts R S) as R'. split; intros E.
    - apply (broken_kills_all H C P L' es ts s _ _ R' A); fold p; lia.
    - rewrite (attempt_b _ _ _ _ _ _ _ R'). unfold sv_auth_b. fold p.
      destruct (attempt_breaks (L' (len ts)) _ _ _ _ _ _ _ A) as [W [[_ ->]|[[X _]|(_ & r & a0 & a' & Q & _ & X & _)]]].
      + cbn [sv_set]. rewrite set_last. reflexivity.
      + cbn [SpecBroken.written] in *. lia.
      + assert (a = a0) as <- by congruence. lia.
  Qed.
End Every.

(** ** What is known of connections *)
Lemma connections_b {U} H C (P : N -> Peer U) L es ts : host_ok H -> crypto_ok C -> (forall i, host_rng_ok (p_host_rng (P i)) /\ rngs_ok (p_rng (P i))) ->
  sv_run_b H C P L es [] = Some (Ok ts) -> forall i u a st, get_at i ts = Some (T_Client u a st) \/ get_at i ts = Some (T_Over u a st) ->
  exists s st1, get_at i (accepted es) = Some s /\ connection H C (P i) s u a st1 /\
    ((len (k_out (s_conn st1)) <= L i /\ st = st1) \/ s_broke (L i) st1 st).
Proof.
  intros HO K PO R i u a st G. destruct (PO i) as [RO RR]. destruct (each_b_run H C P L HO K PO es ts R) as (_ & _ & A).
  destruct G as [G|G]; destruct (A i _ G) as (s & Gs & At); exists s.
  - remember (T_Client u a st) as t eqn:Q.
    destruct At as [ |u0 a0 es0 st0 Au S LS|out Au X LO|u0 a0 es0 e0 st0 r st1 Au S0 S X LS|LB|u0 a0 es0 e0 st0 r st1 st' Au S0 LS S B]; try discriminate Q.
    injection Q as -> -> ->. exists st. split; [exact Gs|]. split; [eapply whole_connection; eassumption|]. auto.
  - remember (T_Over u a st) as t eqn:Q.
    destruct At as [ |u0 a0 es0 st0 Au S LS|out Au X LO|u0 a0 es0 e0 st0 r st1 Au S0 S X LS|LB|u0 a0 es0 e0 st0 r st1 st' Au S0 LS S B]; try discriminate Q;
      injection Q as -> -> ->.
    + exists st. split; [exact Gs|]. split; [eapply whole_connection; eassumption|]. auto.
    + exists st1. split; [exact Gs|]. split; [eapply whole_connection; eassumption|]. auto.
Qed.
Lemma never_panics_more {lim C rng h es st st'} : session_run_b lim C rng h es st = Some (Panic, st') -> len (k_out (s_conn st)) <= lim ->
  session_run C rng h es st = Some (Panic, st').
Proof.
  intros E L. destruct (broken_run lim C rng h es st _ _ E L) as (es1 & es2 & r & st1 & -> & R & [(-> & _ & Q & ->)|(Q & _)]); [|discriminate Q].
  rewrite app_nil_r. destruct r; [discriminate Q|discriminate Q|]. exact R.
Qed.
