(** Breaking and cancellation together: the server. *)
From Coq Require Import Init.Byte Strings.Byte.
From Verif Require Export FaultsThm.
Open Scope res_scope.

Definition f_target (e : FvEv) : option (N * FEv) :=
  match e with FV_Accept _ => None | FV_Auth i => Some (i, FE_Auth) | FV_Client i t => Some (i, FE_Turn t) end.
Lemma f_own_snoc i es e : f_own i (es ++ [e]) = f_own i es ++ f_about i e.
Proof. unfold f_own. rewrite flat_map_app. cbn [flat_map]. rewrite app_nil_r. reflexivity. Qed.
Lemma f_accepted_snoc es e : f_accepted (es ++ [e]) = f_accepted es ++ match e with FV_Accept s => [s] | _ => [] end.
Proof. unfold f_accepted. rewrite flat_map_app. cbn [flat_map]. rewrite app_nil_r. reflexivity. Qed.
Lemma f_about_target i e : f_about i e = match f_target e with Some (j, x) => if j =? i then [x] else [] | None => [] end.
Proof. destruct e; reflexivity. Qed.
Lemma schedule_app a b : schedule (a ++ b) = schedule a ++ schedule b.
Proof. apply flat_map_app. Qed.
Lemma turns_run C rng h ts ts' : forall st, cut_run C rng h (schedule (ts ++ ts')) st =
  match cut_run C rng h (schedule ts) st with Some (Ok false, st1) => cut_run C rng h (schedule ts') st1 | x => x end.
Proof.
  induction ts as [|t ts IH]; intros st; [reflexivity|]. cbn [app]. rewrite turn_run, (turn_run C rng h t ts).
  destruct (cut_run C rng h (schedule [t]) st) as [[[[|]|x|] st1]|]; try reflexivity. apply IH.
Qed.
Lemma cut_last {U} C (p : Peer U) u a ts t st x : cut_session_of C p u a ts (Ok false) st ->
  cut_run C (p_rng p) (p_session p u) (schedule [t]) st = Some x -> cut_session_of C p u a (ts ++ [t]) (fst x) (snd x).
Proof. unfold cut_session_of. intros S T. rewrite turns_run, S, T. destruct x. reflexivity. Qed.

Section Server.
  Context {U : Type} (H : Host) (C : Crypto) (P : N -> Peer U) (L : N -> N).
  Hypothesis (HO : host_ok H) (K : crypto_ok C) (PO : forall i, host_rng_ok (p_host_rng (P i)) /\ rngs_ok (p_rng (P i))).
  Notation sout st := (k_out (s_conn st)).

  (** ** One connection *)
  Definition conn_step_f (lim : N) (p : Peer U) (x : FEv) (t : Task U) : option (res unit (Task U)) :=
    match x, t with
    | FE_Auth, T_New s => sv_auth_b H C lim p s
    | FE_Turn e, T_Client u a st => fv_client C lim p e u a st
    | _, _ => None
    end.
  Lemma attempt_some_f i s : exists out, authenticate_new_client H (p_host_rng (P i)) C (p_rng (P i)) (p_auth (P i)) s = Some out.
  Proof.
    destruct (PO i) as [P1 P2].
    destruct (connection_story H (p_host_rng (P i)) C (p_rng (P i)) (p_auth (P i)) HO P1 K P2 s) as (out & E & _). eauto.
  Qed.
  Lemma endures_next i s l t x : endures H C (P i) (L i) s l t ->
    match conn_step_f (L i) (P i) x t with
    | Some (Ok t') => endures H C (P i) (L i) s (l ++ [x]) t'
    | Some Panic => fails H C (P i) (L i) s (l ++ [x])
    | Some (Err _) => False
    | None => True
    end.
  Proof.
    intros A. destruct x as [|e], A as [ |u a es st A S LS|out A X LO|u a es e0 st0 r st A S0 S X LS|LB|u a es e0 st0 r st st' A S0 LS S B];
      cbn [conn_step_f app]; try exact I.
    - destruct (attempt_some_f i s) as (out & A). unfold sv_auth_b.
      destruct (attempt_breaks (L i) _ _ _ _ _ _ _ A) as [_ [[L1 ->]|[[L1 ->]|(L1 & r & a & a' & -> & -> & B)]]].
      + destruct out as [[|] o|[u|e|] a].
        * eapply X_Auth; [exact A|reflexivity|exact L1].
        * apply F_Refused; [exact A|reflexivity|exact L1].
        * apply (F_Client _ _ _ _ _ u a []); [exact A|reflexivity|exact L1].
        * apply F_Refused; [exact A|eauto|exact L1].
        * eapply X_Auth; [exact A|reflexivity|exact L1].
      + apply F_BrokeHandshake, L1.
      + eapply X_Broke; [exact A|exact L1|apply B].
    - unfold fv_client. pose proof (fault_turn (L i) C (p_rng (P i)) (p_session (P i) u) e st LS) as X.
      destruct (fault_step (L i) C (p_rng (P i)) (p_session (P i) u) e st) as [[rb st']|]; [|exact I].
      destruct X as (r & st1 & T & X). pose proof (cut_last _ _ _ _ _ _ _ _ S T) as S'. change [FE_Turn e] with (map FE_Turn [e]). rewrite <- map_app.
      destruct X as [(L1 & -> & ->)|(-> & B)].
      + destruct r as [[|]|e0|]; cbn [map_err].
        * eapply F_Over; [exact A|exact S|exact S'|reflexivity|exact L1].
        * eapply F_Client; [exact A|exact S'|exact L1].
        * eapply F_Over; [exact A|exact S|exact S'|exact I|exact L1].
        * eapply X_Session; [exact A|exact S|exact S'|exact L1].
      + eapply F_BrokeSession; [exact A|exact S|exact LS|exact S'|exact B].
  Qed.

  (** ** All *)
  Lemma fv_run_snoc es e : forall ts, fv_run H C P L (es ++ [e]) ts = match fv_run H C P L es ts with Some (Ok ts) => fv_step H C P L e ts | x => x end.
  Proof.
    induction es as [|y es IH]; intros ts; cbn [fv_run app].
    - destruct (fv_step H C P L e ts) as [[t'| |]|]; reflexivity.
    - destruct (fv_step H C P L y ts) as [[t'| |]|]; auto.
  Qed.
  Definition each_f (es : list FvEv) (ts : list (Task U)) : Prop :=
    len ts = len (f_accepted es) /\ (forall i, len ts <= i -> f_own i es = []) /\
    forall i t, get_at i ts = Some t -> exists s, get_at i (f_accepted es) = Some s /\ endures H C (P i) (L i) s (f_own i es) t.
  Lemma fv_step_eq e ts : fv_step H C P L e ts =
    match f_target e with
    | None => match e with FV_Accept s => Some (Ok (ts ++ [T_New s])) | _ => None end
    | Some (i, x) => match get_at i ts with Some t => sv_set i ts (conn_step_f (L i) (P i) x t) | None => None end
    end.
  Proof. destruct e; cbn [f_target fv_step]; [reflexivity|destruct (get_at i ts) as [[]|]; reflexivity..]. Qed.
  Lemma each_f_step es ts e : each_f es ts ->
    match fv_step H C P L e ts with
    | Some (Ok ts') => each_f (es ++ [e]) ts'
    | Some Panic => exists i s, get_at i (f_accepted es) = Some s /\ fails H C (P i) (L i) s (f_own i (es ++ [e]))
    | Some (Err _) => False
    | None => True
    end.
  Proof.
    intros (LE & O & A). rewrite fv_step_eq. destruct (f_target e) as [[i x]|] eqn:T.
    - assert (NA : match e with FV_Accept s => [s] | _ => [] end = []) by (destruct e; [discriminate T|reflexivity..]).
      destruct (get_at i ts) as [t|] eqn:G; [|exact I]. destruct (A i t G) as (s & Gs & At). pose proof (endures_next _ _ _ _ x At) as N.
      assert (Own : forall j, f_own j (es ++ [e]) = f_own j es ++ if i =? j then [x] else []) by (intros j; rewrite f_own_snoc, f_about_target, T; reflexivity).
      destruct (conn_step_f (L i) (P i) x t) as [[t'|e0|]|]; cbn [sv_set]; auto.
      + unfold each_f. rewrite f_accepted_snoc, NA, app_nil_r. assert (LS : len (set_at i t' ts) = len ts) by (unfold len, set_at; rewrite set_nth_length; reflexivity).
        rewrite LS. split; [exact LE|]. split.
        * intros j Lj. rewrite Own, (O j Lj). destruct (N.eqb_spec i j) as [<-|]; [|reflexivity].
          apply get_none in Lj. rewrite G in Lj. discriminate Lj.
        * intros j t0 G0. rewrite Own. destruct (N.eqb_spec i j) as [<-|D].
          -- rewrite (set_at_same _ _ _ _ G) in G0. apply Some_inj in G0. subst t0. exists s. auto.
          -- rewrite set_at_other in G0 by exact D. rewrite app_nil_r. auto.
      + exists i, s. split; [exact Gs|]. rewrite Own, N.eqb_refl. exact N.
    - destruct e as [s|i|i e]; try discriminate T. unfold each_f. rewrite f_accepted_snoc.
      assert (Own : forall j, f_own j (es ++ [FV_Accept s]) = f_own j es) by (intros j; rewrite f_own_snoc; apply app_nil_r).
      split; [rewrite !len_app, LE; reflexivity|]. split.
      + intros j Lj. rewrite Own. apply O. rewrite len_app in Lj. lia.
      + intros j t G. rewrite Own. rewrite get_app in G. rewrite get_app, <- LE. destruct (N.eqb_spec j (len ts)) as [->|D]; [|apply A, G].
        apply Some_inj in G. subst t. exists s. split; [reflexivity|]. rewrite O by lia. constructor.
  Qed.
  Lemma each_f_run es ts : fv_run H C P L es [] = Some (Ok ts) -> each_f es ts.
  Proof.
    revert ts. induction es as [|e es IH] using rev_ind; intros ts R.
    - cbn in R. apply Some_inj, Ok_inj in R. subst ts. split; [reflexivity|]. split; [reflexivity|]. intros i t G. unfold get_at in G. destruct (N.to_nat i); discriminate G.
    - rewrite fv_run_snoc in R. destruct (fv_run H C P L es []) as [[ts0|e0|]|]; try discriminate R.
      pose proof (each_f_step es ts0 e (IH ts0 eq_refl)) as X. rewrite R in X. exact X.
  Qed.
  Lemma isolated_f es ts : fv_run H C P L es [] = Some (Ok ts) ->
    len ts = len (f_accepted es) /\ forall i s, get_at i (f_accepted es) = Some s -> exists t, get_at i ts = Some t /\ endures H C (P i) (L i) s (f_own i es) t.
  Proof.
    intros R. destruct (each_f_run es ts R) as (LE & _ & A). split; [exact LE|]. intros i s G. destruct (get_at i ts) as [t|] eqn:Gt.
    - destruct (A i t Gt) as (s' & Gs & At). rewrite G in Gs. apply Some_inj in Gs. subst s'. eauto.
    - apply get_none in Gt. rewrite LE in Gt. apply get_none in Gt. congruence.
  Qed.
  Lemma never_errs_f es e : fv_run H C P L es [] <> Some (Err e).
  Proof.
    induction es as [|e0 es IH] using rev_ind; [discriminate|]. rewrite fv_run_snoc. destruct (fv_run H C P L es []) as [[ts0|e1|]|] eqn:R; try congruence.
    intros X. pose proof (each_f_step es ts0 e0 (each_f_run _ _ R)) as Y. rewrite X in Y. exact Y.
  Qed.
  Lemma dies_of_one_f es : fv_run H C P L es [] = Some Panic ->
    exists es1 e es2 ts i s, es = es1 ++ e :: es2 /\ fv_run H C P L es1 [] = Some (Ok ts) /\ get_at i (f_accepted es1) = Some s /\
      fails H C (P i) (L i) s (f_own i (es1 ++ [e])).
  Proof.
    induction es as [|e0 es IH] using rev_ind; [discriminate|]. rewrite fv_run_snoc. destruct (fv_run H C P L es []) as [[ts0|e1|]|] eqn:R; try congruence.
    - intros X. pose proof (each_f_step es ts0 e0 (each_f_run _ _ R)) as Y. rewrite X in Y. destruct Y as (i & s & G & Y). exists es, e0, [], ts0, i, s. auto.
    - intros _. destruct (IH eq_refl) as (es1 & e & es2 & ts & i & s & -> & X). exists es1, e, (es2 ++ [e0]), ts, i, s. rewrite <- app_assoc. auto.
  Qed.
End Server.
