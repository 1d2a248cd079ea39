(** The server await by await: connections are by themselves; it does what that
    of [Faults] does, and all of it. *)
From Coq Require Import Init.Byte Strings.Byte.
From Verif Require Export LoginThm4.
Open Scope res_scope.

Section Server.
  Context {U : Type} (H : Host) (C : Crypto) (P : N -> Peer U) (L : N -> N).
  Notation lv_run := (lv_run H C P L).
  Notation lv_step := (lv_step H C P L).
  Notation fv_run := (fv_run H C P L).
  Notation fv_step := (fv_step H C P L).

  Lemma lv_run_app es es' : forall ls, lv_run (es ++ es') ls = match lv_run es ls with Some (Ok ls) => lv_run es' ls | x => x end.
  Proof.
    induction es as [|y es IH]; intros ls; cbn [Login.lv_run app]; [reflexivity|]. destruct (lv_step y ls) as [[t'| |]|]; auto.
  Qed.
  Lemma lv_run_snoc es e ls : lv_run (es ++ [e]) ls = match lv_run es ls with Some (Ok ls) => lv_step e ls | x => x end.
  Proof. rewrite lv_run_app. destruct (lv_run es ls) as [[l1| |]|]; try reflexivity. cbn [Login.lv_run]. destruct (lv_step e l1) as [[t'| |]|]; reflexivity. Qed.
  Lemma lv_step_eq e ls : lv_step e ls =
    match l_target e with
    | None => match e with LV_Accept s => Some (Ok (ls ++ [lane_new H C (P (len ls)) s])) | _ => None end
    | Some (i, x) => match get_at i ls with Some l => lane_set i ls (lane_step C (P i) (L i) x l) | None => None end
    end.
  Proof. destruct e; cbn [l_target Login.lv_step]; [lazymatch goal with |- ?x = ?x => reflexivity end|destruct (get_at i ls) as [[]|]; reflexivity..]. Qed.
  Lemma lane_new_eq (p : Peer U) s : lane_new H C p s = Ln_Login (login_begins H C p s).
  Proof. reflexivity. Qed.

  (** ** Each by itself *)
  Definition each_l (es : list LvEv) (ls : list (Lane U)) : Prop :=
    len ls = len (l_accepted es) /\ (forall i, len ls <= i -> l_own i es = []) /\
    forall i l, get_at i ls = Some l -> exists s, get_at i (l_accepted es) = Some s /\ by_itself H C (P i) (L i) s (l_own i es) l.
  Lemma each_l_step es ls e : each_l es ls ->
    match lv_step e ls with
    | Some (Ok ls') => each_l (es ++ [e]) ls'
    | Some Panic => exists i s, get_at i (l_accepted es) = Some s /\ dies_itself H C (P i) (L i) s (l_own i (es ++ [e]))
    | Some (Err _) => False
    | None => True
    end.
  Proof.
    intros (LE & O & A). rewrite lv_step_eq. destruct (l_target e) as [[i x]|] eqn:T.
    - assert (NA : match e with LV_Accept s => [s] | _ => [] end = []) by (destruct e; [discriminate T|reflexivity..]).
      destruct (get_at i ls) as [l|] eqn:G; [|exact I]. destruct (A i l G) as (s & Gs & At). pose proof (itself_next H C (P i) (L i) s _ _ x At) as N.
      assert (Own : forall j, l_own j (es ++ [e]) = l_own j es ++ if i =? j then [x] else []) by (intros j; rewrite l_own_snoc, l_about_target, T; reflexivity).
      destruct (lane_step C (P i) (L i) x l) as [[l'|e0|]|]; cbn [lane_set]; auto.
      + unfold each_l. rewrite l_accepted_snoc, NA, app_nil_r, set_at_len. split; [exact LE|]. split.
        * intros j Lj. rewrite Own, (O j Lj). destruct (N.eqb_spec i j) as [Y|]; [|reflexivity]. subst j.
          apply get_none in Lj. rewrite G in Lj. discriminate Lj.
        * intros j t0 G0. rewrite Own. destruct (N.eqb_spec i j) as [Y|D].
          -- subst j. rewrite (set_at_same _ _ _ _ G) in G0. apply Some_inj in G0. subst t0. exists s. auto.
          -- rewrite set_at_other in G0 by exact D. rewrite app_nil_r. auto.
      + exists i, s. split; [exact Gs|]. rewrite Own, N.eqb_refl. exact N.
    - destruct e as [s|i e|i e]; try discriminate T. unfold each_l. rewrite l_accepted_snoc.
      assert (Own : forall j, l_own j (es ++ [LV_Accept s]) = l_own j es) by (intros j; rewrite l_own_snoc; apply app_nil_r).
      split; [rewrite !len_app, LE; reflexivity|]. split.
      + intros j Lj. rewrite Own. apply O. rewrite len_app in Lj. lia.
      + intros j t G. rewrite Own. rewrite get_app in G. rewrite get_app, <- LE. destruct (N.eqb_spec j (len ls)) as [Y|D]; [|apply A, G]. subst j.
        apply Some_inj in G. subst t. exists s. split; [reflexivity|]. rewrite O by lia. rewrite lane_new_eq.
        exact (I_Login H C (P (len ls)) (L (len ls)) s [] (login_begins H C (P (len ls)) s) eq_refl (begins_under_way H C (P (len ls)) s)).
  Qed.
  Lemma each_l_run es ls : lv_run es [] = Some (Ok ls) -> each_l es ls.
  Proof.
    revert ls. induction es as [|e es IH] using rev_ind; intros ls R.
    - cbn in R. apply Some_inj, Ok_inj in R. subst ls. split; [reflexivity|]. split; [reflexivity|]. intros i t G. unfold get_at in G. destruct (N.to_nat i); discriminate G.
    - rewrite lv_run_snoc in R. destruct (lv_run es []) as [[ls0|e0|]|]; try discriminate R.
      pose proof (each_l_step es ls0 e (IH ls0 eq_refl)) as X. rewrite R in X. exact X.
  Qed.
  Lemma isolated_l es ls : lv_run es [] = Some (Ok ls) ->
    len ls = len (l_accepted es) /\ forall i s, get_at i (l_accepted es) = Some s -> exists l, get_at i ls = Some l /\ by_itself H C (P i) (L i) s (l_own i es) l.
  Proof.
    intros R. destruct (each_l_run es ls R) as (LE & _ & A). split; [exact LE|]. intros i s G. destruct (get_at i ls) as [t|] eqn:Gt.
    - destruct (A i t Gt) as (s' & Gs & At). rewrite G in Gs. apply Some_inj in Gs. subst s'. eauto.
    - apply get_none in Gt. rewrite LE in Gt. apply get_none in Gt. congruence.
  Qed.
  Lemma never_errs_l es e : lv_run es [] <> Some (Err e).
  Proof.
    induction es as [|e0 es IH] using rev_ind; [discriminate|]. rewrite lv_run_snoc. destruct (lv_run es []) as [[ts0|e1|]|] eqn:R; try congruence.
    intros X. pose proof (each_l_step es ts0 e0 (each_l_run _ _ R)) as Y. rewrite X in Y. exact Y.
  Qed.
  Lemma panics_at es : lv_run es [] = Some Panic -> exists es1 e es2 ls, es = es1 ++ e :: es2 /\ lv_run es1 [] = Some (Ok ls) /\ lv_step e ls = Some Panic.
  Proof.
    induction es as [|e0 es IH] using rev_ind; [discriminate|]. rewrite lv_run_snoc. destruct (lv_run es []) as [[ts0|e1|]|] eqn:R; try congruence.
    - intros X. exists es, e0, [], ts0. auto.
    - intros _. destruct (IH eq_refl) as (es1 & e & es2 & ts & -> & X). exists es1, e, (es2 ++ [e0]), ts. rewrite <- app_assoc. auto.
  Qed.
  Lemma dies_of_one_l es : lv_run es [] = Some Panic ->
    exists es1 e es2 ls i s, es = es1 ++ e :: es2 /\ lv_run es1 [] = Some (Ok ls) /\ get_at i (l_accepted es1) = Some s /\
      dies_itself H C (P i) (L i) s (l_own i (es1 ++ [e])).
  Proof.
    intros R. destruct (panics_at es R) as (es1 & e & es2 & ls & -> & R1 & S). pose proof (each_l_step es1 ls e (each_l_run _ _ R1)) as Y. rewrite S in Y.
    destruct Y as (i & s & G & Y). exists es1, e, es2, ls, i, s. auto.
  Qed.

  Lemma nobody_waits es ls i l : lv_run es [] = Some (Ok ls) -> get_at i ls = Some l ->
    match l with Ln_Login _ | Ln_Client _ _ _ => True | _ => False end ->
    exists e, l_about i e <> [] /\ (lv_step e ls = Some Panic \/ exists l', lv_step e ls = Some (Ok (set_at i l' ls))).
  Proof.
    intros R G A. destruct (each_l_run es ls R) as (_ & _ & E). destruct (E i l G) as (s & _ & B).
    assert (X : exists x, lane_step C (P i) (L i) x l <> None).
    { destruct B as [es0 g Lg W|es0 u a es' l Lg S|es0 out Lg Q|es0 u a es' r st Lg S Q]; try destruct A.
      - destruct (login_goes H C (P i) (L i) s _ _ Lg) as [(x & Q)|(e & g' & S)]; [destruct (W x Q)|]. exists (OE_Login e). cbn [lane_step]. rewrite lane_login_eq, S.
        destruct (g_co g'); discriminate.
      - pose proof (polls_fit C (P i) (L i) u a es' l S) as F. assert (Y : exists e o, p_step (L i) C (p_rng (P i)) (p_session (P i) u) e l = Some o).
        { destruct (fit_goes (L i) C (p_rng (P i)) (p_session (P i) u) l F) as [Q|(o & Q)]; [|eauto].
          destruct (others_go (L i) C (p_rng (P i)) (p_session (P i) u) l Q) as (e & o & _ & Q'). eauto. }
        destruct Y as (e & o & Y). exists (OE_Client e). cbn [lane_step]. unfold lane_client. rewrite Y. destruct o as [l1|[b|e0|] st|]; discriminate. }
    destruct X as (x & X). exists (match x with OE_Login e => LV_Login i e | OE_Client e => LV_Client i e end).
    split; [destruct x; cbn [l_about]; rewrite N.eqb_refl; discriminate|].
    set (e := match x with OE_Login e => LV_Login i e | OE_Client e => LV_Client i e end).
    assert (T : lv_step e ls = lane_set i ls (lane_step C (P i) (L i) x l)) by (rewrite lv_step_eq; subst e; destruct x; cbn [l_target]; rewrite G; reflexivity).
    pose proof (each_l_step es ls e (each_l_run es ls R)) as Y. rewrite T in *. destruct (lane_step C (P i) (L i) x l) as [[l'|e0|]|]; cbn [lane_set] in *; [right; eauto|destruct Y|left; reflexivity|congruence].
  Qed.

  (** ** Nothing is added *)
  Definition fev (i : N) (y : FEv) : FvEv := match y with FE_Auth => FV_Auth i | FE_Turn t => FV_Client i t end.
  Lemma fev_step i y t ts : get_at i ts = Some t -> fv_step (fev i y) ts = sv_set i ts (conn_step_f H C (L i) (P i) y t).
  Proof. intros G. rewrite fv_step_eq. destruct y; cbn [fev f_target]; rewrite G; reflexivity. Qed.
  Definition alike (ls : list (Lane U)) (ts : list (Task U)) (R : N -> Lane U -> Task U -> Prop) : Prop :=
    len ls = len ts /\ forall i l t, get_at i ls = Some l -> get_at i ts = Some t -> R i l t.
  Lemma alike_get ls ts R i l : alike ls ts R -> get_at i ls = Some l -> exists t, get_at i ts = Some t /\ R i l t.
  Proof.
    intros [A B] G. destruct (get_at i ts) as [t|] eqn:Gt; [eauto|]. apply get_none in Gt. rewrite <- A in Gt. apply get_none in Gt. congruence.
  Qed.
  Lemma alike_get' ls ts R i t : alike ls ts R -> get_at i ts = Some t -> exists l, get_at i ls = Some l /\ R i l t.
  Proof.
    intros [A B] G. destruct (get_at i ls) as [l|] eqn:Gt; [eauto|]. apply get_none in Gt. rewrite A in Gt. apply get_none in Gt. congruence.
  Qed.
  Lemma alike_set ls ts R i l t l1 t1 : alike ls ts R -> get_at i ls = Some l1 -> get_at i ts = Some t1 -> R i l t -> alike (set_at i l ls) (set_at i t ts) R.
  Proof.
    intros [A B] G1 G2 X. split; [rewrite !set_at_len; exact A|]. intros j l0 t0 G3 G4. destruct (N.eq_dec i j) as [Y|D].
    - subst j. rewrite (set_at_same _ _ _ _ G1) in G3. rewrite (set_at_same _ _ _ _ G2) in G4. apply Some_inj in G3, G4. subst. exact X.
    - rewrite (set_at_other i j l ls D) in G3. rewrite (set_at_other i j t ts D) in G4. eauto.
  Qed.
  Lemma alike_set_l ls ts R i l t l1 : alike ls ts R -> get_at i ls = Some l1 -> get_at i ts = Some t -> R i l t -> alike (set_at i l ls) ts R.
  Proof.
    intros [A B] G1 G2 X. split; [rewrite set_at_len; exact A|]. intros j l0 t0 G3 G4. destruct (N.eq_dec i j) as [Y|D].
    - subst j. rewrite (set_at_same _ _ _ _ G1) in G3. rewrite G2 in G4. apply Some_inj in G3, G4. subst. exact X.
    - rewrite set_at_other in G3 by exact D. eauto.
  Qed.
  Lemma alike_app ls ts R l t : alike ls ts R -> R (len ls) l t -> alike (ls ++ [l]) (ts ++ [t]) R.
  Proof.
    intros [A B] X. split; [rewrite !len_app, A; reflexivity|]. intros j l0 t0 G3 G4. rewrite get_app in G3. rewrite (get_app j ts t), <- A in G4. destruct (N.eqb_spec j (len ls)) as [Y|D]; [|eauto].
    apply Some_inj in G3, G4. subst. exact X.
  Qed.
  Notation sims ls ts := (alike ls ts (fun i => sim H C (P i) (L i))).
  Lemma sims_step es' ls ts e : fv_run es' [] = Some (Ok ts) -> sims ls ts ->
    match lv_step e ls with
    | Some (Ok ls') => exists es1 ts', fv_run (es' ++ es1) [] = Some (Ok ts') /\ f_accepted (es' ++ es1) = f_accepted es' ++ match e with LV_Accept s => [s] | _ => [] end /\ sims ls' ts'
    | Some Panic => exists e1, fv_run (es' ++ [e1]) [] = Some Panic /\ f_accepted (es' ++ [e1]) = f_accepted es'
    | Some (Err _) => False
    | None => True
    end.
  Proof.
    intros F A. rewrite lv_step_eq. destruct (l_target e) as [[i x]|] eqn:T.
    - assert (NA : match e with LV_Accept s => [s] | _ => [] end = []) by (destruct e; [discriminate T|reflexivity..]). rewrite NA.
      destruct (get_at i ls) as [l|] eqn:G; [|exact I]. destruct (alike_get _ _ _ _ _ A G) as (t & Gt & SM). pose proof (sim_next H C (P i) (L i) l t x SM) as N.
      assert (FA : forall y, f_accepted (es' ++ [fev i y]) = f_accepted es') by (intros y; rewrite f_accepted_snoc; destruct y; apply app_nil_r).
      destruct (lane_step C (P i) (L i) x l) as [[l'|e0|]|]; cbn [lane_set]; auto.
      + rewrite app_nil_r. destruct N as [N|(y & t' & N1 & N2)].
        * exists [], ts. rewrite app_nil_r. split; [exact F|]. split; [reflexivity|]. exact (alike_set_l _ _ _ _ _ _ _ A G Gt N).
        * exists [fev i y], (set_at i t' ts). rewrite fv_run_snoc, F, (fev_step _ _ _ _ Gt), N1. split; [reflexivity|]. split; [apply FA|]. exact (alike_set _ _ _ _ _ _ _ _ A G Gt N2).
      + destruct N as (y & N). exists (fev i y). rewrite fv_run_snoc, F, (fev_step _ _ _ _ Gt), N. split; [reflexivity|apply FA].
    - destruct e as [s|i e|i e]; try discriminate T. exists [FV_Accept s], (ts ++ [T_New s]). rewrite fv_run_snoc, F, f_accepted_snoc. split; [reflexivity|]. split; [reflexivity|].
      apply alike_app; [exact A|]. cbn [sim lane_new seen_as]. exists []. reflexivity.
  Qed.
  Lemma sims_run es : forall ls, lv_run es [] = Some (Ok ls) -> exists es' ts, fv_run es' [] = Some (Ok ts) /\ f_accepted es' = l_accepted es /\ sims ls ts.
  Proof.
    induction es as [|e es IH] using rev_ind; intros ls R.
    - cbn in R. apply Some_inj, Ok_inj in R. subst ls. exists [], []. split; [reflexivity|]. split; [reflexivity|]. split; [reflexivity|]. intros i l t G. unfold get_at in G. destruct (N.to_nat i); discriminate G.
    - rewrite lv_run_snoc in R. destruct (lv_run es []) as [[ls0|e0|]|]; try discriminate R. destruct (IH ls0 eq_refl) as (es' & ts & F & FA & A).
      pose proof (sims_step es' ls0 ts e F A) as X. rewrite R in X. destruct X as (es1 & ts' & F' & FA' & A'). exists (es' ++ es1), ts'. split; [exact F'|].
      split; [rewrite FA', FA, l_accepted_snoc; reflexivity|exact A'].
  Qed.
  Lemma sound_l es ls : lv_run es [] = Some (Ok ls) -> exists es' ts, fv_run es' [] = Some (Ok ts) /\ f_accepted es' = l_accepted es /\ len ts = len ls /\
    forall i l, get_at i ls = Some l -> exists t, get_at i ts = Some t /\ seen_as H C (P i) (L i) l t.
  Proof.
    intros R. destruct (sims_run es ls R) as (es' & ts & F & FA & A). exists es', ts. split; [exact F|]. split; [exact FA|]. split; [symmetry; exact (proj1 A)|].
    intros i l G. destruct (alike_get _ _ _ _ _ A G) as (t & Gt & S). exists t. split; [exact Gt|]. exact (sim_seen _ _ _ _ _ _ S).
  Qed.
  Lemma sound_panic_l es : lv_run es [] = Some Panic -> exists es1 e es2 ls es', es = es1 ++ e :: es2 /\ lv_run es1 [] = Some (Ok ls) /\
    fv_run es' [] = Some Panic /\ f_accepted es' = l_accepted es1.
  Proof.
    intros R. destruct (panics_at es R) as (es1 & e & es2 & ls & -> & R1 & S). destruct (sims_run es1 ls R1) as (es' & ts & F & FA & A).
    pose proof (sims_step es' ls ts e F A) as X. rewrite S in X. destruct X as (e1 & X1 & X2). exists es1, e, es2, ls, (es' ++ [e1]). split; [reflexivity|]. split; [exact R1|].
    split; [exact X1|]. rewrite X2, FA. reflexivity.
  Qed.

  (** ** Nothing is lost *)
  Lemma login_run i es : forall ls g g' x, get_at i ls = Some (Ln_Login g) -> under_way g -> g_run (L i) es g = Some g' -> g_co g' = Lg_Ret x ->
    lv_run (map (LV_Login i) es) ls = lane_set i ls (Some (settle C (P i) (l_outcome x (g_in g') (g_out g')))).
  Proof.
    induction es as [|e es IH]; intros ls g g' x G W R Q; cbn [g_run] in R.
    - apply Some_inj in R. subst g'. destruct (W x Q).
    - destruct (g_step (L i) e g) as [g1|] eqn:S; [|discriminate R]. cbn [map Login.lv_run Login.lv_step]. rewrite G, lane_login_eq, S.
      destruct (ret_dec_l (g_co g1)) as [(y & Q1)|NR].
      + assert (es = [] /\ g' = g1) as [-> ->].
        { destruct es as [|e1 es]; cbn [g_run] in R; [apply Some_inj in R; subst; auto|]. unfold g_step in R. rewrite Q1 in R. destruct e1; discriminate R. }
        rewrite Q1 in Q. injection Q as ->. rewrite Q1. cbn [map lane_set]. destruct (settle C (P i) (l_outcome x (g_in g1) (g_out g1))); reflexivity.
      + assert (X : match g_co g1 with Lg_Ret x => Some (settle C (P i) (l_outcome x (g_in g1) (g_out g1))) | _ => Some (Ok (Ln_Login g1)) end = Some (Ok (Ln_Login g1)))
          by (destruct (g_co g1) as [y| | |]; [destruct (NR y eq_refl)|reflexivity..]).
        rewrite X. cbn [lane_set]. rewrite (IH _ g1 g' x (set_at_same _ _ _ _ G) NR R Q).
        destruct (settle C (P i) (l_outcome x (g_in g') (g_out g'))); cbn [lane_set]; rewrite ?set_at_twice; reflexivity.
  Qed.
  Definition lane_out (u : U) (a : ASt U) (o : Out) : res unit (Lane U) :=
    match o with O_Goes l => Ok (Ln_Client u a l) | O_Over Panic _ | O_Clash => Panic | O_Over _ st => Ok (Ln_Over u a st) end.
  Lemma lane_client_eq i e u a l : lane_client C (L i) (P i) e u a l = match p_step (L i) C (p_rng (P i)) (p_session (P i) u) e l with Some o => Some (lane_out u a o) | None => None end.
  Proof. unfold lane_client. destruct (p_step _ _ _ _ _ _) as [[l1|[b|e0|] st|]|]; reflexivity. Qed.
  Lemma set_at_id {A} i (x : A) ls : get_at i ls = Some x -> set_at i x ls = ls.
  Proof. unfold get_at, set_at. generalize (N.to_nat i). intros n. revert n. induction ls as [|y ls IH]; intros [|n] G; cbn in *; try discriminate G; [apply Some_inj in G; congruence|]. rewrite IH; auto. Qed.
  Lemma client_run i u a es : forall ls l o, get_at i ls = Some (Ln_Client u a l) -> p_run (L i) C (p_rng (P i)) (p_session (P i) u) es l = Some o ->
    exists es1, lv_run (map (LV_Client i) es1) ls = lane_set i ls (Some (lane_out u a o)).
  Proof.
    induction es as [|e es IH]; intros ls l o G R; cbn [p_run] in R.
    - apply Some_inj in R. subst o. exists []. cbn [map Login.lv_run lane_out lane_set]. rewrite (set_at_id _ _ _ G). reflexivity.
    - destruct (p_step (L i) C (p_rng (P i)) (p_session (P i) u) e l) as [o1|] eqn:S; [|discriminate R].
      assert (ST : lv_step (LV_Client i e) ls = lane_set i ls (Some (lane_out u a o1))) by (cbn [Login.lv_step]; rewrite G, lane_client_eq, S; reflexivity).
      destruct o1 as [l1|r st|].
      + destruct (IH (set_at i (Ln_Client u a l1) ls) l1 o (set_at_same _ _ _ _ G) R) as (es1 & X). exists (e :: es1). cbn [map Login.lv_run]. rewrite ST. cbn [lane_out lane_set]. rewrite X.
        destruct (lane_out u a o); cbn [lane_set]; rewrite ?set_at_twice; reflexivity.
      + apply Some_inj in R. subst o. exists [e]. cbn [map Login.lv_run]. rewrite ST. destruct (lane_out u a _); reflexivity.
      + apply Some_inj in R. subst o. exists [e]. cbn [map Login.lv_run]. rewrite ST. reflexivity.
  Qed.

  Section Complete.
    Hypothesis (HO : host_ok H) (K : crypto_ok C) (PO : forall i, host_rng_ok (p_host_rng (P i)) /\ rngs_ok (p_rng (P i))).
    (** A lane between turns. *)
    Definition still (i : N) (l : Lane U) (t : Task U) : Prop :=
      match l, t with
      | Ln_Login g, T_New s => g = login_begins H C (P i) s
      | Ln_Client u a l, T_Client u' a' st => u = u' /\ a = a' /\ fit l /\ afresh C (p_rng (P i)) (p_session (P i) u) l /\ w_st (l_world l) = st /\
          counter (k_rd (a_conn a)) < 2 ^ 64 /\ counter (k_wr (a_conn a)) < 2 ^ 64 /\ len (k_out (a_conn a)) <= L i /\
          exists ts0, fault_run (L i) C (p_rng (P i)) (p_session (P i) u) ts0 (session_init (a_conn a)) = Some (Ok false, st)
      | Ln_Refused out, T_Refused out' => out = out'
      | Ln_Over u a st, T_Over u' a' st' => u = u' /\ a = a' /\ same_but_buf st st'
      | _, _ => False
      end.
    Lemma still_seen i l t : still i l t -> seen_as H C (P i) (L i) l t /\ rests H C (P i) l t.
    Proof.
      destruct l, t; cbn [still seen_as rests]; try (intros []; fail); try (intros X; split; [exact X|exact I]).
      - intros ->. split; [|reflexivity]. exists []. reflexivity.
      - intros (<- & <- & _ & A & W & _). split; [|split; [exact A|exact W]]. split; [reflexivity|]. split; [reflexivity|]. exists l. split; [exact A|]. split; [exact W|constructor].
    Qed.
    Lemma login_counters i s u a : authenticate_new_client_b (L i) H (p_host_rng (P i)) C (p_rng (P i)) (p_auth (P i)) s = Some (AO_Auth (Ok u) a) ->
      counter (k_rd (a_conn a)) < 2 ^ 64 /\ counter (k_wr (a_conn a)) < 2 ^ 64 /\ len (k_out (a_conn a)) <= L i.
    Proof.
      intros E. destruct (PO i) as [RO RR]. destruct (attempt_some_f H C P HO K PO i s) as (out & A).
      destruct (attempt_breaks (L i) _ _ _ _ _ _ _ A) as [_ [[L1 Q]|[[L1 Q]|(L1 & r & b & b' & -> & Q & B)]]]; rewrite E in Q; try discriminate Q.
      apply Some_inj in Q. subst out. assert (S0 : session_of C (P i) u a [] (Ok false) (session_init (a_conn a))) by reflexivity.
      destruct (auth_gives_session _ _ _ _ _ _ HO RO K RR A _ _ _ S0) as (X1 & X2 & X3 & X4 & _). auto.
    Qed.
    Lemma login_happens i s ls : get_at i ls = Some (lane_new H C (P i) s) ->
      exists es out, authenticate_new_client_b (L i) H (p_host_rng (P i)) C (p_rng (P i)) (p_auth (P i)) s = Some out /\
        lv_run (map (LV_Login i) es) ls = lane_set i ls (Some (settle C (P i) out)).
    Proof.
      intros G. destruct (login_finishes H C (P i) (L i) s [] (login_begins H C (P i) s) eq_refl) as (es & out & X). cbn [app] in X.
      pose proof (login_ends _ _ _ _ _ _ _ X) as A. destruct X as (g & x & E & Q & ->). exists es, (l_outcome x (g_in g) (g_out g)). split; [exact A|].
      exact (login_run i es ls _ g x G (begins_under_way H C (P i) s) E Q).
    Qed.
    Lemma still_step ls ts e : alike ls ts still ->
      match fv_step e ts with
      | Some (Ok ts') => exists es ls', lv_run es ls = Some (Ok ls') /\ l_accepted es = match e with FV_Accept s => [s] | _ => [] end /\ alike ls' ts' still
      | Some Panic => exists es, lv_run es ls = Some Panic /\ l_accepted es = []
      | Some (Err _) => True
      | None => True
      end.
    Proof.
      intros A.
      assert (NL : forall i es, l_accepted (map (LV_Login i) es) = []) by (intros i es; induction es; [reflexivity|assumption]).
      assert (NC : forall i es, l_accepted (map (LV_Client i) es) = []) by (intros i es; induction es; [reflexivity|assumption]).
      destruct e as [s|i|i t]; cbn [Faults.fv_step].
      - exists [LV_Accept s]. eexists. split; [reflexivity|]. split; [reflexivity|]. apply alike_app; [exact A|]. reflexivity.
      - destruct (get_at i ts) as [[s|u a st|out|u a st]|] eqn:Gt; try exact I. destruct (alike_get' _ _ _ _ _ A Gt) as (l & G & S).
        destruct l as [g|u a l|out|u a st]; try (destruct S; fail). cbn [still] in S. subst g. destruct (login_happens i s ls G) as (es & out & E & R).
        unfold sv_auth_b. rewrite E. destruct out as [[|] o|[u|e0|] a]; cbn [settle lane_set sv_set] in *.
        + exists (map (LV_Login i) es). auto.
        + exists (map (LV_Login i) es). eexists. split; [exact R|]. split; [apply NL|]. eapply alike_set; [exact A|exact G|exact Gt|reflexivity].
        + exists (map (LV_Login i) es). eexists. split; [exact R|]. split; [apply NL|]. eapply alike_set; [exact A|exact G|exact Gt|].
          destruct (login_counters i s u a E) as (X1 & X2 & X3). cbn [still]. split; [reflexivity|]. split; [reflexivity|]. split; [apply (init_fit (L i))|].
          split; [split; [reflexivity|left; reflexivity]|]. split; [reflexivity|]. split; [exact X1|]. split; [exact X2|]. split; [exact X3|]. exists []. reflexivity.
        + exists (map (LV_Login i) es). eexists. split; [exact R|]. split; [apply NL|]. eapply alike_set; [exact A|exact G|exact Gt|reflexivity].
        + exists (map (LV_Login i) es). auto.
      - destruct (get_at i ts) as [[s|u a st|out|u a st]|] eqn:Gt; try exact I. destruct (alike_get' _ _ _ _ _ A Gt) as (l & G & S).
        destruct l as [g|u' a' l|out|u' a' st']; try (destruct S; fail). destruct S as (-> & -> & F & AF & W & X1 & X2 & X3 & ts0 & X4).
        destruct (PO i) as [_ RR]. unfold fv_client. destruct (fault_step (L i) C (p_rng (P i)) (p_session (P i) u) t st) as [[r st1]|] eqn:T; [|exact I].
        assert (FR : fault_run (L i) C (p_rng (P i)) (p_session (P i) u) [t] (w_st (l_world l)) = Some (r, st1)).
        { rewrite W. cbn [fault_run]. rewrite T. destruct r as [[|]|e0|]; reflexivity. }
        destruct (complete (L i) C (p_rng (P i)) (p_session (P i) u) (a_conn a) K RR X1 X2 X3 [t] ts0 l r st1) as (es & o & PR & TU); [rewrite W; exact X4|exact F|exact AF|exact FR|].
        destruct (client_run i u a es ls l o G PR) as (es1 & R). unfold turned in TU. cbn [fst snd] in TU.
        destruct r as [[|]|e0|]; cbn [sv_set].
        + destruct TU as (st2 & -> & EA). exists (map (LV_Client i) es1). eexists. split; [exact R|]. split; [apply NC|]. eapply alike_set; [exact A|exact G|exact Gt|].
          cbn [still]. split; [reflexivity|]. split; [reflexivity|]. exact (alike_but _ _ _ EA).
        + destruct TU as (l1 & -> & AF1 & F1 & W1). exists (map (LV_Client i) es1). eexists. split; [exact R|]. split; [apply NC|]. eapply alike_set; [exact A|exact G|exact Gt|].
          cbn [still]. split; [reflexivity|]. split; [reflexivity|]. split; [exact F1|]. split; [exact AF1|]. split; [exact W1|]. split; [exact X1|]. split; [exact X2|]. split; [exact X3|].
          exists (ts0 ++ [t]). rewrite (frun_snoc (L i) C _ _ _ _ _ _ X4). exact T.
        + destruct TU as (st2 & -> & EA). exists (map (LV_Client i) es1). eexists. split; [exact R|]. split; [apply NC|]. eapply alike_set; [exact A|exact G|exact Gt|].
          cbn [still]. split; [reflexivity|]. split; [reflexivity|]. exact (alike_but _ _ _ EA).
        + destruct TU as (st2 & -> & EA). exists (map (LV_Client i) es1). split; [exact R|apply NC].
    Qed.
    Lemma complete_l es' : forall ts, fv_run es' [] = Some (Ok ts) -> exists es ls, lv_run es [] = Some (Ok ls) /\ l_accepted es = f_accepted es' /\ alike ls ts still.
    Proof.
      induction es' as [|e es' IH] using rev_ind; intros ts R.
      - cbn in R. apply Some_inj, Ok_inj in R. subst ts. exists [], []. split; [reflexivity|]. split; [reflexivity|]. split; [reflexivity|]. intros i l t G. unfold get_at in G. destruct (N.to_nat i); discriminate G.
      - rewrite fv_run_snoc in R. destruct (fv_run es' []) as [[ts0|e0|]|]; try discriminate R. destruct (IH ts0 eq_refl) as (es & ls & F & FA & A).
        pose proof (still_step ls ts0 e A) as X. rewrite R in X. destruct X as (es1 & ls' & R1 & FA' & A'). exists (es ++ es1), ls'. rewrite lv_run_app, F. split; [exact R1|].
        split; [rewrite l_accepted_app, FA', FA, f_accepted_snoc; reflexivity|exact A'].
    Qed.
    Lemma complete_seen_l es' ts : fv_run es' [] = Some (Ok ts) -> exists es ls, lv_run es [] = Some (Ok ls) /\ l_accepted es = f_accepted es' /\ len ls = len ts /\
      forall i t, get_at i ts = Some t -> exists l, get_at i ls = Some l /\ seen_as H C (P i) (L i) l t /\ rests H C (P i) l t.
    Proof.
      intros R. destruct (complete_l es' ts R) as (es & ls & F & FA & A). exists es, ls. split; [exact F|]. split; [exact FA|]. split; [exact (proj1 A)|].
      intros i t G. destruct (alike_get' _ _ _ _ _ A G) as (l & Gl & S). exists l. split; [exact Gl|]. exact (still_seen _ _ _ S).
    Qed.
    Lemma complete_panic_l es' : fv_run es' [] = Some Panic -> exists es es1 e es2, lv_run es [] = Some Panic /\ es' = es1 ++ e :: es2 /\ l_accepted es = f_accepted es1 /\ fv_run (es1 ++ [e]) [] = Some Panic.
    Proof.
      induction es' as [|e0 es' IH] using rev_ind; [discriminate|]. intros R. pose proof R as R0. rewrite fv_run_snoc in R. destruct (fv_run es' []) as [[ts0|e1|]|] eqn:Q; try congruence.
      - destruct (complete_l es' ts0 Q) as (es & ls & F & FA & A). pose proof (still_step ls ts0 e0 A) as X. rewrite R in X. destruct X as (es1 & R1 & FA').
        exists (es ++ es1), es', e0, []. rewrite lv_run_app, F. split; [exact R1|]. split; [reflexivity|]. split; [rewrite l_accepted_app, FA', FA; apply app_nil_r|exact R0].
      - destruct (IH eq_refl) as (es & es1 & e & es2 & X1 & -> & X2 & X3). exists es, es1, e, (es2 ++ [e0]). rewrite <- app_assoc. auto.
    Qed.
  End Complete.
End Server.
