(** Every turn that is prescribed is taken: sessions exist for all transcripts. *)
From Coq Require Import Init.Byte Strings.Byte.
From Verif Require Export CancelThm4 SpecSession2.
Open Scope res_scope.

(** What a stimulus calls for is determined. *)
Lemma least_free_unique pre i j : least_free pre i -> least_free pre j -> i = j.
Proof.
  intros [A1 A2] [D1 D2]. destruct (N.lt_trichotomy i j) as [L|[E|L]]; [destruct (D2 _ L A1)|exact E|destruct (A2 _ L D1)].
Qed.
Lemma turn_det h pre e t t' : turn h pre (e :: t) -> turn h pre (e :: t') -> t = t'.
Proof.
  intros T X. remember (e :: t) as a eqn:Ea. remember (e :: t') as b eqn:Eb.
  destruct T as [o i H1 H2|r1 q ty p0 old io H1 H2 H3 H4|r1 q p0 old H1 H2 H3|c0 d0 p0 n0 j H1 H2|c0 p0 old H1|c0|d0|err n0 p0 d0 H1 H2|n0 p0 H1|n0 p0 H1|n0 p0 s H1 H2];
    cbn [app] in Ea; apply pair_cons in Ea as [<- <-];
    destruct X as [o' i' X1 X2|r2 q2 ty2 p2 old2 io2 X1 X2 X3 X4|r2 q2 p2 old2 X1 X2 X3|c2 d2 p2 n2 j2 X1 X2|c2 p2 old2 X1|c2|d2|err2 n2 p2 d2 X1 X2|n2 p2 X1|n2 p2 X1|n2 p2 s2 X1 X2];
    cbn [app] in Eb; apply pair_cons in Eb as [Q <-]; try discriminate Q; unfold got in Q.
  - injection Q as ->. rewrite (least_free_unique _ _ _ H1 X1). reflexivity.
  - injection Q as ->. pose proof (session_request_unique _ _ _ H2 X2). subst q2. assert (ty2 = ty) by congruence. subst ty2.
    rewrite H4 in X4. apply Ok_inj in X4. subst io2. rewrite H1 in X1. apply Some_inj, pair_eq in X1 as [-> ->]. reflexivity.
  - injection Q as ->. pose proof (session_request_unique _ _ _ H2 X2). subst q2. destruct q; discriminate.
  - injection Q as ->. pose proof (session_request_unique _ _ _ H2 X2). subst q2. destruct q; discriminate.
  - injection Q as ->. rewrite H1 in X1. apply Some_inj, pair_eq in X1 as [-> ->]. reflexivity.
  - injection Q as -> ->. rewrite H1 in X1. apply Some_inj, pair_eq in X1 as [_ X1]. apply Some_inj in X1. subst n2. rewrite H2 in X2. apply Ok_inj in X2. subst j2. reflexivity.
  - injection Q as ->. rewrite H1 in X1. apply Some_inj, pair_eq in X1 as [_ ->]. reflexivity.
  - injection Q as ->. reflexivity.
  - reflexivity.
  - injection Q as -> -> ->. rewrite H1 in X1. apply Some_inj in X1. subst p2. reflexivity.
  - exfalso. injection Q; intros; subst. vm_compute in H2. destruct H2 as [H2 _]. discriminate H2.
  - exfalso. injection Q; intros; subst. vm_compute in H2. destruct H2 as [H2 _]. discriminate H2.
  - exfalso. injection Q; intros; subst. vm_compute in X2. destruct X2 as [X2 _]. discriminate X2.
  - injection Q as ->. rewrite H1 in X1. apply Some_inj in X1. subst p2. reflexivity.
  - exfalso. injection Q; intros; subst. vm_compute in X2. destruct X2 as [X2 _]. discriminate X2.
  - reflexivity.
  - injection Q as -> ->. rewrite H1 in X1. apply Some_inj in X1. subst p2. reflexivity.
Qed.

Lemma prompts_read e err n d t : prompts e (SE_Read err n d :: t) -> e = Ev_Output err n (Ok d).
Proof.
  destruct e as [|err' n' d'|n' s']; cbn [prompts].
  - intros (m & t' & Q). discriminate Q.
  - intros (d2 & t' & -> & Q). apply pair_cons in Q as [Q _]. injection Q as <- <- <-. reflexivity.
  - intros (t' & Q). discriminate Q.
Qed.
Lemma prompts_exit e n s t : prompts e (SE_Exit n s :: t) -> e = Ev_Exit n s.
Proof.
  destruct e as [|err' n' d'|n' s']; cbn [prompts].
  - intros (m & t' & Q). discriminate Q.
  - intros (d2 & t' & _ & Q). discriminate Q.
  - intros (t' & Q). apply pair_cons in Q as [Q _]. injection Q as <- <-. reflexivity.
Qed.
Section Taken.
  Context (C : Crypto) (rng : N -> N -> bytes) (h : SHandlers) (k : Conn).
  Lemma sess_inv es st : is_session C rng h k es (Ok false) st -> sinv st.
  Proof. intros (K & R & L1 & L2 & H). exact (run_inv C rng h K R _ _ _ (session_init_inv k L1 L2) H). Qed.
  Lemma one_more_is es e r st st' : is_session C rng h k es (Ok false) st -> session_step C rng h e st = Some (r, st') -> is_session C rng h k (es ++ [e]) r st'.
  Proof.
    intros (K & R & L1 & L2 & H) S. split; [exact K|]. split; [exact R|]. split; [exact L1|]. split; [exact L2|].
    rewrite session_run_app. revert H. generalize (session_init k). intros s0 H. rewrite H. cbn [session_run]. rewrite S. destruct r as [[|]|x|]; reflexivity.
  Qed.
  (** The event of a turn, and what it needs. *)
  Lemma no_other_end st e r st' : (forall es, outcome_from C h st (e :: es) r st') -> r <> Ok false ->
    match e with Ev_Output _ _ (Ok _) | Ev_Exit _ _ => False | _ => True end /\
    forall m t, s_log st' = s_log st ++ SE_Received m :: t -> (exists d, m = Msg_Disconnect d) \/ crash h (s_log st) (SE_Received m :: t) \/
       (exists err n d, e = Ev_Output err n d).
  Proof.
    intros O N. specialize (O []). destruct O as (ts & tail & pls & rest & E & T & _ & _ & _ & O). cbv zeta in O.
    assert (X : exists es1 e1 es2, [e] = es1 ++ e1 :: es2 /\ Forall2 prompts es1 ts /\
        match r with
        | Ok _ => e1 = Ev_Packet /\ exists d, tail = [SE_Received (Msg_Disconnect d)]
        | Err _ => e1 = Ev_Packet /\ tail = []
        | Panic => e1 = Ev_Packet /\ tail = [] \/ e1 = Ev_Packet /\ crash h (s_log st ++ concat ts) tail \/
            tail = [] /\ exists err n d, e1 = Ev_Output err n d /\ forall data, d <> Ok data
        end).
    { destruct r as [[|]|x|]; [|congruence|..]; destruct O as (es1 & e1 & es2 & A1 & A2 & A3); exists es1, e1, es2; (split; [exact A1|]); (split; [exact A2|]).
      - exact A3.
      - tauto.
      - destruct A3 as [(? & ? & _)|[?|(? & err & n & d & ? & _ & ?)]]; [tauto|tauto|]. right. right. split; [assumption|]. exists err, n, d. auto. }
    clear O. destruct X as ([|x es1] & e1 & es2 & A1 & A2 & A3); [|destruct es1; discriminate A1].
    apply pair_cons in A1 as [<- _]. remember (@nil Ev) as es1 eqn:Q. destruct A2; [|discriminate Q]. cbn [concat app] in E, A3. rewrite app_nil_r in A3. split.
    - destruct r as [b|x|].
      + destruct A3 as [-> _]. exact I.
      + destruct A3 as [-> _]. exact I.
      + destruct A3 as [[-> _]|[[-> _]|(_ & err & n & d & -> & D)]]; [exact I|exact I|]. destruct d; [exact (D _ eq_refl)|exact I..].
    - intros m t L. rewrite E in L. apply app_inv_head in L. destruct r as [b|x|].
      + destruct A3 as [_ (d & ->)]. apply pair_cons in L as [L _]. left. exists d. congruence.
      + destruct A3 as [_ ->]. discriminate L.
      + destruct A3 as [[_ ->]|[[_ X]|(_ & err & n & d & -> & D)]]; [discriminate L| |].
        * rewrite <- L. auto.
        * right. right. eauto.
  Qed.
  Definition framed (st : SSt) (t : list SEvent) : Prop := forall m t', t = SE_Received m :: t' -> exists pl pad raw rest,
    k_in (s_conn st) = seal_with C (k_rd (s_conn st)) raw ++ rest /\ loose_packet pl pad raw /\ len raw + 16 <= 35000 /\ is_wire m pl.
  Lemma turn_taken es st t : is_session C rng h k es (Ok false) st -> turn h (s_log st) t -> framed st t ->
    exists e st' pls, prompts e t /\ is_session C rng h k (es ++ [e]) (Ok false) st' /\ cstep C st st' pls t /\ Forall2 (fun m pl => is_wire m pl) (received t) pls.
  Proof.
    intros IS T F. pose proof (sess_inv _ _ IS) as I. pose proof IS as (K & R & _). pose proof I as (_ & (_ & A2 & A3 & A4 & _) & _).
    assert (X : exists e r st', prompts e t /\ session_step C rng h e st = Some (r, st') /\
      (forall m t', t = SE_Received m :: t' -> e = Ev_Packet /\ exists t2, s_log st' = s_log st ++ SE_Received m :: t2)).
    { destruct (turn_shape h _ _ T) as (s & t' & -> & S & _). destruct s as [m|m|i p n ty x|n d x|n|err n d|n s]; try discriminate S.
      - destruct (F _ _ eq_refl) as (pl & pad & raw & rest & E & P & L & W).
        assert (NE : is_ecdh_reply m = false).
        { remember (SE_Received m :: t') as a eqn:Qa. destruct T; cbn [app] in Qa; apply pair_cons in Qa as [Qa _]; try discriminate Qa; unfold got in Qa; injection Qa as <-; reflexivity. }
        destruct (packet_handled _ _ _ _ _ _ _ _ _ _ _ IS E P L W NE) as (r' & st' & t2 & IS' & Q). apply (one_more _ _ _ _ _ _ _ _ _ IS) in IS'.
        exists Ev_Packet, r', st'. split; [exists m, t'; reflexivity|]. split; [exact IS'|]. intros m' t3 Q2. apply pair_cons in Q2 as [Q2 _]. injection Q2 as <-. eauto.
      - exists (Ev_Output err n (Ok d)). cbn [session_step].
        assert (Y : exists p, look n (if err then s_stderr st else s_stdout st) = Some p /\ len d <= 256).
        { remember (SE_Read err n d :: t') as a eqn:Qa. destruct T; cbn [app] in Qa; apply pair_cons in Qa as [Qa _]; try discriminate Qa; injection Qa; intros; subst.
          - exists p. split; [destruct err; [rewrite A3|rewrite A2]; assumption|lia].
          - exists p. split; [rewrite A2; assumption|discriminate].
          - exists p. split; [rewrite A3; assumption|discriminate]. }
        destruct Y as (p & Y & L). rewrite Y. replace (len d <=? 256) with true by lia. destruct (on_output _ _ _ _ _ _ _) as [r st'].
        exists r, st'. split; [exists d, t'; auto|]. split; [reflexivity|]. discriminate.
      - exists (Ev_Exit n s). cbn [session_step].
        assert (Y : exists p, look n (s_wait st) = Some p /\ is_u32 s = true).
        { remember (SE_Exit n s :: t') as a eqn:Qa. destruct T; cbn [app] in Qa; apply pair_cons in Qa as [Qa _]; try discriminate Qa; injection Qa; intros; subst.
          exists p. split; [rewrite A4; assumption|]. apply N.ltb_lt. assumption. }
        destruct Y as (p & Y & L). rewrite Y, L. destruct (on_exit _ _ _ _ _ _) as [r st'].
        exists r, st'. split; [exists t'; auto|]. split; [reflexivity|]. discriminate. }
    destruct X as (e & r & st' & P & S & L). exists e, st'. pose proof (session_step_result C rng h K R _ _ _ I S) as SR.
    assert (Q : r = Ok false \/ r <> Ok false) by (destruct r as [[|]|x|]; auto; right; discriminate). destruct Q as [->|Q].
    - destruct SR as (pls & t2 & Cs & T2 & P2 & W & _).
      assert (t2 = t) as ->.
      { destruct (turn_shape h _ _ T) as (s & t1 & -> & S1 & _). destruct s as [m|m|i p n ty x|n d x|n|err n d|n s]; try discriminate S1.
        - destruct (L _ _ eq_refl) as (-> & t3 & L3). destruct P2 as (m2 & t4 & ->). assert (X : s_log st' = s_log st ++ SE_Received m2 :: t4) by apply Cs.
          rewrite L3 in X. apply app_inv_head, pair_cons in X as [X _]. injection X as <-. f_equal. exact (turn_det h _ _ _ _ T2 T).
        - apply prompts_read in P as ->. destruct P2 as (d2 & t4 & Q2 & ->). apply Ok_inj in Q2. subst d2. f_equal. exact (turn_det h _ _ _ _ T2 T).
        - apply prompts_exit in P as ->. destruct P2 as (t4 & ->). f_equal. exact (turn_det h _ _ _ _ T2 T). }
      exists pls. split; [exact P|]. split; [|split; [exact Cs|exact W]]. exact (one_more_is _ _ _ _ _ IS S).
    - exfalso. assert (O : forall es, outcome_from C h st (e :: es) r st') by (destruct r as [[|]|x|]; [exact SR|congruence|exact SR..]).
      destruct (no_other_end _ _ _ _ O Q) as [N1 N2]. destruct (turn_shape h _ _ T) as (s & t1 & -> & S1 & _).
      destruct s as [m|m|i p n ty x|n d x|n|err n d|n s]; try discriminate S1.
      + destruct (L _ _ eq_refl) as (-> & t3 & L3). destruct (N2 _ _ L3) as [(d & ->)|[X|(err & n & d & X)]]; [| |discriminate X].
        * remember (SE_Received (Msg_Disconnect d) :: t1) as a eqn:Qa. destruct T; cbn [app] in Qa; apply pair_cons in Qa as [Qa _]; discriminate Qa.
        * exact (turn_or_crash h _ _ _ _ T X).
      + apply prompts_read in P as ->. exact N1.
      + apply prompts_exit in P as ->. exact N1.
  Qed.
End Taken.

Lemma seal_shift C c raw : counter c < 2 ^ 64 -> seal C (key_length c) (key_data c) (counter c mod 2 ^ 64) raw = seal_with C c raw.
Proof. intros L. rewrite N.mod_small by exact L. reflexivity. Qed.
Lemma numbered_later C c pl pls w ws : counter c < 2 ^ 64 -> numbered C c (counter c) (pl :: pls) (w :: ws) -> numbered C (later 1 c) (counter (later 1 c)) pls ws.
Proof.
  intros L [A D]. split; [cbn [length] in A; lia|]. intros i pl' w' E1 E2. destruct (D (S i) pl' w' E1 E2) as (pad & raw & P & ->). exists pad, raw. split; [exact P|].
  unfold later. cbn [key_length key_data counter]. f_equal. rewrite N.add_mod_idemp_l by discriminate. f_equal. lia.
Qed.

Section All.
  Context (C : Crypto) (rng : N -> N -> bytes) (h : SHandlers) (k : Conn).
  Lemma all_taken ts : forall es st pls rest, is_session C rng h k es (Ok false) st -> turns h (s_log st) ts ->
    framed_as C (k_rd (s_conn st)) (k_in (s_conn st)) pls rest -> Forall2 (fun m pl => is_wire m pl) (received (concat ts)) pls ->
    exists es' st', is_session C rng h k (es ++ es') (Ok false) st' /\ Forall2 prompts es' ts /\ s_log st' = s_log st ++ concat ts /\ k_in (s_conn st') = rest.
  Proof.
    induction ts as [|t ts IH]; intros es st pls rest IS T F W.
    - exists [], st. rewrite app_nil_r. split; [exact IS|]. split; [constructor|]. cbn [concat]. rewrite app_nil_r. split; [reflexivity|].
      destruct F as (ws & E & [N _] & _). remember (received (concat [])) as x eqn:Q. destruct W; [|discriminate Q]. destruct ws; [exact E|discriminate N].
    - remember (t :: ts) as tts eqn:Q. remember (s_log st) as l0 eqn:Ql. destruct T as [|pre t0 ts0 T Ts]; [discriminate Q|]. apply pair_cons in Q as [-> ->]. subst pre.
      cbn [concat] in W. rewrite received_ev_app in W. pose proof IS as (K & _). pose proof (sess_inv _ _ _ _ _ _ IS) as ((_ & GL & _) & _).
      assert (X : exists pls1 pls2 rest1, pls = pls1 ++ pls2 /\ Forall2 (fun m pl => is_wire m pl) (received t) pls1 /\ Forall2 (fun m pl => is_wire m pl) (received (concat ts)) pls2 /\
        framed C st t /\ (forall pls3 st', cstep C st st' pls3 t -> Forall2 (fun m pl => is_wire m pl) (received t) pls3 ->
           framed_as C (k_rd (s_conn st')) (k_in (s_conn st')) pls2 rest1) /\ rest1 = rest).
      { destruct (turn_shape h _ _ T) as (s & t' & -> & S & NS).
        assert (R1 : received t' = []).
        { destruct (received t') as [|m l] eqn:Q; [reflexivity|]. assert (I : In m (received t')) by (rewrite Q; left; reflexivity).
          unfold received in I. apply in_flat_map in I as (x & Ix & I). specialize (NS x Ix). destruct x; cbn in I; try contradiction. discriminate NS. }
        change (s :: t') with ([s] ++ t') in W |- *. rewrite received_ev_app, R1, app_nil_r in W |- *.
        assert (Z : (exists m, s = SE_Received m) \/ (received [s] = [] /\ forall m, s <> SE_Received m)).
        { destruct s; [left; eauto|right; split; [reflexivity|discriminate]..]. }
        destruct Z as [(m & ->)|[Z Zm]].
        - change (received [SE_Received m] ++ received (concat ts)) with (m :: received (concat ts)) in W. change (received [SE_Received m]) with [m].
          remember (m :: received (concat ts)) as ms eqn:Q. destruct W as [|m0 pl ms0 pls2 W1 W2]; [discriminate Q|]. apply pair_cons in Q as [-> ->].
          destruct F as (ws & E & N & FL). pose proof N as [N0 _]. destruct ws as [|w ws]; [discriminate N0|].
          destruct (proj2 N 0%nat pl w eq_refl eq_refl) as (pad & raw & P & EW). change (N.of_nat 0) with 0 in EW. rewrite N.add_0_r, seal_shift in EW by exact GL.
          remember (w :: ws) as wws eqn:Qw. destruct FL as [|w0 ws0 L1 FL]; [discriminate Qw|]. apply pair_cons in Qw as [-> ->].
          assert (LR : len raw + 16 <= 35000). { rewrite EW, seal_len in L1; [exact L1|exact K|]. destruct P as (-> & _). lens. rewrite be32_len. lia. }
          exists [pl], pls2, rest. split; [reflexivity|]. split; [constructor; [exact W1|constructor]|]. split; [exact W2|]. split; [|split; [|reflexivity]].
          + intros m2 t2 Q2. cbn [app] in Q2. apply pair_cons in Q2 as [Q2 _]. injection Q2 as <-. exists pl, pad, raw, (concat ws ++ rest).
            split; [rewrite E, EW; cbn [concat]; rewrite <- app_assoc; reflexivity|]. auto.
          + intros pls3 st' (C1 & _ & _ & C4 & _) W3. remember [m] as ms eqn:Q. destruct W3 as [|m3 pl3 ms3 pls4 W3 W4]; [discriminate Q|]. apply pair_cons in Q as [-> ->].
            remember (@nil Message) as ms eqn:Q. destruct W4; [|discriminate Q].
            assert (RD : pl3 = pl /\ k_in (s_conn st') = concat ws ++ rest).
            { eapply received_determined; [exact K|exact GL|exact P| |exact C4]. rewrite E, EW. cbn [concat]. rewrite <- app_assoc. reflexivity. }
            destruct RD as [_ ->]. rewrite C1. change (len [pl3]) with 1. exists ws. split; [reflexivity|]. split; [|exact FL]. eapply numbered_later; [exact GL|exact N].
        - rewrite Z in W |- *. cbn [app] in W. exists [], pls, rest. split; [reflexivity|]. split; [constructor|]. split; [exact W|]. split; [|split; [|reflexivity]].
          + intros m2 t2 Q2. cbn [app] in Q2. apply pair_cons in Q2 as [Q2 _]. destruct (Zm _ Q2).
          + intros pls3 st' (C1 & _ & _ & C4 & _) W3. remember (@nil Message) as ms eqn:Q. destruct W3; [|discriminate Q].
            destruct C4 as (ws3 & E3 & [N3 _]). destruct ws3; [|discriminate N3]. cbn [concat app] in E3. rewrite <- E3, C1. change (len (@nil bytes)) with 0.
            rewrite later_0 by exact GL. exact F. }
      destruct X as (pls1 & pls2 & rest1 & -> & W1 & W2 & Fr & Nx & ->).
      destruct (turn_taken C rng h k es st t IS T Fr) as (e & st' & pls3 & P & IS' & Cs & W3). specialize (Nx _ _ Cs W3).
      assert (LG : s_log st' = s_log st ++ t) by apply Cs. rewrite <- LG in Ts.
      destruct (IH _ _ _ _ IS' Ts Nx W2) as (es' & st2 & IS2 & P2 & L2 & E2). exists (e :: es'), st2. rewrite <- app_assoc in IS2.
      split; [exact IS2|]. split; [constructor; assumption|]. split; [|exact E2]. rewrite L2, LG. cbn [concat]. rewrite app_assoc. reflexivity.
  Qed.
End All.
Lemma nothing_happens C rng h k : crypto_ok C -> rngs_ok rng -> counter (k_rd k) < 2 ^ 64 -> counter (k_wr k) < 2 ^ 64 -> is_session C rng h k [] (Ok false) (session_init k).
Proof. intros K R L1 L2. split; [exact K|]. split; [exact R|]. split; [exact L1|]. split; [exact L2|reflexivity]. Qed.
Lemma every_transcript C rng h k ts pls rest : crypto_ok C -> rngs_ok rng -> counter (k_rd k) < 2 ^ 64 -> counter (k_wr k) < 2 ^ 64 ->
  turns h [] ts -> framed_as C (k_rd k) (k_in k) pls rest -> Forall2 (fun m pl => is_wire m pl) (received (concat ts)) pls ->
  exists es st, is_session C rng h k es (Ok false) st /\ Forall2 prompts es ts /\ s_log st = concat ts /\ k_in (s_conn st) = rest.
Proof.
  intros K R L1 L2 T F W. destruct (init_fields k) as (E1 & _ & _ & _ & _ & _ & _ & E8). pose proof (nothing_happens C rng h k K R L1 L2) as IS. revert E1 E8 IS. generalize (session_init k).
  intros s0 E1 E8 IS. destruct (all_taken C rng h k ts [] s0 pls rest IS) as (es & st & IS2 & P & L & E); [rewrite E8; exact T|rewrite E1; exact F|exact W|].
  exists es, st. rewrite E8 in L. auto.
Qed.
