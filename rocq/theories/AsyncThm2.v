(** C92-C94: the programs of [Client], and the turns of [Faults]. *)
From Coq Require Import Init.Byte.
From Verif Require Export AsyncThm.
Open Scope res_scope.

Section Programs.
  Context (lim : N) (C : Crypto) (rng : N -> N -> bytes) (h : SHandlers).
  Notation sin st := (k_in (s_conn st)).
  Notation sout st := (k_out (s_conn st)).
  Notation eval := (eval lim).
  Notation visits := (visits lim).

  (** * Guards *)
  Local Ltac held := cbn [good In filter guard_eqb cell_eqb negb app]; repeat
    match goal with
    | |- _ /\ _ => split
    | |- forall _, _ => intro
    | |- ~ _ => intro
    | |- match (if ?x then _ else _) with _ => _ end => destruct x
    | |- mutex_lock = false => reflexivity
    | |- False => intuition discriminate
    | |- [] = [] \/ _ => left; reflexivity
    | |- _ \/ [G_Cell Cell_Read] = [G_Cell Cell_Read] => right; reflexivity
    | |- good _ (match ?x with _ => _ end) => destruct x
    | |- _ => progress cbn [good In filter guard_eqb cell_eqb negb app]
    | |- _ => exact I
    end.
  Lemma good_message held m : held = [] \/ held = [G_Cell Cell_Read] -> good held (co_message C rng h m).
  Proof.
    intros H. destruct m as [| | | | | | | | | | |c]; try exact I; try exact H.
    destruct c; try exact I; unfold co_message, co_spawn, co_reply, co_channel, co_send; destruct H as [->| ->]; held.
  Qed.
  Lemma good_loop held : held = [] \/ held = [G_Cell Cell_Read] -> good held (co_loop C rng h).
  Proof. intros H. unfold co_loop, co_recv. cbn [good]. intros. apply good_message, H. Qed.
  Lemma good_receive : good [] (co_receive C rng h).
  Proof. unfold co_receive. cbn [good In]. split; [auto|]. apply good_loop. right. reflexivity. Qed.
  Lemma good_output err n peer data : good [] (co_output C rng err n peer data).
  Proof. unfold co_output, co_channel, co_send. held. Qed.
  Lemma good_exit n peer status : good [] (co_exit C rng n peer status).
  Proof. unfold co_exit, co_channel, co_send. held. Qed.
  Lemma good_branch e st co : co_branch C rng e st = Some co -> good [] co.
  Proof.
    destruct e; cbn [co_branch]; [discriminate|..].
    - destruct (look _ _); [|discriminate]. destruct (match data with Ok d => _ | _ => true end); [|discriminate].
      intros E. apply Some_inj in E. subst co. apply good_output.
    - destruct (look _ _); [|discriminate]. destruct (is_u32 status); [|discriminate]. intros E. apply Some_inj in E. subst co. apply good_exit.
  Qed.

  (** * Turns *)
  Definition outcome (x : res ReceiveError Next * SSt) : res ReceiveError bool * SSt :=
    match x with
    | (Ok N_Again, st) => (Ok false, st)
    | (Ok N_Exit, st) => (Ok true, st)
    | (Ok (N_Io n io peer), st) => (Ok false, snd (s_new_io n io peer st))
    | (Err e, st) => (Err e, st)
    | (Panic, st) => (Panic, st)
    end.
  Lemma set_set k b k' b' st : s_set k b (s_set k' b' st) = s_set k b st.
  Proof. reflexivity. Qed.

  (** ** Receiving *)
  Lemma same_set k b b' st : same_but_buf (s_set k b st) (s_set k b' st).
  Proof. unfold same_but_buf. cbn. auto 10. Qed.

  (** What [recv] does, in steps. *)
  Lemma s_recv_eq st : s_recv C st =
    if negb (4 <=? len (s_buf st)) then (Panic, st)
    else if 4 <=? len (sin st) then
      let st1 := took 0 4 st in
      match co_length C (ntake 4 (sin st)) st1 with
      | (Ok (lenb, l), _) =>
        if l + TAG_SIZE <=? len (sin st) - 4 then co_data C lenb l (took 4 (l + TAG_SIZE) st1)
        else (Err (In_Read UnexpectedEof), s_set (with_in [] (s_conn st1)) (s_buf st1) st1)
      | (Err e, _) => (Err e, st1)
      | (Panic, _) => (Panic, st1)
      end
    else (Err (In_Read UnexpectedEof), s_set (with_in [] (s_conn st)) (s_buf st) st).
  Proof.
    unfold s_recv, conn_recv, In_recv, In_recv_gen, read_exact. destruct (4 <=? len (s_buf st)) eqn:LB; cbn [negb].
    2:{ destruct st as [k]. destruct k. reflexivity. }
    destruct (4 <=? len (sin st)) eqn:LI.
    2:{ destruct st as [k]. destruct k. reflexivity. }
    cbv zeta. unfold co_length. cbn [took s_set s_conn s_buf with_in k_rd].
    destruct (u32_of_slice (decrypt_length C (k_rd (s_conn st)) (ntake 4 (sin st)))) as [l|e|]; cbn [bind]; try reflexivity.
    destruct (l + TAG_SIZE <=? len (splice 0 (ntake 4 (sin st)) (s_buf st)) - 4); cbn [negb]; [|reflexivity].
    rewrite len_ndrop. destruct (l + TAG_SIZE <=? len (sin st) - 4) eqn:LL; [|reflexivity].
    unfold co_data. cbn [took s_set s_conn s_buf with_in k_rd k_in].
    destruct (idx_to _ _) as [data|e|]; try reflexivity. destruct (decrypt_data C (k_rd (s_conn st)) data) as [[u|e|] [c d]]; reflexivity.
  Qed.
  Lemma length_st hd st : co_length C hd st = (fst (co_length C hd st), st).
  Proof. reflexivity. Qed.
  Lemma length_room hd st lenb l : fst (co_length C hd st) = Ok (lenb, l) -> l + TAG_SIZE <= len (s_buf st) - 4.
  Proof.
    unfold co_length. cbn [fst]. destruct (u32_of_slice _) as [x|e|]; cbn [bind]; try discriminate.
    destruct (N.leb_spec (x + TAG_SIZE) (len (s_buf st) - 4)); [|discriminate]. intros E. apply Ok_inj in E. congruence.
  Qed.
  (** It looks at nothing but the cipher and the size of the buffer. *)
  Lemma length_same hd st st' : k_rd (s_conn st) = k_rd (s_conn st') -> len (s_buf st) = len (s_buf st') -> fst (co_length C hd st) = fst (co_length C hd st').
  Proof. intros E1 E2. unfold co_length. cbn [fst]. rewrite E1, E2. reflexivity. Qed.

  Definition no_err {E A} (r : res E A) : Prop := forall e, r <> Err e.
  Lemma ne_bind {E A D} (m : res E A) (k : A -> res E D) : no_err m -> (forall x, no_err (k x)) -> no_err (bind m k).
  Proof. intros M K e. destruct m as [x|e'|]; cbn [bind]; [apply K| |discriminate]. intros E'. apply (M e'). reflexivity. Qed.
  Lemma ne_if {E A} (b : bool) (x y : res E A) : no_err x -> no_err y -> no_err (if b then x else y).
  Proof. destruct b; auto. Qed.
  Lemma ne_ok {E A} (x : A) : no_err (@Ok E A x).
  Proof. intros e. discriminate. Qed.
  Lemma ne_panic {E A} : no_err (@Panic E A).
  Proof. intros e. discriminate. Qed.
  Lemma payload_no_err {E} p : no_err (@payload E p).
  Proof.
    assert (U : forall a b, no_err (@usize_sub E a b)) by (intros; apply ne_if; [apply ne_ok|apply ne_panic]).
    unfold payload, payload_len, packet_len, padding_len. apply ne_bind; [|intros l; apply ne_if; [apply ne_ok|apply ne_panic]].
    apply ne_bind; [apply ne_bind; [apply ne_if; [apply ne_ok|apply ne_panic]|intros s; apply ne_if; [apply ne_ok|apply ne_panic]]|]. intros l.
    apply ne_bind; [apply ne_bind; [|intros x; apply ne_ok]|]. { unfold idx. destruct (nth_error _ _); [apply ne_ok|apply ne_panic]. }
    intros d. apply ne_bind; auto.
  Qed.
  Lemma eval_recv k st :
    match s_recv C st with
    | (Ok p, st1) => eval (co_recv C k) st = eval (k p) st1
    | (Err (In_Read e), st1) => exists st2, eval (co_recv C k) st = (Err (RE_In (In_Read e)), st2) /\ same_but_buf st2 st1
    | (Err e, st1) => eval (co_recv C k) st = (Err (RE_In e), st1)
    | (Panic, st1) => eval (co_recv C k) st = (Panic, st1)
    end.
  Proof.
    rewrite s_recv_eq. unfold co_recv. cbn [AsyncThm.eval]. rewrite N.add_0_l.
    destruct (4 <=? len (s_buf st)) eqn:LB; cbn [negb]; [|reflexivity].
    destruct (4 <=? len (sin st)) eqn:LI.
    2:{ eexists. split; [reflexivity|]. unfold took. rewrite ndrop_all by lia. apply same_set. }
    cbv zeta. rewrite length_st. cbn [AsyncThm.eval]. rewrite length_st. pose proof (length_room (ntake 4 (sin st)) (took 0 4 st)) as R.
    assert (NR : forall e, fst (co_length C (ntake 4 (sin st)) (took 0 4 st)) <> Err (In_Read e)).
    { intros e. unfold co_length. cbn [fst]. destruct (u32_of_slice _) as [x|e'|] eqn:U; cbn [bind]; try discriminate.
      - destruct (x + TAG_SIZE <=? len (s_buf (took 0 4 st)) - 4); discriminate.
      - unfold u32_of_slice in U. destruct (len _ =? 4); discriminate U. }
    destruct (fst (co_length C (ntake 4 (sin st)) (took 0 4 st))) as [[lenb l]|e|]; [| |reflexivity].
    2:{ destruct e; try reflexivity. destruct (NR e eq_refl). }
    specialize (R _ _ eq_refl). rewrite (took_buf 0 4 st) in R by lia. cbn [fst snd]. rewrite (took_buf 0 4 st) by lia.
    replace (4 + (l + TAG_SIZE) <=? len (s_buf st)) with true by lia. cbn [negb]. rewrite took_in, len_ndrop.
    destruct (l + TAG_SIZE <=? len (sin st) - 4) eqn:LL.
    - assert (NR' : forall st0 e st1, co_data C lenb l st0 <> (Err (In_Read e), st1)).
      { intros st0 e st1. unfold co_data. destruct (idx_to _ _) as [data|e'|] eqn:X; try discriminate.
        - destruct (decrypt_data _ _ _) as [[u|e'|] [c d]]; try discriminate. intros E. apply pair_eq in E as [E _].
          destruct (wrap_raw _ _ _) as [p|e'|]; cbn [map_err bind] in E; try discriminate E. exact (payload_no_err _ _ E).
        - unfold idx_to in X. destruct (_ <=? len (s_buf st0)); discriminate X. }
      destruct (co_data C lenb l (took 4 (l + TAG_SIZE) (took 0 4 st))) as [[p|e|] st1] eqn:D; [reflexivity| |reflexivity].
      destruct e; try reflexivity. destruct (NR' _ _ _ D).
    - eexists. split; [reflexivity|]. assert (Z : ndrop (len (sin st) - 4) (sin (took 0 4 st)) = []) by (apply ndrop_all; rewrite took_in, len_ndrop; lia).
      set (st1 := took 0 4 st) in *. unfold took. rewrite Z. apply same_set.
  Qed.
  (** It can be dropped while it reads, or later. *)
  Lemma length_in s st hd : co_length C hd (s_set (with_in s (s_conn st)) (s_buf st) st) = (fst (co_length C hd st), s_set (with_in s (s_conn st)) (s_buf st) st).
  Proof. reflexivity. Qed.
  Lemma fst_conn_recv s st : fst (conn_recv C (s_buf st) (with_in s (s_conn st))) = fst (s_recv C (s_set (with_in s (s_conn st)) (s_buf st) st)).
  Proof. unfold s_recv. cbn [s_set s_buf s_conn]. destruct (conn_recv C (s_buf st) (with_in s (s_conn st))) as [r [k b]]. reflexivity. Qed.
  Lemma cut_read_iff n st s : cut_read C n st = Some s <->
    n <= len (sin st) /\ 4 <= len (s_buf st) /\ s = took 0 n st /\
    (n < 4 \/ exists lenb l, fst (co_length C (ntake 4 (sin st)) (took 0 4 st)) = Ok (lenb, l) /\ 4 <= n < 4 + (l + TAG_SIZE)).
  Proof.
    unfold cut_read. rewrite fst_conn_recv. set (st0 := s_set (with_in (ntake n (sin st)) (s_conn st)) (s_buf st) st).
    assert (LI : len (sin st0) = N.min n (len (sin st))) by (unfold st0; cbn [s_set s_conn with_in k_in]; apply len_ntake).
    assert (LB : s_buf st0 = s_buf st) by reflexivity.
    destruct (N.leb_spec n (len (sin st))) as [LN|LN]; [|split; [discriminate|lia]].
    rewrite s_recv_eq, LB. destruct (N.leb_spec 4 (len (s_buf st))) as [L4|L4]; cbn [negb fst]; [|split; [discriminate|lia]].
    rewrite LI. destruct (N.leb_spec 4 (N.min n (len (sin st)))) as [L5|L5].
    2:{ cbn [fst]. split.
        - intros E. apply Some_inj in E. split; [exact LN|]. split; [exact L4|]. split; [symmetry; exact E|]. left. lia.
        - intros (_ & _ & -> & _). reflexivity. }
    cbv zeta. rewrite length_st.
    assert (E4 : ntake 4 (sin st0) = ntake 4 (sin st)).
    { unfold st0. cbn [s_set s_conn with_in k_in]. rewrite BaseFacts.ntake_ntake. f_equal. lia. }
    rewrite E4. rewrite (length_same _ (took 0 4 st0) (took 0 4 st)); [|reflexivity|rewrite !took_buf by (rewrite ?LB; lia); reflexivity].
    assert (NRd : forall e, fst (co_length C (ntake 4 (sin st)) (took 0 4 st)) <> Err (In_Read e)).
    { intros e. unfold co_length. cbn [fst]. destruct (u32_of_slice _) as [x|e'|] eqn:U; cbn [bind]; try discriminate.
      - destruct (x + TAG_SIZE <=? len (s_buf (took 0 4 st)) - 4); discriminate.
      - unfold u32_of_slice in U. destruct (len _ =? 4); discriminate U. }
    destruct (fst (co_length C (ntake 4 (sin st)) (took 0 4 st))) as [[lenb l]|e|]; cbn [fst].
    - destruct (N.leb_spec (l + TAG_SIZE) (N.min n (len (sin st)) - 4)) as [LL|LL]; cbn [fst].
      + split.
        * intros E. exfalso. destruct (co_data C lenb l (took 4 (l + TAG_SIZE) (took 0 4 st0))) as [[p|e|] st1] eqn:D; cbn [fst] in E; try discriminate E.
          destruct e; try discriminate E. revert D. unfold co_data. destruct (idx_to _ _) as [data|e'|] eqn:X; try discriminate.
          -- destruct (decrypt_data _ _ _) as [[u|e'|] [c d]]; try discriminate. intros D. apply pair_eq in D as [D _].
             destruct (wrap_raw _ _ _) as [p|e'|]; cbn [map_err bind] in D; try discriminate D. exact (payload_no_err _ _ D).
          -- unfold idx_to in X. destruct (_ <=? len (s_buf _)); discriminate X.
        * intros (_ & _ & _ & [L|(lenb' & l' & E & L)]); [lia|]. apply Ok_inj in E. apply pair_eq in E as [_ <-]. lia.
      + split.
        * intros E. apply Some_inj in E. split; [exact LN|]. split; [exact L4|]. split; [symmetry; exact E|]. right. exists lenb, l. split; [reflexivity|lia].
        * intros (_ & _ & -> & _). reflexivity.
    - split.
      + destruct e; try discriminate. destruct (NRd e eq_refl).
      + intros (_ & _ & _ & [L|(lenb' & l' & E & L)]); [lia|discriminate E].
    - split; [discriminate|]. intros (_ & _ & _ & [L|(lenb' & l' & E & L)]); [lia|discriminate E].
  Qed.
  Lemma visits_recv k st s : visits (co_recv C k) st s <->
    (exists n, cut_read C n st = Some s) \/ (exists p st1, s_recv C st = (Ok p, st1) /\ visits (k p) st1 s).
  Proof.
    rewrite s_recv_eq. unfold co_recv. cbn [AsyncThm.visits]. rewrite N.add_0_l.
    destruct (N.leb_spec 4 (len (s_buf st))) as [L4|L4]; cbn [negb].
    2:{ split; [intros [L _]; lia|]. intros [(n & E)|(p & st1 & E & _)]; [apply cut_read_iff in E; lia|discriminate E]. }
    destruct (N.leb_spec 4 (len (sin st))) as [L5|L5].
    2:{ split.
        - intros [_ [(i & I1 & I2 & ->)|(I1 & _)]]; [|lia]. left. exists i. apply cut_read_iff. split; [exact I2|]. split; [exact L4|]. split; [reflexivity|]. left. exact I1.
        - intros [(n & E)|(p & st1 & E & _)]; [|discriminate E]. apply cut_read_iff in E as (E1 & _ & -> & _). split; [exact L4|]. left. exists n. split; [lia|]. auto. }
    cbv zeta. rewrite length_st. pose proof (length_room (ntake 4 (sin st)) (took 0 4 st)) as R. rewrite took_buf in R by lia.
    assert (EARLY : forall i, i < 4 -> cut_read C i st = Some (took 0 i st)).
    { intros i I1. apply cut_read_iff. split; [lia|]. split; [exact L4|]. split; [reflexivity|]. left. exact I1. }
    destruct (fst (co_length C (ntake 4 (sin st)) (took 0 4 st))) as [[lenb l]|e|] eqn:CL; cbn [fst snd].
    - specialize (R _ _ eq_refl). rewrite took_buf by lia. rewrite took_in, len_ndrop.
      destruct (N.leb_spec (l + TAG_SIZE) (len (sin st) - 4)) as [LL|LL].
      + split.
        * intros [_ [(i & I1 & I2 & ->)|(_ & V)]]; [left; exists i; apply EARLY, I1|]. destruct V as [_ [(i & I1 & I2 & ->)|(_ & V)]].
          -- left. exists (4 + i). apply cut_read_iff. split; [lia|]. split; [exact L4|]. split; [|right; exists lenb, l; split; [exact CL|lia]].
             rewrite <- (took_more 0 4 (4 + i)) by lia. f_equal. lia.
          -- right. destruct (co_data C lenb l (took 4 (l + TAG_SIZE) (took 0 4 st))) as [[p|e|] st1]; [|destruct V..]. eauto.
        * intros [(n & E)|(p & st1 & E & V)].
          -- apply cut_read_iff in E as (E1 & _ & -> & E2). split; [exact L4|]. destruct (N.ltb_spec n 4); [left; exists n; auto|]. right. split; [exact L5|].
             destruct E2 as [E2|(lenb' & l' & E2 & E3)]; [lia|]. rewrite CL in E2. apply Ok_inj, pair_eq in E2 as [_ <-]. split; [lia|]. left. exists (n - 4).
             split; [lia|]. split; [lia|]. symmetry. apply (took_more 0 4 n); lia.
          -- split; [exact L4|]. right. split; [exact L5|]. split; [lia|]. right. split; [exact LL|]. rewrite E. exact V.
      + split.
        * intros [_ [(i & I1 & I2 & ->)|(_ & V)]]; [left; exists i; apply EARLY, I1|]. destruct V as [_ [(i & I1 & I2 & ->)|(I1 & _)]]; [|lia].
          left. exists (4 + i). apply cut_read_iff. split; [lia|]. split; [exact L4|]. split; [|right; exists lenb, l; split; [exact CL|lia]].
          rewrite <- (took_more 0 4 (4 + i)) by lia. f_equal. lia.
        * intros [(n & E)|(p & st1 & E & V)]; [|discriminate E].
          apply cut_read_iff in E as (E1 & _ & -> & E2). split; [exact L4|]. destruct (N.ltb_spec n 4); [left; exists n; auto|]. right. split; [exact L5|].
          split; [lia|]. left. exists (n - 4). split; [lia|]. split; [lia|]. symmetry. apply (took_more 0 4 n); lia.
    - split.
      + intros [_ [(i & I1 & I2 & ->)|(_ & V)]]; [left; exists i; apply EARLY, I1|]. destruct V.
      + intros [(n & E)|(p & st1 & E & V)]; [|discriminate E]. apply cut_read_iff in E as (E1 & _ & -> & [E2|(lenb' & l' & E2 & _)]).
        * split; [exact L4|]. left. exists n. auto.
        * rewrite CL in E2. discriminate E2.
    - split.
      + intros [_ [(i & I1 & I2 & ->)|(_ & V)]]; [left; exists i; apply EARLY, I1|]. destruct V.
      + intros [(n & E)|(p & st1 & E & V)]; [|discriminate E]. apply cut_read_iff in E as (E1 & _ & -> & [E2|(lenb' & l' & E2 & _)]).
        * split; [exact L4|]. left. exists n. auto.
        * rewrite CL in E2. discriminate E2.
  Qed.

  (** ** Sending *)
  Lemma eval_send m k st : len (sout st) <= lim -> eval (co_send C rng m k) st =
    match s_send_b lim C rng m st with
    | (Ok _, st1) => eval k st1
    | (Err e, st1) => (Err e, st1)
    | (Panic, st1) => (Panic, st1)
    end.
  Proof.
    intros L. unfold co_send, s_send_b, conn_send_b. cbn [AsyncThm.eval]. unfold co_seal.
    destruct (Out_send C (k_wr (s_conn st)) (s_buf st) (fill_message m) (rng (k_sent (s_conn st)))) as [[[w c] buf]|e|]; cbn [bind]; try reflexivity.
    cbn [s_set s_conn k_out]. unfold write_lim.
    destruct (N.leb_spec (len (sout st) + len w) lim) as [L1|L1].
    - rewrite orb_true_r. cbn [fst snd]. unfold s_event. cbn [wrote s_set s_conn s_buf k_out with_out]. reflexivity.
    - destruct (is_empty w) eqn:W; [apply is_empty_true in W; subst w; change (len (@nil byte)) with 0 in L1; lia|]. cbn [orb].
      rewrite app_nil_r. destruct (N.leb_spec lim (len (sout st))) as [L2|L2].
      + rewrite ntake_app by lia. reflexivity.
      + rewrite ntake_app_ge by lia. reflexivity.
  Qed.
  Lemma send_b_out m st st1 : s_send_b lim C rng m st = (Ok tt, st1) -> len (sout st1) <= lim.
  Proof.
    unfold s_send_b, conn_send_b. destruct (Out_send _ _ _ _ _) as [[[w c] buf]|e|]; cbn [bind]; try discriminate. unfold write_lim.
    destruct (N.leb_spec (len (sout st) + len w) lim) as [L1|L1]; [|discriminate]. intros E. apply pair_eq in E as [_ <-]. cbn [s_conn k_out]. rewrite len_app. exact L1.
  Qed.
  Lemma visits_send m k st s : visits (co_send C rng m k) st s <->
    (exists n, s_cut C rng n m st = (Ok tt, s) /\ (n = 0 \/ len (sout s) <= lim)) \/
    (exists w c buf, Out_send C (k_wr (s_conn st)) (s_buf st) (fill_message m) (rng (k_sent (s_conn st))) = Ok (w, c, buf) /\
      (w = [] \/ len (sout st) + len w <= lim) /\
      visits k {| s_conn := {| k_rd := k_rd (s_conn st); k_wr := c; k_in := sin st; k_out := sout st ++ w; k_sent := k_sent (s_conn st) + 1 |};
                  s_buf := buf; s_chans := s_chans st; s_stdout := s_stdout st; s_stderr := s_stderr st;
                  s_wait := s_wait st; s_children := s_children st; s_log := s_log st ++ [SE_Sent m] |} s).
  Proof.
    unfold co_send, s_cut, conn_send. cbn [AsyncThm.visits]. unfold co_seal.
    destruct (Out_send C (k_wr (s_conn st)) (s_buf st) (fill_message m) (rng (k_sent (s_conn st)))) as [[[w c] buf]|e|]; cbn [bind].
    2,3: split; [intros []|intros [(n & E & _)|(w & c & buf & E & _)]; discriminate E].
    cbn [s_set s_conn k_out]. unfold s_event at 1.
    set (st1 := {| s_conn := {| k_rd := k_rd (s_conn st); k_wr := c; k_in := sin st; k_out := sout st; k_sent := k_sent (s_conn st) + 1 |};
                   s_buf := buf; s_chans := s_chans st; s_stdout := s_stdout st; s_stderr := s_stderr st;
                   s_wait := s_wait st; s_children := s_children st; s_log := s_log st |}).
    assert (CUT : forall n, (if len (sout st) + n <? len (sout st ++ w)
      then (Ok tt, s_set (with_out (ntake (len (sout st) + n) (sout st ++ w)) {| k_rd := k_rd (s_conn st); k_wr := c; k_in := sin st; k_out := sout st ++ w; k_sent := k_sent (s_conn st) + 1 |}) buf st)
      else (@Panic InError unit, st)) = if n <? len w then (Ok tt, wrote (ntake n w) st1) else (Panic, st)).
    { intros n. rewrite len_app. replace (len (sout st) + n <? len (sout st) + len w) with (n <? len w) by lia. rewrite ntake_app_ge by lia.
      replace (len (sout st) + n - len (sout st)) with n by lia. reflexivity. }
    split.
    - intros [(NB & ->)|[(i & I1 & I2 & ->)|(I1 & V)]].
      + left. exists 0. rewrite CUT. split; [|left; reflexivity]. assert (0 < len w) by (destruct w; [congruence|]; unfold len; cbn [length]; lia).
        replace (0 <? len w) with true by lia. rewrite ntake_0, wrote_nil. reflexivity.
      + left. exists i. rewrite CUT. replace (i <? len w) with true by lia. split; [reflexivity|]. right. change (len (sout st) + i <= lim) in I2. rewrite wrote_out, len_app, len_ntake. cbn [s_set s_conn k_out]. lia.
      + right. exists w, c, buf. split; [reflexivity|]. split; [exact I1|exact V].
    - intros [(n & E & L)|(w' & c' & buf' & E & L & V)].
      + rewrite CUT in E. destruct (N.ltb_spec n (len w)) as [LW|LW]; [|discriminate E]. apply pair_eq in E as [_ <-].
        destruct (N.eqb_spec n 0) as [->|N0].
        * left. split; [intros ->; change (len (@nil byte)) with 0 in LW; lia|]. rewrite ntake_0, wrote_nil. reflexivity.
        * right. left. exists n. split; [lia|]. split; [|reflexivity]. destruct L as [L|L]; [lia|]. rewrite wrote_out, len_app, len_ntake in L. change (sout st1) with (sout st) in L. change (len (sout st) + n <= lim). lia.
      + apply Ok_inj, pair_eq in E as [E <-]. apply pair_eq in E as [<- <-]. right. right. split; [exact L|exact V].
  Qed.
End Programs.
