(** Proofs about the authentication phase. *)
From Coq Require Import Init.Byte Strings.Byte.
From Verif Require Export ConnFacts.
Open Scope res_scope.
Open Scope w_scope.
Open Scope a_scope.

Ltac linv :=
  repeat match goal with
  | H : Forall (fun _ => len _ < _) (_ :: _) |- _ => apply Forall_cons_iff in H; let H1 := fresh "F" in destruct H as [H1 H]
  | H : Forall (fun _ => len _ < _) [] |- _ => clear H
  end.
(** ** Data to sign *)
Lemma sign_data_wr sid user service algorithm blob :
  Forall (fun s => len s < 2 ^ 32) [sid; user; service; algorithm; blob] ->
  wr (_ <~ make_string2 sid ;;
      _ <~ make_raw [n2b UA_REQUEST] ;;
      _ <~ make_string2 user ;;
      _ <~ make_string2 service ;;
      _ <~ make_string2 (B "publickey") ;;
      _ <~ make_bool true ;;
      _ <~ make_string2 algorithm ;;
      _ <~ make_string2 blob ;;
      wret tt) (sign_data sid user service algorithm blob) tt.
Proof.
  intros F. linv. assert (len (B "publickey") < 2 ^ 32) by reflexivity.
  eapply wr_eq; [wrt| |reflexivity].
  unfold sign_data, enc. cbn [map concat enc1]. rewrite ?app_nil_r. reflexivity.
Qed.
Lemma format_sign_data_spec buf sid user service algorithm blob :
  Forall (fun s => len s < 2 ^ 32) [sid; user; service; algorithm; blob] ->
  let d := sign_data sid user service algorithm blob in
  if len d <=? len buf
  then format_sign_data buf sid user service algorithm blob = (Ok d, d ++ ndrop (len d) buf)
  else fst (format_sign_data buf sid user service algorithm blob) = Err tt.
Proof.
  intros F d. pose proof (sign_data_wr _ _ _ _ _ F [] buf) as [S1 S2]. fold d in S1, S2.
  unfold format_sign_data. destruct (N.leb_spec (len d) (len buf)) as [L|L].
  - rewrite S1 by exact L. cbn [app]. f_equal. unfold idx_to. rewrite len_app.
    replace (_ <=? _) with true by lia. f_equal.
    replace (len d + len (ndrop (len d) buf) - len (ndrop (len d) buf)) with (len d) by lia.
    apply ntake_app. lia.
  - destruct (S2 L) as ([w b] & E). rewrite E. reflexivity.
Qed.

Lemma byte_cons n s : enc1 (FByte n) ++ s = n2b n :: s.
Proof. reflexivity. Qed.
Lemma sign_data_inj sid1 user1 service1 alg1 blob1 sid2 user2 service2 alg2 blob2 :
  Forall (fun s => len s < 2 ^ 32) [sid1; user1; service1; alg1; blob1] ->
  Forall (fun s => len s < 2 ^ 32) [sid2; user2; service2; alg2; blob2] ->
  sign_data sid1 user1 service1 alg1 blob1 = sign_data sid2 user2 service2 alg2 blob2 ->
  [sid1; user1; service1; alg1; blob1] = [sid2; user2; service2; alg2; blob2].
Proof.
  intros F1 F2 E. linv. unfold sign_data in E. rewrite !enc_cons, !enc_nil in E.
  apply str_inj in E as [-> E]; [|assumption..].
  apply app_len_inj in E as [_ E]; [|reflexivity].
  apply str_inj in E as [-> E]; [|assumption..].
  apply str_inj in E as [-> E]; [|assumption..].
  apply app_len_inj in E as [_ E]; [|reflexivity].
  apply app_len_inj in E as [_ E]; [|reflexivity].
  apply str_inj in E as [-> E]; [|assumption..].
  apply str_inj in E as [-> E]; [|assumption..]. reflexivity.
Qed.

(** ** Blobs *)
Lemma named_eq algorithm key : named algorithm key = (be32 (len algorithm) ++ algorithm) ++ (be32 (len key) ++ key).
Proof. unfold named, enc. cbn [map concat enc1]. rewrite app_nil_r. reflexivity. Qed.
Lemma len_named algorithm key : len (named algorithm key) = 8 + len algorithm + len key.
Proof. rewrite named_eq. lens. rewrite !be32_len. lia. Qed.
Lemma blob_of_Ok algorithm blob key : len blob < 2 ^ 32 -> blob_of algorithm blob = Ok key <-> blob = named algorithm key.
Proof.
  intros L. unfold blob_of. rewrite bind_Ok. split.
  - intros ([a b] & P1 & H). rewrite bind_Ok in H. destruct H as ([k b'] & P2 & H).
    apply parse_string_Ok in P1 as [L1 ->]. apply parse_string_Ok in P2 as [L2 ->].
    destruct b' as [|]; [|discriminate H]. cbn [is_empty negb] in H.
    destruct (bytes_eqb algorithm a) eqn:Q; [|discriminate H]. cbn [negb] in H. apply bytes_eqb_true in Q. subst a.
    apply Ok_inj in H. subst k. rewrite app_nil_r, named_eq. reflexivity.
  - intros ->. rewrite len_named in L. exists (algorithm, be32 (len key) ++ key). split.
    + apply parse_string_Ok. split; [lia|apply named_eq].
    + rewrite bind_Ok. exists (key, []). split.
      * apply parse_string_Ok. split; [lia|]. rewrite app_nil_r. reflexivity.
      * cbn [is_empty negb]. rewrite bytes_eqb_refl. reflexivity.
Qed.
Lemma blob_of_cases algorithm blob : len blob < 2 ^ 32 ->
  (exists key, blob_of algorithm blob = Ok key /\ blob = named algorithm key) \/
  (blob_of algorithm blob = Err tt /\ forall key, blob <> named algorithm key).
Proof.
  intros L. destruct (blob_of algorithm blob) as [key|[]|] eqn:E.
  - left. exists key. split; [reflexivity|]. apply blob_of_Ok in E; assumption.
  - right. split; [reflexivity|]. intros key ->. assert (X : blob_of algorithm (named algorithm key) = Ok key) by (apply blob_of_Ok; [exact L|reflexivity]). congruence.
  - exfalso. unfold blob_of in E. pose proof (parse_string_np blob) as N1. destruct (parse_string blob) as [[a b]|[]|]; cbn [bind] in E; [|discriminate E|apply N1; reflexivity].
    pose proof (parse_string_np b) as N2. destruct (parse_string b) as [[k b']|[]|]; cbn [bind] in E; [|discriminate E|apply N2; reflexivity].
    destruct (negb (is_empty b')); [discriminate E|]. destruct (negb (bytes_eqb algorithm a)); discriminate E.
Qed.

(** ** What fits *)
Lemma room_mini n : room n <= 256 <-> n <= 227.
Proof.
  unfold room. pose proof (wrap_pad_range B8 false n) as R. pose proof (wrap_pad_aligned B8 false n) as [k A].
  cbn [bs_usize] in R, A. set (p := wrap_pad 8 false n) in *. clearbody p. split; intros H; lia.
Qed.

Lemma len_zeros n : len (zeros n) = n.
Proof. unfold zeros, len. rewrite repeat_length. lia. Qed.

Section Rounds.
  Context {U : Type} (C : Crypto) (rng : N -> N -> bytes) (h : AHandlers U) (sid : bytes).
  Context (K : crypto_ok C) (R : rngs_ok rng).

  Definition ainv (st : ASt U) : Prop :=
    len (a_buf st) = 35000 /\ len (a_mini st) = 256 /\ len (a_message st) = 1024 /\
    counter (k_rd (a_conn st)) < 2 ^ 64 /\ counter (k_wr (a_conn st)) < 2 ^ 64.

  (** [st'] is [st] after taking the payloads [pls] off the input and after the
      events [evs]. *)
  Definition astep (st st' : ASt U) (pls : list bytes) (evs : list (AEvent U)) : Prop :=
    k_rd (a_conn st') = later (len pls) (k_rd (a_conn st)) /\
    k_wr (a_conn st') = later (len (sent evs)) (k_wr (a_conn st)) /\
    k_sent (a_conn st') = k_sent (a_conn st) + len (sent evs) /\
    received_as C (k_rd (a_conn st)) (k_in (a_conn st)) pls (k_in (a_conn st')) /\
    written_as C (k_wr (a_conn st)) (k_out (a_conn st)) (map wire (sent evs)) (k_out (a_conn st')) /\
    a_log st' = a_log st ++ evs /\
    (answered_by h (a_log st) -> answered_by h (a_log st')).

  Lemma sent_app (a b : list (AEvent U)) : sent (a ++ b) = sent a ++ sent b.
  Proof. apply flat_map_app. Qed.
  Lemma later_0 c : counter c < 2 ^ 64 -> later 0 c = c.
  Proof. intros L. unfold later. rewrite N.add_0_r, N.mod_small by exact L. destruct c; reflexivity. Qed.
  Lemma astep_refl st : ainv st -> astep st st [] [].
  Proof.
    intros (_ & _ & _ & L1 & L2). unfold astep. cbn [sent flat_map map]. rewrite len_nil, !later_0, N.add_0_r, app_nil_r by assumption.
    repeat split; auto; [apply received_nil|apply written_nil].
  Qed.
  Lemma astep_trans st1 st2 st3 p1 e1 p2 e2 : astep st1 st2 p1 e1 -> astep st2 st3 p2 e2 -> astep st1 st3 (p1 ++ p2) (e1 ++ e2).
  Proof.
    intros (A1 & B1 & C1 & D1 & E1 & F1 & G1) (A2 & B2 & C2 & D2 & E2 & F2 & G2). unfold astep.
    rewrite sent_app, map_app, !len_app. split; [rewrite A2, A1, later_later; reflexivity|].
    split; [rewrite B2, B1, later_later; reflexivity|]. split; [lia|].
    split; [eapply received_app; [exact D1|]; rewrite <- A1; exact D2|].
    split; [eapply written_app; [exact E1|]; unfold len; rewrite map_length; fold (len (sent e1)); rewrite <- B1; exact E2|].
    split; [rewrite F2, F1, app_assoc; reflexivity|auto].
  Qed.

  (** *** The building blocks *)
  Lemma bump_lt c : counter (bump c) < 2 ^ 64.
  Proof. unfold bump. cbn [counter]. apply N.mod_lt. discriminate. Qed.
  Lemma a_recv_cases st : ainv st ->
    (exists pl st', a_recv C st = (Ok pl, st') /\ ainv st' /\ astep st st' [pl] [] /\
       next_payload C (k_rd (a_conn st)) 35000 (k_in (a_conn st)) pl) \/
    (exists e st', a_recv C st = (Err e, st') /\ a_log st' = a_log st /\ k_out (a_conn st') = k_out (a_conn st) /\
       forall pl, ~ next_payload C (k_rd (a_conn st)) 35000 (k_in (a_conn st)) pl).
  Proof.
    intros (LB & LM & LG & L1 & L2).
    destruct (conn_recv_spec C (a_buf st) (a_conn st) K ltac:(lia)) as [(pl & pad & raw & rest & buf' & P & E & LR & LB' & V)|(NP & e & c' & s' & buf' & V)].
    - left. unfold a_recv. rewrite V. eexists pl, _. split; [reflexivity|].
      split; [unfold ainv; cbn [a_buf a_mini a_message a_conn k_rd k_wr]; rewrite LB'; auto using bump_lt|].
      split.
      + unfold astep. cbn [a_conn k_rd k_wr k_in k_out k_sent a_log sent flat_map map]. rewrite len_nil, later_0, N.add_0_r, app_nil_r by assumption.
        split; [apply bump_later|]. split; [reflexivity|]. split; [reflexivity|].
        split; [rewrite E; eapply received_one; eassumption|]. split; [apply written_nil|]. auto.
      + exists pad, raw, rest. rewrite <- LB. auto.
    - right. unfold a_recv. rewrite V. eexists e, _. split; [reflexivity|]. cbn [a_log a_conn k_out]. repeat split.
      rewrite <- LB. exact NP.
  Qed.

  Lemma answered_app (log : list (AEvent U)) e : answered_by h log ->
    match e with
    | AE_Exists user service algorithm key r => r = h_exists h log user service algorithm key
    | AE_Authenticate user service auth r => r = h_authenticate h log user service auth
    | AE_Sent _ => True
    end -> answered_by h (log ++ [e]).
  Proof.
    intros A E pre e' post D. destruct post as [|x post'] using rev_ind.
    - apply app_inj_tail in D as [<- <-]. exact E.
    - clear IHpost'. change (pre ++ e' :: post' ++ [x]) with (pre ++ (e' :: post') ++ [x]) in D. rewrite app_assoc in D.
      apply app_inj_tail in D as [D _]. eapply A. exact D.
  Qed.

  Lemma a_send_mini_cases m st : ainv st -> message_ok m ->
    (exists st', a_send_mini C rng m st = (Ok tt, st') /\ ainv st' /\ astep st st' [] [AE_Sent m] /\ len (wire m) <= 227) \/
    (a_send_mini C rng m st = (Panic, st) /\ 227 < len (wire m)).
  Proof.
    intros (LB & LM & LG & L1 & L2) M.
    pose proof (conn_send_spec C rng m (a_mini st) (a_conn st) K R M ltac:(rewrite LM; reflexivity)) as S. rewrite LM in S.
    pose proof (room_mini (len (wire m))) as RM. destruct (N.leb_spec (room (len (wire m))) 256) as [L|L].
    - left. destruct S as (k' & buf' & V & LV & (S1 & S2 & S3 & S4 & S5)). unfold a_send_mini. rewrite V. eexists. split; [reflexivity|].
      split; [unfold ainv; cbn [a_buf a_mini a_message a_conn]; rewrite S1, S4; auto using bump_lt|]. split; [|lia].
      unfold astep. cbn [a_conn sent flat_map app map a_log]. rewrite S1, S2, S3, S4, len_nil, later_0 by assumption.
      split; [reflexivity|]. split; [apply bump_later|]. split; [reflexivity|]. split; [apply received_nil|]. split; [auto|].
      split; [reflexivity|]. intros A. apply answered_app; [exact A|exact I].
    - right. unfold a_send_mini. rewrite S. split; [reflexivity|lia].
  Qed.
  Lemma a_send_Ok m st : ainv st -> message_ok m -> len (wire m) < 1000 ->
    exists st', a_send C rng m st = (Ok tt, st') /\ ainv st' /\ astep st st' [] [AE_Sent m].
  Proof.
    intros (LB & LM & LG & L1 & L2) M LW.
    pose proof (conn_send_spec C rng m (a_buf st) (a_conn st) K R M ltac:(rewrite LB; reflexivity)) as S. rewrite LB in S.
    pose proof (room_range (len (wire m))) as RM. replace (_ <=? 35000) with true in S by lia.
    destruct S as (k' & buf' & V & LV & (S1 & S2 & S3 & S4 & S5)). unfold a_send. rewrite V. eexists. split; [reflexivity|].
    split; [unfold ainv; cbn [a_buf a_mini a_message a_conn]; rewrite S1, S4; repeat split; auto using bump_lt; congruence|].
    unfold astep. cbn [a_conn sent flat_map app map a_log]. rewrite S1, S2, S3, S4, len_nil, later_0 by assumption.
    split; [reflexivity|]. split; [apply bump_later|]. split; [reflexivity|]. split; [apply received_nil|]. split; [auto|].
    split; [reflexivity|]. intros A. apply answered_app; [exact A|exact I].
  Qed.
  Lemma log_step e st : ainv st -> 
    match e with
    | AE_Exists user service algorithm key r => r = h_exists h (a_log st) user service algorithm key
    | AE_Authenticate user service auth r => r = h_authenticate h (a_log st) user service auth
    | AE_Sent _ => False
    end -> ainv (a_log_event e st) /\ astep st (a_log_event e st) [] [e].
  Proof.
    intros V E. split; [exact V|]. unfold astep, a_log_event. cbn [a_conn a_log].
    assert (N : sent [e] = []) by (destruct e; [contradiction|reflexivity..]). destruct V as (_ & _ & _ & L1 & L2).
    rewrite N, len_nil, !later_0, N.add_0_r by assumption.
    repeat split; [apply received_nil|apply written_nil|]. intros A. apply answered_app; [exact A|]. destruct e; auto.
  Qed.

  (** *** The service request *)
  Lemma wire_unique m m' pl : is_wire m pl -> is_wire m' pl -> is_ecdh_reply m = false -> is_ecdh_reply m' = false -> m = m'.
  Proof. intros W W' E E'. apply wire_parse in W, W'; try assumption. congruence. Qed.

  Lemma one_payload c size s pl pl' : next_payload C c size s pl -> next_payload C c size s pl' -> pl = pl'.
  Proof.
    intros NP NP'. assert (Z : len (zeros size) = size) by (unfold zeros, len; rewrite repeat_length; lia).
    assert (L : 4 <= size) by (destruct NP as (? & ? & ? & ? & ? & ?); lia). rewrite <- Z in NP, NP'.
    apply (recv_iff C c (zeros size) s _ K ltac:(lia)) in NP, NP'. congruence.
  Qed.

  Lemma auth_service_cases st : ainv st -> let '(r, st') := auth_service C rng st in
    match r with
    | Ok _ => exists pl, is_wire (Msg_ServiceRequest (B "ssh-userauth")) pl /\ ainv st' /\
        next_payload C (k_rd (a_conn st)) 35000 (k_in (a_conn st)) pl /\
        astep st st' [pl] [AE_Sent (Msg_ServiceAccept (B "ssh-userauth"))]
    | Err _ => False
    | Panic => no_service C (k_rd (a_conn st)) (k_in (a_conn st)) /\ a_log st' = a_log st /\ k_out (a_conn st') = k_out (a_conn st)
    end.
  Proof.
    intros V. unfold auth_service, abind at 1, a_unwrap.
    destruct (a_recv_cases st V) as [(pl & st1 & E & V1 & S1 & NP)|(e & st1 & E & LG & OUT & NN)]; rewrite E; cbn [unwrap].
    2:{ split; [|auto]. intros pl X _. exact (NN pl X). }
    assert (ST : a_log st1 = a_log st /\ k_out (a_conn st1) = k_out (a_conn st)).
    { destruct S1 as (_ & _ & _ & _ & (ws & X & W) & -> & _). rewrite app_nil_r. split; [reflexivity|].
      destruct W as [W _]. destruct ws; [|discriminate W]. cbn [concat] in X. rewrite app_nil_r in X. exact X. }
    assert (ONE : forall pl', next_payload C (k_rd (a_conn st)) 35000 (k_in (a_conn st)) pl' -> pl' = pl).
    { intros pl' NP'. exact (one_payload _ _ _ _ _ NP' NP). }
    unfold abind at 1, aret at 1. destruct (Message_parse pl) as [m|e|] eqn:P; cbn [unwrap].
    2:{ split; [|exact ST]. intros pl' X W. apply ONE in X. subst pl'. apply wire_parse in W; [congruence|reflexivity]. }
    2:{ exfalso. eapply Message_parse_np; eassumption. }
    apply parse_wire in P as W.
    assert (OTHER : (forall s, m <> Msg_ServiceRequest s) -> no_service C (k_rd (a_conn st)) (k_in (a_conn st))).
    { intros N pl' X W'. apply ONE in X. subst pl'. apply wire_parse in W'; [|reflexivity]. apply (N (B "ssh-userauth")). congruence. }
    unfold abind at 1, aret at 1.
    destruct m as [| | | | | | | |srv| | |]; cbn [into_service_request unwrap]; try (split; [apply OTHER; discriminate|exact ST]).
    destruct (bytes_eqb srv (B "ssh-userauth")) eqn:Q.
    - apply bytes_eqb_true in Q. subst srv.
      assert (M : message_ok (Msg_ServiceAccept (B "ssh-userauth"))).
      { split; [repeat constructor|]. exact (proj2 (proj1 W)). }
      destruct (a_send_mini_cases _ st1 V1 M) as [(st2 & E2 & V2 & S2 & _)|[_ L]]; [|exfalso; revert L; clear; vm_compute; discriminate].
      rewrite E2. exists pl. split; [exact W|]. split; [exact V2|]. split; [exact NP|]. exact (astep_trans _ _ _ _ _ _ _ S1 S2).
    - unfold aret. split; [|exact ST]. intros pl' X W'. apply ONE in X. subst pl'.
      apply wire_parse in W'; [|reflexivity]. rewrite P in W'. apply Ok_inj in W'. injection W' as ->. rewrite bytes_eqb_refl in Q. discriminate Q.
  Qed.

  (** *** One round *)
  Definition quiet (st st' : ASt U) (tail : list (AEvent U)) : Prop :=
    a_log st' = a_log st ++ tail /\ k_out (a_conn st') = k_out (a_conn st) /\
    (answered_by h (a_log st) -> answered_by h (a_log st')).
  Lemma step_quiet st st' pls evs : astep st st' pls evs -> sent evs = [] -> quiet st st' evs.
  Proof.
    intros (_ & _ & _ & _ & (ws & X & W) & L & A) S. rewrite S in W. split; [exact L|]. split; [|exact A].
    destruct W as [W _]. destruct ws; [|discriminate W]. cbn [concat] in X. rewrite app_nil_r in X. exact X.
  Qed.

  Definition round_result (st : ASt U) (x : res unit (option U) * ASt U) : Prop :=
    let '(r, st') := x in
    match r with
    | Ok o => exists pl q rd, is_wire (Msg_UserAuth (UA_Request q)) pl /\ causes sid q rd /\ ainv st' /\ astep st st' [pl] (events rd) /\
        match o with
        | None => ~ successful rd
        | Some u => exists user service auth, rd = Attempt user service auth (Some u)
        end
    | Err _ => declined C (k_rd (a_conn st)) (k_in (a_conn st)) /\ quiet st st' []
    | Panic => exists tail, fatal C (k_rd (a_conn st)) sid (k_in (a_conn st)) tail /\ quiet st st' tail
    end.

  Lemma failure_ok : message_ok failure.
  Proof.
    split; [repeat constructor|]. exists [B "publickey"; B "password"]. split; [|reflexivity].
    repeat constructor; try discriminate; cbn; reflexivity.
  Qed.
  Lemma success_ok : message_ok (Msg_UserAuth UA_Success).
  Proof. split; [repeat constructor|exact I]. Qed.
  Lemma wire_ok_len a b : len (wire (Msg_UserAuth (UA_PublicKeyOk a b))) = 9 + len a + len b.
  Proof. unfold wire, enc. cbn [message_fields userauth_fields map concat enc1]. lens. rewrite !be32_len. lia. Qed.

  (** The attempt itself: the handler's call and the answer. *)
  Definition auth_attempt (ua : UARequest) (auth : Auth) : @AM U (option U) :=
    r <@ a_authenticate h (ua_user ua) (ua_service ua) auth ;;
    match r with
    | Ok user => _ <@ a_send C rng (Msg_UserAuth UA_Success) ;; aret (Ok (Some user))
    | _ => _ <@ a_send C rng ua_failure ;; aret (Ok None)
    end.
  Lemma auth_attempt_cases q auth st : ainv st -> let '(r, st') := auth_attempt q auth st in
    match r with
    | Ok o => ainv st' /\ astep st st' [] (events (Attempt (ua_user q) (ua_service q) auth o))
    | Err _ => False
    | Panic => quiet st st' [AE_Authenticate (ua_user q) (ua_service q) auth Panic]
    end.
  Proof.
    intros V. unfold auth_attempt, abind at 1, a_authenticate.
    set (r := h_authenticate h (a_log st) (ua_user q) (ua_service q) auth).
    destruct (log_step (AE_Authenticate (ua_user q) (ua_service q) auth r) st V eq_refl) as [V1 S1].
    destruct r as [u|[]|].
    - destruct (a_send_Ok _ _ V1 success_ok eq_refl) as (st2 & E & V2 & S2). unfold abind. rewrite E. unfold aret.
      split; [exact V2|]. exact (astep_trans _ _ _ _ _ _ _ S1 S2).
    - destruct (a_send_Ok _ _ V1 failure_ok eq_refl) as (st2 & E & V2 & S2). unfold abind. change ua_failure with failure. rewrite E. unfold aret.
      split; [exact V2|]. exact (astep_trans _ _ _ _ _ _ _ S1 S2).
    - eapply step_quiet; [exact S1|reflexivity].
  Qed.

  Lemma auth_query_cases q algorithm blob key st : ainv st -> len algorithm < 2 ^ 32 -> len blob < 2 ^ 32 -> blob = named algorithm key ->
    let '(r, st') := auth_query C rng h q algorithm blob st in
    match r with
    | Ok _ => exists ok, ainv st' /\ astep st st' [] (events (Query (ua_user q) (ua_service q) algorithm key ok))
    | Err _ => False
    | Panic => let call := AE_Exists (ua_user q) (ua_service q) algorithm key in
        quiet st st' [call Panic] \/ quiet st st' [call (Ok tt)] /\ 218 < len algorithm + len blob
    end.
  Proof.
    intros V LA LB E. unfold auth_query, abind at 1, aret at 1. rewrite (proj2 (blob_of_Ok algorithm blob key LB) E).
    unfold abind at 1, a_exists.
    set (r := h_exists h (a_log st) (ua_user q) (ua_service q) algorithm key).
    destruct (log_step (AE_Exists (ua_user q) (ua_service q) algorithm key r) st V eq_refl) as [V1 S1].
    destruct r as [[]|[]|].
    - assert (M : message_ok (Msg_UserAuth (UA_PublicKeyOk algorithm blob))) by (split; [repeat constructor; assumption|exact I]).
      destruct (a_send_mini_cases _ _ V1 M) as [(st2 & E2 & V2 & S2 & _)|[E2 L]]; rewrite E2.
      + exists true. split; [exact V2|]. pose proof (astep_trans _ _ _ _ _ _ _ S1 S2) as S. rewrite E in S. exact S.
      + right. rewrite wire_ok_len in L. split; [eapply step_quiet; [exact S1|reflexivity]|lia].
    - destruct (a_send_mini_cases _ _ V1 failure_ok) as [(st2 & E2 & V2 & S2 & _)|[E2 L]]; [|exfalso; revert L; clear; vm_compute; discriminate].
      change ua_failure with failure. rewrite E2. exists false. split; [exact V2|]. exact (astep_trans _ _ _ _ _ _ _ S1 S2).
    - left. eapply step_quiet; [exact S1|reflexivity].
  Qed.

  Lemma quiet_after st st1 st2 pls tail : astep st st1 pls [] -> quiet st1 st2 tail -> quiet st st2 tail.
  Proof.
    intros S (L & O & A). pose proof (step_quiet _ _ _ _ S eq_refl) as (L1 & O1 & A1). rewrite app_nil_r in L1.
    split; [congruence|]. split; [congruence|]. auto.
  Qed.
  Context (LS : len sid < 2 ^ 32).
  Lemma auth_round_cases st : ainv st -> round_result st (auth_round C rng h sid st).
  Proof.
    intros V. unfold auth_round, abind at 1, a_try.
    destruct (a_recv_cases st V) as [(pl & st1 & E & V1 & S1 & NP)|(e & st1 & E & LG & OUT & NN)]; rewrite E; cbn [map_err].
    2:{ cbn [round_result]. split; [intros pl X; destruct (NN _ X)|]. split; [rewrite app_nil_r; exact LG|]. rewrite LG. auto. }
    pose proof (step_quiet _ _ _ _ S1 eq_refl) as Q1.
    assert (ONE : forall pl', next_payload C (k_rd (a_conn st)) 35000 (k_in (a_conn st)) pl' -> pl' = pl).
    { intros pl' NP'. exact (one_payload _ _ _ _ _ NP' NP). }
    unfold abind at 1, aret at 1. destruct (Message_parse pl) as [m|e|] eqn:P; cbn [map_err].
    2:{ cbn [round_result]. split; [|exact Q1]. intros pl' X. apply ONE in X. subst pl'. left. intros m W.
        destruct (is_ecdh_reply m) eqn:EC; [destruct m; try discriminate EC; eauto|]. apply wire_parse in W; [congruence|exact EC]. }
    2:{ exfalso. eapply Message_parse_np; eassumption. }
    apply parse_wire in P as W. assert (NE : is_ecdh_reply m = false) by (apply Message_parse_iff in P; apply P).
    unfold abind at 1, aret at 1.
    assert (OTHER : (forall u, m <> Msg_UserAuth u) -> fatal (U := U) C (k_rd (a_conn st)) sid (k_in (a_conn st)) []).
    { intros N. exists pl. split; [exact NP|]. left. exists m. split; [exact W|]. split; [exact N|]. split; [|reflexivity].
      intros r ->. discriminate NE. }
    destruct m as [| | | | | | | | | |u|]; cbn [into_user_auth unwrap round_result];
      try (exists []; split; [apply OTHER; discriminate|exact Q1]).
    clear OTHER NE. unfold abind at 1, aret at 1.
    assert (NOREQ : (forall q, u <> UA_Request q) -> declined C (k_rd (a_conn st)) (k_in (a_conn st))).
    { intros N pl' X. apply ONE in X. subst pl'. right. left. eauto. }
    destruct u as [q| | | |]; cbn [into_request round_result]; try (split; [apply NOREQ; discriminate|exact Q1]).
    clear NOREQ.
    assert (MAL : malformed q -> declined C (k_rd (a_conn st)) (k_in (a_conn st))).
    { intros N pl' X. apply ONE in X. subst pl'. right. right. eauto. }
    assert (FAT : forall tail : list (AEvent U), fatal_request sid q tail -> fatal C (k_rd (a_conn st)) sid (k_in (a_conn st)) tail).
    { intros tail X. exists pl. split; [exact NP|]. right. exists q. auto. }
    pose proof (proj1 (proj1 W)) as F.
    unfold abind at 1, auth_method.
    (* an attempt *)
    assert (ATT : forall auth st2, ainv st2 -> astep st st2 [pl] [] ->
              (forall o : option U, causes sid q (Attempt (ua_user q) (ua_service q) auth o)) ->
              fatal_request sid q [AE_Authenticate (U := U) (ua_user q) (ua_service q) auth Panic] ->
              round_result st (auth_attempt q auth st2)).
    { intros auth st2 V2 S2 CA FR. pose proof (auth_attempt_cases q auth st2 V2) as A.
      destruct (auth_attempt q auth st2) as [r st3]. destruct r as [o|[]|]; [|contradiction|].
      - destruct A as [V3 S3]. exists pl, q, (Attempt (ua_user q) (ua_service q) auth o). split; [exact W|]. split; [apply CA|].
        split; [exact V3|]. split; [exact (astep_trans _ _ _ _ _ _ _ S2 S3)|].
        destruct o as [u|]; [eauto|]. intros (? & ? & ? & ? & X). discriminate X.
      - eexists. split; [apply FAT; exact FR|]. eapply quiet_after; eassumption. }
    destruct q as [user service method]. cbn [message_fields userauth_fields ua_user ua_service ua_method app] in F.
    cbn [ua_user ua_service ua_method] in *.
    destruct method as [|alg blob|alg blob sg|pw|a b|a b c d e|a b]; cbn [method_fields] in F; finv.
    - apply (ATT Auth_None st1 V1 S1); [reflexivity|]. reflexivity.
    - (* query *)
      unfold abind at 1. destruct (blob_of_cases alg blob ltac:(assumption)) as [(key & E2 & EB)|[E2 NB]].
      + match goal with |- context [auth_query C rng h ?q alg blob st1] =>
          pose proof (auth_query_cases q alg blob key st1 V1 ltac:(assumption) ltac:(assumption) EB) as A;
          destruct (auth_query C rng h q alg blob st1) as [r st2] end.
        cbn [ua_user ua_service] in A. destruct r as [[]|[]|]; [|contradiction|]; cbn [round_result].
        * destruct A as (ok & V2 & S2). unfold aret. cbn [round_result].
          exists pl, {| ua_user := user; ua_service := service; ua_method := M_PublicKeyBlob alg blob |}, (Query user service alg key ok).
          split; [exact W|]. split; [cbn [causes]; rewrite <- EB; reflexivity|]. split; [exact V2|].
          split; [exact (astep_trans _ _ _ _ _ _ _ S1 S2)|]. intros (? & ? & ? & ? & X). discriminate X.
        * destruct A as [A|[A L]]; (eexists; split; [|eapply quiet_after; eassumption]); apply FAT; exists key; auto.
      + unfold auth_query, abind at 1, aret at 1. rewrite E2. cbn [round_result]. split; [apply MAL; exact NB|exact Q1].
    - (* signature *)
      unfold abind at 1, aret at 1. destruct (blob_of_cases alg blob ltac:(assumption)) as [(key & E2 & EB)|[E2 NB]]; rewrite E2.
      2:{ cbn [round_result]. split; [apply MAL; left; exact NB|exact Q1]. }
      unfold abind at 1, aret at 1. destruct (blob_of_cases alg sg ltac:(assumption)) as [(s & E3 & ES)|[E3 NS]]; rewrite E3.
      2:{ cbn [round_result]. split; [apply MAL; right; exact NS|exact Q1]. }
      unfold abind at 1, a_sign_data.
      pose proof (format_sign_data_spec (a_message st1) sid user service alg blob ltac:(repeat constructor; assumption)) as FS. cbv zeta in FS.
      destruct V1 as (LB & LM & LG & L1 & L2). rewrite LG in FS.
      set (data := sign_data sid user service alg blob) in *.
      destruct (N.leb_spec (len data) 1024) as [LD|LD].
      + rewrite FS. cbn [unwrap]. unfold aret at 1.
        refine (ATT _ _ _ _ _ _).
        * unfold ainv. cbn [a_buf a_mini a_message a_conn]. repeat split; auto. lens. lia.
        * exact S1.
        * intros o. cbn [causes]. rewrite <- EB, <- ES. split; reflexivity.
        * exists key, s. split; [exact EB|]. split; [exact ES|]. right. reflexivity.
      + destruct (format_sign_data (a_message st1) sid user service alg blob) as [r msg]. cbn [fst] in FS. subst r.
        cbn [unwrap round_result]. exists []. split; [|exact Q1]. apply FAT. exists key, s. split; [exact EB|]. split; [exact ES|].
        left. split; [reflexivity|exact LD].
    - apply (ATT (Auth_Password pw) st1 V1 S1); reflexivity.
    - unfold aret. cbn [round_result]. exists []. split; [apply FAT; reflexivity|exact Q1].
    - unfold aret. cbn [round_result]. exists []. split; [apply FAT; reflexivity|exact Q1].
    - unfold aret. cbn [round_result]. exists []. split; [apply FAT; reflexivity|exact Q1].
  Qed.

  (** *** The loop *)
  Definition round_of (pl : bytes) (rd : round U) : Prop :=
    exists q, is_wire (Msg_UserAuth (UA_Request q)) pl /\ causes sid q rd.
  Definition loop_result (st : ASt U) (r : res unit U) (st' : ASt U) : Prop :=
    exists st1 pls rounds, astep st st1 pls (concat (map events rounds)) /\ Forall2 round_of pls rounds /\
    match r with
    | Ok u => st' = st1 /\ exists rds user service auth, rounds = rds ++ [Attempt user service auth (Some u)] /\ Forall (fun rd => ~ successful rd) rds
    | Err _ => Forall (fun rd => ~ successful rd) rounds /\ declined C (k_rd (a_conn st1)) (k_in (a_conn st1)) /\ quiet st1 st' []
    | Panic => Forall (fun rd => ~ successful rd) rounds /\
        exists tail, fatal C (k_rd (a_conn st1)) sid (k_in (a_conn st1)) tail /\ quiet st1 st' tail
    end.

  Lemma received_shorter c s pl rest : received_as C c s [pl] rest -> (length rest < length s)%nat.
  Proof.
    intros (ws & -> & W). apply numbered_cons_inv in W as (w & ws' & -> & (pad & raw & P & ->) & W).
    destruct W as [W _]. destruct ws'; [|discriminate W]. cbn [concat]. rewrite app_nil_r, app_length.
    assert (L : len (seal C (key_length c) (key_data c) (counter c mod 2 ^ 64) raw) = len raw + 16).
    { apply (seal_len C {| key_length := key_length c; key_data := key_data c; counter := counter c mod 2 ^ 64 |}); [exact K|]. destruct P as (-> & _). lens. rewrite be32_len. lia. }
    unfold len in L. lia.
  Qed.

  Lemma auth_loop_cases : forall fuel st, ainv st -> (length (k_in (a_conn st)) < fuel)%nat ->
    exists r st', auth_loop C rng h sid fuel st = Some (r, st') /\ loop_result st r st'.
  Proof.
    induction fuel as [|fuel IH]; intros st V L; [lia|]. cbn [auth_loop].
    pose proof (auth_round_cases st V) as A. destruct (auth_round C rng h sid st) as [r st1]. destruct r as [[u|]|[]|]; cbn [round_result] in A.
    - destruct A as (pl & q & rd & W & CA & V1 & S1 & user & service & auth & ->). eexists _, _. split; [reflexivity|].
      exists st1, [pl], [Attempt user service auth (Some u)]. split; [cbn [map concat]; rewrite app_nil_r; exact S1|].
      split; [constructor; [exists q; auto|constructor]|]. split; [reflexivity|]. exists [], user, service, auth. auto.
    - destruct A as (pl & q & rd & W & CA & V1 & S1 & NS).
      assert (L1 : (length (k_in (a_conn st1)) < length (k_in (a_conn st)))%nat) by (destruct S1 as (_ & _ & _ & X & _); eapply received_shorter; exact X).
      destruct (IH st1 V1 ltac:(lia)) as (r & st' & E & st2 & pls & rounds & S2 & F & X). rewrite E. eexists _, _. split; [reflexivity|].
      exists st2, (pl :: pls), (rd :: rounds). split; [exact (astep_trans _ _ _ _ _ _ _ S1 S2)|].
      split; [constructor; [exists q; auto|exact F]|].
      destruct r as [u|[]|].
      + destruct X as (E2 & rds & user & service & auth & -> & X). split; [exact E2|]. exists (rd :: rds), user, service, auth. auto.
      + destruct X as (X & Y). split; [constructor; assumption|exact Y].
      + destruct X as (X & Y). split; [constructor; assumption|exact Y].
    - eexists _, _. split; [reflexivity|]. exists st, [], []. split; [apply astep_refl; exact V|]. split; [constructor|]. split; [constructor|]. exact A.
    - eexists _, _. split; [reflexivity|]. exists st, [], []. split; [apply astep_refl; exact V|]. split; [constructor|]. split; [constructor|]. exact A.
  Qed.

  (** ** The whole phase *)
  Lemma answered_nil : answered_by h [].
  Proof. intros [|? ?] e post E; discriminate E. Qed.

  Lemma auth_story k : counter (k_rd k) < 2 ^ 64 -> counter (k_wr k) < 2 ^ 64 ->
    exists r st, auth_phase C rng h sid k = Some (r, st) /\ auth_outcome C h sid k r st.
  Proof.
    intros L1 L2. assert (V : ainv (auth_init k)) by (unfold ainv, auth_init; cbn [a_buf a_mini a_message a_conn]; rewrite !len_zeros; auto).
    unfold auth_phase. pose proof (auth_service_cases _ V) as A. destruct (auth_service C rng (auth_init k)) as [r st]. destruct r as [[]|[]|].
    - destruct A as (pl & W & V1 & _ & S1).
      assert (LI : (length (k_in (a_conn st)) < length (k_in k))%nat) by (destruct S1 as (_ & _ & _ & X & _); eapply received_shorter; exact X).
      destruct (auth_loop_cases (S (length (k_in k))) st V1 ltac:(lia)) as (r & st' & E & st2 & pls & rounds & S2 & F & X).
      exists r, st'. split; [exact E|].
      pose proof (astep_trans _ _ _ _ _ _ _ S1 S2) as (A1 & A2 & A3 & A4 & A5 & A6 & A7).
      cbn [auth_init a_conn a_log app] in *. specialize (A7 answered_nil).
      assert (COMMON : forall tail, quiet st2 st' tail -> sent tail = [] ->
                answered_by h (a_log st') /\ written_as C (k_wr k) (k_out k) (map wire (sent (a_log st'))) (k_out (a_conn st')) /\
                a_log st' = AE_Sent (Msg_ServiceAccept (B "ssh-userauth")) :: concat (map events rounds) ++ tail).
      { intros tail (Q1 & Q2 & Q3) T. split; [auto|]. rewrite Q1, Q2, sent_app, T, app_nil_r, A6. split; [exact A5|reflexivity]. }
      destruct r as [u|[]|]; cbn in X.
      + destruct X as (-> & X). destruct (COMMON []) as (B1 & B2 & B3); [split; [rewrite app_nil_r; reflexivity|auto]|reflexivity|].
        split; [exact B1|]. split; [exact B2|]. right. exists pl, pls, rounds, [], (k_in (a_conn st2)). do 4 (split; [assumption|]). split; [reflexivity|]. split; [reflexivity|]. split; [exact A1|]. split; [rewrite A6; exact A2|exact X].
      + destruct X as (NS & D & Q). destruct (COMMON _ Q eq_refl) as (B1 & B2 & B3).
        split; [exact B1|]. split; [exact B2|]. right. exists pl, pls, rounds, [], (k_in (a_conn st2)). do 4 (split; [assumption|]). split; [reflexivity|]. split; [exact NS|]. rewrite A1 in D. exact D.
      + destruct X as (NS & tail & D & Q).
        assert (T : sent tail = []).
        { destruct D as (p & _ & [(m & _ & _ & _ & ->)|(q & _ & D)]); [reflexivity|]. unfold fatal_request in D.
          destruct (ua_method q); try (subst tail; reflexivity).
          - destruct D as (? & _ & [->|[-> _]]); reflexivity.
          - destruct D as (? & ? & _ & _ & [[-> _]| ->]); reflexivity. }
        destruct (COMMON _ Q T) as (B1 & B2 & B3).
        split; [exact B1|]. split; [exact B2|]. right. exists pl, pls, rounds, tail, (k_in (a_conn st2)). do 4 (split; [assumption|]). split; [exact NS|]. rewrite A1 in D. exact D.
    - contradiction.
    - destruct A as (NS & LG & OUT). cbn [auth_init a_conn a_log] in *. exists Panic, st. split; [reflexivity|].
      split; [rewrite LG; exact answered_nil|]. split; [rewrite LG, OUT; apply written_nil|]. left. auto.
  Qed.
End Rounds.
