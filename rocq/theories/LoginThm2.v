(** A login await by await comes to what [authenticate_new_client_b] does. *)
From Coq Require Import Init.Byte Strings.Byte.
From Verif Require Export LoginThm.
Open Scope res_scope.

(** Unfolding. *)
Definition lg_id {A} (t : Lg A) : Lg A :=
  match t with Lg_Ret a => Lg_Ret a | Lg_Read n k => Lg_Read n k | Lg_Write w k => Lg_Write w k | Lg_Call k => Lg_Call k end.
Lemma lg_id_eq {A} (t : Lg A) : t = lg_id t.
Proof. destruct t; reflexivity. Qed.

Section Programs.
  Context {A : Type} (lim : N).
  Notation yl := (@yields A lim).

  (** * Readers *)
  Definition reads {E X} (f : (res E X -> Lg A) -> Lg A) (g : stream -> res E X * stream) : Prop :=
    forall k s o r s1 a s' o', g s = (r, s1) -> yl (k r) s1 o a s' o' -> yl (f k) s o a s' o'.
  Lemma read_1 s : read_exact 1 s = match s with [] => (Err UnexpectedEof, []) | b :: s => (Ok [b], s) end.
  Proof. destruct s as [|b s]; [reflexivity|]. apply read_all. unfold len. cbn [length]. lia. Qed.
  Lemma scan_reads st : reads (lg_scan st) (ident_scan st).
  Proof.
    intros k s. revert st. induction s as [|b s IH]; intros st o r s1 a s' o' E Y; rewrite (lg_id_eq (lg_scan st k)); cbn [lg_id lg_scan ident_scan] in *;
      (eapply Y_Read; [rewrite read_1; reflexivity|]).
    - apply pair_eq in E as [<- <-]. exact Y.
    - cbn beta iota. destruct (ident_step st b) as [st'|]; [exact (IH _ _ _ _ _ _ _ E Y)|]. apply pair_eq in E as [<- <-]. exact Y.
  Qed.
  Lemma body_reads got_cr acc : reads (lg_body got_cr acc) (ident_body got_cr acc).
  Proof.
    intros k s. revert got_cr acc. induction s as [|b s IH]; intros got_cr acc o r s1 a s' o' E Y; rewrite (lg_id_eq (lg_body got_cr acc k)); cbn [lg_id lg_body ident_body] in *;
      (eapply Y_Read; [rewrite read_1; reflexivity|]).
    - apply pair_eq in E as [<- <-]. exact Y.
    - cbn beta iota. destruct (ident_body_step got_cr acc b) as [[acc'|[got_cr' acc']]|e|]; [|exact (IH _ _ _ _ _ _ _ _ E Y)|..]; apply pair_eq in E as [<- <-]; exact Y.
  Qed.
  Lemma ident_reads : reads lg_ident ident_parse.
  Proof.
    intros k s o r s1 a s' o' E Y. unfold lg_ident, ident_parse in *. destruct (ident_scan St_EolLf s) as [r0 s0] eqn:S. eapply scan_reads; [exact S|].
    destruct r0 as [x|e|]; [|apply pair_eq in E as [<- <-]; exact Y..]. clear S. destruct (read_exact 4 s0) as [r2 s2] eqn:S. eapply Y_Read; [exact S|].
    destruct r2 as [b|e|]; [|apply pair_eq in E as [<- <-]; exact Y..]. destruct (negb (bytes_eqb b (B "2.0-"))); [apply pair_eq in E as [<- <-]; exact Y|].
    destruct (ident_push_all [] (B "SSH-2.0-")) as [acc|e|]; [|apply pair_eq in E as [<- <-]; exact Y..]. clear S. destruct (ident_body false acc s2) as [r3 s3] eqn:S.
    eapply body_reads; [exact S|]. destruct r3; apply pair_eq in E as [<- <-]; exact Y.
  Qed.
  Lemma packet_reads buf pad bs : reads (lg_packet buf pad bs) (fun s => packet_parse buf s pad bs).
  Proof.
    intros k s o r s1 a s' o' E Y. unfold lg_packet, packet_parse in *. destruct (negb (4 <=? len buf)); [apply pair_eq in E as [<- <-]; exact Y|].
    destruct (read_exact 4 s) as [r2 s2] eqn:S. eapply Y_Read; [exact S|]. destruct r2 as [hd|e|]; [|apply pair_eq in E as [<- <-]; exact Y..].
    cbv zeta in *. destruct (h <- idx_to (splice 0 hd buf) 4 ;; u32_of_slice h) as [l|e|]; [|apply pair_eq in E as [<- <-]; exact Y..].
    destruct (len (splice 0 hd buf) <? l); [apply pair_eq in E as [<- <-]; exact Y|]. destruct (l <? 8); [apply pair_eq in E as [<- <-]; exact Y|].
    destruct (t <- idx_from (E:=PacketParseError) (splice 0 hd buf) 4 ;; idx_to t l) as [x|e|]; [|apply pair_eq in E as [<- <-]; exact Y..].
    clear S. destruct (read_exact l s2) as [r3 s3] eqn:S. eapply Y_Read; [exact S|]. destruct r3; apply pair_eq in E as [<- <-]; exact Y.
  Qed.

  (** * host.rs *)
  Definition does {X} (m : LIO A X) (f : IO X) : Prop :=
    forall k s o r s1 o1 a s' o', f s o = (r, s1, o1) -> yl (k r) s1 o1 a s' o' -> yl (m k) s o a s' o'.
  Lemma does_bind {X Z} (m : LIO A X) f (m' : X -> LIO A Z) f' : does m f -> (forall x, does (m' x) (f' x)) -> does (lio_bind m m') (io_bind f f').
  Proof.
    intros D D' k s o r s1 o1 a s' o' E Y. unfold io_bind in E. unfold lio_bind. destruct (f s o) as [[r0 s0] o0] eqn:F. eapply D; [exact F|].
    destruct r0 as [x|e|].
    - exact (D' x _ _ _ _ _ _ _ _ _ E Y).
    - apply pair_eq in E as [E <-]. apply pair_eq in E as [<- <-]. exact Y.
    - apply pair_eq in E as [E <-]. apply pair_eq in E as [<- <-]. exact Y.
  Qed.
  Lemma does_ret {X} (r : res HandleNewClientError X) : does (lio_ret r) (io_ret r).
  Proof. intros k s o r' s1 o1 a s' o' E Y. apply pair_eq in E as [E <-]. apply pair_eq in E as [<- <-]. exact Y. Qed.
  Lemma does_run {E X} (r : res E X) : does (lio_run r) (io_run r).
  Proof. apply does_ret. Qed.
  Lemma does_write b : does (lio_write b) (io_write_lim lim b).
  Proof.
    intros k s o r s1 o1 a s' o' E Y. unfold io_write_lim in E. destruct (write_lim lim o b) as [o2 whole] eqn:W. eapply Y_Write; [exact W|].
    apply pair_eq in E as [E <-]. apply pair_eq in E as [<- <-]. exact Y.
  Qed.
  Lemma does_read {E X} f g (e : E -> HandleNewClientError) : reads f g -> does (lio_read (X:=X) f e) (io_read g e).
  Proof.
    intros D k s o r s1 o1 a s' o' Q Y. unfold io_read in Q. destruct (g s) as [r0 s0] eqn:G. apply pair_eq in Q as [Q <-]. apply pair_eq in Q as [<- <-].
    eapply D; [exact G|exact Y].
  Qed.
  Lemma handshake_does H R : does (lg_handshake H R) (handle_new_client_b lim H R).
  Proof.
    unfold lg_handshake, handle_new_client_b, handle_new_client_on. cbv zeta.
    repeat lazymatch goal with
    | |- does (lio_bind _ _) _ => apply does_bind; [|intros ?]
    | |- does (lio_ret _) _ => apply does_ret
    | |- does (lio_run _) _ => apply does_run
    | |- does (lio_write _) _ => apply does_write
    | |- does (lio_read lg_ident _) _ => apply does_read, ident_reads
    | |- does (lio_read _ _) _ => apply does_read, packet_reads
    | |- does (match ?x with _ => _ end) _ => destruct x
    end.
  Qed.

  (** * server.rs *)
  Context {U : Type} (C : Crypto) (rng : N -> N -> bytes) (h : AHandlers U) (sid : bytes).
  Notation ain st := (k_in (a_conn st)).
  Notation aout st := (k_out (a_conn st)).
  Definition acts {X} (m : LM U A X) (f : @AM U X) : Prop :=
    forall st k s o r st1 a s' o', f (with_io s o st) = (r, st1) ->
      yl (k r (with_io (ain st) (aout st) st1)) (ain st1) (aout st1) a s' o' -> yl (m st k) s o a s' o'.
  Lemma with_self (st : ASt U) : with_io (ain st) (aout st) st = st.
  Proof. destruct st as [[] ? ? ? ?]. reflexivity. Qed.
  Lemma acts_bind {X Z} (m : LM U A X) f (m' : X -> LM U A Z) f' : acts m f -> (forall x, acts (m' x) (f' x)) -> acts (lm_bind m m') (abind f f').
  Proof.
    intros D D' st k s o r st1 a s' o' E Y. unfold abind in E. unfold lm_bind. destruct (f (with_io s o st)) as [r0 st0] eqn:F. eapply D; [exact F|].
    destruct r0 as [x|e|].
    - eapply (D' x); [|exact Y]. change (with_io (ain st0) (aout st0) (with_io (ain st) (aout st) st0)) with (with_io (ain st0) (aout st0) st0).
      rewrite with_self. exact E.
    - apply pair_eq in E as [<- <-]. exact Y.
    - apply pair_eq in E as [<- <-]. exact Y.
  Qed.
  Definition quiet {X} (f : @AM U X) : Prop :=
    forall s o st, f (with_io s o st) = (fst (f st), with_io s o (snd (f st))) /\ ain (snd (f st)) = ain st /\ aout (snd (f st)) = aout st.
  Lemma acts_do {X} (f : @AM U X) : quiet f -> acts (lm_do f) f.
  Proof.
    intros W st k s o r st1 a s' o' E Y. destruct (W s o st) as (W1 & W2 & W3). rewrite W1 in E. unfold lm_do. destruct (f st) as [r0 st0]. cbn [fst snd] in *.
    apply pair_eq in E as [<- <-]. cbn [with_io a_conn k_in k_out] in Y. rewrite <- W2, <- W3 in Y.
    change (with_io (ain st0) (aout st0) (with_io s o st0)) with (with_io (ain st0) (aout st0) st0) in Y. rewrite with_self in Y. exact Y.
  Qed.
  Lemma acts_call {X} (f : @AM U X) : quiet f -> acts (lm_call f) f.
  Proof. intros W st k s o r st1 a s' o' E Y. apply Y_Call. exact (acts_do f W st k s o r st1 a s' o' E Y). Qed.
  Lemma quiet_ret {X} (r : res unit X) : quiet (aret r).
  Proof. repeat split. Qed.
  Lemma quiet_exists us se al ke : quiet (a_exists h us se al ke).
  Proof. repeat split. Qed.
  Lemma quiet_auth us se au : quiet (a_authenticate h us se au).
  Proof. repeat split. Qed.
  Lemma quiet_sign us se al bl : quiet (a_sign_data sid us se al bl).
  Proof. intros s o st. unfold a_sign_data. cbn [with_io a_message]. destruct (format_sign_data _ _ _ _ _ _). repeat split. Qed.
  Lemma acts_ret {X} (r : res unit X) : acts (lm_do (aret r)) (aret r).
  Proof. apply acts_do, quiet_ret. Qed.
  Lemma recv_acts f : acts (lg_recv C f) (fun st => let '(r, st) := a_recv C st in (f r, st)).
  Proof.
    intros st k s o r st1 a s' o' E Y. unfold a_recv, conn_recv, In_recv, In_recv_gen in E. unfold lg_recv. cbv zeta.
    cbn [with_io a_conn a_buf a_mini a_message a_log k_rd k_wr k_in k_out k_sent] in E. unfold a_set.
    assert (OK : forall c buf sx rx st',
      (let '(r, st) := (let '(r, (k0, buf)) := (let '(r, (c, buf, s)) := (rx, (c, buf, sx)) in (r, ({| k_rd := c; k_wr := k_wr (a_conn st); k_in := s; k_out := o; k_sent := k_sent (a_conn st) |}, buf))) in
        (r, {| a_conn := k0; a_buf := buf; a_mini := a_mini st; a_message := a_message st; a_log := a_log st |})) in (f r, st)) = (r, st1) ->
      k_rd (a_conn st') = c -> a_buf st' = buf -> k_wr (a_conn st') = k_wr (a_conn st) -> k_sent (a_conn st') = k_sent (a_conn st) ->
      a_mini st' = a_mini st -> a_message st' = a_message st -> a_log st' = a_log st -> ain st' = ain st -> aout st' = aout st -> yl (k (f rx) st') sx o a s' o').
    { intros c buf sx rx st' Q X1 X2 X3 X4 X5 X6 X7 X8 X9. apply pair_eq in Q as [Q1 Q2]. subst r st1. cbn [a_conn k_in k_out] in Y.
      replace st' with (with_io (ain st) (aout st) {| a_conn := {| k_rd := c; k_wr := k_wr (a_conn st); k_in := sx; k_out := o; k_sent := k_sent (a_conn st) |};
        a_buf := buf; a_mini := a_mini st; a_message := a_message st; a_log := a_log st |}); [exact Y|].
      destruct st' as [[] ? ? ? ?]. cbn in *. unfold with_io. cbn. congruence. }
    destruct (negb (4 <=? len (a_buf st))); [eapply OK; [exact E|reflexivity..]|].
    destruct (read_exact 4 s) as [r2 s2] eqn:S. eapply Y_Read; [exact S|]. destruct r2 as [hd|e|]; [|eapply OK; [exact E|reflexivity..]..].
    destruct (u32_of_slice (E:=InError) (decrypt_length C (k_rd (a_conn st)) hd)) as [l|e|]; [|eapply OK; [exact E|reflexivity..]..].
    destruct (negb (l + TAG_SIZE <=? len (splice 0 hd (a_buf st)) - 4)); [eapply OK; [exact E|reflexivity..]|].
    clear S. destruct (read_exact (l + TAG_SIZE) s2) as [r3 s3] eqn:S. eapply Y_Read; [exact S|]. destruct r3 as [d|e|]; [|eapply OK; [exact E|reflexivity..]..].
    destruct (idx_to (E:=InError) (splice 4 d (splice 0 hd (a_buf st))) (4 + l + TAG_SIZE)) as [data|e|]; [|eapply OK; [exact E|reflexivity..]..].
    destruct (decrypt_data C (k_rd (a_conn st)) data) as [[x|e|] [c data']]; (eapply OK; [exact E|reflexivity..]).
  Qed.
  Lemma send_acts mini m : acts (lg_send C rng mini m) (a_send_b lim C rng mini m).
  Proof.
    intros st k s o r st1 a s' o' E Y. unfold a_send_b, conn_send_b in E. unfold lg_send. cbv zeta.
    cbn [with_io a_conn a_buf a_mini a_message a_log k_rd k_wr k_in k_out k_sent] in E.
    destruct (Out_send C (k_wr (a_conn st)) (if mini then a_mini st else a_buf st) (fill_message m) (rng (k_sent (a_conn st)))) as [[[w c] buf]|e|]; cbn [bind] in E.
    - destruct (write_lim lim o w) as [o1 whole] eqn:W. eapply Y_Write; [exact W|]. apply pair_eq in E as [<- <-]. destruct mini; exact Y.
    - apply pair_eq in E as [<- <-]. change (with_io (ain st) (aout st) (with_io s o st)) with (with_io (ain st) (aout st) st) in Y. rewrite with_self in Y. exact Y.
    - apply pair_eq in E as [<- <-]. change (with_io (ain st) (aout st) (with_io s o st)) with (with_io (ain st) (aout st) st) in Y. rewrite with_self in Y. exact Y.
  Qed.
  Ltac acts_go := repeat first
    [ apply acts_bind; [|intros ?]
    | apply acts_ret | apply send_acts
    | apply (recv_acts unwrap) | apply (recv_acts (map_err (fun _ => tt)))
    | apply acts_call, quiet_exists | apply acts_call, quiet_auth | apply acts_do, quiet_sign
    | match goal with |- acts (if ?x then _ else _) _ => destruct x end
    | match goal with |- acts (match ?x with _ => _ end) _ => destruct x end ].
  Lemma service_acts : acts (lg_service C rng) (auth_service_b lim C rng).
  Proof. unfold lg_service, auth_service_b. acts_go. Qed.
  Lemma abind_assoc {X Y Z} (m : @AM U X) (f : X -> @AM U Y) (g : Y -> @AM U Z) st : abind (abind m f) g st = abind m (fun x => abind (f x) g) st.
  Proof. unfold abind. destruct (m st) as [[x|e|] st1]; reflexivity. Qed.
  Lemma method_acts ua : acts (lg_method C rng h sid ua) (auth_method_b lim C rng h sid ua).
  Proof.
    unfold auth_method_b, auth_method, auth_query_b. intros st k. unfold lg_method. destruct (ua_method ua) as [|alg blob|alg kb sg|pw|pw pw'|? ? ? ? ?|? ?].
    - exact (acts_ret _ st k).
    - intros s o r st1 a s' o' E. rewrite abind_assoc in E. revert st k s o r st1 a s' o' E.
      change (acts (key <& lm_do (aret (blob_of alg blob)) ;; (r <& lm_call (a_exists h (ua_user ua) (ua_service ua) alg key) ;;
        _ <& lg_send C rng true (match r with Ok _ => Msg_UserAuth (UA_PublicKeyOk alg blob) | _ => ua_failure end) ;; lm_do (aret (Ok (@None Auth)))))
        (key <@ aret (blob_of alg blob) ;; abind (r <@ a_exists h (ua_user ua) (ua_service ua) alg key ;;
          a_send_b lim C rng true (match r with Ok _ => Msg_UserAuth (UA_PublicKeyOk alg blob) | _ => ua_failure end)) (fun _ => aret (Ok None)))).
      apply acts_bind; [apply acts_ret|]. intros key. intros st k s o r st1 a s' o' E. rewrite abind_assoc in E. revert st k s o r st1 a s' o' E.
      change (acts (r <& lm_call (a_exists h (ua_user ua) (ua_service ua) alg key) ;;
        _ <& lg_send C rng true (match r with Ok _ => Msg_UserAuth (UA_PublicKeyOk alg blob) | _ => ua_failure end) ;; lm_do (aret (Ok (@None Auth))))
        (r <@ a_exists h (ua_user ua) (ua_service ua) alg key ;;
          _ <@ a_send_b lim C rng true (match r with Ok _ => Msg_UserAuth (UA_PublicKeyOk alg blob) | _ => ua_failure end) ;; aret (Ok (@None Auth)))).
      acts_go.
    - revert st k. change (acts (key <& lm_do (aret (blob_of alg kb)) ;; signature <& lm_do (aret (blob_of alg sg)) ;;
        message <& lm_do (a_sign_data sid (ua_user ua) (ua_service ua) alg kb) ;; lm_do (aret (Ok (Some (Auth_PublicKey alg key signature message)))))
        (key <@ aret (blob_of alg kb) ;; signature <@ aret (blob_of alg sg) ;;
          message <@ a_sign_data sid (ua_user ua) (ua_service ua) alg kb ;; aret (Ok (Some (Auth_PublicKey alg key signature message))))).
      acts_go.
    - exact (acts_ret _ st k).
    - exact (acts_ret _ st k).
    - exact (acts_ret _ st k).
    - exact (acts_ret _ st k).
  Qed.
  Lemma round_acts : acts (lg_round C rng h sid) (auth_round_b lim C rng h sid).
  Proof.
    unfold lg_round, auth_round_b. acts_go; try apply method_acts. intros st k. unfold lg_answer. destruct x3 as [auth|]; [|exact (acts_ret _ st k)].
    revert st k. match goal with |- forall st k s o r st1 a s' o', ?f _ = _ -> _ => change (acts (r <& lm_call (a_authenticate h (ua_user x2) (ua_service x2) auth) ;;
       fun st k =>
       match r with
       | Ok user => (_ <& lg_send C rng false (Msg_UserAuth UA_Success) ;; lm_do (aret (Ok (Some user)))) st k
       | _ => (_ <& lg_send C rng false ua_failure ;; lm_do (aret (Ok None))) st k
       end) f) end.
    apply acts_bind; [apply acts_call, quiet_auth|]. intros r st k. revert st k. destruct r as [user|e|].
    1: change (acts (_ <& lg_send C rng false (Msg_UserAuth UA_Success) ;; lm_do (aret (Ok (Some user)))) (_ <@ a_send_b lim C rng false (Msg_UserAuth UA_Success) ;; aret (Ok (Some user)))).
    2,3: change (acts (_ <& lg_send C rng false ua_failure ;; lm_do (aret (Ok None))) (_ <@ a_send_b lim C rng false ua_failure ;; aret (Ok (@None U)))).
    all: acts_go.
  Qed.
End Programs.

(** * A login *)
Section Login.
  Context {U : Type} (lim : N) (H : Host) (R : HostRng) (C : Crypto) (rng : N -> N -> bytes) (h : AHandlers U).
  Notation ain st := (k_in (a_conn st)).
  Notation aout st := (k_out (a_conn st)).

  Lemma loop_eq sid st : lg_loop C rng h sid st = lg_round C rng h sid st (fun r st =>
    match r with
    | Ok (Some user) => Lg_Ret (LR_Auth (Ok user) st)
    | Ok None => lg_loop C rng h sid st
    | Err e => Lg_Ret (LR_Auth (Err e) st)
    | Panic => Lg_Ret (LR_Auth Panic st)
    end).
  Proof.
    rewrite (lg_id_eq (lg_loop C rng h sid st)). match goal with |- _ = ?y => transitivity (lg_id y); [reflexivity|symmetry; apply lg_id_eq] end.
  Qed.
  Definition blank : ASt U -> ASt U := with_io [] [].
  Lemma loop_yields sid fuel : forall st r st1, auth_loop_b lim C rng h sid fuel st = Some (r, st1) ->
    yields lim (lg_loop C rng h sid (blank st)) (ain st) (aout st) (LR_Auth r (blank st1)) (ain st1) (aout st1).
  Proof.
    induction fuel as [|fuel IH]; intros st r st1 E; [discriminate E|]. cbn [auth_loop_b] in E. rewrite loop_eq.
    destruct (auth_round_b lim C rng h sid st) as [r0 st0] eqn:Q. eapply round_acts; [unfold blank; change (with_io (ain st) (aout st) (with_io [] [] st)) with (with_io (ain st) (aout st) st); rewrite with_self; exact Q|].
    change (with_io (ain (blank st)) (aout (blank st)) st0) with (blank st0). destruct r0 as [[u|]|e|].
    2: { apply IH, E. }
    all: apply Some_inj, pair_eq in E as [<- <-]; apply Y_Ret.
  Qed.
  Lemma init_with k s o : with_io s o (auth_init k) = auth_init (U:=U) {| k_rd := k_rd k; k_wr := k_wr k; k_in := s; k_out := o; k_sent := k_sent k |}.
  Proof. unfold with_io. unfold auth_init. cbn [a_conn a_buf a_mini a_message a_log]. reflexivity. Qed.
  Lemma init_io k : ain (auth_init (U:=U) k) = k_in k /\ aout (auth_init (U:=U) k) = k_out k.
  Proof. unfold auth_init. cbn [a_conn]. split; reflexivity. Qed.
  Lemma phase_from i sid s o n r st1 :
    match auth_service_b lim C rng (with_io s o i) with
    | (Ok _, st) => auth_loop_b lim C rng h sid n st
    | (Err e, st) => Some (Err e, st)
    | (Panic, st) => Some (Panic, st)
    end = Some (r, st1) -> ain i = [] -> aout i = [] ->
    yields lim (lg_service C rng i (fun r st =>
      match r with
      | Ok _ => lg_loop C rng h sid st
      | Err e => Lg_Ret (LR_Auth (Err e) st)
      | Panic => Lg_Ret (LR_Auth Panic st)
      end)) s o (LR_Auth r (blank st1)) (ain st1) (aout st1).
  Proof.
    intros E Z1 Z2. destruct (auth_service_b lim C rng (with_io s o i)) as [r0 st0] eqn:Q. eapply service_acts; [exact Q|]. rewrite Z1, Z2.
    change (with_io [] [] st0) with (blank st0). destruct r0 as [x|e|].
    - apply (loop_yields _ _ _ _ _ E).
    - apply Some_inj, pair_eq in E as [<- <-]. apply Y_Ret.
    - apply Some_inj, pair_eq in E as [<- <-]. apply Y_Ret.
  Qed.
  Lemma phase_eq sid k : lg_phase C rng h sid k = lg_service C rng (auth_init k) (fun r st =>
    match r with
    | Ok _ => lg_loop C rng h sid st
    | Err e => Lg_Ret (LR_Auth (Err e) st)
    | Panic => Lg_Ret (LR_Auth Panic st)
    end).
  Proof. unfold lg_phase. reflexivity. Qed.
  Lemma phase_b_eq sid k : auth_phase_b lim C rng h sid k =
    match auth_service_b lim C rng (auth_init k) with
    | (Ok _, st) => auth_loop_b lim C rng h sid (S (length (k_in k))) st
    | (Err e, st) => Some (Err e, st)
    | (Panic, st) => Some (Panic, st)
    end.
  Proof. unfold auth_phase_b. reflexivity. Qed.
  Lemma phase_yields sid k r st1 : auth_phase_b lim C rng h sid k = Some (r, st1) ->
    yields lim (lg_phase C rng h sid {| k_rd := k_rd k; k_wr := k_wr k; k_in := []; k_out := []; k_sent := k_sent k |}) (k_in k) (k_out k)
      (LR_Auth r (blank st1)) (ain st1) (aout st1).
  Proof.
    rewrite phase_b_eq, phase_eq. destruct k as [rd wr s o sent]. cbn [k_rd k_wr k_in k_out k_sent]. intros E.
    destruct (init_io {| k_rd := rd; k_wr := wr; k_in := []; k_out := []; k_sent := sent |}) as [Z1 Z2].
    apply (phase_from _ sid s o (S (length s))); [|exact Z1|exact Z2]. rewrite init_with. cbn [k_rd k_wr k_sent]. exact E.
  Qed.
  Lemma login_yields s out : authenticate_new_client_b lim H R C rng h s = Some out ->
    exists x s' o', yields lim (lg_login H R C rng h) s [] x s' o' /\ l_outcome x s' o' = out.
  Proof.
    intros E. unfold authenticate_new_client_b in E. unfold lg_login. destruct (handle_new_client_b lim H R s []) as [[r s1] o1] eqn:Q. destruct r as [c|e|].
    - destruct (auth_phase_b lim C rng h (session_identifier c) (conn_of c s1 o1)) as [[r st]|] eqn:P; [|discriminate E]. apply Some_inj in E. subst out.
      exists (LR_Auth r (blank st)), (ain st), (aout st). split.
      + eapply handshake_does; [exact Q|]. exact (phase_yields _ _ _ _ P).
      + cbn [l_outcome]. f_equal. unfold blank. change (with_io (ain st) (aout st) (with_io [] [] st)) with (with_io (ain st) (aout st) st). apply with_self.
    - apply Some_inj in E. subst out. exists (LR_Handshake false), s1, o1. split; [|reflexivity]. eapply handshake_does; [exact Q|]. apply Y_Ret.
    - apply Some_inj in E. subst out. exists (LR_Handshake true), s1, o1. split; [|reflexivity]. eapply handshake_does; [exact Q|]. apply Y_Ret.
  Qed.
End Login.
