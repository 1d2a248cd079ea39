(** Consequences of [handshake_runs]. *)
From Coq Require Import Init.Byte Strings.Byte.
From Verif Require Export HostThm RxThm.
Open Scope res_scope.

Lemma handshake_eq H R s r s' o : host_ok H -> host_rng_ok R -> handle_new_client H R s [] = (r, s', o) -> run H R s r s' o.
Proof. intros HO RO E. pose proof (handshake_runs H R s HO RO) as X. rewrite E in X. exact X. Qed.

Lemma parse_wire d m : Message_parse d = Ok m -> is_wire m d.
Proof. intros H. apply Message_parse_iff in H. apply H. Qed.
Lemma wire_parse d m : is_wire m d -> is_ecdh_reply m = false -> Message_parse d = Ok m.
Proof. intros H E. apply Message_parse_iff. auto. Qed.
Lemma newkeys_payload d : is_wire Msg_NewKeys d -> d = wire Msg_NewKeys.
Proof. intros [_ H]. cbn [message_fields reads reads1] in H. destruct H as (w1 & w2 & -> & -> & ->). reflexivity. Qed.

(** ** C29 *)
Lemma handshake_sound H R s c s' o : host_ok H -> host_rng_ok R -> handle_new_client H R s [] = (Ok c, s', o) ->
  exists pre vc ic raw1 k ec raw2 qc raw3,
    s = pre ++ vc ++ crlf ++ raw1 ++ raw2 ++ raw3 ++ s' /\ ident_ok vc /\
    plain_packet ic raw1 /\ is_wire (Msg_KexInit k) ic /\ acceptable k /\
    plain_packet ec raw2 /\ is_wire (Msg_EcdhInit qc) ec /\ len qc = 32 /\
    plain_packet (wire Msg_NewKeys) raw3 /\
    let h := exchange_hash H (ephermal R) vc ic qc in
    let K := be_value (x25519 H (ephermal R) qc) in
    server_writes H R h o /\ session_identifier c = h /\
    keyed (sha256 H) K h Enc_c2s (receive_cipher c) /\ keyed (sha256 H) K h Enc_s2c (send_cipher c) /\
    counter (receive_cipher c) = 3 /\ counter (send_cipher c) = 3.
Proof.
  intros HO RO E. apply handshake_eq in E; [|assumption..]. inversion E; subst.
  match goal with X : ident_parse s = _ |- _ => pose proof (ident_consumes _ _ _ X) as [pre P]; pose proof (proj2 (ident_safe _) _ _ X) as IO end.
  match goal with X : Message_parse nk = _ |- _ => apply parse_wire, newkeys_payload in X; subst nk end.
  exists pre, vc, ic, raw, k, ec, raw2, qc, raw3. cbv zeta.
  match goal with X : session_identifier c = _ |- _ => rewrite <- X in * end.
  split; [exact P|]. split; [exact IO|]. split; [assumption|]. split; [apply parse_wire; assumption|].
  split; [assumption|]. split; [assumption|]. split; [apply parse_wire; assumption|].
  auto 20.
Qed.

Ltac same_ident := match goal with
  | A : ident_parse ?s = (?x, _), B : ident_parse ?s = (?y, _) |- _ =>
    rewrite A in B; (discriminate B ||
      (let X := fresh in apply pair_eq in B as [B X]; try (apply Ok_inj in B; subst); try subst))
  end.
Ltac same_packet := match goal with
  | A : plain_packet ?p ?r, B : plain_packet ?q ?t, E : ?r ++ _ = ?t ++ _ |- _ =>
    let X := fresh in let Y := fresh in
    destruct (plain_inj _ _ _ _ _ _ A B E) as (X & Y & ?); subst; clear E
  end.

Section determined.
  Variables (H : Host) (R : HostRng).
  Hypothesis (HO : host_ok H) (RO : host_rng_ok R).
  Variables (ls : list bytes) (vc s1 : bytes).
  Hypothesis (LS : Forall (fun l => Forall (fun b => b <> x0d) l /\ ~ trap l) ls) (VC : ident_ok vc).
  Let s := as_lines ls ++ vc ++ crlf ++ s1.
  Lemma s_ident : ident_parse s = (Ok vc, s1).
  Proof.
    unfold s. rewrite parse_skips by exact LS. rewrite app_assoc. apply ident_round. exact VC.
  Qed.

  Lemma no_start_too_long x : starts_packet x -> ~ too_long x.
  Proof.
    intros (pl & raw & s' & -> & (pad & E & L1 & L2 & L3 & _) & L) [T1 T2].
    assert (Lr : len raw = 5 + len pl + len pad) by (rewrite E; lens; rewrite be32_len; lia).
    rewrite E, <- !app_assoc in T2. rewrite ntake_app in T2 by (rewrite be32_len; reflexivity).
    rewrite be32_value in T2 by (apply u32_pow; lia). lia.
  Qed.

  Lemma same_parse d m m' : Message_parse d = Ok m -> Message_parse d = Ok m' -> m = m'.
  Proof. intros A B. rewrite A in B. apply Ok_inj in B. exact B. Qed.

  Ltac here r := match goal with X : ~ starts_packet _ |- _ => exfalso; apply X; eexists _, r, _; split; [reflexivity|split; eassumption] end.
  Ltac notlong := match goal with X : too_long ?x |- _ => exfalso; apply (no_start_too_long x); [eexists _, _, _; split; [reflexivity|split; eassumption]|exact X] end.
  Ltac sp := match goal with
    | A : plain_packet _ ?r, B : plain_packet _ ?t, E : ?r ++ _ = ?t ++ _ |- _ =>
      let X := fresh in let Y := fresh in let Z := fresh in
      destruct (plain_inj _ _ _ _ _ _ A B E) as (X & Y & Z); clear E; subst; try clear A end.
  Ltac sm := match goal with A : Message_parse ?d = Ok ?m, B : Message_parse ?d = Ok ?m' |- _ =>
      lazymatch m with m' => fail | _ => idtac end;
      let X := fresh in pose proof (same_parse _ _ _ A B) as X; clear B; try discriminate X; try (injection X as X; subst) end.

  (** First packet. *)
  Lemma after_kexinit ic raw k s2 : s1 = raw ++ s2 -> plain_packet ic raw -> len raw <= 65536 ->
    is_wire (Msg_KexInit k) ic -> forall r s' o, run H R s r s' o ->
    (~ acceptable k -> r = Err H_UnsupportedAlgorithms /\ s' = s2 /\ server_opens H R o) /\
    (acceptable k -> r <> Err H_UnsupportedAlgorithms).
  Proof.
    intros E P L W r s' o RN. pose proof s_ident as I. apply wire_parse in W; [|reflexivity].
    destruct RN; same_ident; try (here raw); try notlong; sp; try sm; try congruence;
      (split; intros; try (exfalso; auto; fail); try congruence; auto).
  Qed.

  Lemma after_all ic raw1 k ec raw2 qc raw3 s3 :
    s1 = raw1 ++ raw2 ++ raw3 ++ s3 -> plain_packet ic raw1 -> len raw1 <= 65536 -> is_wire (Msg_KexInit k) ic -> acceptable k ->
    plain_packet ec raw2 -> len raw2 <= 65536 -> is_wire (Msg_EcdhInit qc) ec -> len qc = 32 ->
    plain_packet (wire Msg_NewKeys) raw3 -> len raw3 <= 65536 ->
    forall r s' o, run H R s r s' o -> s' = s3 /\ exists c, r = Ok c.
  Proof.
    intros E P1 L1 W1 A P2 L2 W2 Q P3 L3 r s' o RN. pose proof s_ident as I.
    apply wire_parse in W1; [|reflexivity]. apply wire_parse in W2; [|reflexivity].
    assert (W3 : Message_parse (wire Msg_NewKeys) = Ok Msg_NewKeys) by reflexivity.
    destruct RN; same_ident; try (here raw1); try notlong; sp; try sm; try (here raw2); try notlong; try contradiction; try congruence;
      try (exfalso; eauto; fail).
    all: repeat sp.
    - exfalso. apply H7. eauto.
    - here raw3.
    - notlong.
    - exfalso. eapply H11; exact W3.
    - exfalso. apply H12. eapply same_parse; eauto.
    - eauto.
  Qed.

  Lemma no_message_parse pl : is_no_message pl -> forall m, Message_parse pl <> Ok m.
  Proof. intros N m X. apply Message_parse_iff in X as [X1 X2]. destruct (N _ X1) as [r ->]. discriminate X2. Qed.
  Lemma parse_no_message pl : (forall m, Message_parse pl <> Ok m) -> is_no_message pl.
  Proof.
    intros N m W. destruct (is_ecdh_reply m) eqn:E.
    - destruct m; try discriminate E. eauto.
    - exfalso. apply (N m). apply wire_parse; assumption.
  Qed.
  Lemma init32_iff pl : is_ecdh_init32 pl <-> exists qc, Message_parse pl = Ok (Msg_EcdhInit qc) /\ len qc = 32.
  Proof.
    split; intros (qc & W & L); exists qc; (split; [|exact L]).
    - apply wire_parse; [exact W|reflexivity].
    - apply parse_wire. exact W.
  Qed.

  Ltac nostart := match goal with X : ~ starts_packet ?x, T : starts_packet ?x |- _ => contradiction end.
  Lemma hostile_panics : hostile s1 -> forall r s' o, run H R s r s' o -> r = Panic.
  Proof.
    intros HS r s' o RN. pose proof s_ident as I.
    destruct HS as [T|(ic' & raw1 & k' & t1 & E1 & P1 & L1 & W1 & A & HS)].
    { destruct RN; same_ident; try contradiction; auto; notlong. }
    apply wire_parse in W1; [|reflexivity].
    destruct HS as [T|(ec' & raw2' & t2 & E2 & P2 & L2 & HS)].
    { destruct RN; same_ident; try (here raw1); auto; sp; try sm; try contradiction; try congruence; notlong. }
    subst t1.
    destruct HS as [N|[(qc' & W2 & Q) HS]].
    { destruct RN; same_ident; try (here raw1); auto; sp; try sm; try contradiction; try congruence; try (here raw2');
        repeat sp; exfalso; apply N; apply init32_iff; eauto. }
    apply wire_parse in W2; [|reflexivity].
    destruct HS as [T|(nk' & raw3' & t3 & E3 & P3 & L3 & N)].
    { destruct RN; same_ident; try (here raw1); auto; sp; try sm; try contradiction; try congruence; try (here raw2');
        repeat sp; auto; try sm; try contradiction; notlong. }
    subst t2. pose proof (no_message_parse _ N) as N'.
    destruct RN; same_ident; try (here raw1); auto; sp; try sm; try contradiction; try congruence; try (here raw2');
      repeat sp; auto; try sm; try (here raw3'); repeat sp; auto; exfalso; eapply N'; eauto.
  Qed.
End determined.

Lemma panics_parse H R s s' o : run H R s Panic s' o -> exists vc s1, ident_parse s = (Ok vc, s1) /\ hostile s1.
Proof.
  intros RN. inversion RN; subst; eexists _, _; (split; [eassumption|]); unfold hostile, hostile2, hostile3;
      try (left; assumption); right; eexists _, _, _, _; (split; [reflexivity|]); (split; [eassumption|]); (split; [eassumption|]);
      (split; [apply parse_wire; eassumption|]); (split; [assumption|]); try (left; assumption);
      right; eexists _, _, _; (split; [reflexivity|]); (split; [eassumption|]); (split; [eassumption|]);
      try (left; rewrite init32_iff; assumption); right; (split; [rewrite init32_iff; eauto|]);
      try (left; assumption); right; eexists _, _, _; (split; [reflexivity|]); (split; [eassumption|]); (split; [eassumption|]).
  apply parse_no_message. assumption.
Qed.
Lemma panics_hostile H R s : host_ok H -> host_rng_ok R -> fst (fst (handle_new_client H R s [])) = Panic ->
  exists pre vc s1, s = pre ++ vc ++ crlf ++ s1 /\ ident_ok vc /\ hostile s1.
Proof.
  intros HO RO P. pose proof (handshake_runs H R s HO RO) as RN. rewrite P in RN.
  apply panics_parse in RN as (vc & s1 & I & HS). destruct (ident_consumes _ _ _ I) as [pre E].
  exists pre, vc, s1. split; [exact E|]. split; [|exact HS]. apply (proj2 (ident_safe _) _ _ I).
Qed.
Lemma panics_exactly H R ls vc s1 : host_ok H -> host_rng_ok R ->
  Forall (fun l => Forall (fun b => b <> x0d) l /\ ~ trap l) ls -> ident_ok vc ->
  (fst (fst (handle_new_client H R (as_lines ls ++ vc ++ crlf ++ s1) [])) = Panic <-> hostile s1).
Proof.
  intros HO RO LS VC. pose proof (handshake_runs H R (as_lines ls ++ vc ++ crlf ++ s1) HO RO) as RN. split.
  - intros P. rewrite P in RN. apply panics_parse in RN as (vc' & s1' & I & HS).
    rewrite (s_ident ls vc s1 LS VC) in I. apply pair_eq in I as [_ <-]. exact HS.
  - intros HS. eapply hostile_panics; eassumption.
Qed.

(** What was written is at least the opening, and more than that only after an
    acceptable KEXINIT and a 32-byte ECDH_INIT. *)
Lemma run_output H R s r s' o : run H R s r s' o ->
  server_opens H R o \/
  exists pre vc ic raw1 k ec raw2 qc rest, s = pre ++ vc ++ crlf ++ raw1 ++ raw2 ++ rest /\ ident_ok vc /\
    plain_packet ic raw1 /\ is_wire (Msg_KexInit k) ic /\ acceptable k /\
    plain_packet ec raw2 /\ is_wire (Msg_EcdhInit qc) ec /\ len qc = 32 /\
    server_writes H R (exchange_hash H (ephermal R) vc ic qc) o.
Proof.
  intros RN.
  assert (X : server_opens H R o \/ exists vc ic raw1 k ec raw2 qc rest, ident_parse s = (Ok vc, raw1 ++ raw2 ++ rest) /\
    plain_packet ic raw1 /\ is_wire (Msg_KexInit k) ic /\ acceptable k /\
    plain_packet ec raw2 /\ is_wire (Msg_EcdhInit qc) ec /\ len qc = 32 /\
    server_writes H R (exchange_hash H (ephermal R) vc ic qc) o).
  { destruct RN; (left; assumption) || (right; eexists _, _, _, _, _, _, _, _; (split; [eassumption|]); (split; [eassumption|]); (split; [apply parse_wire; eassumption|]);
      (split; [assumption|]); (split; [eassumption|]); (split; [apply parse_wire; eassumption|]); (split; [eassumption|]); assumption). }
  destruct X as [X|(vc & ic & raw1 & k & ec & raw2 & qc & rest & I & X)]; [left; exact X|right].
  destruct (ident_consumes _ _ _ I) as [pre P]. exists pre, vc, ic, raw1, k, ec, raw2, qc, rest.
  split; [exact P|]. split; [apply (proj2 (ident_safe _) _ _ I)|exact X].
Qed.

(** ** C32 *)
Lemma sent_numbered C : crypto_ok C -> forall jobs pls c ws c', Forall2 sends jobs pls -> counter c < 2 ^ 64 ->
  send_many C c jobs = Ok (ws, c') -> numbered C c (counter c) pls ws.
Proof.
  intros K jobs. induction jobs as [|j jobs IH]; intros pls c ws c' F Hc S.
  - inversion F; subst. apply Ok_inj in S. injection S as <- <-. split; [reflexivity|]. intros [|i] pl w X; discriminate X.
  - inversion F as [|? pl ? pls' J F']; subst. cbn [send_many] in S.
    apply bind_Ok in S as ([[w c1] b1] & S1 & S). apply bind_Ok in S as ([ws' c2] & S2 & S).
    apply Ok_inj, pair_eq in S as [<- <-].
    destruct (send_Ok _ _ _ _ _ _ _ K J S1) as (pad & raw & P & _ & _ & -> & -> & _ & _).
    destruct (IH pls' (bump c) ws' c2 F') as [L N]; [apply N.mod_lt; discriminate|exact S2|].
    split; [cbn [length]; congruence|]. intros [|i] pl0 w0 A D; cbn [nth_error] in A, D.
    + injection A as <-. apply (f_equal (fun o => match o with Some x => x | None => [] end)) in D. subst w0.
      exists pad, raw. split; [apply is_loose, P|]. unfold seal_with. rewrite N.add_0_r, N.mod_small by exact Hc. reflexivity.
    + destruct (N i pl0 w0 A D) as (pad0 & raw0 & P0 & ->). exists pad0, raw0. split; [exact P0|].
      unfold bump. cbn [counter key_length key_data]. rewrite N.add_mod_idemp_l by discriminate. do 2 f_equal. lia.
Qed.

Lemma received_numbered C : crypto_ok C -> forall k pls c buf s c' buf' s', counter c < 2 ^ 64 -> 4 <= len buf ->
  recv_many read_exact C k c buf s = (map Ok pls, (c', buf', s')) ->
  exists ws, s = concat ws ++ s' /\ numbered C c (counter c) pls ws.
Proof.
  intros K k. induction k as [|k IH]; intros pls c buf s c' buf' s' Hc Hb R; cbn [recv_many] in R.
  - apply pair_eq in R as [R1 R2]. apply pair_eq in R2 as [_ <-]. destruct pls; [|discriminate R1].
    exists []. split; [reflexivity|]. split; [reflexivity|]. intros [|i] pl w X; discriminate X.
  - destruct (In_recv_gen read_exact C c buf s) as [r [[c1 b1] s1]] eqn:E.
    assert (X : exists p ps, r = Ok p /\ pls = p :: ps).
    { destruct r; try (apply pair_eq in R as [R _]; destruct pls as [|? []]; discriminate R).
      destruct (recv_many read_exact C k c1 b1 s1) as [ps st]. apply pair_eq in R as [R _].
      destruct pls as [|p pls]; [discriminate R|]. injection R as -> _. eauto. }
    destruct X as (p & ps & -> & ->).
    assert (E' : fst (In_recv C c buf s) = Ok p) by (unfold In_recv; rewrite E; reflexivity).
    apply recv_iff in E' as (pad & raw & rest & P & -> & L); [|assumption..].
    destruct (recv_after C c buf raw rest p pad K Hb P L) as (b2 & Lb & E2).
    unfold In_recv in E2. rewrite E2 in E. apply pair_eq in E as [_ E]. apply pair_eq in E as [E ->]. apply pair_eq in E as [<- <-].
    destruct (recv_many read_exact C k (bump c) b2 s1) as [qs st] eqn:ER. apply pair_eq in R as [R1 R2].
    cbn [map] in R1. assert (R1' : qs = map Ok ps) by congruence. subst qs st.
    destruct (IH ps (bump c) b2 s1 c' buf' s') as (ws & -> & LW & N); [apply N.mod_lt; discriminate|lia|exact ER|].
    exists (seal_with C c raw :: ws). split; [cbn [concat]; rewrite <- app_assoc; reflexivity|].
    split; [cbn [length]; congruence|]. intros [|i] pl0 w0 A D; cbn [nth_error] in A, D.
    + injection A as <-. apply (f_equal (fun o => match o with Some x => x | None => [] end)) in D. subst w0.
      exists pad, raw. split; [exact P|]. unfold seal_with. rewrite N.add_0_r, N.mod_small by exact Hc. reflexivity.
    + destruct (N i pl0 w0 A D) as (pad0 & raw0 & P0 & ->). exists pad0, raw0. split; [exact P0|].
      unfold bump. cbn [counter key_length key_data]. rewrite N.add_mod_idemp_l by discriminate. do 2 f_equal. lia.
Qed.

Lemma handshake_complete H R ls vc ic raw1 k ec raw2 qc raw3 s' : host_ok H -> host_rng_ok R ->
  Forall (fun l => Forall (fun b => b <> x0d) l /\ ~ trap l) ls -> ident_ok vc ->
  plain_packet ic raw1 -> len raw1 <= 65536 -> is_wire (Msg_KexInit k) ic -> acceptable k ->
  plain_packet ec raw2 -> len raw2 <= 65536 -> is_wire (Msg_EcdhInit qc) ec -> len qc = 32 ->
  plain_packet (wire Msg_NewKeys) raw3 -> len raw3 <= 65536 ->
  exists c o, handle_new_client H R (as_lines ls ++ vc ++ crlf ++ raw1 ++ raw2 ++ raw3 ++ s') [] = (Ok c, s', o).
Proof.
  intros HO RO LS VC P1 L1 W1 A P2 L2 W2 Q P3 L3.
  pose proof (handshake_runs H R (as_lines ls ++ vc ++ crlf ++ raw1 ++ raw2 ++ raw3 ++ s') HO RO) as RN.
  destruct (after_all H R ls vc _ LS VC ic raw1 k ec raw2 qc raw3 s' eq_refl P1 L1 W1 A P2 L2 W2 Q P3 L3 _ _ _ RN) as [E (c & F)].
  destruct (handle_new_client H R (as_lines ls ++ vc ++ crlf ++ raw1 ++ raw2 ++ raw3 ++ s') []) as [[r t] o].
  cbn [fst snd] in E, F. subst. eauto.
Qed.

(** ** C30 *)
Lemma negotiation H R ls vc ic raw k s2 : host_ok H -> host_rng_ok R ->
  Forall (fun l => Forall (fun b => b <> x0d) l /\ ~ trap l) ls -> ident_ok vc ->
  plain_packet ic raw -> len raw <= 65536 -> is_wire (Msg_KexInit k) ic ->
  let '(r, s', o) := handle_new_client H R (as_lines ls ++ vc ++ crlf ++ raw ++ s2) [] in
  (~ acceptable k -> r = Err H_UnsupportedAlgorithms /\ s' = s2 /\ server_opens H R o) /\
  (acceptable k -> r <> Err H_UnsupportedAlgorithms).
Proof.
  intros HO RO LS VC P L W.
  pose proof (handshake_runs H R (as_lines ls ++ vc ++ crlf ++ raw ++ s2) HO RO) as RN.
  pose proof (after_kexinit H R ls vc _ LS VC ic raw k s2 eq_refl P L W _ _ _ RN) as X.
  destruct (handle_new_client _ _ _ _) as [[r t] o]. exact X.
Qed.
Lemma output_cases H R s r s' o : host_ok H -> host_rng_ok R -> handle_new_client H R s [] = (r, s', o) ->
  server_opens H R o \/
  exists pre vc ic raw1 k ec raw2 qc rest, s = pre ++ vc ++ crlf ++ raw1 ++ raw2 ++ rest /\ ident_ok vc /\
    plain_packet ic raw1 /\ is_wire (Msg_KexInit k) ic /\ acceptable k /\
    plain_packet ec raw2 /\ is_wire (Msg_EcdhInit qc) ec /\ len qc = 32 /\
    server_writes H R (exchange_hash H (ephermal R) vc ic qc) o.
Proof. intros HO RO E. eapply run_output, handshake_eq; eassumption. Qed.

(** ** C32, C33 *)
Lemma numbers_after_handshake H R s c s' o C : host_ok H -> host_rng_ok R -> handle_new_client H R s [] = (Ok c, s', o) -> crypto_ok C ->
  (exists plain, o = identifier H ++ crlf ++ concat plain /\ Forall (fun w => exists pl pad, is_packet 8 true pl pad w) plain /\
    forall jobs pls ws c', Forall2 sends jobs pls -> send_many C (send_cipher c) jobs = Ok (ws, c') ->
    numbered C (send_cipher c) (N.of_nat (length plain)) pls ws) /\
  (exists pre vc plain, s = pre ++ vc ++ crlf ++ concat plain ++ s' /\ ident_ok vc /\ Forall (fun w => exists pl, plain_packet pl w) plain /\
    forall k pls buf c' buf' s'', 4 <= len buf -> recv_many read_exact C k (receive_cipher c) buf s' = (map Ok pls, (c', buf', s'')) ->
    exists ws, s' = concat ws ++ s'' /\ numbered C (receive_cipher c) (N.of_nat (length plain)) pls ws).
Proof.
  intros HO RO E K. apply handshake_sound in E; [|assumption..].
  destruct E as (pre & vc & ic & raw1 & k & ec & raw2 & qc & raw3 & ES & VC & P1 & _ & _ & P2 & _ & _ & P3 & WR & _ & _ & _ & CR & CS).
  split.
  - destruct WR as (pad1 & w1 & pad2 & w2 & pad3 & w3 & -> & I1 & _ & I2 & _ & I3 & _).
    exists [w1; w2; w3]. split; [cbn [concat]; rewrite app_nil_r; reflexivity|].
    split; [repeat constructor; eauto|]. intros jobs pls ws c' F S.
    change (N.of_nat (length [w1; w2; w3])) with 3. rewrite <- CS. eapply sent_numbered; try eassumption. rewrite CS. reflexivity.
  - exists pre, vc, [raw1; raw2; raw3]. split; [cbn [concat]; rewrite app_nil_r, <- !app_assoc; exact ES|].
    split; [exact VC|]. split; [repeat constructor; eauto|]. intros n pls buf c' buf' s'' Hb RM.
    change (N.of_nat (length [raw1; raw2; raw3])) with 3. rewrite <- CR. eapply received_numbered; try eassumption. rewrite CR. reflexivity.
Qed.

Lemma kexinit_first H R s : host_ok H -> host_rng_ok R -> exists pad raw rest,
  snd (handle_new_client H R s []) = identifier H ++ crlf ++ raw ++ rest /\ is_packet 8 true (wire server_kexinit) pad raw.
Proof.
  intros HO RO. pose proof (handshake_runs H R s HO RO) as RN.
  destruct (handle_new_client H R s []) as [[r t] o]. cbn [fst snd] in *.
  apply run_output in RN as [(pad & raw & -> & P & _)|(pre & vc & ic & raw1 & k & ec & raw2 & qc & rest & X)].
  - exists pad, raw, []. rewrite app_nil_r. auto.
  - destruct X as (_ & _ & _ & _ & _ & _ & _ & _ & (pad1 & w1 & pad2 & w2 & pad3 & w3 & -> & I1 & _)).
    exists pad1, w1, (w2 ++ w3). auto.
Qed.

(** ** C65, C66 *)
Lemma zero_secret_accepted H R ls vc ic raw1 k ec raw2 qc raw3 s' : host_ok H -> host_rng_ok R ->
  Forall (fun l => Forall (fun b => b <> x0d) l /\ ~ trap l) ls -> ident_ok vc ->
  plain_packet ic raw1 -> len raw1 <= 65536 -> is_wire (Msg_KexInit k) ic -> acceptable k ->
  plain_packet ec raw2 -> len raw2 <= 65536 -> is_wire (Msg_EcdhInit qc) ec -> len qc = 32 ->
  plain_packet (wire Msg_NewKeys) raw3 -> len raw3 <= 65536 ->
  x25519 H (ephermal R) qc = repeat x00 32 ->
  exists c o, handle_new_client H R (as_lines ls ++ vc ++ crlf ++ raw1 ++ raw2 ++ raw3 ++ s') [] = (Ok c, s', o).
Proof. intros. eapply handshake_complete; eassumption. Qed.

Lemma counter_does_not_wrap C c jobs pls ws c' : crypto_ok C -> counter c = 2 ^ 32 - 1 -> Forall2 sends jobs pls ->
  send_many C c jobs = Ok (ws, c') -> forall pl w, nth_error pls 1 = Some pl -> nth_error ws 1 = Some w ->
  be64 (2 ^ 32) <> be64 0 /\ exists pad raw, loose_packet pl pad raw /\ w = seal C (key_length c) (key_data c) (2 ^ 32) raw.
Proof.
  intros K Hc F S pl w A D. split; [discriminate|].
  assert (Lc : counter c < 2 ^ 64) by (rewrite Hc; reflexivity).
  destruct (sent_numbered C K _ _ _ _ _ F Lc S) as [_ N].
  destruct (N 1%nat pl w A D) as (pad & raw & P & ->). exists pad, raw. split; [exact P|]. rewrite Hc. reflexivity.
Qed.
