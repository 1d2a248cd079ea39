(** Proofs about the example server. *)
From Coq Require Import Init.Byte Strings.Byte.
From Verif Require Export SpecSshd ScpThm SessionThm8.

(** ** Words *)
Lemma space_white b : is_space b = true <-> white b.
Proof.
  unfold is_space, white. rewrite !orb_true_iff, !beq_true. cbn [In]. split; intros H.
  - destruct H as [[[[H|H]|H]|H]|H]; auto 10.
  - destruct H as [H|[H|[H|[H|[H|[]]]]]]; auto 10.
Qed.
Lemma not_white b : is_space b = false <-> ~ white b.
Proof. rewrite <- space_white. destruct (is_space b); split; try discriminate; auto. intros H. destruct (H eq_refl). Qed.
Definition argv (command : bytes) : list bytes := filter (fun w => negb (is_empty w)) (split_on is_space command).
Lemma argv_gap gap rest : Forall white gap -> argv (gap ++ rest) = argv rest.
Proof.
  intros F. induction F as [|b gap Hb F IH]; [reflexivity|]. apply space_white in Hb. unfold argv in *. cbn [app split_on]. rewrite Hb. exact IH.
Qed.
Lemma words_argv command ws : words command ws -> argv command = ws.
Proof.
  intros W. induction W as [gap F|gap w rest ws F Ne Nw R W IH].
  - rewrite <- (app_nil_r gap), argv_gap by exact F. reflexivity.
  - rewrite argv_gap by exact F. assert (Nw' : Forall (fun b => is_space b = false) w) by (eapply Forall_impl; [|exact Nw]; intros b; apply not_white).
    assert (Nn : negb (is_empty w) = true) by (destruct w; [congruence|reflexivity]).
    unfold argv in *. destruct rest as [|b rest].
    + rewrite app_nil_r, split_none by exact Nw'. cbn [filter]. rewrite Nn. cbn in IH. rewrite IH. reflexivity.
    + apply space_white in R. rewrite split_some by auto. cbn [filter]. rewrite Nn. f_equal. cbn [split_on] in IH. rewrite R in IH. exact IH.
Qed.
Lemma cut_while (p : byte -> bool) l : exists a b, l = a ++ b /\ Forall (fun x => p x = true) a /\ match b with x :: _ => p x = false | [] => True end.
Proof.
  induction l as [|x l IH]; [exists [], []; auto|]. destruct (p x) eqn:E.
  - destruct IH as (a & b & -> & F & H). exists (x :: a), b. auto.
  - exists [], (x :: l). auto.
Qed.
Lemma words_exist command : exists ws, words command ws.
Proof.
  remember (length command) as n eqn:L. revert command L. induction n as [n IH] using lt_wf_ind. intros command ->.
  destruct (cut_while is_space command) as (gap & r & -> & F & H).
  assert (F' : Forall white gap) by (eapply Forall_impl; [|exact F]; intros b; apply space_white).
  destruct r as [|b r]; [exists []; rewrite app_nil_r; constructor; exact F'|].
  destruct (cut_while (fun x => negb (is_space x)) (b :: r)) as (w & rest & E & Fw & Hr). rewrite E.
  assert (Ne : w <> []). { intros ->. cbn [app] in E. subst rest. cbn in Hr, H. rewrite H in Hr. discriminate Hr. }
  destruct (IH (length rest)) with (command := rest) as (ws & W); auto.
  { rewrite E, !app_length. destruct w; [congruence|]. cbn [length]. lia. }
  exists (w :: ws). constructor; auto.
  - eapply Forall_impl; [|exact Fw]. intros x X. cbv beta in X. apply not_white. destruct (is_space x); [discriminate X|reflexivity].
  - destruct rest as [|x rest]; [exact I|]. apply space_white. destruct (is_space x); [reflexivity|discriminate Hr].
Qed.
Lemma words_iff command ws : words command ws <-> argv command = ws.
Proof. split; [apply words_argv|]. intros <-. destruct (words_exist command) as (ws & W). rewrite (words_argv _ _ W). exact W. Qed.
Lemma exec_command os command ws : words command ws ->
  sshd_command os (Spawn_Exec command) = match ws with [] => Panic | _ => Ok ws end.
Proof. intros W. apply words_argv in W. unfold sshd_command. fold (argv command). rewrite W. destruct ws; reflexivity. Qed.

(** ** Authentication *)
Lemma sshd_accepts ed log user service key sg msg : ed_key ed key = true -> ed_signature ed sg = true -> ed_verify ed key msg sg = true -> utf8_valid user = true ->
  h_authenticate (sshd_auth ed) log user service (Auth_PublicKey (B "ssh-ed25519") key sg msg) = Ok user.
Proof. intros K S V U. cbn [sshd_auth h_authenticate sshd_authenticate]. rewrite bytes_eqb_refl, K, S, V. cbn [negb]. unfold from_utf8. rewrite U. reflexivity. Qed.
Lemma sshd_accepted ed log user service auth u : h_authenticate (sshd_auth ed) log user service auth = Ok u ->
  u = user /\ exists key sg msg, auth = Auth_PublicKey (B "ssh-ed25519") key sg msg /\ ed_verify ed key msg sg = true.
Proof.
  cbn [sshd_auth h_authenticate]. destruct auth as [|p|alg key sg msg]; cbn [sshd_authenticate]; try discriminate.
  destruct (bytes_eqb alg (B "ssh-ed25519")) eqn:A; [|discriminate]. apply bytes_eqb_true in A. subst alg.
  destruct (ed_key ed key); [|discriminate]. destruct (ed_signature ed sg); [|discriminate]. destruct (ed_verify ed key msg sg) eqn:V; [|discriminate].
  cbn [negb]. unfold from_utf8. destruct (utf8_valid user); [|discriminate]. intros E. apply Ok_inj in E. eauto 7.
Qed.

(** ** A client that anyone can be *)
Definition hello : bytes :=
  as_lines [] ++ toy_ident ++ crlf ++ toy_packet (wire (Msg_KexInit toy_kexinit)) ++ toy_packet (wire (Msg_EcdhInit toy_qc)) ++ toy_packet (wire Msg_NewKeys) ++ [].
Lemma anyone_connects H R : host_ok H -> host_rng_ok R -> exists c o, forall t, handle_new_client H R (hello ++ t) [] = (Ok c, t, o).
Proof.
  intros HO RO.
  destruct (handshake_complete H R [] toy_ident (wire (Msg_KexInit toy_kexinit)) (toy_packet (wire (Msg_KexInit toy_kexinit))) toy_kexinit
              (wire (Msg_EcdhInit toy_qc)) (toy_packet (wire (Msg_EcdhInit toy_qc))) toy_qc (toy_packet (wire Msg_NewKeys)) [] HO RO (Forall_nil _) toy_ident_ok)
    as (c & o & E).
  - apply toy_packet_ok. vm_compute. discriminate.
  - apply toy_packet_ok. vm_compute. discriminate.
  - exact toy_wire.
  - exact toy_acceptable.
  - apply toy_packet_ok. vm_compute. discriminate.
  - apply toy_packet_ok. vm_compute. discriminate.
  - exact init_wire.
  - reflexivity.
  - apply toy_packet_ok. vm_compute. discriminate.
  - apply toy_packet_ok. vm_compute. discriminate.
  - exists c, o. intros t. exact (handshake_local H R _ _ _ _ _ t E).
Qed.
Lemma len_enc_str s fs : len (enc (FStr s :: fs)) = 4 + len s + len (enc fs).
Proof. unfold enc. cbn [map concat enc1]. lens. rewrite be32_len. lia. Qed.
Lemma len_enc_byte n fs : len (enc (FByte n :: fs)) = 1 + len (enc fs).
Proof. unfold enc. cbn [map concat enc1]. lens. lia. Qed.
Lemma len_enc_bool b fs : len (enc (FBool b :: fs)) = 1 + len (enc fs).
Proof. unfold enc. cbn [map concat enc1]. lens. lia. Qed.
Lemma len_enc_nil : len (enc []) = 0.
Proof. reflexivity. Qed.
Ltac elen := repeat first [rewrite len_enc_str | rewrite len_enc_byte | rewrite len_enc_bool]; rewrite ?len_enc_nil.

Lemma any_key_any_user H R C rng ed (user service key : bytes) (sign : bytes -> bytes) : host_ok H -> host_rng_ok R -> crypto_ok C -> rngs_ok rng ->
  utf8_valid user = true -> len user + len service + len key <= 800 -> ed_key ed key = true ->
  (forall m, ed_signature ed (sign m) = true /\ ed_verify ed key m (sign m) = true /\ len (sign m) <= 1000) ->
  exists s st, authenticate_new_client H R C rng (sshd_auth ed) s = Some (AO_Auth (Ok user) st).
Proof.
  intros HO RO K RR V L KO SO. destruct (anyone_connects H R HO RO) as (c & o & E).
  set (alg := B "ssh-ed25519"). set (data := sign_data (session_identifier c) user service alg (named alg key)).
  set (m2 := Msg_UserAuth (UA_Request {| ua_user := user; ua_service := service; ua_method := M_PublicKeySigned alg (named alg key) (named alg (sign data)) |})).
  destruct (SO data) as (S1 & S2 & S3).
  assert (LA : len alg = 11) by reflexivity.
  assert (LK : len (named alg key) = 19 + len key) by (unfold named; elen; lia).
  assert (LG : len (named alg (sign data)) = 19 + len (sign data)) by (unfold named; elen; lia).
  assert (LS : len (session_identifier c) = 32) by (apply (handshake_facts H R HO RO _ _ _ _ (E []))).
  assert (LD : len data <= 1024).
  { unfold data, sign_data. elen. rewrite LS, LA, LK. change (len (B "publickey")) with 9. lia. }
  assert (L2 : len (wire m2) <= 3000).
  { unfold wire, m2. cbn [message_fields userauth_fields ua_user ua_service ua_method method_fields app]. elen. rewrite LA, LK, LG.
    change (len (B "publickey")) with 9. lia. }
  assert (W2 : is_wire m2 (wire m2)).
  { apply wire_is_wire. split; [|exact I]. unfold m2. cbn [message_fields userauth_fields ua_user ua_service ua_method method_fields app].
    repeat constructor; cbn [fld_ok]; change (2 ^ 32) with 4294967296; try (change (len (B "publickey")) with 9); lia. }
  set (m1 := Msg_ServiceRequest (B "ssh-userauth")).
  destruct (toy_raw_ok (wire m1)) as [P1 Q1]; [vm_compute; discriminate|].
  destruct (toy_raw_ok (wire m2)) as [P2 Q2]; [lia|].
  exists (hello ++ seal_with C (receive_cipher c) (toy_raw (wire m1)) ++ seal_with C (bump (receive_cipher c)) (toy_raw (wire m2)) ++ []).
  assert (X : exists st, authenticate_new_client H R C rng (sshd_auth ed)
      (hello ++ seal_with C (receive_cipher c) (toy_raw (wire m1)) ++ seal_with C (bump (receive_cipher c)) (toy_raw (wire m2)) ++ []) = Some (AO_Auth (Ok user) st)
      /\ k_in (a_conn st) = []).
  { eapply (good_client_admitted H R C rng (sshd_auth ed) HO RO K RR) with (pl1 := wire m1) (pl2 := wire m2) (raw1 := toy_raw (wire m1)) (raw2 := toy_raw (wire m2))
      (user := user) (service := service) (alg := alg) (key := key) (sg := sign data) (data := data) (rest := []).
    - exact (E _).
    - reflexivity.
    - exact P1.
    - vm_compute. discriminate.
    - apply parse_wire. vm_compute. reflexivity.
    - exact P2.
    - lia.
    - exact W2.
    - reflexivity.
    - exact LD.
    - intros log. apply sshd_accepts; assumption. }
  destruct X as (st & X & _). exists st. exact X.
Qed.
