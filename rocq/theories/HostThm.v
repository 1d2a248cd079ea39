(** The server's side of the handshake. *)
From Coq Require Import Init.Byte Strings.Byte.
From Verif Require Export SpecHost IdentThm KexThm PacketThm.
Open Scope res_scope.

(** ** What an identification consumes *)
Definition pref (st : IdentState) : bytes :=
  match st with St_S => B "S" | St_SS => B "SS" | St_SSH => B "SSH" | _ => [] end.
Lemma scan_consumes s : forall st s', ident_scan st s = (Ok tt, s') -> exists pre, pref st ++ s = pre ++ B "SSH-" ++ s'.
Proof.
  induction s as [|b s IH]; intros st s' H; cbn [ident_scan] in H; [discriminate|].
  assert (G : forall st', (exists x, pref st ++ [b] = x ++ pref st') -> ident_scan st' s = (Ok tt, s') ->
              exists pre, pref st ++ b :: s = pre ++ B "SSH-" ++ s').
  { intros st' [x Hx] E. apply IH in E as [pre E]. exists (x ++ pre).
    change (b :: s) with ([b] ++ s). rewrite app_assoc, Hx, <- !app_assoc, E. reflexivity. }
  destruct (ident_step st b) as [st'|] eqn:E.
  - apply (G st'); [|exact H].
    assert (X : pref st' = [] -> exists x, pref st ++ [b] = x ++ pref st') by (intros ->; exists (pref st ++ [b]); rewrite app_nil_r; reflexivity).
    destruct st; cbn [ident_step] in E;
      repeat match type of E with (if beq b ?c then _ else _) = _ => let Q := fresh in destruct (beq b c) eqn:Q; [apply beq_true in Q; subst b|] end;
      try discriminate E; inversion E; clear E; subst st'; try (apply X; reflexivity);
      first [exists []; reflexivity | exists (B "S"); reflexivity].
  - destruct st; cbn [ident_step] in E;
      repeat match type of E with (if beq b ?c then _ else _) = _ => let Q := fresh in destruct (beq b c) eqn:Q; [apply beq_true in Q; subst b|] end; try discriminate E.
    injection H as <-. exists []. reflexivity.
Qed.

Lemma body_consumes s : forall g acc id s', ident_body g acc s = (Ok id, s') ->
  exists v, id = acc ++ v /\ (if g : bool then [cr] else []) ++ s = v ++ crlf ++ s'.
Proof.
  induction s as [|b s IH]; intros g acc id s' H; cbn [ident_body] in H; [discriminate|].
  assert (P1 : forall a c a', ident_push a c = Ok a' -> a' = a ++ [c]).
  { intros a c a'. unfold ident_push. destruct (_ <? _); [|discriminate]. intros X. apply Ok_inj in X. auto. }
  destruct g; cbn [ident_body_step] in H.
  - destruct (beq b cr) eqn:E1.
    + apply beq_true in E1. subst b. destruct (ident_push acc cr) as [a| |] eqn:E; cbn [bind] in H; try discriminate H.
      apply P1 in E. subst a. apply IH in H as (v & -> & H). exists (cr :: v). rewrite <- app_assoc. split; [reflexivity|].
      cbn [app] in *. rewrite H. reflexivity.
    + destruct (beq b lf) eqn:E2.
      * apply beq_true in E2. subst b. inversion H; subst. exists []. rewrite app_nil_r. split; reflexivity.
      * destruct (ident_push acc cr) as [a| |] eqn:E; cbn [bind] in H; try discriminate H. apply P1 in E. subst a.
        destruct (ident_push (acc ++ [cr]) b) as [a| |] eqn:E; cbn [bind] in H; try discriminate H. apply P1 in E. subst a.
        apply IH in H as (v & -> & H). exists (cr :: b :: v). rewrite <- !app_assoc. split; [reflexivity|].
        cbn [app] in *. rewrite H. reflexivity.
  - destruct (beq b cr) eqn:E1.
    + apply beq_true in E1. subst b. apply IH in H as (v & -> & H). exists v. split; [reflexivity|exact H].
    + destruct (ident_push acc b) as [a| |] eqn:E; cbn [bind] in H; try discriminate H. apply P1 in E. subst a.
      apply IH in H as (v & -> & H). exists (b :: v). rewrite <- app_assoc. split; [reflexivity|].
      cbn [app] in *. rewrite H. reflexivity.
Qed.

Lemma ident_consumes s id s' : ident_parse s = (Ok id, s') ->
  exists pre, s = pre ++ id ++ crlf ++ s'.
Proof.
  unfold ident_parse. destruct (ident_scan St_EolLf s) as [[[]|e|] s1] eqn:E; try discriminate.
  apply scan_consumes in E as [pre E]. cbn [pref app] in E. subst s.
  unfold read_exact. destruct (N.leb_spec 4 (len s1)) as [L|L]; [|discriminate].
  destruct (bytes_eqb (ntake 4 s1) (B "2.0-")) eqn:E; cbn [negb]; [|discriminate].
  apply bytes_eqb_true in E.
  change (ident_push_all [] (B "SSH-2.0-")) with (@Ok ParseIdentError bytes (B "SSH-2.0-")). cbn iota.
  destruct (ident_body false (B "SSH-2.0-") (ndrop 4 s1)) as [[a|e|] s2] eqn:E2; try discriminate.
  apply body_consumes in E2 as (v & -> & E2). cbn [app] in E2.
  unfold Identifier_new, then_ok, ok_or. destruct (_ <=? _); intros X; [|discriminate X].
  apply pair_eq in X as [X <-]. apply Ok_inj in X. subst id.
  exists pre. rewrite <- (ntake_ndrop 4 s1), E, E2. rewrite <- !app_assoc. reflexivity.
Qed.

(** ** Plain packets *)
Lemma pp_plain (buf : bytes) pl raw s : plain_packet pl raw -> len raw <= len buf ->
  exists p, packet_parse buf (raw ++ s) true B8 = (Ok p, s) /\ p = raw ++ ndrop (len raw) buf.
Proof.
  intros (pad & E & L1 & L2 & L3 & A) F.
  assert (Lr : len raw = 5 + len pl + len pad) by (rewrite E; lens; rewrite be32_len; lia).
  exists (raw ++ ndrop (len raw) buf). split; [|reflexivity].
  replace (raw ++ s) with (be32 (1 + len pl + len pad) ++ (([n2b (len pad)] ++ pl ++ pad) ++ s)) by (rewrite E, <- !app_assoc; reflexivity).
  rewrite packet_parse_eq by lia.
  replace (len buf <? _) with false by lia. replace (_ <? 8) with false by lia.
  replace (len buf <? _) with false by lia.
  replace (_ <=? len _) with true by (lens; lia).
  rewrite ntake_app, ndrop_app by (lens; lia).
  replace (be32 (1 + len pl + len pad) ++ ([n2b (len pad)] ++ pl ++ pad) ++ ndrop (4 + (1 + len pl + len pad)) buf)
    with (raw ++ ndrop (len raw) buf) by (rewrite Lr, E, <- !app_assoc; do 4 f_equal; f_equal; lia).
  rewrite E at 1. rewrite <- !app_assoc. rewrite wrap_raw_eq by lia.
  apply (aligned_mod B8 true) in A. cbn [bs_usize] in *. rewrite A. change (0 =? 0) with true. cbn iota.
  replace (_ <=? len pad) with false by lia. cbn [map_err]. rewrite E at 2. rewrite <- !app_assoc. reflexivity.
Qed.
Lemma plain_inj pl raw pl' raw' a b : plain_packet pl raw -> plain_packet pl' raw' -> raw ++ a = raw' ++ b ->
  raw = raw' /\ pl = pl' /\ a = b.
Proof.
  intros (pad & -> & L1 & L2 & L3 & _) (pad' & -> & L1' & L2' & L3' & _) E. rewrite <- !app_assoc in E.
  apply app_len_inj in E as [E1 E]; [|rewrite !be32_len; reflexivity].
  apply be32_inj in E1; [|apply u32_pow; assumption..].
  apply app_len_inj in E as [E2 E]; [|reflexivity].
  assert (EP : len pad = len pad').
  { apply (f_equal be_value) in E2. rewrite !be_value_1 in E2. rewrite !b2n_n2b_small in E2 by lia. exact E2. }
  apply app_len_inj in E as [-> E]; [|lia]. apply app_len_inj in E as [-> ->]; [|exact EP]. auto.
Qed.

Lemma pp_cases (buf : bytes) s : len buf = 65536 ->
  (exists pl raw s', s = raw ++ s' /\ plain_packet pl raw /\ len raw <= 65536 /\
     packet_parse buf s true B8 = (Ok (raw ++ ndrop (len raw) buf), s') /\
     @payload unit (raw ++ ndrop (len raw) buf) = Ok pl) \/
  (exists e s', packet_parse buf s true B8 = (Err e, s') /\ ~ starts_packet s /\ ~ too_long s) \/
  (exists s', packet_parse buf s true B8 = (Panic, s') /\ too_long s).
Proof.
  intros LB. destruct (packet_parse buf s true B8) as [[p|e|] s'] eqn:E; [left| |].
  2:{ right. left. exists e, s'. split; [reflexivity|]. split.
      - intros (pl & raw & s2 & -> & P & L). destruct (pp_plain buf pl raw s2 P) as (q & X & _); [lia|]. rewrite X in E. discriminate E.
      - intros [T1 T2]. assert (X : fst (packet_parse buf s true B8) = Panic) by (apply packet_parse_panics; right; lia).
        rewrite E in X. discriminate X. }
  2:{ right. right. exists s'. split; [reflexivity|]. assert (X : fst (packet_parse buf s true B8) = Panic) by (rewrite E; reflexivity).
      apply packet_parse_panics in X. unfold too_long. lia. }
  destruct (N.le_gt_cases 4 (len s)) as [Ls|Ls].
  2:{ rewrite packet_parse_eof in E by lia. discriminate E. }
  set (l := be_value (ntake 4 s)) in *.
  assert (L4 : len (ntake 4 s) = 4) by (lens; lia).
  assert (Hl : l < 2 ^ 32) by (apply u32_pow, be_value_u32, L4).
  assert (Hs : s = be32 l ++ ndrop 4 s) by (unfold l; rewrite (be32_of_value _ L4), ntake_ndrop; reflexivity).
  rewrite Hs, packet_parse_eq in E by (lia || exact Hl).
  destruct (len buf <? l) eqn:C1; [discriminate|]. destruct (l <? 8) eqn:C2; [discriminate|].
  destruct (len buf <? 4 + l) eqn:C3; [discriminate|]. destruct (l <=? len (ndrop 4 s)) eqn:C4; [|discriminate].
  apply pair_eq in E as [E <-].
  destruct (wrap_raw _ true B8) as [w| |] eqn:W; cbn [map_err] in E; try discriminate E. apply Ok_inj in E. subst w.
  apply wrap_raw_guards in W as (Hp & l' & q & t & Hl' & Hq & Ht & Hql & A & G).
  subst p. symmetry in Ht.
  assert (LE : len (be32 l' ++ [n2b q] ++ t) = len (be32 l ++ ntake l (ndrop 4 s) ++ ndrop (4 + l) buf)) by (rewrite Ht; reflexivity).
  apply app_len_inj in Ht as [E1 E2]; [|rewrite !be32_len; reflexivity].
  apply be32_inj in E1; [|apply u32_pow; assumption..]. subst l'.
  rewrite !len_app, !be32_len in LE. cbn [app] in LE. rewrite len_cons, len_nil in LE.
  rewrite len_ntake, len_ndrop, len_ndrop in *.
  destruct G as (pl & pad & rest & Et & Lp & Lpad & P1 & P2 & P3); [lia|].
  assert (R : be32 l ++ ntake l (ndrop 4 s) = be32 l ++ n2b q :: pl ++ pad /\ ndrop (4 + l) buf = rest).
  { rewrite Et in E2. assert (X : ntake l (ndrop 4 s) ++ ndrop (4 + l) buf = (n2b q :: pl ++ pad) ++ rest).
    { rewrite <- E2. cbn [app]. rewrite <- !app_assoc. reflexivity. }
    apply app_len_inj in X as [X1 X2]; [rewrite X1; auto|]. rewrite len_ntake, len_ndrop. lens. lia. }
  destruct R as [R1 R2].
  assert (LR : len (be32 l ++ ntake l (ndrop 4 s)) = 4 + l) by (lens; rewrite be32_len; lia).
  exists pl, (be32 l ++ ntake l (ndrop 4 s)), (ndrop l (ndrop 4 s)).
  split; [rewrite <- app_assoc, ntake_ndrop; exact Hs|].
  split.
  { exists pad. rewrite R1. rewrite Lpad. replace (1 + len pl + q) with l by lia. split; [reflexivity|]. lia || (repeat split; try lia; assumption). }
  rewrite LR. split; [lia|]. split; [rewrite <- app_assoc; reflexivity|].
  rewrite <- app_assoc. exact P1.
Qed.

(** ** Writing a message in a packet *)
Lemma fill_message_fills m body : message_ok m -> len (wire m) <= len body ->
  fills (fill_message m) body (wire m) (ndrop (len (wire m)) body).
Proof.
  intros M L. unfold fills, fill_message. rewrite Message_serialize_eq by exact M.
  replace (_ <=? _) with true by lia. cbn [unwrap bind]. split; [reflexivity|]. lens. lia.
Qed.

Lemma wrap_message (buf : bytes) m rng : message_ok m -> rng_ok rng ->
  16 + len (wire m) <= len buf -> len (wire m) < 65536 ->
  exists out pad raw, wrap buf B8 true (fill_message m) rng = Ok out /\
    is_packet 8 true (wire m) pad raw /\ pad = rng (len pad) /\
    @as_raw unit out = Ok raw /\ @into_raw unit out 0 = Ok raw /\ @payload unit out = Ok (wire m) /\ len out = len buf.
Proof.
  intros M R L S.
  assert (F : fills (fill_message m) (ndrop 5 buf) (wire m) (ndrop (len (wire m)) (ndrop 5 buf))).
  { apply fill_message_fills; [exact M|]. lens. lia. }
  pose proof (wrap_pad_least B8 true (len (wire m))) as LP.
  pose proof (wrap_pad_range B8 true (len (wire m))) as RG. cbn [bs_usize] in *.
  set (p := wrap_pad 8 true (len (wire m))) in *. clearbody p.
  pose proof (wrap_exact buf B8 true _ rng _ _ p R F LP) as W.
  replace (_ && _) with true in W by lia.
  destruct (wrap_invariants _ _ _ _ _ _ _ _ R F W) as (pad & raw & P & E1 & E2 & E3 & E4).
  rewrite E3 in *. eexists. exists pad, raw. split; [exact W|]. split; [exact P|]. split; [exact E1|].
  destruct (is_packet_wrap_raw B8 true _ _ _ (ndrop (len pad) (ndrop (len (wire m)) (ndrop 5 buf))) P) as (_ & Y & A & _).
  split; [exact A|]. split; [|split; [exact Y|exact E4]].
  revert A. unfold as_raw, into_raw. destruct (packet_len _) as [l| |]; cbn [bind]; [|discriminate..].
  rewrite N.add_0_r. auto.
Qed.

(** ** The messages of the handshake are well formed *)
Lemma nl_ok l : NameList_try_from l = Ok l -> name_list_ok l.
Proof. intros H. apply NameList_Ok in H. apply H. Qed.
Lemma kexinit_ok : message_ok server_kexinit.
Proof.
  split; [repeat constructor|]. split; [reflexivity|].
  repeat constructor; apply nl_ok; vm_compute; reflexivity.
Qed.
Lemma kexinit_len : len (wire server_kexinit) = 172.
Proof. vm_compute. reflexivity. Qed.
Lemma newkeys_ok : message_ok Msg_NewKeys.
Proof. split; [repeat constructor|exact I]. Qed.

Lemma blob_len H : len (host_q H) = 65 -> len (host_key_blob (public_host_key H)) = 104.
Proof.
  intros L. unfold host_key_blob, enc. cbn [map concat public_host_key key_name key_blob kb_identifier kb_q enc1].
  rewrite !len_app, !be32_len, L, len_nil. vm_compute. reflexivity.
Qed.
Lemma mpint32 s : len s = 32 -> len (mpint (be_value s)) <= 33.
Proof. intros L. pose proof (mpint_len s). lia. Qed.
Lemma sig_len sg : len (sb_r (sig_blob sg)) = 32 -> len (sb_s (sig_blob sg)) = 32 -> len (sig_name sg) = 19 ->
  len (signature_blob sg) <= 101.
Proof.
  intros L1 L2 L3. pose proof (mpint32 _ L1). pose proof (mpint32 _ L2).
  unfold signature_blob, enc. cbn [map concat enc1]. rewrite !len_app, !be32_len, L3, !len_nil.
  lia.
Qed.

Lemma reply_ok H e h : host_ok H -> message_ok (server_reply H e h) /\ len (wire (server_reply H e h)) <= 250.
Proof.
  intros (H1 & H2 & H3 & H4 & H5 & H6). pose proof (blob_len H H5) as LB.
  assert (LS : len (signature_blob {| sig_name := B "ecdsa-sha2-nistp256"; sig_blob := {| sb_r := fst (host_sign H h); sb_s := snd (host_sign H h) |} |}) <= 101).
  { apply sig_len; cbn [sig_blob sb_r sb_s sig_name]; [apply H4|apply H4|reflexivity]. }
  unfold server_reply. split.
  - split; [|exact I]. cbn [message_fields er_key er_ephermal er_signature].
    repeat constructor; cbn [fld_ok]; rewrite ?LB, ?H2; lia.
  - unfold wire, enc. cbn [message_fields er_key er_ephermal er_signature map concat enc1].
    rewrite !len_app, !be32_len, LB, H2, !len_cons, !len_nil. lia.
Qed.

(** ** Negotiation *)
Lemma join_names_lt ns : Forall name_ok ns -> (length ns < S (length (join ns)))%nat.
Proof.
  induction 1 as [|n ns [Hn _] _ IH]; [cbn; lia|].
  destruct n as [|c n]; [congruence|]. destruct ns as [|n' ns]; [cbn; lia|].
  cbn [join] in *. rewrite app_length. cbn [length] in *. lia.
Qed.
Lemma any_in_spec names l : name_list_ok l ->
  exists b, any_in names l = Ok b /\ (b = true <-> exists n, In n names /\ lists l n).
Proof.
  intros (ns & F & ->). unfold any_in. rewrite NameList_collect_join by (exact F || apply join_names_lt, F).
  cbn [bind]. eexists. split; [reflexivity|]. rewrite existsb_exists. split.
  - intros (s & I1 & E). apply existsb_exists in E as (t & I2 & E). apply bytes_eqb_true in E. subst t.
    exists s. split; [exact I2|]. exists ns. auto.
  - intros (n & I1 & ns' & F' & J & I2).
    assert (ns' = ns).
    { pose proof (NameList_collect_join ns (S (length (join ns))) F (join_names_lt _ F)) as C1.
      pose proof (NameList_collect_join ns' (S (length (join ns'))) F' (join_names_lt _ F')) as C2.
      rewrite <- J in C2. rewrite C1 in C2. apply Ok_inj in C2. auto. }
    subst ns'. exists n. split; [exact I2|]. apply existsb_exists. exists n. split; [exact I1|]. apply bytes_eqb_refl.
Qed.
Lemma one_name l n : (exists n', In n' [n] /\ lists l n') <-> lists l n.
Proof. split; [intros (n' & [<-|[]] & H); exact H|intros H; exists n; split; [left; reflexivity|exact H]]. Qed.

Lemma unsupported_spec k : message_ok (Msg_KexInit k) ->
  exists b, unsupported k = Ok b /\ (b = false <-> acceptable k).
Proof.
  intros [_ [_ W]]. unfold unsupported, acceptable.
  repeat match goal with H : Forall _ (_ :: _) |- _ => apply Forall_cons_iff in H; destruct H end.
  destruct (any_in_spec ALGORITHM_NAMES (ki_kex_algorithms k)) as (b1 & -> & B1); [assumption|].
  destruct (any_in_spec [host_key_name] (ki_server_host_key_algorithms k)) as (b2 & -> & B2); [assumption|].
  destruct (any_in_spec CIPHER_NAMES (ki_enc_c2s k)) as (b3 & -> & B3); [assumption|].
  destruct (any_in_spec CIPHER_NAMES (ki_enc_s2c k)) as (b4 & -> & B4); [assumption|].
  unfold ALGORITHM_NAMES, CIPHER_NAMES, host_key_name in *. rewrite one_name in B1, B2, B3, B4.
  cbn [bind]. 
  destruct b1; cbn [negb bind]; [|eexists; split; [reflexivity|]; intuition discriminate].
  destruct b2; cbn [negb bind]; [|eexists; split; [reflexivity|]; intuition discriminate].
  destruct b3; cbn [negb bind]; [|eexists; split; [reflexivity|]; intuition discriminate].
  eexists; split; [reflexivity|]. destruct b4; cbn [negb]; intuition discriminate.
Qed.

(** ** Every way the handshake can go *)
Inductive run (H : Host) (R : HostRng) (s : stream) : res HandleNewClientError HostClient -> stream -> bytes -> Prop :=
| run_ident e s1 o : ident_parse s = (Err e, s1) -> server_opens H R o -> run H R s (Err (H_ParseIdentifierError e)) s1 o
| run_pkt1 vc s1 e s2 o : ident_parse s = (Ok vc, s1) -> ~ starts_packet s1 -> ~ too_long s1 -> server_opens H R o -> run H R s (Err (H_PacketParseError e)) s2 o
| run_pkt1_panic vc s1 s2 o : ident_parse s = (Ok vc, s1) -> too_long s1 -> server_opens H R o -> run H R s Panic s2 o
| run_msg1 vc ic raw s2 e o : ident_parse s = (Ok vc, raw ++ s2) -> plain_packet ic raw -> len raw <= 65536 ->
    Message_parse ic = Err e -> server_opens H R o -> run H R s (Err (H_MessageParseError e)) s2 o
| run_kind1 vc ic raw s2 m o : ident_parse s = (Ok vc, raw ++ s2) -> plain_packet ic raw -> len raw <= 65536 ->
    Message_parse ic = Ok m -> (forall k, m <> Msg_KexInit k) -> server_opens H R o -> run H R s (Err H_ExpectedKeyExchangeInit) s2 o
| run_neg vc ic raw s2 k o : ident_parse s = (Ok vc, raw ++ s2) -> plain_packet ic raw -> len raw <= 65536 ->
    Message_parse ic = Ok (Msg_KexInit k) -> ~ acceptable k -> server_opens H R o -> run H R s (Err H_UnsupportedAlgorithms) s2 o
| run_pkt2 vc ic raw s2 k e s3 o : ident_parse s = (Ok vc, raw ++ s2) -> plain_packet ic raw -> len raw <= 65536 ->
    Message_parse ic = Ok (Msg_KexInit k) -> acceptable k -> ~ starts_packet s2 -> ~ too_long s2 -> server_opens H R o -> run H R s (Err (H_PacketParseError e)) s3 o
| run_pkt2_panic vc ic raw s2 k s3 o : ident_parse s = (Ok vc, raw ++ s2) -> plain_packet ic raw -> len raw <= 65536 ->
    Message_parse ic = Ok (Msg_KexInit k) -> acceptable k -> too_long s2 -> server_opens H R o -> run H R s Panic s3 o
| run_kind2 vc ic raw k ec raw2 s3 o : ident_parse s = (Ok vc, raw ++ raw2 ++ s3) -> plain_packet ic raw -> len raw <= 65536 ->
    Message_parse ic = Ok (Msg_KexInit k) -> acceptable k ->
    plain_packet ec raw2 -> len raw2 <= 65536 -> ~ (exists qc, Message_parse ec = Ok (Msg_EcdhInit qc) /\ len qc = 32) ->
    server_opens H R o -> run H R s Panic s3 o
| run_pkt3 vc ic raw k ec raw2 s3 qc e s4 o : ident_parse s = (Ok vc, raw ++ raw2 ++ s3) -> plain_packet ic raw -> len raw <= 65536 ->
    Message_parse ic = Ok (Msg_KexInit k) -> acceptable k ->
    plain_packet ec raw2 -> len raw2 <= 65536 -> Message_parse ec = Ok (Msg_EcdhInit qc) -> len qc = 32 -> ~ starts_packet s3 -> ~ too_long s3 ->
    server_writes H R (exchange_hash H (ephermal R) vc ic qc) o -> run H R s (Err (H_PacketParseError e)) s4 o
| run_pkt3_panic vc ic raw k ec raw2 s3 qc s4 o : ident_parse s = (Ok vc, raw ++ raw2 ++ s3) -> plain_packet ic raw -> len raw <= 65536 ->
    Message_parse ic = Ok (Msg_KexInit k) -> acceptable k ->
    plain_packet ec raw2 -> len raw2 <= 65536 -> Message_parse ec = Ok (Msg_EcdhInit qc) -> len qc = 32 -> too_long s3 ->
    server_writes H R (exchange_hash H (ephermal R) vc ic qc) o -> run H R s Panic s4 o
| run_msg3_panic vc ic raw k ec raw2 qc nk raw3 s4 o : ident_parse s = (Ok vc, raw ++ raw2 ++ raw3 ++ s4) -> plain_packet ic raw -> len raw <= 65536 ->
    Message_parse ic = Ok (Msg_KexInit k) -> acceptable k ->
    plain_packet ec raw2 -> len raw2 <= 65536 -> Message_parse ec = Ok (Msg_EcdhInit qc) -> len qc = 32 ->
    plain_packet nk raw3 -> len raw3 <= 65536 -> (forall m, Message_parse nk <> Ok m) ->
    server_writes H R (exchange_hash H (ephermal R) vc ic qc) o -> run H R s Panic s4 o
| run_kind3 vc ic raw k ec raw2 qc nk raw3 m s4 o : ident_parse s = (Ok vc, raw ++ raw2 ++ raw3 ++ s4) -> plain_packet ic raw -> len raw <= 65536 ->
    Message_parse ic = Ok (Msg_KexInit k) -> acceptable k ->
    plain_packet ec raw2 -> len raw2 <= 65536 -> Message_parse ec = Ok (Msg_EcdhInit qc) -> len qc = 32 ->
    plain_packet nk raw3 -> len raw3 <= 65536 -> Message_parse nk = Ok m -> m <> Msg_NewKeys ->
    server_writes H R (exchange_hash H (ephermal R) vc ic qc) o -> run H R s (Err H_ExpectedKeys) s4 o
| run_done vc ic raw k ec raw2 qc nk raw3 c s4 o : ident_parse s = (Ok vc, raw ++ raw2 ++ raw3 ++ s4) -> plain_packet ic raw -> len raw <= 65536 ->
    Message_parse ic = Ok (Msg_KexInit k) -> acceptable k ->
    plain_packet ec raw2 -> len raw2 <= 65536 -> Message_parse ec = Ok (Msg_EcdhInit qc) -> len qc = 32 ->
    plain_packet nk raw3 -> len raw3 <= 65536 -> Message_parse nk = Ok Msg_NewKeys ->
    server_writes H R (exchange_hash H (ephermal R) vc ic qc) o ->
    session_identifier c = exchange_hash H (ephermal R) vc ic qc ->
    keyed (sha256 H) (be_value (x25519 H (ephermal R) qc)) (session_identifier c) Enc_c2s (receive_cipher c) ->
    keyed (sha256 H) (be_value (x25519 H (ephermal R) qc)) (session_identifier c) Enc_s2c (send_cipher c) ->
    counter (receive_cipher c) = 3 -> counter (send_cipher c) = 3 ->
    run H R s (Ok c) s4 o.

Lemma from_km hash K h m dir n : hash_ok hash -> km_hash m = h ->
  @idx_to unit _ (km_secret m) (km_secret_len m) = Ok (rfc_mpint K) ->
  exists c, from_key_material hash m dir n = Ok c /\ counter c = n /\
    keyed hash K h (match dir with ClientToServer => Enc_c2s | ServerToClient => Enc_s2c end) c.
Proof.
  intros HO E1 E2. unfold from_key_material.
  destruct (gen_out_spec hash K h m HO E1 E2 (dir_letter 67 dir) 2) as (ks & -> & L & KB & _); [lia|].
  destruct ks as [|a [|b [|c ks]]]; try discriminate L. cbn [bind]. unfold idx. cbn [N.to_nat nth_error].
  change (nth_error [a; b] (Pos.to_nat 1)) with (Some b). cbn [bind].
  eexists. split; [reflexivity|]. split; [reflexivity|]. unfold keyed. cbn [key_data key_length].
  destruct dir; exact KB.
Qed.

Lemma io_bind_run {E A C} (r : res E A) (k : A -> IO C) a s o : r = Ok a -> io_bind (io_run r) k s o = k a s o.
Proof. intros ->. reflexivity. Qed.
Lemma io_bind_ret {A C} (r : res HandleNewClientError A) (k : A -> IO C) a s o : r = Ok a -> io_bind (io_ret r) k s o = k a s o.
Proof. intros ->. reflexivity. Qed.
Lemma io_bind_write {C} b (k : unit -> IO C) s o : io_bind (io_write b) k s o = k tt s (o ++ b).
Proof. reflexivity. Qed.
Lemma io_bind_read {E A C} (f : stream -> res E A * stream) (e : E -> HandleNewClientError) (k : A -> IO C) s o r s' : f s = (r, s') ->
  io_bind (io_read f e) k s o = match r with Ok a => k a s' o | Err x => (Err (e x), s', o) | Panic => (Panic, s', o) end.
Proof. unfold io_bind, io_read. intros ->. destruct r; reflexivity. Qed.

Lemma plain_lt pl raw : plain_packet pl raw -> len pl < 2 ^ 32.
Proof. intros (pad & _ & _ & _ & L & _). lia. Qed.

Opaque ident_parse packet_parse Message_parse wrap kd_f kd_g kd_host_key kd_secret KeyMaterial_new from_key_material unsupported zeros wire.
Lemma handshake_runs H R s : host_ok H -> host_rng_ok R ->
  run H R s (fst (fst (handle_new_client H R s []))) (snd (fst (handle_new_client H R s []))) (snd (handle_new_client H R s [])).
Proof.
  intros HO (R1 & R2 & R3 & R4). pose proof HO as (H1 & H2 & H3 & H4 & H5 & H6).
  destruct (wrap_message (zeros 256) server_kexinit (pad_kexinit R)) as (hp & pad1 & raw1 & W1 & P1 & Q1 & A1 & _ & Y1 & _);
    [apply kexinit_ok|exact R1|rewrite zeros_len, kexinit_len; lia|rewrite kexinit_len; lia|].
  change (Msg_KexInit host_kexinit) with server_kexinit in *.
  unfold handle_new_client, handle_new_client_on. cbv zeta. rewrite io_bind_write. cbn [app].
  erewrite io_bind_run by exact W1. erewrite io_bind_run by exact A1. rewrite io_bind_write.
  set (o1 := ident_send (identifier H) ++ raw1).
  assert (O1 : server_opens H R o1).
  { exists pad1, raw1. split; [unfold o1, ident_send; rewrite <- app_assoc; reflexivity|]. auto. }
  destruct (ident_parse s) as [[vc|e|] s1] eqn:EI.
  2:{ erewrite io_bind_read by exact EI. cbn [fst snd]. eapply run_ident; eassumption. }
  2:{ exfalso. apply (proj1 (ident_safe s)). rewrite EI. reflexivity. }
  erewrite io_bind_read by exact EI. cbn iota beta.
  pose proof (proj2 (ident_safe s) _ _ EI) as (_ & _ & LV).
  unfold kd_client_id, kd_server_id, kd_client_kex_init, kd_server_kex_init, kd_client_ephermal, kd_server_ephermal.
  erewrite io_bind_run by (apply kd_f_Ok; lia). erewrite io_bind_run by (apply kd_f_Ok; lia).
  destruct (pp_cases (zeros 65536) s1 (zeros_len _)) as [(ic & raw & s2 & -> & PP & LR & EP & EY)|[(e & s' & EP & NS & NT)|(s' & EP & TL)]].
  2:{ erewrite io_bind_read by exact EP. cbn [fst snd]. eapply run_pkt1; eassumption. }
  2:{ erewrite io_bind_read by exact EP. cbn [fst snd]. eapply run_pkt1_panic; eassumption. }
  erewrite io_bind_read by exact EP. cbn iota beta.
  assert (LBUF : len (raw ++ ndrop (len raw) (zeros 65536)) = 65536) by (rewrite len_app, len_ndrop, zeros_len; lia).
  set (buf1 := raw ++ ndrop (len raw) (zeros 65536)) in *. clearbody buf1. clear EP.
  erewrite io_bind_run by exact EY. pose proof (plain_lt _ _ PP) as LIC.
  erewrite io_bind_run by (apply kd_f_Ok; exact LIC). erewrite io_bind_run by exact Y1.
  erewrite io_bind_run by (apply kd_f_Ok; rewrite kexinit_len; lia).
  destruct (Message_parse ic) as [m|e|] eqn:EM.
  2:{ cbn [fst snd map_err io_bind io_ret]. eapply run_msg1; eassumption. }
  2:{ exfalso. revert EM. apply Message_parse_np. }
  erewrite io_bind_ret by reflexivity.
  assert (K : (exists k, m = Msg_KexInit k) \/ (forall k, m <> Msg_KexInit k)) by (destruct m; eauto; right; discriminate).
  destruct K as [[k ->]|K].
  2:{ assert (X : into_kex_init m = Err tt) by (destruct m; try reflexivity; exfalso; eapply K; reflexivity).
      rewrite X. cbn [fst snd ok_or io_bind io_ret]. eapply run_kind1; eassumption. }
  erewrite io_bind_ret by reflexivity.
  destruct (unsupported_spec k) as (b & EU & BU). { apply Message_parse_iff in EM as [[EM _] _]. exact EM. }
  erewrite io_bind_run by exact EU. destruct b.
  { cbn [fst snd io_bind io_ret]. eapply run_neg; try eassumption. intros X. apply BU in X. discriminate X. }
  assert (AC : acceptable k) by (apply BU; reflexivity). clear BU EU.
  erewrite io_bind_ret by reflexivity. clear EY.
  destruct (pp_cases buf1 s2 LBUF) as [(ec & raw2 & s3 & -> & PP2 & LR2 & EP & EY)|[(e & s' & EP & NS & NT)|(s' & EP & TL)]].
  2:{ erewrite io_bind_read by exact EP. cbn [fst snd]. eapply run_pkt2; eassumption. }
  2:{ erewrite io_bind_read by exact EP. cbn [fst snd]. eapply run_pkt2_panic; eassumption. }
  erewrite io_bind_read by exact EP. cbn iota beta.
  assert (LBUF2 : len (raw2 ++ ndrop (len raw2) buf1) = 65536) by (rewrite len_app, len_ndrop, LBUF; lia).
  set (buf2 := raw2 ++ ndrop (len raw2) buf1) in *. clearbody buf2. clear EP.
  erewrite io_bind_run by exact EY.
  assert (BAD : (exists qc, Message_parse ec = Ok (Msg_EcdhInit qc) /\ len qc = 32) \/ ~ (exists qc, Message_parse ec = Ok (Msg_EcdhInit qc) /\ len qc = 32)).
  { destruct (Message_parse ec) as [m| |]; [|right; intros (q & X & _); discriminate X..].
    destruct m; try (right; intros (q & X & _); discriminate X).
    destruct (N.eq_dec (len client_ephermal_public_key) 32) as [L|L].
    - left. eauto.
    - right. intros (q & X & Y). apply Ok_inj in X. injection X as ->. congruence. }
  destruct BAD as [(qc & EQ & LQ)|BAD].
  2:{ assert (X : forall k : bytes -> IO HostClient,
           (io_bind (io_run (Message_parse ec)) (fun m => io_bind (io_run (into_kex_ecdh_init m)) (fun q => io_bind (io_run (E:=unit) (arr32 q)) k))) s3 o1 = (Panic, s3, o1)).
      { intros kk. destruct (Message_parse ec) as [m| |]; [|reflexivity..]. erewrite io_bind_run by reflexivity.
        destruct m; try reflexivity. cbn [into_kex_ecdh_init]. erewrite io_bind_run by reflexivity.
        unfold arr32. destruct (N.eqb_spec (len client_ephermal_public_key) 32); [|reflexivity]. exfalso. apply BAD. eauto. }
      rewrite X. cbn [fst snd]. eapply run_kind2; eassumption. }
  erewrite io_bind_run by exact EQ. erewrite io_bind_run by reflexivity. erewrite io_bind_run by (apply arr32_Ok; exact LQ).
  pose proof (blob_len H H5) as LB. change (host_public_key H) with (public_host_key H) in *.
  erewrite io_bind_run by (apply kd_host_key_Ok; rewrite LB; lia).
  set (buf3 := host_key_blob (public_host_key H) ++ ndrop (len (host_key_blob (public_host_key H))) buf2).
  assert (LBUF3 : len buf3 = 65536) by (unfold buf3; rewrite len_app, len_ndrop, LB, LBUF2; lia).
  clearbody buf3. cbn iota beta.
  erewrite io_bind_run by (apply kd_f_Ok; lia). erewrite io_bind_run by (apply kd_f_Ok; rewrite H2; lia).
  set (sec := x25519 H (ephermal R) qc).
  assert (LS : len sec = 32) by apply H3.
  set (hsh := exchange_hash H (ephermal R) vc ic qc).
  assert (EH : @kd_secret unit (sha256 H) (((((((([] ++ enc1 (FStr vc)) ++ enc1 (FStr (identifier H))) ++ enc1 (FStr ic)) ++
        enc1 (FStr (wire server_kexinit))) ++ enc1 (FStr (host_key_blob (public_host_key H)))) ++ enc1 (FStr qc)) ++
        enc1 (FStr (x25519_public H (ephermal R))))) sec = Ok hsh).
  { Transparent kd_secret. unfold kd_secret. Opaque kd_secret. rewrite kd_g_Ok by lia. cbn [bind]. unfold hsh, exchange_hash, exchange_bytes, exchange_fields, transcript_of.
    cbn [t_vc t_vs t_ic t_is t_key t_qc t_qs t_k]. fold sec. unfold enc. cbn [map concat]. rewrite app_nil_r, <- !app_assoc. reflexivity. }
  erewrite io_bind_run by exact EH. destruct (host_sign H hsh) as [sr ss] eqn:ES.
  assert (LH : len hsh = 32) by apply H1.
  destruct (km_new sec hsh LS) as (km & EK & K1 & K2). erewrite io_bind_run by exact EK.
  destruct (reply_ok H (ephermal R) hsh HO) as [RO RL].
  assert (RE : server_reply H (ephermal R) hsh = Msg_EcdhReply {| er_key := public_host_key H; er_ephermal := x25519_public H (ephermal R);
     er_signature := {| sig_name := B "ecdsa-sha2-nistp256"; sig_blob := {| sb_r := sr; sb_s := ss |} |} |}) by (unfold server_reply; rewrite ES; reflexivity).
  rewrite <- RE.
  destruct (wrap_message buf3 _ (pad_reply R) RO R2) as (out2 & pad2 & w2 & W2 & P2 & Q2 & _ & A2 & _ & L2); [lia..|].
  erewrite io_bind_run by exact W2. erewrite io_bind_run by exact A2. rewrite io_bind_write.
  destruct (from_km (sha256 H) (be_value sec) hsh km ClientToServer 3 H1 K1 K2) as (rc & F1 & C1 & KD1).
  destruct (from_km (sha256 H) (be_value sec) hsh km ServerToClient 3 H1 K1 K2) as (sc & F2 & C2 & KD2).
  erewrite io_bind_run by exact F1. erewrite io_bind_run by exact F2.
  assert (LN : len (wire Msg_NewKeys) = 1) by (vm_compute; reflexivity).
  destruct (wrap_message out2 _ (pad_newkeys R) newkeys_ok R3) as (out3 & pad3 & w3 & W3 & P3 & Q3 & A3 & _ & _ & L3); [lia..|].
  erewrite io_bind_run by exact W3. erewrite io_bind_run by exact A3. rewrite io_bind_write.
  assert (O3 : server_writes H R hsh ((o1 ++ w2) ++ w3)).
  { exists pad1, raw1, pad2, w2, pad3, w3. split; [unfold o1, ident_send; rewrite <- !app_assoc; reflexivity|]. auto 10. }
  set (o3 := (o1 ++ w2) ++ w3) in *. clearbody o3.
  destruct (pp_cases out3 s3) as [(nk & raw3 & s4 & -> & PP3 & LR3 & EP & EY3)|[(e & s' & EP & NS & NT)|(s' & EP & TL)]]; [lia| | |].
  2:{ erewrite io_bind_read by exact EP. cbn [fst snd]. eapply run_pkt3; eassumption. }
  2:{ erewrite io_bind_read by exact EP. cbn [fst snd]. eapply run_pkt3_panic; eassumption. }
  erewrite io_bind_read by exact EP. cbn iota beta. erewrite io_bind_run by exact EY3.
  destruct (Message_parse nk) as [m|e|] eqn:EN.
  2:{ cbn [fst snd unwrap io_bind io_run io_ret]. eapply run_msg3_panic; try eassumption. congruence. }
  2:{ exfalso. revert EN. apply Message_parse_np. }
  erewrite io_bind_run by reflexivity.
  assert (K : m = Msg_NewKeys \/ (m <> Msg_NewKeys /\ into_new_keys m = Err tt)) by (destruct m; try (left; reflexivity); right; (split; [discriminate|reflexivity])).
  destruct K as [->|[K K']].
  2:{ rewrite K'. cbn [fst snd ok_or io_bind io_ret]. eapply run_kind3; eassumption. }
  erewrite io_bind_ret by reflexivity. erewrite io_bind_run by (apply arr32_Ok; exact LH).
  cbn [fst snd io_ret]. eapply run_done; try eassumption; try reflexivity.
Qed.
