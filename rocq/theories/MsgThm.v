(** Whole-message theorems: grammar, round trip, framing. *)
From Coq Require Import Init.Byte Strings.Byte.
From Verif Require Export MsgFacts.
Open Scope res_scope.

Definition is_ecdh_reply (m : Message) : bool :=
  match m with Msg_EcdhReply _ => true | _ => false end.

Ltac ifs_eval :=
  repeat match goal with |- context [if ?b then _ else _] =>
    let v := eval vm_compute in b in
    match v with true => idtac | false => idtac end;
    change b with v; cbn iota end.

Lemma Message_parse_cons b r : Message_parse (b :: r) =
  let t := b2n b in
  if t =? 1 then map_err ME_Disconnect (map_ok Msg_Disconnect (Disconnect_parse r))
  else if t =? 2 then map_err ME_Ignore (map_ok Msg_Ignore (Ignore_parse r))
  else if t =? 3 then map_err ME_Unimplemented (map_ok Msg_Unimplemented (Unimplemented_parse r))
  else if t =? 4 then map_err ME_Debug (map_ok Msg_Debug (Debug_parse r))
  else if t =? 5 then map_err ME_ServiceRequest (map_ok Msg_ServiceRequest (Service_parse r))
  else if t =? 6 then map_err ME_ServiceAccept (map_ok Msg_ServiceAccept (Service_parse r))
  else if t =? 20 then map_err ME_KexInit (map_ok Msg_KexInit (KexInit_parse r))
  else if t =? 21 then map_err ME_NewKeys (map_ok (fun _ => Msg_NewKeys) (NewKeys_parse r))
  else if t =? 30 then map_err ME_EcdhInit (map_ok Msg_EcdhInit (EcdhInit_parse r))
  else if t =? 31 then map_err ME_EcdhReply (map_ok Msg_EcdhReply (EcdhReply_parse r))
  else if (50 <=? t) && (t <=? 79) then map_err ME_UserAuth (map_ok Msg_UserAuth (UserAuth_parse t r))
  else if (90 <=? t) && (t <=? 127) then map_err ME_Channel (map_ok Msg_Channel (Channel_parse t r))
  else Err (ME_UnknownMessageType t).
Proof. unfold Message_parse. cbn [get0 bind]. rewrite !idx_from_1. reflexivity. Qed.

(** ** Sub-dispatch *)
Lemma UserAuth_parse_Ok t d u : t < 256 ->
  (UserAuth_parse t d = Ok u <->
   exists fs, userauth_fields u = FByte t :: fs /\ (Forall fld_ok (userauth_fields u) /\ message_wf (Msg_UserAuth u)) /\ reads fs d).
Proof.
  intros Ht. unfold UserAuth_parse, UA_REQUEST, UA_FAILURE, UA_SUCCESS, UA_BANNER, UA_PK_OK. split.
  - intros H.
    destruct (N.eqb_spec t 50) as [->|N1].
    { pinv. apply UARequest_parse_Ok in H0 as [[F W] R]. eexists. split; [reflexivity|].
      split; [split; [constructor; [reflexivity|exact F]|]|exact R]. cbn [message_wf]. exact W. }
    destruct (N.eqb_spec t 51) as [->|N2].
    { pinv. apply UAFailure_parse_Ok in H0 as [[F W] R]. eexists. split; [reflexivity|].
      split; [split; [constructor; [reflexivity|exact F]|exact W]|exact R]. }
    destruct (N.eqb_spec t 52) as [->|N3].
    { pinv. apply UASuccess_parse_Ok in H0. eexists. split; [reflexivity|].
      split; [split; [repeat constructor|exact I]|exact H0]. }
    destruct (N.eqb_spec t 53) as [->|N4].
    { pinv. apply UABanner_parse_Ok in H0 as [F R]. eexists. split; [reflexivity|].
      split; [split; [constructor; [reflexivity|exact F]|exact I]|exact R]. }
    destruct (N.eqb_spec t 60) as [->|N5]; [|discriminate].
    pinv. apply UAPkOk_parse_Ok in H0 as [F R]. eexists. split; [reflexivity|].
    split; [split; [constructor; [reflexivity|exact F]|exact I]|exact R].
  - intros (fs & E & [F W] & R). destruct u as [r|l p| |m l|a b]; cbn [userauth_fields app] in E, F; injection E as <- <-;
      apply Forall_cons_iff in F as [_ F]; ifs_eval.
    + rewrite (proj2 (UARequest_parse_Ok d r)); [reflexivity|]. split; [split; [exact F|exact W]|exact R].
    + rewrite (proj2 (UAFailure_parse_Ok d l p)); [reflexivity|]. split; [split; [exact F|exact W]|exact R].
    + rewrite (proj2 (UASuccess_parse_Ok d tt)); [reflexivity|]. exact R.
    + rewrite (proj2 (UABanner_parse_Ok d m l)); [reflexivity|]. split; assumption.
    + rewrite (proj2 (UAPkOk_parse_Ok d a b)); [reflexivity|]. split; assumption.
Qed.
Lemma UserAuth_parse_np t d : UserAuth_parse t d <> Panic.
Proof.
  unfold UserAuth_parse. 
  repeat match goal with |- (if ?b then _ else _) <> Panic => destruct b end; np;
    first [apply UARequest_parse_np | apply UAFailure_parse_np | unfold UASuccess_parse, UABanner_parse, UAPkOk_parse; np].
Qed.

Ltac chan_fwd lem :=
  pinv; match goal with H : _ = Ok _ |- _ => 
    apply lem in H; let F := fresh "F" in let R := fresh "R" in destruct H as [F R];
    eexists; split; [reflexivity|]; split; [split; [constructor; [reflexivity|exact F]|exact I]|exact R] end.

Lemma Channel_parse_Ok t d c : t < 256 ->
  (Channel_parse t d = Ok c <->
   exists fs, channel_fields c = FByte t :: fs /\ (Forall fld_ok (channel_fields c) /\ message_wf (Msg_Channel c)) /\ reads fs d).
Proof.
  intros Ht. unfold Channel_parse, CH_OPEN, CH_OPEN_CONFIRMATION, CH_OPEN_FAILURE, CH_WINDOW_ADJUST, CH_DATA,
    CH_EXTENDED_DATA, CH_EOF, CH_CLOSE, CH_REQUEST, CH_SUCCESS, CH_FAILURE. split.
  - intros H.
    destruct (N.eqb_spec t 90) as [->|N1]; [chan_fwd ChOpen_parse_Ok|].
    destruct (N.eqb_spec t 91) as [->|N2]; [chan_fwd ChOpenConfirmation_parse_Ok|].
    destruct (N.eqb_spec t 92) as [->|N3].
    { pinv. apply ChOpenFailure_parse_Ok in H as (x & r & y & l & -> & (F & T & W) & R).
      eexists. split; [reflexivity|]. split; [split; [constructor; [reflexivity|exact F]|split; [exact T|exact W]]|exact R]. }
    destruct (N.eqb_spec t 93) as [->|N4].
    { pinv. apply ChWindowAdjust_parse_Ok in H as (x & y & -> & F & R).
      eexists. split; [reflexivity|]. split; [split; [constructor; [reflexivity|exact F]|exact I]|exact R]. }
    destruct (N.eqb_spec t 94) as [->|N5].
    { pinv. apply ChData_parse_Ok in H as (x & y & -> & F & R).
      eexists. split; [reflexivity|]. split; [split; [constructor; [reflexivity|exact F]|exact I]|exact R]. }
    destruct (N.eqb_spec t 95) as [->|N6].
    { pinv. apply ChExtendedData_parse_Ok in H as (x & y & z & -> & F & R).
      eexists. split; [reflexivity|]. split; [split; [constructor; [reflexivity|exact F]|exact I]|exact R]. }
    destruct (N.eqb_spec t 96) as [->|N7]; [chan_fwd chan_only_parse_Ok|].
    destruct (N.eqb_spec t 97) as [->|N8]; [chan_fwd chan_only_parse_Ok|].
    destruct (N.eqb_spec t 98) as [->|N9]; [chan_fwd ChRequest_parse_Ok|].
    destruct (N.eqb_spec t 99) as [->|N10]; [chan_fwd chan_only_parse_Ok|].
    destruct (N.eqb_spec t 100) as [->|N11]; [chan_fwd chan_only_parse_Ok|discriminate].
  - intros (fs & E & [F W] & R).
    destruct c as [o|o|x r y l|x y|x y|x y z|x|x|r|x|x]; cbn [channel_fields] in E, F; injection E as <- <-;
      apply Forall_cons_iff in F as [_ F]; ifs_eval.
    + rewrite (proj2 (ChOpen_parse_Ok d o)); [reflexivity|]. split; assumption.
    + rewrite (proj2 (ChOpenConfirmation_parse_Ok d o)); [reflexivity|]. split; assumption.
    + rewrite (proj2 (ChOpenFailure_parse_Ok d (C_OpenFailure x r y l))); [reflexivity|].
      destruct W as [T W]. do 4 eexists. split; [reflexivity|]. split; [split; [exact F|split; assumption]|exact R].
    + rewrite (proj2 (ChWindowAdjust_parse_Ok d (C_WindowAdjust x y))); [reflexivity|]. do 2 eexists. split; [reflexivity|]. split; assumption.
    + rewrite (proj2 (ChData_parse_Ok d (C_Data x y))); [reflexivity|]. do 2 eexists. split; [reflexivity|]. split; assumption.
    + rewrite (proj2 (ChExtendedData_parse_Ok d (C_ExtendedData x y z))); [reflexivity|]. do 3 eexists. split; [reflexivity|]. split; assumption.
    + rewrite (proj2 (chan_only_parse_Ok d x)); [reflexivity|]. split; assumption.
    + rewrite (proj2 (chan_only_parse_Ok d x)); [reflexivity|]. split; assumption.
    + rewrite (proj2 (ChRequest_parse_Ok d r)); [reflexivity|]. split; assumption.
    + rewrite (proj2 (chan_only_parse_Ok d x)); [reflexivity|]. split; assumption.
    + rewrite (proj2 (chan_only_parse_Ok d x)); [reflexivity|]. split; assumption.
Qed.
Lemma Channel_parse_np t d : Channel_parse t d <> Panic.
Proof.
  unfold Channel_parse.
  repeat match goal with |- (if ?b then _ else _) <> Panic => destruct b end; np;
    first [apply ChOpen_parse_np | apply ChOpenConfirmation_parse_np | apply ChOpenFailure_parse_np
          |apply ChWindowAdjust_parse_np | apply ChData_parse_np | apply ChExtendedData_parse_np
          |apply chan_only_parse_np | apply ChRequest_parse_np].
Qed.

(** ** The whole parser *)
Lemma Message_parse_np d : Message_parse d <> Panic.
Proof.
  destruct d as [|b r]; [discriminate|]. rewrite Message_parse_cons. cbv zeta.
  repeat match goal with |- (if ?b then _ else _) <> Panic => destruct b end; np;
    first [apply Disconnect_parse_np|apply Ignore_parse_np|apply Unimplemented_parse_np|apply Debug_parse_np
          |apply Service_parse_np|apply KexInit_parse_np|apply NewKeys_parse_np|apply EcdhInit_parse_np
          |apply EcdhReply_parse_np|apply UserAuth_parse_np|apply Channel_parse_np].
Qed.

Lemma fields_byte u : exists t fs, userauth_fields u = FByte t :: fs /\ 50 <= t <= 79.
Proof. destruct u; cbn [userauth_fields app]; do 2 eexists; (split; [reflexivity|lia]). Qed.
Lemma fields_byte_c c : exists t fs, channel_fields c = FByte t :: fs /\ 90 <= t <= 127.
Proof. destruct c; cbn [channel_fields app]; do 2 eexists; (split; [reflexivity|lia]). Qed.

Ltac wire_fwd lem :=
  pinv; match goal with H : _ = Ok _ |- _ => 
    apply lem in H; let F := fresh "F" in let R := fresh "R" in destruct H as [F R];
    (split; [split; [split; [constructor; [reflexivity|exact F]|exact I]|]|reflexivity]);
    (apply reads_byte; [assumption|exact R]) end.

Lemma Message_parse_iff d m :
  Message_parse d = Ok m <-> is_wire m d /\ is_ecdh_reply m = false.
Proof.
  split.
  - intros H. destruct d as [|b r]; [discriminate|]. rewrite Message_parse_cons in H. cbv zeta in H.
    unfold is_wire, message_ok.
    destruct (N.eqb_spec (b2n b) 1) as [Hb|N1]; [wire_fwd Disconnect_parse_Ok|].
    destruct (N.eqb_spec (b2n b) 2) as [Hb|N2]; [wire_fwd Ignore_parse_Ok|].
    destruct (N.eqb_spec (b2n b) 3) as [Hb|N3]; [wire_fwd Unimplemented_parse_Ok|].
    destruct (N.eqb_spec (b2n b) 4) as [Hb|N4].
    { pinv. apply Debug_parse_Ok in H0 as [[F T] R].
      split; [split; [split; [constructor; [reflexivity|exact F]|exact T]|]|reflexivity].
      apply reads_byte; [exact Hb|exact R]. }
    destruct (N.eqb_spec (b2n b) 5) as [Hb|N5]; [wire_fwd Service_parse_Ok|].
    destruct (N.eqb_spec (b2n b) 6) as [Hb|N6]; [wire_fwd Service_parse_Ok|].
    destruct (N.eqb_spec (b2n b) 20) as [Hb|N7].
    { pinv. apply KexInit_parse_Ok in H0 as [(F & C & NL) R].
      split; [split; [split; [constructor; [reflexivity|exact F]|split; assumption]|]|reflexivity].
      apply reads_byte; [exact Hb|exact R]. }
    destruct (N.eqb_spec (b2n b) 21) as [Hb|N8].
    { pinv. apply NewKeys_parse_Ok in H0.
      split; [split; [split; [repeat constructor|exact I]|]|reflexivity].
      apply reads_byte; [exact Hb|exact H0]. }
    destruct (N.eqb_spec (b2n b) 30) as [Hb|N9]; [wire_fwd EcdhInit_parse_Ok|].
    destruct (N.eqb_spec (b2n b) 31) as [Hb|N10].
    { pinv. exfalso. eapply EcdhReply_parse_never; eassumption. }
    destruct ((50 <=? b2n b) && (b2n b <=? 79)) eqn:U.
    { pinv. apply UserAuth_parse_Ok in H0 as (fs & E & [F W] & R); [|apply b2n_lt].
      split; [split; [split; [exact F|exact W]|]|reflexivity]. cbn [message_fields]. rewrite E.
      apply reads_byte; [reflexivity|exact R]. }
    destruct ((90 <=? b2n b) && (b2n b <=? 127)) eqn:C; [|discriminate].
    pinv. apply Channel_parse_Ok in H0 as (fs & E & [F W] & R); [|apply b2n_lt].
    split; [split; [split; [exact F|exact W]|]|reflexivity]. cbn [message_fields]. rewrite E.
    apply reads_byte; [reflexivity|exact R].
  - intros [[[F W] R] NE].
    assert (HB : exists b r k fs, d = b :: r /\ message_fields m = FByte k :: fs /\ b2n b = k /\ reads fs r).
    { destruct m; cbn [message_fields] in *;
        try (destruct (fields_byte u) as (t & fs & E & Ht); rewrite E in *);
        try (destruct (fields_byte_c c) as (t & fs & E & Ht); rewrite E in *);
        apply reads_byte_inv in R as (b & r' & -> & Hb & R); try lia; do 4 eexists;
        (split; [reflexivity|split; [reflexivity|split; [exact Hb|exact R]]]). }
    destruct HB as (b & r & k & fs & -> & E & Hb & Rr). clear R.
    rewrite Message_parse_cons. cbv zeta. rewrite Hb.
    destruct m as [o|o|o|o|o|o|o| |o|o|u|c]; cbn [message_fields] in *; try discriminate NE;
      try (injection E as <- <-; apply Forall_cons_iff in F as [_ F]; ifs_eval).
    + rewrite (proj2 (Disconnect_parse_Ok r o)); [reflexivity|]. split; assumption.
    + rewrite (proj2 (Ignore_parse_Ok r o)); [reflexivity|]. split; assumption.
    + rewrite (proj2 (Unimplemented_parse_Ok r o)); [reflexivity|]. split; assumption.
    + rewrite (proj2 (Debug_parse_Ok r o)); [reflexivity|]. split; [split|]; assumption.
    + destruct W as [C NL]. rewrite (proj2 (KexInit_parse_Ok r o)); [reflexivity|]. split; [split; [|split]|]; assumption.
    + rewrite (proj2 (EcdhInit_parse_Ok r o)); [reflexivity|]. split; assumption.
    + rewrite (proj2 (NewKeys_parse_Ok r tt)); [reflexivity|]. assumption.
    + rewrite (proj2 (Service_parse_Ok r o)); [reflexivity|]. split; assumption.
    + rewrite (proj2 (Service_parse_Ok r o)); [reflexivity|]. split; assumption.
    + destruct (fields_byte u) as (t & fs' & E' & Ht). rewrite E in E'. injection E' as <- <-.
      replace (k =? 1) with false by lia. replace (k =? 2) with false by lia. replace (k =? 3) with false by lia.
      replace (k =? 4) with false by lia. replace (k =? 5) with false by lia. replace (k =? 6) with false by lia.
      replace (k =? 20) with false by lia. replace (k =? 21) with false by lia. replace (k =? 30) with false by lia.
      replace (k =? 31) with false by lia. replace ((50 <=? k) && (k <=? 79)) with true by lia.
      rewrite (proj2 (UserAuth_parse_Ok k r u ltac:(lia))); [reflexivity|]. exists fs. split; [exact E|]. split; [split|]; assumption.
    + destruct (fields_byte_c c) as (t & fs' & E' & Ht). rewrite E in E'. injection E' as <- <-.
      replace (k =? 1) with false by lia. replace (k =? 2) with false by lia. replace (k =? 3) with false by lia.
      replace (k =? 4) with false by lia. replace (k =? 5) with false by lia. replace (k =? 6) with false by lia.
      replace (k =? 20) with false by lia. replace (k =? 21) with false by lia. replace (k =? 30) with false by lia.
      replace (k =? 31) with false by lia. replace ((50 <=? k) && (k <=? 79)) with false by lia.
      replace ((90 <=? k) && (k <=? 127)) with true by lia.
      rewrite (proj2 (Channel_parse_Ok k r c ltac:(lia))); [reflexivity|]. exists fs. split; [exact E|]. split; [split|]; assumption.
Qed.

(** * Writers *)
Lemma wr_type ty w bs v : wr w bs v -> wr (with_type ty w) (n2b ty :: bs) (v + 1).
Proof.
  intros H done rest. unfold with_type. rewrite len_cons. split.
  - intros L. destruct rest as [|x rest]; [rewrite len_nil in L; lia|]. rewrite len_cons in L.
    destruct (H (done ++ [n2b ty]) rest) as [S _]. unfold wbind. rewrite S by lia.
    unfold wret. rewrite <- app_assoc. change (x :: rest) with ([x] ++ rest).
    rewrite ndrop_app_ge by (rewrite len_cons, len_nil; lia).
    rewrite len_cons, len_nil. replace (1 + len bs - (1 + 0)) with (len bs) by lia. reflexivity.
  - intros L. destruct rest as [|x rest]; [eauto|]. rewrite len_cons in L.
    destruct (H (done ++ [n2b ty]) rest) as [_ Fl]. unfold wbind. destruct (Fl ltac:(lia)) as (c & ->). eauto.
Qed.

Lemma wr_prefix w bs : wr w bs (len bs) -> len bs < 2 ^ 32 ->
  wr (with_len_prefix w) (be32 (len bs) ++ bs) (len bs).
Proof.
  intros H L done rest. apply u32_pow in L. unfold with_len_prefix. rewrite len_app, be32_len. split.
  - intros G. replace (4 <=? len rest) with true by lia.
    destruct (H [] (ndrop 4 rest)) as [S _]. rewrite S by (rewrite len_ndrop; lia).
    unfold u32_try_unwrap. rewrite L. cbn [app]. rewrite ndrop_ndrop. reflexivity.
  - intros G. destruct (N.leb_spec 4 (len rest)) as [G4|G4]; [|eauto].
    destruct (H [] (ndrop 4 rest)) as [_ S]. destruct S as ([w1 r1] & ->); [rewrite len_ndrop; lia|]. eauto.
Qed.

Ltac wrt := 
  first [ apply wr_str; assumption | apply wr_u32 | apply wr_bool | apply wr_raw | apply wr_ret
        | eapply wr_bind; [wrt|cbn beta; wrt] ].
Ltac wrs := eapply wr_eq; [wrt| | repeat rewrite ?len_app, ?be32_len, ?len_cons, ?len_nil; lia].

(** [enc] of a field list, one field at a time. *)
Lemma enc_cons f fs : enc (f :: fs) = enc1 f ++ enc fs.
Proof. reflexivity. Qed.
Lemma enc_nil : enc [] = [].
Proof. reflexivity. Qed.
Lemma wr_type_enc ty w fs v : wr w (enc fs) v -> wr (with_type ty w) (enc (FByte ty :: fs)) (v + 1).
Proof. intros H. apply wr_type. exact H. Qed.

(** Writer of a field list returning the number of bytes. *)
Definition wrf (w : W N) (fs : list fld) : Prop := wr w (enc fs) (len (enc fs)).
Lemma wrf_type ty w fs : wrf w fs -> wrf (with_type ty w) (FByte ty :: fs).
Proof.
  intros H. eapply wr_eq; [apply wr_type_enc, H|reflexivity|].
  rewrite enc_cons, len_app. cbn [enc1]. rewrite len_cons, len_nil. lia.
Qed.
Lemma wrf_intro w fs bs v : wr w bs v -> bs = enc fs -> v = len bs -> wrf w fs.
Proof. intros H -> ->. exact H. Qed.
Ltac wrff := eapply wrf_intro; [wrt|reflexivity|
  repeat rewrite ?len_app, ?be32_len, ?len_cons, ?len_nil; lia].

Lemma wrf_method m : Forall fld_ok (method_fields m) -> wrf (Method_serialize m) (method_fields m).
Proof.
  destruct m; cbn [method_fields Method_serialize]; intros F; finv; try wrff.
Qed.

Lemma wrf_key k : len (key_name k) < 2 ^ 32 -> len (kb_identifier (key_blob k)) < 2 ^ 32 -> len (kb_q (key_blob k)) < 2 ^ 32 ->
  wr (Key_serialize k) (host_key_blob k) (len (host_key_blob k)).
Proof.
  intros H1 H2 H3. change (wrf (Key_serialize k) [FStr (key_name k); FStr (kb_identifier (key_blob k)); FStr (kb_q (key_blob k))]).
  unfold Key_serialize, KeyBlob_serialize.
  eapply wrf_intro; [eapply wr_bind; [wrt|]; eapply wr_bind; [wrt|wrt]| |].
  - rewrite !enc_cons, enc_nil. cbn [enc1]. rewrite <- !app_assoc, !app_nil_r. reflexivity.
  - repeat rewrite ?len_app, ?be32_len, ?len_cons, ?len_nil; lia.
Qed.

Definition sig_inner (s : Signature) : list fld :=
  [FStr (mpint (be_value (sb_r (sig_blob s)))); FStr (mpint (be_value (sb_s (sig_blob s))))].
Lemma wrf_sig s : Forall fld_ok (sig_inner s) -> Forall fld_ok [FStr (sig_name s); FStr (enc (sig_inner s))] ->
  wr (Signature_serialize s) (signature_blob s) (len (signature_blob s)).
Proof.
  intros F1 F2. unfold sig_inner in F1. finv.
  change (wrf (Signature_serialize s) [FStr (sig_name s); FStr (enc (sig_inner s))]).
  unfold Signature_serialize. 
  assert (WB : wr (SignatureBlob_serialize (sig_blob s)) (enc (sig_inner s)) (len (enc (sig_inner s)))).
  { unfold SignatureBlob_serialize. eapply wr_eq; [eapply wr_bind; [apply wr_mpint; assumption|];
      eapply wr_bind; [apply wr_mpint; assumption|apply wr_ret]| |].
    - unfold sig_inner. rewrite !enc_cons, enc_nil. cbn [enc1]. rewrite ?app_nil_r. reflexivity.
    - unfold sig_inner. rewrite !enc_cons, enc_nil. cbn [enc1]. rewrite ?app_nil_r.
      repeat rewrite ?len_app, ?be32_len; lia. }
  eapply wrf_intro; [eapply wr_bind; [wrt|]; eapply wr_bind; [apply wr_prefix; [exact WB|assumption]|apply wr_ret]| |].
  - rewrite !enc_cons, enc_nil. cbn [enc1]. reflexivity.
  - repeat rewrite ?len_app, ?be32_len, ?len_cons, ?len_nil; lia.
Qed.

Lemma enc_str_len s fs : len (enc (FStr s :: fs)) = 4 + len s + len (enc fs).
Proof. rewrite enc_cons. cbn [enc1]. rewrite !len_app, be32_len. reflexivity. Qed.

Lemma reply_inner_ok r : message_ok (Msg_EcdhReply r) ->
  Forall fld_ok [FStr (key_name (er_key r)); FStr (kb_identifier (key_blob (er_key r))); FStr (kb_q (key_blob (er_key r)))] /\
  Forall fld_ok (sig_inner (er_signature r)) /\
  Forall fld_ok [FStr (sig_name (er_signature r)); FStr (enc (sig_inner (er_signature r)))].
Proof.
  intros [F _]. cbn [message_fields] in F. finv.
  unfold host_key_blob in F1. rewrite !enc_str_len in F1.
  unfold signature_blob in F3. fold (sig_inner (er_signature r)) in F3. rewrite !enc_str_len in F3.
  pose proof F3 as F4. unfold sig_inner in F4. rewrite !enc_str_len in F4.
  unfold sig_inner. repeat split; repeat constructor; cbn [fld_ok]; try lia.
  fold (sig_inner (er_signature r)). lia.
Qed.

Lemma wrf_message m : message_ok m -> wrf (Message_write m) (message_fields m).
Proof.
  intros [F W]. destruct m as [o|o|o|o|o|o|o| |o|o|u|c]; cbn [message_fields Message_write] in *.
  - apply wrf_type. finv. unfold Disconnect_serialize. wrff.
  - apply wrf_type. finv. unfold Ignore_serialize. wrff.
  - apply wrf_type. finv. unfold Unimplemented_serialize. wrff.
  - apply wrf_type. finv. unfold Debug_serialize. wrff.
  - apply wrf_type. finv. unfold KexInit_serialize. wrff.
  - apply wrf_type. finv. unfold EcdhInit_serialize. wrff.
  - apply wrf_type. destruct (reply_inner_ok o (conj F W)) as (K & S1 & S2). finv. unfold EcdhReply_serialize.
    eapply wrf_intro.
    + eapply wr_bind; [apply wr_prefix; [apply wrf_key; assumption|assumption]|].
      eapply wr_bind; [wrt|].
      eapply wr_bind; [apply wr_prefix; [apply wrf_sig; [exact S1|constructor; [assumption|constructor; [assumption|constructor]]]|assumption]|].
      apply wr_ret.
    + reflexivity.
    + repeat rewrite ?len_app, ?be32_len, ?len_cons, ?len_nil; lia.
  - apply wrf_type. apply wr_ret.
  - apply wrf_type. finv. unfold Service_serialize. wrff.
  - apply wrf_type. finv. unfold Service_serialize. wrff.
  - destruct u as [r|l p| |ms l|a b]; cbn [userauth_fields UserAuth_serialize app] in *; apply wrf_type.
    + unfold UARequest_serialize. apply Forall_cons_iff in F as [_ F].
      apply Forall_cons_iff in F as [F1 F]. apply Forall_cons_iff in F as [F2 F]. cbn [fld_ok] in *.
      eapply wrf_intro.
      * eapply wr_bind; [wrt|]. eapply wr_bind; [wrt|]. eapply wr_bind; [apply wrf_method; exact F|apply wr_ret].
      * rewrite !enc_cons. cbn [enc1]. rewrite app_nil_r. reflexivity.
      * repeat rewrite ?len_app, ?be32_len, ?len_cons, ?len_nil; lia.
    + finv. unfold UAFailure_serialize. wrff.
    + apply wr_ret.
    + finv. unfold UABanner_serialize. wrff.
    + finv. unfold UAPkOk_serialize. wrff.
  - destruct c as [o|o|x r y l|x y|x y|x y z|x|x|r|x|x]; cbn [channel_fields Channel_serialize] in *; apply wrf_type; finv;
      unfold ChOpen_serialize, ChOpenConfirmation_serialize, ChOpenFailure_serialize, ChWindowAdjust_serialize,
        ChData_serialize, ChExtendedData_serialize, chan_only_serialize, ChRequest_serialize; wrff.
Qed.

Lemma Message_serialize_eq m buf : message_ok m ->
  Message_serialize m buf =
  if len (wire m) <=? len buf then Ok (wire m, ndrop (len (wire m)) buf) else Err tt.
Proof.
  intros H. destruct (wrf_message m H [] buf) as [S Fl]. fold (wire m) in *. unfold Message_serialize.
  destruct (N.leb_spec (len (wire m)) (len buf)) as [L|L].
  - rewrite S by exact L. cbn [app].
    replace (_ <=? _) with true by (rewrite len_app; lia).
    rewrite ntake_app, ndrop_app by reflexivity. reflexivity.
  - destruct (Fl L) as ([w r] & ->). reflexivity.
Qed.

(** * Corollaries *)
Lemma reads_enc fs : reads fs (enc fs).
Proof.
  induction fs as [|f fs IH]; [reflexivity|]. exists (enc1 f), (enc fs). split; [reflexivity|]. split; [|exact IH].
  destruct f; try reflexivity. cbn [reads1 enc1]. eexists. split; [reflexivity|]. destruct b; split; congruence.
Qed.
Lemma wire_is_wire m : message_ok m -> is_wire m (wire m).
Proof. intros H. split; [exact H|apply reads_enc]. Qed.

Lemma reads_len fs w : reads fs w -> len w = len (enc fs).
Proof.
  revert w; induction fs as [|f fs IH]; intros w; [intros ->; reflexivity|].
  intros (w1 & w2 & -> & H1 & H2). rewrite enc_cons, !len_app, (IH _ H2). f_equal.
  destruct f; cbn [reads1] in H1; try (rewrite H1; reflexivity). destruct H1 as (c & -> & _). reflexivity.
Qed.

Lemma round_trip m buf : message_ok m -> is_ecdh_reply m = false -> len (wire m) <= len buf ->
  exists w r, Message_serialize m buf = Ok (w, r) /\ Message_parse w = Ok m.
Proof.
  intros H E L. rewrite Message_serialize_eq by exact H.
  replace (_ <=? _) with true by lia. do 2 eexists. split; [reflexivity|].
  apply Message_parse_iff. split; [apply wire_is_wire, H|exact E].
Qed.

Lemma unambiguous m1 m2 d : is_wire m1 d -> is_wire m2 d -> is_ecdh_reply m1 = false -> is_ecdh_reply m2 = false -> m1 = m2.
Proof.
  intros H1 H2 E1 E2.
  assert (P1 : Message_parse d = Ok m1) by (apply Message_parse_iff; auto).
  assert (P2 : Message_parse d = Ok m2) by (apply Message_parse_iff; auto). congruence.
Qed.
