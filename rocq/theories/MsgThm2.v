(** Further message theorems: re-encoding, framing, numbers, session requests. *)
From Coq Require Import Init.Byte Strings.Byte.
From Verif Require Export MsgThm.
Open Scope res_scope.

(** * Re-encoding *)
Lemma reads_strict_enc fs w : reads fs w -> strict fs w -> w = enc fs.
Proof.
  revert w; induction fs as [|f fs IH]; intros w; [intros -> _; reflexivity|].
  intros (w1 & w2 & -> & H1 & H2) (v1 & v2 & E & L & S & Bf).
  assert (L1 : len w1 = len (enc1 f)).
  { destruct f; cbn [reads1] in H1; try (rewrite H1; reflexivity). destruct H1 as (c & -> & _). reflexivity. }
  apply app_len_inj in E as [<- <-]; [|congruence].
  rewrite enc_cons, <- (IH w2 H2 S). f_equal.
  destruct f; cbn [reads1] in H1; try exact H1. destruct H1 as (c & -> & Hb). cbn [enc1].
  destruct b; destruct Bf as [E|E]; injection E as ->; try reflexivity; destruct Hb as [Hb1 Hb2].
  - exfalso. exact (Hb1 eq_refl eq_refl).
  - discriminate Hb2. discriminate.
Qed.
Lemma reads_Forall2 fs w : reads fs w -> Forall2 (fun a b => b = a \/ (a = x01 /\ b <> x00)) (enc fs) w.
Proof.
  revert w; induction fs as [|f fs IH]; intros w; [intros ->; constructor|].
  intros (w1 & w2 & -> & H1 & H2). rewrite enc_cons. apply Forall2_app; [|apply IH, H2].
  assert (R : forall l : bytes, Forall2 (fun a b => b = a \/ (a = x01 /\ b <> x00)) l l).
  { induction l; constructor; auto. }
  destruct f; cbn [reads1] in H1; try (rewrite H1; apply R). destruct H1 as (c & -> & Hb). cbn [enc1].
  constructor; [|constructor]. destruct b.
  - right. split; [reflexivity|]. apply Hb. reflexivity.
  - left. destruct (byte_dec c x00) as [->|N]; [reflexivity|]. apply Hb in N. discriminate.
Qed.

Lemma reencode d m buf : Message_parse d = Ok m -> len d <= len buf ->
  exists w r, Message_serialize m buf = Ok (w, r) /\ len w = len d /\ Message_parse w = Ok m /\
    Forall2 (fun a b => b = a \/ (a = x01 /\ b <> x00)) w d /\
    (strict (message_fields m) d -> w = d).
Proof.
  intros H L. apply Message_parse_iff in H as [[M R] E].
  pose proof (reads_len _ _ R) as RL. fold (wire m) in RL.
  rewrite Message_serialize_eq by exact M. replace (_ <=? _) with true by lia.
  do 2 eexists. split; [reflexivity|]. split; [symmetry; exact RL|]. split.
  { apply Message_parse_iff. split; [apply wire_is_wire, M|exact E]. }
  split; [apply reads_Forall2, R|]. intros S. symmetry. apply reads_strict_enc; assumption.
Qed.

(** * Framing *)
Definition same_kind (f g : fld) : Prop :=
  match f, g with
  | FByte _, FByte _ | FU32 _, FU32 _ | FStr _, FStr _ | FBool _, FBool _ => True
  | FRaw s, FRaw t => len s = len t
  | _, _ => False
  end.
Lemma reads_step f g fs gs w x : same_kind f g -> fld_ok f -> fld_ok g ->
  reads (f :: fs) w -> reads (g :: gs) (w ++ x) ->
  f = g /\ exists w', reads fs w' /\ reads gs (w' ++ x).
Proof.
  intros K F G (w1 & w2 & -> & H1 & H2) (v1 & v2 & E & V1 & V2).
  rewrite <- app_assoc in E.
  destruct f as [n|n|s|b|s], g as [m|m|t|c|t]; cbn [same_kind] in K; try contradiction; cbn [reads1 enc1 fld_ok] in *.
  - subst w1 v1. injection E as E1 E2. split; [|exists w2; split; [exact H2|rewrite E2; exact V2]].
    f_equal. rewrite <- (b2n_n2b_small n), <- (b2n_n2b_small m) by assumption. congruence.
  - subst w1 v1. apply app_len_inj in E as [E1 E2]; [|rewrite !be32_len; reflexivity].
    split; [|exists w2; split; [exact H2|rewrite E2; exact V2]]. f_equal. apply be32_inj; [apply u32_pow..|]; assumption.
  - subst w1 v1. pose proof (parse_string_app s (w2 ++ x) F) as P1. rewrite E in P1.
    rewrite parse_string_app in P1 by exact G. injection P1 as -> E2.
    split; [reflexivity|]. exists w2. rewrite <- E2. auto.
  - destruct H1 as (c1 & -> & B1), V1 as (c2 & -> & B2). injection E as -> E2.
    split; [|exists w2; split; [exact H2|rewrite E2; exact V2]]. f_equal.
    apply bool_of in B1, B2. congruence.
  - subst w1 v1. apply app_len_inj in E as [E1 E2]; [|exact K].
    split; [congruence|]. exists w2; split; [exact H2|rewrite E2; exact V2].
Qed.
Lemma reads_nil_end w x : reads [] w -> reads [] (w ++ x) -> x = [].
Proof. cbn [reads]. intros -> H. exact H. Qed.

Ltac rstep :=
  match goal with
  | H1 : reads (?f :: ?fs) ?w, H2 : reads (?g :: ?gs) (?w ++ ?x), F1 : Forall fld_ok (?f :: ?fs), F2 : Forall fld_ok (?g :: ?gs) |- _ =>
    lazymatch F1 with F2 => fail | _ => idtac end;
    let K := fresh in
    assert (K : same_kind f g) by first [exact I | cbn [same_kind]; congruence];
    let w' := fresh "w" in let E := fresh "E" in
    destruct (reads_step f g fs gs w x K (Forall_inv F1) (Forall_inv F2) H1 H2) as [E (w' & ? & ?)];
    apply Forall_inv_tail in F1, F2; clear H1 H2 K
  end.
Ltac rsteps := repeat (rstep; try discriminate).

Ltac rend := match goal with H : reads [] ?w, H' : reads [] (?w ++ ?x) |- ?x = [] => exact (reads_nil_end w x H H') end.

Lemma framing_gen m m' d x : is_wire m d -> is_wire m' (d ++ x) ->
  is_ecdh_reply m = false -> is_ecdh_reply m' = false ->
  open_ended m = false \/ open_ended m' = false -> x = [].
Proof.
  intros [[F W] R] [[F' W'] R'] E E' O.
  assert (NUM : message_number m = message_number m').
  { assert (G : forall m, exists fs, message_fields m = FByte (message_number m) :: fs /\ message_number m < 256).
    { intros [ | | | | | | | | | |[]|[]]; cbn [message_fields userauth_fields channel_fields app message_number];
        eexists; (split; [reflexivity|lia]). }
    destruct (G m) as (fs & E1 & L1), (G m') as (fs' & E2 & L2).
    rewrite E1 in R. rewrite E2 in R'. 
    destruct (reads_step (FByte (message_number m)) (FByte (message_number m')) _ _ _ _ I L1 L2 R R') as [Q _]. congruence. }
  destruct m as [o|o|o|o|o|o|o| |o|o|[r|l p| |ms l|a b]|[o|o|x1 r y l|x1 y|x1 y|x1 y z|x1|x1|r|x1|x1]];
  destruct m' as [o'|o'|o'|o'|o'|o'|o'| |o'|o'|[r'|l' p'| |ms' l'|a' b']|[o'|o'|x1' r' y' l'|x1' y'|x1' y'|x1' y' z'|x1'|x1'|r'|x1'|x1']];
  cbn [message_number] in NUM; try discriminate NUM; clear NUM;
  cbn [message_fields userauth_fields channel_fields app open_ended message_wf] in *;
  try discriminate E;
  try (rsteps; rend).
  all: try (destruct O; discriminate).
  - (* KEXINIT *) destruct W as [C _], W' as [C' _].
    rsteps. rend.
  - (* USERAUTH_REQUEST *)
    do 3 rstep.
    destruct (ua_method r), (ua_method r'); cbn [method_fields] in *;
      rstep;
      try (match goal with E : FStr _ = FStr _ |- _ => apply (f_equal (fun f => match f with FStr s => s | _ => [] end)) in E; cbn beta iota in E end);
      try discriminate; try (rsteps; rend);
      try (destruct O; discriminate);
      try (exfalso; apply W'; subst; vm_compute; tauto);
      try (exfalso; apply W; subst; vm_compute; tauto).
Qed.

Lemma framing d x m m' : Message_parse d = Ok m -> Message_parse (d ++ x) = Ok m' ->
  open_ended m = false \/ open_ended m' = false -> x = [].
Proof.
  intros H H' O. apply Message_parse_iff in H as [H E], H' as [H' E']. exact (framing_gen m m' d x H H' E E' O).
Qed.

(** * Message numbers *)
Lemma parse_number b r m : Message_parse (b :: r) = Ok m -> message_number m = b2n b.
Proof.
  intros H. apply Message_parse_iff in H as [[[F _] R] _].
  assert (G : exists fs, message_fields m = FByte (message_number m) :: fs /\ message_number m < 256).
  { destruct m as [ | | | | | | | | | |[]|[]]; cbn [message_fields userauth_fields channel_fields app message_number];
        eexists; (split; [reflexivity|lia]). }
  destruct G as (fs & E & L). rewrite E in R. apply reads_byte_inv in R as (b' & r' & Eb & Hb & _); [|exact L].
  congruence.
Qed.
(** The number a parse error reports as unknown, if it is that kind of error. *)
Definition unknown_number (e : MessageError) : option N :=
  match e with
  | ME_UnknownMessageType t => Some t
  | ME_UserAuth (UAE_UnknownMessageType t) => Some t
  | ME_Channel (CHE_UnknownMessageType t) => Some t
  | _ => None
  end.
Lemma unassigned b r : ~ In (b2n b) assigned_numbers ->
  exists e, Message_parse (b :: r) = Err e /\ unknown_number e = Some (b2n b).
Proof.
  intros H. unfold assigned_numbers in H. cbn [In] in H. rewrite Message_parse_cons. cbv zeta.
  set (t := b2n b) in *.
  replace (t =? 1) with false by lia. replace (t =? 2) with false by lia. replace (t =? 3) with false by lia.
  replace (t =? 4) with false by lia. replace (t =? 5) with false by lia. replace (t =? 6) with false by lia.
  replace (t =? 20) with false by lia. replace (t =? 21) with false by lia. replace (t =? 30) with false by lia.
  replace (t =? 31) with false by lia.
  destruct ((50 <=? t) && (t <=? 79)).
  { unfold UserAuth_parse, UA_REQUEST, UA_FAILURE, UA_SUCCESS, UA_BANNER, UA_PK_OK.
    replace (t =? 50) with false by lia. replace (t =? 51) with false by lia. replace (t =? 52) with false by lia.
    replace (t =? 53) with false by lia. replace (t =? 60) with false by lia. cbn. eauto. }
  destruct ((90 <=? t) && (t <=? 127)); [|eauto].
  unfold Channel_parse, CH_OPEN, CH_OPEN_CONFIRMATION, CH_OPEN_FAILURE, CH_WINDOW_ADJUST, CH_DATA,
    CH_EXTENDED_DATA, CH_EOF, CH_CLOSE, CH_REQUEST, CH_SUCCESS, CH_FAILURE.
  replace (t =? 90) with false by lia. replace (t =? 91) with false by lia. replace (t =? 92) with false by lia.
  replace (t =? 93) with false by lia. replace (t =? 94) with false by lia. replace (t =? 95) with false by lia.
  replace (t =? 96) with false by lia. replace (t =? 97) with false by lia. replace (t =? 98) with false by lia.
  replace (t =? 99) with false by lia. replace (t =? 100) with false by lia. cbn. eauto.
Qed.

Lemma assigned b r e : In (b2n b) assigned_numbers -> Message_parse (b :: r) = Err e -> unknown_number e = None.
Proof.
  intros H. rewrite Message_parse_cons. cbv zeta. unfold assigned_numbers in H. cbn [In] in H.
  assert (X : forall {E A} (f : E -> MessageError) (m : res E A) (g : A -> Message) e,
    (forall x, unknown_number (f x) = None) -> map_err f (map_ok g m) = Err e -> unknown_number e = None).
  { intros E A f m g e' Hf Hm. destruct m; cbn in Hm; try discriminate. injection Hm as <-. apply Hf. }
  decompose [or] H; try contradiction;
  match goal with H : ?n = b2n b |- _ => rewrite <- H end; ifs_eval;
  try (apply X; reflexivity).
  all: unfold UserAuth_parse, Channel_parse; ifs_eval;
    match goal with |- context [map_err (CHE ?k) ?p] => generalize p | |- context [map_err UAE_Request ?p] => generalize p
      | |- context [map_err UAE_Failure ?p] => generalize p | |- context [map_err UAE_Success ?p] => generalize p
      | |- context [map_err UAE_Banner ?p] => generalize p | |- context [map_err UAE_PublicKeyOk ?p] => generalize p end;
    let p := fresh in intros p HE; destruct p; cbn in HE; try discriminate; injection HE as <-; reflexivity.
Qed.

(** * Session requests *)
Lemma sr_str_Ok d s r : sr_str d = Ok (s, r) <-> len s < 2 ^ 32 /\ d = (be32 (len s) ++ s) ++ r.
Proof. unfold sr_str. rewrite ok_or_Ok. apply parse_string_Ok. Qed.

Ltac spinv := repeat first [pinv1 | match goal with
  | H : sr_str _ = Ok _ |- _ => unfold sr_str in H
  | H : sr_u32 _ = Ok _ |- _ => unfold sr_u32 in H
  | H : sr_bool _ = Ok _ |- _ => unfold sr_bool in H
  | H : sr_empty _ = Ok _ |- _ => unfold sr_empty in H
  end].

Lemma Signal_known s : In s known_signals \/ ~ In s known_signals.
Proof. destruct (in_dec bytes_dec s known_signals); auto. Qed.
Lemma Signal_of_spec s g : Signal_of_bytes s = g <-> signal_name g = s /\ signal_ok g.
Proof.
  split.
  - intros <-. unfold Signal_of_bytes, signal_table. cbn [assoc_signal].
    repeat match goal with |- context [if bytes_eqb s ?l then _ else _] =>
      let E := fresh "E" in destruct (bytes_eqb s l) eqn:E;
      [apply bytes_eqb_true in E; subst s; split; [reflexivity|exact I]|apply bytes_eqb_false in E] end.
    split; [reflexivity|]. cbn [signal_ok]. unfold known_signals. cbn [map signal_name In]. intuition congruence.
  - intros [<- H]. destruct g; try reflexivity. cbn [signal_ok signal_name] in *.
    unfold Signal_of_bytes, signal_table. cbn [assoc_signal].
    unfold known_signals in H. cbn [map signal_name In] in H.
    rewrite !(proj2 (bytes_eqb_false _ _)) by (intros ->; tauto). reflexivity.
Qed.
Lemma Signal_to_name g : Signal_to_bytes g = signal_name g.
Proof. destruct g; reflexivity. Qed.

Ltac sprun :=
  unfold sr_str, sr_u32, sr_bool, sr_empty;
  prun.

Lemma SessionRequest_parse_iff ty d r :
  SessionRequest_parse ty d = Ok r <-> session_ok r /\ ty = session_name r /\ reads (session_fields r) d.
Proof.
  split.
  - intros H. unfold SessionRequest_parse in H. unfold session_ok.
    repeat match type of H with (if bytes_eqb ty ?l then _ else _) = _ =>
      let E := fresh "E" in destruct (bytes_eqb ty l) eqn:E;
      [apply bytes_eqb_true in E; subst ty|] end;
    spinv; cbn [session_fields session_name];
    try match goal with |- context [Signal_of_bytes ?s] =>
      destruct (proj1 (Signal_of_spec s _) eq_refl) as [SN SO]; rewrite SN end;
    (split; [split; [fok|auto]|split; [reflexivity|rd]]).
  - intros [[F W] [-> R]]. unfold SessionRequest_parse.
    destruct r; cbn [session_name session_fields] in *; beval; rinv; sprun;
      rewrite ?(proj2 (Signal_of_spec _ _)) by (try destruct W; auto); try reflexivity.
    destruct W as [W1 W2]. sprun. rewrite ?(proj2 (Signal_of_spec _ _)) by auto. reflexivity.
Qed.
Lemma SessionRequest_parse_np ty d : SessionRequest_parse ty d <> Panic.
Proof.
  unfold SessionRequest_parse, sr_str, sr_u32, sr_bool, sr_empty.
  repeat match goal with |- (if bytes_eqb ty ?l then _ else _) <> _ => destruct (bytes_eqb ty l) end; np.
Qed.

Lemma wr_session r : Forall fld_ok (session_fields r) ->
  wr (SessionRequest_serialize r) (enc (session_fields r)) (session_name r, len (enc (session_fields r))).
Proof.
  intros F. destruct r; cbn [session_fields SessionRequest_serialize session_name] in *; finv; rewrite ?Signal_to_name;
    try (eapply wr_eq; [wrt|reflexivity|];
         rewrite ?enc_cons, ?enc_nil; cbn [enc1]; f_equal;
         repeat rewrite ?len_app, ?be32_len, ?len_cons, ?len_nil; lia).
Qed.

Lemma session_written_eq r buf : session_ok r ->
  session_written r buf =
  if len (enc (session_fields r)) <=? len buf then Ok (session_name r, enc (session_fields r)) else Err tt.
Proof.
  intros [F _]. destruct (wr_session r F [] buf) as [S Fl]. unfold session_written.
  destruct (N.leb_spec (len (enc (session_fields r))) (len buf)) as [L|L].
  - rewrite S by exact L. cbn [app]. rewrite ntake_app by reflexivity. reflexivity.
  - destruct (Fl L) as ([w c] & ->). reflexivity.
Qed.
