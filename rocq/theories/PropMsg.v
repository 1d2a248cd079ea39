(** Property theorems C01-C13 and C64: messages, session requests, data types.
    The right-hand sides are defined in [Spec]. *)
From Coq Require Import Init.Byte Strings.Byte.
From Verif Require Import MsgThm3.
Open Scope res_scope.

(** ** C01 *)
Theorem C01_message_round_trip : forall m buf,
  message_ok m -> is_ecdh_reply m = false -> len (wire m) <= len buf ->
  exists w rest, Message_serialize m buf = Ok (w, rest) /\ Message_parse w = Ok m.
Proof. exact round_trip. Qed.
Print Assumptions C01_message_round_trip.

Definition ex_request : Message :=
  Msg_UserAuth (UA_Request {| ua_user := B "alice"; ua_service := B "ssh-connection";
    ua_method := M_PublicKeySigned (B "ssh-ed25519") (B "key") (B "sig") |}).
Example C01_example : message_ok ex_request /\ is_ecdh_reply ex_request = false /\
  len (wire ex_request) = 71 /\
  (exists r, Message_serialize ex_request (repeat x00 100) = Ok (wire ex_request, r)) /\
  Message_parse (wire ex_request) = Ok ex_request.
Proof.
  split; [split; [repeat constructor|exact I]|]. split; [reflexivity|]. split; [reflexivity|].
  split; [eexists; vm_compute; reflexivity|vm_compute; reflexivity].
Qed.

(** ** C02 *)
Theorem C02_parser_is_grammar : forall d m,
  Message_parse d = Ok m <-> is_wire m d /\ is_ecdh_reply m = false.
Proof. exact Message_parse_iff. Qed.
Print Assumptions C02_parser_is_grammar.

Theorem C02_unambiguous : forall m1 m2 d, is_wire m1 d -> is_wire m2 d ->
  is_ecdh_reply m1 = false -> is_ecdh_reply m2 = false -> m1 = m2.
Proof. exact unambiguous. Qed.
Print Assumptions C02_unambiguous.

(** A non-zero byte other than 1 is TRUE; a byte left over is an error. *)
Example C02_example :
  Message_parse (B "d" ++ [x00; x00; x00; x07]) = Ok (Msg_Channel (C_Failure 7)) /\
  Message_parse (x04 :: x05 :: be32 2 ++ B "hi" ++ be32 0) =
    Ok (Msg_Debug {| dbg_always_display := true; dbg_message := B "hi"; dbg_language := [] |}) /\
  (forall m, Message_parse (x04 :: x05 :: be32 2 ++ B "hi" ++ be32 0 ++ [x00]) <> Ok m).
Proof. split; [reflexivity|]. split; [reflexivity|]. intros m. vm_compute. discriminate. Qed.

(** ** C03 *)
Theorem C03_parsing_never_panics :
  (forall d, Message_parse d <> Panic) /\
  (forall ty d, SessionRequest_parse ty d <> Panic) /\
  (forall d, parse_string d <> Panic) /\
  (forall d, parse_uint32 d <> Panic) /\
  (forall d, parse_bool d <> Panic) /\
  (forall d, NameList_try_from d <> Panic) /\
  (forall d, AsciiStr_try_from d <> Panic).
Proof.
  exact (conj Message_parse_np (conj SessionRequest_parse_np (conj parse_string_np
    (conj parse_uint32_np (conj parse_bool_np (conj NameList_np AsciiStr_np)))))).
Qed.
Print Assumptions C03_parsing_never_panics.

(** ** C04 *)
Theorem C04_serialise_writes_rfc_bytes : forall m buf, message_ok m ->
  Message_serialize m buf =
  if len (wire m) <=? len buf then Ok (wire m, ndrop (len (wire m)) buf) else Err tt.
Proof. exact Message_serialize_eq. Qed.
Print Assumptions C04_serialise_writes_rfc_bytes.

Example C04_example : message_ok (Msg_EcdhReply sample_reply) /\
  len (wire (Msg_EcdhReply sample_reply)) = 127.
Proof. split; [exact sample_reply_ok|reflexivity]. Qed.
Example C04_example_small : Message_serialize ex_request (repeat x00 70) = Err tt.
Proof. vm_compute. reflexivity. Qed.

(** ** C05 *)
Theorem C05_reencode : forall d m buf, Message_parse d = Ok m -> len d <= len buf ->
  exists w r, Message_serialize m buf = Ok (w, r) /\ len w = len d /\ Message_parse w = Ok m /\
    Forall2 (fun a b => b = a \/ (a = x01 /\ b <> x00)) w d /\
    (strict (message_fields m) d -> w = d).
Proof. exact reencode. Qed.
Print Assumptions C05_reencode.

Example C05_example : exists m,
  Message_parse (x04 :: x05 :: be32 2 ++ B "hi" ++ be32 0) = Ok m /\
  wire m = (x04 :: x01 :: be32 2 ++ B "hi" ++ be32 0) /\
  strict (message_fields m) (wire m).
Proof.
  eexists. split; [reflexivity|]. split; [reflexivity|].
  exists [x04], (x01 :: be32 2 ++ B "hi" ++ be32 0). repeat split.
  exists [x01], (be32 2 ++ B "hi" ++ be32 0). repeat split; auto.
  exists (be32 2 ++ B "hi"), (be32 0). repeat split; auto.
  exists (be32 0), []. repeat split; auto.
Qed.

(** ** C06: false *)
Theorem C06_ecdh_reply_round_trip_refuted :
  exists m w rest, message_ok m /\ is_ecdh_reply m = true /\
    Message_serialize m (repeat x00 200) = Ok (w, rest) /\ w = wire m /\
    (forall m', Message_parse w <> Ok m').
Proof.
  exists (Msg_EcdhReply sample_reply). do 2 eexists. split; [exact sample_reply_ok|].
  split; [reflexivity|]. split; [vm_compute; reflexivity|]. split; [vm_compute; reflexivity|].
  intros m'. vm_compute. discriminate.
Qed.
Print Assumptions C06_ecdh_reply_round_trip_refuted.
(** Nothing at all is ever parsed as an ECDH reply. *)
Theorem C06_no_reply_is_parsed : forall d r, Message_parse d <> Ok (Msg_EcdhReply r).
Proof. exact no_reply_parsed. Qed.
Print Assumptions C06_no_reply_is_parsed.

(** ** C07 *)
Theorem C07_framing_is_tight : forall d x m m',
  Message_parse d = Ok m -> Message_parse (d ++ x) = Ok m' ->
  open_ended m = false \/ open_ended m' = false -> x = [].
Proof. exact framing. Qed.
Print Assumptions C07_framing_is_tight.

Example C07_example : exists m, Message_parse (wire ex_request) = Ok m /\ open_ended m = false.
Proof. eexists. split; [vm_compute; reflexivity|reflexivity]. Qed.
(** The hypothesis on open ends is needed. *)
Example C07_example_open : exists m m',
  Message_parse (wire (Msg_Channel (C_Request {| rq_recipient := 1; rq_ty := B "x"; rq_want_reply := true; rq_data := [] |}))) = Ok m /\
  Message_parse (wire (Msg_Channel (C_Request {| rq_recipient := 1; rq_ty := B "x"; rq_want_reply := true; rq_data := [] |})) ++ B "yz") = Ok m'.
Proof. do 2 eexists. split; vm_compute; reflexivity. Qed.

(** ** C08 *)
Theorem C08_message_numbers :
  (forall b r m, Message_parse (b :: r) = Ok m -> message_number m = b2n b) /\
  Message_parse [] = Err ME_NoMessageType /\
  (forall b r, ~ In (b2n b) assigned_numbers ->
     exists e, Message_parse (b :: r) = Err e /\ unknown_number e = Some (b2n b)) /\
  (forall b r e, In (b2n b) assigned_numbers -> Message_parse (b :: r) = Err e -> unknown_number e = None).
Proof. exact (conj parse_number (conj eq_refl (conj unassigned assigned))). Qed.
Print Assumptions C08_message_numbers.

Example C08_example : ~ In (b2n x50) assigned_numbers /\ ~ In (b2n x36) assigned_numbers /\ ~ In (b2n x65) assigned_numbers.
Proof. vm_compute. intuition discriminate. Qed.

(** ** C09 *)
Theorem C09_session_grammar : forall ty d r,
  SessionRequest_parse ty d = Ok r <-> session_ok r /\ ty = session_name r /\ reads (session_fields r) d.
Proof. exact SessionRequest_parse_iff. Qed.
Print Assumptions C09_session_grammar.
Theorem C09_session_written : forall r buf, session_ok r ->
  session_written r buf =
  if len (enc (session_fields r)) <=? len buf then Ok (session_name r, enc (session_fields r)) else Err tt.
Proof. exact session_written_eq. Qed.
Print Assumptions C09_session_written.
Theorem C09_session_round_trip : forall r buf, session_ok r -> len (enc (session_fields r)) <= len buf ->
  exists w, session_written r buf = Ok (session_name r, w) /\ SessionRequest_parse (session_name r) w = Ok r.
Proof. exact session_round. Qed.
Print Assumptions C09_session_round_trip.

Example C09_example : session_ok (SR_ExitSignal SigSegv true (B "core") (B "en")).
Proof.
  split; [repeat constructor|]. split; [exact I|]. apply utf8_valid_iff. reflexivity.
Qed.
Example C09_example_other : session_ok (SR_Signal (SigOther (B "WINCH"))).
Proof. split; [repeat constructor|]. vm_compute. intuition discriminate. Qed.

(** ** C10 *)
Theorem C10_signal_names :
  (forall s, Signal_to_bytes (Signal_of_bytes s) = s) /\
  (forall g, signal_ok g -> Signal_of_bytes (Signal_to_bytes g) = g) /\
  (forall a b, Signal_of_bytes a = Signal_of_bytes b -> a = b) /\
  (forall s g, Signal_of_bytes s = g <-> signal_name g = s /\ signal_ok g).
Proof. exact (conj Signal_round (conj Signal_round' (conj Signal_inj Signal_of_spec))). Qed.
Print Assumptions C10_signal_names.

(** ** C11 *)
Theorem C11_name_lists : forall l,
  (forall x, NameList_try_from l = Ok x <-> x = l /\ name_list_ok l) /\
  (forall ns fuel, Forall name_ok ns -> l = join ns -> (length ns < fuel)%nat -> NameList_collect fuel l = Ok ns).
Proof. exact namelist_all. Qed.
Print Assumptions C11_name_lists.

Example C11_example : Forall name_ok [B "a"; B "bc"; B "d"] /\ join [B "a"; B "bc"; B "d"] = B "a,bc,d" /\
  NameList_try_from (B "a,,d") = Err EmptyName /\ NameList_try_from (B "a,") = Err EmptyName /\
  NameList_try_from (B ",a") = Err EmptyName /\ NameList_try_from [] = Ok [].
Proof.
  split; [|repeat split; reflexivity].
  repeat constructor; cbn; try discriminate; intros H; discriminate H.
Qed.

(** ** C12 *)
Theorem C12_mpint_canonical : forall s buf, len s + 1 < 2 ^ 32 ->
  exists m, mpint_canonical m (be_value s) /\
    (4 + len m <= len buf ->
     make_pos_mpint buf s = (Ok (4 + len m), (be32 (len m) ++ m) ++ ndrop (4 + len m) buf)) /\
    (len buf < 4 + len m -> exists b, make_pos_mpint buf s = (Err tt, b)).
Proof. exact mpint_written. Qed.
Print Assumptions C12_mpint_canonical.
Theorem C12_mpint_unique : forall m m' n, mpint_canonical m n -> mpint_canonical m' n -> m = m'.
Proof. exact canonical_unique. Qed.
Print Assumptions C12_mpint_unique.

Example C12_example : mpint_canonical [x00; x80] 128 /\ mpint_canonical [] 0 /\ mpint_canonical [x7f] 127 /\
  make_pos_mpint (repeat xff 7) [x00; x00; x80] = (Ok 6, [x00; x00; x00; x02; x00; x80; xff]).
Proof. repeat split; try discriminate; reflexivity. Qed.

(** ** C13 *)
Theorem C13_string_splitting : forall d s r,
  parse_string d = Ok (s, r) <-> len s < 2 ^ 32 /\ d = (be32 (len s) ++ s) ++ r.
Proof. exact parse_string_Ok. Qed.
Print Assumptions C13_string_splitting.

(** ** C64 *)
Theorem C64_utf8_fields : forall (e : unit) d x, from_utf8 e d = Ok x <-> x = d /\ text_ok d.
Proof. exact from_utf8_Ok. Qed.
Print Assumptions C64_utf8_fields.
(** "é€" and U+1F600; an overlong form and a surrogate are refused. *)
Example C64_example : utf8_valid [xc3; xa9; xe2; x82; xac; xf0; x9f; x98; x80] = true /\
  List.concat (map utf8_char [233; 8364; 128512]) = [xc3; xa9; xe2; x82; xac; xf0; x9f; x98; x80] /\
  utf8_valid [xc0; x80] = false /\ utf8_valid [xed; xa0; x80] = false.
Proof. repeat split. Qed.
