(** Model of nora_ssh_core/src/message/mod.rs. *)
From Verif Require Export Data Types MKex MUserAuth MChannel.
Open Scope res_scope.
Open Scope w_scope.

(** message/mod.rs:226-228, 249-252, 274-277, 305-309 *)
Inductive DisconnectError := DC_BadLength.
Inductive IgnoreError := IG_Truncated | IG_Unread.
Inductive UnimplementedError := UI_Truncated | UI_Unread.
Inductive DebugError := DB_Truncated | DB_Unread | DB_InvalidUtf8.

(** message/mod.rs:201-215 *)
Definition Disconnect_parse (data : bytes) : res DisconnectError Disconnect :=
  reason <- get_to DC_BadLength data 4 ;;
  data <- idx_from data 4 ;;
  '(description, data) <- ok_or (parse_string data) DC_BadLength ;;
  '(language, data) <- ok_or (parse_string data) DC_BadLength ;;
  if negb (is_empty data) then Err DC_BadLength
  else
    reason <- u32_of_slice reason ;;
    Ok {| dc_reason := reason; dc_description := description; dc_language := language |}.
(** message/mod.rs:217-222 *)
Definition Disconnect_serialize (d : Disconnect) : W N :=
  a <~ make_uint32 (dc_reason d) ;;
  b <~ make_string2 (dc_description d) ;;
  c <~ make_string2 (dc_language d) ;;
  wret (a + b + c).

(** message/mod.rs:235-245 *)
Definition Ignore_parse (data : bytes) : res IgnoreError bytes :=
  '(data, d) <- ok_or (parse_string data) IG_Truncated ;;
  then_ok (is_empty d) data IG_Unread.
Definition Ignore_serialize (d : bytes) : W N := a <~ make_string2 d ;; wret a.

(** message/mod.rs:259-270 *)
Definition Unimplemented_parse (data : bytes) : res UnimplementedError N :=
  '(n, data) <- ok_or (parse_uint32 data) UI_Truncated ;;
  then_ok (is_empty data) n UI_Unread.
Definition Unimplemented_serialize (n : N) : W N := a <~ make_uint32 n ;; wret a.

(** message/mod.rs:286-294 *)
Definition Debug_parse (data : bytes) : res DebugError Debug :=
  '(a, data) <- ok_or (parse_bool data) DB_Truncated ;;
  '(m, data) <- ok_or (parse_string data) DB_Truncated ;;
  '(l, data) <- ok_or (parse_string data) DB_Truncated ;;
  m <- from_utf8 DB_InvalidUtf8 m ;;
  then_ok (is_empty data) {| dbg_always_display := a; dbg_message := m; dbg_language := l |} DB_Unread.
(** message/mod.rs:296-301 *)
Definition Debug_serialize (d : Debug) : W N :=
  a <~ make_bool (dbg_always_display d) ;;
  b <~ make_string2 (dbg_message d) ;;
  c <~ make_string2 (dbg_language d) ;;
  wret (a + b + c).

(** message/mod.rs:119-134 *)
Inductive MessageError :=
| ME_NoMessageType
| ME_UnknownMessageType (ty : N)
| ME_Disconnect (e : DisconnectError)
| ME_Ignore (e : IgnoreError)
| ME_Unimplemented (e : UnimplementedError)
| ME_Debug (e : DebugError)
| ME_KexInit (e : KexInitError)
| ME_NewKeys (e : NewKeysError)
| ME_EcdhInit (e : EcdhInitError)
| ME_EcdhReply (e : EcdhReplyError)
| ME_ServiceRequest (e : ServiceError)
| ME_ServiceAccept (e : ServiceError)
| ME_UserAuth (e : UserAuthError)
| ME_Channel (e : ChannelError).

(** message/mod.rs:36-50 *)
Definition DISCONNECT : N := 1.
Definition IGNORE : N := 2.
Definition UNIMPLEMENTED : N := 3.
Definition DEBUG : N := 4.
Definition SERVICE_REQUEST : N := 5.
Definition SERVICE_ACCEPT : N := 6.
Definition KEXINIT : N := 20.
Definition NEWKEYS : N := 21.
Definition KEX_ECDH_INIT : N := 30.
Definition KEX_ECDH_REPLY : N := 31.
Definition USERAUTH_contains (t : N) : bool := (50 <=? t) && (t <=? 79).
Definition CHANNEL_contains (t : N) : bool := (90 <=? t) && (t <=? 127).

(** message/mod.rs:52-92 *)
Definition Message_parse (data : bytes) : res MessageError Message :=
  b <- get0 ME_NoMessageType data ;;
  let t := b2n b in
  if t =? DISCONNECT then
    d <- idx_from data 1 ;; map_err ME_Disconnect (map_ok Msg_Disconnect (Disconnect_parse d))
  else if t =? IGNORE then
    d <- idx_from data 1 ;; map_err ME_Ignore (map_ok Msg_Ignore (Ignore_parse d))
  else if t =? UNIMPLEMENTED then
    d <- idx_from data 1 ;; map_err ME_Unimplemented (map_ok Msg_Unimplemented (Unimplemented_parse d))
  else if t =? DEBUG then
    d <- idx_from data 1 ;; map_err ME_Debug (map_ok Msg_Debug (Debug_parse d))
  else if t =? SERVICE_REQUEST then
    d <- idx_from data 1 ;; map_err ME_ServiceRequest (map_ok Msg_ServiceRequest (Service_parse d))
  else if t =? SERVICE_ACCEPT then
    d <- idx_from data 1 ;; map_err ME_ServiceAccept (map_ok Msg_ServiceAccept (Service_parse d))
  else if t =? KEXINIT then
    d <- idx_from data 1 ;; map_err ME_KexInit (map_ok Msg_KexInit (KexInit_parse d))
  else if t =? NEWKEYS then
    d <- idx_from data 1 ;; map_err ME_NewKeys (map_ok (fun _ => Msg_NewKeys) (NewKeys_parse d))
  else if t =? KEX_ECDH_INIT then
    d <- idx_from data 1 ;; map_err ME_EcdhInit (map_ok Msg_EcdhInit (EcdhInit_parse d))
  else if t =? KEX_ECDH_REPLY then
    d <- idx_from data 1 ;; map_err ME_EcdhReply (map_ok Msg_EcdhReply (EcdhReply_parse d))
  else if USERAUTH_contains t then
    d <- idx_from data 1 ;; map_err ME_UserAuth (map_ok Msg_UserAuth (UserAuth_parse t d))
  else if CHANNEL_contains t then
    d <- idx_from data 1 ;; map_err ME_Channel (map_ok Msg_Channel (Channel_parse t d))
  else Err (ME_UnknownMessageType t).

(** message/mod.rs:94-113 *)
Definition Message_write (m : Message) : W N :=
  match m with
  | Msg_Disconnect o => with_type DISCONNECT (Disconnect_serialize o)
  | Msg_Ignore o => with_type IGNORE (Ignore_serialize o)
  | Msg_Unimplemented o => with_type UNIMPLEMENTED (Unimplemented_serialize o)
  | Msg_Debug o => with_type DEBUG (Debug_serialize o)
  | Msg_ServiceRequest o => with_type SERVICE_REQUEST (Service_serialize o)
  | Msg_ServiceAccept o => with_type SERVICE_ACCEPT (Service_serialize o)
  | Msg_KexInit o => with_type KEXINIT (KexInit_serialize o)
  | Msg_NewKeys => with_type NEWKEYS NewKeys_serialize
  | Msg_EcdhInit o => with_type KEX_ECDH_INIT (EcdhInit_serialize o)
  | Msg_EcdhReply o => with_type KEX_ECDH_REPLY (EcdhReply_serialize o)
  | Msg_UserAuth o => UserAuth_serialize o
  | Msg_Channel o => Channel_serialize o
  end.

(** message/mod.rs:94-115  [Message::serialize]: the pair of slices
    [split_at_mut(i)] makes of the buffer (a panic if [i] is out of range). *)
Definition Message_serialize (m : Message) (buf : bytes) : res unit (bytes * bytes) :=
  match Message_write m ([], buf) with
  | (Ok i, (w, r)) =>
    let buf := w ++ r in
    if i <=? len buf then Ok (ntake i buf, ndrop i buf) else Panic
  | (Err e, _) => Err e
  | (Panic, _) => Panic
  end.
