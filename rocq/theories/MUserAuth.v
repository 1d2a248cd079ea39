(** Model of nora_ssh_core/src/message/userauth.rs. *)
From Verif Require Export Data Types.
Open Scope res_scope.
Open Scope w_scope.

(** userauth.rs:294-299, 328-332, 349-351, 375-378, 402-405 *)
Inductive UARequestError := UR_Truncated | UR_Unread | UR_NotAscii | UR_NotUtf8.
Inductive UAFailureError := UF_Truncated | UF_Unread | UF_InvalidNameList (e : InvalidNameList).
Inductive UASuccessError := US_Unread.
Inductive UABannerError := UB_Truncated | UB_Unread.
Inductive UAPkOkError := UP_Truncated | UP_Unread.
(** userauth.rs:130-137 *)
Inductive UserAuthError :=
| UAE_UnknownMessageType (ty : N)
| UAE_Request (e : UARequestError)
| UAE_Failure (e : UAFailureError)
| UAE_Success (e : UASuccessError)
| UAE_Banner (e : UABannerError)
| UAE_PublicKeyOk (e : UAPkOkError).

(** userauth.rs:147-148  the closures [parse] and [empty] *)
Definition ur_parse (data : bytes) : res UARequestError (bytes * bytes) := ok_or (parse_string data) UR_Truncated.
Definition ur_empty (data : bytes) : res UARequestError unit := then_ok (is_empty data) tt UR_Unread.
(** [data.split_first().ok_or(Truncated)] *)
Definition ur_split_first (data : bytes) : res UARequestError (byte * bytes) :=
  match data with b :: d => Ok (b, d) | [] => Err UR_Truncated end.

(** userauth.rs:152-199 *)
Definition Method_parse (method data : bytes) : res UARequestError Method :=
  if bytes_eqb method (B "none") then
    map_ok (fun _ => M_None) (ur_empty data)
  else if bytes_eqb method (B "publickey") then
    '(sign, data) <- ur_split_first data ;;
    if b2n sign =? 0 then
      '(algorithm, data) <- ur_parse data ;;
      '(blob, data) <- ur_parse data ;;
      _ <- ur_empty data ;;
      Ok (M_PublicKeyBlob algorithm blob)
    else
      '(algorithm, data) <- ur_parse data ;;
      '(key, data) <- ur_parse data ;;
      '(signature, data) <- ur_parse data ;;
      _ <- ur_empty data ;;
      Ok (M_PublicKeySigned algorithm key signature)
  else if bytes_eqb method (B "password") then
    '(renew, data) <- ur_split_first data ;;
    if b2n renew =? 0 then
      '(password, data) <- ur_parse data ;;
      _ <- ur_empty data ;;
      Ok (M_Password password)
    else
      '(old_password, data) <- ur_parse data ;;
      '(new_password, data) <- ur_parse data ;;
      _ <- ur_empty data ;;
      Ok (M_PasswordRenew old_password new_password)
  else if bytes_eqb method (B "hostbased") then
    '(algorithm, data) <- ur_parse data ;;
    '(key_and_certificates, data) <- ur_parse data ;;
    '(host_name, data) <- ur_parse data ;;
    '(user_name, data) <- ur_parse data ;;
    '(signature, data) <- ur_parse data ;;
    _ <- ur_empty data ;;
    host_name <- map_err (fun _ => UR_NotAscii) (AsciiStr_try_from host_name) ;;
    user_name <- from_utf8 UR_NotUtf8 user_name ;;
    Ok (M_HostBased algorithm key_and_certificates host_name user_name signature)
  else Ok (M_Other method data).

(** userauth.rs:146-201 *)
Definition UARequest_parse (data : bytes) : res UARequestError UARequest :=
  '(user, data) <- ur_parse data ;;
  '(service, data) <- ur_parse data ;;
  '(method, data) <- ur_parse data ;;
  m <- Method_parse method data ;;
  Ok {| ua_user := user; ua_service := service; ua_method := m |}.

(** userauth.rs:206-256 *)
Definition Method_serialize (m : Method) : W N :=
  match m with
  | M_None => make_string2 (B "none")
  | M_PublicKeyBlob algorithm blob =>
    d <~ make_string2 (B "publickey") ;;
    e <~ make_bool false ;;
    f <~ make_string2 algorithm ;;
    g <~ make_string2 blob ;;
    wret (d + e + f + g)
  | M_PublicKeySigned algorithm key signature =>
    d <~ make_string2 (B "publickey") ;;
    e <~ make_bool true ;;
    f <~ make_string2 algorithm ;;
    g <~ make_string2 key ;;
    h <~ make_string2 signature ;;
    wret (d + e + f + g + h)
  | M_Password password =>
    d <~ make_string2 (B "password") ;;
    e <~ make_bool false ;;
    f <~ make_string2 password ;;
    wret (d + e + f)
  | M_PasswordRenew old_password new_password =>
    d <~ make_string2 (B "password") ;;
    e <~ make_bool true ;;
    f <~ make_string2 old_password ;;
    g <~ make_string2 new_password ;;
    wret (d + e + f + g)
  | M_HostBased algorithm key_and_certificates host_name user_name signature =>
    d <~ make_string2 (B "hostbased") ;;
    e <~ make_string2 algorithm ;;
    f <~ make_string2 key_and_certificates ;;
    g <~ make_string2 host_name ;;
    h <~ make_string2 user_name ;;
    i <~ make_string2 signature ;;
    wret (d + e + f + g + h + i)
  | M_Other method data =>
    d <~ make_string2 method ;;
    e <~ make_raw data ;;
    wret (d + e)
  end.

(** userauth.rs:203-258 *)
Definition UARequest_serialize (r : UARequest) : W N :=
  a <~ make_string2 (ua_user r) ;;
  b <~ make_string2 (ua_service r) ;;
  c <~ Method_serialize (ua_method r) ;;
  wret (a + b + c).

(** userauth.rs:307-318 *)
Definition UAFailure_parse (data : bytes) : res UAFailureError (bytes * bool) :=
  '(l, data) <- ok_or (parse_string data) UF_Truncated ;;
  match data with
  | [] => Err UF_Truncated
  | [p] => l <- map_err UF_InvalidNameList (NameList_try_from l) ;;
           Ok (l, negb (b2n p =? 0))
  | _ => Err UF_Unread
  end.
(** userauth.rs:320-324 *)
Definition UAFailure_serialize (l : bytes) (p : bool) : W N :=
  a <~ make_string2 l ;; b <~ make_bool p ;; wret (a + b).

(** userauth.rs:336-346 *)
Definition UASuccess_parse (data : bytes) : res UASuccessError unit := then_ok (is_empty data) tt US_Unread.
Definition UASuccess_serialize : W N := wret 0.

(** userauth.rs:358-372 *)
Definition UABanner_parse (data : bytes) : res UABannerError (bytes * bytes) :=
  '(m, data) <- ok_or (parse_string data) UB_Truncated ;;
  '(l, data) <- ok_or (parse_string data) UB_Truncated ;;
  then_ok (is_empty data) (m, l) UB_Unread.
Definition UABanner_serialize (m l : bytes) : W N :=
  a <~ make_string2 m ;; b <~ make_string2 l ;; wret (a + b).

(** userauth.rs:385-399 *)
Definition UAPkOk_parse (data : bytes) : res UAPkOkError (bytes * bytes) :=
  '(a, data) <- ok_or (parse_string data) UP_Truncated ;;
  '(b, data) <- ok_or (parse_string data) UP_Truncated ;;
  then_ok (is_empty data) (a, b) UP_Unread.
Definition UAPkOk_serialize (a b : bytes) : W N :=
  x <~ make_string2 a ;; y <~ make_string2 b ;; wret (x + y).

(** userauth.rs:19-23 *)
Definition UA_REQUEST : N := 50.
Definition UA_FAILURE : N := 51.
Definition UA_SUCCESS : N := 52.
Definition UA_BANNER : N := 53.
Definition UA_PK_OK : N := 60.

(** userauth.rs:25-44 *)
Definition UserAuth_parse (ty : N) (data : bytes) : res UserAuthError UserAuth :=
  if ty =? UA_REQUEST then map_err UAE_Request (map_ok UA_Request (UARequest_parse data))
  else if ty =? UA_FAILURE then
    map_err UAE_Failure (map_ok (fun '(l, p) => UA_Failure l p) (UAFailure_parse data))
  else if ty =? UA_SUCCESS then map_err UAE_Success (map_ok (fun _ => UA_Success) (UASuccess_parse data))
  else if ty =? UA_BANNER then
    map_err UAE_Banner (map_ok (fun '(m, l) => UA_Banner m l) (UABanner_parse data))
  else if ty =? UA_PK_OK then
    map_err UAE_PublicKeyOk (map_ok (fun '(a, b) => UA_PublicKeyOk a b) (UAPkOk_parse data))
  else Err (UAE_UnknownMessageType ty).

(** [let (t, buf) = buf.split_first_mut()?; *t = ty; f(buf).map(|i| i + 1)]:
    userauth.rs:47-70, channel/mod.rs:69-73, message/mod.rs:95-99 *)
Definition with_type (ty : N) (f : W N) : W N := fun '(done, buf) =>
  match buf with
  | [] => (Err tt, (done, buf))
  | _ :: buf => (i <~ f ;; wret (i + 1)) (done ++ [n2b ty], buf)
  end.

(** userauth.rs:46-71 *)
Definition UserAuth_serialize (u : UserAuth) : W N :=
  match u with
  | UA_Request r => with_type UA_REQUEST (UARequest_serialize r)
  | UA_Failure l p => with_type UA_FAILURE (UAFailure_serialize l p)
  | UA_Success => with_type UA_SUCCESS UASuccess_serialize
  | UA_Banner m l => with_type UA_BANNER (UABanner_serialize m l)
  | UA_PublicKeyOk a b => with_type UA_PK_OK (UAPkOk_serialize a b)
  end.

(** userauth.rs:410-428.  The returned slice is the part of the buffer before
    what the last writer left. *)
Definition format_sign_data (buf session_identifier user service algorithm blob : bytes)
  : res unit bytes * bytes :=
  match (_ <~ make_string2 session_identifier ;;
         _ <~ make_raw [n2b UA_REQUEST] ;;
         _ <~ make_string2 user ;;
         _ <~ make_string2 service ;;
         _ <~ make_string2 (B "publickey") ;;
         _ <~ make_bool true ;;
         _ <~ make_string2 algorithm ;;
         _ <~ make_string2 blob ;;
         wret tt) ([], buf)
  with
  | (Ok _, (w, b)) => (idx_to (w ++ b) (len (w ++ b) - len b), w ++ b)
  | (Err e, (w, b)) => (Err e, w ++ b)
  | (Panic, (w, b)) => (Panic, w ++ b)
  end.
