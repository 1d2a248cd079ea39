(** Model of nora_ssh_core/src/message/channel/mod.rs. *)
From Verif Require Export Data Types MUserAuth.
Open Scope res_scope.
Open Scope w_scope.

(** The per-message error enums; [CE_BadLength] is the single error of the
    [chan_only!] messages (channel/mod.rs:194-198, 237-240, 301-306, 330-334,
    357-361, 388-392, 423-426, 449-452). *)
Inductive ChError := CE_Truncated | CE_Unread | CE_InvalidUtf8 | CE_BadLength.
(** channel/mod.rs:91-104; the constructor that names the message kind is [kind]. *)
Inductive ChKind := K_Open | K_OpenConfirmation | K_OpenFailure | K_WindowAdjust | K_Data
  | K_ExtendedData | K_Eof | K_Close | K_Request | K_Success | K_Failure.
Inductive ChannelError :=
| CHE_UnknownMessageType (ty : N)
| CHE (kind : ChKind) (e : ChError).

(** channel/mod.rs:171-183 *)
Definition ChOpen_parse (data : bytes) : res ChError ChOpen :=
  '(ty, data) <- ok_or (parse_string data) CE_Truncated ;;
  if len data <? 12 then Err CE_Truncated
  else if 12 <? len data then Err CE_Unread
  else
    a <- idx_to data 4 ;; a <- u32_of_slice a ;;
    b <- idx_range data 4 8 ;; b <- u32_of_slice b ;;
    c <- idx_from data 8 ;; c <- u32_of_slice c ;;
    Ok {| op_ty := ty; op_sender := a; op_window := b; op_max_packet := c |}.
(** channel/mod.rs:185-191 *)
Definition ChOpen_serialize (o : ChOpen) : W N :=
  a <~ make_string2 (op_ty o) ;;
  b <~ make_uint32 (op_sender o) ;;
  c <~ make_uint32 (op_window o) ;;
  d <~ make_uint32 (op_max_packet o) ;;
  wret (a + b + c + d).

(** channel/mod.rs:209-225 *)
Definition ChOpenConfirmation_parse (data : bytes) : res ChError ChOpenConfirmation :=
  if len data <? 16 then Err CE_Truncated
  else
    a <- idx_to data 4 ;; a <- u32_of_slice a ;;
    b <- idx_range data 4 8 ;; b <- u32_of_slice b ;;
    c <- idx_range data 8 12 ;; c <- u32_of_slice c ;;
    d <- idx_range data 12 16 ;; d <- u32_of_slice d ;;
    r <- idx_from data 16 ;;
    Ok {| oc_recipient := a; oc_sender := b; oc_window := c; oc_max_packet := d; oc_data := r |}.
(** channel/mod.rs:227-234 *)
Definition ChOpenConfirmation_serialize (o : ChOpenConfirmation) : W N :=
  a <~ make_uint32 (oc_recipient o) ;;
  b <~ make_uint32 (oc_sender o) ;;
  c <~ make_uint32 (oc_window o) ;;
  d <~ make_uint32 (oc_max_packet o) ;;
  e <~ make_raw (oc_data o) ;;
  wret (a + b + c + d + e).

(** channel/mod.rs:261-267 *)
Definition reason_of_code (n : N) : OpenFailureReason :=
  if n =? 1 then AdministrativelyProhibited
  else if n =? 2 then ConnectFailed
  else if n =? 3 then UnknownChannelType
  else if n =? 4 then ResourceShortage
  else OtherReason n.
(** channel/mod.rs:278-284 *)
Definition code_of_reason (r : OpenFailureReason) : N :=
  match r with
  | AdministrativelyProhibited => 1
  | ConnectFailed => 2
  | UnknownChannelType => 3
  | ResourceShortage => 4
  | OtherReason r => r
  end.

(** channel/mod.rs:250-272 *)
Definition ChOpenFailure_parse (data : bytes) : res ChError Channel :=
  '(c, data) <- ok_or (parse_uint32 data) CE_Truncated ;;
  '(r, data) <- ok_or (parse_uint32 data) CE_Truncated ;;
  '(d, data) <- ok_or (parse_string data) CE_Truncated ;;
  '(l, data) <- ok_or (parse_string data) CE_Truncated ;;
  _ <- then_ok (is_empty data) tt CE_Unread ;;
  d <- from_utf8 CE_InvalidUtf8 d ;;
  Ok (C_OpenFailure c (reason_of_code r) d l).
(** channel/mod.rs:274-289 *)
Definition ChOpenFailure_serialize (c : N) (r : OpenFailureReason) (d l : bytes) : W N :=
  a <~ make_uint32 c ;;
  b <~ make_uint32 (code_of_reason r) ;;
  e <~ make_string2 d ;;
  f <~ make_string2 l ;;
  wret (a + b + e + f).

(** channel/mod.rs:314-327 *)
Definition ChWindowAdjust_parse (data : bytes) : res ChError Channel :=
  '(c, data) <- ok_or (parse_uint32 data) CE_Truncated ;;
  '(n, data) <- ok_or (parse_uint32 data) CE_Truncated ;;
  then_ok (is_empty data) (C_WindowAdjust c n) CE_Unread.
Definition ChWindowAdjust_serialize (c n : N) : W N :=
  a <~ make_uint32 c ;; b <~ make_uint32 n ;; wret (a + b).

(** channel/mod.rs:342-354 *)
Definition ChData_parse (data : bytes) : res ChError Channel :=
  '(c, data) <- ok_or (parse_uint32 data) CE_Truncated ;;
  '(s, d) <- ok_or (parse_string data) CE_Truncated ;;
  then_ok (is_empty d) (C_Data c s) CE_Unread.
Definition ChData_serialize (c : N) (s : bytes) : W N :=
  a <~ make_uint32 c ;; b <~ make_string2 s ;; wret (a + b).

(** channel/mod.rs:370-385 *)
Definition ChExtendedData_parse (data : bytes) : res ChError Channel :=
  '(c, data) <- ok_or (parse_uint32 data) CE_Truncated ;;
  '(t, data) <- ok_or (parse_uint32 data) CE_Truncated ;;
  '(s, d) <- ok_or (parse_string data) CE_Truncated ;;
  then_ok (is_empty d) (C_ExtendedData c t s) CE_Unread.
Definition ChExtendedData_serialize (c t : N) (s : bytes) : W N :=
  a <~ make_uint32 c ;; b <~ make_uint32 t ;; d <~ make_string2 s ;; wret (a + b + d).

(** channel/mod.rs:402-412 *)
Definition ChRequest_parse (data : bytes) : res ChError ChRequest :=
  c <- get_to CE_Truncated data 4 ;;
  c <- u32_of_slice c ;;
  data <- idx_from data 4 ;;
  '(ty, data) <- ok_or (parse_string data) CE_Truncated ;;
  w <- get0 CE_Truncated data ;;
  data <- idx_from data 1 ;;
  Ok {| rq_recipient := c; rq_ty := ty; rq_want_reply := negb (b2n w =? 0); rq_data := data |}.
(** channel/mod.rs:414-420 *)
Definition ChRequest_serialize (r : ChRequest) : W N :=
  a <~ make_uint32 (rq_recipient r) ;;
  b <~ make_string2 (rq_ty r) ;;
  c <~ make_bool (rq_want_reply r) ;;
  d <~ make_raw (rq_data r) ;;
  wret (a + b + c + d).

(** channel/mod.rs:428-459  the macro [chan_only!] *)
Definition chan_only_parse (data : bytes) : res ChError N :=
  if len data =? 4 then Ok (be_value data) else Err CE_BadLength.
Definition chan_only_serialize (c : N) : W N := a <~ make_uint32 c ;; wret a.

(** channel/mod.rs:23-33 *)
Definition CH_OPEN : N := 90.
Definition CH_OPEN_CONFIRMATION : N := 91.
Definition CH_OPEN_FAILURE : N := 92.
Definition CH_WINDOW_ADJUST : N := 93.
Definition CH_DATA : N := 94.
Definition CH_EXTENDED_DATA : N := 95.
Definition CH_EOF : N := 96.
Definition CH_CLOSE : N := 97.
Definition CH_REQUEST : N := 98.
Definition CH_SUCCESS : N := 99.
Definition CH_FAILURE : N := 100.

(** channel/mod.rs:35-66 *)
Definition Channel_parse (ty : N) (data : bytes) : res ChannelError Channel :=
  if ty =? CH_OPEN then map_err (CHE K_Open) (map_ok C_Open (ChOpen_parse data))
  else if ty =? CH_OPEN_CONFIRMATION then
    map_err (CHE K_OpenConfirmation) (map_ok C_OpenConfirmation (ChOpenConfirmation_parse data))
  else if ty =? CH_OPEN_FAILURE then map_err (CHE K_OpenFailure) (ChOpenFailure_parse data)
  else if ty =? CH_WINDOW_ADJUST then map_err (CHE K_WindowAdjust) (ChWindowAdjust_parse data)
  else if ty =? CH_DATA then map_err (CHE K_Data) (ChData_parse data)
  else if ty =? CH_EXTENDED_DATA then map_err (CHE K_ExtendedData) (ChExtendedData_parse data)
  else if ty =? CH_EOF then map_err (CHE K_Eof) (map_ok C_Eof (chan_only_parse data))
  else if ty =? CH_CLOSE then map_err (CHE K_Close) (map_ok C_Close (chan_only_parse data))
  else if ty =? CH_REQUEST then map_err (CHE K_Request) (map_ok C_Request (ChRequest_parse data))
  else if ty =? CH_SUCCESS then map_err (CHE K_Success) (map_ok C_Success (chan_only_parse data))
  else if ty =? CH_FAILURE then map_err (CHE K_Failure) (map_ok C_Failure (chan_only_parse data))
  else Err (CHE_UnknownMessageType ty).

(** channel/mod.rs:68-87 *)
Definition Channel_serialize (c : Channel) : W N :=
  match c with
  | C_Open o => with_type CH_OPEN (ChOpen_serialize o)
  | C_OpenConfirmation o => with_type CH_OPEN_CONFIRMATION (ChOpenConfirmation_serialize o)
  | C_OpenFailure c r d l => with_type CH_OPEN_FAILURE (ChOpenFailure_serialize c r d l)
  | C_WindowAdjust c n => with_type CH_WINDOW_ADJUST (ChWindowAdjust_serialize c n)
  | C_Data c d => with_type CH_DATA (ChData_serialize c d)
  | C_ExtendedData c t d => with_type CH_EXTENDED_DATA (ChExtendedData_serialize c t d)
  | C_Eof c => with_type CH_EOF (chan_only_serialize c)
  | C_Close c => with_type CH_CLOSE (chan_only_serialize c)
  | C_Request r => with_type CH_REQUEST (ChRequest_serialize r)
  | C_Success c => with_type CH_SUCCESS (chan_only_serialize c)
  | C_Failure c => with_type CH_FAILURE (chan_only_serialize c)
  end.
