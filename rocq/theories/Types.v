(** The data types of nora_ssh_core/src/message (structures and enums only).
    [&'a [u8]], [&'a str], [NameList] and [AsciiStr] are byte strings; what
    the Rust types guarantee about their contents is stated in [Spec]. *)
From Verif Require Export Base.

(** message/mod.rs:194-198 *)
Record Disconnect := { dc_reason : N; dc_description : bytes; dc_language : bytes }.
(** message/mod.rs:279-283 *)
Record Debug := { dbg_always_display : bool; dbg_message : bytes; dbg_language : bytes }.

(** message/key_exchange/mod.rs:12-25 *)
Record KeyExchangeInit := {
  ki_cookie : bytes;
  ki_kex_algorithms : bytes;
  ki_server_host_key_algorithms : bytes;
  ki_enc_c2s : bytes;
  ki_enc_s2c : bytes;
  ki_mac_c2s : bytes;
  ki_mac_s2c : bytes;
  ki_comp_c2s : bytes;
  ki_comp_s2c : bytes;
  ki_lang_c2s : bytes;
  ki_lang_s2c : bytes;
  ki_first_kex_packet_follows : bool }.

(** message/key_exchange/ecdh.rs:73-76, 92-95 *)
Record KeyBlob := { kb_identifier : bytes; kb_q : bytes }.
Record Key := { key_name : bytes; key_blob : KeyBlob }.
(** message/key_exchange/ecdh.rs:111-114, 136-139 *)
Record SignatureBlob := { sb_r : bytes; sb_s : bytes }.
Record Signature := { sig_name : bytes; sig_blob : SignatureBlob }.
(** message/key_exchange/ecdh.rs:28-32 *)
Record EcdhReply := { er_key : Key; er_ephermal : bytes; er_signature : Signature }.

(** message/userauth.rs:262-291 *)
Inductive Method :=
| M_None
| M_PublicKeyBlob (algorithm blob : bytes)
| M_PublicKeySigned (algorithm key signature : bytes)
| M_Password (password : bytes)
| M_PasswordRenew (old_password new_password : bytes)
| M_HostBased (algorithm key_and_certificates host_name user_name signature : bytes)
| M_Other (method data : bytes).

(** message/userauth.rs:139-143 *)
Record UARequest := { ua_user : bytes; ua_service : bytes; ua_method : Method }.

(** message/userauth.rs:10-16, 301-304, 334, 353-356, 380-383 *)
Inductive UserAuth :=
| UA_Request (r : UARequest)
| UA_Failure (alternative_methods : bytes) (partial_success : bool)
| UA_Success
| UA_Banner (message language : bytes)
| UA_PublicKeyOk (algorithm blob : bytes).

(** message/channel/mod.rs:293-299 *)
Inductive OpenFailureReason :=
| AdministrativelyProhibited | ConnectFailed | UnknownChannelType | ResourceShortage
| OtherReason (r : N).

(** message/channel/mod.rs:163-168, 200-206, 394-399 *)
Record ChOpen := { op_ty : bytes; op_sender : N; op_window : N; op_max_packet : N }.
Record ChOpenConfirmation :=
  { oc_recipient : N; oc_sender : N; oc_window : N; oc_max_packet : N; oc_data : bytes }.
Record ChRequest := { rq_recipient : N; rq_ty : bytes; rq_want_reply : bool; rq_data : bytes }.

(** message/channel/mod.rs:8-20, 242-247, 308-311, 336-339, 363-367, 430-432 *)
Inductive Channel :=
| C_Open (o : ChOpen)
| C_OpenConfirmation (o : ChOpenConfirmation)
| C_OpenFailure (recipient : N) (reason : OpenFailureReason) (description language : bytes)
| C_WindowAdjust (recipient add_bytes : N)
| C_Data (recipient : N) (data : bytes)
| C_ExtendedData (recipient ty : N) (data : bytes)
| C_Eof (recipient : N)
| C_Close (recipient : N)
| C_Request (r : ChRequest)
| C_Success (recipient : N)
| C_Failure (recipient : N).

(** message/mod.rs:20-33, 230-232, 254-256; ecdh.rs:3-5; service.rs:5-7 *)
Inductive Message :=
| Msg_Disconnect (d : Disconnect)
| Msg_Ignore (data : bytes)
| Msg_Unimplemented (sequence_number : N)
| Msg_Debug (d : Debug)
| Msg_KexInit (k : KeyExchangeInit)
| Msg_EcdhInit (client_ephermal_public_key : bytes)
| Msg_EcdhReply (r : EcdhReply)
| Msg_NewKeys
| Msg_ServiceRequest (service_name : bytes)
| Msg_ServiceAccept (service_name : bytes)
| Msg_UserAuth (u : UserAuth)
| Msg_Channel (c : Channel).

(** message/channel/session.rs:219-234 *)
Inductive Signal :=
| SigAbort | SigAlarm | SigFpe | SigHangup | SigIllegal | SigInterrupt | SigKill
| SigPipe | SigQuit | SigSegv | SigTerminate | SigUser1 | SigUser2
| SigOther (name : bytes).

(** message/channel/session.rs:8-55 *)
Inductive SessionRequest :=
| SR_Pty (terminal : bytes) (char_width char_height pixel_width pixel_height : N) (modes : bytes)
| SR_X11 (single_connection : bool) (auth_protocol auth_cookie : bytes) (screen : N)
| SR_Env (name value : bytes)
| SR_Shell
| SR_Exec (command : bytes)
| SR_Subsystem (name : bytes)
| SR_WindowChange (char_width char_height pixel_width pixel_height : N)
| SR_XonXoff (on : bool)
| SR_Signal (signal : Signal)
| SR_ExitStatus (status : N)
| SR_ExitSignal (signal : Signal) (core_dumped : bool) (message language : bytes).
