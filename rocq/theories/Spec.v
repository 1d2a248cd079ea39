(** Specification of the SSH wire format, written from RFC 4250-4254, 5656
    and 8731.  It uses only the data types of [Types] and the byte vocabulary
    of [Base], none of the functions that model the code. *)
From Verif Require Export Types.

(** * RFC 4251 section 5: data types *)

Inductive fld :=
| FByte (n : N)        (* byte *)
| FU32 (n : N)         (* uint32 *)
| FStr (s : bytes)     (* string *)
| FBool (b : bool)     (* boolean *)
| FRaw (s : bytes).    (* bytes without a length, up to the end *)

(** The encoding a sender must use. *)
Definition enc1 (f : fld) : bytes :=
  match f with
  | FByte n => [n2b n]
  | FU32 n => be32 n
  | FStr s => be32 (len s) ++ s
  | FBool b => [if b then Byte.x01 else Byte.x00]
  | FRaw s => s
  end.
Definition enc (fs : list fld) : bytes := List.concat (map enc1 fs).

(** What a receiver must accept: "All non-zero values MUST be interpreted as TRUE". *)
Definition reads1 (f : fld) (w : bytes) : Prop :=
  match f with
  | FBool b => exists c, w = [c] /\ (b = true <-> c <> Byte.x00)
  | _ => w = enc1 f
  end.
Fixpoint reads (fs : list fld) (w : bytes) : Prop :=
  match fs with
  | [] => w = []
  | f :: fs => exists w1 w2, w = w1 ++ w2 /\ reads1 f w1 /\ reads fs w2
  end.

(** Numbers are representable. *)
Definition fld_ok (f : fld) : Prop :=
  match f with
  | FByte n => n < 256
  | FU32 n => n < 2 ^ 32
  | FStr s => len s < 2 ^ 32
  | _ => True
  end.

(** mpint, non-negative: the shortest two's complement big-endian string. *)
Definition mpint (n : N) : bytes :=
  if n =? 0 then [] else be_bytes (N.to_nat (N.size n / 8 + 1)) n.

(** name-list: names are non-empty, contain no comma, and are ASCII. *)
Definition name_ok (n : bytes) : Prop :=
  n <> [] /\ Forall (fun b => b2n b < 128 /\ b <> Byte.x2c) n.
Fixpoint join (ns : list bytes) : bytes :=
  match ns with
  | [] => []
  | [n] => n
  | n :: ns => n ++ Byte.x2c :: join ns
  end.
Definition name_list_ok (l : bytes) : Prop := exists ns, Forall name_ok ns /\ l = join ns.

Definition ascii_ok (s : bytes) : Prop := Forall (fun b => b2n b < 128) s.

(** UTF-8 (RFC 3629). *)
Definition scalar (c : N) : Prop := c < 55296 \/ (57343 < c /\ c < 1114112).
Definition utf8_char (c : N) : bytes :=
  if c <? 128 then [n2b c]
  else if c <? 2048 then [n2b (192 + c / 64); n2b (128 + c mod 64)]
  else if c <? 65536 then [n2b (224 + c / 4096); n2b (128 + c / 64 mod 64); n2b (128 + c mod 64)]
  else [n2b (240 + c / 262144); n2b (128 + c / 4096 mod 64); n2b (128 + c / 64 mod 64); n2b (128 + c mod 64)].
Definition text_ok (s : bytes) : Prop :=
  exists cs, Forall scalar cs /\ s = List.concat (map utf8_char cs).

(** * Messages *)

(** RFC 4252: method-specific fields of USERAUTH_REQUEST. *)
Definition method_fields (m : Method) : list fld :=
  match m with
  | M_None => [FStr (B "none")]
  | M_PublicKeyBlob a b => [FStr (B "publickey"); FBool false; FStr a; FStr b]
  | M_PublicKeySigned a k s => [FStr (B "publickey"); FBool true; FStr a; FStr k; FStr s]
  | M_Password p => [FStr (B "password"); FBool false; FStr p]
  | M_PasswordRenew o n => [FStr (B "password"); FBool true; FStr o; FStr n]
  | M_HostBased a k h u s => [FStr (B "hostbased"); FStr a; FStr k; FStr h; FStr u; FStr s]
  | M_Other m d => [FStr m; FRaw d]
  end.

Definition userauth_fields (u : UserAuth) : list fld :=
  match u with
  | UA_Request r => [FByte 50; FStr (ua_user r); FStr (ua_service r)] ++ method_fields (ua_method r)
  | UA_Failure l p => [FByte 51; FStr l; FBool p]
  | UA_Success => [FByte 52]
  | UA_Banner m l => [FByte 53; FStr m; FStr l]
  | UA_PublicKeyOk a b => [FByte 60; FStr a; FStr b]
  end.

(** RFC 4254 section 5.1 *)
Definition reason_code (r : OpenFailureReason) : N :=
  match r with
  | AdministrativelyProhibited => 1
  | ConnectFailed => 2
  | UnknownChannelType => 3
  | ResourceShortage => 4
  | OtherReason r => r
  end.

Definition channel_fields (c : Channel) : list fld :=
  match c with
  | C_Open o => [FByte 90; FStr (op_ty o); FU32 (op_sender o); FU32 (op_window o); FU32 (op_max_packet o)]
  | C_OpenConfirmation o =>
      [FByte 91; FU32 (oc_recipient o); FU32 (oc_sender o); FU32 (oc_window o); FU32 (oc_max_packet o); FRaw (oc_data o)]
  | C_OpenFailure c r d l => [FByte 92; FU32 c; FU32 (reason_code r); FStr d; FStr l]
  | C_WindowAdjust c n => [FByte 93; FU32 c; FU32 n]
  | C_Data c d => [FByte 94; FU32 c; FStr d]
  | C_ExtendedData c t d => [FByte 95; FU32 c; FU32 t; FStr d]
  | C_Eof c => [FByte 96; FU32 c]
  | C_Close c => [FByte 97; FU32 c]
  | C_Request r => [FByte 98; FU32 (rq_recipient r); FStr (rq_ty r); FBool (rq_want_reply r); FRaw (rq_data r)]
  | C_Success c => [FByte 99; FU32 c]
  | C_Failure c => [FByte 100; FU32 c]
  end.

(** RFC 5656 section 3.1: K_S and the signature are strings with inner structure. *)
Definition host_key_blob (k : Key) : bytes :=
  enc [FStr (key_name k); FStr (kb_identifier (key_blob k)); FStr (kb_q (key_blob k))].
Definition signature_blob (s : Signature) : bytes :=
  enc [FStr (sig_name s);
       FStr (enc [FStr (mpint (be_value (sb_r (sig_blob s)))); FStr (mpint (be_value (sb_s (sig_blob s))))])].

Definition message_fields (m : Message) : list fld :=
  match m with
  | Msg_Disconnect d => [FByte 1; FU32 (dc_reason d); FStr (dc_description d); FStr (dc_language d)]
  | Msg_Ignore d => [FByte 2; FStr d]
  | Msg_Unimplemented n => [FByte 3; FU32 n]
  | Msg_Debug d => [FByte 4; FBool (dbg_always_display d); FStr (dbg_message d); FStr (dbg_language d)]
  | Msg_ServiceRequest n => [FByte 5; FStr n]
  | Msg_ServiceAccept n => [FByte 6; FStr n]
  | Msg_KexInit k =>
      [FByte 20; FRaw (ki_cookie k);
       FStr (ki_kex_algorithms k); FStr (ki_server_host_key_algorithms k);
       FStr (ki_enc_c2s k); FStr (ki_enc_s2c k);
       FStr (ki_mac_c2s k); FStr (ki_mac_s2c k);
       FStr (ki_comp_c2s k); FStr (ki_comp_s2c k);
       FStr (ki_lang_c2s k); FStr (ki_lang_s2c k);
       FBool (ki_first_kex_packet_follows k); FU32 0]
  | Msg_NewKeys => [FByte 21]
  | Msg_EcdhInit q => [FByte 30; FStr q]
  | Msg_EcdhReply r =>
      [FByte 31; FStr (host_key_blob (er_key r)); FStr (er_ephermal r); FStr (signature_blob (er_signature r))]
  | Msg_UserAuth u => userauth_fields u
  | Msg_Channel c => channel_fields c
  end.

(** What the Rust types of the fields guarantee, and that the catch-all
    variants do not stand for something that has a variant of its own. *)
Definition known_methods : list bytes := [B "none"; B "publickey"; B "password"; B "hostbased"].
Definition message_wf (m : Message) : Prop :=
  match m with
  | Msg_Debug d => text_ok (dbg_message d)
  | Msg_KexInit k =>
      len (ki_cookie k) = 16 /\
      Forall name_list_ok
        [ki_kex_algorithms k; ki_server_host_key_algorithms k; ki_enc_c2s k; ki_enc_s2c k;
         ki_mac_c2s k; ki_mac_s2c k; ki_comp_c2s k; ki_comp_s2c k; ki_lang_c2s k; ki_lang_s2c k]
  | Msg_UserAuth (UA_Request r) =>
      match ua_method r with
      | M_HostBased _ _ h u _ => ascii_ok h /\ text_ok u
      | M_Other m _ => ~ In m known_methods
      | _ => True
      end
  | Msg_UserAuth (UA_Failure l _) => name_list_ok l
  | Msg_Channel (C_OpenFailure _ r d _) =>
      text_ok d /\ match r with OtherReason n => ~ In n [1; 2; 3; 4] | _ => True end
  | _ => True
  end.
Definition message_ok (m : Message) : Prop := Forall fld_ok (message_fields m) /\ message_wf m.

(** The RFC encoding of a message, and the relation "w is an encoding of m". *)
Definition wire (m : Message) : bytes := enc (message_fields m).
Definition is_wire (m : Message) (w : bytes) : Prop := message_ok m /\ reads (message_fields m) w.

(** * Session requests (RFC 4254 section 6) *)
Definition signal_name (s : Signal) : bytes :=
  match s with
  | SigAbort => B "ABRT" | SigAlarm => B "ALRM" | SigFpe => B "FPE" | SigHangup => B "HUP"
  | SigIllegal => B "ILL" | SigInterrupt => B "INT" | SigKill => B "KILL" | SigPipe => B "PIPE"
  | SigQuit => B "QUIT" | SigSegv => B "SEGV" | SigTerminate => B "TERM"
  | SigUser1 => B "USR1" | SigUser2 => B "USR2"
  | SigOther n => n
  end.
Definition known_signals : list bytes :=
  map signal_name [SigAbort; SigAlarm; SigFpe; SigHangup; SigIllegal; SigInterrupt; SigKill;
                   SigPipe; SigQuit; SigSegv; SigTerminate; SigUser1; SigUser2].
Definition signal_ok (s : Signal) : Prop :=
  match s with SigOther n => ~ In n known_signals | _ => True end.

Definition session_name (r : SessionRequest) : bytes :=
  match r with
  | SR_Pty _ _ _ _ _ _ => B "pty-req"
  | SR_X11 _ _ _ _ => B "x11-req"
  | SR_Env _ _ => B "env"
  | SR_Shell => B "shell"
  | SR_Exec _ => B "exec"
  | SR_Subsystem _ => B "subsystem"
  | SR_WindowChange _ _ _ _ => B "window-change"
  | SR_XonXoff _ => B "xon-xoff"
  | SR_Signal _ => B "signal"
  | SR_ExitStatus _ => B "exit-status"
  | SR_ExitSignal _ _ _ _ => B "exit-signal"
  end.
Definition session_fields (r : SessionRequest) : list fld :=
  match r with
  | SR_Pty t w h pw ph m => [FStr t; FU32 w; FU32 h; FU32 pw; FU32 ph; FStr m]
  | SR_X11 s p c n => [FBool s; FStr p; FStr c; FU32 n]
  | SR_Env n v => [FStr n; FStr v]
  | SR_Shell => []
  | SR_Exec c => [FStr c]
  | SR_Subsystem n => [FStr n]
  | SR_WindowChange w h pw ph => [FU32 w; FU32 h; FU32 pw; FU32 ph]
  | SR_XonXoff b => [FBool b]
  | SR_Signal s => [FStr (signal_name s)]
  | SR_ExitStatus n => [FU32 n]
  | SR_ExitSignal s c m l => [FStr (signal_name s); FBool c; FStr m; FStr l]
  end.
Definition session_ok (r : SessionRequest) : Prop :=
  Forall fld_ok (session_fields r) /\
  match r with
  | SR_Signal s => signal_ok s
  | SR_ExitSignal s _ m _ => signal_ok s /\ text_ok m
  | _ => True
  end.

(** * Derived notions used in the property statements *)

(** RFC 4250 section 4.1 and RFC 5656 section 7.1: message numbers. *)
Definition message_number (m : Message) : N :=
  match m with
  | Msg_Disconnect _ => 1 | Msg_Ignore _ => 2 | Msg_Unimplemented _ => 3 | Msg_Debug _ => 4
  | Msg_ServiceRequest _ => 5 | Msg_ServiceAccept _ => 6
  | Msg_KexInit _ => 20 | Msg_NewKeys => 21
  | Msg_EcdhInit _ => 30 | Msg_EcdhReply _ => 31
  | Msg_UserAuth (UA_Request _) => 50 | Msg_UserAuth (UA_Failure _ _) => 51
  | Msg_UserAuth UA_Success => 52 | Msg_UserAuth (UA_Banner _ _) => 53
  | Msg_UserAuth (UA_PublicKeyOk _ _) => 60
  | Msg_Channel c =>
    match c with
    | C_Open _ => 90 | C_OpenConfirmation _ => 91 | C_OpenFailure _ _ _ _ => 92
    | C_WindowAdjust _ _ => 93 | C_Data _ _ => 94 | C_ExtendedData _ _ _ => 95
    | C_Eof _ => 96 | C_Close _ => 97 | C_Request _ => 98 | C_Success _ => 99 | C_Failure _ => 100
    end
  end.
Definition assigned_numbers : list N :=
  [1; 2; 3; 4; 5; 6; 20; 21; 30; 31; 50; 51; 52; 53; 60; 90; 91; 92; 93; 94; 95; 96; 97; 98; 99; 100].

(** Messages whose grammar ends in uninterpreted bytes. *)
Definition open_ended (m : Message) : bool :=
  match m with
  | Msg_Channel (C_OpenConfirmation _) | Msg_Channel (C_Request _) => true
  | Msg_UserAuth (UA_Request r) => match ua_method r with M_Other _ _ => true | _ => false end
  | _ => false
  end.

(** The encoding uses only 0 and 1 for booleans. *)
Fixpoint strict (fs : list fld) (w : bytes) : Prop :=
  match fs with
  | [] => True
  | f :: fs => exists w1 w2, w = w1 ++ w2 /\ len w1 = len (enc1 f) /\ strict fs w2 /\
               match f with FBool _ => w1 = [Byte.x00] \/ w1 = [Byte.x01] | _ => True end
  end.

(** RFC 4251 mpint: [m] is the canonical encoding of the non-negative [n]:
    it denotes [n], its sign bit is clear, and no leading byte is redundant. *)
Definition mpint_canonical (m : bytes) (n : N) : Prop :=
  be_value m = n /\
  match m with
  | [] => True
  | [a] => a <> Byte.x00 /\ b2n a < 128
  | a :: b :: _ => b2n a < 128 /\ (a = Byte.x00 -> 128 <= b2n b)
  end.
