(** Model of nora_ssh_core/src/message/channel/session.rs. *)
From Verif Require Export Data Types.
Open Scope res_scope.
Open Scope w_scope.

(** session.rs:211-216 *)
Inductive SessionError := SE_Unknown | SE_Truncated | SE_Unread | SE_InvalidUtf8.

(** session.rs:236-272  the macro [signal!] *)
Definition signal_table : list (bytes * Signal) :=
  [ (B "ABRT", SigAbort); (B "ALRM", SigAlarm); (B "FPE", SigFpe); (B "HUP", SigHangup);
    (B "ILL", SigIllegal); (B "INT", SigInterrupt); (B "KILL", SigKill); (B "PIPE", SigPipe);
    (B "QUIT", SigQuit); (B "SEGV", SigSegv); (B "TERM", SigTerminate);
    (B "USR1", SigUser1); (B "USR2", SigUser2) ].
Fixpoint assoc_signal (s : bytes) (t : list (bytes * Signal)) : Signal :=
  match t with
  | [] => SigOther s
  | (n, v) :: t => if bytes_eqb s n then v else assoc_signal s t
  end.
Definition Signal_of_bytes (s : bytes) : Signal := assoc_signal s signal_table.
Definition Signal_to_bytes (s : Signal) : bytes :=
  match s with
  | SigAbort => B "ABRT" | SigAlarm => B "ALRM" | SigFpe => B "FPE" | SigHangup => B "HUP"
  | SigIllegal => B "ILL" | SigInterrupt => B "INT" | SigKill => B "KILL" | SigPipe => B "PIPE"
  | SigQuit => B "QUIT" | SigSegv => B "SEGV" | SigTerminate => B "TERM"
  | SigUser1 => B "USR1" | SigUser2 => B "USR2"
  | SigOther s => s
  end.

(** session.rs:59-62  the closures *)
Definition sr_str (d : bytes) : res SessionError (bytes * bytes) := ok_or (parse_string d) SE_Truncated.
Definition sr_u32 (d : bytes) : res SessionError (N * bytes) := ok_or (parse_uint32 d) SE_Truncated.
Definition sr_bool (d : bytes) : res SessionError (bool * bytes) := ok_or (parse_bool d) SE_Truncated.
Definition sr_empty (d : bytes) : res SessionError unit := then_ok (is_empty d) tt SE_Unread.

(** session.rs:58-146 *)
Definition SessionRequest_parse (ty data : bytes) : res SessionError SessionRequest :=
  if bytes_eqb ty (B "pty-req") then
    '(terminal, data) <- sr_str data ;;
    '(cw, data) <- sr_u32 data ;;
    '(ch, data) <- sr_u32 data ;;
    '(pw, data) <- sr_u32 data ;;
    '(ph, data) <- sr_u32 data ;;
    '(modes, data) <- sr_str data ;;
    map_ok (fun _ => SR_Pty terminal cw ch pw ph modes) (sr_empty data)
  else if bytes_eqb ty (B "x11-req") then
    '(single, data) <- sr_bool data ;;
    '(protocol, data) <- sr_str data ;;
    '(cookie, data) <- sr_str data ;;
    '(screen, data) <- sr_u32 data ;;
    map_ok (fun _ => SR_X11 single protocol cookie screen) (sr_empty data)
  else if bytes_eqb ty (B "env") then
    '(name, data) <- sr_str data ;;
    '(value, data) <- sr_str data ;;
    map_ok (fun _ => SR_Env name value) (sr_empty data)
  else if bytes_eqb ty (B "shell") then
    map_ok (fun _ => SR_Shell) (sr_empty data)
  else if bytes_eqb ty (B "exec") then
    '(command, data) <- sr_str data ;;
    map_ok (fun _ => SR_Exec command) (sr_empty data)
  else if bytes_eqb ty (B "subsystem") then
    '(name, data) <- sr_str data ;;
    map_ok (fun _ => SR_Subsystem name) (sr_empty data)
  else if bytes_eqb ty (B "window-change") then
    '(cw, data) <- sr_u32 data ;;
    '(ch, data) <- sr_u32 data ;;
    '(pw, data) <- sr_u32 data ;;
    '(ph, data) <- sr_u32 data ;;
    map_ok (fun _ => SR_WindowChange cw ch pw ph) (sr_empty data)
  else if bytes_eqb ty (B "xon-xoff") then
    '(on, data) <- sr_bool data ;;
    map_ok (fun _ => SR_XonXoff on) (sr_empty data)
  else if bytes_eqb ty (B "signal") then
    '(signal, data) <- sr_str data ;;
    map_ok (fun _ => SR_Signal (Signal_of_bytes signal)) (sr_empty data)
  else if bytes_eqb ty (B "exit-status") then
    '(status, data) <- sr_u32 data ;;
    map_ok (fun _ => SR_ExitStatus status) (sr_empty data)
  else if bytes_eqb ty (B "exit-signal") then
    '(signal, data) <- sr_str data ;;
    '(core_dumped, data) <- sr_bool data ;;
    '(message, data) <- sr_str data ;;
    '(language, data) <- sr_str data ;;
    _ <- sr_empty data ;;
    message <- from_utf8 SE_InvalidUtf8 message ;;
    Ok (SR_ExitSignal (Signal_of_bytes signal) core_dumped message language)
  else Err SE_Unknown.

(** session.rs:148-207 *)
Definition SessionRequest_serialize (r : SessionRequest) : W (bytes * N) :=
  match r with
  | SR_Pty terminal cw ch pw ph modes =>
    a <~ make_string2 terminal ;;
    b <~ make_uint32 cw ;;
    c <~ make_uint32 ch ;;
    d <~ make_uint32 pw ;;
    e <~ make_uint32 ph ;;
    f <~ make_string2 modes ;;
    wret (B "pty-req", a + b + c + d + e + f)
  | SR_X11 single protocol cookie screen =>
    a <~ make_bool single ;;
    b <~ make_string2 protocol ;;
    c <~ make_string2 cookie ;;
    d <~ make_uint32 screen ;;
    wret (B "x11-req", a + b + c + d)
  | SR_Env name value =>
    a <~ make_string2 name ;;
    b <~ make_string2 value ;;
    wret (B "env", a + b)
  | SR_Shell => wret (B "shell", 0)
  | SR_Exec command => a <~ make_string2 command ;; wret (B "exec", a)
  | SR_Subsystem name => a <~ make_string2 name ;; wret (B "subsystem", a)
  | SR_WindowChange cw ch pw ph =>
    a <~ make_uint32 cw ;;
    b <~ make_uint32 ch ;;
    c <~ make_uint32 pw ;;
    d <~ make_uint32 ph ;;
    wret (B "window-change", a + b + c + d)
  | SR_XonXoff on => a <~ make_bool on ;; wret (B "xon-xoff", a)
  | SR_Signal signal => a <~ make_string2 (Signal_to_bytes signal) ;; wret (B "signal", a)
  | SR_ExitStatus status => a <~ make_uint32 status ;; wret (B "exit-status", a)
  | SR_ExitSignal signal core_dumped message language =>
    a <~ make_string2 (Signal_to_bytes signal) ;;
    b <~ make_bool core_dumped ;;
    c <~ make_string2 message ;;
    d <~ make_string2 language ;;
    wret (B "exit-signal", a + b + c + d)
  end.

(** The request name and the bytes [SessionRequest::serialize] leaves in the
    buffer: [buf[..n]] with the returned [n] (as used in nora_ssh/src/server.rs:339-346). *)
Definition session_written (r : SessionRequest) (buf : bytes) : res unit (bytes * bytes) :=
  match SessionRequest_serialize r ([], buf) with
  | (Ok (ty, n), (w, rest)) => Ok (ty, ntake n (w ++ rest))
  | (Err e, _) => Err e
  | (Panic, _) => Panic
  end.
