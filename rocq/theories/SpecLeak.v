(** For C76: connections that differ in what their buffers hold. *)
From Verif Require Export Session.

(** The same session, with other contents of the packet buffer. *)
Definition s_with (b : bytes) (st : SSt) : SSt :=
  {| s_conn := s_conn st; s_buf := b; s_chans := s_chans st; s_stdout := s_stdout st; s_stderr := s_stderr st;
     s_wait := s_wait st; s_children := s_children st; s_log := s_log st |}.
Definition s_same (st st' : SSt) : Prop := exists b, len b = len (s_buf st) /\ st' = s_with b st.

(** The same authentication, with other contents of the three buffers. *)
Definition a_seen {U} (st st' : ASt U) : Prop := a_conn st = a_conn st' /\ a_log st = a_log st'.
Definition a_same {U} (st st' : ASt U) : Prop := a_seen st st' /\
  len (a_buf st) = len (a_buf st') /\ len (a_mini st) = len (a_mini st') /\ len (a_message st) = len (a_message st').

(** Same result, same connection, same events. *)
Definition same_run {E A} (x y : option (res E A * SSt)) : Prop :=
  match x, y with
  | Some (r, st), Some (r', st') => r = r' /\ s_same st st'
  | None, None => True
  | _, _ => False
  end.
Definition same_auth {U A} (x y : option (res unit A * ASt U)) : Prop :=
  match x, y with
  | Some (r, st), Some (r', st') => r = r' /\ a_seen st st'
  | None, None => True
  | _, _ => False
  end.
