(** The same connection, but the client sends [t] after all that it sends. *)
From Verif Require Export SpecSession.

Definition more (t : bytes) (k : Conn) : Conn :=
  {| k_rd := k_rd k; k_wr := k_wr k; k_in := k_in k ++ t; k_out := k_out k; k_sent := k_sent k |}.
Definition a_more {U} (t : bytes) (st : ASt U) : ASt U :=
  {| a_conn := more t (a_conn st); a_buf := a_buf st; a_mini := a_mini st; a_message := a_message st; a_log := a_log st |}.
Definition s_more (t : bytes) (st : SSt) : SSt :=
  {| s_conn := more t (s_conn st); s_buf := s_buf st; s_chans := s_chans st; s_stdout := s_stdout st; s_stderr := s_stderr st;
     s_wait := s_wait st; s_children := s_children st; s_log := s_log st |}.
