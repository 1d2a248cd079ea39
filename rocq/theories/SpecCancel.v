(** For C77-C80: sessions in which [receive] is cancelled. *)
From Verif Require Export SpecLeak SpecSession Cancel.

(** [t] is [s] with some parts taken out, [n] bytes in all. *)
Inductive thinned : bytes -> N -> bytes -> Prop :=
| Th_all s : thinned s 0 s
| Th_keep c t n s : thinned t n s -> thinned (c ++ t) n (c ++ s)
| Th_drop c t n s : thinned t n s -> thinned t (len c + n) (c ++ s).

(** The session of a client that sends [s] from now on. *)
Definition s_in (s : bytes) (st : SSt) : SSt :=
  {| s_conn := with_in s (s_conn st); s_buf := s_buf st; s_chans := s_chans st; s_stdout := s_stdout st; s_stderr := s_stderr st;
     s_wait := s_wait st; s_children := s_children st; s_log := s_log st |}.

(** The turns of a schedule; whether it only cancels reading; the bytes that are
    read in vain. *)
Definition turns_of (es : list XEv) : list Ev := flat_map (fun x => match x with X_Turn e => [e] | X_Cut _ => [] end) es.
Definition cuts_reading (es : list XEv) : Prop := forall c, In (X_Cut c) es -> exists n, c = Cut_Read n.
Fixpoint wasted (es : list XEv) : N :=
  match es with
  | X_Cut (Cut_Read n) :: es => n + wasted es
  | _ :: es => wasted es
  | [] => 0
  end.

(** A session, cancelled here and there, that has come to [st]. *)
Definition is_cut_session (C : Crypto) (rng : N -> N -> bytes) (h : SHandlers) (k : Conn) (es : list XEv) (r : res InError bool) (st : SSt) : Prop :=
  crypto_ok C /\ (forall n, rng_ok (rng n)) /\ counter (k_rd k) < 2 ^ 64 /\ counter (k_wr k) < 2 ^ 64 /\
  cut_run C rng h es (session_init k) = Some (r, st).

(** Counting. *)
Definition count (f : SEvent -> bool) (log : list SEvent) : N := len (filter f log).
Definition got_open (e : SEvent) : bool := match e with SE_Received (Msg_Channel (C_Open _)) => true | _ => false end.
Definition put_confirmation (e : SEvent) : bool := match e with SE_Sent (Msg_Channel (C_OpenConfirmation _)) => true | _ => false end.
Definition got_data (e : SEvent) : bool := match e with SE_Received (Msg_Channel (C_Data _ _)) => true | _ => false end.
Definition put_stdin (e : SEvent) : bool := match e with SE_Stdin _ _ _ => true | _ => false end.

(** Something is heard of child [n]. *)
Definition heard (n : N) (e : SEvent) : bool :=
  match e with SE_Read _ c _ => c =? n | SE_Exit c _ => c =? n | _ => false end.

(** What is written: frames of payloads, numbered on from the counter of [c], some
    of them ([Some n]) only up to their first [n] bytes; [c'] is the cipher
    afterwards. *)
Inductive pieces (C : Crypto) : Cipher -> list (bytes * option N) -> bytes -> Cipher -> Prop :=
| Pc_none c : pieces C c [] [] c
| Pc_whole c pl pad raw ps o c' : loose_packet pl pad raw -> pieces C (bump c) ps o c' ->
    pieces C c ((pl, None) :: ps) (seal_with C c raw ++ o) c'
| Pc_cut c pl pad raw n ps o c' : loose_packet pl pad raw -> n < len (seal_with C c raw) -> pieces C (bump c) ps o c' ->
    pieces C c ((pl, Some n) :: ps) (ntake n (seal_with C c raw) ++ o) c'.
Definition whole_ones (ps : list (bytes * option N)) : list bytes := flat_map (fun p => match snd p with None => [fst p] | Some _ => [] end) ps.
Definition cut_ones (ps : list (bytes * option N)) : list N := flat_map (fun p => match snd p with None => [] | Some n => [n] end) ps.
(** The replies a schedule interrupts. *)
Definition reply_cuts (es : list XEv) : list N := flat_map (fun x => match x with X_Cut (Cut_Reply n) => [n] | _ => [] end) es.

(** No frame of at most 35000 bytes is one for the cipher [c] and for the next
    packet's, whatever follows it. *)
Definition told_apart (C : Crypto) (c : Cipher) : Prop := forall pl pad raw pl' pad' raw' rest rest',
  loose_packet pl pad raw -> loose_packet pl' pad' raw' -> len raw + 16 <= 35000 -> len raw' + 16 <= 35000 ->
  seal_with C c raw ++ rest <> seal_with C (bump c) raw' ++ rest'.
