(** For C86: cancelled sessions seen as plain ones. *)
From Verif Require Export SpecCancel SpecSession2.

(** A child whose output nobody waits for. *)
Definition deaf (io : IoSet) : IoSet := {| io_stdin := io_stdin io; io_stdout := false; io_stderr := false |}.

(** What happens in a turn or when [receive] is dropped, next to what happens in
    the plain session: a turn is a turn; a message dropped with its handler at
    work is none; a reply that is not written is one that is, but the child
    started before it is not listened to. *)
Definition handled (m : Message) : Prop := exists c, m = Msg_Channel c /\ ((exists r, c = C_Request r) \/ exists i d, c = C_Data i d).
Inductive beside : XEv -> list SEvent -> list SEvent -> Prop :=
| Bs_turn e t : prompts e t -> (forall x, In x (tl t) -> stimulus x = false) -> beside (X_Turn e) t t
| Bs_read n : beside (X_Cut (Cut_Read n)) [] []
| Bs_handler m : handled m -> beside (X_Cut Cut_Handler) [SE_Received m] []
| Bs_open n o i : beside (X_Cut (Cut_Reply n)) [got (C_Open o)] [got (C_Open o); put (confirmation o i)]
| Bs_refuse n r p : rq_want_reply r = true -> beside (X_Cut (Cut_Reply n)) [got (C_Request r)] [got (C_Request r); put (C_Failure p)]
| Bs_start n r p i ty io old : rq_want_reply r = true ->
    beside (X_Cut (Cut_Reply n)) (got (C_Request r) :: SE_Spawn (rq_recipient r) p i ty (Ok io) :: dropped old)
      (got (C_Request r) :: SE_Spawn (rq_recipient r) p i ty (Ok (deaf io)) :: dropped old ++ [put (C_Success p)]).
Inductive all_beside : list XEv -> list SEvent -> list SEvent -> Prop :=
| Ab_nil : all_beside [] [] []
| Ab_snoc es a b e x y : all_beside es a b -> beside e x y -> all_beside (es ++ [e]) (a ++ x) (b ++ y).

(** The schedule of the plain session. *)
Definition plain_events (es : list XEv) : list Ev :=
  flat_map (fun x => match x with X_Turn e => [e] | X_Cut (Cut_Reply _) => [Ev_Packet] | X_Cut _ => [] end) es.

(** Both have the same channels, and listen to the same children. *)
Definition in_step (st st' : SSt) : Prop :=
  (forall c, arena_get (s_chans st) c = arena_get (s_chans st') c) /\ (forall n, look n (s_stdout st) = look n (s_stdout st')) /\
  (forall n, look n (s_stderr st) = look n (s_stderr st')) /\ (forall n, look n (s_wait st) = look n (s_wait st')) /\
  s_children st = s_children st' /\ k_wr (s_conn st) = k_wr (s_conn st').

(** The same more roughly, for parts of logs: messages lost, replies not written,
    children not listened to. *)
Definition is_reply (c : Channel) : bool :=
  match c with C_OpenConfirmation _ | C_Success _ | C_Failure _ => true | _ => false end.
Inductive like : list SEvent -> list SEvent -> Prop :=
| Lk_nil : like [] []
| Lk_same e a b : like a b -> like (e :: a) (e :: b)
| Lk_lost m a b : handled m -> like a b -> like (SE_Received m :: a) b
| Lk_reply c a b : is_reply c = true -> like a b -> like a (put c :: b)
| Lk_deaf c p n ty io a b : like a b -> like (SE_Spawn c p n ty (Ok io) :: a) (SE_Spawn c p n ty (Ok (deaf io)) :: b).

(** What the end of a session adds to its log. *)
Definition last_words (tail : list SEvent) : Prop :=
  tail = [] \/ exists m t, tail = SE_Received m :: t /\
    (t = [] \/ (exists c p n ty x, t = [SE_Spawn c p n ty x] /\ forall io, x <> Ok io) \/ (exists n d x, t = [SE_Stdin n d x] /\ forall k, x <> Ok k)).

(** [a] with some left out. *)
Inductive some_of {A} : list A -> list A -> Prop :=
| So_nil : some_of [] []
| So_keep x a b : some_of a b -> some_of (x :: a) (x :: b)
| So_skip x a b : some_of a b -> some_of a (x :: b).

(** [b] begins with [a]; the messages a schedule has dropped with their handlers
    at work. *)
Definition begins {A} (a b : list A) : Prop := exists c, b = a ++ c.
Definition handler_cuts (es : list XEv) : N := len (filter (fun x => match x with X_Cut Cut_Handler => true | _ => false end) es).
