(** Property theorems C06, C18, C25, C35, C56 and C66, continued: what fails does
    so for every reply, buffer, frame, identifier and wait, not only for the
    witnesses in [PropMsg], [PropPacket], [PropChannel], [PropIdent] and
    [PropSync]; and the exact extent of what holds. *)
From Coq Require Import Init.Byte Strings.Byte.
From Verif Require Import StrongThm IdentThm2 SyncThm2.
Open Scope res_scope.

(** ** C06: no ECDH reply at all survives. *)
Theorem C06_every_reply_refuted : forall m buf, message_ok m -> is_ecdh_reply m = true -> len (wire m) <= len buf ->
  exists rest, Message_serialize m buf = Ok (wire m, rest) /\ forall m', Message_parse (wire m) <> Ok m'.
Proof. exact reply_lost. Qed.
Print Assumptions C06_every_reply_refuted.
Example C06_every_example : message_ok (Msg_EcdhReply sample_reply) /\ is_ecdh_reply (Msg_EcdhReply sample_reply) = true /\
  len (wire (Msg_EcdhReply sample_reply)) <= len (repeat x00 127).
Proof. split; [exact sample_reply_ok|]. split; [reflexivity|vm_compute; discriminate]. Qed.

(** ** C18: every buffer can be made to panic, by four bytes. *)
Theorem C18_every_buffer_refuted : forall buf counted bs, 8 <= len buf < 2 ^ 32 ->
  exists s, len s = 4 /\ fst (packet_parse buf s counted bs) = Panic.
Proof. exact panics_everywhere. Qed.
Print Assumptions C18_every_buffer_refuted.
Example C18_every_example : 8 <= len (repeat x00 100) < 2 ^ 32 /\
  fst (packet_parse (repeat x00 100) (be32 100) true B8) = Panic.
Proof. split; [vm_compute; split; [discriminate|reflexivity]|vm_compute; reflexivity]. Qed.

(** ** C25: whatever is sent under whatever cipher is lost if child output comes
    before its last one, two or three bytes. *)
Theorem C25_every_frame_refuted : forall C c buf job pl w c' pre post, crypto_ok C -> sends job pl ->
  send_many C c [job] = Ok ([w], c') -> 4 <= len buf -> len w <= len buf -> w = pre ++ post -> 0 < len post < 4 ->
  rx_run C c buf [] (feed w) = [Ok pl] /\ rx_run C c buf [] (feed pre ++ Elsewhere :: feed post) = [].
Proof. exact rx_cut. Qed.
Print Assumptions C25_every_frame_refuted.
Example C25_every_example : crypto_ok toy_crypto /\ sends toy_job (B "hello") /\
  match send_many toy_crypto toy_cipher [toy_job] with
  | Ok ([w], _) => len w = 36 /\ rx_run toy_crypto toy_cipher (repeat x00 64) [] (feed w) = [Ok (B "hello")] /\
      rx_run toy_crypto toy_cipher (repeat x00 64) [] (feed (ntake 35 w) ++ Elsewhere :: feed (ndrop 35 w)) = []
  | _ => False
  end.
Proof. split; [exact toy_ok|]. split; [exact toy_sends|]. vm_compute. auto. Qed.

(** ** C35: one such line loses every identification string. *)
Theorem C35_every_identifier_refuted : forall l id, swallows l -> ident_ok id ->
  other_line l /\ ident_parse (as_lines [l] ++ ident_send id) = (Err (Ident_Io UnexpectedEof), []).
Proof. exact (fun l id W I => conj (swallows_other l W) (swallowed l id W I)). Qed.
Print Assumptions C35_every_identifier_refuted.
(** Exactly which lines without CR leave it alone.  Missing for the full
    property: lines with a CR, and of course those not [heard]. *)
Theorem C35_preceding_lines_exact_partial : forall ls id s, Forall (Forall (fun b => b <> x0d)) ls -> ident_ok id ->
  (ident_parse (as_lines ls ++ ident_send id ++ s) = (Ok id, s) <-> heard ls).
Proof. exact heard_exact. Qed.
Print Assumptions C35_preceding_lines_exact_partial.
Example C35_exact_example :
  heard [B "SSS"; B "SSH-2.0-taken"; B "hello"] /\ ~ heard [B "hello"; B "SS"] /\
  ident_parse (as_lines [B "SSS"; B "SSH-2.0-taken"; B "hello"] ++ ident_send (B "SSH-2.0-x") ++ B "more") = (Ok (B "SSH-2.0-x"), B "more") /\
  ident_parse (as_lines [B "hello"; B "SS"] ++ ident_send (B "SSH-2.0-x") ++ B "more") = (Err (Ident_Io UnexpectedEof), []).
Proof.
  split; [|split; [|split; vm_compute; reflexivity]].
  - apply Heard_pair; [exists 3%nat; left; reflexivity|]. apply Heard_skip; [|constructor].
    intros ([|k] & t & [E|[E|E]]); discriminate E.
  - intros H. inversion H as [|? ? T1 H1|? ? ? W H1]; subst.
    + inversion H1 as [|? ? T2 H2|]; subst. apply T2. exists 2%nat, []. left. reflexivity.
    + destruct W as [[|k] [E|E]]; discriminate E.
Qed.

(** ** C56: whenever somebody holds the mutex and somebody waits for it, and a
    third task comes, the waiting can go on for ever, for all who wait. *)
Theorem C56_every_wait_refuted : forall l y h i j, sys_run l sys_init = Some y -> y_guards y = [h] -> flag i (y_futures y) <> None ->
  flag j (y_futures y) = None -> j <> h ->
  exists l' y', forallb (fun a => negb (wakes a || cancels a)) l' = true /\ sys_run l' y = Some y' /\
    stuck y' /\ forall k, flag k (y_futures y) <> None -> waits_forever k y'.
Proof. exact all_lost. Qed.
Print Assumptions C56_every_wait_refuted.
Example C56_every_example : exists y,
  sys_run [Act_Lock 0; Act_Poll 0; Act_Lock 1; Act_Poll 1; Act_Lock 2; Act_Poll 2; Act_Cancel 2; Act_Lock 4] sys_init = Some y /\
  y_guards y = [0] /\ flag 1 (y_futures y) = Some true /\ flag 4 (y_futures y) = Some false /\ flag 3 (y_futures y) = None.
Proof. eexists. split; [vm_compute; reflexivity|]. vm_compute. auto. Qed.

(** ** C66: up to 2^32 packets the counter is the RFC's.  Missing: the packets
    after that. *)
Theorem C66_counter_below_wrap_partial : forall C c jobs pls ws c', crypto_ok C ->
  counter c + N.of_nat (length jobs) <= 2 ^ 32 -> Forall2 sends jobs pls ->
  send_many C c jobs = Ok (ws, c') -> forall i pl w, nth_error pls i = Some pl -> nth_error ws i = Some w ->
  exists pad raw, loose_packet pl pad raw /\ w = seal C (key_length c) (key_data c) ((counter c + N.of_nat i) mod 2 ^ 32) raw.
Proof. exact counter_below_wrap. Qed.
Print Assumptions C66_counter_below_wrap_partial.
Example C66_below_example :
  let c := {| key_length := B "L"; key_data := B "D"; counter := 2 ^ 32 - 2 |} in
  counter c + N.of_nat (length [toy_job; toy_job]) <= 2 ^ 32 /\
  match send_many toy_crypto c [toy_job; toy_job] with Ok (ws, _) => length ws = 2%nat | _ => False end.
Proof. split; [vm_compute; discriminate|vm_compute; reflexivity]. Qed.
