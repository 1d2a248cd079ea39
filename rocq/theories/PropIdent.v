(** Property theorems C34-C36: the identification strings.
    The right-hand sides are defined in [SpecIdent]. *)
From Coq Require Import Init.Byte Strings.Byte.
From Verif Require Import IdentThm.
Open Scope res_scope.

(** ** C34 *)
Theorem C34_identifier_round_trip : forall id s,
  ident_ok id -> ident_parse (ident_send id ++ s) = (Ok id, s).
Proof. exact ident_round. Qed.
Print Assumptions C34_identifier_round_trip.

Example C34_example : ident_ok (B "SSH-2.0-x") /\
  ident_parse (ident_send (B "SSH-2.0-x") ++ B "more") = (Ok (B "SSH-2.0-x"), B "more") /\
  ident_parse (ident_send (B "SSH-2.0-a" ++ [x0d; x0d; x62; x0d]) ++ B "m") = (Ok (B "SSH-2.0-a" ++ [x0d; x0d; x62; x0d]), B "m").
Proof. split; [apply lines_witness|]. split; vm_compute; reflexivity. Qed.

(** ** C35: refuted.  One preceding line "S" or one empty line loses the
    identification string, and a line that does not start with SSH- is taken
    for one. *)
Theorem C35_preceding_lines_are_skipped_refuted :
  (exists ls, Forall other_line ls /\
     ident_parse (as_lines ls ++ ident_send (B "SSH-2.0-x")) = (Err (Ident_Io UnexpectedEof), [])) /\
  (exists ls, Forall other_line ls /\
     ident_parse (as_lines ls ++ ident_send (B "SSH-2.0-x") ++ ident_send (B "SSH-2.0-y")) = (Ok (B "SSH-2.0-y"), [])) /\
  (exists ls, Forall other_line ls /\
     ident_parse (as_lines ls ++ ident_send (B "SSH-2.0-x")) = (Ok (B "SSH-2.0-q"), ident_send (B "SSH-2.0-x"))) /\
  ident_ok (B "SSH-2.0-x") /\ ident_ok (B "SSH-2.0-y").
Proof. exact lines_witness. Qed.
Print Assumptions C35_preceding_lines_are_skipped_refuted.

(** What does hold: lines without CR other than the [trap]s are skipped. *)
Theorem C35_preceding_lines_are_skipped_partial : forall ls s,
  Forall (fun l => Forall (fun b => b <> x0d) l /\ ~ trap l) ls ->
  ident_parse (as_lines ls ++ s) = ident_parse s.
Proof. exact parse_skips. Qed.
Print Assumptions C35_preceding_lines_are_skipped_partial.

Example C35_example :
  Forall (fun l => Forall (fun b => b <> x0d) l /\ ~ trap l) [B "Welcome"; B "SSx"] /\
  ident_parse (as_lines [B "Welcome"; B "SSx"] ++ ident_send (B "SSH-2.0-x") ++ B "m") = (Ok (B "SSH-2.0-x"), B "m").
Proof.
  split; [|vm_compute; reflexivity].
  repeat constructor; try discriminate; intros ([|[|[|k]]] & t & [E|[E|E]]); discriminate E.
Qed.

(** ** C36 *)
Theorem C36_identifier_parsing_is_safe : forall s,
  fst (ident_parse s) <> Panic /\ forall id s', ident_parse s = (Ok id, s') -> ident_ok id.
Proof. exact ident_safe. Qed.
Print Assumptions C36_identifier_parsing_is_safe.

Example C36_example :
  ident_parse (B "SSH-2.0-" ++ repeat x61 246 ++ [x0d; x0a]) = (Err IdentifierTooLong, [x0d; x0a]) /\
  fst (ident_parse (B "SSH-2.0-" ++ repeat x61 245 ++ [x0d; x0a])) = Ok (B "SSH-2.0-" ++ repeat x61 245) /\
  ident_parse (B "SSH-1.5-foo") = (Err IncompatibleProtocol, B "foo").
Proof. repeat split; vm_compute; reflexivity. Qed.
