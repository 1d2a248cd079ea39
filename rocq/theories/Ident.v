(** Model of nora_ssh/src/identifier.rs and nora_ssh_core/src/identifier.rs. *)
From Coq Require Import Init.Byte.
From Verif Require Export Packet.
Open Scope res_scope.

(** nora_ssh_core/src/identifier.rs:1-10; an [Identifier] is its bytes. *)
Definition IDENT_MAX_LEN : N := 255 - len (B "" ++ [x0d; x0a]).
Definition Identifier_new (ident : bytes) : res unit bytes :=
  then_ok (len ident <=? IDENT_MAX_LEN) ident tt.

(** identifier.rs:96-101 *)
Inductive ParseIdentError := IdentifierTooLong | IncompatibleProtocol | Ident_Io (e : IoError).

(** identifier.rs:16-23 *)
Inductive IdentState := St_S | St_SS | St_SSH | St_Ignore | St_EolCr | St_EolLf.

Definition cr : byte := x0d.
Definition lf : byte := x0a.

(** identifier.rs:30-39; [None] is [break]. *)
Definition ident_step (st : IdentState) (b : byte) : option IdentState :=
  match st with
  | St_EolLf => if beq b x53 then Some St_S else Some St_Ignore
  | St_S => if beq b x53 then Some St_SS else Some St_Ignore
  | St_SS => if beq b x53 then Some St_SS else if beq b x48 then Some St_SSH else Some St_Ignore
  | St_SSH => if beq b x2d then None else Some St_Ignore
  | St_Ignore => if beq b cr then Some St_EolCr else Some St_Ignore
  | St_EolCr => if beq b lf then Some St_EolLf else Some St_Ignore
  end.

(** identifier.rs:25-40; each turn reads one byte. *)
Fixpoint ident_scan (st : IdentState) (s : stream) : res ParseIdentError unit * stream :=
  match s with
  | [] => (Err (Ident_Io UnexpectedEof), [])
  | b :: s => match ident_step st b with None => (Ok tt, s) | Some st => ident_scan st s end
  end.

(** identifier.rs:52-59  [push] into a 253-byte array of which [acc] is used. *)
Definition ident_push (acc : bytes) (c : byte) : res ParseIdentError bytes :=
  if len acc <? 253 then Ok (acc ++ [c]) else Err IdentifierTooLong.

(** identifier.rs:66-82; [Ok (inl acc)] is [break]. *)
Definition ident_body_step (got_cr : bool) (acc : bytes) (b : byte) : res ParseIdentError (bytes + bool * bytes) :=
  match got_cr with
  | false => if beq b cr then Ok (inr (true, acc))
             else acc <- ident_push acc b ;; Ok (inr (false, acc))
  | true => if beq b cr then acc <- ident_push acc cr ;; Ok (inr (true, acc))
            else if beq b lf then Ok (inl acc)
            else acc <- ident_push acc cr ;; acc <- ident_push acc b ;; Ok (inr (false, acc))
  end.

(** identifier.rs:61-83 *)
Fixpoint ident_body (got_cr : bool) (acc : bytes) (s : stream) : res ParseIdentError bytes * stream :=
  match s with
  | [] => (Err (Ident_Io UnexpectedEof), [])
  | b :: s =>
    match ident_body_step got_cr acc b with
    | Ok (inl acc) => (Ok acc, s)
    | Ok (inr (got_cr, acc)) => ident_body got_cr acc s
    | Err e => (Err e, s)
    | Panic => (Panic, s)
    end
  end.

(** [try_for_each(&mut push)] *)
Fixpoint ident_push_all (acc l : bytes) : res ParseIdentError bytes :=
  match l with [] => Ok acc | c :: l => acc <- ident_push acc c ;; ident_push_all acc l end.

(** identifier.rs:5-86 *)
Definition ident_parse (s : stream) : res ParseIdentError bytes * stream :=
  match ident_scan St_EolLf s with
  | (Err e, s) => (Err e, s)
  | (Panic, s) => (Panic, s)
  | (Ok _, s) =>
    match read_exact 4 s with
    | (Err e, s) => (Err (Ident_Io e), s)
    | (Panic, s) => (Panic, s)
    | (Ok b, s) =>
      if negb (bytes_eqb b (B "2.0-")) then (Err IncompatibleProtocol, s)
      else
        match ident_push_all [] (B "SSH-2.0-") with
        | Err e => (Err e, s)
        | Panic => (Panic, s)
        | Ok acc =>
          match ident_body false acc s with
          | (Err e, s) => (Err e, s)
          | (Panic, s) => (Panic, s)
          | (Ok acc, s) => (ok_or (Identifier_new acc) IdentifierTooLong, s)
          end
        end
    end
  end.

(** identifier.rs:88-94: the bytes written *)
Definition ident_send (id : bytes) : bytes := id ++ [cr; lf].
