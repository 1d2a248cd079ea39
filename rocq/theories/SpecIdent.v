(** Specification of the identification exchange, RFC 4253 section 4.2. *)
From Coq Require Import Init.Byte.
From Verif Require Export Base.

Definition crlf : bytes := [x0d; x0a].
(** CR LF occurs in [l]. *)
Definition has_crlf (l : bytes) : Prop := exists a b, l = a ++ crlf ++ b.

(** "SSH-protoversion-softwareversion SP comments CR LF", protoversion 2.0,
    at most 255 characters including CR LF. *)
Definition ident_ok (id : bytes) : Prop :=
  (exists v, id = B "SSH-2.0-" ++ v) /\ ~ has_crlf id /\ len id <= 253.

(** The lines sent before it. *)
Definition as_lines (ls : list bytes) : bytes := concat (map (fun l => l ++ crlf) ls).

(** Lines the scanner of identifier.rs mishandles: nothing but S's, S's and
    one H, or S's and H-. *)
Definition trap (l : bytes) : Prop :=
  exists k t, l = repeat x53 k \/ l = repeat x53 (2 + k) ++ B "H" \/ l = repeat x53 (2 + k) ++ B "H-" ++ t.

(** RFC 4253: "Such lines MUST NOT begin with SSH-". *)
Definition other_line (l : bytes) : Prop := ~ (exists v, l = B "SSH-" ++ v) /\ ~ has_crlf l.
