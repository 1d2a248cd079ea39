(** Specification of how the file transfer program is called. *)
From Coq Require Import Init.Byte Strings.Byte.
From Verif Require Export ScpMain SpecScp.

(** Not taken for an option. *)
Definition plain (path : bytes) : Prop := forall r, path <> x2d :: r.
