(** Specifications for the exact and universal forms of C35 and C56. *)
From Coq Require Import Init.Byte.
From Verif Require Export SpecIdent SpecSync.

(** A line of S's, or of two or more S's and one H: it takes the next line with it. *)
Definition swallows (l : bytes) : Prop := exists k, l = repeat x53 k \/ l = repeat x53 (2 + k) ++ B "H".
(** The lines [ls] leave the identification string after them to be heard. *)
Inductive heard : list bytes -> Prop :=
| Heard_none : heard []
| Heard_skip l ls : ~ trap l -> heard ls -> heard (l :: ls)
| Heard_pair l l' ls : swallows l -> heard ls -> heard (l :: l' :: ls).
