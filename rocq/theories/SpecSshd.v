(** Specification of the example server. *)
From Coq Require Import Init.Byte Strings.Byte.
From Verif Require Export Sshd SpecAuth SpecHost.

Definition white (b : byte) : Prop := In b [x09; x0a; x0c; x0d; x20].
(** [ws] are the maximal runs without white space of a command. *)
Inductive words : bytes -> list bytes -> Prop :=
| W_none gap : Forall white gap -> words gap []
| W_word gap w rest ws : Forall white gap -> w <> [] -> Forall (fun b => ~ white b) w ->
    match rest with b :: _ => white b | [] => True end -> words rest ws -> words (gap ++ w ++ rest) (w :: ws).
