(** Further notions for properties of sessions. *)
From Coq Require Import Init.Byte.
From Verif Require Export SpecSession.

(** [s] begins with frames of [pls], of at most 35000 bytes each. *)
Definition framed_as (C : Crypto) (c : Cipher) (s : bytes) (pls : list bytes) (rest : bytes) : Prop :=
  exists ws, s = concat ws ++ rest /\ numbered C c (counter c) pls ws /\ Forall (fun w => len w <= 35000) ws.

(** Child [n] was started in [log] for the client's channel [p], and has not
    exited; it has some output. *)
Definition waited (log : list SEvent) (n p : N) : Prop :=
  exists l1 c ty io l2, log = l1 ++ SE_Spawn c p n ty (Ok io) :: l2 /\ has false io || has true io = true /\ forall s, ~ In (SE_Exit n s) l2.
