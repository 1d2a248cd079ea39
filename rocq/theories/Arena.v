(** Model of nora_ssh/src/arena.rs. *)
From Verif Require Export Base.
Open Scope res_scope.

(** arena.rs:1 *)
Definition Arena (T : Type) : Type := list (option T).

(** lines 9-15: the first free slot, or a new one at the end *)
Fixpoint arena_slot {T} (a : Arena T) (v : T) : N * Arena T :=
  match a with
  | [] => (0, [Some v])
  | None :: a => (0, Some v :: a)
  | Some x :: a => let '(i, a) := arena_slot a v in (1 + i, Some x :: a)
  end.
(** lines 8-18.  The arena is changed even if the index does not fit. *)
Definition arena_insert {E T} (a : Arena T) (v : T) : res E N * Arena T :=
  let '(i, a) := arena_slot a v in (u32_try_unwrap i, a).
(** lines 20-25, 27-32: [usize] has at least 32 bits *)
Fixpoint arena_get {T} (a : Arena T) (i : N) : option T :=
  match a with
  | [] => None
  | x :: a => if i =? 0 then x else arena_get a (i - 1)
  end.
(** A write through the reference of [get_mut], and [remove]. *)
Fixpoint arena_put {T} (a : Arena T) (i : N) (x : option T) : Arena T :=
  match a with
  | [] => []
  | y :: a => if i =? 0 then x :: a else y :: arena_put a (i - 1) x
  end.
Definition arena_remove {T} (a : Arena T) (i : N) : option T * Arena T :=
  (arena_get a i, arena_put a i None).
