(** Model of nora_scp/src/main.rs. *)
From Coq Require Import Init.Byte Strings.Byte.
From Verif Require Export Base.

(** What the program does to the world.  The world decides, from what was done
    before, whether an operation succeeds; one that fails does nothing
    (simplified: a failed write may have written a part).  Reading standard input
    fails only at its end. *)
Inductive Op :=
| Op_Dirs (path : bytes)     (* fs::create_dir_all *)
| Op_Chdir (path : bytes)    (* env::set_current_dir *)
| Op_Parents (path : bytes)  (* fs::create_dir_all of the parent, if any *)
| Op_Create (path : bytes)   (* File::create *)
| Op_Write (data : bytes)    (* write_all to the file last created *)
| Op_Ping.                   (* \0 to standard output *)
Definition World := list Op -> Op -> bool.
Record Scp := { c_in : bytes; c_ops : list Op }.
Definition CM (A : Type) : Type := Scp -> res unit A * Scp.
Definition c_ret {A} (a : A) : CM A := fun c => (Ok a, c).
Definition c_res {A} (r : res unit A) : CM A := fun c => (r, c).
Definition c_bind {A C} (m : CM A) (f : A -> CM C) : CM C := fun c =>
  match m c with
  | (Ok a, c) => f a c
  | (Err e, c) => (Err e, c)
  | (Panic, c) => (Panic, c)
  end.
Declare Scope scp_scope.
Delimit Scope scp_scope with scp.
Notation "x <- e ;; k" := (c_bind e (fun x => k)) (at level 61, e at next level, right associativity) : scp_scope.
Notation "' p <- e ;; k" := (c_bind e (fun x => match x with p => k end)) (at level 61, p pattern, e at next level, right associativity) : scp_scope.
Bind Scope scp_scope with CM.

(** [slice::split], [str::split] *)
Fixpoint split_on (p : byte -> bool) (l : bytes) : list bytes :=
  match l with
  | [] => [[]]
  | b :: l =>
    if p b then [] :: split_on p l
    else match split_on p l with w :: ws => (b :: w) :: ws | [] => [[b]] end
  end.
(** [BufRead::read_until] *)
Fixpoint until (e : byte) (l : bytes) : bytes * bytes :=
  match l with
  | [] => ([], [])
  | b :: l => if beq b e then ([b], l) else let '(x, y) := until e l in (b :: x, y)
  end.
(** [str::parse::<usize>], with 64-bit [usize] *)
Fixpoint parse_digits (acc : N) (l : bytes) : res unit N :=
  match l with
  | [] => Ok acc
  | b :: l =>
    if (48 <=? b2n b) && (b2n b <=? 57) then
      let acc := acc * 10 + (b2n b - 48) in
      if acc <? u64_max1 then parse_digits acc l else Err tt
    else Err tt
  end.
Definition parse_usize (l : bytes) : res unit N :=
  match l with
  | [] => Err tt
  | b :: r => if beq b x2b then if is_empty r then Err tt else parse_digits 0 r else parse_digits 0 l
  end.

Section Receive.
Variable W : World.

Definition do (o : Op) : CM unit := fun c =>
  if W (c_ops c) o then (Ok tt, {| c_in := c_in c; c_ops := c_ops c ++ [o] |}) else (Err tt, c).
(** [read] into one byte: nothing at the end of the input *)
Definition read1 : CM (option byte) := fun c =>
  match c_in c with
  | [] => (Ok None, c)
  | b :: r => (Ok (Some b), {| c_in := r; c_ops := c_ops c |})
  end.
(** [read_exact] of [n] bytes; what there is is consumed if it is too little *)
Definition read_exactly (n : N) : CM bytes := fun c =>
  if n <=? len (c_in c) then (Ok (ntake n (c_in c)), {| c_in := ndrop n (c_in c); c_ops := c_ops c |})
  else (Err tt, {| c_in := []; c_ops := c_ops c |}).
Definition read_line : CM bytes := fun c =>
  let '(l, r) := until x0a (c_in c) in (Ok l, {| c_in := r; c_ops := c_ops c |}).

(** lines 69-72 *)
Definition ping_ready : CM unit := do Op_Ping.

(** lines 97-99 *)
Definition strip_newline (file : bytes) : bytes :=
  match rev file with
  | b :: r => if beq b x0a then rev r else file
  | [] => file
  end.
(** lines 92-102: mode, size and name *)
Definition parse_header (header : bytes) : res unit (bytes * N * bytes) :=
  if utf8_valid header then
    match split_on (beq x20) header with
    | mode :: size :: file :: _ =>
      match parse_usize size with
      | Ok n => Ok (mode, n, strip_newline file)
      | Err e => Err e
      | Panic => Panic
      end
    | _ => Err tt
    end
  else Err tt.
(** lines 81-107 *)
Definition read_header : CM (option (bytes * N * bytes)) := (
  c <- read1 ;;
  match c with
  | None => c_ret None
  | Some c =>
    if beq c x43 then
      l <- read_line ;; h <- c_res (parse_header (c :: l)) ;; c_ret (Some h)
    else if beq c x44 then c_res Panic else c_res (Err tt)
  end)%scp.

(** lines 110-115; every round but the last reads, so the length of the input
    bounds the rounds *)
Fixpoint transfer_loop (fuel : nat) (size : N) : CM unit := (
  if size =? 0 then c_ret tt
  else match fuel with
  | O => c_res (Err tt)
  | S fuel =>
    let l := N.min size 32768 in
    d <- read_exactly l ;; _ <- do (Op_Write d) ;; transfer_loop fuel (size - l)
  end)%scp.
(** lines 109-123 *)
Definition transfer_file (size : N) : CM unit := fun c => (
  _ <- transfer_loop (S (length (c_in c))) size ;;
  a <- read_exactly 1 ;;
  if bytes_eqb a [x00] then ping_ready else c_res (Err tt))%scp c.

(** lines 134-142; every round reads *)
Fixpoint receive_dir (fuel : nat) : CM unit := (
  h <- read_header ;;
  match h with
  | None => c_ret tt
  | Some (_, size, file) =>
    _ <- do (Op_Create file) ;; _ <- ping_ready ;; _ <- transfer_file size ;;
    match fuel with O => c_res (Err tt) | S fuel => receive_dir fuel end
  end)%scp.
(** lines 145-159 *)
Fixpoint receive_files (to : list bytes) : CM unit := (
  match to with
  | [] => c_ret tt
  | path :: to =>
    h <- read_header ;;
    match h with
    | None => c_res (Err tt)
    | Some (_, size, _) =>
      _ <- do (Op_Parents path) ;; _ <- do (Op_Create path) ;; _ <- ping_ready ;; _ <- transfer_file size ;;
      receive_files to
    end
  end)%scp.
(** lines 66-162 *)
Definition receive (to : list bytes) (make_dir : bool) : CM unit := (
  if make_dir then
    match to with
    | [dir] => _ <- do (Op_Dirs dir) ;; _ <- do (Op_Chdir dir) ;; _ <- ping_ready ;; fun c => receive_dir (length (c_in c)) c
    | _ => c_res (Err tt)
    end
  else _ <- ping_ready ;; receive_files to)%scp.
End Receive.

(** A file to send: whether it can be opened and read, the last component of its
    path (none for a path that ends in ..) and its contents. *)
Record Source := { src_open : bool; src_name : option bytes; src_data : bytes }.
(** lines 164-184: the bytes written to standard output *)
Fixpoint send (from : list Source) : res unit unit * bytes :=
  match from with
  | [] => (Ok tt, [])
  | f :: from =>
    if src_open f then
      match src_name f with
      | None => (Panic, [])
      | Some name =>
        if utf8_valid name then
          let '(r, out) := send from in
          (r, B "C0644 42 " ++ name ++ [x0a] ++ src_data f ++ out)
        else (Err tt, [])
      end
    else (Err tt, [])
  end.

(** lines 39-57: mode, [-d] and paths.  An argument that is not UTF-8 is a path. *)
Inductive Mode := Mode_Client | Mode_Send | Mode_Receive.
Fixpoint scp_args (mode : Mode) (make_dir : bool) (paths : list bytes) (args : list bytes) : res unit (Mode * bool * list bytes) :=
  match args with
  | [] => Ok (mode, make_dir, paths)
  | a :: args =>
    if bytes_eqb a (B "-d") then scp_args mode true paths args
    else if bytes_eqb a (B "-f") then scp_args Mode_Send make_dir paths args
    else if bytes_eqb a (B "-t") then scp_args Mode_Receive make_dir paths args
    else if utf8_valid a && match a with b :: _ => beq b x2d | [] => false end then Err tt
    else scp_args mode make_dir (paths ++ [a]) args
  end.
