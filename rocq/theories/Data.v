(** Model of nora_ssh_core/src/data.rs. *)
From Verif Require Export Base.
Open Scope res_scope.

(** * Strings and name lists *)

(** data.rs:7, 9-17  [AsciiStr::try_from]; an [AsciiStr] is its bytes.
    [str::from_utf8(s).unwrap()] on line 14 is kept: it panics if the ASCII
    bytes were not UTF-8. *)
Inductive NotAscii := NotAsciiE.
Definition AsciiStr_try_from (s : bytes) : res NotAscii bytes :=
  if is_ascii s then unwrap (from_utf8 tt s) else Err NotAsciiE.

(** data.rs:96-99 *)
Inductive InvalidNameList := EmptyName | NL_NotAscii.

Definition comma : byte := Byte.x2c.

(** data.rs:59  [list.windows(2).any(|c| c == b",,")] *)
Fixpoint has_comma_comma (l : bytes) : bool :=
  match l with
  | a :: ((b :: _) as l') => (beq a comma && beq b comma) || has_comma_comma l'
  | _ => false
  end.

(** [list.first() == Some(&c)] and [list.last() == Some(&c)] *)
Definition first_is (c : byte) (l : bytes) : bool :=
  match l with a :: _ => beq a c | [] => false end.
Definition last_is (c : byte) (l : bytes) : bool :=
  match rev l with a :: _ => beq a c | [] => false end.

(** data.rs:44, 53-67  [NameList::try_from]; a [NameList] is its bytes. *)
Definition NameList_try_from (l : bytes) : res InvalidNameList bytes :=
  if negb (is_ascii l) then Err NL_NotAscii
  else if has_comma_comma l then Err EmptyName
  else if first_is comma l || last_is comma l then Err EmptyName
  else unwrap (from_utf8 tt l).

(** [bytes().position(|c| c == b',')] *)
Fixpoint position (c : byte) (l : bytes) : option N :=
  match l with
  | [] => None
  | a :: l => if beq a c then Some 0
              else match position c l with Some i => Some (1 + i) | None => None end
  end.

(** data.rs:103-117  [NameListIter::next]: the yielded item, if any, and the
    new iterator state.  The string slices cannot fail on char boundaries
    because the list is ASCII; the index bounds are kept. *)
Definition NameListIter_next (l : bytes) : res unit (option bytes * bytes) :=
  if is_empty l then Ok (None, l)
  else match position comma l with
       | Some i => r <- idx_from l (i + 1) ;; x <- idx_to l i ;; Ok (Some x, r)
       | None => Ok (Some l, [])
       end.

(** [list.iter()] driven to completion, as [any] or [collect] do; [fuel]
    bounds the number of [next] calls. *)
Fixpoint NameList_collect (fuel : nat) (l : bytes) : res unit (list bytes) :=
  match fuel with
  | O => Err tt
  | S fuel =>
    '(x, r) <- NameListIter_next l ;;
    match x with
    | None => Ok []
    | Some x => xs <- NameList_collect fuel r ;; Ok (x :: xs)
    end
  end.

(** * Parsing *)

(** data.rs:119-121 *)
Definition data_split (data : bytes) (i : N) : res unit (bytes * bytes) :=
  if i <=? len data then Ok (ntake i data, ndrop i data) else Err tt.

(** data.rs:162-166  [parse_string].  [usize] is at least 64 bits wide, so
    [4 + len] does not overflow. *)
Definition parse_string (s : bytes) : res unit (bytes * bytes) :=
  h <- get_to tt s 4 ;;
  n <- u32_of_slice h ;;
  let i := 4 + n in
  v <- get_range tt s 4 i ;;
  r <- idx_from s i ;;
  Ok (v, r).

(** data.rs:123-125  [name_list] *)
Definition name_list (data : bytes) : res unit (res InvalidNameList bytes * bytes) :=
  map_ok (fun '(l, d) => (NameList_try_from l, d)) (parse_string data).

(** data.rs:168-170 *)
Definition parse_uint32 (buf : bytes) : res unit (N * bytes) :=
  if 4 <=? len buf then
    h <- idx_to buf 4 ;; n <- u32_of_slice h ;; r <- idx_from buf 4 ;; Ok (n, r)
  else Err tt.

(** data.rs:172-174 *)
Definition parse_bool (buf : bytes) : res unit (bool * bytes) :=
  if 1 <=? len buf then
    b <- idx buf 0 ;; r <- idx_from buf 1 ;; Ok (negb (b2n b =? 0), r)
  else Err tt.

(** * Writing *)

(** A writer works on a [&mut [u8]].  The cursor is the part of the slice
    already handed out (in front) and the slice still available; after a
    failure it shows what the buffer looks like then. *)
Definition cur := (bytes * bytes)%type.
Definition W (A : Type) := cur -> res unit A * cur.
Definition wret {A} (a : A) : W A := fun c => (Ok a, c).
Definition wbind {A C} (m : W A) (f : A -> W C) : W C := fun c =>
  match m c with
  | (Ok a, c') => f a c'
  | (Err e, c') => (Err e, c')
  | (Panic, c') => (Panic, c')
  end.
Declare Scope w_scope.
Notation "x <~ e ;; k" := (wbind e (fun x => k))
  (at level 61, e at next level, right associativity) : w_scope.

(** [buf[off..off + s.len()].copy_from_slice(s)] for an in-range [off]. *)
Definition splice (off : N) (s buf : bytes) : bytes :=
  ntake off buf ++ s ++ ndrop (off + len s) buf.

(** data.rs:127-129 *)
Definition make_string_len {E} (s : bytes) : res E bytes :=
  n <- u32_try_unwrap (len s) ;; Ok (be32 n).

(** data.rs:131-136 *)
Definition make_string2 (s : bytes) : W N := fun '(done, buf) =>
  if 4 <=? len buf then
    match u32_try_unwrap (len s) with
    | Ok n =>
      let buf := splice 0 (be32 n) buf in
      if 4 + len s <=? len buf then
        let buf := splice 4 s buf in
        (Ok (4 + len s), (done ++ ntake (4 + len s) buf, ndrop (4 + len s) buf))
      else (Err tt, (done, buf))
    | Err e => (Err e, (done, buf))
    | Panic => (Panic, (done, buf))
    end
  else (Err tt, (done, buf)).

(** data.rs:138-142 *)
Definition make_bool (value : bool) : W N := fun '(done, buf) =>
  match buf with
  | [] => (Err tt, (done, buf))
  | _ :: buf => (Ok 1, (done ++ [n2b (N.b2n value)], buf))
  end.

(** data.rs:144-149 *)
Definition make_uint32 (value : N) : W N := fun '(done, buf) =>
  if 4 <=? len buf then
    let buf := splice 0 (be32 value) buf in
    (Ok 4, (done ++ ntake 4 buf, ndrop 4 buf))
  else (Err tt, (done, buf)).

(** data.rs:151-157 *)
Definition make_raw (data : bytes) : W N := fun '(done, buf) =>
  if len data <=? len buf then
    (Ok (len data), (done ++ data, ndrop (len data) buf))
  else (Err tt, (done, buf)).

(** data.rs:178-180  the [while] loop *)
Fixpoint strip_zeros (s : bytes) : bytes :=
  match s with
  | b :: s' => if beq b Byte.x00 then strip_zeros s' else s
  | [] => []
  end.

(** data.rs:176-192  [make_pos_mpint]: returned length and new buffer. *)
Definition make_pos_mpint (buf s : bytes) : res unit N * bytes :=
  let s := strip_zeros s in
  let hi := match s with c :: _ => negb (N.land (b2n c) 128 =? 0) | [] => false end in
  match (if hi then
           if 4 <? len buf then Ok (1, splice 4 [Byte.x00] buf) else Err tt
         else Ok (0, buf))
  with
  | Ok (i, buf) =>
    if 4 <=? len buf then
      match u32_try_unwrap (i + len s) with
      | Ok n =>
        let buf := splice 0 (be32 n) buf in
        if (4 + i + len s) <=? len buf then
          (Ok (4 + i + len s), splice (4 + i) s buf)
        else (Err tt, buf)
      | Err e => (Err e, buf)
      | Panic => (Panic, buf)
      end
    else (Err tt, buf)
  | Err e => (Err e, buf)
  | Panic => (Panic, buf)
  end.

(** data.rs:194-196 *)
Definition make_pos_mpint2 (s : bytes) : W N := fun '(done, buf) =>
  match make_pos_mpint buf s with
  | (Ok i, buf) => (Ok i, (done ++ ntake i buf, ndrop i buf))
  | (Err e, buf) => (Err e, (done, buf))
  | (Panic, buf) => (Panic, (done, buf))
  end.
