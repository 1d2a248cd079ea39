(** Specification of the file transfer program. *)
From Coq Require Import Init.Byte Strings.Byte.
From Verif Require Export Scp.

(** * Headers *)
(** [n] in decimal, perhaps with leading zeros or a plus sign *)
Fixpoint decimal_value (acc : N) (l : bytes) : N :=
  match l with [] => acc | b :: l => decimal_value (acc * 10 + (b2n b - 48)) l end.
Definition is_decimal (l : bytes) (n : N) : Prop :=
  exists ds, (l = ds \/ l = B "+" ++ ds) /\ ds <> [] /\ Forall (fun b => 48 <= b2n b <= 57) ds /\ decimal_value 0 ds = n /\ n < 2 ^ 64.
Definition no (b : byte) (l : bytes) : Prop := ~ In b l.
(** One line that announces a file of [n] bytes; [nl] is its end. *)
Definition announces (nl line : bytes) (n : N) (name : bytes) : Prop :=
  utf8_valid line = true /\
  exists mode size rest, line = B "C" ++ mode ++ B " " ++ size ++ B " " ++ name ++ rest ++ nl /\
    no x20 mode /\ no x20 size /\ no x20 name /\ (rest = [] \/ exists more, rest = B " " ++ more) /\
    no x0a mode /\ no x0a size /\ no x0a name /\ no x0a rest /\ is_decimal size n.
Definition is_header : bytes -> N -> bytes -> Prop := announces [x0a].

(** A file as sent: header, contents and a zero byte. *)
Record Sent := { f_line : bytes; f_name : bytes; f_data : bytes }.
Definition sent_ok (f : Sent) : Prop := is_header (f_line f) (len (f_data f)) (f_name f).
Definition frame (f : Sent) : bytes := f_line f ++ f_data f ++ [x00].

(** * What a receiver does *)
(** The files created, and what was written to each. *)
Fixpoint written (ops : list Op) : bytes :=
  match ops with
  | Op_Write d :: ops => d ++ written ops
  | Op_Create _ :: _ => []
  | _ :: ops => written ops
  | [] => []
  end.
Fixpoint files (ops : list Op) : list (bytes * bytes) :=
  match ops with
  | [] => []
  | Op_Create p :: ops => (p, written ops) :: files ops
  | _ :: ops => files ops
  end.
Definition is_write (o : Op) : bool := match o with Op_Write _ => true | _ => false end.
(** The operations without the data. *)
Definition skeleton (ops : list Op) : list Op := filter (fun o => negb (is_write o)) ops.

(** * Paths *)
Definition is_slash (b : byte) : bool := beq x2f b.
Definition step_dir (dir : list bytes) (component : bytes) : list bytes :=
  if bytes_eqb component [] || bytes_eqb component (B ".") then dir
  else if bytes_eqb component (B "..") then removelast dir
  else dir ++ [component].
(** The place a path names, seen from directory [dir], if no component is a
    symbolic link. *)
Definition resolve (dir : list bytes) (path : bytes) : list bytes :=
  fold_left step_dir (split_on is_slash path) (match path with b :: _ => if is_slash b then [] else dir | [] => dir end).
Definition below (dir place : list bytes) : Prop := exists rest, place = dir ++ rest.

(** * Transfers *)
(** What is done for the files that arrived whole: the header is acknowledged
    before the contents, and the contents after the zero byte. *)
Inductive stores (pre : bytes -> list Op) : list (bytes * bytes) -> list Op -> Prop :=
| St_nil : stores pre [] []
| St_cons path data ws fs ops : concat ws = data -> stores pre fs ops ->
    stores pre ((path, data) :: fs) (pre path ++ [Op_Create path; Op_Ping] ++ map Op_Write ws ++ [Op_Ping] ++ ops).
Definition prefix {A} (a b : list A) : Prop := exists c, b = a ++ c.
(** What is done for a file that did not, if a file sent as [name] is stored at
    [dest name]: nothing, or a part of it is stored. *)
Definition unfinished (pre : bytes -> list Op) (dest : bytes -> bytes) (input : bytes) (ops : list Op) : Prop :=
  ops = [] \/ exists line n name ws,
    prefix (line ++ concat ws) input /\ (is_header line n name \/ (announces [] line n name /\ line = input /\ concat ws = [])) /\ len (concat ws) <= n /\
    prefix ops (pre (dest name) ++ [Op_Create (dest name); Op_Ping] ++ map Op_Write ws).

(** A receiver with nothing done yet. *)
Definition start (input : bytes) : Scp := {| c_in := input; c_ops := [] |}.
(** Relative, and never up. *)
Definition harmless (path : bytes) : Prop := ~ (exists r, path = x2f :: r) /\ Forall (fun c => c <> B "..") (split_on is_slash path).
(** A world in which nothing fails. *)
Definition generous (W : World) : Prop := forall ops o, W ops o = true.
Definition source (name data : bytes) : Source := {| src_open := true; src_name := Some name; src_data := data |}.

(** * Options *)
Definition option_of (a : bytes) (o : string) : bool := bytes_eqb a (B o).
Definition is_option (a : bytes) : bool := option_of a "-d" || option_of a "-f" || option_of a "-t".
Definition dashed (a : bytes) : Prop := exists r, a = B "-" ++ r.
(** The mode is given by the last of [-f] and [-t]. *)
Definition mode_is (m : Mode) (args : list bytes) : Prop :=
  match m with
  | Mode_Client => ~ In (B "-f") args /\ ~ In (B "-t") args
  | Mode_Send => exists a b, args = a ++ [B "-f"] ++ b /\ ~ In (B "-t") b
  | Mode_Receive => exists a b, args = a ++ [B "-t"] ++ b /\ ~ In (B "-f") b
  end.
