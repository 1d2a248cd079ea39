(** Model of the entry of nora_scp/src/main.rs: what a caller of the program sees. *)
From Coq Require Import Init.Byte Strings.Byte.
From Verif Require Export Scp.

(** How a run ends, the bytes on standard output and what was done. *)
Record Run := { run_result : res unit unit; run_out : bytes; run_ops : list Op }.
(** lines 69-72: all a receiver writes to standard output *)
Definition op_out (o : Op) : bytes := match o with Op_Ping => [x00] | _ => [] end.
(** lines 39-64; [src] is the file each path names *)
Definition scp_start (W : World) (src : bytes -> Source) (args : list bytes) (input : bytes) : Run :=
  match scp_args Mode_Client false [] args with
  | Ok (Mode_Receive, make_dir, paths) =>
    let '(r, c) := receive W paths make_dir {| c_in := input; c_ops := [] |} in
    {| run_result := r; run_out := concat (map op_out (c_ops c)); run_ops := c_ops c |}
  | Ok (Mode_Send, _, paths) =>
    let '(r, out) := send (map src paths) in {| run_result := r; run_out := out; run_ops := [] |}
  | Ok (Mode_Client, _, _) | Panic => {| run_result := Panic; run_out := []; run_ops := [] |}
  | Err e => {| run_result := Err e; run_out := []; run_ops := [] |}
  end.
(** lines 28-37: an error is printed to standard error (taken to succeed), and
    [main] returns; a panic ends the process with status 101. *)
Definition scp_status (r : Run) : N := match run_result r with Ok _ | Err _ => 0 | Panic => 101 end.
