(** Property theorem C112: file transfers that are started through the example
    server.  The world decides which operations succeed. *)
From Coq Require Import Init.Byte Strings.Byte.
From Verif Require Import TargetThm.
Open Scope res_scope.

(** ** C112: refuted: whatever command a client has the example server run, and
    whatever it sends to it: if the command is the file transfer program, no file
    with a space in its path is created. *)
Theorem C112_any_target_refuted : forall W src os command program args input path,
  sshd_command os (Spawn_Exec command) = Ok (program :: args) -> In x20 path ->
  ~ In (Op_Create path) (run_ops (scp_start W src args input)).
Proof. intros W src os command program args input path E S I. exact (through_server W src os command program args input path E I S). Qed.
Print Assumptions C112_any_target_refuted.

(** What holds: a file can be stored at every path without white space that is
    not an option. *)
Theorem C112_any_target_partial : forall W src os path f rest, generous W -> path <> [] -> Forall (fun b => ~ white b) path -> plain path -> sent_ok f ->
  exists command args, sshd_command os (Spawn_Exec command) = Ok (B "scp" :: args) /\
    let r := scp_start W src args (frame f ++ rest) in run_result r = Ok tt /\ files (run_ops r) = [(path, f_data f)].
Proof.
  intros W src os path f rest G Ne Nw P S. exists (B "scp -t " ++ path), [B "-t"; path]. split; [exact (plain_command os path Ne Nw)|].
  exact (plain_target W src path f rest G P S).
Qed.
Print Assumptions C112_any_target_partial.

(** Quotes do not help. *)
Example C112_example : let os := {| os_shell := None; os_start := fun _ _ => true |} in let world : World := fun _ _ => true in
  let src := fun _ => source [] [] in let input := B "C0644 5 a" ++ [x0a] ++ B "hello" ++ [x00] in
  sshd_command os (Spawn_Exec (B "scp -t 'my file'")) = Ok [B "scp"; B "-t"; B "'my"; B "file'"] /\
  run_result (scp_start world src [B "-t"; B "'my"; B "file'"] input) = Err tt /\
  files (run_ops (scp_start world src [B "-t"; B "'my"; B "file'"] input)) = [(B "'my", B "hello")] /\
  sshd_command os (Spawn_Exec (B "scp -t my_file")) = Ok [B "scp"; B "-t"; B "my_file"] /\
  files (run_ops (scp_start world src [B "-t"; B "my_file"] input)) = [(B "my_file", B "hello")].
Proof. vm_compute. auto 6. Qed.
