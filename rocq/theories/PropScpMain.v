(** Property theorem C110: whether the caller of the file transfer program learns
    that a transfer failed.  The world decides which operations succeed. *)
From Coq Require Import Init.Byte Strings.Byte.
From Verif Require Import SshdThm2 ScpMainThm.
Open Scope res_scope.

(** ** C110 *)
(** Refuted: a file that breaks off anywhere is left incomplete, the status is
    that of success, and the bytes the other side gets are acknowledgements. *)
Theorem C110_failure_reported_refuted : forall W src path line n name data, generous W -> plain path -> is_header line n name -> len data < n ->
  let r := scp_start W src [B "-t"; path] (line ++ data) in
  scp_status r = 0 /\ run_out r = [x00; x00] /\ exists stored, files (run_ops r) = [(path, stored)] /\ len stored < n.
Proof.
  intros W src path line n name data G P Hd L r. destruct (cut_short W src path line n name data G P Hd L) as (stored & [k X] & R & O & F). fold r in R, O, F.
  split; [unfold scp_status; rewrite R; reflexivity|]. split; [exact O|]. exists stored. split; [exact F|]. rewrite X, len_app in L. lia.
Qed.
Print Assumptions C110_failure_reported_refuted.

(** The same in a directory. *)
Theorem C110_failure_in_directory_refuted : forall W src dir line n name data, generous W -> plain dir -> is_header line n name -> len data < n ->
  let r := scp_start W src [B "-t"; B "-d"; dir] (line ++ data) in
  scp_status r = 0 /\ run_out r = [x00; x00] /\ In (Op_Chdir dir) (run_ops r) /\ exists stored, files (run_ops r) = [(name, stored)] /\ len stored < n.
Proof.
  intros W src dir line n name data G P Hd L r. destruct (cut_short_in W src dir line n name data G P Hd L) as (stored & [k X] & R & O & F & [j D]). fold r in R, O, F, D.
  split; [unfold scp_status; rewrite R; reflexivity|]. split; [exact O|]. split; [rewrite D; right; left; reflexivity|].
  exists stored. split; [exact F|]. rewrite X, len_app in L. lia.
Qed.
Print Assumptions C110_failure_in_directory_refuted.

(** The example server passes that status on: the client is told that the
    transfer succeeded. *)
Theorem C110_failure_told_refuted : forall W src path line n name data, generous W -> plain path -> is_header line n name -> len data < n ->
  forall C rng h k es r st how, is_session C rng h k es r st -> reports how es ->
  forall pre child s post, s_log st = pre ++ SE_Exit child s :: post ->
  how child = Exited (scp_status (scp_start W src [B "-t"; path] (line ++ data))) ->
  exists l1 c p ty io l2 post', pre = l1 ++ SE_Spawn c p child ty (Ok io) :: l2 /\ post = put (exit_status p 0) :: post'.
Proof.
  intros W src path line n name data G P Hd L C rng h k es r st how IS Rp pre child s post E Hw.
  destruct (C110_failure_reported_refuted W src path line n name data G P Hd L) as (S & _). rewrite S in Hw.
  destruct (status_reported C rng h k es r st how IS Rp pre child s post E) as (l1 & c & p & ty & io & l2 & post' & X & Y & _). rewrite Hw in Y.
  exists l1, c, p, ty, io, l2, post'. split; [exact X|exact Y].
Qed.
Print Assumptions C110_failure_told_refuted.

(** What holds: the other side can count.  It gets one zero byte to begin with
    and two for each file that arrives, so all of them if and only if the
    transfer succeeded; then every file was sent and stored whole. *)
Theorem C110_failure_reported_partial : forall W src paths input, Forall plain paths ->
  let r := scp_start W src (B "-t" :: paths) input in
  exists k, run_out r = repeat x00 k /\ (k <= 1 + 2 * length paths)%nat /\ (k = 1 + 2 * length paths <-> run_result r = Ok tt)%nat /\
    (k = 1 + 2 * length paths -> exists fs rest, Forall sent_ok fs /\ input = concat (map frame fs) ++ rest /\ length fs = length paths /\
      files (run_ops r) = combine paths (map f_data fs))%nat.
Proof.
  intros W src paths input F r. unfold r, scp_start. rewrite receive_args by exact F.
  destruct (receive W paths false {| c_in := input; c_ops := [] |}) as [o c] eqn:E. cbv zeta. cbn [run_out run_result run_ops].
  exists (acks (c_ops c)). split; [apply out_acks|]. pose proof (receive_acks W paths input o c E) as A. destruct o as [u|e|].
  - destruct u. split; [lia|]. split; [split; [reflexivity|intros _; exact A]|]. intros _.
    destruct (received_to W paths input tt c E) as (fs & ops & X1 & X2 & X3 & _ & _ & X4). exists fs, (c_in c). auto.
  - split; [lia|]. split; [split; [lia|discriminate]|lia].
  - split; [lia|]. split; [split; [lia|discriminate]|lia].
Qed.
Print Assumptions C110_failure_reported_partial.

(** Only a panic shows in the status. *)
Theorem C110_status_partial : forall W src args input, scp_status (scp_start W src args input) <> 0 <-> run_result (scp_start W src args input) = Panic.
Proof. intros W src args input. unfold scp_status. destruct (run_result _); split; congruence. Qed.
Print Assumptions C110_status_partial.

Definition all_well : World := fun _ _ => true.
Example C110_example : let src := fun _ => source [] [] in let nl := [x0a] in
  (* whole, cut short, for nobody, a directory *)
  (let r := scp_start all_well src [B "-t"; B "x"] (B "C0644 5 a" ++ nl ++ B "hello" ++ [x00]) in
   scp_status r = 0 /\ run_out r = [x00; x00; x00] /\ files (run_ops r) = [(B "x", B "hello")]) /\
  (let r := scp_start all_well src [B "-t"; B "x"] (B "C0644 40000 a" ++ nl ++ B "hello") in
   scp_status r = 0 /\ run_out r = [x00; x00] /\ files (run_ops r) = [(B "x", [])]) /\
  (let r := scp_start all_well src [B "-x"] (B "C0644 40000 a" ++ nl ++ B "hello") in scp_status r = 0 /\ run_out r = []) /\
  scp_status (scp_start all_well src [B "-t"; B "x"] (B "D0755 0 a" ++ nl)) = 101 /\
  is_header (B "C0644 40000 a" ++ nl) 40000 (B "a") /\ plain (B "x").
Proof.
  split; [vm_compute; auto|]. split; [vm_compute; auto|]. split; [vm_compute; auto|]. split; [vm_compute; reflexivity|]. split; [|intros r X; discriminate X].
  split; [reflexivity|]. exists (B "0644"), (B "40000"), []. split; [reflexivity|].
  assert (ND : forall b l, existsb (beq b) l = false -> no b l).
  { intros b l H X. assert (Y : existsb (beq b) l = true) by (apply existsb_exists; exists b; split; [exact X|apply beq_refl]). congruence. }
  split; [apply ND; reflexivity|]. split; [apply ND; reflexivity|]. split; [apply ND; reflexivity|]. split; [left; reflexivity|].
  split; [apply ND; reflexivity|]. split; [apply ND; reflexivity|]. split; [apply ND; reflexivity|]. split; [apply ND; reflexivity|].
  exists (B "40000"). split; [left; reflexivity|]. split; [discriminate|]. split; [|split; reflexivity].
  repeat (apply Forall_cons; [vm_compute; split; discriminate|]). apply Forall_nil.
Qed.
