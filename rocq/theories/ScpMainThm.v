(** Proofs about ScpMain.v. *)
From Coq Require Import Init.Byte Strings.Byte.
From Verif Require Export SpecScpMain ScpThm2.

Lemma plain_args paths : Forall plain paths -> forall mode d acc, scp_args mode d acc paths = Ok (mode, d, acc ++ paths).
Proof.
  induction paths as [|p paths IH]; intros F mode d acc; cbn [scp_args]; [rewrite app_nil_r; reflexivity|].
  apply Forall_cons_iff in F as [P F].
  assert (Q : forall r, bytes_eqb p (x2d :: r) = false).
  { intros r. destruct p as [|b p]; [reflexivity|]. cbn [bytes_eqb]. destruct (beq_spec b x2d) as [->|D]; [destruct (P p); reflexivity|reflexivity]. }
  change (B "-d") with [x2d; x64]. change (B "-f") with [x2d; x66]. change (B "-t") with [x2d; x74]. rewrite !Q.
  assert (Z : match p with [] => false | b :: _ => beq b x2d end = false).
  { destruct p as [|b p]; [reflexivity|]. destruct (beq_spec b x2d) as [->|D]; [destruct (P p); reflexivity|reflexivity]. }
  rewrite Z, andb_false_r, IH by exact F. rewrite <- app_assoc. reflexivity.
Qed.
Lemma receive_args paths : Forall plain paths -> scp_args Mode_Client false [] (B "-t" :: paths) = Ok (Mode_Receive, false, paths).
Proof. intros F. change (scp_args Mode_Client false [] (B "-t" :: paths)) with (scp_args Mode_Receive false [] paths). apply plain_args, F. Qed.

(** ** Acknowledgements *)
Definition acks (ops : list Op) : nat := length (filter (fun o => match o with Op_Ping => true | _ => false end) ops).
Lemma out_acks ops : concat (map op_out ops) = repeat x00 (acks ops).
Proof. induction ops as [|o ops IH]; [reflexivity|]. unfold acks in *. destruct o; cbn; rewrite ?IH; reflexivity. Qed.
Lemma acks_app a b : acks (a ++ b) = (acks a + acks b)%nat.
Proof. unfold acks. rewrite filter_app, app_length. reflexivity. Qed.
Lemma acks_writes ws : acks (map Op_Write ws) = 0%nat.
Proof. induction ws as [|w ws IH]; [reflexivity|exact IH]. Qed.
Lemma acks_prefix a b : prefix a b -> (acks a <= acks b)%nat.
Proof. intros [c ->]. rewrite acks_app. lia. Qed.

Section Receive.
Variable W : World.
Lemma files_acks to : forall c r c', receive_files W to c = (r, c') ->
  match r with Ok _ => acks (c_ops c') = (acks (c_ops c) + 2 * length to)%nat | _ => (acks (c_ops c') < acks (c_ops c) + 2 * length to)%nat end.
Proof.
  induction to as [|path to IH]; intros c r c' H; cbn [receive_files] in H.
  - apply pair_equal_spec in H as [<- <-]. cbn. lia.
  - cbn [length]. apply c_bind_inv in H as [(h & c1 & R & H)|[(e & R & ->)|[R ->]]]; apply read_header_spec in R as [O _]; try (rewrite O; lia).
    destruct h as [[[m n] name]|]; [|apply pair_equal_spec in H as [<- <-]; rewrite O; lia].
    assert (H' : c_bind (after W ([Op_Parents path] ++ [Op_Create path; Op_Ping]) (transfer_file W n)) (fun _ => receive_files W to) c1 = (r, c')).
    { rewrite <- H. cbn [after app]. rewrite c_bind_assoc. apply c_bind_ext. intros _ c2. rewrite c_bind_assoc. apply c_bind_ext. intros _ c3.
      rewrite c_bind_assoc. reflexivity. }
    clear H. apply c_bind_inv in H' as [(u & c2 & R & H)|[(e & R & ->)|[R ->]]]; apply after_spec in R as (ws & L & X); [| |contradiction].
    + destruct X as (X1 & _). apply IH in H. rewrite X1, O, !acks_app, acks_writes in H. cbn in H. destruct r; lia.
    + destruct X as (ops & X1 & X2 & _). apply acks_prefix in X2. rewrite X1, O, acks_app. rewrite !acks_app, acks_writes in X2. cbn in X2. lia.
Qed.
Lemma receive_acks to input r c : receive W to false (start input) = (r, c) ->
  match r with Ok _ => acks (c_ops c) = (1 + 2 * length to)%nat | _ => (acks (c_ops c) < 1 + 2 * length to)%nat end.
Proof.
  intros H. cbn [receive] in H. apply c_bind_inv in H as [(u & c1 & R & H)|[(e & R & ->)|[R ->]]]; apply do_inv in R as [_ [[Ro O]|[Ro O]]]; try discriminate Ro.
  - apply files_acks in H. rewrite O in H. exact H.
  - rewrite O. cbn. lia.
Qed.
End Receive.

(** ** A file cut short *)
Lemma loop_short W fuel : generous W -> forall size data ops, len data < size -> (length data < fuel)%nat ->
  exists ws c, transfer_loop W fuel size {| c_in := data; c_ops := ops |} = (Err tt, c) /\ c_ops c = ops ++ map Op_Write ws /\ prefix (concat ws) data.
Proof.
  intros G. induction fuel as [|fuel IH]; intros size data ops L Lf; [lia|]. cbn [transfer_loop].
  destruct (N.eqb_spec size 0) as [->|Z]; [lia|]. set (l := N.min size 32768). assert (Hl : 0 < l <= size) by lia. clearbody l.
  unfold c_bind at 1. unfold read_exactly. cbn [c_in c_ops]. destruct (N.leb_spec l (len data)) as [Q|Q].
  - unfold c_bind. rewrite do_ok by exact G. destruct (IH (size - l) (ndrop l data) (ops ++ [Op_Write (ntake l data)])) as (ws & c & E & O & P).
    + rewrite len_ndrop. lia.
    + assert (len (ndrop l data) < len data) by (rewrite len_ndrop; lia). unfold len in *. lia.
    + rewrite E. exists (ntake l data :: ws), c. split; [reflexivity|]. rewrite O, <- app_assoc. split; [reflexivity|].
      destruct P as [k P]. exists k. cbn [concat]. rewrite <- app_assoc, <- P, ntake_ndrop. reflexivity.
  - exists [], {| c_in := []; c_ops := ops |}. split; [reflexivity|]. cbn [c_ops map concat]. rewrite app_nil_r. split; [reflexivity|exists data; reflexivity].
Qed.
Lemma cut_short W src path line n name data : generous W -> plain path -> is_header line n name -> len data < n ->
  exists stored, prefix stored data /\
  let r := scp_start W src [B "-t"; path] (line ++ data) in
  run_result r = Err tt /\ run_out r = [x00; x00] /\ files (run_ops r) = [(path, stored)].
Proof.
  intros G P Hd L. destruct (loop_short W (S (length data)) G n data [Op_Ping; Op_Parents path; Op_Create path; Op_Ping] L (Nat.lt_succ_diag_r _)) as (ws & c & E & O & X).
  assert (Rc : receive W [path] false {| c_in := line ++ data; c_ops := [] |} = (Err tt, c)).
  { cbn [receive]. unfold c_bind at 1. unfold ping_ready at 1. rewrite do_ok by exact G. cbn [app receive_files].
    destruct (read_header_line line n name data [Op_Ping] Hd) as (mode & R). unfold c_bind at 1. rewrite R.
    unfold c_bind at 1. rewrite do_ok by exact G. unfold c_bind at 1. rewrite do_ok by exact G. unfold c_bind at 1. unfold ping_ready at 1. rewrite do_ok by exact G.
    cbn [app]. unfold c_bind at 1. unfold transfer_file. cbn [c_in]. unfold c_bind at 1. rewrite E. reflexivity. }
  exists (concat ws). split; [exact X|]. unfold scp_start. rewrite receive_args by (constructor; [exact P|constructor]). rewrite Rc.
  cbv zeta. cbn [run_result run_out run_ops]. split; [reflexivity|]. rewrite O.
  split; [rewrite out_acks, acks_app, acks_writes; reflexivity|]. cbn [app files written].
  pose proof (files_writes ws []) as F. pose proof (written_writes ws []) as V. rewrite app_nil_r in F, V. rewrite F, V. cbn [written files]. rewrite app_nil_r. reflexivity.
Qed.
Lemma directory_args dir : plain dir -> scp_args Mode_Client false [] [B "-t"; B "-d"; dir] = Ok (Mode_Receive, true, [dir]).
Proof. intros P. change (scp_args Mode_Client false [] [B "-t"; B "-d"; dir]) with (scp_args Mode_Receive true [] [dir]). apply plain_args. constructor; [exact P|constructor]. Qed.
Lemma cut_short_in W src dir line n name data : generous W -> plain dir -> is_header line n name -> len data < n ->
  exists stored, prefix stored data /\
  let r := scp_start W src [B "-t"; B "-d"; dir] (line ++ data) in
  run_result r = Err tt /\ run_out r = [x00; x00] /\ files (run_ops r) = [(name, stored)] /\ prefix [Op_Dirs dir; Op_Chdir dir] (run_ops r).
Proof.
  intros G P Hd L. destruct (loop_short W (S (length data)) G n data [Op_Dirs dir; Op_Chdir dir; Op_Ping; Op_Create name; Op_Ping] L (Nat.lt_succ_diag_r _)) as (ws & c & E & O & X).
  assert (Rc : receive W [dir] true {| c_in := line ++ data; c_ops := [] |} = (Err tt, c)).
  { cbn [receive]. unfold c_bind at 1. rewrite do_ok by exact G. unfold c_bind at 1. rewrite do_ok by exact G. unfold c_bind at 1. unfold ping_ready at 1. rewrite do_ok by exact G.
    cbn [app c_in]. destruct (read_header_line line n name data [Op_Dirs dir; Op_Chdir dir; Op_Ping] Hd) as (mode & R).
    destruct (length (line ++ data)); cbn [receive_dir]; unfold c_bind at 1; rewrite R; unfold c_bind at 1; rewrite do_ok by exact G;
      unfold c_bind at 1; unfold ping_ready at 1; rewrite do_ok by exact G; cbn [app]; unfold c_bind at 1; unfold transfer_file; cbn [c_in]; unfold c_bind at 1; rewrite E; reflexivity. }
  exists (concat ws). split; [exact X|]. unfold scp_start. rewrite directory_args by exact P. rewrite Rc.
  cbv zeta. cbn [run_result run_out run_ops]. split; [reflexivity|]. rewrite O.
  split; [rewrite out_acks, acks_app, acks_writes; reflexivity|]. split; [|eexists; reflexivity]. cbn [app files written].
  pose proof (files_writes ws []) as F. pose proof (written_writes ws []) as V. rewrite app_nil_r in F, V. rewrite F, V. cbn [written files]. rewrite app_nil_r. reflexivity.
Qed.
