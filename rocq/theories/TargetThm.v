(** Proofs about file transfers that are started through the example server. *)
From Coq Require Import Init.Byte Strings.Byte.
From Verif Require Export SshdThm2 ScpMainThm.

Lemma words_not_white command ws : words command ws -> Forall (fun w => w <> [] /\ Forall (fun b => ~ white b) w) ws.
Proof. intros X. induction X as [gap F|gap w rest ws F Ne Nw R X IH]; [apply Forall_nil|apply Forall_cons; auto]. Qed.
Lemma started_words_of os command argv : sshd_command os (Spawn_Exec command) = Ok argv -> words command argv.
Proof.
  intros E. destruct (words_exist command) as (ws & X). rewrite (exec_command os command ws X) in E. destruct ws as [|w ws]; [discriminate E|].
  apply Ok_inj in E. subst argv. exact X.
Qed.
Lemma args_in args : forall mode d acc m d' paths, scp_args mode d acc args = Ok (m, d', paths) -> forall p, In p paths -> In p acc \/ In p args.
Proof.
  induction args as [|a args IH]; intros mode d acc m d' paths E p I; cbn [scp_args] in E.
  - apply Ok_inj in E. apply (f_equal snd) in E. cbn [snd] in E. subst paths. left. exact I.
  - destruct (bytes_eqb a (B "-d")); [destruct (IH _ _ _ _ _ _ E p I); [left|right; right]; assumption|].
    destruct (bytes_eqb a (B "-f")); [destruct (IH _ _ _ _ _ _ E p I); [left|right; right]; assumption|].
    destruct (bytes_eqb a (B "-t")); [destruct (IH _ _ _ _ _ _ E p I); [left|right; right]; assumption|].
    match type of E with (if ?b then _ else _) = _ => destruct b end; [discriminate E|].
    destruct (IH _ _ _ _ _ _ E p I) as [X|X]; [|right; right; exact X]. apply in_app_or in X as [X|[X|[]]]; [left; exact X|right; left; exact X].
Qed.

Section Receive.
Variable W : World.
Lemma prefix_in {A} (x : A) a b : prefix a b -> In x a -> In x b.
Proof. intros [c ->] I. apply in_or_app. left. exact I. Qed.
Lemma create_write p ws : ~ In (Op_Create p) (map Op_Write ws).
Proof. intros I. apply in_map_iff in I as (w & X & _). discriminate X. Qed.
Lemma one_created path p ws more : In (Op_Create p) (([Op_Parents path] ++ [Op_Create path; Op_Ping]) ++ map Op_Write ws ++ more) -> ~ In (Op_Create p) more -> p = path.
Proof.
  intros I N. cbn [app] in I. destruct I as [I|[I|[I|I]]]; try discriminate I.
  - apply (f_equal (fun o => match o with Op_Create p => p | _ => p end)) in I. symmetry. exact I.
  - apply in_app_or in I as [I|I]; [destruct (create_write _ _ I)|contradiction].
Qed.
Lemma files_created to : forall c r c', receive_files W to c = (r, c') -> forall p, In (Op_Create p) (c_ops c') -> In (Op_Create p) (c_ops c) \/ In p to.
Proof.
  induction to as [|path to IH]; intros c r c' H p I; cbn [receive_files] in H.
  - apply pair_equal_spec in H as [<- <-]. left. exact I.
  - apply c_bind_inv in H as [(h & c1 & R & H)|[(e & R & ->)|[R ->]]]; apply read_header_spec in R as [O _]; try (rewrite O in I; left; exact I).
    destruct h as [[[m n] name]|]; [|apply pair_equal_spec in H as [<- <-]; rewrite O in I; left; exact I].
    assert (H' : c_bind (after W ([Op_Parents path] ++ [Op_Create path; Op_Ping]) (transfer_file W n)) (fun _ => receive_files W to) c1 = (r, c')).
    { rewrite <- H. cbn [after app]. rewrite c_bind_assoc. apply c_bind_ext. intros _ c2. rewrite c_bind_assoc. apply c_bind_ext. intros _ c3.
      rewrite c_bind_assoc. reflexivity. }
    clear H. apply c_bind_inv in H' as [(u & c2 & R & H)|[(e & R & ->)|[R ->]]]; apply after_spec in R as (ws & L & X); [| |contradiction].
    + destruct X as (X1 & _). destruct (IH _ _ _ H p I) as [I2|I2]; [|right; right; exact I2]. rewrite X1, O in I2.
      apply in_app_or in I2 as [I2|I2]; [left; exact I2|]. right. left. symmetry. apply (one_created path p ws [Op_Ping] I2). intros [Q|[]]. discriminate Q.
    + destruct X as (ops & X1 & X2 & _). rewrite X1, O in I. apply in_app_or in I as [I|I]; [left; exact I|]. right. left. symmetry.
      apply (one_created path p ws []); [rewrite app_nil_r; exact (prefix_in _ _ _ X2 I)|intros []].
Qed.
End Receive.

Lemma announced_no_space nl line n name : announces nl line n name -> no x20 name.
Proof. intros (_ & mode & size & rest & _ & _ & _ & X & _). exact X. Qed.
Lemma created_no_space W src args input p : Forall (fun a => no x20 a) args -> In (Op_Create p) (run_ops (scp_start W src args input)) -> no x20 p.
Proof.
  intros F I. unfold scp_start in I. destruct (scp_args Mode_Client false [] args) as [[[mode d] paths]|e|] eqn:A; [|destruct I..].
  destruct mode; [destruct I|destruct (send (map src paths)); destruct I|].
  destruct (receive W paths d {| c_in := input; c_ops := [] |}) as [r c] eqn:E. cbn [run_ops] in I. destruct d.
  - destruct paths as [|dir [|x paths]]; [cbn in E; apply pair_equal_spec in E as [_ <-]; destruct I| |cbn in E; apply pair_equal_spec in E as [_ <-]; destruct I].
    destruct (created_announced W dir input r c p E I) as (before & line & n & aft & _ & [Hd|Hd]); eapply announced_no_space; exact Hd.
  - cbn [receive] in E. apply c_bind_inv in E as [(u & c1 & R & H)|[(e & R & ->)|[R ->]]]; apply do_inv in R as [_ [[Ro O]|[Ro O]]]; try discriminate Ro.
    + destruct (files_created W paths _ _ _ H p I) as [X|X]; [rewrite O in X; destruct X as [X|[]]; discriminate X|].
      destruct (args_in _ _ _ _ _ _ _ A p X) as [[]|Y]. rewrite Forall_forall in F. exact (F p Y).
    + rewrite O in I. destruct I.
Qed.
Lemma through_server W src os command argv0 args input p : sshd_command os (Spawn_Exec command) = Ok (argv0 :: args) ->
  In (Op_Create p) (run_ops (scp_start W src args input)) -> no x20 p.
Proof.
  intros E I. apply started_words_of, words_not_white in E. apply Forall_cons_iff in E as [_ E]. eapply created_no_space; [|exact I].
  eapply Forall_impl; [|exact E]. intros a [_ Na] X. rewrite Forall_forall in Na. apply (Na _ X). unfold white. cbn [In]. tauto.
Qed.

(** The command for a path without white space. *)
Lemma plain_command os path : path <> [] -> Forall (fun b => ~ white b) path ->
  sshd_command os (Spawn_Exec (B "scp -t " ++ path)) = Ok [B "scp"; B "-t"; path].
Proof.
  intros Ne Nw. assert (X : words (B "scp -t " ++ path) [B "scp"; B "-t"; path]).
  { change (B "scp -t " ++ path) with ([] ++ B "scp" ++ ([x20] ++ B "-t" ++ ([x20] ++ path))).
    assert (NW : forall l, existsb is_space l = false -> Forall (fun b => ~ white b) l).
    { intros l Q. apply Forall_forall. intros b I Wb. assert (Y : existsb is_space l = true); [|congruence].
      apply existsb_exists. exists b. split; [exact I|]. unfold white in Wb. cbn [In] in Wb.
      destruct Wb as [<-|[<-|[<-|[<-|[<-|[]]]]]]; reflexivity. }
    assert (SP : Forall white [x20]) by (apply Forall_cons; [unfold white; cbn [In]; tauto|apply Forall_nil]).
    apply W_word; [apply Forall_nil|discriminate|apply NW; reflexivity|cbn [app]; unfold white; cbn [In]; tauto|].
    apply W_word; [exact SP|discriminate|apply NW; reflexivity|cbn [app]; unfold white; cbn [In]; tauto|].
    rewrite <- (app_nil_r path) at 1. apply W_word; [exact SP|exact Ne|exact Nw|exact I|apply W_none; apply Forall_nil]. }
  rewrite (exec_command os _ _ X). reflexivity.
Qed.
Lemma plain_target W src path f rest : generous W -> plain path -> sent_ok f ->
  let r := scp_start W src [B "-t"; path] (frame f ++ rest) in run_result r = Ok tt /\ files (run_ops r) = [(path, f_data f)].
Proof.
  intros G P S. unfold scp_start. rewrite receive_args by (constructor; [exact P|constructor]).
  destruct (receive_to_ok W G [f] [path] rest) as (c & R & _ & F); [constructor; [exact S|constructor]|reflexivity|].
  cbn [map concat] in R. rewrite app_nil_r in R. unfold start in R. rewrite R. cbv zeta. cbn [run_result run_ops]. split; [reflexivity|exact F].
Qed.
