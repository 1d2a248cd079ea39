(** Consequences of the story of the session phase. *)
From Coq Require Import Init.Byte Strings.Byte.
From Verif Require Export SessionThm.
Open Scope res_scope.

Section Told.
  Context (h : SHandlers).

  (** What a session that ends with [r] leaves in the log. *)
  Definition told (r : res InError bool) (log : list SEvent) : Prop :=
    exists ts tail, log = concat ts ++ tail /\ turns h [] ts /\
      (tail = [] \/ r = Ok true /\ (exists d, tail = [SE_Received (Msg_Disconnect d)]) \/ r = Panic /\ crash h (concat ts) tail).

  Lemma dropped_quiet o e : In e (dropped o) -> stimulus e = false.
  Proof. destruct o; cbn; intuition. subst e. reflexivity. Qed.
  Lemma wanted_quiet r c e : In e (wanted r c) -> stimulus e = false.
  Proof. unfold wanted. destruct (rq_want_reply r); cbn; intuition. subst e. reflexivity. Qed.
  Lemma turn_shape pre t : turn h pre t -> exists e t', t = e :: t' /\ stimulus e = true /\ forall x, In x t' -> stimulus x = false.
  Proof.
    intros T. destruct T; eexists _, _; (split; [reflexivity|]); (split; [reflexivity|]); intros x0 I; cbn [app In] in I;
      repeat (destruct I as [<-|I]; [reflexivity|]); try contradiction; try (apply in_app_or in I as [I|I]);
      solve [eapply dropped_quiet, I|eapply wanted_quiet, I].
  Qed.
  Lemma crash_shape pre t : crash h pre t -> exists e t', t = e :: t' /\ stimulus e = true /\ forall x, In x t' -> stimulus x = false.
  Proof.
    intros T. destruct T; eexists _, _; (split; [reflexivity|]); (split; [reflexivity|]); intros x0 I; cbn [app In] in I;
      repeat (destruct I as [<-|I]; [reflexivity|]); contradiction.
  Qed.
  Lemma turns_rest base ts tail : turns h base ts -> at_rest tail -> at_rest (concat ts ++ tail).
  Proof.
    intros T R. destruct T as [|pre t ts T Ts]; [exact R|]. destruct (turn_shape _ _ T) as (e & t' & -> & S & _). exact S.
  Qed.

  (** Where an event is in a list of turns. *)
  Lemma app_cons_split {A} (a b : list A) x c d : a ++ b = c ++ x :: d ->
    (exists a2, a = c ++ x :: a2 /\ d = a2 ++ b) \/ (exists b1, c = a ++ b1 /\ b = b1 ++ x :: d).
  Proof.
    revert c. induction a as [|y a IH]; intros c E; cbn [app] in E.
    - right. exists c. auto.
    - destruct c as [|z c]; cbn [app] in E; injection E as -> E.
      + left. exists a. auto.
      + apply IH in E as [(a2 & -> & ->)|(b1 & -> & ->)]; [left; exists a2|right; exists b1]; split; reflexivity.
  Qed.
  Lemma turns_split base ts tail : turns h base ts -> forall pre e post, concat ts ++ tail = pre ++ e :: post ->
    (exists ts1 t1 t2 ts2, ts = ts1 ++ (t1 ++ e :: t2) :: ts2 /\ pre = concat ts1 ++ t1 /\ post = t2 ++ concat ts2 ++ tail /\
       turns h base ts1 /\ turn h (base ++ concat ts1) (t1 ++ e :: t2) /\ turns h (base ++ concat ts1 ++ t1 ++ e :: t2) ts2) \/
    (exists t1, pre = concat ts ++ t1 /\ tail = t1 ++ e :: post).
  Proof.
    intros T. induction T as [base|base t ts T Ts IH]; intros pre e post E; cbn [concat app] in E.
    - right. exists pre. auto.
    - rewrite <- app_assoc in E. apply app_cons_split in E as [(a2 & -> & ->)|(b1 & -> & E)].
      + left. exists [], pre, a2, ts. cbn [concat app]. rewrite app_nil_r. split; [reflexivity|]. split; [reflexivity|]. split; [reflexivity|].
        split; [constructor|]. split; [exact T|exact Ts].
      + apply IH in E as [(ts1 & t1 & t2 & ts2 & -> & -> & -> & T1 & T2 & T3)|(t1 & -> & ->)].
        * left. exists (t :: ts1), t1, t2, ts2. cbn [concat app]. rewrite <- !app_assoc in *. cbn [app] in *.
          split; [reflexivity|]. split; [reflexivity|]. split; [reflexivity|].
          split; [constructor; assumption|]. split; assumption.
        * right. exists t1. cbn [concat]. rewrite <- app_assoc. auto.
  Qed.

  Lemma ending_rest (r : res InError bool) ts tail : 
    (tail = [] \/ r = Ok true /\ (exists d, tail = [SE_Received (Msg_Disconnect d)]) \/ r = Panic /\ crash h (concat ts) tail) -> at_rest tail.
  Proof.
    intros [->|[(_ & d & ->)|(_ & X)]]; try exact I; try reflexivity. destruct (crash_shape _ _ X) as (e & t' & -> & S & _). exact S.
  Qed.

  (** A stimulus begins a turn. *)
  Lemma stim_split r log pre e post : told r log -> log = pre ++ e :: post -> stimulus e = true ->
    (exists t post', post = t ++ post' /\ turn h pre (e :: t) /\ at_rest post') \/
    (r = Ok true /\ post = [] /\ exists d, e = SE_Received (Msg_Disconnect d)) \/
    (r = Panic /\ crash h pre (e :: post)).
  Proof.
    intros (ts & tail & -> & Ts & En) E S. pose proof (ending_rest _ _ _ En) as AR.
    destruct (turns_split [] ts tail Ts pre e post E) as [(ts1 & t1 & t2 & ts2 & -> & -> & -> & T1 & T2 & T3)|(t1 & -> & Q)].
    - left. cbn [app] in T2. destruct (turn_shape _ _ T2) as (e0 & t' & Q & S0 & NS).
      destruct t1 as [|x t1]; cbn [app] in Q; injection Q as Qa Qb; subst.
      + exists t', (concat ts2 ++ tail). cbn [app] in T2. rewrite app_nil_r. split; [reflexivity|]. split; [exact T2|]. eapply turns_rest; eassumption.
      + exfalso. rewrite (NS e) in S; [discriminate S|]. apply in_or_app. right. left. reflexivity.
    - right. destruct En as [->|[(-> & d & ->)|(-> & X)]].
      + destruct t1; discriminate Q.
      + left. destruct t1 as [|x t1]; cbn [app] in Q; [|destruct t1; discriminate Q]. injection Q as <- <-. split; [reflexivity|]. eauto.
      + right. split; [reflexivity|]. destruct (crash_shape _ _ X) as (e0 & t' & Q0 & S0 & NS). rewrite Q0 in Q.
        destruct t1 as [|x t1]; cbn [app] in Q; injection Q as Qa Qb; subst.
        * rewrite app_nil_r. exact X.
        * exfalso. rewrite (NS e) in S; [discriminate S|]. apply in_or_app. right. left. reflexivity.
  Qed.
  (** Another event belongs to one. *)
  Lemma resp_split r log pre e post : told r log -> log = pre ++ e :: post -> stimulus e = false ->
    exists pre' s t1 t2 post', pre = pre' ++ s :: t1 /\ post = t2 ++ post' /\ stimulus s = true /\
      (turn h pre' (s :: t1 ++ e :: t2) /\ at_rest post' \/ r = Panic /\ post' = [] /\ crash h pre' (s :: t1 ++ e :: t2)).
  Proof.
    intros (ts & tail & -> & Ts & En) E S. pose proof (ending_rest _ _ _ En) as AR.
    destruct (turns_split [] ts tail Ts pre e post E) as [(ts1 & t1 & t2 & ts2 & -> & -> & -> & T1 & T2 & T3)|(t1 & -> & Q)].
    - cbn [app] in T2. destruct (turn_shape _ _ T2) as (e0 & t' & Q & S0 & NS).
      destruct t1 as [|x t1]; cbn [app] in Q; injection Q as Qa Qb; subst; [congruence|].
      exists (concat ts1), e0, t1, t2, (concat ts2 ++ tail). split; [reflexivity|]. split; [reflexivity|]. split; [exact S0|]. left.
      split; [exact T2|]. eapply turns_rest; eassumption.
    - destruct En as [->|[(-> & d & ->)|(-> & X)]].
      + destruct t1; discriminate Q.
      + exfalso. destruct t1 as [|x t1]; cbn [app] in Q; [|destruct t1; discriminate Q]. injection Q as <- <-. discriminate S.
      + destruct (crash_shape _ _ X) as (e0 & t' & Q0 & S0 & NS). rewrite Q0 in Q.
        destruct t1 as [|x t1]; cbn [app] in Q; injection Q as Qa Qb; subst; [congruence|].
        exists (concat ts), x, t1, post, []. rewrite app_nil_r. split; [reflexivity|]. split; [reflexivity|]. split; [exact S0|]. right.
        split; [reflexivity|]. split; [reflexivity|]. exact X.
  Qed.
  (** What comes before an event is told, too. *)
  Lemma told_before r log pre e post : told r log -> log = pre ++ e :: post -> stimulus e = true -> told (Ok false) pre.
  Proof.
    intros (ts & tail & -> & Ts & En) E S. pose proof (ending_rest _ _ _ En) as AR.
    destruct (turns_split [] ts tail Ts pre e post E) as [(ts1 & t1 & t2 & ts2 & -> & -> & -> & T1 & T2 & T3)|(t1 & -> & Q)].
    - cbn [app] in T2. destruct (turn_shape _ _ T2) as (e0 & t' & Q & S0 & NS).
      destruct t1 as [|x t1]; cbn [app] in Q; injection Q as Qa Qb; subst.
      + exists ts1, []. auto.
      + exfalso. rewrite (NS e) in S; [discriminate S|]. apply in_or_app. right. left. reflexivity.
    - exists ts, []. split; [|auto]. f_equal. destruct En as [->|[(-> & d & ->)|(-> & X)]].
      + destruct t1; discriminate Q.
      + destruct t1 as [|x t1]; [reflexivity|]. destruct t1; discriminate Q.
      + destruct (crash_shape _ _ X) as (e0 & t' & Q0 & S0 & NS). rewrite Q0 in Q.
        destruct t1 as [|x t1]; [reflexivity|]. cbn [app] in Q; injection Q as Qa Qb; subst.
        exfalso. rewrite (NS e) in S; [discriminate S|]. apply in_or_app. right. left. reflexivity.
  Qed.
End Told.
