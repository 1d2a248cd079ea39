(** Poly1305: the value as a polynomial, its roots, forgeries. *)
From Coq Require Import Init.Byte Znumtheory.
From Verif Require Import BaseFacts SpecPrim PrimThm PrimeThm.

(** ** Polynomials over Z, lowest coefficient first *)
Local Open Scope Z_scope.
Fixpoint ev (l : list Z) (x : Z) : Z := match l with [] => 0 | c :: l => c + x * ev l x end.
Fixpoint quo (l : list Z) (a : Z) : list Z :=
  match l with
  | [] => []
  | _ :: l => match l with [] => [] | _ => ev l a :: quo l a end
  end.
Lemma quo_length : forall l a, length (quo l a) = pred (length l).
Proof. induction l as [|c l IH]; intro a; [reflexivity|]. cbn [quo]. destruct l; [reflexivity|]. cbn [length]. rewrite IH. reflexivity. Qed.
Lemma quo_eval : forall l a x, ev l x - ev l a = (x - a) * ev (quo l a) x.
Proof.
  induction l as [|c l IH]; intros a x; [cbn; ring|]. cbn [quo]. destruct l as [|d l]; [cbn [ev]; ring|].
  specialize (IH a x). set (l' := d :: l) in *. change (ev (c :: l') x) with (c + x * ev l' x).
  change (ev (c :: l') a) with (c + a * ev l' a). cbn [ev]. 
  replace (c + x * ev l' x - (c + a * ev l' a)) with (x * (ev l' x - ev l' a) + (x - a) * ev l' a) by ring.
  rewrite IH. ring.
Qed.
Section Roots.
Variable p : Z.
Hypothesis P : prime p.
Definition vanishes (l : list Z) : Prop := Forall (fun c => (p | c)) l.
Lemma quo_vanishes : forall l a, vanishes (quo l a) -> (p | ev l a) -> vanishes l.
Proof.
  induction l as [|c l IH]; intros a V E; [constructor|]. cbn [quo] in V. destruct l as [|d l].
  - constructor; [|constructor]. cbn [ev] in E. replace (c + a * 0) with c in E by ring. exact E.
  - set (l' := d :: l) in *. inversion V as [|? ? V1 V2]. subst. constructor; [|apply (IH a); assumption].
    change (ev (c :: l') a) with (c + a * ev l' a) in E.
    replace c with (c + a * ev l' a - a * ev l' a) by ring. apply Z.divide_sub_r; [exact E|]. now apply Z.divide_mul_r.
Qed.
Lemma roots_bound : forall rs l, NoDup rs -> (forall r, In r rs -> 0 <= r < p /\ (p | ev l r)) -> ~ vanishes l ->
  (length rs < length l)%nat.
Proof.
  induction rs as [|a rs IH]; intros l N H V.
  - destruct l; [exfalso; apply V; constructor|cbn; lia].
  - inversion N as [|? ? NI N2]. subst. destruct (H a (or_introl eq_refl)) as [A EA].
    assert (length rs < length (quo l a))%nat as L.
    { apply IH; [exact N2| |].
      - intros r R. destruct (H r (or_intror R)) as [B EB]. split; [exact B|].
        pose proof (quo_eval l a r) as Q. assert ((p | (r - a) * ev (quo l a) r)) as D by (rewrite <- Q; now apply Z.divide_sub_r).
        destruct (prime_mult p P _ _ D) as [D2|D2]; [|exact D2]. exfalso. destruct D2 as [k K].
        apply small_multiple in K; [|lia]. assert (r = a) by lia. subst r. contradiction.
      - intro X. apply V, (quo_vanishes l a X EA). }
    rewrite quo_length in L. cbn [length]. lia.
Qed.
End Roots.
Lemma ev_app : forall l m x, ev (l ++ m) x = ev l x + x ^ Z.of_nat (length l) * ev m x.
Proof.
  induction l as [|c l IH]; intros m x; [cbn [app length ev]; change (Z.of_nat 0) with 0; rewrite Z.pow_0_r; ring|].
  cbn [app ev length]. rewrite IH, Nat2Z.inj_succ, Z.pow_succ_r by lia. ring.
Qed.
Fixpoint psub (a b : list Z) : list Z :=
  match a, b with
  | [], b => map Z.opp b
  | a, [] => a
  | x :: a, y :: b => x - y :: psub a b
  end.
Lemma ev_opp : forall l x, ev (map Z.opp l) x = - ev l x.
Proof. induction l as [|c l IH]; intro x; cbn [map ev]; [reflexivity|]. rewrite IH. ring. Qed.
Lemma psub_eval : forall a b x, ev (psub a b) x = ev a x - ev b x.
Proof.
  induction a as [|c a IH]; intros b x; [cbn [psub ev]; rewrite ev_opp; ring|].
  destruct b as [|d b]; cbn [psub ev]; [ring|]. rewrite IH. ring.
Qed.
Lemma psub_length : forall a b, length (psub a b) = Nat.max (length a) (length b).
Proof.
  induction a as [|c a IH]; intros b; [cbn [psub length]; rewrite map_length; reflexivity|].
  destruct b as [|d b]; cbn [psub length]; [reflexivity|]. rewrite IH. reflexivity.
Qed.
Lemma psub_differ : forall p a b, Forall (fun c => 0 < c < p) a -> Forall (fun c => 0 < c < p) b ->
  vanishes p (psub a b) -> a = b.
Proof.
  intros p. induction a as [|c a IH]; intros b A C V.
  - destruct b as [|d b]; [reflexivity|exfalso]. destruct (Forall_inv V) as [k K]. pose proof (Forall_inv C) as D. cbn beta in D.
    assert (d = (- k) * p) as E by lia. apply small_multiple in E; lia.
  - pose proof (Forall_inv A) as D. cbn beta in D. destruct b as [|d b].
    + exfalso. destruct (Forall_inv V) as [k K]. apply small_multiple in K; lia.
    + destruct (Forall_inv V) as [k K]. pose proof (Forall_inv C) as D2. cbn beta in D2. apply small_multiple in K; [|lia].
      f_equal; [lia|]. apply IH; [exact (Forall_inv_tail A)|exact (Forall_inv_tail C)|exact (Forall_inv_tail V)].
Qed.

(** ** Little-endian numbers *)
Local Open Scope N_scope.
Lemma b2n_lt : forall b, b2n b < 256.
Proof. intro b. pose proof (Byte.to_N_bounded b). unfold b2n. lia. Qed.
Lemma le_value_lt : forall l, le_value l < 256 ^ len l.
Proof.
  induction l as [|b l IH]; [reflexivity|]. cbn [le_value]. unfold len in *. cbn [length]. rewrite Nat2N.inj_succ, N.pow_succ_r'.
  pose proof (b2n_lt b). lia.
Qed.
Lemma le_bytes_value : forall k n, le_value (le_bytes k n) = n mod 256 ^ N.of_nat k.
Proof.
  induction k as [|k IH]; intro n; cbn [le_bytes le_value]; [rewrite N.mod_1_r; reflexivity|].
  rewrite IH. rewrite Nat2N.inj_succ, N.pow_succ_r'. rewrite BaseFacts.b2n_n2b. rewrite N.mod_mul_r; [|lia|apply N.pow_nonzero; lia]. reflexivity.
Qed.
Lemma le_value_app1_inj : forall a b, le_value (a ++ [x01]) = le_value (b ++ [x01]) -> a = b.
Proof.
  assert (Z : forall c l, 256 <= le_value ((c :: l) ++ [x01])).
  { intros c l. cbn [app le_value]. assert (1 <= le_value (l ++ [x01])); [|lia]. induction l as [|d l IH]; [reflexivity|].
    cbn [app le_value]. lia. }
  induction a as [|c a IH]; intros [|d b] E.
  - reflexivity.
  - exfalso. pose proof (Z d b) as H. rewrite <- E in H. cbn in H. lia.
  - exfalso. pose proof (Z c a) as H. rewrite E in H. cbn in H. lia.
  - cbn [app le_value] in E. pose proof (b2n_lt c). pose proof (b2n_lt d).
    assert (b2n c = b2n d /\ le_value (a ++ [x01]) = le_value (b ++ [x01])) as [C D] by lia.
    f_equal; [|apply IH, D]. apply BaseFacts.b2n_inj, C.
Qed.
Lemma le_value_inj : forall a b, length a = length b -> le_value a = le_value b -> a = b.
Proof.
  induction a as [|c a IH]; intros [|d b] L E; try discriminate; [reflexivity|].
  cbn [le_value] in E. pose proof (b2n_lt c). pose proof (b2n_lt d).
  assert (b2n c = b2n d /\ le_value a = le_value b) as [C D] by lia.
  f_equal; [|apply IH; [now injection L|exact D]]. apply BaseFacts.b2n_inj, C.
Qed.

(** ** The blocks of a message *)
Lemma pieces_concat : forall {A} fuel n (l : list A), (0 < n)%nat -> (length l <= fuel)%nat -> concat (pieces fuel n l) = l.
Proof.
  intros A fuel. induction fuel as [|fuel IH]; intros n l N L; [destruct l; [reflexivity|cbn in L; lia]|].
  destruct l as [|a l]; [reflexivity|]. cbn [pieces concat]. rewrite IH; [apply firstn_skipn|exact N|].
  rewrite skipn_length. cbn [length] in *. lia.
Qed.
Lemma chunks_concat : forall {A} n (l : list A), (0 < n)%nat -> concat (chunks n l) = l.
Proof. intros. apply pieces_concat; [assumption|lia]. Qed.
Lemma pieces_short : forall {A} fuel n (l : list A), Forall (fun b => (length b <= n)%nat) (pieces fuel n l).
Proof.
  intros A fuel. induction fuel as [|fuel IH]; intros n l; [constructor|]. destruct l as [|a l]; [constructor|].
  cbn [pieces]. constructor; [|apply IH]. rewrite firstn_length. lia.
Qed.
Lemma pieces_length : forall {A} fuel (l : list A), (length l <= fuel)%nat -> len (pieces fuel 16 l) = blocks (len l).
Proof.
  intros A fuel. induction fuel as [|fuel IH]; intros l L; [destruct l; [reflexivity|cbn in L; lia]|].
  destruct l as [|a l]; [reflexivity|]. cbn [pieces]. unfold len at 1. cbn [length]. rewrite Nat2N.inj_succ.
  fold (len (pieces fuel 16 (skipn 16 (a :: l)))). rewrite IH by (rewrite skipn_length; cbn [length] in *; lia).
  unfold blocks, len. rewrite skipn_length. cbn [length] in *. lia.
Qed.
Lemma chunks_length : forall {A} (l : list A), len (chunks 16 l) = blocks (len l).
Proof. intros. apply pieces_length. lia. Qed.
