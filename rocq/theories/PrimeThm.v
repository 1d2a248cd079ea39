(** 2^130 - 5 is prime: Fermat's little theorem, Pocklington's criterion and a
    chain of certificates. *)
From Coq Require Import ZArith Znumtheory Zpow_facts List Permutation Bool Lia.
Import ListNotations.
Local Open Scope Z_scope.
Local Open Scope bool_scope.

Lemma small_multiple : forall k p x, - p < x < p -> x = k * p -> x = 0.
Proof.
  intros k p x H ->. destruct (Z.lt_trichotomy k 0) as [K|[->|K]]; [|reflexivity|].
  - assert ((k + 1) * p <= 0) by nia. lia.
  - assert (0 <= (k - 1) * p) by nia. lia.
Qed.

(** ** Fermat's little theorem *)
Section Fermat.
Variable p : Z.
Hypothesis P : prime p.
Let p1 : 1 < p. Proof. apply P. Qed.

Definition upto : list Z := map Z.of_nat (seq 1 (Z.to_nat (p - 1))).
Lemma upto_in : forall x, In x upto <-> 1 <= x < p.
Proof.
  intro x. unfold upto. rewrite in_map_iff. split.
  - intros (n & <- & H). apply in_seq in H. lia.
  - intro H. exists (Z.to_nat x). split; [lia|]. apply in_seq. lia.
Qed.
Lemma upto_nodup : NoDup upto.
Proof. unfold upto. apply FinFun.Injective_map_NoDup; [|apply seq_NoDup]. intros a b H. lia. Qed.
Lemma upto_length : Z.of_nat (length upto) = p - 1.
Proof. unfold upto. rewrite map_length, seq_length. lia. Qed.

Definition product (l : list Z) : Z := fold_right Z.mul 1 l.
Lemma product_perm : forall l m, Permutation l m -> product l = product m.
Proof. induction 1; cbn [product fold_right] in *; try lia. unfold product in *. cbn [fold_right]. rewrite IHPermutation. reflexivity. Qed.
Lemma product_scaled : forall a l, product (map (fun x => a * x mod p) l) mod p = (a ^ Z.of_nat (length l) * product l) mod p.
Proof.
  intros a l. induction l as [|x l IH]; [reflexivity|].
  cbn [map product fold_right length] in *. fold (product l) in *. fold (product (map (fun x => a * x mod p) l)) in *.
  rewrite Nat2Z.inj_succ, Z.pow_succ_r by lia.
  rewrite Z.mul_mod_idemp_l by lia. rewrite <- Z.mul_mod_idemp_r, IH, Z.mul_mod_idemp_r by lia. f_equal. ring.
Qed.
Lemma product_coprime : forall l, (forall x, In x l -> 1 <= x < p) -> rel_prime p (product l).
Proof.
  induction l as [|x l IH]; intro H; cbn [product fold_right]; [apply rel_prime_sym, rel_prime_1|].
  apply rel_prime_mult; [|apply IH; intros y Y; apply H; now right].
  apply rel_prime_sym, rel_prime_le_prime; [exact P|]. apply H. now left.
Qed.
Lemma nodup_map_on : forall (f : Z -> Z) l, NoDup l -> (forall x y, In x l -> In y l -> f x = f y -> x = y) -> NoDup (map f l).
Proof.
  intros f l N. induction N as [|x l NI N IH]; intro H; cbn [map]; [constructor|]. constructor.
  - rewrite in_map_iff. intros (y & E & Y). apply NI. rewrite (H x y); [exact Y|now left|now right|now symmetry].
  - apply IH. intros a b A B. apply H; now right.
Qed.
Lemma mod_eq_divide : forall a b, a mod p = b mod p -> (p | a - b).
Proof.
  intros a b H. exists (a / p - b / p). pose proof (Z.div_mod a p ltac:(lia)). pose proof (Z.div_mod b p ltac:(lia)). lia.
Qed.
Lemma fermat : forall a, ~ (p | a) -> a ^ (p - 1) mod p = 1.
Proof.
  intros a D.
  assert (R : rel_prime p a) by (apply prime_rel_prime; assumption).
  assert (Permutation (map (fun x => a * x mod p) upto) upto) as E.
  { apply NoDup_Permutation_bis.
    - apply nodup_map_on; [apply upto_nodup|]. intros x y X Y H. apply upto_in in X, Y. apply mod_eq_divide in H.
      replace (a * x - a * y) with (a * (x - y)) in H by ring. apply Gauss in H; [|exact R]. destruct H as [k H]. apply small_multiple in H; lia.
    - rewrite map_length. lia.
    - intros z Z. apply in_map_iff in Z. destruct Z as (x & <- & X). apply upto_in in X. apply upto_in.
      pose proof (Z.mod_pos_bound (a * x) p ltac:(lia)). assert (a * x mod p <> 0); [|lia].
      intro E. apply Z.mod_divide in E; [|lia]. apply Gauss in E; [|exact R]. destruct E as [k E]. apply small_multiple in E; lia. }
  pose proof (product_scaled a upto) as S. rewrite (product_perm _ _ E), upto_length in S.
  symmetry in S. apply mod_eq_divide in S.
  replace (a ^ (p - 1) * product upto - product upto) with (product upto * (a ^ (p - 1) - 1)) in S by ring.
  apply Gauss in S; [|apply product_coprime; intros x X; now apply upto_in]. destruct S as [k S].
  replace (a ^ (p - 1)) with (1 + k * p) by lia. rewrite Z.mod_add by lia. apply Z.mod_small. lia.
Qed.
End Fermat.

(** ** Pocklington's criterion *)
(** [x mod n], from an approximation [m] of 2^k / n *)
Definition reduce (n m k x : Z) : Z :=
  let r := x - Z.shiftr (x * m) k * n in
  if (0 <=? r) && (r <? n) then r else
  let r := r - n in
  if (0 <=? r) && (r <? n) then r else x mod n.
Lemma in_range : forall n q x r, r = x - q * n -> (0 <=? r) && (r <? n) = true -> r = x mod n.
Proof.
  intros n q x r -> H. apply andb_prop in H. destruct H as [A B]. apply Z.leb_le in A. apply Z.ltb_lt in B.
  apply (Z.mod_unique x n q); [left; lia|ring].
Qed.
Lemma reduce_eq : forall n m k x, reduce n m k x = x mod n.
Proof.
  intros n m k x. unfold reduce. cbv zeta. set (q := Z.shiftr (x * m) k). clearbody q.
  destruct ((0 <=? x - q * n) && (x - q * n <? n)) eqn:E; [now apply (in_range n q)|]. clear E.
  destruct ((0 <=? x - q * n - n) && (x - q * n - n <? n)) eqn:E; [|reflexivity].
  apply (in_range n (q + 1)); [ring|exact E].
Qed.
Fixpoint power (n m k a : Z) (e : positive) : Z :=
  match e with
  | xH => reduce n m k a
  | xO e => let b := power n m k a e in reduce n m k (b * b)
  | xI e => let b := power n m k a e in reduce n m k (a * (b * b))
  end.
Definition powm (n a : Z) (e : positive) : Z :=
  let k := 2 * Z.log2 n + 40 in power n (2 ^ k / n) k a e.
Lemma powm_eq : forall n a e, 0 < n -> powm n a e = a ^ Zpos e mod n.
Proof.
  intros n a e N. unfold powm. cbv zeta. generalize (2 * Z.log2 n + 40). intro k. generalize (2 ^ k / n). intro m.
  induction e as [e IH|e IH|]; cbn [power]; cbv zeta; rewrite !reduce_eq.
  - rewrite IH. rewrite Pos2Z.inj_xI. replace (2 * Zpos e + 1) with (Zpos e + Zpos e + 1) by lia.
    rewrite !Z.pow_add_r, Z.pow_1_r by lia. rewrite <- Z.mul_mod_idemp_r by lia. rewrite <- Z.mul_mod by lia. rewrite Z.mul_mod_idemp_r by lia. f_equal. ring.
  - rewrite IH. rewrite Pos2Z.inj_xO. replace (2 * Zpos e) with (Zpos e + Zpos e) by lia.
    rewrite Z.pow_add_r by lia. rewrite <- Z.mul_mod by lia. reflexivity.
  - rewrite Z.pow_1_r. reflexivity.
Qed.

(** Every prime divisor [p] of [n] is 1 modulo [q]. *)
Lemma pocklington_one : forall n q a p, 1 < n -> prime q -> (q | n - 1) ->
  a ^ (n - 1) mod n = 1 -> Z.gcd (a ^ ((n - 1) / q) - 1) n = 1 ->
  prime p -> (p | n) -> (q | p - 1).
Proof.
  intros n q a p N Q [r R] A G P D.
  assert (Q1 : 1 < q) by apply Q. assert (P1 : 1 < p) by apply P.
  assert (r0 : 0 < r) by nia.
  rewrite R, Z.div_mul in G by lia.
  set (d := a ^ r) in *.
  assert (Dq : (p | d ^ q - 1)).
  { unfold d. rewrite <- Z.pow_mul_r by lia. rewrite <- R. apply Z.divide_trans with n; [exact D|].
    exists (a ^ (n - 1) / n). pose proof (Z.div_mod (a ^ (n - 1)) n ltac:(lia)). lia. }
  assert (Dd : ~ (p | d)).
  { intro K. assert ((p | d ^ q)) as K2.
    { replace q with (Z.succ (q - 1)) by lia. rewrite Z.pow_succ_r by lia. apply Z.divide_mul_l, K. }
    assert ((p | 1)) as K3 by (replace 1 with (d ^ q - (d ^ q - 1)) by ring; now apply Z.divide_sub_r).
    apply Z.divide_1_r in K3. clear - K3 P1. lia. }
  pose proof (fermat p P d Dd) as F.
  destruct (Zdivide_dec q (p - 1)) as [Y|NY]; [exact Y|exfalso].
  pose proof (prime_rel_prime q Q (p - 1) NY) as RP.
  apply rel_prime_bezout in RP. destruct RP as [u v UV].
  (* make the coefficients positive *)
  set (t := Z.abs u + Z.abs v).
  assert (U : exists u' v', 0 <= u' /\ 0 <= v' /\ u' * q = 1 + v' * (p - 1)).
  { exists (u + t * (p - 1)), (t * q - v).
    assert (T : 0 <= t) by (unfold t; lia).
    assert (t * 1 <= t * (p - 1)) by (apply Z.mul_le_mono_nonneg_l; lia).
    assert (t * 1 <= t * q) by (apply Z.mul_le_mono_nonneg_l; lia).
    repeat split; [unfold t in *; lia|unfold t in *; lia|].
    replace ((u + t * (p - 1)) * q) with (u * q + v * (p - 1) - v * (p - 1) + t * q * (p - 1)) by ring. rewrite UV. ring. }
  destruct U as (u' & v' & U0 & V0 & E).
  assert (L : d ^ (u' * q) mod p = 1).
  { rewrite Z.mul_comm, Z.pow_mul_r by lia. rewrite Zpower_mod by lia.
    replace (d ^ q mod p) with 1; [rewrite Z.pow_1_l by lia; apply Z.mod_small; lia|].
    destruct Dq as [k K]. replace (d ^ q) with (1 + k * p) by lia. rewrite Z.mod_add by lia. symmetry. apply Z.mod_small. lia. }
  assert (V1 : 0 <= v' * (p - 1)) by (apply Z.mul_nonneg_nonneg; lia).
  rewrite E in L. rewrite (Z.pow_add_r d 1 (v' * (p - 1)) ltac:(lia) V1) in L. rewrite Z.pow_1_r in L.
  assert (O : d ^ (v' * (p - 1)) mod p = 1).
  { rewrite (Z.mul_comm v'), Z.pow_mul_r by lia. rewrite Zpower_mod by lia. rewrite F, Z.pow_1_l by lia. apply Z.mod_small. lia. }
  rewrite <- Z.mul_mod_idemp_r in L by lia. rewrite O, Z.mul_1_r in L.
  assert (K : (p | d - 1)).
  { exists (d / p). pose proof (Z.div_mod d p ltac:(lia)). lia. }
  assert ((p | 1)) as K3 by (rewrite <- G; apply Z.gcd_greatest; assumption).
  apply Z.divide_1_r in K3. clear - K3 P1. lia.
Qed.

(** A number without a prime divisor up to its square root is prime. *)
Lemma least_divisor : forall k m n, (Z.to_nat m <= k)%nat -> 1 < m -> (m | n) -> exists p, prime p /\ (p | n) /\ p <= m.
Proof.
  induction k as [|k IH]; intros m n K M D; [lia|].
  destruct (prime_dec m) as [Y|NY]; [exists m; split; [exact Y|split; [exact D|lia]]|].
  destruct (not_prime_divide m M NY) as (x & X & XD).
  destruct (IH x n) as (p & Pp & PD & PL); [lia|lia|now apply Z.divide_trans with m|].
  exists p. split; [exact Pp|split; [exact PD|lia]].
Qed.
Lemma no_small_divisor : forall n s, 0 <= s -> 1 < n -> n < s * s -> (forall p, prime p -> (p | n) -> s <= p) -> prime n.
Proof.
  intros n s S0 N S H. destruct (prime_dec n) as [Y|NY]; [exact Y|exfalso].
  destruct (not_prime_divide n N NY) as (x & X & [y E]).
  assert (Y : 1 < y < n) by nia.
  assert (s <= x) as X2.
  { destruct (least_divisor (Z.to_nat x) x n) as (p & Pp & PD & PL); [lia|lia|now exists y|].
    specialize (H p Pp PD). lia. }
  assert (s <= y) as Y2.
  { destruct (least_divisor (Z.to_nat y) y n) as (p & Pp & PD & PL); [lia|lia|exists x; lia|].
    specialize (H p Pp PD). lia. }
  assert (s * s <= y * x) by (apply Z.mul_le_mono_nonneg; lia). lia.
Qed.

(** With one prime [q] above the square root, or two whose product is. *)
Definition witness (n q a : Z) : bool :=
  ((n - 1) mod q =? 0) && (powm n a (Z.to_pos (n - 1)) =? 1) && (Z.gcd (powm n a (Z.to_pos ((n - 1) / q)) - 1) n =? 1).
Lemma witness_ok : forall n q a p, 1 < n -> prime q -> witness n q a = true -> prime p -> (p | n) -> (q | p - 1).
Proof.
  intros n q a p N Q W P D. unfold witness in W. apply andb_prop in W. destruct W as [W W3]. apply andb_prop in W. destruct W as [W1 W2].
  apply Z.eqb_eq in W1, W2, W3. assert (Q1 : 1 < q) by apply Q.
  assert (QD : (q | n - 1)) by (apply Z.mod_divide; [lia|exact W1]).
  assert (q0 : 0 < (n - 1) / q).
  { destruct QD as [r R]. rewrite R, Z.div_mul by lia. nia. }
  rewrite powm_eq, Z2Pos.id in W2 by lia. rewrite powm_eq, Z2Pos.id in W3 by lia.
  apply (pocklington_one n q a p); try assumption.
  set (x := a ^ ((n - 1) / q)) in *. transitivity (Z.gcd (x mod n - 1) n); [|exact W3].
  rewrite (Z.gcd_comm (x mod n - 1)), (Z.gcd_comm (x - 1)).
  replace (x mod n - 1) with (x - 1 + (- (x / n)) * n); [symmetry; apply Z.gcd_add_mult_diag_r|].
  pose proof (Z.div_mod x n ltac:(lia)). lia.
Qed.
Lemma at_least : forall q p, prime p -> (q | p - 1) -> q + 1 <= p.
Proof. intros q p P D. assert (1 < p) by apply P. apply Z.divide_pos_le in D; lia. Qed.
Lemma certify1 : forall n q a, prime q -> (1 <? n) && (n <? (q + 1) * (q + 1)) && witness n q a = true -> prime n.
Proof.
  intros n q a Q H. apply andb_prop in H. destruct H as [H W]. apply andb_prop in H. destruct H as [N S].
  apply Z.ltb_lt in N, S. apply (no_small_divisor n (q + 1) ltac:(destruct Q; lia) N S). intros p P D.
  apply at_least; [exact P|]. now apply (witness_ok n q a p).
Qed.
Lemma certify2 : forall n q r a, prime q -> prime r ->
  (1 <? n) && (n <? (q * r + 1) * (q * r + 1)) && negb (q =? r) && witness n q a && witness n r a = true -> prime n.
Proof.
  intros n q r a Q R H. apply andb_prop in H. destruct H as [H W2]. apply andb_prop in H. destruct H as [H W].
  apply andb_prop in H. destruct H as [H NE]. apply andb_prop in H. destruct H as [N S].
  apply Z.ltb_lt in N, S. apply Bool.negb_true_iff, Z.eqb_neq in NE.
  apply (no_small_divisor n (q * r + 1) ltac:(destruct Q, R; apply Z.add_nonneg_nonneg; [apply Z.mul_nonneg_nonneg|]; lia) N S). intros p P D. apply at_least; [exact P|].
  destruct (witness_ok n q a p N Q W P D) as [k K]. pose proof (witness_ok n r a p N R W2 P D) as K2.
  rewrite K, Z.mul_comm in K2. apply Gauss in K2.
  - destruct K2 as [j J]. exists j. rewrite K, J. ring.
  - apply prime_rel_prime; [exact R|]. intro X. apply prime_div_prime in X; [congruence|exact R|exact Q].
Qed.

(** ** The chain *)
Definition no_divisor (n : Z) (k : nat) : bool := forallb (fun d => negb (n mod d =? 0)) (map Z.of_nat (seq 2 k)).
Lemma by_trial : forall n k, 1 < n -> n < (Z.of_nat k + 2) * (Z.of_nat k + 2) -> no_divisor n k = true -> prime n.
Proof.
  intros n k N S H. apply (no_small_divisor n (Z.of_nat k + 2) ltac:(lia) N S). intros p P D.
  destruct (Z_le_dec (Z.of_nat k + 2) p) as [L|L]; [exact L|exfalso].
  assert (1 < p) by apply P. unfold no_divisor in H. rewrite forallb_forall in H.
  specialize (H p). rewrite in_map_iff in H.
  assert (n mod p = 0) as E by (apply Z.mod_divide; [lia|exact D]).
  rewrite E in H. discriminate H. exists (Z.to_nat p). split; [lia|]. apply in_seq. lia.
Qed.
Lemma prime_37003 : prime 37003.
Proof. apply (by_trial _ 200); [reflexivity|reflexivity|vm_compute; reflexivity]. Qed.
Lemma prime_221101 : prime 221101.
Proof. apply (by_trial _ 500); [reflexivity|reflexivity|vm_compute; reflexivity]. Qed.
Lemma prime_c : prime 4024685905107147541.
Proof. apply (certify2 _ 221101 37003 2 prime_221101 prime_37003). vm_compute. reflexivity. Qed.
Lemma prime_b : prime 897064739519922787230182993783.
Proof. apply (certify1 _ _ 2 prime_c). vm_compute. reflexivity. Qed.
Lemma prime_1305 : prime (2 ^ 130 - 5).
Proof. apply (certify1 _ _ 2 prime_b). vm_compute. reflexivity. Qed.
