(** Proofs about the primitives: sizes, a faster X25519, weak public values. *)
From Coq Require Import Init.Byte.
From Coq Require Import Setoid Morphisms.
From Verif Require Import BaseFacts SpecHost Prim.

(** ** Sizes *)
Lemma le_bytes_length : forall k n, length (le_bytes k n) = k.
Proof. induction k; intro n; cbn [le_bytes length]; [reflexivity|now rewrite IHk]. Qed.
Lemma mac_len : forall k m, len (poly1305_mac k m) = 16.
Proof. intros. unfold poly1305_mac, len. rewrite le_bytes_length. reflexivity. Qed.

Lemma sha_round_length : forall st kw, length st = 8%nat -> length (sha_round st kw) = 8%nat.
Proof.
  intros st [k w] H. do 8 (destruct st as [|? st]; [discriminate|]). destruct st; [reflexivity|discriminate].
Qed.
Lemma sha_rounds_length : forall l st, length st = 8%nat -> length (fold_left sha_round l st) = 8%nat.
Proof. induction l as [|a l IH]; intros st H; cbn [fold_left]; [exact H|]. apply IH, sha_round_length, H. Qed.
Lemma sha_compress_length : forall h b, length h = 8%nat -> length (sha_compress h b) = 8%nat.
Proof.
  intros h b H. unfold sha_compress. rewrite map_length, combine_length, sha_rounds_length, H by exact H. reflexivity.
Qed.
Lemma sha_blocks_length : forall l h, length h = 8%nat -> length (fold_left sha_compress l h) = 8%nat.
Proof. induction l as [|b l IH]; intros h H; cbn [fold_left]; [exact H|]. apply IH, sha_compress_length, H. Qed.
Lemma words_length : forall l, length (flat_map be32 l) = (4 * length l)%nat.
Proof. induction l as [|a l IH]; [reflexivity|]. cbn [flat_map]. rewrite app_length, IH. cbn [length]. unfold be32. cbn [be_bytes app length]. lia. Qed.
Lemma sha_len : forall m, len (sha256_of m) = 32.
Proof.
  intro m. unfold sha256_of, len. rewrite words_length, sha_blocks_length by reflexivity. reflexivity.
Qed.
Lemma x25519_len : forall k u, len (x25519_of k u) = 32.
Proof. intros. unfold x25519_of, len. rewrite le_bytes_length. reflexivity. Qed.

(** ** A faster X25519 *)
Definition fred (x : Z) : Z :=
  let r x := (Z.land x (Z.ones 255) + 19 * Z.shiftr x 255)%Z in
  let y := r (r x) in
  if (0 <=? y)%Z && (y <? p25519)%Z then y
  else let y := (y - p25519)%Z in if (0 <=? y)%Z && (y <? p25519)%Z then y else (x mod p25519)%Z.
Lemma fold_once : forall x, exists q, (Z.land x (Z.ones 255) + 19 * Z.shiftr x 255 = x + q * p25519)%Z.
Proof.
  intro x. exists (- (x / 2 ^ 255))%Z. rewrite Z.land_ones, Z.shiftr_div_pow2 by lia.
  unfold p25519. pose proof (Z.div_mod x (2 ^ 255) ltac:(lia)) as E. 
  set (q := (x / 2 ^ 255)%Z) in *. set (r := (x mod 2 ^ 255)%Z) in *. clearbody q r. subst x. ring.
Qed.
Lemma fred_eq : forall x, fred x = (x mod p25519)%Z.
Proof.
  intro x. unfold fred. destruct (fold_once x) as [q1 E1]. rewrite E1. destruct (fold_once (x + q1 * p25519)) as [q2 E2]. rewrite E2.
  assert (P : (0 < p25519)%Z) by reflexivity. generalize dependent p25519. intros p _ _ P.
  match goal with |- (if ?a then _ else if ?b then _ else _) = _ => destruct a eqn:D; [|destruct b eqn:D2; [|reflexivity]] end.
  - apply (Z.mod_unique x p (- (q1 + q2))); [left; lia|]. ring.
  - apply (Z.mod_unique x p (- (q1 + q2 - 1))); [left; lia|]. ring.
Qed.
Definition fmulf (a b : Z) : Z := fred (a * b).
Definition faddf (a b : Z) : Z := fred (a + b).
Definition fsubf (a b : Z) : Z := fred (a - b).
Fixpoint fpowf (a : Z) (e : positive) : Z :=
  match e with
  | xH => a
  | xO e => fpowf (fmulf a a) e
  | xI e => fmulf a (fpowf (fmulf a a) e)
  end.
Definition ladder_stepf (x1 : Z) (l : Ladder) : Ladder :=
  let a := faddf (l_x2 l) (l_z2 l) in let aa := fmulf a a in
  let b := fsubf (l_x2 l) (l_z2 l) in let bb := fmulf b b in
  let e := fsubf aa bb in
  let c := faddf (l_x3 l) (l_z3 l) in
  let d := fsubf (l_x3 l) (l_z3 l) in
  let da := fmulf d a in let cb := fmulf c b in
  {| l_x3 := fmulf (faddf da cb) (faddf da cb);
     l_z3 := fmulf x1 (fmulf (fsubf da cb) (fsubf da cb));
     l_x2 := fmulf aa bb;
     l_z2 := fmulf e (faddf aa (fmulf a24 e)) |}.
Fixpoint ladderf (x1 : Z) (k : N) (t : nat) (swap : bool) (l : Ladder) : Ladder :=
  match t with
  | O => cswap swap l
  | S t =>
    let k_t := N.testbit k (N.of_nat t) in
    ladderf x1 k t k_t (ladder_stepf x1 (cswap (xorb swap k_t) l))
  end.
Definition x25519_fast (k u : bytes) : bytes :=
  let x1 := decode_u u in
  let l := ladderf x1 (decode_scalar k) 255 false {| l_x2 := 1; l_z2 := 0; l_x3 := x1; l_z3 := 1 |} in
  le_bytes 32 (Z.to_N (fmulf (l_x2 l) (fpowf (l_z2 l) (Z.to_pos (p25519 - 2))))).
Lemma fpowf_eq : forall e a, fpowf a e = fpow a e.
Proof.
  induction e; intro a; cbn [fpowf fpow]; unfold fmulf, fmul in *; rewrite ?fred_eq, ?IHe; reflexivity.
Qed.
Lemma stepf_eq : forall x1 l, ladder_stepf x1 l = ladder_step x1 l.
Proof.
  intros. unfold ladder_stepf, ladder_step, fmulf, faddf, fsubf, fmul, fadd, fsub. cbv zeta.
  rewrite !fred_eq. reflexivity.
Qed.
Lemma ladderf_eq : forall t x1 k swap l, ladderf x1 k t swap l = ladder x1 k t swap l.
Proof. induction t; intros; cbn [ladderf ladder]; [reflexivity|]. rewrite stepf_eq. apply IHt. Qed.
Lemma x25519_fast_eq : forall k u, x25519_fast k u = x25519_of k u.
Proof.
  intros. unfold x25519_fast, x25519_of, finv. cbv zeta. rewrite ladderf_eq, fpowf_eq. unfold fmulf, fmul. rewrite fred_eq. reflexivity.
Qed.

(** ** Weak public values *)
Definition cg (a b : Z) : Prop := exists q, (a = b + q * p25519)%Z.
Lemma cg_mod : forall a, cg (a mod p25519) a.
Proof. intro a. exists (- (a / p25519))%Z. pose proof (Z.div_mod a p25519 ltac:(discriminate)). lia. Qed.
Lemma cg_refl : forall a, cg a a.
Proof. intro. exists 0%Z. lia. Qed.
Lemma cg_sym : forall a b, cg a b -> cg b a.
Proof. intros a b [q ->]. exists (- q)%Z. ring. Qed.
Lemma cg_trans : forall a b c, cg a b -> cg b c -> cg a c.
Proof. intros a b c [q ->] [r ->]. exists (q + r)%Z. ring. Qed.
Lemma cg_add : forall a b c d, cg a b -> cg c d -> cg (a + c) (b + d).
Proof. intros a b c d [q ->] [r ->]. exists (q + r)%Z. ring. Qed.
Lemma cg_sub : forall a b c d, cg a b -> cg c d -> cg (a - c) (b - d).
Proof. intros a b c d [q ->] [r ->]. exists (q - r)%Z. ring. Qed.
Lemma cg_mul : forall a b c d, cg a b -> cg c d -> cg (a * c) (b * d).
Proof. intros a b c d [q ->] [r ->]. exists (b * r + q * d + q * r * p25519)%Z. ring. Qed.
Lemma fadd_cg : forall a b c d, cg a b -> cg c d -> cg (fadd a c) (b + d).
Proof. intros. eapply cg_trans; [apply cg_mod|]. now apply cg_add. Qed.
Lemma fsub_cg : forall a b c d, cg a b -> cg c d -> cg (fsub a c) (b - d).
Proof. intros. eapply cg_trans; [apply cg_mod|]. now apply cg_sub. Qed.
Lemma fmul_cg : forall a b c d, cg a b -> cg c d -> cg (fmul a c) (b * d).
Proof. intros. eapply cg_trans; [apply cg_mod|]. now apply cg_mul. Qed.

(** What a step computes, as polynomials. *)
Local Open Scope Z_scope.
Lemma step_x2 : forall x1 l, cg (l_x2 (ladder_step x1 l)) ((l_x2 l * l_x2 l - l_z2 l * l_z2 l) * (l_x2 l * l_x2 l - l_z2 l * l_z2 l)).
Proof.
  intros. cbn [ladder_step l_x2].
  match goal with |- cg _ ?r => replace r with (((l_x2 l + l_z2 l) * (l_x2 l + l_z2 l)) * ((l_x2 l - l_z2 l) * (l_x2 l - l_z2 l))) by ring end.
  repeat (apply fmul_cg || apply fsub_cg || apply fadd_cg || apply cg_refl).
Qed.
Lemma step_z2 : forall x1 l, cg (l_z2 (ladder_step x1 l))
  (4 * (l_x2 l * l_z2 l) * (l_x2 l * l_x2 l + 486662 * (l_x2 l * l_z2 l) + l_z2 l * l_z2 l)).
Proof.
  intros. cbn [ladder_step l_z2].
  match goal with |- cg _ ?r => replace r with
    (((l_x2 l + l_z2 l) * (l_x2 l + l_z2 l) - (l_x2 l - l_z2 l) * (l_x2 l - l_z2 l)) *
     ((l_x2 l + l_z2 l) * (l_x2 l + l_z2 l) + a24 * ((l_x2 l + l_z2 l) * (l_x2 l + l_z2 l) - (l_x2 l - l_z2 l) * (l_x2 l - l_z2 l))))
    by (unfold a24; ring) end.
  repeat (apply fmul_cg || apply fsub_cg || apply fadd_cg || apply cg_refl).
Qed.
Lemma step_x3 : forall x1 l, cg (l_x3 (ladder_step x1 l))
  (4 * ((l_x2 l * l_x3 l - l_z2 l * l_z3 l) * (l_x2 l * l_x3 l - l_z2 l * l_z3 l))).
Proof.
  intros. cbn [ladder_step l_x3].
  match goal with |- cg _ ?r => replace r with
    (((l_x3 l - l_z3 l) * (l_x2 l + l_z2 l) + (l_x3 l + l_z3 l) * (l_x2 l - l_z2 l)) *
     ((l_x3 l - l_z3 l) * (l_x2 l + l_z2 l) + (l_x3 l + l_z3 l) * (l_x2 l - l_z2 l))) by ring end.
  repeat (apply fmul_cg || apply fsub_cg || apply fadd_cg || apply cg_refl).
Qed.
Lemma step_z3 : forall x1 l, cg (l_z3 (ladder_step x1 l))
  (4 * (x1 * ((l_x3 l * l_z2 l - l_z3 l * l_x2 l) * (l_x3 l * l_z2 l - l_z3 l * l_x2 l)))).
Proof.
  intros. cbn [ladder_step l_z3].
  match goal with |- cg _ ?r => replace r with
    (x1 * (((l_x3 l - l_z3 l) * (l_x2 l + l_z2 l) - (l_x3 l + l_z3 l) * (l_x2 l - l_z2 l)) *
     ((l_x3 l - l_z3 l) * (l_x2 l + l_z2 l) - (l_x3 l + l_z3 l) * (l_x2 l - l_z2 l)))) by ring end.
  repeat (apply fmul_cg || apply fsub_cg || apply fadd_cg || apply cg_refl).
Qed.

Lemma cg0 : forall a b, cg (a - b) 0 <-> cg a b.
Proof. intros a b. split; intros [q E]; exists q; lia. Qed.
Lemma lin1 : forall k a x y, cg a 0 -> x - y = k * a -> cg x y.
Proof. intros k a x y [q ->] E. exists (k * q). assert (x = y + k * (0 + q * p25519)) by (rewrite <- E; ring). subst x. ring. Qed.
Lemma lin2 : forall k a m b x y, cg a 0 -> cg b 0 -> x - y = k * a + m * b -> cg x y.
Proof.
  intros k a m b x y [q ->] [r ->] E. exists (k * q + m * r).
  assert (x = y + (k * (0 + q * p25519) + m * (0 + r * p25519))) by (rewrite <- E; ring). subst x. ring.
Qed.

(** (x : z) is the point at infinity or the point of order two. *)
Definition two_torsion (x z : Z) : Prop := cg (x * z) 0.

(** *** u = 0 *)
Definition flat (l : Ladder) : Prop := two_torsion (l_x2 l) (l_z2 l) /\ two_torsion (l_x3 l) (l_z3 l).
Lemma flat_swap : forall b l, flat l -> flat (cswap b l).
Proof. intros [] l [A C]; split; assumption. Qed.
Lemma double_flat : forall x1 l, two_torsion (l_x2 l) (l_z2 l) -> cg (l_z2 (ladder_step x1 l)) 0.
Proof.
  intros x1 l A. eapply cg_trans; [apply step_z2|].
  eapply (lin1 (4 * (l_x2 l * l_x2 l + 486662 * (l_x2 l * l_z2 l) + l_z2 l * l_z2 l))); [exact A|]. ring.
Qed.
Lemma to_torsion : forall x z, cg z 0 -> two_torsion x z.
Proof. intros x z H. unfold two_torsion. eapply (lin1 x); [exact H|]. ring. Qed.
Lemma to_torsion_x : forall x z, cg x 0 -> two_torsion x z.
Proof. intros x z H. unfold two_torsion. eapply (lin1 z); [exact H|]. ring. Qed.
Lemma step_flat : forall x1 l, cg x1 0 -> flat l -> flat (ladder_step x1 l) /\ cg (l_z2 (ladder_step x1 l)) 0.
Proof.
  intros x1 l X [A C]. pose proof (double_flat x1 l A) as D. split; [|exact D]. split.
  - apply to_torsion, D.
  - apply to_torsion. eapply cg_trans; [apply step_z3|].
    eapply (lin1 (4 * ((l_x3 l * l_z2 l - l_z3 l * l_x2 l) * (l_x3 l * l_z2 l - l_z3 l * l_x2 l)))); [exact X|]. ring.
Qed.


#[local] Instance cg_equiv : Equivalence cg.
Proof. split; [exact cg_refl|exact cg_sym|exact cg_trans]. Qed.
#[local] Instance cg_add_p : Proper (cg ==> cg ==> cg) Z.add.
Proof. intros a b H c d G. now apply cg_add. Qed.
#[local] Instance cg_sub_p : Proper (cg ==> cg ==> cg) Z.sub.
Proof. intros a b H c d G. now apply cg_sub. Qed.
#[local] Instance cg_mul_p : Proper (cg ==> cg ==> cg) Z.mul.
Proof. intros a b H c d G. now apply cg_mul. Qed.
Lemma cg_eq : forall a b, a = b -> cg a b.
Proof. intros a b ->. apply cg_refl. Qed.
Ltac by_ring := apply cg_eq; ring.

(** *** u = 1, u = -1 *)
Definition on (w x z : Z) : Prop := cg x (w * z).
Definition four (w : Z) (l : Ladder) : Prop := two_torsion (l_x2 l) (l_z2 l) /\ on w (l_x3 l) (l_z3 l).
Lemma step_four : forall w x1 l b, cg x1 w -> w = 1 \/ w = -1 -> four w l -> four w (ladder_step x1 (cswap b l)).
Proof.
  intros w x1 l b X W [A C]. unfold four, on in *. destruct b; split.
  - apply to_torsion_x. rewrite step_x2. cbn [cswap l_x2 l_z2]. rewrite C. destruct W as [-> | ->]; by_ring.
  - rewrite step_x3, step_z3. cbn [cswap l_x2 l_z2 l_x3 l_z3]. rewrite C, X. destruct W as [-> | ->]; by_ring.
  - apply to_torsion, double_flat. exact A.
  - rewrite step_x3, step_z3. cbn [cswap l_x2 l_z2 l_x3 l_z3]. rewrite C, X. destruct W as [-> | ->]; by_ring.
Qed.

(** *** u of order eight: the double is (1 : 1) *)
Definition order8 (u : Z) : Prop := cg ((u * u - 1) * (u * u - 1)) (4 * u * (u * u + 486662 * u + 1)).
Definition near (u x z : Z) : Prop := cg x (u * z).
Definition far (u x z : Z) : Prop := cg (u * x) z.
Definition eight (u : Z) (l : Ladder) : Prop :=
  cg (l_z2 l) 0 /\ near u (l_x3 l) (l_z3 l) \/
  cg (l_x2 l) (l_z2 l) /\ (near u (l_x3 l) (l_z3 l) \/ far u (l_x3 l) (l_z3 l)) \/
  cg (l_x2 l) 0 /\ far u (l_x3 l) (l_z3 l).
Ltac sums := rewrite step_x3, step_z3; cbn [cswap l_x2 l_z2 l_x3 l_z3].
Lemma double_near : forall u x1 l, order8 u -> near u (l_x2 l) (l_z2 l) -> cg (l_x2 (ladder_step x1 l)) (l_z2 (ladder_step x1 l)).
Proof.
  intros u x1 l O C. rewrite step_x2, step_z2. unfold near in C. rewrite C. set (z := l_z2 l).
  transitivity (z * z * (z * z) * ((u * u - 1) * (u * u - 1))); [by_ring|]. unfold order8 in O. rewrite O. by_ring.
Qed.
Lemma double_far : forall u x1 l, order8 u -> far u (l_x2 l) (l_z2 l) -> cg (l_x2 (ladder_step x1 l)) (l_z2 (ladder_step x1 l)).
Proof.
  intros u x1 l O C. rewrite step_x2, step_z2. unfold far in C. rewrite <- C. set (z := l_x2 l).
  transitivity (z * z * (z * z) * ((u * u - 1) * (u * u - 1))); [by_ring|]. unfold order8 in O. rewrite O. by_ring.
Qed.
Lemma step_eight : forall u x1 l b, cg x1 u -> order8 u -> eight u l -> eight u (ladder_step x1 (cswap b l)).
Proof.
  intros u x1 l b X O H. unfold eight. destruct H as [[A C]|[[A [C|C]]|[A C]]]; destruct b.
  - right. left. split; [apply (double_near u); assumption|]. left. unfold near in *. sums. rewrite X, C, A. by_ring.
  - left. split; [apply double_flat, to_torsion, A|]. unfold near in *. sums. rewrite X, C, A. by_ring.
  - right. left. split; [apply (double_near u); assumption|]. right. unfold near, far in *. sums. rewrite X, C, A. by_ring.
  - right. right. split; [rewrite step_x2; cbn [cswap l_x2 l_z2]; rewrite A; by_ring|]. unfold near, far in *. sums. rewrite X, C, A. by_ring.
  - right. left. split; [apply (double_far u); assumption|]. right. unfold near, far in *. sums. rewrite X, A, <- C. by_ring.
  - right. right. split; [rewrite step_x2; cbn [cswap l_x2 l_z2]; rewrite A; by_ring|]. unfold near, far in *. sums. rewrite X, A, <- C. by_ring.
  - right. left. split; [apply (double_far u); assumption|]. left. unfold near, far in *. sums. rewrite X, A, <- C. by_ring.
  - left. split; [apply double_flat, to_torsion_x, A|]. unfold near, far in *. sums. rewrite X, A, <- C. by_ring.
Qed.

(** *** The whole ladder *)
Lemma ladder_ends : forall (Inv : Ladder -> Prop) x1 k,
  (forall b l, Inv l -> Inv (ladder_step x1 (cswap b l))) ->
  (forall l, Inv l -> cg (l_z2 (ladder_step x1 (ladder_step x1 l))) 0) ->
  N.testbit k 0 = false -> N.testbit k 1 = false -> N.testbit k 2 = false ->
  forall t swap l, Inv l -> cg (l_z2 (ladder x1 k (3 + t) swap l)) 0.
Proof.
  intros Inv x1 k S E B0 B1 B2. induction t as [|t IH]; intros swap l H.
  - cbn [Nat.add ladder]. change (N.of_nat 0) with 0%N. change (N.of_nat 1) with 1%N. change (N.of_nat 2) with 2%N.
    rewrite B0, B1, B2. cbn [xorb]. apply E, S, H.
  - cbn [Nat.add ladder]. apply IH, S, H.
Qed.
Lemma scalar_bits : forall k i, (i < 3)%N -> N.testbit (decode_scalar k) i = false.
Proof.
  intros k i H. unfold decode_scalar. set (m := (le_value k mod 2 ^ 255 mod 2 ^ 254 / 8)%N). clearbody m.
  replace (2 ^ 254 + 8 * m)%N with ((2 ^ 251 + m) * 2 ^ 3)%N by (change (2 ^ 254)%N with (8 * 2 ^ 251)%N; lia).
  apply N.mul_pow2_bits_low, H.
Qed.
Lemma pow_zero : forall e a, cg a 0 -> cg (fpow a e) 0.
Proof.
  induction e; intros a H; cbn [fpow]; [| |exact H].
  - eapply cg_trans; [apply fmul_cg; [exact H|apply cg_refl]|]. by_ring.
  - apply IHe. eapply cg_trans; [apply fmul_cg; [exact H|apply cg_refl]|]. by_ring.
Qed.
Lemma infinity_is_zero : forall x z, cg z 0 -> fmul x (finv z) = 0.
Proof.
  intros x z H. unfold fmul, finv. pose proof (pow_zero (Z.to_pos (p25519 - 2)) z H) as [q ->].
  replace (x * (0 + q * p25519)) with (x * q * p25519) by ring. apply Z.mod_mul. discriminate.
Qed.
Lemma x25519_infinity : forall (Inv : Ladder -> Prop) k u,
  (forall b l, Inv l -> Inv (ladder_step (decode_u u) (cswap b l))) ->
  (forall l, Inv l -> cg (l_z2 (ladder_step (decode_u u) (ladder_step (decode_u u) l))) 0) ->
  Inv {| l_x2 := 1; l_z2 := 0; l_x3 := decode_u u; l_z3 := 1 |} ->
  x25519_of k u = repeat x00 32.
Proof.
  intros Inv k u S E I. unfold x25519_of. cbv zeta. rewrite infinity_is_zero; [reflexivity|].
  change 255%nat with (3 + 252)%nat. apply (ladder_ends Inv); try assumption; apply scalar_bits; lia.
Qed.
Lemma weak_zero : forall k u, decode_u u = 0 -> x25519_of k u = repeat x00 32.
Proof.
  intros k u H. apply (x25519_infinity flat); rewrite H.
  - intros b l F. apply step_flat; [apply cg_refl|apply flat_swap, F].
  - intros l F. apply step_flat; [apply cg_refl|]. apply step_flat; [apply cg_refl|exact F].
  - split; unfold two_torsion; cbn [l_x2 l_z2 l_x3 l_z3]; by_ring.
Qed.
Lemma weak_four : forall w k u, w = 1 \/ w = -1 -> cg (decode_u u) w -> x25519_of k u = repeat x00 32.
Proof.
  intros w k u W H. apply (x25519_infinity (four w)).
  - intros b l F. now apply step_four.
  - intros l [F _]. apply double_flat, to_torsion, double_flat, F.
  - split; cbn [l_x2 l_z2 l_x3 l_z3]; [unfold two_torsion; by_ring|]. unfold on. rewrite H. by_ring.
Qed.
Lemma weak_eight : forall v k u, order8 v -> cg (decode_u u) v -> x25519_of k u = repeat x00 32.
Proof.
  intros v k u O H. apply (x25519_infinity (eight v)).
  - intros b l F. now apply step_eight.
  - intros l F. apply double_flat. destruct F as [[A _]|[[A _]|[A _]]].
    + apply to_torsion, double_flat, to_torsion, A.
    + apply to_torsion_x. rewrite step_x2, A. by_ring.
    + apply to_torsion, double_flat, to_torsion_x, A.
  - left. split; cbn [l_x2 l_z2 l_x3 l_z3]; [apply cg_refl|]. unfold near. rewrite H. by_ring.
Qed.
Lemma order8_a : order8 325606250916557431795983626356110631294008115727848805560023387167927233504.
Proof.
  exists 194143136140007337336210960475718465120191904149403582097435810204941944026818958291345282925425589821289200390486022450716163361771631655792317059696710811941387784500963434756838184763254521072418627561984446233552728165.
  vm_compute. reflexivity.
Qed.
Lemma order8_b : order8 39382357235489614581723060781553021112529911719440698176882885853963445705823.
Proof.
  exists 41548747367406182312404800849351752616225932164798928838489469725865035515839778454646665958616490182219975846929620347956886526247691514429738533846541832218745291129479332650020535146829345192090363762946541073983924421938395568.
  vm_compute. reflexivity.
Qed.
