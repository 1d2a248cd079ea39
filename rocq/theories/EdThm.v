(** Edwards curves x^2 + y^2 = 1 + d x^2 y^2 over a field where d is no square
    are groups, and the Montgomery ladder multiplies on them. *)
From Coq Require Import Field NArith Lia.

Section Edwards.
Variable F : Type.
Variables (zero one : F) (add mul sub : F -> F -> F) (opp : F -> F) (div : F -> F -> F) (inv : F -> F).
Notation "0" := zero. Notation "1" := one.
Infix "+" := add. Infix "*" := mul. Infix "-" := sub. Infix "/" := div.
Notation "- x" := (opp x).
Hypothesis FT : field_theory 0 1 add mul sub opp div inv eq.
Add Field field_of_section : FT.
Hypothesis dec : forall a b : F, {a = b} + {a <> b}.
Variable d : F.
Hypothesis two : 1 + 1 <> 0.
Hypothesis d_nonsquare : forall s, s * s <> d.

Lemma mul_zero : forall a b, a * b = 0 -> a = 0 \/ b = 0.
Proof.
  intros a b H. destruct (dec a 0) as [e|e]; [now left|]. right.
  replace b with ((a * b) / a) by (field; exact e). rewrite H. field. exact e.
Qed.
Lemma mul_nonzero : forall a b, a <> 0 -> b <> 0 -> a * b <> 0.
Proof. intros a b A B H. destruct (mul_zero _ _ H); auto. Qed.
Lemma sub_zero : forall a b, a - b = 0 -> a = b.
Proof. intros a b H. replace a with ((a - b) + b) by ring. rewrite H. ring. Qed.
Lemma one_zero : 1 <> 0.
Proof. exact (F_1_neq_0 FT). Qed.
Lemma d_nonzero : d <> 0.
Proof. intros E. apply (d_nonsquare 0). rewrite E. ring. Qed.
(** d z^2 is a square only if both are zero. *)
Lemma no_root : forall w z, w * w = d * (z * z) -> z = 0.
Proof.
  intros w z H. destruct (dec z 0) as [e|e]; [exact e|]. exfalso.
  apply (d_nonsquare (w / z)).
  replace (w / z * (w / z)) with ((w * w) / (z * z)) by (field; exact e). rewrite H. field. exact e.
Qed.

Definition on_curve (x y : F) : Prop := x * x + y * y = 1 + d * (x * x) * (y * y).

(** Bernstein and Lange: the denominators of the sum are not zero. *)
Lemma complete_sq : forall x1 y1 x2 y2, on_curve x1 y1 -> on_curve x2 y2 ->
  forall e, e = d * x1 * x2 * y1 * y2 -> e * e <> 1.
Proof.
  intros x1 y1 x2 y2 C1 C2 e E S. unfold on_curve in *.
  assert (K1 : (x1 + e * y1) * (x1 + e * y1) = d * ((x1 * y1 * (x2 + y2)) * (x1 * y1 * (x2 + y2)))).
  { replace ((x1 + e * y1) * (x1 + e * y1)) with (x1 * x1 + (e * e) * (y1 * y1) + (1 + 1) * (x1 * y1) * e) by ring.
    replace (d * (x1 * y1 * (x2 + y2) * (x1 * y1 * (x2 + y2)))) with
      (d * (x1 * x1) * (y1 * y1) * (x2 * x2 + y2 * y2) + (1 + 1) * (x1 * y1) * (d * x1 * x2 * y1 * y2)) by ring.
    rewrite C2, <- E, S.
    replace (d * (x1 * x1) * (y1 * y1) * (1 + d * (x2 * x2) * (y2 * y2))) with
      (d * (x1 * x1) * (y1 * y1) + (d * x1 * x2 * y1 * y2) * (d * x1 * x2 * y1 * y2)) by ring.
    rewrite <- E, S. replace (d * (x1 * x1) * (y1 * y1) + 1) with (x1 * x1 + y1 * y1) by (rewrite C1; ring). ring. }
  assert (K2 : (x1 - e * y1) * (x1 - e * y1) = d * ((x1 * y1 * (x2 - y2)) * (x1 * y1 * (x2 - y2)))).
  { replace ((x1 - e * y1) * (x1 - e * y1)) with (x1 * x1 + (e * e) * (y1 * y1) - (1 + 1) * (x1 * y1) * e) by ring.
    replace (d * (x1 * y1 * (x2 - y2) * (x1 * y1 * (x2 - y2)))) with
      (d * (x1 * x1) * (y1 * y1) * (x2 * x2 + y2 * y2) - (1 + 1) * (x1 * y1) * (d * x1 * x2 * y1 * y2)) by ring.
    rewrite C2, <- E, S.
    replace (d * (x1 * x1) * (y1 * y1) * (1 + d * (x2 * x2) * (y2 * y2))) with
      (d * (x1 * x1) * (y1 * y1) + (d * x1 * x2 * y1 * y2) * (d * x1 * x2 * y1 * y2)) by ring.
    rewrite <- E, S. replace (d * (x1 * x1) * (y1 * y1) + 1) with (x1 * x1 + y1 * y1) by (rewrite C1; ring). ring. }
  apply no_root in K1. apply no_root in K2.
  assert (NZ : x1 * y1 <> 0).
  { intros Z. apply one_zero. rewrite <- S, E.
    replace (d * x1 * x2 * y1 * y2) with (d * x2 * y2 * (x1 * y1)) by ring. rewrite Z. ring. }
  destruct (mul_zero _ _ K1) as [|A]; [auto|]. destruct (mul_zero _ _ K2) as [|B]; [auto|].
  apply sub_zero in B. subst y2.
  destruct (mul_zero (1 + 1) x2) as [|Z]; [rewrite <- A; ring|auto|]. subst x2.
  apply one_zero. transitivity (1 + d * (0 * 0) * (0 * 0)); [ring|]. rewrite <- C2. ring.
Qed.
Lemma complete_plus : forall x1 y1 x2 y2, on_curve x1 y1 -> on_curve x2 y2 -> 1 + d * x1 * x2 * y1 * y2 <> 0.
Proof.
  intros x1 y1 x2 y2 C1 C2 E. apply (complete_sq _ _ _ _ C1 C2 _ eq_refl). apply sub_zero.
  transitivity ((1 + d * x1 * x2 * y1 * y2) * (d * x1 * x2 * y1 * y2 - 1)); [ring|rewrite E; ring].
Qed.
Lemma complete_minus : forall x1 y1 x2 y2, on_curve x1 y1 -> on_curve x2 y2 -> 1 - d * x1 * x2 * y1 * y2 <> 0.
Proof.
  intros x1 y1 x2 y2 C1 C2 E. apply (complete_sq _ _ _ _ C1 C2 _ eq_refl). apply sub_zero.
  transitivity ((1 - d * x1 * x2 * y1 * y2) * (0 - d * x1 * x2 * y1 * y2 - 1)); [ring|rewrite E; ring].
Qed.

(** * The group *)
Definition on (P : F * F) : Prop := on_curve (fst P) (snd P).
Definition origin : F * F := (0, 1).
Definition neg (P : F * F) : F * F := (- fst P, snd P).
Definition plus (P Q : F * F) : F * F :=
  let '(x1, y1) := P in let '(x2, y2) := Q in
  ((x1 * y2 + x2 * y1) / (1 + d * x1 * x2 * y1 * y2), (y1 * y2 - x1 * x2) / (1 - d * x1 * x2 * y1 * y2)).

(** What vanishes on the curve. *)
Definition curve (x y : F) : F := d * (x * x) * (y * y) - (x * x + y * y - 1).
Lemma curve_zero : forall x y, on_curve x y -> curve x y = 0.
Proof. intros x y H. unfold curve. rewrite H. ring. Qed.
Lemma curve_on : forall x y, curve x y = 0 -> on_curve x y.
Proof. intros x y H. unfold on_curve. apply sub_zero. transitivity (0 - curve x y); [unfold curve; ring|rewrite H; ring]. Qed.

Lemma on_origin : on origin.
Proof. unfold on, on_curve; cbn. ring. Qed.
Lemma on_neg : forall P, on P -> on (neg P).
Proof.
  intros [x y] H. unfold on, on_curve in *; cbn in *.
  transitivity (x * x + y * y); [ring|]. rewrite H. ring.
Qed.
Lemma plus_comm : forall P Q, plus P Q = plus Q P.
Proof.
  intros [x1 y1] [x2 y2]. unfold plus.
  replace (d * x2 * x1 * y2 * y1) with (d * x1 * x2 * y1 * y2) by ring.
  replace (x2 * y1 + x1 * y2) with (x1 * y2 + x2 * y1) by ring.
  replace (y2 * y1 - x2 * x1) with (y1 * y2 - x1 * x2) by ring. reflexivity.
Qed.
Lemma plus_origin : forall P, plus origin P = P.
Proof.
  intros [x y]. unfold plus, origin.
  f_equal; field; repeat split; intros E; apply one_zero; rewrite <- E; ring.
Qed.
Lemma plus_neg : forall P, on P -> plus P (neg P) = origin.
Proof.
  intros [x y] H. unfold plus, neg, origin, on in *; cbn in *.
  pose proof (complete_plus _ _ _ _ H (on_neg (x, y) H)) as A.
  pose proof (complete_minus _ _ _ _ H (on_neg (x, y) H)) as D. cbn in A, D.
  f_equal.
  - field. exact A.
  - transitivity ((1 - d * x * - x * y * y) / (1 - d * x * - x * y * y)); [|field; exact D].
    f_equal. transitivity (x * x + y * y); [ring|]. rewrite H. ring.
Qed.

Lemma closed_identity : forall x1 y1 x2 y2, let t := d * x1 * x2 * y1 * y2 in
  let nx := x1 * y2 + x2 * y1 in let ny := y1 * y2 - x1 * x2 in
  nx * nx * (1 - t) * (1 - t) + ny * ny * (1 + t) * (1 + t) - (1 - t * t) * (1 - t * t) - d * nx * nx * ny * ny =
  (0 - y2 * y2 * y2 * y2 - x2 * x2 * y2 * y2 - x2 * x2 * y2 * y2 - x2 * x2 * y2 * y2 - x2 * x2 * y2 * y2 + x2 * x2 * y2 * y2 * y2 * y2 + x2 * x2 * y2
    * y2 * y2 * y2 - x2 * x2 * x2 * x2 + x2 * x2 * x2 * x2 * y2 * y2 + x2 * x2 * x2 * x2 * y2 * y2 + d * x2 * x2 * y2 * y2 + d * x2 * x2 * y2 * y2 - d
    * x2 * x2 * x2 * x2 * y2 * y2 * y2 * y2 - d * x2 * x2 * x2 * x2 * y2 * y2 * y2 * y2 + d * y1 * y1 * x2 * x2 * y2 * y2 * y2 * y2 + d * y1 * y1 * x2
    * x2 * x2 * x2 * y2 * y2 + d * x1 * x1 * x2 * x2 * y2 * y2 * y2 * y2 + d * x1 * x1 * x2 * x2 * x2 * x2 * y2 * y2 + d * d * x2 * x2 * x2 * x2 * y2
    * y2 * y2 * y2 - d * d * y1 * y1 * x2 * x2 * x2 * x2 * y2 * y2 * y2 * y2 - d * d * x1 * x1 * x2 * x2 * x2 * x2 * y2 * y2 * y2 * y2 - d * d * d *
    x1 * x1 * y1 * y1 * x2 * x2 * x2 * x2 * y2 * y2 * y2 * y2) * curve x1 y1 +
  (0 - 1 - y2 * y2 - x2 * x2 + x2 * x2 * y2 * y2 + x2 * x2 * y2 * y2 + y1 * y1 * y2 * y2 + y1 * y1 * x2 * x2 - y1 * y1 * x2 * x2 * y2 * y2 - y1 * y1 *
    x2 * x2 * y2 * y2 + x1 * x1 * y2 * y2 + x1 * x1 * x2 * x2 - x1 * x1 * x2 * x2 * y2 * y2 - x1 * x1 * x2 * x2 * y2 * y2 - d * x2 * x2 * y2 * y2 + d
    * y1 * y1 * x2 * x2 * y2 * y2 + d * y1 * y1 * x2 * x2 * y2 * y2 - d * y1 * y1 * y1 * y1 * x2 * x2 * y2 * y2 + d * x1 * x1 * x2 * x2 * y2 * y2 + d
    * x1 * x1 * x2 * x2 * y2 * y2 - d * x1 * x1 * x1 * x1 * x2 * x2 * y2 * y2) * curve x2 y2.
Proof. intros. unfold t, nx, ny, curve. ring. Qed.
Lemma on_plus : forall P Q, on P -> on Q -> on (plus P Q).
Proof.
  intros [x1 y1] [x2 y2] H1 H2. unfold on, plus in *; cbn in *.
  pose proof (complete_plus _ _ _ _ H1 H2) as A. pose proof (complete_minus _ _ _ _ H1 H2) as D.
  pose proof (closed_identity x1 y1 x2 y2) as I. cbv zeta in I.
  rewrite (curve_zero _ _ H1), (curve_zero _ _ H2) in I.
  unfold on_curve. set (t := d * x1 * x2 * y1 * y2) in *. set (nx := x1 * y2 + x2 * y1) in *. set (ny := y1 * y2 - x1 * x2) in *.
  clearbody t nx ny. apply sub_zero.
  transitivity ((nx * nx * (1 - t) * (1 - t) + ny * ny * (1 + t) * (1 + t) - (1 - t * t) * (1 - t * t) - d * nx * nx * ny * ny) /
    ((1 + t) * (1 + t) * (1 - t) * (1 - t))); [field; split; assumption|].
  rewrite I. field. split; assumption.
Qed.

Lemma assoc_identity_x : forall x1 y1 x2 y2 x3 y3,
  let t12 := d * x1 * x2 * y1 * y2 in let t23 := d * x2 * x3 * y2 * y3 in
  let nx12 := x1 * y2 + x2 * y1 in let ny12 := y1 * y2 - x1 * x2 in
  let nx23 := x2 * y3 + x3 * y2 in let ny23 := y2 * y3 - x2 * x3 in
  (nx12 * (1 - t12) * y3 + x3 * ny12 * (1 + t12)) * ((1 - t23 * t23) + d * nx23 * ny23 * x1 * y1) -
  (x1 * ny23 * (1 + t23) + nx23 * (1 - t23) * y1) * ((1 - t12 * t12) + d * nx12 * ny12 * x3 * y3) =
  (0 + d * y1 * x2 * y2 * y2 * y2 * y2 * x3 * x3 * y3 + d * y1 * x2 * x2 * y2 * y2 * y2 * x3 - d * y1 * x2 * x2 * y2 * y2 * y2 * x3 * x3 * x3 + d * y1
    * x2 * x2 * x2 * y2 * y2 * y3 - d * y1 * x2 * x2 * x2 * y2 * y2 * y3 * y3 * y3 + d * y1 * x2 * x2 * x2 * x2 * y2 * x3 * y3 * y3 - d * x1 * x2 * y2
    * y2 * y2 * y2 * x3 * y3 * y3 + d * x1 * x2 * x2 * y2 * y2 * y2 * y3 - d * x1 * x2 * x2 * y2 * y2 * y2 * y3 * y3 * y3 - d * x1 * x2 * x2 * x2 * y2
    * y2 * x3 + d * x1 * x2 * x2 * x2 * y2 * y2 * x3 * x3 * x3 + d * x1 * x2 * x2 * x2 * x2 * y2 * x3 * x3 * y3 - d * d * y1 * x2 * x2 * x2 * y2 * y2
    * y2 * y2 * x3 * x3 * y3 - d * d * y1 * x2 * x2 * x2 * x2 * y2 * y2 * y2 * x3 * y3 * y3 + d * d * x1 * x2 * x2 * x2 * y2 * y2 * y2 * y2 * x3 * y3
    * y3 - d * d * x1 * x2 * x2 * x2 * x2 * y2 * y2 * y2 * x3 * x3 * y3) * curve x1 y1 +
  (0 + d * y1 * x2 * y2 * y2 * x3 * x3 * y3 + d * y1 * x2 * x2 * y2 * x3 * y3 * y3 - d * y1 * y1 * y1 * x2 * y2 * y2 * x3 * x3 * y3 - d * y1 * y1 * y1
    * x2 * x2 * y2 * x3 * y3 * y3 - d * x1 * x2 * y2 * y2 * x3 * y3 * y3 + d * x1 * x2 * x2 * y2 * x3 * x3 * y3 + d * x1 * y1 * y1 * x2 * y2 * y2 * x3
    - d * x1 * y1 * y1 * x2 * y2 * y2 * x3 * x3 * x3 - d * x1 * y1 * y1 * x2 * x2 * y2 * y3 + d * x1 * y1 * y1 * x2 * x2 * y2 * y3 * y3 * y3 - d * x1
    * x1 * y1 * x2 * y2 * y2 * y3 + d * x1 * x1 * y1 * x2 * y2 * y2 * y3 * y3 * y3 - d * x1 * x1 * y1 * x2 * x2 * y2 * x3 + d * x1 * x1 * y1 * x2 * x2
    * y2 * x3 * x3 * x3 + d * x1 * x1 * x1 * x2 * y2 * y2 * x3 * y3 * y3 - d * x1 * x1 * x1 * x2 * x2 * y2 * x3 * x3 * y3) * curve x2 y2 +
  (0 - d * y1 * x2 * x2 * y2 * y2 * y2 * x3 - d * y1 * x2 * x2 * x2 * y2 * y2 * y3 + d * y1 * y1 * y1 * x2 * x2 * y2 * y2 * y2 * x3 + d * y1 * y1 * y1
    * x2 * x2 * x2 * y2 * y2 * y3 - d * x1 * x2 * x2 * y2 * y2 * y2 * y3 + d * x1 * x2 * x2 * x2 * y2 * y2 * x3 + d * x1 * y1 * y1 * x2 * y2 * y2 * y2
    * y2 * x3 - d * x1 * y1 * y1 * x2 * x2 * x2 * x2 * y2 * y3 - d * x1 * x1 * y1 * x2 * y2 * y2 * y2 * y2 * y3 - d * x1 * x1 * y1 * x2 * x2 * x2 * x2
    * y2 * x3 + d * x1 * x1 * x1 * x2 * x2 * y2 * y2 * y2 * y3 - d * x1 * x1 * x1 * x2 * x2 * x2 * y2 * y2 * x3 - d * d * x1 * y1 * y1 * x2 * x2 * x2
    * y2 * y2 * y2 * y2 * x3 + d * d * x1 * y1 * y1 * x2 * x2 * x2 * x2 * y2 * y2 * y2 * y3 + d * d * x1 * x1 * y1 * x2 * x2 * x2 * y2 * y2 * y2 * y2
    * y3 + d * d * x1 * x1 * y1 * x2 * x2 * x2 * x2 * y2 * y2 * y2 * x3) * curve x3 y3.
Proof. intros. unfold t12, t23, nx12, ny12, nx23, ny23, curve. ring. Qed.
Lemma assoc_identity_y : forall x1 y1 x2 y2 x3 y3,
  let t12 := d * x1 * x2 * y1 * y2 in let t23 := d * x2 * x3 * y2 * y3 in
  let nx12 := x1 * y2 + x2 * y1 in let ny12 := y1 * y2 - x1 * x2 in
  let nx23 := x2 * y3 + x3 * y2 in let ny23 := y2 * y3 - x2 * x3 in
  (ny12 * (1 + t12) * y3 - nx12 * (1 - t12) * x3) * ((1 - t23 * t23) - d * nx23 * ny23 * x1 * y1) -
  (y1 * ny23 * (1 + t23) - x1 * nx23 * (1 - t23)) * ((1 - t12 * t12) - d * nx12 * ny12 * x3 * y3) =
  (0 - d * y1 * x2 * y2 * y2 * y2 * y2 * x3 * y3 * y3 + d * y1 * x2 * x2 * y2 * y2 * y2 * y3 - d * y1 * x2 * x2 * y2 * y2 * y2 * y3 * y3 * y3 - d * y1
    * x2 * x2 * x2 * y2 * y2 * x3 + d * y1 * x2 * x2 * x2 * y2 * y2 * x3 * x3 * x3 + d * y1 * x2 * x2 * x2 * x2 * y2 * x3 * x3 * y3 - d * x1 * x2 * y2
    * y2 * y2 * y2 * x3 * x3 * y3 - d * x1 * x2 * x2 * y2 * y2 * y2 * x3 + d * x1 * x2 * x2 * y2 * y2 * y2 * x3 * x3 * x3 - d * x1 * x2 * x2 * x2 * y2
    * y2 * y3 + d * x1 * x2 * x2 * x2 * y2 * y2 * y3 * y3 * y3 - d * x1 * x2 * x2 * x2 * x2 * y2 * x3 * y3 * y3 + d * d * y1 * x2 * x2 * x2 * y2 * y2
    * y2 * y2 * x3 * y3 * y3 - d * d * y1 * x2 * x2 * x2 * x2 * y2 * y2 * y2 * x3 * x3 * y3 + d * d * x1 * x2 * x2 * x2 * y2 * y2 * y2 * y2 * x3 * x3
    * y3 + d * d * x1 * x2 * x2 * x2 * x2 * y2 * y2 * y2 * x3 * y3 * y3) * curve x1 y1 +
  (0 - d * y1 * x2 * y2 * y2 * x3 * y3 * y3 + d * y1 * x2 * x2 * y2 * x3 * x3 * y3 + d * y1 * y1 * y1 * x2 * y2 * y2 * x3 * y3 * y3 - d * y1 * y1 * y1
    * x2 * x2 * y2 * x3 * x3 * y3 - d * x1 * x2 * y2 * y2 * x3 * x3 * y3 - d * x1 * x2 * x2 * y2 * x3 * y3 * y3 + d * x1 * y1 * y1 * x2 * y2 * y2 * y3
    - d * x1 * y1 * y1 * x2 * y2 * y2 * y3 * y3 * y3 + d * x1 * y1 * y1 * x2 * x2 * y2 * x3 - d * x1 * y1 * y1 * x2 * x2 * y2 * x3 * x3 * x3 + d * x1
    * x1 * y1 * x2 * y2 * y2 * x3 - d * x1 * x1 * y1 * x2 * y2 * y2 * x3 * x3 * x3 - d * x1 * x1 * y1 * x2 * x2 * y2 * y3 + d * x1 * x1 * y1 * x2 * x2
    * y2 * y3 * y3 * y3 + d * x1 * x1 * x1 * x2 * y2 * y2 * x3 * x3 * y3 + d * x1 * x1 * x1 * x2 * x2 * y2 * x3 * y3 * y3) * curve x2 y2 +
  (0 - d * y1 * x2 * x2 * y2 * y2 * y2 * y3 + d * y1 * x2 * x2 * x2 * y2 * y2 * x3 + d * y1 * y1 * y1 * x2 * x2 * y2 * y2 * y2 * y3 - d * y1 * y1 * y1
    * x2 * x2 * x2 * y2 * y2 * x3 + d * x1 * x2 * x2 * y2 * y2 * y2 * x3 + d * x1 * x2 * x2 * x2 * y2 * y2 * y3 + d * x1 * y1 * y1 * x2 * y2 * y2 * y2
    * y2 * y3 + d * x1 * y1 * y1 * x2 * x2 * x2 * x2 * y2 * x3 + d * x1 * x1 * y1 * x2 * y2 * y2 * y2 * y2 * x3 - d * x1 * x1 * y1 * x2 * x2 * x2 * x2
    * y2 * y3 - d * x1 * x1 * x1 * x2 * x2 * y2 * y2 * y2 * x3 - d * x1 * x1 * x1 * x2 * x2 * x2 * y2 * y2 * y3 - d * d * x1 * y1 * y1 * x2 * x2 * x2
    * y2 * y2 * y2 * y2 * y3 - d * d * x1 * y1 * y1 * x2 * x2 * x2 * x2 * y2 * y2 * y2 * x3 - d * d * x1 * x1 * y1 * x2 * x2 * x2 * y2 * y2 * y2 * y2
    * x3 + d * d * x1 * x1 * y1 * x2 * x2 * x2 * x2 * y2 * y2 * y2 * y3) * curve x3 y3.
Proof. intros. unfold t12, t23, nx12, ny12, nx23, ny23, curve. ring. Qed.

Lemma quotients : forall n1 n2 m1 m2, m1 <> 0 -> m2 <> 0 -> n1 * m2 - n2 * m1 = 0 -> n1 / m1 = n2 / m2.
Proof.
  intros n1 n2 m1 m2 A B H. apply sub_zero. transitivity ((n1 * m2 - n2 * m1) / (m1 * m2)); [field; split; assumption|].
  rewrite H. field. split; assumption.
Qed.
Lemma plus_assoc : forall P Q R, on P -> on Q -> on R -> plus (plus P Q) R = plus P (plus Q R).
Proof.
  intros [x1 y1] [x2 y2] [x3 y3] H1 H2 H3.
  pose proof (on_plus _ _ H1 H2) as H12. pose proof (on_plus _ _ H2 H3) as H23.
  unfold on in *. unfold plus in *. cbn [fst snd] in *.
  pose proof (complete_plus _ _ _ _ H1 H2) as A12. pose proof (complete_minus _ _ _ _ H1 H2) as D12.
  pose proof (complete_plus _ _ _ _ H2 H3) as A23. pose proof (complete_minus _ _ _ _ H2 H3) as D23.
  pose proof (complete_plus _ _ _ _ H12 H3) as A. pose proof (complete_minus _ _ _ _ H12 H3) as D.
  pose proof (complete_plus _ _ _ _ H1 H23) as A'. pose proof (complete_minus _ _ _ _ H1 H23) as D'.
  pose proof (assoc_identity_x x1 y1 x2 y2 x3 y3) as IX. pose proof (assoc_identity_y x1 y1 x2 y2 x3 y3) as IY.
  cbv zeta in IX, IY.
  rewrite (curve_zero _ _ H1), (curve_zero _ _ H2), (curve_zero _ _ H3) in IX, IY.
  clear H1 H2 H3 H12 H23.
  set (t12 := d * x1 * x2 * y1 * y2) in *. set (nx12 := x1 * y2 + x2 * y1) in *. set (ny12 := y1 * y2 - x1 * x2) in *.
  set (t23 := d * x2 * x3 * y2 * y3) in *. set (nx23 := x2 * y3 + x3 * y2) in *. set (ny23 := y2 * y3 - x2 * x3) in *.
  match type of IX with ?l = ?r => assert (IX' : l = 0) by (rewrite IX; ring); clear IX end.
  match type of IY with ?l = ?r => assert (IY' : l = 0) by (rewrite IY; ring); clear IY end.
  clearbody t12 t23 nx12 ny12 nx23 ny23.
  f_equal; apply quotients; try assumption.
  - transitivity (((nx12 * (1 - t12) * y3 + x3 * ny12 * (1 + t12)) * ((1 - t23 * t23) + d * nx23 * ny23 * x1 * y1) -
      (x1 * ny23 * (1 + t23) + nx23 * (1 - t23) * y1) * ((1 - t12 * t12) + d * nx12 * ny12 * x3 * y3)) /
      ((1 + t12) * (1 - t12) * (1 + t23) * (1 - t23))); [field; repeat split; assumption|].
    rewrite IX'. field. repeat split; assumption.
  - transitivity (((ny12 * (1 + t12) * y3 - nx12 * (1 - t12) * x3) * ((1 - t23 * t23) - d * nx23 * ny23 * x1 * y1) -
      (y1 * ny23 * (1 + t23) - x1 * nx23 * (1 - t23)) * ((1 - t12 * t12) - d * nx12 * ny12 * x3 * y3)) /
      ((1 + t12) * (1 - t12) * (1 + t23) * (1 - t23))); [field; repeat split; assumption|].
    rewrite IY'. field. repeat split; assumption.
Qed.

(** Multiples. *)
Definition times (n : N) (P : F * F) : F * F := N.iter n (plus P) origin.
Lemma times_0 : forall P, times 0 P = origin.
Proof. reflexivity. Qed.
Lemma times_succ : forall n P, times (N.succ n) P = plus P (times n P).
Proof. intros n P. unfold times. apply N.iter_succ. Qed.
Lemma on_times : forall n P, on P -> on (times n P).
Proof.
  intros n P H. induction n using N.peano_ind; [exact on_origin|]. rewrite times_succ. apply on_plus; assumption.
Qed.
Lemma times_add : forall n m P, on P -> times (n + m) P = plus (times n P) (times m P).
Proof.
  intros n m P H. induction n as [|n IH] using N.peano_ind; [rewrite times_0, plus_origin; reflexivity|].
  rewrite N.add_succ_l, !times_succ, IH. symmetry. apply plus_assoc; auto using on_times.
Qed.
Lemma times_origin : forall n, times n origin = origin.
Proof. induction n as [|n IH] using N.peano_ind; [reflexivity|]. rewrite times_succ, IH. apply plus_origin. Qed.
Lemma times_mul : forall n m P, on P -> times (n * m) P = times n (times m P).
Proof.
  intros n m P H. induction n as [|n IH] using N.peano_ind; [reflexivity|].
  rewrite N.mul_succ_l, N.add_comm, times_add, IH, times_succ by assumption. reflexivity.
Qed.
Lemma times_exchange : forall n m P, on P -> times n (times m P) = times m (times n P).
Proof. intros n m P H. rewrite <- !times_mul, N.mul_comm by assumption. reflexivity. Qed.
Lemma neg_plus : forall P Q, neg (plus P Q) = plus (neg P) (neg Q).
Proof.
  intros [x1 y1] [x2 y2]. unfold plus, neg; cbn.
  replace (d * - x1 * - x2 * y1 * y2) with (d * x1 * x2 * y1 * y2) by ring.
  replace (- x1 * y2 + - x2 * y1) with (- (x1 * y2 + x2 * y1)) by ring.
  replace (y1 * y2 - - x1 * - x2) with (y1 * y2 - x1 * x2) by ring.
  f_equal. rewrite !(Fdiv_def FT). ring.
Qed.

(** * The ladder *)
Variable a24 : F.
Hypothesis a24_d : a24 * (1 - d) = d.
Lemma one_d : 1 - d <> 0.
Proof. intros E. apply (d_nonsquare 1). transitivity (d + (1 - d)); [ring|rewrite E; ring]. Qed.

(** The u coordinate (1 + y) / (1 - y) as a quotient X / Z. *)
Definition rep (P : F * F) (X Z : F) : Prop := exists k, k <> 0 /\ X = k * (1 + snd P) /\ Z = k * (1 - snd P).
Lemma rep_intro : forall P X Z, X * (1 - snd P) = Z * (1 + snd P) -> (X = 0 -> Z <> 0) -> rep P X Z.
Proof.
  intros P X Z H NZ. set (y := snd P) in *.
  assert (X2 : (1 + 1) * X = (X + Z) * (1 + y)) by (transitivity (X * (1 + y) + X * (1 - y)); [ring|rewrite H; ring]).
  assert (Z2 : (1 + 1) * Z = (X + Z) * (1 - y)) by (transitivity (Z * (1 + y) + Z * (1 - y)); [ring|rewrite <- H; ring]).
  exists ((X + Z) / (1 + 1)). fold y. split; [|split].
  - intros E. assert (S : X + Z = 0) by (transitivity ((X + Z) / (1 + 1) * (1 + 1)); [field; exact two|rewrite E; ring]).
    rewrite S in X2, Z2. destruct (mul_zero (1 + 1) X) as [|XZ]; [rewrite X2; ring|auto|].
    destruct (mul_zero (1 + 1) Z) as [|ZZ]; [rewrite Z2; ring|auto|]. exact (NZ XZ ZZ).
  - transitivity ((1 + 1) * X / (1 + 1)); [field; exact two|rewrite X2; field; exact two].
  - transitivity ((1 + 1) * Z / (1 + 1)); [field; exact two|rewrite Z2; field; exact two].
Qed.
Lemma four : forall k, k <> 0 -> (1 + 1) * k <> 0.
Proof. intros. apply mul_nonzero; assumption. Qed.

Lemma double_identity : forall x1 y1,
  (1 - d) * y1 * y1 * (1 - d * x1 * x1 * y1 * y1 - y1 * y1 + x1 * x1) -
  (1 - y1 * y1) * (1 - d * y1 * y1) * (1 - d * x1 * x1 * y1 * y1 + y1 * y1 - x1 * x1) =
  (0 - 1 + d * y1 * y1 * y1 * y1) * curve x1 y1.
Proof. intros. unfold curve. ring. Qed.
Lemma rep_double : forall P X Z, on P -> rep P X Z ->
  let aa := (X + Z) * (X + Z) in let bb := (X - Z) * (X - Z) in let e := aa - bb in
  rep (plus P P) (aa * bb) (e * (aa + a24 * e)).
Proof.
  intros [x y] X Z H [k [K [-> ->]]]. unfold on in H. cbn [fst snd] in *. cbv zeta.
  pose proof (complete_minus _ _ _ _ H H) as D. pose proof (double_identity x y) as I.
  rewrite (curve_zero _ _ H) in I.
  set (k2 := (1 + 1) * k). assert (K2 : k2 <> 0) by (apply four; exact K).
  replace (k * (1 + y) + k * (1 - y)) with k2 by (unfold k2; ring).
  replace (k * (1 + y) - k * (1 - y)) with (k2 * y) by (unfold k2; ring).
  clearbody k2.
  assert (A24 : (1 - d) * (1 + a24 * (1 - y * y)) = 1 - d * y * y).
  { transitivity ((1 - d) + (a24 * (1 - d)) * (1 - y * y)); [ring|rewrite a24_d; ring]. }
  assert (K4 : k2 * k2 * (k2 * k2) <> 0) by (repeat apply mul_nonzero; exact K2).
  apply rep_intro.
  - unfold plus; cbn [snd].
    transitivity (k2 * k2 * (k2 * k2) / ((1 - d) * (1 - d * x * x * y * y)) *
      ((1 - d) * y * y * (1 - d * x * x * y * y - y * y + x * x))); [field; split; [exact D|exact one_d]|].
    transitivity (k2 * k2 * (k2 * k2) / ((1 - d) * (1 - d * x * x * y * y)) *
      ((1 - y * y) * ((1 - d) * (1 + a24 * (1 - y * y))) * (1 - d * x * x * y * y + y * y - x * x)));
      [|field; split; [exact D|exact one_d]].
    f_equal. rewrite A24. apply sub_zero. rewrite I. ring.
  - intros X0 Z0. assert (Y : y = 0).
    { destruct (mul_zero (k2 * k2 * (k2 * k2)) (y * y)) as [|E]; [rewrite <- X0; ring|contradiction|].
      destruct (mul_zero _ _ E); assumption. }
    subst y.
    destruct (mul_zero (k2 * k2 * (k2 * k2)) (1 + a24)) as [|E]; [rewrite <- Z0; ring|contradiction|].
    apply one_zero. transitivity ((1 - d) * (1 + a24)); [|rewrite E; ring].
    transitivity ((1 - d) + a24 * (1 - d)); [rewrite a24_d; ring|ring].
Qed.

Lemma add_identity : forall x1 y1 x2 y2, let t := d * x1 * x2 * y1 * y2 in
  (y1 + y2) * (y1 + y2) * (1 - t - y1 * y2 + x1 * x2) * (1 + t - y1 * y2 - x1 * x2) -
  (y1 - y2) * (y1 - y2) * (1 + t + y1 * y2 + x1 * x2) * (1 - t + y1 * y2 - x1 * x2) =
  (0 + y1 * x2 * x2 * y2 + y1 * x2 * x2 * y2 + y1 * x2 * x2 * y2 + y1 * x2 * x2 * y2 - d * y1 * x2 * x2 * y2 * y2 * y2 - d * y1 * x2 * x2 * y2 * y2 *
    y2 - d * y1 * x2 * x2 * y2 * y2 * y2 - d * y1 * x2 * x2 * y2 * y2 * y2) * curve x1 y1 + (0 + y1 * y2 + y1 * y2 + y1 * y2 + y1 * y2 - y1 * y1 * y1
    * y2 - y1 * y1 * y1 * y2 - y1 * y1 * y1 * y2 - y1 * y1 * y1 * y2) * curve x2 y2.
Proof. intros. unfold t, curve. ring. Qed.
(** [u] is that of the difference. *)
Lemma rep_add : forall P Q X2 Z2 X3 Z3 u, on P -> on Q -> rep P X2 Z2 -> rep Q X3 Z3 ->
  u * (1 - snd (plus P (neg Q))) = 1 + snd (plus P (neg Q)) -> u <> 0 ->
  let a := X2 + Z2 in let b := X2 - Z2 in let c := X3 + Z3 in let g := X3 - Z3 in
  let da := g * a in let cb := c * b in
  rep (plus P Q) ((da + cb) * (da + cb)) (u * ((da - cb) * (da - cb))).
Proof.
  intros [x1 y1] [x2 y2] X2 Z2 X3 Z3 u H1 H2 [k [K [-> ->]]] [l [L [-> ->]]] U U0. unfold on in *. cbn [fst snd] in *. cbv zeta.
  pose proof (complete_minus _ _ _ _ H1 H2) as D. pose proof (complete_plus _ _ _ _ H1 H2) as A.
  pose proof (add_identity x1 y1 x2 y2) as I. cbv zeta in I.
  rewrite (curve_zero _ _ H1), (curve_zero _ _ H2) in I.
  set (k2 := (1 + 1) * k). assert (K2 : k2 <> 0) by (apply four; exact K).
  set (l2 := (1 + 1) * l). assert (L2 : l2 <> 0) by (apply four; exact L).
  replace (k * (1 + y1) + k * (1 - y1)) with k2 by (unfold k2; ring).
  replace (k * (1 + y1) - k * (1 - y1)) with (k2 * y1) by (unfold k2; ring).
  replace (l * (1 + y2) + l * (1 - y2)) with l2 by (unfold l2; ring).
  replace (l * (1 + y2) - l * (1 - y2)) with (l2 * y2) by (unfold l2; ring).
  clearbody k2 l2.
  set (t := d * x1 * x2 * y1 * y2) in *.
  assert (U' : u * (1 + t - (y1 * y2 + x1 * x2)) = 1 + t + (y1 * y2 + x1 * x2)).
  { unfold plus, neg in U; cbn [fst snd] in U.
    replace (1 - d * x1 * - x2 * y1 * y2) with (1 + t) in U by (unfold t; ring).
    replace (y1 * y2 - x1 * - x2) with (y1 * y2 + x1 * x2) in U by ring.
    transitivity ((1 + t) * (u * (1 - (y1 * y2 + x1 * x2) / (1 + t)))); [field; exact A|].
    rewrite U. field. exact A. }
  assert (S : 1 + t - (y1 * y2 + x1 * x2) <> 0).
  { intros E. rewrite E in U'. apply (mul_nonzero _ _ two A).
    transitivity ((1 + t - (y1 * y2 + x1 * x2)) + (1 + t + (y1 * y2 + x1 * x2))); [ring|]. rewrite E, <- U'. ring. }
  assert (KL : k2 * l2 * (k2 * l2) <> 0) by (repeat apply mul_nonzero; assumption).
  apply rep_intro.
  - unfold plus; cbn [snd]. fold t.
    transitivity (k2 * l2 * (k2 * l2) / ((1 - t) * (1 + t - (y1 * y2 + x1 * x2))) *
      ((y1 + y2) * (y1 + y2) * (1 - t - y1 * y2 + x1 * x2) * (1 + t - y1 * y2 - x1 * x2))); [field; split; assumption|].
    transitivity (k2 * l2 * (k2 * l2) / ((1 - t) * (1 + t - (y1 * y2 + x1 * x2))) *
      ((y1 - y2) * (y1 - y2) * (u * (1 + t - (y1 * y2 + x1 * x2))) * (1 - t + y1 * y2 - x1 * x2)));
      [|field; split; assumption].
    f_equal. rewrite U'. apply sub_zero.
    match type of I with ?m = _ => transitivity m; [ring|rewrite I; ring] end.
  - intros X0 Z0.
    assert (E1 : y1 + y2 = 0).
    { destruct (mul_zero (k2 * l2 * (k2 * l2)) ((y1 + y2) * (y1 + y2))) as [|E]; [rewrite <- X0; ring|contradiction|].
      destruct (mul_zero _ _ E); assumption. }
    assert (E2 : y1 - y2 = 0).
    { destruct (mul_zero (k2 * l2 * (k2 * l2) * u) ((y1 - y2) * (y1 - y2))) as [|E]; [rewrite <- Z0; ring| |].
      - exfalso. revert H. apply mul_nonzero; assumption.
      - destruct (mul_zero _ _ E); assumption. }
    assert (Y1 : y1 = 0).
    { destruct (mul_zero (1 + 1) y1) as [|E]; [transitivity ((y1 + y2) + (y1 - y2)); [ring|rewrite E1, E2; ring]|contradiction|exact E]. }
    assert (Y2 : y2 = 0) by (transitivity ((y1 + y2) - y1); [ring|rewrite E1, Y1; ring]).
    subst y1 y2. unfold on_curve in H1, H2.
    assert (XX : (x1 * x2 - 1) * (x1 * x2 + 1) = 0).
    { assert (Q1 : x1 * x1 = 1) by (transitivity (x1 * x1 + 0 * 0); [ring|rewrite H1; ring]).
      assert (Q2 : x2 * x2 = 1) by (transitivity (x2 * x2 + 0 * 0); [ring|rewrite H2; ring]).
      transitivity ((x1 * x1) * (x2 * x2) - 1); [ring|rewrite Q1, Q2; ring]. }
    unfold t in *. destruct (mul_zero _ _ XX) as [E|E].
    + apply S. transitivity (0 - (x1 * x2 - 1)); [ring|rewrite E; ring].
    + match type of U' with ?l = ?r => assert (R0 : r = 0); [transitivity (x1 * x2 + 1); [ring|exact E]|rewrite R0 in U'] end.
      destruct (mul_zero _ _ U'); contradiction.
Qed.
End Edwards.
