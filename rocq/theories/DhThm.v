(** The ladder of X25519 multiplies on the curve; the two sides of an exchange
    get the same secret. *)
From Coq Require Import ZArith Field Lia.
From Verif Require Import Prim PrimThm PolyThm FieldThm EdThm.
Local Open Scope Z_scope.

Add Field field_p : field_ok.
Notation pt := (Fp * Fp)%type.
Notation F0 := (of 0).
Notation F1 := (of 1).
Definition e_on : pt -> Prop := on Fp F1 f_add f_mul ed_d.
Definition e_plus : pt -> pt -> pt := plus Fp F1 f_add f_mul f_sub f_div ed_d.
Definition e_neg : pt -> pt := neg Fp f_opp.
Definition e_origin : pt := origin Fp F0 F1.
Definition e_times : N -> pt -> pt := times Fp F0 F1 f_add f_mul f_sub f_div ed_d.
Definition e_rep : pt -> Fp -> Fp -> Prop := rep Fp F0 F1 f_add f_mul f_sub.

Lemma e_on_times : forall n P, e_on P -> e_on (e_times n P).
Proof. exact (on_times _ _ _ _ _ _ _ _ _ field_ok f_dec ed_d two_ok nonsquare_ok). Qed.
Lemma e_on_neg : forall P, e_on P -> e_on (e_neg P).
Proof. exact (on_neg _ _ _ _ _ _ _ _ _ field_ok ed_d). Qed.
Lemma e_times_add : forall n m P, e_on P -> e_times (n + m) P = e_plus (e_times n P) (e_times m P).
Proof. exact (times_add _ _ _ _ _ _ _ _ _ field_ok f_dec ed_d two_ok nonsquare_ok). Qed.
Lemma e_times_mul : forall n m P, e_on P -> e_times (n * m) P = e_times n (e_times m P).
Proof. exact (times_mul _ _ _ _ _ _ _ _ _ field_ok f_dec ed_d two_ok nonsquare_ok). Qed.
Lemma e_times_exchange : forall n m P, e_on P -> e_times n (e_times m P) = e_times m (e_times n P).
Proof. exact (times_exchange _ _ _ _ _ _ _ _ _ field_ok f_dec ed_d two_ok nonsquare_ok). Qed.
Lemma e_times_origin : forall n, e_times n e_origin = e_origin.
Proof. exact (times_origin _ _ _ _ _ _ _ _ _ field_ok ed_d). Qed.
Lemma e_plus_comm : forall P Q, e_plus P Q = e_plus Q P.
Proof. exact (plus_comm _ _ _ _ _ _ _ _ _ field_ok ed_d). Qed.
Lemma e_plus_origin : forall P, e_plus e_origin P = P.
Proof. exact (plus_origin _ _ _ _ _ _ _ _ _ field_ok ed_d). Qed.
Lemma e_plus_neg : forall P, e_on P -> e_plus P (e_neg P) = e_origin.
Proof. exact (plus_neg _ _ _ _ _ _ _ _ _ field_ok f_dec ed_d two_ok nonsquare_ok). Qed.
Lemma e_plus_assoc : forall P Q R, e_on P -> e_on Q -> e_on R -> e_plus (e_plus P Q) R = e_plus P (e_plus Q R).
Proof. exact (plus_assoc _ _ _ _ _ _ _ _ _ field_ok f_dec ed_d two_ok nonsquare_ok). Qed.
Lemma e_neg_plus : forall P Q, e_neg (e_plus P Q) = e_plus (e_neg P) (e_neg Q).
Proof. exact (neg_plus _ _ _ _ _ _ _ _ _ field_ok ed_d). Qed.
Lemma e_times_1 : forall P, e_times 1 P = P.
Proof. intro P. change (e_times 1 P) with (e_plus P e_origin). rewrite e_plus_comm. apply e_plus_origin. Qed.
Lemma e_times_succ : forall n P, e_times (n + 1) P = e_plus P (e_times n P).
Proof. intros n P. rewrite N.add_1_r. exact (times_succ _ _ _ _ _ _ _ ed_d n P). Qed.

(** ** One step of the ladder *)
Definition reps (l : Ladder) (A B : pt) : Prop :=
  exists x2 z2 x3 z3, l = {| l_x2 := val x2; l_z2 := val z2; l_x3 := val x3; l_z3 := val z3 |} /\ e_rep A x2 z2 /\ e_rep B x3 z3.
Lemma reps_swap : forall b l A B, reps l A B -> reps (cswap b l) (if b then B else A) (if b then A else B).
Proof. intros [|] l A B (x2 & z2 & x3 & z3 & -> & RA & RB); [|now exists x2, z2, x3, z3]. now exists x3, z3, x2, z2. Qed.
Lemma swap_twice : forall a b l, cswap (xorb a b) l = cswap b (cswap a l).
Proof. intros [|] [|] [x2 z2 x3 z3]; reflexivity. Qed.

(** [u] is the coordinate of [P] *)
Definition has_u (P : pt) (u : Fp) : Prop := f_mul u (f_sub F1 (snd P)) = f_add F1 (snd P).
Lemma reps_step : forall P u A B l, e_on P -> has_u P u -> u <> F0 -> e_on A -> e_on B ->
  e_plus A (e_neg B) = P \/ e_plus A (e_neg B) = e_neg P ->
  reps l A B -> reps (ladder_step (val u) l) (e_plus A A) (e_plus A B).
Proof.
  intros P u A B l OP U NZ OA OB D (x2 & z2 & x3 & z3 & -> & RA & RB).
  pose proof (rep_double _ _ _ _ _ _ _ _ _ field_ok f_dec ed_d two_ok nonsquare_ok f_a24 a24_ok A x2 z2 OA RA) as R2.
  assert (has_u (e_plus A (e_neg B)) u) as U2 by (destruct D as [->| ->]; exact U).
  pose proof (rep_add _ _ _ _ _ _ _ _ _ field_ok f_dec ed_d two_ok nonsquare_ok A B x2 z2 x3 z3 u OA OB RA RB U2 NZ) as R3.
  cbv zeta in R2, R3. eexists _, _, _, _. split; [|split; [exact R2|exact R3]]. reflexivity.
Qed.
Lemma differ_by_one : forall P m, e_on P ->
  e_plus (e_times (m + 1) P) (e_neg (e_times m P)) = P /\ e_plus (e_times m P) (e_neg (e_times (m + 1) P)) = e_neg P.
Proof.
  intros P m OP. pose proof (e_on_times m P OP) as OM. pose proof (e_on_times (m + 1) P OP) as OM1.
  assert (E : e_plus (e_times (m + 1) P) (e_neg (e_times m P)) = P).
  { rewrite e_times_succ, e_plus_assoc by (try assumption; apply e_on_neg; assumption).
    rewrite e_plus_neg by exact OM. rewrite e_plus_comm. apply e_plus_origin. }
  split; [exact E|]. rewrite e_times_succ, e_neg_plus, (e_plus_comm (e_times m P)).
  rewrite e_plus_assoc by (try assumption; apply e_on_neg; assumption).
  rewrite (e_plus_comm (e_neg (e_times m P))), e_plus_neg by exact OM. rewrite e_plus_comm. apply e_plus_origin.
Qed.

(** ** The ladder *)
Lemma ladder_times : forall P u k, e_on P -> has_u P u -> u <> F0 -> forall t swap l m,
  reps (cswap swap l) (e_times m P) (e_times (m + 1) P) ->
  let n := (m * 2 ^ N.of_nat t + k mod 2 ^ N.of_nat t)%N in
  reps (ladder (val u) k t swap l) (e_times n P) (e_times (n + 1) P).
Proof.
  intros P u k OP U NZ. induction t as [|t IH]; intros swap l m R n.
  - cbn [ladder]. replace n with m; [exact R|]. unfold n. change (2 ^ N.of_nat 0)%N with 1%N. rewrite N.mod_1_r. lia.
  - cbn [ladder]. cbv zeta. rewrite swap_twice. set (b := N.testbit k (N.of_nat t)).
    assert (E : n = ((2 * m + N.b2n b) * 2 ^ N.of_nat t + k mod 2 ^ N.of_nat t)%N).
    { unfold n, b. rewrite Nat2N.inj_succ, N.pow_succ_r'.
      rewrite (N.mul_comm 2 (2 ^ N.of_nat t)) at 2. rewrite N.mod_mul_r by (try apply N.pow_nonzero; discriminate).
      rewrite N.testbit_spec'. ring. }
    rewrite E. apply IH. apply (reps_swap b) in R.
    destruct (differ_by_one P m OP) as [D1 D2].
    pose proof (e_on_times m P OP) as OM. pose proof (e_on_times (m + 1) P OP) as OM1.
    destruct b; cbn [N.b2n].
    + apply (reps_step P u) in R; try assumption; [|now left].
      apply (reps_swap true) in R. rewrite <- !e_times_add in R by exact OP.
      replace (2 * m + 1 + 1)%N with (m + 1 + (m + 1))%N by lia. replace (2 * m + 1)%N with (m + 1 + m)%N by lia. exact R.
    + apply (reps_step P u) in R; try assumption; [|now right].
      rewrite <- !e_times_add in R by exact OP.
      replace (2 * m + 0 + 1)%N with (m + (m + 1))%N by lia. replace (2 * m + 0)%N with (m + m)%N by lia. exact R.
Qed.

(** The coordinate of a point, 0 for the origin. *)
Definition u_of (P : pt) : Fp := if f_dec (snd P) F1 then F0 else f_div (f_add F1 (snd P)) (f_sub F1 (snd P)).
Lemma sub_nonzero : forall a b : Fp, a <> b -> f_sub b a <> F0.
Proof. intros a b H E. apply H. replace a with (f_sub b (f_sub b a)) by ring. rewrite E. ring. Qed.
Lemma u_of_has : forall P, u_of P <> F0 -> has_u P (u_of P).
Proof.
  intros P. unfold u_of, has_u. destruct (f_dec (snd P) F1) as [E|NE]; intro H; [now contradiction H|].
  field. apply sub_nonzero, NE.
Qed.
Lemma one_ok : F1 <> F0.
Proof. intro H. apply (f_equal val) in H. discriminate H. Qed.
Lemma u_zero : forall P, e_on P -> u_of P = F0 -> e_times 2 P = e_origin.
Proof.
  intros [x y] O H. assert (Y : y = F1 \/ y = f_opp F1).
  { unfold u_of in H. cbn [snd] in H. destruct (f_dec y F1) as [E|NE]; [now left|right].
    pose proof (sub_nonzero _ _ NE) as NZ.
    assert (f_add F1 y = F0) as Z.
    { replace (f_add F1 y) with (f_mul (f_div (f_add F1 y) (f_sub F1 y)) (f_sub F1 y)) by (field; exact NZ).
      rewrite H. ring. }
    replace y with (f_sub (f_add F1 y) F1) by ring. rewrite Z. ring. }
  assert (X : x = F0).
  { unfold e_on, on, on_curve in O. cbn [fst snd] in O.
    assert (f_mul (f_mul x x) (f_sub F1 ed_d) = F0) as Z.
    { transitivity (f_sub (f_add (f_mul x x) (f_mul y y)) (f_add F1 (f_mul (f_mul ed_d (f_mul x x)) (f_mul y y))));
        [destruct Y as [->| ->]; ring|rewrite O; ring]. }
    apply (mul_zero _ _ _ _ _ _ _ _ _ field_ok f_dec) in Z. destruct Z as [Z|Z].
    - apply (mul_zero _ _ _ _ _ _ _ _ _ field_ok f_dec) in Z. now destruct Z.
    - apply (f_equal val) in Z. revert Z. vm_compute. discriminate. }
  subst x. change 2%N with (1 + 1)%N. rewrite e_times_succ, e_times_1.
  unfold e_plus, plus, e_origin, origin. cbn [fst snd].
  f_equal; destruct Y as [->| ->]; field; exact one_ok.
Qed.

(** ** X25519 *)
Definition encode (u : Fp) : bytes := le_bytes 32 (Z.to_N (val u)).
Lemma decode_encode : forall u, decode_u (encode u) = val u.
Proof.
  intro u. pose proof (val_lt u) as L. unfold decode_u, encode. rewrite le_bytes_value.
  assert (Z.to_N (val u) < 2 ^ 255)%N as B by (assert (p25519 < 2 ^ 255)%Z by reflexivity; apply N2Z.inj_lt; rewrite Z2N.id by lia; change (Z.of_N (2 ^ 255)) with (2 ^ 255)%Z; lia).
  rewrite (N.mod_small _ (256 ^ N.of_nat 32)) by (eapply N.lt_trans; [exact B|reflexivity]).
  rewrite N.mod_small by exact B. rewrite Z2N.id by lia. apply val_mod.
Qed.
Lemma scalar_eq : forall k, exists m, decode_scalar k = (2 * m)%N.
Proof.
  intro k. unfold decode_scalar. cbv zeta. set (m := (le_value k mod 2 ^ 255 mod 2 ^ 254 / 8)%N).
  exists (2 ^ 253 + 4 * m)%N. change (2 ^ 254)%N with (2 * 2 ^ 253)%N. lia.
Qed.
Lemma scalar_lt : forall k, (decode_scalar k < 2 ^ 255)%N.
Proof.
  intro k. unfold decode_scalar. cbv zeta. set (n := (le_value k mod 2 ^ 255)%N).
  pose proof (N.mod_lt n (2 ^ 254) ltac:(discriminate)) as H.
  pose proof (N.mul_div_le (n mod 2 ^ 254) 8 ltac:(discriminate)) as D.
  change (2 ^ 255)%N with (2 ^ 254 + 2 ^ 254)%N. lia.
Qed.
Lemma quotient_rep : forall P x z, e_rep P x z -> fmul (val x) (finv (val z)) = val (u_of P).
Proof.
  intros P x z (k & K & -> & ->). unfold u_of. destruct (f_dec (snd P) F1) as [E|NE].
  - rewrite E. replace (f_mul k (f_sub F1 F1)) with F0 by ring. apply infinity_is_zero. exists 0. reflexivity.
  - pose proof (sub_nonzero _ _ NE) as NZ.
    transitivity (val (f_div (f_mul k (f_add F1 (snd P))) (f_mul k (f_sub F1 (snd P))))).
    + set (x := f_mul k (f_add F1 (snd P))). set (z := f_mul k (f_sub F1 (snd P))).
      change (val (f_div x z)) with ((val x * (finv (val z) mod p25519)) mod p25519). rewrite Zmult_mod_idemp_r. reflexivity.
    + f_equal. field. split; [exact NZ|exact K].
Qed.
Theorem x25519_times : forall k u P, e_on P -> decode_u u = val (u_of P) ->
  x25519_of k u = encode (u_of (e_times (decode_scalar k) P)).
Proof.
  intros k u P O U. destruct (f_dec (u_of P) F0) as [Z|NZ].
  - rewrite weak_zero by (rewrite U, Z; reflexivity).
    destruct (scalar_eq k) as [m ->]. rewrite N.mul_comm, e_times_mul by exact O. rewrite (u_zero P O Z), e_times_origin.
    unfold u_of. cbn [snd e_origin origin]. destruct (f_dec F1 F1) as [_|NE]; [reflexivity|now contradiction NE].
  - unfold x25519_of. cbv zeta. rewrite U.
    assert (R : reps (cswap false {| l_x2 := 1; l_z2 := 0; l_x3 := val (u_of P); l_z3 := 1 |}) (e_times 0 P) (e_times (0 + 1) P)).
    { exists F1, F0, (u_of P), F1. split; [reflexivity|]. change (e_times 0 P) with e_origin. split.
      - apply (rep_intro _ _ _ _ _ _ _ _ _ field_ok f_dec two_ok); cbn [snd e_origin origin]; [ring|]. intro H. now contradiction one_ok.
      - change (0 + 1)%N with 1%N. rewrite e_times_1. apply (rep_intro _ _ _ _ _ _ _ _ _ field_ok f_dec two_ok).
        + pose proof (u_of_has P NZ) as H. unfold has_u in H. rewrite H. ring.
        + intro H. contradiction. }
    pose proof (ladder_times P (u_of P) (decode_scalar k) O (u_of_has P NZ) NZ 255 _ _ _ R) as L. cbv zeta in L.
    rewrite N.mul_0_l, N.add_0_l in L. rewrite (N.mod_small (decode_scalar k)) in L by (apply scalar_lt).
    destruct L as (x2 & z2 & x3 & z3 & -> & R2 & _). cbn [l_x2 l_z2]. unfold encode. rewrite (quotient_rep _ _ _ R2). reflexivity.
Qed.

(** The base point has u = 9. *)
Definition base : pt :=
  (of 48124660576694895147914813076284018110470804336376098912894897995932653867602,
   of 46316835694926478169428394003475163141307993866256225615783033603165251855960).
Lemma base_on : e_on base.
Proof. unfold e_on, on, on_curve, base. cbn [fst snd]. apply val_eq. vm_compute. reflexivity. Qed.
Lemma base_has : f_add F1 (snd base) = f_mul (of 9) (f_sub F1 (snd base)) /\ snd base <> F1.
Proof. split; [apply val_eq; vm_compute; reflexivity|]. intro H. apply (f_equal val) in H. revert H. vm_compute. discriminate. Qed.
Lemma base_u : decode_u (le_bytes 32 9) = val (u_of base).
Proof.
  destruct base_has as [E NE]. unfold u_of. generalize dependent (snd base). intros y E NE.
  destruct (f_dec y F1) as [|NE']; [contradiction|]. rewrite E.
  replace (f_div (f_mul (of 9) (f_sub F1 y)) (f_sub F1 y)) with (of 9) by (field; apply sub_nonzero; exact NE'). vm_compute. reflexivity.
Qed.
Lemma public_times : forall k, x25519_public_of k = encode (u_of (e_times (decode_scalar k) base)).
Proof. intro k. unfold x25519_public_of. exact (x25519_times k _ base base_on base_u). Qed.
Theorem agreement : forall a b, x25519_of a (x25519_public_of b) = x25519_of b (x25519_public_of a).
Proof.
  intros a b. rewrite !public_times.
  rewrite (x25519_times a _ (e_times (decode_scalar b) base)) by (try apply decode_encode; apply e_on_times, base_on).
  rewrite (x25519_times b _ (e_times (decode_scalar a) base)) by (try apply decode_encode; apply e_on_times, base_on).
  rewrite e_times_exchange by exact base_on. reflexivity.
Qed.
