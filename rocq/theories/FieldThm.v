(** The integers modulo 2^255 - 19 are a field in which 121665/121666 is no
    square: the curve of X25519 in its Edwards form. *)
From Coq Require Import ZArith Znumtheory Zpow_facts Bool Eqdep_dec Field Lia.
From Verif Require Import Prim PrimeThm EdThm.
Local Open Scope Z_scope.

(** ** 2^255 - 19 is prime *)
Lemma prime_127 : prime 127.
Proof. apply (by_trial _ 12); [reflexivity|reflexivity|vm_compute; reflexivity]. Qed.
Lemma prime_57467 : prime 57467.
Proof. apply (by_trial _ 250); [reflexivity|reflexivity|vm_compute; reflexivity]. Qed.
Lemma prime_75707 : prime 75707.
Proof. apply (by_trial _ 300); [reflexivity|reflexivity|vm_compute; reflexivity]. Qed.
Lemma prime_8574133 : prime 8574133.
Proof. apply (by_trial _ 2930); [reflexivity|vm_compute; reflexivity|vm_compute; reflexivity]. Qed.
Lemma prime_s : prime 1919519569386763.
Proof. apply (certify2 _ 8574133 127 2 prime_8574133 prime_127). vm_compute. reflexivity. Qed.
Lemma prime_r : prime 75445702479781427272750846543864801.
Proof. apply (certify2 _ _ 75707 2 prime_s prime_75707). vm_compute. reflexivity. Qed.
Lemma prime_q : prime 74058212732561358302231226437062788676166966415465897661863160754340907.
Proof. apply (certify2 _ _ 57467 2 prime_r prime_57467). vm_compute. reflexivity. Qed.
Lemma prime_25519 : prime p25519.
Proof. apply (certify1 _ _ 2 prime_q). vm_compute. reflexivity. Qed.
Lemma p_pos : 1 < p25519.
Proof. reflexivity. Qed.

(** ** The field *)
Record Fp := mk { val : Z; val_ok : (val mod p25519 =? val) = true }.
Lemma of_ok : forall z, ((z mod p25519) mod p25519 =? z mod p25519) = true.
Proof. intro z. apply Z.eqb_eq. apply Z.mod_mod. discriminate. Qed.
Definition of (z : Z) : Fp := mk (z mod p25519) (of_ok z).
Lemma val_eq : forall a b, val a = val b -> a = b.
Proof.
  intros [a A] [b B] H. cbn [val] in H. subst b. f_equal. apply UIP_dec. exact bool_dec.
Qed.
Lemma val_mod : forall a, val a mod p25519 = val a.
Proof. intros [a A]. cbn [val]. apply Z.eqb_eq, A. Qed.
Lemma val_lt : forall a, 0 <= val a < p25519.
Proof. intro a. rewrite <- val_mod. apply Z.mod_pos_bound. reflexivity. Qed.
Lemma of_val : forall a, of (val a) = a.
Proof. intro a. apply val_eq. apply val_mod. Qed.
Definition f_add (a b : Fp) : Fp := of (val a + val b).
Definition f_sub (a b : Fp) : Fp := of (val a - val b).
Definition f_mul (a b : Fp) : Fp := of (val a * val b).
Definition f_opp (a : Fp) : Fp := of (- val a).
Definition f_inv (a : Fp) : Fp := of (finv (val a)).
Definition f_div (a b : Fp) : Fp := f_mul a (f_inv b).
Definition f_dec (a b : Fp) : {a = b} + {a <> b}.
Proof.
  destruct (Z.eq_dec (val a) (val b)) as [e|n]; [left; now apply val_eq|right; congruence].
Defined.

Lemma fpow_eq : forall e a, (fpow a e) mod p25519 = a ^ Zpos e mod p25519.
Proof.
  assert (p25519 <> 0) as NZ by discriminate.
  induction e as [e IH|e IH|]; intro a; cbn [fpow].
  - unfold fmul at 1. rewrite Z.mod_mod by exact NZ. rewrite <- Z.mul_mod_idemp_r, IH by exact NZ.
    unfold fmul. rewrite <- Zpower_mod by reflexivity.
    rewrite Z.mul_mod_idemp_r by exact NZ. f_equal. rewrite Pos2Z.inj_xI.
    replace (a * a) with (a ^ 2) by ring. rewrite <- Z.pow_mul_r by lia.
    rewrite Z.add_1_r, Z.pow_succ_r by lia. reflexivity.
  - rewrite IH. unfold fmul. rewrite <- Zpower_mod by reflexivity. f_equal. rewrite Pos2Z.inj_xO.
    replace (a * a) with (a ^ 2) by ring. rewrite <- Z.pow_mul_r by lia. reflexivity.
  - rewrite Z.pow_1_r. reflexivity.
Qed.
Lemma not_divides : forall a, val a <> 0 -> ~ (p25519 | val a).
Proof.
  intros a H D. apply Z.divide_pos_le in D; pose proof (val_lt a); lia.
Qed.
Lemma inv_ok : forall a, val a <> 0 -> (finv (val a) * val a) mod p25519 = 1.
Proof.
  intros a H. unfold finv. rewrite <- Z.mul_mod_idemp_l, fpow_eq by discriminate.
  rewrite Z2Pos.id by reflexivity. rewrite Z.mul_mod_idemp_l by discriminate.
  rewrite Z.mul_comm, <- Z.pow_succ_r by discriminate.
  change (Z.succ (p25519 - 2)) with (p25519 - 1).
  apply (fermat p25519 prime_25519). apply not_divides, H.
Qed.

Ltac fp := apply val_eq; unfold f_div, f_sub, f_add, f_mul, f_opp, of; cbn [val].
Ltac idem := repeat first
  [ rewrite Zplus_mod_idemp_l | rewrite Zplus_mod_idemp_r | rewrite Zmult_mod_idemp_l | rewrite Zmult_mod_idemp_r ].
Lemma field_ok : field_theory (of 0) (of 1) f_add f_mul f_sub f_opp f_div f_inv eq.
Proof.
  constructor; [constructor|..].
  - intro a. fp. idem. rewrite Z.add_0_l. apply val_mod.
  - intros a b. fp. f_equal. ring.
  - intros a b c. fp. idem. f_equal. ring.
  - intro a. fp. idem. rewrite Z.mul_1_l. apply val_mod.
  - intros a b. fp. f_equal. ring.
  - intros a b c. fp. idem. f_equal. ring.
  - intros a b c. fp. idem. f_equal. ring.
  - intros a b. fp. idem. f_equal.
  - intros a. fp. idem. f_equal. ring.
  - intro H. apply (f_equal val) in H. discriminate H.
  - reflexivity.
  - intros a H. apply val_eq. cbn [val f_mul of f_inv]. idem. rewrite inv_ok; [reflexivity|].
    intro E. apply H, val_eq. exact E.
Qed.

(** d = 121665/121666 *)
Definition ed_d : Fp := of 20800338683988658368647408995589388737092878452977063003340006470870624536394.
Definition f_a24 : Fp := of a24.
Lemma two_ok : f_add (of 1) (of 1) <> of 0.
Proof. intro H. apply (f_equal val) in H. discriminate H. Qed.
Lemma a24_ok : f_mul f_a24 (f_sub (of 1) ed_d) = ed_d.
Proof. apply val_eq. vm_compute. reflexivity. Qed.
(** d is 121665 * 121666 over a square *)
Definition small_d : Fp := of (121665 * 121666).
Lemma small_d_ok : f_mul ed_d (of (121666 * 121666)) = small_d.
Proof. apply val_eq. vm_compute. reflexivity. Qed.
Lemma small_nonsquare : forall s, f_mul s s <> small_d.
Proof.
  intros s H. apply (f_equal val) in H. cbn [val f_mul of small_d] in H.
  assert (val s <> 0) as NZ by (intro E; rewrite E in H; vm_compute in H; discriminate H).
  pose proof (fermat p25519 prime_25519 (val s) (not_divides s NZ)) as F.
  pose (e := ((p25519 - 1) / 2)).
  replace (p25519 - 1) with (2 * e) in F by reflexivity.
  rewrite Z.pow_mul_r in F by discriminate.
  rewrite Zpower_mod in F by reflexivity.
  replace (val s ^ 2) with (val s * val s) in F by ring. rewrite H in F.
  rewrite <- (Z2Pos.id e) in F by reflexivity. rewrite <- powm_eq in F by reflexivity.
  change ((121665 * 121666) mod p25519) with 14802493890 in F.
  revert F. vm_compute. discriminate.
Qed.
Lemma nonsquare_ok : forall s, f_mul s s <> ed_d.
Proof.
  intros s H. apply (small_nonsquare (f_mul s (of 121666))). rewrite <- small_d_ok, <- H.
  replace (of (121666 * 121666)) with (f_mul (of 121666) (of 121666)) by (apply val_eq; vm_compute; reflexivity).
  generalize (of 121666). intro c. fp. idem. f_equal. ring.
Qed.
