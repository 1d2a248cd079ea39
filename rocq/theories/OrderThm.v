(** The base point of X25519 has prime order. *)
From Coq Require Import Init.Byte ZArith Znumtheory Field Lia.
From Verif Require Import Prim PrimThm PolyThm PrimeThm FieldThm EdThm DhThm.
Local Open Scope Z_scope.

Definition ell : Z := 2 ^ 252 + 27742317777372353535851937790883648493.
Lemma prime_531581 : prime 531581.
Proof. apply (by_trial _ 730); [reflexivity|reflexivity|vm_compute; reflexivity]. Qed.
Lemma prime_1224481 : prime 1224481.
Proof. apply (by_trial _ 1110); [reflexivity|reflexivity|vm_compute; reflexivity]. Qed.
Lemma prime_l5 : prime 1257559732178653.
Proof. apply (certify2 _ 531581 1224481 2 prime_531581 prime_1224481). vm_compute. reflexivity. Qed.
Lemma prime_l4 : prime 4434155615661930479.
Proof. apply (certify1 _ _ 2 prime_l5). vm_compute. reflexivity. Qed.
Lemma prime_l3 : prime 172054593956031949258510691.
Proof. apply (certify1 _ _ 2 prime_l4). vm_compute. reflexivity. Qed.
Lemma prime_l2 : prime 19757330305831588566944191468367130476339.
Proof. apply (certify1 _ _ 2 prime_l3). vm_compute. reflexivity. Qed.
Lemma prime_l1 : prime 276602624281642239937218680557139826668747.
Proof. apply (certify1 _ _ 2 prime_l2). vm_compute. reflexivity. Qed.
Lemma prime_ell : prime ell.
Proof. apply (certify1 _ _ 2 prime_l1). vm_compute. reflexivity. Qed.

(** ** The order *)
Lemma y_one : forall P, e_on P -> snd P = F1 -> P = e_origin.
Proof.
  intros [x y] O Y. cbn [snd] in Y. subst y. unfold e_on, on, on_curve in O. cbn [fst snd] in O.
  assert (f_mul (f_mul x x) (f_sub F1 ed_d) = F0) as Z.
  { transitivity (f_sub (f_add (f_mul x x) (f_mul F1 F1)) (f_add F1 (f_mul (f_mul ed_d (f_mul x x)) (f_mul F1 F1))));
      [ring|rewrite O; ring]. }
  apply (mul_zero _ _ _ _ _ _ _ _ _ field_ok f_dec) in Z. destruct Z as [Z|Z].
  - apply (mul_zero _ _ _ _ _ _ _ _ _ field_ok f_dec) in Z. unfold e_origin, origin. destruct Z as [->| ->]; reflexivity.
  - apply (f_equal val) in Z. revert Z. vm_compute. discriminate.
Qed.
Lemma base_not_two : u_of base <> F0.
Proof. intro H. apply (f_equal val) in H. revert H. rewrite <- base_u. vm_compute. discriminate. Qed.
Lemma ladder_of_ell : l_z2 (ladder (val (u_of base)) (Z.to_N ell) 253 false {| l_x2 := 1; l_z2 := 0; l_x3 := val (u_of base); l_z3 := 1 |}) = 0.
Proof. rewrite <- base_u. rewrite <- ladderf_eq. vm_compute. reflexivity. Qed.
Lemma start_reps : forall P, u_of P <> F0 ->
  reps (cswap false {| l_x2 := 1; l_z2 := 0; l_x3 := val (u_of P); l_z3 := 1 |}) (e_times 0 P) (e_times (0 + 1) P).
Proof.
  intros P NZ. exists F1, F0, (u_of P), F1. split; [reflexivity|]. change (e_times 0 P) with e_origin. split.
  - apply (rep_intro _ _ _ _ _ _ _ _ _ field_ok f_dec two_ok); cbn [snd e_origin origin]; [ring|]. intro H. now contradiction one_ok.
  - change (0 + 1)%N with 1%N. rewrite e_times_1. apply (rep_intro _ _ _ _ _ _ _ _ _ field_ok f_dec two_ok).
    + pose proof (u_of_has P NZ) as H. unfold has_u in H. rewrite H. ring.
    + intro H. contradiction.
Qed.
Lemma ell_base : e_times (Z.to_N ell) base = e_origin.
Proof.
  pose proof (ladder_times base (u_of base) (Z.to_N ell) base_on (u_of_has _ base_not_two) base_not_two 253 _ _ _ (start_reps base base_not_two)) as L.
  cbv zeta in L. rewrite N.mul_0_l, N.add_0_l in L. rewrite (N.mod_small (Z.to_N ell)) in L by reflexivity.
  destruct L as (x2 & z2 & x3 & z3 & E & (k & K & X & Z) & _). apply (f_equal l_z2) in E. rewrite ladder_of_ell in E. cbn [l_z2] in E.
  assert (z2 = F0) as Z2 by (apply val_eq; symmetry; exact E). rewrite Z2 in Z. symmetry in Z.
  apply (mul_zero _ _ _ _ _ _ _ _ _ field_ok f_dec) in Z. destruct Z as [Z|Z]; [contradiction|].
  apply y_one; [apply e_on_times, base_on|].
  generalize dependent (snd (e_times (Z.to_N ell) base)). intros w _ Z.
  replace w with (f_sub F1 (f_sub F1 w)) by ring. rewrite Z. ring.
Qed.
Lemma base_origin : base <> e_origin.
Proof. intro H. apply base_not_two. rewrite H. unfold u_of. cbn [snd e_origin origin]. destruct (f_dec F1 F1) as [|NE]; [reflexivity|now contradiction NE]. Qed.

Lemma order : forall n, e_times n base = e_origin -> (ell | Z.of_N n).
Proof.
  intros n H. destruct (Zdivide_dec ell (Z.of_N n)) as [Y|NY]; [exact Y|exfalso].
  pose proof (prime_rel_prime ell prime_ell (Z.of_N n) NY) as RP. apply rel_prime_bezout in RP. destruct RP as [u v UV].
  assert (B : exists x y : N, (x * n = 1 + y * Z.to_N ell)%N).
  { assert (LP : 0 < ell) by reflexivity. 
    exists (Z.to_N (v mod ell)), (Z.to_N ((v mod ell * Z.of_N n - 1) / ell)).
    assert (M : 0 <= v mod ell < ell) by (apply Z.mod_pos_bound; exact LP).
    assert (D : (ell | v mod ell * Z.of_N n - 1)).
    { exists (- u - v / ell * Z.of_N n). pose proof (Z.div_mod v ell ltac:(lia)) as DM.
      replace (v mod ell) with (v - ell * (v / ell)) by lia. rewrite <- UV. ring. }
    destruct D as [q Q]. rewrite Q, Z.div_mul by lia.
    assert (0 <= q).
    { assert (0 <= v mod ell * Z.of_N n) by (apply Z.mul_nonneg_nonneg; lia).
      assert (v mod ell * Z.of_N n <> 0).
      { intro Z0. rewrite Z0 in Q. assert (Z.abs (q * ell) = 1) as A1 by lia. rewrite Z.abs_mul in A1.
        apply Z.eq_mul_1_nonneg in A1; [|lia]. unfold ell in *. lia. }
      assert (0 <= q * ell) by lia. nia. }
    apply N2Z.inj. rewrite N2Z.inj_add, !N2Z.inj_mul, !Z2N.id by lia. change (Z.of_N 1) with 1. lia. }
  destruct B as (x & y & E). apply base_origin.
  assert (e_times (x * n) base = e_origin) as A by (rewrite e_times_mul by exact base_on; rewrite H; apply e_times_origin).
  rewrite E, e_times_add, e_times_1, e_times_mul, ell_base, e_times_origin, e_plus_comm, e_plus_origin in A by exact base_on. exact A.
Qed.

(** ** Points with the same coordinate *)
Lemma u_of_eq : forall P Q, e_on P -> e_on Q -> u_of P = u_of Q -> u_of P <> F0 -> P = Q \/ P = e_neg Q.
Proof.
  intros [x y] [x' y'] O O' E NZ.
  assert (NZ' : u_of (x', y') <> F0) by (rewrite <- E; exact NZ).
  pose proof (u_of_has _ NZ) as U. pose proof (u_of_has _ NZ') as U'. rewrite <- E in U'.
  unfold has_u in U, U'. cbn [snd] in U, U'. set (u := u_of (x, y)) in *. clearbody u. clear E NZ'.
  assert (Y : y = y').
  { destruct (f_dec (f_add u F1) F0) as [Z|Z].
    - exfalso. apply two_ok. transitivity (f_add (f_add F1 y) (f_sub F1 y)); [ring|]. rewrite <- U.
      transitivity (f_mul (f_add u F1) (f_sub F1 y)); [ring|]. rewrite Z. ring.
    - assert (forall w, f_mul u (f_sub F1 w) = f_add F1 w -> w = f_div (f_sub u F1) (f_add u F1)) as W.
      { intros w H. replace (f_sub u F1) with (f_sub (f_add (f_mul u (f_sub F1 w)) (f_mul u w)) F1) by ring. rewrite H. field. exact Z. }
      rewrite (W y U), (W y' U'). reflexivity. }
  subst y'. unfold e_on, on, on_curve in O, O'. cbn [fst snd] in O, O'.
  assert (D : f_sub F1 (f_mul ed_d (f_mul y y)) <> F0).
  { intro Z. apply (nonsquare_ok (f_inv y)).
    assert (NY : y <> F0) by (intro H; rewrite H in Z; apply one_ok; rewrite <- Z; ring).
    replace ed_d with (f_mul (f_mul ed_d (f_mul y y)) (f_mul (f_inv y) (f_inv y))) by (field; exact NY).
    replace (f_mul ed_d (f_mul y y)) with (f_sub F1 (f_sub F1 (f_mul ed_d (f_mul y y)))) by ring. rewrite Z. ring. }
  assert (X : f_mul (f_sub x x') (f_add x x') = F0).
  { assert (f_mul (f_mul (f_sub x x') (f_add x x')) (f_sub F1 (f_mul ed_d (f_mul y y))) = F0) as Z.
    { transitivity (f_sub (f_sub (f_add (f_mul x x) (f_mul y y)) (f_add F1 (f_mul (f_mul ed_d (f_mul x x)) (f_mul y y))))
                          (f_sub (f_add (f_mul x' x') (f_mul y y)) (f_add F1 (f_mul (f_mul ed_d (f_mul x' x')) (f_mul y y))))); [ring|].
      rewrite O, O'. ring. }
    apply (mul_zero _ _ _ _ _ _ _ _ _ field_ok f_dec) in Z. destruct Z as [Z|Z]; [exact Z|contradiction]. }
  apply (mul_zero _ _ _ _ _ _ _ _ _ field_ok f_dec) in X. unfold e_neg, neg. cbn [fst snd]. destruct X as [X|X]; [left|right]; f_equal.
  - replace x with (f_add (f_sub x x') x') by ring. rewrite X. ring.
  - replace x with (f_sub (f_add x x') x') by ring. rewrite X. ring.
Qed.

(** ** Scalars *)
Lemma scalar_range : forall k, exists m, (decode_scalar k = 8 * m)%N /\ (2 ^ 251 <= m < 2 ^ 252)%N.
Proof.
  intro k. pose proof (scalar_lt k) as L. unfold decode_scalar in *. cbv zeta in *.
  set (m := (le_value k mod 2 ^ 255 mod 2 ^ 254 / 8)%N) in *. exists (2 ^ 251 + m)%N.
  change (2 ^ 255)%N with (8 * 2 ^ 252)%N in L. change (2 ^ 254)%N with (8 * 2 ^ 251)%N in *. lia.
Qed.
Lemma ell_odd : forall n, (ell | 2 * n) -> (ell | n).
Proof.
  intros n H. apply Gauss in H; [exact H|]. apply prime_rel_prime; [exact prime_ell|].
  intro D. apply Z.divide_pos_le in D; [|reflexivity]. exact (D eq_refl).
Qed.
Lemma scalar_not_ell : forall k, ~ (ell | Z.of_N (decode_scalar k)).
Proof.
  intros k D. destruct (scalar_range k) as (m & E & M). rewrite E, N2Z.inj_mul in D.
  change (Z.of_N 8) with (2 * (2 * 2)) in D. rewrite <- !Z.mul_assoc in D. do 3 apply ell_odd in D.
  apply Z.divide_pos_le in D; [|lia]. assert (2 ^ 252 < ell) by reflexivity.
  assert (Z.of_N m < 2 ^ 252) by (change (2 ^ 252) with (Z.of_N (2 ^ 252)); lia). lia.
Qed.
Lemma shared_times : forall a b, x25519_of a (x25519_public_of b) = encode (u_of (e_times (decode_scalar a * decode_scalar b) base)).
Proof.
  intros a b. rewrite public_times, e_times_mul by exact base_on.
  apply x25519_times; [apply e_on_times, base_on|apply decode_encode].
Qed.
Lemma encode_inj : forall u v, encode u = encode v -> u = v.
Proof. intros u v H. apply val_eq. rewrite <- (decode_encode u), <- (decode_encode v), H. reflexivity. Qed.
Lemma honest_nonzero : forall a b, u_of (e_times (decode_scalar a * decode_scalar b) base) <> F0.
Proof.
  intros a b Z. apply u_zero in Z; [|apply e_on_times, base_on]. rewrite <- e_times_mul in Z by exact base_on.
  apply order in Z. rewrite N2Z.inj_mul in Z. apply ell_odd in Z. rewrite N2Z.inj_mul in Z.
  apply prime_mult in Z; [|exact prime_ell]. destruct Z as [Z|Z]; exact (scalar_not_ell _ Z).
Qed.
Theorem secret_nonzero : forall a b, x25519_of a (x25519_public_of b) <> repeat x00 32.
Proof.
  intros a b H. rewrite shared_times in H. apply (honest_nonzero a b). apply encode_inj. rewrite H. reflexivity.
Qed.

Lemma cancel_right : forall b n, (ell | n * Z.of_N (decode_scalar b)) -> (ell | n).
Proof. intros b n H. apply prime_mult in H; [|exact prime_ell]. destruct H as [H|H]; [exact H|]. now apply scalar_not_ell in H. Qed.
Lemma same_multiple : forall n m P, e_on P -> e_times n P = e_times m P -> (m <= n)%N -> e_times (n - m) P = e_origin.
Proof.
  intros n m P O H L. replace n with (n - m + m)%N in H by lia. rewrite e_times_add in H by exact O.
  assert (OM : e_on (e_times m P)) by (apply e_on_times, O). assert (OD : e_on (e_times (n - m) P)) by (apply e_on_times, O).
  apply (f_equal (fun Q => e_plus Q (e_neg (e_times m P)))) in H. cbv beta in H.
  rewrite e_plus_assoc in H by (try assumption; apply e_on_neg, OM). rewrite e_plus_neg in H by exact OM.
  rewrite e_plus_comm, e_plus_origin in H. exact H.
Qed.
Theorem secret_distinct : forall a a' b, x25519_of a (x25519_public_of b) = x25519_of a' (x25519_public_of b) ->
  decode_scalar a = decode_scalar a' \/ (Z.of_N (decode_scalar a + decode_scalar a') = 8 * ell).
Proof.
  intros a a' b H. rewrite !shared_times in H. apply encode_inj in H.
  apply u_of_eq in H; [|apply e_on_times, base_on..|apply honest_nonzero].
  destruct (scalar_range a) as (m & E & M). destruct (scalar_range a') as (m' & E' & M').
  assert (EL : 2 ^ 252 < ell) by reflexivity. assert (EU : ell < 2 ^ 252 + 2 ^ 252) by reflexivity.
  change (2 ^ 252) with (Z.of_N (2 ^ 252)) in EL, EU.
  destruct H as [H|H].
  - left.
    assert (forall x y z, e_times (x * z) base = e_times (y * z) base -> (y <= x)%N -> (z = decode_scalar b) -> (ell | Z.of_N (x - y))) as G.
    { intros x y z HH L Z. apply same_multiple in HH; [|exact base_on|nia]. rewrite <- N.mul_sub_distr_r in HH.
      apply order in HH. rewrite N2Z.inj_mul, Z in HH. now apply cancel_right in HH. }
    assert (forall x y, (ell | Z.of_N (8 * x - 8 * y)) -> (x < 2 ^ 252)%N -> (y <= x)%N -> x = y) as U.
    { intros x y D X L. replace (Z.of_N (8 * x - 8 * y)) with (2 * (2 * (2 * Z.of_N (x - y)))) in D by lia.
      do 3 apply ell_odd in D. destruct (N.eq_dec x y) as [|NE]; [assumption|].
      apply Z.divide_pos_le in D; lia. }
    rewrite E, E' in *. destruct (N.le_ge_cases m' m) as [L|L].
    + f_equal. apply U; [|lia|exact L]. apply (G _ _ _ H); [lia|reflexivity].
    + f_equal. symmetry. apply U; [|lia|exact L]. apply (G _ _ _ (eq_sym H)); [lia|reflexivity].
  - right. apply (f_equal (e_plus (e_times (decode_scalar a' * decode_scalar b) base))) in H.
    rewrite e_plus_neg in H by (apply e_on_times, base_on).
    rewrite <- e_times_add in H by exact base_on. rewrite <- N.mul_add_distr_r in H. apply order in H.
    rewrite N2Z.inj_mul in H. apply cancel_right in H. rewrite E, E' in H.
    replace (Z.of_N (8 * m' + 8 * m)) with (2 * (2 * (2 * Z.of_N (m' + m)))) in H by lia. do 3 apply ell_odd in H.
    destruct H as [q Q]. rewrite E, E'.
    change (2 ^ 252)%N with (2 * 2 ^ 251)%N in *.
    assert (q = 1) by nia. lia.
Qed.
