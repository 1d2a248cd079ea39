(** Ed25519 computes on the curve of X25519; a signature that was made is
    accepted. *)
From Coq Require Import Init.Byte ZArith Znumtheory Zpow_facts Field Bool Lia.
From Verif Require Import Prim PrimThm BaseFacts PolyThm PrimeThm FieldThm EdThm DhThm OrderThm Sig.
Local Open Scope Z_scope.

Lemma f_opp_opp : forall a, f_opp (f_opp a) = a.
Proof. intro a. ring. Qed.
(** ** The square root of -1 *)
Definition im : Fp := of modp_sqrt_m1.
Lemma im_sq : f_mul im im = f_opp F1.
Proof. apply val_eq. vm_compute. reflexivity. Qed.
Lemma im_nonzero : im <> F0.
Proof. intro H. apply (f_equal val) in H. revert H. vm_compute. discriminate. Qed.
Lemma minus_d : of ed_minus_d = f_opp ed_d.
Proof. apply val_eq. vm_compute. reflexivity. Qed.

(** The point of the curve with d that stands for one of the curve with -d. *)
Definition turn (P : pt) : pt := (f_mul im (fst P), snd P).
Lemma turn_inj : forall P Q, turn P = turn Q -> P = Q.
Proof.
  intros [x y] [x' y'] H. pose proof (f_equal fst H) as X. pose proof (f_equal snd H) as Y.
  unfold turn in X, Y. cbn [fst snd] in X, Y. rewrite Y. f_equal. clear H Y.
  generalize im_nonzero X. generalize im. clear X. intros i I X.
  replace x with (f_div (f_mul i x) i) by (field; exact I). rewrite X. field. exact I.
Qed.
Lemma nonzero_mul : forall a b, a <> F0 -> b <> F0 -> f_mul a b <> F0.
Proof. exact (mul_nonzero _ _ _ _ _ _ _ _ _ field_ok f_dec). Qed.
Definition t_plus (P Q : pt) : pt :=
  let t := f_mul (f_mul (f_mul (f_mul (of ed_minus_d) (fst P)) (fst Q)) (snd P)) (snd Q) in
  (f_div (f_add (f_mul (fst P) (snd Q)) (f_mul (fst Q) (snd P))) (f_add F1 t),
   f_div (f_add (f_mul (snd P) (snd Q)) (f_mul (fst P) (fst Q))) (f_sub F1 t)).
Lemma t_denominators : forall P Q, e_on (turn P) -> e_on (turn Q) ->
  let t := f_mul (f_mul (f_mul (f_mul (of ed_minus_d) (fst P)) (fst Q)) (snd P)) (snd Q) in
  f_add F1 t <> F0 /\ f_sub F1 t <> F0.
Proof.
  intros [x y] [x' y'] O O' t. unfold t. cbn [fst snd]. rewrite minus_d.
  pose proof (complete_plus _ _ _ _ _ _ _ _ _ field_ok f_dec ed_d two_ok nonsquare_ok _ _ _ _ O O') as A.
  pose proof (complete_minus _ _ _ _ _ _ _ _ _ field_ok f_dec ed_d two_ok nonsquare_ok _ _ _ _ O O') as C.
  unfold turn in A, C. cbn [fst snd] in A, C.
  assert (E : f_mul (f_mul (f_mul (f_mul ed_d (f_mul im x)) (f_mul im x')) y) y' = f_mul (f_mul (f_mul (f_mul (f_opp ed_d) x) x') y) y').
  { transitivity (f_mul (f_mul im im) (f_mul (f_mul (f_mul (f_mul ed_d x) x') y) y')); [ring|]. rewrite im_sq. ring. }
  rewrite E in A, C. split; assumption.
Qed.
Lemma turn_plus : forall P Q, turn (t_plus P Q) = e_plus (turn P) (turn Q).
Proof.
  intros [x y] [x' y']. unfold turn, t_plus, e_plus, plus. cbn [fst snd].
  assert (E : f_mul (f_mul (f_mul (f_mul ed_d (f_mul im x)) (f_mul im x')) y) y' = f_mul (f_mul (f_mul (f_mul (of ed_minus_d) x) x') y) y').
  { rewrite minus_d. transitivity (f_mul (f_mul im im) (f_mul (f_mul (f_mul (f_mul ed_d x) x') y) y')); [ring|]. rewrite im_sq. ring. }
  rewrite E. unfold f_div. f_equal; [ring|].
  replace (f_mul (f_mul im x) (f_mul im x')) with (f_mul (f_mul im im) (f_mul x x')) by ring. rewrite im_sq. ring.
Qed.

(** ** Extended coordinates *)
Definition ext (q : Point) (P : pt) : Prop := exists z, z <> F0 /\
  q = {| p_x := val (f_mul (fst P) z); p_y := val (f_mul (snd P) z); p_z := val z; p_t := val (f_mul (f_mul (fst P) (snd P)) z) |}.
Lemma ext_add : forall q q' P Q, ext q P -> ext q' Q -> e_on (turn P) -> e_on (turn Q) -> ext (point_add q q') (t_plus P Q).
Proof.
  intros q q' [x y] [x' y'] (z & Z & ->) (z' & Z' & ->) O O'. cbn [fst snd].
  destruct (t_denominators _ _ O O') as [A C]. cbn [fst snd] in A, C.
  set (t := f_mul (f_mul (f_mul (f_mul (of ed_minus_d) x) x') y) y') in *.
  set (two := f_add F1 F1). set (w := f_mul two (f_mul z z')).
  assert (W : w <> F0) by (unfold w; apply nonzero_mul; [exact two_ok|apply nonzero_mul; assumption]).
  exists (f_mul (f_mul w w) (f_mul (f_add F1 t) (f_sub F1 t))).
  split; [apply nonzero_mul; apply nonzero_mul; assumption|].
  unfold point_add. cbn [p_x p_y p_z p_t]. unfold t_plus. cbn [fst snd]. fold t.
  set (a := f_mul (f_sub (f_mul y z) (f_mul x z)) (f_sub (f_mul y' z') (f_mul x' z'))).
  set (b := f_mul (f_add (f_mul y z) (f_mul x z)) (f_add (f_mul y' z') (f_mul x' z'))).
  set (c := f_mul (f_mul (f_mul two (f_mul (f_mul x y) z)) (f_mul (f_mul x' y') z')) (of ed_minus_d)).
  set (d := f_mul (f_mul two z) z').
  assert (E1 : f_sub b a = f_mul w (f_add (f_mul x y') (f_mul x' y))) by (unfold a, b, w, two; ring).
  assert (E2 : f_sub d c = f_mul w (f_sub F1 t)) by (unfold c, d, w, t; ring).
  assert (E3 : f_add d c = f_mul w (f_add F1 t)) by (unfold c, d, w, t; ring).
  assert (E4 : f_add b a = f_mul w (f_add (f_mul y y') (f_mul x x'))) by (unfold a, b, w, two; ring).
  transitivity {| p_x := val (f_mul (f_sub b a) (f_sub d c)); p_y := val (f_mul (f_add d c) (f_add b a));
                  p_z := val (f_mul (f_sub d c) (f_add d c)); p_t := val (f_mul (f_sub b a) (f_add b a)) |}; [reflexivity|].
  rewrite E1, E2, E3, E4. clearbody t w. clear E1 E2 E3 E4 a b c d.
  f_equal; f_equal; field; repeat split; assumption.
Qed.

(** [q] stands for the point [A] of the curve with d *)
Definition at_pt (q : Point) (A : pt) : Prop := exists P, turn P = A /\ ext q P /\ e_on A.
Lemma at_add : forall q q' A A', at_pt q A -> at_pt q' A' -> at_pt (point_add q q') (e_plus A A').
Proof.
  intros q q' A A' (P & <- & X & O) (P' & <- & X' & O'). exists (t_plus P P'). split; [apply turn_plus|].
  split; [now apply ext_add|].
  exact (on_plus _ _ _ _ _ _ _ _ _ field_ok f_dec ed_d two_ok nonsquare_ok _ _ O O').
Qed.
Lemma e_on_origin : e_on e_origin.
Proof. exact (on_origin _ _ _ _ _ _ _ _ _ field_ok ed_d). Qed.
Lemma at_zero : at_pt point_zero e_origin.
Proof.
  exists (F0, F1). split; [unfold turn, e_origin, origin; cbn [fst snd]; f_equal; generalize im; intro i; ring|].
  split; [|exact e_on_origin]. exists F1. split; [exact one_ok|]. reflexivity.
Qed.
Lemma at_loop : forall s Q P A B, at_pt Q A -> at_pt P B -> at_pt (point_loop s Q P) (e_plus A (e_times (Npos s) B)).
Proof.
  assert (D : forall s B, e_on B -> e_times (Npos s) (e_plus B B) = e_times (N.double (Npos s)) B).
  { intros s B O. rewrite N.double_spec, N.mul_comm, e_times_mul by exact O. f_equal.
    change 2%N with (1 + 1)%N. rewrite e_times_succ, e_times_1. reflexivity. }
  induction s as [s IH|s IH|]; intros Q P A B HA HB; cbn [point_loop].
  - pose proof HA as (PA & _ & _ & OA). pose proof HB as (PB & _ & _ & OB).
    pose proof (IH _ _ _ _ (at_add _ _ _ _ HA HB) (at_add _ _ _ _ HB HB)) as R. rewrite D in R by exact OB.
    rewrite e_plus_assoc in R by (try assumption; apply e_on_times; exact OB).
    rewrite <- e_times_succ in R. replace (N.double (N.pos s) + 1)%N with (N.pos (xI s)) in R by (rewrite N.double_spec; lia). exact R.
  - pose proof HB as (PB & _ & _ & OB). pose proof (IH _ _ _ _ HA (at_add _ _ _ _ HB HB)) as R. rewrite D in R by exact OB. exact R.
  - rewrite e_times_1. now apply at_add.
Qed.
Lemma at_mul : forall s P B, at_pt P B -> at_pt (point_mul s P) (e_times s B).
Proof.
  intros [|s] P B H; [exact at_zero|]. cbn [point_mul]. pose proof (at_loop s _ _ _ _ at_zero H) as R. rewrite e_plus_origin in R. exact R.
Qed.
Lemma at_base : at_pt ed_base base.
Proof.
  exists (of 15112221349535400772501151409588531511454012693041857206046113283949847762202,
          of 46316835694926478169428394003475163141307993866256225615783033603165251855960).
  split; [|split; [|exact base_on]].
  - unfold turn, base. cbn [fst snd]. f_equal; apply val_eq; vm_compute; reflexivity.
  - exists F1. split; [exact one_ok|]. unfold ed_base. cbn [fst snd]. f_equal; vm_compute; reflexivity.
Qed.
Lemma at_equal : forall q q' A, at_pt q A -> at_pt q' A -> point_equal q q' = true.
Proof.
  intros q q' A (P & T & X & _) (P' & T' & X' & _). rewrite <- T' in T. apply turn_inj in T. subst P'.
  destruct P as [x y]. destruct X as (z & _ & ->). destruct X' as (z' & _ & ->). cbn [fst snd].
  unfold point_equal. cbn [p_x p_y p_z].
  change (fsub (fmul (val (f_mul x z)) (val z')) (fmul (val (f_mul x z')) (val z))) with
    (val (f_sub (f_mul (f_mul x z) z') (f_mul (f_mul x z') z))).
  change (fsub (fmul (val (f_mul y z)) (val z')) (fmul (val (f_mul y z')) (val z))) with
    (val (f_sub (f_mul (f_mul y z) z') (f_mul (f_mul y z') z))).
  replace (f_sub (f_mul (f_mul x z) z') (f_mul (f_mul x z') z)) with F0 by ring.
  replace (f_sub (f_mul (f_mul y z) z') (f_mul (f_mul y z') z)) with F0 by ring. reflexivity.
Qed.

(** ** Encoding *)
Definition code (P : pt) : bytes := le_bytes 32 (Z.to_N (val (snd P)) + (if Z.odd (val (fst P)) then 2 ^ 255 else 0)).
Lemma div_val : forall a z, z <> F0 -> fmul (val (f_mul a z)) (finv (val z)) = val a.
Proof.
  intros a z Z. transitivity (val (f_div (f_mul a z) z)).
  - change (val (f_div (f_mul a z) z)) with ((val (f_mul a z) * (finv (val z) mod p25519)) mod p25519).
    rewrite Zmult_mod_idemp_r. reflexivity.
  - f_equal. field. exact Z.
Qed.
Lemma ext_code : forall q P, ext q P -> point_compress q = code P.
Proof.
  intros q [x y] (z & Z & ->). unfold point_compress, code. cbn [p_x p_y p_z fst snd]. rewrite !div_val by exact Z. reflexivity.
Qed.
Lemma fpow_reduced : forall e a, a mod p25519 = a -> fpow a e mod p25519 = fpow a e.
Proof.
  induction e as [e IH|e IH|]; intros a H; cbn [fpow]; [|apply IH|exact H]; unfold fmul; apply Z.mod_mod; discriminate.
Qed.
Lemma fpow_val : forall a e, exists b, fpow (val a) e = val b /\ val b = val a ^ Zpos e mod p25519.
Proof.
  intros a e. exists (of (fpow (val a) e)). cbn [val of].
  rewrite (fpow_reduced e (val a)) by apply val_mod. split; [reflexivity|]. rewrite <- fpow_eq. symmetry. apply fpow_reduced, val_mod.
Qed.
Lemma square_eq : forall a b, f_mul a a = f_mul b b -> a = b \/ a = f_opp b.
Proof.
  intros a b H. assert (f_mul (f_sub a b) (f_add a b) = F0) as Z by (transitivity (f_sub (f_mul a a) (f_mul b b)); [ring|rewrite H; ring]).
  apply (mul_zero _ _ _ _ _ _ _ _ _ field_ok f_dec) in Z. destruct Z as [Z|Z]; [left|right].
  - replace a with (f_add (f_sub a b) b) by ring. rewrite Z. ring.
  - replace a with (f_sub (f_add a b) b) by ring. rewrite Z. ring.
Qed.
Lemma opp_val : forall a, a <> F0 -> val (f_opp a) = p25519 - val a.
Proof.
  intros a H. cbn [val f_opp of]. pose proof (val_lt a) as L. assert (val a <> 0) by (intro E; apply H, val_eq; exact E).
  rewrite <- (Z.mod_small (p25519 - val a) p25519) by lia. rewrite <- Zminus_mod_idemp_l, Z_mod_same_full. reflexivity.
Qed.
Lemma odd_opp : forall a, a <> F0 -> Z.odd (val (f_opp a)) = negb (Z.odd (val a)).
Proof. intros a H. rewrite opp_val by exact H. rewrite Z.odd_sub. change (Z.odd p25519) with true. destruct (Z.odd (val a)); reflexivity. Qed.

Lemma euler : forall x, x <> F0 -> exists s, (s = F1 \/ s = f_opp F1) /\
  exists c, fpow (val (f_mul x x)) (Z.to_pos ((p25519 + 3) / 8)) = val c /\ f_mul c c = f_mul (f_mul x x) s.
Proof.
  intros x NZ. set (h := (p25519 - 1) / 2). exists (of (val x ^ h)). split.
  - assert (S : f_mul (of (val x ^ h)) (of (val x ^ h)) = f_mul F1 F1).
    { apply val_eq. cbn [val f_mul of]. idem. rewrite <- Z.pow_add_r by discriminate.
      change (h + h) with (p25519 - 1). rewrite (fermat p25519 prime_25519); [reflexivity|].
      apply not_divides. intro E. apply NZ, val_eq. exact E. }
    apply square_eq in S. exact S.
  - set (e := Z.to_pos ((p25519 + 3) / 8)). destruct (fpow_val (f_mul x x) e) as (c & E & C). exists c. split; [exact E|].
    apply val_eq. cbn [val f_mul of]. rewrite C. cbn [val f_mul of]. idem.
    rewrite <- (Z.pow_add_r _ (Zpos e) (Zpos e)) by discriminate. rewrite <- Zpower_mod by reflexivity.
    replace (val x * val x) with (val x ^ 2) by ring. rewrite <- Z.pow_mul_r by discriminate. rewrite <- Z.pow_add_r by discriminate.
    reflexivity.
Qed.

(** ** Decoding *)
Lemma y_denominator : forall y, f_add (f_mul (of ed_minus_d) (f_mul y y)) F1 <> F0.
Proof.
  intros y H. rewrite minus_d in H.
  assert (E : f_mul ed_d (f_mul y y) = F1).
  { transitivity (f_sub F1 (f_add (f_mul (f_opp ed_d) (f_mul y y)) F1)); [ring|]. rewrite H. ring. }
  assert (Y : y <> F0). { intros ->. apply one_ok. rewrite <- E. ring. }
  apply (nonsquare_ok (f_div F1 y)). replace ed_d with (f_div (f_mul ed_d (f_mul y y)) (f_mul y y)) by (field; exact Y).
  rewrite E. field. exact Y.
Qed.
Lemma x_square : forall x y, e_on (turn (x, y)) ->
  fmul (fsub (fmul (val y) (val y)) 1) (finv (fadd (fmul ed_minus_d (fmul (val y) (val y))) 1)) = val (f_mul x x).
Proof.
  intros x y O. pose proof (y_denominator y) as D.
  rewrite <- (div_val (f_mul x x) _ D). unfold e_on, on, on_curve, turn in O. cbn [fst snd] in O.
  replace (f_mul (f_mul x x) (f_add (f_mul (of ed_minus_d) (f_mul y y)) F1)) with (f_sub (f_mul y y) F1); [reflexivity|].
  rewrite minus_d. generalize im_sq O. generalize im. clear D O. intros i I O.
  replace (f_sub (f_mul y y) F1) with (f_sub (f_sub (f_add (f_mul (f_mul i x) (f_mul i x)) (f_mul y y)) F1) (f_mul (f_mul i i) (f_mul x x))) by ring.
  match type of O with ?l = ?r => replace (f_add (f_mul (f_mul i x) (f_mul i x)) (f_mul y y)) with r by (rewrite <- O; ring) end.
  transitivity (f_sub (f_mul (f_mul i i) (f_mul ed_d (f_mul (f_mul x x) (f_mul y y)))) (f_mul (f_mul i i) (f_mul x x))); [ring|].
  rewrite I. ring.
Qed.
Lemma zero_test : forall a, (val a =? 0)%Z = if f_dec a F0 then true else false.
Proof.
  intro a. destruct (f_dec a F0) as [->|N0]; [reflexivity|]. apply Z.eqb_neq. intro E. apply N0, val_eq. exact E.
Qed.
Lemma recover : forall x y, e_on (turn (x, y)) -> recover_x (val y) (Z.odd (val x)) = Some (val x).
Proof.
  intros x y O. unfold recover_x. pose proof (val_lt y) as LY.
  replace (p25519 <=? val y) with false by (symmetry; apply Z.leb_gt; lia).
  rewrite (x_square x y O). rewrite zero_test. destruct (f_dec (f_mul x x) F0) as [E|E].
  - apply (mul_zero _ _ _ _ _ _ _ _ _ field_ok f_dec) in E. assert (x = F0) as -> by (destruct E; assumption). reflexivity.
  - assert (NZ : x <> F0) by (intros ->; apply E; ring).
    destruct (euler x NZ) as (s & S & c & C & CC). rewrite C.
    change (fsub (fmul (val c) (val c)) (val (f_mul x x))) with (val (f_sub (f_mul c c) (f_mul x x))).
    assert (R : exists r, (if val (f_sub (f_mul c c) (f_mul x x)) =? 0 then val c else fmul (val c) modp_sqrt_m1) = val r /\ f_mul r r = f_mul x x).
    { rewrite zero_test. destruct (f_dec (f_sub (f_mul c c) (f_mul x x)) F0) as [T|T].
      - exists c. split; [reflexivity|]. replace (f_mul c c) with (f_add (f_sub (f_mul c c) (f_mul x x)) (f_mul x x)) by ring. rewrite T. ring.
      - exists (f_mul c im). split; [reflexivity|].
        replace (f_mul (f_mul c im) (f_mul c im)) with (f_mul (f_mul c c) (f_mul im im)) by (generalize im; intro; ring).
        rewrite im_sq, CC. destruct S as [-> | ->]; [|ring]. exfalso. apply T. rewrite CC. ring. }
    destruct R as (r & -> & RR). cbv zeta.
    change (fsub (fmul (val r) (val r)) (val (f_mul x x))) with (val (f_sub (f_mul r r) (f_mul x x))).
    replace (f_sub (f_mul r r) (f_mul x x)) with F0 by (rewrite RR; ring). cbn [negb]. change (val F0 =? 0) with true. cbn [negb].
    f_equal. destruct (square_eq r x RR) as [->| ->].
    + rewrite eqb_reflx. reflexivity.
    + rewrite odd_opp by exact NZ. destruct (Z.odd (val x)); cbn [negb eqb]; rewrite opp_val by exact NZ; ring.
Qed.
Lemma code_length : forall P, length (code P) = 32%nat.
Proof. intro P. apply le_bytes_length. Qed.
Lemma code_value : forall P, le_value (code P) = (Z.to_N (val (snd P)) + (if Z.odd (val (fst P)) then 2 ^ 255 else 0))%N /\ (Z.to_N (val (snd P)) < 2 ^ 255)%N.
Proof.
  intros [x y]. unfold code. cbn [fst snd]. pose proof (val_lt y) as L. rewrite le_bytes_value.
  assert (Z.to_N (val y) < 2 ^ 255)%N as B by (assert (p25519 < 2 ^ 255)%Z by reflexivity; apply N2Z.inj_lt; rewrite Z2N.id by lia; change (Z.of_N (2 ^ 255)) with (2 ^ 255)%Z; lia).
  split; [|exact B]. apply N.mod_small. change (256 ^ N.of_nat 32)%N with (2 ^ 255 + 2 ^ 255)%N.
  generalize dependent (2 ^ 255)%N. intros b B. destruct (Z.odd (val x)); lia.
Qed.
Lemma decompress : forall P, e_on (turn P) -> exists q, point_decompress (code P) = Some q /\ ext q P.
Proof.
  intros P O. destruct (code_value P) as [V B]. unfold point_decompress.
  replace (len (code P)) with 32%N by (unfold len; rewrite code_length; reflexivity). change (negb (32 =? 32)%N) with false. cbv iota. rewrite V.
  destruct P as [x y]. cbn [fst snd] in *.
  assert (M : ((Z.to_N (val y) + (if Z.odd (val x) then 2 ^ 255 else 0)) mod 2 ^ 255 = Z.to_N (val y))%N).
  { destruct (Z.odd (val x)); [|rewrite N.add_0_r; apply N.mod_small; exact B].
    rewrite <- (N.mul_1_l (2 ^ 255)) at 1. rewrite N.mod_add by discriminate. apply N.mod_small. exact B. }
  assert (G : (2 ^ 255 <=? Z.to_N (val y) + (if Z.odd (val x) then 2 ^ 255 else 0))%N = Z.odd (val x)).
  { clear M V O. generalize dependent (2 ^ 255)%N. intros b B. destruct (Z.odd (val x)); [apply N.leb_le|apply N.leb_gt]; lia. }
  rewrite M, G. pose proof (val_lt y) as L. rewrite Z2N.id by lia. rewrite (recover x y O). eexists. split; [reflexivity|].
  exists F1. split; [exact one_ok|]. cbn [fst snd].
  f_equal; try reflexivity.
  - f_equal. ring.
  - f_equal. ring.
  - change (fmul (val x) (val y)) with (val (f_mul x y)). f_equal. ring.
Qed.

(** ** Signatures *)
Lemma at_code : forall q A, at_pt q A -> exists P, turn P = A /\ point_compress q = code P /\
  exists q', point_decompress (point_compress q) = Some q' /\ at_pt q' A.
Proof.
  intros q A (P & T & X & O). exists P. split; [exact T|]. rewrite (ext_code q P X). split; [reflexivity|].
  subst A. destruct (decompress P O) as (q' & D & X'). exists q'. split; [exact D|]. exists P. auto.
Qed.
Lemma order_base : e_times ed_order base = e_origin.
Proof. assert (ed_order = Z.to_N ell) as -> by reflexivity. exact ell_base. Qed.
Lemma times_order : forall n, e_times (n mod ed_order) base = e_times n base.
Proof.
  intro n. rewrite (N.div_mod n ed_order) at 2 by discriminate. rewrite e_times_add by exact base_on.
  rewrite (N.mul_comm ed_order), e_times_mul by exact base_on. rewrite order_base, e_times_origin.
  symmetry. apply e_plus_origin.
Qed.
Lemma le32 : forall n, (n < ed_order)%N -> le_value (le_bytes 32 n) = n.
Proof. intros n H. rewrite le_bytes_value. apply N.mod_small. eapply N.lt_trans; [exact H|reflexivity]. Qed.
Lemma compress_length : forall q, length (point_compress q) = 32%nat.
Proof. intro q. apply le_bytes_length. Qed.
Theorem signed : forall seed m, ed_check (secret_to_public seed) m (ed_sign seed m) = true.
Proof.
  intros seed m. unfold ed_check, ed_sign, secret_to_public.
  generalize (ed_scalar seed) (sha512_modq (ed_prefix seed ++ m)). intros a r.
  cbv zeta. set (A := point_mul a ed_base). set (R := point_mul r ed_base).
  assert (HA : at_pt A (e_times a base)) by (apply at_mul, at_base). assert (HR : at_pt R (e_times r base)) by (apply at_mul, at_base).
  clearbody A R.
  rewrite ntake_app, ndrop_app by (unfold len; rewrite compress_length; reflexivity).
  destruct (at_code A _ HA) as (_ & _ & _ & A' & -> & HA'). destruct (at_code R _ HR) as (_ & _ & _ & R' & -> & HR').
  generalize (sha512_modq (point_compress R ++ point_compress A ++ m)). intro h.
  assert (L : ((r + h * a) mod ed_order < ed_order)%N) by (apply N.mod_lt; discriminate).
  rewrite le32 by exact L. apply andb_true_intro. split; [apply N.ltb_lt; exact L|].
  eapply at_equal; [apply at_mul, at_base|]. rewrite times_order, e_times_add, e_times_mul by exact base_on.
  apply at_add; [exact HR'|]. apply at_mul. exact HA'.
Qed.
