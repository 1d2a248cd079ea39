(** Ed25519: what an accepted signature says. *)
From Coq Require Import Init.Byte ZArith Znumtheory Field Bool Lia.
From Verif Require Import Prim PrimThm BaseFacts PolyThm PrimeThm FieldThm EdThm DhThm OrderThm Sig SigThm SpecSig.
Local Open Scope Z_scope.

Lemma quotient : forall a b, fmul (val a) (finv (val b)) = val (f_div a b).
Proof.
  intros a b. change (val (f_div a b)) with ((val a * (finv (val b) mod p25519)) mod p25519). rewrite Zmult_mod_idemp_r. reflexivity.
Qed.
Lemma on_from_square : forall x y, f_mul (f_mul x x) (f_add (f_mul (of ed_minus_d) (f_mul y y)) F1) = f_sub (f_mul y y) F1 -> e_on (turn (x, y)).
Proof.
  intros x y H. rewrite minus_d in H. unfold e_on, on, on_curve, turn. cbn [fst snd]. generalize im_sq. generalize im. intros i I.
  transitivity (f_add (f_mul (f_mul i i) (f_mul x x)) (f_mul y y)); [ring|]. rewrite I.
  transitivity (f_add F1 (f_mul (f_mul ed_d (f_mul (f_mul i i) (f_mul x x))) (f_mul y y))); [rewrite I|ring].
  replace (f_mul y y) with (f_add (f_sub (f_mul y y) F1) F1) at 1 by ring. rewrite <- H. ring.
Qed.
Lemma recovered : forall y sign x, 0 <= y -> recover_x y sign = Some x -> exists fx fy, y = val fy /\ x = val fx /\ e_on (turn (fx, fy)).
Proof.
  intros y sign x Y0 H. unfold recover_x in H. destruct (Z.leb_spec p25519 y) as [|LT]; [discriminate|].
  assert (Y : y = val (of y)) by (symmetry; cbn [val of]; apply Z.mod_small; lia).
  rewrite Y in H. remember (of y) as fy eqn:F. clear F Y0 LT. subst y.
  set (D := f_add (f_mul (of ed_minus_d) (f_mul fy fy)) F1). set (X2 := f_div (f_sub (f_mul fy fy) F1) D).
  assert (ND : D <> F0) by apply y_denominator.
  assert (X : f_mul X2 D = f_sub (f_mul fy fy) F1) by (unfold X2; field; exact ND).
  change (fmul (fsub (fmul (val fy) (val fy)) 1) (finv (fadd (fmul ed_minus_d (fmul (val fy) (val fy))) 1)))
    with (fmul (val (f_sub (f_mul fy fy) F1)) (finv (val D))) in H. rewrite quotient in H. fold X2 in H.
  clearbody X2. rewrite zero_test in H. destruct (f_dec X2 F0) as [Z|NZ].
  - destruct sign; [discriminate|]. apply (f_equal (fun o => match o with Some v => v | None => 0 end)) in H. subst x.
    exists F0, fy. split; [reflexivity|]. split; [reflexivity|]. apply on_from_square. fold D. rewrite <- X, Z. ring.
  - destruct (fpow_val X2 (Z.to_pos ((p25519 + 3) / 8))) as (c & C & _). rewrite C in H.
    assert (R : exists r, (if fsub (fmul (val c) (val c)) (val X2) =? 0 then val c else fmul (val c) modp_sqrt_m1) = val r).
    { generalize (fsub (fmul (val c) (val c)) (val X2) =? 0). intros [|]; [exists c; reflexivity|]. exists (f_mul c im). reflexivity. }
    destruct R as (r & R). rewrite R in H.
    change (fsub (fmul (val r) (val r)) (val X2)) with (val (f_sub (f_mul r r) X2)) in H. rewrite zero_test in H.
    destruct (f_dec (f_sub (f_mul r r) X2) F0) as [E|]; [|discriminate]. cbn [negb] in H.
    assert (RR : f_mul r r = X2) by (replace (f_mul r r) with (f_add (f_sub (f_mul r r) X2) X2) by ring; rewrite E; ring).
    assert (NR : r <> F0) by (intros ->; apply NZ; rewrite <- RR; ring).
    apply (f_equal (fun o => match o with Some v => v | None => 0 end)) in H.
    destruct (eqb _ _).
    + exists r, fy. split; [reflexivity|]. split; [rewrite H; reflexivity|]. apply on_from_square. fold D. rewrite RR. exact X.
    + exists (f_opp r), fy. split; [reflexivity|]. split; [rewrite opp_val by exact NR; rewrite H; reflexivity|]. apply on_from_square. fold D.
      replace (f_mul (f_opp r) (f_opp r)) with (f_mul r r) by ring. rewrite RR. exact X.
Qed.
Lemma decompressed : forall s q, point_decompress s = Some q -> exists A, at_pt q A.
Proof.
  intros s q H. unfold point_decompress in H. destruct (negb _); [discriminate|]. cbv zeta in H.
  destruct (recover_x _ _) as [x|] eqn:E; [|discriminate]. apply recovered in E; [|apply N2Z.is_nonneg].
  destruct E as (fx & fy & EY & EX & O). rewrite EY, EX in H. exists (turn (fx, fy)), (fx, fy). split; [reflexivity|]. split; [|exact O].
  exists F1. split; [exact one_ok|]. cbn [fst snd]. apply (f_equal (fun o => match o with Some v => v | None => q end)) in H. subst q.
  f_equal; try reflexivity.
  - f_equal. ring.
  - f_equal. ring.
  - change (fmul (val fx) (val fy)) with (val (f_mul fx fy)). f_equal. ring.
Qed.
Lemma equal_at : forall q q' A A', at_pt q A -> at_pt q' A' -> point_equal q q' = true -> A = A'.
Proof.
  intros q q' A A' ([x y] & <- & (z & Z & ->) & _) ([x' y'] & <- & (z' & Z' & ->) & _) H. cbn [fst snd] in H.
  unfold point_equal in H. cbn [p_x p_y p_z] in H. apply andb_prop in H. destruct H as [H1 H2].
  change (fsub (fmul (val (f_mul x z)) (val z')) (fmul (val (f_mul x' z')) (val z))) with
    (val (f_sub (f_mul (f_mul x z) z') (f_mul (f_mul x' z') z))) in H1.
  change (fsub (fmul (val (f_mul y z)) (val z')) (fmul (val (f_mul y' z')) (val z))) with
    (val (f_sub (f_mul (f_mul y z) z') (f_mul (f_mul y' z') z))) in H2.
  assert (G : forall a a', (val (f_sub (f_mul (f_mul a z) z') (f_mul (f_mul a' z') z)) =? 0) = true -> a = a').
  { intros a a' E. rewrite zero_test in E. destruct (f_dec _ _) as [E'|]; [|discriminate].
    assert (M : f_mul (f_sub a a') (f_mul z z') = F0) by (rewrite <- E'; ring).
    apply (mul_zero _ _ _ _ _ _ _ _ _ field_ok f_dec) in M. destruct M as [M|M]; [|exfalso; exact (nonzero_mul _ _ Z Z' M)].
    replace a with (f_add (f_sub a a') a') by ring. rewrite M. ring. }
  rewrite (G _ _ H1), (G _ _ H2). reflexivity.
Qed.

Lemma cancel : forall R P Q, e_on R -> e_on P -> e_on Q -> e_plus R P = e_plus R Q -> P = Q.
Proof.
  intros R P Q OR OP OQ H. apply (f_equal (e_plus (e_neg R))) in H.
  assert (ON : e_on (e_neg R)) by (apply e_on_neg, OR).
  rewrite <- !e_plus_assoc in H by assumption. rewrite (e_plus_comm (e_neg R)), e_plus_neg, !e_plus_origin in H by exact OR. exact H.
Qed.
Lemma same_mod : forall n m, e_times n base = e_times m base -> (ell | Z.of_N n - Z.of_N m).
Proof.
  intros n m H. destruct (N.le_ge_cases m n) as [L|L].
  - apply same_multiple in H; [|exact base_on|exact L]. apply order in H. rewrite N2Z.inj_sub in H by exact L. exact H.
  - symmetry in H. apply same_multiple in H; [|exact base_on|exact L]. apply order in H. rewrite N2Z.inj_sub in H by exact L.
    apply Z.divide_opp_r in H. replace (- (Z.of_N m - Z.of_N n)) with (Z.of_N n - Z.of_N m) in H by ring. exact H.
Qed.
Lemma small_mod : forall n m, (n < ed_order)%N -> (m < ed_order)%N -> (ell | Z.of_N n - Z.of_N m) -> n = m.
Proof.
  intros n m A C D. assert (E : Z.of_N ed_order = ell) by reflexivity.
  destruct (Z.eq_dec (Z.of_N n - Z.of_N m) 0) as [Z|Z]; [lia|]. apply Z.divide_abs_r in D. apply Z.divide_pos_le in D; lia.
Qed.

(** What an accepted signature says. *)
Lemma checked : forall k m sg, ed_check k m sg = true -> exists A R A' R', point_decompress k = Some A /\ at_pt A A' /\
  point_decompress (ntake 32 sg) = Some R /\ at_pt R R' /\ (le_value (ndrop 32 sg) < ed_order)%N /\
  e_times (le_value (ndrop 32 sg)) base = e_plus R' (e_times (challenge k m sg) A').
Proof.
  intros k m sg H. unfold ed_check in H. destruct (point_decompress k) as [A|] eqn:KA; [|discriminate].
  destruct (point_decompress (ntake 32 sg)) as [R|] eqn:KR; [|discriminate]. cbv zeta in H. apply andb_prop in H. destruct H as [L E].
  destruct (decompressed _ _ KA) as [A' HA]. destruct (decompressed _ _ KR) as [R' HR]. exists A, R, A', R'.
  repeat (split; [first [reflexivity|assumption|apply N.ltb_lt; exact L]|]).
  exact (equal_at _ _ _ _ (at_mul _ _ _ at_base) (at_add _ _ _ _ HR (at_mul _ _ _ HA)) E).
Qed.
Lemma at_unique : forall q A A', at_pt q A -> at_pt q A' -> A = A'.
Proof.
  intros q A A' H H'. apply (equal_at q q _ _ H H'). exact (at_equal _ _ _ H H).
Qed.
Lemma on_at : forall q A, at_pt q A -> e_on A.
Proof. intros q A (P & _ & _ & O). exact O. Qed.
Lemma public_at : forall seed A, point_decompress (secret_to_public seed) = Some A -> at_pt A (e_times (ed_scalar seed) base).
Proof.
  intros seed A H. unfold secret_to_public in H. destruct (at_code _ _ (at_mul (ed_scalar seed) _ _ at_base)) as (_ & _ & _ & q & E & Q).
  rewrite E in H. apply (f_equal (fun o => match o with Some v => v | None => q end)) in H. subst q. exact Q.
Qed.
(** One signature, two messages: their challenges are the same. *)
Theorem one_message : forall seed m m' sg, ed_check (secret_to_public seed) m sg = true -> ed_check (secret_to_public seed) m' sg = true ->
  challenge (secret_to_public seed) m sg = challenge (secret_to_public seed) m' sg.
Proof.
  intros seed m m' sg H H'. destruct (checked _ _ _ H) as (A & R & A1 & R1 & KA & HA & KR & HR & _ & E).
  destruct (checked _ _ _ H') as (A0 & R0 & A2 & R2 & KA' & HA' & KR' & HR' & _ & E').
  rewrite KR in KR'. apply (f_equal (fun o => match o with Some v => v | None => R end)) in KR'. subst R0.
  apply public_at in KA. apply public_at in KA'.
  rewrite (at_unique _ _ _ HA KA) in E. rewrite (at_unique _ _ _ HA' KA') in E'. rewrite (at_unique _ _ _ HR' HR) in E'.
  clear HA HA' HR'. rewrite E in E'.
  assert (OB : forall n, e_on (e_times n base)) by (intro n; apply e_on_times, base_on).
  apply cancel in E'; [|exact (on_at _ _ HR)|apply e_on_times, OB|apply e_on_times, OB].
  rewrite <- !e_times_mul in E' by exact base_on. apply same_mod in E'. rewrite !N2Z.inj_mul, <- Z.mul_sub_distr_r in E'.
  apply prime_mult in E'; [|exact prime_ell]. destruct E' as [D|D]; [|exfalso; exact (scalar_not_ell _ D)].
  apply small_mod in D; [exact D|apply N.mod_lt; discriminate|apply N.mod_lt; discriminate].
Qed.
(** The second half of a signature is determined by the rest. *)
Theorem one_answer : forall k m sg sg', ed_check k m sg = true -> ed_check k m sg' = true -> length sg = 64%nat -> length sg' = 64%nat ->
  ntake 32 sg = ntake 32 sg' -> sg = sg'.
Proof.
  intros k m sg sg' H H' L L' T. destruct (checked _ _ _ H) as (A & R & A1 & R1 & KA & HA & KR & HR & B & E).
  destruct (checked _ _ _ H') as (A0 & R0 & A2 & R2 & KA' & HA' & KR' & HR' & B' & E').
  rewrite KA in KA'. rewrite <- T in KR'. rewrite KR in KR'.
  apply (f_equal (fun o => match o with Some v => v | None => R end)) in KR'. subst R0.
  apply (f_equal (fun o => match o with Some v => v | None => A end)) in KA'. subst A0.
  rewrite (at_unique _ _ _ HA' HA), (at_unique _ _ _ HR' HR) in E'. clear HA' HR'.
  unfold challenge in E, E'. rewrite <- T in E'. rewrite <- E in E'. apply same_mod in E'.
  apply small_mod in E'; [|exact B'|exact B].
  assert (D : ndrop 32 sg = ndrop 32 sg').
  { apply le_value_inj; [|symmetry; exact E']. pose proof (len_ndrop 32 sg). pose proof (len_ndrop 32 sg'). unfold len in *. lia. }
  rewrite <- (ntake_ndrop 32 sg), <- (ntake_ndrop 32 sg'), T, D. reflexivity.
Qed.
(** The neutral point as a key. *)
Lemma weak_at : exists q, point_decompress weak_key = Some q /\ at_pt q e_origin.
Proof.
  exists point_zero. split; [vm_compute; reflexivity|exact at_zero].
Qed.
Theorem weak_signs : forall m, ed_check weak_key m weak_signature = true.
Proof.
  intro m. unfold ed_check. change (ntake 32 weak_signature) with weak_key. change (le_value (ndrop 32 weak_signature)) with 0%N.
  destruct weak_at as (q & -> & Q). cbv zeta. change (0 <? ed_order)%N with true. cbn [andb point_mul].
  generalize (sha512_modq (weak_key ++ weak_key ++ m)). intro h.
  apply (at_equal _ _ e_origin); [exact at_zero|]. pose proof (at_add _ _ _ _ Q (at_mul h _ _ Q)) as E.
  rewrite e_times_origin, e_plus_origin in E. exact E.
Qed.
(** What the server looks at in keys and signatures. *)
Lemma public_key_ok : forall seed, ed_key real_ed (secret_to_public seed) = true.
Proof.
  intro seed. cbn [real_ed ed_key]. unfold secret_to_public. destruct (at_code _ _ (at_mul (ed_scalar seed) _ _ at_base)) as (_ & _ & _ & q & -> & _). reflexivity.
Qed.
Lemma public_length : forall seed, len (secret_to_public seed) = 32%N.
Proof. intro seed. unfold secret_to_public, len. rewrite compress_length. reflexivity. Qed.
Lemma sign_length : forall seed m, len (ed_sign seed m) = 64%N.
Proof. intros seed m. unfold ed_sign. cbv zeta. unfold len. rewrite app_length, compress_length, le_bytes_length. reflexivity. Qed.
Lemma sign_ok : forall seed m, ed_signature real_ed (ed_sign seed m) = true /\ ed_verify real_ed (secret_to_public seed) m (ed_sign seed m) = true.
Proof.
  intros seed m. cbn [real_ed ed_signature ed_verify]. rewrite sign_length, signed. split; [|reflexivity].
  change (64 =? 64)%N with true. cbn [andb]. unfold ed_sign. cbv zeta. rewrite ndrop_app by (unfold len; rewrite compress_length; reflexivity).
  match goal with |- context [le_bytes 32 ?n] => assert (L : (n < ed_order)%N) by (apply N.mod_lt; discriminate) end.
  rewrite le32 by exact L. apply N.ltb_lt. eapply N.lt_trans; [exact L|reflexivity].
Qed.
Theorem second_half : forall key m sg sg', ed_verify real_ed key m sg = true -> ed_verify real_ed key m sg' = true ->
  ntake 32 sg = ntake 32 sg' -> sg = sg'.
Proof.
  intros key m sg sg' V V' T. apply andb_prop in V, V'. destruct V as [L V], V' as [L' V'].
  apply N.eqb_eq in L, L'. unfold len in L, L'. apply (one_answer key m); try assumption; lia.
Qed.
Lemma order_added : forall seed m, let key := secret_to_public seed in let sg := ed_sign seed m in
  let sg' := ntake 32 sg ++ le_bytes 32 (le_value (ndrop 32 sg) + ed_order) in
  ed_verify real_ed key m sg = true /\ ntake 32 sg' = ntake 32 sg /\ sg' <> sg /\ ed_verify real_ed key m sg' = false.
Proof.
  intros seed m key sg sg'. pose proof (proj2 (sign_ok seed m)) as V. fold key sg in V. split; [exact V|].
  assert (T : ntake 32 sg' = ntake 32 sg) by (apply ntake_app; rewrite len_ntake; unfold sg; rewrite sign_length; reflexivity).
  split; [exact T|].
  assert (S : (le_value (ndrop 32 sg) < ed_order)%N).
  { apply andb_prop in V. destruct V as [_ V]. destruct (checked _ _ _ V) as (_ & _ & _ & _ & _ & _ & _ & _ & S & _). exact S. }
  assert (NE : sg' <> sg).
  { intro E. apply (f_equal (fun l => le_value (ndrop 32 l))) in E. unfold sg' in E. rewrite ndrop_app in E by (rewrite len_ntake; unfold sg; rewrite sign_length; reflexivity).
    rewrite le_bytes_value in E. rewrite N.mod_small in E; [assert (0 < ed_order)%N by reflexivity; lia|].
    eapply N.lt_trans; [apply N.add_lt_mono_r, S|reflexivity]. }
  split; [exact NE|]. destruct (ed_verify real_ed key m sg') eqn:E; [|reflexivity].
  exfalso. apply NE. exact (second_half key m sg' sg E V T).
Qed.
