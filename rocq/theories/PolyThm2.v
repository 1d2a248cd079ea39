(** Poly1305: forgeries. *)
From Coq Require Import Init.Byte Znumtheory.
From Verif Require Import BaseFacts SpecPrim PrimThm PrimeThm PolyThm.

(** ** The accumulator is the polynomial *)
Definition coefs (m : bytes) : list N := map (fun b => le_value (b ++ [x01])) (chunks 16 m).
Definition pol (m : bytes) : list Z := map Z.of_N (rev (coefs m)).
Definition zp : Z := Z.of_N p1305.
Lemma zp_prime : prime zp.
Proof. exact prime_1305. Qed.
Lemma poly_acc_lt : forall r bs acc, acc < p1305 -> poly_acc r acc bs < p1305.
Proof.
  intros r bs. induction bs as [|b bs IH]; intros acc H; cbn [poly_acc]; [exact H|]. apply IH. apply N.mod_lt. discriminate.
Qed.
Lemma poly_acc_ev : forall r bs acc,
  (Z.of_N (poly_acc r acc bs) mod zp =
   (Z.of_N acc * Z.of_N r ^ Z.of_nat (length bs) + ev (0 :: map Z.of_N (rev (map (fun b => le_value (b ++ [x01])) bs))) (Z.of_N r)) mod zp)%Z.
Proof.
  intros r bs. induction bs as [|b bs IH]; intro acc.
  - cbn [poly_acc length map rev ev]. change (Z.of_nat 0) with 0%Z. rewrite Z.pow_0_r. f_equal. ring.
  - cbn [poly_acc length map rev]. rewrite IH. rewrite map_app. 
    rewrite app_comm_cons, ev_app. cbn [map ev]. rewrite Nat2Z.inj_succ, Z.pow_succ_r by lia.
    set (c := le_value (b ++ [x01])). cbn [length]. rewrite map_length, rev_length, map_length.
    rewrite N2Z.inj_mod, N2Z.inj_mul, N2Z.inj_add. fold zp. set (E := ev _ (Z.of_N r)). set (R := Z.of_N r).
    rewrite <- Z.add_mod_idemp_l by discriminate. rewrite Z.mul_mod_idemp_l by discriminate. rewrite Z.add_mod_idemp_l by discriminate.
    f_equal. rewrite Nat2Z.inj_succ, Z.pow_succ_r by lia. ring.
Qed.
Lemma acc_ev : forall r m, (Z.of_N (poly_acc r 0 (chunks 16 m)) = ev (0 :: pol m) (Z.of_N r) mod zp)%Z.
Proof.
  intros r m. pose proof (poly_acc_ev r (chunks 16 m) 0) as H. rewrite Z.mod_small in H.
  - rewrite H. unfold pol, coefs. f_equal.
  - pose proof (poly_acc_lt r (chunks 16 m) 0 ltac:(reflexivity)). unfold zp. lia.
Qed.
Lemma coefs_bound : forall m, Forall (fun c => (0 < c < zp)%Z) (pol m).
Proof.
  intro m. unfold pol, coefs. rewrite <- map_rev, map_map. apply Forall_forall. intros x H. apply in_map_iff in H.
  destruct H as (b & <- & H). apply in_rev in H. pose proof (pieces_short (length m) 16 m) as S. rewrite Forall_forall in S. specialize (S b H).
  split.
  - assert (1 <= le_value (b ++ [x01])); [|lia]. clear. induction b as [|a b IH]; [reflexivity|]. cbn [app le_value]. lia.
  - pose proof (le_value_lt (b ++ [x01])) as L. assert (256 ^ len (b ++ [x01]) <= 256 ^ 17) as L2.
    { apply N.pow_le_mono_r; [lia|]. unfold len. rewrite app_length. cbn [length]. lia. }
    assert (L3 : le_value (b ++ [x01]) < 256 * le_value (b ++ [x01]) + 1) by lia. clear L3.
    assert (le_value (b ++ [x01]) < 2 ^ 129) as L4; [|unfold zp, p1305; assert (2 ^ 129 < 2 ^ 130 - 5) by reflexivity; lia].
    clear L L2. assert (V : le_value (b ++ [x01]) = le_value b + 256 ^ len b).
    { clear. induction b as [|a b IH]; [reflexivity|]. cbn [app le_value]. rewrite IH. unfold len. cbn [length].
      rewrite Nat2N.inj_succ, N.pow_succ_r'. lia. }
    pose proof (le_value_lt b) as L. assert (256 ^ len b <= 256 ^ 16) as L2 by (apply N.pow_le_mono_r; [lia|unfold len; lia]).
    change (256 ^ 16) with (2 ^ 128) in L2. change (2 ^ 129) with (2 ^ 128 + 2 ^ 128). lia.
Qed.
Lemma coefs_inj : forall m m', pol m = pol m' -> m = m'.
Proof.
  intros m m' H. unfold pol in H. 
  assert (coefs m = coefs m') as E.
  { rewrite <- (rev_involutive (coefs m)), <- (rev_involutive (coefs m')). f_equal.
    revert H. generalize (rev (coefs m)) (rev (coefs m')). induction l as [|x l IH]; intros [|y l'] H; try discriminate; [reflexivity|].
    cbn [map] in H. injection H as H1 H2. f_equal; [lia|apply IH, H2]. }
  rewrite <- (chunks_concat 16 m), <- (chunks_concat 16 m') by lia. f_equal. unfold coefs in E.
  revert E. generalize (chunks 16 m) (chunks 16 m'). induction l as [|x l IH]; intros [|y l'] E; try discriminate; [reflexivity|].
  cbn [map] in E. injection E as E1 E2. f_equal; [apply le_value_app1_inj, E1|apply IH, E2].
Qed.
Lemma pol_length : forall m, N.of_nat (length (pol m)) = blocks (len m).
Proof. intro m. unfold pol, coefs. rewrite map_length, rev_length, map_length. apply (chunks_length m). Qed.

(** One difference of the two values leaves few r. *)
Definition acc_of (r : N) (m : bytes) : Z := Z.of_N (poly_acc r 0 (chunks 16 m)).
Lemma one_difference : forall m m' d (rs : list N), m <> m' -> NoDup rs -> (forall r, In r rs -> r < p1305) ->
  (forall r, In r rs -> (acc_of r m' - acc_of r m = d)%Z) -> len rs <= N.max (blocks (len m)) (blocks (len m')).
Proof.
  intros m m' d rs NE N L H.
  assert (length (map Z.of_N rs) < length ((- d)%Z :: psub (pol m') (pol m)))%nat as B.
  { apply (roots_bound zp zp_prime).
    - apply FinFun.Injective_map_NoDup; [intros a b; lia|exact N].
    - intros x X. apply in_map_iff in X. destruct X as (r & <- & R). specialize (L r R). specialize (H r R). split; [unfold zp; lia|].
      unfold acc_of in H. rewrite !acc_ev in H. cbn [ev] in *. rewrite psub_eval.
      set (a := ev (pol m') (Z.of_N r)) in *. set (b := ev (pol m) (Z.of_N r)) in *. set (x := Z.of_N r) in *.
      exists ((0 + x * a) / zp - (0 + x * b) / zp)%Z.
      pose proof (Z.div_mod (0 + x * a) zp ltac:(discriminate)). pose proof (Z.div_mod (0 + x * b) zp ltac:(discriminate)). lia.
    - intro V. apply NE. symmetry. apply coefs_inj, (psub_differ zp); [apply coefs_bound|apply coefs_bound|exact (Forall_inv_tail V)]. }
  rewrite map_length in B. cbn [length] in B. rewrite psub_length in B.
  pose proof (pol_length m). pose proof (pol_length m'). unfold len in *. lia.
Qed.

(** ** Counting by classes *)
Lemma by_classes : forall {A} (f : A -> Z) vs (l : list A) n, (forall x, In x l -> In (f x) vs) ->
  (forall v, In v vs -> len (filter (fun x => Z.eqb (f x) v) l) <= n) -> len l <= len vs * n.
Proof.
  intros A f vs. induction vs as [|v vs IH]; intros l n H C.
  - destruct l as [|x l]; [cbn; lia|]. destruct (H x (or_introl eq_refl)).
  - set (l1 := filter (fun x => Z.eqb (f x) v) l). set (l2 := filter (fun x => negb (Z.eqb (f x) v)) l).
    assert (len l = len l1 + len l2) as E.
    { unfold l1, l2. clear. induction l as [|x l IH]; [reflexivity|]. cbn [filter]. destruct (Z.eqb (f x) v); cbn [negb]; unfold len in *; cbn [length]; lia. }
    assert (len l2 <= len vs * n) as E2.
    { apply IH.
      - intros x X. apply filter_In in X. destruct X as [X1 X2]. destruct (H x X1) as [Y|Y]; [|exact Y].
        subst v. rewrite Z.eqb_refl in X2. discriminate.
      - intros w W. specialize (C w (or_intror W)). eapply N.le_trans; [|exact C]. unfold l2. clear.
        induction l as [|x l IH]; [reflexivity|]. cbn [filter]. destruct (Z.eqb (f x) v); cbn [negb filter]; destruct (Z.eqb (f x) w); unfold len in *; cbn [length]; lia. }
    specialize (C v (or_introl eq_refl)). fold l1 in C. unfold len in *. cbn [length]. rewrite Nat2N.inj_succ. lia.
Qed.

(** ** The tags of two messages leave few r *)
Lemma clamp_lt : forall r, clamp_r r < p1305.
Proof.
  intro r. unfold clamp_r. set (mask := 21267647620597763993911028882763415551).
  pose proof (N.log2_land r mask) as H. destruct (N.eq_dec (N.land r mask) 0) as [->|NZ]; [reflexivity|].
  apply N.lt_trans with (2 ^ 129); [|reflexivity]. apply N.log2_lt_pow2; [lia|].
  assert (N.log2 mask = 123) by reflexivity. lia.
Qed.
Lemma tag_eq : forall k m t, poly1305_mac k m = t ->
  (Z.of_N (le_value t) = (acc_of (clamp_r (le_value (ntake 16 k))) m + Z.of_N (le_value (ntake 16 (ndrop 16 k)))) mod 2 ^ 128)%Z.
Proof.
  intros k m t <-. unfold poly1305_mac. cbv zeta. rewrite le_bytes_value. unfold acc_of. rewrite N2Z.inj_mod, N2Z.inj_add. reflexivity.
Qed.
Lemma few_r : forall m m' t t' (rs : list N), m <> m' -> NoDup rs ->
  (forall r, In r rs -> exists k, r = clamp_r (le_value (ntake 16 k)) /\ poly1305_mac k m = t /\ poly1305_mac k m' = t') ->
  len rs <= 8 * N.max (blocks (len m)) (blocks (len m')).
Proof.
  intros m m' t t' rs NE N H. set (B := N.max _ _).
  set (d := ((Z.of_N (le_value t') - Z.of_N (le_value t)) mod 2 ^ 128)%Z).
  change 8 with (len [-4; -3; -2; -1; 0; 1; 2; 3]%Z).
  apply (by_classes (fun r => ((acc_of r m' - acc_of r m - d) / 2 ^ 128)%Z)).
  - intros r R. destruct (H r R) as (k & -> & T & T'). apply tag_eq in T, T'. set (r := clamp_r _) in *. set (s := le_value (ntake 16 (ndrop 16 k))) in *.
    assert (A : (0 <= acc_of r m < 2 ^ 130)%Z).
    { unfold acc_of. pose proof (poly_acc_lt r (chunks 16 m) 0 ltac:(reflexivity)) as L. unfold p1305 in L. lia. }
    assert (A' : (0 <= acc_of r m' < 2 ^ 130)%Z).
    { unfold acc_of. pose proof (poly_acc_lt r (chunks 16 m') 0 ltac:(reflexivity)) as L. unfold p1305 in L. lia. }
    assert (D : (0 <= d < 2 ^ 128)%Z) by (apply Z.mod_pos_bound; lia).
    set (j := ((acc_of r m' - acc_of r m - d) / 2 ^ 128)%Z).
    assert (J : (-4 <= j <= 3)%Z).
    { unfold j. split; [apply Z.div_le_lower_bound; lia|].
      assert ((acc_of r m' - acc_of r m - d) / 2 ^ 128 < 4)%Z; [|lia]. apply Z.div_lt_upper_bound; lia. }
    cbn [In]. lia.
  - intros v _. apply (one_difference m m' (d + v * 2 ^ 128)%Z).
    + exact NE.
    + apply NoDup_filter, N.
    + intros r R. apply filter_In in R. destruct R as [R _]. destruct (H r R) as (k & -> & _). apply clamp_lt.
    + intros r R. apply filter_In in R. destruct R as [R V]. apply Z.eqb_eq in V. destruct (H r R) as (k & E & T & T').
      apply tag_eq in T, T'. rewrite <- E in T, T'. set (s := le_value (ntake 16 (ndrop 16 k))) in *.
      set (a := acc_of r m) in *. set (a' := acc_of r m') in *.
      assert (D : d = ((a' - a) mod 2 ^ 128)%Z).
      { unfold d. rewrite T, T'. rewrite <- Zminus_mod. f_equal. ring. }
      assert (X : ((a' - a - d) mod 2 ^ 128 = 0)%Z).
      { rewrite D. rewrite Zminus_mod_idemp_r. rewrite Z.sub_diag. reflexivity. }
      pose proof (Z.div_mod (a' - a - d) (2 ^ 128) ltac:(lia)) as Y. rewrite X, V in Y. lia.
Qed.

(** ** Keys *)
(** How many numbers below 2^k have given bits under a mask. *)
Fixpoint loose (k : nat) (mask : N) : N :=
  match k with O => 1 | S k => (if N.odd mask then 1 else 2) * loose k (N.div2 mask) end.
Lemma nodup_le1 : forall {A} (l : list A) a, NoDup l -> (forall x, In x l -> x = a) -> len l <= 1.
Proof.
  intros A l a N H. destruct l as [|x [|y l]]; [cbn; lia|cbn; lia|exfalso].
  inversion N as [|? ? NI _]. subst. apply NI. left. rewrite (H x (or_introl eq_refl)), (H y (or_intror (or_introl eq_refl))). reflexivity.
Qed.
Lemma odd_land : forall a b, N.odd (N.land a b) = N.odd a && N.odd b.
Proof. intros. rewrite <- !N.bit0_odd. apply N.land_spec. Qed.
Lemma div2_land : forall a b, N.div2 (N.land a b) = N.land (N.div2 a) (N.div2 b).
Proof. intros. rewrite !N.div2_spec. apply N.shiftr_land. Qed.
Lemma nodup_div2 : forall (l : list N) b, NoDup l -> (forall n, In n l -> N.odd n = b) -> NoDup (map N.div2 l).
Proof.
  intros l b N. induction N as [|x l NI N IH]; intro H; cbn [map]; [constructor|]. constructor.
  - rewrite in_map_iff. intros (y & E & Y). apply NI. replace x with y; [exact Y|].
    pose proof (H x (or_introl eq_refl)) as X. pose proof (H y (or_intror Y)) as X2.
    rewrite (N.div2_odd y), (N.div2_odd x), E, X, X2. reflexivity.
  - apply IH. intros n I. apply H. now right.
Qed.
Lemma len_map : forall {A D} (f : A -> D) l, len (map f l) = len l.
Proof. intros. unfold len. rewrite map_length. reflexivity. Qed.
Lemma loose_count : forall k mask v (l : list N), NoDup l -> (forall n, In n l -> n < 2 ^ N.of_nat k /\ N.land n mask = v) -> len l <= loose k mask.
Proof.
  induction k as [|k IH]; intros mask v l ND H.
  - cbn [loose]. apply (nodup_le1 l 0 ND). intros x X. destruct (H x X) as [L _]. change (2 ^ N.of_nat 0) with 1 in L. lia.
  - cbn [loose]. set (n := loose k (N.div2 mask)).
    assert (C : forall b (l' : list N), NoDup l' -> (forall n, In n l' -> In n l /\ N.odd n = b) -> len l' <= n).
    { intros b l' N' H'. rewrite <- (len_map N.div2 l'). apply (IH (N.div2 mask) (N.div2 v)).
      - apply (nodup_div2 l' b N'). intros x X. apply H', X.
      - intros x X. apply in_map_iff in X. destruct X as (y & <- & Y). destruct (H' y Y) as [Y1 Y2]. destruct (H y Y1) as [L V]. split.
        + rewrite Nat2N.inj_succ, N.pow_succ_r' in L. rewrite N.div2_div. apply N.div_lt_upper_bound; lia.
        + rewrite <- div2_land, V. reflexivity. }
    destruct (N.odd mask) eqn:O.
    + rewrite N.mul_1_l. apply (C (N.odd v) l ND). intros x X. split; [exact X|]. destruct (H x X) as [_ V].
      rewrite <- V, odd_land, O, andb_true_r. reflexivity.
    + change 2 with (len [0%Z; 1%Z]). apply (by_classes (fun x => if N.odd x then 1%Z else 0%Z)).
      * intros x _. destruct (N.odd x); cbn [In]; lia.
      * intros w _. apply (C (Z.eqb 1 w)); [apply NoDup_filter, ND|]. intros x X. apply filter_In in X. destruct X as [X1 X2].
        split; [exact X1|]. apply Z.eqb_eq in X2. subst w. destruct (N.odd x); reflexivity.
Qed.
Lemma loose_r : loose 128 0x0ffffffc0ffffffc0ffffffc0fffffff = 2 ^ 22.
Proof. vm_compute. reflexivity. Qed.

Lemma firstn_len16 : forall k : bytes, len k = 32 -> length (ntake 16 k) = 16%nat.
Proof. intros k H. unfold ntake, len in *. rewrite firstn_length. change (N.to_nat 16) with 16%nat. lia. Qed.
Lemma skipn_len16 : forall k : bytes, len k = 32 -> length (ndrop 16 k) = 16%nat.
Proof. intros k H. unfold ndrop, len in *. rewrite skipn_length. change (N.to_nat 16) with 16%nat. lia. Qed.
Lemma ntake_all16 : forall l : bytes, length l = 16%nat -> ntake 16 l = l.
Proof. intros l H. unfold ntake. apply firstn_all2. change (N.to_nat 16) with 16%nat. lia. Qed.
Lemma half_lt : forall l, length l = 16%nat -> le_value l < 2 ^ 128.
Proof. intros l H. pose proof (le_value_lt l) as L. unfold len in L. rewrite H in L. exact L. Qed.
(** Of two keys with the same tag for a message and the same first half, the second half is the same. *)
Lemma same_half : forall k k' m t, len k = 32 -> len k' = 32 -> poly1305_mac k m = t -> poly1305_mac k' m = t ->
  ntake 16 k = ntake 16 k' -> k = k'.
Proof.
  intros k k' m t L L' T T' E. rewrite <- (firstn_skipn 16 k), <- (firstn_skipn 16 k').
  change (firstn 16 k) with (ntake 16 k). change (firstn 16 k') with (ntake 16 k'). rewrite E. f_equal.
  change (skipn 16 k) with (ndrop 16 k). change (skipn 16 k') with (ndrop 16 k').
  apply tag_eq in T, T'. rewrite E in T. rewrite T in T'.
  pose proof (skipn_len16 k L) as D. pose proof (skipn_len16 k' L') as D'.
  rewrite (ntake_all16 _ D), (ntake_all16 _ D') in T'.
  pose proof (half_lt _ D) as H. pose proof (half_lt _ D') as H'.
  apply le_value_inj; [lia|].
  set (a := acc_of _ m) in *. set (s := le_value (ndrop 16 k)) in *. set (s' := le_value (ndrop 16 k')) in *.
  assert (X : (2 ^ 128 | (a + Z.of_N s) - (a + Z.of_N s'))%Z).
  { exists ((a + Z.of_N s) / 2 ^ 128 - (a + Z.of_N s') / 2 ^ 128)%Z.
    pose proof (Z.div_mod (a + Z.of_N s) (2 ^ 128) ltac:(lia)). pose proof (Z.div_mod (a + Z.of_N s') (2 ^ 128) ltac:(lia)). lia. }
  destruct X as [j J]. replace (a + Z.of_N s - (a + Z.of_N s'))%Z with (Z.of_N s - Z.of_N s')%Z in J by ring.
  apply small_multiple in J; lia.
Qed.
Lemma few_keys : forall m m' t t' (ks : list bytes), m <> m' -> NoDup ks ->
  (forall k, In k ks -> len k = 32 /\ poly1305_mac k m = t /\ poly1305_mac k m' = t') ->
  len ks <= 2 ^ 25 * N.max (blocks (len m)) (blocks (len m')).
Proof.
  intros m m' t t' ks NE N H. set (B := N.max _ _).
  set (vs := nodup Z.eq_dec (map (fun k => Z.of_N (key_r k)) ks)).
  assert (V : len vs <= 8 * B).
  { rewrite <- (len_map Z.to_N vs). apply (few_r m m' t t'); [exact NE| |].
    - assert (NV : NoDup vs) by apply NoDup_nodup.
      assert (P : forall v, In v vs -> (0 <= v)%Z).
      { intros v I. apply nodup_In, in_map_iff in I. destruct I as (k & <- & _). lia. }
      revert NV P. generalize vs. clear. induction vs as [|v vs IH]; intros N P; cbn [map]; [constructor|].
      inversion N as [|? ? NI N2]. subst. constructor.
      + rewrite in_map_iff. intros (w & E & W). apply NI. replace v with w; [exact W|].
        pose proof (P v (or_introl eq_refl)). pose proof (P w (or_intror W)). lia.
      + apply IH; [exact N2|]. intros w W. apply P. now right.
    - intros r R. apply in_map_iff in R. destruct R as (v & <- & I). apply nodup_In, in_map_iff in I. destruct I as (k & <- & I).
      rewrite N2Z.id. exists k. destruct (H k I) as (L & T & T'). repeat split; assumption. }
  assert (len ks <= len vs * 2 ^ 22) as C.
  { apply (by_classes (fun k => Z.of_N (key_r k))).
    - intros k K. apply nodup_In, in_map_iff. now exists k.
    - intros v _. set (l := filter _ ks).
      rewrite <- loose_r. rewrite <- (len_map (fun k => le_value (ntake 16 k)) l). apply (loose_count 128 _ (Z.to_N v)).
      + assert (NL : NoDup l) by (apply NoDup_filter, N).
        assert (HL : forall k, In k l -> len k = 32 /\ poly1305_mac k m = t).
        { intros k K. apply filter_In in K. destruct (H k (proj1 K)) as (L & T & _). now split. }
        revert NL HL. generalize l. clear. induction l as [|k l IH]; intros N H; cbn [map]; [constructor|].
        inversion N as [|? ? NI N2]. subst. constructor.
        * rewrite in_map_iff. intros (k' & E & K'). apply NI. replace k with k'; [exact K'|].
          destruct (H k (or_introl eq_refl)) as [L T]. destruct (H k' (or_intror K')) as [L' T'].
          apply (same_half k' k m t L' L T' T). apply le_value_inj; [rewrite !firstn_len16 by assumption; reflexivity|exact E].
        * apply IH; [exact N2|]. intros x X. apply H. now right.
      + intros n I. apply in_map_iff in I. destruct I as (k & <- & K). apply filter_In in K. destruct K as [K V']. apply Z.eqb_eq in V'.
        destruct (H k K) as (L & _). split; [apply half_lt, firstn_len16, L|]. unfold key_r in V'. rewrite <- V'. rewrite N2Z.id. reflexivity. }
  change (2 ^ 25) with (8 * 2 ^ 22). nia.
Qed.
(** For each first half there is exactly one second half. *)
Lemma one_completion : forall r m t, len r = 16 -> len t = 16 -> exists! s, len s = 16 /\ poly1305_mac (r ++ s) m = t.
Proof.
  intros r m t R T.
  assert (TR : forall s, ntake 16 (r ++ s) = r).
  { intro s. unfold ntake. change (N.to_nat 16) with 16%nat. unfold len in R. rewrite firstn_app. replace (16 - length r)%nat with 0%nat by lia.
    rewrite firstn_O, app_nil_r. apply firstn_all2. lia. }
  assert (DR : forall s, ndrop 16 (r ++ s) = s).
  { intro s. unfold ndrop. change (N.to_nat 16) with 16%nat. unfold len in R. rewrite skipn_app. replace (16 - length r)%nat with 0%nat by lia.
    rewrite skipn_all2 by lia. reflexivity. }
  set (a := poly_acc (clamp_r (le_value r)) 0 (chunks 16 m)).
  assert (LT : le_value t < 2 ^ 128) by (apply half_lt; unfold len in T; lia).
  exists (le_bytes 16 (le_value t + (2 ^ 128 - a mod 2 ^ 128))). split.
  - split; [unfold len; rewrite le_bytes_length; reflexivity|].
    unfold poly1305_mac. cbv zeta. rewrite TR, DR. fold a.
    rewrite ntake_all16 by apply le_bytes_length.
    apply le_value_inj; [rewrite le_bytes_length; unfold len in T; lia|].
    rewrite !le_bytes_value. change (256 ^ N.of_nat 16) with (2 ^ 128).
    pose proof (N.mod_lt a (2 ^ 128) ltac:(discriminate)) as A.
    rewrite N.add_mod_idemp_r by discriminate. rewrite <- N.add_mod_idemp_l by discriminate.
    replace (a mod 2 ^ 128 + (le_value t + (2 ^ 128 - a mod 2 ^ 128))) with (le_value t + 1 * 2 ^ 128) by lia.
    rewrite N.mod_add by discriminate. apply N.mod_small, LT.
  - intros s [S E]. set (s0 := le_bytes _ _).
    assert (K : forall x, len x = 16 -> len (r ++ x) = 32) by (intros x X; unfold len in *; rewrite app_length; lia).
    assert (S0 : len s0 = 16) by (unfold len, s0; rewrite le_bytes_length; reflexivity).
    apply (app_inv_head r). apply (same_half _ _ m t (K _ S0) (K _ S)); [|exact E|now rewrite !TR].
    unfold poly1305_mac. cbv zeta. rewrite TR, DR. fold a. unfold s0.
    rewrite ntake_all16 by apply le_bytes_length.
    apply le_value_inj; [rewrite le_bytes_length; unfold len in T; lia|].
    rewrite !le_bytes_value. change (256 ^ N.of_nat 16) with (2 ^ 128).
    pose proof (N.mod_lt a (2 ^ 128) ltac:(discriminate)) as A.
    rewrite N.add_mod_idemp_r by discriminate. rewrite <- N.add_mod_idemp_l by discriminate.
    replace (a mod 2 ^ 128 + (le_value t + (2 ^ 128 - a mod 2 ^ 128))) with (le_value t + 1 * 2 ^ 128) by lia.
    rewrite N.mod_add by discriminate. apply N.mod_small, LT.
Qed.
