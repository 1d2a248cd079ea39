(** Lemmas about the vocabulary of [Base]. *)
From Coq Require Import Init.Byte Strings.Byte.
From Verif Require Export Base.
Open Scope res_scope.

(** * Bytes *)
Lemma b2n_lt (b : byte) : b2n b < 256.
Proof. destruct b; vm_compute; reflexivity. Qed.

Lemma b2n_n2b n : b2n (n2b n) = n mod 256.
Proof.
  unfold n2b, b2n. destruct (Byte.of_N (n mod 256)) eqn:E.
  - apply Byte.to_of_N; exact E.
  - exfalso. apply Byte.of_N_None_iff in E.
    assert (n mod 256 < 256) by (apply N.mod_lt; discriminate). lia.
Qed.

Lemma n2b_b2n b : n2b (b2n b) = b.
Proof. destruct b; reflexivity. Qed.

Lemma b2n_inj a b : b2n a = b2n b -> a = b.
Proof. intros H. rewrite <- (n2b_b2n a), <- (n2b_b2n b), H. reflexivity. Qed.

Lemma n2b_eq n m : n mod 256 = m mod 256 -> n2b n = n2b m.
Proof. unfold n2b; intros ->; reflexivity. Qed.

Lemma beq_spec a b : reflect (a = b) (beq a b).
Proof.
  unfold beq. destruct (Byte.eqb a b) eqn:E; constructor.
  - apply Byte.byte_dec_bl; exact E.
  - intros ->. rewrite Byte.byte_dec_lb in E; [discriminate|reflexivity].
Qed.
Lemma beq_refl a : beq a a = true.
Proof. destruct (beq_spec a a); congruence. Qed.
Lemma beq_true a b : beq a b = true <-> a = b.
Proof. destruct (beq_spec a b); split; congruence. Qed.
Lemma beq_false a b : beq a b = false <-> a <> b.
Proof. destruct (beq_spec a b); split; congruence. Qed.

Lemma bytes_eqb_true a b : bytes_eqb a b = true <-> a = b.
Proof.
  revert b; induction a as [|x a IH]; intros [|y b]; cbn [bytes_eqb]; try (split; congruence).
  rewrite andb_true_iff, beq_true, IH. split; [intros [-> ->]; reflexivity|intros [= -> ->]; auto].
Qed.
Lemma bytes_eqb_refl a : bytes_eqb a a = true.
Proof. apply bytes_eqb_true; reflexivity. Qed.
Lemma bytes_eqb_false a b : bytes_eqb a b = false <-> a <> b.
Proof.
  destruct (bytes_eqb a b) eqn:E.
  - apply bytes_eqb_true in E. split; congruence.
  - split; [|reflexivity]. intros _ ->. rewrite bytes_eqb_refl in E. discriminate.
Qed.
Definition byte_dec (a b : byte) : {a = b} + {a <> b}.
Proof. destruct (beq a b) eqn:E; [left; apply beq_true; exact E|right; apply beq_false; exact E]. Defined.
Definition bytes_dec (a b : bytes) : {a = b} + {a <> b}.
Proof. destruct (bytes_eqb a b) eqn:E; [left; apply bytes_eqb_true; exact E|right; apply bytes_eqb_false; exact E]. Defined.

Lemma lxor_lt_256 a b : a < 256 -> b < 256 -> N.lxor a b < 256.
Proof.
  intros Ha Hb.
  destruct (N.eq_dec (N.lxor a b) 0) as [->|Hz]; [lia|].
  change 256 with (2 ^ 8). apply N.log2_lt_pow2; [lia|].
  eapply N.le_lt_trans; [apply N.log2_lxor|].
  apply N.max_lub_lt.
  - destruct (N.eq_dec a 0) as [->|Ha0]; [reflexivity|]. apply N.log2_lt_pow2; [lia|exact Ha].
  - destruct (N.eq_dec b 0) as [->|Hb0]; [reflexivity|]. apply N.log2_lt_pow2; [lia|exact Hb].
Qed.

Lemma bxor_invol a k : bxor (bxor a k) k = a.
Proof.
  unfold bxor. apply b2n_inj. rewrite !b2n_n2b.
  rewrite (N.mod_small (N.lxor (b2n a) (b2n k))) by (apply lxor_lt_256; apply b2n_lt).
  rewrite N.lxor_assoc, N.lxor_nilpotent, N.lxor_0_r.
  apply N.mod_small, b2n_lt.
Qed.

(** * Lengths *)
Section Len.
Context {A : Type}.
Implicit Types l : list A.
Lemma len_nil : len (@nil A) = 0. Proof. reflexivity. Qed.
Lemma len_cons x l : len (x :: l) = 1 + len l.
Proof. unfold len; cbn [length]; lia. Qed.
Lemma len_app l l' : len (l ++ l') = len l + len l'.
Proof. unfold len; rewrite app_length; lia. Qed.
Lemma len_zero l : len l = 0 -> l = [].
Proof. destruct l; [reflexivity|rewrite len_cons; lia]. Qed.
Lemma len_ntake n l : len (ntake n l) = N.min n (len l).
Proof. unfold len, ntake; rewrite firstn_length; lia. Qed.
Lemma len_ndrop n l : len (ndrop n l) = len l - n.
Proof. unfold len, ndrop; rewrite skipn_length; lia. Qed.
Lemma ntake_ndrop n l : ntake n l ++ ndrop n l = l.
Proof. apply firstn_skipn. Qed.
Lemma ntake_0 l : ntake 0 l = []. Proof. reflexivity. Qed.
Lemma ndrop_0 l : ndrop 0 l = l. Proof. reflexivity. Qed.
Lemma ntake_all n l : len l <= n -> ntake n l = l.
Proof. unfold len, ntake; intros; apply firstn_all2; lia. Qed.
Lemma ndrop_all n l : len l <= n -> ndrop n l = [].
Proof. unfold len, ndrop; intros; apply skipn_all2; lia. Qed.
Lemma ntake_app n l l' : n = len l -> ntake n (l ++ l') = l.
Proof.
  intros ->. unfold ntake, len. rewrite Nnat.Nat2N.id, firstn_app, firstn_all, Nat.sub_diag.
  cbn [firstn]. apply app_nil_r.
Qed.
Lemma ndrop_app n l l' : n = len l -> ndrop n (l ++ l') = l'.
Proof.
  intros ->. unfold ndrop, len. rewrite Nnat.Nat2N.id, skipn_app, skipn_all, Nat.sub_diag. reflexivity.
Qed.
Lemma ntake_app_le n l l' : n <= len l -> ntake n (l ++ l') = ntake n l.
Proof.
  intros H. unfold ntake, len in *. rewrite firstn_app.
  replace (N.to_nat n - length l)%nat with 0%nat by lia. cbn [firstn]. apply app_nil_r.
Qed.
Lemma ndrop_app_le n l l' : n <= len l -> ndrop n (l ++ l') = ndrop n l ++ l'.
Proof.
  intros H. unfold ndrop, len in *. rewrite skipn_app.
  replace (N.to_nat n - length l)%nat with 0%nat by lia. reflexivity.
Qed.
Lemma ntake_app_ge n l l' : len l <= n -> ntake n (l ++ l') = l ++ ntake (n - len l) l'.
Proof.
  intros H. unfold ntake, len in *. rewrite firstn_app, firstn_all2 by lia.
  f_equal. f_equal. lia.
Qed.
Lemma ndrop_app_ge n l l' : len l <= n -> ndrop n (l ++ l') = ndrop (n - len l) l'.
Proof.
  intros H. unfold ndrop, len in *. rewrite skipn_app, skipn_all2 by lia.
  cbn [app]. f_equal. lia.
Qed.
Lemma ndrop_ndrop n m l : ndrop n (ndrop m l) = ndrop (m + n) l.
Proof.
  unfold ndrop. rewrite Nnat.N2Nat.inj_add.
  generalize (N.to_nat n) (N.to_nat m). intros a b. clear n m. revert l.
  induction b as [|b IH]; intros l; [reflexivity|]. destruct l; cbn [skipn Nat.add].
  - destruct a; reflexivity.
  - apply IH.
Qed.
Lemma ntake_ntake n m l : ntake n (ntake m l) = ntake (N.min n m) l.
Proof. unfold ntake. rewrite firstn_firstn. f_equal. lia. Qed.
Lemma app_len_inj l1 l2 r1 r2 : l1 ++ r1 = l2 ++ r2 -> len l1 = len l2 -> l1 = l2 /\ r1 = r2.
Proof.
  intros H L. split.
  - rewrite <- (ntake_app (len l1) l1 r1), H, L by reflexivity. apply ntake_app; reflexivity.
  - rewrite <- (ndrop_app (len l1) l1 r1), H, L by reflexivity. apply ndrop_app; reflexivity.
Qed.
Lemma is_empty_true l : is_empty l = true <-> l = [].
Proof. destruct l; cbn; split; congruence. Qed.
Lemma is_empty_false l : is_empty l = false <-> l <> [].
Proof. destruct l; cbn; split; congruence. Qed.
End Len.

Ltac lens := repeat rewrite ?len_app, ?len_cons, ?len_nil, ?len_ntake, ?len_ndrop in *.

(** * Big-endian numbers *)
Lemma be_acc_app acc a b : be_acc acc (a ++ b) = be_acc (be_acc acc a) b.
Proof. revert acc; induction a as [|x a IH]; intros acc; [reflexivity|apply IH]. Qed.

Lemma be_acc_shift l : forall acc, be_acc acc l = acc * 256 ^ len l + be_acc 0 l.
Proof.
  induction l as [|b l IH]; intros acc.
  - rewrite len_nil. cbn [be_acc]. rewrite N.pow_0_r. lia.
  - cbn [be_acc]. rewrite IH, (IH (0 * 256 + b2n b)), len_cons, N.pow_add_r, N.pow_1_r. lia.
Qed.
Lemma be_value_cons b l : be_value (b :: l) = b2n b * 256 ^ len l + be_value l.
Proof. unfold be_value at 1. cbn [be_acc]. rewrite be_acc_shift. unfold be_value. lia. Qed.
Lemma be_value_app a b : be_value (a ++ b) = be_value a * 256 ^ len b + be_value b.
Proof. unfold be_value. rewrite be_acc_app, be_acc_shift. reflexivity. Qed.
Lemma be_value_lt l : be_value l < 256 ^ len l.
Proof.
  induction l as [|b l IH]; [reflexivity|].
  rewrite be_value_cons, len_cons, N.pow_add_r, N.pow_1_r.
  pose proof (b2n_lt b). nia.
Qed.

Lemma be_bytes_len k n : len (be_bytes k n) = N.of_nat k.
Proof.
  revert n; induction k as [|k IH]; intros n; [reflexivity|].
  cbn [be_bytes]. rewrite len_app, IH, len_cons, len_nil. lia.
Qed.
Lemma be_value_be_bytes k n : be_value (be_bytes k n) = n mod 256 ^ N.of_nat k.
Proof.
  revert n; induction k as [|k IH]; intros n.
  - cbn. rewrite N.mod_1_r. reflexivity.
  - cbn [be_bytes]. rewrite be_value_app, IH.
    rewrite len_cons, len_nil, N.add_0_r, N.pow_1_r.
    unfold be_value at 1. cbn [be_acc]. rewrite b2n_n2b.
    rewrite Nnat.Nat2N.inj_succ, N.pow_succ_r'.
    rewrite N.mod_mul_r; [lia|discriminate|apply N.pow_nonzero; discriminate].
Qed.
Lemma be_value_1 b : be_value [b] = b2n b.
Proof. rewrite be_value_cons, len_nil, N.pow_0_r. cbn. lia. Qed.
Lemma be_bytes_value l : be_bytes (length l) (be_value l) = l.
Proof.
  induction l as [|b l IH] using rev_ind; [reflexivity|].
  rewrite app_length. cbn [length]. rewrite Nat.add_1_r. cbn [be_bytes].
  rewrite be_value_app, len_cons, len_nil, N.add_0_r, N.pow_1_r, be_value_1.
  pose proof (b2n_lt b) as Hb.
  f_equal.
  - replace ((be_value l * 256 + b2n b) / 256) with (be_value l); [exact IH|].
    rewrite N.div_add_l by discriminate. rewrite (N.div_small (b2n b)) by exact Hb. lia.
  - f_equal. apply b2n_inj. rewrite b2n_n2b.
    rewrite N.add_comm, N.mod_add by discriminate. apply N.mod_small; exact Hb.
Qed.

Lemma be32_len n : len (be32 n) = 4.
Proof. apply (be_bytes_len 4). Qed.
Lemma be32_value n : is_u32 n = true -> be_value (be32 n) = n.
Proof.
  unfold is_u32, u32_max1; intros H. unfold be32. rewrite be_value_be_bytes.
  change (256 ^ N.of_nat 4) with 4294967296. apply N.mod_small. lia.
Qed.
Lemma be32_of_value l : len l = 4 -> be32 (be_value l) = l.
Proof.
  intros H. unfold be32. replace 4%nat with (length l) by (unfold len in H; lia).
  apply be_bytes_value.
Qed.
Lemma be_value_u32 l : len l = 4 -> is_u32 (be_value l) = true.
Proof.
  intros H. pose proof (be_value_lt l) as L. rewrite H in L.
  change (256 ^ 4) with 4294967296 in L. unfold is_u32, u32_max1. lia.
Qed.
Lemma be32_inj n m : is_u32 n = true -> is_u32 m = true -> be32 n = be32 m -> n = m.
Proof. intros Hn Hm E. rewrite <- (be32_value n), <- (be32_value m), E by assumption. reflexivity. Qed.
Lemma be64_len n : len (be64 n) = 8.
Proof. apply (be_bytes_len 8). Qed.
Lemma be64_value n : n < u64_max1 -> be_value (be64 n) = n.
Proof.
  unfold u64_max1; intros H. unfold be64. rewrite be_value_be_bytes.
  change (256 ^ N.of_nat 8) with 18446744073709551616. apply N.mod_small. lia.
Qed.

(** * Results *)
Lemma Ok_inj {E A} (a b : A) : @Ok E A a = Ok b -> a = b.
Proof. intros H; injection H as H; exact H. Qed.
Section Res.
Context {E A C : Type}.
Lemma bind_Ok (m : res E A) (f : A -> res E C) c :
  bind m f = Ok c <-> exists a, m = Ok a /\ f a = Ok c.
Proof.
  destruct m as [a|e|]; cbn [bind]; split.
  - intros H; exists a; auto.
  - intros (a' & [= <-] & H); exact H.
  - discriminate.
  - intros (a' & H & _); discriminate.
  - discriminate.
  - intros (a' & H & _); discriminate.
Qed.
Lemma bind_np (m : res E A) (f : A -> res E C) :
  m <> Panic -> (forall a, m = Ok a -> f a <> Panic) -> bind m f <> Panic.
Proof. destruct m as [a|e|]; cbn [bind]; [auto|discriminate|congruence]. Qed.
Lemma ok_or_Ok (m : res unit A) (e : E) a : ok_or m e = Ok a <-> m = Ok a.
Proof. destruct m; cbn; split; congruence. Qed.
Lemma ok_or_np (m : res unit A) (e : E) : m <> Panic -> ok_or m e <> Panic.
Proof. destruct m; cbn; congruence. Qed.
Lemma map_err_Ok (g : C -> E) (m : res C A) a : map_err g m = Ok a <-> m = Ok a.
Proof. destruct m; cbn; split; congruence. Qed.
Lemma map_err_np (g : C -> E) (m : res C A) : m <> Panic -> map_err g m <> Panic.
Proof. destruct m; cbn; congruence. Qed.
Lemma map_ok_Ok (g : A -> C) (m : res E A) c : map_ok g m = Ok c <-> exists a, m = Ok a /\ c = g a.
Proof.
  destruct m as [a|e|]; cbn; split.
  - intros [= <-]; eauto.
  - intros (a' & [= <-] & ->); reflexivity.
  - discriminate.
  - intros (? & ? & _); discriminate.
  - discriminate.
  - intros (? & ? & _); discriminate.
Qed.
Lemma map_ok_np (g : A -> C) (m : res E A) : m <> Panic -> map_ok g m <> Panic.
Proof. destruct m; cbn; congruence. Qed.
Lemma unwrap_Ok (m : res C A) a : @unwrap C E A m = Ok a <-> m = Ok a.
Proof. destruct m; cbn; split; congruence. Qed.
Lemma then_ok_Ok b (v : A) (e : E) a : then_ok b v e = Ok a <-> b = true /\ a = v.
Proof. destruct b; cbn; split; [intros [= ->]; auto|intros [_ ->]; auto|discriminate|intros [? _]; discriminate]. Qed.
Lemma then_ok_np b (v : A) (e : E) : then_ok b v e <> Panic.
Proof. destruct b; discriminate. Qed.
End Res.

(** * Slices *)
Lemma get_to_Ok {E} (e : E) d n x :
  get_to e d n = Ok x <-> len x = n /\ exists r, d = x ++ r.
Proof.
  unfold get_to. destruct (N.leb_spec n (len d)).
  - split.
    + intros [= <-]. rewrite len_ntake. split; [lia|]. exists (ndrop n d). symmetry; apply ntake_ndrop.
    + intros (L & r & ->). rewrite ntake_app by (symmetry; exact L). reflexivity.
  - split; [discriminate|]. intros (L & r & ->). lens. lia.
Qed.
Lemma get_to_np {E} (e : E) d n : get_to e d n <> Panic.
Proof. unfold get_to. destruct (n <=? len d); discriminate. Qed.
Lemma idx_from_app {E A} n (x r : list A) : n = len x -> @idx_from E A (x ++ r) n = Ok r.
Proof.
  intros ->. unfold idx_from. rewrite len_app. destruct (N.leb_spec (len x) (len x + len r)); [|lia].
  rewrite ndrop_app; reflexivity.
Qed.
Lemma idx_from_Ok {E A} (d : list A) n r :
  @idx_from E A d n = Ok r <-> n <= len d /\ r = ndrop n d.
Proof. unfold idx_from. destruct (N.leb_spec n (len d)); split; intros; try discriminate; intuition congruence || lia. Qed.
Lemma idx_from_1 {E A} (a : A) d : @idx_from E A (a :: d) 1 = Ok d.
Proof. apply (idx_from_app 1 [a] d). reflexivity. Qed.
Lemma u32_of_slice_Ok {E} s n : @u32_of_slice E s = Ok n <-> len s = 4 /\ n = be_value s.
Proof. unfold u32_of_slice. destruct (N.eqb_spec (len s) 4); split; intros; try discriminate; intuition congruence. Qed.
