(** Bridges from the primitives to the channel and the handshake. *)
From Coq Require Import Init.Byte.
From Verif Require Import HostThm2 PrimThm PolyThm PolyThm2 SpecPrim.
Open Scope res_scope.

(** ** C101 *)
Lemma real_crypto_ok : crypto_ok real_crypto.
Proof. intros k m. apply mac_len. Qed.
Lemma real_host_ok : forall id q sign, len id <= 253 -> len q = 65 ->
  (forall m, len (fst (sign m)) = 32 /\ len (snd (sign m)) = 32) -> host_ok (real_host id q sign).
Proof.
  intros id q sign I Q S. unfold host_ok, real_host. cbn [sha256 x25519_public x25519 host_sign host_q identifier].
  split; [intro m; apply sha_len|]. split; [intro k; unfold x25519_public_of; exact (x25519_len k _)|]. split; [exact x25519_len|]. split; [exact S|]. split; [exact Q|exact I].
Qed.

Lemma set_nth_length {A} : forall i (v : A) l, length (set_nth i v l) = length l.
Proof. induction i as [|i IH]; intros v [|a l]; cbn [set_nth length]; try reflexivity. rewrite IH. reflexivity. Qed.
Lemma qr_length : forall st x y z w, length (QUARTERROUND st x y z w) = length st.
Proof. intros. unfold QUARTERROUND. destruct (quarter _ _ _ _) as [[[a b] c] d]. rewrite !set_nth_length. reflexivity. Qed.
Lemma inner_length : forall st, length (inner_block st) = length st.
Proof. intro st. unfold inner_block. cbv zeta. rewrite !qr_length. reflexivity. Qed.
Lemma rounds_length : forall st, length (chacha_rounds st) = length st.
Proof.
  intro st. unfold chacha_rounds. generalize 10%nat. induction n as [|n IH]; [reflexivity|]. cbn [Nat.iter nat_rect].
  rewrite inner_length. exact IH.
Qed.
Lemma out_length : forall st, length (chacha_out st) = (4 * length st)%nat.
Proof.
  intro st. unfold chacha_out. pose proof (rounds_length st) as L. revert L. generalize (chacha_rounds st).
  induction st as [|x st IH]; intros [|y l] L; try discriminate; [reflexivity|].
  cbn [combine flat_map]. rewrite app_length, le_bytes_length. cbn [length] in L |- *. rewrite IH by congruence. lia.
Qed.
Lemma words_le_length : forall l, (4 * length (words_le l) < length l + 4)%nat /\ (length l <= 4 * length (words_le l))%nat.
Proof.
  intro l. unfold words_le, chunks. rewrite map_length.
  assert (G : forall fuel (l : bytes), (length l <= fuel)%nat ->
    (4 * length (pieces fuel 4 l) < length l + 4)%nat /\ (length l <= 4 * length (pieces fuel 4 l))%nat).
  { induction fuel as [|fuel IH]; intros [|a m] L; cbn [pieces length] in *; try lia.
    destruct (IH (skipn 4 (a :: m))) as [X Y]; [rewrite skipn_length; cbn [length]; lia|].
    rewrite skipn_length in X, Y. cbn [length] in X, Y. lia. }
  apply G. lia.
Qed.
Lemma block_length : forall key nonce ctr, len key = 32 -> len nonce = 8 ->
  len (chacha_block key nonce ctr) = 64 /\ len (chacha_block32 key nonce ctr) = 64.
Proof.
  intros key n ctr K L. unfold len in *. unfold chacha_block, chacha_block32. rewrite !out_length, !app_length.
  pose proof (words_le_length key). pose proof (words_le_length n). cbn [length chacha_constants]. lia.
Qed.

(** *** Poly1305 as a polynomial *)
Lemma skipn_twice {A} : forall a b (l : list A), skipn a (skipn b l) = skipn (b + a) l.
Proof. intros a b. induction b as [|b IH]; intro l; [reflexivity|]. destruct l as [|x l]; [rewrite !skipn_nil; reflexivity|]. apply IH. Qed.
Lemma pieces_nth : forall fuel (l : bytes) i, (length l <= fuel)%nat -> (i < length (pieces fuel 16 l))%nat ->
  nth i (pieces fuel 16 l) [] = ntake 16 (ndrop (16 * N.of_nat i) l).
Proof.
  induction fuel as [|fuel IH]; intros [|a l] i L I; cbn [pieces length] in *; try lia.
  destruct i as [|i]; [reflexivity|]. cbn [nth]. rewrite IH; [|rewrite skipn_length; cbn [length]; lia|lia].
  unfold ntake, ndrop. f_equal. rewrite skipn_twice. f_equal. lia.
Qed.
Fixpoint powers (cs : list N) (r : N) : N :=
  match cs with [] => 0 | c :: cs => c * r ^ len (c :: cs) + powers cs r end.
Lemma poly_acc_powers : forall r bs acc,
  (poly_acc r acc bs) mod p1305 = (acc * r ^ len bs + powers (map (fun b => le_value (b ++ [x01])) bs) r) mod p1305.
Proof.
  intros r bs. induction bs as [|b bs IH]; intro acc.
  - cbn [poly_acc map powers]. change (len (@nil bytes)) with 0. rewrite N.pow_0_r, N.mul_1_r, N.add_0_r. reflexivity.
  - cbn [poly_acc]. rewrite IH. set (v := le_value (b ++ [x01])).
    rewrite N.add_mod by discriminate. rewrite N.mul_mod_idemp_l by discriminate. rewrite <- N.add_mod by discriminate.
    cbn [map powers]. fold v. f_equal.
    replace (len (v :: map (fun b => le_value (b ++ [x01])) bs)) with (N.succ (len bs)) by (unfold len; cbn [length]; rewrite map_length; lia).
    replace (len (b :: bs)) with (N.succ (len bs)) by (unfold len; cbn [length]; lia). rewrite !N.pow_succ_r'. ring.
Qed.
Lemma sum_below_ext : forall f g n, (forall i, (i < n)%nat -> f (N.of_nat i) = g (N.of_nat i)) -> sum_below f n = sum_below g n.
Proof. intros f g n. induction n as [|n IH]; intro H; [reflexivity|]. cbn [sum_below]. rewrite IH, H by auto. reflexivity. Qed.
Lemma sum_below_head : forall f n, sum_below f (S n) = f 0 + sum_below (fun i => f (i + 1)) n.
Proof.
  intros f n. induction n as [|n IH]; [cbn [sum_below]; change (N.of_nat 0) with 0; lia|].
  change (sum_below f (S (S n))) with (sum_below f (S n) + f (N.of_nat (S n))). rewrite IH. cbn [sum_below].
  replace (N.of_nat n + 1) with (N.of_nat (S n)) by lia. lia.
Qed.
Lemma powers_sum : forall cs r, powers cs r = sum_below (fun i => nth (N.to_nat i) cs 0 * r ^ (len cs - i)) (length cs).
Proof.
  induction cs as [|c cs IH]; intro r; [reflexivity|]. cbn [length]. rewrite sum_below_head. cbn [powers]. apply f_equal2.
  - rewrite N.sub_0_r. reflexivity.
  - rewrite IH. apply sum_below_ext. intros i I. replace (N.to_nat (N.of_nat i + 1)) with (S (N.to_nat (N.of_nat i))) by lia.
    cbn [nth]. f_equal. f_equal. unfold len. cbn [length]. lia.
Qed.
Lemma poly_is_sum : forall k m, len k = 32 ->
  poly1305_mac k m = le_bytes 16 (poly_sum (key_r k) m mod (2 ^ 130 - 5) + key_s k).
Proof.
  intros k m L. unfold poly1305_mac. cbv zeta. f_equal. f_equal.
  - change (clamp_r (le_value (ntake 16 k))) with (key_r k). change (2 ^ 130 - 5) with p1305.
    rewrite <- (N.mod_small (poly_acc (key_r k) 0 (chunks 16 m)) p1305) by (apply poly_acc_lt; reflexivity).
    rewrite poly_acc_powers, N.mul_0_l, N.add_0_l. f_equal. rewrite powers_sum. unfold poly_sum.
    rewrite map_length. pose proof (chunks_length m) as C.
    replace (N.to_nat (blocks (len m))) with (length (chunks 16 m)) by (unfold len in C at 1; lia).
    apply sum_below_ext. intros i I. rewrite len_map, C. f_equal. unfold coefficient. rewrite Nat2N.id.
    replace 0 with (le_value ([] ++ [x01]) - 1) by reflexivity.
    erewrite nth_indep by (rewrite map_length; exact I).
    rewrite (map_nth (fun b => le_value (b ++ [x01])) (chunks 16 m) []). f_equal. f_equal. apply pieces_nth; [lia|exact I].
  - unfold key_s. rewrite ntake_all16; [reflexivity|]. apply skipn_len16. exact L.
Qed.

(** ** C102 *)
Lemma u_value_eq : forall u, decode_u u = u_value u.
Proof. intro u. unfold decode_u, u_value. rewrite N2Z.inj_mod. reflexivity. Qed.
Lemma small_order_zero : forall k u, In (u_value u) small_order -> x25519_of k u = repeat x00 32.
Proof.
  intros k u H. rewrite <- u_value_eq in H. unfold small_order in H. cbn [In] in H.
  destruct H as [H|[H|[H|[H|[H|[]]]]]]; symmetry in H.
  - apply weak_zero. exact H.
  - apply (weak_four 1); [left; reflexivity|]. rewrite H. apply cg_refl.
  - apply (weak_four (-1)); [right; reflexivity|]. rewrite H. exists 1%Z. reflexivity.
  - eapply weak_eight; [exact order8_a|]. rewrite H. apply cg_refl.
  - eapply weak_eight; [exact order8_b|]. rewrite H. apply cg_refl.
Qed.

Lemma handshake_determined H R ls vc ic raw1 k ec raw2 qc raw3 s' : host_ok H -> host_rng_ok R ->
  Forall (fun l => Forall (fun b => b <> x0d) l /\ ~ trap l) ls -> ident_ok vc ->
  plain_packet ic raw1 -> len raw1 <= 65536 -> is_wire (Msg_KexInit k) ic -> acceptable k ->
  plain_packet ec raw2 -> len raw2 <= 65536 -> is_wire (Msg_EcdhInit qc) ec -> len qc = 32 ->
  plain_packet (wire Msg_NewKeys) raw3 -> len raw3 <= 65536 ->
  let h := exchange_hash H (ephermal R) vc ic qc in
  let K := be_value (x25519 H (ephermal R) qc) in
  exists c o, handle_new_client H R (as_lines ls ++ vc ++ crlf ++ raw1 ++ raw2 ++ raw3 ++ s') [] = (Ok c, s', o) /\
    server_writes H R h o /\ session_identifier c = h /\
    keyed (sha256 H) K h Enc_c2s (receive_cipher c) /\ keyed (sha256 H) K h Enc_s2c (send_cipher c) /\
    counter (receive_cipher c) = 3 /\ counter (send_cipher c) = 3.
Proof.
  intros HO RO LS VC P1 L1 W1 A P2 L2 W2 Q P3 L3 h K.
  destruct (handshake_complete H R ls vc ic raw1 k ec raw2 qc raw3 s' HO RO LS VC P1 L1 W1 A P2 L2 W2 Q P3 L3) as (c & o & E).
  exists c, o. split; [exact E|]. apply handshake_eq in E; [|assumption..].
  pose proof (s_ident ls vc (raw1 ++ raw2 ++ raw3 ++ s') LS VC) as I.
  apply wire_parse in W2; [|reflexivity].
  inversion E as [| | | | | | | | | | | | |vc' ic' raw' k' ec' raw2' qc' nk raw3' c' s4 o' I' P1' L1' M1 A' P2' L2' M2 Q' P3' L3' M3 SW SI KC KS CC CS]. subst.
  pose proof (eq_trans (eq_sym I) I') as X. injection X as <- X.
  destruct (plain_inj _ _ _ _ _ _ P1 P1' X) as (<- & <- & X2).
  destruct (plain_inj _ _ _ _ _ _ P2 P2' X2) as (<- & <- & X3).
  rewrite W2 in M2. injection M2 as <-. rewrite SI in *. auto 10.
Qed.

Lemma be_zeros : be_value (repeat x00 32) = 0.
Proof. reflexivity. Qed.
Lemma zero_keys id q sign R ls vc ic raw1 k ec raw2 qc raw3 s' :
  let H := real_host id q sign in
  host_ok H -> host_rng_ok R ->
  Forall (fun l => Forall (fun b => b <> x0d) l /\ ~ trap l) ls -> ident_ok vc ->
  plain_packet ic raw1 -> len raw1 <= 65536 -> is_wire (Msg_KexInit k) ic -> acceptable k ->
  plain_packet ec raw2 -> len raw2 <= 65536 -> is_wire (Msg_EcdhInit qc) ec -> len qc = 32 -> In (u_value qc) small_order ->
  plain_packet (wire Msg_NewKeys) raw3 -> len raw3 <= 65536 ->
  let h := sha256_of (exchange_bytes
    {| t_vc := vc; t_vs := id; t_ic := ic; t_is := wire server_kexinit; t_key := public_host_key H;
       t_qc := qc; t_qs := x25519_public_of (ephermal R); t_k := 0 |}) in
  exists c o, handle_new_client H R (as_lines ls ++ vc ++ crlf ++ raw1 ++ raw2 ++ raw3 ++ s') [] = (Ok c, s', o) /\
    server_writes H R h o /\ session_identifier c = h /\
    keyed sha256_of 0 h Enc_c2s (receive_cipher c) /\ keyed sha256_of 0 h Enc_s2c (send_cipher c).
Proof.
  intros H HO RO LS VC P1 L1 W1 A P2 L2 W2 Q SO P3 L3 h.
  destruct (handshake_determined H R ls vc ic raw1 k ec raw2 qc raw3 s' HO RO LS VC P1 L1 W1 A P2 L2 W2 Q P3 L3)
    as (c & o & E & SW & SI & KC & KS & _).
  assert (Z : x25519 H (ephermal R) qc = repeat x00 32) by (apply small_order_zero; exact SO).
  assert (EH : exchange_hash H (ephermal R) vc ic qc = h).
  { unfold exchange_hash, transcript_of. rewrite Z, be_zeros. reflexivity. }
  rewrite EH in *. rewrite Z, be_zeros in KC, KS. exists c, o. auto.
Qed.

(** ** C103 *)
Lemma bxor_zero : forall b, bxor x00 b = b.
Proof. intro b. destruct b; reflexivity. Qed.
Lemma ks_zeros : forall f n pos, apply_keystream f pos (repeat x00 n) = map (fun i => f (pos + N.of_nat i)) (seq 0 n).
Proof.
  intros f n. induction n as [|n IH]; intro pos; [reflexivity|]. cbn [repeat apply_keystream seq map]. f_equal.
  - rewrite bxor_zero, N.add_0_r. reflexivity.
  - rewrite IH, <- seq_shift, map_map. apply map_ext. intro i. f_equal. lia.
Qed.
Lemma mac_key_eq : forall c ks, apply_keystream (ks (key_data c) (nonce c)) 0 (repeat x00 32) = one_time_key c ks.
Proof. intros c ks. rewrite ks_zeros. apply map_ext. intro i. rewrite N.add_0_l. reflexivity. Qed.
Lemma one_time_len : forall c ks, len (one_time_key c ks) = 32.
Proof. intros. unfold one_time_key. rewrite len_map. reflexivity. Qed.
Lemma takes_fst : forall C c w, takes C c w <-> fst (decrypt_data C c w) = Ok tt.
Proof.
  intros C c w. unfold takes. split; [intros [x ->]; reflexivity|]. intro H. exists (snd (decrypt_data C c w)).
  rewrite <- H. destruct (decrypt_data C c w); reflexivity.
Qed.
Lemma takes_tag : forall ks c w, takes (with_mac ks) c w ->
  16 <= len w /\ poly1305_mac (one_time_key c ks) (ntake (len w - 16) w) = ndrop (len w - 16) w.
Proof.
  intros ks c w [x T]. unfold decrypt_data, authenticate, split_tag, usize_sub, TAG_SIZE in T.
  destruct (16 <=? len w) eqn:L; [|discriminate T]. apply N.leb_le in L. split; [exact L|]. cbn [bind] in T.
  unfold compute_tag in T. cbn [keystream poly1305 with_mac] in T. rewrite mac_key_eq in T.
  destruct (bytes_eqb _ _) eqn:E in T; [|discriminate T]. apply bytes_eqb_true in E. exact E.
Qed.

Lemma forged_packets : forall c w w' (KS : list Stream), w <> w' -> NoDup (map (one_time_key c) KS) ->
  (forall ks, In ks KS -> takes (with_mac ks) c w /\ takes (with_mac ks) c w') ->
  len KS <= 2 ^ 25 * N.max (blocks (len w - 16)) (blocks (len w' - 16)).
Proof.
  intros c w w' KS NE ND H. destruct KS as [|ks0 KS0] eqn:EK; [apply N.le_0_l|]. rewrite <- EK in *.
  assert (I0 : In ks0 KS) by (subst; left; reflexivity). clear EK KS0.
  destruct (H ks0 I0) as [T T']. destruct (takes_tag _ _ _ T) as [L0 E0]. destruct (takes_tag _ _ _ T') as [L0' E0'].
  assert (LM : len (ntake (len w - 16) w) = len w - 16) by (rewrite len_ntake; lia).
  assert (LM' : len (ntake (len w' - 16) w') = len w' - 16) by (rewrite len_ntake; lia).
  rewrite <- (len_map (one_time_key c) KS), <- LM, <- LM'.
  apply few_keys with (t := ndrop (len w - 16) w) (t' := ndrop (len w' - 16) w'); [|exact ND|].
  - intro E. apply NE. rewrite <- E, E0 in E0'. 
    rewrite <- (firstn_skipn (N.to_nat (len w - 16)) w), <- (firstn_skipn (N.to_nat (len w' - 16)) w').
    change (ntake (len w - 16) w ++ ndrop (len w - 16) w = ntake (len w' - 16) w' ++ ndrop (len w' - 16) w').
    rewrite E, E0'. reflexivity.
  - intros k I. apply in_map_iff in I. destruct I as (ks & <- & I). destruct (H ks I) as [X X'].
    split; [apply one_time_len|]. split; [apply (takes_tag _ _ _ X)|apply (takes_tag _ _ _ X')].
Qed.

(** ** C104 *)
Lemma block32_same : same_start (chacha20_stream chacha_block32) (chacha20_stream chacha_block).
Proof.
  intros k n i L. unfold chacha20_stream, chacha_block32, chacha_block. f_equal. f_equal. f_equal. f_equal. cbn [app]. f_equal. f_equal.
  rewrite N.div_div by discriminate. rewrite N.div_small; [reflexivity|]. exact L.
Qed.

Section same.
  Variables (f g : Stream) (mac : bytes -> bytes -> bytes).
  Hypothesis (S : same_start f g).
  Let C := {| keystream := f; poly1305 := mac |}.
  Let D := {| keystream := g; poly1305 := mac |}.
  Lemma same_apply : forall k n d pos, pos + len d <= 64 * 2 ^ 32 -> apply_keystream (f k n) pos d = apply_keystream (g k n) pos d.
  Proof.
    intros k n d. induction d as [|b d IH]; intros pos L; [reflexivity|].
    assert (len (b :: d) = 1 + len d) as X by (unfold len; cbn [length]; lia). rewrite X in L.
    cbn [apply_keystream]. rewrite S, IH by lia. reflexivity.
  Qed.
  Lemma same_tag : forall c d, compute_tag C c d = compute_tag D c d.
  Proof. intros. unfold compute_tag. cbn [C D keystream poly1305]. rewrite same_apply; [reflexivity|]. discriminate. Qed.
  Lemma same_data : forall c d, len d < 2 ^ 34 -> apply_data C c d = apply_data D c d.
  Proof. intros c d L. unfold apply_data. cbn [C D keystream]. apply same_apply. lia. Qed.
  Lemma same_decrypt : forall c d, len d < 2 ^ 34 -> decrypt_data C c d = decrypt_data D c d.
  Proof.
    intros c d L. unfold decrypt_data, authenticate. destruct (split_tag d) as [[x t]| |] eqn:E; [|reflexivity..]. cbn [bind].
    rewrite same_tag. destruct (bytes_eqb _ _); [|reflexivity].
    unfold usize_sub. destruct (TAG_SIZE <=? len d); [|reflexivity]. cbn [bind].
    unfold idx_range. destruct (_ && _); [|reflexivity]. cbn [bind]. rewrite same_data; [reflexivity|].
    rewrite len_ntake, len_ndrop. lia.
  Qed.
  Lemma same_encrypt : forall c d, len d < 2 ^ 34 -> encrypt C c d = encrypt D c d.
  Proof.
    intros c d L. unfold encrypt. destruct (split_tag d) as [[x t]| |] eqn:E; [|reflexivity..]. cbn [bind].
    assert (LX : len x <= len d).
    { unfold split_tag, usize_sub in E. destruct (TAG_SIZE <=? len d); [|discriminate E]. cbn [bind] in E. injection E as <- _.
      rewrite len_ntake. lia. }
    unfold idx_to, idx_from. destruct (4 <=? len x) eqn:L4; [|reflexivity]. cbn [bind].
    cbn [C D keystream]. rewrite same_apply by (rewrite len_ntake; lia). fold C D. rewrite same_data by (rewrite len_ndrop; lia).
    rewrite same_tag. reflexivity.
  Qed.
  Lemma ks_len : forall h pos d, len (apply_keystream h pos d) = len d.
  Proof. intros h pos d. revert pos. induction d as [|b d IH]; intro pos; [reflexivity|]. cbn [apply_keystream]. unfold len in *. cbn [length]. specialize (IH (pos + 1)). lia. Qed.
  Lemma same_recv {RS} (rd : N -> RS -> res IoError bytes * RS) : forall c buf s, In_recv_gen rd C c buf s = In_recv_gen rd D c buf s.
  Proof.
    intros c buf s. unfold In_recv_gen. destruct (negb _); [reflexivity|]. destruct (rd 4 s) as [[h|e|] s1]; [|reflexivity..]. cbv zeta.
    unfold decrypt_length. cbn [C D keystream]. fold C D.
    destruct (N.eq_dec (len h) 4) as [L4|L4].
    2:{ unfold u32_of_slice. rewrite !ks_len. destruct (N.eqb_spec (len h) 4); [contradiction|reflexivity]. }
    rewrite same_apply by lia. set (lenb := apply_keystream _ 0 h).
    destruct (u32_of_slice lenb) as [l|e|] eqn:E; [|reflexivity..].
    apply u32_of_slice_Ok in E as [E1 ->]. pose proof (be_value_lt lenb) as LB. rewrite E1 in LB. change (256 ^ 4) with (2 ^ 32) in LB.
    destruct (negb _); [reflexivity|]. destruct (rd _ s1) as [[d|e|] s2]; [|reflexivity..].
    destruct (idx_to _ _) as [data|e|] eqn:ED; [|reflexivity..].
    rewrite same_decrypt; [reflexivity|]. unfold idx_to in ED. destruct (_ <=? _); [|discriminate ED]. apply Ok_inj in ED. subst data.
    rewrite len_ntake. unfold TAG_SIZE. lia.
  Qed.
  Lemma same_recv_many {RS} (rd : N -> RS -> res IoError bytes * RS) : forall k c buf s, recv_many rd C k c buf s = recv_many rd D k c buf s.
  Proof.
    induction k as [|k IH]; intros c buf s; [reflexivity|]. cbn [recv_many]. rewrite same_recv.
    destruct (In_recv_gen rd D c buf s) as [[p|e|] [[c1 b1] s1]]; [|reflexivity..]. rewrite IH. reflexivity.
  Qed.
  Lemma same_send : forall c buf fill rng, Out_send C c buf fill rng = Out_send D c buf fill rng.
  Proof.
    intros c buf fill rng. unfold Out_send. destruct (wrap _ _ _ _ _) as [b|e|]; [|reflexivity..]. cbn [bind].
    unfold into_raw, packet_len. destruct (@idx_to unit byte b 4) as [h|e|] eqn:E; [|reflexivity..]. cbn [bind].
    destruct (@u32_of_slice unit h) as [l|e|] eqn:El; [|reflexivity..]. cbn [bind].
    apply u32_of_slice_Ok in El as [E1 ->]. pose proof (be_value_lt h) as LB. rewrite E1 in LB. change (256 ^ 4) with (2 ^ 32) in LB.
    unfold idx_to. destruct (_ <=? _); [|reflexivity]. cbn [bind]. rewrite same_encrypt; [reflexivity|].
    rewrite len_ntake. unfold TAG_SIZE. lia.
  Qed.
  Lemma same_send_many : forall jobs c, send_many C c jobs = send_many D c jobs.
  Proof.
    induction jobs as [|j jobs IH]; intro c; [reflexivity|]. cbn [send_many]. rewrite same_send.
    destruct (Out_send D c _ _ _) as [[[w c1] b]|e|]; [|reflexivity..]. cbn [bind]. rewrite IH. reflexivity.
  Qed.
End same.
