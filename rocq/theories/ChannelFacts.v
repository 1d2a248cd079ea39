(** Lemmas about the encrypted channel. *)
From Coq Require Import Init.Byte Strings.Byte.
From Verif Require Export SpecChannel PacketThm.
Open Scope res_scope.

(** * Keystreams *)
Lemma apply_len ks d : forall pos, len (apply_keystream ks pos d) = len d.
Proof. induction d as [|b d IH]; intros pos; [reflexivity|]. cbn [apply_keystream]. rewrite !len_cons, IH. reflexivity. Qed.
Lemma apply_invol ks d : forall pos, apply_keystream ks pos (apply_keystream ks pos d) = d.
Proof. induction d as [|b d IH]; intros pos; [reflexivity|]. cbn [apply_keystream]. rewrite bxor_invol, IH. reflexivity. Qed.
Lemma map_seq_shift {A} (f : nat -> A) n a : map f (seq (S a) n) = map (fun i => f (S i)) (seq a n).
Proof. rewrite <- seq_shift, map_map. reflexivity. Qed.
Lemma apply_xor ks d : forall pos, apply_keystream ks pos d = xor_bytes d (ks_range ks pos (len d)).
Proof.
  induction d as [|b d IH]; intros pos; [reflexivity|]. cbn [apply_keystream]. rewrite IH.
  unfold xor_bytes, ks_range. replace (N.to_nat (len (b :: d))) with (S (length d)) by (unfold len; cbn [length]; lia).
  cbn [seq map]. rewrite map_seq_shift. cbn [combine map]. f_equal; [f_equal; f_equal; lia|].
  f_equal. f_equal. unfold len. rewrite Nnat.Nat2N.id. apply map_ext. intros i. f_equal. lia.
Qed.
Lemma ks_range_apply ks n : forall pos, apply_keystream ks pos (repeat x00 n) = ks_range ks pos (N.of_nat n).
Proof.
  induction n as [|n IH]; intros pos; [reflexivity|]. cbn [repeat apply_keystream]. rewrite IH.
  unfold ks_range. rewrite !Nnat.Nat2N.id. cbn [seq map]. rewrite map_seq_shift. f_equal.
  - replace (pos + N.of_nat 0) with pos by lia.
    unfold bxor. change (b2n x00) with 0. rewrite N.lxor_0_l. apply n2b_b2n.
  - apply map_ext. intros i. f_equal. lia.
Qed.

Lemma compute_tag_eq C c d :
  compute_tag C c d = poly1305 C (ks_range (keystream C (key_data c) (be64 (counter c))) 0 32) d.
Proof. unfold compute_tag, nonce. rewrite ks_range_apply. reflexivity. Qed.

Lemma seal_eq C c p : 4 <= len p ->
  seal_with C c p =
  let cl := decrypt_length C c (ntake 4 p) in
  let cb := apply_data C c (ndrop 4 p) in
  cl ++ cb ++ compute_tag C c (cl ++ cb).
Proof.
  intros H. cbv zeta. rewrite compute_tag_eq. unfold seal_with, seal, decrypt_length, apply_data, nonce. rewrite !apply_xor.
  replace (len (ntake 4 p)) with 4 by (lens; lia). reflexivity.
Qed.

Lemma seal_len C c p : crypto_ok C -> 4 <= len p -> len (seal_with C c p) = len p + 16.
Proof.
  intros K H. rewrite seal_eq by exact H. cbv zeta. unfold decrypt_length, apply_data.
  rewrite !len_app, !apply_len, compute_tag_eq, K. lens. lia.
Qed.

(** * Sending *)
Lemma into_raw_eq {E} l d x rest : l < 2 ^ 32 -> len d = l ->
  @into_raw E (be32 l ++ d ++ rest) x = if x <=? len rest then Ok (be32 l ++ d ++ ntake x rest) else Panic.
Proof.
  intros H1 H2. unfold into_raw.
  assert (PL : @packet_len E (be32 l ++ d ++ rest) = Ok l).
  { unfold packet_len, idx_to. replace (4 <=? _) with true by (lens; rewrite be32_len; lia). cbn [bind].
    rewrite ntake_app by (rewrite be32_len; reflexivity). apply u32_of_slice_Ok.
    rewrite be32_len, be32_value by (apply u32_pow; exact H1). auto. }
  rewrite PL. cbn [bind]. unfold idx_to.
  replace (4 + l + x <=? _) with (x <=? len rest) by (lens; rewrite be32_len; lia).
  destruct (x <=? len rest); [|reflexivity].
  rewrite app_assoc, ntake_app_ge by (rewrite len_app, be32_len; lia).
  rewrite <- app_assoc. do 4 f_equal. rewrite len_app, be32_len. lia.
Qed.

Lemma encrypt_eq C c raw t : crypto_ok C -> 4 <= len raw -> len t = 16 ->
  encrypt C c (raw ++ t) = Ok (bump c, seal_with C c raw).
Proof.
  intros K H Ht. unfold encrypt, split_tag, usize_sub.
  replace (TAG_SIZE <=? _) with true by (unfold TAG_SIZE; lens; lia). cbn [bind].
  replace (len (raw ++ t) - TAG_SIZE) with (len raw) by (unfold TAG_SIZE; lens; lia).
  rewrite ntake_app, ndrop_app by reflexivity. unfold idx_to, idx_from.
  replace (4 <=? len raw) with true by lia. cbn [bind].
  rewrite compute_tag_eq at 1. rewrite K, Ht. cbn [N.eqb Pos.eqb bind].
  rewrite seal_eq by exact H. cbv zeta. rewrite <- app_assoc. reflexivity.
Qed.

Lemma send_exact C c buf f rng pl rest p : crypto_ok C -> rng_ok rng ->
  fills f (ndrop 5 buf) pl rest -> least_padding 8 false (len pl) p ->
  let raw := be32 (1 + len pl + p) ++ [n2b p] ++ pl ++ rng p in
  Out_send C c buf f rng =
  if (21 + len pl + p <=? len buf) && (1 + len pl + p <? 2 ^ 32)
  then Ok (seal_with C c raw, bump c, seal_with C c raw ++ ndrop (p + 16) rest) else Panic.
Proof.
  intros K Hr Hf Hp raw. unfold Out_send.
  rewrite (wrap_exact buf bs_of_cipher false f rng pl rest p Hr Hf Hp).
  pose proof (Hr p) as Lr. destruct Hf as [Hf1 Hf2]. rewrite len_ndrop in Hf2.
  destruct (N.ltb_spec (1 + len pl + p) (2 ^ 32)) as [L|L]; [|rewrite !andb_false_r; reflexivity]. rewrite !andb_true_r.
  destruct (N.leb_spec (5 + len pl + p) (len buf)) as [R|R].
  2:{ replace (_ <=? len buf) with false by lia. reflexivity. }
  cbn [bind].
  replace (be32 (1 + len pl + p) ++ [n2b p] ++ pl ++ rng p ++ ndrop p rest)
    with (be32 (1 + len pl + p) ++ ([n2b p] ++ pl ++ rng p) ++ ndrop p rest) by (rewrite <- !app_assoc; reflexivity).
  rewrite into_raw_eq by (lens; lia). unfold TAG_SIZE.
  replace (16 <=? len (ndrop p rest)) with (21 + len pl + p <=? len buf) by (lens; lia).
  destruct (N.leb_spec (21 + len pl + p) (len buf)) as [R2|R2]; [|reflexivity]. cbn [bind].
  rewrite app_assoc.
  rewrite encrypt_eq; [|exact K|lens; rewrite be32_len; lia|lens; lia].
  cbn [bind]. fold raw.
  assert (LR : len raw = 5 + len pl + p) by (unfold raw; lens; rewrite be32_len; lia).
  assert (LS : len (seal_with C c raw) = len raw + 16) by (apply seal_len; [exact K|lia]).
  do 2 f_equal. rewrite splice_0 by (rewrite LS; unfold raw in *; lens; rewrite be32_len in *; lia).
  f_equal. rewrite LS, app_assoc. fold raw. rewrite ndrop_app_ge by lia.
  rewrite ndrop_ndrop. f_equal. lia.
Qed.

(** * Receiving, completely *)
Definition opened (C : Crypto) (c : Cipher) (h body : bytes) : bytes := decrypt_length C c h ++ apply_data C c body.

Lemma recv_eof C c buf s : 4 <= len buf -> len s < 4 ->
  In_recv C c buf s = (Err (In_Read UnexpectedEof), (c, buf, [])).
Proof.
  intros H1 H2. unfold In_recv, In_recv_gen. replace (4 <=? len buf) with true by lia. cbn [negb].
  unfold read_exact at 1. replace (4 <=? len s) with false by lia. reflexivity.
Qed.

Lemma recv_eq C c buf h t : 4 <= len buf -> len h = 4 ->
  let l := be_value (decrypt_length C c h) in
  In_recv C c buf (h ++ t) =
  if len buf <? 20 + l then (Err (In_BufferTooSmall l), (c, h ++ ndrop 4 buf, t))
  else if len t <? l + 16 then (Err (In_Read UnexpectedEof), (c, h ++ ndrop 4 buf, []))
  else
    let body := ntake l t in let tag := ntake 16 (ndrop l t) in let rest := ndrop (l + 16) t in
    if bytes_eqb (compute_tag C c (h ++ body)) tag then
      let out := opened C c h body ++ tag ++ ndrop (20 + l) buf in
      (p <- map_err In_Packet (wrap_raw out false B8) ;; payload p, (bump c, out, rest))
    else (Err (In_Cipher CipherE), (c, h ++ body ++ tag ++ ndrop (20 + l) buf, rest)).
Proof.
  intros H1 H2 l. unfold In_recv, In_recv_gen. replace (4 <=? len buf) with true by lia. cbn [negb].
  unfold read_exact at 1. replace (4 <=? len (h ++ t)) with true by (lens; lia).
  rewrite ntake_app, ndrop_app by lia.
  assert (S0 : splice 0 h buf = h ++ ndrop 4 buf) by (rewrite splice_0; rewrite H2; [reflexivity|exact H1]).
  rewrite S0.
  assert (LD : len (decrypt_length C c h) = 4) by (unfold decrypt_length; rewrite apply_len; exact H2).
  assert (U : @u32_of_slice InError (decrypt_length C c h) = Ok l) by (apply u32_of_slice_Ok; auto).
  rewrite U. unfold TAG_SIZE.
  replace (l + 16 <=? len (h ++ ndrop 4 buf) - 4) with (negb (len buf <? 20 + l)) by (lens; rewrite H2; lia).
  rewrite negb_involutive. destruct (len buf <? 20 + l) eqn:C1; [reflexivity|].
  unfold read_exact at 1. replace (l + 16 <=? len t) with (negb (len t <? l + 16)) by lia.
  destruct (len t <? l + 16) eqn:C2; cbn [negb]; [reflexivity|]. cbv zeta.
  assert (TS : ntake (l + 16) t = ntake l t ++ ntake 16 (ndrop l t)).
  { rewrite <- (ntake_ndrop l t) at 1. rewrite ntake_app_ge by (lens; lia). do 2 f_equal. lens. lia. }
  set (body := ntake l t) in *. set (tag := ntake 16 (ndrop l t)) in *.
  assert (Lb : len body = l) by (unfold body; lens; lia).
  assert (Lt : len tag = 16) by (unfold tag; lens; lia).
  rewrite TS. rewrite splice_app by lia. rewrite ndrop_ndrop, len_app, Lb, Lt.
  replace (4 + (l + 16)) with (20 + l) by lia.
  set (tl := ndrop (20 + l) buf).
  assert (B1 : h ++ (body ++ tag) ++ tl = (h ++ body ++ tag) ++ tl) by (rewrite <- !app_assoc; reflexivity).
  rewrite B1. unfold idx_to at 1. replace (4 + l + 16 <=? _) with true by (lens; lia).
  rewrite ntake_app by (lens; lia).
  unfold decrypt_data, authenticate, split_tag, usize_sub, TAG_SIZE.
  replace (16 <=? len (h ++ body ++ tag)) with true by (lens; lia). cbn [bind].
  replace (len (h ++ body ++ tag) - 16) with (len (h ++ body)) by (lens; lia).
  rewrite app_assoc, ntake_app, ndrop_app by reflexivity.
  destruct (bytes_eqb _ tag) eqn:EQ.
  - unfold idx_range. replace (_ && _) with true by (lens; lia). cbn [bind].
    assert (M : ntake (len (h ++ body) - 4) (ndrop 4 ((h ++ body) ++ tag)) = body).
    { rewrite <- app_assoc, ndrop_app by lia. apply ntake_app. lens. lia. }
    rewrite M.
    assert (S1 : splice 4 (apply_data C c body) ((h ++ body) ++ tag) = h ++ apply_data C c body ++ tag).
    { rewrite <- app_assoc, splice_app by lia. f_equal. f_equal. apply ndrop_app. unfold apply_data. apply apply_len. }
    rewrite S1.
    assert (S2 : splice 0 (decrypt_length C c h) (h ++ apply_data C c body ++ tag) = opened C c h body ++ tag).
    { rewrite splice_0 by (lens; lia). unfold opened. rewrite <- app_assoc. f_equal. apply ndrop_app. lia. }
    rewrite S2.
    assert (S3 : splice 0 (opened C c h body ++ tag) (((h ++ body) ++ tag) ++ tl) = opened C c h body ++ tag ++ tl).
    { assert (LO : len (opened C c h body) = 4 + l) by (unfold opened, apply_data; rewrite len_app, apply_len; lia).
      rewrite splice_0 by (lens; rewrite LO; lia). rewrite <- app_assoc. f_equal. f_equal. apply ndrop_app.
      lens. lia. }
    rewrite S3. reflexivity.
  - assert (S4 : splice 0 ((h ++ body) ++ tag) (((h ++ body) ++ tag) ++ tl) = h ++ body ++ tag ++ tl).
    { rewrite splice_0 by (lens; lia). rewrite ndrop_app by reflexivity. rewrite <- !app_assoc. reflexivity. }
    rewrite S4. reflexivity.
Qed.

Lemma recv_short C c buf s : len buf < 4 -> In_recv C c buf s = (Panic, (c, buf, s)).
Proof. intros H. unfold In_recv, In_recv_gen. replace (4 <=? len buf) with false by lia. reflexivity. Qed.

Lemma split4 (s : bytes) : 4 <= len s -> exists h t, s = h ++ t /\ len h = 4.
Proof. intros H. exists (ntake 4 s), (ndrop 4 s). rewrite ntake_ndrop. lens. split; [reflexivity|lia]. Qed.

(** The last step on authentic data. *)
Lemma opened_result l0 cl tl : len l0 = 4 -> len cl = be_value l0 -> 16 <= len tl ->
  let r := (p <- map_err In_Packet (wrap_raw (l0 ++ cl ++ tl) false B8) ;; payload p) in
  r <> Panic /\
  forall pl, r = Ok pl <-> exists pad, loose_packet pl pad (l0 ++ cl).
Proof.
  intros L0 Lc Lt. cbv zeta.
  set (l := be_value l0) in *.
  assert (Hl : l < 2 ^ 32) by (apply u32_pow, be_value_u32, L0).
  assert (El : l0 = be32 l) by (symmetry; apply be32_of_value, L0).
  clearbody l.
  assert (NP : wrap_raw (l0 ++ cl ++ tl) false B8 <> Panic).
  { intros Hx. apply (proj1 (wrap_raw_cases _ _ _)) in Hx. lens. lia. }
  destruct (wrap_raw (l0 ++ cl ++ tl) false B8) as [d| e |] eqn:W; [| |congruence]; cbn [map_err bind].
  - destruct (wrap_raw_guards _ _ _ _ W) as (-> & l' & p & t & Hl' & Hp & Hd & Hpl & Al & G).
    rewrite El in Hd. apply app_len_inj in Hd as [E1 E2]; [|rewrite !be32_len; reflexivity].
    apply be32_inj in E1; [|apply u32_pow; assumption|apply u32_pow; assumption]. subst l'.
    destruct G as (pl & pad & rest & Ht & Hs & Hpad & Py & _ & _).
    { assert (len (cl ++ tl) = len ([n2b p] ++ t)) by congruence. lens. lia. }
    assert (Py' : @payload InError (l0 ++ cl ++ tl) = Ok pl).
    { clear -Py. unfold payload, payload_len, packet_len, padding_len, idx_to, idx, idx_range, u32_of_slice, usize_sub in *.
      repeat match goal with |- context [if ?b then _ else _] => destruct b; cbn [bind] in * | |- context [match ?b with Some _ => _ | None => _ end] => destruct b; cbn [bind] in * end; try discriminate.
      inversion Py. reflexivity. }
    rewrite Py'. split; [discriminate|]. intros pl'.
    assert (Ecl : cl = [n2b p] ++ pl ++ pad).
    { rewrite Ht in E2. assert (X : cl ++ tl = ([n2b p] ++ pl ++ pad) ++ rest) by (rewrite E2, <- !app_assoc; reflexivity).
      apply app_len_inj in X as [X _]; [exact X|]. lens. lia. }
    assert (LP : loose_packet pl pad (l0 ++ cl)).
    { split; [rewrite El, Ecl, Hs, Hpad; reflexivity|]. split; [lia|]. split; [lia|]. rewrite Hs. exact Al. }
    split.
    + intros X. apply Ok_inj in X. subst pl'. exists pad. exact LP.
    + intros (pad' & Q1 & Q2 & Q3 & Q4). destruct LP as (R1 & _ & _ & _).
      rewrite Q1 in R1. apply app_len_inj in R1 as [R1 R2]; [|rewrite !be32_len; reflexivity].
      apply app_len_inj in R2 as [R2 R3]; [|reflexivity].
      assert (EP : len pad' = len pad).
      { apply (f_equal (map b2n)) in R2. cbn [map] in R2. injection R2. rewrite !b2n_n2b_small by lia. auto. }
      assert (EL : len (pl' ++ pad') = len (pl ++ pad)) by congruence. lens.
      apply app_len_inj in R3 as [R3 _]; [subst; reflexivity|lia].
  - split; [discriminate|]. intros pl. split; [discriminate|]. intros (pad & Q1 & Q2 & Q3 & Q4).
    exfalso. apply (f_equal (fun x => x ++ tl)) in Q1.
    rewrite <- app_assoc in Q1. rewrite Q1 in W. clear Q1.
    rewrite <- !app_assoc in W. rewrite wrap_raw_eq in W by lia.
    destruct Q4 as [k Hk]. change (bs_usize B8) with 8 in W.
    replace (_ =? 0) with true in W by (symmetry; apply N.eqb_eq; rewrite Hk; apply N.mod_mul; lia).
    replace (_ <=? len pad) with false in W by lia. discriminate.
Qed.

Lemma opened_len C c h b : len h = 4 -> len (decrypt_length C c h) = 4 /\ len (apply_data C c b) = len b.
Proof. intros H. unfold decrypt_length, apply_data. rewrite !apply_len. auto. Qed.

Lemma recv_np C c buf s : 4 <= len buf -> fst (In_recv C c buf s) <> Panic.
Proof.
  intros H. destruct (N.le_gt_cases 4 (len s)) as [L|L].
  2:{ rewrite recv_eof by lia. discriminate. }
  destruct (split4 s L) as (h & t & -> & Lh). rewrite recv_eq by assumption. cbv zeta.
  set (l := be_value (decrypt_length C c h)).
  destruct (len buf <? 20 + l) eqn:C1; [discriminate|].
  destruct (len t <? l + 16) eqn:C2; [discriminate|].
  destruct (bytes_eqb _ _); [|discriminate]. cbn [fst]. unfold opened. rewrite <- app_assoc.
  destruct (opened_len C c h (ntake l t) Lh) as [O1 O2].
  apply (opened_result (decrypt_length C c h) (apply_data C c (ntake l t))); [exact O1| |lens; lia].
  rewrite O2. fold l. lens. lia.
Qed.

(** Complete characterisation of successful receives. *)
Lemma recv_iff C c buf s pl : crypto_ok C -> 4 <= len buf ->
  (fst (In_recv C c buf s) = Ok pl <->
   exists pad raw rest, loose_packet pl pad raw /\ s = seal_with C c raw ++ rest /\ len raw + 16 <= len buf).
Proof.
  intros K H. split.
  - intros R. destruct (N.le_gt_cases 4 (len s)) as [L|L].
    2:{ rewrite recv_eof in R by lia. discriminate. }
    destruct (split4 s L) as (h & t & -> & Lh). rewrite recv_eq in R by assumption. cbv zeta in R.
    set (l := be_value (decrypt_length C c h)) in *.
    destruct (len buf <? 20 + l) eqn:C1; [discriminate|].
    destruct (len t <? l + 16) eqn:C2; [discriminate|].
    destruct (bytes_eqb _ _) eqn:EQ; [|discriminate]. cbn [fst] in R. unfold opened in R. rewrite <- app_assoc in R.
    destruct (opened_len C c h (ntake l t) Lh) as [O1 O2].
    apply (opened_result (decrypt_length C c h) (apply_data C c (ntake l t))) in R; [|exact O1|rewrite O2; fold l; lens; lia|lens; lia].
    destruct R as (pad & P). exists pad, (decrypt_length C c h ++ apply_data C c (ntake l t)), (ndrop (l + 16) t).
    split; [exact P|]. split; [|lens; rewrite O1, O2; lens; lia].
    rewrite seal_eq by (lens; lia). cbv zeta. rewrite ntake_app, ndrop_app by lia.
    unfold decrypt_length, apply_data. rewrite !apply_invol.
    apply bytes_eqb_true in EQ. rewrite EQ.
    rewrite <- app_assoc. f_equal. rewrite <- app_assoc.
    rewrite <- (ndrop_ndrop 16 l t), !ntake_ndrop. reflexivity.
  - intros (pad & raw & rest & P & -> & F).
    assert (LR : 5 <= len raw) by (destruct P as (-> & _); lens; rewrite be32_len; lia).
    rewrite seal_eq by lia. cbv zeta. rewrite <- app_assoc.
    assert (L4 : len (ntake 4 raw) = 4) by (lens; lia).
    destruct (opened_len C c (ntake 4 raw) (ndrop 4 raw) L4) as [O1 O2].
    rewrite recv_eq by assumption. cbv zeta.
    assert (DI : decrypt_length C c (decrypt_length C c (ntake 4 raw)) = ntake 4 raw) by (unfold decrypt_length; apply apply_invol).
    rewrite DI.
    assert (EL : be_value (ntake 4 raw) = len (ndrop 4 raw)).
    { destruct P as (-> & P1 & P2 & P3). rewrite ntake_app, ndrop_app by (rewrite be32_len; reflexivity).
      rewrite be32_value by (apply u32_pow, P2). lens. lia. }
    rewrite EL. set (cb := apply_data C c (ndrop 4 raw)) in *. set (cl := decrypt_length C c (ntake 4 raw)) in *.
    assert (LT : len (compute_tag C c (cl ++ cb)) = 16) by (rewrite compute_tag_eq; apply K).
    replace (len buf <? _) with false by (lens; lia).
    replace (len _ <? _) with false by (lens; lia).
    rewrite <- app_assoc. rewrite ntake_app by (symmetry; exact O2). rewrite ndrop_app by (symmetry; exact O2).
    rewrite ntake_app by (symmetry; exact LT). rewrite bytes_eqb_refl. cbn [fst].
    unfold opened. rewrite DI, <- app_assoc. replace (apply_data C c cb) with (ndrop 4 raw) by (unfold cb, apply_data; rewrite apply_invol; reflexivity).
    apply (opened_result (ntake 4 raw) (ndrop 4 raw)); [exact L4|rewrite EL; reflexivity|lens; lia|].
    exists pad. rewrite ntake_ndrop. exact P.
Qed.

(** What a successful receive leaves behind. *)
Lemma recv_after C c buf raw rest pl pad : crypto_ok C -> 4 <= len buf ->
  loose_packet pl pad raw -> len raw + 16 <= len buf ->
  exists buf', len buf' = len buf /\
  In_recv C c buf (seal_with C c raw ++ rest) = (Ok pl, (bump c, buf', rest)).
Proof.
  intros K H P F.
  assert (R : fst (In_recv C c buf (seal_with C c raw ++ rest)) = Ok pl) by (apply recv_iff; eauto 8).
  assert (LR : 5 <= len raw) by (destruct P as (-> & _); lens; rewrite be32_len; lia).
  revert R. rewrite seal_eq by lia. cbv zeta. rewrite <- app_assoc.
  assert (L4 : len (ntake 4 raw) = 4) by (lens; lia).
  destruct (opened_len C c (ntake 4 raw) (ndrop 4 raw) L4) as [O1 O2].
  rewrite recv_eq by assumption. cbv zeta.
  assert (DI : decrypt_length C c (decrypt_length C c (ntake 4 raw)) = ntake 4 raw) by (unfold decrypt_length; apply apply_invol).
  rewrite DI.
  assert (EL : be_value (ntake 4 raw) = len (ndrop 4 raw)).
  { destruct P as (-> & P1 & P2 & P3). rewrite ntake_app, ndrop_app by (rewrite be32_len; reflexivity).
    rewrite be32_value by (apply u32_pow, P2). lens. lia. }
  rewrite EL. set (cb := apply_data C c (ndrop 4 raw)) in *. set (cl := decrypt_length C c (ntake 4 raw)) in *.
  assert (LT : len (compute_tag C c (cl ++ cb)) = 16) by (rewrite compute_tag_eq; apply K).
  replace (len buf <? _) with false by (lens; lia).
  replace (len _ <? _) with false by (lens; lia).
  rewrite <- app_assoc. rewrite ntake_app by (symmetry; exact O2). rewrite !ndrop_app by (symmetry; exact O2).
  rewrite ntake_app by (symmetry; exact LT). rewrite bytes_eqb_refl. cbn [fst].
  rewrite <- (ndrop_ndrop 16). rewrite ndrop_app by (symmetry; exact O2). rewrite ndrop_app by (symmetry; exact LT).
  intros ->. eexists. split; [|reflexivity]. unfold opened. rewrite DI.
  replace (apply_data C c cb) with (ndrop 4 raw) by (unfold cb, apply_data; rewrite apply_invol; reflexivity).
  rewrite !len_app, LT. clear -H F LR. lens. lia.
Qed.
