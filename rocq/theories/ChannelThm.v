(** Properties of the encrypted channel. *)
From Coq Require Import Init.Byte Strings.Byte.
From Verif Require Export ChannelFacts.
Open Scope res_scope.

Lemma pair_eq {A D} (a a' : A) (b b' : D) : (a, b) = (a', b') -> a = a' /\ b = b'.
Proof. intros H. inversion H. auto. Qed.

Lemma least_exists n : exists p, least_padding 8 false n p /\ 4 <= p < 12.
Proof. exists (wrap_pad 8 false n). split; [exact (wrap_pad_least B8 false n)|exact (wrap_pad_range B8 false n)]. Qed.

Lemma send_Ok C c j pl w c' buf' : crypto_ok C -> sends j pl ->
  Out_send C c (j_buf j) (j_fill j) (j_rng j) = Ok (w, c', buf') ->
  exists pad raw, is_packet 8 false pl pad raw /\ least_padding 8 false (len pl) (len pad) /\
    pad = j_rng j (len pad) /\ w = seal_with C c raw /\ c' = bump c /\ len buf' = len (j_buf j) /\ len w <= len buf'.
Proof.
  intros K [Hr [rest Hf]] H. destruct (least_exists (len pl)) as (p & Lp & Rp).
  rewrite (send_exact C c _ _ _ pl rest p K Hr Hf Lp) in H.
  destruct (_ && _) eqn:E in H; [|discriminate]. apply Ok_inj in H.
  apply pair_eq in H as [H <-]. apply pair_eq in H as [<- <-].
  pose proof (Hr p) as Lr.
  set (raw := be32 (1 + len pl + p) ++ [n2b p] ++ pl ++ j_rng j p) in *.
  assert (LR : len raw = 5 + len pl + p) by (unfold raw; lens; rewrite be32_len; lia).
  exists (j_rng j p), raw. rewrite Lr. split.
  { split; [rewrite Lr; reflexivity|]. rewrite Lr. split; [lia|]. split; [lia|]. exact (proj1 (proj2 Lp)). }
  split; [exact Lp|]. split; [reflexivity|]. split; [reflexivity|]. split; [reflexivity|].
  destruct Hf as [_ Hl]. rewrite len_ndrop in Hl.
  rewrite len_app, seal_len by (auto; lia). rewrite len_ndrop. lia.
Qed.

Lemma is_loose pl pad raw : is_packet 8 false pl pad raw -> loose_packet pl pad raw.
Proof. intros (A & B & C & D). split; [exact A|]. split; [lia|]. split; [exact C|exact D]. Qed.
Lemma packet_long c bs pl pad raw : is_packet bs c pl pad raw -> 9 <= len raw.
Proof. intros (-> & H & _). lens. rewrite be32_len. lia. Qed.

Lemma bump_later c : bump c = later 1 c.
Proof. reflexivity. Qed.
Lemma later_later n m c : later n (later m c) = later (m + n) c.
Proof.
  unfold later. cbn [key_length key_data counter]. f_equal.
  rewrite N.add_mod_idemp_l by discriminate. f_equal. lia.
Qed.

(** ** C20 *)
Lemma channel_in_order C : crypto_ok C -> forall jobs pls c ws c' rbuf rest,
  Forall2 sends jobs pls -> send_many C c jobs = Ok (ws, c') ->
  counter c < 2 ^ 64 ->
  4 <= len rbuf -> Forall (fun w => len w <= len rbuf) ws ->
  c' = later (len jobs) c /\
  exists rbuf', recv_many read_exact C (length jobs) c rbuf (concat ws ++ rest) =
                (map Ok pls, (c', rbuf', rest)).
Proof.
  intros K jobs. induction jobs as [|j jobs IH]; intros pls c ws c' rbuf rest F S Hc Hb Fw.
  - inversion F; subst. apply Ok_inj in S. injection S as <- <-. split; [|eexists; reflexivity].
    unfold later. rewrite len_nil, N.add_0_r, N.mod_small by exact Hc. destruct c; reflexivity.
  - inversion F as [|? pl ? pls' J F']; subst. cbn [send_many] in S.
    apply bind_Ok in S as ([[w c1] b1] & S1 & S). apply bind_Ok in S as ([ws' c2] & S2 & S).
    apply Ok_inj in S. injection S as <- <-.
    destruct (send_Ok _ _ _ _ _ _ _ K J S1) as (pad & raw & P & _ & _ & -> & -> & _ & _).
    inversion Fw as [|? ? Fw1 Fw2]; subst. pose proof (packet_long _ _ _ _ _ P) as LR.
    rewrite seal_len in Fw1 by (auto; lia).
    destruct (recv_after C c rbuf raw (concat ws' ++ rest) pl pad K Hb (is_loose _ _ _ P) Fw1) as (rb & Lb & R).
    destruct (IH pls' (bump c) ws' c2 rb rest F' S2) as [E (rb' & R')].
    { unfold bump. cbn [counter]. apply N.mod_lt. discriminate. }
    { lia. }
    { rewrite Lb. exact Fw2. }
    split.
    + rewrite E, bump_later, later_later, len_cons. reflexivity.
    + exists rb'. cbn [length recv_many concat]. rewrite <- app_assoc. unfold In_recv in R. rewrite R. rewrite R'. reflexivity.
Qed.

(** ** C21 *)
Lemma be64_inj a b : a < 2 ^ 64 -> b < 2 ^ 64 -> be64 a = be64 b -> a = b.
Proof. intros A Bb E. apply (f_equal be_value) in E. rewrite !be64_value in E by assumption. exact E. Qed.

Lemma NoDup_map_inj {A D} (f : A -> D) l : (forall x y, f x = f y -> x = y) -> NoDup l -> NoDup (map f l).
Proof.
  intros I. induction 1 as [|x l Hx Hl IHl]; [constructor|]. cbn [map]. constructor; [|exact IHl].
  rewrite in_map_iff. intros (y & E & Hy). apply I in E. subst. auto.
Qed.
Lemma NoDup_app2 {A} (l l' : list A) : NoDup l -> NoDup l' -> (forall x, In x l -> In x l' -> False) -> NoDup (l ++ l').
Proof.
  intros H H' D. induction H as [|x l Hx Hl IHl]; [exact H'|]. cbn [app]. constructor.
  - rewrite in_app_iff. intros [Hy|Hy]; [auto|]. apply (D x); [left; reflexivity|exact Hy].
  - apply IHl. intros y Y1 Y2. apply (D y); [right; exact Y1|exact Y2].
Qed.

Lemma draws_NoDup kl kd n m : kl <> kd -> NoDup (draws kl kd n m).
Proof.
  intros D. unfold draws. apply NoDup_app2; [|apply NoDup_app2|].
  - apply NoDup_map_inj; [|apply seq_NoDup]. intros x y [= E]. lia.
  - apply NoDup_map_inj; [|apply seq_NoDup]. intros x y [= E]. lia.
  - apply NoDup_map_inj; [|apply seq_NoDup]. intros x y E. inversion E. lia.
  - intros x. rewrite !in_map_iff. intros (i & <- & Hi) (j & E & Hj). rewrite in_seq in *. inversion E. lia.
  - intros x. rewrite in_app_iff, !in_map_iff. intros (i & <- & Hi) [(j & E & Hj)|(j & E & Hj)]; inversion E; congruence.
Qed.
Lemma draws_nonce kl kd n m k nn i : In (k, nn, i) (draws kl kd n m) -> nn = be64 n.
Proof.
  unfold draws. rewrite !in_app_iff, !in_map_iff.
  intros [(j & E & _)|[(j & E & _)|(j & E & _)]]; inversion E; reflexivity.
Qed.
Lemma run_draws_nonce kl kd ws : forall n k nn i, n < 2 ^ 64 -> In (k, nn, i) (run_draws kl kd n ws) ->
  exists j, j < len ws /\ nn = be64 ((n + j) mod 2 ^ 64).
Proof.
  induction ws as [|w ws IH]; intros n k nn i Hn H; [destruct H|]. cbn [run_draws] in H.
  apply in_app_iff in H as [H|H].
  - exists 0. rewrite len_cons, N.add_0_r, N.mod_small by exact Hn. split; [lia|]. exact (draws_nonce _ _ _ _ _ _ _ H).
  - apply IH in H as (j & Hj & ->); [|apply N.mod_lt; discriminate]. exists (1 + j). rewrite len_cons. split; [lia|].
    f_equal. rewrite N.add_mod_idemp_l by discriminate. f_equal. lia.
Qed.
Lemma run_draws_NoDup kl kd : kl <> kd -> forall ws n, n < 2 ^ 64 -> len ws <= 2 ^ 64 -> NoDup (run_draws kl kd n ws).
Proof.
  intros D ws. induction ws as [|w ws IH]; intros n Hn Hl; [constructor|]. cbn [run_draws]. rewrite len_cons in Hl.
  apply NoDup_app2; [apply draws_NoDup, D|apply IH; [apply N.mod_lt; discriminate|lia]|].
  intros [[k nn] i] H1 H2. apply draws_nonce in H1. apply run_draws_nonce in H2 as (j & Hj & E); [|apply N.mod_lt; discriminate].
  subst nn. apply be64_inj in E; [|exact Hn|apply N.mod_lt; discriminate].
  rewrite N.add_mod_idemp_l in E by discriminate.
  assert (n + 1 + j < 2 * 2 ^ 64) by lia.
  destruct (N.lt_ge_cases (n + 1 + j) (2 ^ 64)) as [L|L].
  - rewrite N.mod_small in E by exact L. lia.
  - replace (n + 1 + j) with ((n + 1 + j - 2 ^ 64) + 1 * 2 ^ 64) in E by lia.
    rewrite N.mod_add in E by discriminate. rewrite N.mod_small in E by lia. lia.
Qed.

Lemma ks_range_ext (f g : N -> byte) from n : (forall i, from <= i < from + n -> f i = g i) -> ks_range f from n = ks_range g from n.
Proof.
  intros H. unfold ks_range. apply map_ext_in. intros i Hi. apply in_seq in Hi. apply H. lia.
Qed.
Lemma seal_agree C C' c raw : 4 <= len raw -> agree_on C C' (draws (key_length c) (key_data c) (counter c) (len raw - 4)) ->
  seal_with C c raw = seal_with C' c raw.
Proof.
  intros L [A P]. unfold seal_with, seal.
  assert (D1 : forall i, i < 4 -> In (key_length c, be64 (counter c), i) (draws (key_length c) (key_data c) (counter c) (len raw - 4))).
  { intros i Hi. unfold draws. apply in_app_iff. left. apply in_map_iff. exists (N.to_nat i). split; [f_equal; lia|apply in_seq; lia]. }
  assert (D2 : forall i, i < 32 -> In (key_data c, be64 (counter c), i) (draws (key_length c) (key_data c) (counter c) (len raw - 4))).
  { intros i Hi. unfold draws. rewrite !in_app_iff. right. left. apply in_map_iff. exists (N.to_nat i). split; [f_equal; lia|apply in_seq; lia]. }
  assert (D3 : forall i, 64 <= i < 64 + (len raw - 4) -> In (key_data c, be64 (counter c), i) (draws (key_length c) (key_data c) (counter c) (len raw - 4))).
  { intros i Hi. unfold draws. rewrite !in_app_iff. right. right. apply in_map_iff. exists (N.to_nat (i - 64)). split; [f_equal; lia|apply in_seq; lia]. }
  rewrite (ks_range_ext (keystream C (key_length c) (be64 (counter c))) (keystream C' (key_length c) (be64 (counter c))) 0 4) by (intros; apply A, D1; lia).
  rewrite (ks_range_ext (keystream C (key_data c) (be64 (counter c))) (keystream C' (key_data c) (be64 (counter c))) 0 32) by (intros; apply A, D2; lia).
  rewrite (ks_range_ext (keystream C (key_data c) (be64 (counter c))) (keystream C' (key_data c) (be64 (counter c))) 64) by (intros; apply A, D3; lens; lia).
  rewrite P. reflexivity.
Qed.

Lemma send_many_agree C C' : crypto_ok C -> crypto_ok C' -> forall jobs pls c ws c',
  Forall2 sends jobs pls -> send_many C c jobs = Ok (ws, c') ->
  agree_on C C' (run_draws (key_length c) (key_data c) (counter c) ws) ->
  send_many C' c jobs = Ok (ws, c').
Proof.
  intros K K' jobs. induction jobs as [|j jobs IH]; intros pls c ws c' F S A; [exact S|].
  inversion F as [|? pl ? pls' J F']; subst. cbn [send_many] in *.
  apply bind_Ok in S as ([[w c1] b1] & S1 & S). apply bind_Ok in S as ([ws' c2] & S2 & S).
  apply Ok_inj in S. injection S as <- <-. cbn [run_draws] in A.
  pose proof (send_Ok _ _ _ _ _ _ _ K J S1) as (pad & raw & P & _ & Hpad & Hw & -> & _).
  pose proof (packet_long _ _ _ _ _ P) as LR.
  assert (LW : len w - 20 = len raw - 4) by (rewrite Hw, seal_len; [lia|exact K|lia]).
  assert (S1' : exists b', Out_send C' c (j_buf j) (j_fill j) (j_rng j) = Ok (w, bump c, b')).
  { destruct J as [Hr [rest Hf]]. destruct (least_exists (len pl)) as (p & Lp & Rp).
    rewrite (send_exact C c _ _ _ pl rest p K Hr Hf Lp) in S1.
    rewrite (send_exact C' c _ _ _ pl rest p K' Hr Hf Lp).
    destruct (_ && _); [|discriminate]. apply Ok_inj in S1. apply pair_eq in S1 as [S1 _]. apply pair_eq in S1 as [E1 _]. eexists. f_equal. f_equal. f_equal.
    rewrite <- E1. symmetry. apply seal_agree.
    - lens. rewrite be32_len. lia.
    - destruct A as [A1 A2]. split; [|exact A2]. intros k n i Hi. apply A1, in_app_iff. left.
      rewrite <- E1, seal_len in LW; [|exact K|lens; rewrite be32_len; lia]. rewrite <- E1, seal_len by (auto; lens; rewrite be32_len; lia).
      match goal with Hi : In _ (draws _ _ _ ?a) |- In _ (draws _ _ _ ?b) => replace b with a by lia end. exact Hi. }
  destruct S1' as [b' S1']. rewrite S1'. cbn [bind].
  rewrite (IH pls' (bump c) ws' c2 F' S2).
  - reflexivity.
  - destruct A as [A1 A2]. split; [|exact A2]. intros k n i Hi. apply A1, in_app_iff. right. exact Hi.
Qed.

(** ** C22 *)
Lemma recv_authentic C c buf s pl : crypto_ok C -> 4 <= len buf -> fst (In_recv C c buf s) = Ok pl ->
  exists h body tag rest,
    s = h ++ body ++ tag ++ rest /\ len h = 4 /\ len tag = 16 /\
    tag = poly1305 C (ks_range (keystream C (key_data c) (be64 (counter c))) 0 32) (h ++ body) /\
    be_value (xor_bytes h (ks_range (keystream C (key_length c) (be64 (counter c))) 0 4)) = len body /\
    exists pad, loose_packet pl pad
      (xor_bytes h (ks_range (keystream C (key_length c) (be64 (counter c))) 0 4) ++
       xor_bytes body (ks_range (keystream C (key_data c) (be64 (counter c))) 64 (len body))).
Proof.
  intros K H R. apply (proj1 (recv_iff C c buf s pl K H)) in R as (pad & raw & rest & P & -> & _).
  assert (LR : 5 <= len raw) by (destruct P as (-> & _); lens; rewrite be32_len; lia).
  assert (L4 : len (ntake 4 raw) = 4) by (lens; lia).
  destruct (opened_len C c (ntake 4 raw) (ndrop 4 raw) L4) as [O1 O2].
  exists (decrypt_length C c (ntake 4 raw)), (apply_data C c (ndrop 4 raw)),
    (compute_tag C c (decrypt_length C c (ntake 4 raw) ++ apply_data C c (ndrop 4 raw))), rest.
  split; [rewrite seal_eq by lia; cbv zeta; rewrite <- !app_assoc; reflexivity|].
  split; [exact O1|]. split; [rewrite compute_tag_eq; apply K|]. split; [apply compute_tag_eq|].
  assert (X1 : xor_bytes (decrypt_length C c (ntake 4 raw)) (ks_range (keystream C (key_length c) (be64 (counter c))) 0 4) = ntake 4 raw).
  { pose proof (apply_xor (keystream C (key_length c) (be64 (counter c))) (decrypt_length C c (ntake 4 raw)) 0) as X.
    rewrite O1 in X. rewrite <- X. apply apply_invol. }
  assert (X2 : xor_bytes (apply_data C c (ndrop 4 raw)) (ks_range (keystream C (key_data c) (be64 (counter c))) 64 (len (apply_data C c (ndrop 4 raw)))) = ndrop 4 raw).
  { rewrite <- apply_xor. apply apply_invol. }
  rewrite X1, X2, O2. split.
  - destruct P as (-> & P1 & P2 & P3). rewrite ntake_app, ndrop_app by (rewrite be32_len; reflexivity).
    rewrite be32_value by (apply u32_pow, P2). lens. lia.
  - exists pad. rewrite ntake_ndrop. exact P.
Qed.

Lemma recv_forged C c buf h body tag rest : 
  len h = 4 -> len tag = 16 ->
  be_value (xor_bytes h (ks_range (keystream C (key_length c) (be64 (counter c))) 0 4)) = len body ->
  20 + len body <= len buf ->
  tag <> poly1305 C (ks_range (keystream C (key_data c) (be64 (counter c))) 0 32) (h ++ body) ->
  In_recv C c buf (h ++ body ++ tag ++ rest) =
  (Err (In_Cipher CipherE), (c, h ++ body ++ tag ++ ndrop (20 + len body) buf, rest)).
Proof.
  intros Lh Lt E F Hn. rewrite <- Lh in E at 1. rewrite <- apply_xor in E.
  change (apply_keystream _ 0 h) with (decrypt_length C c h) in E.
  rewrite recv_eq by lia. cbv zeta. rewrite E.
  replace (len buf <? _) with false by lia. replace (len _ <? _) with false by (lens; lia).
  rewrite ntake_app, ndrop_app by reflexivity. rewrite ntake_app by lia.
  rewrite <- (ndrop_ndrop 16), ndrop_app by reflexivity. rewrite ndrop_app by lia.
  rewrite compute_tag_eq. replace (bytes_eqb _ tag) with false; [reflexivity|].
  symmetry. apply bytes_eqb_false. auto.
Qed.

(** ** C24 *)
Lemma pieces_exact cs : Forall (fun c => c <> []) cs -> forall n,
  let '(r, cs') := read_exact_pieces n cs in
  read_exact n (concat cs) = (r, concat cs') /\ Forall (fun c => c <> []) cs'.
Proof.
  induction cs as [|c cs IH]; intros F n; cbn [read_exact_pieces].
  - destruct (N.eqb_spec n 0) as [->|Hn]; [split; [reflexivity|constructor]|].
    split; [|constructor]. unfold read_exact. cbn [concat]. rewrite len_nil. replace (n <=? 0) with false by lia. reflexivity.
  - inversion F as [|? ? Fc Fs]; subst.
    destruct (N.eqb_spec n 0) as [->|Hn].
    { split; [|exact F]. unfold read_exact. replace (0 <=? _) with true by lia. reflexivity. }
    destruct (is_empty c) eqn:E; [apply is_empty_true in E; congruence|].
    destruct (N.leb_spec (len c) n) as [L|L].
    + specialize (IH Fs (n - len c)). destruct (read_exact_pieces (n - len c) cs) as [r cs'].
      destruct IH as [IH1 IH2]. unfold read_exact in *. cbn [concat]. rewrite len_app.
      replace (n <=? len c + len (concat cs)) with (n - len c <=? len (concat cs)) by lia.
      destruct (n - len c <=? len (concat cs)); injection IH1 as <- E2; (split; [|exact IH2]).
      * rewrite ntake_app_ge, ndrop_app_ge by lia. rewrite E2. reflexivity.
      * rewrite E2. reflexivity.
    + split.
      * unfold read_exact. cbn [concat]. replace (n <=? _) with true by (lens; lia).
        rewrite ntake_app_le, ndrop_app_le by lia. reflexivity.
      * constructor; [|exact Fs]. intros X. apply (f_equal len) in X. lens. lia.
Qed.

Lemma recv_pieces C c buf cs : Forall (fun x => x <> []) cs ->
  let '(r, (c', buf', cs')) := In_recv_gen read_exact_pieces C c buf cs in
  In_recv C c buf (concat cs) = (r, (c', buf', concat cs')) /\ Forall (fun x => x <> []) cs'.
Proof.
  intros F. unfold In_recv, In_recv_gen. destruct (negb (4 <=? len buf)); [auto|].
  pose proof (pieces_exact cs F 4) as P. destruct (read_exact_pieces 4 cs) as [r cs1]. destruct P as [P F1].
  rewrite P. destruct r as [h|e|]; auto.
  destruct (u32_of_slice _) as [l| |]; auto.
  destruct (negb _); [auto|].
  pose proof (pieces_exact cs1 F1 (l + TAG_SIZE)) as Q. destruct (read_exact_pieces (l + TAG_SIZE) cs1) as [r cs2].
  destruct Q as [Q F2]. rewrite Q. destruct r as [d|e|]; auto.
  destruct (idx_to _ _); auto. destruct (decrypt_data _ _ _) as [[?|?|] [? ?]]; auto.
Qed.

Lemma recv_many_pieces C k : forall c buf cs, Forall (fun x => x <> []) cs ->
  let '(rs, (c', buf', cs')) := recv_many read_exact_pieces C k c buf cs in
  recv_many read_exact C k c buf (concat cs) = (rs, (c', buf', concat cs')).
Proof.
  induction k as [|k IH]; intros c buf cs F; [reflexivity|]. cbn [recv_many].
  pose proof (recv_pieces C c buf cs F) as P. destruct (In_recv_gen read_exact_pieces C c buf cs) as [r [[c1 b1] cs1]].
  destruct P as [P F1]. unfold In_recv in P. rewrite P. destruct r as [p|e|]; [|reflexivity|reflexivity].
  specialize (IH c1 b1 cs1 F1). destruct (recv_many read_exact_pieces C k c1 b1 cs1) as [rs [[c2 b2] cs2]].
  rewrite IH. reflexivity.
Qed.

(** ** C26 *)
Lemma short_padding C c buf rest : crypto_ok C -> 28 <= len buf ->
  exists pl raw, len pl = 7 /\ loose_packet pl [] raw /\ fst (In_recv C c buf (seal_with C c raw ++ rest)) = Ok pl.
Proof.
  intros K H. exists (B "ignored"), (be32 8 ++ [x00] ++ B "ignored"). split; [reflexivity|].
  assert (P : loose_packet (B "ignored") [] (be32 8 ++ [x00] ++ B "ignored")).
  { split; [reflexivity|]. split; [vm_compute; discriminate|]. split; [reflexivity|]. exists 1. reflexivity. }
  split; [exact P|]. apply recv_iff; [exact K|lia|]. exists [], (be32 8 ++ [x00] ++ B "ignored"), rest.
  split; [exact P|]. split; [reflexivity|]. change (len (be32 8 ++ [x00] ++ B "ignored")) with 12. lia.
Qed.
