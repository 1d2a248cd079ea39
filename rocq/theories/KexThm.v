(** Key derivation and the exchange hash. *)
From Coq Require Import Init.Byte Strings.Byte.
From Verif Require Export Kex SpecKex MsgThm3 ChannelThm.
Open Scope res_scope.

Lemma zeros_len n : len (zeros n) = n.
Proof. unfold zeros, len. rewrite repeat_length. lia. Qed.
Lemma arr32_Ok {E} s : len s = 32 -> @arr32 E s = Ok s.
Proof. intros H. unfold arr32. rewrite H. reflexivity. Qed.

(** ** C27 *)
Lemma km_new secret h : len secret = 32 ->
  exists m, KeyMaterial_new secret h = Ok m /\ km_hash m = h /\
    @idx_to unit _ (km_secret m) (km_secret_len m) = Ok (rfc_mpint (be_value secret)).
Proof.
  intros L. pose proof (mpint_len secret) as M. unfold KeyMaterial_new.
  destruct (make_pos_mpint_spec (zeros (4 + 1 + 32)) secret) as [S _]; [lia|].
  rewrite S by (rewrite zeros_len; lia). eexists. split; [reflexivity|]. split; [reflexivity|].
  cbn [km_secret km_secret_len]. fold (rfc_mpint (be_value secret)).
  set (mp := rfc_mpint (be_value secret)).
  assert (E : 4 + len (mpint (be_value secret)) = len mp) by (unfold mp, rfc_mpint; rewrite len_app, be32_len; reflexivity).
  rewrite E. clearbody mp. unfold idx_to. rewrite ntake_app by reflexivity.
  rewrite len_app. replace (_ <=? _) with true by lia. reflexivity.
Qed.

Section derive.
  Variables (hash : bytes -> bytes) (K : N) (h : bytes) (m : KeyMaterial).
  Hypothesis (HO : hash_ok hash) (HM : km_hash m = h)
    (HK : @idx_to unit _ (km_secret m) (km_secret_len m) = Ok (rfc_mpint K)).

  Lemma gen_rest_spec X n : forall out, out <> [] -> key_blocks hash K h X h out -> Forall (fun k => len k = 32) out ->
    exists t, gen_rest hash m out n = Ok (out ++ t) /\ length t = n /\
      key_blocks hash K h X h (out ++ t) /\ Forall (fun k => len k = 32) (out ++ t).
  Proof.
    induction n as [|n IH]; intros out Hne Hb Hl; cbn [gen_rest].
    - exists []. rewrite app_nil_r. auto.
    - unfold digest_kn. rewrite HK. cbn [bind]. rewrite arr32_Ok by apply HO. cbn [bind]. rewrite HM.
      destruct (IH (out ++ [hash (rfc_mpint K ++ h ++ concat out)])) as (t & E & T1 & T2 & T3).
      + intros X0. apply app_eq_nil in X0 as [-> _]. congruence.
      + intros i k Hi. destruct (Nat.lt_ge_cases i (length out)) as [L|L].
        * rewrite nth_error_app1 in Hi by lia. rewrite firstn_app.
          replace (i - length out)%nat with 0%nat by lia. rewrite firstn_O, app_nil_r. apply Hb, Hi.
        * rewrite nth_error_app2 in Hi by lia. destruct (i - length out)%nat as [|j] eqn:J; [|destruct j; discriminate Hi].
          injection Hi as <-. rewrite firstn_app, J, firstn_O, app_nil_r, firstn_all2 by lia.
          destruct out as [|o out]; [congruence|]. reflexivity.
      + apply Forall_app. split; [exact Hl|]. constructor; [apply HO|constructor].
      + rewrite E. exists (hash (rfc_mpint K ++ h ++ concat out) :: t).
        rewrite <- app_assoc in T2, T3 |- *. cbn [app length] in *. auto.
  Qed.

  Lemma gen_out_spec X n : (0 < n)%nat ->
    exists ks, gen_out hash m X n = Ok ks /\ length ks = n /\ key_blocks hash K h (n2b X) h ks /\
      Forall (fun k => len k = 32) ks.
  Proof.
    destruct n as [|n]; [lia|]. intros _. unfold gen_out, digest_k1. rewrite HK. cbn [bind].
    rewrite arr32_Ok by apply HO. cbn [bind]. rewrite HM.
    destruct (gen_rest_spec (n2b X) n [hash (rfc_mpint K ++ h ++ [n2b X] ++ h)]) as (t & E & T1 & T2 & T3).
    - discriminate.
    - intros [|i] k Hi; [injection Hi as <-; reflexivity|destruct i; discriminate Hi].
    - constructor; [apply HO|constructor].
    - rewrite E. eexists. split; [reflexivity|]. cbn [app length] in *. auto.
  Qed.

  Lemma gen_out_0 X : gen_out hash m X 0 = Panic.
  Proof. reflexivity. Qed.
End derive.

Lemma key_blocks_prefix hash K h X sid ks ks' : key_blocks hash K h X sid ks -> key_blocks hash K h X sid ks' ->
  (length ks <= length ks')%nat -> ks = firstn (length ks) ks'.
Proof.
  intros B1 B2 L.
  assert (E : forall i, (i <= length ks)%nat -> firstn i ks = firstn i ks').
  { induction i as [|i IH]; intros Hi; [reflexivity|].
    specialize (IH ltac:(lia)).
    destruct (nth_error ks i) as [k|] eqn:N1; [|apply nth_error_None in N1; lia].
    destruct (nth_error ks' i) as [k'|] eqn:N2; [|apply nth_error_None in N2; lia].
    assert (k = k') by (rewrite (B1 i k N1), (B2 i k' N2), IH; reflexivity). subst k'.
    assert (S1 : forall (A : Type) (l : list A) i x, nth_error l i = Some x -> firstn (S i) l = firstn i l ++ [x]).
    { clear. induction l as [|a l IH]; intros [|i] x H; try discriminate H.
      - injection H as ->. reflexivity.
      - cbn [firstn app]. f_equal. apply IH, H. }
    rewrite (S1 _ _ _ _ N1), (S1 _ _ _ _ N2), IH. reflexivity. }
  rewrite <- (firstn_all ks) at 1. apply E. lia.
Qed.

Lemma concat_len32 (ks : list bytes) : Forall (fun k => len k = 32) ks -> len (concat ks) = 32 * N.of_nat (length ks).
Proof. induction 1 as [|k ks Hk _ IH]; [reflexivity|]. cbn [concat length]. rewrite len_app, Hk, IH. lia. Qed.

Definition key_fn (p : purpose) : (bytes -> bytes) -> KeyMaterial -> nat -> res unit bytes :=
  match p with
  | IV_c2s => fun H m => initial_iv H m ClientToServer
  | IV_s2c => fun H m => initial_iv H m ServerToClient
  | Enc_c2s => fun H m => encryption_key H m ClientToServer
  | Enc_s2c => fun H m => encryption_key H m ServerToClient
  | Int_c2s => fun H m => integrity_key H m ClientToServer
  | Int_s2c => fun H m => integrity_key H m ServerToClient
  end.

Lemma derive_keys hash secret h : hash_ok hash -> len secret = 32 ->
  exists m, KeyMaterial_new secret h = Ok m /\
  forall p n, (0 < n)%nat ->
  exists ks, length ks = n /\ key_blocks hash (be_value secret) h (letter p) h ks /\ key_fn p hash m n = Ok (concat ks).
Proof.
  intros HO L. destruct (km_new secret h L) as (m & E & E1 & E2). exists m. split; [exact E|].
  intros p n Hn.
  assert (G : forall X, n2b X = letter p -> (forall k, key_fn p hash m k = gen hash m X k) ->
     exists ks, length ks = n /\ key_blocks hash (be_value secret) h (letter p) h ks /\ key_fn p hash m n = Ok (concat ks)).
  { intros X HX HG. destruct (gen_out_spec hash (be_value secret) h m HO E1 E2 X n Hn) as (ks & G1 & G2 & G3 & _).
    exists ks. split; [exact G2|]. rewrite <- HX. split; [exact G3|]. rewrite HG. unfold gen. rewrite G1. reflexivity. }
  destruct p; [apply (G 65)|apply (G 66)|apply (G 67)|apply (G 68)|apply (G 69)|apply (G 70)]; reflexivity || (intros; reflexivity).
Qed.

Lemma more_keys hash secret h m p n k : hash_ok hash -> len secret = 32 -> KeyMaterial_new secret h = Ok m ->
  (0 < n)%nat ->
  exists a t, key_fn p hash m n = Ok a /\ key_fn p hash m (n + k) = Ok (a ++ t) /\
    len a = 32 * N.of_nat n /\ len t = 32 * N.of_nat k.
Proof.
  intros HO L E Hn. destruct (km_new secret h L) as (m' & E' & E1 & E2).
  rewrite E in E'. apply Ok_inj in E'. subst m'.
  assert (G : exists X, forall j, key_fn p hash m j = gen hash m X j).
  { destruct p; [exists 65|exists 66|exists 67|exists 68|exists 69|exists 70]; intros; reflexivity. }
  destruct G as [X G]. rewrite !G. unfold gen.
  destruct (gen_out_spec hash (be_value secret) h m HO E1 E2 X n Hn) as (ks & G1 & G2 & G3 & G4).
  destruct (gen_out_spec hash (be_value secret) h m HO E1 E2 X (n + k) ltac:(lia)) as (ks' & G1' & G2' & G3' & G4').
  rewrite G1, G1'. cbn [bind]. exists (concat ks), (concat (skipn n ks')).
  pose proof (key_blocks_prefix _ _ _ _ _ _ _ G3 G3' ltac:(lia)) as P. rewrite G2 in P.
  split; [reflexivity|]. split; [|split].
  - rewrite P at 1. rewrite <- concat_app, firstn_skipn. reflexivity.
  - rewrite concat_len32, G2 by exact G4. reflexivity.
  - rewrite concat_len32, skipn_length, G2'. { f_equal. lia. }
    rewrite <- (firstn_skipn n ks') in G4'. apply Forall_app in G4' as [_ G4']. exact G4'.
Qed.

Lemma letter_inj p q : letter p = letter q -> p = q.
Proof. destruct p, q; intros H; (reflexivity || discriminate H). Qed.

Lemma first_inputs K h sid p q : block_input K h (letter p) sid [] = block_input K h (letter q) sid [] -> p = q.
Proof.
  cbn [block_input]. intros H. apply app_inv_head, app_inv_head in H. injection H as H. apply letter_inj, H.
Qed.
Lemma later_inputs K h p q sid ks : len sid = 32 -> ks <> [] -> Forall (fun k => len k = 32) ks ->
  block_input K h (letter p) sid [] <> block_input K h (letter q) sid ks.
Proof.
  intros L Hn Hl H. destruct ks as [|k ks]; [congruence|]. unfold block_input in H.
  apply app_inv_head, app_inv_head in H. apply (f_equal len) in H.
  rewrite len_cons, (concat_len32 _ Hl) in H. lia.
Qed.

(** ** C28 *)
Lemma str_inj a b r s : len a < 2 ^ 32 -> len b < 2 ^ 32 ->
  enc1 (FStr a) ++ r = enc1 (FStr b) ++ s -> a = b /\ r = s.
Proof.
  intros La Lb H. cbn [enc1] in H. rewrite <- !app_assoc in H.
  apply app_len_inj in H as [H1 H2]; [|rewrite !be32_len; reflexivity].
  apply be32_inj in H1; [|apply u32_pow; assumption..].
  apply app_len_inj in H2; assumption.
Qed.
Lemma strs_inj ss : forall ts r s, length ss = length ts ->
  Forall (fun x => len x < 2 ^ 32) ss -> Forall (fun x => len x < 2 ^ 32) ts ->
  enc (map FStr ss) ++ r = enc (map FStr ts) ++ s -> ss = ts /\ r = s.
Proof.
  induction ss as [|a ss IH]; intros [|b ts] r s L Hs Ht H; try discriminate L.
  - auto.
  - inversion Hs; inversion Ht; subst. cbn [map] in H. unfold enc in H. cbn [map concat] in H. rewrite <- !app_assoc in H.
    apply str_inj in H as [-> H]; [|assumption..].
    apply IH in H as [-> ->]; [auto|injection L as L; exact L|assumption..].
Qed.

Lemma mpint_value n : be_value (mpint n) = n.
Proof. exact (proj1 (mpint_is_canonical n)). Qed.

Lemma len_enc_strs ss : Forall (fun x => len x <= len (enc (map FStr ss))) ss.
Proof.
  induction ss as [|a ss IH]; [constructor|].
  assert (E : enc (map FStr (a :: ss)) = (be32 (len a) ++ a) ++ enc (map FStr ss)) by reflexivity.
  rewrite E, !len_app. constructor; [lia|]. eapply Forall_impl; [|exact IH]. cbn beta. intros; lia.
Qed.

Lemma exchange_binds t t' : transcript_ok t -> transcript_ok t' ->
  exchange_bytes t = exchange_bytes t' -> t = t'.
Proof.
  unfold transcript_ok, exchange_bytes, exchange_fields. intros H H' E.
  assert (F : forall ss, Forall fld_ok (map FStr ss) -> Forall (fun x => len x < 2 ^ 32) ss).
  { intros ss. rewrite Forall_map. intros X. eapply Forall_impl; [|exact X]. intros a Ha. exact Ha. }
  set (ss := [t_vc t; t_vs t; t_ic t; t_is t; host_key_blob (t_key t); t_qc t; t_qs t; mpint (t_k t)]).
  set (ts := [t_vc t'; t_vs t'; t_ic t'; t_is t'; host_key_blob (t_key t'); t_qc t'; t_qs t'; mpint (t_k t')]).
  change (Forall fld_ok (map FStr ss)) in H. change (Forall fld_ok (map FStr ts)) in H'.
  change (enc (map FStr ss) = enc (map FStr ts)) in E.
  destruct (strs_inj ss ts [] []) as [EQ _]; [reflexivity|apply F; assumption..|rewrite E; reflexivity|].
  apply F in H. apply F in H'.
  unfold ss, ts in *.
  pose proof (f_equal (fun l => nth 0 l []) EQ) as E1. pose proof (f_equal (fun l => nth 1 l []) EQ) as E2.
  pose proof (f_equal (fun l => nth 2 l []) EQ) as E3. pose proof (f_equal (fun l => nth 3 l []) EQ) as E4.
  pose proof (f_equal (fun l => nth 4 l []) EQ) as E5. pose proof (f_equal (fun l => nth 5 l []) EQ) as E6.
  pose proof (f_equal (fun l => nth 6 l []) EQ) as E7. pose proof (f_equal (fun l => nth 7 l []) EQ) as E8.
  cbn [nth] in E1, E2, E3, E4, E5, E6, E7, E8. clear EQ ss ts.
  apply (f_equal be_value) in E8. rewrite !mpint_value in E8.
  assert (EK : t_key t = t_key t').
  { inversion H as [|? ? _ X]; inversion X as [|? ? _ X1]; inversion X1 as [|? ? _ X2]; inversion X2 as [|? ? _ X3]; inversion X3 as [|? ? HB _]; subst.
    inversion H' as [|? ? _ Y]; inversion Y as [|? ? _ Y1]; inversion Y1 as [|? ? _ Y2]; inversion Y2 as [|? ? _ Y3]; inversion Y3 as [|? ? HB' _]; subst.
    clear - E5 HB HB'. destruct (t_key t) as [n [i q]], (t_key t') as [n' [i' q']].
    unfold host_key_blob in *. cbn [key_name key_blob kb_identifier kb_q] in *.
    change [FStr n; FStr i; FStr q] with (map FStr [n; i; q]) in *.
    change [FStr n'; FStr i'; FStr q'] with (map FStr [n'; i'; q']) in *.
    pose proof (len_enc_strs [n; i; q]) as L1. pose proof (len_enc_strs [n'; i'; q']) as L2.
    destruct (strs_inj [n; i; q] [n'; i'; q'] [] []) as [EQ _]; [reflexivity| | |rewrite E5; reflexivity|].
    - eapply Forall_impl; [|exact L1]. cbn beta. intros; lia.
    - eapply Forall_impl; [|exact L2]. cbn beta. intros; lia.
    - injection EQ as -> -> ->. reflexivity. }
  destruct t, t'; cbn in *; subst. reflexivity.
Qed.

(** The chain of updates, as [handle_new_client] makes it. *)
Definition kd_chain (hash : bytes -> bytes) (vc vs ic is_ : bytes) (buf : bytes) (k : Key) (qc qs secret : bytes)
  : res unit (bytes * bytes) :=
  h <- kd_client_id [] vc ;; h <- kd_server_id h vs ;;
  h <- kd_client_kex_init h ic ;; h <- kd_server_kex_init h is_ ;;
  '(h, buf) <- kd_host_key h buf k ;;
  h <- kd_client_ephermal h qc ;; h <- kd_server_ephermal h qs ;;
  d <- kd_secret hash h secret ;; Ok (d, buf).

Lemma kd_f_Ok {E} h s : len s < 2 ^ 32 -> @kd_f E h s = Ok (h ++ enc1 (FStr s)).
Proof. intros L. apply u32_pow in L. unfold kd_f, make_string_len, u32_try_unwrap. rewrite L. reflexivity. Qed.
Lemma kd_g_Ok {E} h s : len s <= 123 -> @kd_g E h s = Ok (h ++ enc1 (FStr (mpint (be_value s)))).
Proof.
  intros L. pose proof (mpint_len s) as M. unfold kd_g.
  destruct (make_pos_mpint_spec (zeros 128) s) as [S _]; [lia|].
  rewrite S by (rewrite zeros_len; lia). unfold idx_to.
  rewrite ntake_app by (rewrite len_app, be32_len; reflexivity). rewrite !len_app, be32_len.
  replace (_ <=? _) with true by lia. reflexivity.
Qed.
Lemma kd_host_key_Ok {E} h buf k : len (host_key_blob k) < 2 ^ 32 -> len (host_key_blob k) <= len buf ->
  @kd_host_key E h buf k = Ok (h ++ enc1 (FStr (host_key_blob k)), host_key_blob k ++ ndrop (len (host_key_blob k)) buf).
Proof.
  intros L1 L2. unfold kd_host_key.
  assert (W : wr (Key_serialize k) (host_key_blob k) (len (host_key_blob k))).
  { destruct k as [n [i q]]. unfold host_key_blob in *. cbn [key_name key_blob kb_identifier kb_q] in *.
    pose proof (len_enc_strs [n; i; q]) as F. cbn [map] in F.
    assert (len n < 2 ^ 32 /\ len i < 2 ^ 32 /\ len q < 2 ^ 32) as (F1 & F2 & F3).
    { inversion F as [|? ? ? X]; inversion X as [|? ? ? X1]; inversion X1; subst. lia. }
    unfold Key_serialize, KeyBlob_serialize. cbn [key_name key_blob kb_identifier kb_q].
    eapply wr_eq.
    - eapply wr_bind; [apply wr_str; exact F1|]. eapply wr_bind; [|apply wr_ret].
      eapply wr_bind; [apply wr_str; exact F2|]. eapply wr_bind; [apply wr_str; exact F3|apply wr_ret].
    - unfold enc. cbn [map concat enc1]. rewrite ?app_nil_r, <- ?app_assoc. reflexivity.
    - unfold enc. cbn [map concat enc1]. rewrite !len_app, !be32_len, !len_nil. lia. }
  destruct (W [] buf) as [S _]. rewrite S by exact L2. cbn [app].
  unfold idx_to. rewrite len_app, ntake_app by reflexivity.
  replace (_ <=? _) with true by lia. cbn [bind]. rewrite kd_f_Ok by exact L1. reflexivity.
Qed.

Lemma chain_eq hash vc vs ic is_ buf k qc qs secret :
  let t := {| t_vc := vc; t_vs := vs; t_ic := ic; t_is := is_; t_key := k; t_qc := qc; t_qs := qs; t_k := be_value secret |} in
  transcript_ok t -> len secret <= 123 -> len (host_key_blob k) <= len buf ->
  kd_chain hash vc vs ic is_ buf k qc qs secret =
  Ok (hash (exchange_bytes t), host_key_blob k ++ ndrop (len (host_key_blob k)) buf).
Proof.
  intros t T LS LB. unfold transcript_ok, exchange_fields in T.
  repeat match goal with H : Forall _ (_ :: _) |- _ => apply Forall_cons_iff in H; destruct H end.
  unfold t in *. cbn [t_vc t_vs t_ic t_is t_key t_qc t_qs t_k fld_ok] in *.
  unfold kd_chain, kd_client_id, kd_server_id, kd_client_kex_init, kd_server_kex_init, kd_client_ephermal, kd_server_ephermal, kd_secret.
  do 4 (rewrite kd_f_Ok by assumption; cbn [bind]).
  rewrite kd_host_key_Ok by assumption. cbn [bind].
  do 2 (rewrite kd_f_Ok by assumption; cbn [bind]). rewrite kd_g_Ok by exact LS. cbn [bind].
  unfold exchange_bytes, exchange_fields, enc. cbn [map concat t_vc t_vs t_ic t_is t_key t_qc t_qs t_k].
  rewrite <- !app_assoc, app_nil_r. reflexivity.
Qed.
