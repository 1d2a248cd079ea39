(** What is sent does not depend on what the buffers hold. *)
From Coq Require Import Init.Byte.
From Verif Require Export SessionThm8 SpecLeak.
Open Scope res_scope.

(** *** Writers *)
(** On two buffers of the same size a writer does the same, writes the same, and
    reports how much that is. *)
Definition alike {A} (Q : A -> N -> Prop) (d b1 b2 : bytes) (x y : res unit A * (bytes * bytes)) : Prop :=
  match x, y with
  | (Ok a, (d1, r1)), (Ok a', (d2, r2)) =>
    a = a' /\ exists w, d1 = d ++ w /\ d2 = d ++ w /\ Q a (len w) /\ len r1 = len r2 /\ len b1 = len w + len r1
  | (Err _, _), (Err _, _) | (Panic, _), (Panic, _) => True
  | _, _ => False
  end.
Definition blind {A} (Q : A -> N -> Prop) (m : W A) : Prop := forall d b1 b2, len b1 = len b2 ->
  alike Q d b1 b2 (m (d, b1)) (m (d, b2)).
Definition exactly (a n : N) : Prop := a = n.

Lemma bl_weaken {A} (P Q : A -> N -> Prop) m : (forall a n, P a n -> Q a n) -> blind P m -> blind Q m.
Proof.
  intros PQ M d b1 b2 E. specialize (M d b1 b2 E). unfold alike in *.
  destruct (m (d, b1)) as [[a|e|] [d1 r1]], (m (d, b2)) as [[a'|e'|] [d2 r2]]; try contradiction; try exact I.
  destruct M as (X & w & M1 & M2 & q & M3). split; [exact X|]. exists w. split; [exact M1|]. split; [exact M2|]. split; [auto|exact M3].
Qed.
Lemma bl_ret {A} (Q : A -> N -> Prop) a : Q a 0 -> blind Q (wret a).
Proof.
  intros q d b1 b2 E. unfold alike, wret. split; [reflexivity|]. exists []. rewrite app_nil_r, len_nil.
  split; [reflexivity|]. split; [reflexivity|]. split; [exact q|]. split; [exact E|lia].
Qed.
Lemma bl_bind {A D} (P : A -> N -> Prop) (Q : D -> N -> Prop) (m : W A) (k : A -> W D) : blind P m ->
  (forall a l, P a l -> blind (fun r n => Q r (l + n)) (k a)) -> blind Q (wbind m k).
Proof.
  intros M F d b1 b2 E. specialize (M d b1 b2 E). unfold wbind, alike in *.
  destruct (m (d, b1)) as [[a|e|] [d1 r1]], (m (d, b2)) as [[a'|e'|] [d2 r2]]; try contradiction; try exact I.
  destruct M as (<- & w & -> & -> & q & LR & LB). specialize (F a (len w) q (d ++ w) r1 r2 LR). unfold alike in F.
  destruct (k a (d ++ w, r1)) as [[c|e|] [d1 r1']], (k a (d ++ w, r2)) as [[c'|e'|] [d2 r2']]; try contradiction; try exact I.
  destruct F as (<- & w' & -> & -> & q' & LR' & LB'). split; [reflexivity|]. exists (w ++ w'). rewrite !app_assoc. rewrite len_app.
  split; [reflexivity|]. split; [reflexivity|]. split; [exact q'|]. split; [exact LR'|lia].
Qed.
Lemma wr_blind (m : W N) w n : n = len w -> wr m w n -> blind exactly m.
Proof.
  intros -> M d b1 b2 E. destruct (M d b1) as [S1 F1], (M d b2) as [S2 F2]. unfold alike.
  destruct (N.leb_spec (len w) (len b1)) as [L|L].
  - rewrite S1, S2 by lia. split; [reflexivity|]. exists w. unfold exactly. rewrite !len_ndrop.
    split; [reflexivity|]. split; [reflexivity|]. split; [reflexivity|]. lia.
  - destruct (F1 ltac:(lia)) as (c1 & ->). destruct (F2 ltac:(lia)) as (c2 & ->). exact I.
Qed.
Lemma bl_string s : blind exactly (make_string2 s).
Proof.
  destruct (N.ltb_spec (len s) (2 ^ 32)) as [L|L].
  - eapply wr_blind; [|exact (wr_str s L)]. rewrite len_app, be32_len. reflexivity.
  - intros d b1 b2 E. unfold make_string2. rewrite <- E. destruct (4 <=? len b1); [|exact I].
    unfold u32_try_unwrap. destruct (is_u32 (len s)) eqn:U; [apply u32_pow in U; lia|exact I].
Qed.
Lemma bl_bool v : blind exactly (make_bool v).
Proof. eapply wr_blind; [|exact (wr_bool v)]. reflexivity. Qed.
Lemma bl_u32 v : blind exactly (make_uint32 v).
Proof. eapply wr_blind; [|exact (wr_u32 v)]. rewrite be32_len. reflexivity. Qed.
Lemma bl_raw s : blind exactly (make_raw s).
Proof. eapply wr_blind; [|exact (wr_raw s)]. reflexivity. Qed.
Lemma bl_mpint s : blind exactly (make_pos_mpint2 s).
Proof.
  destruct (N.ltb_spec (len (mpint (be_value s))) (2 ^ 32)) as [L|L].
  - eapply wr_blind; [|exact (wr_mpint s L)]. rewrite len_app, be32_len. reflexivity.
  - intros d b1 b2 E. rewrite mpint_strip in L. cbv zeta in L. unfold make_pos_mpint2, make_pos_mpint.
    revert L. generalize (strip_zeros s). intros [|c t] L; [exfalso; revert L; rewrite len_nil; lia|].
    rewrite hi_bit. destruct (128 <=? b2n c).
    + rewrite <- E. destruct (N.ltb_spec 4 (len b1)) as [G|G]; [|exact I].
      assert (X : forall b : bytes, len b = len b1 -> len (splice 4 [x00] b) = len b1)
        by (intros b Q; unfold splice; lens; change (len [x00]) with 1; lia).
      rewrite !X by auto. replace (4 <=? len b1) with true by lia.
      unfold u32_try_unwrap. destruct (is_u32 _) eqn:U; [|exact I]. apply u32_pow in U. rewrite len_cons in L. lia.
    + rewrite <- E. destruct (4 <=? len b1); [|exact I].
      unfold u32_try_unwrap. destruct (is_u32 _) eqn:U; [|exact I]. apply u32_pow in U. lia.
Qed.
Lemma bl_type ty m : blind exactly m -> blind exactly (with_type ty m).
Proof.
  intros M d [|x b1] [|y b2] E; rewrite ?len_cons, ?len_nil in E; try (exfalso; lia); [exact I|].
  unfold with_type. assert (B : blind (fun a n => a = n + 1) (wbind m (fun i => wret (i + 1)))).
  { eapply bl_bind; [exact M|]. intros a l <-. apply bl_ret. lia. }
  specialize (B (d ++ [n2b ty]) b1 b2 ltac:(lia)). unfold alike in *.
  destruct (wbind m _ (_, b1)) as [[a|e|] [d1 r1]], (wbind m _ (_, b2)) as [[a'|e'|] [d2 r2]]; try contradiction; try exact I.
  destruct B as (<- & w & -> & -> & -> & LR & LB). split; [reflexivity|]. exists ([n2b ty] ++ w).
  rewrite !app_assoc. unfold exactly. rewrite !len_cons, len_app. change (len [n2b ty]) with 1.
  split; [reflexivity|]. split; [reflexivity|]. split; [lia|]. split; lia.
Qed.
Lemma bl_prefix m : blind exactly m -> blind (fun a n => n = 4 + a) (with_len_prefix m).
Proof.
  intros M d b1 b2 E. unfold with_len_prefix. rewrite <- E. destruct (N.leb_spec 4 (len b1)) as [L|L]; [|exact I].
  specialize (M [] (ndrop 4 b1) (ndrop 4 b2) ltac:(rewrite !len_ndrop; lia)). unfold alike in *.
  destruct (m ([], ndrop 4 b1)) as [[a|e|] [d1 r1]], (m ([], ndrop 4 b2)) as [[a'|e'|] [d2 r2]]; try contradiction; try exact I.
  destruct M as (<- & w & -> & -> & q & LR & LB). unfold exactly in q. subst a. unfold u32_try_unwrap. destruct (is_u32 (len w)); [|exact I].
  split; [reflexivity|]. exists (be32 (len w) ++ w). rewrite len_app, be32_len. rewrite !app_nil_l in *.
  rewrite len_ndrop in LB. split; [reflexivity|]. split; [reflexivity|]. split; [reflexivity|]. split; [exact LR|lia].
Qed.

Ltac bl1 :=
  lazymatch goal with
  | |- blind _ (make_string2 _) => exact (bl_string _)
  | |- blind _ (make_bool _) => exact (bl_bool _)
  | |- blind _ (make_uint32 _) => exact (bl_u32 _)
  | |- blind _ (make_raw _) => exact (bl_raw _)
  | |- blind _ (make_pos_mpint2 _) => exact (bl_mpint _)
  end.
Ltac bl :=
  lazymatch goal with
  | |- blind _ (wret _) => apply bl_ret; unfold exactly in *; lia
  | |- blind _ (wbind _ _) => eapply bl_bind; [bl1|let a := fresh "a" in let l := fresh "l" in let q := fresh "q" in intros a l q; hnf in q; bl]
  | |- blind _ _ => eapply bl_weaken; [|bl1]; unfold exactly; intros ? ? ?; lia
  end.
Lemma bl_method m : blind exactly (Method_serialize m).
Proof. destruct m; cbn [Method_serialize]; bl. Qed.
Lemma bl_keyblob k : blind exactly (KeyBlob_serialize k).
Proof. unfold KeyBlob_serialize. bl. Qed.
Lemma bl_key k : blind exactly (Key_serialize k).
Proof. unfold Key_serialize. eapply bl_bind; [bl1|]. intros a l <-. eapply bl_bind; [apply bl_keyblob|]. intros b n <-. bl. Qed.
Lemma bl_sigblob k : blind exactly (SignatureBlob_serialize k).
Proof. unfold SignatureBlob_serialize. bl. Qed.
Lemma bl_sig k : blind exactly (Signature_serialize k).
Proof. unfold Signature_serialize. eapply bl_bind; [bl1|]. intros a l <-. eapply bl_bind; [apply bl_prefix, bl_sigblob|]. intros b n ->. bl. Qed.

Theorem message_blind m : blind exactly (Message_write m).
Proof.
  destruct m as [o|o|o|o|o|o|o| |o|o|o|o]; cbn [Message_write].
  11:{ destruct o as [r|l p| |m l|a b]; cbn [UserAuth_serialize]; apply bl_type; unfold UAFailure_serialize, UASuccess_serialize, UABanner_serialize, UAPkOk_serialize; try bl.
       unfold UARequest_serialize. eapply bl_bind; [bl1|]. intros a l <-. eapply bl_bind; [bl1|]. intros b n <-.
       eapply bl_bind; [apply bl_method|]. intros c k <-. bl. }
  11:{ destruct o; cbn [Channel_serialize]; apply bl_type; unfold ChOpen_serialize, ChOpenConfirmation_serialize, ChOpenFailure_serialize,
         ChWindowAdjust_serialize, ChData_serialize, ChExtendedData_serialize, chan_only_serialize, ChRequest_serialize; bl. }
  all: apply bl_type; unfold Disconnect_serialize, Ignore_serialize, Unimplemented_serialize, Debug_serialize, Service_serialize, KexInit_serialize,
    NewKeys_serialize, EcdhInit_serialize; try bl.
  unfold EcdhReply_serialize. eapply bl_bind; [apply bl_prefix, bl_key|]. intros a l ->. eapply bl_bind; [bl1|]. intros b n <-.
  eapply bl_bind; [apply bl_prefix, bl_sig|]. intros c k ->. bl.
Qed.

(** *** Packets *)
Lemma fill_blind m b1 b2 : len b1 = len b2 ->
  (exists pl r1 r2, fills (fill_message m) b1 pl r1 /\ fills (fill_message m) b2 pl r2) \/
  (fill_message m b1 = Panic /\ fill_message m b2 = Panic).
Proof.
  intros E. pose proof (message_blind m [] b1 b2 E) as B. unfold alike in B. unfold fills, fill_message, Message_serialize.
  destruct (Message_write m ([], b1)) as [[a|e|] [d1 r1]], (Message_write m ([], b2)) as [[a'|e'|] [d2 r2]]; try contradiction;
    [|right; split; reflexivity..].
  destruct B as (<- & w & -> & -> & q & LR & LB). unfold exactly in q. subst a. rewrite !app_nil_l. rewrite !len_app. left. exists w, r1, r2.
  replace (len w <=? len w + len r1) with true by lia. replace (len w <=? len w + len r2) with true by lia.
  rewrite !ntake_app, !ndrop_app by reflexivity. cbn [unwrap bind]. split; (split; [reflexivity|lia]).
Qed.
Lemma send_panic C c buf f rng : f (ndrop 5 buf) = Panic -> Out_send C c buf f rng = Panic.
Proof. intros F. unfold Out_send, wrap, idx_from. destruct (5 <=? len buf); [|reflexivity]. cbn [bind]. rewrite F. reflexivity. Qed.
Lemma send_blind C c b1 b2 m rng : crypto_ok C -> rng_ok rng -> len b1 = len b2 ->
  (exists w c' b1' b2', Out_send C c b1 (fill_message m) rng = Ok (w, c', b1') /\
     Out_send C c b2 (fill_message m) rng = Ok (w, c', b2') /\ len b1' = len b1 /\ len b2' = len b1) \/
  (Out_send C c b1 (fill_message m) rng = Panic /\ Out_send C c b2 (fill_message m) rng = Panic).
Proof.
  intros K R E. destruct (fill_blind m (ndrop 5 b1) (ndrop 5 b2) ltac:(rewrite !len_ndrop; lia)) as [(pl & r1 & r2 & F1 & F2)|[F1 F2]].
  2:{ right. split; apply send_panic; assumption. }
  pose proof (wrap_pad_least B8 false (len pl)) as LP. cbn [bs_usize] in LP.
  set (p := wrap_pad 8 false (len pl)) in *. clearbody p.
  rewrite (send_exact C c b1 _ rng pl r1 p K R F1 LP), (send_exact C c b2 _ rng pl r2 p K R F2 LP). rewrite <- E.
  destruct ((21 + len pl + p <=? len b1) && (1 + len pl + p <? 2 ^ 32)) eqn:G; [|right; split; reflexivity].
  left. do 4 eexists. split; [reflexivity|]. split; [reflexivity|]. destruct F1 as [_ L1], F2 as [_ L2]. rewrite len_ndrop in L1, L2.
  pose proof (R p) as Lr. rewrite !len_app, !len_ndrop, seal_len; [|exact K|lens; rewrite be32_len; lia].
  lens. rewrite be32_len. lia.
Qed.
Lemma conn_send_blind C rng m b1 b2 k : crypto_ok C -> (forall n, rng_ok (rng n)) -> len b1 = len b2 ->
  (exists k' b1' b2', conn_send C rng m b1 k = Ok (k', b1') /\ conn_send C rng m b2 k = Ok (k', b2') /\ len b1' = len b1 /\ len b2' = len b1) \/
  (conn_send C rng m b1 k = Panic /\ conn_send C rng m b2 k = Panic).
Proof.
  intros K R E. unfold conn_send. destruct (send_blind C (k_wr k) b1 b2 m (rng (k_sent k)) K (R _) E) as [(w & c & b1' & b2' & -> & -> & L)|[-> ->]]; [|right; split; reflexivity].
  left. cbn [bind]. do 3 eexists. split; [reflexivity|]. split; [reflexivity|]. exact L.
Qed.
Lemma idx_front (x : bytes) : 4 < len x -> exists b, forall E t, @idx E _ (x ++ t) 4 = Ok b.
Proof.
  intros L. destruct (nth_error x (N.to_nat 4)) as [b|] eqn:G; [|apply nth_error_None in G; unfold len in L; lia].
  exists b. intros E t. unfold idx. rewrite nth_error_app1, G; [reflexivity|]. unfold len in L. lia.
Qed.
Lemma packet_len_front {E} (x t : bytes) : 4 <= len x -> @packet_len E (x ++ t) = Ok (be_value (ntake 4 x)).
Proof.
  intros L. unfold packet_len, idx_to. rewrite len_app. replace (4 <=? len x + len t) with true by lia. cbn [bind].
  rewrite ntake_app_le by lia. apply u32_of_slice_Ok. split; [lens; lia|reflexivity].
Qed.
Lemma open_blind (x t1 t2 : bytes) : 5 <= len x -> 4 + be_value (ntake 4 x) <= len x ->
  (p <- map_err In_Packet (wrap_raw (x ++ t1) false B8) ;; payload p) = (p <- map_err In_Packet (wrap_raw (x ++ t2) false B8) ;; payload p).
Proof.
  intros L M. set (l := be_value (ntake 4 x)) in *. unfold wrap_raw. rewrite !packet_len_front by lia. fold l. cbn [bind].
  destruct (negb _); [reflexivity|]. unfold padding_len. destruct (idx_front x ltac:(lia)) as (b & F). rewrite !F.
  cbn [bind]. destruct (N.leb_spec l (b2n b)) as [G|G]; [reflexivity|]. cbn [map_err bind].
  assert (X : forall t, @payload InError (x ++ t) = Ok (ntake (l - b2n b - 1) (ndrop 5 x))).
  { intros t. unfold payload, payload_len, padding_len. rewrite !packet_len_front by lia. fold l. cbn [bind]. rewrite !F. cbn [bind].
    unfold usize_sub. replace (b2n b <=? l) with true by lia. cbn [bind]. replace (1 <=? l - b2n b) with true by lia. cbn [bind].
    unfold idx_range. rewrite len_app. replace (_ && _) with true by lia.
    replace (5 + (l - b2n b - 1) - 5) with (l - b2n b - 1) by lia. rewrite ndrop_app_le by lia. rewrite ntake_app_le by (lens; lia). reflexivity. }
  rewrite !X. reflexivity.
Qed.
Lemma recv_blind C c b1 b2 s : len b1 = len b2 -> exists r c' s' b1' b2',
  In_recv C c b1 s = (r, (c', b1', s')) /\ In_recv C c b2 s = (r, (c', b2', s')) /\ len b1' = len b1 /\ len b2' = len b1.
Proof.
  intros E. destruct (N.ltb_spec (len b1) 4) as [S|S].
  { rewrite !recv_short by lia. do 5 eexists. split; [reflexivity|]. split; [reflexivity|]. lia. }
  destruct (N.ltb_spec (len s) 4) as [L|L].
  { rewrite !recv_eof by lia. do 5 eexists. split; [reflexivity|]. split; [reflexivity|]. lia. }
  destruct (split4 s L) as (h & t & -> & Lh). rewrite !recv_eq by (assumption || lia). cbv zeta. rewrite <- E.
  set (l := be_value (decrypt_length C c h)). assert (Ld : len (decrypt_length C c h) = 4) by (unfold decrypt_length; rewrite apply_len; exact Lh).
  destruct (len b1 <? 20 + l) eqn:G1.
  { do 5 eexists. split; [reflexivity|]. split; [reflexivity|]. rewrite !len_app, !len_ndrop, Lh. lia. }
  destruct (len t <? l + 16) eqn:G2.
  { do 5 eexists. split; [reflexivity|]. split; [reflexivity|]. rewrite !len_app, !len_ndrop, Lh. lia. }
  destruct (bytes_eqb _ _).
  2:{ do 5 eexists. split; [reflexivity|]. split; [reflexivity|]. lens. lia. }
  assert (La : len (apply_data C c (ntake l t)) = l) by (unfold apply_data; rewrite apply_len; lens; lia).
  assert (Lo : len (opened C c h (ntake l t)) = 4 + l) by (unfold opened; rewrite len_app, La, Ld; reflexivity).
  set (o := opened C c h (ntake l t)) in *.
  assert (O4 : ntake 4 o = decrypt_length C c h) by (apply ntake_app; auto).
  clearbody o. set (tag := ntake 16 (ndrop l t)) in *. assert (Lt : len tag = 16) by (subst tag; lens; lia). clearbody tag.
  rewrite !(app_assoc o tag). rewrite (open_blind (o ++ tag) (ndrop (20 + l) b1) (ndrop (20 + l) b2)).
  2:{ rewrite len_app. lia. }
  2:{ rewrite ntake_app_le by lia. rewrite O4. fold l. rewrite len_app. lia. }
  generalize (p <- map_err In_Packet (wrap_raw ((o ++ tag) ++ ndrop (20 + l) b2) false B8) ;; payload p). intros r.
  exists r. do 4 eexists. split; [reflexivity|]. split; [reflexivity|].
  rewrite !len_app, !len_ndrop. lia.
Qed.
Lemma conn_recv_blind C b1 b2 k : len b1 = len b2 -> exists r k' b1' b2',
  conn_recv C b1 k = (r, (k', b1')) /\ conn_recv C b2 k = (r, (k', b2')) /\ len b1' = len b1 /\ len b2' = len b1.
Proof.
  intros E. unfold conn_recv. destruct (recv_blind C (k_rd k) b1 b2 (k_in k) E) as (r & c & s & b1' & b2' & -> & -> & L).
  do 4 eexists. split; [reflexivity|]. split; [reflexivity|]. exact L.
Qed.

(** *** Authentication *)
Section Auth.
  Context {U : Type} (C : Crypto) (rng : N -> N -> bytes) (h : AHandlers U) (sid : bytes).
  Hypothesis (K : crypto_ok C) (R : forall n, rng_ok (rng n)).

  Definition a_blind {A} (m : @AM U A) : Prop := forall st st', a_same st st' ->
    fst (m st) = fst (m st') /\
    match fst (m st) with Ok _ => a_same (snd (m st)) (snd (m st')) | _ => a_seen (snd (m st)) (snd (m st')) end.
  Lemma ab_bind {A D} (m : @AM U A) (k : A -> AM D) : a_blind m -> (forall a, a_blind (k a)) -> a_blind (abind m k).
  Proof.
    intros M F st st' S. destruct (M st st' S) as [E1 E2]. unfold abind.
    destruct (m st) as [r s], (m st') as [r' s']. cbn [fst snd] in *. subst r'. destruct r as [a|e|]; [|split; [reflexivity|exact E2]..].
    apply F, E2.
  Qed.
  Lemma ab_ret {A} (r : res unit A) : a_blind (aret (U := U) r).
  Proof. intros st st' S. unfold aret. cbn [fst snd]. split; [reflexivity|]. destruct r; [exact S|apply S..]. Qed.
  Lemma a_recv_blind st st' : a_same st st' -> fst (a_recv C st) = fst (a_recv C st') /\ a_same (snd (a_recv C st)) (snd (a_recv (U := U) C st')).
  Proof.
    intros ([S1 S2] & L1 & L2 & L3). unfold a_recv. rewrite <- S1.
    destruct (conn_recv_blind C (a_buf st) (a_buf st') (a_conn st) L1) as (r & k & b1 & b2 & -> & -> & G1 & G2). cbn [fst snd].
    split; [reflexivity|]. split; [split; [reflexivity|exact S2]|]. cbn [a_buf a_mini a_message]. repeat split; congruence.
  Qed.
  Lemma ab_unwrap : a_blind (a_unwrap (a_recv C)).
  Proof.
    intros st st' S. destruct (a_recv_blind st st' S) as [E1 E2]. unfold a_unwrap. destruct (a_recv C st) as [r s], (a_recv C st') as [r' s'].
    cbn [fst snd] in *. subst r'. split; [reflexivity|]. destruct (unwrap r); [exact E2|apply E2..].
  Qed.
  Lemma ab_try : a_blind (a_try (a_recv C)).
  Proof.
    intros st st' S. destruct (a_recv_blind st st' S) as [E1 E2]. unfold a_try. destruct (a_recv C st) as [r s], (a_recv C st') as [r' s'].
    cbn [fst snd] in *. subst r'. split; [reflexivity|]. destruct (map_err _ r); [exact E2|apply E2..].
  Qed.
  Lemma ab_send m : a_blind (a_send (U := U) C rng m).
  Proof.
    intros st st' ([S1 S2] & L1 & L2 & L3). unfold a_send. rewrite <- S1, <- S2.
    destruct (conn_send_blind C rng m (a_buf st) (a_buf st') (a_conn st) K R L1) as [(k & b1 & b2 & -> & -> & G1 & G2)|[-> ->]]; cbn [fst snd].
    - split; [reflexivity|]. split; [split; reflexivity|]. cbn [a_buf a_mini a_message]. repeat split; congruence.
    - split; [reflexivity|]. split; assumption.
  Qed.
  Lemma ab_send_mini m : a_blind (a_send_mini (U := U) C rng m).
  Proof.
    intros st st' ([S1 S2] & L1 & L2 & L3). unfold a_send_mini. rewrite <- S1, <- S2.
    destruct (conn_send_blind C rng m (a_mini st) (a_mini st') (a_conn st) K R L2) as [(k & b1 & b2 & -> & -> & G1 & G2)|[-> ->]]; cbn [fst snd].
    - split; [reflexivity|]. split; [split; reflexivity|]. cbn [a_buf a_mini a_message]. repeat split; congruence.
    - split; [reflexivity|]. split; assumption.
  Qed.
  Lemma a_event_same e st st' : a_same st st' -> a_same (a_log_event e st) (a_log_event (U := U) e st').
  Proof. intros ([S1 S2] & L). unfold a_log_event. split; [split; cbn [a_conn a_log]; congruence|exact L]. Qed.
  Lemma ab_exists user service alg key : a_blind (a_exists h user service alg key).
  Proof.
    intros st st' S. unfold a_exists. rewrite <- (proj2 (proj1 S)). cbn [fst snd]. pose proof (fun e => a_event_same e _ _ S) as X.
    destruct (h_exists h (a_log st) user service alg key); (split; [reflexivity|]); apply X.
  Qed.
  Lemma ab_authenticate user service auth : a_blind (a_authenticate h user service auth).
  Proof.
    intros st st' S. unfold a_authenticate. rewrite <- (proj2 (proj1 S)). cbn [fst snd]. pose proof (fun e => a_event_same e _ _ S) as X.
    destruct (h_authenticate h (a_log st) user service auth); (split; [reflexivity|]); apply X.
  Qed.
  Lemma sign_blind b1 b2 user service alg blob : len b1 = len b2 ->
    match format_sign_data b1 sid user service alg blob, format_sign_data b2 sid user service alg blob with
    | (Ok w, c1), (Ok w', c2) => w = w' /\ len c1 = len c2
    | (Ok _, _), _ | _, (Ok _, _) => False
    | _, _ => True
    end.
  Proof.
    intros E. unfold format_sign_data.
    match goal with |- context [wbind (make_string2 sid) ?f] => assert (B : blind (fun (_ : unit) _ => True) (wbind (make_string2 sid) f)) end.
    { repeat (eapply bl_bind; [bl1|intros ? ? _]). apply bl_ret. exact I. }
    specialize (B [] b1 b2 E). unfold alike in B.
    destruct (wbind (make_string2 sid) _ ([], b1)) as [[a|e|] [d1 r1]], (wbind (make_string2 sid) _ ([], b2)) as [[a'|e'|] [d2 r2]]; try contradiction; try exact I.
    destruct B as (_ & w & -> & -> & _ & LR & LB). rewrite !app_nil_l. rewrite !len_app. rewrite <- LR. unfold idx_to. rewrite !len_app.
    replace (len w + len r1 - len r1) with (len w) by lia.
    replace (len w <=? len w + len r1) with true by lia. replace (len w <=? len w + len r2) with true by lia.
    rewrite !ntake_app by reflexivity. split; [reflexivity|lia].
  Qed.
  Lemma ab_sign_data user service alg blob : a_blind (a_sign_data (U := U) sid user service alg blob).
  Proof.
    intros st st' ([S1 S2] & L1 & L2 & L3). unfold a_sign_data. pose proof (sign_blind _ _ user service alg blob L3) as B.
    destruct (format_sign_data (a_message st) sid user service alg blob) as [[w|e|] c1],
             (format_sign_data (a_message st') sid user service alg blob) as [[w'|e'|] c2]; try contradiction; cbn [unwrap fst snd];
      [|split; [reflexivity|split; assumption]..].
    destruct B as [<- LC]. split; [reflexivity|]. split; [split; assumption|]. split; [exact L1|]. split; [exact L2|exact LC].
  Qed.
  Ltac ab := repeat lazymatch goal with
    | |- a_blind (abind _ _) => refine (ab_bind _ _ _ _); [|intros ?]
    | |- a_blind (aret _) => exact (ab_ret _)
    | |- a_blind (a_unwrap _) => exact ab_unwrap
    | |- a_blind (a_try _) => exact ab_try
    | |- a_blind (a_send _ _ _) => exact (ab_send _)
    | |- a_blind (a_send_mini _ _ _) => exact (ab_send_mini _)
    | |- a_blind (a_exists _ _ _ _ _) => exact (ab_exists _ _ _ _)
    | |- a_blind (a_authenticate _ _ _ _) => exact (ab_authenticate _ _ _)
    | |- a_blind (a_sign_data _ _ _ _ _) => exact (ab_sign_data _ _ _ _)
    | |- a_blind (match ?x with _ => _ end) => destruct x
    | |- a_blind (auth_query _ _ _ _ _ _) => unfold auth_query
    | |- a_blind (auth_method _ _ _ _ _) => unfold auth_method
    end.
  Lemma ab_round : a_blind (auth_round C rng h sid).
  Proof. unfold auth_round. ab. Qed.
  Lemma ab_service : a_blind (auth_service (U := U) C rng).
  Proof. unfold auth_service. ab. Qed.
  Lemma auth_loop_blind n : forall st st', a_same st st' -> same_auth (auth_loop C rng h sid n st) (auth_loop C rng h sid n st').
  Proof.
    induction n as [|n IH]; intros st st' S; [exact I|]. cbn [auth_loop]. destruct (ab_round st st' S) as [E1 E2].
    destruct (auth_round C rng h sid st) as [r s], (auth_round C rng h sid st') as [r' s']. cbn [fst snd] in *. subst r'.
    destruct r as [[u|]|e|]; [|apply IH, E2|..]; (split; [reflexivity|]); [apply E2|exact E2..].
  Qed.
End Auth.

(** *** Sessions *)
Section Session.
  Context (C : Crypto) (rng : N -> N -> bytes) (h : SHandlers).
  Hypothesis (K : crypto_ok C) (R : forall n, rng_ok (rng n)).

  Definition s_blind {A} (m : SM A) : Prop := forall st st', s_same st st' ->
    fst (m st) = fst (m st') /\ s_same (snd (m st)) (snd (m st')).
  Lemma sb_bind {A D} (m : SM A) (k : A -> SM D) : s_blind m -> (forall a, s_blind (k a)) -> s_blind (sbind m k).
  Proof.
    intros M F st st' S. destruct (M st st' S) as [E1 E2]. unfold sbind.
    destruct (m st) as [r s], (m st') as [r' s']. cbn [fst snd] in *. subst r'. destruct r as [a|e|]; [|split; [reflexivity|exact E2]..].
    apply F, E2.
  Qed.
  Lemma sb_ret {A} (r : res InError A) : s_blind (sret r).
  Proof. intros st st' S. split; [reflexivity|exact S]. Qed.
  Lemma sb_view {A X} (v : SSt -> X) (m : X -> SM A) : (forall b st, v (s_with b st) = v st) -> (forall x, s_blind (m x)) -> s_blind (fun st => m (v st) st).
  Proof. intros V F st st' (b & L & ->). rewrite V. apply F. exists b. auto. Qed.
  (** Code that looks at and changes all but the buffer. *)
  Lemma sb_pure {A} (m : SM A) : (forall b st, m (s_with b st) = (fst (m st), s_with b (snd (m st))) /\ s_buf (snd (m st)) = s_buf st) -> s_blind m.
  Proof.
    intros F st st' (b & L & ->). destruct (F b st) as [-> E]. cbn [fst snd]. split; [reflexivity|]. exists b. rewrite E. auto.
  Qed.
  Lemma sb_event e : s_blind (s_event e).
  Proof. apply sb_pure. intros b st. split; reflexivity. Qed.
  Lemma sb_insert c : s_blind (s_insert c).
  Proof. apply sb_pure. intros b st. unfold s_insert. cbn [s_with s_chans]. destruct (arena_insert (s_chans st) c) as [r x]. split; reflexivity. Qed.
  Lemma sb_get i : s_blind (s_get i).
  Proof. apply sb_pure. intros b st. split; reflexivity. Qed.
  Lemma sb_put i x : s_blind (s_put i x).
  Proof. apply sb_pure. intros b st. split; reflexivity. Qed.
  Lemma sb_drop x : s_blind (s_drop x).
  Proof. destruct x; [apply sb_event|apply sb_ret]. Qed.
  Lemma sb_spawn i ch ty : s_blind (s_spawn h i ch ty).
  Proof. apply sb_pure. intros b st. split; reflexivity. Qed.
  Lemma sb_write n d : s_blind (s_write h n d).
  Proof. apply sb_pure. intros b st. split; reflexivity. Qed.
  Lemma sb_new_io n io p : s_blind (s_new_io n io p).
  Proof. apply sb_pure. intros b st. split; reflexivity. Qed.
  Lemma sb_reads err l : s_blind (set_reads err l).
  Proof. apply sb_pure. intros b st. split; reflexivity. Qed.
  Lemma sb_wait l : s_blind (set_wait l).
  Proof. apply sb_pure. intros b st. split; reflexivity. Qed.
  Lemma sb_send m : s_blind (s_send C rng m).
  Proof.
    intros st st' (b & L & ->). unfold s_send. cbn [s_with s_buf s_conn s_chans s_stdout s_stderr s_wait s_children s_log].
    destruct (conn_send_blind C rng m (s_buf st) b (s_conn st) K R (eq_sym L)) as [(k & b1 & b2 & -> & -> & G1 & G2)|[-> ->]]; cbn [fst snd];
      (split; [reflexivity|]).
    - exists b2. split; [cbn [s_buf]; congruence|reflexivity].
    - exists b. auto.
  Qed.
  Lemma sb_recv : s_blind (s_recv C).
  Proof.
    intros st st' (b & L & ->). unfold s_recv. cbn [s_with s_buf s_conn s_chans s_stdout s_stderr s_wait s_children s_log].
    destruct (conn_recv_blind C (s_buf st) b (s_conn st) (eq_sym L)) as (r & k & b1 & b2 & -> & -> & G1 & G2). cbn [fst snd].
    split; [reflexivity|]. exists b2. split; [cbn [s_buf]; congruence|reflexivity].
  Qed.
  Ltac sb := repeat lazymatch goal with
    | |- s_blind (sbind _ _) => refine (sb_bind _ _ _ _); [|intros ?]
    | |- s_blind (sret _) => exact (sb_ret _)
    | |- s_blind (s_event _) => exact (sb_event _)
    | |- s_blind (s_insert _) => exact (sb_insert _)
    | |- s_blind (s_get _) => exact (sb_get _)
    | |- s_blind (s_put _ _) => exact (sb_put _ _)
    | |- s_blind (s_drop _) => exact (sb_drop _)
    | |- s_blind (s_send _ _ _) => exact (sb_send _)
    | |- s_blind (s_channel _ _ _) => exact (sb_send _)
    | |- s_blind (s_spawn _ _ _ _) => exact (sb_spawn _ _ _)
    | |- s_blind (s_write _ _ _) => exact (sb_write _ _)
    | |- s_blind (s_new_io _ _ _) => exact (sb_new_io _ _ _)
    | |- s_blind (set_reads _ _) => exact (sb_reads _ _)
    | |- s_blind (set_wait _) => exact (sb_wait _)
    | |- s_blind (s_recv _) => exact sb_recv
    | |- s_blind (on_spawn _ _ _ _ _ _) => unfold on_spawn
    | |- s_blind (on_refused _ _ _ _) => unfold on_refused
    | |- s_blind (if ?x then _ else _) => destruct x
    | |- s_blind (match ?x with _ => _ end) => destruct x
    end.
  Lemma sb_message m : s_blind (on_message C rng h m).
  Proof.
    unfold on_message. sb.
    intros st st' (b & L & ->). cbn [s_with s_chans]. match goal with |- context [arena_remove (s_chans st) ?c] => destruct (arena_remove (s_chans st) c) as [x y] end.
    apply (sb_bind (s_drop _) (fun _ => sret (Ok false))); [apply sb_drop|intros; apply sb_ret|]. exists b. split; [exact L|reflexivity].
  Qed.
  Lemma sb_packet : s_blind (on_packet C rng h).
  Proof. unfold on_packet. sb. apply sb_message. Qed.
  Lemma sb_output err n p d : s_blind (on_output C rng err n p d).
  Proof.
    unfold on_output. sb.
    apply (sb_view (fun st => if err then s_stderr st else s_stdout st)
      (fun l => sbind (set_reads err (forget n l)) (fun _ => if err then sret (Ok tt) else sbind (s_channel C rng (C_Eof p)) (fun _ => s_channel C rng (C_Close p))))).
    - intros b st. destruct err; reflexivity.
    - intros x. sb.
  Qed.
  Lemma sb_exit n p status : s_blind (on_exit C rng n p status).
  Proof.
    unfold on_exit.
    apply (sb_view s_wait (fun l => sbind (set_wait (forget n l)) (fun _ => sbind (s_event (SE_Exit n status)) (fun _ =>
       sbind (sret (unwrap (session_written (SR_ExitStatus status) (zeros 256)))) (fun x => let '(ty, data) := x in
       sbind (s_channel C rng (C_Request {| rq_recipient := p; rq_ty := ty; rq_want_reply := false; rq_data := data |})) (fun _ => sret (Ok false))))))).
    - reflexivity.
    - intros x. sb.
  Qed.
  Lemma step_blind e st st' : s_same st st' -> same_run (session_step C rng h e st) (session_step C rng h e st').
  Proof.
    intros S. assert (X : forall (m : SM bool), s_blind m -> same_run (Some (m st)) (Some (m st'))).
    { intros m B. destruct (B st st' S) as [E1 E2]. destruct (m st), (m st'). split; assumption. }
    destruct S as (b & L & ->).
    destruct e as [|err n d|n status]; cbn [session_step].
    - apply X, sb_packet.
    - change (if err then s_stderr (s_with b st) else s_stdout (s_with b st)) with (if err then s_stderr st else s_stdout st).
      destruct (look n (if err then s_stderr st else s_stdout st)) as [p|]; [|exact I].
      destruct (match d with Ok d => len d <=? 256 | _ => true end); [|exact I]. apply X, sb_output.
    - change (s_wait (s_with b st)) with (s_wait st). destruct (look n (s_wait st)) as [p|]; [|exact I].
      destruct (is_u32 status); [|exact I]. apply X, sb_exit.
  Qed.
  Lemma run_blind es : forall st st', s_same st st' -> same_run (session_run C rng h es st) (session_run C rng h es st').
  Proof.
    induction es as [|e es IH]; intros st st' S; cbn [session_run]; [split; [reflexivity|exact S]|].
    pose proof (step_blind e st st' S) as X. unfold same_run in X.
    destruct (session_step C rng h e st) as [[r s]|], (session_step C rng h e st') as [[r' s']|]; try contradiction; [|exact I].
    destruct X as [<- E]. destruct r as [[|]|x|]; [|apply IH, E|..]; (split; [reflexivity|exact E]).
  Qed.
End Session.

Lemma serialize_blind m b1 b2 : len b1 = len b2 ->
  (exists w r1 r2, Message_serialize m b1 = Ok (w, r1) /\ Message_serialize m b2 = Ok (w, r2) /\ len r1 = len r2) \/
  (forall x, Message_serialize m b1 <> Ok x) /\ (forall x, Message_serialize m b2 <> Ok x).
Proof.
  intros E. pose proof (message_blind m [] b1 b2 E) as B. unfold alike in B. unfold Message_serialize.
  destruct (Message_write m ([], b1)) as [[a|e|] [d1 r1]], (Message_write m ([], b2)) as [[a'|e'|] [d2 r2]]; try contradiction;
    [|right; split; discriminate..].
  destruct B as (<- & w & -> & -> & q & LR & LB). unfold exactly in q. subst a. rewrite !app_nil_l. rewrite !len_app. left. exists w, r1, r2.
  replace (len w <=? len w + len r1) with true by lia. replace (len w <=? len w + len r2) with true by lia.
  rewrite !ntake_app, !ndrop_app by reflexivity. split; [reflexivity|]. split; [reflexivity|exact LR].
Qed.
Lemma service_blind U C rng st st' : crypto_ok C -> rngs_ok rng -> a_same st st' ->
  same_auth (Some (auth_service (U := U) C rng st)) (Some (auth_service C rng st')).
Proof.
  intros K R S. destruct (ab_service C rng K R st st' S) as [E1 E2]. destruct (auth_service C rng st) as [r s], (auth_service C rng st') as [r' s'].
  cbn [fst snd] in *. subst r'. split; [reflexivity|]. destruct r; [exact (proj1 E2)|exact E2..].
Qed.
