(** Packet properties. *)
From Coq Require Import Init.Byte Strings.Byte.
From Verif Require Export PacketFacts.
Open Scope res_scope.

Lemma bs_pos bs : 8 <= bs_usize bs <= 64.
Proof. destruct bs; cbn; lia. Qed.
Lemma aligned_mod bs c l : aligned (bs_usize bs) c l <-> (l + (if c then 4 else 0)) mod bs_usize bs = 0.
Proof.
  pose proof (bs_pos bs). split.
  - intros [k ->]. apply N.mod_mul. lia.
  - intros E. exists ((l + (if c then 4 else 0)) / bs_usize bs).
    pose proof (N.div_mod (l + (if c then 4 else 0)) (bs_usize bs)). lia.
Qed.

Lemma wrap_pad_least bs c n : least_padding (bs_usize bs) c n (wrap_pad (bs_usize bs) c n).
Proof.
  pose proof (wrap_pad_range bs c n) as R. pose proof (wrap_pad_aligned bs c n) as A.
  split; [lia|]. split; [exact A|]. intros q Hq [k Hk]. destruct A as [j Hj].
  destruct (N.le_gt_cases (wrap_pad (bs_usize bs) c n) q) as [L|L]; [exact L|].
  exfalso. assert (k < j) by nia. assert ((k + 1) * bs_usize bs <= j * bs_usize bs) by nia. lia.
Qed.
Lemma least_padding_unique bs c n p q :
  least_padding bs c n p -> least_padding bs c n q -> p = q.
Proof. intros (A & B & C) (A' & B' & C'). specialize (C q A' B'). specialize (C' p A B). lia. Qed.

Lemma split5 (buf : bytes) : 5 <= len buf -> exists h, buf = h ++ ndrop 5 buf /\ len h = 5.
Proof. intros H. exists (ntake 5 buf). rewrite ntake_ndrop, len_ntake. split; [reflexivity|lia]. Qed.

(** ** C14, C17 *)
Lemma wrap_exact buf bs c f rng pl rest p : rng_ok rng ->
  fills f (ndrop 5 buf) pl rest -> least_padding (bs_usize bs) c (len pl) p ->
  wrap buf bs c f rng =
  if (5 + len pl + p <=? len buf) && (1 + len pl + p <? 2 ^ 32)
  then Ok (be32 (1 + len pl + p) ++ [n2b p] ++ pl ++ rng p ++ ndrop p rest) else Panic.
Proof.
  intros Hr Hf Hp. rewrite (least_padding_unique _ _ _ _ _ Hp (wrap_pad_least bs c (len pl))).
  destruct (N.le_gt_cases 5 (len buf)) as [L|L].
  - destruct (split5 buf L) as (h & Hb & Hh).
    rewrite (wrap_eq buf bs c f rng h _ pl rest Hr Hb Hh Hf).
    replace (wrap_pad _ _ _ <=? len rest) with (5 + len pl + wrap_pad (bs_usize bs) c (len pl) <=? len buf); [reflexivity|].
    destruct Hf as [_ Hl]. rewrite len_ndrop in Hl. lia.
  - rewrite wrap_short by exact L. replace (_ <=? len buf) with false by lia. reflexivity.
Qed.

Lemma wrap_invariants buf bs c f rng pl rest out : rng_ok rng ->
  fills f (ndrop 5 buf) pl rest -> wrap buf bs c f rng = Ok out ->
  exists pad raw, is_packet (bs_usize bs) c pl pad raw /\
    pad = rng (len pad) /\ least_padding (bs_usize bs) c (len pl) (len pad) /\
    out = raw ++ ndrop (len pad) rest /\ len out = len buf.
Proof.
  intros Hr Hf H. pose proof (wrap_pad_least bs c (len pl)) as Lp.
  rewrite (wrap_exact _ _ _ _ _ _ _ _ Hr Hf Lp) in H.
  set (p := wrap_pad (bs_usize bs) c (len pl)) in *.
  destruct (_ && _) eqn:Hc in H; [|discriminate]. apply Ok_inj in H. subst out.
  assert (P : len (rng p) = p) by apply Hr.
  assert (R := wrap_pad_range bs c (len pl)). fold p in R. pose proof (bs_pos bs).
  exists (rng p), (be32 (1 + len pl + p) ++ [n2b p] ++ pl ++ rng p). rewrite !P.
  split.
  { unfold is_packet. rewrite P. split; [reflexivity|]. split; [lia|]. split; [lia|]. exact (proj1 (proj2 Lp)). }
  split; [reflexivity|]. split; [exact Lp|]. split; [rewrite <- !app_assoc; reflexivity|].
  destruct Hf as [_ Hl]. lens. rewrite be32_len, P. lia.
Qed.

(** ** wrap_raw, completely *)
Lemma five_split (d : bytes) : 5 <= len d -> exists l p t, l < 2 ^ 32 /\ p < 256 /\ d = be32 l ++ [n2b p] ++ t /\
   l = be_value (ntake 4 d).
Proof.
  intros H. destruct (split5 d H) as (h & Hd & Hh).
  assert (exists a b c e x, h = [a; b; c; e; x]) as (a & b & c & e & x & ->).
  { destruct h as [|a [|b [|c' [|d' [|e [|x t]]]]]]; rewrite ?len_cons, ?len_nil in Hh; try lia. repeat eexists. }
  exists (be_value [a; b; c; e]), (b2n x), (ndrop 5 d).
  split; [apply u32_pow, be_value_u32; reflexivity|]. split; [apply b2n_lt|].
  rewrite be32_of_value by reflexivity. rewrite n2b_b2n. split; [exact Hd|]. rewrite Hd. reflexivity.
Qed.

Lemma wrap_raw_eq l p t c bs : l < 2 ^ 32 -> p < 256 ->
  wrap_raw (be32 l ++ [n2b p] ++ t) c bs =
  if (l + (if c then 4 else 0)) mod bs_usize bs =? 0 then
    if l <=? p then Err PaddingTooLarge else Ok (be32 l ++ [n2b p] ++ t)
  else Err BadAlignment.
Proof.
  intros Hl Hp. unfold wrap_raw. rewrite packet_len_eq by assumption. cbn [bind].
  replace (N.b2n c * 4) with (if c then 4 else 0) by (destruct c; reflexivity).
  destruct (_ =? 0); cbn [negb]; [|reflexivity].
  rewrite padding_len_eq by assumption. reflexivity.
Qed.

Lemma is_packet_wrap_raw bs c pl pad raw rest : is_packet (bs_usize bs) c pl pad raw ->
  wrap_raw (raw ++ rest) c bs = Ok (raw ++ rest) /\
  @payload unit (raw ++ rest) = Ok pl /\ @as_raw unit (raw ++ rest) = Ok raw /\
  @packet_bytes unit (raw ++ rest) = Ok (n2b (len pad) :: pl ++ pad).
Proof.
  intros (-> & R & L & A).
  replace ((be32 (1 + len pl + len pad) ++ [n2b (len pad)] ++ pl ++ pad) ++ rest)
    with (be32 (1 + len pl + len pad) ++ [n2b (len pad)] ++ pl ++ pad ++ rest) by (rewrite <- !app_assoc; reflexivity).
  split; [|split; [|split]].
  - rewrite wrap_raw_eq by lia. apply (aligned_mod bs c) in A. rewrite A. cbn [N.eqb].
    replace (_ <=? len pad) with false by lia. reflexivity.
  - apply payload_eq; lia.
  - replace (be32 (1 + len pl + len pad) ++ [n2b (len pad)] ++ pl ++ pad ++ rest)
      with (be32 (1 + len pl + len pad) ++ ([n2b (len pad)] ++ pl ++ pad) ++ rest) by (rewrite <- !app_assoc; reflexivity).
    apply as_raw_eq; lens; lia.
  - unfold packet_bytes. rewrite packet_len_eq by lia. cbn [bind]. unfold idx_range.
    replace (_ && _) with true by (lens; rewrite be32_len; lia).
    rewrite ndrop_app by (rewrite be32_len; reflexivity).
    replace ([n2b (len pad)] ++ pl ++ pad ++ rest) with (([n2b (len pad)] ++ pl ++ pad) ++ rest) by (rewrite <- !app_assoc; reflexivity).
    rewrite ntake_app by (lens; lia). reflexivity.
Qed.

Lemma wrap_round buf bs c f rng pl rest out : rng_ok rng ->
  fills f (ndrop 5 buf) pl rest -> wrap buf bs c f rng = Ok out ->
  wrap_raw out c bs = Ok out /\ @payload unit out = Ok pl.
Proof.
  intros Hr Hf H. destruct (wrap_invariants _ _ _ _ _ _ _ _ Hr Hf H) as (pad & raw & P & _ & _ & -> & _).
  destruct (is_packet_wrap_raw _ _ _ _ _ (ndrop (len pad) rest) P) as (A & Bq & _). auto.
Qed.

(** ** C16 *)
Lemma wrap_raw_guards d c bs d' : wrap_raw d c bs = Ok d' ->
  d' = d /\
  exists l p t, l < 2 ^ 32 /\ p < 256 /\ d = be32 l ++ [n2b p] ++ t /\ p < l /\
    aligned (bs_usize bs) c l /\
    (l <= 1 + len t ->
     exists pl pad rest, t = pl ++ pad ++ rest /\ 1 + len pl + len pad = l /\ len pad = p /\
       @payload unit d = Ok pl /\ @packet_bytes unit d = Ok (n2b p :: pl ++ pad) /\
       @as_raw unit d = Ok (be32 l ++ n2b p :: pl ++ pad)).
Proof.
  intros H.
  assert (L5 : 5 <= len d).
  { unfold wrap_raw, packet_len, idx_to, padding_len, idx in H.
    destruct (4 <=? len d); [|discriminate]. cbn [bind] in H.
    destruct (u32_of_slice (ntake 4 d)) as [x| |] eqn:U in H; cbn [bind] in H; try discriminate.
    destruct (negb _) in H; [discriminate|].
    destruct (nth_error d (N.to_nat 4)) eqn:Nn in H; [|discriminate].
    assert (G : nth_error d (N.to_nat 4) <> None) by congruence.
    apply nth_error_Some in G. unfold len. lia. }
  destruct (five_split d L5) as (l & p & t & Hl & Hp & -> & _).
  rewrite wrap_raw_eq in H by assumption.
  destruct (_ =? 0) eqn:A in H; [|discriminate]. destruct (l <=? p) eqn:LP in H; [discriminate|].
  apply Ok_inj in H. split; [auto|]. exists l, p, t. split; [exact Hl|]. split; [exact Hp|].
  split; [reflexivity|]. split; [lia|].
  assert (AL : aligned (bs_usize bs) c l) by (apply aligned_mod; lia). split; [exact AL|].
  intros Hroom. exists (ntake (l - p - 1) t), (ntake p (ndrop (l - p - 1) t)), (ndrop p (ndrop (l - p - 1) t)).
  rewrite !ntake_ndrop. split; [reflexivity|].
  set (pl := ntake (l - p - 1) t). set (pad := ntake p (ndrop (l - p - 1) t)).
  assert (Lpl : len pl = l - p - 1) by (unfold pl; lens; lia).
  assert (Lpad : len pad = p) by (unfold pad; lens; lia).
  split; [lia|]. split; [lia|].
  assert (T : t = pl ++ pad ++ ndrop p (ndrop (l - p - 1) t)) by (unfold pl, pad; rewrite !ntake_ndrop; reflexivity).
  assert (El : l = 1 + len pl + len pad) by lia.
  set (rest := ndrop p (ndrop (l - p - 1) t)) in *. clearbody rest pl pad. subst t.
  split; [|split].
  - rewrite El, <- Lpad. apply payload_eq; lia.
  - unfold packet_bytes. rewrite packet_len_eq by assumption. cbn [bind]. unfold idx_range.
    replace (_ && _) with true by (lens; rewrite be32_len; lia).
    rewrite ndrop_app by (rewrite be32_len; reflexivity).
    match goal with |- Ok (ntake _ ?x) = _ => replace x with (([n2b p] ++ pl ++ pad) ++ rest) by (rewrite <- !app_assoc; reflexivity) end.
    rewrite ntake_app by (lens; lia). reflexivity.
  - match goal with |- as_raw ?x = _ => replace x with (be32 l ++ ([n2b p] ++ pl ++ pad) ++ rest) by (rewrite <- !app_assoc; reflexivity) end.
    apply as_raw_eq; [exact Hl|lens; lia].
Qed.

Lemma wrap_raw_cases d c bs :
  (wrap_raw d c bs = Panic <-> len d < 4 \/ len d = 4 /\ aligned (bs_usize bs) c (be_value d)) /\
  (wrap_raw d c bs = Err BadAlignment <-> 4 <= len d /\ ~ aligned (bs_usize bs) c (be_value (ntake 4 d))) /\
  (wrap_raw d c bs = Err PaddingTooLarge <->
     5 <= len d /\ aligned (bs_usize bs) c (be_value (ntake 4 d)) /\ be_value (ntake 4 d) <= be_value (ntake 1 (ndrop 4 d))).
Proof.
  destruct (N.le_gt_cases 5 (len d)) as [L|L].
  - destruct (five_split d L) as (l & p & t & Hl & Hp & Ed & El).
    assert (Ep : be_value (ntake 1 (ndrop 4 d)) = p).
    { rewrite Ed, ndrop_app by (rewrite be32_len; reflexivity). change (ntake 1 ([n2b p] ++ t)) with [n2b p].
      rewrite be_value_1, b2n_n2b_small by exact Hp. reflexivity. }
    rewrite Ep, <- El.
    assert (W : wrap_raw d c bs = if (l + (if c then 4 else 0)) mod bs_usize bs =? 0 then
      if l <=? p then Err PaddingTooLarge else Ok d else Err BadAlignment) by (rewrite Ed; apply wrap_raw_eq; assumption).
    rewrite W.
    rewrite !aligned_mod.
    destruct (_ =? 0) eqn:A; [destruct (l <=? p) eqn:LP|];
      repeat split; intros; try discriminate; try reflexivity; try lia; try congruence.
  - destruct (N.le_gt_cases 4 (len d)) as [L4|L4].
    + assert (E4 : len d = 4) by lia. rewrite (ntake_all 4) by lia.
      assert (PLe : @packet_len WrapRawError d = Ok (be_value d)).
      { unfold packet_len, idx_to. replace (4 <=? len d) with true by lia. cbn [bind].
        rewrite ntake_all by lia. apply u32_of_slice_Ok. auto. }
      assert (W : wrap_raw d c bs = if (be_value d + (if c then 4 else 0)) mod bs_usize bs =? 0 then Panic else Err BadAlignment).
      { unfold wrap_raw. rewrite PLe. cbn [bind].
        replace (N.b2n c * 4) with (if c then 4 else 0) by (destruct c; reflexivity).
        destruct (_ =? 0); cbn [negb]; [|reflexivity].
        unfold padding_len, idx. replace (nth_error d (N.to_nat 4)) with (@None byte); [reflexivity|].
        symmetry. apply nth_error_None. unfold len in E4. lia. }
      rewrite W, !aligned_mod. destruct (_ =? 0) eqn:A;
        repeat split; intros; try discriminate; try reflexivity; try lia.
    + assert (W : wrap_raw d c bs = Panic).
      { unfold wrap_raw, packet_len, idx_to. replace (4 <=? len d) with false by lia. reflexivity. }
      rewrite W. repeat split; intros; try discriminate; try reflexivity; lia.
Qed.

(** ** C18, C19: packet::parse *)
Lemma packet_parse_short buf s c bs : len buf < 4 -> packet_parse buf s c bs = (Panic, s).
Proof. intros H. unfold packet_parse. replace (4 <=? len buf) with false by lia. reflexivity. Qed.

Lemma packet_parse_eof buf s c bs : 4 <= len buf -> len s < 4 ->
  packet_parse buf s c bs = (Err (PP_Io UnexpectedEof), []).
Proof.
  intros H1 H2. unfold packet_parse, read_exact. replace (4 <=? len buf) with true by lia. cbn [negb].
  replace (4 <=? len s) with false by lia. reflexivity.
Qed.

Lemma packet_parse_eq buf l s c bs : 4 <= len buf -> l < 2 ^ 32 ->
  packet_parse buf (be32 l ++ s) c bs =
  if len buf <? l then (Err (PP_TooLarge l), s)
  else if l <? 8 then (Err (PP_TooSmall l), s)
  else if len buf <? 4 + l then (Panic, s)
  else if l <=? len s
  then (map_err PP_WrapRaw (wrap_raw (be32 l ++ ntake l s ++ ndrop (4 + l) buf) c bs), ndrop l s)
  else (Err (PP_Io UnexpectedEof), []).
Proof.
  intros H1 H2. unfold packet_parse, read_exact. replace (4 <=? len buf) with true by lia. cbn [negb].
  replace (4 <=? len (be32 l ++ s)) with true by (rewrite len_app, be32_len; lia).
  rewrite ntake_app, ndrop_app by (rewrite be32_len; reflexivity).
  assert (S0 : splice 0 (be32 l) buf = be32 l ++ ndrop 4 buf) by (rewrite splice_0; rewrite be32_len; [reflexivity|exact H1]).
  rewrite S0.
  assert (LB : len (be32 l ++ ndrop 4 buf) = len buf) by (lens; rewrite be32_len; lia).
  unfold idx_to at 1. rewrite LB. replace (4 <=? len buf) with true by lia. cbn [bind].
  rewrite ntake_app by (rewrite be32_len; reflexivity).
  assert (U : @u32_of_slice PacketParseError (be32 l) = Ok l).
  { apply u32_of_slice_Ok. rewrite be32_len, be32_value by (apply u32_pow, H2). auto. }
  rewrite U. destruct (len buf <? l) eqn:C1; [reflexivity|]. destruct (l <? 8) eqn:C2; [reflexivity|].
  rewrite idx_from_app by (rewrite be32_len; reflexivity). cbn [bind]. unfold idx_to.
  rewrite len_ndrop. destruct (len buf <? 4 + l) eqn:C3.
  - replace (l <=? len buf - 4) with false by lia. reflexivity.
  - replace (l <=? len buf - 4) with true by lia. destruct (l <=? len s) eqn:C4; [|reflexivity].
    rewrite splice_app by (rewrite be32_len; reflexivity).
    rewrite len_ntake, ndrop_ndrop. do 6 f_equal. lia.
Qed.

Lemma packet_parse_panics buf s c bs :
  fst (packet_parse buf s c bs) = Panic <->
  len buf < 4 \/
  4 <= len buf /\ 4 <= len s /\ 8 <= be_value (ntake 4 s) <= len buf /\ len buf < 4 + be_value (ntake 4 s).
Proof.
  destruct (N.le_gt_cases 4 (len buf)) as [L|L].
  2:{ rewrite packet_parse_short by exact L. cbn [fst]. split; intros; [lia|reflexivity]. }
  destruct (N.le_gt_cases 4 (len s)) as [Ls|Ls].
  2:{ rewrite packet_parse_eof by lia. cbn [fst]. split; intros; [discriminate|lia]. }
  set (l := be_value (ntake 4 s)).
  assert (L4 : len (ntake 4 s) = 4) by (lens; lia).
  assert (Hl : l < 2 ^ 32) by (apply u32_pow, be_value_u32, L4).
  rewrite <- (ntake_ndrop 4 s) at 1. rewrite <- (be32_of_value _ L4). fold l.
  rewrite packet_parse_eq by assumption.
  destruct (len buf <? l) eqn:C1; [cbn [fst]; split; intros; [discriminate|lia]|].
  destruct (l <? 8) eqn:C2; [cbn [fst]; split; intros; [discriminate|lia]|].
  destruct (len buf <? 4 + l) eqn:C3; [cbn [fst]; split; intros; [lia|reflexivity]|].
  destruct (l <=? _) eqn:C4; [|cbn [fst]; split; intros; [discriminate|lia]].
  cbn [fst]. split; [|lia]. intros Hx. exfalso. revert Hx. apply map_err_np. intros Hx.
  apply (proj1 (wrap_raw_cases _ _ _)) in Hx. lens. rewrite be32_len in Hx. lia.
Qed.

Lemma packet_parse_round bs c pl pad raw buf s : is_packet (bs_usize bs) c pl pad raw ->
  8 <= 1 + len pl + len pad -> len raw <= len buf ->
  exists p, packet_parse buf (raw ++ s) c bs = (Ok p, s) /\ @payload unit p = Ok pl /\
    p = raw ++ ndrop (len raw) buf.
Proof.
  intros P M F. pose proof (is_packet_wrap_raw _ _ _ _ _ (ndrop (len raw) buf) P) as (W & Y & _).
  destruct P as (E & R & L & A).
  assert (Lr : len raw = 5 + len pl + len pad) by (rewrite E; lens; rewrite be32_len; lia).
  exists (raw ++ ndrop (len raw) buf). split; [|auto].
  replace (raw ++ s) with (be32 (1 + len pl + len pad) ++ (([n2b (len pad)] ++ pl ++ pad) ++ s)) by (rewrite E, <- !app_assoc; reflexivity).
  rewrite packet_parse_eq by lia.
  replace (len buf <? _) with false by lia. replace (_ <? 8) with false by lia.
  replace (len buf <? _) with false by lia.
  replace (_ <=? len _) with true by (lens; lia).
  rewrite ntake_app, ndrop_app by (lens; lia).
  replace (be32 (1 + len pl + len pad) ++ ([n2b (len pad)] ++ pl ++ pad) ++ ndrop (4 + (1 + len pl + len pad)) buf)
    with (raw ++ ndrop (len raw) buf) by (rewrite Lr, E, <- !app_assoc; do 4 f_equal; f_equal; lia).
  rewrite W. reflexivity.
Qed.

Lemma wrap_parse buf bs c f rng pl rest out buf2 s : rng_ok rng ->
  fills f (ndrop 5 buf) pl rest -> wrap buf bs c f rng = Ok out ->
  exists raw, @as_raw unit out = Ok raw /\
    (len raw <= len buf2 ->
     exists p, packet_parse buf2 (raw ++ s) c bs = (Ok p, s) /\ @payload unit p = Ok pl).
Proof.
  intros Hr Hf H. destruct (wrap_invariants _ _ _ _ _ _ _ _ Hr Hf H) as (pad & raw & P & _ & Lp & -> & _).
  exists raw. destruct (is_packet_wrap_raw _ _ _ _ _ (ndrop (len pad) rest) P) as (_ & _ & A & _).
  split; [exact A|]. intros F.
  destruct (packet_parse_round bs c pl pad raw buf2 s P) as (p & G1 & G2 & _); [|exact F|eauto].
  destruct Lp as (G & [k Hk] & _). destruct (bs_cases bs) as [E|[E|[E|E]]]; rewrite E in Hk; destruct c; lia.
Qed.

Lemma packet_parse_witness : exists buf s, len buf = 256 /\ fst (packet_parse buf s true B8) = Panic.
Proof. exists (repeat x00 256), (be32 253). split; vm_compute; reflexivity. Qed.
