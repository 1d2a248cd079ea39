(** Facts about sending and receiving messages over an encrypted connection. *)
From Coq Require Import Init.Byte Strings.Byte.
From Verif Require Export HostThm2 SpecAuth.
Open Scope res_scope.

Definition rngs_ok (rng : N -> N -> bytes) : Prop := forall n, rng_ok (rng n).

Lemma numbered_nil C c n : numbered C c n [] [].
Proof. split; [reflexivity|]. intros [|i] pl w X; discriminate X. Qed.
Lemma numbered_cons C c n pl pls w ws :
  (exists pad raw, loose_packet pl pad raw /\ w = seal C (key_length c) (key_data c) (n mod 2 ^ 64) raw) ->
  numbered C c (n + 1) pls ws -> numbered C c n (pl :: pls) (w :: ws).
Proof.
  intros (pad & raw & P & ->) [L N]. split; [cbn [length]; congruence|]. intros [|i] pl0 w0 A D; cbn [nth_error] in A, D.
  - injection A as <-. apply (f_equal (fun o => match o with Some x => x | None => [] end)) in D. subst w0.
    exists pad, raw. split; [exact P|]. rewrite N.add_0_r. reflexivity.
  - destruct (N i pl0 w0 A D) as (pad0 & raw0 & P0 & ->). exists pad0, raw0. split; [exact P0|]. do 2 f_equal. lia.
Qed.
Lemma numbered_cons_inv C c n pl pls ws : numbered C c n (pl :: pls) ws ->
  exists w ws', ws = w :: ws' /\
  (exists pad raw, loose_packet pl pad raw /\ w = seal C (key_length c) (key_data c) (n mod 2 ^ 64) raw) /\ numbered C c (n + 1) pls ws'.
Proof.
  intros [L N]. destruct ws as [|w ws']; [discriminate L|]. exists w, ws'. split; [reflexivity|]. split.
  - destruct (N 0%nat pl w eq_refl eq_refl) as (pad & raw & P & E). exists pad, raw. split; [exact P|].
    rewrite N.add_0_r in E. exact E.
  - split; [injection L as L; exact L|]. intros i pl0 w0 A D.
    destruct (N (S i) pl0 w0 A D) as (pad & raw & P & ->). exists pad, raw. split; [exact P|]. do 2 f_equal. lia.
Qed.
Lemma numbered_app C c : forall p1 w1 n p2 w2, numbered C c n p1 w1 -> numbered C c (n + len p1) p2 w2 ->
  numbered C c n (p1 ++ p2) (w1 ++ w2).
Proof.
  induction p1 as [|p p1 IH]; intros w1 n p2 w2 A D.
  - destruct A as [L _]. destruct w1; [|discriminate L]. rewrite len_nil, N.add_0_r in D. exact D.
  - apply numbered_cons_inv in A as (w & ws & -> & F & A). cbn [app]. apply numbered_cons; [exact F|].
    apply IH; [exact A|]. rewrite len_cons in D. replace (n + 1 + len p1) with (n + (1 + len p1)) by lia. exact D.
Qed.
Lemma numbered_later C c k n pls ws : numbered C (later k c) n pls ws <-> numbered C c n pls ws.
Proof. reflexivity. Qed.
Lemma later_counter k c : counter (later k c) = (counter c + k) mod 2 ^ 64.
Proof. reflexivity. Qed.
Lemma numbered_mod C c n pls ws : numbered C c (n mod 2 ^ 64) pls ws <-> numbered C c n pls ws.
Proof.
  unfold numbered. split; intros [L N]; (split; [exact L|]); intros i pl w A D; destruct (N i pl w A D) as (pad & raw & P & ->);
    exists pad, raw; (split; [exact P|]); [rewrite N.add_mod_idemp_l by discriminate|rewrite N.add_mod_idemp_l by discriminate]; reflexivity.
Qed.

(** [c] became [c'] by that many packets. *)
Definition advanced (c : Cipher) (pls : list bytes) (c' : Cipher) : Prop := c' = later (len pls) c.
Lemma advanced_lt c pls c' : advanced c pls c' -> counter c' < 2 ^ 64.
Proof. intros ->. unfold later. cbn [counter]. apply N.mod_lt. discriminate. Qed.
Lemma advanced_nil c : counter c < 2 ^ 64 -> advanced c [] c.
Proof. intros L. unfold advanced, later. rewrite len_nil, N.add_0_r, N.mod_small by exact L. destruct c; reflexivity. Qed.
Lemma advanced_app c p1 c1 p2 c2 : advanced c p1 c1 -> advanced c1 p2 c2 -> advanced c (p1 ++ p2) c2.
Proof. intros -> ->. unfold advanced. rewrite later_later, len_app. reflexivity. Qed.
Lemma advanced_one c pl : advanced c [pl] (bump c).
Proof. unfold advanced. rewrite bump_later. reflexivity. Qed.

Lemma received_app C c s p1 r1 p2 r2 : received_as C c s p1 r1 -> received_as C (later (len p1) c) r1 p2 r2 ->
  received_as C c s (p1 ++ p2) r2.
Proof.
  intros (w1 & -> & N1) (w2 & -> & N2). exists (w1 ++ w2). rewrite concat_app, <- app_assoc. split; [reflexivity|].
  apply numbered_app; [exact N1|]. apply (proj1 (numbered_mod _ _ _ _ _)).
  apply (proj1 (numbered_later C c (len p1) _ _ _)). rewrite later_counter in N2. exact N2.
Qed.
Lemma received_nil C c s : received_as C c s [] s.
Proof. exists []. split; [reflexivity|apply numbered_nil]. Qed.
Lemma received_one C c pl pad raw rest : counter c < 2 ^ 64 -> loose_packet pl pad raw -> received_as C c (seal_with C c raw ++ rest) [pl] rest.
Proof.
  intros L P. exists [seal_with C c raw]. cbn [concat]. rewrite app_nil_r. split; [reflexivity|].
  apply numbered_cons; [|apply numbered_nil]. exists pad, raw. split; [exact P|]. rewrite N.mod_small by exact L. reflexivity.
Qed.
Lemma written_app C c o0 p1 o1 p2 o2 : written_as C c o0 p1 o1 -> written_as C (later (len p1) c) o1 p2 o2 ->
  written_as C c o0 (p1 ++ p2) o2.
Proof.
  intros (w1 & -> & N1) (w2 & -> & N2). exists (w1 ++ w2). rewrite concat_app, <- app_assoc. split; [reflexivity|].
  apply numbered_app; [exact N1|]. apply (proj1 (numbered_mod _ _ _ _ _)).
  apply (proj1 (numbered_later C c (len p1) _ _ _)). rewrite later_counter in N2. exact N2.
Qed.
Lemma written_nil C c o : written_as C c o [] o.
Proof. exists []. split; [cbn [concat]; rewrite app_nil_r; reflexivity|apply numbered_nil]. Qed.
Lemma written_one C c pl pad raw o : counter c < 2 ^ 64 -> loose_packet pl pad raw -> written_as C c o [pl] (o ++ seal_with C c raw).
Proof.
  intros L P. exists [seal_with C c raw]. cbn [concat]. rewrite app_nil_r. split; [reflexivity|].
  apply numbered_cons; [|apply numbered_nil]. exists pad, raw. split; [exact P|]. rewrite N.mod_small by exact L. reflexivity.
Qed.

(** ** Sending one message *)
Definition sent_conn (k k' : Conn) (C : Crypto) (m : Message) : Prop :=
  k_rd k' = k_rd k /\ k_in k' = k_in k /\ k_sent k' = k_sent k + 1 /\ k_wr k' = bump (k_wr k) /\
  (counter (k_wr k) < 2 ^ 64 -> written_as C (k_wr k) (k_out k) [wire m] (k_out k')).

(** The least buffer for a payload of [n] bytes. *)
Definition room (n : N) : N := 21 + n + wrap_pad 8 false n.
Lemma room_range n : 25 + n <= room n < 33 + n.
Proof. pose proof (wrap_pad_range B8 false n) as R. cbn [bs_usize] in R. unfold room. lia. Qed.

Lemma conn_send_spec C rng m (buf : bytes) k : crypto_ok C -> rngs_ok rng -> message_ok m -> len buf < 2 ^ 32 ->
  if room (len (wire m)) <=? len buf
  then exists k' buf', conn_send C rng m buf k = Ok (k', buf') /\ len buf' = len buf /\ sent_conn k k' C m
  else conn_send C rng m buf k = Panic.
Proof.
  intros K R M LB. pose proof (room_range (len (wire m))) as RR.
  destruct (N.le_gt_cases (len (wire m)) (len (ndrop 5 buf))) as [L|L].
  - pose proof (fill_message_fills m (ndrop 5 buf) M L) as F.
    pose proof (wrap_pad_least B8 false (len (wire m))) as LP. cbn [bs_usize] in LP.
    pose proof (send_exact C (k_wr k) buf _ _ _ _ _ K (R (k_sent k)) F LP) as S. cbv zeta in S. fold (room (len (wire m))) in S.
    pose proof (wrap_pad_range B8 false (len (wire m))) as PR. cbn [bs_usize] in PR.
    set (p := wrap_pad 8 false (len (wire m))) in *.
    destruct (N.leb_spec (room (len (wire m))) (len buf)) as [L2|L2]; cbn [andb] in S.
    + replace (_ <? 2 ^ 32) with true in S by (unfold room in *; lia).
      unfold conn_send. rewrite S. cbn [bind]. eexists _, _. split; [reflexivity|].
      set (raw := be32 (1 + len (wire m) + p) ++ [n2b p] ++ wire m ++ rng (k_sent k) p) in *.
      pose proof (R (k_sent k) p) as LPd.
      assert (LR : len raw = 5 + len (wire m) + p) by (unfold raw; lens; rewrite be32_len; lia).
      split.
      { rewrite len_app, seal_len by (auto; lia). lens. unfold room in *. fold p in L2, RR. lia. }
      repeat split. intros LC. cbn [k_out]. eapply written_one; [exact LC|].
      split; [rewrite LPd; reflexivity|]. rewrite LPd. split; [lia|]. split; [unfold room in *; lia|]. apply LP.
    + unfold conn_send. rewrite S. reflexivity.
  - replace (_ <=? _) with false by (rewrite len_ndrop in L; lia).
    unfold conn_send, Out_send, wrap. unfold idx_from.
    destruct (5 <=? len buf); cbn [bind]; [|reflexivity].
    unfold fill_message. rewrite Message_serialize_eq by exact M. replace (_ <=? _) with false by lia. reflexivity.
Qed.

(** ** Receiving one *)
Lemma conn_recv_spec C (buf : bytes) k : crypto_ok C -> 4 <= len buf ->
  (exists pl pad raw rest buf', loose_packet pl pad raw /\ k_in k = seal_with C (k_rd k) raw ++ rest /\ len raw + 16 <= len buf /\
     len buf' = len buf /\
     conn_recv C buf k = (Ok pl, ({| k_rd := bump (k_rd k); k_wr := k_wr k; k_in := rest; k_out := k_out k; k_sent := k_sent k |}, buf'))) \/
  ((forall pl, ~ next_payload C (k_rd k) (len buf) (k_in k) pl) /\
   exists e c' s' buf', conn_recv C buf k =
     (Err e, ({| k_rd := c'; k_wr := k_wr k; k_in := s'; k_out := k_out k; k_sent := k_sent k |}, buf'))).
Proof.
  intros K L. destruct (fst (In_recv C (k_rd k) buf (k_in k))) as [pl|e|] eqn:E.
  - left. apply recv_iff in E as (pad & raw & rest & P & E & LR); [|assumption..].
    destruct (recv_after C (k_rd k) buf raw rest pl pad K L P LR) as (buf' & LB & RA).
    exists pl, pad, raw, rest, buf'. split; [exact P|]. split; [exact E|]. split; [exact LR|]. split; [exact LB|].
    unfold conn_recv. rewrite E, RA. reflexivity.
  - right. split.
    + intros pl NP. apply (recv_iff C (k_rd k) buf (k_in k) pl K L) in NP. congruence.
    + unfold conn_recv. destruct (In_recv C (k_rd k) buf (k_in k)) as [r [[c' buf'] s']]. cbn [fst] in E. subst r.
      exists e, c', s', buf'. reflexivity.
  - exfalso. eapply recv_np; eassumption.
Qed.
