(** Lemmas about the model of data.rs. *)
From Coq Require Import Init.Byte Strings.Byte.
From Verif Require Export BaseFacts Data Spec.
Open Scope res_scope.

Lemma u32_pow n : is_u32 n = true <-> n < 2 ^ 32.
Proof. change (2 ^ 32) with 4294967296. unfold is_u32, u32_max1. lia. Qed.

(** * Parsers *)
Lemma parse_string_Ok d s r :
  parse_string d = Ok (s, r) <-> len s < 2 ^ 32 /\ d = (be32 (len s) ++ s) ++ r.
Proof.
  unfold parse_string. rewrite bind_Ok. split.
  - intros (h & Hh & H). apply get_to_Ok in Hh as (Lh & t & ->).
    rewrite bind_Ok in H. destruct H as (n & Hn & H). apply u32_of_slice_Ok in Hn as [_ ->].
    rewrite bind_Ok in H. destruct H as (v & Hv & H).
    rewrite bind_Ok in H. destruct H as (r' & Hr & H). injection H as -> ->.
    apply idx_from_Ok in Hr as [Hle ->].
    unfold get_range in Hv.
    destruct ((4 <=? 4 + be_value h) && (4 + be_value h <=? len (h ++ t))) eqn:G; [|discriminate].
    apply Ok_inj in Hv. rewrite ndrop_app in Hv by (symmetry; exact Lh).
    replace (4 + be_value h - 4) with (be_value h) in Hv by lia.
    assert (Ls : len s = be_value h) by (subst s; lens; lia).
    pose proof (be_value_u32 h Lh) as U.
    rewrite Ls. split; [apply u32_pow; exact U|].
    rewrite be32_of_value by exact Lh. rewrite <- app_assoc. f_equal.
    rewrite ndrop_app_ge by lia. subst s.
    replace (4 + be_value h - len h) with (be_value h) by lia.
    symmetry. apply ntake_ndrop.
  - intros [L ->]. apply u32_pow in L. exists (be32 (len s)).
    split; [apply get_to_Ok; split; [apply be32_len|]; rewrite <- app_assoc; eauto|].
    rewrite bind_Ok. exists (len s). split; [apply u32_of_slice_Ok; rewrite be32_len, be32_value; auto|].
    rewrite bind_Ok. exists s. split.
    + unfold get_range. lens. rewrite be32_len.
      replace ((4 <=? 4 + len s) && (4 + len s <=? 4 + len s + len r)) with true by lia.
      f_equal. rewrite <- app_assoc, ndrop_app by (rewrite be32_len; reflexivity).
      apply ntake_app. lia.
    + rewrite bind_Ok. exists r. split; [|reflexivity].
      apply idx_from_app. lens. rewrite be32_len. reflexivity.
Qed.
Lemma parse_string_app s r : len s < 2 ^ 32 -> parse_string ((be32 (len s) ++ s) ++ r) = Ok (s, r).
Proof. intros L. apply parse_string_Ok; auto. Qed.
Lemma parse_string_np d : parse_string d <> Panic.
Proof.
  unfold parse_string. apply bind_np; [apply get_to_np|]. intros h Hh.
  apply get_to_Ok in Hh as (Lh & t & ->).
  apply bind_np; [unfold u32_of_slice; rewrite Lh; discriminate|]. intros n Hn.
  unfold get_range. destruct ((4 <=? 4 + n) && (4 + n <=? len (h ++ t))) eqn:G; cbn [bind]; [|discriminate].
  unfold idx_from. replace (4 + n <=? len (h ++ t)) with true by lia. discriminate.
Qed.

Lemma parse_uint32_Ok d n r : parse_uint32 d = Ok (n, r) <-> n < 2 ^ 32 /\ d = be32 n ++ r.
Proof.
  unfold parse_uint32. destruct (N.leb_spec 4 (len d)) as [H|H].
  - unfold idx_to. replace (4 <=? len d) with true by lia. cbn [bind].
    unfold u32_of_slice. assert (L4 : len (ntake 4 d) = 4) by (lens; lia). rewrite L4. cbn [N.eqb Pos.eqb bind].
    unfold idx_from. replace (4 <=? len d) with true by lia. cbn [bind]. split.
    + intros [= <- <-]. split; [apply u32_pow, be_value_u32, L4|].
      rewrite be32_of_value by exact L4. symmetry; apply ntake_ndrop.
    + intros [L ->]. apply u32_pow in L.
      rewrite ntake_app, ndrop_app by (rewrite be32_len; reflexivity).
      rewrite be32_value by exact L. reflexivity.
  - split; [discriminate|]. intros [_ ->]. lens. rewrite be32_len in H. lia.
Qed.
Lemma parse_uint32_app n r : n < 2 ^ 32 -> parse_uint32 (be32 n ++ r) = Ok (n, r).
Proof. intros L. apply parse_uint32_Ok; auto. Qed.
Lemma parse_uint32_np d : parse_uint32 d <> Panic.
Proof.
  unfold parse_uint32. destruct (N.leb_spec 4 (len d)) as [H|H]; [|discriminate].
  unfold idx_to, idx_from, u32_of_slice. replace (4 <=? len d) with true by lia. cbn [bind].
  replace (len (ntake 4 d) =? 4) with true by (lens; lia). discriminate.
Qed.

Lemma parse_bool_eq d :
  parse_bool d = match d with [] => Err tt | c :: r => Ok (negb (b2n c =? 0), r) end.
Proof.
  unfold parse_bool. destruct d as [|c r]; [reflexivity|].
  rewrite len_cons. replace (1 <=? 1 + len r) with true by lia. cbn [bind idx nth_error N.to_nat].
  rewrite idx_from_1. reflexivity.
Qed.
Lemma b2n_zero c : b2n c = 0 <-> c = x00.
Proof. split; [intros H; apply b2n_inj; exact H|intros ->; reflexivity]. Qed.
Lemma parse_bool_Ok d b r :
  parse_bool d = Ok (b, r) <-> exists c, d = [c] ++ r /\ (b = true <-> c <> x00).
Proof.
  rewrite parse_bool_eq. destruct d as [|c d].
  - split; [discriminate|]. intros (c & H & _). discriminate.
  - split.
    + intros [= <- <-]. exists c. split; [reflexivity|]. rewrite <- b2n_zero. lia.
    + intros (c' & [= <- <-] & H). f_equal. f_equal. rewrite <- b2n_zero in H. destruct b; lia.
Qed.
Lemma parse_bool_np d : parse_bool d <> Panic.
Proof. rewrite parse_bool_eq. destruct d; discriminate. Qed.

Lemma data_split_Ok d i x r : data_split d i = Ok (x, r) <-> len x = i /\ d = x ++ r.
Proof.
  unfold data_split. destruct (N.leb_spec i (len d)) as [H|H].
  - split.
    + intros [= <- <-]. lens. split; [lia|symmetry; apply ntake_ndrop].
    + intros [<- ->]. rewrite ntake_app, ndrop_app by reflexivity. reflexivity.
  - split; [discriminate|]. intros [<- ->]. lens. lia.
Qed.
Lemma data_split_np d i : data_split d i <> Panic.
Proof. unfold data_split. destruct (i <=? len d); discriminate. Qed.

(** * ASCII and UTF-8 *)
Lemma is_ascii_ok s : is_ascii s = true <-> ascii_ok s.
Proof. unfold is_ascii, ascii_ok. rewrite forallb_forall, Forall_forall. split; intros H b Hb; specialize (H b Hb); lia. Qed.

Lemma b2n_n2b_small n : n < 256 -> b2n (n2b n) = n.
Proof. intros H. rewrite b2n_n2b. apply N.mod_small, H. Qed.
Lemma n2b_of n b : n = b2n b -> n2b n = b.
Proof. intros ->. apply n2b_b2n. Qed.

Lemma utf8_char_valid c r : scalar c -> utf8_valid (utf8_char c ++ r) = utf8_valid r.
Proof.
  unfold scalar. intros H. unfold utf8_char.
  destruct (N.ltb_spec c 128) as [H1|H1].
  { cbn [app utf8_valid]. rewrite b2n_n2b_small by lia. replace (c <? 128) with true by lia. reflexivity. }
  destruct (N.ltb_spec c 2048) as [H2|H2].
  { cbn [app utf8_valid]. unfold cont, in_rng. rewrite !b2n_n2b_small by lia.
    replace (192 + c / 64 <? 128) with false by lia.
    replace ((194 <=? 192 + c / 64) && (192 + c / 64 <=? 223)) with true by lia.
    replace ((128 <=? 128 + c mod 64) && (128 + c mod 64 <=? 191)) with true by lia. reflexivity. }
  destruct (N.ltb_spec c 65536) as [H3|H3].
  { cbn [app utf8_valid]. unfold cont, in_rng. rewrite !b2n_n2b_small by lia.
    set (x := 224 + c / 4096). set (y := 128 + c / 64 mod 64). set (z := 128 + c mod 64).
    assert (Hx : 224 <= x <= 239) by (subst x; lia).
    assert (Hy : 128 <= y <= 191) by (subst y; lia).
    assert (Hz : 128 <= z <= 191) by (subst z; lia).
    assert (E : c = (x - 224) * 4096 + (y - 128) * 64 + (z - 128)).
    { subst x y z. lia. }
    clearbody x y z.
    replace (x <? 128) with false by lia.
    replace ((194 <=? x) && (x <=? 223)) with false by lia.
    match goal with |- (if ?g then _ else _) = _ => replace g with true by lia end.
    replace ((128 <=? z) && (z <=? 191)) with true by lia. reflexivity. }
  cbn [app utf8_valid]. unfold cont, in_rng. rewrite !b2n_n2b_small by lia.
  set (x := 240 + c / 262144). set (y := 128 + c / 4096 mod 64). set (z := 128 + c / 64 mod 64).
  set (w := 128 + c mod 64).
  assert (Hx : 240 <= x <= 244) by (subst x; lia).
  assert (Hy : 128 <= y <= 191) by (subst y; lia).
  assert (Hz : 128 <= z <= 191) by (subst z; lia).
  assert (Hw : 128 <= w <= 191) by (subst w; lia).
  assert (E : c = (x - 240) * 262144 + (y - 128) * 4096 + (z - 128) * 64 + (w - 128)).
  { subst x y z w. lia. }
  clearbody x y z w.
  replace (x <? 128) with false by lia.
  replace ((194 <=? x) && (x <=? 223)) with false by lia.
  match goal with |- (if ?g then _ else _) = _ => replace g with false by lia end.
  match goal with |- (if ?g then _ else _) = _ => replace g with true by lia end.
  replace ((128 <=? z) && (z <=? 191)) with true by lia.
  replace ((128 <=? w) && (w <=? 191)) with true by lia. reflexivity.
Qed.

Lemma text_ok_cons c s : scalar c -> text_ok s -> text_ok (utf8_char c ++ s).
Proof. intros H (cs & Hcs & ->). exists (c :: cs). split; [constructor; assumption|reflexivity]. Qed.

Lemma utf8_valid_text s : utf8_valid s = true -> text_ok s.
Proof.
  remember (length s) as n eqn:En. assert (Hn : (length s <= n)%nat) by lia. clear En.
  revert s Hn. induction n as [|n IH]; intros s Hn H.
  { destruct s; [exists []; split; constructor|cbn in Hn; lia]. }
  destruct s as [|a d1]; [exists []; split; constructor|].
  cbn [utf8_valid] in H. cbn [length] in Hn.
  destruct (N.ltb_spec (b2n a) 128) as [H1|H1].
  { change (a :: d1) with ([a] ++ d1). replace [a] with (utf8_char (b2n a)).
    - apply text_ok_cons; [left; lia|]. apply IH; [lia|exact H].
    - unfold utf8_char. replace (b2n a <? 128) with true by lia. rewrite n2b_b2n. reflexivity. }
  destruct d1 as [|b d2]; [discriminate|]. cbn [length] in Hn.
  pose proof (b2n_lt a) as La. pose proof (b2n_lt b) as Lb.
  destruct (in_rng a 194 223) eqn:E1.
  { apply andb_true_iff in H as [Hb H]. unfold in_rng, cont in *. unfold in_rng in *.
    change (a :: b :: d2) with ([a; b] ++ d2).
    set (c := (b2n a - 192) * 64 + (b2n b - 128)).
    replace [a; b] with (utf8_char c).
    - apply text_ok_cons; [left; subst c; lia|]. apply IH; [lia|exact H].
    - unfold utf8_char. replace (c <? 128) with false by (subst c; lia).
      replace (c <? 2048) with true by (subst c; lia).
      rewrite (n2b_of _ a), (n2b_of _ b) by (subst c; lia). reflexivity. }
  destruct d2 as [|c d3]; [discriminate|]. cbn [length] in Hn. pose proof (b2n_lt c) as Lc.
  match type of H with (if ?g then _ else _) = true => destruct g eqn:E2 end.
  { apply andb_true_iff in H as [Hc H]. unfold cont, in_rng in *.
    change (a :: b :: c :: d3) with ([a; b; c] ++ d3).
    set (v := (b2n a - 224) * 4096 + (b2n b - 128) * 64 + (b2n c - 128)).
    assert (Hv : 2048 <= v < 65536) by (subst v; lia).
    replace [a; b; c] with (utf8_char v).
    - apply text_ok_cons; [unfold scalar; subst v; lia|]. apply IH; [lia|exact H].
    - unfold utf8_char. replace (v <? 128) with false by lia.
      replace (v <? 2048) with false by lia. replace (v <? 65536) with true by lia.
      rewrite (n2b_of _ a), (n2b_of _ b), (n2b_of _ c) by (subst v; lia). reflexivity. }
  destruct d3 as [|e d4]; [discriminate|]. cbn [length] in Hn. pose proof (b2n_lt e) as Le.
  match type of H with (if ?g then _ else _) = true => destruct g eqn:E3 end; [|discriminate].
  apply andb_true_iff in H as [Hc H]. apply andb_true_iff in Hc as [Hc He]. unfold cont, in_rng in *.
  change (a :: b :: c :: e :: d4) with ([a; b; c; e] ++ d4).
  set (v := (b2n a - 240) * 262144 + (b2n b - 128) * 4096 + (b2n c - 128) * 64 + (b2n e - 128)).
  assert (Hv : 65536 <= v < 1114112) by (subst v; lia).
  replace [a; b; c; e] with (utf8_char v).
  - apply text_ok_cons; [unfold scalar; lia|]. apply IH; [lia|exact H].
  - unfold utf8_char. replace (v <? 128) with false by lia.
    replace (v <? 2048) with false by lia. replace (v <? 65536) with false by lia.
    rewrite (n2b_of _ a), (n2b_of _ b), (n2b_of _ c), (n2b_of _ e) by (subst v; lia). reflexivity.
Qed.
Lemma utf8_valid_iff s : utf8_valid s = true <-> text_ok s.
Proof.
  split; [apply utf8_valid_text|].
  intros (cs & Hcs & ->). induction Hcs as [|c cs Hc Hcs IH]; [reflexivity|].
  cbn [map List.concat]. rewrite utf8_char_valid by exact Hc. exact IH.
Qed.
Lemma ascii_utf8 s : is_ascii s = true -> utf8_valid s = true.
Proof.
  induction s as [|a s IH]; [reflexivity|]. cbn [is_ascii forallb utf8_valid].
  intros H. apply andb_true_iff in H as [-> H]. apply IH. exact H.
Qed.
Lemma from_utf8_Ok {E} (e : E) d x : from_utf8 e d = Ok x <-> x = d /\ text_ok d.
Proof.
  unfold from_utf8. rewrite <- utf8_valid_iff. destruct (utf8_valid d); split; intros H; try discriminate.
  - injection H as <-. auto.
  - destruct H as [-> _]. reflexivity.
  - destruct H as [_ H]. discriminate.
Qed.
Lemma from_utf8_np {E} (e : E) d : from_utf8 e d <> Panic.
Proof. unfold from_utf8. destruct (utf8_valid d); discriminate. Qed.
Lemma AsciiStr_eq s : AsciiStr_try_from s = if is_ascii s then Ok s else Err NotAsciiE.
Proof.
  unfold AsciiStr_try_from. destruct (is_ascii s) eqn:E; [|reflexivity].
  unfold from_utf8. rewrite ascii_utf8 by exact E. reflexivity.
Qed.
Lemma AsciiStr_Ok s x : AsciiStr_try_from s = Ok x <-> x = s /\ ascii_ok s.
Proof.
  rewrite AsciiStr_eq, <- is_ascii_ok. destruct (is_ascii s); split; intros H; try discriminate.
  - injection H as <-; auto.
  - destruct H as [-> _]; reflexivity.
  - destruct H as [_ H]; discriminate.
Qed.
Lemma AsciiStr_np s : AsciiStr_try_from s <> Panic.
Proof. rewrite AsciiStr_eq. destruct (is_ascii s); discriminate. Qed.

(** * Name lists *)
Definition commaless (x : bytes) : Prop := Forall (fun b => b <> comma) x.
Lemma position_Some c l i : position c l = Some i ->
  exists x r, l = x ++ c :: r /\ len x = i /\ Forall (fun b => b <> c) x.
Proof.
  revert i; induction l as [|a l IH]; intros i; cbn [position]; [discriminate|].
  destruct (beq_spec a c) as [->|Hne].
  - intros [= <-]. exists [], l. repeat split. constructor.
  - destruct (position c l) as [j|]; [|discriminate]. intros [= <-].
    destruct (IH j eq_refl) as (x & r & -> & <- & F).
    exists (a :: x), r. rewrite len_cons. repeat split; constructor; assumption.
Qed.
Lemma position_None c l : position c l = None -> Forall (fun b => b <> c) l.
Proof.
  induction l as [|a l IH]; cbn [position]; [constructor|].
  destruct (beq_spec a c) as [->|Hne]; [discriminate|].
  destruct (position c l); [discriminate|]. intros _. constructor; auto.
Qed.
Lemma position_none_of c l : Forall (fun b => b <> c) l -> position c l = None.
Proof.
  induction 1 as [|a l Ha _ IH]; [reflexivity|]. cbn [position].
  destruct (beq_spec a c) as [->|_]; [congruence|]. rewrite IH. reflexivity.
Qed.
Lemma position_app c x r : Forall (fun b => b <> c) x -> position c (x ++ c :: r) = Some (len x).
Proof.
  induction 1 as [|a x Ha _ IH]; cbn [app position].
  - rewrite beq_refl. reflexivity.
  - destruct (beq_spec a c) as [->|_]; [congruence|]. rewrite IH, len_cons. reflexivity.
Qed.

Lemma last_is_app c a l x : last_is c (x ++ a :: l) = last_is c (a :: l).
Proof.
  unfold last_is. rewrite rev_app_distr. cbn [rev].
  destruct (rev l ++ [a]) as [|z t] eqn:E; [destruct (rev l); discriminate|]. reflexivity.
Qed.
Lemma has_cc_app x r : x <> [] -> commaless x ->
  has_comma_comma (x ++ r) = has_comma_comma r.
Proof.
  intros _ F. induction F as [|a x Ha F IH]; [reflexivity|].
  change ((a :: x) ++ r) with (a :: (x ++ r)).
  cbn [has_comma_comma]. destruct (x ++ r) as [|b t] eqn:E.
  - destruct x; [|discriminate]. destruct r; [reflexivity|discriminate].
  - rewrite IH. apply beq_false in Ha. rewrite Ha. reflexivity.
Qed.
Lemma has_cc_nocomma x : commaless x -> has_comma_comma x = false.
Proof.
  intros F. destruct x as [|a x]; [reflexivity|].
  rewrite <- (app_nil_r (a :: x)), has_cc_app; [reflexivity|discriminate|exact F].
Qed.
Lemma has_cc_comma j t : has_comma_comma (comma :: j :: t) = beq j comma || has_comma_comma (j :: t).
Proof. reflexivity. Qed.
Lemma first_is_commaless x r : x <> [] -> commaless x -> first_is comma (x ++ r) = false.
Proof. intros Hx F. destruct F as [|a x Ha F]; [congruence|]. cbn. apply beq_false, Ha. Qed.
Lemma last_is_commaless x : commaless x -> last_is comma x = false.
Proof.
  intros F. unfold last_is. apply Forall_rev in F. destruct F; [reflexivity|]. apply beq_false; assumption.
Qed.

Definition nl_good (l : bytes) : bool :=
  negb (has_comma_comma l) && negb (first_is comma l) && negb (last_is comma l).

Lemma name_ok_split n : name_ok n <-> n <> [] /\ commaless n /\ ascii_ok n.
Proof.
  unfold name_ok, commaless, ascii_ok, comma. split.
  - intros [H F]. split; [exact H|]. split; (eapply Forall_impl; [|exact F]); cbn; tauto.
  - intros (H & F & G). split; [exact H|]. rewrite Forall_forall in *. intros b Hb; split; auto.
Qed.

Lemma join_cons n ns : ns <> [] -> join (n :: ns) = n ++ comma :: join ns.
Proof. destruct ns; [congruence|reflexivity]. Qed.
Lemma join_nonempty ns : ns <> [] -> Forall name_ok ns -> join ns <> [].
Proof.
  intros H F. destruct F as [|n ns Hn F]; [congruence|].
  destruct ns; [exact (proj1 Hn)|]. rewrite join_cons by discriminate.
  destruct n; discriminate.
Qed.
Lemma join_first ns : Forall name_ok ns -> first_is comma (join ns) = false.
Proof.
  intros F. destruct F as [|n ns Hn F]; [reflexivity|]. apply name_ok_split in Hn as (H0 & Hc & _).
  destruct ns.
  - cbn [join]. rewrite <- (app_nil_r n). apply first_is_commaless; assumption.
  - rewrite join_cons by discriminate. apply first_is_commaless; assumption.
Qed.
Lemma join_good ns : Forall name_ok ns -> nl_good (join ns) = true /\ is_ascii (join ns) = true.
Proof.
  intros F. unfold nl_good. rewrite join_first by exact F.
  induction F as [|n ns Hn F IH]; [split; reflexivity|].
  apply name_ok_split in Hn as (H0 & Hc & Ha).
  destruct ns as [|m ns].
  - cbn [join]. rewrite has_cc_nocomma, last_is_commaless by exact Hc. split; [reflexivity|].
    apply is_ascii_ok, Ha.
  - rewrite join_cons by discriminate.
    pose proof (join_nonempty (m :: ns) ltac:(discriminate) F) as Hne.
    pose proof (join_first (m :: ns) F) as Hf.
    rewrite has_cc_app by assumption. rewrite last_is_app.
    destruct (join (m :: ns)) as [|j jt] eqn:E; [congruence|].
    change (comma :: j :: jt) with ([comma] ++ j :: jt) at 2. rewrite last_is_app.
    cbn [first_is] in Hf.
    rewrite has_cc_comma, Hf.
    destruct IH as [IH1 IH2]. split; [exact IH1|].
    change (is_ascii (n ++ [comma] ++ j :: jt) = true). unfold is_ascii. rewrite !forallb_app.
    change (is_ascii n && (true && is_ascii (j :: jt)) = true).
    rewrite (proj2 (is_ascii_ok n) Ha), IH2. reflexivity.
Qed.

Lemma good_join l : is_ascii l = true -> nl_good l = true -> name_list_ok l.
Proof.
  remember (length l) as n eqn:En. assert (Hn : (length l <= n)%nat) by lia. clear En.
  revert l Hn. induction n as [|n IH]; intros l Hn A G.
  { destruct l; [exists []; split; [constructor|reflexivity]|cbn in Hn; lia]. }
  destruct l as [|a0 l0]; [exists []; split; [constructor|reflexivity]|].
  remember (a0 :: l0) as l eqn:El.
  destruct (position comma l) as [i|] eqn:P.
  - apply position_Some in P as (x & r & Hl & _ & F). 
    unfold nl_good in G. rewrite Hl in G.
    assert (Hx : x <> []). { intros ->. cbn in G. rewrite andb_false_r in G. discriminate. }
    rewrite has_cc_app in G by assumption. rewrite last_is_app in G.
    apply andb_true_iff in G as [G GL]. apply andb_true_iff in G as [GC _].
    assert (Hr : r <> []). { intros ->. discriminate GL. }
    destruct r as [|c r]; [congruence|].
    change (comma :: c :: r) with ([comma] ++ c :: r) in GL. rewrite last_is_app in GL.
    rewrite has_cc_comma, negb_orb in GC. apply andb_true_iff in GC as [GF GC].
    unfold is_ascii in A. rewrite Hl, forallb_app in A. cbn [forallb] in A.
    apply andb_true_iff in A as [A1 A2]. apply andb_true_iff in A2 as [_ A2].
    destruct (IH (c :: r)) as (ns & Fns & E).
    + rewrite Hl, app_length in Hn. cbn [length] in *. lia.
    + exact A2.
    + unfold nl_good. cbn [first_is]. rewrite GC, GL, GF. reflexivity.
    + exists (x :: ns). split.
      * constructor; [|exact Fns]. apply name_ok_split. split; [exact Hx|]. split; [exact F|].
        apply is_ascii_ok. exact A1.
      * rewrite join_cons; [rewrite <- E; exact Hl|]. intros ->. discriminate E.
  - apply position_None in P. exists [l]. split; [|reflexivity].
    constructor; [|constructor]. apply name_ok_split. split; [rewrite El; discriminate|].
    split; [exact P|]. apply is_ascii_ok, A.
Qed.

Lemma NameList_eq l : NameList_try_from l =
  if negb (is_ascii l) then Err NL_NotAscii else if negb (nl_good l) then Err EmptyName else Ok l.
Proof.
  unfold NameList_try_from, nl_good. destruct (is_ascii l) eqn:A; [|reflexivity]. cbn [negb].
  destruct (has_comma_comma l); [reflexivity|]. cbn [negb andb].
  destruct (first_is comma l); [reflexivity|]. cbn [negb andb orb].
  destruct (last_is comma l); [reflexivity|]. cbn [negb].
  unfold from_utf8. rewrite ascii_utf8 by exact A. reflexivity.
Qed.
Lemma NameList_Ok l x : NameList_try_from l = Ok x <-> x = l /\ name_list_ok l.
Proof.
  rewrite NameList_eq. destruct (is_ascii l) eqn:A; cbn [negb].
  - destruct (nl_good l) eqn:G; cbn [negb].
    + split; [intros [= <-]; split; [reflexivity|apply good_join; assumption]|intros [-> _]; reflexivity].
    + split; [discriminate|]. intros [_ (ns & F & ->)]. rewrite (proj1 (join_good ns F)) in G. discriminate.
  - split; [discriminate|]. intros [_ (ns & F & ->)]. rewrite (proj2 (join_good ns F)) in A. discriminate.
Qed.
Lemma NameList_np l : NameList_try_from l <> Panic.
Proof. rewrite NameList_eq. destruct (is_ascii l), (nl_good l); discriminate. Qed.

Lemma NameList_collect_join ns fuel : Forall name_ok ns -> (length ns < fuel)%nat ->
  NameList_collect fuel (join ns) = Ok ns.
Proof.
  intros F. revert fuel. induction F as [|n ns Hn F IH]; intros fuel Hf;
    (destruct fuel as [|fuel]; [cbn in Hf; lia|]); [reflexivity|].
  cbn [NameList_collect]. unfold NameListIter_next.
  apply name_ok_split in Hn as (H0 & Hc & _).
  destruct ns as [|m ns].
  - cbn [join]. destruct n as [|a n]; [congruence|]. cbn [is_empty].
    rewrite position_none_of by exact Hc. cbn [bind].
    destruct fuel; [cbn in Hf; lia|]. reflexivity.
  - rewrite join_cons by discriminate. 
    replace (is_empty (n ++ comma :: join (m :: ns))) with false by (destruct n; reflexivity).
    rewrite position_app by exact Hc. 
    replace (n ++ comma :: join (m :: ns)) with ((n ++ [comma]) ++ join (m :: ns)) at 1
      by (rewrite <- app_assoc; reflexivity).
    rewrite idx_from_app by (lens; lia). cbn [bind].
    unfold idx_to. replace (len n <=? _) with true by (lens; lia). cbn [bind].
    rewrite ntake_app by reflexivity. rewrite IH by (cbn [length] in *; lia). reflexivity.
Qed.
Lemma join_length ns : Forall name_ok ns -> (length ns <= length (join ns))%nat.
Proof.
  induction 1 as [|n ns [Hn _] F IH]; [cbn; lia|]. destruct n as [|a n]; [congruence|].
  destruct ns; [cbn; lia|]. rewrite join_cons by discriminate. rewrite app_length.
  cbn [length] in *. lia.
Qed.

(** * Writers *)

(** [wr w bs v]: with room for [bs], [w] puts [bs] at the front of the
    buffer, touches nothing else and returns [v]; without, it returns [None]. *)
Definition wr {A} (w : W A) (bs : bytes) (v : A) : Prop := forall done rest,
  (len bs <= len rest -> w (done, rest) = (Ok v, (done ++ bs, ndrop (len bs) rest))) /\
  (len rest < len bs -> exists c, w (done, rest) = (Err tt, c)).

Lemma wr_eq {A} (w : W A) bs bs' v v' : wr w bs v -> bs = bs' -> v = v' -> wr w bs' v'.
Proof. intros H -> ->. exact H. Qed.
Lemma wr_ret {A} (v : A) : wr (wret v) [] v.
Proof.
  intros done rest. split; [intros _; unfold wret; rewrite app_nil_r; reflexivity|].
  rewrite len_nil. lia.
Qed.
Lemma wr_bind {A C} (w : W A) (f : A -> W C) b1 v1 b2 v2 :
  wr w b1 v1 -> wr (f v1) b2 v2 -> wr (wbind w f) (b1 ++ b2) v2.
Proof.
  intros H1 H2 done rest. rewrite len_app. unfold wbind.
  destruct (H1 done rest) as [S1 F1]. split.
  - intros L. rewrite S1 by lia. cbn beta iota. destruct (H2 (done ++ b1) (ndrop (len b1) rest)) as [S2 _].
    rewrite S2 by (rewrite len_ndrop; lia). rewrite <- app_assoc, ndrop_ndrop. reflexivity.
  - intros L. destruct (N.ltb_spec (len rest) (len b1)) as [L1|L1].
    + destruct (F1 L1) as (c & ->). eauto.
    + rewrite S1 by exact L1. cbn beta iota. apply H2. rewrite len_ndrop. lia.
Qed.

Lemma splice_0 s buf : len s <= len buf -> splice 0 s buf = s ++ ndrop (len s) buf.
Proof. intros H. unfold splice. rewrite ntake_0, N.add_0_l. reflexivity. Qed.

Lemma splice_app n a s r : n = len a -> splice n s (a ++ r) = a ++ s ++ ndrop (len s) r.
Proof.
  intros ->. unfold splice. rewrite ntake_app by reflexivity. 
  rewrite ndrop_app_ge by lia. f_equal. f_equal. f_equal. lia.
Qed.
Lemma splice_len n s b : n + len s <= len b -> len (splice n s b) = len b.
Proof. intros H. unfold splice. lens. lia. Qed.

Lemma wr_str s : len s < 2 ^ 32 -> wr (make_string2 s) (be32 (len s) ++ s) (4 + len s).
Proof.
  intros L done rest. apply u32_pow in L. unfold make_string2, u32_try_unwrap.
  rewrite L. rewrite len_app, be32_len. split.
  - intros H. replace (4 <=? len rest) with true by lia.
    rewrite splice_0 by (rewrite be32_len; lia). rewrite be32_len, len_app, be32_len, len_ndrop.
    replace (4 + len s <=? 4 + (len rest - 4)) with true by lia.
    rewrite splice_app by (rewrite be32_len; reflexivity). rewrite ndrop_ndrop, app_assoc. rewrite ntake_app, ndrop_app by (rewrite len_app, be32_len; reflexivity).
    reflexivity.
  - intros H. destruct (N.leb_spec 4 (len rest)); [|eauto].
    rewrite splice_0 by (rewrite be32_len; lia). rewrite be32_len, len_app, be32_len, len_ndrop.
    replace (4 + len s <=? 4 + (len rest - 4)) with false by lia. eauto.
Qed.
Lemma wr_u32 n : wr (make_uint32 n) (be32 n) 4.
Proof.
  intros done rest. unfold make_uint32. rewrite be32_len. split.
  - intros H. replace (4 <=? len rest) with true by lia.
    rewrite splice_0 by (rewrite be32_len; lia). rewrite be32_len.
    rewrite ntake_app, ndrop_app by (rewrite be32_len; reflexivity). reflexivity.
  - intros H. replace (4 <=? len rest) with false by lia. eauto.
Qed.
Lemma wr_bool b : wr (make_bool b) [if b then x01 else x00] 1.
Proof.
  intros done rest. unfold make_bool. split.
  - destruct rest as [|r rest]; [cbn; lia|]. intros _. destruct b; reflexivity.
  - destruct rest as [|r rest]; [eauto|]. rewrite !len_cons, len_nil. lia.
Qed.
Lemma wr_raw s : wr (make_raw s) s (len s).
Proof.
  intros done rest. unfold make_raw. split; intros H.
  - replace (len s <=? len rest) with true by lia. reflexivity.
  - replace (len s <=? len rest) with false by lia. eauto.
Qed.

(** * mpint *)
Lemma strip_zeros_value s : be_value (strip_zeros s) = be_value s.
Proof.
  induction s as [|b s IH]; [reflexivity|]. cbn [strip_zeros].
  destruct (beq_spec b x00) as [->|_]; [|reflexivity].
  rewrite IH, be_value_cons. cbn. reflexivity.
Qed.
Lemma strip_zeros_head s : match strip_zeros s with c :: _ => c <> x00 | [] => True end.
Proof.
  induction s as [|b s IH]; [exact I|]. cbn [strip_zeros].
  destruct (beq_spec b x00) as [->|H]; [exact IH|exact H].
Qed.
Lemma strip_zeros_len s : len (strip_zeros s) <= len s.
Proof.
  induction s as [|b s IH]; [reflexivity|]. cbn [strip_zeros]. 
  destruct (beq b x00); [rewrite len_cons; lia|reflexivity].
Qed.
Lemma hi_bit c : negb (N.land (b2n c) 128 =? 0) = (128 <=? b2n c).
Proof. destruct c; reflexivity. Qed.

Lemma be_bytes_fit k n : n < 256 ^ N.of_nat k -> be_bytes (S k) n = x00 :: be_bytes k n.
Proof.
  revert n; induction k as [|k IH]; intros n H.
  - cbn in H. assert (n = 0) by lia. subst. reflexivity.
  - change (be_bytes (S (S k)) n) with (be_bytes (S k) (n / 256) ++ [n2b n]).
    rewrite IH; [reflexivity|].
    rewrite Nnat.Nat2N.inj_succ, N.pow_succ_r' in H.
    apply N.div_lt_upper_bound; [discriminate|exact H].
Qed.

(** The mpint of a number from its shortest big-endian string. *)
Lemma mpint_strip s : mpint (be_value s) =
  let t := strip_zeros s in
  match t with [] => [] | c :: _ => if 128 <=? b2n c then x00 :: t else t end.
Proof.
  cbv zeta. rewrite <- (strip_zeros_value s).
  pose proof (strip_zeros_head s) as Hh. destruct (strip_zeros s) as [|c t]; [reflexivity|].
  clear s. unfold mpint.
  pose proof (be_value_cons c t) as V. pose proof (be_value_lt t) as Lt.
  pose proof (b2n_lt c) as Lc.
  assert (Hc : b2n c <> 0) by (rewrite b2n_zero; exact Hh).
  assert (P : 0 < 256 ^ len t) by lia.
  remember (be_value (c :: t)) as n eqn:En.
  assert (Hn : n <> 0) by nia.
  replace (n =? 0) with false by lia.
  rewrite N.size_log2 by exact Hn.
  assert (P256 : 256 ^ len t = 2 ^ (8 * len t)).
  { change 256 with (2 ^ 8). rewrite <- N.pow_mul_r. reflexivity. }
  rewrite P256 in *.
  set (l := len t) in *.
  assert (BV : be_bytes (length (c :: t)) n = c :: t) by (rewrite En; apply be_bytes_value).
  assert (LL : N.of_nat (length (c :: t)) = l + 1) by (subst l; unfold len; cbn [length]; lia).
  destruct (N.leb_spec 128 (b2n c)) as [H|H].
  - assert (LG : N.log2 n = 8 * l + 7).
    { apply N.log2_unique; [lia|]. split.
      - replace (2 ^ (8 * l + 7)) with (128 * 2 ^ (8 * l)) by (rewrite N.pow_add_r; lia). nia.
      - replace (N.succ (8 * l + 7)) with (8 * l + 8) by lia.
        rewrite N.pow_add_r. change (2 ^ 8) with 256. nia. }
    rewrite LG. replace (N.succ (8 * l + 7) / 8 + 1) with (N.succ (l + 1)) by lia.
    rewrite Nnat.N2Nat.inj_succ. rewrite <- LL, Nnat.Nat2N.id, be_bytes_fit; [rewrite BV; reflexivity|].
    rewrite LL, En. replace (l + 1) with (len (c :: t)) by (rewrite len_cons; subst l; lia). apply be_value_lt.
  - assert (LG1 : 8 * l <= N.log2 n).
    { apply N.log2_le_pow2; [lia|]. nia. }
    assert (LG2 : N.log2 n < 8 * l + 7).
    { apply N.log2_lt_pow2; [lia|]. rewrite N.pow_add_r. change (2 ^ 7) with 128. nia. }
    replace (N.succ (N.log2 n) / 8 + 1) with (l + 1) by lia.
    rewrite <- LL, Nnat.Nat2N.id. exact BV.
Qed.

Lemma mpint_len s : len (mpint (be_value s)) <= len s + 1.
Proof.
  rewrite mpint_strip. cbv zeta. pose proof (strip_zeros_len s) as L.
  destruct (strip_zeros s) as [|c t]; [rewrite len_nil; lia|].
  destruct (128 <=? b2n c); rewrite ?len_cons in *; lia.
Qed.

(** The buffer after [make_pos_mpint]. *)
Lemma make_pos_mpint_spec buf s : 
  let m := mpint (be_value s) in
  len m < 2 ^ 32 ->
  (4 + len m <= len buf ->
   make_pos_mpint buf s = (Ok (4 + len m), (be32 (len m) ++ m) ++ ndrop (4 + len m) buf)) /\
  (len buf < 4 + len m -> exists b, make_pos_mpint buf s = (Err tt, b)).
Proof.
  cbv zeta. rewrite mpint_strip. cbv zeta. unfold make_pos_mpint.
  generalize (strip_zeros s). intros t Lt.
  destruct t as [|c t].
  - cbn [len length N.of_nat]. cbn beta iota. split; intros H.
    + replace (4 <=? len buf) with true by lia. change (u32_try_unwrap (0 + 0)) with (@Ok unit N 0).
      cbn beta iota. rewrite splice_0 by (rewrite be32_len; lia). rewrite be32_len.
      rewrite len_app, be32_len, len_ndrop.
      replace (4 + 0 + 0 <=? 4 + (len buf - 4)) with true by lia.
      rewrite splice_app by (rewrite be32_len; reflexivity). rewrite app_nil_r. reflexivity.
    + replace (4 <=? len buf) with false by lia. eauto.
  - rewrite hi_bit. destruct (N.leb_spec 128 (b2n c)) as [Hc|Hc].
    + set (u := c :: t) in *. rewrite len_cons in *. apply u32_pow in Lt. split; intros H.
      * replace (4 <? len buf) with true by lia. cbn beta iota.
        set (buf1 := splice 4 [x00] buf).
        assert (L1 : len buf1 = len buf) by (subst buf1; unfold splice; lens; lia).
        rewrite L1. replace (4 <=? len buf) with true by lia.
        unfold u32_try_unwrap. rewrite Lt.
        rewrite splice_0 by (rewrite be32_len; lia). rewrite be32_len.
        rewrite len_app, be32_len, len_ndrop, L1.
        replace (4 + 1 + len u <=? 4 + (len buf - 4)) with true by lia.
        f_equal; [f_equal; lia|].
        assert (D1 : ndrop 4 buf1 = x00 :: ndrop 5 buf).
        { subst buf1. unfold splice. rewrite ndrop_app by (lens; lia). reflexivity. }
        rewrite D1.
        change (x00 :: ndrop 5 buf) with ([x00] ++ ndrop 5 buf). rewrite app_assoc.
        rewrite splice_app by (rewrite len_app, be32_len; reflexivity).
        rewrite ndrop_ndrop, <- !app_assoc. cbn [app]. f_equal. f_equal. f_equal. f_equal. lia.
      * destruct (N.ltb_spec 4 (len buf)) as [H4|H4]; [|eauto].
        cbn beta iota. set (buf1 := splice 4 [x00] buf).
        assert (L1 : len buf1 = len buf) by (subst buf1; unfold splice; lens; lia).
        rewrite L1. replace (4 <=? len buf) with true by lia.
        unfold u32_try_unwrap. rewrite Lt.
        rewrite splice_0 by (rewrite be32_len; lia). rewrite be32_len.
        rewrite len_app, be32_len, len_ndrop, L1.
        replace (4 + 1 + len u <=? 4 + (len buf - 4)) with false by lia. eauto.
    + set (u := c :: t) in *. apply u32_pow in Lt. cbn beta iota. split; intros H.
      * replace (4 <=? len buf) with true by lia.
        rewrite N.add_0_l. unfold u32_try_unwrap. rewrite Lt.
        rewrite splice_0 by (rewrite be32_len; lia). rewrite be32_len.
        rewrite len_app, be32_len, len_ndrop. rewrite N.add_0_r.
        replace (4 + len u <=? 4 + (len buf - 4)) with true by lia.
        f_equal. rewrite splice_app by (rewrite be32_len; reflexivity).
        rewrite ndrop_ndrop, <- app_assoc. reflexivity.
      * destruct (N.leb_spec 4 (len buf)) as [H4|H4]; [|eauto].
        rewrite N.add_0_l. unfold u32_try_unwrap. rewrite Lt.
        rewrite splice_0 by (rewrite be32_len; lia). rewrite be32_len.
        rewrite len_app, be32_len, len_ndrop. rewrite N.add_0_r.
        replace (4 + len u <=? 4 + (len buf - 4)) with false by lia. eauto.
Qed.

Lemma wr_mpint s : len (mpint (be_value s)) < 2 ^ 32 ->
  wr (make_pos_mpint2 s) (be32 (len (mpint (be_value s))) ++ mpint (be_value s)) (4 + len (mpint (be_value s))).
Proof.
  intros L done rest. destruct (make_pos_mpint_spec rest s L) as [S F].
  rewrite len_app, be32_len. unfold make_pos_mpint2. split; intros H.
  - rewrite S by exact H. rewrite ntake_app, ndrop_app by (rewrite len_app, be32_len; reflexivity). reflexivity.
  - destruct (F H) as (b & ->). eauto.
Qed.
