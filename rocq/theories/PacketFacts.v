(** Lemmas about packets. *)
From Coq Require Import Init.Byte Strings.Byte.
From Verif Require Export SpecPacket DataFacts.
Open Scope res_scope.

Lemma ldiff_bs n bs : N.ldiff n (bs_usize bs - 1) = n / bs_usize bs * bs_usize bs.
Proof.
  destruct bs; cbn [bs_usize].
  - change (8 - 1) with (N.ones 3). rewrite N.ldiff_ones_r, N.shiftl_mul_pow2, N.shiftr_div_pow2. reflexivity.
  - change (16 - 1) with (N.ones 4). rewrite N.ldiff_ones_r, N.shiftl_mul_pow2, N.shiftr_div_pow2. reflexivity.
  - change (32 - 1) with (N.ones 5). rewrite N.ldiff_ones_r, N.shiftl_mul_pow2, N.shiftr_div_pow2. reflexivity.
  - change (64 - 1) with (N.ones 6). rewrite N.ldiff_ones_r, N.shiftl_mul_pow2, N.shiftr_div_pow2. reflexivity.
Qed.

(** The padding [wrap] chooses. *)
Definition wrap_pad (bs : N) (counted : bool) (n : N) : N :=
  let p := (if counted then bs - 1 - (n + 4) mod bs else bs + 3 - (n + 4) mod bs) in
  if p <? 4 then p + bs else p.

Lemma bs_cases bs : bs_usize bs = 8 \/ bs_usize bs = 16 \/ bs_usize bs = 32 \/ bs_usize bs = 64.
Proof. destruct bs; cbn; tauto. Qed.

Lemma wrap_pad_range bs c n : 4 <= wrap_pad (bs_usize bs) c n < bs_usize bs + 4.
Proof. unfold wrap_pad. destruct (bs_cases bs) as [E|[E|[E|E]]]; rewrite E; destruct c; destruct (_ <? 4) eqn:?; lia. Qed.
Lemma wrap_pad_aligned bs c n :
  exists k, 1 + n + wrap_pad (bs_usize bs) c n + (if c then 4 else 0) = k * bs_usize bs.
Proof.
  exists ((1 + n + wrap_pad (bs_usize bs) c n + (if c then 4 else 0)) / bs_usize bs).
  unfold wrap_pad. destruct (bs_cases bs) as [E|[E|[E|E]]]; rewrite E; destruct c; destruct (_ <? 4) eqn:?; lia.
Qed.

Lemma wrap_numbers {A} bs c n (k : N -> N -> res unit A) :
  (let total_len := N.ldiff (4 + 1 + n + bs_usize bs - 1) (bs_usize bs - 1) + N.b2n (negb c) * 4 in
   packet_len <- usize_sub total_len 4 ;;
   padding_len <- usize_sub packet_len n ;;
   padding_len <- usize_sub padding_len 1 ;;
   let '(padding_len, packet_len) :=
     if padding_len <? 4 then (padding_len + bs_usize bs, packet_len + bs_usize bs)
     else (padding_len, packet_len) in k padding_len packet_len)
  = k (wrap_pad (bs_usize bs) c n) (1 + n + wrap_pad (bs_usize bs) c n).
Proof.
  cbv zeta. rewrite ldiff_bs. unfold usize_sub, wrap_pad.
  destruct (bs_cases bs) as [E|[E|[E|E]]]; rewrite E; destruct c; cbn [negb N.b2n];
  repeat (match goal with |- context [bind (if ?a <=? ?b then _ else _) _] => replace (a <=? b) with true by lia; cbn [bind] end);
  match goal with |- (let '(_, _) := if ?a <? 4 then _ else _ in _) = k (if ?b <? 4 then _ else _) _ =>
    replace a with b by lia; destruct (b <? 4) eqn:?; f_equal; lia end.
Qed.

(** [wrap] in closed form. *)
Lemma wrap_eq buf bs c f rng hdr body pl rest : rng_ok rng ->
  buf = hdr ++ body -> len hdr = 5 -> fills f body pl rest ->
  let p := wrap_pad (bs_usize bs) c (len pl) in
  wrap buf bs c f rng =
  if (p <=? len rest) && (1 + len pl + p <? 2 ^ 32)
  then Ok (be32 (1 + len pl + p) ++ [n2b p] ++ pl ++ rng p ++ ndrop p rest) else Panic.
Proof.
  intros Hr -> Hh [Hf Hl] p. unfold wrap.
  rewrite idx_from_app by (symmetry; exact Hh). cbn [bind]. rewrite Hf. cbn [bind].
  rewrite ntake_app by (symmetry; exact Hh).
  etransitivity; [apply (wrap_numbers bs c (len pl))|]. fold p. cbv beta.
  pose proof (wrap_pad_range bs c (len pl)) as R. fold p in R.
  assert (P256 : p < 256) by (destruct (bs_cases bs) as [E|[E|[E|E]]]; rewrite E in R; lia).
  unfold u32_try_unwrap.
  assert (U : is_u32 (1 + len pl + p) = (1 + len pl + p <? 2 ^ 32)) by reflexivity.
  rewrite U. destruct (N.ltb_spec (1 + len pl + p) (2 ^ 32)) as [L|L];
    [|rewrite andb_false_r; reflexivity].
  rewrite andb_true_r. cbn [bind].
  unfold idx_to at 1. replace (4 <=? _) with true by (lens; lia). cbn [bind].
  assert (H4 : exists a b c' d e, hdr = [a; b; c'; d; e]).
  { destruct hdr as [|a [|b [|c' [|d [|e [|x t]]]]]]; rewrite ?len_cons, ?len_nil in Hh; try lia.
    repeat eexists. }
  destruct H4 as (a & b & c' & d & e & ->).
  assert (S1 : splice 0 (be32 (1 + len pl + p)) ([a; b; c'; d; e] ++ pl ++ rest)
             = be32 (1 + len pl + p) ++ e :: pl ++ rest).
  { rewrite splice_0 by (rewrite be32_len; lens; lia). rewrite be32_len. reflexivity. }
  rewrite S1. replace (p <? 256) with true by lia. cbn [bind].
  assert (I4 : forall t, @idx unit byte (be32 (1 + len pl + p) ++ e :: t) 4 = Ok e) by reflexivity.
  rewrite I4. cbn [bind].
  assert (S2 : splice 4 [n2b p] (be32 (1 + len pl + p) ++ e :: pl ++ rest)
             = (be32 (1 + len pl + p) ++ [n2b p] ++ pl) ++ rest).
  { rewrite splice_app by (rewrite be32_len; reflexivity).
    change (ndrop (len [n2b p]) (e :: pl ++ rest)) with (pl ++ rest).
    rewrite <- !app_assoc. reflexivity. }
  rewrite S2.
  assert (LH : 4 + 1 + len pl = len (be32 (1 + len pl + p) ++ [n2b p] ++ pl)) by (rewrite !len_app, be32_len, len_cons, len_nil; lia).
  rewrite idx_from_app by exact LH. cbn [bind]. unfold idx_to.
  destruct (p <=? len rest) eqn:Hp; [|reflexivity]. cbn [bind].
  rewrite splice_app by exact LH. rewrite Hr. rewrite <- !app_assoc. reflexivity.
Qed.

(** [wrap] with too short a buffer for the header, or a payload writer that panics. *)
Lemma wrap_short buf bs c f rng : len buf < 5 -> wrap buf bs c f rng = Panic.
Proof. intros H. unfold wrap, idx_from. replace (5 <=? len buf) with false by lia. reflexivity. Qed.

(** ** Accessors on a buffer that starts with a packet *)
Section acc.
  Context (l p : N) (d : bytes) (rest : bytes).
  Hypothesis (Hl : l < 2 ^ 32) (Hp : p < 256).
  Let data := be32 l ++ [n2b p] ++ d.

  Lemma packet_len_eq {E} : @packet_len E data = Ok l.
  Proof.
    unfold packet_len, data, idx_to. replace (4 <=? _) with true by (lens; rewrite be32_len; lia). cbn [bind].
    rewrite ntake_app by (rewrite be32_len; reflexivity). apply u32_of_slice_Ok.
    rewrite be32_len, be32_value by (apply u32_pow, Hl). auto.
  Qed.
  Lemma padding_len_eq {E} : @padding_len E data = Ok p.
  Proof. unfold padding_len, data. change (@idx E byte (be32 l ++ [n2b p] ++ d) 4) with (@Ok E byte (n2b p)). cbn [bind]. rewrite b2n_n2b_small by exact Hp. reflexivity. Qed.
End acc.

Lemma payload_eq {E} pl pad rest : len pad < 256 -> 1 + len pl + len pad < 2 ^ 32 ->
  @payload E (be32 (1 + len pl + len pad) ++ [n2b (len pad)] ++ pl ++ pad ++ rest) = Ok pl.
Proof.
  intros H1 H2. unfold payload, payload_len. rewrite packet_len_eq by lia. cbn [bind].
  rewrite padding_len_eq by lia. cbn [bind]. unfold usize_sub.
  replace (len pad <=? _) with true by lia. cbn [bind].
  replace (1 <=? _) with true by lia. cbn [bind]. unfold idx_range.
  replace ((5 <=? _) && _) with true by (lens; rewrite be32_len; lia).
  replace (be32 (1 + len pl + len pad) ++ [n2b (len pad)] ++ pl ++ pad ++ rest)
    with ((be32 (1 + len pl + len pad) ++ [n2b (len pad)]) ++ pl ++ pad ++ rest) by (rewrite <- app_assoc; reflexivity).
  rewrite ndrop_app by (rewrite len_app, be32_len; reflexivity).
  rewrite ntake_app by lia. reflexivity.
Qed.
Lemma as_raw_eq {E} l d rest : l < 2 ^ 32 -> len d = l ->
  @as_raw E (be32 l ++ d ++ rest) = Ok (be32 l ++ d).
Proof.
  intros H1 H2. unfold as_raw.
  assert (PL : @packet_len E (be32 l ++ d ++ rest) = Ok l).
  { unfold packet_len, idx_to. replace (4 <=? _) with true by (lens; rewrite be32_len; lia). cbn [bind].
    rewrite ntake_app by (rewrite be32_len; reflexivity). apply u32_of_slice_Ok.
    rewrite be32_len, be32_value by (apply u32_pow; exact H1). auto. }
  rewrite PL. cbn [bind]. unfold idx_to. replace (_ <=? _) with true by (lens; rewrite be32_len; lia).
  rewrite app_assoc, ntake_app by (rewrite len_app, be32_len; lia). reflexivity.
Qed.
