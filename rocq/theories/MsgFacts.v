(** The message parsers accept exactly the grammar of [Spec], and never panic. *)
From Coq Require Import Init.Byte Strings.Byte.
From Verif Require Export DataFacts MMessage MSession.
Open Scope res_scope.

(** * Grammar lemmas *)
Lemma reads_str s fs w : reads fs w -> reads (FStr s :: fs) ((be32 (len s) ++ s) ++ w).
Proof. intros H. exists (be32 (len s) ++ s), w. repeat split. exact H. Qed.
Lemma reads_u32 n fs w : reads fs w -> reads (FU32 n :: fs) (be32 n ++ w).
Proof. intros H. exists (be32 n), w. repeat split. exact H. Qed.
Lemma reads_bool b c fs w : (b = true <-> c <> x00) -> reads fs w -> reads (FBool b :: fs) ([c] ++ w).
Proof. intros Hb H. exists [c], w. repeat split; [exists c; split; [reflexivity|exact Hb]|exact H]. Qed.
Lemma reads_raw s fs w : reads fs w -> reads (FRaw s :: fs) (s ++ w).
Proof. intros H. exists s, w. repeat split. exact H. Qed.
Lemma reads_raw_end s : reads [FRaw s] s.
Proof. exists s, []. rewrite app_nil_r. repeat split. Qed.
Lemma reads_byte n b fs w : b2n b = n -> reads fs w -> reads (FByte n :: fs) (b :: w).
Proof. intros <- H. exists [b], w. cbn [reads1 enc1]. rewrite n2b_b2n. repeat split. exact H. Qed.

Lemma reads_str_inv s fs w : reads (FStr s :: fs) w -> exists r, w = (be32 (len s) ++ s) ++ r /\ reads fs r.
Proof. intros (w1 & w2 & -> & H1 & H2). cbn in H1. subst. eauto. Qed.
Lemma reads_u32_inv n fs w : reads (FU32 n :: fs) w -> exists r, w = be32 n ++ r /\ reads fs r.
Proof. intros (w1 & w2 & -> & H1 & H2). cbn in H1. subst. eauto. Qed.
Lemma reads_bool_inv b fs w : reads (FBool b :: fs) w ->
  exists c r, w = [c] ++ r /\ (b = true <-> c <> x00) /\ reads fs r.
Proof. intros (w1 & w2 & -> & (c & -> & Hc) & H2). eauto. Qed.
Lemma reads_raw_inv s fs w : reads (FRaw s :: fs) w -> exists r, w = s ++ r /\ reads fs r.
Proof. intros (w1 & w2 & -> & H1 & H2). cbn in H1. subst. eauto. Qed.
Lemma reads_byte_inv n fs w : n < 256 -> reads (FByte n :: fs) w ->
  exists b r, w = b :: r /\ b2n b = n /\ reads fs r.
Proof.
  intros Hn (w1 & w2 & -> & H1 & H2). cbn in H1. subst. exists (n2b n), w2.
  rewrite b2n_n2b_small by exact Hn. auto.
Qed.

Lemma bool_of b c : (b = true <-> c <> x00) <-> b = negb (b2n c =? 0).
Proof. rewrite <- b2n_zero. destruct b; lia. Qed.

Lemma len_1_inv {A} (l : list A) : len l = 1 -> exists a, l = [a].
Proof. destruct l as [|a [|? ?]]; [discriminate|eauto|]. rewrite !len_cons. lia. Qed.
Lemma idx_0 {E A} (a : A) l : @idx E A (a :: l) 0 = Ok a.
Proof. reflexivity. Qed.

(** * Proof automation *)

Ltac projs := cbn [dc_reason dc_description dc_language dbg_always_display dbg_message dbg_language
  ki_cookie ki_kex_algorithms ki_server_host_key_algorithms ki_enc_c2s ki_enc_s2c ki_mac_c2s ki_mac_s2c
  ki_comp_c2s ki_comp_s2c ki_lang_c2s ki_lang_s2c ki_first_kex_packet_follows
  kb_identifier kb_q key_name key_blob sb_r sb_s sig_name sig_blob er_key er_ephermal er_signature
  ua_user ua_service ua_method op_ty op_sender op_window op_max_packet
  oc_recipient oc_sender oc_window oc_max_packet oc_data rq_recipient rq_ty rq_want_reply rq_data] in *.

Ltac destr_pair a :=
  match type of a with
  | prod _ _ => destruct a as [? ?]
  | unit => destruct a
  | _ => idtac
  end.

(** Take the only [parser = Ok _] hypothesis apart. *)
Ltac pinv1 :=
  match goal with
  | H : bind _ _ = Ok _ |- _ =>
      apply bind_Ok in H;
      let a := fresh "a" in let H1 := fresh "H" in let H2 := fresh "H" in
      destruct H as (a & H1 & H2); cbn beta in H2;
      destr_pair a; cbn beta iota in H2
  | H : ok_or _ _ = Ok _ |- _ => apply ok_or_Ok in H
  | H : map_err _ _ = Ok _ |- _ => apply map_err_Ok in H
  | H : map_ok _ _ = Ok _ |- _ =>
      apply map_ok_Ok in H;
      let a := fresh "a" in let H1 := fresh "H" in
      destruct H as (a & H1 & H);
      destr_pair a; cbn beta iota in H;
      try (match type of H with ?x = _ => is_var x; subst x end)
  | H : (_, _) = (_, _) |- _ => apply pair_equal_spec in H; let H1 := fresh "H" in destruct H as [H1 H]; subst
  | H : then_ok _ _ _ = Ok _ |- _ =>
      apply then_ok_Ok in H; let H1 := fresh "H" in destruct H as [H1 H]
  | H : is_empty _ = true |- _ => apply is_empty_true in H; subst
  | H : parse_string _ = Ok (_, _) |- _ =>
      apply parse_string_Ok in H; let H1 := fresh "L" in destruct H as [H1 H]; subst
  | H : parse_uint32 _ = Ok (_, _) |- _ =>
      apply parse_uint32_Ok in H; let H1 := fresh "L" in destruct H as [H1 H]; subst
  | H : parse_bool _ = Ok (_, _) |- _ =>
      apply parse_bool_Ok in H; let c := fresh "c" in let H1 := fresh "Bc" in
      destruct H as (c & H & H1); subst
  | H : data_split _ _ = Ok (_, _) |- _ =>
      apply data_split_Ok in H; let H1 := fresh "L" in destruct H as [H1 H]; subst
  | H : from_utf8 _ _ = Ok _ |- _ =>
      apply from_utf8_Ok in H; let H1 := fresh "T" in destruct H as [H H1]; subst
  | H : AsciiStr_try_from _ = Ok _ |- _ =>
      apply AsciiStr_Ok in H; let H1 := fresh "A" in destruct H as [H H1]; subst
  | H : NameList_try_from _ = Ok _ |- _ =>
      apply NameList_Ok in H; let H1 := fresh "NL" in destruct H as [H H1]; subst
  | H : (if ?b then _ else _) = Ok _ |- _ =>
      let E := fresh "E" in destruct b eqn:E; [discriminate H|]
  | H : (if ?b then _ else _) = Ok _ |- _ =>
      let E := fresh "E" in destruct b eqn:E; [|discriminate H]
  | H : negb _ = false |- _ => apply negb_false_iff in H
  | H : bytes_eqb _ _ = true |- _ => apply bytes_eqb_true in H; subst
  | H : u32_of_slice _ = Ok _ |- _ =>
      apply u32_of_slice_Ok in H; let H1 := fresh "L" in destruct H as [H1 H]; subst
  | H : Ok _ = Ok _ |- _ => apply Ok_inj in H; subst
  | H : Ok _ = NameList_try_from _ |- _ => symmetry in H
  | H : Err _ = Ok _ |- _ => discriminate H
  | H : Panic = Ok _ |- _ => discriminate H
  end.
Ltac pinv := repeat pinv1.

Ltac rd1 :=
  match goal with
  | |- reads [FRaw ?s] ?s => apply reads_raw_end
  | |- reads (FStr _ :: _) _ => apply reads_str
  | |- reads (FU32 _ :: _) _ => apply reads_u32
  | |- reads (FBool _ :: _) _ => apply reads_bool; [assumption|]
  | |- reads (FRaw _ :: _) _ => apply reads_raw
  | |- reads [] [] => reflexivity
  end.
Ltac rd := repeat rd1.

Ltac rinv1 :=
  match goal with
  | H : reads (FStr _ :: _) _ |- _ =>
      apply reads_str_inv in H; let r := fresh "r" in destruct H as (r & -> & H)
  | H : reads (FU32 _ :: _) _ |- _ =>
      apply reads_u32_inv in H; let r := fresh "r" in destruct H as (r & -> & H)
  | H : reads (FBool _ :: _) _ |- _ =>
      apply reads_bool_inv in H; let c := fresh "c" in let r := fresh "r" in let B := fresh "Bc" in
      destruct H as (c & r & -> & B & H)
  | H : reads (FRaw _ :: _) _ |- _ =>
      apply reads_raw_inv in H; let r := fresh "r" in destruct H as (r & -> & H)
  | H : reads [] _ |- _ => cbn [reads] in H; subst
  end.
Ltac finv :=
  repeat match goal with
  | H : Forall fld_ok (_ :: _) |- _ => apply Forall_cons_iff in H; let H1 := fresh "F" in destruct H as [H1 H]; cbn [fld_ok] in H1
  | H : Forall fld_ok [] |- _ => clear H
  end.
Ltac rinv := finv; repeat rinv1.

(** Run a parser forward on a known encoding. *)
Lemma parse_bool_app b c r : (b = true <-> c <> x00) -> parse_bool ([c] ++ r) = Ok (b, r).
Proof. intros H. apply parse_bool_Ok. eauto. Qed.
Lemma from_utf8_text {E} (e : E) s : text_ok s -> from_utf8 e s = Ok s.
Proof. intros H. apply from_utf8_Ok. auto. Qed.
Lemma AsciiStr_text s : ascii_ok s -> AsciiStr_try_from s = Ok s.
Proof. intros H. apply AsciiStr_Ok. auto. Qed.
Lemma NameList_text s : name_list_ok s -> NameList_try_from s = Ok s.
Proof. intros H. apply NameList_Ok. auto. Qed.
Lemma data_split_app n x r : n = len x -> data_split (x ++ r) n = Ok (x, r).
Proof. intros ->. apply data_split_Ok. auto. Qed.

Ltac prun :=
  repeat first
  [ rewrite parse_string_app by assumption
  | rewrite parse_uint32_app by assumption
  | erewrite parse_bool_app by eassumption
  | rewrite from_utf8_text by assumption
  | rewrite AsciiStr_text by assumption
  | rewrite NameList_text by assumption
  | progress cbn [ok_or bind map_ok map_err then_ok is_empty] ].

Ltac fok := repeat (apply Forall_cons; [cbn [fld_ok]; auto|]); try apply Forall_nil.

(** * No panics *)
Ltac np1 :=
  match goal with
  | |- bind _ _ <> Panic =>
      apply bind_np; [|let a := fresh "a" in let H := fresh "H" in intros a H;
                       destr_pair a; cbn beta iota]
  | |- ok_or _ _ <> Panic => apply ok_or_np
  | |- map_err _ _ <> Panic => apply map_err_np
  | |- map_ok _ _ <> Panic => apply map_ok_np
  | |- then_ok _ _ _ <> Panic => apply then_ok_np
  | |- parse_string _ <> Panic => apply parse_string_np
  | |- parse_uint32 _ <> Panic => apply parse_uint32_np
  | |- parse_bool _ <> Panic => apply parse_bool_np
  | |- data_split _ _ <> Panic => apply data_split_np
  | |- from_utf8 _ _ <> Panic => apply from_utf8_np
  | |- AsciiStr_try_from _ <> Panic => apply AsciiStr_np
  | |- NameList_try_from _ <> Panic => apply NameList_np
  | |- get_to _ _ _ <> Panic => apply get_to_np
  | |- Ok _ <> Panic => discriminate
  | |- Err _ <> Panic => discriminate
  end.
Ltac np := repeat np1.

(** * message/mod.rs *)

(** Facts about the four-byte prefixes the code slices by hand. *)
Lemma u32_at_front n r : n < 2 ^ 32 -> @u32_of_slice unit (ntake 4 (be32 n ++ r)) = Ok n.
Proof.
  intros L. rewrite ntake_app by (rewrite be32_len; reflexivity). apply u32_of_slice_Ok.
  rewrite be32_len, be32_value by (apply u32_pow; exact L). auto.
Qed.

Lemma Disconnect_parse_Ok d o : Disconnect_parse d = Ok o <->
  Forall fld_ok [FU32 (dc_reason o); FStr (dc_description o); FStr (dc_language o)] /\
  reads [FU32 (dc_reason o); FStr (dc_description o); FStr (dc_language o)] d.
Proof.
  unfold Disconnect_parse. split.
  - intros H. apply bind_Ok in H as (x & Hx & H). apply get_to_Ok in Hx as (Lx & t & ->).
    rewrite idx_from_app in H by (symmetry; exact Lx). cbn [bind] in H. pinv. cbn [dc_reason dc_description dc_language].
    split; [fok; apply u32_pow, be_value_u32, Lx|].
    rewrite <- (be32_of_value x) at 2 by exact Lx. rd.
  - destruct o as [n a b]; cbn [dc_reason dc_description dc_language]. intros [F H]. rinv.
    unfold get_to. replace (4 <=? _) with true by (lens; rewrite be32_len; lia). cbn [bind].
    rewrite idx_from_app by (rewrite be32_len; reflexivity). cbn [bind]. prun. cbn [negb].
    rewrite ntake_app by (rewrite be32_len; reflexivity).
    unfold u32_of_slice. rewrite be32_len, be32_value by (apply u32_pow; assumption). reflexivity.
Qed.
Lemma Disconnect_parse_np d : Disconnect_parse d <> Panic.
Proof.
  unfold Disconnect_parse. apply bind_np; [np|]. intros x Hx. apply get_to_Ok in Hx as (Lx & t & ->).
  rewrite idx_from_app by (symmetry; exact Lx). cbn [bind]. np.
  destruct (is_empty _); cbn [negb]; [|discriminate].
  unfold u32_of_slice. rewrite Lx. discriminate.
Qed.

Lemma Ignore_parse_Ok d s : Ignore_parse d = Ok s <-> Forall fld_ok [FStr s] /\ reads [FStr s] d.
Proof.
  unfold Ignore_parse. split; intros H.
  - pinv. split; [fok|rd].
  - destruct H as [F H]. rinv. prun. reflexivity.
Qed.
Lemma Ignore_parse_np d : Ignore_parse d <> Panic.
Proof. unfold Ignore_parse. np. Qed.

Lemma Unimplemented_parse_Ok d n : Unimplemented_parse d = Ok n <-> Forall fld_ok [FU32 n] /\ reads [FU32 n] d.
Proof.
  unfold Unimplemented_parse. split; intros H.
  - pinv. split; [fok|rd].
  - destruct H as [F H]. rinv. prun. reflexivity.
Qed.
Lemma Unimplemented_parse_np d : Unimplemented_parse d <> Panic.
Proof. unfold Unimplemented_parse. np. Qed.

Lemma Debug_parse_Ok d o : Debug_parse d = Ok o <->
  (Forall fld_ok [FBool (dbg_always_display o); FStr (dbg_message o); FStr (dbg_language o)] /\
   text_ok (dbg_message o)) /\
  reads [FBool (dbg_always_display o); FStr (dbg_message o); FStr (dbg_language o)] d.
Proof.
  unfold Debug_parse. split; intros H.
  - pinv. projs. split; [split; [fok|assumption]|rd].
  - destruct o as [b m l]; projs. destruct H as [[F T] H]. rinv. prun. reflexivity.
Qed.
Lemma Debug_parse_np d : Debug_parse d <> Panic.
Proof. unfold Debug_parse. np. Qed.

(** * service.rs *)
Lemma Service_parse_Ok d s : Service_parse d = Ok s <-> Forall fld_ok [FStr s] /\ reads [FStr s] d.
Proof.
  unfold Service_parse. split; intros H.
  - pinv. split; [fok|rd].
  - destruct H as [F H]. rinv. prun. reflexivity.
Qed.
Lemma Service_parse_np d : Service_parse d <> Panic.
Proof. unfold Service_parse. np. destruct (is_empty _); discriminate. Qed.

(** * key_exchange/mod.rs *)
Definition kexinit_fields (k : KeyExchangeInit) : list fld :=
  [FRaw (ki_cookie k);
   FStr (ki_kex_algorithms k); FStr (ki_server_host_key_algorithms k);
   FStr (ki_enc_c2s k); FStr (ki_enc_s2c k);
   FStr (ki_mac_c2s k); FStr (ki_mac_s2c k);
   FStr (ki_comp_c2s k); FStr (ki_comp_s2c k);
   FStr (ki_lang_c2s k); FStr (ki_lang_s2c k);
   FBool (ki_first_kex_packet_follows k); FU32 0].

Lemma ki_name_list_Ok d l r : ki_name_list d = Ok (l, r) <->
  name_list_ok l /\ len l < 2 ^ 32 /\ d = (be32 (len l) ++ l) ++ r.
Proof.
  unfold ki_name_list, name_list. split.
  - intros H. pinv. auto.
  - intros (N & L & ->). rewrite parse_string_app by exact L. cbn [map_ok ok_or bind].
    rewrite NameList_text by exact N. reflexivity.
Qed.
Lemma ki_name_list_app l r : name_list_ok l -> len l < 2 ^ 32 ->
  ki_name_list ((be32 (len l) ++ l) ++ r) = Ok (l, r).
Proof. intros N L. apply ki_name_list_Ok. auto. Qed.
Lemma ki_name_list_np d : ki_name_list d <> Panic.
Proof.
  unfold ki_name_list, name_list. np.
  apply ok_or_Ok, map_ok_Ok in H as ([x y] & _ & [= -> ->]). np.
Qed.

Lemma KexInit_parse_Ok d k : KexInit_parse d = Ok k <->
  (Forall fld_ok (kexinit_fields k) /\ len (ki_cookie k) = 16 /\
   Forall name_list_ok
        [ki_kex_algorithms k; ki_server_host_key_algorithms k; ki_enc_c2s k; ki_enc_s2c k;
         ki_mac_c2s k; ki_mac_s2c k; ki_comp_c2s k; ki_comp_s2c k; ki_lang_c2s k; ki_lang_s2c k]) /\
  reads (kexinit_fields k) d.
Proof.
  unfold KexInit_parse, kexinit_fields. split; intros H.
  - repeat first [pinv1 | match goal with
      | H : ki_name_list _ = Ok (_, _) |- _ => 
        apply ki_name_list_Ok in H; let N := fresh "N" in let L := fresh "L" in destruct H as (N & L & ->) end].
    match goal with L : len ?f = 1 |- _ => apply len_1_inv in L as (fo & ->) end.
    match goal with H : idx _ _ = Ok _ |- _ => rewrite idx_0 in H end. pinv.
    projs. split; [split; [fok; reflexivity|split; [assumption|repeat (constructor; try assumption)]]|].
    rd. apply reads_bool; [apply bool_of; reflexivity|].
    change [x00; x00; x00; x00] with (be32 0). rd.
  - destruct k as [ck a1 a2 a3 a4 a5 a6 a7 a8 a9 a10 fo]; projs.
    destruct H as [(F & C & NL) H]. finv. 
    repeat match goal with
    | H : Forall name_list_ok (_ :: _) |- _ => apply Forall_cons_iff in H; let H1 := fresh "N" in destruct H as [H1 H] end.
    rinv.
    rewrite data_split_app by (symmetry; exact C). cbn [ok_or bind].
    do 10 (rewrite ki_name_list_app by assumption; cbn [ok_or bind]).
    rewrite data_split_app by reflexivity. cbn [ok_or bind].
    rewrite data_split_app by reflexivity. cbn [ok_or bind].
    change (bytes_eqb (be32 0) [x00; x00; x00; x00]) with true. cbn [negb is_empty].
    rewrite idx_0. cbn [bind]. rewrite C. change (negb (16 =? 16)) with false. cbn beta iota.
    match goal with Hb : fo = true <-> _ |- _ => apply bool_of in Hb; rewrite <- Hb end. reflexivity.
Qed.
Lemma KexInit_parse_np d : KexInit_parse d <> Panic.
Proof.
  unfold KexInit_parse. repeat first [np1 | match goal with |- ki_name_list _ <> Panic => apply ki_name_list_np end].
  destruct (negb (bytes_eqb _ _)); [discriminate|].
  destruct (negb (is_empty _)); [discriminate|].
  repeat match goal with H : ok_or _ _ = Ok _ |- _ => apply ok_or_Ok in H end.
  repeat match goal with H : data_split _ _ = Ok _ |- _ => apply data_split_Ok in H; destruct H as [? _] end.
  match goal with L : len ?f = 1 |- _ => apply len_1_inv in L as (fo & ->) end.
  rewrite idx_0. cbn [bind].
  match goal with L : len ?f = 16 |- _ => rewrite L end. discriminate.
Qed.

Lemma NewKeys_parse_Ok d u : NewKeys_parse d = Ok u <-> reads [] d.
Proof.
  unfold NewKeys_parse. destruct u. rewrite then_ok_Ok. cbn [reads]. split.
  - intros [H _]. apply len_zero. lia.
  - intros ->. auto.
Qed.
Lemma NewKeys_parse_np d : NewKeys_parse d <> Panic.
Proof. apply then_ok_np. Qed.

Lemma EcdhInit_parse_Ok d s : EcdhInit_parse d = Ok s <-> Forall fld_ok [FStr s] /\ reads [FStr s] d.
Proof.
  unfold EcdhInit_parse. split; intros H.
  - pinv. split; [fok|rd].
  - destruct H as [F H]. rinv. prun. reflexivity.
Qed.
Lemma EcdhInit_parse_np d : EcdhInit_parse d <> Panic.
Proof. unfold EcdhInit_parse. np. Qed.

(** ecdh.rs:78-84: [Key::parse] rejects everything, hence so does the reply. *)
Lemma Key_parse_never d k : Key_parse d <> Ok k.
Proof.
  unfold Key_parse. intros H. pinv. unfold KeyBlob_parse in *. pinv.
  match goal with H : [] = _ |- _ => apply (f_equal len) in H; rewrite !len_app, be32_len, len_nil in H; lia end.
Qed.
Lemma EcdhReply_parse_never d r : EcdhReply_parse d <> Ok r.
Proof. unfold EcdhReply_parse. intros H. pinv. exfalso. eapply Key_parse_never; eassumption. Qed.
Lemma EcdhReply_parse_np d : EcdhReply_parse d <> Panic.
Proof.
  unfold EcdhReply_parse, Key_parse, KeyBlob_parse, Signature_parse, SignatureBlob_parse. np.
Qed.

(** * userauth.rs *)
Definition method_wf (m : Method) : Prop :=
  match m with
  | M_HostBased _ _ h u _ => ascii_ok h /\ text_ok u
  | M_Other m _ => ~ In m known_methods
  | _ => True
  end.
Definition uarequest_fields (r : UARequest) : list fld :=
  [FStr (ua_user r); FStr (ua_service r)] ++ method_fields (ua_method r).

Lemma ur_parse_Ok d s r : ur_parse d = Ok (s, r) <-> len s < 2 ^ 32 /\ d = (be32 (len s) ++ s) ++ r.
Proof. unfold ur_parse. rewrite ok_or_Ok. apply parse_string_Ok. Qed.
Lemma ur_parse_app s r : len s < 2 ^ 32 -> ur_parse ((be32 (len s) ++ s) ++ r) = Ok (s, r).
Proof. intros L. apply ur_parse_Ok. auto. Qed.
Lemma ur_empty_Ok d u : ur_empty d = Ok u <-> d = [].
Proof. unfold ur_empty. rewrite then_ok_Ok, is_empty_true. destruct u. tauto. Qed.
Lemma ur_split_first_Ok d b r : ur_split_first d = Ok (b, r) <-> d = [b] ++ r.
Proof. destruct d; cbn; split; intros H; try discriminate; injection H as <- <-; reflexivity. Qed.

Ltac upinv := repeat first [pinv1 | match goal with
  | H : ur_parse _ = Ok (_, _) |- _ =>
    apply ur_parse_Ok in H; let L := fresh "L" in destruct H as [L H]; subst
  | H : ur_empty _ = Ok _ |- _ => apply ur_empty_Ok in H; subst
  | H : ur_split_first _ = Ok (_, _) |- _ => apply ur_split_first_Ok in H; subst
  end].
Ltac uprun := repeat first [rewrite ur_parse_app by assumption
  | progress cbn [bind map_ok ur_empty then_ok is_empty ur_split_first app]
  | rewrite from_utf8_text by assumption
  | rewrite AsciiStr_text by assumption; cbn [map_err] ].

(** Decide comparisons of literal byte strings. *)
Ltac beval :=
  repeat match goal with |- context [bytes_eqb ?a ?b] =>
    let v := eval vm_compute in (bytes_eqb a b) in
    match v with true => idtac | false => idtac end;
    change (bytes_eqb a b) with v end; cbn beta iota.

(** The method-specific part: what follows the method name. *)
Lemma Method_parse_Ok name d m : len name < 2 ^ 32 ->
  (Method_parse name d = Ok m <->
   (Forall fld_ok (method_fields m) /\ method_wf m) /\
   reads (method_fields m) ((be32 (len name) ++ name) ++ d)).
Proof.
  intros LN. split.
  - intros H. unfold Method_parse in H.
    destruct (bytes_eqb name (B "none")) eqn:E1.
    { upinv. split; [split; [fok|exact I]|]. cbn [method_fields]. rd. }
    destruct (bytes_eqb name (B "publickey")) eqn:E2.
    { apply bind_Ok in H as ([c r] & Hc & H). apply ur_split_first_Ok in Hc as ->. upinv. cbn beta iota in H.
      destruct (b2n c =? 0) eqn:E3; upinv; cbn [method_fields method_wf].
      - split; [split; [fok|exact I]|]. rd. apply reads_bool; [apply bool_of; rewrite E3; reflexivity|]. rd.
      - split; [split; [fok|exact I]|]. rd. apply reads_bool; [apply bool_of; rewrite E3; reflexivity|]. rd. }
    destruct (bytes_eqb name (B "password")) eqn:E3.
    { apply bind_Ok in H as ([c r] & Hc & H). apply ur_split_first_Ok in Hc as ->. upinv. cbn beta iota in H.
      destruct (b2n c =? 0) eqn:E4; upinv; cbn [method_fields method_wf].
      - split; [split; [fok|exact I]|]. rd. apply reads_bool; [apply bool_of; rewrite E4; reflexivity|]. rd.
      - split; [split; [fok|exact I]|]. rd. apply reads_bool; [apply bool_of; rewrite E4; reflexivity|]. rd. }
    destruct (bytes_eqb name (B "hostbased")) eqn:E4.
    { upinv. cbn [method_fields method_wf]. split; [split; [fok|auto]|]. rd. }
    upinv. cbn [method_fields method_wf]. split; [split; [fok|]|].
    + apply bytes_eqb_false in E1, E2, E3, E4. unfold known_methods. cbn [In]. intuition congruence.
    + apply reads_str. apply reads_raw_end.
  - intros [[F W] H]. unfold Method_parse.
    assert (X : forall s, Forall fld_ok [FStr s] -> forall fs, reads (FStr s :: fs) ((be32 (len name) ++ name) ++ d) ->
                s = name /\ reads fs d).
    { intros s Fs fs Hs. finv. apply reads_str_inv in Hs as (r & E & Hr).
      pose proof (parse_string_app name d LN) as P1. rewrite E in P1.
      rewrite parse_string_app in P1 by assumption. injection P1 as -> ->. auto. }
    destruct m; cbn [method_fields method_wf] in *; finv;
      (apply X in H; [|fok]); destruct H as [<- H]; rinv.
    + reflexivity.
    + beval. cbn [ur_split_first app bind]. apply bool_of in Bc. 
      assert (Z : b2n c = 0) by lia. rewrite Z. cbn [N.eqb]. uprun. reflexivity.
    + beval. cbn [ur_split_first app bind]. apply bool_of in Bc.
      assert (Z : (b2n c =? 0) = false) by lia. rewrite Z. uprun. reflexivity.
    + beval. cbn [ur_split_first app bind]. apply bool_of in Bc.
      assert (Z : b2n c = 0) by lia. rewrite Z. cbn [N.eqb]. uprun. reflexivity.
    + beval. cbn [ur_split_first app bind]. apply bool_of in Bc.
      assert (Z : (b2n c =? 0) = false) by lia. rewrite Z. uprun. reflexivity.
    + destruct W as [W1 W2]. beval. uprun. reflexivity.
    + rewrite app_nil_r. unfold known_methods in W. cbn [In] in W.
      rewrite !(proj2 (bytes_eqb_false _ _)) by (intros ->; tauto). reflexivity.
Qed.
Lemma Method_parse_np name d : Method_parse name d <> Panic.
Proof.
  unfold Method_parse, ur_empty.
  assert (U : forall d, ur_parse d <> Panic) by (intros; unfold ur_parse; np).
  assert (S : forall d, ur_split_first d <> Panic) by (intros []; discriminate).
  repeat first [np1 | apply U | apply S | match goal with |- (if ?b then _ else _) <> Panic => destruct b end].
Qed.

Lemma UARequest_parse_Ok d r : UARequest_parse d = Ok r <->
  (Forall fld_ok (uarequest_fields r) /\ method_wf (ua_method r)) /\ reads (uarequest_fields r) d.
Proof.
  unfold UARequest_parse, uarequest_fields. cbn [app]. split.
  - intros H. upinv. projs. match goal with H : Method_parse _ _ = Ok _ |- _ => apply Method_parse_Ok in H as [[F W] R]; [|assumption] end.
    split; [split; [repeat constructor; assumption|exact W]|]. rd. exact R.
  - destruct r as [u s m]; projs. intros [[F W] H]. finv. rinv1. rinv1. uprun.
    assert (exists name d', r0 = (be32 (len name) ++ name) ++ d' /\ len name < 2 ^ 32) as (name & d' & -> & LN).
    { destruct m; cbn [method_fields] in *; finv; apply reads_str_inv in H as (x & -> & _);
        do 2 eexists; (split; [reflexivity|assumption]). }
    uprun. rewrite (proj2 (Method_parse_Ok name d' m LN)); [reflexivity|]. auto.
Qed.
Lemma UARequest_parse_np d : UARequest_parse d <> Panic.
Proof.
  unfold UARequest_parse, ur_parse. repeat first [np1|apply Method_parse_np].
Qed.

Lemma UAFailure_parse_Ok d l p : UAFailure_parse d = Ok (l, p) <->
  (Forall fld_ok [FStr l; FBool p] /\ name_list_ok l) /\ reads [FStr l; FBool p] d.
Proof.
  unfold UAFailure_parse. split.
  - intros H. pinv. 
    match goal with H : match ?x with _ => _ end = Ok _ |- _ => destruct x as [|c [|? ?]]; try discriminate H end. 
    pinv. split; [split; [fok|assumption]|]. rd. change [c] with ([c] ++ []).
    apply reads_bool; [apply bool_of; reflexivity|]. rd.
  - intros [[F N] H]. rinv. prun. cbn [app]. prun. apply bool_of in Bc. rewrite <- Bc. reflexivity.
Qed.
Lemma UAFailure_parse_np d : UAFailure_parse d <> Panic.
Proof. unfold UAFailure_parse. np. destruct l0 as [|? [|? ?]]; np. Qed.

Lemma UASuccess_parse_Ok d u : UASuccess_parse d = Ok u <-> reads [] d.
Proof. unfold UASuccess_parse. destruct u. rewrite then_ok_Ok, is_empty_true. cbn [reads]. tauto. Qed.
Lemma UABanner_parse_Ok d m l : UABanner_parse d = Ok (m, l) <->
  Forall fld_ok [FStr m; FStr l] /\ reads [FStr m; FStr l] d.
Proof.
  unfold UABanner_parse. split; intros H.
  - pinv. split; [fok|rd].
  - destruct H as [F H]. rinv. prun. reflexivity.
Qed.
Lemma UAPkOk_parse_Ok d m l : UAPkOk_parse d = Ok (m, l) <->
  Forall fld_ok [FStr m; FStr l] /\ reads [FStr m; FStr l] d.
Proof.
  unfold UAPkOk_parse. split; intros H.
  - pinv. split; [fok|rd].
  - destruct H as [F H]. rinv. prun. reflexivity.
Qed.

(** * channel/mod.rs *)
Lemma u32_front {E} n r : n < 2 ^ 32 -> @u32_of_slice E (ntake 4 (be32 n ++ r)) = Ok n.
Proof.
  intros L. rewrite ntake_app by (rewrite be32_len; reflexivity). apply u32_of_slice_Ok.
  rewrite be32_len, be32_value by (apply u32_pow; exact L). auto.
Qed.
(** A string of at least four bytes starts with some [be32]. *)
Lemma be32_front d : 4 <= len d -> exists n r, n < 2 ^ 32 /\ d = be32 n ++ r.
Proof.
  intros H. exists (be_value (ntake 4 d)), (ndrop 4 d).
  assert (L : len (ntake 4 d) = 4) by (lens; lia).
  split; [apply u32_pow, be_value_u32, L|]. rewrite be32_of_value by exact L. symmetry; apply ntake_ndrop.
Qed.
Lemma ndrop_be32 k n r : 4 <= k -> ndrop k (be32 n ++ r) = ndrop (k - 4) r.
Proof. intros H. rewrite ndrop_app_ge by (rewrite be32_len; exact H). rewrite be32_len. reflexivity. Qed.

Lemma ndrop_be32_4 n r : ndrop 4 (be32 n ++ r) = r.
Proof. apply ndrop_app. rewrite be32_len. reflexivity. Qed.
Lemma ndrop_be32_8 n r : ndrop 8 (be32 n ++ r) = ndrop 4 r.
Proof. apply ndrop_be32. lia. Qed.
Lemma ndrop_be32_12 n r : ndrop 12 (be32 n ++ r) = ndrop 8 r.
Proof. apply ndrop_be32. lia. Qed.
Lemma ndrop_be32_16 n r : ndrop 16 (be32 n ++ r) = ndrop 12 r.
Proof. apply ndrop_be32. lia. Qed.

Lemma ChOpen_parse_Ok d o : ChOpen_parse d = Ok o <->
  let fs := [FStr (op_ty o); FU32 (op_sender o); FU32 (op_window o); FU32 (op_max_packet o)] in
  Forall fld_ok fs /\ reads fs d.
Proof.
  cbv zeta. unfold ChOpen_parse.
  assert (X : forall s a b c, a < 2 ^ 32 -> b < 2 ^ 32 -> c < 2 ^ 32 -> 
    (if len (be32 a ++ be32 b ++ be32 c) <? 12 then Err CE_Truncated
     else if 12 <? len (be32 a ++ be32 b ++ be32 c) then Err CE_Unread
     else
      x <- idx_to (be32 a ++ be32 b ++ be32 c) 4 ;; x <- u32_of_slice x ;;
      y <- idx_range (be32 a ++ be32 b ++ be32 c) 4 8 ;; y <- u32_of_slice y ;;
      z <- idx_from (be32 a ++ be32 b ++ be32 c) 8 ;; z <- u32_of_slice z ;;
      Ok {| op_ty := s; op_sender := x; op_window := y; op_max_packet := z |})
    = Ok {| op_ty := s; op_sender := a; op_window := b; op_max_packet := c |}).
  { intros s a b c La Lb Lc. unfold idx_to, idx_range, idx_from.
    rewrite !len_app, !be32_len. change (4 + (4 + 4)) with 12. cbn [bind].
    change (12 <? 12) with false. change (4 <=? 12) with true. change ((4 <=? 8) && (8 <=? 12)) with true.
    change (8 <=? 12) with true. cbn [bind]. change (8 - 4) with 4.
    rewrite ?ndrop_be32_8, ?ndrop_be32_4.
    rewrite u32_front by exact La. cbn [bind]. rewrite u32_front by exact Lb. cbn [bind].
    replace (be32 c) with (ntake 4 (be32 c ++ [])) by (apply ntake_app; rewrite be32_len; reflexivity).
    rewrite u32_front by exact Lc. reflexivity. }
  split.
  - intros H. apply bind_Ok in H as ([s r] & Hs & H). apply ok_or_Ok, parse_string_Ok in Hs as [Ls ->].
    destruct (len r <? 12) eqn:L1; [discriminate|]. destruct (12 <? len r) eqn:L2; [discriminate|].
    destruct (be32_front r) as (a & r1 & La & ->); [lia|]. rewrite len_app, be32_len in *.
    destruct (be32_front r1) as (b & r2 & Lb & ->); [lia|]. rewrite len_app, be32_len in *.
    destruct (be32_front r2) as (c & r3 & Lc & ->); [lia|]. rewrite len_app, be32_len in *.
    assert (r3 = []) by (apply len_zero; lia). subst r3. rewrite app_nil_r in H.
    specialize (X s a b c La Lb Lc). rewrite !len_app, !be32_len in X. 
    change (4 + (4 + 4) <? 12) with false in X. change (12 <? 4 + (4 + 4)) with false in X. cbn iota in X.
    rewrite X in H. pinv. projs. split; [fok|]. rd.
  - destruct o as [s a b c]; projs. intros [F H]. rinv. prun. rewrite app_nil_r. apply X; assumption.
Qed.
Lemma ChOpen_parse_np d : ChOpen_parse d <> Panic.
Proof.
  unfold ChOpen_parse. np. destruct (N.ltb_spec (len l0) 12) as [|H1]; [discriminate|].
  destruct (N.ltb_spec 12 (len l0)) as [|H2]; [discriminate|]. assert (L : len l0 = 12) by lia.
  unfold idx_to, idx_range, idx_from, u32_of_slice. rewrite L.
  change (4 <=? 12) with true. change ((4 <=? 8) && (8 <=? 12)) with true. change (8 <=? 12) with true. cbn [bind].
  rewrite !len_ntake, !len_ndrop, L. discriminate.
Qed.

Lemma ChOpenConfirmation_parse_Ok d o : ChOpenConfirmation_parse d = Ok o <->
  let fs := [FU32 (oc_recipient o); FU32 (oc_sender o); FU32 (oc_window o); FU32 (oc_max_packet o); FRaw (oc_data o)] in
  Forall fld_ok fs /\ reads fs d.
Proof.
  cbv zeta. 
  assert (X : forall a b c e r, a < 2 ^ 32 -> b < 2 ^ 32 -> c < 2 ^ 32 -> e < 2 ^ 32 ->
    ChOpenConfirmation_parse (be32 a ++ be32 b ++ be32 c ++ be32 e ++ r)
    = Ok {| oc_recipient := a; oc_sender := b; oc_window := c; oc_max_packet := e; oc_data := r |}).
  { intros a b c e r La Lb Lc Le. unfold ChOpenConfirmation_parse, idx_to, idx_range, idx_from.
    rewrite !len_app, !be32_len.
    replace (_ <? 16) with false by lia.
    replace (4 <=? _) with true by lia. 
    replace ((4 <=? 8) && (8 <=? _)) with true by lia.
    replace ((8 <=? 12) && (12 <=? _)) with true by lia.
    replace ((12 <=? 16) && (16 <=? _)) with true by lia.
    replace (16 <=? _) with true by lia. cbn [bind].
    change (8 - 4) with 4. change (12 - 8) with 4. change (16 - 12) with 4.
    repeat rewrite ?ndrop_be32_16, ?ndrop_be32_12, ?ndrop_be32_8, ?ndrop_be32_4.
    repeat (rewrite u32_front by assumption; cbn [bind]). reflexivity. }
  split.
  - intros H. pose proof H as H0. unfold ChOpenConfirmation_parse in H0.
    destruct (len d <? 16) eqn:L1; [discriminate|]. clear H0.
    destruct (be32_front d) as (a & r1 & La & ->); [lia|]. rewrite len_app, be32_len in *.
    destruct (be32_front r1) as (b & r2 & Lb & ->); [lia|]. rewrite len_app, be32_len in *.
    destruct (be32_front r2) as (c & r3 & Lc & ->); [lia|]. rewrite len_app, be32_len in *.
    destruct (be32_front r3) as (e & r4 & Le & ->); [lia|].
    rewrite X in H by assumption. pinv. projs. split; [fok|]. rd.
  - destruct o as [a b c e r]; projs. intros [F H]. rinv. rewrite app_nil_r. apply X; assumption.
Qed.
Lemma ChOpenConfirmation_parse_np d : ChOpenConfirmation_parse d <> Panic.
Proof.
  unfold ChOpenConfirmation_parse. destruct (N.ltb_spec (len d) 16) as [|H1]; [discriminate|].
  unfold idx_to, idx_range, idx_from, u32_of_slice.
  replace (4 <=? len d) with true by lia. 
  replace ((4 <=? 8) && (8 <=? len d)) with true by lia.
  replace ((8 <=? 12) && (12 <=? len d)) with true by lia.
  replace ((12 <=? 16) && (16 <=? len d)) with true by lia.
  replace (16 <=? len d) with true by lia. cbn [bind].
  rewrite !len_ntake, !len_ndrop.
  replace (N.min 4 (len d) =? 4) with true by lia. cbn [bind].
  replace (N.min (8 - 4) (len d - 4) =? 4) with true by lia. cbn [bind].
  replace (N.min (12 - 8) (len d - 8) =? 4) with true by lia. cbn [bind].
  replace (N.min (16 - 12) (len d - 12) =? 4) with true by lia. discriminate.
Qed.

Definition reason_wf (r : OpenFailureReason) : Prop :=
  match r with OtherReason n => ~ In n [1; 2; 3; 4] | _ => True end.
Lemma reason_of_code_spec n r : reason_of_code n = r <-> reason_code r = n /\ reason_wf r.
Proof.
  unfold reason_of_code.
  destruct (N.eqb_spec n 1) as [->|H1]; [split; [intros <-; cbn; auto|]|].
  { intros [E W]; destruct r; cbn in *; try discriminate; try reflexivity. subst; tauto. }
  destruct (N.eqb_spec n 2) as [->|H2]; [split; [intros <-; cbn; auto|]|].
  { intros [E W]; destruct r; cbn in *; try discriminate; try reflexivity. subst; tauto. }
  destruct (N.eqb_spec n 3) as [->|H3]; [split; [intros <-; cbn; auto|]|].
  { intros [E W]; destruct r; cbn in *; try discriminate; try reflexivity. subst; tauto. }
  destruct (N.eqb_spec n 4) as [->|H4]; [split; [intros <-; cbn; auto|]|].
  { intros [E W]; destruct r; cbn in *; try discriminate; try reflexivity. subst; tauto. }
  split.
  - intros <-; cbn. split; [reflexivity|]. intros [?|[?|[?|[?|[]]]]]; congruence.
  - intros [E W]; destruct r; cbn in *; congruence.
Qed.

Lemma ChOpenFailure_parse_Ok d m : ChOpenFailure_parse d = Ok m <->
  exists c r t l, m = C_OpenFailure c r t l /\
  let fs := [FU32 c; FU32 (reason_code r); FStr t; FStr l] in
  (Forall fld_ok fs /\ text_ok t /\ reason_wf r) /\ reads fs d.
Proof.
  cbv zeta. unfold ChOpenFailure_parse. split.
  - intros H. pinv. do 4 eexists. split; [reflexivity|].
    match goal with |- context [reason_of_code ?n] => destruct (proj1 (reason_of_code_spec n _) eq_refl) as [E W] end.
    rewrite E. split; [split; [fok|auto]|]. rd.
  - intros (c & r & t & l & -> & (F & T & W) & H). rinv. prun. 
    rewrite (proj2 (reason_of_code_spec _ r)) by auto. reflexivity.
Qed.
Lemma ChOpenFailure_parse_np d : ChOpenFailure_parse d <> Panic.
Proof. unfold ChOpenFailure_parse. np. Qed.

Lemma ChWindowAdjust_parse_Ok d m : ChWindowAdjust_parse d = Ok m <->
  exists c n, m = C_WindowAdjust c n /\ Forall fld_ok [FU32 c; FU32 n] /\ reads [FU32 c; FU32 n] d.
Proof.
  unfold ChWindowAdjust_parse. split.
  - intros H. pinv. do 2 eexists. split; [reflexivity|]. split; [fok|rd].
  - intros (c & n & -> & F & H). rinv. prun. reflexivity.
Qed.
Lemma ChWindowAdjust_parse_np d : ChWindowAdjust_parse d <> Panic.
Proof. unfold ChWindowAdjust_parse. np. Qed.

Lemma ChData_parse_Ok d m : ChData_parse d = Ok m <->
  exists c n, m = C_Data c n /\ Forall fld_ok [FU32 c; FStr n] /\ reads [FU32 c; FStr n] d.
Proof.
  unfold ChData_parse. split.
  - intros H. pinv. do 2 eexists. split; [reflexivity|]. split; [fok|rd].
  - intros (c & n & -> & F & H). rinv. prun. reflexivity.
Qed.
Lemma ChData_parse_np d : ChData_parse d <> Panic.
Proof. unfold ChData_parse. np. Qed.

Lemma ChExtendedData_parse_Ok d m : ChExtendedData_parse d = Ok m <->
  exists c t n, m = C_ExtendedData c t n /\ Forall fld_ok [FU32 c; FU32 t; FStr n] /\ reads [FU32 c; FU32 t; FStr n] d.
Proof.
  unfold ChExtendedData_parse. split.
  - intros H. pinv. do 3 eexists. split; [reflexivity|]. split; [fok|rd].
  - intros (c & t & n & -> & F & H). rinv. prun. reflexivity.
Qed.
Lemma ChExtendedData_parse_np d : ChExtendedData_parse d <> Panic.
Proof. unfold ChExtendedData_parse. np. Qed.

Lemma ChRequest_parse_eq d : ChRequest_parse d =
  ('(c, d) <- ok_or (parse_uint32 d) CE_Truncated ;;
   '(ty, d) <- ok_or (parse_string d) CE_Truncated ;;
   '(w, d) <- ok_or (parse_bool d) CE_Truncated ;;
   Ok {| rq_recipient := c; rq_ty := ty; rq_want_reply := w; rq_data := d |}).
Proof.
  unfold ChRequest_parse. destruct (N.leb_spec 4 (len d)) as [H|H].
  - destruct (be32_front d H) as (n & r & L & ->).
    unfold get_to. replace (4 <=? _) with true by lia. cbn [bind].
    rewrite u32_front by exact L. cbn [bind]. rewrite idx_from_app by (rewrite be32_len; reflexivity).
    rewrite parse_uint32_app by exact L. cbn [bind ok_or].
    destruct (ok_or (parse_string r) CE_Truncated) as [[s r']|e|]; cbn [bind]; try reflexivity.
    rewrite parse_bool_eq. destruct r' as [|c r']; cbn [get0 bind ok_or]; [reflexivity|].
    rewrite idx_from_1. reflexivity.
  - unfold get_to. replace (4 <=? len d) with false by lia. cbn [bind].
    unfold parse_uint32. replace (4 <=? len d) with false by lia. reflexivity.
Qed.
Lemma ChRequest_parse_Ok d o : ChRequest_parse d = Ok o <->
  let fs := [FU32 (rq_recipient o); FStr (rq_ty o); FBool (rq_want_reply o); FRaw (rq_data o)] in
  Forall fld_ok fs /\ reads fs d.
Proof.
  cbv zeta. rewrite ChRequest_parse_eq. split.
  - intros H. pinv. projs. split; [fok|rd].
  - destruct o as [c t w r]; projs. intros [F H]. rinv. prun. rewrite app_nil_r. reflexivity.
Qed.
Lemma ChRequest_parse_np d : ChRequest_parse d <> Panic.
Proof. rewrite ChRequest_parse_eq. np. Qed.

Lemma chan_only_parse_Ok d n : chan_only_parse d = Ok n <-> Forall fld_ok [FU32 n] /\ reads [FU32 n] d.
Proof.
  unfold chan_only_parse. destruct (N.eqb_spec (len d) 4) as [H|H]; split.
  - intros [= <-]. split; [fok; apply u32_pow, be_value_u32, H|].
    rewrite <- (be32_of_value d H) at 2. rewrite <- (app_nil_r (be32 _)). rd.
  - intros [F R]. rinv. rewrite app_nil_r. rewrite be32_value by (apply u32_pow; assumption). reflexivity.
  - discriminate.
  - intros [F R]. rinv. exfalso. apply H. rewrite app_nil_r. apply be32_len.
Qed.
Lemma chan_only_parse_np d : chan_only_parse d <> Panic.
Proof. unfold chan_only_parse. destruct (len d =? 4); discriminate. Qed.
