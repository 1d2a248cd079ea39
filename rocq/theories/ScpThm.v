(** Proofs about the file transfer program. *)
From Coq Require Import Init.Byte Strings.Byte.
From Verif Require Export BaseFacts SpecScp.

(** ** Splitting *)
Lemma split_none (p : byte -> bool) w : Forall (fun b => p b = false) w -> split_on p w = [w].
Proof. intros F. induction F as [|b w Hb F IH]; [reflexivity|]. cbn [split_on]. rewrite Hb, IH. reflexivity. Qed.
Lemma split_some (p : byte -> bool) w c r : Forall (fun b => p b = false) w -> p c = true -> split_on p (w ++ c :: r) = w :: split_on p r.
Proof. intros F C. induction F as [|b w Hb F IH]; cbn [app split_on]; [rewrite C; reflexivity|]. rewrite Hb, IH. reflexivity. Qed.
Lemma split_cases (p : byte -> bool) l : Forall (fun b => p b = false) l \/
  exists w c r, l = w ++ c :: r /\ Forall (fun b => p b = false) w /\ p c = true.
Proof.
  induction l as [|b l IH]; [left; constructor|]. destruct (p b) eqn:E.
  - right. exists [], b, l. auto.
  - destruct IH as [F|(w & c & r & -> & F & C)]; [left; auto|]. right. exists (b :: w), c, r. auto.
Qed.
Lemma no_forall b l : no b l <-> Forall (fun x => beq b x = false) l.
Proof.
  unfold no. rewrite Forall_forall. split.
  - intros H x Hx. apply beq_false. congruence.
  - intros H X. apply H in X. rewrite beq_refl in X. discriminate X.
Qed.
Lemma no_app b x y : no b (x ++ y) <-> no b x /\ no b y.
Proof. unfold no. rewrite in_app_iff. tauto. Qed.
Lemma no_cons b c y : no b (c :: y) <-> c <> b /\ no b y.
Proof. unfold no. cbn [In]. tauto. Qed.

(** ** Lines *)
Lemma until_spec e l : (exists x y, l = x ++ e :: y /\ no e x /\ until e l = (x ++ [e], y)) \/ (no e l /\ until e l = (l, [])).
Proof.
  induction l as [|b l IH]; [right; split; [intros []|reflexivity]|]. cbn [until]. destruct (beq_spec b e) as [->|D].
  - left. exists [], l. repeat split. intros [].
  - destruct IH as [(x & y & -> & N & ->)|[N ->]].
    + left. exists (b :: x), y. repeat split. apply no_cons. auto.
    + right. split; [apply no_cons; auto|reflexivity].
Qed.
Lemma until_app e x y : no e x -> until e (x ++ e :: y) = (x ++ [e], y).
Proof.
  induction x as [|b x IH]; intros N; cbn [app until]; [rewrite beq_refl; reflexivity|].
  apply no_cons in N as [D N]. rewrite (proj2 (beq_false b e) D), (IH N). reflexivity.
Qed.

(** ** Numbers *)
Lemma decimal_mono l : forall a, a <= decimal_value a l.
Proof. induction l as [|b l IH]; intros a; cbn [decimal_value]; [lia|]. specialize (IH (a * 10 + (b2n b - 48))). lia. Qed.
Lemma parse_digits_iff l : forall a n, a < u64_max1 ->
  parse_digits a l = Ok n <-> Forall (fun b => 48 <= b2n b <= 57) l /\ decimal_value a l = n /\ n < u64_max1.
Proof.
  induction l as [|b l IH]; intros a n A; cbn [parse_digits decimal_value].
  - split; [intros E; apply Ok_inj in E; subst; auto|intros (_ & -> & _); reflexivity].
  - destruct ((48 <=? b2n b) && (b2n b <=? 57)) eqn:D; [|split; [discriminate|intros (F & _); apply Forall_inv in F; lia]].
    destruct (N.ltb_spec (a * 10 + (b2n b - 48)) u64_max1) as [L|L].
    + rewrite IH by exact L. split; intros (F & E & X); (split; [|auto]); [constructor; [lia|exact F]|apply Forall_inv_tail in F; exact F].
    + split; [discriminate|]. intros (F & E & X). pose proof (decimal_mono l (a * 10 + (b2n b - 48))). lia.
Qed.
Lemma parse_usize_iff l n : parse_usize l = Ok n <-> is_decimal l n.
Proof.
  unfold parse_usize, is_decimal. change (2 ^ 64) with u64_max1.
  destruct l as [|b l]; [split; [discriminate|]|].
  - intros (ds & [E|E] & Ne & _); [congruence|discriminate E].
  - destruct (beq_spec b x2b) as [->|D].
    + split.
      * intros H. destruct l as [|c l]; [discriminate H|]. cbn [is_empty] in H. apply parse_digits_iff in H; [|reflexivity]. destruct H as (F & V & L).
        exists (c :: l). repeat split; auto. discriminate.
      * intros (ds & [E|E] & Ne & F & V & L).
        -- subst ds. apply Forall_inv in F. change (b2n x2b) with 43 in F. lia.
        -- change (B "+" ++ ds) with (x2b :: ds) in E. injection E as ->. destruct ds as [|c ds]; [congruence|]. cbn [is_empty]. apply parse_digits_iff; [reflexivity|auto].
    + rewrite parse_digits_iff by reflexivity. split.
      * intros (F & V & L). exists (b :: l). repeat split; auto. discriminate.
      * intros (ds & [E|E] & Ne & F & V & L); [subst ds; auto|]. change (B "+" ++ ds) with (x2b :: ds) in E. congruence.
Qed.
Lemma parse_usize_np l : parse_usize l <> Panic.
Proof.
  assert (D : forall l a, parse_digits a l <> Panic).
  { clear l. induction l as [|b l IH]; intros a; cbn [parse_digits]; [discriminate|].
    destruct (_ && _); [|discriminate]. destruct (_ <? _); [apply IH|discriminate]. }
  unfold parse_usize. destruct l as [|b l]; [discriminate|]. destruct (beq b x2b); [destruct (is_empty l); [discriminate|]|]; apply D.
Qed.

(** ** Headers *)
Lemma strip_newline_app x : strip_newline (x ++ [x0a]) = x.
Proof. unfold strip_newline. rewrite rev_app_distr. cbn [rev app]. rewrite beq_refl, rev_involutive. reflexivity. Qed.
Lemma strip_newline_no x : no x0a x -> strip_newline x = x.
Proof.
  intros N. unfold strip_newline. destruct (rev x) as [|b r] eqn:E; [reflexivity|].
  destruct (beq_spec b x0a) as [->|D]; [|reflexivity]. destruct N. rewrite in_rev, E. left. reflexivity.
Qed.
Lemma b2s : B " " = [x20]. Proof. reflexivity. Qed.
Lemma split_sp w r : no x20 w -> split_on (beq x20) (w ++ x20 :: r) = w :: split_on (beq x20) r.
Proof. intros N. apply split_some; [apply no_forall, N|reflexivity]. Qed.
Lemma split_sp_none w : no x20 w -> split_on (beq x20) w = [w].
Proof. intros N. apply split_none, no_forall, N. Qed.
Lemma split_sp_cases l : no x20 l \/ exists w r, l = w ++ x20 :: r /\ no x20 w.
Proof.
  destruct (split_cases (beq x20) l) as [F|(w & c & r & E & F & C)]; [left; apply no_forall, F|].
  apply beq_true in C. subst c. right. exists w, r. split; [exact E|apply no_forall, F].
Qed.
Lemma nl_no (nl : bytes) x : nl = [] \/ nl = [x0a] -> no x20 x -> no x20 (x ++ nl).
Proof. intros [->| ->] H; apply no_app; (split; [exact H|]); [intros []|apply no_cons; split; [discriminate|intros []]]. Qed.
Lemma nl_strip (nl : bytes) x : nl = [] \/ nl = [x0a] -> no x0a x -> strip_newline (x ++ nl) = x.
Proof. intros [->| ->] H; [rewrite app_nil_r; apply strip_newline_no, H|apply strip_newline_app]. Qed.
Lemma header_of_spec nl line n name : nl = [] \/ nl = [x0a] -> announces nl line n name -> exists mode, parse_header line = Ok (mode, n, name).
Proof.
  intros NL (U & mode & size & rest & E & M & S & F & R & M' & S' & F' & R' & D). unfold parse_header. rewrite U, E.
  change (B "C") with [x43]. change (B " ") with [x20]. cbn [app].
  rewrite (app_comm_cons mode _ x43), split_sp by (apply no_cons; split; [discriminate|exact M]). rewrite split_sp by exact S.
  exists (x43 :: mode). destruct R as [->|[more ->]].
  - cbn [app]. rewrite split_sp_none by (apply nl_no; auto).
    rewrite (proj2 (parse_usize_iff size n) D), nl_strip by auto. reflexivity.
  - change (B " ") with [x20]. cbn [app]. rewrite split_sp by exact F. rewrite (proj2 (parse_usize_iff size n) D), strip_newline_no by exact F'. reflexivity.
Qed.
Lemma last_cut {A} (a b : list A) x y : b <> [] -> a ++ b = x ++ [y] -> exists b', b = b' ++ [y] /\ x = a ++ b'.
Proof.
  intros Ne E. destruct (exists_last Ne) as (b' & z & ->). exists b'. rewrite app_assoc in E. apply app_inj_tail in E as [<- ->]. auto.
Qed.
Lemma spec_of_header nl x mode n name : nl = [] \/ nl = [x0a] -> no x0a x -> parse_header (x43 :: x ++ nl) = Ok (mode, n, name) -> announces nl (x43 :: x ++ nl) n name.
Proof.
  intros NL N H. unfold parse_header in H. destruct (utf8_valid (x43 :: x ++ nl)) eqn:U; [|discriminate H]. split; [exact U|].
  destruct (split_sp_cases x) as [Nx|(m & r & -> & Nm)].
  { rewrite split_sp_none in H; [discriminate H|]. apply no_cons; split; [discriminate|]. apply nl_no; auto. }
  rewrite <- app_assoc in *. cbn [app] in *.
  rewrite (app_comm_cons m _ x43), split_sp in H by (apply no_cons; split; [discriminate|exact Nm]).
  apply no_app in N as [N1 N2]. apply no_cons in N2 as [_ N2].
  destruct (split_sp_cases r) as [Nx|(s & t & -> & Ns)].
  { rewrite split_sp_none in H; [discriminate H|]. apply nl_no; auto. }
  rewrite <- app_assoc in *. cbn [app] in *. rewrite split_sp in H by exact Ns.
  apply no_app in N2 as [N2 N3]. apply no_cons in N3 as [_ N3].
  destruct (split_sp_cases t) as [Nt|(f & more & -> & Nf)].
  - rewrite split_sp_none in H by (apply nl_no; auto).
    destruct (parse_usize s) as [k| |] eqn:P; try discriminate H. apply Ok_inj in H. apply pair_equal_spec in H as [H1 H2]. apply pair_equal_spec in H1 as [_ ->].
    rewrite nl_strip in H2 by auto. subst name. exists m, s, []. repeat split; auto; try (intros []). apply parse_usize_iff, P.
  - rewrite <- app_assoc in *. cbn [app] in *. rewrite split_sp in H by exact Nf. apply no_app in N3 as [N3 N4]. apply no_cons in N4 as [_ N4].
    destruct (parse_usize s) as [k| |] eqn:P; try discriminate H. apply Ok_inj in H. apply pair_equal_spec in H as [H1 H2]. apply pair_equal_spec in H1 as [_ ->].
    rewrite strip_newline_no in H2 by exact N3. subst name. exists m, s, (x20 :: more). repeat split; auto.
    + right. exists more. reflexivity.
    + apply no_cons. split; [discriminate|exact N4].
    + apply parse_usize_iff, P.
Qed.
Lemma parse_header_np h : parse_header h <> Panic.
Proof.
  unfold parse_header. destruct (utf8_valid h); [|discriminate]. destruct (split_on _ h) as [|a [|b [|c l]]]; try discriminate.
  destruct (parse_usize b) eqn:P; try discriminate. destruct (parse_usize_np b P).
Qed.

(** ** The receiver *)
Section Receive.
Variable W : World.
Lemma c_bind_inv {A C} (m : CM A) (f : A -> CM C) c r c' : c_bind m f c = (r, c') ->
  (exists a c1, m c = (Ok a, c1) /\ f a c1 = (r, c')) \/ (exists e, m c = (Err e, c') /\ r = Err e) \/ (m c = (Panic, c') /\ r = Panic).
Proof.
  unfold c_bind. destruct (m c) as [[a|e|] c1]; intros H.
  - left. eauto.
  - right. left. apply pair_equal_spec in H as [<- <-]. eauto.
  - right. right. apply pair_equal_spec in H as [<- <-]. eauto.
Qed.
Lemma do_inv o c r c' : do W o c = (r, c') -> c_in c' = c_in c /\
  ((r = Ok tt /\ c_ops c' = c_ops c ++ [o]) \/ (r = Err tt /\ c_ops c' = c_ops c)).
Proof. unfold do. destruct (W (c_ops c) o); intros H; apply pair_equal_spec in H as [<- <-]; auto. Qed.
Lemma read_header_spec c r c' : read_header c = (r, c') -> c_ops c' = c_ops c /\
  match r with
  | Ok None => c_in c = [] /\ c_in c' = []
  | Ok (Some (mode, n, name)) => exists line, c_in c = line ++ c_in c' /\ (0 < length line)%nat /\
      (is_header line n name \/ (announces [] line n name /\ line = c_in c /\ c_in c' = []))
  | Err _ => True
  | Panic => exists k, c_in c = x44 :: k
  end.
Proof.
  unfold read_header. intros H. apply c_bind_inv in H as [(b & c1 & R & H)|[(e & R & ->)|[R ->]]]; unfold read1 in R;
    destruct (c_in c) as [|b0 i] eqn:I; apply pair_equal_spec in R as [R R']; try discriminate R.
  - apply Ok_inj in R. subst b c1. apply pair_equal_spec in H as [<- <-]. auto.
  - apply Ok_inj in R. subst b c1.
    destruct (beq_spec b0 x43) as [->|D].
    + unfold c_bind, read_line, c_res, c_ret in H. cbn [c_in c_ops] in H.
      destruct (until_spec x0a i) as [(x & y & -> & Nx & U)|[Nx U]]; rewrite U in H.
      * destruct (parse_header (x43 :: x ++ [x0a])) as [[[m n] name]|e|] eqn:P; apply pair_equal_spec in H as [<- <-]; cbn [c_in c_ops]; (split; [reflexivity|]); auto; [|destruct (parse_header_np _ P)].
        exists (x43 :: x ++ [x0a]). split; [cbn [app]; rewrite <- app_assoc; reflexivity|]. split; [cbn; lia|]. left. eapply spec_of_header; eauto.
      * destruct (parse_header (x43 :: i)) as [[[m n] name]|e|] eqn:P; apply pair_equal_spec in H as [<- <-]; cbn [c_in c_ops]; (split; [reflexivity|]); auto; [|destruct (parse_header_np _ P)].
        exists (x43 :: i). split; [rewrite app_nil_r; reflexivity|]. split; [cbn; lia|]. right. split; [|auto].
        pose proof (spec_of_header [] i m n name (or_introl eq_refl) Nx) as Q. rewrite app_nil_r in Q. exact (Q P).
    + destruct (beq_spec b0 x44) as [->|D2]; apply pair_equal_spec in H as [<- <-]; cbn [c_ops]; eauto.
Qed.
Lemma read_header_line line n name rest ops : is_header line n name ->
  exists mode, read_header {| c_in := line ++ rest; c_ops := ops |} = (Ok (Some (mode, n, name)), {| c_in := rest; c_ops := ops |}).
Proof.
  intros H. destruct (header_of_spec [x0a] _ _ _ (or_intror eq_refl) H) as (m & P). exists m.
  destruct H as (U & mode & size & more & E & M & S & F & R & M' & S' & F' & R' & D).
  assert (E2 : line = x43 :: (mode ++ x20 :: size ++ x20 :: name ++ more) ++ [x0a]).
  { rewrite E. change (B "C") with [x43]. change (B " ") with [x20]. cbn [app]. rewrite <- !app_assoc. cbn [app]. rewrite <- !app_assoc. cbn [app]. rewrite <- !app_assoc. reflexivity. }
  rewrite E2 in *. unfold read_header, c_bind, read1, read_line, c_res, c_ret. cbn [c_in c_ops app].
  set (X := mode ++ x20 :: size ++ x20 :: name ++ more) in *.
  rewrite beq_refl, <- (app_assoc X [x0a] rest). cbn [app c_in c_ops]. rewrite until_app.
  - rewrite P. reflexivity.
  - unfold X. apply no_app. split; [exact M'|]. apply no_cons. split; [discriminate|]. apply no_app. split; [exact S'|]. apply no_cons. split; [discriminate|]. apply no_app. auto.
Qed.
Lemma loop_spec fuel : forall size c r c', (length (c_in c) < fuel)%nat -> transfer_loop W fuel size c = (r, c') ->
  exists ws left, c_ops c' = c_ops c ++ map Op_Write ws /\ c_in c = concat ws ++ left /\ len (concat ws) <= size /\
    match r with Ok _ => len (concat ws) = size /\ c_in c' = left | Err _ => True | Panic => False end.
Proof.
  induction fuel as [|fuel IH]; intros size c r c' L H; [lia|]. cbn [transfer_loop] in H. destruct (N.eqb_spec size 0) as [->|Z].
  - apply pair_equal_spec in H as [<- <-]. exists [], (c_in c). rewrite app_nil_r. repeat split; vm_compute; discriminate.
  - set (l := N.min size 32768) in *. assert (Hl : 0 < l <= size) by lia. clearbody l.
    apply c_bind_inv in H as [(d & c1 & R & H)|[(e & R & ->)|[R ->]]]; unfold read_exactly in R;
      destruct (N.leb_spec l (len (c_in c))) as [Q|Q]; apply pair_equal_spec in R as [R R']; try discriminate R.
    + apply Ok_inj in R. subst d c1. apply c_bind_inv in H as [(u & c1 & R & H)|[(e & R & ->)|[R ->]]];
        apply do_inv in R as [I [[Ro O]|[Ro O]]]; try discriminate Ro; cbn [c_in c_ops] in *.
      * apply IH in H as (ws & left & A & E & Le & X).
        -- exists (ntake l (c_in c) :: ws), left. cbn [map concat]. rewrite A, O, <- app_assoc. split; [reflexivity|].
           rewrite len_app, len_ntake. rewrite I in E. rewrite <- app_assoc, <- E, ntake_ndrop.
           split; [reflexivity|]. split; [lia|]. destruct r; auto. destruct X as [X X2]. split; [lia|exact X2].
        -- assert (len (c_in c1) < len (c_in c)) by (rewrite I, len_ndrop; lia). unfold len in *. lia.
      * exists [], (c_in c). rewrite app_nil_r. repeat split; [exact O|vm_compute; destruct size; discriminate].
    + subst c'. exists [], (c_in c). rewrite app_nil_r. repeat split. vm_compute; destruct size; discriminate.
Qed.
Lemma transfer_spec size c r c' : transfer_file W size c = (r, c') ->
  exists ws, len (concat ws) <= size /\
    match r with
    | Ok _ => c_ops c' = c_ops c ++ map Op_Write ws ++ [Op_Ping] /\ len (concat ws) = size /\ c_in c = concat ws ++ x00 :: c_in c'
    | Err _ => c_ops c' = c_ops c ++ map Op_Write ws /\ prefix (concat ws) (c_in c)
    | Panic => False
    end.
Proof.
  unfold transfer_file. intros H. apply c_bind_inv in H as [(u & c1 & R & H)|[(e & R & ->)|[R ->]]];
    apply loop_spec in R as (ws & left & O & I & L & X); try lia; exists ws; (split; [exact L|]); cbv beta match in X; try contradiction.
  - destruct X as [X1 X2]. apply c_bind_inv in H as [(a & c2 & R & H)|[(e & R & ->)|[R ->]]]; unfold read_exactly in R;
      destruct (N.leb_spec 1 (len (c_in c1))) as [Q|Q]; apply pair_equal_spec in R as [R R']; try discriminate R.
    + apply Ok_inj in R. subst a c2. rewrite X2 in *. destruct left as [|z left]; [vm_compute in Q; lia|].
      change (ntake 1 (z :: left)) with [z] in H. change (ndrop 1 (z :: left)) with left in H. cbn [bytes_eqb] in H. rewrite andb_true_r in H.
      destruct (beq_spec z x00) as [->|D].
      * apply do_inv in H as [I2 [[-> O2]|[-> O2]]]; cbn [c_in c_ops] in *.
        -- rewrite O2, O, <- app_assoc, I2. auto.
        -- rewrite O2. split; [exact O|]. exists (x00 :: left). exact I.
      * apply pair_equal_spec in H as [<- <-]. cbn [c_in c_ops]. split; [exact O|]. exists (z :: left). exact I.
    + subst c'. cbn [c_ops]. split; [exact O|]. exists left. exact I.
  - split; [exact O|]. exists left. exact I.
Qed.

(** One file, after its header: *)
Fixpoint after (os : list Op) (m : CM unit) : CM unit :=
  match os with [] => m | o :: os => c_bind (do W o) (fun _ => after os m) end.
Lemma after_spec size os : forall c r c', after os (transfer_file W size) c = (r, c') ->
  exists ws, len (concat ws) <= size /\
    match r with
    | Ok _ => c_ops c' = c_ops c ++ os ++ map Op_Write ws ++ [Op_Ping] /\ len (concat ws) = size /\ c_in c = concat ws ++ x00 :: c_in c'
    | Err _ => exists ops, c_ops c' = c_ops c ++ ops /\ prefix ops (os ++ map Op_Write ws) /\ prefix (concat ws) (c_in c)
    | Panic => False
    end.
Proof.
  induction os as [|o os IH]; intros c r c' H; cbn [after] in H.
  - apply transfer_spec in H as (ws & L & X). exists ws. split; [exact L|]. destruct r as [u|e|]; [exact X| |exact X].
    destruct X as [X1 X2]. exists (map Op_Write ws). split; [exact X1|]. split; [exists []; rewrite app_nil_r; reflexivity|exact X2].
  - apply c_bind_inv in H as [(u & c1 & R & H)|[(e & R & ->)|[R ->]]]; apply do_inv in R as [I [[Ro O]|[Ro O]]]; try discriminate Ro.
    + apply IH in H as (ws & L & X). exists ws. split; [exact L|]. rewrite I, O in X. rewrite <- !app_assoc in X. destruct r as [v|e|]; [exact X| |exact X].
      destruct X as (ops & X1 & X2 & X3). exists (o :: ops). rewrite X1, <- app_assoc. split; [reflexivity|]. split; [|exact X3].
      destruct X2 as [k X2]. exists k. cbn [app]. rewrite X2. reflexivity.
    + exists []. split; [vm_compute; destruct size; discriminate|]. exists []. rewrite app_nil_r. split; [exact O|]. split; [|exists (c_in c); reflexivity].
      exists ((o :: os) ++ map Op_Write []). reflexivity.
Qed.
Lemma c_bind_assoc {A C D} (m : CM A) (f : A -> CM C) (g : C -> CM D) c : c_bind (c_bind m f) g c = c_bind m (fun a => c_bind (f a) g) c.
Proof. unfold c_bind. destruct (m c) as [[a|e|] c1]; reflexivity. Qed.
Lemma c_bind_ext {A C} (m : CM A) (f g : A -> CM C) c : (forall a c, f a c = g a c) -> c_bind m f c = c_bind m g c.
Proof. intros H. unfold c_bind. destruct (m c) as [[a|e|] c1]; auto. Qed.

Lemma receive_files_spec to : forall c r c', receive_files W to c = (r, c') ->
  exists fs ops tail left, Forall sent_ok fs /\ c_in c = concat (map frame fs) ++ left /\ c_ops c' = c_ops c ++ ops ++ tail /\
    stores (fun p => [Op_Parents p]) (combine to (map f_data fs)) ops /\ (length fs <= length to)%nat /\
    match r with Ok _ => tail = [] /\ c_in c' = left /\ length fs = length to | Err _ => unfinished (fun p => [Op_Parents p]) (fun _ => nth (length fs) to []) left tail | Panic => tail = [] /\ exists k, left = x44 :: k end.
Proof.
  induction to as [|path to IH]; intros c r c' H; cbn [receive_files] in H.
  - apply pair_equal_spec in H as [<- <-]. exists [], [], [], (c_in c). rewrite app_nil_r. repeat split; auto. constructor.
  - assert (Bad : c_ops c' = c_ops c -> (match r with Ok _ => False | Err _ => True | Panic => exists k, c_in c = x44 :: k end) ->
      exists fs ops tail left, Forall sent_ok fs /\ c_in c = concat (map frame fs) ++ left /\ c_ops c' = c_ops c ++ ops ++ tail /\
        stores (fun p => [Op_Parents p]) (combine (path :: to) (map f_data fs)) ops /\ (length fs <= length (path :: to))%nat /\
        match r with Ok _ => tail = [] /\ c_in c' = left /\ length fs = length (path :: to) | Err _ => unfinished (fun p => [Op_Parents p]) (fun _ => nth (length fs) (path :: to) []) left tail | Panic => tail = [] /\ exists k, left = x44 :: k end).
    { intros O X. exists [], [], [], (c_in c). rewrite app_nil_r. repeat split; auto; [constructor|cbn; lia|]. destruct r; [contradiction|left; reflexivity|auto]. }
    apply c_bind_inv in H as [(h & c1 & R & H)|[(e & R & ->)|[R ->]]]; apply read_header_spec in R as [O I]; try (apply Bad; auto; fail).
    destruct h as [[[m n] name]|]; [|apply pair_equal_spec in H as [<- <-]; apply Bad; auto].
    destruct I as (line & I & Pos & Hd).
    assert (H' : c_bind (after ([Op_Parents path] ++ [Op_Create path; Op_Ping]) (transfer_file W n)) (fun _ => receive_files W to) c1 = (r, c')).
    { rewrite <- H. cbn [after app]. rewrite c_bind_assoc. apply c_bind_ext. intros _ c2. rewrite c_bind_assoc. apply c_bind_ext. intros _ c3.
      rewrite c_bind_assoc. reflexivity. }
    clear H. apply c_bind_inv in H' as [(u & c2 & R & H)|[(e & R & ->)|[R ->]]]; apply after_spec in R as (ws & L & X).
    + destruct X as (X1 & X2 & X3). apply IH in H as (fs & ops & tail & left & Fo & I2 & O2 & St & Le & Y).
      assert (Hd' : is_header line n name).
      { destruct Hd as [Hd|(_ & _ & Z)]; [exact Hd|]. rewrite Z in X3. destruct (concat ws); discriminate X3. }
      exists ({| f_line := line; f_name := name; f_data := concat ws |} :: fs),
        ([Op_Parents path] ++ [Op_Create path; Op_Ping] ++ map Op_Write ws ++ [Op_Ping] ++ ops), tail, left.
      cbn [map concat f_data combine]. split; [constructor; [unfold sent_ok; cbn [f_line f_data f_name]; rewrite X2; exact Hd'|exact Fo]|].
      split; [unfold frame at 1; cbn [f_line f_data]; rewrite I, X3, I2, <- !app_assoc; reflexivity|].
      split; [rewrite O2, X1, O, <- !app_assoc; reflexivity|]. split; [constructor; auto|]. split; [cbn; lia|].
      destruct r as [v|e|]; auto. destruct Y as (Y1 & Y2 & Y3). cbn [length]. auto.
    + destruct X as (ops & X1 & X2 & X3). exists [], [], ops, (c_in c). rewrite X1, O. repeat split; auto; [constructor|cbn; lia|].
      right. exists line, n, name, ws. destruct X3 as [k X3]. split; [exists k; rewrite I, X3, <- app_assoc; reflexivity|].
      split; [destruct Hd as [Hd|(Hd & Hd2 & Z)]; auto; right; split; [exact Hd|split; [exact Hd2|rewrite Z in X3; destruct (concat ws); [reflexivity|discriminate X3]]]|].
      split; [exact L|]. destruct X2 as [j X2]. exists j. rewrite <- X2. reflexivity.
    + contradiction.
Qed.
Lemma receive_dir_spec fuel : forall c r c', (length (c_in c) <= fuel)%nat -> receive_dir W fuel c = (r, c') ->
  exists fs ops tail left, Forall sent_ok fs /\ c_in c = concat (map frame fs) ++ left /\ c_ops c' = c_ops c ++ ops ++ tail /\
    stores (fun _ => []) (map (fun f => (f_name f, f_data f)) fs) ops /\
    match r with Ok _ => tail = [] /\ left = [] | Err _ => unfinished (fun _ => []) (fun name => name) left tail | Panic => tail = [] /\ exists k, left = x44 :: k end.
Proof.
  induction fuel as [|fuel IH]; intros c r c' Le H; cbn [receive_dir] in H.
  all: assert (Bad : c_ops c' = c_ops c -> (match r with Ok _ => c_in c = [] | Err _ => True | Panic => exists k, c_in c = x44 :: k end) ->
      exists fs ops tail left, Forall sent_ok fs /\ c_in c = concat (map frame fs) ++ left /\ c_ops c' = c_ops c ++ ops ++ tail /\
        stores (fun _ => []) (map (fun f => (f_name f, f_data f)) fs) ops /\
        match r with Ok _ => tail = [] /\ left = [] | Err _ => unfinished (fun _ => []) (fun name => name) left tail | Panic => tail = [] /\ exists k, left = x44 :: k end) by
    (intros O X; exists [], [], [], (c_in c); rewrite app_nil_r; repeat split; auto; [constructor|]; destruct r; auto; left; reflexivity).
  all: apply c_bind_inv in H as [(h & c1 & R & H)|[(e & R & ->)|[R ->]]]; apply read_header_spec in R as [O I]; try (apply Bad; auto; fail).
  all: destruct h as [[[m n] name]|]; [|apply pair_equal_spec in H as [<- <-]; apply Bad; tauto].
  all: destruct I as (line & I & Pos & Hd).
  { rewrite I, app_length in Le. lia. }
  assert (H' : c_bind (after ([] ++ [Op_Create name; Op_Ping]) (transfer_file W n)) (fun _ => receive_dir W fuel) c1 = (r, c')).
  { rewrite <- H. cbn [after app]. rewrite c_bind_assoc. apply c_bind_ext. intros _ c2. rewrite c_bind_assoc. reflexivity. }
  clear H. apply c_bind_inv in H' as [(u & c2 & R & H)|[(e & R & ->)|[R ->]]]; apply after_spec in R as (ws & L & X).
  - destruct X as (X1 & X2 & X3). apply IH in H as (fs & ops & tail & left & Fo & I2 & O2 & St & Y).
    2:{ rewrite I, X3, !app_length in Le. cbn [length] in Le. lia. }
    assert (Hd' : is_header line n name).
    { destruct Hd as [Hd|(_ & _ & Z)]; [exact Hd|]. rewrite Z in X3. destruct (concat ws); discriminate X3. }
    exists ({| f_line := line; f_name := name; f_data := concat ws |} :: fs),
      ([] ++ [Op_Create name; Op_Ping] ++ map Op_Write ws ++ [Op_Ping] ++ ops), tail, left.
    cbn [map concat f_data f_name]. split; [constructor; [unfold sent_ok; cbn [f_line f_data f_name]; rewrite X2; exact Hd'|exact Fo]|].
    split; [unfold frame at 1; cbn [f_line f_data]; rewrite I, X3, I2, <- !app_assoc; reflexivity|].
    split; [rewrite O2, X1, O, <- !app_assoc; reflexivity|]. split; [apply (St_cons (fun _ => [])); auto|exact Y].
  - destruct X as (ops & X1 & X2 & X3). exists [], [], ops, (c_in c). rewrite X1, O. repeat split; auto; [constructor|].
    right. exists line, n, name, ws. destruct X3 as [k X3]. split; [exists k; rewrite I, X3, <- app_assoc; reflexivity|].
    split; [destruct Hd as [Hd|(Hd & Hd2 & Z)]; auto; right; split; [exact Hd|split; [exact Hd2|rewrite Z in X3; destruct (concat ws); [reflexivity|discriminate X3]]]|].
    split; [exact L|]. destruct X2 as [j X2]. exists j. rewrite <- X2. reflexivity.
  - contradiction.
Qed.
End Receive.
