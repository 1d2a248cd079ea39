(** Proofs about the file transfer program: whole transfers, names and the sender. *)
From Coq Require Import Init.Byte Strings.Byte.
From Verif Require Export ScpThm.

Definition quiet (pre : bytes -> list Op) : Prop := forall p ops, files (pre p ++ ops) = files ops /\ written (pre p ++ ops) = written ops.
Lemma quiet_parents : quiet (fun p => [Op_Parents p]). Proof. split; reflexivity. Qed.
Lemma quiet_nothing : quiet (fun _ => []). Proof. split; reflexivity. Qed.
Lemma files_writes ws ops : files (map Op_Write ws ++ ops) = files ops.
Proof. induction ws as [|w ws IH]; auto. Qed.
Lemma written_writes ws ops : written (map Op_Write ws ++ ops) = concat ws ++ written ops.
Proof. induction ws as [|w ws IH]; cbn [map app written concat]; [reflexivity|]. rewrite IH, <- app_assoc. reflexivity. Qed.
Lemma stores_files pre fs ops : quiet pre -> stores pre fs ops -> files ops = fs /\ written ops = [].
Proof.
  intros Q H. induction H as [|path data ws fs ops E H IH]; [auto|]. destruct IH as [IH1 IH2].
  destruct (Q path ([Op_Create path; Op_Ping] ++ map Op_Write ws ++ [Op_Ping] ++ ops)) as [-> ->]. cbn [app files written].
  rewrite files_writes, written_writes. cbn [files written]. rewrite IH1, IH2, app_nil_r, E. auto.
Qed.

(** ** Soundness *)
Lemma receive_to W to input r c : receive W to false (start input) = (r, c) ->
  (r = Err tt /\ c_ops c = []) \/
  exists fs ops tail left, Forall sent_ok fs /\ input = concat (map frame fs) ++ left /\ c_ops c = [Op_Ping] ++ ops ++ tail /\
    stores (fun p => [Op_Parents p]) (combine to (map f_data fs)) ops /\ (length fs <= length to)%nat /\
    match r with
    | Ok _ => tail = [] /\ c_in c = left /\ length fs = length to
    | Err _ => unfinished (fun p => [Op_Parents p]) (fun _ => nth (length fs) to []) left tail
    | Panic => tail = [] /\ exists k, left = x44 :: k
    end.
Proof.
  unfold receive. intros H. apply c_bind_inv in H as [(u & c1 & R & H)|[(e & R & ->)|[R ->]]];
    unfold ping_ready in R; apply do_inv in R as [I [[Ro O]|[Ro O]]]; try discriminate Ro.
  - right. apply receive_files_spec in H. rewrite I, O in H. exact H.
  - left. destruct e. auto.
Qed.
Lemma receive_in W dir input r c : receive W [dir] true (start input) = (r, c) ->
  (r = Err tt /\ prefix (c_ops c) [Op_Dirs dir; Op_Chdir dir]) \/
  exists fs ops tail left, Forall sent_ok fs /\ input = concat (map frame fs) ++ left /\ c_ops c = [Op_Dirs dir; Op_Chdir dir; Op_Ping] ++ ops ++ tail /\
    stores (fun _ => []) (map (fun f => (f_name f, f_data f)) fs) ops /\
    match r with
    | Ok _ => tail = [] /\ left = []
    | Err _ => unfinished (fun _ => []) (fun name => name) left tail
    | Panic => tail = [] /\ exists k, left = x44 :: k
    end.
Proof.
  unfold receive. intros H.
  apply c_bind_inv in H as [(u & c1 & R & H)|[(e & R & ->)|[R ->]]]; apply do_inv in R as [I [[Ro O]|[Ro O]]]; try discriminate Ro.
  2:{ left. destruct e. split; [reflexivity|]. rewrite O. exists [Op_Dirs dir; Op_Chdir dir]. reflexivity. }
  apply c_bind_inv in H as [(u2 & c2 & R & H)|[(e & R & ->)|[R ->]]]; apply do_inv in R as [I2 [[Ro2 O2]|[Ro2 O2]]]; try discriminate Ro2.
  2:{ left. destruct e. split; [reflexivity|]. rewrite O2, O. exists [Op_Chdir dir]. reflexivity. }
  unfold ping_ready in H.
  apply c_bind_inv in H as [(u3 & c3 & R & H)|[(e & R & ->)|[R ->]]]; apply do_inv in R as [I3 [[Ro3 O3]|[Ro3 O3]]]; try discriminate Ro3.
  2:{ left. destruct e. split; [reflexivity|]. rewrite O3, O2, O. exists []. reflexivity. }
  right. apply receive_dir_spec in H; [|lia]. rewrite I3, I2, I, O3, O2, O in H. exact H.
Qed.

(** ** Completeness *)
Section Generous.
Variable W : World.
Hypothesis G : forall ops o, W ops o = true.
Lemma do_ok o i ops : do W o {| c_in := i; c_ops := ops |} = (Ok tt, {| c_in := i; c_ops := ops ++ [o] |}).
Proof. unfold do. cbn [c_in c_ops]. rewrite G. reflexivity. Qed.
Lemma loop_ok fuel : forall data rest ops, (length (data ++ rest) < fuel)%nat ->
  exists ws, concat ws = data /\ transfer_loop W fuel (len data) {| c_in := data ++ rest; c_ops := ops |} =
    (Ok tt, {| c_in := rest; c_ops := ops ++ map Op_Write ws |}).
Proof.
  induction fuel as [|fuel IH]; intros data rest ops L; [lia|]. cbn [transfer_loop]. destruct (N.eqb_spec (len data) 0) as [Z|Z].
  - apply len_zero in Z. subst data. exists []. cbn [map app]. rewrite app_nil_r. split; reflexivity.
  - set (l := N.min (len data) 32768) in *. assert (Hl : 0 < l <= len data) by lia. clearbody l.
    destruct (IH (ndrop l data) rest (ops ++ [Op_Write (ntake l data)])) as (ws & E & R).
    { assert (len (ndrop l data ++ rest) < len (data ++ rest)) by (rewrite !len_app, len_ndrop; lia). unfold len in *. lia. }
    exists (ntake l data :: ws). split; [cbn [concat]; rewrite E; apply ntake_ndrop|].
    unfold c_bind at 1, read_exactly. cbn [c_in c_ops]. replace (l <=? len (data ++ rest)) with true by (rewrite len_app; lia).
    rewrite ntake_app_le, ndrop_app_le by lia. unfold c_bind. rewrite do_ok. rewrite len_ndrop in R. rewrite R. cbn [map]. rewrite <- app_assoc. reflexivity.
Qed.
Lemma transfer_ok data rest ops : exists ws, concat ws = data /\
  transfer_file W (len data) {| c_in := data ++ x00 :: rest; c_ops := ops |} = (Ok tt, {| c_in := rest; c_ops := ops ++ map Op_Write ws ++ [Op_Ping] |}).
Proof.
  destruct (loop_ok (S (length (data ++ x00 :: rest))) data (x00 :: rest) ops) as (ws & E & R); [lia|]. exists ws. split; [exact E|].
  unfold transfer_file. cbn [c_in]. unfold c_bind at 1. rewrite R. unfold c_bind, read_exactly. cbn [c_in c_ops].
  replace (1 <=? len (x00 :: rest)) with true by (rewrite len_cons; lia). change (ntake 1 (x00 :: rest)) with [x00]. change (ndrop 1 (x00 :: rest)) with rest.
  cbn [bytes_eqb]. rewrite beq_refl. cbn [andb]. unfold ping_ready. rewrite do_ok, <- app_assoc. reflexivity.
Qed.
Lemma receive_files_ok fs : forall to rest ops, Forall sent_ok fs -> length fs = length to ->
  exists o, stores (fun p => [Op_Parents p]) (combine to (map f_data fs)) o /\
    receive_files W to {| c_in := concat (map frame fs) ++ rest; c_ops := ops |} = (Ok tt, {| c_in := rest; c_ops := ops ++ o |}).
Proof.
  induction fs as [|f fs IH]; intros [|path to] rest ops F L; try discriminate L.
  - exists []. split; [constructor|]. cbn. rewrite app_nil_r. reflexivity.
  - injection L as L. pose proof (Forall_inv F) as Hf. apply Forall_inv_tail in F. cbn [map concat receive_files combine]. unfold frame at 1.
    rewrite <- !app_assoc. destruct (read_header_line (f_line f) (len (f_data f)) (f_name f) (f_data f ++ [x00] ++ concat (map frame fs) ++ rest) ops Hf) as (m & R).
    unfold c_bind at 1. rewrite R. cbv beta match.
    unfold c_bind at 1. rewrite do_ok. unfold c_bind at 1. rewrite do_ok. unfold c_bind at 1, ping_ready. rewrite do_ok.
    destruct (transfer_ok (f_data f) (concat (map frame fs) ++ rest) (((ops ++ [Op_Parents path]) ++ [Op_Create path]) ++ [Op_Ping])) as (ws & E & T).
    unfold c_bind at 1. cbn [app] in *. rewrite T. destruct (IH to rest ((((ops ++ [Op_Parents path]) ++ [Op_Create path]) ++ [Op_Ping]) ++ map Op_Write ws ++ [Op_Ping]) F L) as (o & St & R2).
    rewrite R2. exists ([Op_Parents path] ++ [Op_Create path; Op_Ping] ++ map Op_Write ws ++ [Op_Ping] ++ o).
    split; [apply (St_cons (fun p => [Op_Parents p])); auto|]. rewrite <- !app_assoc. reflexivity.
Qed.
Lemma receive_dir_ok fs : forall fuel ops, Forall sent_ok fs -> (length fs <= fuel)%nat ->
  exists o, stores (fun _ => []) (map (fun f => (f_name f, f_data f)) fs) o /\
    receive_dir W fuel {| c_in := concat (map frame fs); c_ops := ops |} = (Ok tt, {| c_in := []; c_ops := ops ++ o |}).
Proof.
  induction fs as [|f fs IH]; intros fuel ops F L.
  - exists []. split; [constructor|]. destruct fuel; cbn; rewrite app_nil_r; reflexivity.
  - destruct fuel as [|fuel]; [cbn in L; lia|]. pose proof (Forall_inv F) as Hf. apply Forall_inv_tail in F. cbn [map concat receive_dir]. unfold frame at 1.
    rewrite <- !app_assoc. destruct (read_header_line (f_line f) (len (f_data f)) (f_name f) (f_data f ++ [x00] ++ concat (map frame fs)) ops Hf) as (m & R).
    unfold c_bind at 1. rewrite R. cbv beta match.
    unfold c_bind at 1. rewrite do_ok. unfold c_bind at 1, ping_ready. rewrite do_ok.
    destruct (transfer_ok (f_data f) (concat (map frame fs)) ((ops ++ [Op_Create (f_name f)]) ++ [Op_Ping])) as (ws & E & T).
    unfold c_bind at 1. cbn [app] in *. rewrite T.
    destruct (IH fuel (((ops ++ [Op_Create (f_name f)]) ++ [Op_Ping]) ++ map Op_Write ws ++ [Op_Ping]) F) as (o & St & R2); [cbn in L; lia|].
    rewrite R2. exists ([] ++ [Op_Create (f_name f); Op_Ping] ++ map Op_Write ws ++ [Op_Ping] ++ o).
    split; [apply (St_cons (fun _ => [])); auto|]. rewrite <- !app_assoc. reflexivity.
Qed.
Lemma receive_to_ok fs to rest : Forall sent_ok fs -> length fs = length to ->
  exists c, receive W to false (start (concat (map frame fs) ++ rest)) = (Ok tt, c) /\ c_in c = rest /\ files (c_ops c) = combine to (map f_data fs).
Proof.
  intros F L. destruct (receive_files_ok fs to rest [Op_Ping] F L) as (o & St & R). unfold receive, start, c_bind, ping_ready. rewrite do_ok. cbn [app]. rewrite R.
  eexists. split; [reflexivity|]. split; [reflexivity|]. cbn [c_ops app files]. apply (stores_files _ _ _ quiet_parents St).
Qed.
Lemma receive_dir_panics fs : forall fuel k ops, Forall sent_ok fs -> (length fs <= fuel)%nat ->
  exists c, receive_dir W fuel {| c_in := concat (map frame fs) ++ x44 :: k; c_ops := ops |} = (Panic, c).
Proof.
  induction fs as [|f fs IH]; intros fuel k ops F L.
  - destruct fuel; eexists; reflexivity.
  - destruct fuel as [|fuel]; [cbn in L; lia|]. pose proof (Forall_inv F) as Hf. apply Forall_inv_tail in F. cbn [map concat receive_dir]. unfold frame at 1.
    rewrite <- !app_assoc. destruct (read_header_line (f_line f) (len (f_data f)) (f_name f) (f_data f ++ [x00] ++ concat (map frame fs) ++ x44 :: k) ops Hf) as (m & R).
    unfold c_bind at 1. rewrite R. cbv beta match.
    unfold c_bind at 1. rewrite do_ok. unfold c_bind at 1, ping_ready. rewrite do_ok.
    destruct (transfer_ok (f_data f) (concat (map frame fs) ++ x44 :: k) ((ops ++ [Op_Create (f_name f)]) ++ [Op_Ping])) as (ws & E & T).
    unfold c_bind at 1. cbn [app] in *. rewrite T. apply IH; [exact F|cbn in L; lia].
Qed.
Lemma frames_long fs : (length fs <= length (concat (map frame fs)))%nat.
Proof. induction fs as [|f fs IH]; [cbn; lia|]. cbn [map concat length]. unfold frame at 1. rewrite !app_length. cbn [length]. lia. Qed.
Lemma receive_in_ok fs dir : Forall sent_ok fs ->
  exists c, receive W [dir] true (start (concat (map frame fs))) = (Ok tt, c) /\ files (c_ops c) = map (fun f => (f_name f, f_data f)) fs.
Proof.
  intros F. destruct (receive_dir_ok fs (length (concat (map frame fs))) [Op_Dirs dir; Op_Chdir dir; Op_Ping] F (frames_long fs)) as (o & St & R).
  unfold receive, start, c_bind, ping_ready. rewrite !do_ok. cbn [app c_in]. rewrite R.
  eexists. split; [reflexivity|]. cbn [c_ops app files]. apply (stores_files _ _ _ quiet_nothing St).
Qed.
Lemma receive_in_panics fs dir k : Forall sent_ok fs ->
  exists c, receive W [dir] true (start (concat (map frame fs) ++ x44 :: k)) = (Panic, c).
Proof.
  intros F. unfold receive, start, c_bind, ping_ready. rewrite !do_ok. cbn [app c_in]. apply receive_dir_panics; [exact F|].
  rewrite app_length. pose proof (frames_long fs). lia.
Qed.
End Generous.

(** ** Summary for successful transfers *)
Lemma received_to W to input u c : receive W to false (start input) = (Ok u, c) ->
  exists fs ops, Forall sent_ok fs /\ input = concat (map frame fs) ++ c_in c /\ length fs = length to /\
    c_ops c = [Op_Ping] ++ ops /\ stores (fun p => [Op_Parents p]) (combine to (map f_data fs)) ops /\ files (c_ops c) = combine to (map f_data fs).
Proof.
  intros H. apply receive_to in H as [[E _]|(fs & ops & tail & left & F & I & O & St & Le & -> & I2 & L)]; [discriminate E|].
  rewrite app_nil_r in O. subst left. exists fs, ops. repeat split; auto. rewrite O. cbn [app files]. apply (stores_files _ _ _ quiet_parents St).
Qed.
Lemma received_in W dir input u c : receive W [dir] true (start input) = (Ok u, c) ->
  exists fs ops, Forall sent_ok fs /\ input = concat (map frame fs) /\ c_ops c = [Op_Dirs dir; Op_Chdir dir; Op_Ping] ++ ops /\
    stores (fun _ => []) (map (fun f => (f_name f, f_data f)) fs) ops /\ files (c_ops c) = map (fun f => (f_name f, f_data f)) fs.
Proof.
  intros H. apply receive_in in H as [[E _]|(fs & ops & tail & left & F & I & O & St & -> & ->)]; [discriminate E|].
  rewrite app_nil_r in *. exists fs, ops. repeat split; auto. rewrite O. cbn [app files]. apply (stores_files _ _ _ quiet_nothing St).
Qed.

(** ** Names *)
Lemma first_word l : exists w rest, l = w ++ rest /\ no x20 w /\ (rest = [] \/ exists more, rest = B " " ++ more).
Proof.
  destruct (split_sp_cases l) as [N|(w & r & -> & N)]; [exists l, []; rewrite app_nil_r; auto|].
  exists w, (x20 :: r). split; [reflexivity|]. split; [exact N|]. right. exists r. reflexivity.
Qed.
Lemma header_any mode size name n : utf8_valid (B "C" ++ mode ++ B " " ++ size ++ B " " ++ name ++ [x0a]) = true ->
  no x20 mode -> no x0a mode -> no x20 size -> no x0a size -> no x0a name -> is_decimal size n ->
  exists w rest, name = w ++ rest /\ (rest = [] <-> no x20 name) /\ is_header (B "C" ++ mode ++ B " " ++ size ++ B " " ++ name ++ [x0a]) n w.
Proof.
  intros U M M' S S' N' D. destruct (first_word name) as (w & rest & E & Nw & R). exists w, rest. split; [exact E|]. split.
  - split; [intros ->; rewrite E, app_nil_r; exact Nw|]. intros H. destruct R as [R|[more ->]]; [exact R|]. destruct H. rewrite E. apply in_or_app. right. left. reflexivity.
  - split; [exact U|]. exists mode, size, rest. rewrite E in N' |- *. apply no_app in N' as [N1 N2]. rewrite <- app_assoc. repeat split; auto.
Qed.

(** ** Places *)
Lemma fold_app_below dir comps : Forall (fun c => c <> B "..") comps -> forall k, below dir k -> below dir (fold_left step_dir comps k).
Proof.
  intros F. induction F as [|c comps D F IH]; intros k K; [exact K|]. cbn [fold_left]. apply IH. unfold step_dir.
  destruct (bytes_eqb c [] || bytes_eqb c (B ".")); [exact K|]. rewrite (proj2 (bytes_eqb_false c (B "..")) D).
  destruct K as [r ->]. exists (r ++ [c]). rewrite app_assoc. reflexivity.
Qed.
Lemma harmless_below dir path : harmless path -> below dir (resolve dir path).
Proof.
  intros [A F]. unfold resolve. destruct path as [|b r].
  - apply fold_app_below; [exact F|]. exists []. rewrite app_nil_r. reflexivity.
  - destruct (is_slash b) eqn:S.
    + unfold is_slash in S. apply beq_true in S. subst b. destruct A. eauto.
    + apply fold_app_below; [exact F|]. exists []. rewrite app_nil_r. reflexivity.
Qed.
(** Every path created comes from a header. *)
Lemma in_files p ops : In (Op_Create p) ops <-> In p (map fst (files ops)).
Proof.
  induction ops as [|o ops IH]; [reflexivity|]. cbn [In]. destruct o; cbn [files map fst In]; rewrite IH; (split; [intros [E|H]; [|]|]); try discriminate; auto.
  - injection E as ->. auto.
  - intros [->|H]; auto.
Qed.
Lemma created_announced W dir input r c p : receive W [dir] true (start input) = (r, c) -> In (Op_Create p) (c_ops c) ->
  exists before line n after, input = before ++ line ++ after /\ (is_header line n p \/ announces [] line n p).
Proof.
  intros H C. apply receive_in in H as [[_ [k E]]|(fs & ops & tail & left & F & I & O & St & X)].
  - exfalso. destruct (c_ops c) as [|a [|b l]] eqn:Q; [destruct C| |].
    + injection E as <- _. destruct C as [C|[]]. discriminate C.
    + injection E as <- <- E. destruct l; [|discriminate E]. destruct C as [C|[C|[]]]; discriminate C.
  - rewrite O in C. apply in_app_or in C as [C|C]; [cbn in C; repeat destruct C as [C|C]; try discriminate C; destruct C|].
    apply in_app_or in C as [C|C].
    + apply in_files in C. rewrite (proj1 (stores_files _ _ _ quiet_nothing St)), map_map in C. cbn [fst] in C. apply in_map_iff in C as (f & <- & Hf).
      apply in_split in Hf as (f1 & f2 & ->). apply Forall_elt in F. exists (concat (map frame f1)), (f_line f), (len (f_data f)), (f_data f ++ [x00] ++ concat (map frame f2) ++ left).
      split; [|left; exact F]. rewrite I, map_app, concat_app. cbn [map concat]. unfold frame at 2. rewrite <- !app_assoc. reflexivity.
    + destruct r as [u|e|]; [destruct X as [-> _]; destruct C| |destruct X as [-> _]; destruct C].
        (destruct X as [->|(line & n & name & ws & [k I2] & Hd & L & [j T])]; [destruct C|];
         assert (C2 : In (Op_Create p) ([] ++ [Op_Create name; Op_Ping] ++ map Op_Write ws)) by (rewrite T; apply in_or_app; auto);
         apply in_app_or in C2 as [[]|C2]; apply in_app_or in C2 as [C2|C2];
         [|apply in_map_iff in C2 as (? & C2 & _); discriminate C2];
         destruct C2 as [C2|[C2|[]]]; [|discriminate C2]; injection C2 as ->;
         exists (concat (map frame fs)), line, n, (concat ws ++ k); split; [rewrite I, I2, <- !app_assoc; reflexivity|tauto]).
Qed.

(** ** The sender *)
Lemma line_unique x y r s : no x0a x -> no x0a y -> x ++ x0a :: r = y ++ x0a :: s -> x = y /\ r = s.
Proof.
  intros Nx Ny E. pose proof (until_app x0a x r Nx) as U. rewrite E, (until_app x0a y s Ny) in U. apply pair_equal_spec in U as [U ->].
  apply app_inj_tail in U as [-> _]. auto.
Qed.
Lemma header_no_newline line n name : is_header line n name -> exists x, line = x ++ [x0a] /\ no x0a x.
Proof.
  intros (U & mode & size & rest & E & M & S & F & R & M' & S' & F' & R' & D).
  exists (B "C" ++ mode ++ B " " ++ size ++ B " " ++ name ++ rest). split; [rewrite E, <- !app_assoc; reflexivity|].
  repeat (apply no_app; split); auto; apply no_cons; (split; [discriminate|intros []]).
Qed.
Lemma utf8_app a b : utf8_valid a = true -> utf8_valid (a ++ b) = utf8_valid b.
Proof.
  remember (length a) as n eqn:L. revert a L. induction n as [n IH] using lt_wf_ind. intros a -> H.
  destruct a as [|a1 a]; [reflexivity|]. cbn [utf8_valid app] in *. destruct (b2n a1 <? 128); [apply (IH (length a)); cbn; auto; lia|].
  destruct a as [|a2 a]; [discriminate H|]. cbn [app]. destruct (in_rng a1 194 223).
  { apply andb_true_iff in H as [-> H]. cbn [andb]. apply (IH (length a)); cbn; auto; lia. }
  destruct a as [|a3 a]; [discriminate H|]. cbn [app].
  destruct (in_rng a1 224 224 && in_rng a2 160 191 || in_rng a1 225 236 && cont a2 || in_rng a1 237 237 && in_rng a2 128 159 || in_rng a1 238 239 && cont a2).
  { apply andb_true_iff in H as [-> H]. cbn [andb]. apply (IH (length a)); cbn; auto; lia. }
  destruct a as [|a4 a]; [discriminate H|]. cbn [app].
  destruct (in_rng a1 240 240 && in_rng a2 144 191 || in_rng a1 241 243 && cont a2 || in_rng a1 244 244 && in_rng a2 128 143); [|discriminate H].
  apply andb_true_iff in H as [H1 H]. rewrite H1. cbn [andb]. apply (IH (length a)); cbn; auto; lia.
Qed.
Definition send_line (name : bytes) : bytes := B "C0644 42 " ++ name ++ [x0a].
Lemma send_header name : utf8_valid name = true -> no x0a name -> exists w, is_header (send_line name) 42 w /\ prefix w name.
Proof.
  intros U N. destruct (header_any (B "0644") (B "42") name 42) as (w & rest & E & _ & H).
  - change (utf8_valid (B "C0644 42 " ++ name ++ [x0a]) = true). rewrite utf8_app by reflexivity. rewrite utf8_app by exact U. reflexivity.
  - intros X; repeat destruct X as [X|X]; try discriminate X; destruct X.
  - intros X; repeat destruct X as [X|X]; try discriminate X; destruct X.
  - intros X; repeat destruct X as [X|X]; try discriminate X; destruct X.
  - intros X; repeat destruct X as [X|X]; try discriminate X; destruct X.
  - exact N.
  - exists (B "42"). split; [left; reflexivity|]. split; [discriminate|]. split; [repeat constructor; vm_compute; discriminate|]. split; reflexivity.
  - exists w. split; [exact H|exists rest; exact E].
Qed.
(** The first file found in what was sent is the first 42 bytes. *)
Lemma first_sent name data f left : utf8_valid name = true -> no x0a name -> sent_ok f -> send_line name ++ data = frame f ++ left ->
  len (f_data f) = 42 /\ data = f_data f ++ x00 :: left.
Proof.
  intros U N F E. destruct (send_header name U N) as (w & Hd & _). unfold frame in E. unfold sent_ok in F.
  destruct (header_no_newline _ _ _ F) as (x & Ex & Nx). destruct (header_no_newline _ _ _ Hd) as (y & Ey & Ny).
  rewrite Ex, Ey, <- !app_assoc in E. cbn [app] in E. apply line_unique in E as [E1 E2]; auto.
  assert (Q : send_line name = f_line f) by (rewrite Ex, Ey, E1; reflexivity).
  destruct (header_of_spec _ _ _ _ (or_intror eq_refl) F) as (m1 & P1). destruct (header_of_spec _ _ _ _ (or_intror eq_refl) Hd) as (m2 & P2).
  rewrite Q, P1 in P2. apply Ok_inj in P2. apply pair_equal_spec in P2 as [P2 _]. apply pair_equal_spec in P2 as [_ P2]. auto.
Qed.
Lemma send_one name data : utf8_valid name = true -> send [source name data] = (Ok tt, send_line name ++ data).
Proof. intros U. cbn [send source src_open src_name src_data]. rewrite U. unfold send_line. rewrite app_nil_r, <- !app_assoc. reflexivity. Qed.
Lemma round_trip_fails W name data path c u : utf8_valid name = true -> no x0a name ->
  receive W [path] false (start (snd (send [source name data]))) = (Ok u, c) ->
  exists more, data = ntake 42 data ++ x00 :: more /\ files (c_ops c) = [(path, ntake 42 data)].
Proof.
  intros U N H. rewrite send_one in H by exact U. cbn [snd] in H. apply received_to in H as (fs & ops & F & I & L & _ & _ & Fi).
  destruct fs as [|f [|g fs]]; try discriminate L. apply Forall_inv in F. cbn [map concat combine] in *. rewrite app_nil_r in I.
  destruct (first_sent name data f (c_in c) U N F I) as [L42 D].
  assert (Q : ntake 42 data = f_data f) by (rewrite D; apply ntake_app; congruence). rewrite Q. eauto.
Qed.
Lemma round_trip_fails_dir W name data dir c u : utf8_valid name = true -> no x0a name ->
  receive W [dir] true (start (snd (send [source name data]))) = (Ok u, c) ->
  exists more n fs, data = ntake 42 data ++ x00 :: more /\ files (c_ops c) = (n, ntake 42 data) :: fs.
Proof.
  intros U N H. rewrite send_one in H by exact U. cbn [snd] in H. apply received_in in H as (fs & ops & F & I & _ & _ & Fi).
  destruct fs as [|f fs]; [discriminate I|]. apply Forall_inv in F. cbn [map concat] in *.
  destruct (first_sent name data f _ U N F I) as [L42 D].
  assert (Q : ntake 42 data = f_data f) by (rewrite D; apply ntake_app; congruence). rewrite Q. eauto.
Qed.
Lemma round_trip_42 W name data path : (forall ops o, W ops o = true) -> utf8_valid name = true -> no x0a name -> len data = 42 ->
  exists c, receive W [path] false (start (snd (send [source name data]))) = (Err tt, c) /\ files (c_ops c) = [(path, data)].
Proof.
  intros G U N L. rewrite send_one by exact U. cbn [snd]. destruct (send_header name U N) as (w & Hd & _).
  unfold receive, start, c_bind, ping_ready. rewrite do_ok by exact G. cbn [receive_files].
  destruct (read_header_line _ _ _ data [Op_Ping] Hd) as (m & R). unfold c_bind at 1. cbn [app]. rewrite R. cbv beta match.
  unfold c_bind at 1. rewrite do_ok by exact G. unfold c_bind at 1. rewrite do_ok by exact G. unfold c_bind at 1, ping_ready. rewrite do_ok by exact G.
  cbn [app]. destruct (loop_ok W G (S (length data)) data [] [Op_Ping; Op_Parents path; Op_Create path; Op_Ping]) as (ws & E & T); [rewrite app_nil_r; lia|].
  rewrite app_nil_r, L in T. unfold c_bind at 1, transfer_file. cbn [c_in]. unfold c_bind at 1. rewrite T. unfold c_bind, read_exactly. cbn [c_in].
  replace (1 <=? len (@nil byte)) with false by reflexivity. eexists. split; [reflexivity|]. cbn [c_ops app files written].
  rewrite <- (app_nil_r (map Op_Write ws)), files_writes, written_writes. cbn [files written]. rewrite app_nil_r, E. reflexivity.
Qed.

(** ** Any name can be sent *)
Lemma decimal_snoc l b : forall a, decimal_value a (l ++ [b]) = decimal_value a l * 10 + (b2n b - 48).
Proof. induction l as [|c l IH]; intros a; cbn [app decimal_value]; auto. Qed.
Lemma decimal_exists n : exists ds, ds <> [] /\ Forall (fun b => 48 <= b2n b <= 57) ds /\ decimal_value 0 ds = n.
Proof.
  induction n as [n IH] using (well_founded_induction N.lt_wf_0).
  assert (D : forall d, d < 10 -> b2n (n2b (48 + d)) = 48 + d) by (intros d Hd; rewrite b2n_n2b; apply N.mod_small; lia).
  destruct (N.lt_ge_cases n 10) as [L|L].
  - exists [n2b (48 + n)]. split; [discriminate|]. split; [constructor; [|constructor]; rewrite D by exact L; lia|].
    cbn [decimal_value]. rewrite D by exact L. lia.
  - destruct (IH (n / 10)) as (ds & Ne & F & V); [lia|]. exists (ds ++ [n2b (48 + n mod 10)]). split; [destruct ds; discriminate|].
    assert (M : n mod 10 < 10) by (apply N.mod_lt; lia).
    split; [apply Forall_app; split; [exact F|constructor; [|constructor]]; rewrite D by exact M; lia|].
    rewrite decimal_snoc, V, D by exact M. lia.
Qed.
Lemma digits_no b ds : b2n b < 48 -> Forall (fun x => 48 <= b2n x <= 57) ds -> no b ds.
Proof. intros L F X. rewrite Forall_forall in F. apply F in X. lia. Qed.
Lemma digits_utf8 ds : Forall (fun x => 48 <= b2n x <= 57) ds -> utf8_valid ds = true.
Proof. intros F. induction F as [|b ds Hb F IH]; [reflexivity|]. cbn [utf8_valid]. replace (b2n b <? 128) with true by lia. exact IH. Qed.
Lemma name_sent name data : utf8_valid name = true -> no x0a name -> no x20 name -> len data < 2 ^ 64 ->
  exists line, sent_ok {| f_line := line; f_name := name; f_data := data |}.
Proof.
  intros U N' N L. destruct (decimal_exists (len data)) as (ds & Ne & F & V).
  assert (D : is_decimal ds (len data)) by (exists ds; auto).
  destruct (header_any (B "0644") ds name (len data)) as (w & rest & E & [_ R] & H); auto.
  - rewrite (utf8_app (B "C")) by reflexivity. rewrite (utf8_app (B "0644")) by reflexivity. rewrite (utf8_app (B " ")) by reflexivity.
    rewrite utf8_app by (apply digits_utf8, F). rewrite (utf8_app (B " ")) by reflexivity. rewrite utf8_app by exact U. reflexivity.
  - intros X; repeat destruct X as [X|X]; try discriminate X; destruct X.
  - intros X; repeat destruct X as [X|X]; try discriminate X; destruct X.
  - apply digits_no; [reflexivity|exact F].
  - apply digits_no; [reflexivity|exact F].
  - rewrite (R N), app_nil_r in E. subst w. eexists. exact H.
Qed.
Lemma outside above last : exists path, utf8_valid path = true /\ no x0a path /\ no x20 path /\
  ~ below (above ++ [last]) (resolve (above ++ [last]) path).
Proof.
  set (b := if bytes_eqb last (B "x") then B "y" else B "x").
  assert (Hb : b = B "x" \/ b = B "y") by (unfold b; destruct (bytes_eqb last (B "x")); auto).
  assert (D : b <> last) by (unfold b; destruct (bytes_eqb last (B "x")) eqn:E; [apply bytes_eqb_true in E; subst; discriminate|apply bytes_eqb_false in E; congruence]).
  clearbody b. exists (B "../" ++ b).
  assert (R : resolve (above ++ [last]) (B "../" ++ b) = above ++ [b]).
  { unfold resolve. destruct Hb as [->| ->].
    - change (fold_left step_dir [B ".."; B "x"] (above ++ [last]) = above ++ [B "x"]). cbn [fold_left].
      change (step_dir (removelast (above ++ [last])) (B "x") = above ++ [B "x"]). rewrite removelast_last. reflexivity.
    - change (fold_left step_dir [B ".."; B "y"] (above ++ [last]) = above ++ [B "y"]). cbn [fold_left].
      change (step_dir (removelast (above ++ [last])) (B "y") = above ++ [B "y"]). rewrite removelast_last. reflexivity. }
  split; [destruct Hb as [->| ->]; reflexivity|].
  split; [destruct Hb as [->| ->]; intros X; repeat destruct X as [X|X]; try discriminate X; destruct X|].
  split; [destruct Hb as [->| ->]; intros X; repeat destruct X as [X|X]; try discriminate X; destruct X|].
  rewrite R. intros [rest E]. rewrite <- app_assoc in E. apply app_inv_head in E. injection E as E _. contradiction.
Qed.

(** ** Options *)
Lemma args_spec args : forall mode d paths, (forall a, In a args -> dashed a -> utf8_valid a = true -> is_option a = true) ->
  exists m, scp_args mode d paths args = Ok (m, d || existsb (bytes_eqb (B "-d")) args, paths ++ filter (fun a => negb (is_option a)) args) /\
    (m <> Mode_Client /\ mode_is m args \/ m = mode /\ mode_is Mode_Client args).
Proof.
  induction args as [|a args IH]; intros mode d paths H.
  { exists mode. cbn. rewrite orb_false_r, app_nil_r. split; [reflexivity|]. right. auto. }
  assert (H' : forall a, In a args -> dashed a -> utf8_valid a = true -> is_option a = true) by (intros b Hb; apply H; right; exact Hb).
  assert (Ha := H a (or_introl eq_refl)).
  cbn [scp_args existsb filter]. unfold is_option, option_of in Ha. unfold is_option at 1, option_of.
  assert (Sy : bytes_eqb (B "-d") a = bytes_eqb a (B "-d")).
  { destruct (bytes_eqb a (B "-d")) eqn:E; [apply bytes_eqb_true in E; subst; reflexivity|apply bytes_eqb_false; apply bytes_eqb_false in E; congruence]. }
  rewrite Sy. clear Sy.
  assert (K : forall m, m <> Mode_Client -> mode_is m args -> mode_is m (a :: args)).
  { intros [| |] Ne M; [destruct (Ne eq_refl)| |]; destruct M as (x & y & E & N); exists (a :: x), y; rewrite E; auto. }
  assert (K2 : a <> B "-f" -> a <> B "-t" -> mode_is Mode_Client args -> mode_is Mode_Client (a :: args)).
  { intros D1 D2 [N1 N2]. split; intros [X|X]; auto. }
  destruct (bytes_eqb a (B "-d")) eqn:Ed.
  { apply bytes_eqb_true in Ed. subst a. cbn [orb negb]. destruct (IH mode true paths H') as (m & R & M). exists m. rewrite orb_true_r. split; [exact R|].
    destruct M as [[D M]|[-> M]]; [left; auto|right; split; [reflexivity|apply K2; auto; discriminate]]. }
  cbn [orb] in *. destruct (bytes_eqb a (B "-f")) eqn:Ef.
  { apply bytes_eqb_true in Ef. subst a. cbn [orb negb]. destruct (IH Mode_Send d paths H') as (m & R & M). exists m. split; [exact R|]. left.
    destruct M as [[D M]|[-> [M1 M2]]]; [auto|]. split; [discriminate|]. exists [], args. auto. }
  cbn [orb] in *. destruct (bytes_eqb a (B "-t")) eqn:Et.
  { apply bytes_eqb_true in Et. subst a. cbn [orb negb]. destruct (IH Mode_Receive d paths H') as (m & R & M). exists m. split; [exact R|]. left.
    destruct M as [[D M]|[-> [M1 M2]]]; [auto|]. split; [discriminate|]. exists [], args. auto. }
  cbn [orb negb] in *. replace (utf8_valid a && match a with b :: _ => beq b x2d | [] => false end) with false.
  2:{ destruct (utf8_valid a) eqn:U; [|reflexivity]. destruct a as [|b r]; [reflexivity|]. destruct (beq_spec b x2d) as [->|D]; [|reflexivity].
      discriminate Ha; [exists r; reflexivity|reflexivity]. }
  destruct (IH mode d (paths ++ [a]) H') as (m & R & M). exists m. rewrite <- app_assoc in R. split; [exact R|].
  apply bytes_eqb_false in Ef, Et. destruct M as [[D M]|[-> M]]; [left; auto|right; auto].
Qed.
Lemma args_refused args : forall mode d paths a, In a args -> dashed a -> utf8_valid a = true -> is_option a = false -> scp_args mode d paths args = Err tt.
Proof.
  induction args as [|b args IH]; intros mode d paths a [] D U O; cbn [scp_args].
  - subst b. unfold is_option, option_of in O. destruct (bytes_eqb a (B "-d")), (bytes_eqb a (B "-f")), (bytes_eqb a (B "-t")); try discriminate O.
    destruct D as [r ->]. rewrite U. reflexivity.
  - destruct (bytes_eqb b (B "-d")); [eapply IH; eassumption|]. destruct (bytes_eqb b (B "-f")); [eapply IH; eassumption|].
    destruct (bytes_eqb b (B "-t")); [eapply IH; eassumption|]. destruct (_ && _); [reflexivity|eapply IH; eassumption].
Qed.
