(** Property theorems C57-C60, C70 and C71: the file transfer program.  The world
    decides which operations succeed. *)
From Coq Require Import Init.Byte Strings.Byte.
From Verif Require Import ScpThm2.

(** ** The transfer of the examples: two files, then nothing. *)
Definition yes : World := fun _ _ => true.
Definition ex_files : list Sent :=
  [{| f_line := B "C0644 5 a.txt" ++ [x0a]; f_name := B "a.txt"; f_data := B "hello" |};
   {| f_line := B "C0755 +03 my file" ++ [x0a]; f_name := B "my"; f_data := [x00; x0a; xff] |}].
Lemma no_dec b l : existsb (beq b) l = false -> no b l.
Proof.
  intros H X. assert (Y : existsb (beq b) l = true) by (apply existsb_exists; exists b; split; [exact X|apply beq_refl]). congruence.
Qed.
Ltac nos := apply no_dec; vm_compute; reflexivity.
Lemma ex_files_ok : Forall sent_ok ex_files.
Proof.
  constructor; [|constructor; [|constructor]].
  - split; [reflexivity|]. exists (B "0644"), (B "5"), []. split; [reflexivity|]. split; [nos|]. split; [nos|]. split; [nos|]. split; [auto|].
    split; [nos|]. split; [nos|]. split; [nos|]. split; [nos|].
    exists (B "5"). split; [auto|]. split; [discriminate|]. split; [repeat constructor; vm_compute; discriminate|]. split; reflexivity.
  - split; [reflexivity|]. exists (B "0755"), (B "+03"), (B " file"). split; [reflexivity|]. split; [nos|]. split; [nos|]. split; [nos|].
    split; [right; exists (B "file"); reflexivity|]. split; [nos|]. split; [nos|]. split; [nos|]. split; [nos|].
    exists (B "03"). split; [right; reflexivity|]. split; [discriminate|]. split; [repeat constructor; vm_compute; discriminate|]. split; reflexivity.
Qed.

(** ** C57 *)
(** If [scp -t] succeeds, the input was one file after another, each announced
    with its length; each was stored at its path, acknowledged after the header
    and after the contents. *)
Theorem C57_received_to_paths : forall W to input u c, receive W to false (start input) = (Ok u, c) ->
  exists fs ops, Forall sent_ok fs /\ input = concat (map frame fs) ++ c_in c /\ length fs = length to /\
    c_ops c = [Op_Ping] ++ ops /\ stores (fun p => [Op_Parents p]) (combine to (map f_data fs)) ops /\ files (c_ops c) = combine to (map f_data fs).
Proof. exact received_to. Qed.
Print Assumptions C57_received_to_paths.

Theorem C57_received_to_directory : forall W dir input u c, receive W [dir] true (start input) = (Ok u, c) ->
  exists fs ops, Forall sent_ok fs /\ input = concat (map frame fs) /\ c_ops c = [Op_Dirs dir; Op_Chdir dir; Op_Ping] ++ ops /\
    stores (fun _ => []) (map (fun f => (f_name f, f_data f)) fs) ops /\ files (c_ops c) = map (fun f => (f_name f, f_data f)) fs.
Proof. exact received_in. Qed.
Print Assumptions C57_received_to_directory.

(** However it ends, the files before the one it failed in are complete, and
    that one holds the beginning of its contents. *)
Theorem C57_interrupted_to_paths : forall W to input e c, receive W to false (start input) = (Err e, c) ->
  c_ops c = [] \/
  exists fs ops tail left, Forall sent_ok fs /\ input = concat (map frame fs) ++ left /\ c_ops c = [Op_Ping] ++ ops ++ tail /\
    stores (fun p => [Op_Parents p]) (combine to (map f_data fs)) ops /\ (length fs <= length to)%nat /\
    unfinished (fun p => [Op_Parents p]) (fun _ => nth (length fs) to []) left tail.
Proof. intros W to input e c H. apply receive_to in H as [[_ H]|H]; [left; exact H|right; exact H]. Qed.
Print Assumptions C57_interrupted_to_paths.

Theorem C57_interrupted_to_directory : forall W dir input e c, receive W [dir] true (start input) = (Err e, c) ->
  prefix (c_ops c) [Op_Dirs dir; Op_Chdir dir] \/
  exists fs ops tail left, Forall sent_ok fs /\ input = concat (map frame fs) ++ left /\ c_ops c = [Op_Dirs dir; Op_Chdir dir; Op_Ping] ++ ops ++ tail /\
    stores (fun _ => []) (map (fun f => (f_name f, f_data f)) fs) ops /\ unfinished (fun _ => []) (fun name => name) left tail.
Proof. intros W dir input e c H. apply receive_in in H as [[_ H]|H]; [left; exact H|right; exact H]. Qed.
Print Assumptions C57_interrupted_to_directory.

(** Whatever is sent properly is received, if nothing fails. *)
Theorem C57_all_sent_is_received : forall W fs, generous W -> Forall sent_ok fs ->
  (forall to rest, length fs = length to -> exists c, receive W to false (start (concat (map frame fs) ++ rest)) = (Ok tt, c) /\
    c_in c = rest /\ files (c_ops c) = combine to (map f_data fs)) /\
  (forall dir, exists c, receive W [dir] true (start (concat (map frame fs))) = (Ok tt, c) /\
    files (c_ops c) = map (fun f => (f_name f, f_data f)) fs).
Proof. intros W fs G F. split; [intros to rest; apply receive_to_ok; assumption|intros dir; apply receive_in_ok; assumption]. Qed.
Print Assumptions C57_all_sent_is_received.

Example C57_example :
  concat (map frame ex_files) = B "C0644 5 a.txt" ++ [x0a] ++ B "hello" ++ [x00] ++ B "C0755 +03 my file" ++ [x0a; x00; x0a; xff; x00] /\
  Forall sent_ok ex_files /\
  (let '(r, c) := receive yes [B "dir"] true (start (concat (map frame ex_files))) in
   r = Ok tt /\ files (c_ops c) = [(B "a.txt", B "hello"); (B "my", [x00; x0a; xff])]) /\
  (* cut short *)
  (let '(r, c) := receive yes [B "x"; B "y"] false (start (ntake 40 (concat (map frame ex_files)))) in
   r = Err tt /\ files (c_ops c) = [(B "x", B "hello"); (B "y", [])]).
Proof. split; [reflexivity|]. split; [exact ex_files_ok|]. vm_compute. auto. Qed.

(** ** C58 *)
(** What [scp -f] sends never arrives: whichever file is sent, either the
    receiver fails or it stores the first 42 bytes of a longer file. *)
Theorem C58_round_trip_refuted : forall W name data, utf8_valid name = true -> no x0a name ->
  fst (send [source name data]) = Ok tt /\
  (forall path u c, receive W [path] false (start (snd (send [source name data]))) = (Ok u, c) -> files (c_ops c) <> [(path, data)]) /\
  (forall dir u c n, receive W [dir] true (start (snd (send [source name data]))) = (Ok u, c) -> files (c_ops c) <> [(n, data)]).
Proof.
  intros W name data U N. split; [rewrite send_one by exact U; reflexivity|]. split.
  - intros path u c H. apply round_trip_fails in H as (more & D & ->); auto. intros X. injection X as X.
    rewrite X in D. apply (f_equal (@length _)) in D. rewrite app_length in D. cbn in D. lia.
  - intros dir u c n H. apply round_trip_fails_dir in H as (more & m & fs & D & ->); auto. intros X. injection X as X1 X2.
    rewrite X2 in D. apply (f_equal (@length _)) in D. rewrite app_length in D. cbn in D. lia.
Qed.
Print Assumptions C58_round_trip_refuted.

(** The size announced is always 42 and the zero byte is missing: a file of 42
    bytes is stored, but reported as failed. *)
Theorem C58_round_trip_partial : forall W name data path, generous W -> utf8_valid name = true -> no x0a name -> len data = 42 ->
  exists c, receive W [path] false (start (snd (send [source name data]))) = (Err tt, c) /\ files (c_ops c) = [(path, data)].
Proof. exact round_trip_42. Qed.
Print Assumptions C58_round_trip_partial.

Example C58_example :
  snd (send [source (B "a") (B "hello")]) = B "C0644 42 a" ++ [x0a] ++ B "hello" /\
  (let '(r, c) := receive yes [B "b"] false (start (snd (send [source (B "a") (B "hello")]))) in
   r = Err tt /\ files (c_ops c) = [(B "b", [])]) /\
  (let '(r, c) := receive yes [B "b"] false (start (snd (send [source (B "a") (repeat x61 42 ++ [x00; x62])]))) in
   r = Ok tt /\ files (c_ops c) = [(B "b", repeat x61 42)]).
Proof. vm_compute. auto. Qed.

(** ** C59 *)
(** Any path at all can be sent, and the file is created there, from the target
    directory. *)
Theorem C59_any_path_refuted : forall W dir path data, generous W -> utf8_valid path = true -> no x0a path -> no x20 path -> len data < 2 ^ 64 ->
  exists input c, receive W [dir] true (start input) = (Ok tt, c) /\ files (c_ops c) = [(path, data)].
Proof.
  intros W dir path data G U N N2 L. destruct (name_sent path data U N N2 L) as (line & S).
  destruct (receive_in_ok W G [{| f_line := line; f_name := path; f_data := data |}] dir) as (c & R & F); [constructor; [exact S|constructor]|]. eauto.
Qed.
Print Assumptions C59_any_path_refuted.

Theorem C59_stays_inside_refuted : forall W dir above last data, generous W -> len data < 2 ^ 64 ->
  exists input c path, receive W [dir] true (start input) = (Ok tt, c) /\ files (c_ops c) = [(path, data)] /\
    ~ below (above ++ [last]) (resolve (above ++ [last]) path).
Proof.
  intros W dir above last data G L. destruct (outside above last) as (path & U & N1 & N2 & O).
  destruct (C59_any_path_refuted W dir path data G U N1 N2 L) as (input & c & R & F). exists input, c, path. auto.
Qed.
Print Assumptions C59_stays_inside_refuted.

(** Files with relative names without .. do stay inside, symbolic links aside;
    every file created has the name a header gives. *)
Theorem C59_stays_inside_partial : forall W dir input r c path, receive W [dir] true (start input) = (r, c) -> In (Op_Create path) (c_ops c) ->
  (exists before line n after, input = before ++ line ++ after /\ (is_header line n path \/ announces [] line n path)) /\
  (harmless path -> forall place, below place (resolve place path)).
Proof. intros W dir input r c path H C. split; [eapply created_announced; eassumption|intros Q place; apply harmless_below, Q]. Qed.
Print Assumptions C59_stays_inside_partial.

Example C59_example :
  (let '(r, c) := receive yes [B "in"] true (start (B "C0644 1 ../../etc/x" ++ [x0a; x61; x00])) in
   r = Ok tt /\ files (c_ops c) = [(B "../../etc/x", [x61])]) /\
  (let '(r, c) := receive yes [B "in"] true (start (B "C0644 1 a//./b" ++ [x0a; x61; x00])) in In (Op_Create (B "a//./b")) (c_ops c)) /\
  resolve [B "home"; B "in"] (B "../../etc/x") = [B "etc"; B "x"] /\
  resolve [B "home"; B "in"] (B "a//./b") = [B "home"; B "in"; B "a"; B "b"] /\ harmless (B "a//./b").
Proof.
  split; [vm_compute; auto|]. split; [vm_compute; auto 6|]. split; [reflexivity|]. split; [reflexivity|].
  split; [intros [q X]; discriminate X|]. repeat constructor; discriminate.
Qed.

(** ** C60 *)
(** No file whose name contains a space is stored under that name. *)
Theorem C60_name_kept_refuted : forall W dir mode size name data, generous W ->
  utf8_valid (B "C" ++ mode ++ B " " ++ size ++ B " " ++ name ++ [x0a]) = true ->
  no x20 mode -> no x0a mode -> no x20 size -> no x0a size -> no x0a name -> is_decimal size (len data) -> In x20 name ->
  exists c w, receive W [dir] true (start ((B "C" ++ mode ++ B " " ++ size ++ B " " ++ name ++ [x0a]) ++ data ++ [x00])) = (Ok tt, c) /\
    files (c_ops c) = [(w, data)] /\ w <> name.
Proof.
  intros W dir mode size name data G U M M' S S' N D Sp. destruct (header_any mode size name _ U M M' S S' N D) as (w & rest & E & R & H).
  destruct (receive_in_ok W G [{| f_line := B "C" ++ mode ++ B " " ++ size ++ B " " ++ name ++ [x0a]; f_name := w; f_data := data |}] dir) as (c & Q & F); [constructor; [exact H|constructor]|].
  cbn [map concat] in Q. unfold frame in Q. cbn [f_line f_data] in Q. rewrite app_nil_r in Q. exists c, w. split; [exact Q|]. split; [exact F|].
  intros ->. apply (proj1 R); [|exact Sp]. rewrite <- app_nil_r in E at 1. apply app_inv_head in E. auto.
Qed.
Print Assumptions C60_name_kept_refuted.

(** Any other file is. *)
Theorem C60_name_kept_partial : forall W dir mode size name data, generous W ->
  utf8_valid (B "C" ++ mode ++ B " " ++ size ++ B " " ++ name ++ [x0a]) = true ->
  no x20 mode -> no x0a mode -> no x20 size -> no x0a size -> no x0a name -> is_decimal size (len data) -> no x20 name ->
  exists c, receive W [dir] true (start ((B "C" ++ mode ++ B " " ++ size ++ B " " ++ name ++ [x0a]) ++ data ++ [x00])) = (Ok tt, c) /\
    files (c_ops c) = [(name, data)].
Proof.
  intros W dir mode size name data G U M M' S S' N D Sp. destruct (header_any mode size name _ U M M' S S' N D) as (w & rest & E & R & H).
  rewrite (proj2 R Sp), app_nil_r in E. subst w.
  destruct (receive_in_ok W G [{| f_line := B "C" ++ mode ++ B " " ++ size ++ B " " ++ name ++ [x0a]; f_name := name; f_data := data |}] dir) as (c & Q & F); [constructor; [exact H|constructor]|].
  cbn [map concat] in Q. unfold frame in Q. cbn [f_line f_data] in Q. rewrite app_nil_r in Q. exists c. auto.
Qed.
Print Assumptions C60_name_kept_partial.

Example C60_example :
  (let '(r, c) := receive yes [B "in"] true (start (B "C0644 1 my file" ++ [x0a; x61; x00])) in r = Ok tt /\ files (c_ops c) = [(B "my", [x61])]) /\
  (let '(r, c) := receive yes [B "in"] true (start (B "C0644 1 my_file" ++ [x0a; x61; x00])) in r = Ok tt /\ files (c_ops c) = [(B "my_file", [x61])]).
Proof. vm_compute. auto. Qed.

(** ** C70 *)
(** A D where a header is expected panics. *)
Theorem C70_receiver_survives_refuted : forall W fs dir k, generous W -> Forall sent_ok fs ->
  exists c, receive W [dir] true (start (concat (map frame fs) ++ x44 :: k)) = (Panic, c).
Proof. intros W fs dir k G. exact (receive_in_panics W G fs dir k). Qed.
Print Assumptions C70_receiver_survives_refuted.

(** Nothing else does. *)
Theorem C70_receiver_survives_partial : forall W input c,
  (forall to, receive W to false (start input) = (Panic, c) -> exists fs k, Forall sent_ok fs /\ input = concat (map frame fs) ++ x44 :: k) /\
  (forall dir, receive W [dir] true (start input) = (Panic, c) -> exists fs k, Forall sent_ok fs /\ input = concat (map frame fs) ++ x44 :: k).
Proof.
  intros W input c. split.
  - intros to H. apply receive_to in H as [[E _]|(fs & ops & tail & left & F & I & _ & _ & _ & _ & k & E)]; [discriminate E|]. subst left. eauto.
  - intros dir H. apply receive_in in H as [[E _]|(fs & ops & tail & left & F & I & _ & _ & _ & k & E)]; [discriminate E|]. subst left. eauto.
Qed.
Print Assumptions C70_receiver_survives_partial.

Example C70_example :
  fst (receive yes [B "in"] true (start (concat (map frame ex_files) ++ B "D0755 0 dir" ++ [x0a]))) = Panic /\
  fst (receive yes [B "in"] true (start (concat (map frame ex_files) ++ B "E"))) = Err tt.
Proof. vm_compute. auto. Qed.

(** ** C71 *)
Theorem C71_options : forall args,
  (forall a, In a args -> dashed a -> utf8_valid a = true -> is_option a = true) ->
  exists m, scp_args Mode_Client false [] args = Ok (m, existsb (bytes_eqb (B "-d")) args, filter (fun a => negb (is_option a)) args) /\ mode_is m args.
Proof.
  intros args H. destruct (args_spec args Mode_Client false [] H) as (m & R & [[_ M]|[-> M]]); [exists m; auto|exists Mode_Client; auto].
Qed.
Print Assumptions C71_options.

Theorem C71_other_options_refused : forall args a, In a args -> dashed a -> utf8_valid a = true -> is_option a = false ->
  scp_args Mode_Client false [] args = Err tt.
Proof. intros args. exact (args_refused args Mode_Client false []). Qed.
Print Assumptions C71_other_options_refused.

Example C71_example :
  scp_args Mode_Client false [] [B "-t"; B "a"; B "-d"; B "b c"] = Ok (Mode_Receive, true, [B "a"; B "b c"]) /\
  scp_args Mode_Client false [] [B "-t"; B "a"; B "-f"] = Ok (Mode_Send, false, [B "a"]) /\
  scp_args Mode_Client false [] [B "-t"; B "-r"; B "a"] = Err tt.
Proof. vm_compute. auto. Qed.
