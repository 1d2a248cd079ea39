(** Property theorems C61, C62, C72 and C73: the example server.  The operating
    system and ed25519 are parameters, as are all those of [PropAuth] and
    [PropSession]. *)
From Coq Require Import Init.Byte Strings.Byte.
From Verif Require Import SshdThm2.
Open Scope res_scope.

(** ** C61 *)
Theorem C61_exec_words : forall os command, exists ws, words command ws /\ (forall ws', words command ws' -> ws' = ws) /\
  sshd_command os (Spawn_Exec command) = match ws with [] => Panic | _ => Ok ws end.
Proof.
  intros os command. destruct (words_exist command) as (ws & W). exists ws. split; [exact W|]. split.
  - intros ws' W'. apply words_argv in W, W'. congruence.
  - exact (exec_command os command ws W).
Qed.
Print Assumptions C61_exec_words.
(** In a session, these are what is run. *)
Theorem C61_words_are_started : forall C rng os write k es r st, is_session C rng (sshd_session os write) k es r st ->
  forall pre c p n command io post, s_log st = pre ++ SE_Spawn c p n (Spawn_Exec command) (Ok io) :: post ->
  exists ws, words command ws /\ ws <> [] /\ os_start os pre ws = true /\ io = all_io.
Proof. exact started_words. Qed.
Print Assumptions C61_words_are_started.
(** No quoting, no variables: [sh -c 'ls $HOME'] is four words. *)
Example C61_example : let os := {| os_shell := None; os_start := fun _ _ => true |} in
  sshd_command os (Spawn_Exec (B "  ls -l	/tmp ")) = Ok [B "ls"; B "-l"; B "/tmp"] /\
  sshd_command os (Spawn_Exec (B "sh -c 'ls $HOME'")) = Ok [B "sh"; B "-c"; B "'ls"; B "$HOME'"] /\
  sshd_command os (Spawn_Exec (B "  ")) = Panic /\
  words (B "  ls -l	/tmp ") [B "ls"; B "-l"; B "/tmp"].
Proof. cbv zeta. split; [reflexivity|]. split; [reflexivity|]. split; [reflexivity|]. apply words_iff. reflexivity. Qed.

(** ** C62: refuted: who can sign at all, can enter as anyone. *)
Theorem C62_authorised_keys_refuted : forall H R C rng ed (user service key : bytes) (sign : bytes -> bytes),
  host_ok H -> host_rng_ok R -> crypto_ok C -> rngs_ok rng ->
  utf8_valid user = true -> len user + len service + len key <= 800 -> ed_key ed key = true ->
  (forall m, ed_signature ed (sign m) = true /\ ed_verify ed key m (sign m) = true /\ len (sign m) <= 1000) ->
  exists s st, authenticate_new_client H R C rng (sshd_auth ed) s = Some (AO_Auth (Ok user) st).
Proof. exact any_key_any_user. Qed.
Print Assumptions C62_authorised_keys_refuted.
(** What holds: it has signed, with the key it presented, for this session and user. *)
Theorem C62_authorised_keys_partial : forall H R C rng ed, host_ok H -> host_rng_ok R -> crypto_ok C -> rngs_ok rng ->
  forall s u st, authenticate_new_client H R C rng (sshd_auth ed) s = Some (AO_Auth (Ok u) st) ->
  exists c s1 o pls rest pl service key sg, handle_new_client H R s [] = (Ok c, s1, o) /\ received_as C (receive_cipher c) s1 pls rest /\ In pl pls /\
    is_wire (Msg_UserAuth (UA_Request {| ua_user := u; ua_service := service;
       ua_method := M_PublicKeySigned (B "ssh-ed25519") (named (B "ssh-ed25519") key) (named (B "ssh-ed25519") sg) |})) pl /\
    ed_verify ed key (sign_data (session_identifier c) u service (B "ssh-ed25519") (named (B "ssh-ed25519") key)) sg = true.
Proof. exact entered_with_signature. Qed.
Print Assumptions C62_authorised_keys_partial.
(** Signatures that are a hash under the key. *)
Definition toy_ed : Ed25519 := {| ed_key := fun k => len k =? 4; ed_signature := fun s => len s =? 32; ed_verify := fun k m s => bytes_eqb s (toy_hash (k ++ m)) |}.
Example C62_example :
  (forall m, ed_signature toy_ed (toy_hash (B "mine" ++ m)) = true /\ ed_verify toy_ed (B "mine") m (toy_hash (B "mine" ++ m)) = true /\ len (toy_hash (B "mine" ++ m)) <= 1000) /\
  (exists s st, authenticate_new_client toy_host toy_rng toy_crypto toy_pads (sshd_auth toy_ed) s = Some (AO_Auth (Ok (B "root")) st)) /\
  map (h_authenticate (sshd_auth toy_ed) [] (B "root") (B "ssh-connection"))
    [Auth_None; Auth_Password (B "x"); Auth_PublicKey (B "ssh-rsa") (B "mine") (toy_hash (B "mineX")) (B "X");
     Auth_PublicKey (B "ssh-ed25519") (B "mine") (toy_hash (B "mineX")) (B "Y"); Auth_PublicKey (B "ssh-ed25519") (B "mine") (toy_hash (B "mineX")) (B "X")]
  = [Err tt; Panic; Err tt; Err tt; Ok (B "root")].
Proof.
  assert (S : forall m, ed_signature toy_ed (toy_hash (B "mine" ++ m)) = true /\ ed_verify toy_ed (B "mine") m (toy_hash (B "mine" ++ m)) = true /\ len (toy_hash (B "mine" ++ m)) <= 1000).
  { intros m. assert (L : len (toy_hash (B "mine" ++ m)) = 32) by apply toy_hash_ok. cbn [toy_ed ed_signature ed_verify]. rewrite L, bytes_eqb_refl. repeat split. lia. }
  split; [exact S|]. split; [|vm_compute; reflexivity].
  apply (any_key_any_user toy_host toy_rng toy_crypto toy_pads toy_ed (B "root") (B "ssh-connection") (B "mine") (fun m => toy_hash (B "mine" ++ m))
    toy_host_ok toy_rng_ok toy_ok toy_pads_ok); [reflexivity|vm_compute; discriminate|reflexivity|exact S].
Qed.

(** ** C72: refuted: in every session with a channel the client can end the
    server with one more packet. *)
Theorem C72_bad_command_refused_refuted : forall C rng os write k es st c p old command ws,
  is_session C rng (sshd_session os write) k es (Ok false) st -> k_in (s_conn st) = [] ->
  chan_after (s_log st) c = Some (p, old) -> c < 2 ^ 32 -> len command <= 20000 -> words command ws ->
  (ws = [] \/ forall log, os_start os log ws = false) ->
  exists t st', is_session C rng (sshd_session os write) (more t k) (es ++ [Ev_Packet]) Panic st'.
Proof. exact bad_command_panics. Qed.
Print Assumptions C72_bad_command_refused_refuted.
(** What holds: it panics about no other command. *)
Theorem C72_bad_command_refused_partial : forall C rng os write k es r st, is_session C rng (sshd_session os write) k es r st ->
  forall pre c p n command x post, s_log st = pre ++ SE_Spawn c p n (Spawn_Exec command) x :: post ->
  forall ws, words command ws -> (r = Panic /\ x = Panic /\ post = [] <-> ws = [] \/ os_start os pre ws = false).
Proof. exact start_panics. Qed.
Print Assumptions C72_bad_command_refused_partial.
(** A system with [ls] only, and no SHELL. *)
Definition toy_os : Os := {| os_shell := None; os_start := fun _ ws => match ws with w :: _ => bytes_eqb w (B "ls") | [] => false end |}.
Definition toy_sshd : SHandlers := sshd_session toy_os (fun _ _ d => Ok (len d)).
Definition toy_sshd_run (ms : list Channel) (es : list Ev) : option (res InError bool * list SEvent) :=
  match session_run toy_crypto toy_pads toy_sshd es (session_init (toy_conn (map Msg_Channel ms))) with
  | Some (r, st) => Some (r, s_log st)
  | None => None
  end.
Example C72_example :
  map (fun q => match toy_sshd_run [toy_open 7; toy_req 0 true q] [Ev_Packet; Ev_Packet] with Some (r, log) => Some (r, skipn 3 log) | None => None end)
    [SR_Exec (B "ls -l"); SR_Exec (B " "); SR_Exec (B "cat"); SR_Shell] =
  [Some (Ok false, [SE_Spawn 0 7 0 (Spawn_Exec (B "ls -l")) (Ok all_io); put (C_Success 7)]);
   Some (Panic, [SE_Spawn 0 7 0 (Spawn_Exec (B " ")) Panic]);
   Some (Panic, [SE_Spawn 0 7 0 (Spawn_Exec (B "cat")) Panic]);
   Some (Panic, [SE_Spawn 0 7 0 Spawn_Shell Panic])].
Proof. vm_compute. reflexivity. Qed.

(** ** C73: refuted: a child that was killed is reported as successful, *)
Theorem C73_killed_reported_refuted : forall C rng h k es r st how, is_session C rng h k es r st -> reports how es ->
  forall pre n s post signal, s_log st = pre ++ SE_Exit n s :: post -> how n = Killed signal ->
  exists l1 c p ty io l2 post', pre = l1 ++ SE_Spawn c p n ty (Ok io) :: l2 /\ post = put (exit_status p 0) :: post' /\ at_rest post'.
Proof.
  intros C rng h k es r st how IS Rp pre n s post signal E Hw.
  destruct (status_reported C rng h k es r st how IS Rp pre n s post E) as (l1 & c & p & ty & io & l2 & post' & X). rewrite Hw in X.
  exists l1, c, p, ty, io, l2, post'. exact X.
Qed.
Print Assumptions C73_killed_reported_refuted.
(** and no exit-signal is ever sent. *)
Theorem C73_no_signal_sent_refuted : forall C rng h k es r st, is_session C rng h k es r st ->
  forall q, In (put (C_Request q)) (s_log st) -> rq_ty q = B "exit-status".
Proof. exact no_signal_sent. Qed.
Print Assumptions C73_no_signal_sent_refuted.
(** What holds: the code of a child that exited is reported. *)
Theorem C73_killed_reported_partial : forall C rng h k es r st how, is_session C rng h k es r st -> reports how es ->
  forall pre n s post code, s_log st = pre ++ SE_Exit n s :: post -> how n = Exited code -> code < 2 ^ 32 ->
  exists l1 c p ty io l2 post', pre = l1 ++ SE_Spawn c p n ty (Ok io) :: l2 /\ post = put (exit_status p code) :: post' /\ at_rest post'.
Proof.
  intros C rng h k es r st how IS Rp pre n s post code E Hw L.
  destruct (status_reported C rng h k es r st how IS Rp pre n s post E) as (l1 & c & p & ty & io & l2 & post' & X). rewrite Hw in X.
  exists l1, c, p, ty, io, l2, post'. cbn [sshd_status] in X. unfold u32_max1 in X. rewrite N.mod_small in X by exact L. exact X.
Qed.
Print Assumptions C73_killed_reported_partial.
(** Of two children one is killed and one fails. *)
Example C73_example : let how n := if n =? 0 then Killed 9 else Exited 3 in
  let es := [Ev_Packet; Ev_Packet; Ev_Packet; Ev_Exit 0 0; Ev_Exit 1 3] in
  reports how es /\
  toy_sshd_run [toy_open 7; toy_req 0 false (SR_Exec (B "ls")); toy_req 0 false (SR_Exec (B "ls"))] es =
  Some (Ok false,
    [got (toy_open 7); put (conf 7 0);
     got (toy_req 0 false (SR_Exec (B "ls"))); SE_Spawn 0 7 0 (Spawn_Exec (B "ls")) (Ok all_io);
     got (toy_req 0 false (SR_Exec (B "ls"))); SE_Spawn 0 7 1 (Spawn_Exec (B "ls")) (Ok all_io); SE_Dropped 0;
     SE_Exit 0 0; put (exit_status 7 0); SE_Exit 1 3; put (exit_status 7 3)]).
Proof.
  cbv zeta. split; [|vm_compute; reflexivity]. intros n s I. cbn [In] in I. repeat (destruct I as [I|I]; [try discriminate I|]); [| |destruct I].
  - injection I as <- <-. reflexivity.
  - injection I as <- <-. reflexivity.
Qed.
