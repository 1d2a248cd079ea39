(** A client, handlers and random sources for the examples. *)
From Coq Require Import Init.Byte Strings.Byte.
From Verif Require Export HostToy HostThm3 AuthThm2 RxThm.
Open Scope res_scope.

(** The session that the toy handshake establishes. *)
Definition client_of (x : res HandleNewClientError HostClient * stream * bytes) : HostClient :=
  match fst (fst x) with Ok c => c | _ => {| session_identifier := []; receive_cipher := toy_cipher; send_cipher := toy_cipher |} end.
Definition toy_c : HostClient := Eval vm_compute in client_of (handle_new_client toy_host toy_rng toy_stream []).
(** What the server writes in it. *)
Definition toy_out : bytes := Eval vm_compute in snd (handle_new_client toy_host toy_rng toy_stream []).
Lemma toy_shakes t : handle_new_client toy_host toy_rng (toy_stream ++ t) [] = (Ok toy_c, t, toy_out).
Proof.
  assert (E : handle_new_client toy_host toy_rng toy_stream [] = (Ok toy_c, [], toy_out)) by (vm_compute; reflexivity).
  exact (handshake_local _ _ _ _ _ _ _ t E).
Qed.
Definition toy_pads : N -> N -> bytes := fun _ n => repeat x04 (N.to_nat n).
Lemma toy_pads_ok : rngs_ok toy_pads.
Proof. intros k n. unfold toy_pads, len. rewrite repeat_length. lia. Qed.

(** Frames of payloads, numbered on. *)
Definition toy_raw (pl : bytes) : bytes :=
  let p := wrap_pad 8 false (len pl) in be32 (1 + len pl + p) ++ [n2b p] ++ pl ++ repeat x05 (N.to_nat p).
Fixpoint toy_frames (c : Cipher) (pls : list bytes) : bytes :=
  match pls with
  | [] => []
  | pl :: pls => seal_with toy_crypto c (toy_raw pl) ++ toy_frames (bump c) pls
  end.
Definition toy_client (ms : list Message) : bytes := toy_stream ++ toy_frames (receive_cipher toy_c) (map wire ms).

(** Joe has the key "good"; its signatures are the toy hash. *)
Definition toy_handlers : AHandlers bytes := {|
  h_exists := fun _ user _ _ key => if bytes_eqb key (B "good") then Ok tt else Err tt;
  h_authenticate := fun _ user _ auth =>
    match auth with
    | Auth_None => Err tt
    | Auth_Password p => if bytes_eqb p (B "secret") then Ok user else Err tt
    | Auth_PublicKey _ key sg msg => if bytes_eqb key (B "good") && bytes_eqb sg (toy_hash msg) then Ok user else Err tt
    end |}.
Definition toy_request (m : Method) : Message :=
  Msg_UserAuth (UA_Request {| ua_user := B "joe"; ua_service := B "ssh-connection"; ua_method := m |}).
Definition toy_service : Message := Msg_ServiceRequest (B "ssh-userauth").
Definition toy_alg : bytes := B "alg".
Definition toy_message : bytes :=
  sign_data (session_identifier toy_c) (B "joe") (B "ssh-connection") toy_alg (named toy_alg (B "good")).
Definition toy_signed : Method :=
  M_PublicKeySigned toy_alg (named toy_alg (B "good")) (named toy_alg (toy_hash toy_message)).
Definition toy_connect (ms : list Message) : option (AOutcome bytes) :=
  authenticate_new_client toy_host toy_rng toy_crypto toy_pads toy_handlers (toy_client ms).
(** The same without the handshake. *)
Definition toy_talk (ms : list Message) : option (AOutcome bytes) :=
  match auth_phase toy_crypto toy_pads toy_handlers (session_identifier toy_c) (conn_of toy_c (toy_frames (receive_cipher toy_c) (map wire ms)) toy_out) with
  | Some (r, st) => Some (AO_Auth r st)
  | None => None
  end.
Lemma toy_connected ms : toy_connect ms = toy_talk ms.
Proof. unfold toy_connect, authenticate_new_client, toy_client. rewrite toy_shakes. cbv beta iota. unfold toy_talk. reflexivity. Qed.
(** How it ends, and what happened. *)
Definition ends (o : option (AOutcome bytes)) : option (res unit bytes) :=
  match o with Some (AO_Auth r _) => Some r | _ => None end.
Definition log_of (o : option (AOutcome bytes)) : list (AEvent bytes) :=
  match o with Some (AO_Auth _ st) => a_log st | _ => [] end.
Lemma toy_said ms r log : match toy_talk ms with Some (AO_Auth r st) => Some (r, a_log st) | _ => None end = Some (r, log) ->
  ends (toy_connect ms) = Some r /\ log_of (toy_connect ms) = log.
Proof.
  generalize (toy_connected ms). generalize (toy_connect ms) (toy_talk ms). intros a b ->. destruct b as [[b o|r0 st]|]; try discriminate. intros Q. apply (f_equal (fun x => match x with Some p => p | None => (r, log) end)), pair_equal_spec in Q as [-> <-]. auto.
Qed.

Lemma toy_raw_ok pl : len pl <= 60000 -> loose_packet pl (repeat x05 (N.to_nat (wrap_pad 8 false (len pl)))) (toy_raw pl) /\ len (toy_raw pl) <= len pl + 16.
Proof.
  intros L. pose proof (wrap_pad_range B8 false (len pl)) as Rg. pose proof (wrap_pad_aligned B8 false (len pl)) as Al. cbn [bs_usize] in *.
  assert (LP : len (repeat x05 (N.to_nat (wrap_pad 8 false (len pl)))) = wrap_pad 8 false (len pl)) by (unfold len; rewrite repeat_length; lia).
  unfold toy_raw. set (p := wrap_pad 8 false (len pl)) in *. split.
  - unfold loose_packet. rewrite LP. repeat split; try lia. exact Al.
  - lens. rewrite be32_len, LP. lia.
Qed.
