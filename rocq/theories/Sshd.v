(** Model of nora_sshd/src/main.rs: the handlers of the example server. *)
From Coq Require Import Init.Byte Strings.Byte.
From Verif Require Export Session Scp.

(** ed25519_dalek: which bytes are a public key, which are a signature, and
    [PublicKey::verify]. *)
Record Ed25519 := { ed_key : bytes -> bool; ed_signature : bytes -> bool; ed_verify : bytes -> bytes -> bytes -> bool }.

Section Sshd.
  Context (ed : Ed25519).
  (** lines 58-70 *)
  Definition sshd_exists (algorithm : bytes) : res unit unit :=
    if bytes_eqb algorithm (B "ssh-ed25519") then Ok tt else Err tt.
  (** lines 72-96; a user is its name (line 38) *)
  Definition sshd_authenticate (user : bytes) (auth : Auth) : res unit bytes :=
    match auth with
    | Auth_None => Err tt
    | Auth_Password _ => Panic
    | Auth_PublicKey algorithm key signature message =>
      if negb (bytes_eqb algorithm (B "ssh-ed25519")) then Err tt else
      if negb (ed_key ed key) then Err tt else
      if negb (ed_signature ed signature) then Err tt else
      if negb (ed_verify ed key message signature) then Err tt else
      unwrap (from_utf8 tt user)
    end.
  Definition sshd_auth : AHandlers bytes :=
    {| h_exists := fun _ _ _ algorithm _ => sshd_exists algorithm; h_authenticate := fun _ user _ auth => sshd_authenticate user auth |}.
End Sshd.

(** The variable SHELL, and which programs can be started after what happened. *)
Record Os := { os_shell : option bytes; os_start : list SEvent -> list bytes -> bool }.
(** [u8::is_ascii_whitespace] *)
Definition is_space (b : byte) : bool := beq b x20 || beq b x09 || beq b x0a || beq b x0c || beq b x0d.
(** lines 108-111, 126-136: program and arguments *)
Definition sshd_command (os : Os) (ty : SpawnType) : res unit (list bytes) :=
  match ty with
  | Spawn_Shell => match os_shell os with Some shell => Ok [shell] | None => Panic end
  | Spawn_Exec command =>
    match filter (fun w => negb (is_empty w)) (split_on is_space command) with
    | [] => Panic
    | bin :: args => Ok (bin :: args)
    end
  end.
(** lines 98-149 *)
Definition sshd_spawn (os : Os) (log : list SEvent) (ty : SpawnType) : res unit IoSet :=
  match sshd_command os ty with
  | Ok argv => if os_start os log argv then Ok {| io_stdin := true; io_stdout := true; io_stderr := true |} else Panic
  | Err e => Err e
  | Panic => Panic
  end.
Definition sshd_session (os : Os) (write : list SEvent -> N -> bytes -> res unit N) : SHandlers :=
  {| h_spawn := sshd_spawn os; h_write := write |}.

(** How a process ends: with a code ([i32], here its low 32 bits) or by a signal. *)
Inductive ExitStatus := Exited (code : N) | Killed (signal : N).
(** lines 104-107 *)
Definition sshd_status (s : ExitStatus) : N :=
  match s with Exited code => code mod u32_max1 | Killed _ => 0 end.
