(** Model of nora_ssh_core/src/cipher and of [In] and [Out] in
    nora_ssh/src/host.rs. *)
From Coq Require Import Init.Byte.
From Verif Require Export Packet.
Open Scope res_scope.

(** * Primitives of the chacha20 and poly1305 crates

    [keystream key nonce i] is byte [i] of the ChaCha20 (original variant)
    keystream; block [b] starts at byte [64 * b].  The primitives are
    parameters: every statement holds whatever they compute. *)
Record Crypto := {
  keystream : bytes -> bytes -> N -> byte;
  poly1305 : bytes -> bytes -> bytes;        (* one-time key, message *)
}.

(** [apply_keystream] on a cipher positioned at byte [pos]. *)
Fixpoint apply_keystream (ks : N -> byte) (pos : N) (d : bytes) : bytes :=
  match d with
  | [] => []
  | b :: d => bxor b (ks pos) :: apply_keystream ks (pos + 1) d
  end.

(** * chacha20poly1305.rs *)

Definition TAG_SIZE : N := 16.                    (* line 15 *)
Inductive CipherError := CipherE.                 (* cipher/mod.rs:23 *)

(** chacha20poly1305.rs:17-21 *)
Record Cipher := { key_length : bytes; key_data : bytes; counter : N }.
Definition bs_of_cipher : BlockSize := B8.        (* lines 97-99 *)

(** [counter += 1]: wraps in a release build; a debug build panics after 2^64
    packets. *)
Definition bump (c : Cipher) : Cipher :=
  {| key_length := key_length c; key_data := key_data c; counter := (counter c + 1) mod u64_max1 |}.

(** lines 40-42 *)
Definition nonce (c : Cipher) : bytes := be64 (counter c).

(** lines 44-50 *)
Definition compute_tag (C : Crypto) (c : Cipher) (data : bytes) : bytes :=
  let mac_key := apply_keystream (keystream C (key_data c) (nonce c)) 0 (repeat x00 32) in
  poly1305 C mac_key data.

(** [split_at(data.len() - TAG_SIZE)]: underflow panics (a release build wraps
    and then [split_at] panics). *)
Definition split_tag {E} (data : bytes) : res E (bytes * bytes) :=
  n <- usize_sub (len data) TAG_SIZE ;;
  Ok (ntake n data, ndrop n data).

(** lines 52-55 *)
Definition authenticate {E} (C : Crypto) (c : Cipher) (data : bytes) : res E bool :=
  '(data, tag) <- split_tag data ;;
  Ok (bytes_eqb (compute_tag C c data) tag).

(** lines 57-61 *)
Definition apply_data (C : Crypto) (c : Cipher) (data : bytes) : bytes :=
  apply_keystream (keystream C (key_data c) (nonce c)) 64 data.

(** lines 65-68; it never fails *)
Definition decrypt_length (C : Crypto) (c : Cipher) (length : bytes) : bytes :=
  apply_keystream (keystream C (key_length c) (nonce c)) 0 length.

(** lines 70-81.  Returns the cipher and the buffer in every case. *)
Definition decrypt_data (C : Crypto) (c : Cipher) (data : bytes)
  : res CipherError unit * (Cipher * bytes) :=
  match authenticate (E:=CipherError) C c data with
  | Ok true =>
    match (l <- usize_sub (E:=CipherError) (len data) TAG_SIZE ;;
           m <- idx_range data 4 l ;; Ok (l, m)) with
    | Ok (l, m) => (Ok tt, (bump c, splice 4 (apply_data C c m) data))
    | Err e => (Err e, (c, data))
    | Panic => (Panic, (c, data))
    end
  | Ok false => (Err CipherE, (c, data))
  | Err e => (Err e, (c, data))
  | Panic => (Panic, (c, data))
  end.

(** lines 83-91 *)
Definition encrypt (C : Crypto) (c : Cipher) (data : bytes) : res unit (Cipher * bytes) :=
  '(data, tag) <- split_tag data ;;
  l <- idx_to data 4 ;;                           (* split_at_mut(4) *)
  payload <- idx_from data 4 ;;
  let l := apply_keystream (keystream C (key_length c) (nonce c)) 0 l in
  let payload := apply_data C c payload in
  let data := l ++ payload in
  let t := compute_tag C c data in
  _ <- (if len tag =? len t then Ok tt else Panic) ;;   (* copy_from_slice *)
  Ok (bump c, data ++ t).

(** * host.rs: [Out] *)

(** host.rs:303-329.  Returns the bytes handed to [write_all], the cipher and
    the buffer.  The write itself is taken to succeed; if it fails the error is
    returned to a caller that drops the connection. *)
Definition Out_send (C : Crypto) (c : Cipher) (buf : bytes) (fill : Fill) (rng : N -> bytes)
  : res unit (bytes * Cipher * bytes) :=
  buf <- wrap buf bs_of_cipher false fill rng ;;
  pkt <- into_raw buf TAG_SIZE ;;
  '(c, pkt) <- encrypt C c pkt ;;
  Ok (pkt, c, splice 0 pkt buf).

(** * host.rs: [In] *)

(** host.rs:367-373 *)
Inductive InError :=
| In_Packet (e : WrapRawError) | In_BufferTooSmall (n : N) | In_Read (e : IoError) | In_Cipher (e : CipherError).

(** host.rs:336-365, over any source [RS] with a [read_exact].  Returns the
    payload, the cipher, the buffer and the source. *)
Section Recv.
  Context {RS : Type} (rd : N -> RS -> res IoError bytes * RS).
  Definition In_recv_gen (C : Crypto) (c : Cipher) (buf : bytes) (s : RS)
    : res InError bytes * (Cipher * bytes * RS) :=
    if negb (4 <=? len buf) then (Panic, (c, buf, s))            (* split_at_mut(4) *)
    else
      match rd 4 s with
      | (Err e, s) => (Err (In_Read e), (c, buf, s))
      | (Panic, s) => (Panic, (c, buf, s))
      | (Ok h, s) =>
        let buf := splice 0 h buf in
        let lenb := decrypt_length C c h in
        match u32_of_slice (E:=InError) lenb with
        | Err e => (Err e, (c, buf, s))
        | Panic => (Panic, (c, buf, s))
        | Ok l =>
          if negb (l + TAG_SIZE <=? len buf - 4) then (Err (In_BufferTooSmall l), (c, buf, s))
          else
            match rd (l + TAG_SIZE) s with
            | (Err e, s) => (Err (In_Read e), (c, buf, s))
            | (Panic, s) => (Panic, (c, buf, s))
            | (Ok d, s) =>
              let buf := splice 4 d buf in
              match idx_to (E:=InError) buf (4 + l + TAG_SIZE) with
              | Err e => (Err e, (c, buf, s))
              | Panic => (Panic, (c, buf, s))
              | Ok data =>
                match decrypt_data C c data with
                | (Err e, (c, data)) => (Err (In_Cipher e), (c, splice 0 data buf, s))
                | (Panic, (c, data)) => (Panic, (c, splice 0 data buf, s))
                | (Ok _, (c, data)) =>
                  let buf := splice 0 (splice 0 lenb data) buf in
                  (p <- map_err In_Packet (wrap_raw buf false bs_of_cipher) ;; payload p, (c, buf, s))
                end
              end
            end
        end
      end.
End Recv.

Definition In_recv := In_recv_gen read_exact.

(** * A transport that delivers bytes in pieces *)

(** Each element is what one [poll_read] would return; what does not fit the
    caller's slice stays for the next call.  An empty piece, like the end of
    the list, is the end of the stream. *)
Fixpoint read_exact_pieces (n : N) (cs : list bytes) : res IoError bytes * list bytes :=
  if n =? 0 then (Ok [], cs)
  else match cs with
  | [] => (Err UnexpectedEof, [])
  | c :: cs' =>
    if is_empty c then (Err UnexpectedEof, cs')
    else if len c <=? n then
      match read_exact_pieces (n - len c) cs' with
      | (Ok d, cs'') => (Ok (c ++ d), cs'')
      | r => r
      end
    else (Ok (ntake n c), ndrop n c :: cs')
  end.

(** Calling [recv] until it fails, at most [k] times. *)
Fixpoint recv_many {RS} (rd : N -> RS -> res IoError bytes * RS) (C : Crypto) (k : nat)
    (c : Cipher) (buf : bytes) (s : RS) : list (res InError bytes) * (Cipher * bytes * RS) :=
  match k with
  | O => ([], (c, buf, s))
  | S k =>
    match In_recv_gen rd C c buf s with
    | (Ok p, (c, buf, s)) => let '(ps, st) := recv_many rd C k c buf s in (Ok p :: ps, st)
    | (r, st) => ([r], st)
    end
  end.

(** Sending a sequence of payloads. *)
Record Job := { j_buf : bytes; j_fill : Fill; j_rng : N -> bytes }.
Fixpoint send_many (C : Crypto) (c : Cipher) (jobs : list Job) : res unit (list bytes * Cipher) :=
  match jobs with
  | [] => Ok ([], c)
  | j :: jobs =>
    '(w, c, _) <- Out_send C c (j_buf j) (j_fill j) (j_rng j) ;;
    '(ws, c) <- send_many C c jobs ;;
    Ok (w :: ws, c)
  end.

(** * Receiving inside [select!]

    server.rs:304-351 polls [self.receive(...)] next to the futures that wait
    for child output.  The future is built anew in every turn of the loop and
    dropped when another branch completes, with the bytes it had read.  While it
    is pending it holds the bytes [acc] read so far; it completes with the byte
    after which [In_recv] needs no more input. *)
Inductive RxEvent :=
| Arrives (b : byte)     (* the transport yields a byte to the pending read *)
| Elsewhere.             (* another branch of select! completes *)
Fixpoint rx_run (C : Crypto) (c : Cipher) (buf acc : bytes) (evs : list RxEvent) : list (res InError bytes) :=
  match evs with
  | [] => []
  | Elsewhere :: evs => rx_run C c buf [] evs
  | Arrives b :: evs =>
    match In_recv C c buf (acc ++ [b]) with
    | (Err (In_Read _), _) => rx_run C c buf (acc ++ [b]) evs
    | (Ok p, (c, buf, rest)) => Ok p :: rx_run C c buf rest evs
    | (r, _) => [r]
    end
  end.
