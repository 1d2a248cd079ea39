(** Model of nora_ssh_core/src/message/key_exchange/{mod,ecdh}.rs (wire part;
    the digest chain of ecdh.rs is in [Kex]) and message/service.rs. *)
From Verif Require Export Data Types.
Open Scope res_scope.
Open Scope w_scope.

(** key_exchange/mod.rs:94-99 *)
Inductive KexInitError := KI_Truncated | KI_NoTrailingZero | KI_Unread | KI_InvalidNameList (e : InvalidNameList).

(** key_exchange/mod.rs:31-38  the closure [name_list] *)
Definition ki_name_list (data : bytes) : res KexInitError (bytes * bytes) :=
  '(l, d) <- ok_or (name_list data) KI_Truncated ;;
  map_err KI_InvalidNameList (map_ok (fun l => (l, d)) l).

(** key_exchange/mod.rs:28-73 *)
Definition KexInit_parse (data : bytes) : res KexInitError KeyExchangeInit :=
  '(cookie, data) <- ok_or (data_split data 16) KI_Truncated ;;
  '(kex, data) <- ki_name_list data ;;
  '(shk, data) <- ki_name_list data ;;
  '(ec2s, data) <- ki_name_list data ;;
  '(es2c, data) <- ki_name_list data ;;
  '(mc2s, data) <- ki_name_list data ;;
  '(ms2c, data) <- ki_name_list data ;;
  '(cc2s, data) <- ki_name_list data ;;
  '(cs2c, data) <- ki_name_list data ;;
  '(lc2s, data) <- ki_name_list data ;;
  '(ls2c, data) <- ki_name_list data ;;
  '(follows, data) <- ok_or (data_split data 1) KI_Truncated ;;
  '(zero, data) <- ok_or (data_split data 4) KI_Truncated ;;
  if negb (bytes_eqb zero [Byte.x00; Byte.x00; Byte.x00; Byte.x00]) then Err KI_NoTrailingZero
  else if negb (is_empty data) then Err KI_Unread
  else
    f <- idx follows 0 ;;
    if negb (len cookie =? 16) then Panic   (* cookie.try_into().unwrap(), line 60 *)
    else
      Ok {| ki_cookie := cookie; ki_kex_algorithms := kex; ki_server_host_key_algorithms := shk;
            ki_enc_c2s := ec2s; ki_enc_s2c := es2c; ki_mac_c2s := mc2s; ki_mac_s2c := ms2c;
            ki_comp_c2s := cc2s; ki_comp_s2c := cs2c; ki_lang_c2s := lc2s; ki_lang_s2c := ls2c;
            ki_first_kex_packet_follows := negb (b2n f =? 0) |}.

(** key_exchange/mod.rs:75-90 *)
Definition KexInit_serialize (k : KeyExchangeInit) : W N :=
  a <~ make_raw (ki_cookie k) ;;
  b <~ make_string2 (ki_kex_algorithms k) ;;
  c <~ make_string2 (ki_server_host_key_algorithms k) ;;
  d <~ make_string2 (ki_enc_c2s k) ;;
  e <~ make_string2 (ki_enc_s2c k) ;;
  f <~ make_string2 (ki_mac_c2s k) ;;
  g <~ make_string2 (ki_mac_s2c k) ;;
  h <~ make_string2 (ki_comp_c2s k) ;;
  i <~ make_string2 (ki_comp_s2c k) ;;
  j <~ make_string2 (ki_lang_c2s k) ;;
  k' <~ make_string2 (ki_lang_s2c k) ;;
  l <~ make_bool (ki_first_kex_packet_follows k) ;;
  m <~ make_uint32 0 ;;
  wret (a + b + c + d + e + f + g + h + i + j + k' + l + m).

(** key_exchange/mod.rs:103-118 *)
Inductive NewKeysError := NK_Unread.
Definition NewKeys_parse (data : bytes) : res NewKeysError unit :=
  then_ok (len data =? 0) tt NK_Unread.
Definition NewKeys_serialize : W N := wret 0.

(** * ecdh.rs *)

(** ecdh.rs:7-26 *)
Inductive EcdhInitError := EI_Truncated | EI_Unread.
Definition EcdhInit_parse (data : bytes) : res EcdhInitError bytes :=
  '(k, data) <- ok_or (parse_string data) EI_Truncated ;;
  then_ok (is_empty data) k EI_Unread.
Definition EcdhInit_serialize (k : bytes) : W N := a <~ make_string2 k ;; wret a.

(** ecdh.rs:97-109 *)
Definition KeyBlob_parse (data : bytes) : res unit KeyBlob :=
  '(i, data) <- parse_string data ;;
  '(q, data) <- parse_string data ;;
  then_ok (is_empty data) {| kb_identifier := i; kb_q := q |} tt.
Definition KeyBlob_serialize (k : KeyBlob) : W N :=
  a <~ make_string2 (kb_identifier k) ;;
  b <~ make_string2 (kb_q k) ;;
  wret (a + b).

(** ecdh.rs:78-90.  On line 82 [data] is still what followed the name: the
    blob parsed on line 81 has not been taken off it. *)
Definition Key_parse (data : bytes) : res unit Key :=
  '(name, data) <- parse_string data ;;
  blob <- KeyBlob_parse data ;;
  then_ok (is_empty data) {| key_name := name; key_blob := blob |} tt.
Definition Key_serialize (k : Key) : W N :=
  a <~ make_string2 (key_name k) ;;
  b <~ KeyBlob_serialize (key_blob k) ;;
  wret (a + b).

(** ecdh.rs:141-153 *)
Definition SignatureBlob_parse (data : bytes) : res unit SignatureBlob :=
  '(r, data) <- parse_string data ;;
  '(s, data) <- parse_string data ;;
  then_ok (is_empty data) {| sb_r := r; sb_s := s |} tt.
Definition SignatureBlob_serialize (b : SignatureBlob) : W N :=
  x <~ make_pos_mpint2 (sb_r b) ;;
  y <~ make_pos_mpint2 (sb_s b) ;;
  wret (x + y).

(** The pattern on ecdh.rs:55-58, 64-67 and 127-130: leave room for a 32-bit
    length, run a writer on what follows, then store the length it returned.
    Returns that length (without the 4). *)
Definition with_len_prefix (body : W N) : W N := fun '(done, buf) =>
  if 4 <=? len buf then
    let lenbuf := ntake 4 buf in
    match body ([], ndrop 4 buf) with
    | (Ok a, (w, r)) =>
      match u32_try_unwrap a with
      | Ok n => (Ok a, (done ++ be32 n ++ w, r))
      | Err e => (Err e, (done ++ lenbuf ++ w, r))
      | Panic => (Panic, (done ++ lenbuf ++ w, r))
      end
    | (Err e, (w, r)) => (Err e, (done ++ lenbuf ++ w, r))
    | (Panic, (w, r)) => (Panic, (done ++ lenbuf ++ w, r))
    end
  else (Err tt, (done, buf)).

(** ecdh.rs:116-134 *)
Definition Signature_parse (data : bytes) : res unit Signature :=
  '(name, data) <- parse_string data ;;
  '(blob, data) <- parse_string data ;;
  blob <- SignatureBlob_parse blob ;;
  then_ok (is_empty data) {| sig_name := name; sig_blob := blob |} tt.
Definition Signature_serialize (s : Signature) : W N :=
  a <~ make_string2 (sig_name s) ;;
  b <~ with_len_prefix (SignatureBlob_serialize (sig_blob s)) ;;
  wret (a + 4 + b).

(** ecdh.rs:156-160 *)
Inductive EcdhReplyError := ER_Truncated | ER_Unread | ER_BadData.
(** ecdh.rs:35-51 *)
Definition EcdhReply_parse (data : bytes) : res EcdhReplyError EcdhReply :=
  '(k, data) <- ok_or (parse_string data) ER_Truncated ;;
  k <- ok_or (Key_parse k) ER_BadData ;;
  '(e, data) <- ok_or (parse_string data) ER_Truncated ;;
  '(s, data) <- ok_or (parse_string data) ER_Truncated ;;
  s <- ok_or (Signature_parse s) ER_BadData ;;
  then_ok (is_empty data) {| er_key := k; er_ephermal := e; er_signature := s |} ER_Unread.
(** ecdh.rs:53-70 *)
Definition EcdhReply_serialize (r : EcdhReply) : W N :=
  a <~ with_len_prefix (Key_serialize (er_key r)) ;;
  b <~ make_string2 (er_ephermal r) ;;
  c <~ with_len_prefix (Signature_serialize (er_signature r)) ;;
  wret (4 + a + b + 4 + c).

(** * service.rs:3-53, the macro [impl_s!] *)
Inductive ServiceError := SV_BadLength.
Definition Service_parse (data : bytes) : res ServiceError bytes :=
  ok_or ('(s, rem) <- parse_string data ;;
         if is_empty rem then Ok s else Err tt) SV_BadLength.
Definition Service_serialize (s : bytes) : W N := a <~ make_string2 s ;; wret a.
