(** Signatures of clients: SHA-512 (FIPS 180-4) and Ed25519 (RFC 8032), after
    the program in section 6 of the RFC.  In the rest of this development they
    are parameters ([Ed25519] in [Sshd]); that ed25519-dalek 1.0.1 and sha2 0.9.9
    (Cargo.lock) compute them is trusted.  The crate checks the equation in
    another order (it computes sB - hA and compares encodings); it also takes
    encodings of keys with y not below p, which this file refuses. *)
From Coq Require Import Init.Byte.
From Verif Require Export Prim Sshd.

(** * SHA-512: FIPS 180-4 *)

Definition add64 (a b : N) : N := (a + b) mod u64_max1.
Definition rotr64 (n x : N) : N := N.lor (N.shiftl x (64 - n) mod u64_max1) (N.shiftr x n).
(** 4.2.3 *)
Definition sha5_k : list N := [
  0x428a2f98d728ae22; 0x7137449123ef65cd; 0xb5c0fbcfec4d3b2f; 0xe9b5dba58189dbbc;
  0x3956c25bf348b538; 0x59f111f1b605d019; 0x923f82a4af194f9b; 0xab1c5ed5da6d8118;
  0xd807aa98a3030242; 0x12835b0145706fbe; 0x243185be4ee4b28c; 0x550c7dc3d5ffb4e2;
  0x72be5d74f27b896f; 0x80deb1fe3b1696b1; 0x9bdc06a725c71235; 0xc19bf174cf692694;
  0xe49b69c19ef14ad2; 0xefbe4786384f25e3; 0x0fc19dc68b8cd5b5; 0x240ca1cc77ac9c65;
  0x2de92c6f592b0275; 0x4a7484aa6ea6e483; 0x5cb0a9dcbd41fbd4; 0x76f988da831153b5;
  0x983e5152ee66dfab; 0xa831c66d2db43210; 0xb00327c898fb213f; 0xbf597fc7beef0ee4;
  0xc6e00bf33da88fc2; 0xd5a79147930aa725; 0x06ca6351e003826f; 0x142929670a0e6e70;
  0x27b70a8546d22ffc; 0x2e1b21385c26c926; 0x4d2c6dfc5ac42aed; 0x53380d139d95b3df;
  0x650a73548baf63de; 0x766a0abb3c77b2a8; 0x81c2c92e47edaee6; 0x92722c851482353b;
  0xa2bfe8a14cf10364; 0xa81a664bbc423001; 0xc24b8b70d0f89791; 0xc76c51a30654be30;
  0xd192e819d6ef5218; 0xd69906245565a910; 0xf40e35855771202a; 0x106aa07032bbd1b8;
  0x19a4c116b8d2d0c8; 0x1e376c085141ab53; 0x2748774cdf8eeb99; 0x34b0bcb5e19b48a8;
  0x391c0cb3c5c95a63; 0x4ed8aa4ae3418acb; 0x5b9cca4f7763e373; 0x682e6ff3d6b2b8a3;
  0x748f82ee5defb2fc; 0x78a5636f43172f60; 0x84c87814a1f0ab72; 0x8cc702081a6439ec;
  0x90befffa23631e28; 0xa4506cebde82bde9; 0xbef9a3f7b2c67915; 0xc67178f2e372532b;
  0xca273eceea26619c; 0xd186b8c721c0c207; 0xeada7dd6cde0eb1e; 0xf57d4f7fee6ed178;
  0x06f067aa72176fba; 0x0a637dc5a2c898a6; 0x113f9804bef90dae; 0x1b710b35131c471b;
  0x28db77f523047d84; 0x32caab7b40c72493; 0x3c9ebe0a15c9bebc; 0x431d67c49c100d4c;
  0x4cc5d4becb3e42b6; 0x597f299cfc657e2a; 0x5fcb6fab3ad6faec; 0x6c44198c4a475817].
(** 5.3.5 *)
Definition sha5_iv : list N := [
  0x6a09e667f3bcc908; 0xbb67ae8584caa73b; 0x3c6ef372fe94f82b; 0xa54ff53a5f1d36f1;
  0x510e527fade682d1; 0x9b05688c2b3e6c1f; 0x1f83d9abfb41bd6b; 0x5be0cd19137e2179].
(** 4.1.3 *)
Definition sha5_ch (x y z : N) : N := N.lxor (N.land x y) (N.land (N.lxor x 0xffffffffffffffff) z).
Definition sha5_maj (x y z : N) : N := N.lxor (N.lxor (N.land x y) (N.land x z)) (N.land y z).
Definition sha5_S0 (x : N) : N := N.lxor (N.lxor (rotr64 28 x) (rotr64 34 x)) (rotr64 39 x).
Definition sha5_S1 (x : N) : N := N.lxor (N.lxor (rotr64 14 x) (rotr64 18 x)) (rotr64 41 x).
Definition sha5_s0 (x : N) : N := N.lxor (N.lxor (rotr64 1 x) (rotr64 8 x)) (N.shiftr x 7).
Definition sha5_s1 (x : N) : N := N.lxor (N.lxor (rotr64 19 x) (rotr64 61 x)) (N.shiftr x 6).
(** 5.1.2: a 1 bit, zeros, and the length in bits in 128 bits *)
Definition sha5_pad (m : bytes) : bytes :=
  m ++ [x80] ++ repeat x00 (N.to_nat ((239 - len m mod 128) mod 128)) ++ be64 (8 * len m / u64_max1) ++ be64 (8 * len m).
(** 6.4.2 step 1; the schedule is kept newest word first *)
Fixpoint sha5_schedule (n : nat) (w : list N) : list N :=
  match n with
  | O => w
  | S n => sha5_schedule n
      (add64 (add64 (sha5_s1 (nth 1 w 0)) (nth 6 w 0)) (add64 (sha5_s0 (nth 14 w 0)) (nth 15 w 0)) :: w)
  end.
(** step 3 *)
Definition sha5_round (st : list N) '((k, w) : N * N) : list N :=
  match st with
  | [a; b; c; d; e; f; g; h] =>
    let t1 := add64 (add64 (add64 h (sha5_S1 e)) (add64 (sha5_ch e f g) k)) w in
    let t2 := add64 (sha5_S0 a) (sha5_maj a b c) in
    [add64 t1 t2; a; b; c; add64 d t1; e; f; g]
  | _ => st
  end.
(** steps 1 to 4 *)
Definition sha5_compress (h : list N) (block : bytes) : list N :=
  let w := rev (sha5_schedule 64 (rev (map be_value (chunks 8 block)))) in
  map (fun '(a, b) => add64 a b) (combine h (fold_left sha5_round (combine sha5_k w) h)).
Definition sha512_of (m : bytes) : bytes :=
  flat_map be64 (fold_left sha5_compress (chunks 128 (sha5_pad m)) sha5_iv).

(** * Ed25519: RFC 8032 section 6 *)

(** The curve is -x^2 + y^2 = 1 + d x^2 y^2. *)
Definition ed_minus_d : Z := 37095705934669439343138083508754565189542113879843219016388785533085940283555.
(** q *)
Definition ed_order : N := 2 ^ 252 + 27742317777372353535851937790883648493.
Definition sha512_modq (s : bytes) : N := le_value (sha512_of s) mod ed_order.

(** Points in extended coordinates: x = X/Z, y = Y/Z, x*y = T/Z. *)
Record Point := { p_x : Z; p_y : Z; p_z : Z; p_t : Z }.
Definition point_add (P Q : Point) : Point :=
  let a := fmul (fsub (p_y P) (p_x P)) (fsub (p_y Q) (p_x Q)) in
  let b := fmul (fadd (p_y P) (p_x P)) (fadd (p_y Q) (p_x Q)) in
  let c := fmul (fmul (fmul 2 (p_t P)) (p_t Q)) ed_minus_d in
  let d := fmul (fmul 2 (p_z P)) (p_z Q) in
  let e := fsub b a in let f := fsub d c in let g := fadd d c in let h := fadd b a in
  {| p_x := fmul e f; p_y := fmul g h; p_z := fmul f g; p_t := fmul e h |}.
Definition point_zero : Point := {| p_x := 0; p_y := 1; p_z := 1; p_t := 0 |}.
(** the loop of point_mul *)
Fixpoint point_loop (s : positive) (Q P : Point) : Point :=
  match s with
  | xH => point_add Q P
  | xO s => point_loop s Q (point_add P P)
  | xI s => point_loop s (point_add Q P) (point_add P P)
  end.
Definition point_mul (s : N) (P : Point) : Point :=
  match s with N0 => point_zero | Npos s => point_loop s point_zero P end.
Definition point_equal (P Q : Point) : bool :=
  ((fsub (fmul (p_x P) (p_z Q)) (fmul (p_x Q) (p_z P)) =? 0) && (fsub (fmul (p_y P) (p_z Q)) (fmul (p_y Q) (p_z P)) =? 0))%Z.

(** 2^((p-1)/4), a square root of -1 *)
Definition modp_sqrt_m1 : Z := 19681161376707505956807079304988542015446066515923890162744021073123829784752.
Definition recover_x (y : Z) (sign : bool) : option Z :=
  if (p25519 <=? y)%Z then None else
  let x2 := fmul (fsub (fmul y y) 1) (finv (fadd (fmul ed_minus_d (fmul y y)) 1)) in
  if (x2 =? 0)%Z then (if sign then None else Some 0%Z) else
  let x := fpow x2 (Z.to_pos ((p25519 + 3) / 8)) in
  let x := if (fsub (fmul x x) x2 =? 0)%Z then x else fmul x modp_sqrt_m1 in
  if negb (fsub (fmul x x) x2 =? 0)%Z then None else
  Some (if Bool.eqb (Z.odd x) sign then x else p25519 - x)%Z.
Definition point_compress (P : Point) : bytes :=
  let zinv := finv (p_z P) in
  let x := fmul (p_x P) zinv in let y := fmul (p_y P) zinv in
  le_bytes 32 (Z.to_N y + (if Z.odd x then 2 ^ 255 else 0)).
Definition point_decompress (s : bytes) : option Point :=
  if negb (len s =? 32) then None else
  let y := Z.of_N (le_value s mod 2 ^ 255) in
  let sign := 2 ^ 255 <=? le_value s in
  match recover_x y sign with
  | None => None
  | Some x => Some {| p_x := x; p_y := y; p_z := 1; p_t := fmul x y |}
  end.
(** The base point: y = 4/5, x even *)
Definition ed_base : Point :=
  let x := 15112221349535400772501151409588531511454012693041857206046113283949847762202%Z in
  let y := 46316835694926478169428394003475163141307993866256225615783033603165251855960%Z in
  {| p_x := x; p_y := y; p_z := 1; p_t := fmul x y |}.

(** secret_expand *)
Definition ed_scalar (secret : bytes) : N := decode_scalar (ntake 32 (sha512_of secret)).
Definition ed_prefix (secret : bytes) : bytes := ndrop 32 (sha512_of secret).
Definition secret_to_public (secret : bytes) : bytes := point_compress (point_mul (ed_scalar secret) ed_base).
Definition ed_sign (secret msg : bytes) : bytes :=
  let a := ed_scalar secret in
  let A := point_compress (point_mul a ed_base) in
  let r := sha512_modq (ed_prefix secret ++ msg) in
  let Rs := point_compress (point_mul r ed_base) in
  let h := sha512_modq (Rs ++ A ++ msg) in
  Rs ++ le_bytes 32 ((r + h * a) mod ed_order).
Definition ed_check (public msg signature : bytes) : bool :=
  match point_decompress public, point_decompress (ntake 32 signature) with
  | Some A, Some R =>
    let s := le_value (ndrop 32 signature) in
    (s <? ed_order) &&
    let h := sha512_modq (ntake 32 signature ++ public ++ msg) in
    point_equal (point_mul s ed_base) (point_add R (point_mul h A))
  | _, _ => false
  end.

(** What the parameters stand for: [PublicKey::from_bytes] decodes the point,
    [Signature::try_from] looks at the length and the top three bits. *)
Definition real_ed : Ed25519 := {|
  ed_key := fun k => match point_decompress k with Some _ => true | None => false end;
  ed_signature := fun s => (len s =? 64) && (le_value (ndrop 32 s) <? 2 ^ 253);
  ed_verify := fun k m s => (len s =? 64) && ed_check k m s |}.
