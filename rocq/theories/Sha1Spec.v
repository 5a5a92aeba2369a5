(** FIPS 180-4, SHA-1 on byte strings. *)
From Verif Require Import Prelude.
Open Scope Z_scope.

(** ROTL^n on 32-bit words *)
Definition rotl (n x : Z) : Z := (x * 2 ^ n) mod 2 ^ 32 + x / 2 ^ (32 - n).
(** section 4.1.1 *)
Definition Ch (x y z : Z) : Z := Z.lxor (Z.land x y) (Z.land (Z.lnot x) z).
Definition Parity (x y z : Z) : Z := Z.lxor (Z.lxor x y) z.
Definition Maj (x y z : Z) : Z := Z.lxor (Z.lxor (Z.land x y) (Z.land x z)) (Z.land y z).
Definition ft (t : nat) : Z -> Z -> Z -> Z := if (t <? 20)%nat then Ch else if (t <? 40)%nat then Parity else if (t <? 60)%nat then Maj else Parity.
(** section 4.2.1 *)
Definition Kt (t : nat) : Z := if (t <? 20)%nat then 0x5a827999 else if (t <? 40)%nat then 0x6ed9eba1 else if (t <? 60)%nat then 0x8f1bbcdc else 0xca62c1d6.
(** section 6.1.2 step 1: the message schedule W_0 ... W_79 *)
Fixpoint extend (n : nat) (W : list Z) {struct n} : list Z :=
  match n with
  | O => W
  | S n => let t := length W in
      extend n (W ++ [rotl 1 (Z.lxor (Z.lxor (Z.lxor (nth (t - 3) W 0) (nth (t - 8) W 0)) (nth (t - 14) W 0)) (nth (t - 16) W 0))])
  end.
Definition schedule (M : list Z) : list Z := extend 64 M.
(** step 3 *)
Definition step (W : list Z) (s : Z * Z * Z * Z * Z) (t : nat) : Z * Z * Z * Z * Z :=
  let '(a, b, c, d, e) := s in
  let T := (rotl 5 a + ft t b c d + e + Kt t + nth t W 0) mod 2 ^ 32 in
  (T, a, rotl 30 b, c, d).
(** steps 2-4: the hash value after the message block M (16 words) *)
Definition compress (H : Z * Z * Z * Z * Z) (M : list Z) : Z * Z * Z * Z * Z :=
  let '(h0, h1, h2, h3, h4) := H in
  let '(a, b, c, d, e) := fold_left (step (schedule M)) (seq 0 80) H in
  ((a + h0) mod 2 ^ 32, (b + h1) mod 2 ^ 32, (c + h2) mod 2 ^ 32, (d + h3) mod 2 ^ 32, (e + h4) mod 2 ^ 32).
(** section 5.2.1: bytes to words, big endian *)
Fixpoint be_words (l : list Z) : list Z :=
  match l with b0 :: b1 :: b2 :: b3 :: r => b0 * 16777216 + b1 * 65536 + b2 * 256 + b3 :: be_words r | _ => [] end.
Definition be32 (w : Z) : list Z := [w / 16777216; w / 65536 mod 256; w / 256 mod 256; w mod 256].
(** section 5.1.1: 1 bit, zeros up to 56 mod 64 bytes, 64-bit length in bits *)
Definition pad (m : list Z) : list Z :=
  let bits := 8 * Z.of_nat (length m) in
  m ++ [128] ++ repeat 0 ((119 - length m mod 64) mod 64)%nat ++ be32 (bits / 2 ^ 32) ++ be32 (bits mod 2 ^ 32).
(** the first n 64-byte blocks of l *)
Fixpoint absorb (n : nat) (l : list Z) (H : Z * Z * Z * Z * Z) {struct n} : Z * Z * Z * Z * Z :=
  match n with O => H | S n => absorb n (skipn 64 l) (compress H (be_words (firstn 64 l))) end.
(** section 5.3.1 *)
Definition H0 : Z * Z * Z * Z * Z := (0x67452301, 0xefcdab89, 0x98badcfe, 0x10325476, 0xc3d2e1f0).
Definition digest (H : Z * Z * Z * Z * Z) : list Z := let '(a, b, c, d, e) := H in be32 a ++ be32 b ++ be32 c ++ be32 d ++ be32 e.
(** SHA-1 of a message of less than 2^64 bits *)
Definition SHA1 (m : list Z) : list Z := let p := pad m in digest (absorb (length p / 64) p H0).
