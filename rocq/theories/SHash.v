(** Specification: the MD5 message digest (RFC 1321), and keys made from it. *)
From Coq Require Import ZArith List.
From Verif Require Export Base.
Import ListNotations.
Open Scope Z_scope.
Open Scope list_scope.

(** numbers as bytes, the low-order byte first, and back *)
Fixpoint toBytes (n : nat) (x : Z) : list Z := match n with O => [] | S n' => x mod 256 :: toBytes n' (x / 256) end.
Fixpoint ofBytes (l : list Z) : Z := match l with [] => 0 | b :: l' => b + 256 * ofBytes l' end.
Definition isByte (b : Z) : Prop := 0 <= b < 256.

(** ** RFC 1321 *)
(** section 2: words are numbers of 32 bits; addition, rotation to the left, complement *)
Definition addw (x y : Z) : Z := (x + y) mod 2 ^ 32.
Definition rotl (s x : Z) : Z := (x * 2 ^ s) mod 2 ^ 32 + x / 2 ^ (32 - s).
Definition notw (x : Z) : Z := 2 ^ 32 - 1 - x.
(** section 3.1 and 3.2: a 1 bit, zeros up to 8 bytes less than a multiple of 64, the number of bits of the message *)
Definition padded (m : list Z) : list Z := m ++ [128] ++ repeat 0 (Z.to_nat ((55 - zlen m) mod 64)) ++ toBytes 8 ((8 * zlen m) mod 2 ^ 64).
(** section 3.3: the buffer *)
Definition startBuffer : Z * Z * Z * Z := (0x67452301, 0xefcdab89, 0x98badcfe, 0x10325476).
(** section 3.4: the auxiliary functions of the four rounds *)
Definition aux (round x y z : Z) : Z :=
  match round with
  | 0 => Z.lor (Z.land x y) (Z.land (notw x) z)
  | 1 => Z.lor (Z.land x z) (Z.land y (notw z))
  | 2 => Z.lxor (Z.lxor x y) z
  | _ => Z.lxor y (Z.lor x (notw z))
  end.
(** the table: T[i] is the integer part of 4294967296 times abs(sin(i)), i in radians, i = 1 ... 64 *)
Definition sineTable : list Z :=
  [0xd76aa478; 0xe8c7b756; 0x242070db; 0xc1bdceee; 0xf57c0faf; 0x4787c62a; 0xa8304613; 0xfd469501;
   0x698098d8; 0x8b44f7af; 0xffff5bb1; 0x895cd7be; 0x6b901122; 0xfd987193; 0xa679438e; 0x49b40821;
   0xf61e2562; 0xc040b340; 0x265e5a51; 0xe9b6c7aa; 0xd62f105d; 0x02441453; 0xd8a1e681; 0xe7d3fbc8;
   0x21e1cde6; 0xc33707d6; 0xf4d50d87; 0x455a14ed; 0xa9e3e905; 0xfcefa3f8; 0x676f02d9; 0x8d2a4c8a;
   0xfffa3942; 0x8771f681; 0x6d9d6122; 0xfde5380c; 0xa4beea44; 0x4bdecfa9; 0xf6bb4b60; 0xbebfbc70;
   0x289b7ec6; 0xeaa127fa; 0xd4ef3085; 0x04881d05; 0xd9d4d039; 0xe6db99e5; 0x1fa27cf8; 0xc4ac5665;
   0xf4292244; 0x432aff97; 0xab9423a7; 0xfc93a039; 0x655b59c3; 0x8f0ccc92; 0xffeff47d; 0x85845dd1;
   0x6fa87e4f; 0xfe2ce6e0; 0xa3014314; 0x4e0811a1; 0xf7537e82; 0xbd3af235; 0x2ad7d2bb; 0xeb86d391].
(** operation number i = 0 ... 63: which word of the block, and how far to rotate *)
Definition whichWord (i : Z) : Z :=
  match i / 16 with 0 => i mod 16 | 1 => (1 + 5 * i) mod 16 | 2 => (5 + 3 * i) mod 16 | _ => (7 * i) mod 16 end.
Definition howFar (i : Z) : Z :=
  match i / 16, i mod 4 with
  | 0, 0 => 7 | 0, 1 => 12 | 0, 2 => 17 | 0, _ => 22
  | 1, 0 => 5 | 1, 1 => 9 | 1, 2 => 14 | 1, _ => 20
  | 2, 0 => 4 | 2, 1 => 11 | 2, 2 => 16 | 2, _ => 23
  | _, 0 => 6 | _, 1 => 10 | _, 2 => 15 | _, _ => 21
  end.
(** a = b + ((a + f(b,c,d) + X[k] + T[i+1]) <<< s); then the names move on by one place *)
Definition operation (X : list Z) (r : Z * Z * Z * Z) (i : Z) : Z * Z * Z * Z :=
  let '(a, b, c, d) := r in
  (d, addw b (rotl (howFar i) (addw (addw (addw a (aux (i / 16) b c d)) (nth (Z.to_nat (whichWord i)) X 0)) (nth (Z.to_nat i) sineTable 0))), b, c).
(** the words of a block of 64 bytes *)
Definition blockWords (block : list Z) : list Z := map (fun i => ofBytes (firstn 4 (skipn (4 * i) block))) (seq 0 16).
Definition digestBlock (r : Z * Z * Z * Z) (block : list Z) : Z * Z * Z * Z :=
  let '(a, b, c, d) := r in
  let '(a', b', c', d') := fold_left (operation (blockWords block)) (zrange 0 63) r in
  (addw a a', addw b b', addw c c', addw d d').
Definition blocks (m : list Z) : list (list Z) := map (fun i => firstn 64 (skipn (64 * i) m)) (seq 0 (List.length m / 64)).
(** section 3.5: the digest, 16 bytes *)
Definition md5 (m : list Z) : list Z :=
  let '(a, b, c, d) := fold_left digestBlock (blocks (padded m)) startBuffer in
  toBytes 4 a ++ toBytes 4 b ++ toBytes 4 c ++ toBytes 4 d.

(** ** Keys *)
(** the bytes of a sequence of 32-bit integers (two's complement), and their key: the two halves of the digest as 64-bit numbers, combined by exclusive or *)
Definition integersBytes (l : list Z) : list Z := flat_map (fun i => toBytes 4 (i mod 2 ^ 32)) l.
Definition keyOf (l : list Z) : Z := let m := md5 (integersBytes l) in Z.lxor (ofBytes (firstn 8 m)) (ofBytes (skipn 8 m)).
