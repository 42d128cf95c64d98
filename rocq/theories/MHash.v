(** Model: the keys of the cache of custom rates (c++/src/hash.cpp) and the MD5 routine they use
    (md5.c, md5.h in c++/externals/zip/md5.tar.gz, which the build unpacks as externals/md5.{c,h}).
    Bytes and machine words are numbers (Z); unsigned int has 32 bits, unsigned long and uint64_t have 64. *)
From Coq Require Import ZArith List String Ascii.
From Verif Require Export Base.
Import ListNotations.
Open Scope Z_scope.
Open Scope list_scope.

(** assignment to an unsigned int / uint64_t keeps the low 32 / 64 bits *)
Definition u32 (x : Z) : Z := Z.land x 0xffffffff.
Definition u64 (x : Z) : Z := Z.land x 0xffffffffffffffff.
(** assignment to an unsigned char keeps the low 8 bits *)
Definition u8 (x : Z) : Z := Z.land x 0xff.

(** md5.c 50-54: the macros F, G, H, H2, I *)
Inductive func := FF | FG | FH | FH2 | FI.
Definition fval (f : func) (x y z : Z) : Z :=
  match f with
  | FF => Z.lxor z (Z.land x (Z.lxor y z))
  | FG => Z.lxor y (Z.land z (Z.lxor x y))
  | FH => Z.lxor (Z.lxor x y) z
  | FH2 => Z.lxor x (Z.lxor y z)
  | FI => Z.lxor y (Z.lor x (u32 (Z.lnot z)))
  end.
(** md5.c 97-98: the variables a, b, c, d of [body] *)
Inductive reg := Ra | Rb | Rc | Rd.
Record regs := mkRegs { r_a : Z; r_b : Z; r_c : Z; r_d : Z }.
Definition rget (r : regs) (x : reg) : Z := match x with Ra => r_a r | Rb => r_b r | Rc => r_c r | Rd => r_d r end.
Definition rset (r : regs) (x : reg) (v : Z) : regs :=
  match x with
  | Ra => mkRegs v (r_b r) (r_c r) (r_d r) | Rb => mkRegs (r_a r) v (r_c r) (r_d r)
  | Rc => mkRegs (r_a r) (r_b r) v (r_d r) | Rd => mkRegs (r_a r) (r_b r) (r_c r) v
  end.
(** a line STEP(f, a, b, c, d, SET(n) or GET(n), t, s) of [body] *)
Record stepLine := mkStep { st_f : func; st_a : reg; st_b : reg; st_c : reg; st_d : reg; st_n : Z; st_t : Z; st_s : Z }.
(** md5.c 59-62: the macro STEP.  [word n] is the n-th word of the block. *)
Definition execStep (word : Z -> Z) (r : regs) (l : stepLine) : regs :=
  let a := u32 (rget r (st_a l) + u32 (fval (st_f l) (rget r (st_b l)) (rget r (st_c l)) (rget r (st_d l)) + word (st_n l) + st_t l)) in
  let a := Z.lor (u32 (Z.shiftl a (st_s l))) (Z.shiftr (Z.land a 0xffffffff) (32 - st_s l)) in
  let a := u32 (a + rget r (st_b l)) in
  rset r (st_a l) a.
(** md5.c 113-182: the four rounds *)
Definition stepLines : list stepLine :=
  [mkStep FF Ra Rb Rc Rd 0 0xd76aa478 7; mkStep FF Rd Ra Rb Rc 1 0xe8c7b756 12; mkStep FF Rc Rd Ra Rb 2 0x242070db 17; mkStep FF Rb Rc Rd Ra 3 0xc1bdceee 22;
   mkStep FF Ra Rb Rc Rd 4 0xf57c0faf 7; mkStep FF Rd Ra Rb Rc 5 0x4787c62a 12; mkStep FF Rc Rd Ra Rb 6 0xa8304613 17; mkStep FF Rb Rc Rd Ra 7 0xfd469501 22;
   mkStep FF Ra Rb Rc Rd 8 0x698098d8 7; mkStep FF Rd Ra Rb Rc 9 0x8b44f7af 12; mkStep FF Rc Rd Ra Rb 10 0xffff5bb1 17; mkStep FF Rb Rc Rd Ra 11 0x895cd7be 22;
   mkStep FF Ra Rb Rc Rd 12 0x6b901122 7; mkStep FF Rd Ra Rb Rc 13 0xfd987193 12; mkStep FF Rc Rd Ra Rb 14 0xa679438e 17; mkStep FF Rb Rc Rd Ra 15 0x49b40821 22;
   mkStep FG Ra Rb Rc Rd 1 0xf61e2562 5; mkStep FG Rd Ra Rb Rc 6 0xc040b340 9; mkStep FG Rc Rd Ra Rb 11 0x265e5a51 14; mkStep FG Rb Rc Rd Ra 0 0xe9b6c7aa 20;
   mkStep FG Ra Rb Rc Rd 5 0xd62f105d 5; mkStep FG Rd Ra Rb Rc 10 0x02441453 9; mkStep FG Rc Rd Ra Rb 15 0xd8a1e681 14; mkStep FG Rb Rc Rd Ra 4 0xe7d3fbc8 20;
   mkStep FG Ra Rb Rc Rd 9 0x21e1cde6 5; mkStep FG Rd Ra Rb Rc 14 0xc33707d6 9; mkStep FG Rc Rd Ra Rb 3 0xf4d50d87 14; mkStep FG Rb Rc Rd Ra 8 0x455a14ed 20;
   mkStep FG Ra Rb Rc Rd 13 0xa9e3e905 5; mkStep FG Rd Ra Rb Rc 2 0xfcefa3f8 9; mkStep FG Rc Rd Ra Rb 7 0x676f02d9 14; mkStep FG Rb Rc Rd Ra 12 0x8d2a4c8a 20;
   mkStep FH Ra Rb Rc Rd 5 0xfffa3942 4; mkStep FH2 Rd Ra Rb Rc 8 0x8771f681 11; mkStep FH Rc Rd Ra Rb 11 0x6d9d6122 16; mkStep FH2 Rb Rc Rd Ra 14 0xfde5380c 23;
   mkStep FH Ra Rb Rc Rd 1 0xa4beea44 4; mkStep FH2 Rd Ra Rb Rc 4 0x4bdecfa9 11; mkStep FH Rc Rd Ra Rb 7 0xf6bb4b60 16; mkStep FH2 Rb Rc Rd Ra 10 0xbebfbc70 23;
   mkStep FH Ra Rb Rc Rd 13 0x289b7ec6 4; mkStep FH2 Rd Ra Rb Rc 0 0xeaa127fa 11; mkStep FH Rc Rd Ra Rb 3 0xd4ef3085 16; mkStep FH2 Rb Rc Rd Ra 6 0x04881d05 23;
   mkStep FH Ra Rb Rc Rd 9 0xd9d4d039 4; mkStep FH2 Rd Ra Rb Rc 12 0xe6db99e5 11; mkStep FH Rc Rd Ra Rb 15 0x1fa27cf8 16; mkStep FH2 Rb Rc Rd Ra 2 0xc4ac5665 23;
   mkStep FI Ra Rb Rc Rd 0 0xf4292244 6; mkStep FI Rd Ra Rb Rc 7 0x432aff97 10; mkStep FI Rc Rd Ra Rb 14 0xab9423a7 15; mkStep FI Rb Rc Rd Ra 5 0xfc93a039 21;
   mkStep FI Ra Rb Rc Rd 12 0x655b59c3 6; mkStep FI Rd Ra Rb Rc 3 0x8f0ccc92 10; mkStep FI Rc Rd Ra Rb 10 0xffeff47d 15; mkStep FI Rb Rc Rd Ra 1 0x85845dd1 21;
   mkStep FI Ra Rb Rc Rd 8 0x6fa87e4f 6; mkStep FI Rd Ra Rb Rc 15 0xfe2ce6e0 10; mkStep FI Rc Rd Ra Rb 6 0xa3014314 15; mkStep FI Rb Rc Rd Ra 13 0x4e0811a1 21;
   mkStep FI Ra Rb Rc Rd 4 0xf7537e82 6; mkStep FI Rd Ra Rb Rc 11 0xbd3af235 10; mkStep FI Rc Rd Ra Rb 2 0x2ad7d2bb 15; mkStep FI Rb Rc Rd Ra 9 0xeb86d391 21].

(** md5.c 72-86: SET and GET read a word from 4 bytes, low byte first.  (On x86 they read the word from memory, which is the same there;
    elsewhere GET reads what SET has stored in the array block, which is the same word.) *)
Definition byteAt (data : list Z) (n : Z) : Z := match zget data n with Some b => b | None => 0 end.
Definition wordAt (data : list Z) (n : Z) : Z :=
  Z.lor (Z.lor (Z.lor (byteAt data (n * 4)) (Z.shiftl (byteAt data (n * 4 + 1)) 8)) (Z.shiftl (byteAt data (n * 4 + 2)) 16)) (Z.shiftl (byteAt data (n * 4 + 3)) 24).
(** md5.c 92-207: one pass of the loop of [body] over a block of 64 bytes ... *)
Definition bodyBlock (r : regs) (data : list Z) : regs :=
  let r' := fold_left (execStep (wordAt data)) stepLines r in
  mkRegs (u32 (r_a r' + r_a r)) (u32 (r_b r' + r_b r)) (u32 (r_c r' + r_c r)) (u32 (r_d r' + r_d r)).
(** ... and the loop, over n blocks (do ... while (size -= 64), so n is at least 1 in every call).  It returns the data after the blocks. *)
Fixpoint body (n : nat) (r : regs) (data : list Z) : regs * list Z :=
  match n with
  | O => (r, data)
  | S n' => body n' (bodyBlock r (firstn 64 data)) (skipn 64 data)
  end.

(** md5.h: MD5_CTX *)
Record md5ctx := mkCtx { c_lo : Z; c_hi : Z; c_regs : regs; c_buffer : list Z }.
(** md5.c 209-218; the bytes of the buffer are not set before they are written, here they are 0 *)
Definition MD5_Init : md5ctx := mkCtx 0 0 (mkRegs 0x67452301 0xefcdab89 0x98badcfe 0x10325476) (repeat 0 64).
(** memcpy / memset into the buffer, from position k *)
Definition blit (buffer : list Z) (k : nat) (data : list Z) : list Z := firstn k buffer ++ data ++ skipn (k + List.length data) buffer.
(** md5.c 220-252; [data] are the bytes the pointer points to, size is their number *)
Definition MD5_Update (ctx : md5ctx) (data : list Z) : md5ctx :=
  let size := zlen data in
  let saved_lo := c_lo ctx in
  let lo := u32 (Z.land (u64 (saved_lo + size)) 0x1fffffff) in
  let hi := if lo <? saved_lo then u32 (c_hi ctx + 1) else c_hi ctx in
  let hi := u32 (hi + Z.shiftr size 29) in
  let used := Z.land saved_lo 0x3f in
  let rest (r : regs) (buffer : list Z) (data : list Z) : md5ctx :=
    let size := zlen data in
    let '(r, data) := if 64 <=? size then body (Z.to_nat (size / 64)) r data else (r, data) in
    mkCtx lo hi r (blit buffer 0 data) in
  if used =? 0 then rest (c_regs ctx) (c_buffer ctx) data
  else
    let available := 64 - used in
    if size <? available then mkCtx lo hi (c_regs ctx) (blit (c_buffer ctx) (Z.to_nat used) data)
    else
      let buffer := blit (c_buffer ctx) (Z.to_nat used) (firstn (Z.to_nat available) data) in
      rest (fst (body 1 (c_regs ctx) buffer)) buffer (skipn (Z.to_nat available) data).
(** the bytes of a word, low byte first (md5.c 273-280, 284-299) *)
Definition wordBytes (w : Z) : list Z := [u8 w; u8 (Z.shiftr w 8); u8 (Z.shiftr w 16); u8 (Z.shiftr w 24)].
(** md5.c 254-302; the result is the 16 bytes of the digest.  (The context is overwritten with 0 at the end and not used again.) *)
Definition MD5_Final (ctx : md5ctx) : list Z :=
  let used := Z.land (c_lo ctx) 0x3f in
  let buffer := blit (c_buffer ctx) (Z.to_nat used) [0x80] in
  let used := used + 1 in
  let available := 64 - used in
  let '(r, buffer, used, available) :=
    if available <? 8 then
      let buffer := blit buffer (Z.to_nat used) (repeat 0 (Z.to_nat available)) in
      (fst (body 1 (c_regs ctx) buffer), buffer, 0, 64)
    else (c_regs ctx, buffer, used, available) in
  let buffer := blit buffer (Z.to_nat used) (repeat 0 (Z.to_nat (available - 8))) in
  let lo := u32 (Z.shiftl (c_lo ctx) 3) in
  let buffer := blit buffer 56 (wordBytes lo ++ wordBytes (c_hi ctx)) in
  let r := fst (body 1 r buffer) in
  wordBytes (r_a r) ++ wordBytes (r_b r) ++ wordBytes (r_c r) ++ wordBytes (r_d r).

(** memcpy of bytes into an integer: the low byte first, as on the machines the code is used on *)
Definition fromBytes (l : list Z) : Z := fold_right (fun b acc => b + 256 * acc) 0 l.
(** the bytes of an int *)
Definition intBytes (i : Z) : list Z := wordBytes (u32 i).
(** hash.cpp 44-63: md5Core *)
Definition md5Core (message : list Z) : Z * Z :=
  let result := MD5_Final (MD5_Update MD5_Init message) in
  (fromBytes (firstn 8 result), fromBytes (skipn 8 result)).
(** hash.cpp 28-40: hash64MD5xor of a vector of int *)
Definition hash64MD5xor (message : list Z) : Z :=
  let res := md5Core (flat_map intBytes message) in Z.lxor (fst res) (snd res).

(** the characters of a string *)
Definition stringBytes (s : string) : list Z := map (fun c => Z.of_nat (nat_of_ascii c)) (list_ascii_of_string s).
(** hash.cpp 82-97 and 102-110: hashMD5 and hash64MD5xor of a string *)
Definition hashMD5 (message : string) : Z * Z := md5Core (stringBytes message).
Definition hash64MD5xorString (message : string) : Z := let res := hashMD5 message in Z.lxor (fst res) (snd res).
(** sprintf with %lx: hexadecimal digits without leading zeros *)
Definition hexDigit (d : Z) : ascii := ascii_of_nat (Z.to_nat (if d <? 10 then 48 + d else 87 + d)).
Fixpoint hexDigits (fuel : nat) (x : Z) (acc : string) : string :=
  match fuel with
  | O => acc
  | S fuel' => let acc := String (hexDigit (x mod 16)) acc in if x <? 16 then acc else hexDigits fuel' (x / 16) acc
  end.
Definition formatHex (x : Z) : string := hexDigits 16 x EmptyString.
(** hash.cpp 68-78: hashMD5 as text; a uint64_t has at most 16 digits, so the 33 characters of the buffer suffice *)
Definition hashMD5Text (message : string) : string := let res := hashMD5 message in (formatHex (fst res) ++ formatHex (snd res))%string.
