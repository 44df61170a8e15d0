(** MD5, packages/digest/md5.c and packages/digest/md5.st. *)
From Verif Require Import Base Digest.
Local Open Scope Z_scope.

(** FF, FG, FH and FI, md5.c:257-261.  [~] is taken of a 32-bit word. *)
Definition FF (b c d : Z) : Z := Z.lxor d (Z.land b (Z.lxor c d)).
Definition FG (b c d : Z) : Z := FF d b c.
Definition FH (b c d : Z) : Z := Z.lxor (Z.lxor b c) d.
Definition FI (b c d : Z) : Z := Z.lxor c (Z.lor b (u32 (Z.lnot d))).

(** The local variables A, B, C and D by name. *)
Inductive reg := A | B | C | D.
Definition idx (r : reg) : nat := match r with A => 0 | B => 1 | C => 2 | D => 3 end%nat.
Definition get (l : list Z) (r : reg) : Z := nth (idx r) l 0.
Definition set (l : list Z) (r : reg) (v : Z) : list Z := firstn (idx r) l ++ v :: skipn (S (idx r)) l.

(** One use of the macro OP, md5.c:305-313, 346-353, 374-381 and 402-409: which variables, which word, the
    rotation and the constant.  In the first round the word is the next one. *)
Record op := mkO { ra : reg; rb : reg; rc : reg; rd : reg; rk : nat; rs : Z; rt : Z }.
Definition run_op (f : Z -> Z -> Z -> Z) (x : nat -> Z) (l : list Z) (o : op) : list Z :=
  let a := u32 (get l (ra o) + (f (get l (rb o)) (get l (rc o)) (get l (rd o)) + x (rk o) + rt o)) in
  set l (ra o) (u32 (cyclic a (rs o) + get l (rb o))).

(** md5.c:326-341. *)
Definition round1 : list op := [
  mkO A B C D  0  7 0xd76aa478; mkO D A B C  1 12 0xe8c7b756; mkO C D A B  2 17 0x242070db; mkO B C D A  3 22 0xc1bdceee;
  mkO A B C D  4  7 0xf57c0faf; mkO D A B C  5 12 0x4787c62a; mkO C D A B  6 17 0xa8304613; mkO B C D A  7 22 0xfd469501;
  mkO A B C D  8  7 0x698098d8; mkO D A B C  9 12 0x8b44f7af; mkO C D A B 10 17 0xffff5bb1; mkO B C D A 11 22 0x895cd7be;
  mkO A B C D 12  7 0x6b901122; mkO D A B C 13 12 0xfd987193; mkO C D A B 14 17 0xa679438e; mkO B C D A 15 22 0x49b40821].
(** md5.c:356-371. *)
Definition round2 : list op := [
  mkO A B C D  1  5 0xf61e2562; mkO D A B C  6  9 0xc040b340; mkO C D A B 11 14 0x265e5a51; mkO B C D A  0 20 0xe9b6c7aa;
  mkO A B C D  5  5 0xd62f105d; mkO D A B C 10  9 0x02441453; mkO C D A B 15 14 0xd8a1e681; mkO B C D A  4 20 0xe7d3fbc8;
  mkO A B C D  9  5 0x21e1cde6; mkO D A B C 14  9 0xc33707d6; mkO C D A B  3 14 0xf4d50d87; mkO B C D A  8 20 0x455a14ed;
  mkO A B C D 13  5 0xa9e3e905; mkO D A B C  2  9 0xfcefa3f8; mkO C D A B  7 14 0x676f02d9; mkO B C D A 12 20 0x8d2a4c8a].
(** md5.c:384-399. *)
Definition round3 : list op := [
  mkO A B C D  5  4 0xfffa3942; mkO D A B C  8 11 0x8771f681; mkO C D A B 11 16 0x6d9d6122; mkO B C D A 14 23 0xfde5380c;
  mkO A B C D  1  4 0xa4beea44; mkO D A B C  4 11 0x4bdecfa9; mkO C D A B  7 16 0xf6bb4b60; mkO B C D A 10 23 0xbebfbc70;
  mkO A B C D 13  4 0x289b7ec6; mkO D A B C  0 11 0xeaa127fa; mkO C D A B  3 16 0xd4ef3085; mkO B C D A  6 23 0x04881d05;
  mkO A B C D  9  4 0xd9d4d039; mkO D A B C 12 11 0xe6db99e5; mkO C D A B 15 16 0x1fa27cf8; mkO B C D A  2 23 0xc4ac5665].
(** md5.c:412-427. *)
Definition round4 : list op := [
  mkO A B C D  0  6 0xf4292244; mkO D A B C  7 10 0x432aff97; mkO C D A B 14 15 0xab9423a7; mkO B C D A  5 21 0xfc93a039;
  mkO A B C D 12  6 0x655b59c3; mkO D A B C  3 10 0x8f0ccc92; mkO C D A B 10 15 0xffeff47d; mkO B C D A  1 21 0x85845dd1;
  mkO A B C D  8  6 0x6fa87e4f; mkO D A B C 15 10 0xfe2ce6e0; mkO C D A B  6 15 0xa3014314; mkO B C D A 13 21 0x4e0811a1;
  mkO A B C D  4  6 0xf7537e82; mkO D A B C 11 10 0xbd3af235; mkO C D A B  2 15 0x2ad7d2bb; mkO B C D A  9 21 0xeb86d391].

(** The body of the loop of md5_process_block, md5.c:290-434. *)
Definition md5_body (l : list Z) (b : bytes) : list Z :=
  let x := load32 b in
  let l1 := fold_left (run_op FF x) round1 l in
  let l2 := fold_left (run_op FG x) round2 l1 in
  let l3 := fold_left (run_op FH x) round3 l2 in
  let l4 := fold_left (run_op FI x) round4 l3 in
  [u32 (get l4 A + get l A); u32 (get l4 B + get l B); u32 (get l4 C + get l C); u32 (get l4 D + get l D)].

(** md5_init_ctx, md5.c:65-76; the buffer is not initialised, [junk] is what it holds. *)
Definition md5_init (junk : bytes) : ctx := mkC [0x67452301; 0xefcdab89; 0x98badcfe; 0x10325476] 0 0 0 junk.

(** md5_process_bytes, md5.c:208-251. *)
Definition md5_process_bytes (data : bytes) (c : ctx) : outcome ctx :=
  olet p := top_up md5_body data c in
  let '(data, c) := p in
  let n := length data in
  let '(data, c) :=
    if (64 <? n)%nat then (skipn (whole n) data, process_block md5_body (firstn (whole n) data) c) else (data, c) in
  if (0 <? length data)%nat
  then olet b := blit (buf c) 0 data in Ok (with_buf c (length data) b)
  else Ok c.

(** md5_finish_ctx, md5.c:101-127, and md5_read_ctx, md5.c:83-94: the digest. *)
Definition md5_finish (c : ctx) : outcome bytes :=
  let n := buflen c in
  let c := count (Z.of_nat n) c in
  let pad := if (56 <=? n)%nat then (64 + 56 - n)%nat else (56 - n)%nat in
  olet p := fill pad in
  olet b := blit (buf c) n p in
  olet b := blit b (n + pad) (store32 (u32 (Z.shiftl (t0 c) 3))) in
  olet b := blit b (n + pad + 4) (store32 (Z.lor (u32 (Z.shiftl (t1 c) 3)) (Z.shiftr (t0 c) 29))) in
  let c := process_block md5_body (firstn (n + pad + 8) b) (with_buf c n b) in
  Ok (flat_map store32 (regs c)).

(** nextPut: and nextPutAll:, packages/digest/md5.st:62-96: each String is one call.  The digest of
    what was put. *)
Fixpoint md5_put (chunks : list bytes) (c : ctx) : outcome ctx :=
  match chunks with
  | [] => Ok c
  | d :: r => olet c := md5_process_bytes d c in md5_put r c
  end.
Definition md5_digest (junk : bytes) (chunks : list bytes) : outcome bytes :=
  olet c := md5_put chunks (md5_init junk) in md5_finish c.
(** nextPutAll: with a stream, packages/digest/md5.st:79-96: pieces of 1024 bytes, then the rest. *)
Fixpoint pieces (fuel : nat) (l : bytes) : list bytes :=
  match fuel with
  | O => [l]
  | S fuel => if (length l <? 4 * 256)%nat then [l] else firstn (4 * 256) l :: pieces fuel (skipn (4 * 256) l)
  end.
