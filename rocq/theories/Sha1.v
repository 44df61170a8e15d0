(** SHA-1, packages/digest/sha1.c and packages/digest/sha1.st. *)
From Verif Require Import Base Digest.
Local Open Scope Z_scope.

(** SWAP, sha1.c:40-41, on a little-endian machine. *)
Definition swap (n : Z) : Z :=
  Z.lor (Z.lor (Z.lor (u32 (Z.shiftl n 24)) (u32 (Z.shiftl (Z.land n 0xff00) 8))) (Z.land (Z.shiftr n 8) 0xff00)) (Z.shiftr n 24).

(** K1 to K4 and F1 to F4, sha1.c:271-280. *)
Definition K1 : Z := 0x5a827999.
Definition K2 : Z := 0x6ed9eba1.
Definition K3 : Z := 0x8f1bbcdc.
Definition K4 : Z := 0xca62c1d6.
Definition F1 (b c d : Z) : Z := Z.lxor d (Z.land b (Z.lxor c d)).
Definition F2 (b c d : Z) : Z := Z.lxor (Z.lxor b c) d.
Definition F3 (b c d : Z) : Z := Z.lor (Z.land b c) (Z.land d (Z.lor b c)).
Definition F4 (b c d : Z) : Z := Z.lxor (Z.lxor b c) d.

(** The local variables a to e by name. *)
Inductive reg := A | B | C | D | E.
Definition idx (r : reg) : nat := match r with A => 0 | B => 1 | C => 2 | D => 3 | E => 4 end%nat.
Definition get (l : list Z) (r : reg) : Z := nth (idx r) l 0.
Definition put (l : list Z) (i : nat) (v : Z) : list Z := firstn i l ++ v :: skipn (S i) l.
Definition set (l : list Z) (r : reg) (v : Z) : list Z := put l (idx r) v.

(** One use of the macro R, sha1.c:312-317: the variables, the function, the constant, and the word:
    x[i] or M(i). *)
Record step := mkR { ra : reg; rb : reg; rc : reg; rd : reg; re : reg; rf : Z -> Z -> Z -> Z; rk : Z; rm : bool; ri : nat }.
(** M, sha1.c:308-310.  [I & 0x0f] is [I mod 16]. *)
Definition M (x : list Z) (i : nat) : Z :=
  cyclic (Z.lxor (Z.lxor (Z.lxor (nth (i mod 16) x 0) (nth ((i - 14) mod 16) x 0)) (nth ((i - 8) mod 16) x 0)) (nth ((i - 3) mod 16) x 0)) 1.
Definition run_step (s : list Z * list Z) (o : step) : list Z * list Z :=
  let '(l, x) := s in
  let '(w, x) := if rm o then (M x (ri o), put x (ri o mod 16) (M x (ri o))) else (nth (ri o) x 0, x) in
  let l := set l (re o) (u32 (get l (re o) + (cyclic (get l (ra o)) 5 + rf o (get l (rb o)) (get l (rc o)) (get l (rd o)) + rk o + w))) in
  (set l (rb o) (cyclic (get l (rb o)) 30), x).

(** sha1.c:329-408. *)
Definition sha1_steps : list step := [
  mkR A B C D E F1 K1 false  0; mkR E A B C D F1 K1 false  1; mkR D E A B C F1 K1 false  2; mkR C D E A B F1 K1 false  3; mkR B C D E A F1 K1 false  4;
  mkR A B C D E F1 K1 false  5; mkR E A B C D F1 K1 false  6; mkR D E A B C F1 K1 false  7; mkR C D E A B F1 K1 false  8; mkR B C D E A F1 K1 false  9;
  mkR A B C D E F1 K1 false 10; mkR E A B C D F1 K1 false 11; mkR D E A B C F1 K1 false 12; mkR C D E A B F1 K1 false 13; mkR B C D E A F1 K1 false 14;
  mkR A B C D E F1 K1 false 15; mkR E A B C D F1 K1 true  16; mkR D E A B C F1 K1 true  17; mkR C D E A B F1 K1 true  18; mkR B C D E A F1 K1 true  19;
  mkR A B C D E F2 K2 true  20; mkR E A B C D F2 K2 true  21; mkR D E A B C F2 K2 true  22; mkR C D E A B F2 K2 true  23; mkR B C D E A F2 K2 true  24;
  mkR A B C D E F2 K2 true  25; mkR E A B C D F2 K2 true  26; mkR D E A B C F2 K2 true  27; mkR C D E A B F2 K2 true  28; mkR B C D E A F2 K2 true  29;
  mkR A B C D E F2 K2 true  30; mkR E A B C D F2 K2 true  31; mkR D E A B C F2 K2 true  32; mkR C D E A B F2 K2 true  33; mkR B C D E A F2 K2 true  34;
  mkR A B C D E F2 K2 true  35; mkR E A B C D F2 K2 true  36; mkR D E A B C F2 K2 true  37; mkR C D E A B F2 K2 true  38; mkR B C D E A F2 K2 true  39;
  mkR A B C D E F3 K3 true  40; mkR E A B C D F3 K3 true  41; mkR D E A B C F3 K3 true  42; mkR C D E A B F3 K3 true  43; mkR B C D E A F3 K3 true  44;
  mkR A B C D E F3 K3 true  45; mkR E A B C D F3 K3 true  46; mkR D E A B C F3 K3 true  47; mkR C D E A B F3 K3 true  48; mkR B C D E A F3 K3 true  49;
  mkR A B C D E F3 K3 true  50; mkR E A B C D F3 K3 true  51; mkR D E A B C F3 K3 true  52; mkR C D E A B F3 K3 true  53; mkR B C D E A F3 K3 true  54;
  mkR A B C D E F3 K3 true  55; mkR E A B C D F3 K3 true  56; mkR D E A B C F3 K3 true  57; mkR C D E A B F3 K3 true  58; mkR B C D E A F3 K3 true  59;
  mkR A B C D E F4 K4 true  60; mkR E A B C D F4 K4 true  61; mkR D E A B C F4 K4 true  62; mkR C D E A B F4 K4 true  63; mkR B C D E A F4 K4 true  64;
  mkR A B C D E F4 K4 true  65; mkR E A B C D F4 K4 true  66; mkR D E A B C F4 K4 true  67; mkR C D E A B F4 K4 true  68; mkR B C D E A F4 K4 true  69;
  mkR A B C D E F4 K4 true  70; mkR E A B C D F4 K4 true  71; mkR D E A B C F4 K4 true  72; mkR C D E A B F4 K4 true  73; mkR B C D E A F4 K4 true  74;
  mkR A B C D E F4 K4 true  75; mkR E A B C D F4 K4 true  76; mkR D E A B C F4 K4 true  77; mkR C D E A B F4 K4 true  78; mkR B C D E A F4 K4 true  79].

(** The body of the loop of sha1_process_block, sha1.c:319-415. *)
Definition sha1_body (l : list Z) (b : bytes) : list Z :=
  let x := map (fun t => swap (load32 b t)) (seq 0 16) in
  let l' := fst (fold_left run_step sha1_steps (l, x)) in
  [u32 (get l A + get l' A); u32 (get l B + get l' B); u32 (get l C + get l' C); u32 (get l D + get l' D); u32 (get l E + get l' E)].

(** sha1_init_ctx, sha1.c:57-68; the buffer is not initialised, [junk] is what it holds. *)
Definition sha1_init (junk : bytes) : ctx := mkC [0x67452301; 0xefcdab89; 0x98badcfe; 0x10325476; 0xc3d2e1f0] 0 0 0 junk.

(** The loop for data that are not aligned, sha1.c:235-241: the blocks go through the buffer. *)
Fixpoint unaligned (fuel : nat) (data : bytes) (c : ctx) : outcome (bytes * ctx) :=
  match fuel with
  | O => OutOfFuel
  | S fuel =>
      if (64 <? length data)%nat
      then olet b := blit (buf c) 0 (firstn 64 data) in
           unaligned fuel (skipn 64 data) (process_block sha1_body (firstn 64 b) (with_buf c (buflen c) b))
      else Ok (data, c)
  end.

(** sha1_process_bytes, sha1.c:201-266; [odd] says that the data left after the first part are not
    aligned. *)
Definition sha1_process_bytes (odd : bool) (data : bytes) (c : ctx) : outcome ctx :=
  olet p := top_up sha1_body data c in
  let '(data, c) := p in
  let n := length data in
  olet p :=
    (if (64 <=? n)%nat
     then if odd then unaligned (S n) data c
          else Ok (skipn (whole n) data, process_block sha1_body (firstn (whole n) data) c)
     else Ok (data, c)) in
  let '(data, c) := p in
  if (0 <? length data)%nat
  then
    let left := buflen c in
    olet b := blit (buf c) left data in
    let left := (left + length data)%nat in
    if (64 <=? left)%nat
    then let c := process_block sha1_body (firstn 64 b) (with_buf c (buflen c) b) in
         olet b := blit b 0 (sub b 64 (left - 64)) in
         Ok (with_buf c (left - 64) b)
    else Ok (with_buf c left b)
  else Ok c.

(** sha1_finish_ctx, sha1.c:92-114, and sha1_read_ctx, sha1.c:75-85: the digest. *)
Definition sha1_finish (c : ctx) : outcome bytes :=
  let n := buflen c in
  let size := if (n <? 56)%nat then 16%nat else 32%nat in
  let c := count (Z.of_nat n) c in
  olet b := blit (buf c) (4 * (size - 2)) (store32 (swap (Z.lor (u32 (Z.shiftl (t1 c) 3)) (Z.shiftr (t0 c) 29)))) in
  olet b := blit b (4 * (size - 1)) (store32 (swap (u32 (Z.shiftl (t0 c) 3)))) in
  olet p := fill ((size - 2) * 4 - n) in
  olet b := blit b n p in
  let c := process_block sha1_body (firstn (size * 4) b) (with_buf c n b) in
  Ok (flat_map (fun w => store32 (swap w)) (regs c)).

(** nextPut: and nextPutAll:, packages/digest/sha1.st:62-96: each String is one call. *)
Fixpoint sha1_put (chunks : list (bool * bytes)) (c : ctx) : outcome ctx :=
  match chunks with
  | [] => Ok c
  | (o, d) :: r => olet c := sha1_process_bytes o d c in sha1_put r c
  end.
Definition sha1_digest (junk : bytes) (chunks : list (bool * bytes)) : outcome bytes :=
  olet c := sha1_put chunks (sha1_init junk) in sha1_finish c.
