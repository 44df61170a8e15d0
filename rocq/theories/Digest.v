(** What packages/digest/md5.c (the same as lib-src/md5.c but for its comments) and
    packages/digest/sha1.c share: the context and its buffer, on a little-endian machine with
    64-bit size_t.  A byte is a Z from 0 to 255, a word a Z below 2^32. *)
From Verif Require Import Base.
Local Open Scope Z_scope.

Definition bytes := list Z.
(** The words A, B, C, D (and E), total[2], buflen and the 128 bytes of the buffer:
    packages/digest/md5.h:81-91, packages/digest/sha1.h:63-74. *)
Record ctx := mkC { regs : list Z; t0 : Z; t1 : Z; buflen : nat; buf : bytes }.

(** Unsigned 32-bit arithmetic. *)
Definition u32 (x : Z) : Z := x mod 4294967296.
(** CYCLIC of md5.c:317 and rol of sha1.c:306. *)
Definition cyclic (w s : Z) : Z := Z.lor (u32 (Z.shiftl w s)) (Z.shiftr w (32 - s)).

(** The bytes of a word in memory, and the word loaded from them. *)
Definition store32 (w : Z) : bytes := [w mod 256; w / 256 mod 256; w / 65536 mod 256; w / 16777216 mod 256].
Definition load32 (b : bytes) (i : nat) : Z :=
  nth (4 * i) b 0 + 256 * nth (4 * i + 1) b 0 + 65536 * nth (4 * i + 2) b 0 + 16777216 * nth (4 * i + 3) b 0.

(** memcpy into the buffer of the context; beyond its 128 bytes it is undefined behaviour. *)
Definition blit (b : bytes) (at_ : nat) (src : bytes) : outcome bytes :=
  if (at_ + length src <=? 128)%nat then Ok (firstn at_ b ++ src ++ skipn (at_ + length src) b) else UB.
(** [n] bytes from [at_] on. *)
Definition sub (b : bytes) (at_ n : nat) : bytes := firstn n (skipn at_ b).
(** len & ~63. *)
Definition whole (n : nat) : nat := (n / 64 * 64)%nat.

(** fillbuf, md5.c:60 and sha1.c:51; reading more than its 64 bytes is undefined behaviour. *)
Definition fillbuf : bytes := 128 :: repeat 0 63.
Definition fill (n : nat) : outcome bytes := if (n <=? 64)%nat then Ok (firstn n fillbuf) else UB.

(** total[0] += len; if (total[0] < len) ++total[1]: md5.c:284-286 and sha1.c:302-304.  len is
    a size_t, so that the comparison is of 64-bit numbers. *)
Definition count (len : Z) (c : ctx) : ctx :=
  let t := u32 (t0 c + len) in
  mkC (regs c) t (if t <? len then u32 (t1 c + 1) else t1 c) (buflen c) (buf c).

(** The loop over the blocks of 64 bytes, md5.c:290-434 and sha1.c:319-415; [f] is its body. *)
Fixpoint each_block (f : list Z -> bytes -> list Z) (n : nat) (r : list Z) (b : bytes) : list Z :=
  match n with
  | O => r
  | S n => each_block f n (f r (firstn 64 b)) (skipn 64 b)
  end.
(** md5_process_block and sha1_process_block; the length is a multiple of 64. *)
Definition process_block (f : list Z -> bytes -> list Z) (b : bytes) (c : ctx) : ctx :=
  let c := count (Z.of_nat (length b)) c in
  mkC (each_block f (length b / 64) (regs c) b) (t0 c) (t1 c) (buflen c) (buf c).

Definition with_buf (c : ctx) (n : nat) (b : bytes) : ctx := mkC (regs c) (t0 c) (t1 c) n b.

(** The first part of md5_process_bytes and sha1_process_bytes, md5.c:214-235 and sha1.c:204-227:
    fill the buffer, process what is whole in it, move the rest to its start.  128 - left_over
    is not negative since left_over is at most 64 (otherwise the first memcpy is undefined). *)
Definition top_up (f : list Z -> bytes -> list Z) (data : bytes) (c : ctx) : outcome (bytes * ctx) :=
  if (buflen c =? 0)%nat then Ok (data, c)
  else
    let left := buflen c in
    let add := if (length data <? 128 - left)%nat then length data else (128 - left)%nat in
    olet b := blit (buf c) left (firstn add data) in
    let n := (left + add)%nat in
    if (64 <? n)%nat
    then let c := process_block f (firstn (whole n) b) (with_buf c n b) in
         olet b := blit b 0 (sub b (whole n) (n mod 64)) in
         Ok (skipn add data, with_buf c (n mod 64) b)
    else Ok (skipn add data, with_buf c n b).

(** hexDigest, packages/digest/digest.st:85-95: two digits for each byte, as Character digitValue:
    gives them (0-9 and A-Z), in lower case at the end.  The characters are their codes. *)
Definition digit_char (v : Z) : Z := if v <? 10 then 48 + v else 55 + v.
Definition lowercase (c : Z) : Z := if (65 <=? c) && (c <=? 90) then c + 32 else c.
Definition hex_digest (l : bytes) : list Z := map lowercase (flat_map (fun b => [digit_char (b / 16); digit_char (b mod 16)]) l).
