(** MD5 of RFC 1321 and SHA-1 of RFC 3174. *)
From Verif Require Import Base.
Local Open Scope Z_scope.

Definition word (x : Z) : Z := x mod 2 ^ 32.
(** Rotation of a word to the left. *)
Definition rotl (s x : Z) : Z := (x * 2 ^ s) mod 2 ^ 32 + x / 2 ^ (32 - s).
(** [n] bytes of a number, the lowest first; and the number. *)
Fixpoint low_first (n : nat) (x : Z) : list Z :=
  match n with O => [] | S n => x mod 256 :: low_first n (x / 256) end.
Definition high_first (n : nat) (x : Z) : list Z := rev (low_first n x).
Fixpoint number (l : list Z) : Z := match l with [] => 0 | b :: l => b + 256 * number l end.

(** Padding: the bit 1, zeros up to 8 bytes before a multiple of 64, the length in bits. *)
Definition padded (len : Z -> list Z) (m : list Z) : list Z :=
  m ++ [128] ++ repeat 0 (Z.to_nat ((55 - Z.of_nat (length m)) mod 64)) ++ len (8 * Z.of_nat (length m) mod 2 ^ 64).

(** Cut into blocks of 64 bytes. *)
Inductive in_blocks : list Z -> list (list Z) -> Prop :=
| ib_nil : in_blocks [] []
| ib_cons b l bs : Z.of_nat (length b) = 64 -> in_blocks l bs -> in_blocks (b ++ l) (b :: bs).

(** A hash: the state after each block, from the first on, and the bytes of the last. *)
Definition hash_of (pad : list Z -> list Z) (body : list Z -> list Z -> list Z) (start : list Z) (out : list Z -> list Z)
  (m d : list Z) : Prop :=
  exists bs, in_blocks (pad m) bs /\ d = out (fold_left body bs start).

(** RFC 1321, 3.4.  Step [i], from 0: the function, the word and the rotation. *)
Definition md5_fun (i : Z) (x y z : Z) : Z :=
  if i <? 16 then Z.lor (Z.land x y) (Z.land (Z.lnot x) z)
  else if i <? 32 then Z.lor (Z.land x z) (Z.land y (Z.lnot z))
  else if i <? 48 then Z.lxor x (Z.lxor y z)
  else Z.lxor y (Z.lor x (word (Z.lnot z))).
Definition md5_word (i : Z) : Z :=
  if i <? 16 then i else if i <? 32 then (1 + 5 * i) mod 16 else if i <? 48 then (5 + 3 * i) mod 16 else 7 * i mod 16.
Definition md5_shift (i : Z) : Z :=
  nth (Z.to_nat (i / 16 * 4 + i mod 4)) [7; 12; 17; 22;  5; 9; 14; 20;  4; 11; 16; 23;  6; 10; 15; 21] 0.
(** T[i]: the integer part of 4294967296 times abs(sin(i)), as the
    appendix of RFC 1321 lists them. *)
Definition md5_table : list Z := [
  3614090360; 3905402710; 606105819; 3250441966; 4118548399; 1200080426; 2821735955; 4249261313;
  1770035416; 2336552879; 4294925233; 2304563134; 1804603682; 4254626195; 2792965006; 1236535329;
  4129170786; 3225465664; 643717713; 3921069994; 3593408605; 38016083; 3634488961; 3889429448;
  568446438; 3275163606; 4107603335; 1163531501; 2850285829; 4243563512; 1735328473; 2368359562;
  4294588738; 2272392833; 1839030562; 4259657740; 2763975236; 1272893353; 4139469664; 3200236656;
  681279174; 3936430074; 3572445317; 76029189; 3654602809; 3873151461; 530742520; 3299628645;
  4096336452; 1126891415; 2878612391; 4237533241; 1700485571; 2399980690; 4293915773; 2240044497;
  1873313359; 4264355552; 2734768916; 1309151649; 4149444226; 3174756917; 718787259; 3951481745].

(** The word [k] of a block, low byte first. *)
Definition word_of (b : list Z) (k : Z) : Z := number (firstn 4 (skipn (Z.to_nat (4 * k)) b)).
Definition md5_step (b : list Z) (s : Z * Z * Z * Z) (i : Z) : Z * Z * Z * Z :=
  let '(x, y, z, w) := s in
  (w, word (y + rotl (md5_shift i) (word (x + md5_fun i y z w + word_of b (md5_word i) + nth (Z.to_nat i) md5_table 0))), y, z).
Definition steps (n : nat) : list Z := map Z.of_nat (seq 0 n).
Definition md5_block (s : list Z) (b : list Z) : list Z :=
  match s with
  | [x; y; z; w] =>
      let '(x', y', z', w') := fold_left (md5_step b) (steps 64) (x, y, z, w) in
      [word (x + x'); word (y + y'); word (z + z'); word (w + w')]
  | _ => []
  end.
Definition md5_of (m d : list Z) : Prop :=
  hash_of (padded (low_first 8)) md5_block [0x67452301; 0xefcdab89; 0x98badcfe; 0x10325476] (flat_map (low_first 4)) m d.

(** RFC 3174, 5 and 6.1. *)
Definition sha1_fun (t : Z) (b c d : Z) : Z :=
  if t <? 20 then Z.lor (Z.land b c) (Z.land (Z.lnot b) d)
  else if t <? 40 then Z.lxor b (Z.lxor c d)
  else if t <? 60 then Z.lor (Z.land b c) (Z.lor (Z.land b d) (Z.land c d))
  else Z.lxor b (Z.lxor c d).
Definition sha1_const (t : Z) : Z :=
  if t <? 20 then 0x5A827999 else if t <? 40 then 0x6ED9EBA1 else if t <? 60 then 0x8F1BBCDC else 0xCA62C1D6.
(** The words W(0), W(1), ...: those of the block, high byte first, and then each from four before. *)
Definition big_word_of (b : list Z) (k : Z) : Z := number (rev (firstn 4 (skipn (Z.to_nat (4 * k)) b))).
Fixpoint sha1_words (n : nat) (b : list Z) : list Z :=
  match n with
  | O => map (big_word_of b) (steps 16)
  | S n =>
      let w := sha1_words n b in
      let t := length w in
      w ++ [rotl 1 (Z.lxor (Z.lxor (nth (t - 3) w 0) (nth (t - 8) w 0)) (Z.lxor (nth (t - 14) w 0) (nth (t - 16) w 0)))]
  end.
Definition sha1_step (w : list Z) (s : Z * Z * Z * Z * Z) (t : Z) : Z * Z * Z * Z * Z :=
  let '(a, b, c, d, e) := s in
  (word (rotl 5 a + sha1_fun t b c d + e + nth (Z.to_nat t) w 0 + sha1_const t), a, rotl 30 b, c, d).
Definition sha1_block (s : list Z) (b : list Z) : list Z :=
  match s with
  | [h0; h1; h2; h3; h4] =>
      let '(a', b', c', d', e') := fold_left (sha1_step (sha1_words 64 b)) (steps 80) (h0, h1, h2, h3, h4) in
      [word (h0 + a'); word (h1 + b'); word (h2 + c'); word (h3 + d'); word (h4 + e')]
  | _ => []
  end.
Definition sha1_of (m d : list Z) : Prop :=
  hash_of (padded (high_first 8)) sha1_block [0x67452301; 0xefcdab89; 0x98badcfe; 0x10325476; 0xc3d2e1f0]
    (flat_map (high_first 4)) m d.

(** The hexadecimal digits '0' to '9' and 'a' to 'f', and what two of them stand for. *)
Definition hex_value (c : Z) : option Z :=
  if (48 <=? c) && (c <=? 57) then Some (c - 48) else if (97 <=? c) && (c <=? 102) then Some (c - 87) else None.
Inductive reads_as : list Z -> list Z -> Prop :=
| ra_nil : reads_as [] []
| ra_cons c1 c2 s v1 v2 l : hex_value c1 = Some v1 -> hex_value c2 = Some v2 -> reads_as s l ->
    reads_as (c1 :: c2 :: s) (16 * v1 + v2 :: l).
