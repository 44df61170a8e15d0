(** Base 64 as RFC 2045 (section 6.8) describes it: the text that stands for some bytes, with line breaks
    between groups of four characters.  Used in packages/net/MIME.st:2952. *)
From Verif Require Import Base.
Import ListNotations.
Local Open Scope Z_scope.

(** The alphabet (packages/net/MIME.st:2957). *)
Definition letter (v : Z) : Z :=
  if v <? 26 then v + 65 else if v <? 52 then v - 26 + 97 else if v <? 62 then v - 52 + 48 else if v =? 62 then 43 else 47.

(** A byte. *)
Definition byte (x : Z) : Prop := 0 <= x < 256.

(** The letters of 24 bits (packages/net/MIME.st:2981-2984). *)
Definition sixth (x k : Z) : Z := letter (x / 64 ^ k mod 64).

(** One group: three bytes, two or one (packages/net/MIME.st:2963-2966). *)
Definition group3 (a b c : Z) : list Z :=
  let x := a * 65536 + b * 256 + c in [sixth x 3; sixth x 2; sixth x 1; sixth x 0].
Definition group2 (a b : Z) : list Z := let x := a * 65536 + b * 256 in [sixth x 3; sixth x 2; sixth x 1; 61].
Definition group1 (a : Z) : list Z := let x := a * 65536 in [sixth x 3; sixth x 2; 61; 61].

(** [text t b n]: [t] stands for the bytes [b] and has [n] newlines, which are between groups. *)
Inductive text : list Z -> list Z -> nat -> Prop :=
  | T3 a b c : byte a -> byte b -> byte c -> text (group3 a b c) [a; b; c] 0
  | T2 a b : byte a -> byte b -> text (group2 a b) [a; b] 0
  | T1 a : byte a -> text (group1 a) [a] 0
  | More a b c m t bs n : byte a -> byte b -> byte c -> text t bs n ->
      text (group3 a b c ++ repeat 10 m ++ t) (a :: b :: c :: bs) (m + n).
