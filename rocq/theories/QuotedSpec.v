(** Quoted-printable as RFC 2045 (section 6.7) describes it, and the variant of it for words in the headers of
    messages (RFC 2047, section 4.2).  Used in packages/net/MIME.st:1634-1639. *)
From Verif Require Import Base.
Import ListNotations.
Local Open Scope Z_scope.

(** The digits (packages/net/MIME.st:1663). *)
Definition hex (v : Z) : Z := nth (Z.to_nat v) [48; 49; 50; 51; 52; 53; 54; 55; 56; 57; 65; 66; 67; 68; 69; 70] 0.

(** [quoted eol hi t b]: the text [t] stands for the bytes [b], where [eol] ends a line, and the bytes that are
    written with digits are below [hi] (packages/net/MIME.st:1659-1668; 256 in RFC 2045). *)
Inductive quoted (eol : list Z) (hi : Z) : list Z -> list Z -> Prop :=
  | Q_end : quoted eol hi [] []
  | Q_literal c t b : 0 <= c < 256 -> c <> 61 -> quoted eol hi t b -> quoted eol hi (c :: t) (c :: b)
  | Q_escape v t b : 0 <= v < hi -> quoted eol hi t b -> quoted eol hi (61 :: hex (v / 16) :: hex (v mod 16) :: t) (v :: b)
  | Q_soft t b : quoted eol hi t b -> quoted eol hi (61 :: eol ++ t) b.

(** In headers, underline is a space (packages/net/MIME.st:1634-1639). *)
Inductive header_quoted (hi : Z) : list Z -> list Z -> Prop :=
  | H_end : header_quoted hi [] []
  | H_literal c t b : 0 <= c < 256 -> c <> 61 -> c <> 95 -> c <> 32 -> header_quoted hi t b -> header_quoted hi (c :: t) (c :: b)
  | H_space t b : header_quoted hi t b -> header_quoted hi (95 :: t) (32 :: b)
  | H_escape v t b : 0 <= v < hi -> header_quoted hi t b -> header_quoted hi (61 :: hex (v / 16) :: hex (v mod 16) :: t) (v :: b).

(** A byte in digits (packages/net/MIME.st:1663-1666). *)
Definition escape (v : Z) : list Z := [61; hex (v / 16); hex (v mod 16)].
