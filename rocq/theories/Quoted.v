(** Model of decodeQuotedPrintableFrom:to:in:, which MimeScanner and MimeEncodedWordCoDec have alike
    (packages/net/MIME.st:1649-1669, 2999-3019), for the whole of a String.  Strings are lists of the values of
    their Characters. *)
From Verif Require Import Base.
Import ListNotations.
Local Open Scope Z_scope.

(** '0123456789ABCDEF' includes: (packages/net/MIME.st:1663). *)
Definition hex_digit (c : Z) : bool := ((48 <=? c) && (c <=? 57)) || ((65 <=? c) && (c <=? 70)).

(** Character>>digitValue: of digits and of all capital letters (kernel/Character.st:77-81, 255-267). *)
Definition digit_value (c : Z) : outcome Z :=
  if (48 <=? c) && (c <=? 57) then Ok (c - 48)
  else if (65 <=? c) && (c <=? 90) then Ok (c - 55)
  else Err.

(** asCharacter, then nextPut: to a stream on a String (packages/net/MIME.st:1666).  asCharacter answers a
    UnicodeCharacter from 128 on (kernel/Integer.st:398-403, kernel/Character.st:100-114, libgst/prims.def:3553-3573,
    libgst/dict.inl:587-603), and a String takes none of them (libgst/dict.inl:1175-1181,
    kernel/Object.st:837-842). *)
Definition as_character (v : Z) : outcome Z := if v <? 128 then Ok v else Err.

(** The loop: [next] at the end answers nil, which is no hexadecimal digit and has no digitValue
    (packages/net/MIME.st:1659-1668). *)
Fixpoint loop (s : list Z) : outcome (list Z) :=
  match s with
  | [] => Ok []
  | c :: s =>
      if c =? 61 then
        match s with
        | [] => Ok []
        | n1 :: s1 =>
            if hex_digit n1 then
              match s1 with
              | [] => Err
              | n2 :: s2 =>
                  olet d1 := digit_value n1 in olet d2 := digit_value n2 in
                  olet v := as_character (d1 * 16 + d2) in
                  olet t := loop s2 in Ok (v :: t)
              end
            else loop s1
        end
      else olet t := loop s in Ok (c :: t)
  end.

(** The method for the whole of a String: String new: has no negative size (packages/net/MIME.st:1654-1658,
    libgst/prims.def:2310-2336). *)
Definition decode (s : list Z) : outcome (list Z) :=
  if Z.of_nat (length s) - 1 <? 0 then Err else loop s.
