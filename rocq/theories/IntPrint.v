(** Printing integers in a base and reading them back: kernel/Integer.st:493-644,
    kernel/LargeInt.st:1120-1148, kernel/Number.st:50-112, kernel/CharArray.st:599-630.
    Strings are lists of character codes, all between 0 and 255; a new String is
    filled with 0 (libgst/dict.inl instantiate_with). *)
From Verif Require Import Base Digits IntRep IntMath.

(** The object that holds an integer: the only canonical one (theorem
    C08_canonical_unique). Length in bytes of the two's complement form. *)
Definition large_bytes (v : Z) : list Z :=
  to_digits 256 (Z.to_nat ((Z.log2 v + 1) / 8 + 1)) v.
(** Non-negative integers only. *)
Definition int_obj (v : Z) : stint := if is_small v then Small v else Large false (large_bytes v).

(** Character class>>digitValue:, kernel/Character.st:240-246: [Err] is the index
    out of bounds error of the literal string. *)
Definition digit_char (d : Z) : outcome Z :=
  if (0 <=? d) && (d <? 36) then Ok (if d <? 10 then 48 + d else 55 + d) else Err.

(** at:put: on a String; [where] counts from 1 (C05). *)
Definition str_put (s : list Z) (where_ : Z) (c : Z) : outcome (list Z) :=
  if (1 <=? where_) && (where_ <=? Z.of_nat (length s)) then
    let n := Z.to_nat (where_ - 1) in Ok (firstn n s ++ c :: skipn (S n) s)
  else Err.

(** Integer>>replace:withStringBase:, kernel/Integer.st:630-644. *)
Fixpoint replace_small (fuel : nat) (num b where_ : Z) (s : list Z) : outcome (list Z) :=
  olet c := digit_char (num mod b) in
  olet s := str_put s where_ c in
  let num := num / b in
  if num >? 0 then
    match fuel with
    | O => OutOfFuel
    | S f => replace_small f num b (where_ - 1) s
    end
  else Ok s.

(** One division of the bytes 1..i, from the most significant one down:
    kernel/LargeInt.st:1134-1141, the bytes [l] being least significant first. A
    byte store of more than 255 is an error. *)
Fixpoint divide_bytes (radix : Z) (l : list Z) : outcome (list Z * Z) :=
  match l with
  | [] => Ok ([], 0)
  | x :: r =>
    olet (q, rem) := divide_bytes radix r in
    let t := Z.shiftl rem 8 + x in
    if t / radix <? 256 then Ok (t / radix :: q, t mod radix) else Err
  end.

(** LargePositiveInteger>>replace:withStringBase:, kernel/LargeInt.st:1120-1148; the
    two nested loops (i downwards; repeat while byte i is not 0) are run as one. *)
Fixpoint replace_large (fuel : nat) (radix : Z) (i : nat) (source : list Z) (where_ : Z)
    (s : list Z) : outcome (list Z) :=
  match fuel with
  | O => OutOfFuel
  | S f =>
    olet (q, rem) := divide_bytes radix (firstn i source) in
    let source := q ++ skipn i source in
    olet c := digit_char rem in
    olet s := str_put s where_ c in
    if nth (i - 1) source 0 =? 0 then
      match i with
      | S (S j) => replace_large f radix (S j) source (where_ - 1) s
      | _ => Ok s
      end
    else replace_large f radix i source (where_ - 1) s
  end.

(** The method that runs depends on the class of the number. *)
Definition replace_with_base (num b : Z) (s : list Z) : outcome (list Z) :=
  match int_obj num with
  | Small z => replace_small (log_fuel z) z b (Z.of_nat (length s)) s
  | Large _ bytes =>
    replace_large (8 * length bytes) b (length bytes) bytes (Z.of_nat (length s)) s
  end.

(** String new: n, for the sizes computed here. *)
Definition new_string (n : Z) : list Z := repeat 0 (Z.to_nat n).

(** Integer>>printString:, kernel/Integer.st:572-586 (also printOn:, displayString
    and storeString with base 10). *)
Definition print_string (n b : Z) : outcome (list Z) :=
  if n <? 0 then
    let num := - n in
    olet l := floorLog num b in
    olet s := str_put (new_string (l + 2)) 1 45 in
    replace_with_base num b s
  else
    olet l := floorLog n b in replace_with_base n b (new_string (l + 1)).

(** Integer>>printStringRadix:, kernel/Integer.st:493-514;
    replaceFrom:to:with:startingAt: copies the whole of the second string. *)
Definition print_radix (n b : Z) : outcome (list Z) :=
  let sign := n <? 0 in
  let num := if sign then - n else n in
  olet lb := floorLog b 10 in
  let radix_size := lb + 1 in
  olet l := floorLog num b in
  let size := l + radix_size + 2 in
  let size := if sign then size + 1 else size in
  olet s := replace_with_base num b (new_string size) in
  olet bs := print_string b 10 in
  let n := Z.to_nat radix_size in
  let s := firstn n bs ++ skipn n s in
  olet s := str_put s (radix_size + 1) 114 in
  if sign then str_put s (radix_size + 2) 45 else Ok s.

(** Integer>>printPaddedWith:to:base:, kernel/Integer.st:550-570;
    replaceFrom:to:withObject: fills the range, which may be empty. *)
Definition print_padded (n padding size b : Z) : outcome (list Z) :=
  let num := if n <? 0 then - n else n in
  let pad_first := if n <? 0 then 2 else 1 in
  olet l := floorLog num b in
  let req := l + pad_first in
  let s := new_string (Z.max req size) in
  olet s := (if pad_first =? 2 then str_put s 1 45 else Ok s) in
  let stop := Z.of_nat (length s) - req + pad_first - 1 in
  let s := firstn (Z.to_nat (pad_first - 1)) s ++
           repeat padding (Z.to_nat (stop - pad_first + 1)) ++ skipn (Z.to_nat stop) s in
  replace_with_base num b s.

(** ** Reading *)

(** Character>>asUppercase on 8-bit characters (kernel/Character.st:60-87). *)
Definition upper (c : Z) : Z := if (97 <=? c) && (c <=? 122) then c - 32 else c.
(** The Table lookup of Character>>digitValue and isDigit: (kernel/Character.st:60-95,
    255-267, 374-387): the value of a digit or upper case letter. *)
Definition char_digit (c : Z) : option Z :=
  if (48 <=? c) && (c <=? 57) then Some (c - 48)
  else if (65 <=? c) && (c <=? 90) then Some (c - 55) else None.
Definition is_digit (radix c : Z) : option Z :=
  match char_digit c with
  | Some d => if (0 <=? d) && (d <=? radix - 1) then Some d else None
  | None => None
  end.

(** What Number class>>readFrom:radix: answers, with what is left on the stream:
    fractional parts and exponents are not modelled. *)
Inductive read_result : Type :=
| ReadInt (n : Z) (rest : list Z)
| ReadOther.

(** kernel/Number.st:74-80 *)
Fixpoint read_digits (radix sgn int : Z) (s : list Z) : Z * list Z :=
  match s with
  | [] => (int, [])
  | c :: t =>
    match is_digit radix (upper c) with
    | Some d => read_digits radix sgn (sgn * d + int * radix) t
    | None => (int, s)
    end
  end.
(** Number class>>readFrom:radix:, kernel/Number.st:50-112, for a radix between 2
    and 36. *)
Definition read_from (radix : Z) (s : list Z) : read_result :=
  match s with
  | [] => ReadInt 0 []
  | c :: t =>
    let sgn := if c =? 45 then -1 else 1 in
    let s := if c =? 45 then t else s in
    match s with
    | [] => ReadInt 0 []
    | c :: _ =>
      if match is_digit radix (upper c) with Some _ => true | None => upper c =? 46 end then
        let (int, s) := read_digits radix sgn 0 s in
        match s with
        | [] => ReadInt int []
        | c :: _ =>
          if (upper c =? 46) || ((radix =? 10) && (upper c =? 69)) then ReadOther
          else ReadInt int s
        end
      else ReadInt 0 s
    end
  end.

(** CharArray>>asInteger, kernel/CharArray.st:599-630 *)
Fixpoint as_integer_loop (sgn result : Z) (s : list Z) : Z :=
  match s with
  | [] => result
  | ch :: t =>
    let value := ch - 48 in
    if (value <? 0) || (value >? 9) then result
    else as_integer_loop sgn (result * 10 + sgn * value) t
  end.
Definition as_integer (s : list Z) : Z :=
  match s with
  | [] => 0
  | ch :: t =>
    let result := ch - 48 in
    if (result <? 0) || (result >? 9) then
      if ch =? 45 then as_integer_loop (-1) 0 t else 0
    else as_integer_loop 1 result t
  end.
