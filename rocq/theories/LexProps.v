(** The properties of literals in source code. *)
From Coq Require Import ZArith List Bool Lia.
From Verif Require Import Base IntRep IntPrint IntPrintSpec Lex LexSpec LexText LexTextSpec LexTextProofs.
Import ListNotations.
Local Open Scope Z_scope.

(** C72, for every integer but the least SmallInteger.  Missing: that integer
    with a minus sign in front; see [C72_refuted]. *)
Theorem C72_partial : forall (sg : bool) v w rest,
  decimal_text v w -> after_literal rest -> (if sg then - v else v) <> - 2 ^ 62 ->
  exists o, int_literal ((if sg then [45] else []) ++ w ++ rest) = Ok (Some o, rest) /\
    is_int_obj o (if sg then - v else v).
Proof. exact int_literal_partial. Qed.
Print Assumptions C72_partial.

(** For every integer: the value is the one written. *)
Theorem C72_value : forall (sg : bool) v w rest, decimal_text v w -> after_literal rest ->
  exists o, int_literal ((if sg then [45] else []) ++ w ++ rest) = Ok (Some o, rest) /\
    st_val o = (if sg then - v else v).
Proof. exact int_literal_value. Qed.
Print Assumptions C72_value.

(** The same in other bases, with the sign in front; what is no digit of the base
    is not read. *)
Theorem C72_radix : forall (sg : bool) b v bw w rest,
  2 <= b <= 36 -> decimal_text b bw -> numeral_text b v w ->
  after_radix b rest -> (if sg then - v else v) <> - 2 ^ 62 ->
  exists o, int_literal ((if sg then [45] else []) ++ bw ++ 114 :: w ++ rest) = Ok (Some o, rest) /\
    is_int_obj o (if sg then - v else v).
Proof. exact int_literal_radix. Qed.
Print Assumptions C72_radix.

(** The literal -4611686018427387904 is a LargeNegativeInteger, though the value
    is that of a SmallInteger. *)
Theorem C72_refuted : exists o, int_literal (45 :: min_text) = Ok (Some o, []) /\
  st_val o = - 2 ^ 62 /\ ~ canonical o /\ is_int_obj (Small (- 2 ^ 62)) (- 2 ^ 62).
Proof. exact int_literal_refuted. Qed.
Print Assumptions C72_refuted.

(** the text 1_000. and the text 16rFF] *)
Example C72_example_1 : decimal_text 1000 [49; 95; 48; 48; 48] /\ after_literal [46] /\
  int_literal [49; 95; 48; 48; 48; 46] = Ok (Some (Small 1000), [46]).
Proof.
  split; [|split; [cbn; lia|reflexivity]]. split; [|cbn; lia]. exists [1; 0; 0; 0].
  split; [discriminate|]. split; [|reflexivity].
  change 49 with (ascii_digit 1). change 48 with (ascii_digit 0). repeat (constructor; try lia).
Qed.
Example C72_example_2 : numeral_text 16 255 [70; 70] /\
  int_literal [45; 49; 54; 114; 70; 70; 93] = Ok (Some (Small (-255)), [93]).
Proof.
  split; [|reflexivity]. exists [15; 15]. split; [discriminate|]. split; [|reflexivity].
  change 70 with (ascii_digit 15). repeat (constructor; try lia).
Qed.

(** the text 2r102: the digit 2 is left *)
Example C72_example_3 : numeral_text 2 2 [49; 48] /\ after_radix 2 [50] /\
  int_literal [50; 114; 49; 48; 50] = Ok (Some (Small 2), [50]).
Proof.
  split; [|split; [unfold after_radix, no_digit; cbn [In]; lia|reflexivity]]. exists [1; 0]. split; [discriminate|]. split; [|reflexivity].
  change 49 with (ascii_digit 1). change 48 with (ascii_digit 0). repeat (constructor; try lia).
Qed.

(** C73, decimal: every integer but the least SmallInteger (as for C72). *)
Theorem C73_decimal_partial : forall n rest, after_literal rest -> n <> - 2 ^ 62 ->
  exists s o, print_string n 10 = Ok s /\ int_literal (s ++ rest) = Ok (Some o, rest) /\ is_int_obj o n.
Proof. exact print_literal_partial. Qed.
Print Assumptions C73_decimal_partial.

(** C73, with a radix.  Missing: the integers from -3*2^62 to -2^62 - 1; see
    [C73_wrong]. *)
Theorem C73_partial : forall n b rest, 2 <= b <= 36 -> after_literal rest ->
  ~ - (3 * 2 ^ 62) <= n < - 2 ^ 62 ->
  exists s o, print_radix n b = Ok s /\ int_literal (s ++ rest) = Ok (Some o, rest) /\ is_int_obj o n.
Proof. exact radix_print_partial. Qed.
Print Assumptions C73_partial.

(** All of those integers are read back as another one. *)
Theorem C73_wrong : forall n b rest, 2 <= b <= 36 -> after_literal rest ->
  - (3 * 2 ^ 62) <= n < - 2 ^ 62 ->
  exists s o, print_radix n b = Ok s /\ int_literal (s ++ rest) = Ok (Some o, rest) /\ st_val o <> n.
Proof. exact radix_print_wrong. Qed.
Print Assumptions C73_wrong.

(** -4611686018427387905 printStringRadix: 16 is 16r-4000000000000001, which is
    read as 4611686018427387903. *)
Theorem C73_refuted : exists n b s, print_radix n b = Ok s /\
  int_literal s = Ok (Some (Small 4611686018427387903), []) /\ n = -4611686018427387905 /\ b = 16.
Proof.
  exact (ex_intro _ (-4611686018427387905) (ex_intro _ 16 (ex_intro _
    [49; 54; 114; 45; 52; 48; 48; 48; 48; 48; 48; 48; 48; 48; 48; 48; 48; 48; 48; 49]
    (conj eq_refl (conj eq_refl (conj eq_refl eq_refl)))))).
Qed.
Print Assumptions C73_refuted.

Example C73_example : print_radix (-255) 16 = Ok [49; 54; 114; 45; 70; 70] /\
  int_literal [49; 54; 114; 45; 70; 70; 93] = Ok (Some (Small (-255)), [93]) /\
  after_literal [93].
Proof. split; [reflexivity|split; [reflexivity|cbn; lia]]. Qed.

(** C74, for strings without the character of value 0.  Missing: the others; see
    [C74_nul]. *)
Theorem C74_partial : forall s rest, ~ In 0 s -> after_string rest ->
  string_literal (print_str s ++ rest) = Ok (s, rest).
Proof. exact string_read_partial. Qed.
Print Assumptions C74_partial.

(** A string is cut at the first such character. *)
Theorem C74_nul : forall p q rest, ~ In 0 p -> after_string rest ->
  string_literal (print_str (p ++ 0 :: q) ++ rest) = Ok (p, rest).
Proof. exact string_read_nul. Qed.
Print Assumptions C74_nul.

Theorem C74_refuted : exists s t, string_literal (print_str s) = Ok (t, []) /\ t <> s.
Proof. exact string_read_refuted. Qed.
Print Assumptions C74_refuted.

(** the string it's, with a full stop after it *)
Example C74_example : ~ In 0 [105; 116; 39; 115] /\ after_string [46] /\
  print_str [105; 116; 39; 115] = [39; 105; 116; 39; 39; 115; 39].
Proof. split; [cbn; lia|split; [cbn; lia|reflexivity]]. Qed.

(** C75, for symbols that are not empty and have no character of value 0.
    Missing: the others; see [C75_nul], [C75_refuted]. *)
Theorem C75_partial : forall s rest, s <> [] -> ~ In 0 s -> after_symbol rest ->
  exists t, print_symbol s = Ok t /\ symbol_literal (t ++ rest) = Ok (s, rest).
Proof. exact symbol_read_partial. Qed.
Print Assumptions C75_partial.

Theorem C75_nul : forall s rest, In 0 s -> after_symbol rest ->
  exists t u, print_symbol s = Ok t /\ symbol_literal (t ++ rest) = Ok (u, rest) /\ u <> s.
Proof. exact symbol_read_nul. Qed.
Print Assumptions C75_nul.

(** The empty symbol, which can be written, cannot be printed. *)
Theorem C75_refuted : exists s, symbol_literal [35; 39; 39] = Ok (s, []) /\ print_symbol s = Err.
Proof. exact (ex_intro _ [] (conj eq_refl eq_refl)). Qed.
Print Assumptions C75_refuted.

(** #at:put: and #'a b' and #-> *)
Example C75_example : after_symbol [32] /\
  print_symbol [97; 116; 58; 112; 117; 116; 58] = Ok [35; 97; 116; 58; 112; 117; 116; 58] /\
  print_symbol [97; 32; 98] = Ok [35; 39; 97; 32; 98; 39] /\
  symbol_literal [35; 45; 62; 32] = Ok ([45; 62], [32]).
Proof. split; [cbn; lia|repeat split]. Qed.

(** C76, for characters from 0 to 127 and UnicodeCharacters.  Missing: the
    Characters from 128 to 255; see [C76_wrong]. *)
Theorem C76_partial : forall c rest, a_char c -> after_char (snd c) rest ->
  fst c = true \/ snd c <= 127 ->
  exists s, store_char c = Ok s /\ char_literal (s ++ rest) = Ok (c, rest).
Proof. exact char_read_partial. Qed.
Print Assumptions C76_partial.

(** All of those are read back as a character that is not equal. *)
Theorem C76_wrong : forall v rest, 128 <= v <= 255 -> after_char v rest ->
  exists s d, store_char (false, v) = Ok s /\ char_literal (s ++ rest) = Ok (d, rest) /\
    char_eq d (false, v) = false.
Proof. exact char_read_wrong. Qed.
Print Assumptions C76_wrong.

(** (Character value: 200) storeString is $<16r00C8>, a UnicodeCharacter. *)
Theorem C76_refuted : exists c s d, a_char c /\ store_char c = Ok s /\
  s = [36; 60; 49; 54; 114; 48; 48; 67; 56; 62] /\
  char_literal s = Ok (d, []) /\ char_eq d c = false.
Proof. exact char_read_refuted. Qed.
Print Assumptions C76_refuted.

(** UnicodeCharacter 16r20AC followed by a space; $< followed by a letter *)
Example C76_example : a_char (true, 8364) /\ after_char 8364 [32] /\ after_char 60 [32; 97] /\
  store_char (true, 8364) = Ok [36; 60; 49; 54; 114; 50; 48; 65; 67; 62].
Proof.
  split; [cbn; lia|]. split; [split; [lia|cbn; lia]|]. split; [|reflexivity]. split; [|lia].
  intros _ bl d t E F. destruct bl as [|x [|y bl]]; cbn [app] in E.
  - injection E as <- E. lia.
  - injection E as <- <- E. lia.
  - injection E as <- <- E. apply Forall_inv_tail, Forall_inv in F. cbn in F. lia.
Qed.

(** C77, below 2^31.  Missing: larger code points; see [C77_refuted]. *)
Theorem C77_partial : forall w v rest,
  decimal_text v w -> match rest with [] => True | d :: _ => ~ operator_char d end ->
  (v <= 1114111 -> exists u,
     char_literal (36 :: 60 :: w ++ 62 :: rest) = Ok ((u, v), rest) /\ (u = true <-> 127 < v)) /\
  (1114111 < v < 2 ^ 31 -> char_literal (36 :: 60 :: w ++ 62 :: rest) = Err).
Proof. exact code_literal. Qed.
Print Assumptions C77_partial.

(** $<4294967361>, a code point of 2^32 + 65, is read as $A. *)
Theorem C77_refuted : exists w v, decimal_text v w /\ v = 2 ^ 32 + 65 /\
  char_literal (36 :: 60 :: w ++ [62]) = Ok ((false, 65), []).
Proof.
  exact (ex_intro _ [52;50;57;52;57;54;55;51;54;49] (ex_intro _ 4294967361
    (conj decimal_big (conj eq_refl eq_refl)))).
Qed.
Print Assumptions C77_refuted.

Example C77_example : char_literal [36; 60; 49; 48; 62; 46] = Ok ((false, 10), [46]) /\
  char_literal [36; 60; 49; 49; 49; 52; 49; 49; 50; 62] = Err.
Proof. split; reflexivity. Qed.
