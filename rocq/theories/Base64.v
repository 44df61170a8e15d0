(** Model of MimeScanner class>>decodeBase64From:to:in: (packages/net/MIME.st:2952-2997), for the whole of a
    String.  Strings are lists of the values of their Characters. *)
From Verif Require Import Base.
Import ListNotations.
Local Open Scope Z_scope.

(** codeChars (packages/net/MIME.st:2957). *)
Definition code_chars : list Z :=
  [65;66;67;68;69;70;71;72;73;74;75;76;77;78;79;80;81;82;83;84;85;86;87;88;89;90;
   97;98;99;100;101;102;103;104;105;106;107;108;109;110;111;112;113;114;115;116;117;118;119;120;121;122;
   48;49;50;51;52;53;54;55;56;57;43;47].

(** indexOf:, 0 if there is none (packages/net/MIME.st:2959). *)
Fixpoint index_of (l : list Z) (c : Z) (i : Z) : Z :=
  match l with [] => 0 | x :: t => if x =? c then i else index_of t c (i + 1) end.

(** [decoder at: c]: the table has 256 elements, the first one for the Character 1
    (packages/net/MIME.st:2958-2960). *)
Definition decoder_at (c : Z) : outcome Z :=
  if (1 <=? c) && (c <=? 256) then
    let v := index_of code_chars c 1 - 1 in Ok (if v =? -1 then 0 else v)
  else Err.

(** aString at: (packages/net/MIME.st:2970-2984). *)
Definition at_ (s : list Z) (i : Z) : outcome Z :=
  if (1 <=? i) && (i <=? Z.of_nat (length s)) then Ok (nth (Z.to_nat (i - 1)) s 0) else Err.

(** endChars includes: (packages/net/MIME.st:2968-2970). *)
Definition end_char (c : Z) : bool := existsb (fun x => x =? c) (code_chars ++ [61]).

(** The first loop: the end of the text (packages/net/MIME.st:2970-2972). *)
Fixpoint find_end (fuel : nat) (s : list Z) (end_index e : Z) : outcome Z :=
  match fuel with
  | O => OutOfFuel
  | S fuel =>
      olet c := at_ s e in
      olet b := (if end_char c then
                   if e =? end_index then Ok true else olet d := at_ s (e + 1) in Ok (d =? 10)
                 else Ok false) in
      if b then Ok e else find_end fuel s end_index (e - 1)
  end.

(** The second loop: the padding (packages/net/MIME.st:2973-2975). *)
Fixpoint find_padding (fuel : nat) (s : list Z) (e p : Z) : outcome Z :=
  match fuel with
  | O => OutOfFuel
  | S fuel => olet c := at_ s (e - p) in if c =? 61 then find_padding fuel s e (p + 1) else Ok p
  end.

(** data at:put: (packages/net/MIME.st:2986-2991). *)
Definition at_put (d : list Z) (i v : Z) : outcome (list Z) :=
  if (1 <=? i) && (i <=? Z.of_nat (length d)) then Ok (firstn (Z.to_nat (i - 1)) d ++ v :: skipn (Z.to_nat i) d) else Err.

(** digitAt: (packages/net/MIME.st:2986-2991). *)
Definition digit_at (x k : Z) : Z := x / 256 ^ (k - 1) mod 256.

(** The loop over newlines (packages/net/MIME.st:2994-2995). *)
Fixpoint skip_nl (fuel : nat) (s : list Z) (e index : Z) : outcome Z :=
  match fuel with
  | O => OutOfFuel
  | S fuel =>
      olet b := (if Z.of_nat (length s) <? index then Ok true else olet c := at_ s index in Ok (c =? 10)) in
      if b && (index <=? e) then skip_nl fuel s e (index + 1) else Ok index
  end.

(** The main loop (packages/net/MIME.st:2979-2995). *)
Fixpoint main_loop (fuel : nat) (s : list Z) (e out_size : Z) (index i : Z) (data : list Z) : outcome (list Z) :=
  match fuel with
  | O => OutOfFuel
  | S fuel =>
      if index <=? e then
        olet c1 := at_ s index in olet d1 := decoder_at c1 in
        olet c2 := at_ s (index + 1) in olet d2 := decoder_at c2 in
        olet c3 := at_ s (index + 2) in olet d3 := decoder_at c3 in
        olet c4 := at_ s (index + 3) in olet d4 := decoder_at c4 in
        let triple := d1 * 2 ^ 18 + d2 * 2 ^ 12 + d3 * 2 ^ 6 + d4 in
        let padding := out_size - i in
        olet data := at_put data i (digit_at triple 3) in
        olet data := (if 0 <? padding then at_put data (i + 1) (digit_at triple 2) else Ok data) in
        olet data := (if 1 <? padding then at_put data (i + 2) (digit_at triple 1) else Ok data) in
        olet index := skip_nl (S (length s)) s e (index + 4) in
        main_loop fuel s e out_size index (i + 3) data
      else Ok data
  end.

(** decodeBase64From: 1 to: aString size in: aString (packages/net/MIME.st:2952-2997). *)
Definition decode (s : list Z) : outcome (list Z) :=
  let sz := Z.of_nat (length s) in
  olet e := find_end (S (length s)) s sz sz in
  olet p := find_padding (S (length s)) s e 0 in
  let out_size := e * 3 / 4 - p in
  if out_size <? 0 then Err
  else main_loop (S (length s)) s e out_size 1 1 (repeat 0 (Z.to_nat out_size)).
