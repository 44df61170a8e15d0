(** The parsing of command lines, kernel/Getopt.st.  The Dictionary, the Set and the Bag are lists
    (what a Dictionary holds for a key is what was stored last); the order in which the sorted
    collection of the long options puts those of one size depends on hash values and is a
    parameter.  Not modelled: arguments that are not Strings, and blocks that fail. *)
From Coq Require Import Ascii String.
From Verif Require Import Base.
Import ListNotations.
Local Open Scope nat_scope.
Local Open Scope list_scope.

(** A String is the list of its Characters. *)
Definition text := list ascii.
(** kernel/Getopt.st:266-275, colonsToKind:. *)
Inductive kind := NoArg | MandatoryArg | OptionalArg.
(** The keys of the options, a Character or a String, kernel/Getopt.st:277-291. *)
Inductive key := KChar (c : ascii) | KText (t : text).
(** What the options map a key to: a Symbol for the canonical name, and the canonical name
    for the others, kernel/Getopt.st:293-308. *)
Inductive oval := VKind (k : kind) | VName (n : key).
(** The instance variables, kernel/Getopt.st:35. *)
Record getopt := mkG { options : list (key * oval); longs : list text; prefixes : list text }.

(** = of Strings, of the keys and of what they map to; a Symbol is not equal to a String or a
    Character. *)
Fixpoint text_eqb (a b : text) : bool :=
  match a, b with
  | [], [] => true
  | x :: a', y :: b' => Ascii.eqb x y && text_eqb a' b'
  | _, _ => false
  end.
(** As above. *)
Definition key_eqb (a b : key) : bool :=
  match a, b with
  | KChar x, KChar y => Ascii.eqb x y
  | KText x, KText y => text_eqb x y
  | _, _ => false
  end.
(** kernel/SeqCollect.st:158-167, startsWith:. *)
Fixpoint starts_with (s p : text) : bool :=
  match p, s with
  | [], _ => true
  | y :: p', x :: s' => Ascii.eqb x y && starts_with s' p'
  | _ :: _, [] => false
  end.

(** kernel/Character.st:336-341, isSeparator: space, cr, tab, nl or newPage. *)
Definition separator (c : ascii) : bool :=
  let n := nat_of_ascii c in (n =? 32) || (n =? 13) || (n =? 9) || (n =? 10) || (n =? 12).
(** kernel/CharArray.st:263-282 and 331-350, subStrings and subStringsChar:.  [cur] is what is
    between last and i. *)
Fixpoint sub_strings (sep : ascii -> bool) (cur s : text) : list text :=
  match s with
  | [] => if (length cur =? 0) then [] else [cur]
  | c :: s' =>
      if sep c then (if (length cur =? 0) then [] else [cur]) ++ sub_strings sep [] s'
      else sub_strings sep (cur ++ [c]) s'
  end.

Local Open Scope char_scope.

(** Dictionary>>at:ifAbsent:. *)
Fixpoint lookup (o : list (key * oval)) (k : key) : option oval :=
  match o with
  | [] => None
  | (k', v) :: o' => if key_eqb k' k then Some v else lookup o' k
  end.
(** kernel/Dictionary.st:245-252, includes:: whether it is one of the VALUES. *)
Definition includes_value (o : list (key * oval)) (k : key) : bool :=
  existsb (fun p => match snd p with VName n => key_eqb n k && match lookup o (fst p) with Some (VName m) => key_eqb m k | _ => false end | VKind _ => false end) o.

(** kernel/Getopt.st:219-228, addLongOption:. *)
Definition add_long (g : getopt) (t : text) : getopt :=
  mkG (options g)
      (if existsb (text_eqb t) (longs g) then longs g else longs g ++ [t])
      (prefixes g ++ map (fun n => firstn n t) (seq 1 (length t))).

(** kernel/Getopt.st:277-291, atSynonym:put:. *)
Definition at_synonym (g : getopt) (syn : text) (v : oval) : outcome (getopt * key) :=
  let '(g, k) :=
    match syn with
    | [_; c] => (g, KChar c)
    | _ => (add_long g (skipn 2 syn), KText (skipn 2 syn))
    end in
  if includes_value (options g) k then Err
  else Ok (mkG ((k, v) :: options g) (longs g) (prefixes g), k).
(** kernel/Getopt.st:304-307, the synonyms but the last. *)
Fixpoint at_synonyms (g : getopt) (syns : list text) (v : oval) : outcome getopt :=
  match syns with
  | [] => Ok g
  | s :: r => olet p := at_synonym g s v in at_synonyms (fst p) r v
  end.
(** kernel/Getopt.st:293-308, atAllSynonyms:put:; last of an empty collection is an error. *)
Definition at_all_synonyms (g : getopt) (syns : list text) (k : kind) : outcome getopt :=
  match syns with
  | [] => Err
  | _ => olet p := at_synonym g (List.last syns []) (VKind k) in
         at_synonyms (fst p) (removelast syns) (VName (snd p))
  end.
(** kernel/Getopt.st:252-264, checkSynonyms:. *)
Definition check_synonyms (syns : list text) : bool :=
  forallb (fun s => starts_with s ["-"]) syns
  && negb (existsb (fun s => (length s <? 2)%nat || text_eqb s ["-"; "-"]) syns)
  && negb (existsb (fun s => starts_with s ["-"; "-"] && existsb (Ascii.eqb "=") s) syns).
(** kernel/Getopt.st:266-275, colonsToKind:. *)
Definition colons_to_kind (n : nat) : outcome kind :=
  match n with 0 => Ok NoArg | 1 => Ok MandatoryArg | 2 => Ok OptionalArg | _ => Err end%nat.
(** kernel/Getopt.st:310-331, parseOption:. *)
Definition parse_word (g : getopt) (w : text) : outcome getopt :=
  let names := filter (fun c => negb (Ascii.eqb c ":")) w in
  let colons := (length w - length names)%nat in
  if forallb (Ascii.eqb ":") (skipn (length names) w) then
    olet k := colons_to_kind colons in
    let syns := sub_strings (Ascii.eqb "|") [] names in
    if check_synonyms syns then at_all_synonyms g syns k else Err
  else Err.
(** kernel/Getopt.st:338, the words. *)
Fixpoint parse_words (g : getopt) (ws : list text) : outcome getopt :=
  match ws with
  | [] => Ok g
  | w :: r => olet g := parse_word g w in parse_words g r
  end.
(** How often a Bag holds an object. *)
Definition occurrences (t : text) (b : list text) : nat := length (filter (text_eqb t) b).
(** kernel/Getopt.st:230-243, rejectBadPrefixes.  [order] answers the elements of the sorted
    collection in their order. *)
Definition reject_bad (order : list text -> list text) (g : getopt) : getopt :=
  mkG (options g) (order (longs g))
      (filter (fun t => (occurrences t (prefixes g) =? 1)%nat || existsb (text_eqb t) (longs g)) (prefixes g)).
(** kernel/Getopt.st:333-340, parsePattern:. *)
Definition parse_pattern (order : list text -> list text) (p : text) : outcome getopt :=
  olet g := parse_words (mkG [] [] []) (sub_strings separator [] p) in
  Ok (reject_bad order g).

(** The two arguments of the block actionBlock: the name, or nil, and the argument, or nil. *)
Definition action := (option key * option text)%type.
(** What a method does: it answers, it leaves by errorBlock, which does not return
    (kernel/Getopt.st:95), or an Error is signalled; with the actions done. *)
Inductive res (A : Type) :=
| Go (acts : list action) (a : A)
| Fail (acts : list action)
| Raise (acts : list action)
| NoFuel (acts : list action).
Arguments Go {A}. Arguments Fail {A}. Arguments Raise {A}. Arguments NoFuel {A}.
(** One after the other. *)
Definition rbind {A B} (x : res A) (f : A -> res B) : res B :=
  match x with
  | Go l a => match f a with
              | Go m b => Go (l ++ m) b | Fail m => Fail (l ++ m) | Raise m => Raise (l ++ m)
              | NoFuel m => NoFuel (l ++ m) end
  | Fail l => Fail l | Raise l => Raise l | NoFuel l => NoFuel l
  end.

(** kernel/Getopt.st:99-106, fullOptionName:; detect: that finds nothing is an Error. *)
Definition full_name (g : getopt) (t : text) : res text :=
  if existsb (text_eqb t) (prefixes g) then
    match find (fun k => starts_with k t) (longs g) with
    | Some k => Go [] k
    | None => Raise []
    end
  else Fail [].
(** kernel/Getopt.st:108-119, optionKind:. *)
Definition option_kind (g : getopt) (k : key) : res oval :=
  match lookup (options g) k with
  | None => Fail []
  | Some (VKind x) => Go [] (VKind x)
  | Some (VName n) => match lookup (options g) n with Some v => Go [] v | None => Raise [] end
  end.
(** kernel/Getopt.st:122-129, optionName:. *)
Definition option_name (g : getopt) (k : key) : res key :=
  match lookup (options g) k with
  | None => Fail []
  | Some (VKind _) => Go [] k
  | Some (VName n) => Go [] n
  end.
(** kernel/Getopt.st:139-153, parseOption:kind:with:; answers the arguments left. *)
Definition parse_option (g : getopt) (name : key) (kd : oval) (arg : option text)
    (args : list text) : res (list text) :=
  rbind (match kd, arg, args with
         | VKind MandatoryArg, None, [] => Fail []
         | VKind MandatoryArg, None, v :: r => Go [] (Some v, r)
         | _, _, _ => Go [] (arg, args)
         end)
    (fun p =>
       match kd, fst p with
       | VKind NoArg, Some _ => Fail []
       | _, _ => rbind (option_name g name) (fun full => Go [(Some full, fst p)] (snd p))
       end).
(** The index from which a Character is found, if it is. *)
Fixpoint index_from (c : ascii) (i : nat) (s : text) : option nat :=
  match s with
  | [] => None
  | x :: r => if Ascii.eqb x c then Some i else index_from c (S i) r
  end.
(** kernel/Getopt.st:155-171, parseLongOption:, on a stream on [arg] at position 2; upTo:, skip:
    and nextMatchFor: of the stream are kernel/PosStream.st:345-356, 277-283 and
    kernel/Stream.st:166-172. *)
Definition parse_long (g : getopt) (arg : text) (args : list text) : res (list text) :=
  let '(name, pos) :=
    match index_from "=" 2 (skipn 2 arg) with
    | None => (skipn 2 arg, length arg)
    | Some r => (firstn (r - 2) (skipn 2 arg), S r)
    end in
  let pos := (pos - 1)%nat in
  rbind (full_name g name) (fun name =>
  rbind (option_kind g (KText name)) (fun kd =>
  let value :=
    match nth_error arg pos with
    | Some c => if Ascii.eqb "=" c then Some (skipn (S pos) arg) else None
    | None => None
    end in
  parse_option g (KText name) kd value args)).
(** kernel/Getopt.st:173-188, parseShortOptions:. *)
Fixpoint parse_short (g : getopt) (cs : text) (args : list text) : res (list text) :=
  match cs with
  | [] => Go [] args
  | c :: cs' =>
      rbind (option_kind g (KChar c)) (fun kd =>
      let have := match kd with VKind NoArg => false | _ => negb (length cs' =? 0)%nat end in
      if have then parse_option g (KChar c) kd (Some cs') args
      else rbind (parse_option g (KChar c) kd None args) (fun args => parse_short g cs' args))
  end.
(** kernel/Getopt.st:201, whether an argument matches the regular expression (a minus sign if
    any and then the end or a last newline, lib-src/regex.c:1150-1171 and 3601-3607, or a Character that is not
    a minus sign). *)
Definition operand (a : text) : bool :=
  match a with
  | [] => true
  | c :: t => if Ascii.eqb c "-" then match t with [] => true | [d] => Ascii.eqb d "010" | _ => false end else true
  end.
(** kernel/Getopt.st:190-210, parseOneArgument. *)
Definition parse_one (g : getopt) (arg : text) (args : list text) : res (list text) :=
  if text_eqb arg ["-"; "-"] then Go (map (fun a => (None, Some a)) args) []
  else if operand arg then Go [(None, Some arg)] args
  else if match nth_error arg 1 with Some c => Ascii.eqb c "-" | None => false end
       then parse_long g arg args
       else parse_short g (skipn 1 arg) args.
(** kernel/Getopt.st:212-217, parse. *)
Fixpoint parse_args (fuel : nat) (g : getopt) (args : list text) : res unit :=
  match args with
  | [] => Go [] tt
  | a :: r =>
      match fuel with
      | O => NoFuel []
      | S f => rbind (parse_one g a r) (parse_args f g)
      end
  end.
(** kernel/Getopt.st:62-97, parse:with:do:ifError:, from a pattern that was parsed; there are no
    more steps than arguments. *)
Definition parse (g : getopt) (args : list text) : res unit := parse_args (length args) g args.
