(** What command lines mean (kernel/Getopt.st:62-90, the comment), apart from Getopt.v but for the
    types of names, kinds and actions. *)
From Coq Require Import Ascii String Permutation.
From Verif Require Import Base Getopt.
Import ListNotations.
Local Open Scope list_scope.
Local Open Scope char_scope.

(** The options of a program: the names of each, the canonical one last, and its kind. *)
Definition table := list (list key * kind).
(** All the names. *)
Definition names (T : table) : list key := flat_map fst T.

(** How a name, an option and a list of options are written. *)
Definition spell (n : key) : text := match n with KChar c => ["-"; c] | KText t => "-" :: "-" :: t end.
(** As above. *)
Definition colons (k : kind) : text := match k with NoArg => [] | MandatoryArg => [":"] | OptionalArg => [":"; ":"] end.
(** As above. *)
Fixpoint bars (l : list text) : text :=
  match l with [] => [] | [w] => w | w :: r => w ++ "|" :: bars r end.
(** As above. *)
Definition word (e : list key * kind) : text := bars (map spell (fst e)) ++ colons (snd e).
(** White space. *)
Definition blank (c : ascii) : Prop := In c [" "; "009"; "010"; "012"; "013"].
(** A pattern: words with white space between them, and perhaps around. *)
Inductive pattern_of : table -> text -> Prop :=
| po_nil ws : Forall blank ws -> pattern_of [] ws
| po_cons ws e T rest : Forall blank ws -> pattern_of T rest ->
    (rest = [] \/ exists c r, rest = c :: r /\ blank c) ->
    pattern_of (e :: T) (ws ++ word e ++ rest).

(** A Character that can be in a name. *)
Definition plain (c : ascii) : Prop := c <> ":" /\ c <> "|" /\ ~ blank c.
(** A name that can be written. *)
Definition name_ok (n : key) : Prop :=
  match n with
  | KChar c => plain c /\ c <> "-"
  | KText t => t <> [] /\ Forall (fun c => plain c /\ c <> "=") t
  end.
(** Options that can be written, of which no two have one name. *)
Definition table_ok (T : table) : Prop :=
  Forall (fun e => fst e <> [] /\ Forall name_ok (fst e)) T /\ NoDup (names T).

(** [n] is a name of an option of kind [k] whose canonical name is [c]. *)
Definition is_option (T : table) (n : key) (k : kind) (c : key) : Prop :=
  exists l, In (l ++ [c], k) T /\ In n (l ++ [c]).
(** [full] is the long option that [t] stands for: the one with that name or, if there is none,
    the only one that begins so. *)
Definition stands_for (T : table) (t full : text) : Prop :=
  In (KText full) (names T) /\
  (t = full \/
   t <> [] /\ ~ In (KText t) (names T) /\ (exists r, full = t ++ r) /\
   forall u r, In (KText u) (names T) -> u = t ++ r -> u = full).

(** The states of reading a command line: at arguments, inside an argument with short options,
    or after -- . *)
Inductive state :=
| Args (l : list text)
| Cluster (cs : text) (l : list text)
| Files (l : list text).
(** It is not an option: empty, a minus sign (perhaps with a newline), or without a minus sign in
    front. *)
Definition file (a : text) : Prop :=
  a = [] \/ a = ["-"] \/ a = ["-"; "010"] \/ exists c r, a = c :: r /\ c <> "-".
(** One step and the action, if any. *)
Inductive step (T : table) : state -> list action -> state -> Prop :=
| s_file a r : file a -> step T (Args (a :: r)) [(None, Some a)] (Args r)
| s_dashes r : step T (Args (["-"; "-"] :: r)) [] (Files r)
| s_rest a r : step T (Files (a :: r)) [(None, Some a)] (Files r)
| s_long t full k c r : t <> [] -> ~ In "=" t -> stands_for T t full -> is_option T (KText full) k c ->
    k <> MandatoryArg ->
    step T (Args (("-" :: "-" :: t) :: r)) [(Some c, None)] (Args r)
| s_long_next t full c v r : t <> [] -> ~ In "=" t -> stands_for T t full ->
    is_option T (KText full) MandatoryArg c ->
    step T (Args (("-" :: "-" :: t) :: v :: r)) [(Some c, Some v)] (Args r)
| s_long_value t full k c v r : ~ In "=" t -> stands_for T t full -> is_option T (KText full) k c ->
    k <> NoArg ->
    step T (Args (("-" :: "-" :: t ++ "=" :: v) :: r)) [(Some c, Some v)] (Args r)
| s_cluster c cs r : c <> "-" -> c :: cs <> ["010"] ->
    step T (Args (("-" :: c :: cs) :: r)) [] (Cluster (c :: cs) r)
| s_end r : step T (Cluster [] r) [] (Args r)
| s_short ch cs c r : is_option T (KChar ch) NoArg c ->
    step T (Cluster (ch :: cs) r) [(Some c, None)] (Cluster cs r)
| s_short_value ch cs k c r : is_option T (KChar ch) k c -> k <> NoArg -> cs <> [] ->
    step T (Cluster (ch :: cs) r) [(Some c, Some cs)] (Args r)
| s_short_none ch c r : is_option T (KChar ch) OptionalArg c ->
    step T (Cluster [ch] r) [(Some c, None)] (Args r)
| s_short_next ch c v r : is_option T (KChar ch) MandatoryArg c ->
    step T (Cluster [ch] (v :: r)) [(Some c, Some v)] (Args r).
(** Steps one after the other. *)
Inductive steps (T : table) : state -> list action -> state -> Prop :=
| ss_nil s : steps T s [] s
| ss_cons s a s' b s'' : step T s a s' -> steps T s' b s'' -> steps T s (a ++ b) s''.
(** All is read. *)
Definition finished (s : state) : Prop := s = Args [] \/ s = Files [].
(** There is no way on. *)
Definition stuck (T : table) (s : state) : Prop := ~ finished s /\ forall a s', ~ step T s a s'.

(** A command line is right and asks for these actions. *)
Definition accepts (T : table) (args : list text) (acts : list action) : Prop :=
  exists s, steps T (Args args) acts s /\ finished s.
(** A command line is wrong, after asking for these actions. *)
Definition rejects (T : table) (args : list text) (acts : list action) : Prop :=
  exists s, steps T (Args args) acts s /\ stuck T s.

(** What a sorted collection by size may answer. *)
Definition by_size (order : list text -> list text) : Prop :=
  forall l, Permutation l (order l) /\
    forall i j a b, (i < j)%nat -> nth_error (order l) i = Some a -> nth_error (order l) j = Some b ->
      (length a <= length b)%nat.

(** A word that is no option: colons before its end or more than two, or no minus sign. *)
Definition bad_word (w : text) : Prop :=
  (exists a c b, w = a ++ ":" :: c :: b /\ c <> ":") \/ (exists a, w = a ++ [":"; ":"; ":"])
  \/ (exists c r, w = c :: r /\ plain c /\ c <> "-").
