(** C136: command lines are read as the pattern says. *)
From Coq Require Import Ascii String Permutation.
From Verif Require Import Base Getopt GetoptSpec GetoptProofs GetoptRun GetoptBad.
Import ListNotations.
Local Open Scope list_scope.
Local Open Scope char_scope.

(** A pattern of options with different names is accepted, and every command line is then either
    right, and the actions are those it asks for in that order, or wrong, and the error block is
    evaluated after the actions that come before; no Error is signalled. *)
Theorem C136_parse : forall order T p, table_ok T -> pattern_of T p -> by_size order ->
  exists g, parse_pattern order p = Ok g /\
    forall args, (exists acts, parse g args = Go acts tt /\ accepts T args acts)
              \/ (exists acts, parse g args = Fail acts /\ rejects T args acts).
Proof. exact parse_correct. Qed.
Print Assumptions C136_parse.

(** No command line can be read in two ways. *)
Theorem C136_once : forall T args a b, table_ok T ->
  (accepts T args a -> accepts T args b -> a = b) /\
  (rejects T args a -> rejects T args b -> a = b) /\
  ~ (accepts T args a /\ rejects T args b).
Proof. exact once. Qed.
Print Assumptions C136_once.

(** A pattern with a word that is wrong is an error, wherever it is. *)
Theorem C136_malformed : forall order w pre post, Forall (fun c => ~ blank c) w -> bad_word w ->
  pre = [] \/ (exists q c, pre = q ++ [c] /\ blank c) -> post = [] \/ (exists c q, post = c :: q /\ blank c) ->
  parse_pattern order (pre ++ w ++ post) = Err.
Proof. exact malformed. Qed.
Print Assumptions C136_malformed.

(** FINDING: that a name is given twice is not noticed (the test is for the values of the
    Dictionary and not for its keys, kernel/Getopt.st:288). *)
Theorem C136_duplicate_refuted : forall order, exists T p g,
  pattern_of T p /\ Forall (fun e => fst e <> [] /\ Forall name_ok (fst e)) T /\ ~ NoDup (names T) /\ parse_pattern order p = Ok g.
Proof. exact duplicate_bad. Qed.
Print Assumptions C136_duplicate_refuted.

(** FINDING: an option that is its own synonym is then given an argument that it does not take. *)
Theorem C136_twice_refuted : forall order, exists T p g args v,
  pattern_of T p /\ is_option T (KChar "a") NoArg (KChar "a") /\ parse_pattern order p = Ok g /\
  parse g args = Go [(Some (KChar "a"), Some v)] tt.
Proof. exact twice_bad. Qed.
Print Assumptions C136_twice_refuted.

(** FINDING: a longer name with one minus sign is accepted, and makes the long option without
    its first letter (kernel/Getopt.st:282-287). *)
Theorem C136_one_dash_refuted : forall order, by_size order -> exists p g,
  (forall T, table_ok T -> ~ pattern_of T p) /\ parse_pattern order p = Ok g /\
  parse g [list_ascii_of_string "--bc"] = Go [(Some (KText (list_ascii_of_string "bc")), None)] tt /\
  parse g [list_ascii_of_string "-abc"] = Fail [].
Proof. exact one_dash_bad. Qed.
Print Assumptions C136_one_dash_refuted.

(** * Examples *)
Definition tx (s : string) : text := list_ascii_of_string s.
Example C136_order_example : by_size sort_by_size.
Proof. exact sort_by_size_ok. Qed.
Definition T0 : table :=
  [([KChar "h"; KText (tx "help")], NoArg); ([KText (tx "file-list")], NoArg); ([KChar "f"; KText (tx "file")], MandatoryArg);
   ([KChar "o"; KText (tx "opt")], OptionalArg)].
Example C136_table_example : table_ok T0 /\ pattern_of T0 (tx "-h|--help --file-list -f|--file:  -o|--opt:: ").
Proof.
  split.
  - split.
    + repeat (apply Forall_cons || apply Forall_nil);
        (split; [discriminate|repeat (apply Forall_cons || apply Forall_nil)]);
        unfold name_ok, plain, blank; cbn [In tx list_ascii_of_string];
        repeat match goal with
        | |- _ /\ _ => split
        | |- Forall _ (_ :: _) => apply Forall_cons
        | |- Forall _ [] => apply Forall_nil
        | |- ~ (_ \/ _) => intros [H|[H|[H|[H|[H|[]]]]]]
        end; discriminate.
    + cbn. repeat (apply NoDup_cons; [cbn [In]; intuition discriminate|]). apply NoDup_nil.
  - apply (po_cons [] ([KChar "h"; KText (tx "help")], NoArg) _ (tx " --file-list -f|--file:  -o|--opt:: "));
      [constructor| |right; eexists _, _; split; [reflexivity|left; reflexivity]].
    apply (po_cons [" "] ([KText (tx "file-list")], NoArg) _ (tx " -f|--file:  -o|--opt:: "));
      [repeat constructor| |right; eexists _, _; split; [reflexivity|left; reflexivity]].
    apply (po_cons [" "] ([KChar "f"; KText (tx "file")], MandatoryArg) _ (tx "  -o|--opt:: "));
      [repeat constructor| |right; eexists _, _; split; [reflexivity|left; reflexivity]].
    apply (po_cons [" "; " "] ([KChar "o"; KText (tx "opt")], OptionalArg) _ (tx " "));
      [repeat constructor| |right; eexists _, _; split; [reflexivity|left; reflexivity]].
    apply po_nil. repeat constructor.
Qed.
(** A prefix, a full name that is a prefix of another, short options in one argument, arguments in
    all places, and what follows -- . *)
Example C136_run_example : exists g, parse_pattern sort_by_size (tx "-h|--help --file-list -f|--file:  -o|--opt:: ") = Ok g /\
  parse g [tx "-hfx"; tx "a"; tx "--file"; tx "--"; tx "--file-"; tx "--op=1"; tx "-ho"; tx "--file="; tx "-"; tx "--"; tx "-h"]
  = Go [(Some (KText (tx "help")), None); (Some (KText (tx "file")), Some (tx "x")); (None, Some (tx "a"));
        (Some (KText (tx "file")), Some (tx "--")); (Some (KText (tx "file-list")), None); (Some (KText (tx "opt")), Some (tx "1"));
        (Some (KText (tx "help")), None); (Some (KText (tx "opt")), None); (Some (KText (tx "file")), Some []);
        (None, Some (tx "-")); (None, Some (tx "-h"))] tt
  /\ parse g [tx "-hz"] = Fail [(Some (KText (tx "help")), None)] /\ parse g [tx "--fi"] = Fail [] /\ parse g [tx "--help=1"] = Fail [].
Proof. eexists. split; [vm_compute; reflexivity|]. vm_compute. repeat split. Qed.
Example C136_malformed_example : bad_word (tx "-a:b") /\ parse_pattern sort_by_size (tx "-x -a:b") = Err.
Proof. split; [left; exists (tx "-a"), "b", []; split; [reflexivity|discriminate]|reflexivity]. Qed.
