(** The properties of symbols. *)
From Coq Require Import ZArith List Bool Lia.
From Verif Require Import Base Sym SymSpec SymProofs.
Import ListNotations.
Local Open Scope Z_scope.

(** C33, for strings one of which has no NUL character.  Missing: two strings
    that both contain a NUL; see [C33_refuted].  The virtual machine's own
    names are distinct C strings. *)
Theorem C33_partial : forall names os s t i j,
  NoDup names -> Forall nulfree names -> nulfree s \/ nulfree t ->
  In (s, i) (snd (symrun names os)) -> In (t, j) (snd (symrun names os)) ->
  (i = j <-> s = t).
Proof.
  exact (fun names os s t i j N F NF S1 T1 =>
    conj (fun E : i = j => held_distinct names os s t i N F NF S1
            (eq_ind_r (fun k => In (t, k) (snd (symrun names os))) T1 E))
         (held_same names os s t i j N F S1 T1)).
Qed.
Print Assumptions C33_partial.

(** For all strings: the same characters always give the same symbol. *)
Theorem C33_same : forall names os s t i j,
  NoDup names -> Forall nulfree names ->
  In (s, i) (snd (symrun names os)) -> In (t, j) (snd (symrun names os)) ->
  s = t -> i = j.
Proof. exact held_same. Qed.
Print Assumptions C33_same.

(** Two different strings with a NUL are made into the same symbol. *)
Theorem C33_refuted : exists os s t i,
  s <> t /\
  In (s, i) (snd (symrun [] os)) /\ In (t, i) (snd (symrun [] os)).
Proof. exact nul_same. Qed.
Print Assumptions C33_refuted.

(** intern 'a', 'b', drop 'b', rebuild the table keeping only what is held,
    intern 'a' and 'ab' *)
Example C33_ex :
  snd (symrun [[43]] [Intern [97]; Intern [98]; Drop 0; Rebuild (fun _ => false);
                      Intern [97]; Intern [97; 98]])
  = [([97; 98], 3%nat); ([97], 1%nat); ([97], 1%nat)].
Proof. vm_compute. reflexivity. Qed.

(** C69, for strings without a NUL character.  Missing: the others, see
    [C69_refuted]. *)
Theorem C69_partial : forall names os s i,
  NoDup names -> Forall nulfree names -> nulfree s ->
  In (s, i) (snd (symrun names os)) -> chars_of (fst (symrun names os)) i = s.
Proof. exact held_chars. Qed.
Print Assumptions C69_partial.

(** A symbol made from a string with a NUL can have other characters. *)
Theorem C69_refuted : exists os s i,
  In (s, i) (snd (symrun [] os)) /\ chars_of (fst (symrun [] os)) i <> s.
Proof. exact nul_chars. Qed.
Print Assumptions C69_refuted.

Example C69_ex :
  chars_of (fst (symrun [] [Intern [97]; Intern [98]; Intern [97]])) 1 = [98].
Proof. vm_compute. reflexivity. Qed.

(** C70, when the test answers at all; it does whenever some live symbol falls
    into the same bucket of the table.  Missing: the error for an empty bucket,
    see [C70_refuted]. *)
Theorem C70_partial : forall names os s r,
  NoDup names -> Forall nulfree names ->
  isSymbolString s (fst (symrun names os)) = Ok r ->
  (r = true <-> exists i, In i (alive (fst (symrun names os))) /\
     chars_of (fst (symrun names os)) i = s).
Proof. exact is_symbol_string. Qed.
Print Assumptions C70_partial.

(** hasInterned:ifTrue: passes the very symbol *)
Theorem C70_has : forall names os s r,
  NoDup names -> Forall nulfree names ->
  hasInterned s (fst (symrun names os)) = Ok r ->
  match r with
  | Some i => In i (alive (fst (symrun names os))) /\ chars_of (fst (symrun names os)) i = s
  | None => forall i, In i (alive (fst (symrun names os))) ->
      chars_of (fst (symrun names os)) i <> s
  end.
Proof. exact has_interned. Qed.
Print Assumptions C70_has.

(** Both answer when the bucket is not empty, in particular for every string
    that is a symbol. *)
Theorem C70_defined : forall names os s i,
  NoDup names -> Forall nulfree names ->
  In i (alive (fst (symrun names os))) ->
  bucket (chars_of (fst (symrun names os)) i) = bucket s ->
  (exists r, isSymbolString s (fst (symrun names os)) = Ok r) /\
  (exists r, hasInterned s (fst (symrun names os)) = Ok r).
Proof. exact symbol_string_defined. Qed.
Print Assumptions C70_defined.

(** The test for a string that is not a symbol is an error when its bucket is
    empty. *)
Theorem C70_refuted : exists os s,
  (forall i, In i (alive (fst (symrun [[97]] os))) -> chars_of (fst (symrun [[97]] os)) i <> s) /\
  isSymbolString s (fst (symrun [[97]] os)) = Err.
Proof. exact empty_bucket. Qed.
Print Assumptions C70_refuted.

(** two symbols of one bucket; one of them is then collected *)
Example C70_ex :
  let t os := fst (symrun [] os) in
  isSymbolString nul_zd (t [Intern nul_aa]) = Ok false /\
  isSymbolString nul_aa (t [Intern nul_aa]) = Ok true /\
  hasInterned nul_aa (t [Intern nul_aa; Drop 0; Rebuild (fun _ => true)]) = Ok (Some 0%nat).
Proof. vm_compute. auto. Qed.

(** C71: numArgs, in Smalltalk and in the virtual machine *)
Theorem C71_numArgs : forall n s, selector n s -> numArgs s = Ok n.
Proof. exact numArgs_ok. Qed.
Print Assumptions C71_numArgs.

Theorem C71_vm : forall n s, selector n s -> selector_num_args s = Ok n.
Proof. exact selector_num_args_ok. Qed.
Print Assumptions C71_vm.

(** at:put:, with an underscore in front *)
Example C71_ex : selector 2 ([95; 97; 116] ++ 58 :: [112; 117; 116] ++ [58]).
Proof.
  apply (sel_keywords 1 [95; 97; 116]).
  - cbn. unfold letter, digit. split; [lia|]. repeat constructor; lia.
  - apply sel_keyword. cbn. unfold letter, digit. split; [lia|]. repeat constructor; lia.
  - lia.
  - now exists [112; 117; 116].
Qed.
