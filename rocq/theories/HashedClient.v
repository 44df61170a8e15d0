(** Sending a sequence of messages to a LookupTable, a Dictionary or a Set. *)
From Verif Require Import Base Hashed HashedSpec.

Section Keyed.
  Context {K V : Type} (keq : K -> K -> bool) (hf he : K -> Z) (vnil : V).
  (** kernel/LookupTable.st; size is kernel/HashedColl.st:164-169. *)
  Definition lt_send (c : ltab) (msg : message K V) : outcome (ltab * answer K V) :=
    match msg with
    | AtPut k v => olet c := lt_at_put keq hf he vnil k v c in Ok (c, Done)
    | At k => olet v := lt_at keq hf vnil k c in Ok (c, Value v)
    | RemoveKey k => olet (c, v) := lt_remove_key keq hf he vnil k c in Ok (c, Value v)
    | Size => Ok (c, Number (ltally c))
    | Pairs => Ok (c, Enum (lt_pairs c))
    | Rehash => olet c := lt_rehash he vnil c in Ok (c, Done)
    end.
  Fixpoint lt_run (c : ltab) (msgs : list (message K V)) : outcome (list (answer K V)) :=
    match msgs with
    | [] => Ok []
    | msg :: msgs => olet (c, a) := lt_send c msg in olet l := lt_run c msgs in Ok (a :: l)
    end.
  (** kernel/Dictionary.st: the elements are Associations, at:put: changes the value of the one found
      (105-117), keysAndValuesDo: visits them (366-372). *)
  Definition dict_send (c : coll) (msg : message K V) : outcome (coll * answer K V) :=
    match msg with
    | AtPut k v => olet c := put fst keq hf he (fun e => (fst e, v)) (k, v) c in Ok (c, Done)
    | At k => olet e := get fst keq hf k c in Ok (c, Value (option_map snd e))
    | RemoveKey k => olet (c, e) := remove fst keq hf he k c in Ok (c, Value (option_map snd e))
    | Size => Ok (c, Number (tally c))
    | Pairs => Ok (c, Enum (elements (slots c)))
    | Rehash => olet c := rehash fst he c in Ok (c, Done)
    end.
  Fixpoint dict_run (c : coll) (msgs : list (message K V)) : outcome (list (answer K V)) :=
    match msgs with
    | [] => Ok []
    | msg :: msgs => olet (c, a) := dict_send c msg in olet l := dict_run c msgs in Ok (a :: l)
    end.
End Keyed.

Section Sets.
  Context {E : Type} (eq : E -> E -> bool) (hf he : E -> Z).
  Notation self := (fun e : E => e).
  (** kernel/HashedColl.st. *)
  Definition set_send (c : coll) (msg : smessage E) : outcome (coll * sanswer E) :=
    match msg with
    | Add e => olet c := set_add eq hf he e c in Ok (c, SDone)
    | Includes e => olet b := set_includes eq hf e c in Ok (c, SBool b)
    | Remove e => olet (c, r) := remove self eq hf he e c in
        Ok (c, SBool (match r with Some _ => true | None => false end))
    | SSize => Ok (c, SNumber (tally c))
    | Do => Ok (c, SEnum (elements (slots c)))
    | SRehash => olet c := rehash self he c in Ok (c, SDone)
    | Copy => olet c := shallow_copy self he c in Ok (c, SDone)
    end.
  Fixpoint set_hist (c : coll) (msgs : list (smessage E)) : outcome (list (sanswer E)) :=
    match msgs with
    | [] => Ok []
    | msg :: msgs => olet (c, a) := set_send c msg in olet l := set_hist c msgs in Ok (a :: l)
    end.
End Sets.

Section Algebra.
  Context {E : Type} (eq : E -> E -> bool) (hf he : E -> Z).
  Notation self := (fun e : E => e).
  (** kernel/Set.st, kernel/HashedColl.st. *)
  Fixpoint eval (s : sexp E) : outcome coll :=
    match s with
    | New n => Ok (new n)
    | With s e => olet c := eval s in set_add eq hf he e c
    | Without s e => olet c := eval s in olet (c, _) := remove self eq hf he e c in Ok c
    | Union s t => olet a := eval s in olet b := eval t in set_union eq hf he a b
    | Inter s t => olet a := eval s in olet b := eval t in set_inter eq hf he a b
    | Diff s t => olet a := eval s in olet b := eval t in set_diff eq hf he a b
    | Copied s => olet c := eval s in shallow_copy self he c
    | Rehashed s => olet c := eval s in rehash self he c
    end.
  (** A question about the sets that two expressions make. *)
  Definition ask {A} (f : coll -> coll -> outcome A) (s t : sexp E) : outcome A :=
    olet a := eval s in olet b := eval t in f a b.
End Algebra.
