(** Finite maps and sets as lists of elements with distinct keys. *)
From Verif Require Import Base.
From Coq Require Export Permutation.

Section Spec.
  Context {E K : Type} (key : E -> K) (keq : K -> K -> bool).
  (** The element with a given key. *)
  Definition lookup (k : K) (m : list E) : option E := List.find (fun e => keq (key e) k) m.
  (** Store [e], or if its key is already there change the element found. *)
  Definition insert (upd : E -> E) (e : E) (m : list E) : list E :=
    match lookup (key e) m with
    | None => e :: m
    | Some _ => map (fun x => if keq (key x) (key e) then upd x else x) m
    end.
  Definition delete (k : K) (m : list E) : list E := filter (fun e => negb (keq (key e) k)) m.
End Spec.

(** keq is an equivalence that the hash value respects. *)
Definition good_hash {K} (keq : K -> K -> bool) (h : K -> Z) : Prop :=
  (forall a, keq a a = true) /\ (forall a b, keq a b = keq b a) /\
  (forall a b c, keq a b = true -> keq b c = true -> keq a c = true) /\
  (forall a b, keq a b = true -> h a = h b).

(** ** Histories
    The messages of a keyed collection and what a finite map answers to them.
    The answer to an enumeration may come in any order. *)
Section Histories.
  Context {K V : Type} (keq : K -> K -> bool).
  Inductive message : Type :=
  | AtPut (k : K) (v : V) | At (k : K) | RemoveKey (k : K) | Size | Pairs | Rehash.
  Inductive answer : Type :=
  | Done | Value (v : option V) | Number (z : Z) | Enum (l : list (K * V)).
  Definition agree (a b : answer) : Prop :=
    match a, b with Enum l, Enum l' => Permutation l l' | _, _ => a = b end.
  Definition map_step (m : list (K * V)) (msg : message) : list (K * V) * answer :=
    match msg with
    | AtPut k v => (insert fst keq (fun e => (fst e, v)) (k, v) m, Done)
    | At k => (m, Value (option_map snd (lookup fst keq k m)))
    | RemoveKey k => (delete fst keq k m, Value (option_map snd (lookup fst keq k m)))
    | Size => (m, Number (Z.of_nat (length m)))
    | Pairs => (m, Enum m)
    | Rehash => (m, Done)
    end.
  Fixpoint map_run (m : list (K * V)) (msgs : list message) : list answer :=
    match msgs with
    | [] => []
    | msg :: msgs => let (m, a) := map_step m msg in a :: map_run m msgs
    end.
End Histories.
Arguments message : clear implicits.
Arguments answer : clear implicits.

(** Sets. *)
Section Sets.
  Context {E : Type} (eq : E -> E -> bool).
  Inductive smessage : Type := Add (e : E) | Includes (e : E) | Remove (e : E) | SSize | Do | SRehash | Copy.
  Inductive sanswer : Type := SDone | SBool (b : bool) | SNumber (z : Z) | SEnum (l : list E).
  Definition sagree (a b : sanswer) : Prop :=
    match a, b with SEnum l, SEnum l' => Permutation l l' | _, _ => a = b end.
  Definition mem (e : E) (m : list E) : bool := existsb (fun x => eq x e) m.
  Definition set_step (m : list E) (msg : smessage) : list E * sanswer :=
    match msg with
    | Add e => (if mem e m then m else e :: m, SDone)
    | Includes e => (m, SBool (mem e m))
    | Remove e => (filter (fun x => negb (eq x e)) m, SBool (mem e m))
    | SSize => (m, SNumber (Z.of_nat (length m)))
    | Do => (m, SEnum m)
    | SRehash | Copy => (m, SDone)
    end.
  Fixpoint set_run (m : list E) (msgs : list smessage) : list sanswer :=
    match msgs with
    | [] => []
    | msg :: msgs => let (m, a) := set_step m msg in a :: set_run m msgs
    end.
End Sets.
Arguments smessage : clear implicits.
Arguments sanswer : clear implicits.

(** ** Expressions that make sets, and the characteristic function of what they should make *)
Section Algebra.
  Context {E : Type} (eq : E -> E -> bool).
  Inductive sexp : Type :=
  | New (n : Z) | With (s : sexp) (e : E) | Without (s : sexp) (e : E)
  | Union (s t : sexp) | Inter (s t : sexp) | Diff (s t : sexp) | Copied (s : sexp) | Rehashed (s : sexp).
  Fixpoint den (s : sexp) (x : E) : bool :=
    match s with
    | New _ => false
    | With s e => eq e x || den s x
    | Without s e => den s x && negb (eq e x)
    | Union s t => den s x || den t x
    | Inter s t => den s x && den t x
    | Diff s t => den s x && negb (den t x)
    | Copied s | Rehashed s => den s x
    end.
  Definition included (s t : sexp) : Prop := forall x, den s x = true -> den t x = true.
End Algebra.
Arguments sexp : clear implicits.
