(** C16 (LookupTable), C17 (Set), C43 (Dictionary), C44 (IdentitySet). *)
From Verif Require Import Base Hashed HashedSpec HashedClient HashedLookup HashedSets.
Local Open Scope Z_scope.

(** C16: whatever is sent to a LookupTable (= and hash) or an IdentityDictionary (== and identityHash)
    made by new: n, it answers as a finite map would. *)
Theorem C16_lookup_table : forall {K V} (keq : K -> K -> bool) (h : K -> Z) (vnil : V) n (msgs : list (message K V)),
  good_hash keq h ->
  exists l, lt_run keq h h vnil (lt_new vnil n) msgs = Ok l /\ Forall2 agree l (map_run keq [] msgs).
Proof. exact @lookup_table_ok. Qed.
Print Assumptions C16_lookup_table.

(** keys are compared modulo 10 and hashed by their last digit: 2, 12 and 22 are one key. *)
Example C16_example :
  good_hash (fun a b => a mod 10 =? b mod 10) (fun a => a mod 10) /\
  lt_run (fun a b => a mod 10 =? b mod 10) (fun a => a mod 10) (fun a => a mod 10) 0 (lt_new 0 6)
    (map (fun k => AtPut k (k * 100)) [1; 2; 3; 4; 5; 6; 7; 8; 12] ++ [At 22; RemoveKey 3; At 3; At 8; Size])
  = Ok (repeat Done 9 ++ [Value (Some 1200); Value (Some 300); Value None; Value (Some 800); Number 7]).
Proof.
  split; [|vm_compute; reflexivity]. split; [|split; [|split]]; intros; lia.
Qed.

(** C17: histories, set arithmetic, comparison, and equal sets have one hash value. *)
Theorem C17_set : forall {E} (eq : E -> E -> bool) (h : E -> Z), good_hash eq h -> forall n (msgs : list (smessage E)),
  exists l, set_hist eq h h (new n) msgs = Ok l /\ Forall2 sagree l (set_run eq [] msgs).
Proof. exact @set_ok. Qed.
Print Assumptions C17_set.

Theorem C17_algebra : forall {E} (eq : E -> E -> bool) (h : E -> Z), good_hash eq h -> forall s x,
  (olet c := eval eq h h s in set_includes eq h x c) = Ok (den eq s x).
Proof. exact @eval_includes. Qed.
Print Assumptions C17_algebra.

Theorem C17_less_equal : forall {E} (eq : E -> E -> bool) (h : E -> Z), good_hash eq h -> forall s t,
  exists r, ask eq h h (set_le eq h) s t = Ok r /\ (r = true <-> included eq s t).
Proof. exact @ask_le. Qed.
Print Assumptions C17_less_equal.

Theorem C17_less : forall {E} (eq : E -> E -> bool) (h : E -> Z), good_hash eq h -> forall s t,
  exists r, ask eq h h (set_lt eq h) s t = Ok r /\ (r = true <-> included eq s t /\ ~ included eq t s).
Proof. exact @ask_lt. Qed.
Print Assumptions C17_less.

Theorem C17_equal : forall {E} (eq : E -> E -> bool) (h : E -> Z), good_hash eq h -> forall s t,
  exists r, ask eq h h (set_eq eq h) s t = Ok r /\ (r = true <-> forall x, den eq s x = den eq t x).
Proof. exact @ask_eq. Qed.
Print Assumptions C17_equal.

Theorem C17_hash : forall {E} (eq : E -> E -> bool) (h : E -> Z), good_hash eq h -> forall s t,
  (forall x, den eq s x = den eq t x) ->
  exists v, ask eq h h (fun a b => Ok (set_hash h a, set_hash h b)) s t = Ok (v, v).
Proof. exact @ask_hash. Qed.
Print Assumptions C17_hash.

(** The same set made in two ways, one by adding and removing in another order. *)
Example C17_example :
  let s := With (With (New 6) 3) 11 in
  let t := Without (Union (With (New 32) 11) (With (With (New 6) 5) 3)) 5 in
  good_hash Z.eqb (fun a => a mod 4) /\ (forall x, den Z.eqb s x = den Z.eqb t x) /\
  ask Z.eqb (fun a => a mod 4) (fun a => a mod 4) (set_lt Z.eqb (fun a => a mod 4)) s (With t 4) = Ok true.
Proof.
  cbn [den]. split; [split; [|split; [|split]]; intros; lia|]. split; [intros x; lia|vm_compute; reflexivity].
Qed.

(** C43: Dictionary, whose elements are Associations. *)
Theorem C43_dictionary : forall {K V} (keq : K -> K -> bool) (h : K -> Z) n (msgs : list (message K V)),
  good_hash keq h ->
  exists l, dict_run keq h h (new n) msgs = Ok l /\ Forall2 agree l (map_run keq [] msgs).
Proof. exact @dictionary_ok. Qed.
Print Assumptions C43_dictionary.

Example C43_example :
  dict_run (fun a b => a mod 10 =? b mod 10) (fun a => a mod 10) (fun a => a mod 10) (new 6)
    (map (fun k => AtPut k (k * 100)) [1; 2; 3; 4; 5; 6; 7; 8; 12] ++ [At 22; RemoveKey 3; At 3; At 8; Size])
  = Ok (repeat Done 9 ++ [Value (Some 1200); Value (Some 300); Value None; Value (Some 800); Number 7]).
Proof. vm_compute. reflexivity. Qed.

(** C44: an IdentitySet of objects whose hash differs from their identityHash forgets elements on growing. *)
Theorem C44_identity_set_refuted : exists (idhash hash : Z -> Z) (msgs : list (smessage Z)),
  (forall a b, idhash a = idhash b -> a = b) /\
  exists l, set_hist Z.eqb idhash hash (new 6) msgs = Ok l /\ ~ Forall2 sagree l (set_run Z.eqb [] msgs).
Proof. exact identity_set_broken. Qed.
Print Assumptions C44_identity_set_refuted.

(** It is a set if hash and identityHash agree on all its elements, as for objects that do not redefine hash. *)
Theorem C44_identity_set_partial : forall {E} (same : E -> E -> bool) (idhash hash : E -> Z),
  good_hash same idhash -> (forall x, hash x = idhash x) -> forall n (msgs : list (smessage E)),
  exists l, set_hist same idhash hash (new n) msgs = Ok l /\ Forall2 sagree l (set_run same [] msgs).
Proof. exact @identity_set_ok. Qed.
Print Assumptions C44_identity_set_partial.

Example C44_example : good_hash Z.eqb (fun a => a) /\
  set_hist Z.eqb (fun a => a) (fun a => a) (new 6) (map Add [10; 20; 30; 40; 50; 60; 70] ++ [Includes 20]) =
  Ok (repeat SDone 7 ++ [SBool true]).
Proof. split; [split; [|split; [|split]]; intros; lia|vm_compute; reflexivity]. Qed.
