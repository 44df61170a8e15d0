(** What become: and its companions must do, in terms of objects. *)
From Verif Require Import Base OopTab OopTabRun OopTabSpec Become.
Local Open Scope Z_scope.

(** Besides what it contains, an object may be weak and may be read-only. *)
Record pworld := PWorld { base : world; weak : Z -> bool; readonly : Z -> bool }.

Definition up (f : Z -> bool) (i : Z) (b : bool) : Z -> bool := fun k => if k =? i then b else f k.

(** [f] with the values at [i] and [j] exchanged. *)
Definition swapped {A} (f : Z -> A) (i j : Z) : Z -> A :=
  fun k => if k =? i then f j else if k =? j then f i else f k.

(** The effects.  become: exchanges what the two OOPs stand for, everything
    about it; it may make one of them old, as tenure does. *)
Inductive peffect : pworld -> prequest -> panswer -> pworld -> Prop :=
| pe_table w r a w' wk ro :
    effect (base w) r a w' ->
    (forall i, used (objs w') i -> a <> AOop i -> wk i = weak w i /\ ro i = readonly w i) ->
    (forall i, a = AOop i -> wk i = false /\ ro i = false) ->
    peffect w (Table_ r) (PA a) (PWorld w' wk ro)
| pe_become w i j :
    readonly w i = false -> readonly w j = false ->
    used (objs (base w)) i -> used (objs (base w)) j ->
    peffect w (Become i j) PDone
      (PWorld (World (swapped (objs (base w)) i j)
                     (let b := young (base w) i && young (base w) j in
                      up (up (young (base w)) i b) j b))
              (swapped (weak w) i j) (swapped (readonly w) i j))
| pe_refused w i j : readonly w i = true \/ readonly w j = true -> peffect w (Become i j) PFail w
| pe_weak w i : peffect w (MakeWeak i) PDone (PWorld (base w) (up (weak w) i true) (readonly w))
| pe_readonly w i :
    peffect w (MakeReadOnly i) PDone (PWorld (base w) (weak w) (up (readonly w) i true))
| pe_tenure w i :
    peffect w (Tenure i) PDone
      (PWorld (World (objs (base w)) (up (young (base w)) i false)) (weak w) (readonly w))
| pe_fixed w i :
    peffect w (MakeFixed i) PDone
      (PWorld (World (objs (base w)) (up (young (base w)) i false)) (weak w) (readonly w))
| pe_isweak w i : peffect w (IsWeak i) (PBool (weak w i)) w
| pe_isreadonly w i : peffect w (IsReadOnly i) (PBool (readonly w i)) w.

Inductive peffects : pworld -> list prequest -> list panswer -> pworld -> Prop :=
| pes_nil w : peffects w [] [] w
| pes_cons w r a w1 rs l w2 :
    peffect w r a w1 -> peffects w1 rs l w2 -> peffects w (r :: rs) (a :: l) w2.

Definition pno_objects : pworld := PWorld no_objects (fun _ => false) (fun _ => false).
