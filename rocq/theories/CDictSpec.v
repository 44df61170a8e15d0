(** Finite maps as functions, and what they answer to a history of stores and look-ups. *)
From Verif Require Import Base.

(** A map from keys to Associations, given by their identity and value. *)
Inductive dmsg : Type := DAdd (id k v : Z) | DAt (k : Z).
Inductive dans : Type := Holder (id : Z) | Binding (b : option (Z * Z)).
Definition upd {A} (m : Z -> option A) (k : Z) (x : A) : Z -> option A := fun k' => if k' =? k then Some x else m k'.
Fixpoint drun (m : Z -> option (Z * Z)) (msgs : list dmsg) : list dans :=
  match msgs with
  | [] => []
  | DAdd id k v :: msgs =>
    let id := match m k with Some (id0, _) => id0 | None => id end in
    Holder id :: drun (upd m k (id, v)) msgs
  | DAt k :: msgs => Binding (m k) :: drun m msgs
  end.

(** A map from keys to values; an absent key is answered with nil, as is the previous value of a new key. *)
Inductive imsg : Type := IPut (k v : Z) | IAt (k : Z).
Definition val (nil : Z) (m : Z -> option Z) (k : Z) : Z := match m k with Some v => v | None => nil end.
Fixpoint irun (nil : Z) (m : Z -> option Z) (msgs : list imsg) : list Z :=
  match msgs with
  | [] => []
  | IPut k v :: msgs => val nil m k :: irun nil (upd m k v) msgs
  | IAt k :: msgs => val nil m k :: irun nil m msgs
  end.
(** No message uses nil as a key. *)
Definition proper (nil : Z) (msg : imsg) : Prop := match msg with IPut k _ | IAt k => k <> nil end.
(** The keys stored so far. *)
Definition ikeys (msgs : list imsg) : list Z :=
  nodup Z.eq_dec (flat_map (fun msg => match msg with IPut k _ => [k] | IAt _ => [] end) msgs).
