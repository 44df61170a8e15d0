(** Dictionaries as the virtual machine handles them from C, libgst/dict.c.
    OOPs are numbers; [idx] is OOP_INDEX (libgst/oop.h:225-226). *)
From Verif Require Import Base Hashed.

(** The loop of new_num_fields, libgst/dict.c:1527-1528; the shift count doubles at each round. *)
Fixpoint smear (fuel : nat) (n x : Z) : outcome Z :=
  if Z.land x (x + 1) =? 0 then Ok (x + 1)
  else match fuel with
       | O => OutOfFuel
       | S fuel => smear fuel (2 * n) (Z.lor x (Z.shiftr x n))
       end.
(** new_num_fields, libgst/dict.c:1515-1531, for sizes whose double is still a size_t. *)
Definition new_num_fields (x : Z) : outcome Z :=
  if Z.land x (x - 1) =? 0 then Ok (x * 2) else smear 64 1 x.

(** ** Dictionaries of Associations: Dictionary, BindingDictionary, Namespace *)

(** An Association object and its key and value. *)
Record assoc : Type := Assoc { aid : Z; akey : Z; aval : Z }.
(** Named instance variables other than tally (struct gst_namespace, libgst/dict.h:104-122), indexed ones,
    and tally. *)
Record dict : Type := Dict { dothers : list Z; dslots : list (option assoc); dtally : Z }.

Section Assoc.
  Variable idx : Z -> Z.
  (** The probe loop of find_key_or_nil (libgst/dict.c:1551-1570) and of dictionary_association_at
      (libgst/dict.inl:824-841); a key is found by comparing OOPs. *)
  Fixpoint probe {E} (key : E -> Z) (count : nat) (t : list (option E)) (k index : Z) : outcome nat :=
    match count with
    | O => Abort
    | S count =>
      let index := Z.land index (Z.of_nat (length t) - 1) in
      match nth_error t (Z.to_nat index) with
      | None => UB
      | Some None => Ok (Z.to_nat index)
      | Some (Some e) => if key e =? k then Ok (Z.to_nat index) else probe key count t k (index + 1)
      end
    end.
  (** find_key_or_nil, libgst/dict.c:1534-1570. *)
  Definition find_key_or_nil (t : list (option assoc)) (k : Z) : outcome nat :=
    probe akey (length t) t k (scramble (idx k)).
  (** The copying loop of grow_dictionary, libgst/dict.c:1597-1606. *)
  Fixpoint grow_loop (src t : list (option assoc)) : outcome (list (option assoc)) :=
    match src with
    | [] => Ok t
    | None :: src => grow_loop src t
    | Some a :: src => olet i := find_key_or_nil t (akey a) in grow_loop src (replace i (Some a) t)
    end.
  (** grow_dictionary, libgst/dict.c:1572-1610; _gst_swap_objects makes the new contents those of the
      old dictionary. *)
  Definition grow_dictionary (d : dict) : outcome dict :=
    olet n := new_num_fields (Z.of_nat (length (dslots d))) in
    olet t := grow_loop (dslots d) (repeat None (Z.to_nat n)) in
    Ok (Dict (dothers d) t (dtally d)).
  (** objSize: two header words, tally, the other named variables and the slots
      (OBJ_HEADER, libgst/gst.h). *)
  Definition dict_size (d : dict) : Z := 3 + Z.of_nat (length (dothers d)) + Z.of_nat (length (dslots d)).
  (** _gst_dictionary_new (1811-1824), _gst_binding_dictionary_new (1826-1840), namespace_new (1791-1809),
      libgst/dict.c. *)
  Definition dict_new (others : list Z) (size : Z) : outcome dict :=
    olet n := new_num_fields size in Ok (Dict others (repeat None (Z.to_nat n)) 0).
  (** _gst_dictionary_add, libgst/dict.c:1842-1884: the Association that now holds the key. *)
  Definition dict_add (a : assoc) (d : dict) : outcome (dict * Z) :=
    olet d := (if dict_size d * 3 / 4 <=? dtally d then grow_dictionary d else Ok d) in
    olet i := find_key_or_nil (dslots d) (akey a) in
    match nth i (dslots d) None with
    | None => Ok (Dict (dothers d) (replace i (Some a) (dslots d)) (dtally d + 1), aid a)
    | Some b =>
      Ok (Dict (dothers d) (replace i (Some (Assoc (aid b) (akey b) (aval a))) (dslots d)) (dtally d), aid b)
    end.
  (** dictionary_association_at, libgst/dict.inl:807-845. *)
  Definition association_at (k : Z) (d : dict) : outcome (option assoc) :=
    olet i := probe akey (length (dslots d)) (dslots d) k (scramble (idx k)) in Ok (nth i (dslots d) None).
End Assoc.

(** ** Identity dictionaries: IdentityDictionary, MethodDictionary
    Keys and values alternate in the indexed instance variables. *)
Record idict : Type := IDict { iothers : list Z; iwords : list Z; itally : Z }.

Section Ident.
  Variable idx : Z -> Z.
  (** The OOP of nil. *)
  Variable nil : Z.
  (** identity_dictionary_find_key_or_nil, libgst/dict.c:1687-1720: the index of the value. *)
  Fixpoint iprobe (count : nat) (w : list Z) (k index : Z) : outcome nat :=
    match count with
    | O => Abort
    | S count =>
      let index := Z.land index (Z.of_nat (length w) - 1) in
      match nth_error w (Z.to_nat index) with
      | None => UB
      | Some x => if x =? nil then Ok (Z.to_nat (index + 1))
                  else if x =? k then Ok (Z.to_nat (index + 1)) else iprobe count w k (index + 2)
      end
    end.
  Definition ifind (w : list Z) (k : Z) : outcome nat := iprobe (length w / 2) w k (scramble (idx k) * 2).
  (** data[index - 1] = key; data[index] = value. *)
  Definition istore (i : nat) (k v : Z) (w : list Z) : list Z := replace i v (replace (i - 1) k w).
  (** The copying loop of grow_identity_dictionary, libgst/dict.c:1637-1648. *)
  Fixpoint igrow_loop (src w : list Z) : outcome (list Z) :=
    match src with
    | k :: v :: src =>
      if k =? nil then igrow_loop src w
      else olet i := ifind w k in igrow_loop src (istore i k v w)
    | _ => Ok w
    end.
  (** grow_identity_dictionary, libgst/dict.c:1611-1651: tally is incremented, and the other named
      instance variables are not copied: those of the new object are nil. *)
  Definition grow_identity_dictionary (d : idict) : outcome idict :=
    olet n := new_num_fields (Z.of_nat (length (iwords d)) / 2) in
    olet w := igrow_loop (iwords d) (repeat nil (Z.to_nat (n * 2))) in
    Ok (IDict (map (fun _ => nil) (iothers d)) w (itally d + 1)).
  Definition idict_size (d : idict) : Z := 3 + Z.of_nat (length (iothers d)) + Z.of_nat (length (iwords d)).
  (** _gst_identity_dictionary_new, libgst/dict.c:1722-1735. *)
  Definition idict_new (nothers : nat) (size : Z) : outcome idict :=
    olet n := new_num_fields size in Ok (IDict (repeat nil nothers) (repeat nil (Z.to_nat (n * 2))) 0).
  (** _gst_identity_dictionary_at_put, libgst/dict.c:1737-1773: the previous value. *)
  Definition idict_at_put (k v : Z) (d : idict) : outcome (idict * Z) :=
    olet d := (if idict_size d * 3 / 8 <=? itally d then grow_identity_dictionary d else Ok d) in
    olet i := ifind (iwords d) k in
    match nth_error (iwords d) (i - 1), nth_error (iwords d) i with
    | Some x, Some old =>
      Ok (IDict (iothers d) (istore i k v (iwords d)) (if x =? nil then itally d + 1 else itally d), old)
    | _, _ => UB
    end.
  (** _gst_identity_dictionary_at, libgst/dict.c:1774-1789. *)
  Definition idict_at (k : Z) (d : idict) : outcome Z :=
    olet i := ifind (iwords d) k in
    match nth_error (iwords d) i with Some v => Ok v | None => UB end.
End Ident.
