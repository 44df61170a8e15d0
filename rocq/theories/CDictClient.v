(** Histories of the C functions on dictionaries. *)
From Verif Require Import Base CDict CDictSpec.

Section Client.
  Variable idx : Z -> Z.
  (** _gst_dictionary_add, dictionary_association_at. *)
  Fixpoint dict_run (d : dict) (msgs : list dmsg) : outcome (dict * list dans) :=
    match msgs with
    | [] => Ok (d, [])
    | DAdd id k v :: msgs =>
      olet (d, r) := dict_add idx (Assoc id k v) d in olet (d, l) := dict_run d msgs in Ok (d, Holder r :: l)
    | DAt k :: msgs =>
      olet r := association_at idx k d in olet (d, l) := dict_run d msgs in
      Ok (d, Binding (option_map (fun a => (aid a, aval a)) r) :: l)
    end.
  Definition dict_history (others : list Z) (size : Z) (msgs : list dmsg) : outcome (dict * list dans) :=
    olet d := dict_new others size in dict_run d msgs.
  (** _gst_identity_dictionary_at_put, _gst_identity_dictionary_at. *)
  Variable nil : Z.
  Fixpoint idict_run (d : idict) (msgs : list imsg) : outcome (idict * list Z) :=
    match msgs with
    | [] => Ok (d, [])
    | IPut k v :: msgs =>
      olet (d, r) := idict_at_put idx nil k v d in olet (d, l) := idict_run d msgs in Ok (d, r :: l)
    | IAt k :: msgs =>
      olet r := idict_at idx nil k d in olet (d, l) := idict_run d msgs in Ok (d, r :: l)
    end.
  Definition idict_history (nothers : nat) (size : Z) (msgs : list imsg) : outcome (idict * list Z) :=
    olet d := idict_new nil nothers size in idict_run d msgs.
End Client.
