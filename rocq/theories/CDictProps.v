(** C18 (identity dictionaries from C), C19 (dictionaries of Associations from C), C45 (their other
    instance variables). *)
From Verif Require Import Base CDict CDictSpec CDictClient CDictProofs CIdentProofs.

(** C18: look-ups. The number of pairs in the table after creation is 2 ^ (Z.log2 size + 1); it must be
    eight or more, and leave a free pair in spite of the other named variables, which count as slots. *)
Theorem C18_lookup : forall (idx : Z -> Z) nil nothers size msgs, 4 <= size < 2 ^ 63 ->
  9 + 3 * Z.of_nat nothers < 2 ^ (Z.log2 size + 2) -> Forall (proper nil) msgs ->
  exists d, idict_history idx nil nothers size msgs = Ok (d, irun nil (fun _ => None) msgs) /\
    itally d = Z.of_nat (length (ikeys msgs)) + (Z.log2 (Z.of_nat (length (iwords d))) - (Z.log2 size + 2)).
Proof. exact idict_history_ok. Qed.
Print Assumptions C18_lookup.

(** The method dictionaries that libgst/dict.c:1408 makes: one other variable, size 32. *)
Example C18_example :
  9 + 3 * Z.of_nat 1 < 2 ^ (Z.log2 32 + 2) /\ Forall (proper 0) [IPut 5 50; IAt 5; IPut 5 51; IAt 6] /\
  irun 0 (fun _ => None) [IPut 5 50; IAt 5; IPut 5 51; IAt 6] = [0; 50; 50; 0].
Proof. split; [reflexivity|]. split; [repeat constructor; cbn; lia|reflexivity]. Qed.

(** The size is not the number of keys: it is too large by one for each time the table has doubled. *)
Theorem C18_size_refuted : exists idx nil nothers size msgs, 4 <= size < 2 ^ 63 /\
  9 + 3 * Z.of_nat nothers < 2 ^ (Z.log2 size + 2) /\ Forall (proper nil) msgs /\
  exists d l, idict_history idx nil nothers size msgs = Ok (d, l) /\ itally d <> Z.of_nat (length (ikeys msgs)).
Proof. exact tally_wrong. Qed.
Print Assumptions C18_size_refuted.

(** It is right as long as the table has not grown: tally stays below 3/8 of the size of the object. *)
Theorem C18_size_partial : forall (idx : Z -> Z) nil nothers size msgs, 4 <= size < 2 ^ 63 ->
  9 + 3 * Z.of_nat nothers < 2 ^ (Z.log2 size + 2) -> Forall (proper nil) msgs ->
  Z.of_nat (length (ikeys msgs)) < (3 + Z.of_nat nothers + 2 ^ (Z.log2 size + 2)) * 3 / 8 ->
  exists d, idict_history idx nil nothers size msgs = Ok (d, irun nil (fun _ => None) msgs) /\
    itally d = Z.of_nat (length (ikeys msgs)).
Proof. exact tally_right. Qed.
Print Assumptions C18_size_partial.

Example C18_size_example : Z.of_nat (length (ikeys [IPut 5 50; IAt 5; IPut 5 51; IPut 6 52])) <
  (3 + Z.of_nat 1 + 2 ^ (Z.log2 32 + 2)) * 3 / 8.
Proof. reflexivity. Qed.

(** Made for one or two keys, the table can fill up, and then looking up another key calls abort(). *)
Theorem C18_small_refuted : exists idx nil size msgs, 0 < size /\ Forall (proper nil) msgs /\
  idict_history idx nil 0 size msgs = Abort.
Proof. exact small_idict_aborts. Qed.
Print Assumptions C18_small_refuted.

(** C19 and the positive half of C45. The first Association stored for a key stays the holder of the key. *)
Theorem C19_dictionary : forall (idx : Z -> Z) others size msgs, 4 <= size < 2 ^ 63 ->
  9 + 3 * Z.of_nat (length others) < 2 ^ (Z.log2 size + 1) ->
  exists d, dict_history idx others size msgs = Ok (d, drun (fun _ => None) msgs) /\ dothers d = others.
Proof. exact dict_history_ok. Qed.
Print Assumptions C19_dictionary.

(** The namespaces of libgst/dict.c:1047-1058: four other variables, size 32; the pools of
    libgst/sym.c:1203 and libgst/gst-parse.c:957: one other variable, size 8. *)
Example C19_example :
  9 + 3 * Z.of_nat (length [1; 2; 3; 4]) < 2 ^ (Z.log2 32 + 1) /\
  9 + 3 * Z.of_nat (length [7]) < 2 ^ (Z.log2 8 + 1) /\
  drun (fun _ => None) [DAdd 100 5 50; DAdd 101 5 51; DAt 5; DAt 6] =
    [Holder 100; Holder 100; Binding (Some (100, 51)); Binding None].
Proof. split; [reflexivity|]. split; reflexivity. Qed.

Theorem C19_small_refuted : exists idx size msgs, 0 < size /\ dict_history idx [] size msgs = Abort.
Proof. exact small_dict_aborts. Qed.
Print Assumptions C19_small_refuted.

(** C45: storing into an identity dictionary from C can reset its other variables, the mutex of a
    MethodDictionary. [d] is reachable: it is the outcome of a history, with the mutex then set. *)
Theorem C45_refuted : exists idx nil msgs d l mutex k v d' r,
  idict_history idx nil 1 32 msgs = Ok (d, l) /\ Forall (proper nil) msgs /\ k <> nil /\ mutex <> nil /\
  idict_at_put idx nil k v (IDict [mutex] (iwords d) (itally d)) = Ok (d', r) /\ iothers d' = [nil].
Proof. exact mutex_lost. Qed.
Print Assumptions C45_refuted.

(** It does not while the table does not grow. *)
Theorem C45_partial : forall idx nil nothers size msgs d l others k v, 4 <= size < 2 ^ 63 ->
  9 + 3 * Z.of_nat nothers < 2 ^ (Z.log2 size + 2) -> Forall (proper nil) msgs -> k <> nil ->
  idict_history idx nil nothers size msgs = Ok (d, l) -> length others = length (iothers d) ->
  itally d < idict_size d * 3 / 8 ->
  exists d' r, idict_at_put idx nil k v (IDict others (iwords d) (itally d)) = Ok (d', r) /\ iothers d' = others.
Proof. exact others_kept. Qed.
Print Assumptions C45_partial.

Example C45_example : exists d l, idict_history (fun x => x) 0 1 32 [IPut 5 50; IPut 6 60] = Ok (d, l) /\
  length [777] = length (iothers d) /\ itally d < idict_size d * 3 / 8.
Proof. eexists _, _. split; [vm_compute; reflexivity|]. split; reflexivity. Qed.
