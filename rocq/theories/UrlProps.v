(** The properties of URLs. *)
From Verif Require Import Base SeqOps Text IntPrint Url UrlSpec UrlProofs UrlOps.

(** ** C99 encode: and decode: *)
(** The encoded text stands for the original, has only characters that separate nothing, and is decoded to the
    original. *)
Theorem C99_encode : forall s, Forall byte s ->
  stands_for (encode s) s /\ Forall safe (encode s) /\ decode (encode s) = Ok s.
Proof. exact encode_ok. Qed.
Print Assumptions C99_encode.
(** Text with no lower-case letters in its escapes is decoded to what it stands for. *)
Theorem C99_decode_partial : forall s t, stands_for s t -> upper_escapes s -> decode s = Ok t.
Proof. exact decode_upper. Qed.
Print Assumptions C99_decode_partial.
(** /:  %2f is a slash, but its digit is refused. *)
Theorem C99_decode_refuted : exists s t, stands_for s t /\ decode s = Err.
Proof.
  exists [37; 50; 102], [2 * 16 + 15]. split; [|reflexivity]. constructor; [apply (H_dec 50); lia|apply (H_lower 102); lia|constructor].
Qed.
Print Assumptions C99_decode_refuted.
(** Decoding "a b/é": a+b%2F%E9. *)
Example C99_example :
  encode [97; 32; 98; 47; 233] = [97; 43; 98; 37; 50; 70; 37; 69; 57] /\
  decode [97; 43; 98; 37; 50; 70; 37; 69; 57] = Ok [97; 32; 98; 47; 233] /\ decode [37; 52] = Err /\
  Forall byte [97; 32; 98; 47; 233] /\ upper_escapes [97; 37; 50; 70] /\ stands_for [97; 37; 50; 70] [97; 2 * 16 + 15].
Proof.
  repeat split; try reflexivity.
  - repeat constructor; lia.
  - destruct p as [|? [|? [|? [|? [|? p]]]]]; cbn in H; try discriminate; injection H; intros; subst; lia.
  - destruct p as [|? [|? [|? [|? [|? p]]]]]; cbn in H; try discriminate; injection H; intros; subst; lia.
  - constructor; [lia|lia|]. constructor; [apply (H_dec 50); lia|apply (H_upper 70); lia|constructor].
Qed.

(** ** C100 printOn: and fromString: *)
(** A URL whose parts can be told from each other in the text is read back from what it prints. *)
Theorem C100_round_trip_partial : forall u fuel, parseable u -> (2 <= fuel)%nat ->
  exists s, print_url u = Ok s /\ from_string fuel s = Ok u.
Proof. exact round_trip. Qed.
Print Assumptions C100_round_trip_partial.
(** Reading answers for every text that has no at sign at the end of the part before query and fragment. *)
Theorem C100_answers_partial : forall s fuel, (length s < fuel)%nat -> (forall x, s <> x ++ [64]) ->
  exists u, from_url_string fuel s = Ok u.
Proof. exact from_url_string_ends. Qed.
Print Assumptions C100_answers_partial.
(** http://user@ is read for ever. *)
Theorem C100_answers_refuted : exists s, forall fuel, from_url_string fuel s = OutOfFuel.
Proof.
  exists ([104; 116; 116; 112; 58; 47; 47] ++ [117] ++ [64]). intros fuel. apply never_answers. repeat constructor. unfold delims. cbn. lia.
Qed.
Print Assumptions C100_answers_refuted.
(** What is read from //h/p prints as h/p, and is another URL when read again: host h becomes part of the path. *)
Theorem C100_round_trip_refuted : exists t u s u', (forall fuel, (2 <= fuel)%nat -> from_string fuel t = Ok u) /\ print_url u = Ok s /\
  (forall fuel, (2 <= fuel)%nat -> from_string fuel s = Ok u') /\ host u = Some [104] /\ host u' = None.
Proof.
  exists [47; 47; 104; 47; 112], (mk_url None None None (Some [104]) 0 (Some [47; 112]) None None), [104; 47; 112],
    (mk_url None None None None 0 (Some [104; 47; 112]) None None). split; [|split; [|split; [|split]]].
  - intros [|[|fuel]] L; [lia|lia|]. vm_compute. reflexivity.
  - reflexivity.
  - intros [|[|fuel]] L; [lia|lia|]. vm_compute. reflexivity.
  - reflexivity.
  - reflexivity.
Qed.
Print Assumptions C100_round_trip_refuted.
(** A question mark after the number sign belongs to the fragment (RFC 3986, 3.5), but /p#a?b is read as having the
    query b and the fragment a. *)
Theorem C100_fragment_refuted : exists s u, (forall fuel, (2 <= fuel)%nat -> from_string fuel s = Ok u) /\
  s = [47; 112] ++ 35 :: [97; 63; 98] /\ fragment u = Some [97] /\ query u = Some [98].
Proof.
  exists [47; 112; 35; 97; 63; 98], (mk_url None None None None 0 (Some [47; 112]) (Some [98]) (Some [97])). split; [|split; [|split]].
  - intros [|[|fuel]] L; [lia|lia|]. vm_compute. reflexivity.
  - reflexivity.
  - reflexivity.
  - reflexivity.
Qed.
Print Assumptions C100_fragment_refuted.
(** http://u:p@h:80/x?q#f *)
Definition sample : url :=
  mk_url (Some [104; 116; 116; 112]) (Some [117]) (Some [112]) (Some [104]) 80 (Some [47; 120]) (Some [113]) (Some [102]).
Example C100_example : parseable sample /\
  print_url sample = Ok [104; 116; 116; 112; 58; 47; 47; 117; 58; 112; 64; 104; 58; 56; 48; 47; 120; 63; 113; 35; 102] /\
  from_string 2 [104; 116; 116; 112; 58; 47; 47; 117; 58; 112; 64; 104; 58; 56; 48; 47; 120; 63; 113; 35; 102] = Ok sample.
Proof.
  split; [|split; vm_compute; reflexivity]. unfold parseable, sample, delims, free. cbn [host scheme username password port path query fragment if_any].
  split; [|split; repeat constructor; cbn; lia].
  split; [exists [104; 116; 116; 112]; split; [reflexivity|]; split; [discriminate|]; repeat constructor; unfold name_char; lia|].
  repeat split; try (repeat constructor; cbn; lia); try lia; try discriminate.
  exists [120]. repeat split; try discriminate. repeat constructor; cbn; lia.
Qed.

(** ** C101 construct: *)
(** RFC 3986, 5.2, for a reference that is only a path (and query and fragment), when neither path has empty segments
    inside or ends with dots. *)
Theorem C101_construct_partial : forall b r s bp rp, scheme b = Some s -> s <> [102; 105; 108; 101] -> scheme r = None ->
  bp = match path b with Some p => p | None => [47] end -> (exists q, bp = 47 :: q) -> path r = Some rp -> rp <> [] ->
  tidy bp -> tidy rp ->
  exists t, target_path bp rp = Some t /\
    construct b r = Ok (mk_url (scheme b) (username b) (password b) (host b) (port b) (Some t) (query r) (fragment r)).
Proof. exact construct_ok. Qed.
Print Assumptions C101_construct_partial.
(** http: h /a/b/c *)
Definition base : url := mk_url (Some [104; 116; 116; 112]) None None (Some [104]) 0 (Some [47; 97; 47; 98; 47; 99]) (Some [113]) None.
(** .. is /a/, but /a is answered. *)
Theorem C101_dots_refuted : exists b r u t, construct b r = Ok u /\ target_path [47; 97; 47; 98; 47; 99] [46; 46] = Some t /\
  path b = Some [47; 97; 47; 98; 47; 99] /\ r = mk_url None None None None 0 (Some [46; 46]) None None /\ path u <> Some t.
Proof.
  exists base, (mk_url None None None None 0 (Some [46; 46]) None None). eexists. eexists.
  repeat split; try reflexivity. discriminate.
Qed.
Print Assumptions C101_dots_refuted.
(** #s keeps the query of the base (5.2.2), but it is lost. *)
Theorem C101_query_refuted : exists b r u, construct b r = Ok u /\ path r = None /\ query r = None /\ query b <> None /\ query u = None.
Proof.
  exists base, (mk_url None None None None 0 None None (Some [115])). eexists. repeat split. discriminate.
Qed.
Print Assumptions C101_query_refuted.
(** //g/x is at g, but the host of the base is answered. *)
Theorem C101_host_refuted : exists b r u, construct b r = Ok u /\ host r = Some [103] /\ host b = Some [104] /\ host u = Some [104].
Proof.
  exists base, (mk_url None None None (Some [103]) 0 (Some [47; 120]) None None). eexists. repeat split.
Qed.
Print Assumptions C101_host_refuted.
(** ../x?y and the like *)
Example C101_example :
  construct base (mk_url None None None None 0 (Some [46; 46; 47; 120]) (Some [121]) None) =
    Ok (mk_url (Some [104; 116; 116; 112]) None None (Some [104]) 0 (Some [47; 97; 47; 120]) (Some [121]) None) /\
  target_path [47; 97; 47; 98; 47; 99] [46; 46; 47; 120] = Some [47; 97; 47; 120] /\
  tidy [47; 97; 47; 98; 47; 99] /\ tidy [46; 46; 47; 120].
Proof.
  split; [reflexivity|]. split; [reflexivity|]. split; split.
  - intros a b E. destruct a as [|? [|? [|? [|? [|? [|? a]]]]]]; cbn in E; try discriminate. destruct a; discriminate.
  - split; discriminate.
  - intros a b E. destruct a as [|? [|? [|? [|? a]]]]; cbn in E; try discriminate. destruct a; discriminate.
  - split; discriminate.
Qed.

(** ** C102 decodedFields *)
(** Under each name that is written as it is there are its values, in order, if no value is empty. *)
Theorem C102_fields_partial : forall q form, form_text (fun k n => k = n) q form -> upper_escapes q ->
  Forall (fun e => snd e <> []) form ->
  exists d, decoded_fields q = Ok d /\ forall k, lookup_field d k =
    match values form k with [] => None | [v] => Some (One (Some v)) | l => Some (Many (map Some l)) end.
Proof.
  intros q form T U N. destruct (decoded_fields_ok q form T U N) as (d & E & H). exists d. split; [exact E|].
  intros k. rewrite H. destruct (values form k) as [|a [|b l]]; reflexivity.
Qed.
Print Assumptions C102_fields_partial.
(** a+b=1 is the field "a b", but it is put under "a+b". *)
Theorem C102_names_refuted : exists q n v d, form_text stands_for q [(n, v)] /\ v <> [] /\ decoded_fields q = Ok d /\
  lookup_field d n = None /\ d <> [].
Proof.
  exists [97; 43; 98; 61; 49], [97; 32; 98], [49]. eexists. split; [|split; [discriminate|split; [reflexivity|split; [reflexivity|discriminate]]]].
  apply (T_last _ [97; 43; 98] [97; 32; 98] [49] [49]); repeat (constructor; try lia); cbn; lia.
Qed.
Print Assumptions C102_names_refuted.
(** a=&a=1 is refused. *)
Theorem C102_empty_refuted : exists q form, form_text (fun k n => k = n) q form /\ upper_escapes q /\ decoded_fields q = Err.
Proof.
  exists [97; 61; 38; 97; 61; 49], [([97], []); ([97], [49])]. split; [|split; [|reflexivity]].
  - apply (T_field _ [97] [97] [] [] [97; 61; 49]); [repeat constructor; cbn; lia|reflexivity|constructor|constructor|].
    apply (T_last _ [97] [97] [49] [49]); [repeat constructor; cbn; lia|reflexivity|repeat constructor; cbn; lia|repeat constructor; lia].
  - intros p a b r E. destruct p as [|? [|? [|? [|? [|? [|? p]]]]]]; cbn in E; try discriminate. destruct p; discriminate.
Qed.
Print Assumptions C102_empty_refuted.
(** a=1&b=2&a=%33 *)
Example C102_example :
  (olet d := decoded_fields [97; 61; 49; 38; 98; 61; 50; 38; 97; 61; 37; 51; 51] in
   Ok (lookup_field d [97], lookup_field d [98], lookup_field d [99])) =
    Ok (Some (Many [Some [49]; Some [51]]), Some (One (Some [50])), None) /\
  form_text (fun k n => k = n) [97; 61; 49; 38; 97; 61; 50] [([97], [49]); ([97], [50])].
Proof.
  split; [reflexivity|].
  apply (T_field _ [97] [97] [49] [49] [97; 61; 50]); [repeat constructor; cbn; lia|reflexivity|repeat constructor; cbn; lia|repeat constructor; lia|].
  apply (T_last _ [97] [97] [50] [50]); [repeat constructor; cbn; lia|reflexivity|repeat constructor; cbn; lia|repeat constructor; lia].
Qed.

(** ** C103 equality and hash *)
(** Two URLs are never found equal, and comparing one with itself fails. *)
Theorem C103_equal_refuted : forall h u cu v cv, equals h u cu v cv <> Ok true.
Proof. exact equals_never. Qed.
Print Assumptions C103_equal_refuted.
Theorem C103_reflexive_refuted : forall h u c x, hash_of h u c = Ok (x, Some x) -> equals h u c u (Some x) = Err.
Proof. exact equals_itself. Qed.
Print Assumptions C103_reflexive_refuted.
(** The hash of a URL answered by construct: is the one its receiver had been asked for, not that of its text:
    two URLs with the same parts then have different hashes, for any hash that tells two texts apart. *)
Theorem C103_hash_refuted : exists b r u s t, construct b r = Ok u /\
  forall h : list Z -> Z, h s <> h t ->
  exists x, (olet (_, c) := hash_of h b None in olet (u', c') := construct_cached b c r None in
             olet (v, _) := hash_of h u' c' in Ok (u', v)) = Ok (u, x) /\
    exists y, (olet (v, _) := hash_of h u None in Ok v) = Ok y /\ x <> y.
Proof.
  exists base, (mk_url None None None None 0 (Some [120]) None None). eexists.
  exists ([104; 116; 116; 112; 58; 47; 47; 104] ++ [47; 97; 47; 98; 47; 99; 63; 113]), ([104; 116; 116; 112; 58; 47; 47; 104] ++ [47; 97; 47; 98; 47; 120]).
  split; [reflexivity|]. intros h H. eexists. split; [reflexivity|]. eexists. split; [reflexivity|]. exact H.
Qed.
Print Assumptions C103_hash_refuted.
Example C103_example : hash_of size base None = Ok (16, Some 16) /\ equals size base None base (Some 16) = Err /\
  equals size base None sample None = Ok false.
Proof. repeat split. Qed.
