(** The properties of names of files. *)
From Verif Require Import Base SeqOps Text TextSpec TextOps Path PathSpec PathProofs.

(** ** C96 fullNameFor: *)
(** The full name is the absolute name, without points, of what the name denotes in the working directory. *)
Theorem C96_full_name : forall cwd s, s <> [] -> exists cs e, words is_slash cwd cs /\ denotes cs s e /\
  full_name cwd s = Ok (absolute e) /\ (Forall proper cs -> Forall proper e).
Proof. exact full_name_ok. Qed.
Print Assumptions C96_full_name.
(** A name denotes one thing, so the full name is determined; taking it again changes nothing. *)
Theorem C96_determined : forall d s e e', denotes d s e -> denotes d s e' -> e' = e.
Proof. exact denotes_unique. Qed.
Print Assumptions C96_determined.
Theorem C96_idempotent : forall cwd cwd' cs s r, words is_slash cwd cs -> Forall proper cs -> s <> [] ->
  full_name cwd s = Ok r -> full_name cwd' r = Ok r.
Proof.
  intros cwd cwd' cs s r W P N E. destruct (full_name_ok cwd s N) as (cs' & e & W' & _ & E' & PE).
  rewrite (words_unique _ _ _ W _ W') in PE. rewrite E in E'. injection E' as ->. exact (full_name_again cwd' e (PE P)).
Qed.
Print Assumptions C96_idempotent.
(** /u/v is the working directory; ../../../x//./y/ *)
Example C96_example :
  full_name [47; 117; 47; 118] [46; 46; 47; 46; 46; 47; 46; 46; 47; 120; 47; 47; 46; 47; 121; 47] = Ok [47; 120; 47; 121] /\
  full_name [47; 117; 47; 118] [120; 47; 46; 46; 47; 121] = Ok [47; 117; 47; 118; 47; 121] /\
  full_name [47; 117] [47; 46; 46] = Ok [47] /\ full_name [47; 117] [] = Err /\
  words is_slash [47; 117; 47; 118] [[117]; [118]] /\ Forall proper [[117]; [118]].
Proof.
  repeat split; try reflexivity.
  - apply (words_flat [[117]; [118]]). repeat constructor; try discriminate; unfold simple; cbn; lia.
  - repeat constructor; try discriminate; unfold simple; cbn; lia.
Qed.

(** ** C97 pathFrom:to: *)
(** The path answered, used in the directory of the source, denotes the destination, unless the source is the
    root, or the destination is the root and the source is in it. *)
Theorem C97_relative_partial : forall cwd cs src dest p x e, words is_slash cwd cs -> Forall proper cs ->
  src <> [] -> dest <> [] -> denotes cs src (p ++ [x]) -> denotes cs dest e -> p <> [] \/ e <> [] ->
  exists r, path_from_to cwd src dest = Ok r /\ denotes p r e.
Proof.
  intros cwd cs src dest p x e W P NS ND DS DD NE.
  destruct (path_from_to_ok cwd cs src dest W P NS ND) as (es & ed & D1 & D2 & E & P1 & P2). rewrite E.
  rewrite (denotes_unique _ _ _ _ DS D1) in *. rewrite (denotes_unique _ _ _ _ DD D2) in *. exact (compute_path_ok p x e P1 P2 NE).
Qed.
Print Assumptions C97_relative_partial.
(** From the root it fails; from a file in the root to the root it answers the empty name, which denotes
    nothing. *)
Theorem C97_refuted : (forall cwd, path_from_to cwd [47] [47; 97] = Err) /\
  exists r, (forall cwd, path_from_to cwd [47; 97] [47] = Ok r) /\ forall d e, ~ denotes d r e.
Proof.
  split; [intros cwd; reflexivity|]. exists []. split; [intros cwd; reflexivity|]. intros d e (ws & _ & []).
Qed.
Print Assumptions C97_refuted.
(** From /a/b/c to /a/d/e, with a detour through x. *)
Example C97_example : path_from_to [47; 97] [98; 47; 99] [47; 120; 47; 46; 46; 47; 97; 47; 100; 47; 101] = Ok [46; 46; 47; 100; 47; 101] /\
  denotes [[97]] [98; 47; 99] ([[97]; [98]] ++ [[99]]) /\
  path_from_to [47; 97] [98] [47; 120] = Ok [47; 120] /\ path_from_to [47; 97] [98; 47; 99] [47; 97] = Ok [46; 46; 47; 46; 46; 47; 97].
Proof.
  split; [reflexivity|]. split; [|split; reflexivity]. exists [[98]; [99]]. split.
  - apply (words_rel [98] [[99]]). repeat constructor; try discriminate; unfold simple; cbn; lia.
  - cbn. repeat (apply P_down; try discriminate). apply P_here.
Qed.

(** ** C98 Parts of names *)
(** A name is its directory followed by its last component. *)
Theorem C98_parts : forall s, exists d n, strip_file_name s = Ok d /\ strip_path s = Ok n /\ simple n /\
  (In 47 s -> s = d ++ n) /\ (simple s -> d = [46; 47] /\ n = s).
Proof. exact parts_ok. Qed.
Print Assumptions C98_parts.
(** The last component, in the directory of the name, denotes what the name does. *)
Theorem C98_append : forall s n, strip_path s = Ok n -> n <> [] -> exists p r, path_for s = Ok p /\ append_to n p = Ok r /\
  forall d e, denotes d s e -> denotes d r e.
Proof. exact append_parts. Qed.
Print Assumptions C98_append.
(** A name is the name without the extension followed by the extension, if it has one. *)
Theorem C98_extension_partial : forall s, exists b e, strip_extension s = Ok b /\ extension_for s = Ok e /\ s = b ++ e /\
  (has_extension b e \/ e = [] /\ forall b' e', s = b' ++ e' -> ~ has_extension b' e').
Proof. exact extension_ok. Qed.
Print Assumptions C98_extension_partial.
(** The parent directory is said to have an extension; without it, it is the directory itself. *)
Theorem C98_refuted : exists s, s = [46; 46] /\ extension_for s = Ok [46] /\ strip_extension s = Ok [46] /\
  denotes [[97]] s [] /\ denotes [[97]] [46] [[97]].
Proof.
  exists [46; 46]. repeat split; try reflexivity.
  - exists [[46; 46]]. split.
    + apply (words_rel [46; 46] []). repeat constructor; try discriminate. unfold simple. cbn. lia.
    + cbn. apply (P_up [] [97]). constructor.
  - exists [[46]]. split.
    + apply (words_rel [46] []). repeat constructor; try discriminate. unfold simple. cbn. lia.
    + cbn. apply P_stay. constructor.
Qed.
Print Assumptions C98_refuted.
Example C98_example :
  extension_for [47; 97; 46; 98; 47; 99; 46; 100; 46; 101] = Ok [46; 101] /\
  extension_for [97; 46; 98; 47; 99] = Ok [] /\ extension_for [97; 47; 46; 99] = Ok [] /\ extension_for [46; 99] = Ok [] /\
  strip_extension [97; 46; 98; 46; 99] = Ok [97; 46; 98] /\
  strip_path [47; 97; 47; 98] = Ok [98] /\ strip_file_name [47; 97; 47; 98] = Ok [47; 97; 47] /\ path_for [97; 47; 47; 98] = Ok [97; 47] /\
  append_to [98] [97; 47] = Ok [97; 47; 98].
Proof. vm_compute. repeat split. Qed.
