(** The properties of texts. *)
From Verif Require Import Base SeqOps Text TextSpec TextProofs TextOps.

(** ** C91 Patterns *)
(** match:ignoreCase: answers whether the whole argument matches. *)
Theorem C91_match : forall p t,
  (exists b, match_ p t false = Ok b /\ (b = true <-> matches eq p t)) /\
  (exists b, match_ p t true = Ok b /\ (b = true <-> matches same_letter p t)).
Proof. exact (fun p t => conj (match_exact p t) (match_ignoring p t)). Qed.
Print Assumptions C91_match.
(** indexOf:matchCase:startingAt: answers the first place where something matches and the last end there. *)
Theorem C91_index : forall t p mc i, 1 <= i ->
  let same := if mc : bool then eq else same_letter in
  match index_of t p mc i with
  | Ok (Some (k, r)) => i <= k <= size t /\ found same p t k r /\ (forall r', found same p t k r' -> r' <= r) /\
      forall j r', i <= j < k -> ~ found same p t j r'
  | Ok None => forall j r', i <= j <= size t -> ~ found same p t j r'
  | _ => False
  end.
Proof. exact index_of_ok. Qed.
Print Assumptions C91_index.
(** Stars that have to give back what they took, at the end and in the middle. *)
Example C91_example :
  match_ [42; 97; 98; 42; 99] [97; 97; 98; 97; 98; 99; 120; 99] false = Ok true /\
  match_ [42; 97; 98; 35] [97; 97; 98; 97; 98] false = Ok false /\
  match_ [65; 42; 66] [97; 120; 98] true = Ok true /\
  index_of [120; 97; 98; 97; 98; 121] [97; 42; 98] true 2 = Ok (Some (2, 5)) /\
  index_of [120; 97; 98] [66; 65] false 1 = Ok None.
Proof. vm_compute. repeat split. Qed.

(** ** C92 withUnixShellEscapes *)
(** The shell reads one word, the string, if it is not empty and has no tab and no newline. *)
Theorem C92_word_partial : forall s, s <> [] -> Forall (fun c => c <> 9 /\ c <> 10) s ->
  exists r, shell_escapes s = Ok r /\ sh_read r None = Some [s].
Proof. exact shell_word. Qed.
Print Assumptions C92_word_partial.
(** A tab ends the word, a newline ends the command, and the empty string is no word. *)
Theorem C92_refuted :
  (exists s r, shell_escapes s = Ok r /\ sh_read r None = Some [[97]; [98]] /\ s = [97; 9; 98]) /\
  (exists s r, shell_escapes s = Ok r /\ sh_read r None = None /\ s = [97; 10; 98]) /\
  (exists r, shell_escapes [] = Ok r /\ sh_read r None = Some []).
Proof.
  split; [|split].
  - exists [97; 9; 98], [97; 9; 98]. repeat split.
  - exists [97; 10; 98], [97; 10; 98]. repeat split.
  - exists []. repeat split.
Qed.
Print Assumptions C92_refuted.
Example C92_example : let s := [97; 32; 39; 36; 92; 59; 42; 98; 33] in
  s <> [] /\ Forall (fun c => c <> 9 /\ c <> 10) s /\
  shell_escapes s = Ok [97; 92; 32; 92; 39; 92; 36; 92; 92; 92; 59; 92; 42; 98; 92; 33].
Proof. cbn zeta. split; [discriminate|]. split; [repeat constructor; lia|reflexivity]. Qed.

(** ** C93 Words and trimming *)
Theorem C93_words : forall s, exists ws, sub_strings is_separator s = Ok ws /\ words white s ws.
Proof. exact sub_strings_white. Qed.
Print Assumptions C93_words.
Theorem C93_words_of : forall s seps, exists ws, sub_strings_of s seps = Ok ws /\ words (fun c => In c seps) s ws.
Proof. exact sub_strings_of_ok. Qed.
Print Assumptions C93_words_of.
(** These are the only words. *)
Theorem C93_one_way : forall P s ws ws', words P s ws -> words P s ws' -> ws' = ws.
Proof. intros P s ws ws' W W'. exact (words_unique P s ws W ws' W'). Qed.
Print Assumptions C93_one_way.
Theorem C93_trim : forall s, exists w, trim_separators s = Ok w /\ trimmed s w.
Proof. exact trim_ok. Qed.
Print Assumptions C93_trim.
Example C93_example :
  sub_strings is_separator [32; 97; 98; 9; 10; 99; 32; 32] = Ok [[97; 98]; [99]] /\
  sub_strings_of [97; 44; 44; 98; 59; 99] [44; 59] = Ok [[97]; [98]; [99]] /\
  sub_strings_of [97; 44; 98] [44] = Ok [[97]; [98]] /\
  trim_separators [9; 32; 97; 32; 98; 10] = Ok [97; 32; 98] /\ trim_separators [32; 9] = Ok [].
Proof. vm_compute. repeat split. Qed.

(** ** C94 Comparisons *)
(** The five comparisons agree with the order of the strings in lower case; exactly one of <, sameAs: and >
    holds. *)
Theorem C94_order : forall a b, exists l e g,
  lt_ a b = Ok l /\ gt_ a b = Ok g /\ le_ a b = Ok (negb g) /\ ge_ a b = Ok (negb l) /\ same_as a b = Ok e /\
  (l = true <-> less a b) /\ (g = true <-> less b a) /\ (e = true <-> alike a b) /\
  (if l then 1 else 0) + (if e then 1 else 0) + (if g then 1 else 0) = 1.
Proof.
  intros a b. destruct (compare_to_ok a b) as (z & E & L & Q & G). destruct (same_as_ok a b) as (e & E2 & Q2).
  exists (z <? 0), e, (0 <? z). unfold lt_, gt_, le_, ge_. rewrite E. cbn [obind].
  assert (e = (z =? 0)) by (destruct e, (Z.eqb_spec z 0); intuition congruence).
  split; [reflexivity|]. split; [reflexivity|]. split; [f_equal; lia|]. split; [f_equal; lia|]. split; [exact E2|].
  split; [rewrite <- L; lia|]. split; [rewrite <- G; lia|]. split; [exact Q2|]. subst e.
  destruct (Z.ltb_spec z 0), (Z.eqb_spec z 0), (Z.ltb_spec 0 z); lia.
Qed.
Print Assumptions C94_order.
Theorem C94_transitive : forall a b c, lt_ a b = Ok true -> lt_ b c = Ok true -> lt_ a c = Ok true.
Proof.
  intros a b c. unfold lt_. destruct (compare_to_ok a b) as (x & -> & X & _), (compare_to_ok b c) as (y & -> & Y & _),
    (compare_to_ok a c) as (z & -> & W & _). cbn [obind]. intros [= A] [= B]. f_equal. apply Z.ltb_lt in A, B. apply Z.ltb_lt.
  apply W. apply (less_trans a b c); tauto.
Qed.
Print Assumptions C94_transitive.
Example C94_example : lt_ [97; 98] [65; 67] = Ok true /\ lt_ [65; 67] [97; 99; 100] = Ok true /\
  same_as [97; 66] [65; 98] = Ok true /\ gt_ [91] [65] = Ok false /\ le_ [] [] = Ok true.
Proof. vm_compute. repeat split. Qed.

(** ** C95 isNumeric *)
(** It answers whether the string is a numeral if it is not empty and does not end with the point. *)
Theorem C95_numeric_partial : forall s, s <> [] -> (forall a, s = a ++ [46] -> ~ Forall (fun c => 48 <= c <= 57) a) ->
  exists b, is_numeric s = Ok b /\ (b = true <-> numeral s).
Proof. exact is_numeric_ok. Qed.
Print Assumptions C95_numeric_partial.
(** The empty string is numeric; one ending with the point is an error. *)
Theorem C95_refuted : is_numeric [] = Ok true /\ ~ numeral [] /\
  forall a, Forall (fun c => 48 <= c <= 57) a -> is_numeric (a ++ [46]) = Err.
Proof.
  split; [reflexivity|]. split.
  - intros (a & _ & [[N E]|(b & _ & _ & E)]); [congruence|]. destruct a; discriminate.
  - induction a as [|c a IH]; intros F; [reflexivity|]. inversion F; subst. cbn [app is_numeric].
    replace (is_digit c) with true by (unfold is_digit; lia). auto.
Qed.
Print Assumptions C95_refuted.
Example C95_example : is_numeric [49; 50; 46; 53] = Ok true /\ is_numeric [49; 46; 50; 46] = Ok false /\
  is_numeric [46; 53] = Ok true /\ is_numeric [49; 97] = Ok false.
Proof. vm_compute. repeat split. Qed.
