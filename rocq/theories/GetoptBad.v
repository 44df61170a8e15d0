(** Proofs about patterns that are wrong, Getopt.v. *)
From Coq Require Import Ascii String Permutation Lia.
From Verif Require Import Base Getopt GetoptSpec GetoptProofs.
Import ListNotations.
Local Open Scope list_scope.
Local Open Scope char_scope.

Lemma at_synonym_res g s v : at_synonym g s v = Err \/ exists x, at_synonym g s v = Ok x.
Proof.
  unfold at_synonym. destruct (match s with [_; c] => _ | _ => _ end) as [g' k].
  destruct (includes_value (options g') k); [left; reflexivity|right; eexists; reflexivity].
Qed.
Lemma at_synonyms_res l : forall g v, at_synonyms g l v = Err \/ exists x, at_synonyms g l v = Ok x.
Proof.
  induction l as [|s l IH]; intros g v; cbn [at_synonyms]; [right; eexists; reflexivity|].
  destruct (at_synonym_res g s v) as [->|[x ->]]; cbn [obind]; [left; reflexivity|apply IH].
Qed.
Lemma parse_word_res g w : parse_word g w = Err \/ exists x, parse_word g w = Ok x.
Proof.
  unfold parse_word. destruct (forallb _ _); [|left; reflexivity].
  destruct (colons_to_kind _) as [k| | | |] eqn:Q; cbn [obind]; try (left; reflexivity).
  2-4: exfalso; destruct (length w - _)%nat as [|[|[|]]]; discriminate.
  destruct (check_synonyms _); [|left; reflexivity]. unfold at_all_synonyms.
  destruct (sub_strings _ _ _) as [|y ys]; [left; reflexivity|].
  destruct (at_synonym_res g (List.last (y :: ys) []) (VKind k)) as [->|[x ->]]; cbn [obind]; [left; reflexivity|apply at_synonyms_res].
Qed.
Lemma parse_words_bad ws : forall g w, In w ws -> (forall g', parse_word g' w = Err) -> parse_words g ws = Err.
Proof.
  induction ws as [|x ws IH]; intros g w H1 H2; [destruct H1|]. cbn [parse_words]. destruct H1 as [->|H1].
  - rewrite H2. reflexivity.
  - destruct (parse_word_res g x) as [->|[y ->]]; cbn [obind]; [reflexivity|exact (IH y w H1 H2)].
Qed.

Lemma sub_split sep pre : forall cur c rest, sep c = true ->
  sub_strings sep cur (pre ++ c :: rest) = sub_strings sep cur pre ++ sub_strings sep [] rest.
Proof.
  induction pre as [|x pre IH]; intros cur c rest H; cbn [app sub_strings].
  - rewrite H. reflexivity.
  - destruct (sep x); [rewrite IH by exact H; rewrite app_assoc; reflexivity|apply IH; exact H].
Qed.
Lemma word_in w pre post : w <> [] -> Forall (fun c => ~ blank c) w ->
  pre = [] \/ (exists q c, pre = q ++ [c] /\ blank c) -> post = [] \/ (exists c q, post = c :: q /\ blank c) ->
  In w (sub_strings separator [] (pre ++ w ++ post)).
Proof.
  intros N B H1 H2.
  assert (W : Forall (fun c => separator c = false) w).
  { eapply Forall_impl; [|exact B]. intros c Hc. apply Bool.not_true_iff_false. rewrite separator_ok. exact Hc. }
  assert (Q : In w (sub_strings separator [] (w ++ post))).
  { rewrite sub_word by exact W. cbn [app]. rewrite sub_end; [left; reflexivity|exact N|].
    destruct H2 as [->|[c [q [-> H2]]]]; [left; reflexivity|right]. exists c, q. split; [reflexivity|apply separator_ok; exact H2]. }
  destruct H1 as [->|[q [c [-> H1]]]]; [exact Q|]. rewrite <- app_assoc. cbn [app]. rewrite sub_split by (apply separator_ok; exact H1).
  apply in_or_app. right. exact Q.
Qed.

Lemma filter_len {A} (f : A -> bool) l : (length (filter f l) <= length l)%nat.
Proof. induction l as [|x l IH]; cbn [filter length]; [lia|]. destruct (f x); cbn [length]; lia. Qed.
Lemma filter_len_all {A} (f : A -> bool) l : length (filter f l) = length l -> Forall (fun x => f x = true) l.
Proof.
  induction l as [|x l IH]; intro H; [constructor|]. cbn [filter] in H. pose proof (filter_len f l). destruct (f x) eqn:Q; cbn [length] in H.
  - constructor; [exact Q|apply IH; lia].
  - lia.
Qed.

Lemma colons_last g a c b : c <> ":" -> parse_word g (a ++ ":" :: c :: b) = Err.
Proof.
  intro H. unfold parse_word. set (w := a ++ ":" :: c :: b). set (nc := fun c => negb (Ascii.eqb c ":")).
  destruct (forallb (Ascii.eqb ":") (skipn (length (filter nc w)) w)) eqn:Q; [exfalso|reflexivity].
  assert (SP : w = firstn (length (filter nc w)) w ++ skipn (length (filter nc w)) w) by (symmetry; apply firstn_skipn).
  set (n := length (filter nc w)) in *. set (u := firstn n w) in *. set (v := skipn n w) in *.
  assert (V : forall x, In x v -> x = ":").
  { intros x Hx. rewrite forallb_forall in Q. symmetry. apply Ascii.eqb_eq. apply Q. exact Hx. }
  assert (Fv : filter nc v = []).
  { clear - V. induction v as [|x v IH]; [reflexivity|]. cbn [filter]. unfold nc at 1. rewrite (V x (or_introl eq_refl)). cbn.
    apply IH. intros y Hy. apply V. right. exact Hy. }
  assert (Ln : length u = n).
  { unfold u. rewrite firstn_length. pose proof (filter_len nc w). fold n in H0. lia. }
  assert (Fu : length (filter nc u) = length u).
  { rewrite Ln. unfold n. replace (filter nc w) with (filter nc (u ++ v)) by (rewrite <- SP; reflexivity).
    rewrite filter_app, Fv, app_nil_r. reflexivity. }
  apply filter_len_all in Fu. rewrite Forall_forall in Fu.
  assert (X1 : nth_error (u ++ v) (length a) = Some ":").
  { rewrite <- SP. unfold w. rewrite nth_error_app2 by lia. rewrite Nat.sub_diag. reflexivity. }
  assert (X2 : nth_error (u ++ v) (S (length a)) = Some c).
  { rewrite <- SP. unfold w. rewrite nth_error_app2 by lia. replace (S (length a) - length a)%nat with 1%nat by lia. reflexivity. }
  destruct (Nat.lt_ge_cases (S (length a)) (length u)) as [L|L].
  - rewrite nth_error_app1 in X1 by lia. apply nth_error_In in X1. apply Fu in X1. discriminate.
  - rewrite nth_error_app2 in X2 by lia. apply nth_error_In in X2. apply V in X2. contradiction.
Qed.
Lemma colons_many g a : parse_word g (a ++ [":"; ":"; ":"]) = Err.
Proof.
  unfold parse_word. destruct (forallb _ _); [|reflexivity].
  rewrite filter_app. cbn [filter Ascii.eqb Bool.eqb negb]. rewrite app_nil_r, app_length. cbn [length].
  pose proof (filter_len (fun c => negb (Ascii.eqb c ":")) a) as L.
  destruct (length a + 3 - length (filter (fun c => negb (Ascii.eqb c ":")) a))%nat as [|[|[|m]]] eqn:Q; [lia|lia|lia|reflexivity].
Qed.
Lemma sub_first sep c cur s : exists w r, sub_strings sep (c :: cur) s = (c :: w) :: r.
Proof.
  revert cur; induction s as [|x s IH]; intro cur; cbn [sub_strings].
  - cbn. eexists _, _. reflexivity.
  - destruct (sep x); [cbn; eexists _, _; reflexivity|apply (IH (cur ++ [x]))].
Qed.
Lemma no_dash g c r : c <> "-" -> c <> ":" -> c <> "|" -> parse_word g (c :: r) = Err.
Proof.
  intros H1 H2 H3. unfold parse_word. destruct (forallb _ _); [|reflexivity].
  destruct (colons_to_kind _) as [k| | | |] eqn:Q; cbn [obind]; try reflexivity.
  2-4: exfalso; destruct (length (c :: r) - _)%nat as [|[|[|]]]; discriminate.
  replace (filter (fun c0 => negb (c0 =? ":")%char) (c :: r)) with (c :: filter (fun c0 => negb (c0 =? ":")%char) r).
  2:{ cbn [filter]. replace (c =? ":")%char with false by (symmetry; apply Ascii.eqb_neq; exact H2). reflexivity. }
  cbn [sub_strings]. replace ("|" =? c)%char with false by (symmetry; apply Ascii.eqb_neq; congruence). cbn [app].
  destruct (sub_first (Ascii.eqb "|") c [] (filter (fun c0 => negb (c0 =? ":")%char) r)) as [w [r' ->]].
  unfold check_synonyms. cbn [forallb].
  replace (starts_with (c :: w) ["-"]) with false; [reflexivity|]. cbn [starts_with].
  replace (c =? "-")%char with false by (symmetry; apply Ascii.eqb_neq; exact H1). reflexivity.
Qed.

Lemma malformed order w pre post : Forall (fun c => ~ blank c) w -> bad_word w ->
  pre = [] \/ (exists q c, pre = q ++ [c] /\ blank c) -> post = [] \/ (exists c q, post = c :: q /\ blank c) ->
  parse_pattern order (pre ++ w ++ post) = Err.
Proof.
  intros B H H1 H2. unfold parse_pattern.
  rewrite (parse_words_bad _ _ w); [reflexivity| |].
  - apply word_in; try assumption. destruct H as [[a [c [b [-> _]]]]|[[a ->]|[c [r [-> _]]]]]; [destruct a; discriminate|destruct a; discriminate|discriminate].
  - intro g. destruct H as [[a [c [b [-> H]]]]|[[a ->]|[c [r [-> [[P1 [P2 P3]] P4]]]]]].
    + apply colons_last. exact H.
    + apply colons_many.
    + apply no_dash; assumption.
Qed.

(** * Findings *)
Lemma duplicate_bad order : exists T p g,
  pattern_of T p /\ Forall (fun e => fst e <> [] /\ Forall name_ok (fst e)) T /\ ~ NoDup (names T) /\ parse_pattern order p = Ok g.
Proof.
  exists [([KChar "a"], NoArg); ([KChar "a"], MandatoryArg)], (list_ascii_of_string "-a -a:"). eexists. split; [|split; [|split]].
  - apply (po_cons [] ([KChar "a"], NoArg) _ (list_ascii_of_string " -a:")); [constructor| |right; eexists _, _; split; [reflexivity|left; reflexivity]].
    apply (po_cons [" "] ([KChar "a"], MandatoryArg) [] []); [repeat constructor|apply po_nil; constructor|left; reflexivity].
  - assert (N : name_ok (KChar "a")).
    { unfold name_ok, plain, blank. cbn [In]. repeat split; try discriminate. intros [H|[H|[H|[H|[H|[]]]]]]; discriminate. }
    constructor; [split; [discriminate|constructor; [exact N|constructor]]|].
    constructor; [split; [discriminate|constructor; [exact N|constructor]]|constructor].
  - cbn. intro H. apply NoDup_cons_iff in H as [H _]. apply H. left. reflexivity.
  - reflexivity.
Qed.
Lemma twice_bad order : exists T p g args v,
  pattern_of T p /\ is_option T (KChar "a") NoArg (KChar "a") /\ parse_pattern order p = Ok g /\
  parse g args = Go [(Some (KChar "a"), Some v)] tt.
Proof.
  exists [([KChar "a"; KChar "a"], NoArg)], (list_ascii_of_string "-a|-a"). eexists.
  exists [list_ascii_of_string "-ab"], ["b"]. split; [|split; [|split]].
  - apply (po_cons [] ([KChar "a"; KChar "a"], NoArg) [] []); [constructor|apply po_nil; constructor|left; reflexivity].
  - exists [KChar "a"]. split; [left; reflexivity|left; reflexivity].
  - reflexivity.
  - reflexivity.
Qed.
Lemma one_dash_bad order : by_size order -> exists p g,
  (forall T, table_ok T -> ~ pattern_of T p) /\ parse_pattern order p = Ok g /\
  parse g [list_ascii_of_string "--bc"] = Go [(Some (KText (list_ascii_of_string "bc")), None)] tt /\
  parse g [list_ascii_of_string "-abc"] = Fail [].
Proof.
  intro B. exists (list_ascii_of_string "-abc"). eexists. split; [|split; [reflexivity|]].
  - intros T K H. pose proof (pattern_words T _ H K) as Q. change (sub_strings separator [] (list_ascii_of_string "-abc")) with [["-"; "a"; "b"; "c"]] in Q.
    destruct T as [|[l k] [|]]; try discriminate. injection Q as Q. unfold word in Q. cbn [fst snd] in Q.
    destruct K as [F _]. inversion F as [|? ? [F1 _] _]; subst. cbn [fst] in F1.
    destruct l as [|n l]; [contradiction|]. destruct n as [c|t].
    + destruct l as [|m l].
      * destruct k; discriminate.
      * change (bars (map spell (KChar c :: m :: l))) with (["-"; c] ++ "|" :: bars (map spell (m :: l))) in Q. discriminate.
    + destruct l as [|m l].
      * discriminate.
      * change (bars (map spell (KText t :: m :: l))) with (("-" :: "-" :: t) ++ "|" :: bars (map spell (m :: l))) in Q. discriminate.
  - assert (O : order [list_ascii_of_string "bc"] = [list_ascii_of_string "bc"]).
    { destruct (B [list_ascii_of_string "bc"]) as [P _]. apply Permutation_length_1_inv in P. exact P. }
    vm_compute in O. split.
    + vm_compute. rewrite O. reflexivity.
    + reflexivity.
Qed.

(** A way to sort by size. *)
Fixpoint put (t : text) (l : list text) : list text :=
  match l with [] => [t] | u :: r => if (length t <=? length u)%nat then t :: u :: r else u :: put t r end.
Definition sort_by_size (l : list text) : list text := fold_right put [] l.
Definition sized (l : list text) : Prop := forall i j a b, (i < j)%nat -> nth_error l i = Some a -> nth_error l j = Some b -> (length a <= length b)%nat.
Lemma put_perm t l : Permutation (t :: l) (put t l).
Proof.
  induction l as [|u l IH]; cbn; [reflexivity|]. destruct (length t <=? length u)%nat; [reflexivity|].
  rewrite perm_swap. constructor. exact IH.
Qed.
Lemma put_sized t l : sized l -> sized (put t l).
Proof.
  induction l as [|u l IH]; intro H.
  - intros [|i] [|j] a b L A B; cbn in A, B; try lia; try (destruct j; discriminate); try (destruct i; discriminate).
  - assert (Hl : sized l) by (intros i j a b L A B; apply (H (S i) (S j) a b); [lia|exact A|exact B]).
    assert (Hu : forall x, In x l -> (length u <= length x)%nat).
    { intros x Hx. apply In_nth_error in Hx as [j Hj]. apply (H 0%nat (S j) u x); [lia|reflexivity|exact Hj]. }
    cbn [put]. destruct (length t <=? length u)%nat eqn:Q.
    + apply Nat.leb_le in Q. intros [|i] [|j] a b L A B; try lia.
      * cbn [nth_error] in A, B. injection A as <-. apply nth_error_In in B. destruct B as [<-|B]; [exact Q|]. specialize (Hu b B). lia.
      * apply (H i j a b); [lia|exact A|exact B].
    + apply Nat.leb_gt in Q. intros [|i] [|j] a b L A B; try lia.
      * cbn [nth_error] in A, B. injection A as <-. apply nth_error_In in B. apply (Permutation_in _ (Permutation_sym (put_perm t l))) in B.
        destruct B as [<-|B]; [lia|exact (Hu b B)].
      * apply (IH Hl i j a b); [lia|exact A|exact B].
Qed.
Lemma sort_by_size_ok : by_size sort_by_size.
Proof.
  intro l. split.
  - induction l as [|t l IH]; [reflexivity|]. cbn. rewrite <- put_perm. constructor. exact IH.
  - change (sized (sort_by_size l)). induction l as [|t l IH]; [intros [|i] j a b L A B; discriminate|]. cbn. apply put_sized. exact IH.
Qed.
