(** Counterexamples for SortedCollection, and facts about the specification. *)
From Coq Require Import Permutation Sorted.
From Verif Require Import Base OrderColl SortColl SortCollSpec SortCollArr SortCollSort SortCollHeap SortCollMerge SortCollProofs SortCollFind.
Local Open Scope Z_scope.

(** The specification: do: shows an ordered arrangement of the elements that are there. *)
Lemma sstep_ordered {A} (leb : A -> A -> bool) l b m o l' b' :
  sstep leb l b m o l' b' -> (b = true -> in_order leb l) -> b' = true -> in_order leb l'.
Proof.
  assert (Sn : forall x, seen leb l b x -> (b = true -> in_order leb l) -> in_order leb x).
  { intros x H S. unfold seen in H. destruct b; [subst; auto|apply H]. }
  intros H S E. destruct m; cbn [sstep] in H; try (decompose [and] H; subst; discriminate).
  - destruct H as (H & _). auto.
  - destruct H as (-> & H & _). subst b. subst l'. auto.
  - destruct H as (H & _). auto.
  - destruct H as (H & _). auto.
  - destruct H as (_ & -> & ->). auto.
Qed.
Lemma sruns_do {A} (leb : A -> A -> bool) ms : forall l b os v, (b = true -> in_order leb l) ->
  sruns leb l b (ms ++ [MDo]) (os ++ [OList v]) -> length os = length ms ->
  in_order leb v /\ sends leb l b ms v.
Proof.
  induction ms as [|m ms IH]; intros l b os v S H L; destruct os as [|o os]; try discriminate; cbn [app] in H;
    inversion H as [|? ? ? ? ? ? l' b' St Ru]; subst.
  - destruct St as (Sn & _ & E). injection E as ->. unfold seen in Sn. destruct b.
    + subst. split; [auto|]. exists l. split; [apply Permutation_refl|constructor].
    + split; [apply Sn|]. exists l. split; [apply Sn|constructor].
  - cbn [length] in L. destruct (IH l' b' os v) as (H1 & l2 & H2 & H3); [|exact Ru|congruence|].
    + intros E. eapply sstep_ordered; eassumption.
    + split; [exact H1|]. exists l2. split; [exact H2|]. econstructor; eassumption.
Qed.

Lemma do_sorted {A} (nil : A) R leb one n ms : preorder leb -> sort_block leb R -> 0 <= n -> calm false ms = true ->
  exists c os v, sc_new nil n = Ok c /\ shist nil R one (ms ++ [MDo]) c = Ok (os ++ [OList v]) /\ in_order leb v /\ sends leb [] false ms v.
Proof.
  intros (T & Tr) Rs N C.
  assert (C' : calm false (ms ++ [MDo]) = true).
  { clear N. revert C. generalize false. induction ms as [|m ms IH]; intros d C; [destruct d; reflexivity|].
    destruct m; cbn [app calm] in *; auto; apply andb_prop in C as (-> & C); cbn [andb]; auto. }
  destruct (new_ok nil R leb one T Tr Rs n _ N C') as (c & os & E1 & E2 & E3). exists c.
  assert (X : exists os' v, os = os' ++ [OList v] /\ length os' = length ms).
  { clear E1 E2 C C'. revert os E3. generalize (@Datatypes.nil A) as l, false as b.
    induction ms as [|m ms IH]; intros l b os H; inversion H as [|? ? ? ? ? ? l' b' St Ru]; subst.
    - destruct St as (_ & _ & ->). inversion Ru; subst. exists [], l'. auto.
    - destruct (IH _ _ _ Ru) as (os' & v & -> & L). exists (o :: os'), v. cbn. auto. }
  destruct X as (os' & v & -> & L). exists os', v. split; [exact E1|]. split; [exact E2|].
  apply (sruns_do leb ms [] false os' v); [discriminate|exact E3|exact L].
Qed.

Lemma history_includes {A} (nil : A) R leb one eqb n ms x : preorder leb -> sort_block leb R ->
  (forall a b, eqb a b = true -> leb a b = true /\ leb b a = true) -> 0 <= n -> calm false ms = true ->
  exists c c1 c2 m, sc_new nil n = Ok c /\ sfinal nil R one ms c = Ok c1 /\ sends leb [] false ms m /\
    includes nil R one eqb x c1 = Ok (c2, existsb (eqb x) m).
Proof.
  intros (T & Tr) Rs Eq N C. unfold sc_new. replace (n <? 0) with false by lia. eexists.
  destruct (history_good nil R leb one T Tr Rs ms (initIndices (repeat nil (Z.to_nat n))) [] false false) as (c1 & m & E & G & S).
  - exists []. split; [apply (init_good nil leb one T Tr)|apply Permutation_refl].
  - intros _. apply (init_good nil leb one T Tr).
  - exact C.
  - destruct (includes_ok nil R leb one eqb T Tr Rs Eq c1 m x G) as (c2 & E2). exists c1, c2, m. auto.
Qed.
Lemma history_indexOf {A} (nil : A) R leb one eqb n ms x index : preorder leb -> sort_block leb R ->
  (forall a b, eqb a b = true <-> leb a b = true /\ leb b a = true) -> 0 <= n -> calm false ms = true ->
  exists c c1 m, sc_new nil n = Ok c /\ sfinal nil R one ms c = Ok c1 /\ sends leb [] false ms m /\
    (1 <= index <= Z.of_nat (length m) -> exists c2 m' r,
      indexOf nil R one eqb x index c1 = Ok (c2, Some r) /\ Permutation m m' /\ in_order leb m' /\ first_place (eqb x) m' index r) /\
    (index < 1 \/ Z.of_nat (length m) < index ->
      indexOf nil R one eqb x index c1 = Ok (c1, if index =? Z.of_nat (length m) + 1 then Some None else None)).
Proof.
  intros (T & Tr) Rs Eq N C. unfold sc_new. replace (n <? 0) with false by lia. eexists.
  destruct (history_good nil R leb one T Tr Rs ms (initIndices (repeat nil (Z.to_nat n))) [] false false) as (c1 & m & E & G & S).
  - exists []. split; [apply (init_good nil leb one T Tr)|apply Permutation_refl].
  - intros _. apply (init_good nil leb one T Tr).
  - exact C.
  - exists c1, m. split; [reflexivity|]. split; [exact E|]. split; [exact S|]. split; [intros Ix|].
    { apply (indexOf_ok nil R leb one eqb T Tr Rs); [intros a b; apply Eq|exact Eq|exact G|exact Ix]. }
    intros Ix. unfold indexOf. replace (count c1) with (Z.of_nat (length m)).
    2:{ unfold count, size. destruct G as (p & q & B & _). rewrite B. cbn [firstIndex lastIndex]. lia. }
    replace ((index <? 1) || (Z.of_nat (length m) <? index)) with true by lia. reflexivity.
Qed.

(** ** Counterexamples, on SmallIntegers and with the default sort block. *)
Lemma not_ordered (l : list Z) a b u v w : l = u ++ a :: v ++ b :: w -> b < a -> ~ in_order Z.leb l.
Proof.
  intros -> H S. induction u as [|x u IH]; cbn [app] in S; inversion S as [|? ? S' F]; subst; [|auto].
  rewrite Forall_forall in F. specialize (F b ltac:(apply in_or_app; right; left; reflexivity)). lia.
Qed.
Lemma add_after_removeLast one : exists n ms c os v, sc_new 0 n = Ok c /\
  shist 0 Z.leb one (ms ++ [MDo]) c = Ok (os ++ [OList v]) /\ ~ in_order Z.leb v.
Proof.
  exists 10, [MAddAll [3; 1; 2; 4]; MFirst; MRemoveLast; MAdd 0].
  eexists. exists [OList [3; 1; 2; 4]; OElt (Some 1); OElt (Some 4); OElt (Some 0)], [1; 2; 3; 0].
  split; [reflexivity|]. split; [reflexivity|]. apply (not_ordered _ 3 0 [1; 2] [] []); [reflexivity|lia].
Qed.

(** The collection with the given elements. *)
Definition holding (R : Z -> Z -> bool) (one : Z -> Z -> bool) (l : list Z) (c : @sc Z) : Prop :=
  exists c0, sc_new 0 10 = Ok c0 /\ sfinal 0 R one [MAddAll l] c0 = Ok c.
Lemma occurrences_wrong one : exists l c c' k, holding Z.leb one l c /\ occurrencesOf 0 Z.leb one Z.eqb 3 c = Ok (c', k) /\
  k <> Z.of_nat (length (filter (Z.eqb 3) l)).
Proof.
  exists [3]. do 3 eexists. split; [eexists; split; reflexivity|]. split; [reflexivity|]. discriminate.
Qed.
(** Sorts by the tens. *)
Definition tens (a b : Z) : bool := a / 10 <=? b / 10.
Lemma tens_preorder : preorder tens.
Proof.
  split; unfold tens; intros; rewrite !Z.leb_le in *; lia.
Qed.
Lemma indexOf_wrong one : exists l c c1 c2 j k, holding tens one l c /\
  indexOf 0 tens one Z.eqb 10 1 c = Ok (c1, Some (Some j)) /\ 1 <= k < j /\ at_ 0 tens one k c1 = Ok (c2, Some 10).
Proof.
  exists [10; 11; 10; 11; 10]. do 3 eexists. exists 3, 1. split; [eexists; split; reflexivity|]. split; [reflexivity|].
  split; [lia|]. reflexivity.
Qed.
Lemma put_unordered one : exists l c c1 c2 v, holding Z.leb one l c /\ at_put 0 Z.leb one 1 9 c = Ok (c1, Some tt) /\
  do_all 0 Z.leb one c1 = Ok (c2, v) /\ ~ in_order Z.leb v.
Proof.
  exists [1; 2; 3]. do 3 eexists. exists [9; 2; 3]. split; [eexists; split; reflexivity|]. split; [reflexivity|].
  split; [reflexivity|]. apply (not_ordered _ 9 2 [] [] [3]); [reflexivity|lia].
Qed.
Lemma last_of_none one : exists c c', sc_new 0 10 = Ok c /\ count c = 0 /\ SortColl.last 0 Z.leb one c = Ok (c', Some 0).
Proof. do 2 eexists. split; [reflexivity|]. split; reflexivity. Qed.

Lemma includes_wrong one : exists n ms c c1 c2 c3 x v, sc_new 0 n = Ok c /\ sfinal 0 Z.leb one ms c = Ok c1 /\
  do_all 0 Z.leb one c1 = Ok (c2, v) /\ In x v /\ includes 0 Z.leb one Z.eqb x c1 = Ok (c3, false).
Proof.
  exists 10, [MAddAll [3; 1; 2; 4]; MFirst; MRemoveLast; MAdd 0].
  do 4 eexists. exists 0, [1; 2; 3; 0]. split; [reflexivity|]. split; [reflexivity|]. split; [reflexivity|].
  split; [cbn; auto 10|]. reflexivity.
Qed.
