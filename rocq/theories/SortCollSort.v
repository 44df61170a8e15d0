(** The quicksort of SortedCollection sorts, for strict and non-strict sort blocks. *)
From Coq Require Import Permutation.
From Verif Require Import Base Hashed HashedProofs Replace OrderColl SortColl SortCollArr.
Local Open Scope Z_scope.

Section Sort.
  Context {A : Type} (nil : A) (R leb : A -> A -> bool).
  Hypothesis total : forall x y, leb x y = true \/ leb y x = true.
  Hypothesis trans : forall x y z, leb x y = true -> leb y z = true -> leb x z = true.
  Hypothesis R_spec : (forall x y, R x y = leb x y) \/ (forall x y, R x y = negb (leb y x)).
  Implicit Types (s : list A).
  Local Notation len l := (Z.of_nat (length l)).
  Local Notation get := (get nil).
  Local Notation "x <== y" := (leb x y = true) (at level 70).

  Lemma R_true x y : R x y = true -> x <== y.
  Proof.
    destruct R_spec as [E|E]; rewrite E; [auto|]. intros H. destruct (total x y) as [T|T]; [auto|].
    rewrite T in H. discriminate.
  Qed.
  Lemma R_false x y : R x y = false -> y <== x.
  Proof.
    destruct R_spec as [E|E]; rewrite E; intros H.
    - destruct (total x y) as [T|T]; congruence.
    - destruct (leb y x); [reflexivity|discriminate].
  Qed.
  Lemma leb_refl x : x <== x.
  Proof. destruct (total x x); auto. Qed.

  Definition srange s (f l : Z) : Prop := forall i j, f <= i -> i <= j -> j <= l -> get s i <== get s j.

  Lemma swapIfAfter_ok s i j : 1 <= i <= len s -> 1 <= j <= len s ->
    swapIfAfter nil R s i j = Ok (if R (get s i) (get s j) then s else swapped nil s i j).
  Proof.
    intros I J. unfold swapIfAfter. rewrite !at_ok by assumption. cbn [obind].
    destruct (R _ _); [reflexivity|]. rewrite put_ok by assumption. cbn [obind].
    apply put_ok. rewrite put_length. exact J.
  Qed.
  (** The result of basicSwap:ifAfter:. *)
  Definition sia s i j := if R (get s i) (get s j) then s else swapped nil s i j.
  Lemma sia_length s i j : length (sia s i j) = length s.
  Proof. unfold sia. destruct (R _ _); [reflexivity|apply swapped_length]. Qed.
  Lemma sia_rperm s i j f l : 1 <= i <= len s -> 1 <= j <= len s -> f <= i <= l -> f <= j <= l ->
    rperm nil f l s (sia s i j).
  Proof.
    intros. unfold sia. destruct (R _ _); [apply rperm_refl|apply swapped_rperm; assumption].
  Qed.
  Lemma sia_le s i j : 1 <= i <= len s -> 1 <= j <= len s -> i <> j -> get (sia s i j) i <== get (sia s i j) j.
  Proof.
    intros I J N. unfold sia. destruct (R _ _) eqn:E; [apply R_true, E|].
    rewrite !swapped_get by lia. rewrite !Z.eqb_refl. destruct (Z.eqb_spec i j); [lia|]. apply R_false, E.
  Qed.
  Lemma sia_other s i j k : 1 <= i <= len s -> 1 <= j <= len s -> 1 <= k -> k <> i -> k <> j ->
    get (sia s i j) k = get s k.
  Proof.
    intros I J K N M. unfold sia. destruct (R _ _); [reflexivity|]. rewrite swapped_get by lia.
    destruct (Z.eqb_spec k j); [lia|]. destruct (Z.eqb_spec k i); [lia|reflexivity].
  Qed.

  Lemma scanUp_ok s p l : l <= len s -> forall fuel i, 1 <= i <= l + 1 -> l - i < Z.of_nat fuel ->
    exists j, scanUp nil R fuel s p l i = Ok j /\ i <= j <= l + 1 /\
      (forall k, i <= k < j -> R (get s k) p = true) /\ (j = l + 1 \/ R (get s j) p = false).
  Proof.
    intros L. induction fuel as [|n IH]; intros i I F.
    - exists i. cbn [scanUp]. destruct (Z.leb_spec i l); [lia|]. split; [reflexivity|]. split; [lia|]. split; [lia|left; lia].
    - cbn [scanUp]. destruct (Z.leb_spec i l) as [H|H].
      + rewrite at_ok by lia. cbn [obind]. destruct (R (get s i) p) eqn:E.
        * destruct (IH (i + 1)) as (j & Ej & B & U & V); [lia|lia|]. exists j. split; [exact Ej|]. split; [lia|].
          split; [|exact V]. intros k K. destruct (Z.eq_dec k i) as [->|]; [exact E|apply U; lia].
        * exists i. split; [reflexivity|]. split; [lia|]. split; [lia|right; exact E].
      + exists i. split; [reflexivity|]. split; [lia|]. split; [lia|left; lia].
  Qed.
  Lemma scanDown_ok s p f : 1 <= f -> forall fuel i, f - 1 <= i <= len s -> i - f < Z.of_nat fuel ->
    exists j, scanDown nil R fuel s p f i = Ok j /\ f - 1 <= j <= i /\
      (forall k, j < k <= i -> R p (get s k) = true) /\ (j = f - 1 \/ R p (get s j) = false).
  Proof.
    intros L. induction fuel as [|n IH]; intros i I F.
    - exists i. cbn [scanDown]. destruct (Z.leb_spec f i); [lia|]. split; [reflexivity|]. split; [lia|]. split; [lia|left; lia].
    - cbn [scanDown]. destruct (Z.leb_spec f i) as [H|H].
      + rewrite at_ok by lia. cbn [obind]. destruct (R p (get s i)) eqn:E.
        * destruct (IH (i - 1)) as (j & Ej & B & U & V); [lia|lia|]. exists j. split; [exact Ej|]. split; [lia|].
          split; [|exact V]. intros k K. destruct (Z.eq_dec k i) as [->|]; [exact E|apply U; lia].
        * exists i. split; [reflexivity|]. split; [lia|]. split; [lia|right; exact E].
      + exists i. split; [reflexivity|]. split; [lia|]. split; [lia|left; lia].
  Qed.

  Lemma partition_ok p f l : 1 <= f -> forall fuel s sm lg, l <= len s ->
    f <= sm -> sm <= lg + 1 -> lg <= l -> lg - sm < Z.of_nat fuel ->
    (forall k, f <= k < sm -> get s k <== p) -> (forall k, lg < k <= l -> p <== get s k) ->
    exists s' i j, partition nil R fuel s p f l sm lg = Ok (s', i, j) /\ rperm nil f l s s' /\
      j <= i /\ sm <= i <= l + 1 /\ f - 1 <= j <= lg /\
      (forall k, f <= k < i -> get s' k <== p) /\ (forall k, j < k <= l -> p <== get s' k) /\
      (i = l + 1 \/ R (get s' i) p = false) /\ (j = f - 1 \/ R p (get s' j) = false) /\
      ((sm < i /\ j < lg) \/
       (s' = s /\ (forall k, sm <= k < i -> R (get s k) p = true) /\ (forall k, j < k <= lg -> R p (get s k) = true))).
  Proof.
    intros F. induction fuel as [|n IH]; intros s sm lg L B1 B2 B3 Fu U V;
      destruct (scanUp_ok s p l L (length s) sm) as (i & Ei & Bi & Ui & Wi); [lia|lia| |lia|lia|];
      (destruct (scanDown_ok s p f F (length s) lg) as (j & Ej & Bj & Uj & Wj); [lia|lia|]);
      cbn [partition]; rewrite Ei; cbn [obind]; rewrite Ej; cbn [obind].
    all: assert (U' : forall k, f <= k < i -> get s k <== p)
        by (intros k K; destruct (Z.lt_ge_cases k sm); [apply U; lia|apply R_true, Ui; lia]).
    all: assert (V' : forall k, j < k <= l -> p <== get s k)
        by (intros k K; destruct (Z.lt_ge_cases lg k); [apply V; lia|apply R_true, Uj; lia]).
    - destruct (Z.ltb_spec i j); [lia|]. exists s, i, j. split; [reflexivity|]. split; [apply rperm_refl|].
      repeat (split; [first [lia|assumption]|]). right. auto.
    - destruct (Z.ltb_spec i j) as [H|H].
      + rewrite swap_ok by lia. cbn [obind].
        assert (Rp : rperm nil f l s (swapped nil s i j)) by (apply swapped_rperm; lia).
        destruct (IH (swapped nil s i j) (i + 1) (j - 1)) as (s' & i' & j' & E & Rp' & C1 & C2 & C3 & C4 & C5 & C6 & C7 & C8);
          [rewrite swapped_length; lia|lia|lia|lia|lia| | |].
        * intros k K. rewrite swapped_get by lia. destruct (Z.eqb_spec k j); [lia|].
          destruct (Z.eqb_spec k i) as [->|]; [|apply U'; lia].
          destruct Wj as [Wj|Wj]; [lia|]. apply R_false, Wj.
        * intros k K. rewrite swapped_get by lia. destruct (Z.eqb_spec k j) as [->|].
          -- destruct Wi as [Wi|Wi]; [lia|]. apply R_false, Wi.
          -- destruct (Z.eqb_spec k i); [lia|]. apply V'; lia.
        * exists s', i', j'. split; [exact E|]. split; [eapply rperm_trans; eassumption|].
          repeat (split; [first [lia|assumption]|]). left. lia.
      + exists s, i, j. split; [reflexivity|]. split; [apply rperm_refl|].
        repeat (split; [first [lia|assumption]|]). right. auto.
  Qed.

  (** The element in the middle is a least one. *)
  Definition minimal s (f l : Z) : Prop := forall k, f <= k <= l -> get s ((f + l) / 2) <== get s k.

  Lemma sortFrom_ok : forall fuel s f l, 1 <= f -> l <= len s ->
    2 * (l - f + 1) + 1 <= Z.of_nat fuel \/ (minimal s f l /\ 2 * (l - f + 1) <= Z.of_nat fuel) ->
    exists s', sortFrom nil R fuel s f l = Ok s' /\ rperm nil f l s s' /\ srange s' f l.
  Proof.
    induction fuel as [|n IH]; intros s f l F L Fu.
    - cbn [sortFrom]. destruct (Z.ltb_spec (l - f) 2) as [H|H]; [|lia].
      destruct (Z.ltb_spec f l); [lia|].
      exists s. split; [reflexivity|]. split; [apply rperm_refl|]. intros i j I J K. replace j with i by lia. apply leb_refl.
    - cbn [sortFrom]. destruct (Z.ltb_spec (l - f) 2) as [H|H].
      + destruct (Z.ltb_spec f l).
        * rewrite swapIfAfter_ok by lia. fold (sia s f l). eexists. split; [reflexivity|].
          split; [apply sia_rperm; lia|]. intros i j I J K.
          destruct (Z.eq_dec i j) as [->|]; [apply leb_refl|]. replace i with f by lia. replace j with l by lia.
          apply sia_le; lia.
        * exists s. split; [reflexivity|]. split; [apply rperm_refl|]. intros i j I J K. replace j with i by lia. apply leb_refl.
      + set (m := (f + l) / 2). assert (M : f < m < l) by (unfold m; lia).
        rewrite (swapIfAfter_ok s f m) by lia. cbn [obind]. fold (sia s f m). set (s1 := sia s f m).
        assert (L1 : length s1 = length s) by apply sia_length.
        rewrite (swapIfAfter_ok s1 m l) by lia. cbn [obind]. fold (sia s1 m l). set (s2 := sia s1 m l).
        assert (L2 : length s2 = length s) by (unfold s2; rewrite sia_length; exact L1).
        rewrite (swapIfAfter_ok s2 f l) by lia. cbn [obind]. fold (sia s2 f l). set (s3 := sia s2 f l).
        assert (L3 : length s3 = length s) by (unfold s3; rewrite sia_length; exact L2).
        assert (P1 : rperm nil f l s s1) by (apply sia_rperm; lia).
        assert (P2 : rperm nil f l s1 s2) by (apply sia_rperm; lia).
        assert (P3 : rperm nil f l s2 s3) by (apply sia_rperm; lia).
        rewrite at_ok by lia. cbn [obind]. set (p := get s3 m).
        assert (Gm : get s3 m = get s2 m) by (apply sia_other; lia).
        assert (PL : p <== get s3 l).
        { unfold p. rewrite Gm. assert (X : get s2 m <== get s2 l) by (apply sia_le; lia).
          unfold s3, sia. destruct (R (get s2 f) (get s2 l)) eqn:E; [exact X|].
          rewrite swapped_get by lia. rewrite Z.eqb_refl. apply (trans _ (get s2 l)); [exact X|]. apply R_false, E. }
        assert (Mf : minimal s f l -> (forall x y, R x y = leb x y) -> R (get s3 f) p = true).
        { intros Mi NS. unfold minimal in Mi. fold m in Mi.
          assert (X1 : forall k, f <= k <= l -> get s1 f <== get s k).
          { intros k K. unfold s1, sia. destruct (R (get s f) (get s m)) eqn:E.
            - apply (trans _ (get s m)); [apply R_true, E|apply Mi; lia].
            - rewrite swapped_get by lia. destruct (Z.eqb_spec f m); [lia|]. rewrite Z.eqb_refl. apply Mi; lia. }
          assert (X2 : get s2 f = get s1 f) by (apply sia_other; lia).
          assert (P12 : rperm nil f l s s2) by (eapply rperm_trans; eassumption).
          assert (X3 : s3 = s2).
          { unfold s3, sia. rewrite NS, X2.
            destruct (rperm_src nil f l s s2 l P12 F L ltac:(lia)) as (k & K & ->). rewrite X1 by lia. reflexivity. }
          unfold p. rewrite X3, X2, NS. destruct (rperm_src nil f l s s2 m P12 F L ltac:(lia)) as (k & K & ->).
          apply X1; lia. }
        destruct (partition_ok p f l F (length s3) s3 f l) as (s4 & i & j & E4 & P4 & C1 & C2 & C3 & C4 & C5 & C6 & C7 & C8);
          [lia|lia|lia|lia|lia|lia|lia|]. rewrite E4. cbn [obind].
        assert (L4 : length s4 = length s) by (rewrite (rperm_length nil _ _ _ _ P4); exact L3).
        assert (P04 : rperm nil f l s s4).
        { eapply rperm_trans; [exact P1|]. eapply rperm_trans; [exact P2|]. eapply rperm_trans; [exact P3|]. exact P4. }
        set (i' := if j <? i then i else i + 1). set (j' := if j <? i then j else j - 1).
        replace (if j <? i then (i, j) else (i + 1, j - 1)) with (i', j') by (unfold i', j'; destruct (j <? i); reflexivity).
        cbv iota beta. unfold obind at 1.
        assert (D : j' < i' /\ f <= i' <= l + 1 /\ f - 1 <= j' /\
                  (forall k, f <= k < i' -> get s4 k <== p) /\ (forall k, j' < k <= l -> p <== get s4 k)).
        { unfold i', j'. destruct (Z.ltb_spec j i) as [J|J]; [repeat (split; [first [lia|assumption]|]); assumption|].
          assert (i = j) as <- by lia.
          destruct C6 as [C6|C6]; [lia|]. destruct C7 as [C7|C7]; [lia|].
          split; [lia|]. split; [lia|]. split; [lia|]. split; intros k K.
          - destruct (Z.eq_dec k i) as [->|]; [apply R_false, C7|apply C4; lia].
          - destruct (Z.eq_dec k i) as [->|]; [apply R_false, C6|apply C5; lia]. }
        destruct D as (D1 & D2 & D3 & D4 & D5).
        (* progress *)
        assert (G : j' < l /\ (f < i' \/ (i' = f /\ j' < f /\ s4 = s3 /\ (forall k, f <= k <= l -> p <== get s3 k) /\
                     R (get s3 f) p = false /\ forall x y, R x y = leb x y))).
        { destruct C8 as [C8|(-> & C8 & C9)].
          - unfold i', j'. destruct (j <? i); lia.
          - destruct R_spec as [NS|ST].
            + assert (j < l).
              { destruct (Z.eq_dec j l) as [->|]; [|lia]. destruct C7 as [C7|C7]; [lia|]. rewrite NS in C7. congruence. }
              split; [unfold j'; destruct (j <? i); lia|].
              destruct (Z.eq_dec i f) as [->|]; [|left; unfold i'; destruct (j <? i); lia].
              destruct C6 as [C6|C6]; [lia|].
              destruct (Z.ltb_spec j f) as [J|J].
              * right. unfold i', j'. replace (j <? f) with true by lia. repeat (split; [first [lia|reflexivity]|]).
                split; [intros k K; apply C5; lia|]. split; [exact C6|exact NS].
              * left. unfold i'. replace (j <? f) with false by lia. lia.
            + assert (Rpp : R p p = false) by (rewrite ST, leb_refl; reflexivity).
              assert (i <= m). { destruct (Z.le_gt_cases i m) as [|X]; [assumption|]. specialize (C8 m ltac:(lia)). fold p in C8. congruence. }
              assert (m <= j). { destruct (Z.le_gt_cases m j) as [|X]; [assumption|]. specialize (C9 m ltac:(lia)). fold p in C9. congruence. }
              unfold i', j'. replace (j <? i) with false by lia. lia. }
        destruct G as (G1 & G2).
        (* left part *)
        assert (E5 : exists s5, (if f <? j' then sortFrom nil R n s4 f j' else Ok s4) = Ok s5 /\ rperm nil f j' s4 s5 /\ srange s5 f j').
        { destruct (Z.ltb_spec f j').
          - apply (IH s4 f j'); [lia|lia|]. left. lia.
          - exists s4. split; [reflexivity|]. split; [apply rperm_refl|]. intros a b I J K. replace b with a by lia. apply leb_refl. }
        destruct E5 as (s5 & E5 & P5 & S5). rewrite E5. cbn [obind]. clear E5.
        assert (L5 : length s5 = length s) by (rewrite (rperm_length nil _ _ _ _ P5); exact L4).
        assert (E6 : exists s6, (if i' <? l then sortFrom nil R n s5 i' l else Ok s5) = Ok s6 /\ rperm nil i' l s5 s6 /\ srange s6 i' l).
        { destruct (Z.ltb_spec i' l).
          - apply (IH s5 i' l); [lia|lia|].
            destruct G2 as [G2|(-> & J' & X4 & X5 & X6 & X7)]; [left; lia|].
            destruct Fu as [Fu|(Fu & _)].
            + right. split; [|lia]. assert (s5 = s4) as ->.
              { apply (get_ext nil); [lia|]. intros k K. apply (rperm_out nil f j'); [exact P5|lia|lia]. }
              rewrite X4. intros k K. fold m. apply X5; lia.
            + specialize (Mf Fu X7). congruence.
          - exists s5. split; [reflexivity|]. split; [apply rperm_refl|]. intros a b I J K. replace b with a by lia. apply leb_refl. }
        destruct E6 as (s6 & E6 & P6 & S6). exists s6. split; [exact E6|].
        split.
        { eapply rperm_trans; [exact P04|]. eapply rperm_trans; eapply rperm_mono; [exact P5|lia|lia|exact P6|lia|lia]. }
        (* order *)
        assert (A1 : forall k, f <= k <= j' -> get s5 k <== p).
        { apply (rperm_all nil f j' s4 s5 (fun x => x <== p) P5); [lia|lia|]. intros k K. apply D4; lia. }
        assert (A2 : forall k, i' <= k <= l -> p <== get s6 k).
        { apply (rperm_all nil i' l s5 s6 (fun x => p <== x) P6); [lia|lia|]. intros k K.
          rewrite (rperm_out nil _ _ _ _ k P5) by lia. apply D5; lia. }
        intros a b B1 B2 B3.
        destruct (Z.le_gt_cases b j') as [X|X].
        * rewrite !(rperm_out nil _ _ _ _ _ P6) by lia. apply S5; lia.
        * destruct (Z.le_gt_cases i' a) as [Y|Y]; [apply S6; lia|].
          apply (trans _ p).
          -- rewrite (rperm_out nil _ _ _ _ a P6) by lia. destruct (Z.le_gt_cases a j'); [apply A1; lia|].
             rewrite (rperm_out nil _ _ _ _ a P5) by lia. apply D4; lia.
          -- destruct (Z.le_gt_cases i' b); [apply A2; lia|].
             rewrite (rperm_out nil _ _ _ _ b P6) by lia. rewrite (rperm_out nil _ _ _ _ b P5) by lia. apply D5; lia.
  Qed.
  Lemma sort_store_ok s f l : 1 <= f -> l <= len s ->
    exists s', sort_store nil R s f l = Ok s' /\ rperm nil f l s s' /\ srange s' f l.
  Proof.
    intros F L. unfold sort_store. destruct (Z.le_gt_cases f (l + 1)).
    - apply sortFrom_ok; [exact F|exact L|]. left. lia.
    - exists s. split; [|split; [apply rperm_refl|intros i j; lia]].
      destruct (2 * length s + 2)%nat; cbn [sortFrom]; replace (l - f <? 2) with true by lia; replace (f <? l) with false by lia; reflexivity.
  Qed.
End Sort.
