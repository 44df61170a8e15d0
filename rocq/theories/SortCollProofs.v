(** A SortedCollection refines an ordered multiset, as long as nothing is added after removeLast. *)
From Coq Require Import Permutation Sorted.
From Verif Require Import Base Hashed HashedProofs Replace OrderColl OrderCollProofs SortColl SortCollSpec SortCollArr SortCollSort SortCollHeap SortCollMerge.
Local Open Scope Z_scope.

Section Proofs.
  Context {A : Type} (nil : A) (R leb : A -> A -> bool) (one : Z -> Z -> bool).
  Hypothesis total : forall x y, leb x y = true \/ leb y x = true.
  Hypothesis trans : forall x y z, leb x y = true -> leb y z = true -> leb x z = true.
  Hypothesis R_spec : (forall x y, R x y = leb x y) \/ (forall x y, R x y = negb (leb y x)).
  Implicit Types (s p q m a b l : list A) (c : @sc A).
  Local Notation len l := (Z.of_nat (length l)).
  Local Notation get := (get nil).
  Local Notation "x <== y" := (leb x y = true) (at level 70).
  Local Notation srange := (srange nil leb).
  Local Notation heap := (heap nil leb).
  Local Notation get_mid := (get_mid nil leb total trans).
  Local Notation SS := (in_order leb).

  Lemma heap_eq s d d' n n' : heap s d 1 n -> d = d' -> n = n' -> heap s d' 1 n'.
  Proof. intros H -> ->. exact H. Qed.
  (** [c] contains [m]; up to lastOrdered it is in order or a heap. *)
  Definition good c m : Prop :=
    exists p q, base c = OC (len p + 1) (len p + len m) (p ++ m ++ q) /\
      (m = [] -> p = [] /\ lastOrdered c = 0) /\ 0 <= lastOrdered c /\
      (if sorted c then len p <= lastOrdered c /\ srange (p ++ m ++ q) (len p + 1) (Z.min (lastOrdered c) (len p + len m))
       else lastOrdered c <= len p + len m /\ heap (p ++ m ++ q) (len p) 1 (lastOrdered c - len p)).
  Definition fresh c : Prop := lastOrdered c <= last_ c.

  (** All the elements are accounted for by lastOrdered. *)
  Definition settled c m : Prop := sorted c = true /\ (m = [] \/ last_ c <= lastOrdered c) /\ SS m.

  Lemma order_ok c m : good c m -> exists c' m', order nil R one c = Ok c' /\ good c' m' /\ Permutation m m' /\
    lastOrdered c' = last_ c' /\ (if sorted c' then SS m' else True) /\ sorted c' = sorted c /\ (settled c m -> m' = m).
  Proof.
    intros (p & q & B & E & L & H). unfold order, last_, first_. rewrite B. cbn [lastIndex firstIndex].
    destruct (Z.eqb_spec (lastOrdered c) (len p + len m)) as [N|N].
    - exists c, m. split; [reflexivity|]. split; [exists p, q; auto|]. split; [apply Permutation_refl|].
      rewrite B. cbn [lastIndex]. split; [exact N|]. split; [|auto].
      destruct (sorted c); [|exact Logic.I]. destruct H as (_ & H). rewrite N, Z.min_id in H. apply srange_SS in H; assumption.
    - destruct (sorted c) eqn:So.
      + destruct H as (H1 & H2). unfold merge, last_, first_. rewrite B. cbn [lastIndex firstIndex store].
        destruct (Z.le_gt_cases (lastOrdered c) (len p + len m)) as [F|F].
        * destruct (split_at m (Z.to_nat (lastOrdered c - len p))) as (a & u & -> & La); [lia|].
          rewrite Z.min_l in H2 by lia.
          assert (Sa : SS a).
          { replace (lastOrdered c) with (len p + len a) in H2 by lia. rewrite <- app_assoc in H2. apply srange_SS in H2; assumption. }
          destruct (merge_mid nil R leb total trans R_spec p a u q Sa) as (m' & Em & Sm & Pm).
          replace (lastOrdered c) with (len p + len a) by lia. rewrite Em. cbn [obind].
          eexists _, m'. split; [reflexivity|]. pose proof (Permutation_length Pm) as Lm.
          split.
          { exists p, q. unfold last_, first_. cbn [base lastOrdered sorted lastIndex firstIndex]. rewrite <- Lm.
            split; [reflexivity|]. split; [|].
            { intros ->. destruct (E) as (-> & E'); [destruct (a ++ u); [reflexivity|discriminate]|].
              split; [reflexivity|]. cbn in Lm. cbn [length]. lia. }
            split; [lia|]. split; [lia|]. rewrite Z.min_id, Lm. apply (srange_SS nil leb total trans). exact Sm. }
          split; [exact Pm|]. unfold last_. cbn [lastOrdered base lastIndex sorted]. split; [reflexivity|]. split; [exact Sm|].
          split; [reflexivity|]. unfold settled, last_. rewrite B. cbn [lastIndex]. intros (_ & [X|X] & _); [|lia].
          destruct a, u; try discriminate. apply Permutation_nil in Pm. subst m'. reflexivity.
        * rewrite (merge_none nil R leb total trans) by lia. cbn [obind]. rewrite Z.min_r in H2 by lia.
          eexists _, m. split; [reflexivity|].
          split.
          { exists p, q. unfold last_, first_. cbn [base lastOrdered sorted lastIndex firstIndex].
            split; [reflexivity|]. split; [|].
            { intros ->. destruct (E eq_refl) as (-> & E'). split; [reflexivity|]. cbn. reflexivity. }
            split; [lia|]. split; [lia|]. rewrite Z.min_id. exact H2. }
          split; [apply Permutation_refl|]. unfold last_. cbn [lastOrdered base lastIndex sorted].
          split; [reflexivity|]. split; [apply srange_SS in H2; assumption|]. split; [reflexivity|auto].
      + destruct H as (H1 & H2). unfold makeHeap, last_, first_. rewrite B. cbn [lastIndex firstIndex store].
        assert (X : exists s', (if one (len p + len m - lastOrdered c) (size (OC (len p + 1) (len p + len m) (p ++ m ++ q)))
                    then ups nil R (Z.to_nat (len p + len m - lastOrdered c)) (p ++ m ++ q) (len p + 1) (lastOrdered c)
                    else buildHeap nil R (p ++ m ++ q) (len p + 1) (len p + len m)) = Ok s' /\
                  rperm nil (len p + 1) (len p + len m) (p ++ m ++ q) s' /\ heap s' (len p) 1 (len m)).
        { destruct (one _ _).
          - destruct (ups_ok nil R leb total trans R_spec (len p + 1) ltac:(lia) (Z.to_nat (len p + len m - lastOrdered c)) (p ++ m ++ q) (lastOrdered c))
              as (s' & E' & P' & H'); [lia|rewrite !app_length; lia| |].
            + eapply heap_eq; [exact H2|lia|lia].
            + exists s'. split; [exact E'|].
              replace (lastOrdered c + Z.of_nat (Z.to_nat (len p + len m - lastOrdered c))) with (len p + len m) in P', H' by lia.
              split; [exact P'|]. eapply heap_eq; [exact H'|lia|lia].
          - destruct (buildHeap_ok nil R leb total trans R_spec (p ++ m ++ q) (len p + 1) (len p + len m))
              as (s' & E' & P' & H'); [lia|lia|rewrite !app_length; lia|].
            exists s'. split; [exact E'|]. split; [exact P'|].
            eapply heap_eq; [exact H'|lia|lia]. }
        destruct X as (s' & Es & Ps & Hs). rewrite Es. cbn [obind].
        destruct (rperm_split nil leb total trans p m q s' Ps) as (m' & -> & Pm & Lm).
        eexists _, m'. split; [reflexivity|]. split.
        { exists p, q. unfold last_, first_. cbn [base lastOrdered sorted lastIndex firstIndex]. rewrite Lm.
          split; [reflexivity|]. split.
          { intros ->. destruct m; [|discriminate]. destruct (E eq_refl) as (-> & _). auto. }
          split; [lia|]. split; [lia|]. eapply heap_eq; [exact Hs|lia|lia]. }
        split; [exact Pm|]. unfold last_. cbn [lastOrdered base lastIndex sorted]. split; [reflexivity|].
        split; [exact Logic.I|]. split; [reflexivity|]. intros (X & _). congruence.
  Qed.

  Lemma beConsistent_ok c m : good c m -> exists c' m', beConsistent nil R one c = Ok c' /\ good c' m' /\ Permutation m m' /\
    lastOrdered c' = last_ c' /\ SS m' /\ sorted c' = true /\ (settled c m -> m' = m).
  Proof.
    intros G. pose proof G as (p & q & B & E & L & H). unfold beConsistent, first_ at 1. rewrite B. cbn [firstIndex].
    destruct (Z.ltb_spec (lastOrdered c) (len p + 1)) as [N|N].
    - unfold last_, first_. rewrite B. cbn [lastIndex firstIndex store].
      destruct (sort_mid nil R leb total trans R_spec p m q) as (m' & Em & Pm & Sm & Lm). rewrite Em. cbn [obind].
      eexists _, m'. split; [reflexivity|]. split.
      { exists p, q. unfold last_, first_. cbn [base lastOrdered sorted lastIndex firstIndex]. rewrite Lm.
        split; [reflexivity|]. split.
        { intros ->. destruct m; [|discriminate]. destruct (E eq_refl) as (-> & _). auto. }
        split; [lia|]. split; [lia|]. rewrite Z.min_id, <- Lm. apply (srange_SS nil leb total trans). exact Sm. }
      split; [exact Pm|]. unfold last_. cbn [lastOrdered base lastIndex sorted]. split; [reflexivity|]. split; [exact Sm|].
      split; [reflexivity|]. unfold settled, last_. rewrite B. cbn [lastIndex]. intros (_ & X & _).
      assert (m = []) as ->. { destruct X as [X|X]; [exact X|]. destruct m; [reflexivity|]. cbn in X. lia. }
      apply Permutation_nil in Pm. exact Pm.
    - destruct (order_ok c m G) as (c1 & m1 & E1 & G1 & P1 & Lo1 & S1 & So1 & Q1). rewrite E1. cbn [obind].
      destruct (sorted c1) eqn:Sc1.
      + exists c1, m1. split; [reflexivity|]. rewrite So1 in *. auto 10.
      + pose proof G1 as (p1 & q1 & B1 & E1' & L1 & H1). rewrite Sc1 in H1.
        unfold last_, first_ in *. rewrite B1 in *. cbn [lastIndex firstIndex store] in *. unfold size. cbn [lastIndex firstIndex].
        assert (M1 : m1 <> []).
        { intros ->. destruct (E1' eq_refl) as (-> & X). apply Permutation_sym, Permutation_nil in P1. subst m.
          destruct (E eq_refl) as (-> & Y). cbn in N. lia. }
        assert (M1' : 1 <= len m1) by (destruct m1; [congruence|cbn; lia]).
        destruct H1 as (H1a & H1b).
        destruct (downs_ok nil R leb total trans R_spec (len p1 + 1) (len p1 + len m1) ltac:(lia)
          (Z.to_nat (len p1 + len m1 - (len p1 + 1) + 1 - 1)) (p1 ++ m1 ++ q1) (lastOrdered c1)) as (s' & Es & Ps & Hs).
        * lia.
        * rewrite !app_length. lia.
        * lia.
        * eapply heap_eq; [exact H1b|lia|lia].
        * intros. lia.
        * rewrite Es. cbn [obind]. destruct (rperm_split nil leb total trans p1 m1 q1 s' Ps) as (m2 & -> & P2 & L2).
          assert (S2 : srange (p1 ++ m2 ++ q1) (len p1 + 1) (len p1 + len m1)).
          { intros i j I J K. destruct (Z.eq_dec i j) as [->|]; [apply (leb_refl leb total)|]. apply Hs; lia. }
          eexists _, m2. split; [reflexivity|]. split.
          { exists p1, q1. cbn [base lastOrdered sorted lastIndex firstIndex]. rewrite L2.
            split; [reflexivity|]. split; [intros ->; destruct m1; [congruence|discriminate]|].
            split; [lia|]. split; [lia|]. rewrite Z.min_id. exact S2. }
          split; [eapply Permutation_trans; eassumption|]. cbn [lastOrdered base lastIndex sorted]. split; [reflexivity|].
          split; [rewrite <- L2 in S2; apply srange_SS in S2; assumption|]. split; [reflexivity|].
          intros (X & _). congruence.
  Qed.

  (** ** Additions *)
  Lemma get_prefix a b i : 1 <= i <= len a -> get (a ++ b) i = get a i.
  Proof. intros I. unfold SortCollArr.get. apply app_nth1. lia. Qed.
  Lemma append_good c p m g q l : base c = OC (len p + 1) (len p + len m) (p ++ m ++ g ++ q) -> length g = length l ->
    good c m -> fresh c -> good (SC (OC (len p + 1) (len p + len m + len l) (p ++ m ++ l ++ q)) (lastOrdered c) (sorted c)) (m ++ l).
  Proof.
    intros B Lg (p' & q' & B' & E & L & H) F. unfold fresh, last_ in F. rewrite B in B', F. cbn [lastIndex] in F.
    injection B' as X1 X2 X3. assert (length p = length p') as X1' by lia.
    assert (p' = p) as ->.
    { apply (f_equal (firstn (length p))) in X3. rewrite firstn_app_len in X3. rewrite X1', firstn_app_len in X3. auto. }
    apply app_inv_head in X3. apply app_inv_head in X3. subst q'.
    exists p, q. cbn [base lastOrdered sorted]. rewrite app_length, <- !app_assoc.
    split; [f_equal; lia|]. split.
    { intros Y. destruct m; [|discriminate]. auto. }
    split; [exact L|].
    assert (G : forall i, 1 <= i <= len p + len m -> get (p ++ m ++ l ++ q) i = get (p ++ m ++ g ++ q) i).
    { intros i I. rewrite !(app_assoc p). rewrite !(get_prefix (p ++ m)) by (rewrite app_length; lia). reflexivity. }
    destruct (sorted c).
    - destruct H as (H1 & H2). split; [exact H1|]. rewrite Z.min_l in * by lia.
      intros i j I J K. rewrite !G by lia. apply H2; lia.
    - destruct H as (H1 & H2). split; [lia|]. intros k K Q. unfold item. rewrite !G by lia. apply H2; assumption.
  Qed.
  Lemma regrown_good o m : rep o m -> (m = [] -> firstIndex o = 1) -> good (regrown o) m /\ fresh (regrown o).
  Proof.
    intros (p & q & S & F & L) Y. split.
    - exists p, q. cbn. split; [destruct o; cbn in *; subst; reflexivity|]. split.
      { intros X. specialize (Y X). split; [|reflexivity]. destruct p; [reflexivity|cbn [length] in F; lia]. }
      split; [lia|]. split; [lia|]. intros k K. lia.
    - unfold fresh, last_. cbn. lia.
  Qed.
  Lemma good_rep c m : good c m -> rep (base c) m /\ (m = [] -> firstIndex (base c) = 1).
  Proof.
    intros (p & q & B & E & _). rewrite B. split; [exists p, q; cbn; auto|]. intros X. destruct (E X) as (-> & _). reflexivity.
  Qed.
  Lemma add_ok c m x : good c m -> fresh c -> exists c', add nil x c = Ok c' /\ good c' (m ++ [x]) /\ fresh c'.
  Proof.
    intros G F. unfold add.
    assert (X : exists c1, (if last_ c =? basicSize (base c) then grow_for nil (growSize (base c)) c else Ok c) = Ok c1 /\
              good c1 m /\ fresh c1 /\ last_ c1 < basicSize (base c1)).
    { destruct (good_rep c m G) as (Rp & Y). pose proof (rep_bounds _ _ Rp) as (B1 & B2).
      unfold last_. destruct (Z.eqb_spec (lastIndex (base c)) (basicSize (base c))) as [N|N]; [|exists c; split; [reflexivity|]; split; [exact G|]; split; [exact F|]; lia].
      unfold grow_for. destruct (growBy_rep nil (base c) m (growSize (base c)) 0 Rp) as (o & Eo & Ro & Bo & Fo & Lo); [lia|unfold growSize; lia|].
      rewrite Eo. cbn [obind]. destruct (regrown_good o m Ro) as (G1 & F1); [intros Z0; rewrite Fo, (Y Z0); reflexivity|].
      eexists. split; [reflexivity|]. split; [exact G1|]. split; [exact F1|]. cbn [regrown base]. unfold growSize in *. lia. }
    destruct X as (c1 & E1 & G1 & F1 & R1). rewrite E1. cbn [obind].
    pose proof G1 as (p & q & B & _). unfold last_, basicSize in R1. rewrite B in R1. cbn [lastIndex store] in R1. rewrite !app_length in R1.
    destruct q as [|y q]; [cbn in R1; lia|].
    pose proof (append_good c1 p m [y] q [x] B eq_refl G1 F1) as G2.
    unfold last_, first_. rewrite B. cbn [lastIndex firstIndex store].
    rewrite (app_assoc p m). rewrite basicAtPut_app by (rewrite app_length; lia). cbn [obind].
    rewrite <- app_assoc. eexists. split; [reflexivity|]. split; [exact G2|].
    unfold fresh, last_ in *. cbn [lastOrdered base lastIndex]. rewrite B in F1. cbn [lastIndex] in F1. lia.
  Qed.
  Lemma addAll_ok c m l : good c m -> fresh c -> exists c', addAll nil l c = Ok c' /\ good c' (m ++ l) /\ fresh c'.
  Proof.
    intros G F. unfold addAll.
    assert (X : exists c1, (if basicSize (base c) <? last_ c + len l then olet o := growBy nil (Z.max (len l) (growSize (base c))) (1 - first_ c) (base c) in Ok (regrown o) else Ok c) = Ok c1 /\
              good c1 m /\ fresh c1 /\ last_ c1 + len l <= basicSize (base c1)).
    { destruct (good_rep c m G) as (Rp & Y). pose proof (rep_bounds _ _ Rp) as (B1 & B2).
      unfold last_, first_. destruct (Z.ltb_spec (basicSize (base c)) (lastIndex (base c) + len l)) as [N|N]; [|exists c; split; [reflexivity|]; split; [exact G|]; split; [exact F|]; lia].
      destruct (growBy_rep nil (base c) m (Z.max (len l) (growSize (base c))) (1 - firstIndex (base c)) Rp) as (o & Eo & Ro & Bo & Fo & Lo); [lia|unfold growSize; lia|].
      rewrite Eo. cbn [obind]. destruct (regrown_good o m Ro) as (G1 & F1); [intros; lia|].
      eexists. split; [reflexivity|]. split; [exact G1|]. split; [exact F1|]. cbn [regrown base]. unfold growSize in *. lia. }
    destruct X as (c1 & E1 & G1 & F1 & R1). rewrite E1. cbn [obind].
    pose proof G1 as (p & q & B & _). unfold last_, basicSize in R1. rewrite B in R1. cbn [lastIndex store] in R1. rewrite !app_length in R1.
    destruct (split_at q (length l)) as (g & q' & -> & Lg); [lia|].
    pose proof (append_good c1 p m g q' l B Lg G1 F1) as G2.
    unfold last_, first_. rewrite B. cbn [lastIndex firstIndex store].
    rewrite (app_assoc p m). rewrite putAll_app by (rewrite ?app_length; lia). cbn [obind].
    rewrite <- app_assoc. eexists. split; [reflexivity|]. split; [exact G2|].
    unfold fresh, last_ in *. cbn [lastOrdered base lastIndex]. rewrite B in F1. cbn [lastIndex] in F1. lia.
  Qed.

  (** ** Removals *)
  Lemma shrink_ok c m : good c m -> exists c', shrink_ nil c = Ok c' /\ good c' m /\ (fresh c -> fresh c').
  Proof.
    intros G. unfold shrink_. destruct (Z.ltb_spec (size (base c)) (shrinkSize (base c))) as [N|N]; [|eauto].
    destruct (good_rep c m G) as (Rp & Y). pose proof (rep_bounds _ _ Rp) as (B1 & B2). unfold shrink. unfold size in N.
    destruct (growBy_rep nil (base c) m (- Z.min (shrinkSize (base c)) (basicSize (base c) - (lastIndex (base c) - Z.min (firstIndex (base c) - 1) (shrinkSize (base c) / 2))))
      (- Z.min (firstIndex (base c) - 1) (shrinkSize (base c) / 2)) Rp) as (o & Eo & Ro & Bo & Fo & Lo); [lia|lia|].
    rewrite Eo. cbn [obind]. destruct (regrown_good o m Ro) as (G1 & F1).
    - intros X. specialize (Y X). unfold shrinkSize in *. unfold basicSize in *. lia.
    - eexists. split; [reflexivity|]. split; [exact G1|]. intros _. exact F1.
  Qed.
  Lemma init_good s : good (initIndices s) [] /\ fresh (initIndices s).
  Proof.
    split; [|unfold fresh; cbn; lia]. exists [], s. cbn. split; [reflexivity|]. split; [auto|]. split; [lia|]. split; [lia|].
    intros k K. lia.
  Qed.

  Lemma good_cut c p m x q : base c = OC (len p + 1) (len p + len (m ++ [x])) (p ++ (m ++ [x]) ++ q) -> good c (m ++ [x]) -> m <> [] ->
    (sorted c = false -> lastOrdered c <= len p + len m) ->
    forall y, good (SC (OC (len p + 1) (len p + len m) (p ++ m ++ y :: q)) (lastOrdered c) (sorted c)) m.
  Proof.
    intros B (p' & q' & B' & E & L & H) N F y. rewrite B in B'. rewrite !app_length in *. cbn [length] in *.
    injection B' as X1 X2 X3. assert (length p = length p') as X1' by lia.
    assert (p' = p) as ->.
    { apply (f_equal (firstn (length p))) in X3. rewrite firstn_app_len in X3. rewrite X1', firstn_app_len in X3. auto. }
    apply app_inv_head in X3. apply app_inv_head in X3. subst q'.
    exists p, (y :: q). cbn [base lastOrdered sorted]. split; [reflexivity|]. split; [congruence|]. split; [exact L|].
    assert (G : forall i, 1 <= i <= len p + len m -> get (p ++ m ++ y :: q) i = get (p ++ (m ++ [x]) ++ q) i).
    { intros i I. rewrite <- app_assoc. rewrite !(app_assoc p). rewrite !(get_prefix (p ++ m)) by (rewrite app_length; lia). reflexivity. }
    destruct (sorted c).
    - destruct H as (H1 & H2). split; [exact H1|]. intros i j I J K. rewrite !G by lia. apply H2; lia.
    - destruct H as (H1 & H2). split; [auto|]. specialize (F eq_refl). intros k K Q. unfold item. rewrite !G by lia. apply H2; assumption.
  Qed.

  Lemma basicRemoveLast_ok c m x : good c (m ++ [x]) -> (sorted c = false -> lastOrdered c < last_ c) ->
    exists c', basicRemoveLast nil c = Ok (c', Some x) /\ good c' m.
  Proof.
    intros G F. pose proof G as (p & q & B & _). unfold basicRemoveLast, last_, first_ in *. rewrite B in *. cbn [lastIndex firstIndex store] in *.
    rewrite app_length in *. cbn [length] in *.
    replace (len p + Z.of_nat (length m + 1) <? len p + 1) with false by lia.
    replace (p ++ (m ++ [x]) ++ q) with ((p ++ m) ++ x :: q) by (rewrite <- !app_assoc; reflexivity).
    rewrite basicAt_app by (rewrite app_length; lia). cbn [obind]. rewrite (basicAtPut_app (p ++ m)) by (rewrite app_length; lia). cbn [obind].
    destruct (Z.eqb_spec (len p + Z.of_nat (length m + 1)) (len p + 1)) as [N|N].
    - destruct m; [|cbn in N; lia]. destruct (shrink_ok _ _ (proj1 (init_good ((p ++ []) ++ nil :: q)))) as (c' & Es & Gs & _).
      rewrite Es. cbn [obind]. eauto.
    - assert (M : m <> []) by (intros ->; cbn in N; lia).
      assert (B' : base c = OC (len p + 1) (len p + len (m ++ [x])) (p ++ (m ++ [x]) ++ q)) by (rewrite app_length; exact B).
      pose proof (good_cut c p m x q B' G M ltac:(intros Sf; specialize (F Sf); lia) nil) as G1.
      replace (len p + Z.of_nat (length m + 1) - 1) with (len p + len m) by lia.
      rewrite <- app_assoc.
      destruct (shrink_ok _ _ G1) as (c' & Es & Gs & _). rewrite Es. cbn [obind]. eauto.
  Qed.

  Lemma greatest_perm x l m : Permutation l m -> greatest leb x m -> greatest leb x l.
  Proof.
    intros P (I & G). split; [eapply Permutation_in; [apply Permutation_sym; exact P|exact I]|].
    intros y Y. apply G. eapply Permutation_in; eassumption.
  Qed.
  Lemma SS_greatest m x : SS (m ++ [x]) -> greatest leb x (m ++ [x]).
  Proof.
    intros S. apply (SS_app R leb R_spec) in S as (_ & _ & X). split; [apply in_or_app; right; left; reflexivity|].
    intros y Y. apply in_app_or in Y as [Y|[<-|[]]]; [apply X; [exact Y|left; reflexivity]|apply (leb_refl leb total)].
  Qed.

  Lemma removeLast_ok c m : good c m -> m <> [] -> exists c' m' x, removeLast nil R one c = Ok (c', Some x) /\ good c' m' /\
    Permutation m (x :: m') /\ greatest leb x m /\ (settled c m -> m = m' ++ [x]).
  Proof.
    intros G Ne. unfold removeLast. destruct (order_ok c m G) as (c1 & m1 & E1 & G1 & P1 & Lo1 & S1 & So1 & Q1). rewrite E1. cbn [obind].
    assert (N1 : m1 <> []) by (intros ->; apply Permutation_sym, Permutation_nil in P1; congruence).
    destruct (sorted c1) eqn:Sc.
    - destruct (exists_last N1) as (m2 & x & ->).
      destruct (basicRemoveLast_ok c1 m2 x G1 ltac:(congruence)) as (c2 & E2 & G2). rewrite E2.
      exists c2, m2, x. split; [reflexivity|]. split; [exact G2|]. split; [|split].
      + eapply Permutation_trans; [exact P1|]. apply Permutation_sym, Permutation_cons_append.
      + eapply greatest_perm; [exact P1|]. apply SS_greatest, S1.
      + intros X. symmetry. apply Q1, X.
    - pose proof G1 as (p & q & B & E & L & H). rewrite Sc in H. destruct H as (H1 & H2).
      unfold last_, first_ in *. rewrite B in *. cbn [lastIndex firstIndex store] in *.
      assert (1 <= len m1) by (destruct m1; [congruence|cbn [length]; lia]).
      destruct (Z.ltb_spec (lastOrdered c1) 1); [lia|]. rewrite Lo1 in *.
      destruct (percolateDown_ok nil R leb total trans R_spec (p ++ m1 ++ q) (len p + 1) (len p + len m1)) as (s' & Es & Ps & Hs & Ms);
        [lia|lia|rewrite !app_length; lia| |].
      { eapply heap_eq; [exact H2|lia|lia]. }
      rewrite Es. cbn [obind]. destruct (rperm_split nil leb total trans p m1 q s' Ps) as (m2 & -> & P2 & L2).
      assert (N2 : m2 <> []) by (intros ->; destruct m1; [congruence|discriminate]).
      destruct (exists_last N2) as (m3 & x & ->). rewrite app_length in L2. cbn [length] in L2.
      destruct (basicRemoveLast_ok (SC (OC (len p + 1) (len p + len m1) (p ++ (m3 ++ [x]) ++ q)) (len p + len m1 - 1) false) m3 x) as (c3 & E3 & G3).
      + exists p, q. cbn [base lastOrdered sorted]. rewrite app_length. cbn [length].
        split; [f_equal; lia|]. split; [intros X; destruct m3; discriminate|]. split; [lia|]. split; [lia|].
        eapply heap_eq; [exact Hs|lia|lia].
      + intros _. unfold last_. cbn [base lastIndex lastOrdered]. lia.
      + rewrite E3. exists c3, m3, x. split; [reflexivity|]. split; [exact G3|]. split; [|split].
        * eapply Permutation_trans; [exact P1|]. eapply Permutation_trans; [exact P2|]. apply Permutation_sym, Permutation_cons_append.
        * eapply greatest_perm; [eapply Permutation_trans; [exact P1|exact P2]|].
          split; [apply in_or_app; right; left; reflexivity|]. intros y Y. apply (In_nth _ _ nil) in Y as (n & Hn & <-).
          rewrite app_length in Hn. cbn [length] in Hn.
          specialize (Ms (len p + (Z.of_nat n + 1)) ltac:(lia)).
          rewrite get_mid in Ms by (rewrite app_length; cbn [length]; lia).
          rewrite get_mid in Ms by (rewrite app_length; cbn [length]; lia).
          replace (Z.to_nat (Z.of_nat n + 1 - 1)) with n in Ms by lia.
          replace (nth (Z.to_nat (len m1 - 1)) (m3 ++ [x]) nil) with x in Ms; [exact Ms|].
          rewrite app_nth2 by lia. replace (_ - _)%nat with 0%nat by lia. reflexivity.
        * intros (X & _). congruence.
  Qed.
  Lemma removeLast_empty c : good c [] -> exists c', removeLast nil R one c = Ok (c', None) /\ good c' [].
  Proof.
    intros G. unfold removeLast. destruct (order_ok c [] G) as (c1 & m1 & E1 & G1 & P1 & Lo1 & S1 & So1 & Q1). rewrite E1. cbn [obind].
    apply Permutation_nil in P1. subst m1. pose proof G1 as (p & q & B & E & L & H). destruct (E eq_refl) as (-> & E').
    exists c1. split; [|exact G1]. destruct (sorted c1).
    - unfold basicRemoveLast, last_, first_. rewrite B. reflexivity.
    - rewrite E'. reflexivity.
  Qed.

  Lemma first_removed c m p x q y : base c = OC (len p + 1) (len p + len (x :: m)) (p ++ (x :: m) ++ q) -> m <> [] ->
    sorted c = true -> lastOrdered c = last_ c -> SS (x :: m) ->
    good (SC (OC (len p + 2) (len p + len (x :: m)) (p ++ y :: m ++ q)) (lastOrdered c) (sorted c)) m.
  Proof.
    intros B N So Lo Srt. rewrite So, Lo. unfold last_. rewrite B. cbn [lastIndex length] in *.
    exists (p ++ [y]), q. cbn [base lastOrdered sorted]. rewrite app_length, <- app_assoc. cbn [length app].
    split; [f_equal; lia|]. split; [congruence|]. split; [lia|]. split; [lia|]. rewrite Z.min_l by lia.
    replace (p ++ y :: m ++ q) with ((p ++ [y]) ++ m ++ q) by (rewrite <- app_assoc; reflexivity).
    replace (Z.of_nat (length p + 1)) with (len (p ++ [y])) by (rewrite app_length; reflexivity).
    replace (len p + Z.of_nat (S (length m))) with (len (p ++ [y]) + len m) by (rewrite app_length; cbn [length]; lia).
    apply (srange_SS nil leb total trans). inversion Srt; assumption.
  Qed.

  Lemma removeFirst_ok c m : good c m -> exists c' m', Permutation m m' /\ SS m' /\ (settled c m -> m' = m) /\
    match m' with
    | [] => removeFirst nil R one c = Ok (c', None) /\ good c' []
    | x :: m'' => removeFirst nil R one c = Ok (c', Some x) /\ good c' m'' /\ fresh c'
    end.
  Proof.
    intros G. unfold removeFirst. destruct (beConsistent_ok c m G) as (c1 & m1 & E1 & G1 & P1 & Lo1 & S1 & So1 & Q1). rewrite E1. cbn [obind].
    pose proof G1 as (p & q & B & E & L & H). unfold last_, first_ in *. rewrite B in *. cbn [lastIndex firstIndex store] in *.
    destruct m1 as [|x m1].
    - exists c1, []. split; [exact P1|]. split; [constructor|]. split; [exact Q1|]. cbn [length].
      replace (len p + Z.of_nat 0 <? len p + 1) with true by lia. auto.
    - cbn [length] in *. replace (len p + Z.of_nat (S (length m1)) <? len p + 1) with false by lia. cbn [app].
      rewrite basicAt_app by reflexivity. cbn [obind]. rewrite basicAtPut_app by reflexivity. cbn [obind].
      destruct (Z.eqb_spec (len p + Z.of_nat (S (length m1))) (len p + 1)) as [N|N].
      + destruct m1; [|cbn in N; lia].
        destruct (shrink_ok _ _ (proj1 (init_good (p ++ nil :: [] ++ q)))) as (c' & Es & Gs & Fs). rewrite Es. cbn [obind].
        exists c', [x]. split; [exact P1|]. split; [exact S1|]. split; [exact Q1|]. split; [reflexivity|]. split; [exact Gs|]. apply Fs, init_good.
      + assert (M : m1 <> []) by (intros ->; cbn in N; lia).
        replace (len p + 1 + 1) with (len p + 2) by lia.
        assert (G2 := first_removed c1 m1 p x q nil B M So1 ltac:(unfold last_; rewrite B; exact Lo1) S1).
        destruct (shrink_ok _ _ G2) as (c' & Es & Gs & Fs). cbn [length] in *. rewrite Es. cbn [obind].
        exists c', (x :: m1). split; [exact P1|]. split; [exact S1|]. split; [exact Q1|]. split; [reflexivity|]. split; [exact Gs|].
        apply Fs. unfold fresh, last_. cbn [base lastIndex lastOrdered]. lia.
  Qed.

  Lemma pick_lookup c p m q i : base c = OC (len p + 1) (len p + len m) (p ++ m ++ q) ->
    (if (first_ c <=? i + first_ c - 1) && (i + first_ c - 1 <=? last_ c)
     then olet x := basicAt nil (store (base c)) (i + first_ c - 1) in Ok (c, Some x) else Ok (c, None)) = Ok (c, pick m i).
  Proof.
    intros B. unfold first_, last_. rewrite B. cbn [firstIndex lastIndex store]. unfold pick.
    destruct (Z.ltb_spec i 1) as [H|H].
    - replace (len p + 1 <=? i + (len p + 1) - 1) with false by lia. reflexivity.
    - replace (len p + 1 <=? i + (len p + 1) - 1) with true by lia.
      destruct (Z.leb_spec (i + (len p + 1) - 1) (len p + len m)) as [K|K]; cbn [andb].
      + rewrite at_ok by (rewrite !app_length; lia). cbn [obind]. replace (i + (len p + 1) - 1) with (len p + i) by lia.
        rewrite get_mid by lia. rewrite (nth_error_nth' m nil) by lia. reflexivity.
      + rewrite (proj2 (nth_error_None m (Z.to_nat (i - 1)))) by lia. reflexivity.
  Qed.
  Lemma at_ok' c m i : good c m -> exists c' m', at_ nil R one i c = Ok (c', pick m' i) /\ good c' m' /\ fresh c' /\ Permutation m m' /\
    settled c' m' /\ (settled c m -> m' = m).
  Proof.
    intros G. unfold at_. destruct (beConsistent_ok c m G) as (c1 & m1 & E1 & G1 & P1 & Lo1 & S1 & So1 & Q1). rewrite E1. cbn [obind].
    pose proof G1 as (p & q & B & _). cbv zeta. rewrite (pick_lookup c1 p m1 q i B).
    exists c1, m1. split; [reflexivity|]. split; [exact G1|]. split; [unfold fresh; lia|]. split; [exact P1|]. split; [|exact Q1].
    split; [exact So1|]. split; [right; lia|exact S1].
  Qed.
  Lemma first_ok' c m : good c m -> exists c' m', first nil R one c = Ok (c', pick m' 1) /\ good c' m' /\ fresh c' /\ Permutation m m' /\
    settled c' m' /\ (settled c m -> m' = m).
  Proof.
    intros G. unfold first. destruct (beConsistent_ok c m G) as (c1 & m1 & E1 & G1 & P1 & Lo1 & S1 & So1 & Q1). rewrite E1. cbn [obind].
    pose proof G1 as (p & q & B & _). pose proof (pick_lookup c1 p m1 q 1 B) as X.
    replace (1 + first_ c1 - 1) with (first_ c1) in X by lia. rewrite Z.leb_refl in X. cbn [andb] in X. rewrite X.
    exists c1, m1. split; [reflexivity|]. split; [exact G1|]. split; [unfold fresh; lia|]. split; [exact P1|]. split; [|exact Q1].
    split; [exact So1|]. split; [right; lia|exact S1].
  Qed.
  Lemma do_ok' c m : good c m -> exists c' m', do_all nil R one c = Ok (c', m') /\ good c' m' /\ fresh c' /\ Permutation m m' /\
    settled c' m' /\ (settled c m -> m' = m).
  Proof.
    intros G. unfold do_all. destruct (beConsistent_ok c m G) as (c1 & m1 & E1 & G1 & P1 & Lo1 & S1 & So1 & Q1). rewrite E1. cbn [obind].
    pose proof G1 as (p & q & B & _). unfold elements_of. rewrite B. unfold size. cbn [lastIndex firstIndex store].
    replace (Z.to_nat (len p + len m1 - (len p + 1) + 1)) with (length m1) by lia. rewrite do_app by reflexivity. cbn [obind].
    exists c1, m1. split; [reflexivity|]. split; [exact G1|]. split; [unfold fresh; lia|]. split; [exact P1|]. split; [|exact Q1].
    split; [exact So1|]. split; [right; lia|exact S1].
  Qed.
  Lemma last_ok' c m : good c m -> exists c' m' o, last nil R one c = Ok (c', o) /\ good c' m' /\ fresh c' /\ Permutation m m' /\
    (settled c m -> m' = m /\ settled c' m') /\
    (m <> [] -> exists x, o = Some x /\ greatest leb x m /\ (settled c m -> exists u, m = u ++ [x])).
  Proof.
    intros G. unfold last. destruct (order_ok c m G) as (c1 & m1 & E1 & G1 & P1 & Lo1 & S1 & So1 & Q1). rewrite E1. cbn [obind].
    exists c1, m1. destruct (tryAt nil c1 (if sorted c1 then last_ c1 else first_ c1)) as (c2 & o) eqn:T.
    assert (T' : c2 = c1 /\ o = match basicAt nil (store (base c1)) (if sorted c1 then last_ c1 else first_ c1) with Ok x => Some x | _ => None end).
    { unfold tryAt in T. destruct (basicAt _ _ _); apply pair_equal_spec in T as (<- & <-); auto. }
    destruct T' as (-> & To). exists o. split; [reflexivity|]. split; [exact G1|]. split; [unfold fresh; lia|]. split; [exact P1|].
    split.
    { intros X. split; [apply Q1, X|]. destruct X as (X1 & X2 & X3). split; [congruence|]. split; [right; lia|].
      rewrite So1, X1 in S1. exact S1. }
    intros Ne. assert (N1 : m1 <> []) by (intros ->; apply Permutation_sym, Permutation_nil in P1; congruence).
    pose proof G1 as (p & q & B & E & L & H). unfold last_, first_ in *. rewrite B in *. cbn [lastIndex firstIndex store] in *.
    assert (1 <= len m1) by (destruct m1; [congruence|cbn [length]; lia]).
    destruct (sorted c1) eqn:Sc.
    - destruct (exists_last N1) as (m2 & x & ->). rewrite at_ok in To by (rewrite !app_length in *; cbn [length] in *; lia).
      rewrite get_mid in To by lia. rewrite app_length in To. cbn [length] in To.
      rewrite app_nth2 in To by lia. replace (Z.to_nat _ - _)%nat with 0%nat in To by lia. cbn [nth] in To.
      exists x. split; [exact To|]. split; [eapply greatest_perm; [exact P1|]; apply SS_greatest, S1|].
      intros X. exists m2. symmetry. apply Q1, X.
    - rewrite at_ok in To by (rewrite !app_length in *; lia).
      exists (get (p ++ m1 ++ q) (len p + 1)). split; [exact To|]. split.
      + eapply greatest_perm; [exact P1|]. destruct H as (_ & H). rewrite Lo1 in H.
        replace (len p + len m1 - len p) with (len m1) in H by lia. split.
        * rewrite get_mid by lia. apply nth_In. lia.
        * intros y Y. apply (In_nth _ _ nil) in Y as (n & Hn & <-).
          pose proof (heap_max nil leb total trans (p ++ m1 ++ q) (len p) (len m1) H (Z.of_nat n + 1) ltac:(lia)) as X.
          unfold item in X. rewrite get_mid in X by lia. replace (Z.to_nat (Z.of_nat n + 1 - 1)) with n in X by lia. exact X.
      + intros (X & _). congruence.
  Qed.

  Lemma removeAt_ok c m i : good c m -> exists c' m', Permutation m m' /\ SS m' /\ (settled c m -> m' = m) /\ fresh c' /\
    match pick m' i with
    | None => removeAtIndex nil R one i c = Ok (c', None) /\ good c' m'
    | Some x => removeAtIndex nil R one i c = Ok (c', Some x) /\
        exists u v, m' = u ++ x :: v /\ len u + 1 = i /\ good c' (u ++ v)
    end.
  Proof.
    intros G. unfold removeAtIndex. destruct (beConsistent_ok c m G) as (c1 & m1 & E1 & G1 & P1 & Lo1 & S1 & So1 & Q1). rewrite E1. cbn [obind].
    pose proof G1 as (p & q & B & E & L & H).
    assert (F1 : fresh c1) by (unfold fresh; lia).
    unfold last_, first_, size in *. rewrite B in *. cbn [lastIndex firstIndex store] in *.
    replace (len p + len m1 - (len p + 1) + 1) with (len m1) by lia.
    unfold pick. destruct (Z.ltb_spec i 1) as [I|I].
    { exists c1, m1. split; [exact P1|]. split; [exact S1|]. split; [exact Q1|]. split; [exact F1|].
      split; [|exact G1]. cbn [orb]. destruct (_ <? _); reflexivity. }
    destruct (nth_error m1 (Z.to_nat (i - 1))) as [x|] eqn:Nx.
    2:{ exists c1, m1. split; [exact P1|]. split; [exact S1|]. split; [exact Q1|]. split; [exact F1|]. rewrite Nx. apply nth_error_None in Nx.
        split; [|exact G1]. replace (len m1 <? i) with true by lia. cbn [orb]. destruct (_ <? _); reflexivity. }
    apply nth_error_split in Nx as (u & v & -> & Lu). rewrite !app_length in *. cbn [length] in *.
    replace (len p + Z.of_nat (length u + S (length v)) <? len p + 1) with false by lia.
    replace (Z.of_nat (length u + S (length v)) <? i) with false by lia. cbn [orb].
    replace (p ++ (u ++ x :: v) ++ q) with ((p ++ u) ++ x :: v ++ q) by (rewrite <- !app_assoc; reflexivity).
    rewrite basicAt_app by (rewrite app_length; lia). cbn [obind].
    assert (exists y v', x :: v = v' ++ [y]) as (y & v' & Ev).
    { destruct (exists_last (l := x :: v)) as (v' & y & Ev); [congruence|eauto]. }
    assert (Lv : length v' = length v) by (apply (f_equal (@length A)) in Ev; rewrite app_length in Ev; cbn [length] in Ev; lia).
    assert (Er : replace_range ((p ++ u) ++ x :: v ++ q) (i + (len p + 1) - 1) (len p + Z.of_nat (length u + S (length v)) - 1)
              ((p ++ u) ++ x :: v ++ q) (i + (len p + 1)) = Some ((p ++ u ++ v) ++ y :: q)).
    { unfold replace_range. rewrite !app_length. cbn [length]. rewrite app_length.
      replace (_ || _) with false by lia. f_equal.
      replace (Z.to_nat (i + (len p + 1) - 1 - 1)) with (length (p ++ u)) by (rewrite app_length; lia). rewrite firstn_app_len.
      replace ((p ++ u) ++ x :: v ++ q) with ((p ++ u ++ [x]) ++ v ++ q) at 1 by (rewrite <- !app_assoc; reflexivity).
      replace (Z.to_nat (i + (len p + 1) - 1)) with (length (p ++ u ++ [x])) by (rewrite !app_length; cbn [length]; lia). rewrite skipn_app_len.
      replace (Z.to_nat _) with (length v) by lia. rewrite firstn_app_len.
      change (x :: v ++ q) with ((x :: v) ++ q). rewrite Ev.
      replace ((p ++ u) ++ (v' ++ [y]) ++ q) with ((p ++ u ++ v') ++ y :: q) by (rewrite <- !app_assoc; reflexivity).
      replace (Z.to_nat _) with (length (p ++ u ++ v')) by (rewrite !app_length; lia). rewrite skipn_app_len.
      rewrite <- !app_assoc. reflexivity. }
    rewrite Er. clear Er. rewrite basicAtPut_app by (rewrite !app_length; lia). cbn [obind].
    assert (Suv : SS (u ++ v)).
    { apply (SS_app R leb R_spec) in S1 as (Su & Sv & X). apply (SS_app R leb R_spec). split; [exact Su|]. split; [inversion Sv; assumption|].
      intros a b Ha Hb. apply X; [exact Ha|right; exact Hb]. }
    destruct (Z.eqb_spec (len p + Z.of_nat (length u + S (length v))) (len p + 1)) as [N|N].
    - assert (u = [] /\ v = []) as (-> & ->) by (destruct u, v; cbn in N; auto; lia).
      destruct (init_good ((p ++ [] ++ []) ++ nil :: q)) as (Gi & Fi).
      destruct (shrink_ok _ _ Gi) as (c' & Es & Gs & Fs).
      assert (Eq : SC (base (initIndices ((p ++ [] ++ []) ++ nil :: q))) (lastIndex (base (initIndices ((p ++ [] ++ []) ++ nil :: q))))
                   (sorted (initIndices ((p ++ [] ++ []) ++ nil :: q))) = initIndices ((p ++ [] ++ []) ++ nil :: q)) by reflexivity.
      rewrite Eq, Es. cbn [obind]. exists c', [x]. split; [exact P1|]. split; [exact S1|]. split; [exact Q1|]. split; [apply Fs, Fi|].
      cbn [length] in Lu. replace (Z.to_nat (i - 1)) with 0%nat by lia. cbn [nth_error]. split; [reflexivity|].
      exists [], []. split; [reflexivity|]. cbn [length]. split; [lia|exact Gs].
    - assert (G2 : good (SC (OC (len p + 1) (len p + Z.of_nat (length u + S (length v)) - 1) ((p ++ u ++ v) ++ nil :: q))
                         (len p + Z.of_nat (length u + S (length v)) - 1) (sorted c1)) (u ++ v)).
      { exists p, (nil :: q). cbn [base lastOrdered sorted]. rewrite app_length. split; [rewrite <- !app_assoc; f_equal; lia|].
        split; [intros X; apply (f_equal (@length A)) in X; rewrite app_length in X; cbn [length] in X; lia|].
        split; [lia|]. rewrite So1. split; [lia|]. rewrite Z.min_l by lia.
        replace (len p + Z.of_nat (length u + S (length v)) - 1) with (len p + len (u ++ v)) by (rewrite app_length; lia).
        apply (srange_SS nil leb total trans). exact Suv. }
      destruct (shrink_ok _ _ G2) as (c' & Es & Gs & Fs).
      cbv zeta. cbn [base lastIndex sorted]. rewrite Es. cbn [obind].
      exists c', (u ++ x :: v). split; [exact P1|]. split; [exact S1|]. split; [exact Q1|].
      split; [apply Fs; unfold fresh, last_; cbn [base lastIndex lastOrdered]; lia|].
      rewrite (nth_error_app2 u) by lia. replace (Z.to_nat (i - 1) - length u)%nat with 0%nat by lia. cbn [nth_error].
      split; [reflexivity|]. exists u, v. split; [reflexivity|]. split; [lia|exact Gs].
  Qed.

  (** ** Histories *)
  Definition state_ok c l (b : bool) : Prop := exists m, good c m /\ (if b then m = l /\ settled c m else Permutation l m).

  Lemma seen_of c l (b : bool) m m' : good c m -> (if b then m = l /\ settled c m else Permutation l m) ->
    Permutation m m' -> SS m' -> (settled c m -> m' = m) -> seen leb l b m'.
  Proof.
    intros G X P S Q. unfold seen. destruct b; [destruct X as (-> & X); auto|]. split; [eapply Permutation_trans; eassumption|exact S].
  Qed.

  Lemma ssend_ok c l (b d : bool) msg : state_ok c l b -> (d = false -> fresh c) -> calm d [msg] = true ->
    exists c' o l' (b' : bool), ssend nil R one msg c = Ok (c', o) /\ sstep leb l b msg o l' b' /\ state_ok c' l' b' /\
      (calm d [msg; MAdd nil] = true -> fresh c').
  Proof.
    intros (m & G & X) F C.
    assert (X' : Permutation l m) by (destruct b; [destruct X as (-> & _); apply Permutation_refl|exact X]).
    destruct msg as [x|xs| | |i| | |i| |]; cbn [ssend calm negb andb] in *.
    - rewrite andb_true_r in C. destruct d; [discriminate|]. destruct (add_ok c m x G (F eq_refl)) as (c' & E & G' & F').
      rewrite E. cbn [obind]. exists c', (OElt (Some x)), (l ++ [x]), false. split; [reflexivity|]. split; [repeat split|].
      split; [|auto]. exists (m ++ [x]). split; [exact G'|]. apply Permutation_app_tail, X'.
    - rewrite andb_true_r in C. destruct d; [discriminate|]. destruct (addAll_ok c m xs G (F eq_refl)) as (c' & E & G' & F').
      rewrite E. cbn [obind]. exists c', (OList xs), (l ++ xs), false. split; [reflexivity|]. split; [repeat split|].
      split; [|auto]. exists (m ++ xs). split; [exact G'|]. apply Permutation_app_tail, X'.
    - destruct (first_ok' c m G) as (c' & m' & E & G' & F' & P & S & Q). rewrite E. cbn [obind elt].
      exists c', (OElt (pick m' 1)), m', true. split; [reflexivity|]. split.
      { split; [|auto]. eapply seen_of; [exact G|exact X|exact P|apply S|exact Q]. }
      split; [|auto]. exists m'. auto.
    - destruct (last_ok' c m G) as (c' & m' & o & E & G' & F' & P & S & Q). rewrite E. cbn [obind elt].
      exists c', (OElt o), (if b then l else m'), b. split; [reflexivity|]. split.
      { split; [reflexivity|]. split; [destruct b; [reflexivity|eapply Permutation_trans; eassumption]|]. intros Ne.
        destruct Q as (x & -> & Gx & Ux); [intros ->; apply Permutation_sym, Permutation_nil in X'; congruence|].
        exists x. split; [reflexivity|]. split; [eapply greatest_perm; eassumption|]. intros ->. destruct X as (<- & X). auto. }
      split; [|auto]. exists m'. split; [exact G'|]. destruct b; [|apply Permutation_refl]. destruct X as (-> & X). apply S, X.
    - destruct (at_ok' c m i G) as (c' & m' & E & G' & F' & P & S & Q). rewrite E. cbn [obind elt].
      exists c', (OElt (pick m' i)), m', true. split; [reflexivity|]. split.
      { split; [|auto]. eapply seen_of; [exact G|exact X|exact P|apply S|exact Q]. }
      split; [|auto]. exists m'. auto.
    - destruct (removeFirst_ok c m G) as (c' & m' & P & S & Q & H).
      assert (Sn : seen leb l b m') by (eapply seen_of; eassumption).
      destruct m' as [|x m'].
      + destruct H as (E & G'). rewrite E. cbn [obind elt]. exists c', (OElt None), [], false. split; [reflexivity|].
        split; [split; [reflexivity|]; exists []; auto|]. split; [exists []; auto|]. intros _. destruct G' as (p & q & B & E' & L & _).
        destruct (E' eq_refl) as (_ & Z0). unfold fresh, last_. rewrite B. cbn [lastIndex]. lia.
      + destruct H as (E & G' & F'). rewrite E. cbn [obind elt]. exists c', (OElt (Some x)), m', false. split; [reflexivity|].
        split; [split; [reflexivity|]; exists (x :: m'); auto|]. split; [exists m'; auto|auto].
    - destruct m as [|z m0].
      + apply Permutation_sym, Permutation_nil in X'. subst l. destruct (removeLast_empty c G) as (c' & E & G'). rewrite E. cbn [obind elt].
        exists c', (OElt None), [], false. split; [reflexivity|]. split; [cbn; auto|]. split; [exists []; auto|]. intros Y. discriminate.
      + destruct (removeLast_ok c (z :: m0) G ltac:(congruence)) as (c' & m' & x & E & G' & P & Gx & Q). rewrite E. cbn [obind elt].
        assert (Nl : l <> []) by (intros ->; apply Permutation_nil in X'; congruence).
        exists c', (OElt (Some x)), m', false. split; [reflexivity|].
        split.
        { cbn [sstep]. split; [reflexivity|]. destruct l; [congruence|]. exists x. split; [reflexivity|]. split; [eapply greatest_perm; eassumption|].
          destruct b; [destruct X as (<- & X); apply Q, X|eapply Permutation_trans; eassumption]. }
        split; [exists m'; auto|]. intros Y. discriminate.
    - destruct (removeAt_ok c m i G) as (c' & m' & P & S & Q & F' & H).
      assert (Sn : seen leb l b m') by (eapply seen_of; eassumption).
      cbn [sstep]. destruct (pick m' i) as [x|] eqn:Pk.
      + destruct H as (E & u & v & -> & Lu & G'). rewrite E. cbn [obind elt]. exists c', (OElt (Some x)), (u ++ v), false. split; [reflexivity|].
        split; [split; [reflexivity|]; exists (u ++ x :: v); rewrite Pk; split; [exact Sn|]; split; [reflexivity|]; exists u, v; auto|].
        split; [exists (u ++ v); auto|auto].
      + destruct H as (E & G'). rewrite E. cbn [obind elt]. exists c', (OElt None), m', false. split; [reflexivity|].
        split; [split; [reflexivity|]; exists m'; rewrite Pk; auto|]. split; [exists m'; auto|auto].
    - destruct (do_ok' c m G) as (c' & m' & E & G' & F' & P & S & Q). rewrite E. cbn [obind].
      exists c', (OList m'), m', true. split; [reflexivity|]. split.
      { split; [|auto]. eapply seen_of; [exact G|exact X|exact P|apply S|exact Q]. }
      split; [|auto]. exists m'. auto.
    - exists c, (ONum (count c)), l, b. split; [reflexivity|]. split.
      { split; [|auto]. unfold count, size. destruct G as (p & q & B & _). rewrite B. cbn [lastIndex firstIndex].
        rewrite (Permutation_length X'). f_equal. lia. }
      split; [exists m; auto|]. intros Y. apply F. rewrite andb_true_r in Y. destruct d; [discriminate|reflexivity].
  Qed.

  Lemma calm_cons d msg (ms : list (smsg A)) : calm d (msg :: ms) = true ->
    exists d', calm d [msg] = true /\ calm d' ms = true /\ (d' = false -> calm d [msg; MAdd nil] = true).
  Proof.
    destruct msg; cbn; intros H; try (exists false; auto; fail).
    - apply andb_prop in H as (H1 & H2). exists false. rewrite H1. auto.
    - apply andb_prop in H as (H1 & H2). exists false. rewrite H1. auto.
    - exists true. split; [reflexivity|]. split; [exact H|]. discriminate.
    - exists d. split; [reflexivity|]. split; [exact H|]. intros ->. reflexivity.
  Qed.

  Lemma shist_ok ms : forall c l (b d : bool), state_ok c l b -> (d = false -> fresh c) -> calm d ms = true ->
    exists os, shist nil R one ms c = Ok os /\ sruns leb l b ms os.
  Proof.
    induction ms as [|msg ms IH]; intros c l b d X F C.
    - exists []. split; [reflexivity|constructor].
    - apply calm_cons in C as (d' & C1 & C2 & C3).
      destruct (ssend_ok c l b d msg X F C1) as (c' & o & l' & b' & E & St & X' & F'). cbn [shist]. rewrite E. cbn [obind].
      destruct (IH c' l' b' d' X') as (os & Eo & Ro); [auto|exact C2|]. rewrite Eo. cbn [obind].
      exists (o :: os). split; [reflexivity|]. econstructor; eassumption.
  Qed.
  Lemma new_ok n ms : 0 <= n -> calm false ms = true ->
    exists c os, sc_new nil n = Ok c /\ shist nil R one ms c = Ok os /\ sruns leb [] false ms os.
  Proof.
    intros N C. unfold sc_new. replace (n <? 0) with false by lia. eexists.
    destruct (shist_ok ms (initIndices (repeat nil (Z.to_nat n))) [] false false) as (os & E & S).
    - exists []. split; [apply init_good|apply Permutation_refl].
    - intros _. apply init_good.
    - exact C.
    - exists os. split; [reflexivity|]. auto.
  Qed.
End Proofs.
