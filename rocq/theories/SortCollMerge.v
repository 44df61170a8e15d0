(** Merging new elements in an ordered range. *)
From Coq Require Import Permutation Sorted.
From Verif Require Import Base Hashed HashedProofs Replace OrderColl OrderCollProofs SortColl SortCollSpec SortCollArr SortCollSort.
Local Open Scope Z_scope.

Section Merge.
  Context {A : Type} (nil : A) (R leb : A -> A -> bool).
  Hypothesis total : forall x y, leb x y = true \/ leb y x = true.
  Hypothesis trans : forall x y z, leb x y = true -> leb y z = true -> leb x z = true.
  Hypothesis R_spec : (forall x y, R x y = leb x y) \/ (forall x y, R x y = negb (leb y x)).
  Implicit Types (s p q m a b l : list A).
  Local Notation len l := (Z.of_nat (length l)).
  Local Notation get := (get nil).
  Local Notation "x <== y" := (leb x y = true) (at level 70).
  Local Notation Rt := (R_true R leb total R_spec).
  Local Notation Rf := (R_false R leb total R_spec).
  Local Notation srange := (srange nil leb).
  Local Notation SS := (in_order leb).

  Lemma get_mid p m q i : 1 <= i <= len m -> get (p ++ m ++ q) (len p + i) = nth (Z.to_nat (i - 1)) m nil.
  Proof.
    intros I. unfold SortCollArr.get. rewrite app_nth2 by lia. rewrite app_nth1 by lia. f_equal. lia.
  Qed.
  Lemma SS_nth m : SS m <-> (forall i j, (i <= j)%nat -> (j < length m)%nat -> nth i m nil <== nth j m nil).
  Proof.
    split.
    - induction 1 as [|x m S IH F]; intros i j I J; [cbn in J; lia|].
      destruct j as [|j]; [replace i with 0%nat by lia; apply (leb_refl leb total)|].
      cbn in J. destruct i as [|i]; [|apply IH; lia]. cbn. rewrite Forall_forall in F. apply F, nth_In. lia.
    - induction m as [|x m IH]; intros H; constructor.
      + apply IH. intros i j I J. apply (H (S i) (S j)); cbn; lia.
      + apply Forall_forall. intros y Y. apply (In_nth _ _ nil) in Y as (n & N & <-). apply (H 0%nat (S n)); cbn; lia.
  Qed.
  Lemma srange_SS p m q : srange (p ++ m ++ q) (len p + 1) (len p + len m) <-> SS m.
  Proof.
    rewrite SS_nth. split; intros H.
    - intros i j I J. specialize (H (len p + (Z.of_nat i + 1)) (len p + (Z.of_nat j + 1)) ltac:(lia) ltac:(lia) ltac:(lia)).
      rewrite !get_mid in H by lia. replace (Z.to_nat _) with i in H by lia. replace (Z.to_nat _) with j in H by lia. exact H.
    - intros i j I J K. replace i with (len p + (i - len p)) by lia. replace j with (len p + (j - len p)) by lia.
      rewrite !get_mid by lia. apply H; lia.
  Qed.
  Lemma rperm_split p m q s' : rperm nil (len p + 1) (len p + len m) (p ++ m ++ q) s' ->
    exists m', s' = p ++ m' ++ q /\ Permutation m m' /\ length m' = length m.
  Proof.
    intros (L & O & P). rewrite !app_length in L.
    destruct (split_at s' (length p)) as (p' & r & -> & Lp); [lia|]. rewrite app_length in L.
    destruct (split_at r (length m)) as (m' & q' & -> & Lm); [lia|]. rewrite app_length in L.
    assert (p' = p) as ->.
    { apply (get_ext nil _ _ Lp). intros i I. specialize (O i ltac:(lia) ltac:(lia)). unfold SortCollArr.get in *.
      rewrite !app_nth1 in O by lia. exact O. }
    assert (q' = q) as ->.
    { apply (get_ext nil); [lia|]. intros i I. specialize (O (len p + len m + i) ltac:(lia) ltac:(lia)). unfold SortCollArr.get in *.
      rewrite !app_assoc in O. rewrite !app_nth2 in O by (rewrite app_length; lia). rewrite !app_length in O.
      replace (Z.to_nat (len p + len m + i - 1) - (length p + length m'))%nat with (Z.to_nat (i - 1)) in O by lia.
      replace (Z.to_nat (len p + len m + i - 1) - (length p + length m))%nat with (Z.to_nat (i - 1)) in O by lia. exact O. }
    exists m'. split; [reflexivity|]. split; [|exact Lm]. apply Permutation_app_inv_l, Permutation_app_inv_r in P. exact P.
  Qed.
  Lemma sort_mid p m q : exists m', sort_store nil R (p ++ m ++ q) (len p + 1) (len p + len m) = Ok (p ++ m' ++ q) /\
    Permutation m m' /\ SS m' /\ length m' = length m.
  Proof.
    destruct (sort_store_ok nil R leb total trans R_spec (p ++ m ++ q) (len p + 1) (len p + len m)) as (s' & E & P & S);
      [lia|rewrite !app_length; lia|].
    destruct (rperm_split p m q s' P) as (m' & -> & P' & L). exists m'. split; [exact E|]. split; [exact P'|].
    split; [|exact L]. rewrite <- L in S. apply srange_SS in S. exact S.
  Qed.

  Lemma insertion_ok s f i x : 1 <= f -> i <= len s -> srange s f i -> forall fuel lo hi,
    f <= lo -> lo <= hi + 1 -> hi <= i -> hi - lo < Z.of_nat fuel ->
    (forall k, f <= k < lo -> get s k <== x) -> (forall k, hi < k <= i -> x <== get s k) ->
    exists r, insertion nil R fuel s x lo hi = Ok r /\ f <= r <= i + 1 /\
      (forall k, f <= k < r -> get s k <== x) /\ (forall k, r <= k <= i -> x <== get s k).
  Proof.
    intros F B S. induction fuel as [|n IH]; intros lo hi B1 B2 B3 Fu U V.
    - cbn [insertion]. destruct (Z.ltb_spec hi lo); [|lia]. exists lo. split; [reflexivity|]. split; [lia|].
      split; [exact U|]. intros k K. apply V. lia.
    - cbn [insertion]. destruct (Z.ltb_spec hi lo) as [H|H].
      + exists lo. split; [reflexivity|]. split; [lia|]. split; [exact U|]. intros k K. apply V. lia.
      + rewrite at_ok by lia. cbn [obind]. destruct (R (get s ((hi + lo) / 2)) x) eqn:E.
        * apply IH; [lia|lia|lia|lia| |exact V]. intros k K. apply (trans _ (get s ((hi + lo) / 2))); [apply S; lia|apply Rt, E].
        * apply IH; [lia|lia|lia|lia|exact U|]. intros k K. apply (trans _ (get s ((hi + lo) / 2))); [apply Rf, E|apply S; lia].
  Qed.
  Lemma insertion_mid p a t x : SS a -> exists a1 a2, a = a1 ++ a2 /\
    insertion nil R (length (p ++ a ++ t)) (p ++ a ++ t) x (len p + 1) (len p + len a) = Ok (len p + len a1 + 1) /\
    (forall y, In y a1 -> y <== x) /\ (forall y, In y a2 -> x <== y).
  Proof.
    intros S. apply (srange_SS p a t) in S.
    destruct (insertion_ok (p ++ a ++ t) (len p + 1) (len p + len a) x ltac:(lia) ltac:(rewrite !app_length; lia) S
      (length (p ++ a ++ t)) (len p + 1) (len p + len a)) as (r & E & B & U & V);
      [lia|lia|lia|rewrite !app_length; lia|lia|lia|].
    destruct (split_at a (Z.to_nat (r - len p - 1))) as (a1 & a2 & -> & L); [lia|].
    rewrite app_length in B, V.
    exists a1, a2. split; [reflexivity|]. split; [rewrite E; f_equal; lia|]. split.
    - intros y Y. apply (In_nth _ _ nil) in Y as (n & N & <-). specialize (U (len p + (Z.of_nat n + 1)) ltac:(lia)).
      rewrite get_mid in U by (rewrite app_length; lia). replace (Z.to_nat (Z.of_nat n + 1 - 1)) with n in U by lia.
      rewrite app_nth1 in U by lia. exact U.
    - intros y Y. apply (In_nth _ _ nil) in Y as (n & N & <-). specialize (V (len p + (len a1 + Z.of_nat n + 1)) ltac:(lia)).
      rewrite get_mid in V by (rewrite app_length; lia).
      rewrite app_nth2 in V by lia. replace (Z.to_nat _ - _)%nat with n in V by lia. exact V.
  Qed.

  Lemma SS_app a b : SS (a ++ b) <-> SS a /\ SS b /\ (forall x y, In x a -> In y b -> x <== y).
  Proof.
    induction a as [|z a IH]; cbn [app].
    - split; [intros H; split; [constructor|split; [exact H|intros x y []]]|tauto].
    - split.
      + intros H. inversion H as [|? ? H1 H2]; subst. apply IH in H1 as (S1 & S2 & X). rewrite Forall_forall in H2.
        split; [constructor; [exact S1|]|split; [exact S2|]].
        * apply Forall_forall. intros y Y. apply H2, in_or_app. auto.
        * intros x y [-> | Hx] Hy; [apply H2, in_or_app; auto|apply X; assumption].
      + intros (S1 & S2 & X). inversion S1 as [|? ? H1 H2]; subst. constructor.
        * apply IH. split; [exact H1|split; [exact S2|]]. intros x y Hx Hy. apply X; [right; exact Hx|exact Hy].
        * rewrite Forall_forall in *. intros y Y. apply in_app_or in Y as [Y|Y]; [apply H2, Y|apply X; [left; reflexivity|exact Y]].
  Qed.

  Lemma mergeLoop_ok p q : forall l a g b, length g = length l -> SS a -> SS b -> SS (rev l) ->
    (forall x y, In x a -> In y b -> x <== y) -> (forall x y, In x l -> In y b -> x <== y) ->
    exists m, mergeLoop nil R l (p ++ a ++ g ++ b ++ q) (len p + 1) (len l) (len p + len a) = Ok (p ++ m ++ q) /\
      SS m /\ Permutation (a ++ l ++ b) m.
  Proof.
    induction l as [|x l IH]; intros a g b G Sa Sb Sl Xa Xl.
    - destruct g; [|discriminate]. exists (a ++ b). cbn [mergeLoop app]. rewrite <- app_assoc. split; [reflexivity|].
      split; [apply SS_app; auto|apply Permutation_refl].
    - cbn [mergeLoop]. destruct (insertion_mid p a (g ++ b ++ q) x Sa) as (a1 & a2 & -> & E & U & V).
      rewrite E. cbn [obind]. rewrite <- !app_assoc.
      apply SS_app in Sa as (Sa1 & Sa2 & _).
      assert (Lr : SS (rev l) /\ forall y, In y l -> y <== x).
      { cbn [rev] in Sl. apply SS_app in Sl as (S1 & _ & X). split; [exact S1|]. intros y Y. apply X; [apply -> in_rev; exact Y|left; reflexivity]. }
      destruct Lr as (Sl' & Xx).
      set (h := a2 ++ g).
      destruct (split_at h (length l)) as (h1 & h2 & Eh & Lh); [unfold h; rewrite app_length; cbn in G; lia|].
      assert (Lh2 : exists y h3, h2 = y :: h3 /\ length h3 = length a2).
      { apply (f_equal (@length A)) in Eh. unfold h in Eh. rewrite !app_length in Eh. cbn in G.
        destruct h2 as [|y h3]; cbn in Eh; [lia|]. exists y, h3. split; [reflexivity|lia]. }
      destruct Lh2 as (y & h3 & -> & Lh3).
      assert (Er : replace_range (p ++ a1 ++ a2 ++ g ++ b ++ q) (len p + len a1 + 1 + len (x :: l)) (len p + len (a1 ++ a2) + len (x :: l))
                  (p ++ a1 ++ a2 ++ g ++ b ++ q) (len p + len a1 + 1) = Some ((p ++ a1 ++ h1) ++ y :: a2 ++ b ++ q)).
      { unfold replace_range. rewrite !app_length. cbn [length] in *.
        replace (_ || _) with false by lia. f_equal.
        replace (p ++ a1 ++ a2 ++ g ++ b ++ q) with ((p ++ a1 ++ h1 ++ [y]) ++ h3 ++ b ++ q) at 1.
        2:{ transitivity (p ++ a1 ++ h ++ b ++ q); [rewrite Eh|unfold h]; rewrite <- !app_assoc; reflexivity. }
        replace (Z.to_nat (len p + len a1 + 1 + Z.of_nat (S (length l)) - 1)) with (length (p ++ a1 ++ h1 ++ [y])) by (rewrite !app_length; cbn; lia).
        rewrite firstn_app_len.
        replace (skipn (Z.to_nat (len p + len a1 + 1 - 1)) (p ++ a1 ++ a2 ++ g ++ b ++ q)) with (a2 ++ g ++ b ++ q).
        2:{ rewrite (app_assoc p). replace (Z.to_nat _) with (length (p ++ a1)) by (rewrite app_length; lia). rewrite skipn_app_len. reflexivity. }
        replace (Z.to_nat (len p + Z.of_nat (length a1 + length a2) + Z.of_nat (S (length l)) - (len p + len a1 + 1 + Z.of_nat (S (length l))) + 1)) with (length a2) by lia.
        rewrite firstn_app_len.
        replace (p ++ a1 ++ a2 ++ g ++ b ++ q) with ((p ++ a1 ++ a2 ++ g) ++ b ++ q) by (rewrite <- !app_assoc; reflexivity).
        replace (Z.to_nat _) with (length (p ++ a1 ++ a2 ++ g)) by (rewrite !app_length; lia).
        rewrite skipn_app_len. rewrite <- !app_assoc. reflexivity. }
      rewrite Er. cbv zeta. replace (len (x :: l) - 1) with (len l) by (cbn [length]; lia).
      rewrite basicAtPut_app by (rewrite !app_length; lia). cbn [obind].
      replace (len p + len a1 + 1 - 1) with (len p + len a1) by lia.
      destruct (IH a1 h1 (x :: a2 ++ b)) as (m & Em & Sm & Pm); [exact Lh|exact Sa1| |exact Sl'| | |].
      + constructor.
        * apply SS_app. split; [exact Sa2|]. split; [exact Sb|]. intros u w Hu Hw. apply Xa; [apply in_or_app; auto|exact Hw].
        * apply Forall_forall. intros w Hw. apply in_app_or in Hw as [Hw|Hw]; [apply V, Hw|apply Xl; [left; reflexivity|exact Hw]].
      + intros u w Hu [<-|Hw]; [apply U, Hu|]. apply (trans _ x); [apply U, Hu|].
        apply in_app_or in Hw as [Hw|Hw]; [apply V, Hw|apply Xl; [left; reflexivity|exact Hw]].
      + intros u w Hu [<-|Hw]; [apply Xx, Hu|]. apply (trans _ x); [apply Xx, Hu|].
        apply in_app_or in Hw as [Hw|Hw]; [apply V, Hw|apply Xl; [left; reflexivity|exact Hw]].
      + exists m. rewrite <- !app_assoc in *. cbn [app] in Em. rewrite <- !app_assoc in Em. split; [exact Em|]. split; [exact Sm|].
        eapply Permutation_trans; [|exact Pm]. apply Permutation_app_head. cbn [app].
        change (x :: l ++ b) with ((x :: l) ++ b). rewrite app_assoc.
        transitivity ((x :: l ++ a2) ++ b).
        * apply Permutation_app_tail. cbn [app]. rewrite (Permutation_app_comm a2 (x :: l)). reflexivity.
        * cbn [app]. rewrite <- app_assoc. apply Permutation_middle.
  Qed.

  Lemma merge_mid p a u q : SS a -> exists m,
    merge_store nil R (p ++ (a ++ u) ++ q) (len p + 1) (len p + len (a ++ u)) (len p + len a) = Ok (p ++ m ++ q) /\
    SS m /\ Permutation (a ++ u) m.
  Proof.
    intros Sa. unfold merge_store.
    destruct (sort_mid (p ++ a) u q) as (u1 & E1 & P1 & S1 & L1).
    rewrite !app_length, <- !app_assoc in *.
    replace (len p + Z.of_nat (length a + length u)) with (Z.of_nat (length p + length a) + len u) by lia.
    replace (len p + len a + 1) with (Z.of_nat (length p + length a) + 1) by lia.
    rewrite E1. cbn [obind].
    replace (Z.to_nat (Z.of_nat (length p + length a) + len u - (len p + len a))) with (length u1) by lia.
    rewrite (app_assoc p a). rewrite do_app by (rewrite app_length; lia). cbn [obind].
    destruct (sort_mid [] u1 []) as (u2 & E2 & P2 & S2 & L2). cbn [app length] in E2. rewrite !app_nil_r in E2.
    change (Z.of_nat 0 + 1) with 1 in E2. change (Z.of_nat 0 + len u1) with (len u1) in E2. rewrite E2. cbn [obind].
    rewrite <- app_assoc.
    replace (Z.of_nat (length p + length a) + len u - len u2) with (len p + len a) by lia.
    destruct (mergeLoop_ok p q (rev u2) a u1 []) as (m & Em & Sm & Pm).
    - rewrite rev_length. lia.
    - exact Sa.
    - constructor.
    - rewrite rev_involutive. exact S2.
    - intros ? ? ? [].
    - intros ? ? ? [].
    - rewrite rev_length in Em. cbn [app] in Em. exists m. split; [exact Em|]. split; [exact Sm|].
      eapply Permutation_trans; [|exact Pm]. apply Permutation_app_head. rewrite app_nil_r.
      eapply Permutation_trans; [exact P1|]. eapply Permutation_trans; [exact P2|]. apply Permutation_rev.
  Qed.
  Lemma merge_none s (f l o : Z) : l < o -> 0 <= l -> merge_store nil R s f l o = Ok s.
  Proof.
    intros H L. unfold merge_store, sort_store.
    assert (X : forall t g h n, h <= g -> sortFrom nil R n t g h = Ok t).
    { intros t g h n G. destruct n; cbn [sortFrom]; replace (h - g <? 2) with true by lia; replace (g <? h) with false by lia; reflexivity. }
    rewrite X by lia. cbn [obind]. replace (Z.to_nat (l - o)) with 0%nat by lia. cbn [do_ obind length]. rewrite X by lia. reflexivity.
  Qed.
End Merge.
