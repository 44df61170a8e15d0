(** Reading, writing and permuting a range of a store. *)
From Coq Require Import Permutation.
From Verif Require Import Base Hashed HashedProofs Replace OrderColl SortColl.
Local Open Scope Z_scope.

Section Arr.
  Context {A : Type} (nil : A).
  Implicit Types (s : list A).
  Local Notation len l := (Z.of_nat (length l)).

  Definition get s (i : Z) : A := nth (Z.to_nat (i - 1)) s nil.
  Definition put s (i : Z) (x : A) : list A := replace (Z.to_nat (i - 1)) x s.

  Lemma at_ok s i : 1 <= i <= len s -> basicAt nil s i = Ok (get s i).
  Proof. intros H. unfold basicAt. replace ((1 <=? i) && _) with true by lia. reflexivity. Qed.
  Lemma put_ok s i x : 1 <= i <= len s -> basicAtPut s i x = Ok (put s i x).
  Proof. intros H. unfold basicAtPut. replace ((1 <=? i) && _) with true by lia. reflexivity. Qed.
  Lemma put_length s i x : length (put s i x) = length s.
  Proof. apply replace_length. Qed.
  Lemma get_put s i j x : 1 <= i <= len s -> 1 <= j -> get (put s i x) j = if j =? i then x else get s j.
  Proof.
    intros H J. unfold get, put. rewrite nth_replace by lia.
    destruct (Z.eqb_spec j i); destruct (Nat.eqb_spec (Z.to_nat (j - 1)) (Z.to_nat (i - 1))); lia || reflexivity.
  Qed.
  Lemma get_put_same s i x : 1 <= i <= len s -> get (put s i x) i = x.
  Proof. intros H. rewrite get_put by lia. rewrite Z.eqb_refl. reflexivity. Qed.
  Lemma get_put_other s i j x : 1 <= i <= len s -> 1 <= j -> j <> i -> get (put s i x) j = get s j.
  Proof. intros H J N. rewrite get_put by lia. destruct (Z.eqb_spec j i); [lia|reflexivity]. Qed.

  Lemma get_ext s s' : length s = length s' -> (forall i, 1 <= i <= len s -> get s i = get s' i) -> s = s'.
  Proof.
    intros L H. apply (nth_ext _ _ nil nil L). intros n N. specialize (H (Z.of_nat n + 1) ltac:(lia)).
    unfold get in H. replace (Z.to_nat (Z.of_nat n + 1 - 1)) with n in H by lia. exact H.
  Qed.
  Lemma put_get s i : 1 <= i <= len s -> put s i (get s i) = s.
  Proof.
    intros H. apply get_ext; [apply put_length|]. rewrite put_length. intros j J. rewrite get_put by lia.
    destruct (Z.eqb_spec j i); [subst|]; reflexivity.
  Qed.

  Lemma replace_perm i x s : (i < length s)%nat -> Permutation (x :: s) (nth i s nil :: replace i x s).
  Proof.
    revert i. induction s as [|y s IH]; intros i H; [cbn in H; lia|].
    destruct i as [|i]; cbn; [apply perm_swap|].
    cbn in H. specialize (IH i ltac:(lia)).
    transitivity (y :: x :: s); [apply perm_swap|]. transitivity (y :: nth i s nil :: replace i x s).
    - constructor. exact IH.
    - apply perm_swap.
  Qed.
  Lemma put_perm s i x : 1 <= i <= len s -> Permutation (x :: s) (get s i :: put s i x).
  Proof. intros H. apply replace_perm. lia. Qed.

  (** [s'] is [s] with the elements from [f] to [l] permuted. *)
  Definition rperm (f l : Z) s s' : Prop :=
    length s' = length s /\ (forall i, 1 <= i -> i < f \/ l < i -> get s' i = get s i) /\ Permutation s s'.

  Lemma rperm_refl f l s : rperm f l s s.
  Proof. split; [reflexivity|split; [reflexivity|apply Permutation_refl]]. Qed.
  Lemma rperm_trans f l s1 s2 s3 : rperm f l s1 s2 -> rperm f l s2 s3 -> rperm f l s1 s3.
  Proof.
    intros (L1 & O1 & P1) (L2 & O2 & P2). split; [congruence|]. split.
    - intros i I O. rewrite O2, O1 by assumption. reflexivity.
    - eapply Permutation_trans; eassumption.
  Qed.
  Lemma rperm_mono f l f' l' s s' : rperm f l s s' -> f' <= f -> l <= l' -> rperm f' l' s s'.
  Proof. intros (L & O & P) F G. split; [exact L|]. split; [|exact P]. intros i I B. apply O; lia. Qed.
  Lemma rperm_length f l s s' : rperm f l s s' -> length s' = length s.
  Proof. intros (L & _). exact L. Qed.
  Lemma rperm_out f l s s' i : rperm f l s s' -> 1 <= i -> i < f \/ l < i -> get s' i = get s i.
  Proof. intros (_ & O & _). apply O. Qed.

  Lemma swap_perm s i j : 1 <= i <= len s -> 1 <= j <= len s ->
    Permutation s (put (put s i (get s j)) j (get s i)).
  Proof.
    intros I J. pose proof (put_perm s i (get s j) I) as P1.
    pose proof (put_perm (put s i (get s j)) j (get s i)) as P2.
    rewrite put_length in P2. specialize (P2 J).
    assert (get (put s i (get s j)) j = get s j) as E.
    { rewrite get_put by lia. destruct (Z.eqb_spec j i); reflexivity. }
    rewrite E in P2. apply (Permutation_cons_inv (a := get s j)). eapply Permutation_trans; [exact P1|]. exact P2.
  Qed.
  Definition swapped s i j := put (put s i (get s j)) j (get s i).
  Lemma swapped_length s i j : length (swapped s i j) = length s.
  Proof. unfold swapped. rewrite !put_length. reflexivity. Qed.
  Lemma swapped_get s i j k : 1 <= i <= len s -> 1 <= j <= len s -> 1 <= k ->
    get (swapped s i j) k = if k =? j then get s i else if k =? i then get s j else get s k.
  Proof.
    intros I J K. unfold swapped. rewrite get_put by (rewrite ?put_length; lia).
    destruct (k =? j); [reflexivity|]. apply get_put; lia.
  Qed.
  Lemma swapped_rperm s i j f l : 1 <= i <= len s -> 1 <= j <= len s -> f <= i <= l -> f <= j <= l ->
    rperm f l s (swapped s i j).
  Proof.
    intros I J FI FJ. split; [apply swapped_length|]. split; [|apply swap_perm; assumption].
    intros k K O. rewrite swapped_get by assumption.
    destruct (Z.eqb_spec k j); [lia|]. destruct (Z.eqb_spec k i); [lia|]. reflexivity.
  Qed.
  Lemma swap_ok s i j : 1 <= i <= len s -> 1 <= j <= len s -> swap nil s i j = Ok (swapped s i j).
  Proof.
    intros I J. unfold swap. rewrite !at_ok by assumption. cbn [obind]. rewrite put_ok by assumption. cbn [obind].
    apply put_ok. rewrite put_length. exact J.
  Qed.

  Lemma skipn_plus (n m : nat) s : skipn n (skipn m s) = skipn (m + n) s.
  Proof. revert s. induction m as [|m IH]; intros s; [reflexivity|]. destruct s; cbn; [apply skipn_nil|apply IH]. Qed.
  (** The elements of the range come from the range. *)
  Lemma rperm_src f l s s' i : rperm f l s s' -> 1 <= f -> l <= len s -> f <= i <= l ->
    exists k, f <= k <= l /\ get s' i = get s k.
  Proof.
    intros (L & O & P) F G I.
    set (a := Z.to_nat (f - 1)). set (b := Z.to_nat l).
    assert (D : forall t : list A, t = firstn a t ++ firstn (b - a) (skipn a t) ++ skipn b t).
    { intros t. rewrite <- (firstn_skipn a t) at 1. f_equal.
      rewrite <- (firstn_skipn (b - a) (skipn a t)) at 1. f_equal. rewrite skipn_plus. f_equal. unfold a, b. lia. }
    assert (F1 : firstn a s' = firstn a s).
    { apply (nth_ext _ _ nil nil); [rewrite !firstn_length; lia|]. intros n N. rewrite firstn_length in N.
      specialize (O (Z.of_nat n + 1) ltac:(lia) ltac:(left; unfold a in N; lia)).
      unfold get in O. replace (Z.to_nat (Z.of_nat n + 1 - 1)) with n in O by lia.
      rewrite <- (firstn_skipn a s) in O at 1. rewrite <- (firstn_skipn a s') in O at 1.
      rewrite !app_nth1 in O by (rewrite firstn_length; lia). exact O. }
    assert (F2 : skipn b s' = skipn b s).
    { apply (nth_ext _ _ nil nil); [rewrite !skipn_length; lia|]. intros n N. rewrite skipn_length in N.
      specialize (O (Z.of_nat (b + n) + 1) ltac:(lia) ltac:(right; unfold b in N; lia)).
      unfold get in O. replace (Z.to_nat (Z.of_nat (b + n) + 1 - 1)) with (b + n)%nat in O by lia.
      rewrite <- (firstn_skipn b s) in O at 1. rewrite <- (firstn_skipn b s') in O at 1.
      assert (L1 : length (firstn b s) = b) by (rewrite firstn_length; unfold b; lia).
      assert (L2 : length (firstn b s') = b) by (rewrite firstn_length; unfold b; lia).
      rewrite !app_nth2 in O by lia. rewrite L1, L2 in O. replace (b + n - b)%nat with n in O by lia. exact O. }
    assert (Q : Permutation (firstn (b - a) (skipn a s)) (firstn (b - a) (skipn a s'))).
    { rewrite (D s), (D s') in P. rewrite F1, F2 in P. apply Permutation_app_inv_l in P.
      apply Permutation_app_inv_r in P. exact P. }
    assert (N : forall (t : list A) n, length t = length s -> (n < b - a)%nat ->
              nth (a + n) t nil = nth n (firstn (b - a) (skipn a t)) nil).
    { intros t n Lt Nt. transitivity (nth (a + n) (firstn a t ++ firstn (b - a) (skipn a t) ++ skipn b t) nil); [f_equal; apply D|].
      assert (L1 : length (firstn a t) = a) by (rewrite firstn_length; unfold a, b in *; lia).
      rewrite app_nth2 by lia. rewrite L1, app_nth1; [f_equal; lia|].
      rewrite firstn_length, skipn_length. unfold a, b in *; lia. }
    assert (X : In (get s' i) (firstn (b - a) (skipn a s'))).
    { unfold get. replace (Z.to_nat (i - 1)) with (a + (Z.to_nat (i - f)))%nat by (unfold a; lia).
      rewrite N by (unfold a, b; lia).
      apply nth_In. rewrite firstn_length, skipn_length. unfold a, b in *. lia. }
    apply (Permutation_in _ (Permutation_sym Q)) in X. apply (In_nth _ _ nil) in X as (n & M & E).
    rewrite firstn_length, skipn_length in M.
    exists (Z.of_nat n + f). split; [unfold a, b in *; lia|]. rewrite <- E. unfold get.
    replace (Z.to_nat (Z.of_nat n + f - 1)) with (a + n)%nat by (unfold a; lia).
    symmetry. apply N; lia.
  Qed.
  Lemma rperm_all f l s s' (P : A -> Prop) : rperm f l s s' -> 1 <= f -> l <= len s ->
    (forall i, f <= i <= l -> P (get s i)) -> forall i, f <= i <= l -> P (get s' i).
  Proof.
    intros R F L H i I. destruct (rperm_src f l s s' i R F L I) as (k & K & ->). apply H, K.
  Qed.
End Arr.
