(** Proofs about sequences. *)
From Verif Require Import Base Replace ReplaceSpec ReplaceProofs SeqOps SeqOpsSpec.

Section Lists.
  Context {A : Type}.
  Implicit Types l m : list A.
  Lemma nth_error_ext' l m : length l = length m -> (forall i, nth_error l i = nth_error m i) -> l = m.
  Proof.
    revert m. induction l as [|a l IH]; intros [|b m] L H; try discriminate; [reflexivity|].
    f_equal. - specialize (H 0%nat). cbn in H. congruence.
    - apply IH; [cbn in L; lia|]. intros i. exact (H (S i)).
  Qed.
  Lemma replaced_unique dst start stop src from l m :
    replaced dst start stop src from l -> replaced dst start stop src from m -> l = m.
  Proof.
    intros [L1 H1] [L2 H2]. apply nth_error_ext'; [congruence|]. intros i.
    specialize (H1 (Z.of_nat i + 1)). specialize (H2 (Z.of_nat i + 1)). unfold elt at 1 in H1. unfold elt at 1 in H2.
    replace (Z.of_nat i + 1 <=? 0) with false in H1, H2 by lia.
    replace (Z.to_nat (Z.of_nat i + 1 - 1)) with i in H1, H2 by lia. congruence.
  Qed.
  Lemma at_elt l i x : at_ l i = Ok x <-> elt l i = Some x.
  Proof.
    unfold at_, elt, size. destruct (Z.leb_spec i 0).
    - replace (1 <=? i) with false by lia. cbn. split; discriminate.
    - replace (1 <=? i) with true by lia. cbn [andb]. destruct (Z.leb_spec i (Z.of_nat (length l))).
      + destruct (nth_error l _) eqn:E; [split; congruence|]. apply nth_error_None in E. lia.
      + split; [discriminate|]. intros E. assert (nth_error l (Z.to_nat (i - 1)) <> None) by congruence.
        apply nth_error_Some in H1. lia.
  Qed.
  Lemma at_in l i : 1 <= i <= size l -> exists x, at_ l i = Ok x.
  Proof.
    intros H. unfold size in H. assert (nth_error l (Z.to_nat (i - 1)) <> None) by (apply nth_error_Some; lia).
    destruct (nth_error l (Z.to_nat (i - 1))) as [x|] eqn:E; [|congruence]. exists x. unfold at_, size.
    replace (_ && _) with true by lia. rewrite E. reflexivity.
  Qed.
  Lemma at_out l i : ~ (1 <= i <= size l) -> at_ l i = Err.
  Proof. intros H. unfold at_. replace (_ && _) with false by lia. reflexivity. Qed.
  Lemma at_app l m i : i = size l + 1 -> at_ (l ++ m) i = match m with x :: _ => Ok x | [] => Err end.
  Proof.
    intros ->. unfold at_, size. rewrite app_length. destruct m as [|x m]; cbn [length].
    - replace (_ && _) with false by lia. reflexivity.
    - replace (_ && _) with true by lia. rewrite nth_error_app2 by lia.
      replace (_ - length l)%nat with 0%nat by lia. reflexivity.
  Qed.
  Lemma at_put_spec l i x l' : at_put l i x = Some l' ->
    1 <= i <= size l /\ length l' = length l /\ forall j, elt l' j = if j =? i then Some x else elt l j.
  Proof.
    unfold at_put, size. destruct (_ && _) eqn:B; [|discriminate]. intros [= <-].
    repeat split; try lia.
    - rewrite app_length. cbn [length]. rewrite firstn_length, skipn_length. lia.
    - intros j. unfold elt. destruct (Z.leb_spec j 0) as [J|J].
      { replace (j =? i) with false by lia. reflexivity. }
      destruct (Z.lt_trichotomy j i) as [C|[C|C]].
      + replace (j =? i) with false by lia. rewrite nth_error_app1 by (rewrite firstn_length; lia).
        apply nth_error_firstn_lt. lia.
      + replace (j =? i) with true by lia. rewrite nth_error_app2 by (rewrite firstn_length; lia).
        rewrite firstn_length. replace (_ - _)%nat with 0%nat by lia. reflexivity.
      + replace (j =? i) with false by lia. rewrite nth_error_app2 by (rewrite firstn_length; lia).
        rewrite firstn_length. replace (_ - _)%nat with (S (Z.to_nat (j - 1) - Z.to_nat i)) by lia.
        cbn [nth_error]. rewrite nth_error_skipn. f_equal. lia.
  Qed.
  Lemma at_put_in l i x : 1 <= i <= size l -> exists l', at_put l i x = Some l'.
  Proof. intros H. unfold at_put. replace (_ && _) with true by lia. eauto. Qed.

  (** ** The loop that copies *)
  Lemma copy_up n : forall l (src : source) delta i,
    1 <= i -> i + Z.of_nat n - 1 <= size l -> 1 <= i - delta -> i - delta + Z.of_nat n - 1 <= size (elements src l) ->
    (src = Self -> delta < 0) ->
    exists l', copy_loop l src delta i 1 n = (l', true) /\
      replaced l i (i + Z.of_nat n - 1) (elements src l) (i - delta) l'.
  Proof.
    induction n as [|n IH]; intros l src delta i H1 H2 H3 H4 D.
    - exists l. split; [reflexivity|]. split; [reflexivity|]. intros j.
      replace (_ && _) with false by lia. reflexivity.
    - cbn [copy_loop]. destruct (at_in (elements src l) (i - delta)) as [x X]; [lia|]. rewrite X.
      destruct (at_put_in l i x) as [l1 E]; [lia|]. rewrite E.
      destruct (at_put_spec _ _ _ _ E) as (_ & L & P).
      assert (SZ : size (elements src l1) = size (elements src l)).
      { destruct src; cbn; [reflexivity|]. unfold size. lia. }
      destruct (IH l1 src delta (i + 1)) as (l' & R & [RL RP]); auto; try lia.
      { unfold size in *. lia. }
      exists l'. split; [exact R|]. split; [congruence|]. intros j. rewrite RP, P.
      apply at_elt in X. destruct (Z.eqb_spec j i) as [-> | J].
      + replace ((i + 1 <=? i) && _) with false by lia. replace ((i <=? i) && _) with true by lia.
        replace (i - delta + (i - i)) with (i - delta) by lia. congruence.
      + destruct (_ && _) eqn:B.
        * replace ((i <=? j) && _) with true by lia. replace (i + 1 - delta + (j - (i + 1))) with (i - delta + (j - i)) by lia.
          destruct src as [m|]; cbn [elements]; [reflexivity|]. rewrite P. specialize (D eq_refl).
          replace (_ =? i) with false by lia. reflexivity.
        * replace ((i <=? j) && _) with false by lia. reflexivity.
  Qed.
  Lemma copy_down n : forall l (src : source) delta i,
    1 <= i - Z.of_nat n + 1 -> i <= size l -> 1 <= i - Z.of_nat n + 1 - delta -> i - delta <= size (elements src l) ->
    (src = Self -> 0 <= delta) ->
    exists l', copy_loop l src delta i (-1) n = (l', true) /\
      replaced l (i - Z.of_nat n + 1) i (elements src l) (i - Z.of_nat n + 1 - delta) l'.
  Proof.
    induction n as [|n IH]; intros l src delta i H1 H2 H3 H4 D.
    - exists l. split; [reflexivity|]. split; [reflexivity|]. intros j.
      replace (_ && _) with false by lia. reflexivity.
    - cbn [copy_loop]. destruct (at_in (elements src l) (i - delta)) as [x X]; [lia|]. rewrite X.
      destruct (at_put_in l i x) as [l1 E]; [lia|]. rewrite E.
      destruct (at_put_spec _ _ _ _ E) as (_ & L & P).
      assert (SZ : size (elements src l1) = size (elements src l)).
      { destruct src; cbn; [reflexivity|]. unfold size. lia. }
      destruct (IH l1 src delta (i + -1)) as (l' & R & [RL RP]); auto; try lia.
      { unfold size in *. lia. }
      exists l'. split; [exact R|]. split; [congruence|]. intros j. rewrite RP, P.
      apply at_elt in X. destruct (Z.eqb_spec j i) as [-> | J].
      + replace (_ && (i <=? i + -1)) with false by lia. replace ((_ <=? i) && (i <=? i)) with true by lia.
        rewrite <- X. f_equal. lia.
      + destruct (_ && _) eqn:B.
        * replace ((i - Z.of_nat (S n) + 1 <=? j) && _) with true by lia.
          replace (i - Z.of_nat (S n) + 1 - delta + _) with (i + -1 - Z.of_nat n + 1 - delta + (j - (i + -1 - Z.of_nat n + 1))) by lia.
          destruct src as [m|]; cbn [elements]; [reflexivity|]. rewrite P. specialize (D eq_refl).
          replace (_ =? i) with false by lia. reflexivity.
        * replace ((i - Z.of_nat (S n) + 1 <=? j) && _) with false by lia. reflexivity.
  Qed.
  (** If it runs to the end all indices were good. *)
  Lemma copy_loop_ok n : forall l (src : source) delta i step l', copy_loop l src delta i step n = (l', true) ->
    forall k, 0 <= k < Z.of_nat n -> 1 <= i + k * step <= size l /\ 1 <= i + k * step - delta <= size (elements src l).
  Proof.
    induction n as [|n IH]; intros l src delta i step l' H k K; [lia|]. cbn [copy_loop] in H.
    destruct (at_ (elements src l) (i - delta)) as [x| | | |] eqn:X; try discriminate.
    destruct (at_put l i x) as [l1|] eqn:E; [|discriminate].
    assert (1 <= i - delta <= size (elements src l)).
    { destruct (Z_le_dec 1 (i - delta)); [destruct (Z_le_dec (i - delta) (size (elements src l)))|]; try lia;
        rewrite at_out in X by lia; discriminate. }
    destruct (at_put_spec _ _ _ _ E) as (I & L & _).
    assert (SZ : size (elements src l1) = size (elements src l)).
    { destruct src; cbn; [reflexivity|]. unfold size. lia. }
    destruct (Z.eq_dec k 0) as [-> |K0]; [lia|].
    specialize (IH _ _ _ _ _ _ H (k - 1) ltac:(lia)). rewrite SZ in IH. unfold size in *.
    replace (i + step + (k - 1) * step) with (i + k * step) in IH by lia. lia.
  Qed.
  Lemma replace_seq_in l start stop (src : source) from : in_range l start stop (elements src l) from ->
    exists l', replace_seq l start stop src from = (l', true) /\ replaced l start stop (elements src l) from l'.
  Proof.
    intros (S1 & [S2 S3] & F1 & F2). unfold replace_seq. fold (size l) in S3. fold (size (elements src l)) in F2.
    destruct (Z.lt_ge_cases stop start) as [C|C].
    { assert (0 <= size (elements src l)) by (unfold size; lia).
      replace (_ && _) with true by lia. replace (Z.to_nat _) with 0%nat by lia. cbn [copy_loop].
      exists l. split; [destruct (_ <? _); reflexivity|]. split; [reflexivity|]. intros j.
      replace (_ && _) with false by lia. reflexivity. }
    specialize (F1 C). replace (_ && _) with true by lia. destruct (Z.ltb_spec start from) as [D|D].
    - destruct (copy_up (Z.to_nat (stop - start + 1)) l src (start - from) start) as (l' & E & R); try lia.
      exists l'. split; [exact E|]. replace (start + _ - 1) with stop in R by lia.
      replace (start - (start - from)) with from in R by lia. exact R.
    - destruct (copy_down (Z.to_nat (stop - start + 1)) l src (start - from) stop) as (l' & E & R); try lia.
      exists l'. split; [exact E|]. replace (stop - _ + 1) with start in R by lia.
      replace (start - (start - from)) with from in R by lia. exact R.
  Qed.
  Lemma replace_in prim l start stop (src : source) from : in_range l start stop (elements src l) from ->
    exists l', replace_from prim l start stop src from = (l', true) /\ replaced l start stop (elements src l) from l'.
  Proof.
    intros H. unfold replace_from. destruct prim; [|apply replace_seq_in; exact H].
    destruct (replace_range_some _ _ _ _ _ H) as (l' & -> & R). eauto.
  Qed.
  Lemma replace_ok prim l start stop (src : source) from l' : replace_from prim l start stop src from = (l', true) ->
    in_range l start stop (elements src l) from \/ stop = start - 1 /\ stop <= size l /\ l' = l.
  Proof.
    intros H. assert (D : in_range l start stop (elements src l) from \/ ~ in_range l start stop (elements src l) from)
      by (unfold in_range; lia).
    destruct D as [D|D]; [auto|]. right.
    assert (E : replace_seq l start stop src from = (l', true)).
    { unfold replace_from in H. destruct prim; [|exact H]. rewrite (replace_range_none _ _ _ _ _ D) in H. exact H. }
    clear H. unfold replace_seq in E. destruct (_ && _) eqn:B; [|discriminate].
    destruct (Z.lt_ge_cases stop start) as [C|C].
    { replace (Z.to_nat _) with 0%nat in E by lia. cbn in E. repeat split; try lia. destruct (_ <? _); congruence. }
    exfalso. apply D. unfold in_range. fold (size l) (size (elements src l)). destruct (start <? from) eqn:G.
    - pose proof (copy_loop_ok _ _ _ _ _ _ _ E 0 ltac:(lia)). pose proof (copy_loop_ok _ _ _ _ _ _ _ E (stop - start) ltac:(lia)). lia.
    - pose proof (copy_loop_ok _ _ _ _ _ _ _ E 0 ltac:(lia)). pose proof (copy_loop_ok _ _ _ _ _ _ _ E (stop - start) ltac:(lia)). lia.
  Qed.
End Lists.
