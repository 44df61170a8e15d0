(** Searching a SortedCollection, and what goes wrong. *)
From Coq Require Import Permutation Sorted.
From Verif Require Import Base Hashed HashedProofs Replace OrderColl OrderCollProofs SortColl SortCollSpec SortCollArr SortCollSort SortCollHeap SortCollMerge SortCollProofs.
Local Open Scope Z_scope.

Section Find.
  Context {A : Type} (nil : A) (R leb : A -> A -> bool) (one : Z -> Z -> bool) (eqb : A -> A -> bool).
  Hypothesis total : forall x y, leb x y = true \/ leb y x = true.
  Hypothesis trans : forall x y z, leb x y = true -> leb y z = true -> leb x z = true.
  Hypothesis R_spec : (forall x y, R x y = leb x y) \/ (forall x y, R x y = negb (leb y x)).
  (** Equal elements sort alike. *)
  Hypothesis eqb_sorts : forall x y, eqb x y = true -> leb x y = true /\ leb y x = true.
  Implicit Types (s p q m a : list A) (c : @sc A).
  Local Notation len l := (Z.of_nat (length l)).
  Local Notation get := (get nil).
  Local Notation "x <== y" := (leb x y = true) (at level 70).
  Local Notation srange := (srange nil leb).
  Local Notation get_mid := (get_mid nil leb total trans).
  Local Notation alike x y := (x <== y /\ y <== x).

  Lemma compare_spec x y :
    match compare R x y with Eq => alike x y | Lt => x <== y /\ leb y x = false | Gt => y <== x /\ leb x y = false end.
  Proof.
    unfold compare. destruct (total x y) as [T|T]; destruct (leb x y) eqn:X, (leb y x) eqn:Y; try discriminate;
      destruct R_spec as [E|E]; rewrite !E, ?X, ?Y; cbn; auto.
  Qed.
  Lemma bsearch_ok s x f l : 1 <= f -> l <= len s -> srange s f l -> forall fuel i j,
    f <= i -> i <= j + 1 -> j <= l -> j - i < Z.of_nat fuel ->
    (forall k, f <= k < i -> leb x (get s k) = false) -> (forall k, j < k <= l -> leb (get s k) x = false) ->
    exists r, bsearch nil R fuel s x i j = Ok r /\
      match r with
      | Some mid => f <= mid <= l /\ alike x (get s mid)
      | None => forall k, f <= k <= l -> ~ alike x (get s k)
      end.
  Proof.
    intros F L S. induction fuel as [|n IH]; intros i j I J K Fu Lo Hi.
    - cbn [bsearch]. destruct (Z.ltb_spec j i) as [N|N]; [|lia]. exists None. split; [reflexivity|].
      intros k Hk (X1 & X2). destruct (Z.lt_ge_cases k i); [rewrite Lo in X1 by lia; discriminate|rewrite Hi in X2 by lia; discriminate].
    - cbn [bsearch]. destruct (Z.ltb_spec j i) as [N|N].
      { exists None. split; [reflexivity|].
        intros k Hk (X1 & X2). destruct (Z.lt_ge_cases k i); [rewrite Lo in X1 by lia; discriminate|rewrite Hi in X2 by lia; discriminate]. }
      set (mid := (i + j + 1) / 2). assert (M : i <= mid <= j) by (unfold mid; lia).
      rewrite at_ok by lia. cbn [obind]. pose proof (compare_spec x (get s mid)) as C. destruct (compare R x (get s mid)).
      + exists (Some mid). split; [reflexivity|]. split; [lia|exact C].
      + apply IH; try lia; [exact Lo|]. intros k Hk. destruct (Z.lt_ge_cases j k); [apply Hi; lia|].
        destruct (leb (get s k) x) eqn:X; [|reflexivity]. destruct C as (_ & C). rewrite <- C. symmetry. apply (trans _ (get s k)); [apply S; lia|exact X].
      + apply IH; try lia; [|exact Hi]. intros k Hk. destruct (Z.lt_ge_cases k i); [apply Lo; lia|].
        destruct (leb x (get s k)) eqn:X; [|reflexivity]. destruct C as (_ & C). rewrite <- C. symmetry. apply (trans _ (get s k)); [exact X|apply S; lia].
  Qed.
  Lemma goUp_ok s x f l : 1 <= f -> l <= len s -> srange s f l -> forall n i, f <= i -> i + Z.of_nat n = l + 1 -> x <== get s i \/ n = O ->
    exists r, goUp nil R eqb n s x i = Ok r /\
      match r with Some k => i <= k <= l /\ eqb x (get s k) = true | None => forall k, i <= k <= l -> eqb x (get s k) = false end.
  Proof.
    intros F L S. induction n as [|n IH]; intros i I N Le.
    - exists None. split; [reflexivity|]. intros k K. lia.
    - destruct Le as [Le|]; [|discriminate]. cbn [goUp]. rewrite at_ok by lia. cbn [obind]. pose proof (compare_spec x (get s i)) as C.
      destruct (compare R x (get s i)).
      + destruct (eqb x (get s i)) eqn:X; [exists (Some i); split; [reflexivity|]; split; [lia|exact X]|].
        destruct (IH (i + 1)) as (r & E & H); [lia|lia| |].
        { destruct n; [auto|]. left. apply (trans _ (get s i)); [exact Le|apply S; lia]. }
        exists r. split; [exact E|]. destruct r; [split; [lia|apply H]|]. intros k K. destruct (Z.eq_dec k i) as [->|]; [exact X|apply H; lia].
      + exists None. split; [reflexivity|]. intros k K. destruct (eqb x (get s k)) eqn:X; [|reflexivity]. apply eqb_sorts in X as (_ & X).
        destruct C as (_ & C). rewrite <- C. symmetry. apply (trans _ (get s k)); [apply S; lia|exact X].
      + destruct C. congruence.
  Qed.
  Lemma goDown_ok s x f l : 1 <= f -> l <= len s -> srange s f l -> forall n i, i <= l -> i - Z.of_nat n = f - 1 -> get s i <== x \/ n = O ->
    exists r, goDown nil R eqb n s x i = Ok r /\
      match r with Some k => f <= k <= i /\ eqb x (get s k) = true | None => forall k, f <= k <= i -> eqb x (get s k) = false end.
  Proof.
    intros F L S. induction n as [|n IH]; intros i I N Le.
    - exists None. split; [reflexivity|]. intros k K. lia.
    - destruct Le as [Le|]; [|discriminate]. cbn [goDown]. rewrite at_ok by lia. cbn [obind]. pose proof (compare_spec x (get s i)) as C.
      destruct (compare R x (get s i)).
      + destruct (eqb x (get s i)) eqn:X; [exists (Some i); split; [reflexivity|]; split; [lia|exact X]|].
        destruct (IH (i - 1)) as (r & E & H); [lia|lia| |].
        { destruct n; [auto|]. left. apply (trans _ (get s i)); [apply S; lia|exact Le]. }
        exists r. split; [exact E|]. destruct r; [split; [lia|apply H]|]. intros k K. destruct (Z.eq_dec k i) as [->|]; [exact X|apply H; lia].
      + destruct C. congruence.
      + exists None. split; [reflexivity|]. intros k K. destruct (eqb x (get s k)) eqn:X; [|reflexivity]. apply eqb_sorts in X as (X & _).
        destruct C as (_ & C). rewrite <- C. symmetry. apply (trans _ (get s k)); [exact X|apply S; lia].
  Qed.
  Lemma binarySearch_ok s x f l : 1 <= f -> f <= l + 1 -> l <= len s -> srange s f l ->
    exists r, binarySearch nil R eqb s x f l = Ok r /\
      match r with Some k => f <= k <= l /\ eqb x (get s k) = true | None => forall k, f <= k <= l -> eqb x (get s k) = false end.
  Proof.
    intros F FL L S. unfold binarySearch.
    destruct (bsearch_ok s x f l F L S (length s) f l) as (r & E & H); try lia. rewrite E. cbn [obind]. destruct r as [mid|].
    - destruct H as (M & H1 & H2).
      destruct (goDown_ok s x f l F L S (Z.to_nat (mid - f + 1)) mid) as (d & Ed & Hd); [lia|lia|auto|]. rewrite Ed. cbn [obind].
      destruct d as [k|]; [exists (Some k); split; [reflexivity|]; split; [lia|apply Hd]|].
      destruct (goUp_ok s x f l F L S (Z.to_nat (l - mid + 1)) mid) as (u & Eu & Hu); [lia|lia|auto|]. rewrite Eu.
      exists u. split; [reflexivity|]. destruct u as [k|]; [split; [lia|apply Hu]|].
      intros k K. destruct (Z.le_gt_cases k mid); [apply Hd; lia|apply Hu; lia].
    - exists None. split; [reflexivity|]. intros k K. destruct (eqb x (get s k)) eqn:X; [|reflexivity].
      destruct (H k K). apply eqb_sorts, X.
  Qed.

  Lemma includes_ok c m x : good nil leb c m -> exists c', includes nil R one eqb x c = Ok (c', existsb (eqb x) m).
  Proof.
    intros G. unfold includes. destruct (beConsistent_ok nil R leb one total trans R_spec c m G) as (c1 & m1 & E1 & G1 & P1 & Lo1 & S1 & So1 & Q1).
    rewrite E1. cbn [obind]. exists c1. pose proof G1 as (p & q & B & _). unfold first_, last_. rewrite B. cbn [firstIndex lastIndex store].
    destruct (binarySearch_ok (p ++ m1 ++ q) x (len p + 1) (len p + len m1)) as (r & Er & Hr); [lia|lia|rewrite !app_length; lia| |].
    { apply (srange_SS nil leb total trans). exact S1. }
    rewrite Er. cbn [obind]. do 2 f_equal.
    assert (X : existsb (eqb x) m = existsb (eqb x) m1).
    { destruct (existsb (eqb x) m1) eqn:Y.
      - apply existsb_exists in Y as (y & Y1 & Y2). apply existsb_exists. exists y. split; [|exact Y2].
        eapply Permutation_in; [apply Permutation_sym; exact P1|exact Y1].
      - destruct (existsb (eqb x) m) eqn:Y'; [|reflexivity]. apply existsb_exists in Y' as (y & Y1 & Y2). rewrite <- Y. symmetry.
        apply existsb_exists. exists y. split; [eapply Permutation_in; eassumption|exact Y2]. }
    rewrite X. destruct r as [k|].
    - symmetry. apply existsb_exists. destruct Hr as (K & Hk). replace k with (len p + (k - len p)) in Hk by lia.
      rewrite get_mid in Hk by lia. eexists. split; [|exact Hk]. apply nth_In. lia.
    - destruct (existsb (eqb x) m1) eqn:Y; [|reflexivity]. apply existsb_exists in Y as (y & Y1 & Y2).
      apply (In_nth _ _ nil) in Y1 as (n & Hn & <-). specialize (Hr (len p + (Z.of_nat n + 1)) ltac:(lia)).
      rewrite get_mid in Hr by lia. replace (Z.to_nat (Z.of_nat n + 1 - 1)) with n in Hr by lia. congruence.
  Qed.

  (** indexOf:startingAt:ifAbsent:, when the elements that sort alike are equal. *)
  Hypothesis eqb_alike : forall x y, eqb x y = true <-> alike x y.
  Lemma indexBack_ok s x f l index : 1 <= f -> f <= index + f - 1 -> l <= len s -> srange s (index + f - 1) l -> forall fuel i,
    index + f - 1 <= i <= l -> eqb x (get s i) = true -> i - f < Z.of_nat fuel ->
    exists j, indexBack nil eqb fuel s x index i (i - f + 1) = Ok j /\ index <= j <= i - f + 1 /\ eqb x (get s (j + f - 1)) = true /\
      forall k, index <= k < j -> eqb x (get s (k + f - 1)) = false.
  Proof.
    intros F Ix L Srt. induction fuel as [|n IH]; intros i I E Fu; cbn [indexBack].
    - lia.
    - destruct (Z.eqb_spec (i - f + 1) index) as [N|N].
      + exists (i - f + 1). split; [reflexivity|]. split; [lia|]. split; [replace (i - f + 1 + f - 1) with i by lia; exact E|]. lia.
      + rewrite at_ok by lia. cbn [obind]. destruct (eqb (get s (i - 1)) x) eqn:X.
        * destruct (IH (i - 1)) as (j & Ej & J & Hj & Kj); [lia| |lia|].
          { apply eqb_alike. apply eqb_alike in X as (X1 & X2). auto. }
          replace (i - f + 1 - 1) with (i - 1 - f + 1) by lia. exists j. split; [exact Ej|]. split; [lia|]. auto.
        * exists (i - f + 1). split; [reflexivity|]. split; [lia|]. split; [replace (i - f + 1 + f - 1) with i by lia; exact E|].
          intros k K. destruct (eqb x (get s (k + f - 1))) eqn:Y; [|reflexivity]. exfalso.
          assert (Z0 : eqb (get s (i - 1)) x = true); [|congruence]. apply eqb_alike. apply eqb_alike in Y as (Y1 & Y2). apply eqb_alike in E as (E1 & E2).
          split; [apply (trans _ (get s i)); [apply Srt; lia|exact E2]|apply (trans _ (get s (k + f - 1))); [exact Y1|apply Srt; lia]].
  Qed.
  (** [r] is the first place of [x] in [m] from place [index] on. *)
  Lemma indexOf_ok c m x index : good nil leb c m -> 1 <= index <= len m ->
    exists c' m' r, indexOf nil R one eqb x index c = Ok (c', Some r) /\ Permutation m m' /\ in_order leb m' /\ first_place (eqb x) m' index r.
  Proof.
    intros G Ix. unfold indexOf. replace (count c) with (len m).
    2:{ unfold count, size. destruct G as (p & q & B & _). rewrite B. cbn [firstIndex lastIndex]. lia. }
    replace (index <? 1) with false by lia. replace (len m <? index) with false by lia. cbn [orb].
    destruct (beConsistent_ok nil R leb one total trans R_spec c m G) as (c1 & m1 & E1 & G1 & P1 & Lo1 & S1 & So1 & Q1).
    rewrite E1. cbn [obind]. exists c1, m1. pose proof G1 as (p & q & B & _). unfold first_, last_. rewrite B. cbn [firstIndex lastIndex store].
    pose proof (Permutation_length P1) as Lm.
    assert (Srt : srange (p ++ m1 ++ q) (len p + 1) (len p + len m1)) by (apply (srange_SS nil leb total trans); exact S1).
    assert (Srt' : srange (p ++ m1 ++ q) (index + (len p + 1) - 1) (len p + len m1)) by (intros i j I J K; apply Srt; lia).
    destruct (binarySearch_ok (p ++ m1 ++ q) x (index + (len p + 1) - 1) (len p + len m1)) as (r & Er & Hr); [lia|lia|rewrite !app_length; lia|exact Srt'|].
    rewrite Er. cbn [obind].
    assert (Pk : forall k, 1 <= k <= len m1 -> pick m1 k = Some (get (p ++ m1 ++ q) (len p + k))).
    { intros k K. unfold pick. replace (k <? 1) with false by lia. rewrite get_mid by lia. apply nth_error_nth'. lia. }
    destruct r as [i|].
    - destruct Hr as (I & Hi).
      destruct (indexBack_ok (p ++ m1 ++ q) x (len p + 1) (len p + len m1) index ltac:(lia) ltac:(lia) ltac:(rewrite !app_length; lia) Srt'
        (length (p ++ m1 ++ q)) i) as (j & Ej & J & Hj & Kj); [lia|exact Hi|rewrite !app_length; lia|].
      rewrite Ej. cbn [obind]. exists (Some j). split; [reflexivity|]. split; [exact P1|]. split; [exact S1|].
      split; [lia|]. split.
      + eexists. split; [apply Pk; lia|]. replace (len p + j) with (j + (len p + 1) - 1) by lia. exact Hj.
      + intros k y K. rewrite Pk by lia. intros Hy. injection Hy as <-. replace (len p + k) with (k + (len p + 1) - 1) by lia. apply Kj, K.
    - exists None. split; [reflexivity|]. split; [exact P1|]. split; [exact S1|].
      intros k y K Hy. assert (k <= len m1).
      { unfold pick in Hy. replace (k <? 1) with false in Hy by lia. assert (nth_error m1 (Z.to_nat (k - 1)) <> None) as X by congruence.
        apply nth_error_Some in X. lia. }
      rewrite Pk in Hy by lia. injection Hy as <-. apply Hr. lia.
  Qed.

  (** Every state a history leads to is one of those above. *)
  Lemma history_good ms : forall c l (b d : bool), state_ok nil leb c l b -> (d = false -> fresh c) -> calm d ms = true ->
    exists c' m, sfinal nil R one ms c = Ok c' /\ good nil leb c' m /\ sends leb l b ms m.
  Proof.
    induction ms as [|msg ms IH]; intros c l b d X F C.
    - destruct X as (m & G & X). exists c, m. split; [reflexivity|]. split; [exact G|]. exists l. split; [|constructor].
      destruct b; [destruct X as (-> & _); apply Permutation_refl|exact X].
    - apply (calm_cons nil) in C as (d' & C1 & C2 & C3).
      destruct (ssend_ok nil R leb one total trans R_spec c l b d msg X F C1) as (c' & o & l' & b' & E & St & X' & F'). cbn [sfinal]. rewrite E. cbn [obind].
      destruct (IH c' l' b' d' X') as (c'' & m & Ec & G & l2 & Pm & Ho); [auto|exact C2|]. exists c'', m. split; [exact Ec|]. split; [exact G|].
      exists l2. split; [exact Pm|]. econstructor; eassumption.
  Qed.
End Find.
