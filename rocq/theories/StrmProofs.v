From Coq Require Import ZArith List Bool Lia.
From Verif Require Import Base Hashed HashedProofs StrmSpec Strm StrmRun.
Import ListNotations.
Local Open Scope Z_scope.

Lemma replace_skipn {B} (l : list B) i x : (i < length l)%nat ->
  replace i x l = firstn i l ++ [x] ++ skipn (S i) l.
Proof.
  revert i. induction l as [|a l IH]; intros [|i] H; cbn in *; try lia; auto.
  rewrite IH by lia. reflexivity.
Qed.


Lemma firstn_len {B} (a b : list B) n : n = length a -> firstn n (a ++ b) = a.
Proof. intros ->. rewrite firstn_app, Nat.sub_diag, firstn_all. cbn. apply app_nil_r. Qed.
Lemma skipn_len {B} (a b : list B) n : n = length a -> skipn n (a ++ b) = b.
Proof. intros ->. rewrite skipn_app, Nat.sub_diag, skipn_all. reflexivity. Qed.
Lemma firstn_app_le {B} (a b : list B) n : (n <= length a)%nat -> firstn n (a ++ b) = firstn n a.
Proof.
  intros. rewrite firstn_app. replace (n - length a)%nat with O by lia. cbn. apply app_nil_r.
Qed.
Lemma skipn_app_le {B} (a b : list B) n : (n <= length a)%nat -> skipn n (a ++ b) = skipn n a ++ b.
Proof. intros. rewrite skipn_app. replace (n - length a)%nat with O by lia. reflexivity. Qed.
Lemma skipn_cons_nth {B} (l : list B) n x r : skipn n l = x :: r ->
  nth_error l n = Some x /\ (n < length l)%nat /\ skipn (S n) l = r.
Proof.
  revert n. induction l as [|a l IH]; intros [|n] H; cbn in *; try discriminate.
  - injection H as -> ->. repeat split; lia.
  - destruct (IH n H) as (? & ? & ?). repeat split; auto; lia.
Qed.
Lemma skipn_nil_len {B} (l : list B) n : skipn n l = [] -> (length l <= n)%nat.
Proof. intros H. pose proof (skipn_length n l). rewrite H in *. cbn in *. lia. Qed.


Section P.
Context {A : Type}.
Variable nilA : A.
Variable eqb : A -> A -> bool.
Implicit Types (l d : list A) (s : strm A).

Definition code (k : kind) : Z := match k with KRead => 1 | KWrite => 2 | KReadWrite => 3 end.
Definition inv k s l (c : nat) : Prop :=
  exists tail, s = ST (l ++ tail) (Z.of_nat c + 1) (Z.of_nat (length l)) (code k) /\
    (c <= length l)%nat.

Lemma cat_ok l tail c x r : skipn c l = x :: r -> cat (l ++ tail) (Z.of_nat c + 1) = Ok x.
Proof.
  intros H. destruct (skipn_cons_nth _ _ _ _ H) as (N & L & _).
  unfold cat. destruct (Z.ltb_spec (Z.of_nat c + 1) 1); [lia|].
  replace (Z.to_nat (Z.of_nat c + 1 - 1)) with c by lia.
  now rewrite nth_error_app1, N.
Qed.

Lemma noRead_code k l p e : noRead (@ST A l p e (code k)) = match k with KWrite => true | _ => false end.
Proof. destruct k; reflexivity. Qed.

Lemma next_ok k s l c : inv k s l c ->
  let '(a, l', c') := sspec eqb k ONext l c in
  exists s', next s = Ok (a, s') /\ inv k s' l' c'.
Proof.
  intros (tail & -> & Hc). cbn [sspec]. unfold next. rewrite noRead_code.
  cbn [coll ptr endPtr access].
  assert (match skipn c l with [] => (c = length l)%nat | _ :: _ => (c < length l)%nat end) as Hs.
  { destruct (skipn c l) eqn:E; [apply skipn_nil_len in E; lia|]. apply skipn_cons_nth in E. tauto. }
  destruct (Z.ltb_spec (Z.of_nat (length l)) (Z.of_nat c + 1)).
  - destruct k; destruct (skipn c l); try (exfalso; lia); eexists; (split; [reflexivity|]);
      exists tail; auto.
  - destruct (skipn c l) eqn:E; [exfalso; lia|].
    rewrite (cat_ok _ _ _ _ _ E). cbn [obind].
    destruct k; eexists; (split; [reflexivity|]); exists tail; split; auto;
      f_equal; lia.
Qed.

Lemma peek_ok k s l c : inv k s l c ->
  let '(a, l', c') := sspec eqb k OPeek l c in
  exists s', peek s = Ok (a, s') /\ inv k s' l' c'.
Proof.
  intros (tail & -> & Hc). cbn [sspec]. unfold peek. rewrite noRead_code.
  cbn [coll ptr endPtr access].
  destruct (Z.ltb_spec (Z.of_nat (length l)) (Z.of_nat c + 1)).
  - assert (skipn c l = []) as -> by (apply skipn_all2; lia).
    destruct k; eexists; (split; [reflexivity|]); exists tail; auto.
  - destruct (skipn c l) eqn:E; [apply skipn_nil_len in E; lia|].
    rewrite (cat_ok _ _ _ _ _ E). cbn [obind].
    destruct k; eexists; (split; [reflexivity|]); exists tail; auto.
Qed.

Lemma setPosition_ok k s l c n : inv k s l c ->
  let '(a, l', c') := sspec eqb k (OSetPosition n) l c in
  exists s', setPosition n s = (a, s') /\ inv k s' l' c'.
Proof.
  intros (tail & -> & Hc). cbn [sspec]. unfold setPosition, size. cbn [coll ptr endPtr access].
  destruct ((0 <=? n) && (n <=? Z.of_nat (length l))) eqn:E.
  - eexists; split; [reflexivity|]. exists tail. split; [f_equal; lia|lia].
  - eexists; split; [reflexivity|]. exists tail. auto.
Qed.

Lemma setPosition_in k s l c n : inv k s l c -> 0 <= n <= Z.of_nat (length l) ->
  exists s', setPosition n s = (SDone, s') /\ inv k s' l (Z.to_nat n).
Proof.
  intros V B. pose proof (setPosition_ok k s l c n V) as H. cbn [sspec] in H.
  replace ((0 <=? n) && (n <=? Z.of_nat (length l))) with true in H by lia. exact H.
Qed.

Lemma skip_ok k s l c n : inv k s l c ->
  exists s', skip n s = (SDone, s') /\
   inv k s' l (Z.to_nat (Z.min (Z.max (Z.of_nat c + n) 0) (Z.of_nat (length l)))).
Proof.
  intros V. unfold skip, position. pose proof V as (tail & E & Hc).
  replace (ptr s) with (Z.of_nat c + 1) by (rewrite E; reflexivity).
  replace (endPtr s) with (Z.of_nat (length l)) by (rewrite E; reflexivity).
  replace (Z.of_nat c + 1 - 1 + n) with (Z.of_nat c + n) by lia.
  apply (setPosition_in k s l c); auto. lia.
Qed.

Lemma atEnd_ok k s l c : inv k s l c ->
  atEnd s = match skipn c l with [] => true | _ => false end.
Proof.
  intros (tail & -> & Hc). unfold atEnd. cbn [endPtr ptr].
  destruct (skipn c l) eqn:E.
  - apply skipn_nil_len in E. lia.
  - apply skipn_cons_nth in E as (_ & L & _). lia.
Qed.

Lemma next_elt k s l c x r : k <> KWrite -> inv k s l c -> skipn c l = x :: r ->
  exists s', next s = Ok (SElt x, s') /\ inv k s' l (S c).
Proof.
  intros K V E. pose proof (next_ok k s l c V) as H. cbn [sspec] in H. rewrite E in H.
  destruct k; try congruence; exact H.
Qed.

Lemma peekFor_ok k s l c x : k <> KWrite -> inv k s l c ->
  let '(a, l', c') := sspec eqb k (OPeekFor x) l c in
  exists s', peekFor eqb x s = Ok (a, s') /\ inv k s' l' c'.
Proof.
  intros K V. cbn [sspec]. unfold peekFor. rewrite (atEnd_ok k s l c V).
  destruct (skipn c l) as [|y r] eqn:E.
  - eexists; split; [reflexivity|auto].
  - destruct (next_elt k s l c y r K V E) as (s' & -> & V'). cbn [obind].
    destruct (eqb y x).
    + eexists; split; [reflexivity|auto].
    + destruct (skip_ok k s' l (S c) (-1) V') as (s2 & -> & V2). cbn [snd].
      eexists; split; [reflexivity|]. destruct V as (_ & _ & Hc).
      apply skipn_cons_nth in E as (_ & L & _).
      replace (Z.to_nat (Z.min (Z.max (Z.of_nat (S c) + -1) 0) (Z.of_nat (length l)))) with c in V2 by lia.
      exact V2.
Qed.

Lemma skipTo_ok k x l : k <> KWrite -> forall fuel s c, inv k s l c ->
  (length (skipn c l) < fuel)%nat ->
  let '(n, b) := count_to eqb x (skipn c l) in
  exists s', skipTo eqb fuel x s = Ok (SBool b, s') /\ inv k s' l (c + n).
Proof.
  intros K. induction fuel as [|fuel IH]; intros s c V L; [lia|].
  cbn [skipTo]. rewrite (atEnd_ok k s l c V).
  destruct (skipn c l) as [|y r] eqn:E; cbn [count_to].
  - eexists; split; [reflexivity|]. now rewrite Nat.add_0_r.
  - destruct (next_elt k s l c y r K V E) as (s' & -> & V'). cbn [obind].
    destruct (eqb y x).
    + eexists; split; [reflexivity|]. now rewrite Nat.add_1_r.
    + apply skipn_cons_nth in E as (_ & _ & E'). specialize (IH s' (S c) V').
      rewrite E' in IH. destruct (count_to eqb x r) as [n b].
      destruct IH as (s2 & -> & V2); [cbn in L; lia|].
      eexists; split; [reflexivity|]. now rewrite Nat.add_succ_comm in V2.
Qed.

Lemma csize_app l d : csize (l ++ d) = csize l + csize d.
Proof. unfold csize. rewrite app_length. lia. Qed.
Lemma csize_empty n : 0 <= n -> csize (copyEmpty nilA n) = n.
Proof. intros. unfold csize, copyEmpty. rewrite repeat_length. lia. Qed.

Lemma creplace_ok c a b d p : 1 <= a -> a <= b + 1 -> b <= csize c -> 1 <= p -> p + (b - a) <= csize d ->
  creplace c a b d p = Ok (firstn (Z.to_nat (a - 1)) c
           ++ firstn (Z.to_nat (b - a + 1)) (skipn (Z.to_nat (p - 1)) d)
           ++ skipn (Z.to_nat b) c).
Proof.
  intros. unfold creplace. destruct (Z.eqb_spec (b - a + 1) 0) as [E|E].
  - rewrite E. cbn [Z.to_nat firstn app]. replace (Z.to_nat b) with (Z.to_nat (a - 1)) by lia.
    now rewrite firstn_skipn.
  - replace ((a <? 1) || (b - a + 1 <? 0) || (csize c <? b) || (p <? 1)
          || (csize d <? p + (b - a + 1) - 1)) with false by lia.
    reflexivity.
Qed.

Lemma nextN_ok k s l c n : k <> KWrite -> inv k s l c ->
  let '(a, l', c') := sspec eqb k (ONextN n) l c in
  exists s', nextN nilA (Z.of_nat n) s = Ok (a, s') /\ inv k s' l' c'.
Proof.
  intros K V. cbn [sspec]. unfold nextN. rewrite skipn_length.
  set (fuel := Z.to_nat (Z.of_nat n)). cbn [nextInto].
  destruct (Z.eqb_spec 0 (Z.of_nat n)) as [E|E].
  - assert (n = O) as -> by lia. cbn [obind].
    destruct (Nat.leb_spec 0 (length l - c)); [|lia].
    eexists; split; [reflexivity|]. now rewrite Nat.add_0_r.
  - pose proof (atEnd_ok k s l c V) as HA. rewrite HA.
    pose proof V as (tail & Es & Hc).
    destruct (skipn c l) as [|y r] eqn:Er.
    + apply skipn_nil_len in Er. cbn [obind].
      destruct (Nat.leb_spec n (length l - c)); [lia|].
      eexists; split; [reflexivity|]. replace (length l) with c by lia. exact V.
    + rewrite <- Er. apply skipn_cons_nth in Er as (_ & Lc & _).
      set (m := Nat.min n (length l - c)).
      assert (nextAvailableInto (Z.of_nat n - 0) (copyEmpty nilA (Z.of_nat n)) (0 + 1) s
        = Ok (Some (Z.of_nat m), firstn m (skipn c l) ++ skipn m (copyEmpty nilA (Z.of_nat n)),
              ST (l ++ tail) (Z.of_nat (c + m) + 1) (Z.of_nat (length l)) (code k))) as ->.
      { subst s. unfold nextAvailableInto. rewrite noRead_code. cbn [coll ptr endPtr access].
        replace (match k with KWrite => true | _ => false end) with false by (destruct k; congruence).
        replace (Z.min (Z.of_nat n - 0) (Z.of_nat (length l) - (Z.of_nat c + 1) + 1))
          with (Z.of_nat m) by lia.
        rewrite creplace_ok.
        2-6: rewrite ?csize_empty, ?csize_app by lia; unfold csize; lia.
        cbn [obind].
        replace (Z.to_nat (0 + 1 - 1)) with O by lia.
        replace (Z.to_nat (0 + 1 + Z.of_nat m - 1 - (0 + 1) + 1)) with m by lia.
        replace (Z.to_nat (Z.of_nat c + 1 - 1)) with c by lia.
        replace (Z.to_nat (0 + 1 + Z.of_nat m - 1)) with m by lia.
        cbn [firstn app]. rewrite skipn_app_le by lia.
        rewrite firstn_app_le by (rewrite skipn_length; lia).
        do 3 f_equal. lia. }
      cbn [obind].
      assert (V' : inv k (ST (l ++ tail) (Z.of_nat (c + m) + 1) (Z.of_nat (length l)) (code k)) l (c + m))
        by (exists tail; split; auto; lia).
      replace (0 + Z.of_nat m =? Z.of_nat n) with (n <=? length l - c)%nat by (unfold m; lia).
      destruct (Nat.leb_spec n (length l - c)) as [L|L].
      * cbn [obind]. assert (m = n) by lia. eexists; split; [|rewrite <- H; exact V'].
        f_equal. f_equal. f_equal. rewrite H. unfold copyEmpty.
        rewrite (skipn_all2 (n := n)) by (rewrite repeat_length; lia). apply app_nil_r.
      * rewrite (atEnd_ok _ _ _ _ V').
        rewrite (skipn_all2 (n := c + m)) by lia. cbn [obind].
        eexists; split; [reflexivity|]. replace (length l) with (c + m)%nat at 2 by lia. exact V'.
Qed.

Lemma upToEnd_ok k s l c : k <> KWrite -> inv k s l c ->
  let '(a, l', c') := sspec eqb k OUpToEnd l c in
  exists s', upToEnd nilA s = Ok (a, s') /\ inv k s' l' c'.
Proof.
  intros K V. pose proof (nextN_ok k s l c (length l - c) K V) as H. cbn [sspec] in *.
  rewrite skipn_length, Nat.leb_refl in H.
  pose proof V as (tail & Es & Hc).
  unfold upToEnd.
  replace (endPtr s - ptr s + 1) with (Z.of_nat (length l - c)) by (rewrite Es; cbn; lia).
  rewrite firstn_all2 in H by (rewrite skipn_length; lia).
  replace (c + (length l - c))%nat with (length l) in H by lia. exact H.
Qed.

Lemma contents_ok k s l c : inv k s l c ->
  contents s = Ok (match k with KWrite => firstn c l | _ => l end).
Proof.
  intros (tail & -> & Hc). unfold contents, ccopy. cbn [coll ptr endPtr access].
  rewrite csize_app.
  replace (Z.of_nat c + 1 - 1) with (Z.of_nat c) by lia.
  destruct k; cbn [code Z.eqb Pos.eqb]; unfold csize.
  - replace ((Z.of_nat (length l) <? 0) || (Z.of_nat (length l) + Z.of_nat (length tail) <? Z.of_nat (length l))) with false by lia.
    rewrite firstn_len; auto; lia.
  - replace ((Z.of_nat c <? 0) || (Z.of_nat (length l) + Z.of_nat (length tail) <? Z.of_nat c)) with false by lia.
    rewrite firstn_app_le by lia. now rewrite Nat2Z.id.
  - replace ((Z.of_nat (length l) <? 0) || (Z.of_nat (length l) + Z.of_nat (length tail) <? Z.of_nat (length l))) with false by lia.
    rewrite firstn_len; auto; lia.
Qed.

Lemma grow_copy c n : csize c <= n ->
  creplace (copyEmpty nilA n) 1 (csize c) c 1 = Ok (c ++ copyEmpty nilA (n - csize c)).
Proof.
  intros H. assert (0 <= csize c) by (unfold csize; lia).
  rewrite creplace_ok; rewrite ?csize_empty by lia; try lia.
  replace (Z.to_nat (1 - 1)) with O by lia.
  cbn [firstn skipn app]. rewrite firstn_all2 by (unfold csize; lia).
  f_equal. f_equal. unfold copyEmpty.
  replace (Z.to_nat n) with (Z.to_nat (csize c) + Z.to_nat (n - csize c))%nat by lia.
  rewrite repeat_app, skipn_len; [reflexivity|]. now rewrite repeat_length.
Qed.

Lemma growCollection_ok c : exists t, growCollection nilA c = Ok (c ++ t) /\ csize c < csize (c ++ t)
   /\ csize c * 2 <= csize (c ++ t).
Proof.
  unfold growCollection. assert (0 <= csize c) by (unfold csize; lia).
  rewrite grow_copy by lia.
  eexists; split; [reflexivity|]. rewrite csize_app, csize_empty; lia.
Qed.

Lemma growCollectionTo_ok n c : exists t, growCollectionTo nilA n c = Ok (c ++ t) /\ n <= csize (c ++ t).
Proof.
  unfold growCollectionTo. assert (0 <= csize c) by (unfold csize; lia).
  destruct (Z.leb_spec n (csize c)).
  - exists []. rewrite app_nil_r. auto.
  - destruct (Z.ltb_spec n (csize c * 2)).
    + destruct (growCollection_ok c) as (t & E & L & L'). exists t. split; auto. lia.
    + rewrite grow_copy by lia. eexists; split; [reflexivity|]. rewrite csize_app, csize_empty; lia.
Qed.

Lemma overwrite_app l tail c d : (c <= length l)%nat ->
  firstn c (l ++ tail) ++ d ++ skipn (c + length d) (l ++ tail)
   = overwrite l c d ++ skipn (c + length d - length l) tail.
Proof.
  intros. unfold overwrite. rewrite firstn_app_le by lia. rewrite skipn_app.
  now rewrite <- !app_assoc.
Qed.
Lemma overwrite_len l c d : (c <= length l)%nat ->
  length (overwrite l c d) = Nat.max (length l) (c + length d).
Proof. intros. unfold overwrite. rewrite !app_length, firstn_length, skipn_length. lia. Qed.

Lemma nextPut_ok k s l c x : inv k s l c ->
  exists s', nextPut nilA x s = Ok s' /\ inv k s' (overwrite l c [x]) (S c).
Proof.
  intros (tail & -> & Hc). unfold nextPut.
  assert (Put : forall T e, (c < length (l ++ T))%nat -> e = Z.max (Z.of_nat (length l)) (Z.of_nat c + 1) ->
    exists s', (olet c0 := cput (l ++ T) (Z.of_nat c + 1) x in
       Ok (ST c0 (Z.of_nat c + 1 + 1) e (code k))) = Ok s' /\ inv k s' (overwrite l c [x]) (S c)).
  { intros T e L He. unfold cput.
    replace ((Z.of_nat c + 1 <? 1) || (csize (l ++ T) <? Z.of_nat c + 1)) with false by (unfold csize; lia).
    cbn [obind]. replace (Z.to_nat (Z.of_nat c + 1 - 1)) with c by lia.
    rewrite replace_skipn by auto.
    pose proof (overwrite_app l T c [x] Hc) as O. cbn [length] in O. rewrite Nat.add_1_r in O.
    rewrite O. eexists; split; [reflexivity|]. eexists. split.
    - f_equal; [lia|]. rewrite overwrite_len by lia. cbn [length]. lia.
    - rewrite overwrite_len by lia. cbn [length]. lia. }
  destruct (Z.ltb_spec (Z.of_nat (length l)) (Z.of_nat c + 1)) as [L|L].
  - destruct (Z.ltb_spec (csize (l ++ tail)) (Z.of_nat c + 1)) as [L2|L2].
    + destruct (growCollection_ok (l ++ tail)) as (t & -> & G & _). cbn [obind].
      rewrite <- app_assoc in *. unfold csize in *. rewrite !app_length in *.
      apply Put; [rewrite !app_length|]; lia.
    + cbn [obind]. apply Put; unfold csize in *; lia.
  - cbn [obind]. apply Put; [rewrite app_length|]; lia.
Qed.

Lemma nextPutAll_ok k s l c d : inv k s l c ->
  exists s', nextPutAll nilA d s = Ok s' /\ inv k s' (overwrite l c d) (c + length d).
Proof.
  intros (tail & -> & Hc). unfold nextPutAll, nextPutAllFrom.
  set (e' := Z.of_nat c + 1 + csize d).
  assert (exists T, (if csize (l ++ tail) <? e' then growCollectionTo nilA (e' - 1) (l ++ tail) else Ok (l ++ tail))
           = Ok (l ++ T) /\ e' - 1 <= csize (l ++ T)) as (T & -> & L).
  { destruct (Z.ltb_spec (csize (l ++ tail)) e').
    - destruct (growCollectionTo_ok (e' - 1) (l ++ tail)) as (t & -> & G).
      exists (tail ++ t). rewrite app_assoc. auto.
    - exists tail. split; auto. lia. }
  cbn [obind]. assert (0 <= csize d) by (unfold csize; lia).
  rewrite creplace_ok by lia. cbn [obind].
  replace (Z.to_nat (Z.of_nat c + 1 - 1)) with c by lia.
  replace (Z.to_nat (1 - 1)) with O by lia. cbn [skipn].
  rewrite (firstn_all2 d) by (unfold e', csize in *; lia).
  replace (Z.to_nat (e' - 1)) with (c + length d)%nat by (unfold e', csize; lia).
  rewrite overwrite_app by auto.
  eexists; split; [reflexivity|]. eexists. split.
  - f_equal; [unfold e', csize; lia|]. rewrite overwrite_len by auto.
    unfold e', csize. destruct (Z.ltb_spec (Z.of_nat (length l)) (Z.of_nat c + 1 + Z.of_nat (length d))); lia.
  - rewrite overwrite_len by auto. lia.
Qed.

Lemma overwrite_nil l c : (c <= length l)%nat -> overwrite l c [] = l.
Proof. intros. unfold overwrite. cbn. rewrite Nat.add_0_r. apply firstn_skipn. Qed.
Lemma overwrite_overwrite l c d d' : (c <= length l)%nat ->
  overwrite (overwrite l c d) (c + length d) d' = overwrite l c (d ++ d').
Proof.
  intros. unfold overwrite at 1.
  assert (firstn (c + length d) (overwrite l c d) = firstn c l ++ d) as ->.
  { unfold overwrite. rewrite app_assoc. apply firstn_len.
    rewrite app_length, firstn_length. lia. }
  assert (skipn (c + length d + length d') (overwrite l c d) = skipn (c + length (d ++ d')) l) as ->.
  { unfold overwrite. rewrite app_assoc, skipn_app.
    rewrite skipn_all2 by (rewrite app_length, firstn_length; lia). cbn [app].
    rewrite app_length, firstn_length, app_length.
    replace (c + length d + length d' - (Nat.min c (length l) + length d))%nat with (length d') by lia.
    rewrite <- (firstn_skipn (c + length d) l) at 2.
    rewrite skipn_app.
    rewrite (skipn_all2 (firstn (c + length d) l)) by (rewrite firstn_length; lia). cbn [app].
    rewrite firstn_length.
    destruct (Nat.le_gt_cases (c + length d) (length l)).
    - f_equal. lia.
    - rewrite !skipn_all2; auto; rewrite ?skipn_length; lia. }
  unfold overwrite. now rewrite <- !app_assoc.
Qed.

Lemma nextPutN_ok k x : forall n s l c, inv k s l c ->
  exists s', nextPutN nilA n x s = Ok s' /\ inv k s' (overwrite l c (repeat x n)) (c + n).
Proof.
  induction n as [|n IH]; intros s l c V; cbn [nextPutN].
  - exists s. split; auto. cbn [repeat]. destruct V as (? & ? & ?) eqn:EV.
    rewrite overwrite_nil, Nat.add_0_r by auto. exact V.
  - destruct (nextPut_ok k s l c x V) as (s' & -> & V'). cbn [obind].
    destruct (IH _ _ _ V') as (s2 & -> & V2). exists s2. split; auto.
    destruct V as (_ & _ & Hc).
    pose proof (overwrite_overwrite l c [x] (repeat x n) Hc) as O. cbn [length app] in O.
    rewrite Nat.add_1_r in O. rewrite O in V2. cbn [repeat].
    now rewrite <- Nat.add_succ_comm.
Qed.

Lemma step_ok k o s l c : understands k o = true -> inv k s l c ->
  let '(a, l', c') := sspec eqb k o l c in
  exists s', sstep nilA eqb o s = Ok (a, s') /\ inv k s' l' c'.
Proof.
  intros U V. destruct o; cbn [understands sstep] in *.
  - apply next_ok; auto.
  - apply peek_ok; auto.
  - apply peekFor_ok; auto. destruct k; congruence.
  - apply nextN_ok; auto. destruct k; congruence.
  - apply upToEnd_ok; auto. destruct k; congruence.
  - pose proof (skipTo_ok k x l ltac:(destruct k; congruence) (S (length (coll s))) s c V) as H.
    cbn [sspec]. destruct (count_to eqb x (skipn c l)). apply H.
    destruct V as (tail & -> & _). cbn [coll]. rewrite app_length, skipn_length. lia.
  - cbn [sspec]. rewrite (atEnd_ok k s l c V). eauto.
  - cbn [sspec]. exists s. split; auto. destruct V as (tail & -> & _). unfold position. cbn. do 3 f_equal. lia.
  - pose proof (setPosition_ok k s l c n V) as H. destruct (sspec eqb k (OSetPosition n) l c) as [[a l'] c'].
    destruct H as (s' & -> & V'). eauto.
  - cbn [sspec]. destruct (skip_ok k s l c n V) as (s' & -> & V'). eauto.
  - cbn [sspec]. destruct (setPosition_in k s l c 0 V ltac:(lia)) as (s' & -> & V'). eauto.
  - cbn [sspec]. destruct (setPosition_in k s l c (Z.of_nat (length l)) V ltac:(lia)) as (s' & E & V').
    rewrite Nat2Z.id in V'. exists s'. split; auto. rewrite <- E. f_equal.
    destruct V as (tail & -> & _). reflexivity.
  - cbn [sspec]. exists s. split; auto. destruct V as (tail & -> & _). reflexivity.
  - cbn [sspec]. exists s. split; auto. destruct V as (tail & -> & _). cbn [endPtr].
    destruct l; reflexivity.
  - rewrite (contents_ok k s l c V). cbn [sspec obind]. destruct k; eauto.
  - cbn [sspec]. destruct (nextPut_ok k s l c x V) as (s' & -> & V'). cbn [obind]. eauto.
  - cbn [sspec]. destruct (nextPutAll_ok k s l c l0 V) as (s' & -> & V'). cbn [obind]. eauto.
  - cbn [sspec]. destruct (nextPutN_ok k x n s l c V) as (s' & -> & V'). cbn [obind]. eauto.
  - cbn [sspec]. destruct V as (tail & -> & Hc). unfold truncate. cbn [coll ptr endPtr access].
    replace (Z.land (code k) 2 =? 0) with false by (destruct k; auto; discriminate).
    eexists; split; [reflexivity|]. exists (skipn c l ++ tail).
    rewrite app_assoc, firstn_skipn, firstn_length. split; [f_equal; lia|lia].
  - cbn [sspec]. destruct V as (tail & -> & Hc). unfold emptyStream. cbn [coll ptr endPtr access].
    eexists; split; [reflexivity|]. exists (l ++ tail). split; [reflexivity|auto].
Qed.

Lemma run_ok k : forall os s l c, forallb (understands k) os = true -> inv k s l c ->
  srun nilA eqb os s = Ok (shistory eqb k os l c).
Proof.
  induction os as [|o os IH]; intros s l c U V; [reflexivity|].
  cbn [forallb srun shistory] in *. apply andb_true_iff in U as [U1 U2].
  pose proof (step_ok k o s l c U1 V) as H.
  destruct (sspec eqb k o l c) as [[a l'] c']. destruct H as (s' & -> & V'). cbn [obind].
  rewrite (IH s' l' c' U2 V'). reflexivity.
Qed.

Lemma inv_whole k l c : (c <= length l)%nat ->
  inv k (ST l (Z.of_nat c + 1) (csize l) (code k)) l c.
Proof. intros. exists []. rewrite app_nil_r. split; auto. Qed.

(** the five ways to make a stream, with the sequence and cursor it starts with *)
Lemma created l :
  inv KRead (readOn l) l 0 /\ inv KWrite (writeOn l) [] 0 /\ inv KWrite (writeWith l) l (length l) /\
  inv KReadWrite (rwOn l) l 0 /\ inv KReadWrite (rwWith l) l (length l).
Proof.
  split; [apply (inv_whole KRead l 0); lia|]. split; [exists l; auto|].
  split; [apply (inv_whole KWrite l (length l)); lia|].
  split; [apply (inv_whole KReadWrite l 0); lia|].
  apply (inv_whole KReadWrite l (length l)); lia.
Qed.

Lemma streams_ok l os :
  (forallb (understands KRead) os = true ->
     srun nilA eqb os (readOn l) = Ok (shistory eqb KRead os l 0)) /\
  (forallb (understands KWrite) os = true ->
     srun nilA eqb os (writeOn l) = Ok (shistory eqb KWrite os [] 0) /\
     srun nilA eqb os (writeWith l) = Ok (shistory eqb KWrite os l (length l))) /\
  (forallb (understands KReadWrite) os = true ->
     srun nilA eqb os (rwOn l) = Ok (shistory eqb KReadWrite os l 0) /\
     srun nilA eqb os (rwWith l) = Ok (shistory eqb KReadWrite os l (length l))).
Proof.
  destruct (created l) as (C1 & C2 & C3 & C4 & C5).
  split; [|split]; intros U; [|split|split]; eapply run_ok; eauto.
Qed.

(** ** readStream *)
Lemma readStream_ok k s l c os : inv k s l c -> forallb (understands KRead) os = true ->
  k <> KReadWrite ->
  exists r, readStream s = Ok r /\
    srun nilA eqb os r = Ok (shistory eqb KRead os (match k with KWrite => firstn c l | _ => l end) 0).
Proof.
  intros (tail & -> & Hc) U K. unfold readStream, readOnTo. cbn [coll ptr endPtr access].
  rewrite csize_app.
  replace (Z.of_nat c + 1 - 1) with (Z.of_nat c) by lia.
  destruct k; try congruence; cbn [code Z.eqb Pos.eqb]; unfold csize.
  - replace (Z.of_nat (length l) + Z.of_nat (length tail) <? Z.of_nat (length l)) with false by lia.
    eexists; split; [reflexivity|]. apply run_ok; auto. exists tail. auto with arith.
  - replace (Z.of_nat (length l) + Z.of_nat (length tail) <? Z.of_nat c) with false by lia.
    eexists; split; [reflexivity|]. apply run_ok; auto. exists (skipn c l ++ tail).
    rewrite app_assoc, firstn_skipn, firstn_length. split; [f_equal; lia|lia].
Qed.

Lemma exec_ok k : forall os s l c, forallb (understands k) os = true -> inv k s l c ->
  exists s', sexec nilA eqb os s = Ok s' /\
    inv k s' (fst (sfinal eqb k os l c)) (snd (sfinal eqb k os l c)).
Proof.
  induction os as [|o os IH]; intros s l c U V; [cbn; eauto|].
  cbn [forallb sexec sfinal] in *. apply andb_true_iff in U as [U1 U2].
  pose proof (step_ok k o s l c U1 V) as H.
  destruct (sspec eqb k o l c) as [[a l'] c']. destruct H as (s' & -> & V'). cbn [obind snd].
  exact (IH s' l' c' U2 V').
Qed.

Lemma write_then_read l os rs : forallb (understands KWrite) os = true ->
  forallb (understands KRead) rs = true ->
  let '(l', c') := sfinal eqb KWrite os [] 0 in
  exists s r, sexec nilA eqb os (writeOn l) = Ok s /\ contents s = Ok (firstn c' l') /\
    readStream s = Ok r /\ srun nilA eqb rs r = Ok (shistory eqb KRead rs (firstn c' l') 0).
Proof.
  intros U R. destruct (created l) as (_ & C & _).
  destruct (exec_ok KWrite os _ _ _ U C) as (s & E & V).
  destruct (sfinal eqb KWrite os [] 0) as [l' c']. cbn [fst snd] in V.
  destruct (readStream_ok KWrite s l' c' rs V R ltac:(discriminate)) as (r & Er & H).
  exists s, r. split; [exact E|]. split; [exact (contents_ok _ _ _ _ V)|]. auto.
Qed.

Lemma read_read l os rs : forallb (understands KRead) os = true ->
  forallb (understands KRead) rs = true ->
  exists s r, sexec nilA eqb os (readOn l) = Ok s /\
    readStream s = Ok r /\ srun nilA eqb rs r = Ok (shistory eqb KRead rs l 0).
Proof.
  intros U R. destruct (created l) as (C & _).
  destruct (exec_ok KRead os _ _ _ U C) as (s & E & V).
  assert (fst (sfinal eqb KRead os l 0) = l) as F.
  { clear -U. generalize 0%nat as c. induction os as [|o os IH]; intros c; [reflexivity|].
    cbn [forallb sfinal] in *. apply andb_true_iff in U as [U1 U2].
    assert (snd (fst (sspec eqb KRead o l c)) = l) as H.
    { destruct o; cbn in U1; try discriminate; cbn [sspec]; try reflexivity.
      - now destruct (skipn c l).
      - now destruct (skipn c l).
      - destruct (skipn c l); auto. now destruct (eqb _ _).
      - now destruct (_ <=? _)%nat.
      - now destruct (count_to _ _ _).
      - now destruct (_ && _). }
    destruct (sspec eqb KRead o l c) as [[a l'] c']. cbn in H. subst l'. now apply IH. }
  rewrite F in V.
  destruct (readStream_ok KRead s l _ rs V R ltac:(discriminate)) as (r & Er & H).
  exists s, r. auto.
Qed.

(** ** reverseContents *)
Lemma reverseLoop_ok tail : forall pre l2 k, (length pre < k)%nat ->
  let l := pre ++ l2 in
  reverseLoop k (Z.of_nat (length l2) + 1) (Z.of_nat (length l)) (Z.of_nat (length l) + 1)
    (l ++ tail) (rev l2 ++ repeat nilA (length pre)) = Ok (rev l).
Proof.
  induction pre as [|x pre IH] using rev_ind; intros l2 k H l; destruct k as [|k]; try lia; cbn [reverseLoop].
  - subst l. cbn [app length].
    replace (Z.of_nat (length l2) <? Z.of_nat (length l2) + 1) with true by lia.
    cbn [repeat]. now rewrite app_nil_r.
  - assert (length l = length pre + 1 + length l2)%nat as Ll
      by (subst l; rewrite !app_length; cbn; lia).
    rewrite app_length in H. cbn [length] in H.
    replace (Z.of_nat (length l) <? Z.of_nat (length l2) + 1) with false by lia.
    assert (skipn (length pre) l = x :: l2) as Sk.
    { subst l. rewrite <- app_assoc. apply skipn_len. reflexivity. }
    replace (Z.of_nat (length l) + 1 - (Z.of_nat (length l2) + 1)) with (Z.of_nat (length pre) + 1) by lia.
    rewrite (cat_ok l tail (length pre) x l2 Sk). cbn [obind].
    unfold cput. rewrite app_length. cbn [length].
    replace ((Z.of_nat (length l2) + 1 <? 1) ||
      (csize (rev l2 ++ repeat nilA (length pre + 1)) <? Z.of_nat (length l2) + 1)) with false
      by (unfold csize; rewrite app_length, rev_length, repeat_length; lia).
    cbn [obind]. replace (Z.to_nat (Z.of_nat (length l2) + 1 - 1)) with (length (rev l2)) by (rewrite rev_length; lia).
    assert (replace (length (rev l2)) x (rev l2 ++ repeat nilA (length pre + 1))
      = rev (x :: l2) ++ repeat nilA (length pre)) as ->.
    { rewrite replace_skipn by (rewrite app_length, repeat_length; lia).
      rewrite firstn_len by reflexivity. rewrite Nat.add_1_r. cbn [repeat].
      replace (rev l2 ++ nilA :: repeat nilA (length pre)) with ((rev l2 ++ [nilA]) ++ repeat nilA (length pre))
        by now rewrite <- app_assoc.
      rewrite skipn_len by (rewrite app_length; cbn; lia).
      cbn [rev]. now rewrite <- app_assoc. }
    specialize (IH (x :: l2) k ltac:(lia)). cbv zeta in IH.
    assert (pre ++ x :: l2 = l) as El by (subst l; now rewrite <- app_assoc).
    rewrite El in IH. cbn [length] in IH.
    replace (Z.of_nat (length l2) + 1 + 1) with (Z.of_nat (S (length l2)) + 1) by lia. exact IH.
Qed.

(** at the end of the sequence *)
Lemma reverse_ok k s l : inv k s l (length l) -> reverseContents nilA s = Ok (rev l).
Proof.
  intros (tail & -> & _). unfold reverseContents. cbn [coll ptr endPtr].
  pose proof (reverseLoop_ok tail l [] (S (Z.to_nat (Z.of_nat (length l)))) ltac:(lia)) as H.
  cbv zeta in H. rewrite app_nil_r in H. cbn [length rev app Z.of_nat Z.add] in H.
  unfold copyEmpty. replace (Z.to_nat (Z.of_nat (length l) + 1 - 1)) with (length l) by lia. exact H.
Qed.

Lemma reverse_history l os : forallb (understands KWrite) os = true ->
  let '(l', c') := sfinal eqb KWrite os [] 0 in c' = length l' ->
  exists s, sexec nilA eqb os (writeOn l) = Ok s /\ reverseContents nilA s = Ok (rev l').
Proof.
  intros U. destruct (created l) as (_ & C & _).
  destruct (exec_ok KWrite os _ _ _ U C) as (s & E & V).
  destruct (sfinal eqb KWrite os [] 0) as [l' c']. cbn [fst snd] in V. intros ->.
  exists s. split; auto. eapply reverse_ok; eauto.
Qed.

(** ** upTo: *)
Lemma search_ok x : forall l k0, 0 < k0 ->
  let '(n, b) := count_to eqb x l in
  searchFrom eqb x k0 l = if b then k0 + Z.of_nat n - 1 else 0.
Proof.
  induction l as [|y l IH]; intros k0 H; cbn [count_to searchFrom]; [reflexivity|].
  destruct (eqb y x); [lia|]. specialize (IH (k0 + 1) ltac:(lia)).
  destruct (count_to eqb x l) as [n b]. rewrite IH. destruct b; lia.
Qed.
Lemma count_to_le x l : (fst (count_to eqb x l) <= length l)%nat /\
  (snd (count_to eqb x l) = true -> (1 <= fst (count_to eqb x l))%nat).
Proof.
  induction l as [|y l [IH IH2]]; cbn; [split; [lia|discriminate]|].
  destruct (eqb y x); cbn; [lia|]. destruct (count_to eqb x l); cbn in *. split; intros; lia.
Qed.

Lemma count_to_all x l : snd (count_to eqb x l) = false -> fst (count_to eqb x l) = length l.
Proof.
  induction l as [|y l IH]; cbn; auto. destruct (eqb y x); cbn; [discriminate|].
  destruct (count_to eqb x l); cbn in *. intros; f_equal; auto.
Qed.
Lemma nextInto_coll : forall fuel n r d p s o s',
  nextInto fuel n r d p s = Ok (o, s') -> coll s' = coll s.
Proof.
  induction fuel as [|fuel IH]; intros n r d p s o s' H; cbn [nextInto] in H; [discriminate|].
  destruct (r =? n); [injection H as <- <-; auto|].
  destruct (atEnd s); [injection H as <- <-; auto|].
  unfold nextAvailableInto in H. destruct (noRead s); cbn [obind] in H; [injection H as <- <-; auto|].
  destruct (creplace _ _ _ _ _); cbn [obind] in H; try discriminate.
  apply IH in H. exact H.
Qed.
Lemma nextN_coll n s a s' : nextN nilA n s = Ok (a, s') -> coll s' = coll s.
Proof.
  unfold nextN. destruct (nextInto _ _ _ _ _ _) as [[o s2]| | | |] eqn:E; cbn [obind]; try discriminate.
  apply nextInto_coll in E. destruct o; intros H; injection H as <- <-; exact E.
Qed.
Lemma next_coll s a s' : next s = Ok (a, s') -> coll s' = coll s.
Proof.
  unfold next. destruct (noRead s); [intros H; injection H as <- <-; auto|].
  destruct (_ <? _); [intros H; injection H as <- <-; auto|].
  destruct (cat _ _); cbn [obind]; try discriminate. intros H; injection H as <- <-; auto.
Qed.

(** when the stream ends where its collection ends *)
Lemma upTo_ok k l c x : k <> KWrite -> (c <= length l)%nat ->
  let s := ST l (Z.of_nat c + 1) (csize l) (code k) in
  let '(n, b) := count_to eqb x (skipn c l) in
  exists s', upTo nilA eqb x s = Ok (SElts (firstn (if b then n - 1 else n) (skipn c l)), s') /\
    s' = ST l (Z.of_nat (c + n) + 1) (csize l) (code k).
Proof.
  intros K Hc s. pose proof (inv_whole k l c Hc) as V. fold s in V.
  pose proof (count_to_le x (skipn c l)) as [CL CB].
  unfold upTo. assert (indexOf0 eqb (coll s) x (ptr s)
     = Ok (let '(n, b) := count_to eqb x (skipn c l) in if b then Z.of_nat (c + n) else 0)) as ->.
  { unfold indexOf0. cbn [s coll ptr]. destruct (Nat.eq_dec c (length l)) as [->|N].
    - replace ((Z.of_nat (length l) + 1 <? 1) || (csize l <? Z.of_nat (length l) + 1)) with true
        by (unfold csize; lia).
      replace (Z.of_nat (length l) + 1 =? csize l + 1) with true by (unfold csize; lia).
      rewrite skipn_all. reflexivity.
    - replace ((Z.of_nat c + 1 <? 1) || (csize l <? Z.of_nat c + 1)) with false by (unfold csize; lia).
      replace (Z.to_nat (Z.of_nat c + 1 - 1)) with c by lia.
      pose proof (search_ok x (skipn c l) (Z.of_nat c + 1) ltac:(lia)) as H.
      destruct (count_to eqb x (skipn c l)) as [n b]. rewrite H. destruct b; [|reflexivity]. f_equal. lia. }
  destruct (count_to eqb x (skipn c l)) as [n b] eqn:EC. cbn [obind fst snd] in *.
  rewrite skipn_length in CL.
  assert (Uniq : forall s' c', inv k s' l c' -> coll s' = l -> s' = ST l (Z.of_nat c' + 1) (csize l) (code k)).
  { intros s' c' (t & -> & H) E. cbn [coll] in E. now rewrite E. }
  destruct b.
  - destruct (Z.eqb_spec (Z.of_nat (c + n)) 0); [specialize (CB eq_refl); lia|].
    specialize (CB eq_refl).
    replace (Z.of_nat (c + n) - ptr s) with (Z.of_nat (n - 1)) by (cbn [s ptr]; lia).
    pose proof (nextN_ok k s l c (n - 1) K V) as H. cbn [sspec] in H.
    rewrite skipn_length in H. destruct (Nat.leb_spec (n - 1) (length l - c)); [|lia].
    destruct H as (s' & EN & V'). rewrite EN. cbn [obind].
    assert (E : exists y r, skipn (c + (n - 1)) l = y :: r).
    { destruct (skipn (c + (n - 1)) l) eqn:E; eauto. apply skipn_nil_len in E. lia. }
    destruct E as (y & r & E).
    destruct (next_elt k s' l (c + (n - 1)) y r K V' E) as (s2 & E2 & V2).
    rewrite E2. cbn [obind snd]. exists s2. split; [reflexivity|].
    apply next_coll in E2. apply nextN_coll in EN.
    rewrite (Uniq s2 (S (c + (n - 1)))); auto; [f_equal; lia|]. rewrite E2, EN. reflexivity.
  - cbn [Z.eqb]. pose proof (upToEnd_ok k s l c K V) as H. cbn [sspec] in H.
    destruct H as (s' & E & V'). rewrite E.
    assert (n = length l - c)%nat as ->.
    { pose proof (count_to_all x (skipn c l)) as H. rewrite EC in H. specialize (H eq_refl).
      cbn [fst] in H. rewrite skipn_length in H. exact H. }
    rewrite firstn_all2 by (rewrite skipn_length; lia).
    eexists; split; [reflexivity|]. unfold upToEnd in E. apply nextN_coll in E.
    rewrite (Uniq s' (length l)); auto. f_equal. lia.
Qed.
End P.
