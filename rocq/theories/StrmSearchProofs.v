From Coq Require Import ZArith List Bool Lia.
From Verif Require Import Base Hashed HashedProofs StrmSpec Strm StrmSearch StrmProofs.
Import ListNotations.
Local Open Scope Z_scope.

Section P.
Context {A : Type}.
Variable eqb : A -> A -> bool.
Hypothesis eqb_ok : forall x y, eqb x y = true <-> x = y.
Implicit Types (p l rest : list A).

Lemma cat_nth {B} (c : list B) i x : nth_error c i = Some x -> cat c (Z.of_nat i + 1) = Ok x.
Proof.
  intros H. unfold cat. destruct (Z.ltb_spec (Z.of_nat i + 1) 1); [lia|].
  replace (Z.to_nat (Z.of_nat i + 1 - 1)) with i by lia. now rewrite H.
Qed.

(** the table is 0 1 1 1 ... *)
Lemma fill_ok p : forall n i, (1 <= i)%nat -> (i + 1 + n = length p)%nat ->
  fill eqb n (Z.of_nat i + 1) p (0 :: repeat 1 i ++ repeat 0 n)
   = Ok (0 :: repeat 1 (i + n)).
Proof.
  induction n as [|n IH]; intros i Hi Hl; cbn [fill].
  - cbn. now rewrite app_nil_r, Nat.add_0_r.
  - destruct (nth_error p i) as [ch|] eqn:E; [|apply nth_error_None in E; lia].
    rewrite (cat_nth _ _ _ E). cbn [obind].
    assert (nth_error (0 :: repeat 1 i ++ repeat 0 (S n)) i = Some 1) as N.
    { destruct i as [|i]; [lia|]. cbn [nth_error]. rewrite nth_error_app1 by (rewrite repeat_length; lia).
      apply nth_error_repeat. lia. }
    rewrite (cat_nth _ _ _ N). cbn [obind back Z.leb Z.compare Pos.compare Pos.compare_cont].
    unfold cput. replace ((Z.of_nat i + 1 + 1 <? 1) || (csize (0 :: repeat 1 i ++ repeat 0 (S n)) <? Z.of_nat i + 1 + 1))
      with false by (unfold csize; cbn [length]; rewrite app_length, !repeat_length; lia).
    cbn [obind].
    replace (Z.to_nat (Z.of_nat i + 1 + 1 - 1)) with (S i) by lia. cbn [replace repeat].
    assert (replace i 1 (repeat 1 i ++ 0 :: repeat 0 n) = repeat 1 (S i) ++ repeat 0 n) as ->.
    { rewrite replace_skipn with (i := i) by (rewrite app_length, repeat_length; cbn [length]; lia).
      rewrite firstn_len by (rewrite repeat_length; lia).
      replace (repeat 1 i ++ 0 :: repeat 0 n) with ((repeat 1 i ++ [0]) ++ repeat 0 n)
        by now rewrite <- app_assoc.
      rewrite skipn_len by (rewrite app_length, repeat_length; cbn [length]; lia).
      rewrite app_assoc. f_equal. change [1] with (repeat 1 1). rewrite <- repeat_app. f_equal. lia. }
    replace (Z.of_nat i + 1 + 1) with (Z.of_nat (S i) + 1) by lia.
    rewrite IH by lia. do 3 f_equal. lia.
Qed.

Lemma table_ok p : (2 <= length p)%nat ->
  prefixTableFor eqb p = Ok (0 :: repeat 1 (length p - 1)).
Proof.
  intros H. unfold prefixTableFor.
  destruct (length p) as [|[|n]] eqn:E; [lia|lia|].
  cbn [repeat]. unfold cput, csize. cbn [length]. rewrite repeat_length.
  replace ((1 <? 1) || (Z.of_nat (S (S n)) <? 1)) with false by lia. cbn [obind].
  replace (Z.to_nat (1 - 1)) with O by lia. cbn [replace length]. rewrite repeat_length.
  replace ((2 <? 1) || (Z.of_nat (S (S n)) <? 2)) with false by lia. cbn [obind].
  replace (Z.to_nat (2 - 1)) with 1%nat by lia. cbn [replace].
  replace (S (S n) - 2)%nat with n by lia.
  pose proof (fill_ok p n 1 ltac:(lia) ltac:(lia)) as F. cbn [repeat app] in F.
  change (Z.of_nat 1 + 1) with 2 in F. rewrite F. do 3 f_equal.
Qed.

Lemma table_one x : prefixTableFor eqb [x] = Err.
Proof. reflexivity. Qed.

(** pattern positions are 0-based here: [j] elements of it have matched *)
Fixpoint scan (fuel : nat) (p : list A) (j : nat) (ch : A) (n : nat) rest : option (bool * nat) :=
  match fuel with
  | O => None
  | S fuel =>
    let advance j :=
      if (length p <=? j)%nat then Some (true, n)
      else match rest with [] => Some (false, n) | c :: rest => scan fuel p j c (S n) rest end in
    match nth_error p j with
    | None => None
    | Some y => if eqb ch y then advance (S j) else
       match j with O => advance O | _ => scan fuel p O ch n rest end
    end
  end.

Lemma kmp_scan p : (2 <= length p)%nat -> forall fuel j ch n rest r,
  scan fuel p j ch n rest = Some r ->
  kmp eqb fuel p (0 :: repeat 1 (length p - 1)) (Z.of_nat j + 1) ch n rest = Ok r.
Proof.
  intros Hp. induction fuel as [|fuel IH]; intros j ch n rest r H; cbn [scan] in H; [discriminate|].
  cbn [kmp]. destruct (nth_error p j) as [y|] eqn:E; [|discriminate].
  assert (j < length p)%nat as Lj by (apply nth_error_Some; congruence).
  rewrite (cat_nth _ _ _ E). cbn [obind].
  assert (CS : csize (0 :: repeat 1 (length p - 1)) = Z.of_nat (length p)).
  { unfold csize. cbn [length]. rewrite repeat_length. lia. }
  assert (Adv : forall k, (if (length p <=? k)%nat then Some (true, n)
      else match rest with [] => Some (false, n) | c :: rest => scan fuel p k c (S n) rest end) = Some r ->
    (if csize (0 :: repeat 1 (length p - 1)) <? Z.of_nat k + 1 then Ok (true, n)
      else match rest with [] => Ok (false, n)
        | c :: rest => kmp eqb fuel p (0 :: repeat 1 (length p - 1)) (Z.of_nat k + 1) c (S n) rest end) = Ok r).
  { intros k. rewrite CS. destruct (Nat.leb_spec (length p) k), (Z.ltb_spec (Z.of_nat (length p)) (Z.of_nat k + 1)); try lia.
    - congruence.
    - destruct rest; [congruence|]. apply IH. }
  destruct (eqb ch y).
  - replace (Z.of_nat j + 1 + 1) with (Z.of_nat (S j) + 1) by lia. apply Adv. exact H.
  - destruct j as [|j].
    + cbn [nth_error] in *. cbn [Z.of_nat Z.add]. cbn [cat Z.ltb Z.compare Pos.compare Pos.compare_cont].
      change (cat (0 :: repeat 1 (length p - 1)) 1) with (Ok 0). cbn [obind Z.eqb].
      apply (Adv O). exact H.
    + assert (nth_error (0 :: repeat 1 (length p - 1)) (S j) = Some 1) as N
        by (cbn [nth_error]; apply nth_error_repeat; lia).
      rewrite (cat_nth _ _ _ N). cbn [obind Z.eqb]. apply (IH O). exact H.
Qed.

Lemma scan_total p : p <> [] -> forall fuel j ch n rest, (j < length p)%nat ->
  (2 * length rest + (match j with O => 1 | _ => 2 end) <= fuel)%nat ->
  exists r, scan fuel p j ch n rest = Some r.
Proof.
  intros Np. induction fuel as [|fuel IH]; intros j ch n rest Hj Hf; [destruct j; lia|].
  cbn [scan]. destruct (nth_error p j) as [y|] eqn:E; [|apply nth_error_None in E; lia].
  assert (Adv : forall k, exists r, (if (length p <=? k)%nat then Some (true, n)
      else match rest with [] => Some (false, n) | c :: rest => scan fuel p k c (S n) rest end) = Some r).
  { intros k. destruct (Nat.leb_spec (length p) k); [eauto|]. destruct rest; [eauto|].
    apply IH; auto. cbn [length] in Hf. destruct j, k; lia. }
  destruct (eqb ch y); [apply Adv|]. destruct j; [apply Adv|].
  apply IH; [destruct p; [congruence|cbn; lia]|lia].
Qed.

(** [seen] is what was read before [ch]; its last [j] elements are the first
    of the pattern *)
Definition matched p seen (j : nat) :=
  (j <= length seen)%nat /\ skipn (length seen - j) seen = firstn j p.

Lemma matched_next p seen j ch : matched p seen j -> nth_error p j = Some ch ->
  matched p (seen ++ [ch]) (S j).
Proof.
  intros [L M] N. split; [rewrite app_length; cbn; lia|].
  rewrite app_length. cbn [length]. replace (length seen + 1 - S j)%nat with (length seen - j)%nat by lia.
  rewrite skipn_app_le, M by lia.
  clear M L. revert j N. induction p as [|a p IH]; intros [|j] N; cbn in *; try discriminate.
  - injection N as ->. reflexivity.
  - f_equal. rewrite IH by auto. destruct p; reflexivity.
Qed.
Lemma matched_0 p seen : matched p seen 0.
Proof. split; [lia|]. rewrite Nat.sub_0_r, skipn_all. reflexivity. Qed.

Lemma scan_sound p l : forall fuel seen j ch rest n,
  l = seen ++ ch :: rest -> matched p seen j ->
  scan fuel p j ch (S (length seen)) rest = Some (true, n) ->
  (length p <= n <= length l)%nat /\ firstn (length p) (skipn (n - length p) l) = p.
Proof.
  induction fuel as [|fuel IH]; intros seen j ch rest n El M H; cbn [scan] in H; [discriminate|].
  destruct (nth_error p j) as [y|] eqn:E; [|discriminate].
  assert (Lj : (j < length p)%nat) by (apply nth_error_Some; congruence).
  assert (El' : forall c r, rest = c :: r -> l = (seen ++ [ch]) ++ c :: r).
  { intros c r ->. rewrite <- app_assoc. exact El. }
  assert (Hlen : S (length seen) = length (seen ++ [ch])) by (rewrite app_length; cbn; lia).
  destruct (eqb ch y) eqn:Q.
  - apply eqb_ok in Q as ->. pose proof (matched_next _ _ _ _ M E) as M'.
    destruct (Nat.leb_spec (length p) (S j)).
    + injection H as <-. assert (S j = length p) as Ej by lia. rewrite Ej in M'.
      destruct M' as [L' M']. rewrite <- Hlen in *. split.
      * rewrite El, app_length. cbn. lia.
      * replace (seen ++ y :: rest) with ((seen ++ [y]) ++ rest) in El by now rewrite <- app_assoc.
        rewrite El, skipn_app_le, M', firstn_all by lia.
        rewrite firstn_len; auto.
    + destruct rest as [|c rest]; [discriminate|].
      rewrite Hlen in H. eapply IH; [apply El'; reflexivity|exact M'|exact H].
  - destruct j as [|j].
    + destruct (Nat.leb_spec (length p) 0); [lia|].
      destruct rest as [|c rest]; [discriminate|]. rewrite Hlen in H.
      eapply IH; [apply El'; reflexivity|apply matched_0|exact H].
    + eapply IH; [exact El|apply matched_0|exact H].
Qed.

Lemma nth_firstn_skipn {B} (l : list B) n i k : (k < n)%nat ->
  nth_error (firstn n (skipn i l)) k = nth_error l (i + k).
Proof.
  revert n k. induction i as [|i IH] in l |- *; intros n k H.
  - cbn [skipn Nat.add]. revert n k H. induction l as [|a l IHl]; intros [|n] [|k] H; try lia; cbn; auto.
    apply IHl. lia.
  - destruct l as [|a l]; cbn [skipn].
    + destruct n; destruct k; cbn; auto; now destruct k.
    + cbn. apply IH. exact H.
Qed.
Lemma occurs_nth p l i k : occurs_at p l i -> (k < length p)%nat -> nth_error l (i + k) = nth_error p k.
Proof. intros O H. rewrite <- (nth_firstn_skipn l (length p)) by auto. now rewrite O. Qed.
Lemma occurs_len p l i : occurs_at p l i -> p <> [] -> (i + length p <= length l)%nat.
Proof.
  intros O N. pose proof (f_equal (@length A) O) as H. rewrite firstn_length, skipn_length in H.
  assert (length p <> 0%nat) by (destruct p; cbn; congruence). lia.
Qed.

(** the first element does not recur before the last position *)
Definition head_once p := forall x, nth_error p 0 = Some x ->
  forall k, (0 < k < length p - 1)%nat -> nth_error p k <> Some x.

Lemma matched_nth p seen j k : matched p seen j -> (k < j)%nat -> (j <= length p)%nat ->
  nth_error seen (length seen - j + k) = nth_error p k.
Proof.
  intros [L M] H Hj. pose proof (f_equal (fun x => nth_error x k) M) as E. cbn in E.
  rewrite <- (nth_firstn_skipn seen j) by auto. rewrite M.
  rewrite firstn_all2 by (rewrite firstn_length; lia). exact (nth_firstn_skipn p j 0 k H).
Qed.

Lemma scan_complete p l : p <> [] -> head_once p -> forall fuel seen j ch rest b n,
  l = seen ++ ch :: rest -> matched p seen j -> (j < length p)%nat ->
  (forall i, (i + j < length seen)%nat -> ~ occurs_at p l i) ->
  scan fuel p j ch (S (length seen)) rest = Some (b, n) ->
  (forall i, (i + length p < n)%nat -> ~ occurs_at p l i) /\
  (b = false -> n = length l /\ forall i, ~ occurs_at p l i).
Proof.
  intros Np HO. induction fuel as [|fuel IH]; intros seen j ch rest b n El M Lj No H; cbn [scan] in H; [discriminate|].
  destruct (nth_error p j) as [y|] eqn:E; [|discriminate].
  assert (El' : forall c r, rest = c :: r -> l = (seen ++ [ch]) ++ c :: r).
  { intros c r ->. rewrite <- app_assoc. exact El. }
  assert (Hlen : S (length seen) = length (seen ++ [ch])) by (rewrite app_length; cbn; lia).
  assert (Hch : nth_error l (length seen) = Some ch).
  { rewrite El, nth_error_app2, Nat.sub_diag by lia. reflexivity. }
  destruct (eqb ch y) eqn:Q.
  - apply eqb_ok in Q as ->. pose proof (matched_next _ _ _ _ M E) as M'.
    destruct (Nat.leb_spec (length p) (S j)).
    + injection H as <- <-. split; [|discriminate]. intros i Hi. apply No. lia.
    + destruct rest as [|c rest].
      * injection H as <- <-.
        assert (length l = S (length seen)) as Ll by (rewrite El, app_length; cbn; lia).
        assert (NoO : forall i, ~ occurs_at p l i).
        { intros i O. pose proof (occurs_len _ _ _ O Np). apply (No i); auto. lia. }
        auto.
      * rewrite Hlen in H. eapply IH; [apply El'; reflexivity|exact M'|lia| |exact H].
        intros i Hi. apply No. rewrite <- Hlen in Hi. lia.
  - assert (Hne : ch <> y) by (intros ->; rewrite (proj2 (eqb_ok y y) eq_refl) in Q; discriminate).
    destruct j as [|j].
    + assert (No' : forall i, (i + 0 < length (seen ++ [ch]))%nat -> ~ occurs_at p l i).
      { intros i Hi O. rewrite <- Hlen in Hi. destruct (Nat.eq_dec i (length seen)) as [->|].
        - pose proof (occurs_nth _ _ _ 0 O Lj) as W. rewrite Nat.add_0_r in W. congruence.
        - apply (No i); auto. lia. }
      destruct (Nat.leb_spec (length p) 0); [lia|].
      destruct rest as [|c rest].
      * injection H as <- <-.
        assert (length l = S (length seen)) as Ll by (rewrite El, app_length; cbn; lia).
        assert (NoO : forall i, ~ occurs_at p l i).
        { intros i O. pose proof (occurs_len _ _ _ O Np). apply (No' i); auto. rewrite <- Hlen. lia. }
        auto.
      * rewrite Hlen in H. eapply IH; [apply El'; reflexivity|apply matched_0|lia|exact No'|exact H].
    + eapply IH; [exact El|apply matched_0|lia| |exact H].
      intros i Hi O. pose proof (proj1 M) as Lm.
      destruct (Nat.lt_ge_cases (i + S j) (length seen)) as [|G]; [now apply (No i)|].
      destruct (Nat.eq_dec (i + S j) (length seen)) as [Eq|Ne].
      * pose proof (occurs_nth _ _ _ (S j) O Lj) as W. rewrite Eq, Hch in W. congruence.
      * (* an occurrence starting inside the part matched *)
        destruct (nth_error p 0) as [x|] eqn:P0; [|apply nth_error_None in P0; lia].
        set (k := (i - (length seen - S j))%nat).
        assert (nth_error p k = Some x) as Pk.
        { rewrite <- (matched_nth p seen (S j) k M ltac:(unfold k; lia) ltac:(lia)).
          replace (length seen - S j + k)%nat with i by (unfold k; lia).
          pose proof (occurs_nth _ _ _ 0 O ltac:(lia)) as W. rewrite Nat.add_0_r, P0 in W.
          rewrite El, nth_error_app1 in W by lia. exact W. }
        apply (HO x P0 k) in Pk; auto. unfold k. lia.
Qed.

Lemma skipToAll_scan p l : (2 <= length p)%nat -> l <> [] ->
  exists r, skipToAll eqb p l = Ok r /\
    match l with [] => True | ch :: rest => scan (2 * length l) p 0 ch 1 rest = Some r end.
Proof.
  intros Hp Hl. destruct l as [|ch rest]; [congruence|].
  assert (p <> []) by (destruct p; cbn in Hp; [lia|congruence]).
  destruct (scan_total p H (2 * length (ch :: rest)) 0 ch 1 rest ltac:(lia)) as (r & E).
  { cbn [length]. lia. }
  exists r. split; [|exact E]. unfold skipToAll. destruct p as [|x p]; [congruence|].
  rewrite table_ok by auto. cbn [obind]. apply (kmp_scan (x :: p) Hp _ 0) in E. exact E.
Qed.

Lemma skipToAll_sound p l n : p <> [] -> skipToAll eqb p l = Ok (true, n) ->
  (length p <= n <= length l)%nat /\ occurs_at p l (n - length p).
Proof.
  intros Np H. destruct l as [|ch rest]; [discriminate|].
  destruct (Nat.le_gt_cases 2 (length p)) as [L|L].
  - destruct (skipToAll_scan p (ch :: rest) L ltac:(congruence)) as (r & E & S).
    assert (r = (true, n)) as -> by congruence.
    apply (scan_sound p (ch :: rest) _ [] 0 ch rest n eq_refl (matched_0 _ _) S).
  - destruct p as [|x [|? ?]]; [congruence| |cbn in L; lia].
    cbn in H. discriminate.
Qed.

Lemma skipToAll_complete p l : (2 <= length p)%nat -> head_once p ->
  exists b n, skipToAll eqb p l = Ok (b, n) /\
    (b = true -> (length p <= n)%nat /\ first_occurrence p l (n - length p)) /\
    (b = false -> n = length l /\ forall i, ~ occurs_at p l i).
Proof.
  intros Hp HO. assert (Np : p <> []) by (destruct p; cbn in Hp; [lia|congruence]).
  destruct l as [|ch rest].
  - exists false, 0%nat. split; [reflexivity|]. split; [discriminate|]. intros _. split; auto.
    intros i O. apply occurs_len in O; auto. cbn in O. lia.
  - destruct (skipToAll_scan p (ch :: rest) Hp ltac:(congruence)) as ([b n] & E & S).
    exists b, n. split; [exact E|].
    destruct (scan_complete p (ch :: rest) Np HO _ [] 0 ch rest b n eq_refl (matched_0 _ _)
                ltac:(lia) ltac:(cbn; lia) S) as [C1 C2].
    split; [|exact C2]. intros ->.
    destruct (skipToAll_sound p _ n Np E) as [B O]. split; [lia|].
    split; [lia|]. split; [exact O|]. intros j Hj. apply C1. lia.
Qed.

Lemma upToAll_skip p l : p <> [] -> forall b n, skipToAll eqb p l = Ok (b, n) ->
  upToAll eqb p l = Ok (if b then firstn (n - length p) l else firstn n l, n).
Proof.
  intros Np b n H. destruct l as [|ch rest].
  - cbn in H. injection H as <- <-. reflexivity.
  - unfold upToAll, skipToAll in *. destruct p as [|x p]; [congruence|].
    destruct (prefixTableFor eqb (x :: p)); cbn [obind] in *; try discriminate.
    rewrite H. cbn [obind]. now destruct b.
Qed.

Lemma upToAll_complete p l : (2 <= length p)%nat -> head_once p ->
  (forall i, first_occurrence p l i -> upToAll eqb p l = Ok (firstn i l, (i + length p)%nat)) /\
  ((forall i, ~ occurs_at p l i) -> upToAll eqb p l = Ok (l, length l)).
Proof.
  intros Hp HO. assert (Np : p <> []) by (destruct p; cbn in Hp; [lia|congruence]).
  destruct (skipToAll_complete p l Hp HO) as (b & n & E & T & F).
  rewrite (upToAll_skip p l Np b n E). split.
  - intros i (B & O & M). destruct b.
    + destruct (T eq_refl) as [Ln (B' & O' & M')].
      assert (i = n - length p)%nat as ->.
      { destruct (Nat.lt_trichotomy i (n - length p)) as [W|[W|W]]; auto; exfalso.
        - apply (M' i); auto.
        - apply (M (n - length p)%nat); auto. }
      do 3 f_equal; lia.
    + exfalso. destruct (F eq_refl) as [_ N]. now apply (N i).
  - intros N. destruct b.
    + exfalso. destruct (T eq_refl) as [_ (_ & O & _)]. now apply (N (n - length p)%nat).
    + destruct (F eq_refl) as [-> _]. now rewrite firstn_all.
Qed.
End P.

Lemma search_empty {A} (eqb : A -> A -> bool) l : l <> [] ->
  exists i, skipToAll eqb [] l = Ok (true, i) /\ first_occurrence [] l i /\
    upToAll eqb [] l = Ok (firstn i l, i).
Proof.
  intros N. destruct l as [|x l]; [congruence|]. exists 0%nat. split; [reflexivity|]. split; [|reflexivity].
  split; [cbn; lia|]. split; [reflexivity|]. intros j J. lia.
Qed.
