(** An OrderedCollection refines a sequence. *)
From Verif Require Import Base Hashed Replace OrderColl OrderCollSpec OrderCollClient.

Section Proofs.
  Context {A : Type} (nil : A).
  Implicit Types (c : @oc A) (a b g t m s l : list A).
  Local Notation len l := (Z.of_nat (length l)).

  (** The elements sit between two unused areas. *)
  Definition rep c m : Prop :=
    exists pre post, store c = pre ++ m ++ post /\ firstIndex c = len pre + 1 /\ lastIndex c = len pre + len m.

  Lemma basicAt_app a x t i : i = len a + 1 -> basicAt nil (a ++ x :: t) i = Ok x.
  Proof.
    intros ->. unfold basicAt. rewrite app_length. cbn [length]. replace ((_ <=? _) && _) with true by lia.
    f_equal. rewrite app_nth2 by lia. replace (_ - _)%nat with 0%nat by lia. reflexivity.
  Qed.
  Lemma replace_app a x y t : replace (length a) x (a ++ y :: t) = a ++ x :: t.
  Proof. induction a as [|z a IH]; cbn; [reflexivity|]. rewrite IH. reflexivity. Qed.
  Lemma basicAtPut_app a x y t i : i = len a + 1 -> basicAtPut (a ++ y :: t) i x = Ok (a ++ x :: t).
  Proof.
    intros ->. unfold basicAtPut. rewrite app_length. cbn [length]. replace ((_ <=? _) && _) with true by lia.
    replace (Z.to_nat _) with (length a) by lia. rewrite replace_app. reflexivity.
  Qed.

  Lemma firstn_app_len a t : firstn (length a) (a ++ t) = a.
  Proof. rewrite firstn_app, Nat.sub_diag, firstn_all. cbn. apply app_nil_r. Qed.
  Lemma skipn_app_len a t : skipn (length a) (a ++ t) = t.
  Proof. rewrite skipn_app, Nat.sub_diag, skipn_all. reflexivity. Qed.

  Lemma split_at l n : (n <= length l)%nat -> exists a b, l = a ++ b /\ length a = n.
  Proof.
    intros H. exists (firstn n l), (skipn n l). rewrite firstn_skipn. split; [reflexivity|].
    rewrite firstn_length. lia.
  Qed.

  Lemma moveUp_app b : forall a g t n i, len g = n -> i = len a + len b ->
    exists g', length g' = length g /\
      moveUp nil (length b) n i (a ++ b ++ g ++ t) = Ok (a ++ g' ++ b ++ t).
  Proof.
    induction b as [|x b IH] using rev_ind; intros a g t n i G I.
    - exists g. split; reflexivity.
    - rewrite app_length. cbn [length]. replace (length b + 1)%nat with (S (length b)) by lia. cbn [moveUp].
      rewrite app_length in I. cbn [length] in I.
      replace (a ++ (b ++ [x]) ++ g ++ t) with ((a ++ b) ++ x :: (g ++ t)) by (rewrite <- !app_assoc; reflexivity).
      rewrite basicAt_app by (rewrite app_length; lia). cbn [obind].
      destruct (split_at (x :: g) (length g)) as (g1 & r & E & L1); [cbn; lia|].
      assert (length r = 1%nat) as R by (apply (f_equal (@length A)) in E; rewrite app_length in E; cbn in E; lia).
      destruct r as [|y [|z r]]; try discriminate R.
      replace ((a ++ b) ++ x :: g ++ t) with ((a ++ b ++ g1) ++ y :: t).
      2: { change (x :: g ++ t) with ((x :: g) ++ t). rewrite E, <- !app_assoc. reflexivity. }
      rewrite basicAtPut_app by (rewrite !app_length; lia). cbn [obind].
      destruct (IH a g1 (x :: t) n (i - 1)) as (g' & L' & E'); [lia|lia|].
      exists g'. split; [lia|]. rewrite <- !app_assoc in *. cbn [app] in *. rewrite E'. reflexivity.
  Qed.
  Lemma putAll_app l : forall a g t i, length g = length l -> i = len a + 1 ->
    putAll l i (a ++ g ++ t) = Ok (a ++ l ++ t).
  Proof.
    induction l as [|x l IH]; intros a [|y g] t i G I; try discriminate G; [reflexivity|].
    cbn [putAll app]. rewrite basicAtPut_app by exact I. cbn [obind].
    specialize (IH (a ++ [x]) g t (i + 1)). rewrite <- !app_assoc in IH. apply IH; [now injection G|].
    rewrite app_length. cbn [length]. lia.
  Qed.
  Lemma do_app m : forall a t i, i = len a + 1 -> do_ nil (length m) i (a ++ m ++ t) = Ok m.
  Proof.
    induction m as [|x m IH]; intros a t i I; [reflexivity|]. cbn [do_ length app].
    rewrite basicAt_app by exact I. cbn [obind].
    specialize (IH (a ++ [x]) t (i + 1)). rewrite <- !app_assoc in IH. cbn [app] in IH. rewrite IH; [reflexivity|].
    rewrite app_length. cbn [length]. lia.
  Qed.

  Lemma rep_size c m : rep c m -> size c = len m.
  Proof. intros (p & q & E & F & L). unfold size. lia. Qed.
  Lemma rep_bounds c m : rep c m -> 1 <= firstIndex c /\ lastIndex c <= basicSize c.
  Proof. intros (p & q & E & F & L). unfold basicSize. rewrite E, !app_length. lia. Qed.

  Lemma growBy_rep c m delta shift : rep c m ->
    1 <= firstIndex c + shift -> lastIndex c + shift <= basicSize c + delta ->
    exists c', growBy nil delta shift c = Ok c' /\ rep c' m /\ basicSize c' = basicSize c + delta /\
      firstIndex c' = firstIndex c + shift /\ lastIndex c' = lastIndex c + shift.
  Proof.
    intros R H1 H2. pose proof (rep_bounds c m R) as [B1 B2]. destruct R as (p & q & E & F & L).
    unfold growBy. replace (_ <? 0) with false by lia.
    set (N := Z.to_nat (basicSize c + delta)).
    unfold replace_range. rewrite repeat_length.
    assert (len (store c) = basicSize c) as LS by reflexivity.
    replace (_ || _) with false by lia.
    eexists. split; [reflexivity|]. cbn [store firstIndex lastIndex].
    replace (firstn _ (skipn _ (store c))) with m.
    2: { rewrite E. replace (Z.to_nat (firstIndex c - 1)) with (length p) by lia. rewrite skipn_app_len.
         replace (Z.to_nat _) with (length m) by lia. rewrite firstn_app_len. reflexivity. }
    split; [|unfold basicSize at 1; cbn [store]; rewrite !app_length, firstn_length, skipn_length, repeat_length; lia].
    eexists _, _. cbn [store firstIndex lastIndex]. split; [reflexivity|].
    rewrite firstn_length, repeat_length. lia.
  Qed.
  Lemma initIndices_rep s : rep (initIndices s) [].
  Proof.
    unfold initIndices. set (f := Z.max (Z.of_nat (length s) / 2) 1).
    destruct (split_at s (Z.to_nat (f - 1))) as (a & b & E & L); [lia|].
    exists a, b. cbn [store firstIndex lastIndex app]. split; [exact E|]. cbn [length]. lia.
  Qed.
  Lemma new_rep n : 0 <= n -> exists c, oc_new nil n = Ok c /\ rep c [].
  Proof. intros H. unfold oc_new. replace (n <? 0) with false by lia. eexists. split; [reflexivity|apply initIndices_rep]. Qed.
  Lemma maybeShrink_rep c m : rep c m -> exists c', maybeShrink nil c = Ok c' /\ rep c' m.
  Proof.
    intros R. unfold maybeShrink. destruct (Z.ltb_spec (size c) (shrinkSize c)) as [H|H]; [|eauto].
    pose proof (rep_bounds c m R) as [B1 B2]. unfold shrink. unfold size in H.
    destruct (growBy_rep c m (- Z.min (shrinkSize c) (basicSize c - (lastIndex c - Z.min (firstIndex c - 1) (shrinkSize c / 2))))
      (- Z.min (firstIndex c - 1) (shrinkSize c / 2)) R) as (c' & E & R' & _); [lia|lia|].
    eauto.
  Qed.
  Lemma roomLast_rep c m n : rep c m -> 0 <= n -> exists c', makeRoomLastFor nil n c = Ok c' /\ rep c' m /\
    lastIndex c' + n <= basicSize c' /\ firstIndex c' = firstIndex c.
  Proof.
    intros R N. unfold makeRoomLastFor. pose proof (rep_bounds c m R) as [B1 B2].
    destruct (Z.ltb_spec (basicSize c) (lastIndex c + n)) as [H|H].
    - destruct (growBy_rep c m (Z.max n (growSize c)) 0 R) as (c' & E & R' & B & F & L); [lia|unfold growSize; lia|].
      exists c'. rewrite E. split; [reflexivity|]. split; [exact R'|]. unfold growSize in *. lia.
    - exists c. split; [reflexivity|]. split; [exact R|]. lia.
  Qed.
  Lemma roomFirst_rep c m n : rep c m -> 0 <= n -> exists c', makeRoomFirstFor nil n c = Ok c' /\ rep c' m /\
    n < firstIndex c'.
  Proof.
    intros R N. unfold makeRoomFirstFor. pose proof (rep_bounds c m R) as [B1 B2].
    destruct (Z.leb_spec (firstIndex c) n) as [H|H].
    - destruct (growBy_rep c m (Z.max n (growSize c)) (Z.max n (growSize c)) R) as (c' & E & R' & B & F & L); [lia|unfold growSize; lia|].
      exists c'. rewrite E. split; [reflexivity|]. split; [exact R'|]. lia.
    - exists c. split; [reflexivity|]. split; [exact R|]. lia.
  Qed.
  Lemma room1_rep c m : rep c m ->
    exists c', (if lastIndex c =? basicSize c then growBy nil (growSize c) 0 c else Ok c) = Ok c' /\ rep c' m /\
    lastIndex c' + 1 <= basicSize c' /\ firstIndex c' = firstIndex c.
  Proof.
    intros R. pose proof (rep_bounds c m R) as [B1 B2].
    destruct (Z.eqb_spec (lastIndex c) (basicSize c)) as [H|H].
    - destruct (growBy_rep c m (growSize c) 0 R) as (c' & E & R' & B & F & L); [lia|unfold growSize; lia|].
      exists c'. rewrite E. split; [reflexivity|]. split; [exact R'|]. unfold growSize in *. lia.
    - exists c. split; [reflexivity|]. split; [exact R|]. lia.
  Qed.

  Lemma add_rep c m x : rep c m -> exists c', add nil x c = Ok c' /\ rep c' (m ++ [x]).
  Proof.
    intros R. unfold add. destruct (room1_rep c m R) as (c1 & E & R1 & B & _). rewrite E. cbn [obind].
    destruct R1 as (p & q & E1 & F1 & L1). unfold basicSize in B. rewrite E1, !app_length in B.
    destruct q as [|y q]; [cbn [length] in B; lia|].
    rewrite E1, app_assoc. rewrite basicAtPut_app by (rewrite app_length; lia). cbn [obind].
    eexists. split; [reflexivity|]. exists p, q. cbn [store firstIndex lastIndex].
    rewrite <- !app_assoc. split; [reflexivity|]. rewrite app_length. cbn [length]. lia.
  Qed.
  Lemma addFirst_rep c m x : rep c m -> exists c', addFirst nil x c = Ok c' /\ rep c' (x :: m).
  Proof.
    intros R. unfold addFirst. pose proof (rep_bounds c m R) as [B1 B2].
    assert (exists c', (if firstIndex c <=? 1 then growBy nil (growSize c) (growSize c) c else Ok c) = Ok c' /\ rep c' m /\
      1 < firstIndex c') as (c1 & E & R1 & B).
    { destruct (Z.leb_spec (firstIndex c) 1) as [H|H].
      - destruct (growBy_rep c m (growSize c) (growSize c) R) as (c' & E & R' & B & F & L); [unfold growSize; lia|lia|].
        exists c'. rewrite E. split; [reflexivity|]. split; [exact R'|]. unfold growSize in F. lia.
      - exists c. split; [reflexivity|]. split; [exact R|lia]. }
    rewrite E. cbn [obind]. destruct R1 as (p & q & E1 & F1 & L1).
    destruct p as [|y p] using rev_ind; [cbn [length] in F1; lia|]. clear IHp. rewrite app_length in F1, L1. cbn [length] in F1, L1.
    rewrite E1, <- app_assoc. cbn [app]. rewrite basicAtPut_app by lia. cbn [obind].
    eexists. split; [reflexivity|]. exists p, q. cbn [store firstIndex lastIndex app]. split; [reflexivity|].
    cbn [length]. lia.
  Qed.
  Lemma addAll_rep c m l : rep c m -> exists c', addAll nil l c = Ok c' /\ rep c' (m ++ l).
  Proof.
    intros R. unfold addAll. destruct (roomLast_rep c m (len l) R) as (c1 & E & R1 & B & _); [lia|]. rewrite E. cbn [obind].
    destruct R1 as (p & q & E1 & F1 & L1). unfold basicSize in B. rewrite E1, !app_length in B.
    destruct (split_at q (length l)) as (g & t & -> & G); [lia|].
    rewrite E1, app_assoc. rewrite putAll_app by (rewrite ?app_length; lia). cbn [obind].
    eexists. split; [reflexivity|]. exists p, t. cbn [store firstIndex lastIndex].
    rewrite <- !app_assoc. split; [reflexivity|]. rewrite app_length. lia.
  Qed.
  Lemma addAllFirst_rep c m l : rep c m -> exists c', addAllFirst nil l c = Ok c' /\ rep c' (l ++ m).
  Proof.
    intros R. unfold addAllFirst. destruct (roomFirst_rep c m (len l) R) as (c1 & E & R1 & B); [lia|]. rewrite E. cbn [obind].
    destruct R1 as (p & q & E1 & F1 & L1).
    destruct (split_at p (length p - length l)) as (a & g & -> & G); [lia|]. rewrite app_length in *.
    rewrite E1, <- app_assoc. rewrite putAll_app by lia. cbn [obind].
    eexists. split; [reflexivity|]. exists a, q. cbn [store firstIndex lastIndex].
    rewrite <- !app_assoc. split; [reflexivity|]. rewrite app_length. lia.
  Qed.
  Lemma insert_rep c m i l (c1 : oc) : rep c1 m -> 0 <= i <= len m -> lastIndex c1 + len l <= basicSize c1 ->
    firstIndex c1 = firstIndex c ->
    exists s g, moveUp nil (Z.to_nat (lastIndex c1 - (i + firstIndex c) + 1)) (len l) (lastIndex c1) (store c1) = Ok s /\
      length g = length l /\
      exists p t, s = (p ++ firstn (Z.to_nat i) m) ++ g ++ skipn (Z.to_nat i) m ++ t /\
        len p + 1 = firstIndex c1 /\ lastIndex c1 = len p + len m.
  Proof.
    intros R I B F. destruct R as (p & q & E1 & F1 & L1). unfold basicSize in B. rewrite E1, !app_length in B.
    destruct (split_at q (length l)) as (g & t & -> & G); [lia|].
    set (m1 := firstn (Z.to_nat i) m). set (m2 := skipn (Z.to_nat i) m).
    assert (m = m1 ++ m2) as M by (symmetry; apply firstn_skipn).
    assert (length m1 = Z.to_nat i) as M1 by (unfold m1; rewrite firstn_length; lia).
    destruct (moveUp_app m2 (p ++ m1) g t (len l) (lastIndex c1)) as (g' & G' & EM).
    { lia. } { rewrite app_length. rewrite M, app_length in L1. lia. }
    exists ((p ++ m1) ++ g' ++ m2 ++ t), g'.
    replace (Z.to_nat (lastIndex c1 - _ + 1)) with (length m2).
    2: { rewrite M, app_length in L1. lia. }
    replace (store c1) with ((p ++ m1) ++ m2 ++ g ++ t).
    2: { rewrite E1. rewrite M at 1. rewrite <- !app_assoc. reflexivity. }
    split; [exact EM|]. split; [lia|]. exists p, t. split; [reflexivity|]. lia.
  Qed.
  Lemma addAllAfterIndex_rep c m l i : rep c m -> 0 <= i <= len m ->
    exists c', addAllAfterIndex nil l i c = Ok (c', Answer tt) /\ rep c' (firstn (Z.to_nat i) m ++ l ++ skipn (Z.to_nat i) m).
  Proof.
    intros R I. unfold addAllAfterIndex. rewrite (rep_size c m R). replace ((_ <=? _) && _) with true by lia.
    destruct (roomLast_rep c m (len l) R) as (c1 & E & R1 & B & F); [lia|]. rewrite E. cbn [obind].
    destruct (insert_rep c m i l c1 R1 I B F) as (s & g & EM & G & p & t & -> & P & L). rewrite EM. cbn [obind].
    rewrite putAll_app; [|exact G|rewrite app_length, firstn_length; lia]. cbn [obind].
    eexists. split; [reflexivity|]. exists p, t. cbn [store firstIndex lastIndex]. rewrite <- !app_assoc.
    split; [reflexivity|]. rewrite !app_length, firstn_length, skipn_length. lia.
  Qed.
  Lemma addAfterIndex_rep c m x i : rep c m -> 0 <= i <= len m ->
    exists c', addAfterIndex nil x i c = Ok (c', Answer tt) /\ rep c' (firstn (Z.to_nat i) m ++ [x] ++ skipn (Z.to_nat i) m).
  Proof.
    intros R I. unfold addAfterIndex. rewrite (rep_size c m R). replace ((_ <=? _) && _) with true by lia.
    destruct (room1_rep c m R) as (c1 & E & R1 & B & F). rewrite E. cbn [obind].
    destruct (insert_rep c m i [x] c1 R1 I B F) as (s & g & EM & G & p & t & -> & P & L).
    change (len [x]) with 1 in EM. rewrite EM. cbn [obind]. destruct g as [|y [|z g]]; try discriminate G. cbn [app].
    rewrite basicAtPut_app by (rewrite app_length, firstn_length; lia). cbn [obind].
    eexists. split; [reflexivity|]. exists p, t. cbn [store firstIndex lastIndex]. rewrite <- !app_assoc. cbn [app].
    split; [reflexivity|]. rewrite !app_length, firstn_length. cbn [length]. rewrite skipn_length. lia.
  Qed.

  Lemma rep_put c p m q f (l : Z) s : s = p ++ m ++ q -> f = len p + 1 -> l = len p + len m -> rep (OC f l s) m.
  Proof. intros -> -> ->. exists p, q. cbn. auto. Qed.

  Lemma removeFirst_rep c x m : rep c (x :: m) -> exists c', removeFirst nil c = Ok (c', Answer x) /\ rep c' m.
  Proof.
    intros (p & q & E & F & L). unfold removeFirst. cbn [length] in L. replace (_ <? _) with false by lia.
    rewrite E. cbn [app]. rewrite basicAt_app by lia. cbn [obind]. rewrite basicAtPut_app by lia. cbn [obind].
    match goal with |- context [maybeShrink _ ?c1] => assert (rep c1 m) as R1 end.
    { destruct (Z.eqb_spec (lastIndex c) (firstIndex c)) as [H|H].
      - destruct m; [|cbn [length] in L; lia]. apply initIndices_rep.
      - apply (rep_put c (p ++ [nil]) m q); [rewrite <- app_assoc; reflexivity| |]; rewrite app_length; cbn [length]; lia. }
    destruct (maybeShrink_rep _ _ R1) as (c2 & E2 & R2). rewrite E2. cbn [obind]. eauto.
  Qed.
  Lemma removeLast_rep c x m : rep c (m ++ [x]) -> exists c', removeLast nil c = Ok (c', Answer x) /\ rep c' m.
  Proof.
    intros (p & q & E & F & L). unfold removeLast. rewrite app_length in L. cbn [length] in L. replace (_ <? _) with false by lia.
    rewrite <- app_assoc, app_assoc in E. cbn [app] in E.
    rewrite E. rewrite basicAt_app by (rewrite app_length; lia). cbn [obind].
    rewrite basicAtPut_app by (rewrite app_length; lia). cbn [obind].
    match goal with |- context [maybeShrink _ ?c1] => assert (rep c1 m) as R1 end.
    { destruct (Z.eqb_spec (lastIndex c) (firstIndex c)) as [H|H].
      - destruct m; [|cbn [length] in L; lia]. apply initIndices_rep.
      - apply (rep_put c p m (nil :: q)); [rewrite <- app_assoc; reflexivity| |]; lia. }
    destruct (maybeShrink_rep _ _ R1) as (c2 & E2 & R2). rewrite E2. cbn [obind]. eauto.
  Qed.
  Lemma removeAt_rep c a x b : rep c (a ++ x :: b) ->
    exists c', removeAtIndex nil (len a + 1) c = Ok (c', Answer x) /\ rep c' (a ++ b).
  Proof.
    intros R. pose proof (rep_size _ _ R) as SZ. destruct R as (p & q & E & F & L).
    unfold removeAtIndex. rewrite SZ. rewrite app_length in *. cbn [length] in *.
    replace (_ <? _) with false by lia. replace (_ || _) with false by lia.
    rewrite <- app_assoc, app_assoc in E. cbn [app] in E.
    replace (basicAt nil (store c) (len a + 1 + firstIndex c - 1)) with (Ok x)
      by (rewrite E; symmetry; apply basicAt_app; rewrite app_length; lia). cbn [obind].
    unfold replace_range.
    assert (length (store c) = length p + length a + S (length b + length q))%nat as LS
      by (rewrite E, !app_length; cbn [length]; rewrite app_length; lia).
    rewrite LS.
    replace (_ || _) with false by lia.
    replace (firstn _ (store c)) with (p ++ a).
    2: { rewrite E. replace (Z.to_nat _) with (length (p ++ a)) by (rewrite app_length; lia). rewrite firstn_app_len. reflexivity. }
    replace (firstn _ (skipn _ (store c))) with b.
    2: { rewrite E. replace ((p ++ a) ++ x :: b ++ q) with ((p ++ a ++ [x]) ++ b ++ q) by (rewrite <- !app_assoc; reflexivity).
      replace (Z.to_nat (len a + 1 + firstIndex c - 1)) with (length (p ++ a ++ [x])) by (rewrite !app_length; cbn [length]; lia).
      rewrite skipn_app_len. replace (Z.to_nat _) with (length b) by lia. rewrite firstn_app_len. reflexivity. }
    assert (exists y, skipn (Z.to_nat (lastIndex c - 1)) (store c) = y :: q) as (y & Y).
    { rewrite E. destruct b as [|z b _] using rev_ind.
      - exists x. replace (Z.to_nat _) with (length (p ++ a)) by (rewrite app_length; cbn [length] in *; lia).
        rewrite skipn_app_len. reflexivity.
      - exists z. replace ((p ++ a) ++ x :: (b ++ [z]) ++ q) with ((p ++ a ++ x :: b) ++ z :: q) by (rewrite <- !app_assoc; cbn [app]; rewrite <- ?app_assoc; reflexivity).
        rewrite !app_length in L. cbn [length] in L.
        replace (Z.to_nat _) with (length (p ++ a ++ x :: b)) by (rewrite !app_length; cbn [length]; lia).
        rewrite skipn_app_len. reflexivity. }
    rewrite Y. replace ((p ++ a) ++ b ++ y :: q) with ((p ++ a ++ b) ++ y :: q) by (rewrite <- !app_assoc; reflexivity).
    rewrite basicAtPut_app by (rewrite !app_length; lia). cbn [obind].
    match goal with |- context [maybeShrink _ ?c1] => assert (rep c1 (a ++ b)) as R1 end.
    { destruct (Z.eqb_spec (lastIndex c) (firstIndex c)) as [H|H].
      - destruct a; [|cbn [length] in *; lia]. destruct b; [|cbn [length] in *; lia]. apply initIndices_rep.
      - apply (rep_put c p (a ++ b) (nil :: q)); [rewrite <- !app_assoc; reflexivity| |]; rewrite ?app_length; lia. }
    destruct (maybeShrink_rep _ _ R1) as (c2 & E2 & R2). rewrite E2. cbn [obind]. eauto.
  Qed.

  Lemma pick_some m i x : pick m i = Some x -> exists a b, m = a ++ x :: b /\ i = len a + 1.
  Proof.
    unfold pick. destruct (Z.ltb_spec i 1) as [H|H]; [discriminate|]. intros N.
    apply nth_error_split in N as (a & b & -> & L). exists a, b. split; [reflexivity|lia].
  Qed.
  Lemma pick_none m i : pick m i = None -> i < 1 \/ len m < i.
  Proof.
    unfold pick. destruct (Z.ltb_spec i 1) as [H|H]; [auto|]. intros N. apply nth_error_None in N. lia.
  Qed.
  Lemma at_rep c m i : rep c m ->
    at_ nil i c = Ok match pick m i with Some x => Answer x | None => Signal IndexOutOfRange end.
  Proof.
    intros (p & q & E & F & L). unfold at_. destruct (pick m i) as [x|] eqn:P.
    - apply pick_some in P as (a & b & -> & ->). rewrite app_length in L. cbn [length] in L.
      replace ((_ <=? _) && _) with true by lia. rewrite E, <- app_assoc, app_assoc. cbn [app].
      rewrite basicAt_app by (rewrite app_length; lia). reflexivity.
    - apply pick_none in P. replace ((_ <=? _) && _) with false by lia. reflexivity.
  Qed.

  Lemma osend_rep c m msg : rep c m -> exists c', osend nil c msg = Ok (c', snd (ostep m msg)) /\ rep c' (fst (ostep m msg)).
  Proof.
    intros R. pose proof (rep_size c m R) as SZ. destruct msg; cbn [osend ostep].
    - destruct (addFirst_rep c m x R) as (c' & E & R'). rewrite E. cbn. eauto.
    - destruct (add_rep c m x R) as (c' & E & R'). rewrite E. cbn. eauto.
    - destruct ((0 <=? i) && (i <=? len m)) eqn:I.
      + destruct (addAfterIndex_rep c m x i R) as (c' & E & R'); [lia|]. rewrite E. cbn. eauto.
      + unfold addAfterIndex. rewrite SZ, I. cbn. eauto.
    - destruct (addAll_rep c m l R) as (c' & E & R'). rewrite E. cbn. eauto.
    - destruct (addAllFirst_rep c m l R) as (c' & E & R'). rewrite E. cbn. eauto.
    - destruct ((0 <=? i) && (i <=? len m)) eqn:I.
      + destruct (addAllAfterIndex_rep c m l i R) as (c' & E & R'); [lia|]. rewrite E. cbn. eauto.
      + unfold addAllAfterIndex. rewrite SZ, I. cbn. eauto.
    - destruct m as [|x m].
      + unfold removeFirst. unfold size in SZ. cbn [length] in SZ. replace (_ <? _) with true by lia. cbn. eauto.
      + destruct (removeFirst_rep c x m R) as (c' & E & R'). rewrite E. cbn. eauto.
    - destruct m as [|x m _] using rev_ind.
      + unfold removeLast. unfold size in SZ. cbn [length] in SZ. replace (_ <? _) with true by lia. cbn. eauto.
      + rewrite rev_app_distr. cbn [rev app]. destruct (removeLast_rep c x m R) as (c' & E & R'). rewrite E. cbn.
        rewrite rev_involutive. eauto.
    - destruct m as [|y m'] eqn:M; [|rewrite <- M in *].
      + unfold removeAtIndex. unfold size in SZ. cbn [length] in SZ. replace (_ <? _) with true by lia. cbn. eauto.
      + replace (match m with [] => (m, Fail EmptyCollection) | _ :: _ => match pick m i with
          | Some x => (firstn (Z.to_nat (i - 1)) m ++ skipn (Z.to_nat i) m, Elt x) | None => (m, Fail IndexOutOfRange) end end)
          with (match pick m i with
          | Some x => (firstn (Z.to_nat (i - 1)) m ++ skipn (Z.to_nat i) m, Elt x) | None => (m, Fail IndexOutOfRange) end)
          by (rewrite M; reflexivity).
        destruct (pick m i) as [x|] eqn:P.
        * apply pick_some in P as (a & b & EM & ->). rewrite EM in *. destruct (removeAt_rep c a x b R) as (c' & E & R').
          rewrite E. cbn. exists c'. split; [reflexivity|].
          replace (Z.to_nat (len a + 1 - 1)) with (length a) by lia. rewrite firstn_app_len.
          replace (Z.to_nat (len a + 1)) with (length (a ++ [x])) by (rewrite app_length; cbn [length]; lia).
          replace (a ++ x :: b) with ((a ++ [x]) ++ b) by (rewrite <- app_assoc; reflexivity).
          rewrite skipn_app_len. exact R'.
        * apply pick_none in P. unfold removeAtIndex. assert (1 <= len m) by (rewrite M; cbn [length]; lia).
          rewrite SZ. unfold size in SZ. replace (_ <? _) with false by lia. replace (_ || _) with true by lia. cbn. eauto.
    - rewrite (at_rep c m i R). destruct (pick m i); cbn; eauto.
    - unfold at_put. destruct R as (p & q & E & F & L). destruct (pick m i) as [y|] eqn:P.
      + apply pick_some in P as (a & b & -> & ->). rewrite app_length in L. cbn [length] in L.
        replace ((_ <=? _) && _) with true by lia. rewrite E, <- app_assoc, app_assoc. cbn [app].
        rewrite basicAtPut_app by (rewrite app_length; lia). cbn [obind of_store]. eexists. split; [reflexivity|].
        replace (Z.to_nat (len a + 1 - 1)) with (length a) by lia. rewrite firstn_app_len.
        replace (Z.to_nat (len a + 1)) with (length (a ++ [y])) by (rewrite app_length; cbn [length]; lia).
        replace (a ++ y :: b) with ((a ++ [y]) ++ b) by (rewrite <- app_assoc; reflexivity).
        rewrite skipn_app_len. cbn [fst]. apply (rep_put c p (a ++ x :: b) q); [rewrite <- !app_assoc; reflexivity|lia|].
        rewrite app_length. cbn [length]. lia.
      + apply pick_none in P. replace ((_ <=? _) && _) with false by lia. cbn. exists c. split; [reflexivity|].
        exists p, q. auto.
    - pose proof (at_rep c m 1 R) as P. unfold at_ in P. unfold first. replace (1 + firstIndex c - 1) with (firstIndex c) in P by lia.
      rewrite Z.leb_refl in P. cbn [andb] in P. rewrite P. destruct (pick m 1); cbn; eauto.
    - pose proof (at_rep c m (len m) R) as P. unfold at_ in P. unfold last.
      replace (len m + firstIndex c - 1) with (lastIndex c) in P by (unfold size in SZ; lia).
      rewrite Z.leb_refl, andb_true_r in P. rewrite P. destruct (pick m (len m)); cbn; eauto.
    - rewrite SZ. cbn. eauto.
    - unfold elements_of. rewrite SZ, Nat2Z.id. destruct R as (p & q & E & F & L). rewrite E, do_app by lia. cbn.
      exists c. split; [reflexivity|]. exists p, q. auto.
  Qed.

  Lemma ohist_rep ms : forall c m, rep c m -> ohist nil c ms = Ok (orun m ms).
  Proof.
    induction ms as [|msg ms IH]; intros c m R; [reflexivity|]. cbn [ohist orun].
    destruct (osend_rep c m msg R) as (c' & E & R'). rewrite E. cbn [obind]. rewrite (IH _ _ R'). cbn [obind].
    destruct (ostep m msg). reflexivity.
  Qed.
  Lemma selfPut_app v1 : forall a v2 g t i j, length g = length v1 -> i = len a + 1 -> j = len a + len (v1 ++ v2) + 1 ->
    selfPut nil (length v1) i j (a ++ v1 ++ v2 ++ g ++ t) = Ok (a ++ v1 ++ v2 ++ v1 ++ t).
  Proof.
    induction v1 as [|x v1 IH]; intros a v2 [|y g] t i j G I J; try discriminate G; [reflexivity|].
    cbn [selfPut length app]. rewrite basicAt_app by exact I. cbn [obind].
    replace (a ++ x :: v1 ++ v2 ++ y :: g ++ t) with ((a ++ (x :: v1) ++ v2) ++ y :: g ++ t) by (rewrite <- !app_assoc; reflexivity).
    rewrite basicAtPut_app by (rewrite app_length; lia). cbn [obind].
    specialize (IH (a ++ [x]) (v2 ++ [x]) g t (i + 1) (j + 1)). rewrite <- !app_assoc in *. cbn [app] in *. apply IH.
    - now injection G.
    - rewrite app_length. cbn [length]. lia.
    - rewrite !app_length in *. cbn [length] in *. rewrite ?app_length in *. lia.
  Qed.
  Lemma selfPut_plus n1 : forall n2 i j s, selfPut nil (n1 + n2) i j s =
    obind (selfPut nil n1 i j s) (selfPut nil n2 (i + Z.of_nat n1) (j + Z.of_nat n1)).
  Proof.
    induction n1 as [|n1 IH]; intros n2 i j s.
    - cbn. f_equal; lia.
    - cbn [plus selfPut]. destruct (basicAt nil s i); [|reflexivity..]. cbn [obind].
      destruct (basicAtPut s j a); [|reflexivity..]. cbn [obind]. rewrite IH.
      destruct (selfPut nil n1 (i + 1) (j + 1) a0); [|reflexivity..]. cbn [obind]. f_equal; lia.
  Qed.
  Lemma addAllSelf_rep c m : rep c m -> lastIndex c + 2 * len m <= basicSize c ->
    exists c', addAllSelf nil c = Ok c' /\ rep c' (m ++ m).
  Proof.
    intros R B. unfold addAllSelf. rewrite (rep_size c m R). unfold makeRoomLastFor. replace (_ <? _) with false by lia. cbn [obind].
    rewrite (rep_size c m R). destruct R as (p & q & E & F & L). unfold basicSize in B. rewrite E, !app_length in B.
    replace (Z.to_nat _) with (length m + length m)%nat by lia. rewrite selfPut_plus.
    destruct (split_at q (length m)) as (g1 & q1 & -> & G1); [lia|]. rewrite app_length in B.
    destruct (split_at q1 (length m)) as (g2 & t & -> & G2); [lia|]. rewrite E.
    pose proof (selfPut_app m p [] g1 (g2 ++ t)) as H. cbn [app] in H. rewrite app_nil_r in H. rewrite H by lia. cbn [obind].
    pose proof (selfPut_app m (p ++ m) [] g2 t) as H2. cbn [app] in H2. rewrite app_nil_r, <- !app_assoc in H2.
    rewrite H2 by (rewrite ?app_length; lia). cbn [obind]. eexists. split; [reflexivity|].
    exists p, (m ++ t). cbn [store firstIndex lastIndex]. rewrite <- !app_assoc. split; [reflexivity|].
    rewrite app_length. lia.
  Qed.
  Lemma addAllSelf_new n m : 6 * len m <= n -> exists c1 c2 c3,
    oc_new nil n = Ok c1 /\ addAll nil m c1 = Ok c2 /\ addAllSelf nil c2 = Ok c3 /\ elements_of nil c3 = Ok (m ++ m).
  Proof.
    intros H. destruct (new_rep n) as (c1 & E1 & R1); [lia|]. exists c1.
    assert (firstIndex c1 = Z.max (n / 2) 1 /\ lastIndex c1 = firstIndex c1 - 1 /\ basicSize c1 = n) as (F1 & L1 & B1).
    { unfold oc_new in E1. replace (n <? 0) with false in E1 by lia. injection E1 as <-. unfold basicSize. cbn.
      rewrite repeat_length. lia. }
    destruct (addAll_rep c1 [] m R1) as (c2 & E2 & R2). cbn [app] in R2.
    assert (lastIndex c2 = lastIndex c1 + len m /\ (m <> [] -> basicSize c2 = n)) as (L2 & B2).
    { unfold addAll, makeRoomLastFor in E2. destruct m as [|x m].
      - cbn [length putAll] in E2. replace (_ <? _) with false in E2 by lia. cbn [obind] in E2. injection E2 as <-. cbn. split; [lia|congruence].
      - replace (_ <? _) with false in E2 by (rewrite B1; cbn [length] in *; lia). cbn [obind] in E2.
        destruct (putAll _ _ _) as [s| | | |] eqn:P; try discriminate E2. cbn [obind] in E2. injection E2 as <-. cbn [lastIndex].
        split; [reflexivity|]. intros _. unfold basicSize. cbn [store].
        destruct R2 as (p & q & E & F & L). cbn [store firstIndex lastIndex] in *.
        destruct R1 as (p1 & q1 & E' & F' & L'). cbn [app length] in E', L'.
        unfold basicSize in B1. rewrite E' in B1, P. rewrite app_length in B1.
        destruct (split_at q1 (length (x :: m))) as (g & t & -> & G); [cbn [length] in *; lia|].
        rewrite (putAll_app (x :: m) p1 g t) in P by lia. injection P as <-. clear - B1 G. rewrite !app_length in *. cbn [length] in *. rewrite ?app_length in *. lia. }
    destruct (addAllSelf_rep c2 m R2) as (c3 & E3 & R3).
    { destruct m as [|x m]; [pose proof (rep_bounds _ _ R2); cbn [length]; lia|]. rewrite B2 by discriminate. cbn [length] in *. lia. }
    exists c2, c3. split; [exact E1|]. split; [exact E2|]. split; [exact E3|].
    pose proof (rep_size _ _ R3) as S3. unfold elements_of. rewrite S3, Nat2Z.id. destruct R3 as (p & q & E & F & L).
    rewrite E. apply do_app. lia.
  Qed.
  Lemma ohist_new n ms : 0 <= n -> exists c, oc_new nil n = Ok c /\ ohist nil c ms = Ok (orun [] ms).
  Proof. intros H. destruct (new_rep n H) as (c & E & R). exists c. split; [exact E|]. apply ohist_rep, R. Qed.
End Proofs.

(** c addAll: c runs off the end of the storage. *)
Lemma addAllSelf_fails : exists (nil : Z) n m c1 c2, oc_new nil n = Ok c1 /\ addAll nil m c1 = Ok c2 /\ addAllSelf nil c2 = Err.
Proof. exists 0, 16, [1; 2; 3; 4; 5; 6; 7; 8; 9]. eexists _, _. vm_compute. repeat split. Qed.
(** c addAllFirst: c puts nils in front. *)
Lemma addAllFirstSelf_nils : exists (nil x : Z) n c1 c2 c3, oc_new nil n = Ok c1 /\ addAll nil [x; x] c1 = Ok c2 /\
  addAllFirstSelf nil c2 = Ok c3 /\ x <> nil /\ elements_of nil c3 = Ok [nil; nil; x; x].
Proof. exists 0, 1, 16. eexists _, _, _. vm_compute. repeat split. discriminate. Qed.
