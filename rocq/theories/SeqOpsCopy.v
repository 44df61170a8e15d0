(** Proofs about copies of sequences. *)
From Verif Require Import Base Replace ReplaceSpec ReplaceProofs SeqOps SeqOpsSpec SeqOpsProofs.

Section Copies.
  Context {A : Type}.
  Variable nil : A.
  Implicit Types l m d r src : list A.
  Lemma firstn_exact d r n : n = length d -> firstn n (d ++ r) = d.
  Proof. intros ->. rewrite firstn_app, Nat.sub_diag, firstn_all, firstn_O, app_nil_r. reflexivity. Qed.
  Lemma skipn_exact d r n k : n = (length d + k)%nat -> skipn n (d ++ r) = skipn k r.
  Proof.
    intros ->. rewrite skipn_app. replace (length d + k - length d)%nat with k by lia.
    rewrite skipn_all2 by lia. reflexivity.
  Qed.
  Lemma replacing_build prim d r a b src f : size d = a - 1 -> a - 1 <= b <= size (d ++ r) ->
    (a <= b -> 1 <= f) -> f + (b - a) <= size src ->
    replacing prim (d ++ r) a b src f =
      Ok (d ++ firstn (Z.to_nat (b - a + 1)) (skipn (Z.to_nat (f - 1)) src) ++ skipn (Z.to_nat (b - a + 1)) r).
  Proof.
    intros D B F G. assert (R : in_range (d ++ r) a b src f).
    { unfold in_range. unfold size in *. lia. }
    unfold replacing. destruct (replace_in prim _ _ _ (Other src) _ R) as (l' & -> & P).
    destruct (replace_range_some _ _ _ _ _ R) as (l2 & E & P2). cbn [elements] in P.
    rewrite (replaced_unique _ _ _ _ _ _ _ P P2). unfold replace_range in E. f_equal.
    destruct (_ || _ || _ || _ || _); [discriminate|]. apply (f_equal (fun o => match o with Some x => x | None => [] end)) in E.
    rewrite <- E. unfold size in *. rewrite (firstn_exact d r) by lia. do 2 f_equal.
    apply skipn_exact. lia.
  Qed.
  Lemma replacing_cases prim l a b src f :
    (exists l', replacing prim l a b src f = Ok l' /\
      (in_range l a b src f /\ length l' = length l \/ b = a - 1 /\ b <= size l /\ l' = l)) \/ replacing prim l a b src f = Err.
  Proof.
    unfold replacing. destruct (replace_from prim l a b (Other src) f) as [l' []] eqn:E; [|auto].
    left. exists l'. split; [reflexivity|]. destruct (replace_ok _ _ _ _ _ _ _ E) as [H|H]; [|auto]. left.
    split; [exact H|]. destruct (replace_in prim _ _ _ _ _ H) as (l2 & E2 & [P _]). congruence.
  Qed.
  Lemma replacing_err prim l a b src f : b < a - 1 \/ size l < b \/ a <= b /\ ~ in_range l a b src f ->
    replacing prim l a b src f = Err.
  Proof.
    intros H. destruct (replacing_cases prim l a b src f) as [(l' & _ & [[G _]|G])|G]; [| |exact G]; exfalso.
    - unfold in_range, size in *. lia.
    - lia.
  Qed.
  Lemma repeat_split n k : (k <= n)%nat -> repeat nil n = repeat nil k ++ repeat nil (n - k).
  Proof. intros H. rewrite <- repeat_app. f_equal. lia. Qed.
  Lemma skipn_repeat n k : skipn n (repeat nil k) = repeat nil (k - n).
  Proof. revert k. induction n as [|n IH]; intros [|k]; cbn; auto. Qed.
  Lemma size_app d r : size (d ++ r) = size d + size r.
  Proof. unfold size. rewrite app_length. lia. Qed.
  Lemma size_repeat (x : A) n : size (repeat x n) = Z.of_nat n.
  Proof. unfold size. rewrite repeat_length. reflexivity. Qed.
  Lemma size_nonneg l : 0 <= size l.
  Proof. unfold size. lia. Qed.
  Lemma size_firstn n l : 0 <= n <= size l -> size (firstn (Z.to_nat n) l) = n.
  Proof. unfold size. rewrite firstn_length. lia. Qed.
  Lemma size_skipn n l : 0 <= n <= size l -> size (skipn (Z.to_nat n) l) = size l - n.
  Proof. unfold size. rewrite skipn_length. lia. Qed.
  Lemma size_to_nat l : Z.to_nat (size l) = length l.
  Proof. unfold size. lia. Qed.

  (** A step that fills the next [n] unset elements. *)
  Lemma replacing_next prim d k a b src f :
    size d = a - 1 -> a - 1 <= b -> b - a + 1 <= Z.of_nat k -> (a <= b -> 1 <= f) -> f + (b - a) <= size src ->
    replacing prim (d ++ repeat nil k) a b src f =
      Ok ((d ++ firstn (Z.to_nat (b - a + 1)) (skipn (Z.to_nat (f - 1)) src)) ++ repeat nil (k - Z.to_nat (b - a + 1))).
  Proof.
    intros D B K F G. rewrite replacing_build; auto.
    - rewrite skipn_repeat, <- app_assoc. reflexivity.
    - rewrite size_app, size_repeat. lia.
  Qed.
  Lemma replacing_all_next prim d k a b src :
    size d = a - 1 -> b = a + size src - 1 -> size src <= Z.of_nat k ->
    replacing_all prim (d ++ repeat nil k) a b src = Ok ((d ++ src) ++ repeat nil (k - length src)).
  Proof.
    intros D -> K. pose proof (size_nonneg src). unfold replacing_all. replace (_ =? _) with true by lia.
    rewrite replacing_next; auto; try lia. replace (a + size src - 1 - a + 1) with (size src) by lia.
    rewrite size_to_nat. cbn [Z.sub Z.to_nat]. change (Z.to_nat (1 - 1)) with 0%nat. cbn [skipn].
    rewrite firstn_all. reflexivity.
  Qed.

  Theorem copy_replace_valid prim l start stop rep : valid l start stop ->
    copy_replace nil prim l start stop rep = Ok (spliced l start stop rep).
  Proof.
    intros [V1 V2]. fold (size l) in V2. pose proof (size_nonneg rep). unfold copy_replace, copy_empty.
    replace (_ <? -1) with false by lia. replace (_ <? 0) with false by lia. cbn [obind].
    set (N := size l + size rep - (stop - start + 1)).
    change (repeat nil (Z.to_nat N)) with (([] : list A) ++ repeat nil (Z.to_nat N)).
    rewrite replacing_next; try reflexivity; try lia. cbn [obind app].
    change (Z.to_nat (1 - 1)) with 0%nat. cbn [skipn].
    replace (start - 1 - 1 + 1) with (start - 1) by lia.
    rewrite replacing_all_next; [|rewrite size_firstn; lia|lia|lia]. cbn [obind].
    rewrite replacing_next; try lia; [|rewrite size_app, size_firstn; lia|unfold size in *; lia].
    replace (Z.to_nat N - _ - _ - _)%nat with 0%nat by (unfold size in *; lia). cbn [repeat]. rewrite app_nil_r.
    f_equal. unfold spliced. rewrite <- app_assoc. do 2 f_equal.
    replace (stop + 1 - 1) with stop by lia. apply firstn_all2. rewrite skipn_length. unfold size in *. lia.
  Qed.
  Theorem copy_replace_invalid prim l start stop rep : ~ valid l start stop ->
    copy_replace nil prim l start stop rep = Err.
  Proof.
    intros V. unfold valid in V. fold (size l) in V. pose proof (size_nonneg rep). pose proof (size_nonneg l).
    unfold copy_replace, copy_empty.
    destruct (Z.ltb_spec (stop - start) (-1)); [reflexivity|].
    set (N := size l + size rep - (stop - start + 1)) in *.
    destruct (Z.ltb_spec N 0); [reflexivity|]. cbn [obind].
    destruct (Z.lt_ge_cases start 1) as [S1|S1].
    { rewrite replacing_err by lia. reflexivity. }
    destruct (replacing_cases prim (repeat nil (Z.to_nat N)) 1 (start - 1) l 1) as [(r1 & -> & C)| -> ]; [|reflexivity].
    assert (L : size r1 = N).
    { destruct C as [[_ C]|(_ & _ & ->)]; unfold size in *; rewrite ?repeat_length in *; lia. }
    cbn [obind]. unfold replacing_all. replace (_ =? _) with true by lia.
    rewrite (replacing_err prim r1); [reflexivity|]. lia.
  Qed.

  Lemma fill_next x n : forall d k a, size d = a - 1 -> (n <= k)%nat ->
    fill_loop (d ++ repeat nil k) a x n = Ok ((d ++ repeat x n) ++ repeat nil (k - n)).
  Proof.
    induction n as [|n IH]; intros d k a D K; cbn [fill_loop].
    - cbn. rewrite app_nil_r, Nat.sub_0_r. reflexivity.
    - pose proof (size_nonneg d). unfold at_put. rewrite size_app, size_repeat. replace (_ && _) with true by lia.
      unfold size in D. rewrite firstn_exact by lia. rewrite (skipn_exact d _ _ 1) by lia.
      destruct k as [|k]; [lia|]. cbn [repeat skipn].
      replace (d ++ x :: repeat nil k) with ((d ++ [x]) ++ repeat nil k) by (rewrite <- app_assoc; reflexivity).
      rewrite IH; [|unfold size; rewrite app_length; cbn; lia|lia]. f_equal. rewrite <- !app_assoc. reflexivity.
  Qed.
  Theorem copy_replace_object_valid prim l start stop x : valid l start stop ->
    copy_replace_object nil prim l start stop x =
      Ok (spliced l start stop (repeat x (Z.to_nat (Z.max 1 (stop - start + 1))))).
  Proof.
    intros [V1 V2]. fold (size l) in V2. unfold copy_replace_object, copy_empty.
    replace (_ <? -1) with false by lia.
    set (E := if start <=? stop then stop else start). assert (HE : E = Z.max start stop) by (unfold E; destruct (Z.leb_spec start stop); lia).
    replace (_ <? 0) with false by lia. cbn [obind]. set (N := E + (size l - stop)).
    change (repeat nil (Z.to_nat N)) with (([] : list A) ++ repeat nil (Z.to_nat N)).
    rewrite replacing_next; try reflexivity; try lia. cbn [obind app].
    change (Z.to_nat (1 - 1)) with 0%nat. cbn [skipn]. replace (start - 1 - 1 + 1) with (start - 1) by lia.
    unfold filling. replace (_ <? -1) with false by lia.
    rewrite fill_next; [|rewrite size_firstn; lia|lia]. cbn [obind].
    rewrite replacing_next; try lia; [|rewrite size_app, size_firstn, size_repeat; lia].
    replace (Z.to_nat N - _ - _ - _)%nat with 0%nat by lia. cbn [repeat]. rewrite app_nil_r.
    f_equal. unfold spliced. rewrite <- app_assoc. f_equal. f_equal; [f_equal; lia|].
    replace (stop + 1 - 1) with stop by lia. apply firstn_all2. rewrite skipn_length. unfold size in *. lia.
  Qed.

  Theorem copy_from_to_valid prim l start stop : valid l start stop ->
    copy_from_to nil prim l start stop = Ok (slice l start stop).
  Proof.
    intros [V1 V2]. fold (size l) in V2. unfold copy_from_to, slice. destruct (Z.ltb_spec stop start).
    - replace (_ =? _) with true by lia. replace (Z.to_nat (stop - start + 1)) with 0%nat by lia. reflexivity.
    - unfold copy_empty. replace (_ <? 0) with false by lia. cbn [obind].
      change (repeat nil ?n) with (([] : list A) ++ repeat nil n).
      rewrite replacing_next; try reflexivity; try lia.
      replace (stop - start + 1 - 1 + 1) with (stop - start + 1) by lia. rewrite Nat.sub_diag, app_nil_r. reflexivity.
  Qed.
  (** An empty range is not looked at. *)
  Theorem copy_from_to_invalid prim l start stop : stop <> start - 1 -> ~ valid l start stop ->
    copy_from_to nil prim l start stop = Err.
  Proof.
    intros N V. unfold valid in V. fold (size l) in V. unfold copy_from_to. destruct (Z.ltb_spec stop start).
    - replace (_ =? _) with false by lia. reflexivity.
    - unfold copy_empty. replace (_ <? 0) with false by lia. cbn [obind]. apply replacing_err. right. right.
      split; [lia|]. unfold in_range. fold (size l). lia.
  Qed.
  Theorem comma_ok prim l m : comma nil prim l m = Ok (l ++ m).
  Proof.
    pose proof (size_nonneg l). pose proof (size_nonneg m). unfold comma, copy_empty.
    replace (_ <? 0) with false by lia. cbn [obind].
    change (repeat nil ?n) with (([] : list A) ++ repeat nil n).
    rewrite replacing_next; try reflexivity; try lia. cbn [obind app].
    change (Z.to_nat (1 - 1)) with 0%nat. cbn [skipn]. replace (size l - 1 + 1) with (size l) by lia.
    rewrite size_to_nat, firstn_all. rewrite replacing_next; try (unfold size in *; lia).
    change (Z.to_nat (1 - 1)) with 0%nat. cbn [skipn]. replace (size l + size m - (size l + 1) + 1) with (size m) by lia.
    rewrite size_to_nat, firstn_all. replace (Z.to_nat _ - _ - _)%nat with 0%nat by (unfold size; lia).
    cbn [repeat]. rewrite app_nil_r. reflexivity.
  Qed.

  (** ** Growing collections *)
  Lemma from_do_ok n : forall l i, 1 <= i -> i + Z.of_nat n - 1 <= size l ->
    from_do l i n = Ok (firstn n (skipn (Z.to_nat (i - 1)) l)).
  Proof.
    induction n as [|n IH]; intros l i I J; [reflexivity|]. cbn [from_do].
    assert (E : exists x r, skipn (Z.to_nat (i - 1)) l = x :: r).
    { destruct (skipn (Z.to_nat (i - 1)) l) as [|x r] eqn:E; [|eauto]. apply (f_equal (@length A)) in E.
      rewrite skipn_length in E. cbn in E. unfold size in J. lia. }
    destruct E as (x & r & E).
    assert (L : l = firstn (Z.to_nat (i - 1)) l ++ x :: r) by (rewrite <- E; symmetry; apply firstn_skipn).
    rewrite L at 1. rewrite at_app by (rewrite size_firstn; lia). cbn [obind]. rewrite IH by lia. cbn [obind].
    rewrite E. cbn [firstn]. do 3 f_equal.
    replace (Z.to_nat (i + 1 - 1)) with (length (firstn (Z.to_nat (i - 1)) l) + 1)%nat by (rewrite firstn_length; unfold size in *; lia).
    rewrite L at 2. rewrite (skipn_exact _ _ _ 1); reflexivity.
  Qed.
  Lemma from_to_do_ok l start stop : start <= stop -> 1 <= start -> stop <= size l -> from_to_do l start stop = Ok (slice l start stop).
  Proof. intros H1 H2 H3. unfold from_to_do, slice. apply from_do_ok; lia. Qed.
  Theorem seq_copy_replace_valid l start stop rep : valid l start stop ->
    seq_copy_replace nil l start stop rep = Ok (spliced l start stop rep).
  Proof.
    intros [V1 V2]. fold (size l) in V2. pose proof (size_nonneg rep). unfold seq_copy_replace, copy_empty, spliced.
    replace (_ <? -1) with false by lia. replace (_ <? 0) with false by lia. cbn [obind].
    destruct (Z.ltb_spec 1 start).
    - rewrite from_to_do_ok by lia. cbn [obind]. destruct (Z.ltb_spec stop (size l)).
      + rewrite from_to_do_ok by lia. cbn [obind]. unfold slice. change (Z.to_nat (1 - 1)) with 0%nat. cbn [skipn].
        replace (start - 1 - 1 + 1) with (start - 1) by lia. replace (stop + 1 - 1) with stop by lia.
        rewrite (firstn_all2 (skipn _ l)); [reflexivity|]. rewrite skipn_length. unfold size in *. lia.
      + cbn [obind]. unfold slice. change (Z.to_nat (1 - 1)) with 0%nat. cbn [skipn].
        replace (start - 1 - 1 + 1) with (start - 1) by lia. rewrite (skipn_all2 l) by (unfold size in *; lia). reflexivity.
    - cbn [obind]. replace (Z.to_nat (start - 1)) with 0%nat by lia. cbn [firstn app].
      destruct (Z.ltb_spec stop (size l)).
      + rewrite from_to_do_ok by lia. cbn [obind]. unfold slice. replace (stop + 1 - 1) with stop by lia.
        rewrite (firstn_all2 (skipn _ l)); [reflexivity|]. rewrite skipn_length. unfold size in *. lia.
      + cbn [obind]. rewrite (skipn_all2 l) by (unfold size in *; lia). reflexivity.
  Qed.
  Theorem seq_copy_from_to_valid l start stop : valid l start stop ->
    seq_copy_from_to l start stop = Ok (slice l start stop).
  Proof.
    intros [V1 V2]. fold (size l) in V2. unfold seq_copy_from_to. destruct (Z.ltb_spec stop start).
    - replace (_ =? _) with true by lia. unfold slice. replace (Z.to_nat (stop - start + 1)) with 0%nat by lia. reflexivity.
    - apply from_to_do_ok; lia.
  Qed.

  (** ** Joining *)
  Lemma join_loop_ok prim sep ls : forall d k start, size d = start - 1 ->
    Z.of_nat k = fold_right (fun l n => size sep + size l + n) 0 ls ->
    join_loop prim (d ++ repeat nil k) sep start ls = Ok (d ++ concat (map (fun l => sep ++ l) ls)).
  Proof.
    induction ls as [|l ls IH]; intros d k start D K; cbn [join_loop fold_right map concat] in *.
    - replace k with 0%nat by lia. reflexivity.
    - pose proof (size_nonneg sep). pose proof (size_nonneg l).
      assert (0 <= fold_right (fun l n => size sep + size l + n) 0 ls).
      { clear. induction ls as [|l ls IH]; cbn; [lia|]. pose proof (size_nonneg sep). pose proof (size_nonneg l). lia. }
      rewrite replacing_all_next by lia. cbn [obind].
      rewrite replacing_all_next; [|rewrite size_app; lia|lia|unfold size in *; lia]. cbn [obind].
      rewrite IH; [|rewrite !size_app; lia|unfold size in *; lia]. rewrite <- !app_assoc. reflexivity.
  Qed.
  Lemma joined_cons l ls sep : joined (l :: ls) sep = l ++ concat (map (fun l => sep ++ l) ls).
  Proof.
    revert l. induction ls as [|m ls IH]; intros l; [cbn; rewrite app_nil_r; reflexivity|].
    change (joined (l :: m :: ls) sep) with (l ++ sep ++ joined (m :: ls) sep). rewrite IH. cbn. rewrite <- app_assoc. reflexivity.
  Qed.
  Lemma fold_sizes ls : forall n, fold_left (fun n l => n + size l) ls n = n + fold_right (fun l n => size l + n) 0 ls.
  Proof. induction ls as [|l ls IH]; intros n; cbn; [lia|]. rewrite IH. lia. Qed.
  Theorem join_ok prim ls sep : join nil prim ls sep = Ok (joined ls sep).
  Proof.
    destruct ls as [|l ls]; [reflexivity|]. rewrite joined_cons. unfold join. rewrite fold_sizes. cbn [fold_right].
    pose proof (size_nonneg sep). pose proof (size_nonneg l).
    assert (F : fold_right (fun l n => size sep + size l + n) 0 ls = size sep * Z.of_nat (length ls) + fold_right (fun l n => size l + n) 0 ls).
    { clear. induction ls as [|l ls IH]; cbn [fold_right length]; lia. }
    assert (0 <= fold_right (fun l n => size l + n) 0 ls).
    { clear. induction ls as [|l ls IH]; cbn; [lia|]. pose proof (size_nonneg l). lia. }
    assert (0 <= size sep * Z.of_nat (length ls)) by lia.
    cbn [length]. replace (Z.of_nat (S (length ls)) - 1) with (Z.of_nat (length ls)) by lia.
    unfold copy_empty. replace (_ <? 0) with false by lia. cbn [obind].
    change (repeat nil ?n) with (([] : list A) ++ repeat nil n).
    rewrite replacing_all_next; [|reflexivity|lia|lia]. cbn [obind app].
    apply join_loop_ok; [lia|]. rewrite F. unfold size in *. lia.
  Qed.

  (** ** atAllPut: *)
  Lemma doubling_ok prim x fuel : forall k rest to, Z.of_nat k = to -> 0 < to -> (length rest < fuel)%nat ->
    exists r, doubling prim fuel (repeat x k ++ rest) to = Ok r /\
      r = repeat x (Nat.max k (k + length rest)).
  Proof.
    induction fuel as [|fuel IH]; intros k rest to K T F; [lia|]. cbn [doubling].
    rewrite size_app. assert (SK : size (repeat x k) = to) by (unfold size; rewrite repeat_length; lia). rewrite SK.
    destruct (Z.ltb_spec to (to + size rest)) as [C|C].
    - assert (R : in_range (repeat x k ++ rest) (to + 1) (Z.min (to + to) (to + size rest)) (repeat x k ++ rest) 1).
      { unfold in_range. rewrite app_length, repeat_length. unfold size in *. lia. }
      destruct (replace_in prim _ _ _ Self _ R) as (l' & -> & P).
      destruct (replace_range_some _ _ _ _ _ R) as (l2 & E & P2).
      rewrite (replaced_unique _ _ _ _ _ _ _ P P2). unfold replace_range in E.
      destruct (_ || _ || _ || _ || _); [discriminate|]. apply (f_equal (fun o => match o with Some x => x | None => [] end)) in E.
      clear P P2. rewrite <- E. clear E l' l2.
      rewrite (firstn_exact (repeat x k)) by (rewrite repeat_length; lia).
      change (Z.to_nat (1 - 1)) with 0%nat. cbn [skipn].
      set (n := Z.to_nat (Z.min (to + to) (to + size rest) - (to + 1) + 1)).
      assert (N : (n = Nat.min k (length rest))%nat) by (unfold n, size; lia).
      replace (firstn n (repeat x k ++ rest)) with (repeat x n).
      2:{ rewrite (firstn_app n). replace (n - _)%nat with 0%nat by (rewrite repeat_length; lia). rewrite firstn_O, app_nil_r.
          replace k with (n + (k - n))%nat by lia. rewrite repeat_app, firstn_exact; [reflexivity|]. rewrite repeat_length. lia. }
      rewrite (skipn_exact (repeat x k) rest _ n) by (rewrite repeat_length; unfold size in *; lia).
      rewrite app_assoc, <- repeat_app.
      destruct (Nat.le_gt_cases (length rest) k) as [D|D].
      + rewrite skipn_all2 by lia. rewrite app_nil_r. destruct fuel as [|fuel]; [unfold size in *; lia|]. cbn [doubling].
        unfold size. rewrite repeat_length. replace (_ <? _) with false by lia. eexists. split; [reflexivity|]. f_equal. unfold size in *; lia.
      + replace (k + n)%nat with (k + k)%nat by lia.
        destruct (IH (k + k)%nat (skipn n rest) (to + to)) as (r & -> & ->); try lia.
        { rewrite skipn_length. unfold size in *. lia. }
        eexists. split; [reflexivity|]. f_equal. rewrite skipn_length. lia.
    - assert (rest = []) by (destruct rest; [reflexivity|]; unfold size in C; cbn in C; lia). subst.
      eexists. split; [reflexivity|]. rewrite app_nil_r. f_equal. cbn. lia.
  Qed.
  Lemma fill_first x l n : (n <= length l)%nat -> fill_loop l 1 x n = Ok (repeat x n ++ skipn n l).
  Proof.
    assert (G : forall n d r, (n <= length r)%nat -> fill_loop (d ++ r) (size d + 1) x n = Ok (d ++ repeat x n ++ skipn n r)).
    { clear. induction n as [|n IH]; intros d r L; [reflexivity|]. cbn [fill_loop]. destruct r as [|y r]; [cbn in L; lia|].
      unfold at_put. rewrite size_app. replace (_ && _) with true by (unfold size; cbn [length]; lia).
      unfold size at 1. rewrite firstn_exact by lia. rewrite (skipn_exact d _ _ 1) by (unfold size; lia). cbn [skipn].
      replace (d ++ x :: r) with ((d ++ [x]) ++ r) by (rewrite <- app_assoc; reflexivity).
      replace (size d + 1 + 1) with (size (d ++ [x]) + 1) by (rewrite size_app; reflexivity).
      rewrite IH by (cbn in L; lia). rewrite <- app_assoc. reflexivity. }
    intros H. exact (G n [] l H).
  Qed.
  Theorem at_all_put_ok prim l x : at_all_put prim l x = Ok (repeat x (length l)).
  Proof.
    unfold at_all_put, put_first. destruct (Z.leb_spec (size l) 4) as [C|C].
    - rewrite fill_first by lia. rewrite skipn_all, app_nil_r. reflexivity.
    - unfold size in C. rewrite fill_first by lia. cbn [obind].
      destruct (doubling_ok prim x (S (length (repeat x 4 ++ skipn 4 l))) 4 (skipn 4 l) 4) as (r & -> & ->); try lia.
      { rewrite app_length. lia. }
      do 2 f_equal. rewrite skipn_length. lia.
  Qed.
End Copies.
