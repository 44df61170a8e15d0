From Coq Require Import ZArith List Bool Lia.
From Verif Require Import Base Hashed HashedProofs RunArr RunArrSpec RunArrRun.
Import ListNotations.
Local Open Scope Z_scope.

Section P.
Context {A : Type}.
Variable eqb : A -> A -> bool.
Hypothesis eqb_ok : forall x y, eqb x y = true <-> x = y.
Implicit Types (m pre post : list (A * Z)) (l : list A).

Fixpoint total m : Z := match m with [] => 0 | e :: m => snd e + total m end.
Definition pos m := Forall (fun e => 0 < snd e) m.
Definition expand m : list A := flat_map (fun e => repeat (fst e) (Z.to_nat (snd e))) m.

Arguments expand : simpl never.

Lemma total_app m m' : total (m ++ m') = total m + total m'.
Proof. induction m; cbn [total app]; lia. Qed.
Lemma expand_app m m' : expand (m ++ m') = expand m ++ expand m'.
Proof. unfold expand. apply flat_map_app. Qed.
Lemma total_pos m : pos m -> 0 <= total m.
Proof. induction 1; cbn [total]; lia. Qed.
Lemma expand_len m : pos m -> Z.of_nat (length (expand m)) = total m.
Proof.
  induction 1 as [|e m H P IH]; [reflexivity|].
  unfold expand in *. cbn [flat_map total]. rewrite app_length, repeat_length. lia.
Qed.
Lemma pos_app m m' : pos (m ++ m') <-> pos m /\ pos m'.
Proof. apply Forall_app. Qed.

Lemma fold_total m : forall z, fold_left (fun sz (e : A * Z) => sz + snd e) m z = z + total m.
Proof. induction m; intros z; cbn [fold_left total]; [lia|]. rewrite IHm. lia. Qed.

Lemma mapAt_mid pre e post i : i = Z.of_nat (length pre) + 1 ->
  mapAt (pre ++ e :: post) i = Ok e.
Proof.
  intros ->. unfold mapAt. destruct (Z.ltb_spec (Z.of_nat (length pre) + 1) 1); [lia|].
  replace (Z.to_nat (Z.of_nat (length pre) + 1 - 1)) with (length pre) by lia.
  rewrite nth_error_app2, Nat.sub_diag; [reflexivity|lia].
Qed.
Lemma replace_mid (pre : list (A*Z)) e e' post :
  replace (length pre) e' (pre ++ e :: post) = pre ++ e' :: post.
Proof.
  induction pre as [|a pre IH]; [reflexivity|]. cbn [length app replace]. now rewrite IH.
Qed.
Lemma setValue_mid pre e post i v : i = Z.of_nat (length pre) + 1 ->
  setValue (pre ++ e :: post) i v = pre ++ (fst e, v) :: post.
Proof.
  intros ->. unfold setValue.
  replace (Z.to_nat (Z.of_nat (length pre) + 1 - 1)) with (length pre) by lia.
  rewrite nth_error_app2, Nat.sub_diag by lia. cbn [nth_error]. apply replace_mid.
Qed.
Lemma firstn_len {B} (a b : list B) n : n = length a -> firstn n (a ++ b) = a.
Proof. intros ->. rewrite firstn_app, Nat.sub_diag, firstn_all. cbn. apply app_nil_r. Qed.
Lemma skipn_len {B} (a b : list B) n : n = length a -> skipn n (a ++ b) = b.
Proof. intros ->. rewrite skipn_app, Nat.sub_diag, skipn_all. reflexivity. Qed.
Lemma mapRemove_mid pre e post i : i = Z.of_nat (length pre) + 1 ->
  mapRemove (pre ++ e :: post) i = Ok (pre ++ post).
Proof.
  intros ->. unfold mapRemove. rewrite app_length. cbn [length].
  destruct (Z.ltb_spec (Z.of_nat (length pre) + 1) 1); [lia|].
  destruct (Z.ltb_spec (Z.of_nat (length pre + S (length post))) (Z.of_nat (length pre) + 1)); [lia|].
  cbn [orb]. rewrite firstn_len by lia.
  replace (pre ++ e :: post) with ((pre ++ [e]) ++ post) by now rewrite <- app_assoc.
  rewrite skipn_len; [reflexivity|]. rewrite app_length. cbn. lia.
Qed.

Lemma goUp_ok m ix : pos m -> ix <= total m ->
  forall post pre fuel, m = pre ++ post -> total pre < ix ->
  (length post < fuel)%nat ->
  exists pre' e post', m = pre' ++ e :: post' /\
    goUp fuel m ix (Z.of_nat (length pre)) (total pre)
      = Ok (Z.of_nat (length pre') + 1, total pre' + 1, total pre' + snd e) /\
    total pre' < ix <= total pre' + snd e.
Proof.
  intros P Hm. induction post as [|e post IH]; intros pre fuel E Lt Hf.
  - exfalso. rewrite app_nil_r in E. subst. lia.
  - destruct fuel as [|fuel]; [lia|]. cbn [goUp].
    assert (mapAt m (Z.of_nat (length pre) + 1) = Ok e) as ->
      by (rewrite E; apply mapAt_mid; reflexivity).
    cbn [obind].
    destruct (Z.ltb_spec (total pre + snd e) ix).
    + destruct (IH (pre ++ [e]) fuel) as (p' & e' & q' & E' & G & B).
      * now rewrite <- app_assoc.
      * rewrite total_app. cbn. lia.
      * cbn in Hf. lia.
      * exists p', e', q'. split; [exact E'|]. split; [|exact B].
        rewrite <- G. f_equal; [rewrite app_length; cbn; lia | rewrite total_app; cbn; lia].
    + exists pre, e, post. split; [exact E|]. split; [reflexivity|]. lia.
Qed.

Lemma goDown_ok m ix : pos m -> 1 <= ix ->
  forall pre post fuel, m = pre ++ post -> ix <= total pre ->
  (length pre < fuel)%nat ->
  exists pre' e post', m = pre' ++ e :: post' /\
    goDown fuel m ix (Z.of_nat (length pre) + 1) (total pre + 1)
      = Ok (Z.of_nat (length pre') + 1, total pre' + 1, total pre' + snd e) /\
    total pre' < ix <= total pre' + snd e.
Proof.
  intros P Hm. induction pre as [|e pre IH] using rev_ind; intros post fuel E Lt Hf.
  - exfalso. cbn in Lt. lia.
  - destruct fuel as [|fuel]; [lia|]. cbn [goDown].
    rewrite app_length in *. cbn [length] in *.
    rewrite <- app_assoc in E. cbn [app] in E.
    assert (mapAt m (Z.of_nat (length pre + 1) + 1 - 1) = Ok e) as ->
      by (rewrite E; apply mapAt_mid; lia).
    cbn [obind].
    rewrite total_app in *. cbn [total] in *.
    destruct (Z.ltb_spec ix (total pre + (snd e + 0) + 1 - snd e)).
    + destruct (IH (e :: post) fuel) as (p' & e' & q' & E' & G & B); [assumption|lia|lia|].
      exists p', e', q'. split; [exact E'|]. split; [|exact B].
      rewrite <- G. f_equal; lia.
    + exists pre, e, post. split; [exact E|]. split; [|lia].
      f_equal. f_equal; [f_equal|]; lia.
Qed.

(** the cached position *)
Definition cached (r : runarr A) : Prop :=
  (mapIndex r = 0 /\ firstInRun r = 0 /\ lastInRun r = 0) \/
  exists pre e post, rmap r = pre ++ e :: post /\
    mapIndex r = Z.of_nat (length pre) + 1 /\ firstInRun r = total pre + 1 /\
    lastInRun r = total pre + snd e.
Definition inv (r : runarr A) l : Prop :=
  expand (rmap r) = l /\ pos (rmap r) /\ rsize r = Z.of_nat (length l) /\ cached r.

Definition at_run (r : runarr A) ix pre e post :=
  rmap r = pre ++ e :: post /\
  mapIndex r = Z.of_nat (length pre) + 1 /\ firstInRun r = total pre + 1 /\
  lastInRun r = total pre + snd e /\ total pre < ix <= total pre + snd e.

Lemma update_ok r l ix : inv r l -> 1 <= ix <= Z.of_nat (length l) ->
  exists r' pre e post, updateMapIndex ix r = Ok r' /\ rmap r' = rmap r /\
    rsize r' = rsize r /\ at_run r' ix pre e post.
Proof.
  intros (E & P & Sz & C) B. destruct r as [m mi f la s]. unfold cached in C.
  unfold updateMapIndex. cbn [rmap mapIndex firstInRun lastInRun rsize] in *.
  assert (T : total m = Z.of_nat (length l)) by (rewrite <- expand_len, E; auto).
  destruct ((f <=? ix) && (ix <=? la)) eqn:Q.
  - destruct C as [(-> & -> & ->)|(pre & e & post & Em & -> & -> & ->)]; [lia|].
    eexists _, pre, e, post. split; [reflexivity|]. cbn. unfold at_run. cbn.
    repeat split; auto; lia.
  - destruct (Z.eqb_spec ix 0); [lia|]. destruct (Z.ltb_spec ix 0); [lia|].
    destruct (Z.ltb_spec s ix); [lia|].
    destruct (Z.ltb_spec ix f).
    + destruct C as [(-> & -> & ->)|(pre & e & post & Em & -> & -> & ->)]; [lia|].
      destruct (goDown_ok m ix P ltac:(lia) pre (e :: post) (S (length m)) Em ltac:(lia))
        as (p' & e' & q' & E' & G & Bd).
      { rewrite Em, app_length. lia. }
      rewrite G. cbn [obind]. eexists _, p', e', q'. split; [reflexivity|].
      unfold at_run. cbn. repeat split; auto; lia.
    + assert (exists pre post, m = pre ++ post /\ mi = Z.of_nat (length pre) /\ la = total pre)
        as (pre & post & Em & -> & ->).
      { destruct C as [(-> & -> & ->)|(pre & e & post & Em & -> & -> & ->)].
        - exists [], m. auto.
        - exists (pre ++ [e]), post. rewrite <- app_assoc, app_length, total_app. cbn.
          repeat split; auto; lia. }
      destruct (goUp_ok m ix P ltac:(lia) post pre (S (length m)) Em ltac:(lia))
        as (p' & e' & q' & E' & G & Bd).
      { rewrite Em, app_length. lia. }
      rewrite G. cbn [obind]. eexists _, p', e', q'. split; [reflexivity|].
      unfold at_run. cbn. repeat split; auto; lia.
Qed.

Lemma elt_run pre e post ix : pos (pre ++ e :: post) ->
  total pre < ix <= total pre + snd e ->
  elt (expand (pre ++ e :: post)) ix = Some (fst e).
Proof.
  intros P B. apply pos_app in P as [P1 P2]. inversion P2; subst.
  pose proof (expand_len _ P1). pose proof (total_pos _ P1).
  unfold elt. destruct (Z.leb_spec 1 ix); [|lia].
  rewrite expand_app. rewrite nth_error_app2 by lia.
  change (expand (e :: post)) with (repeat (fst e) (Z.to_nat (snd e)) ++ expand post).
  rewrite nth_error_app1 by (rewrite repeat_length; lia).
  apply nth_error_repeat. lia.
Qed.

Lemma elt_none l i : elt l i = None <-> ~ 1 <= i <= Z.of_nat (length l).
Proof.
  unfold elt. destruct (Z.leb_spec 1 i).
  - rewrite nth_error_None. lia.
  - split; auto; lia.
Qed.

Lemma at_run_inv r' r l ix pre e post : inv r l -> rmap r' = rmap r -> rsize r' = rsize r ->
  at_run r' ix pre e post -> inv r' l /\ elt l ix = Some (fst e).
Proof.
  intros (E & P & Sz & C) Em Es (Er & Hm & Hf & Hl & B).
  split.
  - split; [now rewrite Em|]. split; [now rewrite Em|]. split; [congruence|].
    right. exists pre, e, post. auto.
  - rewrite <- E, <- Em, Er. apply elt_run; auto. now rewrite <- Er, Em.
Qed.

Lemma update_bad r l ix : inv r l -> ~ 1 <= ix <= Z.of_nat (length l) ->
  match updateMapIndex ix r with
  | Ok r' => mapIndex r' = 0 | Err => True | _ => False
  end.
Proof.
  intros (E & P & Sz & C) B. destruct r as [m mi f la s]. unfold cached in C.
  unfold updateMapIndex. cbn [rmap mapIndex firstInRun lastInRun rsize] in *.
  assert (T : total m = Z.of_nat (length l)) by (rewrite <- expand_len, E; auto).
  destruct C as [(-> & -> & ->)|(pre & e & post & Em & -> & -> & ->)].
  - destruct ((0 <=? ix) && (ix <=? 0)) eqn:Q; [reflexivity|].
    destruct (Z.eqb_spec ix 0); [reflexivity|]. destruct (Z.ltb_spec ix 0); [exact I|].
    destruct (Z.ltb_spec s ix); [exact I|]. lia.
  - assert (0 <= total pre /\ total pre + snd e <= total m) as [].
    { rewrite Em in P |- *. apply pos_app in P as [P1 P2]. inversion P2; subst.
      rewrite total_app. cbn. pose proof (total_pos _ P1). pose proof (total_pos post H2). lia. }
    destruct ((total pre + 1 <=? ix) && (ix <=? total pre + snd e)) eqn:Q; [lia|].
    destruct (Z.eqb_spec ix 0); [reflexivity|]. destruct (Z.ltb_spec ix 0); [exact I|].
    destruct (Z.ltb_spec s ix); [exact I|]. lia.
Qed.

Lemma at_ok r l ix : inv r l ->
  match elt l ix with
  | Some x => exists r', at_ ix r = Ok (x, r') /\ inv r' l /\
      exists pre e post, at_run r' ix pre e post /\ x = fst e
  | None => at_ ix r = Err
  end.
Proof.
  intros V. destruct (elt l ix) eqn:E.
  - assert (1 <= ix <= Z.of_nat (length l)) as B.
    { destruct (Z_le_dec 1 ix), (Z_le_dec ix (Z.of_nat (length l))); auto;
        assert (elt l ix = None) by (apply elt_none; lia); congruence. }
    destruct (update_ok r l ix V B) as (r' & pre & e & post & U & Em & Es & R).
    destruct (at_run_inv _ _ _ _ _ _ _ V Em Es R) as [V' X].
    unfold at_. rewrite U. cbn [obind]. pose proof R as (Er & Hm & _).
    rewrite Er. rewrite mapAt_mid by assumption. cbn [obind].
    exists r'. split; [congruence|]. split; [auto|]. exists pre, e, post. split; auto; congruence.
  - apply elt_none in E. pose proof (update_bad _ _ _ V E) as U. unfold at_.
    destruct (updateMapIndex ix r); try contradiction; cbn [obind]; auto.
    rewrite U. reflexivity.
Qed.

Lemma remove_expand pre k n post ix : pos (pre ++ (k, n) :: post) ->
  total pre < ix <= total pre + n ->
  without (expand (pre ++ (k, n) :: post)) ix
    = expand pre ++ repeat k (Z.to_nat (n - 1)) ++ expand post.
Proof.
  intros P B. apply pos_app in P as [P1 P2]. inversion P2; subst.
  pose proof (expand_len _ P1). pose proof (total_pos _ P1). cbn [snd] in *.
  unfold without. rewrite expand_app.
  change (expand ((k,n) :: post)) with (repeat k (Z.to_nat n) ++ expand post).
  set (j := Z.to_nat (ix - 1 - total pre)).
  replace (Z.to_nat n) with (j + (1 + Z.to_nat (n - 1 - Z.of_nat j)))%nat by lia.
  rewrite !repeat_app. cbn [repeat].
  rewrite !app_assoc. rewrite <- !app_assoc.
  rewrite (app_assoc (expand pre)). rewrite firstn_len by (rewrite app_length, repeat_length; lia).
  rewrite (app_assoc (expand pre ++ repeat k j)).
  rewrite skipn_len by (rewrite !app_length, repeat_length; cbn; lia).
  rewrite <- !app_assoc. f_equal. rewrite app_assoc, <- repeat_app. do 2 f_equal. lia.
Qed.

Lemma without_len l i : 1 <= i <= Z.of_nat (length l) ->
  Z.of_nat (length (without l i)) = Z.of_nat (length l) - 1.
Proof. intros. unfold without. rewrite app_length, firstn_length, skipn_length. lia. Qed.

Lemma remove_ok r l ix : inv r l -> 
  match elt l ix with
  | Some x => (2 <= length l)%nat ->
      exists r', removeAtIndex ix r = Ok (x, r') /\ inv r' (without l ix)
  | None => removeAtIndex ix r = Err
  end.
Proof.
  intros V. destruct (elt l ix) eqn:E.
  - assert (1 <= ix <= Z.of_nat (length l)) as B.
    { destruct (Z_le_dec 1 ix), (Z_le_dec ix (Z.of_nat (length l))); auto;
        assert (elt l ix = None) by (apply elt_none; lia); congruence. }
    intros L2.
    destruct (update_ok r l ix V B) as (r' & pre & e & post & U & Em & Es & R).
    destruct (at_run_inv _ _ _ _ _ _ _ V Em Es R) as [V' X].
    unfold removeAtIndex. rewrite U. cbn [obind].
    destruct r' as [m mi f la s]. destruct R as (Er & Hm & Hf & Hl & Bd).
    destruct V' as (E' & P' & S' & _).
    cbn [rmap mapIndex firstInRun lastInRun rsize] in *. clear Em. subst m mi f la.
    destruct e as [k n]. cbn [fst snd] in *.
    assert (a = k) as -> by congruence.
    rewrite mapAt_mid by reflexivity. cbn [obind fst snd].
    pose proof (remove_expand pre k n post ix P' Bd) as W. rewrite E' in W.
    pose proof (without_len l ix B) as WL.
    pose proof P' as Pall. apply pos_app in Pall as [P1 P2]. pose proof (Forall_inv P2) as Pn; pose proof (Forall_inv_tail P2) as P3; cbn [snd] in Pn.
    destruct (Z.eqb_spec n 1) as [->|N]; cbn [negb].
    + rewrite mapRemove_mid by reflexivity. cbn [obind].
      replace (expand pre ++ repeat k (Z.to_nat (1 - 1)) ++ expand post)
        with (expand (pre ++ post)) in W by (rewrite expand_app; reflexivity).
      rewrite app_length.
      destruct (Z.ltb_spec (Z.of_nat (length pre + length post)) (Z.of_nat (length pre) + 1)).
      * destruct post; [|cbn in *; lia]. rewrite app_nil_r in *.
        destruct pre as [|e0 pre0 _] using rev_ind.
        { exfalso. rewrite W in WL. change (Z.of_nat (length (expand []))) with 0 in WL. lia. }
        rewrite mapAt_mid by (rewrite app_length; cbn; lia).
        cbn [obind]. eexists. split; [reflexivity|].
        split; [cbn; auto|]. split; [cbn; auto|]. split; [cbn; lia|].
        right. exists pre0, e0, []. cbn. split; auto.
        pose proof (expand_len _ P1) as Q. rewrite <- W, WL, total_app in Q. cbn [total] in Q.
        rewrite app_length. cbn [length]. split; [lia|]. split; lia.
      * destruct post as [|e1 post]; [cbn in *; lia|].
        rewrite mapAt_mid by reflexivity. cbn [obind].
        eexists. split; [reflexivity|].
        split; [cbn; auto|]. split; [cbn; apply pos_app; auto|]. split; [cbn; lia|].
        right. exists pre, e1, post. cbn. repeat split; auto; lia.
    + rewrite setValue_mid by reflexivity. cbn [fst].
      eexists. split; [reflexivity|].
      split; [cbn [rmap]; rewrite W, expand_app; reflexivity|].
      split; [cbn; apply pos_app; split; auto; constructor; cbn; auto; lia|].
      split; [cbn; lia|].
      right. exists pre, (k, n - 1), post. cbn. repeat split; auto; lia.
  - apply elt_none in E. pose proof (update_bad _ _ _ V E) as U. unfold removeAtIndex.
    destruct (updateMapIndex ix r) as [r'| | | |]; try contradiction; cbn [obind]; auto.
    destruct r' as [m mi f la s]. cbn in U. subst mi. reflexivity.
Qed.

Lemma runsFrom_expand : forall l x n, 0 < n ->
  expand (runsFrom eqb x n l) = repeat x (Z.to_nat n) ++ l /\ pos (runsFrom eqb x n l).
Proof.
  induction l as [|y l IH]; intros x n Hn; cbn [runsFrom].
  - split; [unfold expand; cbn; now rewrite !app_nil_r|]. constructor; auto.
  - destruct (eqb y x) eqn:E.
    + apply eqb_ok in E as ->. destruct (IH x (n + 1) ltac:(lia)) as [-> P]. split; auto.
      replace (Z.to_nat (n + 1)) with (Z.to_nat n + 1)%nat by lia.
      rewrite repeat_app, <- app_assoc. reflexivity.
    + destruct (IH y 1 ltac:(lia)) as [E' P]. split; [|constructor; auto].
      change (expand ((x, n) :: runsFrom eqb y 1 l))
        with (repeat x (Z.to_nat n) ++ expand (runsFrom eqb y 1 l)).
      rewrite E'. reflexivity.
Qed.

Lemma withMap_inv m : pos m -> inv (withMap m) (expand m).
Proof.
  intros P. unfold withMap. rewrite fold_total.
  destruct m as [|e m]; split; cbn [rmap rsize]; auto; split; auto; split;
    try (rewrite expand_len; auto; cbn; lia).
  - left. cbn. auto.
  - right. exists [], e, m. cbn. auto.
Qed.

Lemma asRunArray_inv l : l <> [] -> exists r, asRunArray eqb l = Ok r /\ inv r l.
Proof.
  destruct l as [|x l]; [congruence|]. intros _.
  unfold asRunArray. cbn [asRunArrayMap obind]. eexists; split; [reflexivity|].
  destruct (runsFrom_expand l x 1 ltac:(lia)) as [E P].
  change (x :: l) with (repeat x (Z.to_nat 1) ++ l). rewrite <- E. now apply withMap_inv.
Qed.

Lemma first_ok r l : inv r l -> match elt l 1 with Some x => first r = Ok x | None => first r = Err end.
Proof.
  intros (E & P & _). unfold first. subst l.
  destruct (rmap r) as [|e m]; [reflexivity|].
  pose proof (Forall_inv P) as Hp; cbn [snd] in Hp. change (e :: m) with ([] ++ e :: m).
  rewrite (elt_run [] e m 1); [reflexivity|exact P|cbn; lia].
Qed.
Lemma last_ok r l : inv r l ->
  match elt l (Z.of_nat (length l)) with Some x => last r = Ok x | None => last r = Err end.
Proof.
  intros (E & P & _). unfold last. subst l.
  destruct (rmap r) as [|e m _] using rev_ind; [reflexivity|].
  pose proof (proj1 (pos_app _ _) P) as [P1 P2]. pose proof (Forall_inv P2) as Hp; cbn [snd] in Hp.
  rewrite expand_len by auto. rewrite total_app. cbn [total].
  rewrite elt_run; auto; [|lia].
  rewrite mapAt_mid; [reflexivity|]. rewrite app_length. cbn. lia.
Qed.

Lemma elt_some l ix x : elt l ix = Some x -> 1 <= ix <= Z.of_nat (length l).
Proof.
  intros E. destruct (Z_le_dec 1 ix), (Z_le_dec ix (Z.of_nat (length l))); auto;
    assert (elt l ix = None) by (apply elt_none; lia); congruence.
Qed.

Lemma putSame_ok r l ix x : inv r l -> elt l ix = Some x ->
  exists r', atPut eqb ix x r = Ok r' /\ inv r' l.
Proof.
  intros V X. pose proof (elt_some _ _ _ X). unfold atPut, atSplitAndPut.
  replace (Z.max 1 ix) with ix by lia.
  pose proof (at_ok r l ix V) as H0. rewrite X in H0.
  destruct H0 as (r' & -> & V' & pre & e & post & R & Ex). cbn [obind].
  replace (eqb x x) with true by (symmetry; now apply eqb_ok).
  destruct R as (Er & Hm & Hf & Hl & B). rewrite Er, mapAt_mid by auto. cbn [obind].
  rewrite setValue_mid by auto. eexists. split; [reflexivity|].
  replace (fst e, snd e + (1 - 1)) with e by (destruct e; cbn; f_equal; lia).
  rewrite <- Er. destruct r'. exact V'.
Qed.

Lemma step_ok o r l : inv r l -> (is_removal o = true -> (2 <= length l)%nat) ->
  match fst (rspec o l) with
  | RError => rstep eqb o r = Err
  | a => exists r', rstep eqb o r = Ok (a, r') /\ inv r' (snd (rspec o l))
  end.
Proof.
  intros V K. unfold rspec, rstep.
  assert (Rm : forall i, (2 <= length l)%nat ->
    match elt l i with
    | Some x => exists r', (olet t := removeAtIndex i r in let '(x, r0) := t in Ok (RElt x, r0)) = Ok (RElt x, r')
                  /\ inv r' (without l i)
    | None => (olet t := removeAtIndex i r in let '(x, r0) := t in Ok (RElt x, r0)) = Err
    end).
  { intros i L. pose proof (remove_ok r l i V) as H. destruct (elt l i).
    - destruct (H L) as (r' & -> & V'). cbn [obind]. eauto.
    - now rewrite H. }
  destruct o; cbn [index_of_op is_removal] in *.
  - pose proof (at_ok r l i V) as H. destruct (elt l i); cbn [fst snd].
    + destruct H as (r' & -> & V' & _). cbn [obind]. eauto.
    + now rewrite H.
  - pose proof (at_ok r l i V) as H. destruct (elt l i) eqn:X; cbn [fst snd].
    + destruct H as (r' & -> & V' & _). cbn [obind].
      destruct (putSame_ok _ _ _ _ V' X) as (r2 & -> & V2). cbn [obind]. eauto.
    + now rewrite H.
  - specialize (Rm i (K eq_refl)). destruct (elt l i); exact Rm.
  - specialize (Rm 1 (K eq_refl)). unfold removeFirst. destruct (elt l 1); exact Rm.
  - specialize (Rm (Z.of_nat (length l)) (K eq_refl)). unfold removeLast.
    destruct V as (_ & _ & -> & _). destruct (elt l (Z.of_nat (length l))); exact Rm.
  - pose proof (first_ok r l V) as H. destruct (elt l 1); cbn [fst snd]; rewrite H; cbn [obind]; eauto.
  - pose proof (last_ok r l V) as H. destruct (elt l (Z.of_nat (length l))); cbn [fst snd]; rewrite H; cbn [obind]; eauto.
  - cbn [fst snd]. exists r. split; auto. unfold size. destruct V as (_ & _ & -> & _). auto.
  - cbn [fst snd]. exists r. split; auto. destruct V as (E & _). unfold do_. fold (expand (rmap r)). now rewrite E.
  - cbn [fst snd]. destruct V as (E & P & _). exists (shallowCopy r).
    unfold shallowCopy. pose proof (withMap_inv _ P) as W. rewrite E in W. split; auto.
    do 3 f_equal. destruct W as (E' & _). unfold do_. exact E'.
Qed.

Lemma run_ok : forall os r l, inv r l -> keeps_one os l ->
  rrun eqb os r = Ok (rhistory os l).
Proof.
  induction os as [|o os IH]; intros r l V K; [reflexivity|].
  cbn [rrun rhistory keeps_one] in *. destruct K as [K1 K2].
  pose proof (step_ok o r l V K1) as H. destruct (rspec o l) as [a l'] eqn:E.
  cbn [fst snd] in *.
  destruct a; (try now rewrite H);
    destruct H as (r' & -> & V'); rewrite (IH r' l' V' K2); reflexivity.
Qed.

Lemma history_ok l os : l <> [] -> keeps_one os l ->
  exists r, asRunArray eqb l = Ok r /\ rrun eqb os r = Ok (rhistory os l).
Proof.
  intros N K. destruct (asRunArray_inv l N) as (r & E & V). exists r. split; auto.
  now apply run_ok.
Qed.

(** Equality of RunArrays just converted from sequences *)
Lemma mapEq_spec m m' : mapEq eqb m m' = true <-> m = m'.
Proof.
  revert m'. induction m as [|[a z] m IH]; intros [|[a' z'] m']; cbn; split; intros H; try congruence.
  - apply andb_true_iff in H as [H H3]. apply andb_true_iff in H as [H1 H2].
    apply eqb_ok in H1. apply Z.eqb_eq in H2. apply IH in H3. congruence.
  - injection H as -> -> ->. rewrite !andb_true_iff. repeat split; [now apply eqb_ok|lia|now apply IH].
Qed.

Lemma equal_converted l l' r r' : asRunArray eqb l = Ok r -> asRunArray eqb l' = Ok r' ->
  equal eqb r r' = true <-> l = l'.
Proof.
  destruct l as [|x l], l' as [|x' l']; cbn; try discriminate.
  intros [= <-] [= <-]. unfold equal.
  assert (forall m, rmap (withMap m) = m) as W by (intros []; reflexivity).
  rewrite !W, mapEq_spec.
  destruct (runsFrom_expand l x 1 ltac:(lia)) as [E _].
  destruct (runsFrom_expand l' x' 1 ltac:(lia)) as [E' _].
  change (repeat x (Z.to_nat 1) ++ l) with (x :: l) in E.
  change (repeat x' (Z.to_nat 1) ++ l') with (x' :: l') in E'.
  split; intros H; [|now injection H as -> ->].
  rewrite <- E, <- E'. congruence.
Qed.
End P.
