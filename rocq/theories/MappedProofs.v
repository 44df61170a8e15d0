(** Proofs about MappedCollections. *)
From Coq Require Import Lia FinFun.
From Verif Require Import Base Mapped MappedSpec.
Import ListNotations.
Local Open Scope Z_scope.

Lemma seq_at_ok d i : 1 <= i <= Z.of_nat (length d) -> seq_at d i = Ok (nth (Z.to_nat (i - 1)) d 0).
Proof.
  intro H. unfold seq_at. replace (1 <=? i) with true by lia.
  rewrite (nth_error_nth' d 0) by lia. reflexivity.
Qed.
Lemma seq_at_err d i : ~ (1 <= i <= Z.of_nat (length d)) -> seq_at d i = Err.
Proof.
  intro H. unfold seq_at. destruct (1 <=? i) eqn:Q; [|reflexivity].
  replace (nth_error d (Z.to_nat (i - 1))) with (@None Z); [reflexivity|]. symmetry. apply nth_error_None. lia.
Qed.
Lemma each_ok {A B} (f : A -> outcome B) (g : A -> B) l : (forall x, In x l -> f x = Ok (g x)) -> each f l = Ok (map g l).
Proof.
  induction l as [|x l IH]; intro H; [reflexivity|]. cbn [each map]. rewrite (H x (or_introl eq_refl)). cbn [obind].
  rewrite IH; [reflexivity|]. intros y Hy. apply H. right. exact Hy.
Qed.
Lemma keep_ok {A} (f : A -> outcome bool) (g : A -> bool) l : (forall x, In x l -> f x = Ok (g x)) -> keep f l = Ok (filter g l).
Proof.
  induction l as [|x l IH]; intro H; [reflexivity|]. cbn [keep filter]. rewrite (H x (or_introl eq_refl)). cbn [obind].
  rewrite IH; [reflexivity|]. intros y Hy. apply H. right. exact Hy.
Qed.
Lemma dict_at_ok l k v : NoDup (map fst l) -> (dict_at l k = Ok v <-> In (k, v) l).
Proof.
  induction l as [|[k' v'] l IH]; cbn [map fst dict_at]; intro D.
  - split; [discriminate|intros []].
  - apply NoDup_cons_iff in D as [D1 D2]. destruct (k' =? k) eqn:Q.
    + apply Z.eqb_eq in Q. subst k'. split.
      * intro H. injection H as ->. left. reflexivity.
      * intros [H|H]; [injection H as ->; reflexivity|]. apply (in_map fst) in H. contradiction.
    + rewrite IH by exact D2. split; [right; assumption|]. intros [H|H]; [injection H as -> ->; lia|exact H].
Qed.
Lemma dict_at_res l k : dict_at l k = Err \/ exists v, dict_at l k = Ok v.
Proof. induction l as [|[k' v'] l IH]; cbn [dict_at]; [left; reflexivity|]. destruct (k' =? k); [right; eexists; reflexivity|exact IH]. Qed.
Lemma map_keys_len m : length (map_keys m) = length (map_do m).
Proof. destruct m; cbn; rewrite ?map_length, ?seq_length; reflexivity. Qed.
Lemma entries_eq c : entries c = combine (map_keys (mapof c)) (objects (domain c) (map_do (mapof c))).
Proof. unfold entries. destruct (mapof c); reflexivity. Qed.
Lemma combine_fst {A B} (l : list A) (m : list B) : length l = length m -> map fst (combine l m) = l.
Proof. revert m; induction l as [|x l IH]; intros [|y m] H; cbn in *; try discriminate; [reflexivity|]. f_equal. apply IH. lia. Qed.
Lemma combine_snd {A B} (l : list A) (m : list B) : length l = length m -> map snd (combine l m) = m.
Proof. revert m; induction l as [|x l IH]; intros [|y m] H; cbn in *; try discriminate; [reflexivity|]. f_equal. apply IH. lia. Qed.
Lemma objects_len d l : length (objects d l) = length l.
Proof. apply map_length. Qed.
Lemma entries_fst c : map fst (entries c) = keys c.
Proof. rewrite entries_eq. apply combine_fst. rewrite objects_len. apply map_keys_len. Qed.
Lemma entries_snd c : map snd (entries c) = objects (domain c) (map_do (mapof c)).
Proof. rewrite entries_eq. apply combine_snd. rewrite objects_len. apply map_keys_len. Qed.
Lemma in_combine_nth {A B} (l : list A) (m : list B) x y : In (x, y) (combine l m) <-> exists n, nth_error l n = Some x /\ nth_error m n = Some y.
Proof.
  revert m; induction l as [|a l IH]; intros m; cbn [combine].
  - split; [intros []|]. intros [[|n] [H _]]; discriminate.
  - destruct m as [|b m].
    + split; [intros []|]. intros [[|n] [_ H]]; discriminate.
    + cbn [In]. rewrite IH. split.
      * intros [H|[n H]]; [injection H as -> ->; exists 0%nat; auto|exists (S n); exact H].
      * intros [[|n] [H1 H2]]; [left; cbn in H1, H2; congruence|right; exists n; auto].
Qed.
(** The map as pairs. *)
Lemma map_at_pairs m k i : NoDup (map_keys m) -> (map_at m k = Ok i <-> In (k, i) (combine (map_keys m) (map_do m))).
Proof.
  intro D. destruct m as [l|l]; cbn [map_at map_keys map_do].
  - rewrite in_combine_nth. split.
    + intro H. assert (R : 1 <= k <= Z.of_nat (length l)).
      { destruct (Z_le_dec 1 k); [destruct (Z_le_dec k (Z.of_nat (length l))); [lia|]|]; rewrite seq_at_err in H by lia; discriminate. }
      rewrite seq_at_ok in H by exact R. injection H as H. exists (Z.to_nat (k - 1)). split.
      * rewrite nth_error_map. rewrite (nth_error_nth' (List.seq 1 (length l)) 0%nat) by (rewrite seq_length; lia). cbn [option_map].
        rewrite seq_nth by lia. f_equal. lia.
      * rewrite (nth_error_nth' l 0) by lia. congruence.
    + intros [n [H1 H2]]. rewrite nth_error_map in H1. assert (L : (n < length l)%nat) by (apply nth_error_Some; congruence).
      rewrite (nth_error_nth' (List.seq 1 (length l)) 0%nat) in H1 by (rewrite seq_length; lia). cbn [option_map] in H1.
      rewrite seq_nth in H1 by lia. assert (Ek : k = Z.of_nat n + 1) by (assert (Some (Z.of_nat (1 + n)) = Some k) as Q by exact H1; injection Q; lia).
      rewrite seq_at_ok by lia. f_equal. apply nth_error_nth with (d := 0) in H2. rewrite <- H2. f_equal. lia.
  - rewrite dict_at_ok by exact D.
    assert (Hc : combine (map fst l) (map snd l) = l).
    { clear. induction l as [|[a b] l IH]; [reflexivity|]. cbn. rewrite IH. reflexivity. }
    rewrite Hc. tauto.
Qed.
Lemma map_at_res m k : map_at m k = Err \/ exists v, map_at m k = Ok v.
Proof.
  destruct m as [l|l]; cbn [map_at]; [|apply dict_at_res]. unfold seq_at. destruct (1 <=? k); [|left; reflexivity].
  destruct (nth_error l _); [right; eexists; reflexivity|left; reflexivity].
Qed.
Lemma map_at_do m k i : map_at m k = Ok i -> In i (map_do m).
Proof.
  destruct m as [l|l]; cbn [map_at map_do].
  - unfold seq_at. destruct (1 <=? k); [|discriminate]. destruct (nth_error l _) eqn:Q; [|discriminate].
    intro H. injection H as <-. exact (nth_error_In _ _ Q).
  - induction l as [|[k' v'] l IH]; cbn [dict_at map snd]; [discriminate|]. destruct (k' =? k).
    + intro H. injection H as <-. left. reflexivity.
    + intro H. right. exact (IH H).
Qed.
Lemma entry_index c k v : NoDup (map_keys (mapof c)) ->
  (In (k, v) (entries c) <-> exists i, map_at (mapof c) k = Ok i /\ v = nth (Z.to_nat (i - 1)) (domain c) 0).
Proof.
  intro D. rewrite entries_eq, in_combine_nth. split.
  - intros [n [H1 H2]]. unfold objects in H2. rewrite nth_error_map in H2.
    destruct (nth_error (map_do (mapof c)) n) as [i|] eqn:Q; [|discriminate]. injection H2 as <-.
    exists i. split; [|reflexivity]. apply (map_at_pairs _ _ _ D). apply in_combine_nth. exists n. auto.
  - intros [i [H1 ->]]. apply (map_at_pairs _ _ _ D) in H1. apply in_combine_nth in H1 as [n [H1 H2]].
    exists n. split; [exact H1|]. unfold objects. rewrite nth_error_map, H2. reflexivity.
Qed.

Lemma at_ok c k : valid c ->
  (forall v, at_ c k = Ok v <-> In (k, v) (entries c)) /\ (at_ c k = Err <-> ~ In k (map fst (entries c))).
Proof.
  intros [V D]. assert (At : forall i, map_at (mapof c) k = Ok i -> at_ c k = Ok (nth (Z.to_nat (i - 1)) (domain c) 0)).
  { intros i Hi. unfold at_. rewrite Hi. cbn [obind]. apply seq_at_ok. apply V. exact (map_at_do _ _ _ Hi). }
  split.
  - intro v. rewrite (entry_index c k v D). split.
    + intro H. destruct (map_at_res (mapof c) k) as [Q|[i Q]].
      * unfold at_ in H. rewrite Q in H. discriminate.
      * exists i. split; [exact Q|]. rewrite (At i Q) in H. congruence.
    + intros [i [H ->]]. exact (At i H).
  - destruct (map_at_res (mapof c) k) as [Q|[i Q]].
    + unfold at_. rewrite Q. cbn [obind]. split; [|reflexivity]. intros _ H. apply in_map_iff in H as [[k' v] [E0 H]]. cbn in E0. subst k'.
      apply (entry_index c k v D) in H as [i [H _]]. congruence.
    + rewrite (At i Q). split; [discriminate|]. intro H. exfalso. apply H. apply in_map_iff.
      exists (k, nth (Z.to_nat (i - 1)) (domain c) 0). split; [reflexivity|]. apply (entry_index c _ _ D). exists i. auto.
Qed.

Lemma seq_put_len d n v : length (seq_put d n v) = length d.
Proof. revert n; induction d as [|x d IH]; intros [|n]; cbn; auto. Qed.
Lemma seq_put_nth d n v m : (n < length d)%nat -> nth m (seq_put d n v) 0 = if (m =? n)%nat then v else nth m d 0.
Proof.
  revert n m; induction d as [|x d IH]; intros n m H; [cbn in H; lia|]. destruct n as [|n], m as [|m]; cbn; try reflexivity.
  rewrite IH by (cbn in H; lia). reflexivity.
Qed.
Lemma at_put_ok c k v : valid c -> In k (keys c) -> NoDup (map_do (mapof c)) ->
  exists c', at_put c k v = Ok c' /\ valid c' /\ keys c' = keys c /\
    forall k' w, In (k', w) (entries c') <-> if k' =? k then w = v else In (k', w) (entries c).
Proof.
  intros [V D] Hk Dd. destruct (at_ok c k (conj V D)) as [_ A2].
  destruct (map_at_res (mapof c) k) as [Q|[i Q]].
  { exfalso. apply (proj1 A2); [unfold at_; rewrite Q; reflexivity|]. rewrite entries_fst. exact Hk. }
  pose proof (V i (map_at_do _ _ _ Q)) as R. unfold at_put. rewrite Q. cbn [obind]. rewrite seq_at_ok by exact R. cbn [obind].
  eexists. split; [reflexivity|]. split; [|split; [reflexivity|]].
  - split; cbn [mapof domain]; [rewrite seq_put_len; exact V|exact D].
  - intros k' w. rewrite entry_index by exact D. cbn [mapof domain]. destruct (k' =? k) eqn:Z0.
    + apply Z.eqb_eq in Z0. subst k'. rewrite Q. split.
      * intros [j [Hj ->]]. injection Hj as <-. rewrite seq_put_nth by lia. rewrite Nat.eqb_refl. reflexivity.
      * intros ->. exists i. split; [reflexivity|]. rewrite seq_put_nth by lia. rewrite Nat.eqb_refl. reflexivity.
    + rewrite entry_index by exact D.
      assert (X : forall j, map_at (mapof c) k' = Ok j -> nth (Z.to_nat (j - 1)) (seq_put (domain c) (Z.to_nat (i - 1)) v) 0 = nth (Z.to_nat (j - 1)) (domain c) 0).
      { intros j Hj. rewrite seq_put_nth by lia. destruct (Z.to_nat (j - 1) =? Z.to_nat (i - 1))%nat eqn:Y; [|reflexivity]. exfalso.
        apply Nat.eqb_eq in Y. pose proof (V j (map_at_do _ _ _ Hj)) as Rj. assert (j = i) by lia. subst j.
        apply (map_at_pairs _ _ _ D) in Hj. apply (map_at_pairs _ _ _ D) in Q.
        apply in_combine_nth in Hj as [a [Ha1 Ha2]]. apply in_combine_nth in Q as [b [Hb1 Hb2]].
        assert (a = b). { apply (proj1 (NoDup_nth_error _) Dd); [apply nth_error_Some; congruence|congruence]. }
        subst b. assert (k' = k) by congruence. lia. }
      split; intros [j [Hj ->]]; exists j; (split; [exact Hj|]); [|symmetry]; apply X; exact Hj.
Qed.

Lemma do_ok c : valid c -> do_ c = Ok (map snd (entries c)) /\ size c = Z.of_nat (length (entries c)) /\ keys c = map fst (entries c).
Proof.
  intros [V D]. split; [|split].
  - rewrite entries_snd. unfold do_, objects. apply each_ok. intros i Hi. apply seq_at_ok. exact (V i Hi).
  - unfold size. rewrite <- (map_length snd (entries c)), entries_snd, objects_len. reflexivity.
  - symmetry. apply entries_fst.
Qed.

Lemma objects_map f d l : (forall i, In i l -> 1 <= i <= Z.of_nat (length d)) -> objects (map f d) l = map f (objects d l).
Proof.
  intro H. unfold objects. rewrite map_map. apply map_ext_in. intros i Hi. specialize (H i Hi).
  rewrite (nth_indep _ 0 (f 0)) by (rewrite map_length; lia). apply map_nth.
Qed.
Lemma combine_map_r {A B C} (f : B -> C) (l : list A) (m : list B) : combine l (map f m) = map (fun p => (fst p, f (snd p))) (combine l m).
Proof. revert m; induction l as [|x l IH]; intros [|y m]; cbn; try reflexivity. rewrite IH. reflexivity. Qed.
Lemma collect_ok f c : valid c -> (length (domain c) <= length (entries c))%nat ->
  exists x, collect f c = Ok x /\ centries x = map (fun p => (fst p, f (snd p))) (entries c).
Proof.
  intros [V D] L. unfold collect.
  replace (length (map_do (mapof c)) <? length (domain c))%nat with false.
  2:{ symmetry. apply Nat.ltb_ge. rewrite <- (map_length snd (entries c)), entries_snd, objects_len in L. exact L. }
  eexists. split; [reflexivity|]. cbn [centries]. rewrite !entries_eq. cbn [mapof domain].
  rewrite objects_map by exact V. apply combine_map_r.
Qed.
Lemma at_same c i : valid c -> same_numbers c -> In i (map_do (mapof c)) -> at_ c i = Ok (nth (Z.to_nat (i - 1)) (domain c) 0).
Proof. intros [V D] S0 H. unfold at_. rewrite (S0 i H). cbn [obind]. apply seq_at_ok. exact (V i H). Qed.
Lemma collect_same f c : valid c -> same_numbers c ->
  exists x, collect f c = Ok x /\ centries x = map (fun p => (fst p, f (snd p))) (entries c).
Proof.
  intros V S0. destruct (Nat.le_gt_cases (length (domain c)) (length (entries c))) as [L|L]; [exact (collect_ok f c V L)|].
  unfold collect. replace (length (map_do (mapof c)) <? length (domain c))%nat with true.
  2:{ symmetry. apply Nat.ltb_lt. rewrite <- (map_length snd (entries c)), entries_snd, objects_len in L. exact L. }
  assert (EQ : each (fun k => olet v := at_ c k in Ok (f v)) (map_do (mapof c)) = Ok (map f (objects (domain c) (map_do (mapof c))))).
  { unfold objects. rewrite map_map. apply (each_ok _ (fun i => f (nth (Z.to_nat (i - 1)) (domain c) 0))).
    intros i Hi. rewrite (at_same c i V S0 Hi). reflexivity. }
  rewrite entries_eq, <- combine_map_r. destruct (mapof c) as [l|l]; cbn [map_collect map_do map_keys] in *; rewrite EQ; cbn [obind].
  - eexists. split; [reflexivity|]. cbn [centries]. rewrite map_length, objects_len. reflexivity.
  - eexists. split; [reflexivity|]. reflexivity.
Qed.
Lemma filter_map_in {A B} (g : A -> B) (p : B -> bool) l : map g (filter (fun x => p (g x)) l) = filter p (map g l).
Proof. induction l as [|x l IH]; [reflexivity|]. cbn. destruct (p (g x)); cbn; rewrite IH; reflexivity. Qed.
Lemma select_gen p (q : Z -> outcome bool) c : valid c -> (forall i, In i (map_do (mapof c)) -> q i = Ok (p (nth (Z.to_nat (i - 1)) (domain c) 0))) ->
  exists m, map_select q (mapof c) = Ok m /\ map snd (entries (Mp (domain c) m)) = filter p (map snd (entries c)) /\
    (forall l, mapof c = MDict l -> entries (Mp (domain c) m) = filter (fun e => p (snd e)) (entries c)).
Proof.
  intros [V D] H. rewrite !entries_snd. destruct c as [d m]; cbn [mapof domain] in *. destruct m as [l|l]; cbn [map_select map_do] in *.
  - rewrite (keep_ok q (fun i => p (nth (Z.to_nat (i - 1)) d 0)) l H). cbn [obind]. eexists. split; [reflexivity|]. split.
    + rewrite entries_snd. cbn [mapof domain map_do]. unfold objects. apply filter_map_in.
    + discriminate.
  - rewrite (keep_ok _ (fun a => p (nth (Z.to_nat (snd a - 1)) d 0)) l).
    2:{ intros a Ha. apply H. apply in_map. exact Ha. }
    cbn [obind]. eexists. split; [reflexivity|].
    assert (X : forall l0 : list (Z * Z), entries (Mp d (MDict l0)) = map (fun a => (fst a, nth (Z.to_nat (snd a - 1)) d 0)) l0).
    { intro l0. unfold entries. cbn [mapof domain]. unfold objects. induction l0 as [|a l0 IH]; [reflexivity|]. cbn. rewrite IH. reflexivity. }
    split.
    + rewrite entries_snd. cbn [mapof domain map_do]. unfold objects.
      rewrite <- (filter_map_in (fun i => nth (Z.to_nat (i - 1)) d 0) p).
      rewrite <- (filter_map_in snd (fun i => p (nth (Z.to_nat (i - 1)) d 0))). reflexivity.
    + intros l0 _. rewrite !X. apply (filter_map_in (fun a : Z * Z => (fst a, nth (Z.to_nat (snd a - 1)) d 0)) (fun e : Z * Z => p (snd e))).
Qed.
Lemma select_same p c : valid c -> same_numbers c ->
  exists c', select p c = Ok c' /\ map snd (entries c') = filter p (map snd (entries c)).
Proof.
  intros V S0. unfold select. destruct (select_gen p (fun k => olet v := at_ c k in Ok (p v)) c V) as [m [H1 [H2 _]]].
  - intros i Hi. rewrite (at_same c i V S0 Hi). reflexivity.
  - rewrite H1. cbn [obind]. eexists. split; [reflexivity|exact H2].
Qed.
Lemma reject_same p c : valid c -> same_numbers c ->
  exists c', reject p c = Ok c' /\ map snd (entries c') = filter (fun v => negb (p v)) (map snd (entries c)).
Proof.
  intros V S0. unfold reject. destruct (select_gen (fun v => negb (p v)) (fun k => olet v := at_ c k in Ok (negb (p v))) c V) as [m [H1 [H2 _]]].
  - intros i Hi. rewrite (at_same c i V S0 Hi). reflexivity.
  - rewrite H1. cbn [obind]. eexists. split; [reflexivity|exact H2].
Qed.
Lemma at_all_gen c ks : valid c -> (forall k, In k ks -> In k (keys c)) -> NoDup ks ->
  exists c', at_all c ks = Ok c' /\ Forall2 (fun k v => In (k, v) (entries c)) ks (map snd (entries c')) /\
    (forall l, mapof c = MDict l -> keys c' = ks) /\ valid c'.
Proof.
  intros [V D] H N.
  assert (E0 : forall k, In k ks -> exists i, map_at (mapof c) k = Ok i).
  { intros k Hk. destruct (map_at_res (mapof c) k) as [Q|Q]; [|exact Q]. exfalso.
    apply (proj1 (proj2 (at_ok c k (conj V D)))); [unfold at_; rewrite Q; reflexivity|]. rewrite entries_fst. exact (H k Hk). }
  assert (L : exists is, each (map_at (mapof c)) ks = Ok is /\ Forall2 (fun k i => map_at (mapof c) k = Ok i) ks is).
  { clear H N. induction ks as [|k ks IH]; [exists []; split; [reflexivity|constructor]|].
    destruct (E0 k (or_introl eq_refl)) as [i Hi]. destruct IH as [is [I1 I2]]; [intros; apply E0; right; assumption|].
    exists (i :: is). split; [|constructor; assumption]. cbn [each]. rewrite Hi. cbn [obind]. rewrite I1. reflexivity. }
  destruct L as [is [L1 L2]].
  assert (LL : length ks = length is) by (clear - L2; induction L2; cbn; auto).
  assert (Fv : Forall2 (fun k v => In (k, v) (entries c)) ks (objects (domain c) is)).
  { clear - L2 D. induction L2 as [|k i ks is H0 H1 IH]; [constructor|]. cbn. constructor; [|exact IH].
    apply (entry_index c _ _ D). exists i. auto. }
  assert (Vi : forall i, In i is -> 1 <= i <= Z.of_nat (length (domain c))).
  { clear - L2 V. induction L2 as [|k i ks is H0 H1 IH]; [intros i []|]. intros j [<-|Hj]; [apply V; exact (map_at_do _ _ _ H0)|exact (IH j Hj)]. }
  unfold at_all. destruct c as [d m]; cbn [mapof domain] in *. destruct m as [l|l]; cbn [map_at_all map_at] in *.
  - rewrite (L1 : each (seq_at l) ks = Ok is). cbn [obind]. eexists. split; [reflexivity|]. split; [|split].
    + rewrite entries_snd. exact Fv.
    + discriminate.
    + split; cbn [mapof domain map_do map_keys]; [exact Vi|].
      apply Injective_map_NoDup; [intros a b; lia|apply seq_NoDup].
  - rewrite (L1 : each (dict_at l) ks = Ok is). cbn [obind]. eexists. split; [reflexivity|]. split; [|split].
    + rewrite entries_snd. cbn [mapof domain map_do]. rewrite combine_snd by exact LL. exact Fv.
    + intros l0 _. unfold keys. cbn [mapof map_keys]. apply combine_fst. exact LL.
    + split; cbn [mapof domain map_do map_keys].
      * rewrite combine_snd by exact LL. exact Vi.
      * rewrite combine_fst by exact LL. exact N.
Qed.

Lemma copy_ok c l a b : mapof c = MSeq l -> valid c -> 1 <= a -> b <= Z.of_nat (length l) ->
  exists vs, copy_from_to c a b = Ok vs /\ length vs = Z.to_nat (b - a + 1) /\
    forall n, (n < length vs)%nat -> In (a + Z.of_nat n, nth n vs 0) (entries c).
Proof.
  intros M V Ha Hb. set (ks := map (fun n => a + Z.of_nat n) (List.seq 0 (Z.to_nat (b - a + 1)))).
  assert (NK : NoDup ks) by (apply Injective_map_NoDup; [intros x y; lia|apply seq_NoDup]).
  assert (IK : forall k, In k ks -> In k (keys c)).
  { intros k Hk. unfold ks in Hk. apply in_map_iff in Hk as [n [<- Hn]]. apply in_seq in Hn. unfold keys. rewrite M. cbn [map_keys].
    apply in_map_iff. exists (Z.to_nat (a + Z.of_nat n)). split; [lia|apply in_seq; lia]. }
  destruct (at_all_gen c ks V IK NK) as [c' [H1 [H2 [_ H3]]]].
  exists (map snd (entries c')). unfold copy_from_to. fold ks. unfold at_all in H1.
  destruct (map_at_all (mapof c) ks) as [m| | | |]; cbn [obind] in *; try discriminate. injection H1 as <-.
  destruct (do_ok _ H3) as [H4 _]. split; [exact H4|].
  assert (Lk : length ks = Z.to_nat (b - a + 1)) by (unfold ks; rewrite map_length, seq_length; reflexivity).
  assert (Lv : forall n, (n < length (map snd (entries (Mp (domain c) m))))%nat -> In (nth n ks 0, nth n (map snd (entries (Mp (domain c) m))) 0) (entries c)).
  { clear - H2. induction H2 as [|k v ks vs A B IH]; intros n Hn; [cbn in Hn; lia|]. destruct n as [|n]; cbn [nth]; [exact A|apply IH; cbn in Hn; lia]. }
  assert (Ll : length ks = length (map snd (entries (Mp (domain c) m)))) by (clear - H2; induction H2; cbn; auto).
  split; [congruence|]. intros n Hn. specialize (Lv n Hn).
  replace (a + Z.of_nat n) with (nth n ks 0); [exact Lv|].
  unfold ks. rewrite (nth_indep _ 0 ((fun n => a + Z.of_nat n) 0%nat)) by (rewrite map_length, seq_length; lia).
  rewrite (map_nth (fun n => a + Z.of_nat n)). rewrite seq_nth by lia. reflexivity.
Qed.
Lemma valid0 : valid (Mp [10; 20; 30] (MSeq [3; 1; 2])).
Proof. split; [cbn; intros i [<-|[<-|[<-|[]]]]; lia|cbn; repeat constructor; cbn; lia]. Qed.
Lemma select_bad : exists c p c', valid c /\ select p c = Ok c' /\ map snd (entries c') <> filter p (map snd (entries c)).
Proof. exists (Mp [10; 20; 30] (MSeq [3; 1; 2])), (fun v => 15 <? v). eexists. split; [exact valid0|split; [reflexivity|discriminate]]. Qed.
Lemma reject_bad : exists c p c', valid c /\ reject p c = Ok c' /\ map snd (entries c') <> filter (fun v => negb (p v)) (map snd (entries c)).
Proof. exists (Mp [10; 20; 30] (MSeq [3; 1; 2])), (fun v => 15 <? v). eexists. split; [exact valid0|split; [reflexivity|discriminate]]. Qed.
Lemma dict_bad : exists c, valid c /\ entries c = [(100, 10)] /\ (forall p, select p c = Err) /\ (forall p, reject p c = Err) /\ keys_and_values_do c = Err.
Proof. exists (Mp [10] (MDict [(100, 1)])). split; [split; [cbn; intros i [<-|[]]; lia|cbn; repeat constructor; cbn; tauto]|repeat split]. Qed.
Lemma collect_bad : exists c, valid c /\ forall f, collect f c = Err.
Proof. exists (Mp [10; 20; 30] (MSeq [3; 1])). split; [split; [cbn; intros i [<-|[<-|[]]]; lia|cbn; repeat constructor; cbn; lia]|reflexivity]. Qed.
Lemma keys_values_bad : exists c l k v, valid c /\ keys_and_values_do c = Ok l /\ In (k, v) (entries c) /\ ~ In (k, v) l.
Proof.
  exists (Mp [10; 20] (MSeq [2; 2])), [(2, 20); (2, 20)], 1, 20. split; [split; [cbn; intros i [<-|[<-|[]]]; lia|cbn; repeat constructor; cbn; lia]|].
  split; [reflexivity|]. split; [left; reflexivity|]. intros [H|[H|[]]]; discriminate.
Qed.
