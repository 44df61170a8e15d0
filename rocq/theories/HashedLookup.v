(** LookupTable simulates the generic table; histories. *)
From Verif Require Import Base Hashed HashedSpec HashedClient HashedProofs HashedOps.
Open Scope nat_scope.

Section Sim.
  Context {K V : Type} (keq : K -> K -> bool) (h : K -> Z) (vnil : V).
  Notation kid := (fun k : K => k).

  Fixpoint zip (ks : list (option K)) (vs : list V) : list (option (K * V)) :=
    match ks, vs with
    | k :: ks, v :: vs => option_map (fun k => (k, v)) k :: zip ks vs
    | _, _ => []
    end.

  Lemma zip_length ks vs : length ks = length vs -> length (zip ks vs) = length ks.
  Proof. revert vs. induction ks as [|k ks IH]; intros [|v vs] L; cbn in *; try lia. f_equal. apply IH. lia. Qed.

  Lemma nth_zip ks vs p : length ks = length vs ->
    nth p (zip ks vs) None = option_map (fun k => (k, nth p vs vnil)) (nth p ks None).
  Proof.
    revert vs p. induction ks as [|k ks IH]; intros [|v vs] p L; cbn [length zip] in *; try lia.
    - destruct p; reflexivity.
    - destruct p as [|p]; [reflexivity|]. cbn [nth]. apply IH. lia.
  Qed.

  Lemma nth_error_zip ks vs p : length ks = length vs ->
    nth_error (zip ks vs) p = option_map (option_map (fun k => (k, nth p vs vnil))) (nth_error ks p).
  Proof.
    revert vs p. induction ks as [|k ks IH]; intros [|v vs] p L; cbn [length zip] in *; try lia.
    - destruct p; reflexivity.
    - destruct p as [|p]; [reflexivity|]. cbn [nth nth_error]. apply IH. lia.
  Qed.

  Lemma zip_ext ks vs ks' vs' : length ks = length vs -> length ks' = length vs' -> length ks = length ks' ->
    (forall p, p < length ks -> option_map (fun k => (k, nth p vs vnil)) (nth p ks None) =
      option_map (fun k => (k, nth p vs' vnil)) (nth p ks' None)) -> zip ks vs = zip ks' vs'.
  Proof.
    intros L L' LL H. apply (list_ext None); [rewrite !zip_length; assumption|]. intros p P.
    rewrite zip_length in P by assumption. rewrite !nth_zip by assumption. apply H. assumption.
  Qed.

  Lemma replace_zip i k v ks vs : length ks = length vs -> i < length ks ->
    replace i (Some (k, v)) (zip ks vs) = zip (replace i (Some k) ks) (replace i v vs).
  Proof.
    intros L I. apply (list_ext None); [rewrite replace_length, !zip_length; rewrite ?replace_length; auto|]. intros p P.
    rewrite nth_zip by (rewrite !replace_length; assumption). rewrite !nth_replace by (rewrite ?zip_length; lia).
    rewrite nth_zip by assumption. destruct (Nat.eqb p i); reflexivity.
  Qed.

  Lemma replace_none_zip i ks vs : length ks = length vs -> i < length ks ->
    replace i None (zip ks vs) = zip (replace i None ks) vs.
  Proof.
    intros L I. apply (list_ext None); [rewrite replace_length, !zip_length; rewrite ?replace_length; auto|]. intros p P.
    rewrite nth_zip by (rewrite !replace_length; assumption). rewrite !nth_replace by (rewrite ?zip_length; lia).
    rewrite nth_zip by assumption. destruct (Nat.eqb p i); reflexivity.
  Qed.

  Lemma find_index_zip fuel ks vs k i : length ks = length vs ->
    find_index fst keq fuel (zip ks vs) k i = find_index kid keq fuel ks k i.
  Proof.
    intros L. revert i. induction fuel as [|fuel IH]; intros i; [reflexivity|]. cbn [find_index].
    rewrite nth_error_zip by assumption. destruct (nth_error ks i) as [[k'|]|]; cbn [option_map fst]; try reflexivity.
    rewrite zip_length by assumption. destruct (keq k' k); auto.
  Qed.

  Lemma find_nil_zip fuel ks vs i : length ks = length vs ->
    find_nil fuel (zip ks vs) i = find_nil fuel ks i.
  Proof.
    intros L. revert i. induction fuel as [|fuel IH]; intros i; [reflexivity|]. cbn [find_nil].
    rewrite nth_error_zip by assumption. destruct (nth_error ks i) as [[k'|]|]; cbn [option_map]; try reflexivity.
    rewrite zip_length by assumption. auto.
  Qed.

  Lemma find_zip ks vs k : length ks = length vs -> lt_find keq h ks k = find fst keq h (zip ks vs) k.
  Proof. intros L. unfold lt_find, find. rewrite zip_length, find_index_zip by assumption. reflexivity. Qed.

  Lemma find_element_zip ks vs k : length ks = length vs -> lt_find_element h ks k = find_element h (zip ks vs) k.
  Proof. intros L. unfold lt_find_element, find_element. rewrite zip_length, find_nil_zip by assumption. reflexivity. Qed.

  Lemma find_nil_bound {A} fuel (t : list (option A)) i j : i < length t -> find_nil fuel t i = Ok j -> j < length t.
  Proof.
    revert i. induction fuel as [|fuel IH]; intros i I; [discriminate|]. cbn [find_nil].
    rewrite nth_error_nth_slot by assumption. destruct (nth i t None).
    - apply IH. apply next_lt. assumption.
    - intros H. injection H as <-. assumption.
  Qed.
  Lemma find_nil_bound' {A} fuel (t : list (option A)) i j : find_nil fuel t i = Ok j -> j < length t.
  Proof.
    destruct (Nat.lt_ge_cases i (length t)) as [L|L]; [apply find_nil_bound; assumption|].
    destruct fuel; [discriminate|]. cbn [find_nil]. destruct (nth_error t i) eqn:E; [|discriminate].
    assert (i < length t) by (apply nth_error_Some; congruence). lia.
  Qed.
  Lemma find_index_bound {A B} (key : A -> B) eqb fuel (t : list (option A)) k i j :
    find_index key eqb fuel t k i = Ok j -> j < length t.
  Proof.
    revert i. induction fuel as [|fuel IH]; intros i; [discriminate|]. cbn [find_index].
    destruct (nth_error t i) as [[e|]|] eqn:E; [| |discriminate];
      (assert (i < length t) by (apply nth_error_Some; congruence)).
    - destruct (eqb (key e) k); [|apply IH]. intros Q. injection Q as <-. assumption.
    - intros Q. injection Q as <-. assumption.
  Qed.

  Definition sim (l : ltab) (c : @coll (K * V)) : Prop :=
    length (lkeys l) = length (lvals l) /\ zip (lkeys l) (lvals l) = slots c /\ ltally l = tally c.

  Lemma repeat_zip n : zip (repeat None n) (repeat vnil n) = repeat None n.
  Proof. induction n as [|n IH]; [reflexivity|]. cbn. f_equal. assumption. Qed.

  Lemma sim_new n : sim (lt_new vnil n) (new n).
  Proof.
    unfold sim, lt_new, new. cbn [lkeys lvals ltally slots tally]. rewrite !repeat_length.
    split; [reflexivity|]. split; [apply repeat_zip|reflexivity].
  Qed.

  Lemma sim_while_growing k v l c c' : sim l c -> add_while_growing fst h (k, v) c = Ok c' ->
    exists l', while_growing_at_put h k v l = Ok l' /\ sim l' c'.
  Proof.
    intros (L & Z & T). unfold add_while_growing, while_growing_at_put. cbn [fst].
    rewrite (find_element_zip _ (lvals l)) by assumption. rewrite <- Z.
    destruct (find_element h (zip (lkeys l) (lvals l)) k) as [i| | | |] eqn:F; try discriminate. cbn [obind].
    apply find_nil_bound' in F. rewrite zip_length in F by assumption.
    intros H. injection H as <-. eexists; split; [reflexivity|]. unfold sim. cbn [lkeys lvals ltally slots tally].
    rewrite !replace_length. split; [assumption|]. split; [symmetry; apply replace_zip; assumption|]. rewrite T. reflexivity.
  Qed.

  Lemma sim_copy ks : forall vs l c c', length ks = length vs -> sim l c -> copy_all_from fst h (zip ks vs) c = Ok c' ->
    exists l', lt_copy_all_from h ks vs l = Ok l' /\ sim l' c'.
  Proof.
    induction ks as [|k ks IH]; intros [|v vs] l c c' L S; cbn [length] in L; try lia.
    - cbn. intros H. injection H as <-. eauto.
    - cbn [zip copy_all_from]. destruct k as [k|]; cbn [option_map lt_copy_all_from].
      + destruct (add_while_growing fst h (k, v) c) as [c1| | | |] eqn:A; try discriminate. cbn [obind].
        destruct (sim_while_growing k v l c c1 S A) as (l1 & L1 & S1). rewrite L1. cbn [obind]. apply IH; [lia|assumption].
      + apply IH; [lia|assumption].
  Qed.

  Lemma sim_increment l c r : sim l c -> increment_tally fst h c = Ok r ->
    exists l', lt_increment_tally h vnil l = Ok (l', snd r) /\ sim l' (fst r).
  Proof.
    intros S. pose proof S as (L & Z & T). unfold increment_tally, lt_increment_tally. rewrite T, <- Z, zip_length by assumption.
    destruct (_ <=? _)%Z.
    - unfold grow_by. rewrite <- Z, zip_length by assumption.
      destruct (copy_all_from _ _ _ _) as [c1| | | |] eqn:C; try discriminate. cbn [obind].
      destruct (sim_copy (lkeys l) (lvals l) _ _ _ L (sim_new _) C) as (l1 & L1 & (S1 & S2 & S3)). rewrite L1. cbn [obind].
      intros H. injection H as <-. eexists; split; [reflexivity|]. unfold sim. cbn. rewrite S3. auto.
    - cbn [obind]. intros H. injection H as <-. eexists; split; [reflexivity|]. unfold sim. cbn. rewrite T. auto.
  Qed.

  Lemma sim_put k v l c c' : sim l c -> put fst keq h h (fun e => (fst e, v)) (k, v) c = Ok c' ->
    exists l', lt_at_put keq h h vnil k v l = Ok l' /\ sim l' c'.
  Proof.
    intros S. pose proof S as (L & Z & T). unfold put, lt_at_put. cbn [fst]. rewrite (find_zip _ (lvals l)), Z by assumption.
    destruct (find fst keq h (slots c) k) as [i| | | |] eqn:F; try discriminate. cbn [obind].
    apply find_index_bound in F. rewrite <- Z, zip_length in F by assumption.
    rewrite <- Z at 1. rewrite nth_zip by assumption.
    destruct (nth i (lkeys l) None) as [k0|] eqn:N; cbn [option_map].
    - intros H. injection H as <-. eexists; split; [reflexivity|]. unfold sim. cbn [lkeys lvals ltally slots tally fst].
      rewrite replace_length. split; [assumption|]. split; [|assumption]. rewrite <- Z, replace_zip by assumption.
      apply zip_ext; rewrite ?replace_length; auto. intros p P. rewrite !nth_replace by lia.
      destruct (Nat.eqb_spec p i) as [->|]; [rewrite N|]; reflexivity.
    - destruct (increment_tally fst h c) as [[c1 g]| | | |] eqn:I; try discriminate. cbn [obind].
      destruct (sim_increment l c _ S I) as (l1 & L1 & S1). cbn [fst snd] in *. rewrite L1. cbn [obind].
      destruct S1 as (S1 & S2 & S3). rewrite (find_zip _ (lvals l1)), S2 by assumption.
      destruct (if g then find fst keq h (slots c1) k else Ok i) as [j| | | |] eqn:J; try discriminate. cbn [obind].
      intros H. injection H as <-. eexists; split; [reflexivity|]. unfold sim. cbn [lkeys lvals ltally slots tally].
      rewrite !replace_length. split; [assumption|]. split; [|assumption].
      rewrite <- S2. symmetry. apply replace_zip; [assumption|].
      destruct g; [apply find_index_bound in J; rewrite <- S2, zip_length in J; assumption|].
      injection J as <-. revert I. unfold increment_tally. destruct (_ <=? _)%Z eqn:G.
      + destruct (grow_by fst h _ c); cbn; discriminate.
      + cbn [obind]. intros H. injection H as <-. cbn [slots] in S2.
        rewrite <- Z in S2. apply (f_equal (@length _)) in S2. rewrite !zip_length in S2 by assumption. lia.
  Qed.

  Lemma sim_at k l c r : sim l c -> get fst keq h k c = Ok r -> lt_at keq h vnil k l = Ok (option_map snd r).
  Proof.
    intros (L & Z & T). unfold get, lt_at. rewrite (find_zip _ (lvals l)), Z by assumption.
    destruct (find fst keq h (slots c) k) as [i| | | |]; try discriminate. cbn [obind]. intros H. injection H as <-.
    rewrite <- Z, nth_zip by assumption. destruct (nth i (lkeys l) None); reflexivity.
  Qed.

  Lemma sim_rehash_after fuel : forall ks vs i t', length ks = length vs ->
    rehash_after fst h fuel (zip ks vs) i = Ok t' ->
    exists ks' vs', lt_rehash_after h vnil fuel ks vs i = Ok (ks', vs') /\ length ks' = length vs' /\ zip ks' vs' = t'.
  Proof.
    induction fuel as [|fuel IH]; intros ks vs i t' L; [discriminate|]. cbn [rehash_after lt_rehash_after].
    rewrite zip_length by assumption. set (i' := next (length ks) i). clearbody i'. rewrite nth_error_zip by assumption.
    destruct (nth_error ks i') as [[k|]|] eqn:N; cbn [option_map]; try discriminate.
    - assert (I : i' < length ks) by (apply nth_error_Some; congruence).
      rewrite replace_none_zip by assumption. cbn [fst].
      rewrite <- find_element_zip by (rewrite replace_length; assumption).
      destruct (lt_find_element h (replace i' None ks) k) as [j| | | |] eqn:F; try discriminate. cbn [obind].
      apply find_nil_bound' in F. rewrite replace_length in F.
      rewrite replace_zip by (rewrite replace_length; assumption).
      set (vs2 := if Nat.eqb j i' then vs else replace i' vnil (replace j (nth i' vs vnil) vs)).
      assert (L2 : length vs2 = length vs) by (unfold vs2; destruct (Nat.eqb j i'); rewrite ?replace_length; reflexivity).
      replace (zip (replace j (Some k) (replace i' None ks)) (replace j (nth i' vs vnil) vs))
        with (zip (replace j (Some k) (replace i' None ks)) vs2).
      { apply IH. rewrite !replace_length. lia. }
      apply zip_ext; rewrite ?replace_length; try lia. intros p P.
      rewrite (nth_replace j p (Some k)) by (rewrite replace_length; assumption).
      rewrite (nth_replace j p (nth i' vs vnil)) by lia. rewrite nth_replace by assumption.
      unfold vs2. destruct (Nat.eqb_spec j i') as [->|NJ].
      + destruct (Nat.eqb_spec p i') as [->|]; reflexivity.
      + rewrite nth_replace by (rewrite replace_length; lia). rewrite nth_replace by lia.
        destruct (Nat.eqb_spec p j) as [->|].
        * destruct (Nat.eqb_spec j i'); [congruence|reflexivity].
        * destruct (Nat.eqb_spec p i'); reflexivity.
    - intros H. injection H as <-. eauto.
  Qed.

  Lemma sim_remove k l c r : sim l c -> remove fst keq h h k c = Ok r ->
    exists l', lt_remove_key keq h h vnil k l = Ok (l', option_map snd (snd r)) /\ sim l' (fst r).
  Proof.
    intros S. pose proof S as (L & Z & T). unfold remove, lt_remove_key. rewrite (find_zip _ (lvals l)), Z by assumption.
    destruct (find fst keq h (slots c) k) as [i| | | |] eqn:F; try discriminate. cbn [obind].
    apply find_index_bound in F. rewrite <- Z in F |- *. rewrite zip_length in F by assumption. rewrite nth_zip by assumption.
    destruct (nth i (lkeys l) None) as [k0|] eqn:N; cbn [option_map].
    - rewrite !replace_length, zip_length, replace_none_zip by assumption.
      assert (ZE : zip (replace i None (lkeys l)) (lvals l) = zip (replace i None (lkeys l)) (replace i vnil (lvals l))).
      { apply zip_ext; rewrite ?replace_length; auto. intros p P. rewrite !nth_replace by lia.
        destruct (Nat.eqb p i); reflexivity. }
      rewrite ZE. destruct (rehash_after _ _ _ _ _) as [t'| | | |] eqn:R; try discriminate. cbn [obind].
      apply sim_rehash_after in R; [|rewrite !replace_length; assumption]. destruct R as (ks' & vs' & R & L' & Z').
      rewrite R. cbn [obind]. intros H. injection H as <-. eexists; split; [reflexivity|].
      unfold sim. cbn. rewrite T. auto.
    - intros H. injection H as <-. exists l. split; [reflexivity|]. assumption.
  Qed.

  Lemma sim_rehash l c c' : sim l c -> rehash fst h c = Ok c' -> exists l', lt_rehash h vnil l = Ok l' /\ sim l' c'.
  Proof.
    intros S. pose proof S as (L & Z & T). unfold rehash, lt_rehash. rewrite <- Z, zip_length by assumption. intros H.
    apply (sim_copy _ _ (LTab (repeat None (length (lkeys l))) (repeat vnil (length (lkeys l))) 0%Z)) in H; [assumption|assumption|].
    unfold sim. cbn [lkeys lvals ltally slots tally]. rewrite !repeat_length, repeat_zip. auto.
  Qed.

  Lemma sim_pairs l c : sim l c -> lt_pairs l = elements (slots c).
  Proof.
    intros (L & Z & _). rewrite <- Z. unfold lt_pairs. clear Z. revert L. generalize (lvals l) as vs.
    induction (lkeys l) as [|k ks IH]; intros [|v vs] L; cbn [length] in L; try lia; [reflexivity|].
    cbn [combine flat_map zip]. rewrite IH by lia. rewrite elements_cons. destruct k; reflexivity.
  Qed.

  (** ** Histories *)
  Hypothesis GH : good_hash keq h.

  Lemma dict_send_ok c m (msg : message K V) : rep fst keq h c m -> exists c' a, dict_send keq h h c msg = Ok (c', a) /\
    rep fst keq h c' (fst (map_step keq m msg)) /\ agree a (snd (map_step keq m msg)).
  Proof.
    intros R. destruct msg as [k v|k|k| | |]; cbn [dict_send map_step fst snd].
    - destruct (put_ok fst keq h GH (fun e => (fst e, v)) (k, v) c m ltac:(reflexivity) R) as (c' & C1 & C2).
      rewrite C1. cbn [obind]. eexists _, _. split; [reflexivity|]. split; [assumption|reflexivity].
    - rewrite (get_ok fst keq h GH k c m R). cbn [obind]. eexists _, _. split; [reflexivity|]. split; [assumption|reflexivity].
    - destruct (remove_ok fst keq h GH k c m R) as (c' & C1 & C2). rewrite C1. cbn [obind].
      eexists _, _. split; [reflexivity|]. split; [assumption|reflexivity].
    - eexists _, _. split; [reflexivity|]. split; [assumption|]. destruct R as (_ & T & _). cbn. rewrite T. reflexivity.
    - eexists _, _. split; [reflexivity|]. split; [assumption|]. apply R.
    - destruct (rehash_ok fst keq h GH c m R) as (c' & C1 & C2). rewrite C1. cbn [obind].
      eexists _, _. split; [reflexivity|]. split; [assumption|reflexivity].
  Qed.

  Lemma dict_run_ok (msgs : list (message K V)) : forall c m, rep fst keq h c m -> exists l, dict_run keq h h c msgs = Ok l /\
    Forall2 agree l (map_run keq m msgs).
  Proof.
    induction msgs as [|msg msgs IH]; intros c m R.
    - exists []. split; [reflexivity|constructor].
    - destruct (dict_send_ok c m msg R) as (c' & a & C1 & C2 & C3). cbn [dict_run map_run]. rewrite C1. cbn [obind].
      destruct (map_step keq m msg) as [m' b]. cbn [fst snd] in *.
      destruct (IH c' m' C2) as (l & L1 & L2). rewrite L1. cbn [obind]. eexists; split; [reflexivity|]. constructor; assumption.
  Qed.

  Lemma lt_send_ok l c (msg : message K V) r : sim l c -> dict_send keq h h c msg = Ok r -> exists l',
    lt_send keq h h vnil l msg = Ok (l', snd r) /\ sim l' (fst r).
  Proof.
    intros S. destruct msg as [k v|k|k| | |]; cbn [dict_send lt_send].
    - destruct (put _ _ _ _ _ _ _) as [c1| | | |] eqn:P; try discriminate. cbn [obind]. intros H. injection H as <-.
      destruct (sim_put k v l c c1 S P) as (l1 & L1 & S1). rewrite L1. cbn. eauto.
    - destruct (get _ _ _ _ _) as [e| | | |] eqn:P; try discriminate. cbn [obind]. intros H. injection H as <-.
      rewrite (sim_at k l c e S P). cbn. eauto.
    - destruct (remove _ _ _ _ _ _) as [[c1 e]| | | |] eqn:P; try discriminate. cbn [obind]. intros H. injection H as <-.
      destruct (sim_remove k l c _ S P) as (l1 & L1 & S1). rewrite L1. cbn. eauto.
    - intros H. injection H as <-. exists l. destruct S as (S1 & S2 & S3). cbn. rewrite S3. split; [reflexivity|].
      split; [assumption|]. auto.
    - intros H. injection H as <-. exists l. rewrite (sim_pairs l c S). cbn. auto.
    - destruct (rehash _ _ _) as [c1| | | |] eqn:P; try discriminate. cbn [obind]. intros H. injection H as <-.
      destruct (sim_rehash l c c1 S P) as (l1 & L1 & S1). rewrite L1. cbn. eauto.
  Qed.

  Lemma lt_run_ok (msgs : list (message K V)) : forall l c m, sim l c -> rep fst keq h c m -> exists r, lt_run keq h h vnil l msgs = Ok r /\
    Forall2 agree r (map_run keq m msgs).
  Proof.
    induction msgs as [|msg msgs IH]; intros l c m S R.
    - exists []. split; [reflexivity|constructor].
    - destruct (dict_send_ok c m msg R) as (c' & a & C1 & C2 & C3). cbn [lt_run map_run].
      destruct (lt_send_ok l c msg _ S C1) as (l' & L1 & S1). cbn [fst snd] in *. rewrite L1. cbn [obind].
      destruct (map_step keq m msg) as [m' b]. cbn [fst snd] in *.
      destruct (IH l' c' m' S1 C2) as (r & R1 & R2). rewrite R1. cbn [obind]. eexists; split; [reflexivity|]. constructor; assumption.
  Qed.
End Sim.

Lemma lookup_table_ok {K V} (keq : K -> K -> bool) (h : K -> Z) (vnil : V) n msgs : good_hash keq h ->
  exists l, lt_run keq h h vnil (lt_new vnil n) msgs = Ok l /\ Forall2 agree l (map_run keq [] msgs).
Proof.
  intros G. apply (lt_run_ok keq h vnil G msgs _ (new n) []); [apply sim_new|apply new_rep].
Qed.

Lemma dictionary_ok {K V} (keq : K -> K -> bool) (h : K -> Z) n (msgs : list (message K V)) : good_hash keq h ->
  exists l, dict_run keq h h (new n) msgs = Ok l /\ Forall2 agree l (map_run keq [] msgs).
Proof. intros G. apply dict_run_ok; [assumption|apply new_rep]. Qed.
