(** Proofs about the C dictionaries. *)
From Verif Require Import Base Hashed HashedSpec HashedProofs HashedOps CDict CDictSpec CDictClient.
Local Open Scope Z_scope.

(** ** Sizes *)
Lemma all_ones x : 0 < x -> (forall i, 0 <= i <= Z.log2 x -> Z.testbit x i = true) -> x = Z.ones (Z.log2 x + 1).
Proof.
  intros P H. apply Z.bits_inj'. intros i I. pose proof (Z.log2_nonneg x). destruct (Z.le_gt_cases i (Z.log2 x)) as [L|L].
  - rewrite H by lia. symmetry. apply Z.ones_spec_low. lia.
  - rewrite Z.bits_above_log2 by lia. symmetry. apply Z.ones_spec_high. lia.
Qed.

Lemma smear_ok fuel : forall n x, 0 < x -> 0 < n -> Z.log2 x < n * 2 ^ Z.of_nat fuel ->
  (forall i, 0 <= i -> Z.log2 x - n < i <= Z.log2 x -> Z.testbit x i = true) ->
  smear fuel n x = Ok (2 ^ (Z.log2 x + 1)).
Proof.
  induction fuel as [|fuel IH]; intros n x X N L B.
  - cbn [smear]. change (2 ^ Z.of_nat 0) with 1 in L.
    assert (E : x = Z.ones (Z.log2 x + 1)) by (apply all_ones; [assumption|]; intros i I; apply B; lia).
    rewrite Z.ones_equiv in E. pose proof (Z.log2_nonneg x).
    replace (x + 1) with (2 ^ (Z.log2 x + 1)) by lia.
    replace x with (2 ^ (Z.log2 x + 1) - 1) at 1 by lia.
    rewrite Z.land_comm, (Z.sub_1_r (2 ^ _)), <- Z.ones_equiv, Z.land_ones by lia.
    rewrite Z.mod_same by lia. reflexivity.
  - cbn [smear]. destruct (Z.land x (x + 1) =? 0) eqn:E.
    + apply Z.eqb_eq in E. rewrite Z.land_comm in E. replace (Z.land (x + 1) x) with (Z.land (x + 1) (x + 1 - 1)) in E by (f_equal; lia).
      apply land_pred in E as (k & K & E); [|lia]. rewrite E. f_equal. f_equal.
      destruct (Z.eq_dec k 0) as [->|K0]; [lia|].
      replace x with (2 ^ k - 1) by lia. rewrite Z.sub_1_r, Z.log2_pred_pow2 by lia. lia.
    + assert (LG : Z.log2 (Z.lor x (Z.shiftr x n)) = Z.log2 x).
      { assert (Z.shiftr x n <= x) by (rewrite Z.shiftr_div_pow2 by lia; apply Z.div_le_upper_bound; [lia|]; nia).
        assert (0 <= Z.shiftr x n) by (apply Z.shiftr_nonneg; lia).
        rewrite Z.log2_lor by lia. pose proof (Z.log2_le_mono _ _ H). lia. }
      rewrite IH.
      * rewrite LG. reflexivity.
      * assert (0 <= Z.lor x (Z.shiftr x n)) by (apply Z.lor_nonneg; split; [lia|apply Z.shiftr_nonneg; lia]).
        destruct (Z.eq_dec (Z.lor x (Z.shiftr x n)) 0) as [Q|]; [apply Z.lor_eq_0_iff in Q; lia|lia].
      * lia.
      * rewrite LG. rewrite Nat2Z.inj_succ, Z.pow_succ_r in L by lia. lia.
      * rewrite LG. intros i I J. rewrite Z.lor_spec, Z.shiftr_spec by lia.
        destruct (Z.le_gt_cases i (Z.log2 x - n)) as [C|C]; [|rewrite (B i) by lia; reflexivity].
        rewrite (B (i + n)) by lia. apply orb_true_r.
Qed.

Lemma new_num_fields_ok x : 0 < x < 2 ^ 63 -> new_num_fields x = Ok (2 ^ (Z.log2 x + 1)).
Proof.
  intros [P U]. unfold new_num_fields. destruct (Z.land x (x - 1) =? 0) eqn:E.
  - apply Z.eqb_eq in E. apply land_pred in E as (k & K & ->); [|assumption]. rewrite Z.log2_pow2, Z.pow_add_r by lia. reflexivity.
  - apply smear_ok; try lia.
    + apply Z.log2_lt_pow2 in U; [|assumption]. change (Z.of_nat 64) with 64. lia.
    + intros i I J. replace i with (Z.log2 x) by lia. apply Z.bit_log2. assumption.
Qed.

Lemma new_num_fields_pow2 k : 0 <= k -> new_num_fields (2 ^ k) = Ok (2 ^ (k + 1)).
Proof.
  intros K. unfold new_num_fields. rewrite Z.sub_1_r, <- Z.ones_equiv, Z.land_ones, Z.mod_same by lia.
  rewrite Z.pow_add_r by lia. reflexivity.
Qed.

(** ** Probing *)
Lemma mask_mod n k x : Z.of_nat n = 2 ^ k -> 0 <= k -> Z.land x (Z.of_nat n - 1) = x mod Z.of_nat n.
Proof.
  intros -> K. rewrite Z.sub_1_r, <- Z.ones_equiv, Z.land_ones by assumption. reflexivity.
Qed.

(** Running through all slots: abort() instead of an endless loop. *)
Definition dead {A} (x : outcome A) : outcome A := match x with OutOfFuel => Abort | Err => UB | _ => x end.

Lemma probe_find_index {E} (key : E -> Z) count (t : list (option E)) k : pow2 (length t) ->
  forall i z, (i < length t)%nat -> z mod Z.of_nat (length t) = Z.of_nat i ->
  probe key count t k z = dead (find_index key Z.eqb count t k i).
Proof.
  intros (p & P & P3). induction count as [|count IH]; intros i z L Z0; [reflexivity|].
  cbn [probe find_index]. rewrite (mask_mod _ p) by lia. rewrite Z0, Nat2Z.id.
  rewrite (nth_error_nth_slot t i L). destruct (nth i t None) as [e|]; [|reflexivity].
  destruct (key e =? k); [reflexivity|]. unfold next. destruct (Nat.eqb_spec (S i) (length t)) as [Q|Q].
  - apply IH; [lia|]. replace (Z.of_nat i + 1) with (1 * Z.of_nat (length t)) by lia. rewrite Z.mod_mul by lia. reflexivity.
  - apply IH; [lia|]. rewrite Z.mod_small by lia. lia.
Qed.

Section Generic.
  Context {E : Type} (key : E -> Z) (idx : Z -> Z).
  Lemma keys_good : good_hash Z.eqb idx.
  Proof. split; [|split; [|split]]; intros; try lia. f_equal. lia. Qed.
  Notation good := (good key Z.eqb idx).

  Lemma probe_ok (t : list (option E)) m k : good t m -> (length m < length t)%nat ->
    exists q, probe key (length t) t k (scramble (idx k)) = Ok q /\ (q < length t)%nat /\
      nth q t None = lookup key Z.eqb k m /\
      (lookup key Z.eqb k m = None -> forall p, (p < length t)%nat ->
        (cdist (length t) (home (idx k) (length t)) p < cdist (length t) (home (idx k) (length t)) q)%nat -> nth p t None <> None).
  Proof.
    intros G L. destruct (find_ok key Z.eqb idx keys_good t m k G L) as (q & Q1 & Q2 & Q3 & Q4).
    exists q. split; [|auto]. pose proof (g_pow _ _ _ _ _ G) as P. pose proof (home_lt (idx k) _ P) as HL.
    rewrite (probe_find_index key (length t) t k P (home (idx k) (length t)) _ HL).
    - unfold find in Q1. rewrite Q1. reflexivity.
    - destruct P as (p & P & P3). unfold home. rewrite (mask_mod _ p) by lia. rewrite Z2Nat.id; [reflexivity|].
      apply Z.mod_pos_bound. lia.
  Qed.

  (** Storing an element with a new key. *)
  Lemma probe_store (t : list (option E)) m e : good t m -> (length m < length t)%nat ->
    lookup key Z.eqb (key e) m = None ->
    exists q, probe key (length t) t (key e) (scramble (idx (key e))) = Ok q /\ nth q t None = None /\
      good (replace q (Some e) t) (e :: m).
  Proof.
    intros G L N. destruct (probe_ok t m (key e) G L) as (q & Q1 & Q2 & Q3 & Q4).
    exists q. split; [assumption|]. rewrite N in Q3. split; [assumption|].
    apply good_store; try assumption; [apply keys_good| |auto]. intros x I. rewrite lookup_none in N. apply N, I.
  Qed.

  (** Changing an element but not its key. *)
  Lemma good_update (t : list (option E)) m q a b : good t m -> (q < length t)%nat -> nth q t None = Some a -> key b = key a ->
    good (replace q (Some b) t) (map (fun x => if key x =? key a then b else x) m).
  Proof.
    intros [P1 P2 P3 P4] Q N K.
    assert (S1 : forall p, nth p (replace q (Some b) t) None = if Nat.eqb p q then Some b else nth p t None)
      by (intros; apply nth_replace; assumption).
    set (f := fun x => if key x =? key a then b else x).
    assert (FK : forall x, key (f x) = key x) by (intros x; unfold f; destruct (Z.eqb_spec (key x) (key a)); congruence).
    assert (IA : apart key Z.eqb (elements t)) by (eapply apart_perm; [apply keys_good|symmetry; eassumption|assumption]).
    assert (M : replace q (Some b) t = map (option_map f) t).
    { apply (list_ext None).
      - rewrite replace_length, map_length. reflexivity.
      - intros i I. rewrite replace_length in I. rewrite S1. change None with (option_map f None) at 2. rewrite map_nth.
        destruct (Nat.eqb_spec i q) as [->|NE].
        + rewrite N. cbn. unfold f. rewrite Z.eqb_refl. reflexivity.
        + destruct (nth i t None) as [x|] eqn:X; [|reflexivity]. cbn. unfold f. destruct (Z.eqb_spec (key x) (key a)) as [KX|]; [|reflexivity].
          exfalso. apply NE. eapply (apart_slots key Z.eqb idx keys_good t IA i q x a); try assumption. lia. }
    split.
    - rewrite replace_length. assumption.
    - rewrite M. rewrite (elements_map f). apply Permutation_map. assumption.
    - clear - P3 FK. unfold apart in *. induction P3 as [|x l F A IH]; cbn [map]; constructor; [|assumption].
      apply Forall_map. revert F. apply Forall_impl. intros y. rewrite !FK. auto.
    - rewrite M. intros p x z. rewrite map_length. intros Pl Px Zl C.
      change None with (option_map f None) in Px at 1. rewrite map_nth in Px.
      change None with (option_map f None) at 1. rewrite map_nth.
      destruct (nth p t None) as [y|] eqn:Y; [|discriminate]. injection Px as <-. rewrite FK in C.
      pose proof (P4 p y z Pl Y Zl C). destruct (nth z t None); [discriminate|congruence].
  Qed.

  Lemma lookup_update m a b k : key b = key a ->
    lookup key Z.eqb k (map (fun x => if key x =? key a then b else x) m) =
    match lookup key Z.eqb k m with
    | Some x => Some (if key x =? key a then b else x)
    | None => None
    end.
  Proof.
    intros K. unfold lookup. induction m as [|x m IH]; [reflexivity|]. cbn [map List.find].
    destruct (Z.eqb_spec (key x) (key a)) as [Q|Q].
    - replace (key b) with (key x) by congruence. destruct (Z.eqb_spec (key x) k); [|assumption].
      destruct (Z.eqb_spec (key x) (key a)); congruence.
    - destruct (Z.eqb_spec (key x) k); [|assumption]. destruct (Z.eqb_spec (key x) (key a)); congruence.
  Qed.
End Generic.

(** ** Dictionaries of Associations *)
Section Assoc.
  Variable idx : Z -> Z.
  Notation good := (good akey Z.eqb idx).
  Notation lookup := (lookup akey Z.eqb).

  Lemma grow_loop_ok src : forall t m, good t m -> (length (elements src) + length m < length t)%nat ->
    apart akey Z.eqb (elements src ++ m) ->
    exists t', grow_loop idx src t = Ok t' /\ good t' (elements src ++ m) /\ length t' = length t.
  Proof.
    induction src as [|s src IH]; intros t m G L A.
    - exists t. auto.
    - rewrite elements_cons in *. destruct s as [e|]; cbn [grow_loop]; [|apply IH; assumption].
      cbn [length app] in *.
      assert (NE : lookup (akey e) m = None).
      { apply lookup_none. intros x I. inversion_clear A as [|? ? F _]. rewrite Forall_forall in F.
        rewrite Z.eqb_sym. apply F. apply in_or_app. right. assumption. }
      destruct (probe_store akey idx t m e G ltac:(lia) NE) as (q & Q1 & Q2 & Q3).
      unfold find_key_or_nil. rewrite Q1. cbn [obind].
      assert (PM : Permutation (elements src ++ e :: m) (e :: elements src ++ m)) by (symmetry; apply Permutation_middle).
      destruct (IH _ (e :: m) Q3) as (t' & D1 & D2 & D3).
      + rewrite replace_length. cbn [length]. lia.
      + eapply apart_perm; [apply (keys_good idx)|symmetry; exact PM|assumption].
      + exists t'. split; [assumption|]. split; [eapply good_perm; [apply (keys_good idx)|eassumption|exact PM]|].
        rewrite replace_length in D3. lia.
  Qed.

  (** The representation invariant: a size for which the threshold of _gst_dictionary_add leaves a free slot. *)
  Definition drep (d : dict) (m : list assoc) : Prop :=
    good (dslots d) m /\ dtally d = Z.of_nat (length m) /\ (length m < length (dslots d))%nat /\
    9 + 3 * Z.of_nat (length (dothers d)) < Z.of_nat (length (dslots d)).

  Lemma grow_dictionary_ok d m : drep d m -> exists d', grow_dictionary idx d = Ok d' /\ drep d' m /\
    dothers d' = dothers d /\ (S (length m) < length (dslots d'))%nat.
  Proof.
    intros (G & T & L & S). unfold grow_dictionary. pose proof (g_pow _ _ _ _ _ G) as (k & K & K3).
    rewrite K, new_num_fields_pow2 by lia. cbn [obind].
    assert (PN : pow2 (Z.to_nat (2 ^ (k + 1)))).
    { exists (k + 1). split; [|lia]. rewrite Z2Nat.id; [reflexivity|]. apply Z.pow_nonneg. lia. }
    assert (E2 : Z.of_nat (Z.to_nat (2 ^ (k + 1))) = 2 * Z.of_nat (length (dslots d))).
    { rewrite K, Z2Nat.id, Z.pow_add_r by (try apply Z.pow_nonneg; lia). lia. }
    pose proof (g_perm _ _ _ _ _ G) as PM.
    destruct (grow_loop_ok (dslots d) (repeat None (Z.to_nat (2 ^ (k + 1)))) []) as (t & T1 & T2 & T3).
    - apply empty_good; assumption.
    - rewrite repeat_length, (Permutation_length PM). cbn [length]. lia.
    - rewrite app_nil_r. eapply apart_perm; [apply (keys_good idx)|symmetry; exact PM|apply G].
    - rewrite T1. cbn [obind]. rewrite app_nil_r in T2. rewrite repeat_length in T3.
      eexists. split; [reflexivity|]. cbn [dothers dslots dtally].
      split; [|split; [reflexivity|lia]]. split; [eapply good_perm; [apply (keys_good idx)|eassumption|exact PM]|].
      cbn [dslots dothers dtally]. split; [assumption|]. lia.
  Qed.

  Definition as_map (m : list assoc) (k : Z) : option (Z * Z) := option_map (fun a => (aid a, aval a)) (lookup k m).

  Lemma dict_add_ok id k v d m : drep d m ->
    exists d' m' r, dict_add idx (Assoc id k v) d = Ok (d', r) /\ drep d' m' /\ dothers d' = dothers d /\
      r = match as_map m k with Some (i, _) => i | None => id end /\
      forall k', as_map m' k' = upd (as_map m) k (r, v) k'.
  Proof.
    intros R. unfold dict_add.
    assert (exists d1, (if dict_size d * 3 / 4 <=? dtally d then grow_dictionary idx d else Ok d) = Ok d1 /\
      drep d1 m /\ dothers d1 = dothers d /\ (S (length m) < length (dslots d1))%nat) as (d1 & D1 & R1 & O1 & L1).
    { destruct (Z.leb_spec (dict_size d * 3 / 4) (dtally d)) as [C|C].
      - apply grow_dictionary_ok. assumption.
      - exists d. repeat (split; [reflexivity || assumption|]). destruct R as (G & T & L & S). unfold dict_size in C. lia. }
    rewrite D1. cbn [obind]. pose proof R1 as (G & T & L & S).
    destruct (probe_ok akey idx (dslots d1) m k G L) as (q & Q1 & Q2 & Q3 & Q4).
    unfold find_key_or_nil. cbn [akey]. rewrite Q1. cbn [obind]. rewrite Q3.
    unfold as_map. destruct (lookup k m) as [b|] eqn:LK; cbn [option_map].
    - pose proof (lookup_some _ _ _ _ _ LK) as [_ KB]. apply Z.eqb_eq in KB.
      eexists _, (map (fun x => if akey x =? akey b then Assoc (aid b) (akey b) v else x) m), _. split; [reflexivity|].
      split; [|split; [exact O1|split; [reflexivity|]]].
      + split; [apply good_update; [exact G|exact Q2|congruence|reflexivity]|]. cbn [dtally dslots dothers aval].
        rewrite map_length, replace_length. auto.
      + intros k'. rewrite lookup_update by reflexivity. unfold upd. destruct (Z.eqb_spec k' k) as [->|NE].
        * rewrite LK, Z.eqb_refl. reflexivity.
        * destruct (lookup k' m) as [x|] eqn:LX; [|reflexivity]. apply lookup_some in LX as [_ LX].
          destruct (Z.eqb_spec (akey x) (akey b)); [lia|reflexivity].
    - eexists _, (Assoc id k v :: m), _. split; [reflexivity|].
      split; [|split; [exact O1|split; [reflexivity|]]].
      + split; [|cbn [dtally dslots dothers length]; rewrite replace_length; lia]. cbn [dslots].
        apply good_store; [apply (keys_good idx)|exact G|exact Q2|exact Q3| |].
        * intros x I. rewrite lookup_none in LK. apply LK, I.
        * apply Q4. reflexivity.
      + intros k'. unfold upd, HashedSpec.lookup. cbn [List.find akey]. rewrite Z.eqb_sym. destruct (k' =? k); reflexivity.
  Qed.

  Lemma association_at_ok k d m : drep d m -> association_at idx k d = Ok (lookup k m).
  Proof.
    intros (G & T & L & S). destruct (probe_ok akey idx (dslots d) m k G L) as (q & Q1 & Q2 & Q3 & Q4).
    unfold association_at. rewrite Q1. cbn [obind]. rewrite Q3. reflexivity.
  Qed.

  Lemma drun_ext msgs : forall m m', (forall k, m k = m' k) -> drun m msgs = drun m' msgs.
  Proof.
    induction msgs as [|[id k v|k] msgs IH]; intros m m' X; [reflexivity| |]; cbn [drun]; rewrite X; f_equal.
    - apply IH. intros k'. unfold upd. rewrite X. reflexivity.
    - apply IH, X.
  Qed.

  Lemma dict_run_ok msgs : forall d m, drep d m ->
    exists d', dict_run idx d msgs = Ok (d', drun (as_map m) msgs) /\ dothers d' = dothers d.
  Proof.
    induction msgs as [|[id k v|k] msgs IH]; intros d m R.
    - exists d. split; reflexivity.
    - destruct (dict_add_ok id k v d m R) as (d1 & m1 & r & A1 & A2 & A3 & A4 & A6).
      destruct (IH d1 m1 A2) as (d' & I1 & I2).
      exists d'. cbn [dict_run drun]. rewrite A1. cbn [obind]. rewrite I1. cbn [obind].
      split; [|congruence]. rewrite <- A4. rewrite (drun_ext msgs _ _ A6). reflexivity.
    - destruct (IH d m R) as (d' & I1 & I2).
      exists d'. cbn [dict_run drun]. rewrite (association_at_ok k d m R). cbn [obind]. rewrite I1. cbn [obind].
      split; [|assumption]. reflexivity.
  Qed.

  (** Sizes for which creation leaves room: the table has more than 9 + 3 * (other variables) slots. *)
  Lemma dict_new_ok others size : 4 <= size < 2 ^ 63 -> 9 + 3 * Z.of_nat (length others) < 2 ^ (Z.log2 size + 1) ->
    exists d, dict_new others size = Ok d /\ drep d [] /\ dothers d = others.
  Proof.
    intros S B. unfold dict_new. rewrite new_num_fields_ok by lia. cbn [obind]. eexists. split; [reflexivity|].
    assert (LG : 2 <= Z.log2 size) by (apply (Z.log2_le_pow2); lia).
    split; [|reflexivity]. split; cbn [dslots dtally dothers length].
    - apply empty_good. exists (Z.log2 size + 1). split; [|lia]. rewrite Z2Nat.id; [reflexivity|]. lia.
    - rewrite repeat_length. lia.
  Qed.

  Lemma dict_history_ok others size msgs : 4 <= size < 2 ^ 63 ->
    9 + 3 * Z.of_nat (length others) < 2 ^ (Z.log2 size + 1) ->
    exists d, dict_history idx others size msgs = Ok (d, drun (fun _ => None) msgs) /\ dothers d = others.
  Proof.
    intros S B. destruct (dict_new_ok others size S B) as (d & D1 & D2 & D3). unfold dict_history. rewrite D1. cbn [obind].
    destruct (dict_run_ok msgs d [] D2) as (d' & E1 & E2). exists d'. rewrite E1, E2. split; [reflexivity|assumption].
  Qed.
End Assoc.
