(** Proofs about identity dictionaries handled from C. *)
From Verif Require Import Base Hashed HashedSpec HashedProofs HashedOps CDict CDictSpec CDictClient CDictProofs.
Local Open Scope Z_scope.

Section Ident.
  Variable idx : Z -> Z.
  Variable nil : Z.
  Notation good := (good (@fst Z Z) Z.eqb idx).
  Notation lookup := (lookup (@fst Z Z) Z.eqb).

  (** Words as pairs. *)
  Fixpoint pairs (w : list Z) : list (option (Z * Z)) :=
    match w with
    | k :: v :: w => (if k =? nil then None else Some (k, v)) :: pairs w
    | _ => []
    end.
  Definition word (w : list Z) (i : nat) : Z := nth i w nil.

  Lemma pairs_ind (P : list Z -> Prop) : P [] -> (forall a, P [a]) -> (forall a b w, P w -> P (a :: b :: w)) -> forall w, P w.
  Proof.
    intros P0 P1 P2 w. enough (P w /\ forall a, P (a :: w)) by tauto. induction w as [|b w [I1 I2]]; split; auto.
  Qed.

  Lemma pairs_length w n : length w = (2 * n)%nat -> length (pairs w) = n.
  Proof.
    revert n. induction w as [|a|a b w IH] using pairs_ind; intros n H; cbn [length pairs] in *; [lia|lia|].
    rewrite (IH (n - 1)%nat) by lia. lia.
  Qed.

  Lemma pairs_nth w : forall n i, length w = (2 * n)%nat -> (i < n)%nat ->
    nth i (pairs w) None = if word w (2 * i) =? nil then None else Some (word w (2 * i), word w (2 * i + 1)).
  Proof.
    induction w as [|a|a b w IH] using pairs_ind; intros n i H I; cbn [length] in H; [lia|lia|].
    cbn [pairs]. destruct i as [|i]; [reflexivity|]. cbn [nth].
    rewrite (IH (n - 1)%nat i) by lia. unfold word. replace (2 * S i)%nat with (S (S (2 * i))) by lia. cbn [nth].
    replace (S (S (2 * i)) + 1)%nat with (S (S (2 * i + 1))) by lia. reflexivity.
  Qed.

  Lemma pairs_repeat n : pairs (repeat nil (2 * n)) = repeat None n.
  Proof.
    induction n as [|n IH]; [reflexivity|]. replace (2 * S n)%nat with (S (S (2 * n))) by lia. cbn [repeat pairs].
    rewrite Z.eqb_refl, IH. reflexivity.
  Qed.

  Lemma pairs_store w : forall n q k v, length w = (2 * n)%nat -> (q < n)%nat -> k <> nil ->
    pairs (istore (2 * q + 1) k v w) = replace q (Some (k, v)) (pairs w).
  Proof.
    unfold istore. induction w as [|a|a b w IH] using pairs_ind; intros n q k v H I NK; cbn [length] in H; [lia|lia|].
    destruct q as [|q].
    - cbn. destruct (Z.eqb_spec k nil); [contradiction|reflexivity].
    - replace (2 * S q + 1)%nat with (S (S (2 * q + 1))) by lia.
      replace (S (S (2 * q + 1)) - 1)%nat with (S (S (2 * q + 1 - 1))) by lia. cbn [replace pairs].
      rewrite (IH (n - 1)%nat) by lia. reflexivity.
  Qed.

  Lemma istore_length i k v w : length (istore i k v w) = length w.
  Proof. unfold istore. rewrite !replace_length. reflexivity. Qed.

  (** ** Probing *)
  Definition lift (x : outcome nat) : outcome nat := olet q := x in Ok (2 * q + 1)%nat.

  Lemma iprobe_probe count w n k : length w = (2 * n)%nat -> pow2 n -> forall y,
    iprobe nil count w k (y * 2) = lift (probe fst count (pairs w) k y).
  Proof.
    intros W (p & P & P3). induction count as [|count IH]; intros y; [reflexivity|]. cbn [iprobe probe].
    rewrite (pairs_length w n W).
    assert (P2 : Z.of_nat (2 * n) = 2 ^ (p + 1)) by (rewrite Z.pow_add_r by lia; lia).
    rewrite W, (mask_mod (2 * n) (p + 1)), (mask_mod n p) by lia.
    replace ((y * 2) mod Z.of_nat (2 * n)) with ((y mod Z.of_nat n) * 2).
    2:{ replace (Z.of_nat (2 * n)) with (Z.of_nat n * 2) by lia. symmetry. apply Z.mul_mod_distr_r; lia. }
    pose proof (Z.mod_pos_bound y (Z.of_nat n) ltac:(lia)) as B. set (r := y mod Z.of_nat n) in *. clearbody r.
    rewrite (nth_error_nth' w nil) by lia. rewrite (nth_error_nth_slot (pairs w)) by (rewrite (pairs_length w n W); lia).
    rewrite (pairs_nth w n) by lia. replace (2 * Z.to_nat r)%nat with (Z.to_nat (r * 2)) by lia. fold (word w (Z.to_nat (r * 2))).
    destruct (Z.eqb_spec (word w (Z.to_nat (r * 2))) nil) as [Q|Q].
    - cbn. f_equal. lia.
    - cbn [fst]. destruct (_ =? k); [cbn; f_equal; lia|]. replace (r * 2 + 2) with ((r + 1) * 2) by lia. apply IH.
  Qed.

  (** Slots without a key hold no value either. *)
  Definition clean (w : list Z) (n : nat) : Prop := forall i, (i < n)%nat -> word w (2 * i) = nil -> word w (2 * i + 1) = nil.
  Definition ok (w : list Z) (m : list (Z * Z)) : Prop :=
    exists n, length w = (2 * n)%nat /\ good (pairs w) m /\ clean w n.

  Lemma ifind_ok w m k : ok w m -> (2 * length m < length w)%nat ->
    exists q, ifind idx nil w k = Ok (2 * q + 1)%nat /\ (2 * q + 1 < length w)%nat /\
      nth q (pairs w) None = lookup k m /\
      (k <> nil -> lookup k m = None -> forall v, ok (istore (2 * q + 1) k v w) ((k, v) :: m)).
  Proof.
    intros (n & W & G & C) L. pose proof (pairs_length w n W) as PL. pose proof (g_pow _ _ _ _ _ G) as PW.
    destruct (probe_ok fst idx (pairs w) m k G ltac:(lia)) as (q & Q1 & Q2 & Q3 & Q4).
    exists q. split; [|split; [lia|split; [assumption|]]].
    - unfold ifind. rewrite (iprobe_probe _ w n) by congruence. rewrite W, Nat.mul_comm, Nat.div_mul by lia.
      rewrite <- PL at 1. rewrite Q1. reflexivity.
    - intros NK LK v. exists n. rewrite istore_length. split; [assumption|].
      assert (QN : (q < n)%nat) by lia. split.
      + rewrite (pairs_store w n) by assumption. apply good_store; [apply (keys_good idx)|assumption|assumption|congruence| |].
        * intros x I. rewrite lookup_none in LK. apply LK, I.
        * auto.
      + intros i I. unfold word, istore. rewrite !nth_replace by (rewrite ?replace_length; lia).
        destruct (Nat.eqb_spec (2 * i) (2 * q + 1)); [lia|]. destruct (Nat.eqb_spec (2 * i) (2 * q + 1 - 1)); [congruence|].
        destruct (Nat.eqb_spec (2 * i + 1) (2 * q + 1)); [lia|]. destruct (Nat.eqb_spec (2 * i + 1) (2 * q + 1 - 1)); [lia|].
        apply C, I.
  Qed.

  (** Storing over an existing key. *)
  Lemma overwrite_ok w m k q v v0 : ok w m -> (2 * q + 1 < length w)%nat -> nth q (pairs w) None = Some (k, v0) ->
    ok (istore (2 * q + 1) k v w) (map (fun x => if fst x =? k then (k, v) else x) m).
  Proof.
    intros (n & W & G & C) L N. exists n. rewrite istore_length. split; [assumption|].
    pose proof (pairs_length w n W) as PL. assert (QN : (q < n)%nat) by lia.
    assert (NK : k <> nil).
    { rewrite (pairs_nth w n) in N by lia. destruct (Z.eqb_spec (word w (2 * q)) nil); congruence. }
    split.
    - rewrite (pairs_store w n) by assumption. change k with (fst (k, v0)) at 2. apply good_update; try assumption; [lia|reflexivity].
    - intros i I. unfold word, istore. rewrite !nth_replace by (rewrite ?replace_length; lia).
      destruct (Nat.eqb_spec (2 * i) (2 * q + 1)); [lia|]. destruct (Nat.eqb_spec (2 * i) (2 * q + 1 - 1)); [congruence|].
      destruct (Nat.eqb_spec (2 * i + 1) (2 * q + 1)); [lia|]. destruct (Nat.eqb_spec (2 * i + 1) (2 * q + 1 - 1)); [lia|].
      apply C, I.
  Qed.

  (** ** Growing *)
  Lemma igrow_loop_ok src : forall w m, ok w m -> (2 * (length (elements (pairs src)) + length m) < length w)%nat ->
    apart fst Z.eqb (elements (pairs src) ++ m) ->
    exists w', igrow_loop idx nil src w = Ok w' /\ ok w' (elements (pairs src) ++ m) /\ length w' = length w.
  Proof.
    induction src as [|a|k v src IH] using pairs_ind; intros w m O L A; [exists w; auto|exists w; auto|].
    cbn [igrow_loop pairs] in *. destruct (Z.eqb_spec k nil) as [NK|NK]; [apply IH; assumption|].
    rewrite elements_cons in *. cbn [length app] in *.
    assert (NE : lookup k m = None).
    { apply lookup_none. intros x I. inversion_clear A as [|? ? F _]. rewrite Forall_forall in F.
      rewrite Z.eqb_sym. apply (F x). apply in_or_app. right. assumption. }
    destruct (ifind_ok w m k O ltac:(lia)) as (q & Q1 & Q2 & Q3 & Q4). rewrite Q1. cbn [obind].
    specialize (Q4 NK NE v).
    assert (PM : Permutation (elements (pairs src) ++ (k, v) :: m) ((k, v) :: elements (pairs src) ++ m)) by (symmetry; apply Permutation_middle).
    destruct (IH _ _ Q4) as (w' & D1 & D2 & D3).
    - rewrite istore_length. cbn [length]. lia.
    - eapply apart_perm; [apply (keys_good idx)|symmetry; exact PM|assumption].
    - exists w'. split; [assumption|]. rewrite istore_length in D3. split; [|assumption].
      destruct D2 as (n & N1 & N2 & N3). exists n. split; [assumption|]. split; [|assumption].
      eapply good_perm; [apply (keys_good idx)|eassumption|exact PM].
  Qed.

  (** [k0] is the logarithm of the number of pairs at creation. *)
  Definition irep (k0 : Z) (d : idict) (m : list (Z * Z)) : Prop :=
    ok (iwords d) m /\ (2 * length m < length (iwords d))%nat /\
    9 + 3 * Z.of_nat (length (iothers d)) < Z.of_nat (length (iwords d)) /\
    itally d = Z.of_nat (length m) + (Z.log2 (Z.of_nat (length (iwords d))) - 1 - k0) /\
    k0 <= Z.log2 (Z.of_nat (length (iwords d))) - 1.

  Lemma ok_pow w m : ok w m -> exists k, Z.of_nat (length w) = 2 ^ (k + 1) /\ 3 <= k /\ length (pairs w) = Z.to_nat (2 ^ k).
  Proof.
    intros (n & W & G & C). pose proof (g_pow _ _ _ _ _ G) as (k & K & K3). rewrite (pairs_length w n W) in *.
    exists k. rewrite Z.pow_add_r by lia. split; [lia|]. split; [assumption|lia].
  Qed.

  Lemma ok_perm w m : ok w m -> Permutation (elements (pairs w)) m.
  Proof. intros (n & _ & G & _). apply G. Qed.

  Lemma igrow_ok k0 d m : irep k0 d m ->
    exists d', grow_identity_dictionary idx nil d = Ok d' /\ irep k0 d' m /\
      (2 * S (length m) < length (iwords d'))%nat.
  Proof.
    intros (O & L & S & T & KL). unfold grow_identity_dictionary. destruct (ok_pow _ _ O) as (k & K & K3 & PL).
    replace (Z.of_nat (length (iwords d)) / 2) with (2 ^ k) by (rewrite K, Z.pow_add_r by lia; lia).
    rewrite new_num_fields_pow2 by lia. cbn [obind].
    replace (Z.to_nat (2 ^ (k + 1) * 2)) with (2 * length (iwords d))%nat by lia.
    assert (NL : Z.of_nat (2 * length (iwords d)) = 2 ^ (k + 1 + 1)) by (rewrite (Z.pow_add_r 2 (k + 1)) by lia; lia).
    pose proof (ok_perm _ _ O) as PM.
    assert (OA : apart fst Z.eqb m) by (destruct O as (? & _ & G & _); apply G).
    destruct (igrow_loop_ok (iwords d) (repeat nil (2 * length (iwords d))) []) as (w & W1 & W2 & W3).
    - exists (length (iwords d)). rewrite repeat_length. split; [reflexivity|]. split.
      + rewrite pairs_repeat. apply empty_good. exists (k + 1). split; [assumption|lia].
      + intros i I _. unfold word. apply nth_repeat.
    - rewrite repeat_length, (Permutation_length PM). cbn [length]. lia.
    - rewrite app_nil_r. eapply apart_perm; [apply (keys_good idx)|symmetry; exact PM|assumption].
    - rewrite W1. cbn [obind]. eexists. split; [reflexivity|]. cbn [iwords iothers itally]. rewrite repeat_length in W3.
      rewrite app_nil_r in W2. split; [|cbn [iwords]; lia]. split; cbn [iwords iothers itally].
      { destruct W2 as (n & N1 & N2 & N3). exists n. split; [assumption|]. split; [|assumption].
        eapply good_perm; [apply (keys_good idx)|eassumption|exact PM]. }
      split; [lia|]. rewrite map_length, W3, NL. rewrite T. rewrite K, !Z.log2_pow2 in * by lia. lia.
  Qed.

  Definition imap (m : list (Z * Z)) (k : Z) : option Z := option_map snd (lookup k m).

  Lemma ok_value w m q k : ok w m -> (2 * q + 1 < length w)%nat -> nth q (pairs w) None = lookup k m ->
    nth_error w (2 * q + 1) = Some (val nil (imap m) k) /\
    exists x, nth_error w (2 * q + 1 - 1) = Some x /\ (x =? nil) = match lookup k m with Some _ => false | None => true end.
  Proof.
    intros (n & W & G & C) L N. rewrite !(nth_error_nth' w nil) by lia. unfold val, imap. rewrite <- N.
    rewrite (pairs_nth w n) by lia. replace (2 * q + 1 - 1)%nat with (2 * q)%nat by lia.
    fold (word w (2 * q + 1)) (word w (2 * q)). specialize (C q ltac:(lia)).
    destruct (Z.eqb_spec (word w (2 * q)) nil) as [Q|Q].
    - split; [rewrite C by assumption; reflexivity|]. eexists; split; [reflexivity|]. apply Z.eqb_eq. assumption.
    - split; [reflexivity|]. eexists; split; [reflexivity|]. apply Z.eqb_neq. assumption.
  Qed.

  Lemma at_put_ok k0 k v d m : k <> nil -> irep k0 d m ->
    exists d' m', idict_at_put idx nil k v d = Ok (d', val nil (imap m) k) /\ irep k0 d' m' /\
      length m' = (length m + match lookup k m with Some _ => 0 | None => 1 end)%nat /\
      (forall k', imap m' k' = upd (imap m) k v k') /\
      (itally d < idict_size d * 3 / 8 -> length (iwords d') = length (iwords d) /\ iothers d' = iothers d).
  Proof.
    intros NK R. unfold idict_at_put.
    assert (exists d1, (if idict_size d * 3 / 8 <=? itally d then grow_identity_dictionary idx nil d else Ok d) = Ok d1 /\
      irep k0 d1 m /\ (2 * S (length m) < length (iwords d1))%nat /\
      (itally d < idict_size d * 3 / 8 -> d1 = d)) as (d1 & D1 & R1 & L1 & ND).
    { destruct (Z.leb_spec (idict_size d * 3 / 8) (itally d)) as [C|C].
      - destruct (igrow_ok k0 d m R) as (d1 & A1 & A2 & A3). exists d1. repeat (split; [assumption|]). lia.
      - exists d. split; [reflexivity|]. split; [assumption|]. split; [|reflexivity].
        destruct R as (O & L & S & T & KL). unfold idict_size in C. lia. }
    rewrite D1. cbn [obind]. pose proof R1 as (O & L & S & T & KL).
    destruct (ifind_ok (iwords d1) m k O L) as (q & Q1 & Q2 & Q3 & Q4). rewrite Q1. cbn [obind].
    destruct (ok_value _ _ _ _ O Q2 Q3) as (V1 & x & V2 & V3). rewrite V1, V2.
    set (r := val nil (imap m) k). clearbody r.
    destruct (lookup k m) as [[kb b]|] eqn:LK; rewrite V3.
    - pose proof (lookup_some _ _ _ _ _ LK) as [_ KB]. apply Z.eqb_eq in KB. cbn [fst] in KB. subst kb.
      eexists _, (map (fun x => if fst x =? k then (k, v) else x) m). split; [reflexivity|]. split; [|split; [|split]].
      + split; [eapply overwrite_ok; eassumption|]. cbn [iwords iothers itally]. rewrite istore_length, map_length. auto.
      + rewrite map_length. lia.
      + intros k'. unfold imap. change k with (fst (k, b)) at 1. rewrite (lookup_update fst m (k, b) (k, v)) by reflexivity.
        unfold upd. cbn [fst]. destruct (Z.eqb_spec k' k) as [->|NE].
        * rewrite LK. cbn [fst]. rewrite Z.eqb_refl. reflexivity.
        * destruct (lookup k' m) as [y|] eqn:LX; [|reflexivity]. apply lookup_some in LX as [_ LX].
          destruct (Z.eqb_spec (fst y) k); [lia|reflexivity].
      + intros H. cbn [iwords iothers]. rewrite istore_length, (ND H). auto.
    - eexists _, ((k, v) :: m). split; [reflexivity|]. split; [|split; [|split]].
      + split; [apply Q4; [assumption|reflexivity]|]. cbn [iwords iothers itally length]. rewrite istore_length. lia.
      + cbn [length]. lia.
      + intros k'. unfold imap, upd, HashedSpec.lookup. cbn [List.find fst]. rewrite Z.eqb_sym. destruct (k' =? k); reflexivity.
      + intros H. cbn [iwords iothers]. rewrite istore_length, (ND H). auto.
  Qed.

  Lemma at_ok k0 k d m : irep k0 d m -> idict_at idx nil k d = Ok (val nil (imap m) k).
  Proof.
    intros (O & L & S & T & KL). destruct (ifind_ok (iwords d) m k O L) as (q & Q1 & Q2 & Q3 & Q4).
    unfold idict_at. rewrite Q1. cbn [obind]. destruct (ok_value _ _ _ _ O Q2 Q3) as (V1 & _). rewrite V1. reflexivity.
  Qed.

  Lemma irun_ext msgs : forall m m', (forall k, m k = m' k) -> irun nil m msgs = irun nil m' msgs.
  Proof.
    induction msgs as [|[k v|k] msgs IH]; intros m m' X; [reflexivity| |]; cbn [irun];
      replace (val nil m' k) with (val nil m k) by (unfold val; rewrite X; reflexivity); f_equal.
    - apply IH. intros k'. unfold upd. rewrite X. reflexivity.
    - apply IH, X.
  Qed.

  Lemma idict_run_ok k0 msgs : forall d m, Forall (proper nil) msgs -> irep k0 d m ->
    exists d' m', idict_run idx nil d msgs = Ok (d', irun nil (imap m) msgs) /\ irep k0 d' m' /\
      (forall k, (exists x, lookup k m' = Some x) <-> (exists x, lookup k m = Some x) \/ exists v, In (IPut k v) msgs).
  Proof.
    induction msgs as [|[k v|k] msgs IH]; intros d m F R; [|inversion_clear F as [|? ? NK F']..].
    - exists d, m. split; [reflexivity|]. split; [assumption|]. intros k. split; [auto|]. intros [H|(v & [])]. assumption.
    - cbn [proper] in NK. destruct (at_put_ok k0 k v d m NK R) as (d1 & m1 & A1 & A2 & A3 & A4 & _).
      destruct (IH d1 m1 F' A2) as (d' & m' & I1 & I2 & I3).
      exists d', m'. cbn [idict_run irun]. rewrite A1. cbn [obind]. rewrite I1. cbn [obind].
      split; [rewrite (irun_ext msgs _ _ A4); reflexivity|]. split; [assumption|]. intros k'. rewrite I3.
      assert (X : (exists x, lookup k' m1 = Some x) <-> (exists x, lookup k' m = Some x) \/ k' = k).
      { specialize (A4 k'). unfold imap, upd in A4. destruct (Z.eqb_spec k' k) as [Q|NE].
        - subst k'. split; [auto|]. intros _. destruct (lookup k m1); [eauto|discriminate].
        - destruct (lookup k' m1), (lookup k' m); try discriminate; split; intros H; eauto; (destruct H as [[? ?]|?] || destruct H as [? ?]); try discriminate; contradiction. }
      rewrite X. cbn [In]. split.
      + intros [[H| ->]|(v' & H)]; eauto.
      + intros [H|(v' & [H|H])]; [auto|injection H as <- <-; auto|eauto].
    - destruct (IH d m F' R) as (d' & m' & I1 & I2 & I3).
      exists d', m'. cbn [idict_run irun]. rewrite (at_ok k0 k d m R). cbn [obind]. rewrite I1. cbn [obind].
      split; [reflexivity|]. split; [assumption|]. intros k'. rewrite I3. cbn [In]. split.
      + intros [H|(v' & H)]; eauto.
      + intros [H|(v' & [H|H])]; [auto|discriminate|eauto].
  Qed.

  Lemma idict_new_ok nothers size : 4 <= size < 2 ^ 63 -> 9 + 3 * Z.of_nat nothers < 2 ^ (Z.log2 size + 2) ->
    exists d, idict_new nil nothers size = Ok d /\ irep (Z.log2 size + 1) d [].
  Proof.
    intros S B. unfold idict_new. rewrite new_num_fields_ok by lia. cbn [obind]. eexists. split; [reflexivity|].
    assert (LG : 2 <= Z.log2 size) by (apply (Z.log2_le_pow2); lia).
    set (k := Z.log2 size + 1) in *. assert (P0 : 0 < 2 ^ k) by (apply Z.pow_pos_nonneg; lia).
    replace (Z.log2 size + 2) with (k + 1) in B by lia. rewrite Z.pow_add_r in B by lia.
    replace (Z.to_nat (2 ^ k * 2)) with (2 * Z.to_nat (2 ^ k))%nat by lia.
    split; cbn [iwords iothers itally length].
    - exists (Z.to_nat (2 ^ k)). rewrite repeat_length. split; [reflexivity|]. split.
      + rewrite pairs_repeat. apply empty_good. exists k. split; [apply Z2Nat.id; lia|lia].
      + intros i I _. unfold word. apply nth_repeat.
    - rewrite !repeat_length. replace (Z.of_nat (2 * Z.to_nat (2 ^ k))) with (2 ^ (k + 1)) by (rewrite Z.pow_add_r by lia; lia).
      rewrite Z.log2_pow2 by lia. rewrite Z.pow_add_r by lia. lia.
  Qed.

  (** The keys of [m] are those stored. *)
  Lemma ikeys_length m msgs : apart fst Z.eqb m ->
    (forall k, (exists x, lookup k m = Some x) <-> exists v, In (IPut k v) msgs) -> length m = length (ikeys msgs).
  Proof.
    intros A H. unfold ikeys. rewrite <- (map_length fst m). apply Permutation_length. apply NoDup_Permutation.
    - clear H. induction A as [|x l F A IH]; cbn [map]; constructor; [|assumption]. intros I.
      apply in_map_iff in I as (y & E & I). rewrite Forall_forall in F. specialize (F y I). lia.
    - apply NoDup_nodup.
    - intros k. rewrite nodup_In, in_flat_map, in_map_iff. split.
      + intros (x & E & I). assert (exists y, lookup k m = Some y) as (y & Y).
        { exists x. apply (apart_in fst Z.eqb idx (keys_good idx) m A); [assumption|]. apply Z.eqb_eq. assumption. }
        destruct (proj1 (H k) (ex_intro _ y Y)) as (v & IN). exists (IPut k v). cbn. auto.
      + intros ([k' v|k'] & I & IN); cbn in IN; [|contradiction]. destruct IN as [->|[]].
        destruct (proj2 (H k) (ex_intro _ v I)) as (x & X). apply lookup_some in X as [I2 X]. exists x. split; [lia|assumption].
  Qed.

  Lemma idict_history_ok nothers size msgs : 4 <= size < 2 ^ 63 ->
    9 + 3 * Z.of_nat nothers < 2 ^ (Z.log2 size + 2) -> Forall (proper nil) msgs ->
    exists d, idict_history idx nil nothers size msgs = Ok (d, irun nil (fun _ => None) msgs) /\
      itally d = Z.of_nat (length (ikeys msgs)) + (Z.log2 (Z.of_nat (length (iwords d))) - (Z.log2 size + 2)).
  Proof.
    intros S B F. destruct (idict_new_ok nothers size S B) as (d & D1 & D2). unfold idict_history. rewrite D1. cbn [obind].
    destruct (idict_run_ok _ msgs d [] F D2) as (d' & m' & E1 & E2 & E3). exists d'. rewrite E1. split; [reflexivity|].
    destruct E2 as (O & _ & _ & T & _). rewrite T. rewrite (ikeys_length m' msgs); [lia| |].
    - destruct O as (? & _ & G & _). apply G.
    - intros k. rewrite E3. split; [|auto]. intros [(x & H)|H]; [discriminate|assumption].
  Qed.
End Ident.

(** ** Consequences *)
Lemma tally_wrong : exists idx nil nothers size msgs, 4 <= size < 2 ^ 63 /\
  9 + 3 * Z.of_nat nothers < 2 ^ (Z.log2 size + 2) /\ Forall (proper nil) msgs /\
  exists d l, idict_history idx nil nothers size msgs = Ok (d, l) /\ itally d <> Z.of_nat (length (ikeys msgs)).
Proof.
  exists (fun x => x), 0, 0%nat, 6, (map (fun k => IPut k (k * 10)) [1; 2; 3; 4; 5; 6; 7; 8]).
  split; [lia|]. split; [reflexivity|]. split; [repeat constructor; cbn; lia|].
  eexists _, _. split; [vm_compute; reflexivity|]. vm_compute. discriminate.
Qed.

Lemma small_idict_aborts : exists idx nil size msgs, 0 < size /\ Forall (proper nil) msgs /\
  idict_history idx nil 0 size msgs = Abort.
Proof.
  exists (fun x => x), 0, 2, (map (fun k => IPut k (k * 10)) [1; 2; 3; 4] ++ [IAt 5]).
  split; [lia|]. split; [repeat constructor; cbn; lia|]. vm_compute. reflexivity.
Qed.

Lemma small_dict_aborts : exists idx size msgs, 0 < size /\ dict_history idx [] size msgs = Abort.
Proof.
  exists (fun x => x), 4, (map (fun k => DAdd (100 + k) k (k * 10)) [1; 2; 3; 4; 5; 6; 7; 8] ++ [DAt 9]).
  split; [lia|]. vm_compute. reflexivity.
Qed.

Lemma mutex_lost : exists idx nil msgs d l mutex k v d' r,
  idict_history idx nil 1 32 msgs = Ok (d, l) /\ Forall (proper nil) msgs /\ k <> nil /\ mutex <> nil /\
  idict_at_put idx nil k v (IDict [mutex] (iwords d) (itally d)) = Ok (d', r) /\ iothers d' = [nil].
Proof.
  exists (fun x => x), 0, (map (fun k => IPut (Z.of_nat k) 1) (seq 1 49)). eexists _, _. exists 777, 50, 1. eexists _, _.
  split; [vm_compute; reflexivity|]. split.
  { apply Forall_forall. intros x I. apply in_map_iff in I as (k & <- & I). apply in_seq in I. cbn. lia. }
  split; [lia|]. split; [lia|]. split; [vm_compute; reflexivity|]. reflexivity.
Qed.

Lemma others_kept idx nil nothers size msgs d l others k v : 4 <= size < 2 ^ 63 ->
  9 + 3 * Z.of_nat nothers < 2 ^ (Z.log2 size + 2) -> Forall (proper nil) msgs -> k <> nil ->
  idict_history idx nil nothers size msgs = Ok (d, l) -> length others = length (iothers d) ->
  itally d < idict_size d * 3 / 8 ->
  exists d' r, idict_at_put idx nil k v (IDict others (iwords d) (itally d)) = Ok (d', r) /\ iothers d' = others.
Proof.
  intros S B F NK H LO T. destruct (idict_new_ok idx nil nothers size S B) as (d0 & D1 & D2).
  unfold idict_history in H. rewrite D1 in H. cbn [obind] in H.
  destruct (idict_run_ok idx nil _ msgs d0 [] F D2) as (d1 & m & E1 & E2 & _). rewrite H in E1. injection E1 as <- _.
  destruct (at_put_ok idx nil (Z.log2 size + 1) k v (IDict others (iwords d) (itally d)) m NK) as (d' & m' & A1 & _ & _ & _ & A5).
  - unfold irep in *. cbn [iwords iothers itally]. rewrite LO. assumption.
  - eexists d', _. split; [exact A1|]. apply A5. unfold idict_size in *. cbn [iwords iothers itally]. rewrite LO. assumption.
Qed.

(** As long as there are few keys the table does not grow. *)
Lemma no_growth idx nil k0 msgs : forall d m c, Forall (proper nil) msgs -> irep idx nil k0 d m ->
  itally d = Z.of_nat (length m) -> length (iwords d) = c ->
  exists d' m', idict_run idx nil d msgs = Ok (d', irun nil (imap m) msgs) /\ irep idx nil k0 d' m' /\
    (Z.of_nat (length m') < idict_size d * 3 / 8 -> length (iwords d') = c) /\ (length m <= length m')%nat.
Proof.
  induction msgs as [|[k v|k] msgs IH]; intros d m c F R T C; [|inversion_clear F as [|? ? NK F']..].
  - exists d, m. split; [reflexivity|]. split; [assumption|]. split; [auto|lia].
  - cbn [proper] in NK. destruct (at_put_ok idx nil k0 k v d m NK R) as (d1 & m1 & A1 & A2 & A3 & A4 & A5).
    destruct (Z.lt_ge_cases (itally d) (idict_size d * 3 / 8)) as [LT|GE].
    + destruct (A5 LT) as [L1 O1].
      destruct (IH d1 m1 c F' A2) as (d' & m' & I1 & I2 & I3 & I4); [|congruence|].
      { destruct R as (_ & _ & _ & T1 & K1), A2 as (_ & _ & _ & T2 & _). rewrite T2, L1. lia. }
      exists d', m'. cbn [idict_run irun]. rewrite A1. cbn [obind]. rewrite I1. cbn [obind].
      split; [rewrite (irun_ext nil msgs _ _ A4); reflexivity|]. split; [assumption|]. split; [|lia].
      unfold idict_size in *. rewrite L1, O1 in I3. assumption.
    + destruct (idict_run_ok idx nil k0 msgs d1 m1 F' A2) as (d' & m' & I1 & I2 & I3).
      assert (LM : (length m <= length m')%nat).
      { assert (AM : apart fst Z.eqb m) by (destruct R as ((? & _ & G & _) & _); apply G).
        assert (KM : forall x, In x m -> In (fst x) (map fst m')).
        { intros x I. assert (X : lookup fst Z.eqb (fst x) m = Some x) by (apply (apart_in fst Z.eqb idx (keys_good idx) m AM); [assumption|apply Z.eqb_refl]).
          destruct (proj2 (I3 (fst x))) as (y & Y); [|apply lookup_some in Y as [Y1 Y2]; apply in_map_iff; exists y; split; [lia|assumption]].
          left. specialize (A4 (fst x)). unfold imap, upd in A4. rewrite X in A4. destruct (lookup fst Z.eqb (fst x) m1); [eauto|].
          destruct (_ =? _); discriminate. }
        rewrite <- (map_length fst m), <- (map_length fst m'). apply NoDup_incl_length.
        - clear - AM. induction AM as [|x l F A IH]; cbn [map]; constructor; [|assumption]. intros I.
          apply in_map_iff in I as (y & E & I). rewrite Forall_forall in F. specialize (F y I). cbv beta in F. lia.
        - intros z I. apply in_map_iff in I as (x & <- & I). auto. }
      exists d', m'. cbn [idict_run irun]. rewrite A1. cbn [obind]. rewrite I1. cbn [obind].
      split; [rewrite (irun_ext nil msgs _ _ A4); reflexivity|]. split; [assumption|]. split; [|assumption]. intros H. lia.
  - destruct (IH d m c F' R T C) as (d' & m' & I1 & I2 & I3).
    exists d', m'. cbn [idict_run irun]. rewrite (at_ok idx nil k0 k d m R). cbn [obind]. rewrite I1. cbn [obind]. auto.
Qed.

Lemma tally_right (idx : Z -> Z) nil nothers size msgs : 4 <= size < 2 ^ 63 ->
  9 + 3 * Z.of_nat nothers < 2 ^ (Z.log2 size + 2) -> Forall (proper nil) msgs ->
  Z.of_nat (length (ikeys msgs)) < (3 + Z.of_nat nothers + 2 ^ (Z.log2 size + 2)) * 3 / 8 ->
  exists d, idict_history idx nil nothers size msgs = Ok (d, irun nil (fun _ => None) msgs) /\
    itally d = Z.of_nat (length (ikeys msgs)).
Proof.
  intros S B F L. destruct (idict_new_ok idx nil nothers size S B) as (d & D1 & D2).
  destruct (idict_history_ok idx nil nothers size msgs S B F) as (d' & H1 & H2). exists d'. split; [exact H1|].
  unfold idict_history in H1. rewrite D1 in H1. cbn [obind] in H1.
  assert (DW : Z.of_nat (length (iwords d)) = 2 ^ (Z.log2 size + 2) /\ length (iothers d) = nothers /\ itally d = 0).
  { unfold idict_new in D1. rewrite new_num_fields_ok in D1 by lia. cbn [obind] in D1. injection D1 as <-. cbn [iwords iothers itally].
    rewrite !repeat_length. split; [|auto]. pose proof (Z.log2_nonneg size).
    assert (0 < 2 ^ (Z.log2 size + 1)) by (apply Z.pow_pos_nonneg; lia).
    replace (Z.log2 size + 2) with (Z.log2 size + 1 + 1) by lia. rewrite (Z.pow_add_r 2 (Z.log2 size + 1) 1) by lia. lia. }
  destruct DW as (W & O & T0).
  destruct (no_growth idx nil _ msgs d [] _ F D2 T0 eq_refl) as (d2 & m2 & N1 & N2 & N3 & _).
  destruct (idict_run_ok idx nil _ msgs d [] F D2) as (d3 & m3 & E1 & E2 & E3).
  assert (d2 = d') by congruence. assert (d3 = d') by congruence. subst d2 d3.
  assert (M3 : length m3 = length (ikeys msgs)).
  { apply (ikeys_length idx nil); [destruct E2 as ((? & _ & G & _) & _); apply G|].
    intros k. rewrite E3. split; [|auto]. intros [(x & H)|H]; [discriminate|assumption]. }
  assert (M2 : length m2 = length m3).
  { destruct N2 as ((? & _ & G & _) & _), E2 as ((? & _ & G' & _) & _).
    rewrite <- (Permutation_length (g_perm _ _ _ _ _ G)), <- (Permutation_length (g_perm _ _ _ _ _ G')). reflexivity. }
  rewrite H2, N3.
  - rewrite W, Z.log2_pow2 by (pose proof (Z.log2_nonneg size); lia). lia.
  - unfold idict_size. rewrite W, O. lia.
Qed.
