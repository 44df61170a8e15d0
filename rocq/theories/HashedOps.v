(** The operations of hashed collections refine those of finite maps. *)
From Verif Require Import Base Hashed HashedSpec HashedProofs.
Open Scope nat_scope.

Section Ops.
  Context {E K : Type} (key : E -> K) (keq : K -> K -> bool) (h : K -> Z).
  Hypothesis GH : good_hash keq h.
  Notation slot t p := (nth p t (@None E)).
  Notation hm n e := (home (h (key e)) n).

  Let kref a : keq a a = true. Proof. apply GH. Qed.
  Let ksym a b : keq a b = keq b a. Proof. apply GH. Qed.
  Let ktrans a b c : keq a b = true -> keq b c = true -> keq a c = true. Proof. apply GH. Qed.
  Let khash a b : keq a b = true -> h a = h b. Proof. apply GH. Qed.

  (** Elements with pairwise different keys. *)
  Definition apart (l : list E) : Prop := ForallOrdPairs (fun a b => keq (key a) (key b) = false) l.

  Lemma apart_perm l l' : Permutation l l' -> apart l -> apart l'.
  Proof.
    unfold apart. induction 1 as [|a l l' P IH|a b l|l1 l2 l3 P1 IH1 P2 IH2]; intros A.
    - assumption.
    - inversion_clear A as [|? ? F B]. constructor; [|auto]. rewrite Forall_forall in *. intros x I. apply F.
      eapply Permutation_in; [|eassumption]. symmetry. assumption.
    - inversion_clear A as [|? ? F B]. inversion_clear B as [|? ? F2 B2]. inversion_clear F as [|? ? Q F3].
      constructor; [|constructor; assumption]. constructor; [rewrite ksym; assumption|assumption].
    - auto.
  Qed.

  Lemma apart_in l : apart l -> forall e k, In e l -> keq (key e) k = true -> lookup key keq k l = Some e.
  Proof.
    induction 1 as [|a l F A IH]; intros e k I Q; [contradiction|]. unfold lookup. cbn [List.find].
    destruct I as [->|I].
    - rewrite Q. reflexivity.
    - destruct (keq (key a) k) eqn:Q2; [|apply IH; assumption]. rewrite Forall_forall in F. specialize (F e I).
      rewrite (ktrans (key a) k (key e)) in F; [discriminate|assumption|rewrite ksym; assumption].
  Qed.

  Lemma lookup_some k l e : lookup key keq k l = Some e -> In e l /\ keq (key e) k = true.
  Proof. intros H. apply find_some in H. assumption. Qed.
  Lemma lookup_none k l : lookup key keq k l = None <-> forall e, In e l -> keq (key e) k = false.
  Proof.
    split.
    - intros H e I. eapply find_none in H; eassumption.
    - intros H. destruct (lookup key keq k l) as [e|] eqn:L; [|reflexivity]. apply lookup_some in L as [I Q].
      rewrite H in Q by assumption. discriminate.
  Qed.

  Lemma apart_slots (t : list (option E)) : apart (elements t) -> forall p q e e',
    p < length t -> q < length t -> slot t p = Some e -> slot t q = Some e' -> keq (key e) (key e') = true -> p = q.
  Proof.
    induction t as [|s t IH]; intros A p q e e' P Q HP HQ Q2; cbn [length] in *; [lia|].
    rewrite elements_cons in A.
    assert (A' : apart (elements t)) by (destruct s; [inversion_clear A|]; assumption).
    destruct p as [|p], q as [|q]; cbn [nth] in *.
    - reflexivity.
    - subst s. inversion_clear A as [|? ? F _]. rewrite Forall_forall in F. rewrite F in Q2; [discriminate|].
      apply in_elements. exists q. split; [lia|assumption].
    - subst s. inversion_clear A as [|? ? F _]. rewrite Forall_forall in F. rewrite ksym, F in Q2; [discriminate|].
      apply in_elements. exists p. split; [lia|assumption].
    - f_equal. eapply IH; eauto; lia.
  Qed.

  (** ** Representation *)
  Record good (t : list (option E)) (m : list E) : Prop := {
    g_pow : pow2 (length t);
    g_perm : Permutation (elements t) m;
    g_apart : apart m;
    g_reach : reach key h t }.

  Definition rep (c : coll) (m : list E) : Prop :=
    good (slots c) m /\ tally c = Z.of_nat (length m) /\ 4 * length m <= 3 * length (slots c).

  Lemma good_perm t m m' : good t m -> Permutation m m' -> good t m'.
  Proof.
    intros [P1 P2 P3 P4] P. split; [assumption|rewrite P2; assumption|eapply apart_perm; eassumption|assumption].
  Qed.

  Lemma good_nil t m : good t m -> length m < length t -> exists z, z < length t /\ slot t z = None.
  Proof. intros G L. apply nil_slot. rewrite (Permutation_length (g_perm _ _ G)). assumption. Qed.

  (** findIndex: *)
  Lemma find_ok t m k : good t m -> length m < length t ->
    exists q, find key keq h t k = Ok q /\ q < length t /\ slot t q = lookup key keq k m /\
      (lookup key keq k m = None -> forall p, p < length t ->
         cdist (length t) (home (h k) (length t)) p < cdist (length t) (home (h k) (length t)) q -> slot t p <> None).
  Proof.
    intros G L. pose proof (home_lt (h k) _ (g_pow _ _ G)) as HL.
    destruct (find_index_ok key keq t k _ HL (good_nil _ _ G L)) as (q & Q1 & Q2 & Q3 & Q4).
    exists q. split; [exact Q1|]. split; [assumption|]. split.
    - pose proof (g_apart _ _ G) as A. destruct Q3 as [N|(e & S1 & S2)].
      + rewrite N. symmetry. apply lookup_none. intros e I.
        destruct (keq (key e) k) eqn:Q; [exfalso|reflexivity].
        apply (Permutation_in _ (Permutation_sym (g_perm _ _ G))) in I. apply in_elements in I as (p & P1 & P2).
        pose proof (khash _ _ Q) as HH.
        destruct (Nat.lt_trichotomy (cdist (length t) (home (h k) (length t)) p) (cdist (length t) (home (h k) (length t)) q)) as [C|[C|C]].
        * destruct (Q4 p P1 C) as (e' & S1 & S2). congruence.
        * apply cdist_inj in C; try assumption. subst. congruence.
        * rewrite <- HH in C. apply (g_reach _ _ G p e q P1 P2 Q2 C). assumption.
      + rewrite S1. symmetry. apply apart_in; try assumption.
        apply (Permutation_in _ (g_perm _ _ G)). apply in_elements. eauto.
    - intros _ p P C. destruct (Q4 p P C) as (e & -> & _). discriminate.
  Qed.

  (** Storing in the free slot at the end of the probe sequence. *)
  Lemma good_store t m e q : good t m -> q < length t -> slot t q = None ->
    (forall x, In x m -> keq (key x) (key e) = false) ->
    (forall p, p < length t -> cdist (length t) (hm (length t) e) p < cdist (length t) (hm (length t) e) q -> slot t p <> None) ->
    good (replace q (Some e) t) (e :: m).
  Proof.
    intros [P1 P2 P3 P4] Q N A R.
    assert (S1 : forall p, slot (replace q (Some e) t) p = if Nat.eqb p q then Some e else slot t p)
      by (intros; apply nth_replace; assumption).
    split.
    - rewrite replace_length. assumption.
    - rewrite elements_add by assumption. constructor. assumption.
    - constructor; [|assumption]. rewrite Forall_forall. intros x I. rewrite ksym. apply A, I.
    - intros p x z. rewrite replace_length. intros Pl Px Zl C. rewrite S1 in Px |- *.
      destruct (Nat.eqb_spec z q) as [->|NZ]; [discriminate|].
      destruct (Nat.eqb_spec p q) as [->|NP].
      + injection Px as <-. apply R; assumption.
      + apply (P4 p x z); assumption.
  Qed.

  Lemma add_while_growing_ok e c m : good (slots c) m -> length m < length (slots c) ->
    (forall x, In x m -> keq (key x) (key e) = false) -> tally c = Z.of_nat (length m) ->
    exists c', add_while_growing key h e c = Ok c' /\ good (slots c') (e :: m) /\
      length (slots c') = length (slots c) /\ tally c' = Z.of_nat (length (e :: m)).
  Proof.
    intros G L A T. pose proof (home_lt (h (key e)) _ (g_pow _ _ G)) as HL.
    destruct (find_nil_ok (slots c) _ HL (good_nil _ _ G L)) as (q & Q1 & Q2 & Q3 & Q4).
    unfold add_while_growing, find_element. rewrite Q1. cbn [obind]. eexists; split; [reflexivity|].
    cbn [slots tally]. split; [apply good_store; assumption|]. split; [apply replace_length|]. cbn [length]. lia.
  Qed.

  Lemma copy_all_from_ok src : forall c m, good (slots c) m -> length (elements src) + length m < length (slots c) ->
    apart (elements src ++ m) -> tally c = Z.of_nat (length m) ->
    exists c', copy_all_from key h src c = Ok c' /\ good (slots c') (elements src ++ m) /\
      length (slots c') = length (slots c) /\ tally c' = Z.of_nat (length (elements src ++ m)).
  Proof.
    induction src as [|s src IH]; intros c m G L A T.
    - exists c. auto.
    - rewrite elements_cons in *. destruct s as [e|]; cbn [copy_all_from]; [|apply IH; assumption].
      cbn [length app] in *.
      assert (AE : forall x, In x m -> keq (key x) (key e) = false).
      { inversion_clear A as [|? ? F _]. rewrite Forall_forall in F. intros x I. rewrite ksym. apply F.
        apply in_or_app. right. assumption. }
      destruct (add_while_growing_ok e c m G ltac:(lia) AE T) as (c1 & C1 & C2 & C3 & C4).
      rewrite C1. cbn [obind].
      assert (PM : Permutation (elements src ++ e :: m) (e :: elements src ++ m)).
      { symmetry. apply Permutation_middle. }
      destruct (IH c1 (e :: m) C2) as (c' & D1 & D2 & D3 & D4).
      + cbn [length]. lia.
      + eapply apart_perm; [symmetry; exact PM|assumption].
      + assumption.
      + exists c'. split; [assumption|]. split; [eapply good_perm; eassumption|]. split; [lia|].
        rewrite D4. rewrite (Permutation_length PM). reflexivity.
  Qed.

  Lemma empty_good n : pow2 n -> good (repeat (@None E) n) [].
  Proof.
    intros P. split.
    - rewrite repeat_length. assumption.
    - rewrite elements_repeat. constructor.
    - constructor.
    - intros p e q _ H. rewrite nth_repeat_none in H. discriminate.
  Qed.

  Lemma copy_into_empty t m n : good t m -> length m < n -> pow2 n ->
    exists c', copy_all_from key h t (Coll (repeat None n) 0%Z) = Ok c' /\ good (slots c') m /\
      length (slots c') = n /\ tally c' = Z.of_nat (length m).
  Proof.
    intros G L P. pose proof (Permutation_length (g_perm _ _ G)) as PL.
    destruct (copy_all_from_ok t (Coll (repeat None n) 0%Z) []) as (c' & C1 & C2 & C3 & C4).
    - apply empty_good, P.
    - cbn [slots length]. rewrite repeat_length. lia.
    - rewrite app_nil_r. eapply apart_perm; [symmetry; apply g_perm; exact G|apply G].
    - reflexivity.
    - rewrite app_nil_r in *. cbn [slots] in *. rewrite repeat_length in C3. exists c'.
      split; [assumption|]. split; [eapply good_perm; [eassumption|apply G]|]. split; [assumption|]. lia.
  Qed.

  (** new: *)
  Lemma new_rep n : rep (new n) [].
  Proof.
    split; [apply empty_good, table_size_pow2|]. split; [reflexivity|]. cbn. lia.
  Qed.

  (** incrementTally *)
  Lemma increment_tally_ok c m : rep c m -> exists c' grown, increment_tally key h c = Ok (c', grown) /\
    good (slots c') m /\ tally c' = Z.of_nat (S (length m)) /\ 4 * S (length m) <= 3 * length (slots c') /\
    (grown = false -> slots c' = slots c).
  Proof.
    intros (G & T & L). unfold increment_tally. rewrite T. set (n := length (slots c)) in *.
    pose proof (g_pow _ _ G) as P. fold n in P. pose proof (pow2_ge n P) as P8.
    assert (P4 : exists u, n = 4 * u).
    { destruct P as (k & E1 & E2). exists (Z.to_nat (2 ^ (k - 2))).
      replace k with (2 + (k - 2))%Z in E1 by lia. rewrite Z.pow_add_r in E1 by lia. change (2 ^ 2)%Z with 4%Z in E1. lia. }
    destruct (Z.leb_spec (Z.of_nat n * 3 / 4) (Z.of_nat (length m))) as [GR|NG].
    - unfold grow_by. fold n. unfold new.
      replace (capacity n + capacity n)%Z with (2 * capacity n)%Z by lia.
      rewrite table_size_cap by (auto; assumption). change (Z.to_nat 2) with 2.
      assert (P2 : pow2 (2 * n)).
      { destruct P as (k & E1 & E2). exists (1 + k)%Z. split; [|lia]. rewrite Z.pow_add_r by lia. lia. }
      destruct (copy_into_empty (slots c) m (2 * n) G ltac:(lia) P2) as (c' & C1 & C2 & C3 & C4).
      rewrite C1. cbn [obind]. eexists _, true. split; [reflexivity|]. cbn [slots tally].
      split; [assumption|]. split; [lia|]. split; [lia|]. discriminate.
    - cbn [obind]. eexists _, false. split; [reflexivity|]. cbn [slots tally]. split; [assumption|]. split; [lia|].
      split; [fold n; destruct P4 as (u & ->); lia|]. reflexivity.
  Qed.

  Lemma apart_map upd m : (forall x, key (upd x) = key x) -> forall k, apart m ->
    apart (map (fun x => if keq (key x) k then upd x else x) m).
  Proof.
    intros U k. induction 1 as [|a l F A IH]; [constructor|]. cbn [map]. constructor; [|assumption].
    rewrite Forall_forall in *. intros x I. apply in_map_iff in I as (y & <- & I). specialize (F y I).
    destruct (keq (key a) k), (keq (key y) k); rewrite ?U; assumption.
  Qed.

  Lemma apart_filter f m : apart m -> apart (filter f m).
  Proof.
    induction 1 as [|a l F A IH]; [constructor|]. cbn [filter]. destruct (f a); [|assumption].
    constructor; [|assumption]. rewrite Forall_forall in *. intros x I. apply filter_In in I as [I _]. auto.
  Qed.

  (** at:put:, add: *)
  Lemma put_ok upd e c m : (forall x, key (upd x) = key x) -> rep c m ->
    exists c', put key keq h h upd e c = Ok c' /\ rep c' (insert key keq upd e m).
  Proof.
    intros U R. pose proof R as (G & T & L). pose proof (pow2_ge _ (g_pow _ _ G)) as P8.
    destruct (find_ok (slots c) m (key e) G ltac:(lia)) as (q & Q1 & Q2 & Q3 & Q4).
    unfold put, insert. rewrite Q1. cbn [obind]. rewrite Q3.
    destruct (lookup key keq (key e) m) as [e0|] eqn:LK.
    - eexists; split; [reflexivity|]. clear Q4.
      set (f := fun x => if keq (key x) (key e) then upd x else x).
      assert (TE : replace q (Some (upd e0)) (slots c) = map (option_map f) (slots c)).
      { apply (list_ext None); [rewrite replace_length, map_length; reflexivity|]. intros p P. rewrite replace_length in P.
        rewrite nth_replace by assumption. rewrite (nth_indep (map (option_map f) (slots c)) None (option_map f None)) by (rewrite map_length; assumption).
        rewrite map_nth. destruct (Nat.eqb_spec p q) as [->|N].
        - rewrite Q3. cbn. unfold f. apply lookup_some in LK as [_ LK]. rewrite LK. reflexivity.
        - destruct (slot (slots c) p) as [x|] eqn:S1; [|reflexivity]. cbn. f_equal. unfold f.
          destruct (keq (key x) (key e)) eqn:KX; [exfalso|reflexivity]. apply N.
          apply (apart_slots (slots c)) with x e0; try assumption.
          + eapply apart_perm; [symmetry; apply G|apply G].
          + apply lookup_some in LK as [_ LK]. apply ktrans with (key e); [assumption|rewrite ksym; assumption]. }
      split; [|split].
      + cbn [slots]. split.
        * rewrite replace_length. apply G.
        * rewrite TE, elements_map. apply Permutation_map. apply G.
        * apply apart_map; [assumption|apply G].
        * intros p x z. rewrite replace_length. rewrite !nth_replace by assumption. intros Pl Px Zl C.
          destruct (Nat.eqb_spec z q); [discriminate|]. destruct (Nat.eqb_spec p q) as [->|N].
          -- injection Px as <-. rewrite U in C. apply (g_reach _ _ G q e0 z); assumption.
          -- apply (g_reach _ _ G p x z); assumption.
      + cbn [tally]. rewrite map_length. assumption.
      + cbn [slots]. rewrite map_length, replace_length. assumption.
    - assert (AB : forall x, In x m -> keq (key x) (key e) = false) by (apply lookup_none; assumption).
      destruct (increment_tally_ok c m R) as (c1 & grown & C1 & C2 & C3 & C4 & C5). rewrite C1. cbn [obind].
      pose proof (pow2_ge _ (g_pow _ _ C2)) as P8'.
      assert (FI : exists q', (if grown then find key keq h (slots c1) (key e) else Ok q) = Ok q' /\ q' < length (slots c1) /\
        slot (slots c1) q' = None /\ forall p, p < length (slots c1) ->
         cdist (length (slots c1)) (hm (length (slots c1)) e) p < cdist (length (slots c1)) (hm (length (slots c1)) e) q' ->
         slot (slots c1) p <> None).
      { destruct grown.
        - destruct (find_ok (slots c1) m (key e) C2 ltac:(lia)) as (q' & D1 & D2 & D3 & D4).
          exists q'. split; [assumption|]. split; [assumption|]. split; [rewrite D3; assumption|auto].
        - rewrite (C5 eq_refl). exists q. auto. }
      destruct FI as (q' & F1 & F2 & F3 & F4). rewrite F1. cbn [obind]. eexists; split; [reflexivity|].
      split; [|split].
      + apply good_store; assumption.
      + cbn [tally length]. assumption.
      + cbn [slots length]. rewrite replace_length. assumption.
  Qed.

  (** at:ifAbsent:, includes: *)
  Lemma get_ok k c m : rep c m -> get key keq h k c = Ok (lookup key keq k m).
  Proof.
    intros (G & T & L). pose proof (pow2_ge _ (g_pow _ _ G)) as P8.
    destruct (find_ok (slots c) m k G ltac:(lia)) as (q & Q1 & Q2 & Q3 & _).
    unfold get. rewrite Q1. cbn [obind]. rewrite Q3. reflexivity.
  Qed.

  Lemma delete_absent k m : lookup key keq k m = None -> delete key keq k m = m.
  Proof.
    intros H. rewrite lookup_none in H. induction m as [|e m IH]; [reflexivity|]. cbn [delete filter].
    rewrite (H e) by (left; reflexivity). cbn [negb]. f_equal. apply IH. intros x I. apply H. right. assumption.
  Qed.

  Lemma delete_present k m e : apart m -> lookup key keq k m = Some e -> Permutation m (e :: delete key keq k m).
  Proof.
    intros A. induction A as [|a l F A IH]; intros H; [discriminate|]. unfold lookup in H. cbn [List.find] in H.
    cbn [delete filter]. destruct (keq (key a) k) eqn:Q; cbn [negb].
    - injection H as ->. constructor. fold (delete key keq k l). rewrite delete_absent; [reflexivity|].
      apply lookup_none. intros x I. rewrite Forall_forall in F. specialize (F x I).
      destruct (keq (key x) k) eqn:Q2; [|reflexivity].
      rewrite (ktrans (key e) k (key x)) in F; [discriminate|assumption|rewrite ksym; assumption].
    - fold (delete key keq k l). specialize (IH H). rewrite IH at 1. apply perm_swap.
  Qed.

  (** remove:ifAbsent:, removeKey:ifAbsent: *)
  Lemma remove_ok k c m : rep c m -> exists c', remove key keq h h k c = Ok (c', lookup key keq k m) /\
    rep c' (delete key keq k m).
  Proof.
    intros R. pose proof R as (G & T & L). pose proof (pow2_ge _ (g_pow _ _ G)) as P8.
    destruct (find_ok (slots c) m k G ltac:(lia)) as (q & Q1 & Q2 & Q3 & _).
    unfold remove. rewrite Q1. cbn [obind]. rewrite Q3.
    destruct (lookup key keq k m) as [e|] eqn:LK.
    2:{ exists c. split; [reflexivity|]. rewrite delete_absent by assumption. assumption. }
    set (t := slots c) in *. set (n := length t) in *. set (t1 := replace q None t).
    assert (L1 : length t1 = n) by apply replace_length. rewrite L1.
    assert (S1 : forall p, slot t1 p = if Nat.eqb p q then None else slot t p) by (intros; apply nth_replace; assumption).
    destruct (good_nil t m G ltac:(fold n; lia)) as (w & W1 & W2). fold n in W1.
    assert (WQ : w <> q) by (intros ->; congruence).
    (* the first free slot after q *)
    destruct (find_nil_ok t1 (next n q)) as (z & _ & Z1 & Z2 & Z3).
    { rewrite L1. apply next_lt. assumption. }
    { exists w. split; [lia|]. rewrite S1. destruct (Nat.eqb_spec w q); [congruence|assumption]. }
    rewrite L1 in Z1, Z3.
    assert (ZQ : z <> q).
    { intros ->. apply (Z3 w W1); [|rewrite S1; destruct (Nat.eqb_spec w q); [congruence|assumption]].
      clear - Q2 W1 WQ P8. fold n in Q2. cdist. }
    assert (ZT : slot t z = None). { rewrite S1 in Z2. destruct (Nat.eqb_spec z q); [congruence|assumption]. }
    destruct (rehash_after_ok key h n t1 q q z) as (t' & T1 & T2 & T3 & T4); rewrite ?L1; try assumption.
    - apply G.
    - rewrite cdist_self. clear - Z1 Q2 ZQ. fold n in Q2. cdist.
    - pose proof (cdist_lt n q z Q2 Z1). lia.
    - intros p x y. rewrite L1. rewrite !S1. intros Pl Px Yl C.
      destruct (Nat.eqb_spec p q) as [->|NP]; [discriminate|].
      pose proof (g_reach _ _ G p x y Pl Px Yl) as RR. fold n in RR. specialize (RR C).
      destruct (Nat.eqb_spec y q) as [->|NY]; [right|left; assumption].
      rewrite cdist_self. split; [lia|]. split; [clear - Pl Q2 NP; fold n in Q2; cdist|].
      destruct (Nat.le_gt_cases (cdist n q z) (cdist n q p)) as [B|B]; [exfalso|assumption].
      assert (NZ : p <> z) by congruence.
      assert (HX : hm n x < n) by (apply home_lt; apply G).
      assert (CZ : cdist n (hm n x) z < cdist n (hm n x) p).
      { clear - Pl Z1 Q2 HX B NZ C NP. fold n in Q2. set (u := hm n x) in *. clearbody u. cdist. }
      apply (g_reach _ _ G p x z Pl Px Z1 CZ). assumption.
    - intros p Pl. rewrite cdist_self. intros [B1 B2]. apply Z3; [assumption|].
      clear - Pl Z1 Q2 B1 B2. fold n in Q2. cdist.
    - rewrite T1. cbn [obind]. eexists; split; [reflexivity|].
      assert (PD : Permutation (elements t') (delete key keq k m)).
      { rewrite T3. apply (Permutation_cons_inv (a := e)). rewrite <- (delete_present k m e (g_apart _ _ G) LK).
        unfold t1. etransitivity; [symmetry; apply (elements_del q e t Q2 Q3)|apply G]. }
      pose proof (Permutation_length (delete_present k m e (g_apart _ _ G) LK)) as LD. cbn [length] in LD.
      split; [|split].
      + cbn [slots]. split.
        * rewrite T2, L1. apply G.
        * assumption.
        * apply apart_filter, G.
        * assumption.
      + cbn [tally]. lia.
      + cbn [slots]. rewrite T2, L1. fold n in L. lia.
  Qed.

  Lemma rehash_ok c m : rep c m -> exists c', rehash key h c = Ok c' /\ rep c' m.
  Proof.
    intros (G & T & L). pose proof (pow2_ge _ (g_pow _ _ G)) as P8. unfold rehash.
    destruct (copy_into_empty (slots c) m (length (slots c)) G ltac:(lia) (g_pow _ _ G)) as (c' & C1 & C2 & C3 & C4).
    exists c'. split; [assumption|]. split; [assumption|]. split; [assumption|lia].
  Qed.

  Lemma shallow_copy_ok c m : rep c m -> exists c', shallow_copy key h c = Ok c' /\ rep c' m.
  Proof.
    intros (G & T & L). pose proof (pow2_ge _ (g_pow _ _ G)) as P8. unfold shallow_copy, new.
    replace (capacity (length (slots c))) with (1 * capacity (length (slots c)))%Z by lia.
    rewrite table_size_cap by (auto; apply G). rewrite Nat.mul_1_l.
    destruct (copy_into_empty (slots c) m (length (slots c)) G ltac:(lia) (g_pow _ _ G)) as (c' & C1 & C2 & C3 & C4).
    exists c'. split; [assumption|]. split; [assumption|]. split; [assumption|lia].
  Qed.
End Ops.
