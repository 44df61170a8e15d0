From Verif Require Import Base Hashed HashedSpec.
Open Scope nat_scope.

(** ** Arrays *)
Lemma replace_length {A} i (x : A) l : length (replace i x l) = length l.
Proof. revert i. induction l as [|y l IH]; intros [|i]; cbn; auto. Qed.

Lemma nth_replace {A} i j (x d : A) l : i < length l ->
  nth j (replace i x l) d = if Nat.eqb j i then x else nth j l d.
Proof.
  revert i j. induction l as [|y l IH]; intros [|i] [|j] H; cbn in *; try lia; auto.
  apply IH. lia.
Qed.

Lemma nth_error_nth_slot {A} (t : list (option A)) i : i < length t -> nth_error t i = Some (nth i t None).
Proof. intros H. apply nth_error_nth'. assumption. Qed.

Lemma list_ext {A} (d : A) l l' : length l = length l' -> (forall i, i < length l -> nth i l d = nth i l' d) -> l = l'.
Proof. intros L H. apply nth_ext with d d; assumption. Qed.

(** ** Cyclic distance *)
Definition cdist (n h p : nat) : nat := if h <=? p then p - h else p + n - h.

Ltac cdist := unfold cdist, next in *; repeat match goal with
  | |- context [?a <=? ?b] => destruct (Nat.leb_spec a b)
  | H : context [?a <=? ?b] |- _ => destruct (Nat.leb_spec a b)
  | |- context [Nat.eqb ?a ?b] => destruct (Nat.eqb_spec a b)
  | H : context [Nat.eqb ?a ?b] |- _ => destruct (Nat.eqb_spec a b)
  end; try lia.

Lemma cdist_lt n h p : h < n -> p < n -> cdist n h p < n.
Proof. cdist. Qed.
Lemma cdist_inj n h p q : h < n -> p < n -> q < n -> cdist n h p = cdist n h q -> p = q.
Proof. cdist. Qed.
Lemma next_lt n i : i < n -> next n i < n.
Proof. cdist. Qed.
Lemma cdist_next n h i : h < n -> i < n -> S (cdist n h i) < n -> cdist n h (next n i) = S (cdist n h i).
Proof. cdist. Qed.
Lemma cdist_self n h : cdist n h h = 0.
Proof. cdist. Qed.
(** The last of the n slots visited is followed by the first. *)
Lemma cdist_S n h i : h < n -> i < n -> S (cdist n h i) = n -> next n i = h.
Proof. cdist. Qed.

(** ** Sizes *)
Definition pow2 (n : nat) : Prop := exists k, Z.of_nat n = (2 ^ k)%Z /\ (3 <= k)%Z.

Lemma pow2_ge n : pow2 n -> 8 <= n.
Proof. intros (k & E & K). assert (2 ^ 3 <= 2 ^ k)%Z by (apply Z.pow_le_mono_r; lia). lia. Qed.

Lemma home_lt h n : pow2 n -> home h n < n.
Proof.
  intros (k & E & K). unfold home. rewrite E. replace (2 ^ k - 1)%Z with (Z.ones k) by (rewrite Z.ones_equiv; lia).
  rewrite Z.land_ones by lia. pose proof (Z.mod_pos_bound (scramble h) (2 ^ k) ltac:(lia)). lia.
Qed.

Lemma land_pred r : (0 < r)%Z -> Z.land r (r - 1) = 0%Z -> exists k, (0 <= k)%Z /\ r = (2 ^ k)%Z.
Proof.
  intros R H. exists (Z.log2 r). split; [apply Z.log2_nonneg|].
  pose proof (Z.log2_spec r R) as [L U]. set (k := Z.log2 r) in *. pose proof (Z.log2_nonneg r) as K. fold k in K.
  destruct (Z.eq_dec r (2 ^ k)) as [|N]; [assumption|exfalso].
  assert (B1 : Z.testbit r k = true) by (apply Z.bit_log2; assumption).
  assert (B2 : Z.testbit (r - 1) k = true).
  { assert (E : Z.log2 (r - 1) = k) by (apply Z.log2_unique; lia).
    rewrite <- E. apply Z.bit_log2. pose proof (Z.pow_pos_nonneg 2 k). lia. }
  assert (Z.testbit (Z.land r (r - 1)) k = true) by (rewrite Z.land_spec, B1, B2; reflexivity).
  rewrite H, Z.bits_0 in *. discriminate.
Qed.

Lemma table_size_pow2 n : pow2 (table_size n).
Proof.
  unfold table_size. set (r := Z.max 8 ((n * 4 + 2) / 3)). assert (R : (8 <= r)%Z) by lia. clearbody r.
  destruct (Z.land r (r - 1) =? 0)%Z eqn:E.
  - destruct (land_pred r ltac:(lia) ltac:(lia)) as (k & K & ->). exists k. split; [lia|].
    destruct (Z.lt_ge_cases k 3); [|lia]. assert (2 ^ k < 2 ^ 3)%Z by (apply Z.pow_lt_mono_r; lia). lia.
  - rewrite Z.shiftl_mul_pow2 by (pose proof (Z.log2_nonneg r); lia). rewrite Z.mul_1_l.
    exists (Z.log2 r + 1)%Z. assert (K : (3 <= Z.log2 r)%Z) by (change 3%Z with (Z.log2 8); apply Z.log2_le_mono; assumption).
    split; [|lia]. rewrite Z2Nat.id; [reflexivity|]. apply Z.pow_nonneg. lia.
Qed.

(** Growing doubles the number of slots; copying keeps it. *)
Lemma table_size_cap n m : pow2 n -> m = 1%Z \/ m = 2%Z -> table_size (m * capacity n) = Z.to_nat m * n.
Proof.
  intros (k & E & K) M. unfold table_size, capacity.
  assert (E4 : Z.of_nat n = (4 * 2 ^ (k - 2))%Z).
  { rewrite E. replace k with (2 + (k - 2))%Z at 1 by lia. rewrite Z.pow_add_r by lia. reflexivity. }
  set (u := (2 ^ (k - 2))%Z) in *.
  assert (U : (2 <= u)%Z). { unfold u. change 2%Z with (2 ^ 1)%Z at 1. apply Z.pow_le_mono_r; lia. }
  rewrite E4. replace (4 * u * 3 / 4)%Z with (3 * u)%Z by lia.
  replace ((m * (3 * u) * 4 + 2) / 3)%Z with (m * (4 * u))%Z by (destruct M as [-> | ->]; lia).
  rewrite Z.max_r by nia.
  assert (P : exists j, (0 <= j)%Z /\ (m * (4 * u))%Z = (2 ^ j)%Z).
  { destruct M as [-> | ->].
    - exists k. split; [lia|]. lia.
    - exists (1 + k)%Z. split; [lia|]. rewrite Z.pow_add_r by lia. lia. }
  transitivity (Z.to_nat (m * (4 * u))); [f_equal|rewrite <- E4; destruct M as [-> | ->]; lia].
  destruct P as (j & J & ->). replace (2 ^ j - 1)%Z with (Z.ones j) by (rewrite Z.ones_equiv; lia).
  rewrite Z.land_ones, Z.mod_same by lia. reflexivity.
Qed.

(** ** Elements *)
Section Elements.
  Context {E : Type}.
  Implicit Types t : list (option E).

  Lemma in_elements e t : In e (elements t) <-> exists i, i < length t /\ nth i t None = Some e.
  Proof.
    induction t as [|s t IH]; cbn [elements flat_map length].
    - split; [intros []|intros (i & H & _); lia].
    - rewrite in_app_iff. fold (elements t). rewrite IH. split.
      + intros [H|(i & L & H)].
        * exists 0. split; [lia|]. destruct s; cbn in *; [destruct H as [->|[]]; reflexivity|contradiction].
        * exists (S i). split; [lia|assumption].
      + intros ([|i] & L & H); cbn in H.
        * left. subst s. left. reflexivity.
        * right. exists i. split; [lia|assumption].
  Qed.

  Lemma elements_cons s t : elements (s :: t) = match s with Some e => e :: elements t | None => elements t end.
  Proof. destruct s; reflexivity. Qed.

  Lemma elements_add i e t : i < length t -> nth i t None = None ->
    Permutation (elements (replace i (Some e) t)) (e :: elements t).
  Proof.
    revert i. induction t as [|s t IH]; intros [|i] L H; cbn [length replace nth] in *; try lia.
    - subst s. reflexivity.
    - rewrite !elements_cons. specialize (IH i ltac:(lia) H). destruct s; rewrite IH; [apply perm_swap|reflexivity].
  Qed.

  Lemma elements_del i e t : i < length t -> nth i t None = Some e ->
    Permutation (elements t) (e :: elements (replace i None t)).
  Proof.
    revert i. induction t as [|s t IH]; intros [|i] L H; cbn [length replace nth] in *; try lia.
    - subst s. reflexivity.
    - rewrite !elements_cons. specialize (IH i ltac:(lia) H). destruct s; rewrite IH; [apply perm_swap|reflexivity].
  Qed.

  Lemma elements_length t : length (elements t) <= length t.
  Proof. induction t as [|s t IH]; [cbn; lia|]. rewrite elements_cons. destruct s; cbn [length]; lia. Qed.

  Lemma nil_slot t : length (elements t) < length t -> exists i, i < length t /\ nth i t None = None.
  Proof.
    induction t as [|s t IH]; cbn [length]; [lia|]. rewrite elements_cons. destruct s as [e|]; cbn [length]; intros H.
    - destruct IH as (i & L & N); [lia|]. exists (S i). split; [lia|assumption].
    - exists 0. split; [lia|reflexivity].
  Qed.

  Lemma elements_repeat n : elements (repeat (@None E) n) = [].
  Proof. induction n as [|n IH]; [reflexivity|]. cbn [repeat]. rewrite elements_cons. assumption. Qed.

  Lemma nth_repeat_none n i : nth i (repeat (@None E) n) None = None.
  Proof. revert i. induction n as [|n IH]; intros [|i]; cbn; auto. Qed.

  Lemma elements_map (f : E -> E) t : elements (map (option_map f) t) = map f (elements t).
  Proof. induction t as [|s t IH]; [reflexivity|]. cbn [map]. rewrite !elements_cons, IH. destruct s; reflexivity. Qed.
End Elements.

Lemma Permutation_filter {A} (f : A -> bool) l l' : Permutation l l' -> Permutation (filter f l) (filter f l').
Proof.
  induction 1; cbn.
  - constructor.
  - destruct (f x); [constructor|]; assumption.
  - destruct (f x), (f y); try apply perm_swap; reflexivity.
  - etransitivity; eassumption.
Qed.

(** ** Open addressing *)
Section Table.
  Context {E K : Type} (key : E -> K) (keq : K -> K -> bool).
  Notation slot t p := (nth p t (@None E)).

  Lemma find_index_ok (t : list (option E)) k h0 : h0 < length t ->
    (exists z, z < length t /\ slot t z = None) ->
    exists q, find_index key keq (length t) t k h0 = Ok q /\ q < length t /\
      (slot t q = None \/ exists e, slot t q = Some e /\ keq (key e) k = true) /\
      forall p, p < length t -> cdist (length t) h0 p < cdist (length t) h0 q ->
        exists e, slot t p = Some e /\ keq (key e) k = false.
  Proof.
    intros H0 (z & Z1 & Z2). set (n := length t) in *.
    assert (G : forall fuel i, i < n -> fuel + cdist n h0 i = n ->
      (forall p, p < n -> cdist n h0 p < cdist n h0 i -> exists e, slot t p = Some e /\ keq (key e) k = false) ->
      exists q, find_index key keq fuel t k i = Ok q /\ q < n /\
      (slot t q = None \/ exists e, slot t q = Some e /\ keq (key e) k = true) /\
      forall p, p < n -> cdist n h0 p < cdist n h0 q -> exists e, slot t p = Some e /\ keq (key e) k = false).
    { induction fuel as [|fuel IH]; intros i I F B.
      - pose proof (cdist_lt n h0 i H0 I). lia.
      - cbn [find_index]. rewrite nth_error_nth_slot by assumption. destruct (slot t i) as [e|] eqn:S1.
        2:{ exists i. split; [reflexivity|]. split; [assumption|]. split; [left; assumption|assumption]. }
        destruct (keq (key e) k) eqn:Q.
        { exists i. split; [reflexivity|]. split; [assumption|]. split; [right; eauto|assumption]. }
        fold n. destruct fuel as [|fuel'].
        + exfalso. destruct (Nat.eq_dec z i) as [->|N]; [congruence|].
          destruct (B z Z1) as (e' & Z3 & _); [|congruence].
          pose proof (cdist_lt n h0 z H0 Z1).
          assert (cdist n h0 z <> cdist n h0 i) by (intros C; apply cdist_inj in C; auto). lia.
        + apply IH.
          * apply next_lt; assumption.
          * rewrite cdist_next by lia. lia.
          * intros p P. rewrite cdist_next by lia. intros C.
            destruct (Nat.eq_dec p i) as [->|N]; [eauto|]. apply B; [assumption|].
            assert (cdist n h0 p <> cdist n h0 i) by (intros D; apply cdist_inj in D; auto). lia. }
    apply G; [assumption|rewrite cdist_self; lia|]. intros p P. rewrite cdist_self. lia.
  Qed.

  Lemma find_nil_find_index fuel (t : list (option E)) k i :
    find_nil fuel t i = find_index key (fun _ _ => false) fuel t k i.
  Proof.
    revert i. induction fuel as [|fuel IH]; intros i; [reflexivity|]. cbn [find_nil find_index].
    destruct (nth_error t i) as [[e|]|]; auto.
  Qed.
End Table.

Section Nil.
  Context {E : Type}.
  Notation slot t p := (nth p t (@None E)).
  Lemma find_nil_ok (t : list (option E)) h0 : h0 < length t ->
    (exists z, z < length t /\ slot t z = None) ->
    exists q, find_nil (length t) t h0 = Ok q /\ q < length t /\ slot t q = None /\
      forall p, p < length t -> cdist (length t) h0 p < cdist (length t) h0 q -> slot t p <> None.
  Proof.
    intros H Z. destruct (find_index_ok (fun e : E => tt) (fun _ _ => false) t tt h0 H Z) as (q & Q1 & Q2 & Q3 & Q4).
    exists q. split; [rewrite (find_nil_find_index (fun e : E => tt) (length t) t tt); assumption|].
    split; [assumption|]. split.
    - destruct Q3 as [|(e & _ & D)]; [assumption|discriminate].
    - intros p P C. destruct (Q4 p P C) as (e & -> & _). discriminate.
  Qed.
End Nil.

Section Inv.
  Context {E K : Type} (key : E -> K) (h : K -> Z).
  Notation slot t p := (nth p t (@None E)).
  Notation hm n e := (home (h (key e)) n).

  Definition reach (t : list (option E)) : Prop := forall p e q, p < length t -> slot t p = Some e -> q < length t ->
    cdist (length t) (hm (length t) e) q < cdist (length t) (hm (length t) e) p -> slot t q <> None.

  Definition weak_reach (t : list (option E)) (b i z : nat) : Prop := forall p e q,
    p < length t -> slot t p = Some e -> q < length t ->
    cdist (length t) (hm (length t) e) q < cdist (length t) (hm (length t) e) p ->
    slot t q <> None \/
    (cdist (length t) b q <= cdist (length t) b i /\ cdist (length t) b i < cdist (length t) b p < cdist (length t) b z).

  Lemma rehash_after_ok : forall fuel (t : list (option E)) b i z, pow2 (length t) ->
    b < length t -> i < length t -> z < length t ->
    cdist (length t) b i < cdist (length t) b z -> cdist (length t) b z - cdist (length t) b i <= fuel ->
    slot t z = None -> weak_reach t b i z ->
    (forall p, p < length t -> cdist (length t) b i < cdist (length t) b p < cdist (length t) b z -> slot t p <> None) ->
    exists t', rehash_after key h fuel t i = Ok t' /\ length t' = length t /\
      Permutation (elements t') (elements t) /\ reach t'.
  Proof.
    induction fuel as [|fuel IH]; intros t b i z P2 B I Z L F ZN W C; [lia|].
    set (n := length t) in *. cbn [rehash_after]. fold n.
    assert (I' : next n i < n) by (apply next_lt; assumption).
    assert (O' : cdist n b (next n i) = S (cdist n b i)).
    { apply cdist_next; try assumption. pose proof (cdist_lt n b z B Z). lia. }
    set (i' := next n i) in *. clearbody i'.
    rewrite (nth_error_nth_slot t i' I').
    destruct (slot t i') as [e|] eqn:SI.
    2:{ exists t. split; [reflexivity|]. split; [reflexivity|]. split; [reflexivity|].
        intros p e q Pn Pe Qn Qd. destruct (W p e q Pn Pe Qn Qd) as [|[W1 W2]]; [assumption|].
        exfalso. fold n in W1, W2. destruct (Nat.eq_dec i' z) as [->|NZ]; [lia|].
        apply (C i' I'); [|assumption]. fold n.
        assert (cdist n b i' <> cdist n b z) by (intros D; apply cdist_inj in D; auto). lia. }
    assert (NZ : i' <> z) by congruence.
    set (t1 := replace i' None t). assert (L1 : length t1 = n) by apply replace_length.
    assert (S1 : forall p, slot t1 p = if Nat.eqb p i' then None else slot t p) by (intros; apply nth_replace; assumption).
    unfold find_element. rewrite L1.
    assert (HE : hm n e < n) by (apply home_lt; assumption).
    destruct (find_nil_ok t1 (hm n e)) as (q & Q1 & Q2 & Q3 & Q4).
    { lia. }
    { exists i'. split; [lia|]. rewrite S1, Nat.eqb_refl. reflexivity. }
    rewrite L1 in Q1, Q2, Q4. rewrite Q1. cbn [obind].
    set (t2 := replace q (Some e) t1). assert (L2 : length t2 = n) by (unfold t2; rewrite replace_length; assumption).
    assert (S2 : forall p, slot t2 p = if Nat.eqb p q then Some e else slot t1 p)
      by (intros; apply nth_replace; lia).
    assert (QI : cdist n (hm n e) q <= cdist n (hm n e) i').
    { destruct (Nat.le_gt_cases (cdist n (hm n e) q) (cdist n (hm n e) i')) as [|G]; [assumption|].
      exfalso. apply (Q4 i' I' G). rewrite S1, Nat.eqb_refl. reflexivity. }
    assert (QZ : q <> z).
    { intros ->. assert (D : cdist n (hm n e) z <> cdist n (hm n e) i') by (intros D; apply cdist_inj in D; auto).
      destruct (W i' e z I' SI Z) as [W1|[W1 _]]; [fold n; lia|contradiction|fold n in W1; lia]. }
    assert (PERM : Permutation (elements t2) (elements t)).
    { unfold t2. rewrite elements_add by (lia || assumption). symmetry. apply elements_del; assumption. }
    assert (OZ : cdist n b i' <> cdist n b z) by (intros D; apply cdist_inj in D; auto).
    destruct (IH t2 b i' z) as (t' & T1 & T2 & T3 & T4); rewrite ?L2; try assumption; try lia.
    - rewrite S2, S1. destruct (Nat.eqb_spec z q); [congruence|]. destruct (Nat.eqb_spec z i'); [congruence|assumption].
    - intros p e' q' Pn Pe Qn Qd. rewrite L2 in *. rewrite S2 in Pe. destruct (Nat.eqb_spec p q) as [->|NPQ].
      + injection Pe as <-. left. rewrite S2. destruct (Nat.eqb_spec q' q); [discriminate|]. apply Q4; assumption.
      + rewrite S1 in Pe. destruct (Nat.eqb_spec p i') as [->|NPI]; [discriminate|].
        assert (HE' : hm n e' < n) by (apply home_lt; assumption).
        assert (NB : cdist n b p <> cdist n b i') by (intros D; apply cdist_inj in D; auto).
        assert (NB2 : p <> z) by (intros ->; congruence).
        destruct (W p e' q' Pn Pe Qn Qd) as [W1|[W1 W2]]; [|right; fold n in W1, W2; lia].
        rewrite S2. destruct (Nat.eqb_spec q' q); [left; discriminate|].
        rewrite S1. destruct (Nat.eqb_spec q' i') as [->|NQI]; [|left; assumption]. right. split; [lia|].
        destruct (Nat.le_gt_cases (cdist n b z) (cdist n b p)) as [G|G]; [exfalso|].
        * assert (cdist n b p <> cdist n b z) by (intros D; apply cdist_inj in D; auto).
          assert (K1 : cdist n (hm n e') z < cdist n (hm n e') p).
          { clear - B I Z I' Pn HE' Qd L O' G H. set (x := hm n e') in *. clearbody x. cdist. }
          destruct (W p e' z Pn Pe Z K1) as [|[W3 _]]; [congruence|fold n in W3; lia].
        * split; [|assumption]. destruct (Nat.le_gt_cases (cdist n b p) (cdist n b i')) as [G2|G2]; [exfalso|assumption].
          assert (K1 : cdist n (hm n e') z < cdist n (hm n e') p).
          { clear - B I Z I' Pn HE' Qd L O' G2 NB. set (x := hm n e') in *. clearbody x. cdist. }
          destruct (W p e' z Pn Pe Z K1) as [|[W3 _]]; [congruence|fold n in W3; lia].
    - intros p Pn [P1 P3]. rewrite S2. destruct (Nat.eqb_spec p q); [discriminate|]. rewrite S1.
      destruct (Nat.eqb_spec p i') as [->|]; [lia|]. apply C; [assumption|]. fold n. lia.
    - exists t'. split; [assumption|]. split; [lia|]. split; [rewrite T3; assumption|assumption].
  Qed.
End Inv.
