(** The heaps of SortedCollection. *)
From Coq Require Import Permutation.
From Verif Require Import Base Hashed HashedProofs Replace OrderColl SortColl SortCollArr SortCollSort.
Local Open Scope Z_scope.

Section Heap.
  Context {A : Type} (nil : A) (R leb : A -> A -> bool).
  Hypothesis total : forall x y, leb x y = true \/ leb y x = true.
  Hypothesis trans : forall x y z, leb x y = true -> leb y z = true -> leb x z = true.
  Hypothesis R_spec : (forall x y, R x y = leb x y) \/ (forall x y, R x y = negb (leb y x)).
  Implicit Types (s : list A).
  Local Notation len l := (Z.of_nat (length l)).
  Local Notation get := (get nil).
  Local Notation "x <== y" := (leb x y = true) (at level 70).
  Local Notation Rt := (R_true R leb total R_spec).
  Local Notation Rf := (R_false R leb total R_spec).

  (** Item [k] of the heap that follows the index [d]. *)
  Definition item s (d k : Z) : A := get s (d + k).
  (** Items whose parent is not before [lo] are not greater than it. *)
  Definition heap s (d lo n : Z) : Prop := forall k, 2 <= k <= n -> lo <= k / 2 -> item s d k <== item s d (k / 2).

  Lemma heap_max s d n : heap s d 1 n -> forall k, 1 <= k <= n -> item s d k <== item s d 1.
  Proof.
    intros H k K. destruct K as [K K']. revert K'. pattern k. apply Zlt_lower_bound_ind with (z := 1); [|exact K].
    intros x IH X K'. destruct (Z.eq_dec x 1) as [->|N]; [apply (leb_refl leb total)|].
    apply (trans _ (item s d (x / 2))); [apply H; lia|apply IH; lia].
  Qed.

  Lemma siftDown_ok d n lo : 0 <= d -> 1 <= lo -> forall fuel s p, lo <= p -> d + n <= len s -> d + p <= len s ->
    n - p < Z.of_nat fuel ->
    (forall k, 2 <= k <= n -> lo <= k / 2 -> k / 2 <> p -> item s d k <== item s d (k / 2)) ->
    (forall k, 2 <= k <= n -> k / 2 = p -> lo <= p / 2 -> item s d k <== item s d (p / 2)) ->
    exists s', siftDown nil R fuel s d n p (p + p) (item s d p) = Ok s' /\ rperm nil (d + lo) (d + Z.max n p) s s' /\ heap s' d lo n.
  Proof.
    intros D Lo. induction fuel as [|fu IH]; intros s p P L Lp Fu H1 H2.
    - cbn [siftDown]. destruct (Z.ltb_spec n (p + p)); [|lia]. exists s. split; [reflexivity|]. split; [apply rperm_refl|].
      intros k K Q. apply H1; [exact K|exact Q|lia].
    - cbn [siftDown]. destruct (Z.ltb_spec n (p + p)) as [N|N].
      + exists s. split; [reflexivity|]. split; [apply rperm_refl|]. intros k K Q. apply H1; [exact K|exact Q|lia].
      + rewrite at_ok by lia. cbn [obind].
        assert (C : exists c, (if p + p =? n then Ok (get s (d + (p + p)), p + p) else
             olet childB := basicAt nil s (d + (p + p) + 1) in
             Ok (if R (get s (d + (p + p))) childB then (childB, p + p + 1) else (get s (d + (p + p)), p + p))) = Ok (item s d c, c) /\
             p + p <= c <= p + p + 1 /\ c <= n /\ forall k, 2 <= k <= n -> k / 2 = p -> item s d k <== item s d c).
        { destruct (Z.eqb_spec (p + p) n) as [E|E].
          - exists (p + p). split; [reflexivity|]. split; [lia|]. split; [lia|]. intros k K Q. replace k with (p + p) by lia.
            apply (leb_refl leb total).
          - rewrite at_ok by lia. cbn [obind]. replace (d + (p + p) + 1) with (d + (p + p + 1)) by lia.
            destruct (R _ _) eqn:B.
            + exists (p + p + 1). split; [reflexivity|]. split; [lia|]. split; [lia|]. intros k K Q.
              assert (k = p + p \/ k = p + p + 1) as [-> | ->] by lia; [apply Rt, B|apply (leb_refl leb total)].
            + exists (p + p). split; [reflexivity|]. split; [lia|]. split; [lia|]. intros k K Q.
              assert (k = p + p \/ k = p + p + 1) as [-> | ->] by lia; [apply (leb_refl leb total)|apply Rf, B]. }
        destruct C as (c & E & B1 & B2 & C). rewrite E. cbn [obind]. clear E.
        destruct (R (item s d c) (item s d p)) eqn:B.
        * exists s. split; [reflexivity|]. split; [apply rperm_refl|]. intros k K Q.
          destruct (Z.eq_dec (k / 2) p) as [Eq|Nq]; [rewrite Eq|apply H1; assumption].
          apply (trans _ (item s d c)); [apply C; lia|apply Rt, B].
        * rewrite put_ok by lia. cbn [obind]. rewrite put_ok by (rewrite put_length; lia). cbn [obind].
          change (item s d c) with (get s (d + c)). change (item s d p) with (get s (d + p)).
          fold (swapped nil s (d + c) (d + p)). set (s1 := swapped nil s (d + c) (d + p)).
          assert (I1 : forall k, 1 <= k -> item s1 d k = if k =? p then item s d c else if k =? c then item s d p else item s d k).
          { intros k K. unfold item, s1. rewrite swapped_get by lia.
            destruct (Z.eqb_spec (d + k) (d + p)), (Z.eqb_spec k p); try lia; [reflexivity|].
            destruct (Z.eqb_spec (d + k) (d + c)), (Z.eqb_spec k c); try lia; reflexivity. }
          assert (L1 : length s1 = length s) by apply swapped_length.
          replace (get s (d + p)) with (item s1 d c).
          2:{ rewrite I1 by lia. destruct (Z.eqb_spec c p); [lia|]. rewrite Z.eqb_refl. reflexivity. }
          destruct (IH s1 c) as (s' & E & P' & H'); [lia|lia|lia|lia| | |].
          -- intros k K Q Nq. rewrite !I1 by lia.
             destruct (Z.eqb_spec k p) as [->|Kp].
             ++ destruct (Z.eqb_spec (p / 2) p); [lia|]. destruct (Z.eqb_spec (p / 2) c); [lia|]. apply H2; lia.
             ++ destruct (Z.eqb_spec k c) as [->|Kc].
                ** replace (c / 2) with p by lia. rewrite Z.eqb_refl. apply Rf, B.
                ** destruct (Z.eqb_spec (k / 2) p) as [Q'|Q']; [apply C; lia|].
                   destruct (Z.eqb_spec (k / 2) c) as [Q''|Q'']; [lia|]. apply H1; lia.
          -- intros k K Q Q'. rewrite !I1 by lia. replace (c / 2) with p by lia. rewrite Z.eqb_refl.
             destruct (Z.eqb_spec k p); [lia|]. destruct (Z.eqb_spec k c); [lia|].
             replace c with (k / 2). apply H1; lia.
          -- exists s'. split; [exact E|]. split; [|exact H'].
             apply (rperm_trans nil _ _ _ s1); [apply swapped_rperm; lia|]. eapply rperm_mono; [exact P'|lia|lia].
  Qed.

  Lemma buildLoop_ok d n : 0 <= d -> forall start s, d + n <= len s -> d + Z.of_nat start <= len s -> Z.of_nat start <= Z.max n 1 -> heap s d (Z.of_nat start + 1) n ->
    exists s', buildLoop nil R start s d n = Ok s' /\ rperm nil (d + 1) (d + Z.max n 1) s s' /\ heap s' d 1 n.
  Proof.
    intros D. induction start as [|k IH]; intros s L L' B H.
    - exists s. split; [reflexivity|]. split; [apply rperm_refl|exact H].
    - cbn [buildLoop]. rewrite at_ok by lia. cbn [obind].
      destruct (siftDown_ok d n (Z.of_nat (S k)) D ltac:(lia) (length s) s (Z.of_nat (S k))) as (s1 & E & P & H1); [lia|lia|lia|lia| |lia|].
      + intros j J Q N. apply H; lia.
      + unfold item in E. rewrite E. cbn [obind]. pose proof (rperm_length nil _ _ _ _ P) as L1.
        destruct (IH s1) as (s2 & E2 & P2 & H2); [lia|lia|lia| |].
        * replace (Z.of_nat k + 1) with (Z.of_nat (S k)) by lia. exact H1.
        * exists s2. split; [exact E2|]. split; [|exact H2]. eapply rperm_trans; [|exact P2].
          eapply rperm_mono; [exact P|lia|lia].
  Qed.
  Lemma buildHeap_ok s f l : 1 <= f -> f <= l + 1 -> l <= len s ->
    exists s', buildHeap nil R s f l = Ok s' /\ rperm nil f l s s' /\ heap s' (f - 1) 1 (l - (f - 1)).
  Proof.
    intros F L B. unfold buildHeap. destruct (Z.eq_dec f (l + 1)) as [->|N].
    - replace (l - (l + 1) + 1 + 1) with 1 by lia. change (Z.to_nat (1 / 2)) with 0%nat.
      exists s. split; [reflexivity|]. split; [apply rperm_refl|]. intros k K. lia.
    - destruct (buildLoop_ok (f - 1) (l - (f - 1)) ltac:(lia) (Z.to_nat ((l - f + 1 + 1) / 2)) s) as (s' & E & P & H); [lia|lia|lia| |].
      + intros k K Q. lia.
      + exists s'. split; [exact E|]. split; [|exact H]. eapply rperm_mono; [exact P|lia|lia].
  Qed.

  Lemma percolateDown_ok s f l : 1 <= f -> f <= l -> l <= len s -> heap s (f - 1) 1 (l - (f - 1)) ->
    exists s', percolateDown nil R s f l = Ok s' /\ rperm nil f l s s' /\ heap s' (f - 1) 1 (l - 1 - (f - 1)) /\
      (forall k, f <= k <= l -> get s' k <== get s' l).
  Proof.
    intros F L B H. unfold percolateDown. rewrite swap_ok by lia. cbn [obind].
    set (s1 := swapped nil s l f). assert (L1 : length s1 = length s) by apply swapped_length.
    assert (P1 : rperm nil f l s s1) by (apply swapped_rperm; lia).
    rewrite at_ok by lia. cbn [obind].
    destruct (siftDown_ok (f - 1) (l - 1 - (f - 1)) 1 ltac:(lia) ltac:(lia) (length s1) s1 1) as (s2 & E & P2 & H2); [lia|lia|lia|lia| |lia|].
    - intros k K Q N. unfold item, s1. rewrite !swapped_get by lia.
      destruct (Z.eqb_spec (f - 1 + k) f); [lia|]. destruct (Z.eqb_spec (f - 1 + k) l); [lia|].
      destruct (Z.eqb_spec (f - 1 + k / 2) f); [lia|]. destruct (Z.eqb_spec (f - 1 + k / 2) l); [lia|].
      apply H; lia.
    - unfold item in E. change (1 + 1) with 2 in E. rewrite E. exists s2. split; [reflexivity|].
      destruct (Z.eq_dec f l) as [->|N].
      { assert (P2' : rperm nil l l s1 s2) by (eapply rperm_mono; [exact P2|lia|lia]).
        split; [eapply rperm_trans; eassumption|]. split; [exact H2|].
        intros k K. replace k with l by lia. apply (leb_refl leb total). }
      assert (P2' : rperm nil f (l - 1) s1 s2) by (eapply rperm_mono; [exact P2|lia|lia]).
      assert (P : rperm nil f l s s2) by (eapply rperm_trans; [exact P1|]; eapply rperm_mono; [exact P2'|lia|lia]).
      split; [exact P|]. split; [exact H2|].
      assert (M : forall k, f <= k <= l -> get s k <== get s f).
      { intros k K. pose proof (heap_max s (f - 1) _ H (k - (f - 1)) ltac:(lia)) as X. unfold item in X.
        replace (f - 1 + (k - (f - 1))) with k in X by lia. replace (f - 1 + 1) with f in X by lia. exact X. }
      assert (X : get s2 l = get s f).
      { rewrite (rperm_out nil _ _ _ _ l P2') by lia. unfold s1. rewrite swapped_get by lia.
        destruct (Z.eqb_spec l f); [lia|]. rewrite Z.eqb_refl. reflexivity. }
      rewrite X. apply (rperm_all nil f l s s2 (fun x => x <== get s f) P F B M).
  Qed.

  Lemma downs_ok f L : 1 <= f -> forall n s l, f <= l <= L -> L <= len s -> Z.of_nat n <= l - f ->
    heap s (f - 1) 1 (l - (f - 1)) -> (forall i j, f <= i -> i <= j -> l < j -> j <= L -> get s i <== get s j) ->
    exists s', downs nil R n s f l = Ok s' /\ rperm nil f L s s' /\
      (forall i j, f <= i -> i <= j -> l - Z.of_nat n < j -> j <= L -> get s' i <== get s' j).
  Proof.
    intros F. induction n as [|n IH]; intros s l B C N H S.
    - exists s. split; [reflexivity|]. split; [apply rperm_refl|]. intros i j I J K. apply S; lia.
    - cbn [downs]. destruct (percolateDown_ok s f l F ltac:(lia) ltac:(lia) H) as (s1 & E & P & H1 & M).
      rewrite E. cbn [obind]. pose proof (rperm_length nil _ _ _ _ P) as L1.
      destruct (IH s1 (l - 1)) as (s2 & E2 & P2 & S2); [lia|lia|lia|exact H1| |].
      + intros i j I J K Q. destruct (Z.eq_dec j l) as [->|]; [apply M; lia|].
        rewrite (rperm_out nil _ _ _ _ j P) by lia.
        destruct (Z.le_gt_cases i l); [|rewrite (rperm_out nil _ _ _ _ i P) by lia; apply S; lia].
        apply (rperm_all nil f l s s1 (fun x => x <== get s j) P); [lia|lia| |lia]. intros k Kk. apply S; lia.
      + exists s2. split; [exact E2|]. split; [eapply rperm_trans; [eapply rperm_mono; [exact P|lia|lia]|exact P2]|].
        intros i j I J K Q. apply S2; lia.
  Qed.

  (** ** percolateUp *)
  Lemma upLoop_ok f n : 1 <= f -> forall fuel s K (x : A), 1 <= K <= n -> f - 1 + n <= len s -> K - 1 <= Z.of_nat fuel ->
    let v := put s (f - 1 + K) x in
    (forall k, 2 <= k <= n -> k <> K -> item v (f - 1) k <== item v (f - 1) (k / 2)) ->
    (forall k, 2 <= k <= n -> k / 2 = K -> 2 <= K -> item v (f - 1) k <== item v (f - 1) (K / 2)) ->
    exists s', upLoop nil R fuel s f (K - 1) x = Ok s' /\ rperm nil f (f - 1 + n) v s' /\ heap s' (f - 1) 1 n.
  Proof.
    intros F. induction fuel as [|fu IH]; intros s K x B L Fu v H1 H2.
    - assert (K = 1) as -> by lia. change (1 - 1) with 0. cbn [upLoop]. change (0 <? 0) with false. cbv iota.
      rewrite put_ok by lia. exists v. unfold v. replace (f - 1 + 1) with (f + 0) by lia. split; [reflexivity|].
      split; [apply rperm_refl|]. intros k Kk Q. apply H1 in Kk; [|lia]. unfold v in Kk. replace (f - 1 + 1) with (f + 0) in Kk by lia. exact Kk.
    - cbn [upLoop]. destruct (Z.ltb_spec 0 (K - 1)) as [N|N].
      + rewrite at_ok by lia. cbn [obind].
        replace (f + (K - 1 - 1) / 2) with (f - 1 + K / 2) by lia.
        replace (f + (K - 1)) with (f - 1 + K) by lia.
        set (p := get s (f - 1 + K / 2)).
        assert (Iv : forall k, 1 <= k -> item v (f - 1) k = if k =? K then x else item s (f - 1) k).
        { intros k Kk. unfold item, v. rewrite get_put by lia.
          destruct (Z.eqb_spec (f - 1 + k) (f - 1 + K)), (Z.eqb_spec k K); try lia; reflexivity. }
        destruct (R p x) eqn:E.
        * rewrite put_ok by lia. cbn [obind]. set (s1 := put s (f - 1 + K) p).
          assert (L1 : length s1 = length s) by apply put_length.
          replace ((K - 1 - 1) / 2) with (K / 2 - 1) by lia.
          set (v1 := put s1 (f - 1 + K / 2) x).
          assert (V1 : v1 = swapped nil v (f - 1 + K) (f - 1 + K / 2)).
          { assert (Lv : length v = length s) by apply put_length.
            apply (get_ext nil); [rewrite swapped_length; unfold v1; rewrite put_length; lia|].
            intros i I. unfold v1 in I. rewrite put_length in I. rewrite swapped_get by lia.
            unfold v1. rewrite get_put by lia. unfold s1. rewrite get_put by lia. unfold v. rewrite !get_put by lia.
            destruct (Z.eqb_spec i (f - 1 + K / 2)); [rewrite Z.eqb_refl; reflexivity|].
            destruct (Z.eqb_spec i (f - 1 + K)); [|reflexivity].
            destruct (Z.eqb_spec (f - 1 + K / 2) (f - 1 + K)); [lia|reflexivity]. }
          assert (Iv1 : forall k, 1 <= k -> item v1 (f - 1) k = if k =? K / 2 then x else if k =? K then p else item s (f - 1) k).
          { intros k Kk. unfold item, v1. rewrite get_put by lia. unfold s1. rewrite get_put by lia.
            destruct (Z.eqb_spec (f - 1 + k) (f - 1 + K / 2)), (Z.eqb_spec k (K / 2)); try lia; [reflexivity|].
            destruct (Z.eqb_spec (f - 1 + k) (f - 1 + K)), (Z.eqb_spec k K); try lia; reflexivity. }
          assert (Hp : forall k, 2 <= k <= n -> k <> K -> k / 2 = K / 2 -> item s (f - 1) k <== p).
          { intros k Kk Nk Q. pose proof (H1 k Kk Nk) as X. rewrite !Iv in X by lia.
            destruct (Z.eqb_spec k K); [lia|]. destruct (Z.eqb_spec (k / 2) K); [lia|]. rewrite Q in X. exact X. }
          assert (Hg : 2 <= K / 2 -> p <== item s (f - 1) (K / 2 / 2)).
          { intros G. pose proof (H1 (K / 2) ltac:(lia) ltac:(lia)) as X. rewrite !Iv in X by lia.
            destruct (Z.eqb_spec (K / 2) K); [lia|]. destruct (Z.eqb_spec (K / 2 / 2) K); [lia|]. exact X. }
          destruct (IH s1 (K / 2) x) as (s' & E' & P' & H'); [lia|lia|lia| | |].
          -- fold v1. intros k Kk Nk. rewrite !Iv1 by lia.
             destruct (Z.eqb_spec k (K / 2)); [lia|]. destruct (Z.eqb_spec k K) as [->|NK].
             ++ rewrite Z.eqb_refl. apply Rt, E.
             ++ destruct (Z.eqb_spec (k / 2) (K / 2)) as [Q|Q].
                ** apply (trans _ p); [apply Hp; lia|apply Rt, E].
                ** destruct (Z.eqb_spec (k / 2) K) as [Q'|Q'].
                   --- pose proof (H2 k Kk Q' ltac:(lia)) as X. rewrite !Iv in X by lia.
                       destruct (Z.eqb_spec k K); [lia|]. destruct (Z.eqb_spec (K / 2) K); [lia|]. exact X.
                   --- pose proof (H1 k Kk NK) as X. rewrite !Iv in X by lia.
                       destruct (Z.eqb_spec k K); [lia|]. destruct (Z.eqb_spec (k / 2) K); [lia|]. exact X.
          -- fold v1. intros k Kk Q G. rewrite !Iv1 by lia.
             destruct (Z.eqb_spec k (K / 2)); [lia|]. destruct (Z.eqb_spec (K / 2 / 2) (K / 2)); [lia|].
             destruct (Z.eqb_spec (K / 2 / 2) K); [lia|].
             destruct (Z.eqb_spec k K) as [->|NK]; [apply Hg; lia|].
             apply (trans _ p); [apply Hp; lia|apply Hg; lia].
          -- exists s'. split; [exact E'|]. split; [|exact H']. eapply rperm_trans; [|exact P'].
             fold v1. rewrite V1. assert (Lv : length v = length s) by apply put_length. apply swapped_rperm; lia.
        * rewrite put_ok by lia. fold v. exists v. split; [reflexivity|]. split; [apply rperm_refl|].
          intros k Kk Q. destruct (Z.eq_dec k K) as [->|NK]; [|apply H1; lia].
          rewrite !Iv by lia. rewrite Z.eqb_refl. destruct (Z.eqb_spec (K / 2) K); [lia|]. apply Rf. exact E.
      + assert (K = 1) as -> by lia. change (1 - 1) with 0.
        rewrite put_ok by lia. exists v. unfold v. replace (f - 1 + 1) with (f + 0) by lia. split; [reflexivity|].
        split; [apply rperm_refl|]. intros k Kk Q. apply H1 in Kk; [|lia]. unfold v in Kk. replace (f - 1 + 1) with (f + 0) in Kk by lia. exact Kk.
  Qed.

  Lemma percolateUp_ok s f L : 1 <= f -> 1 <= L <= len s -> heap s (f - 1) 1 (L - 1 - (f - 1)) ->
    exists s', percolateUp nil R s f L = Ok s' /\ rperm nil f L s s' /\ heap s' (f - 1) 1 (L - (f - 1)).
  Proof.
    intros F B H. unfold percolateUp. rewrite at_ok by lia. cbn [obind].
    destruct (Z.le_gt_cases f L) as [C|C].
    - replace (L - f) with ((L - (f - 1)) - 1) by lia.
      assert (V : put s (f - 1 + (L - (f - 1))) (get s L) = s).
      { replace (f - 1 + (L - (f - 1))) with L by lia. apply put_get. lia. }
      destruct (upLoop_ok f (L - (f - 1)) F (length s) s (L - (f - 1)) (get s L)) as (s' & E & P & H'); [lia|lia|lia| | |].
      + rewrite V. intros k K N. apply H; lia.
      + intros k K Q N. lia.
      + exists s'. split; [exact E|]. rewrite V in P. split; [|exact H']. eapply rperm_mono; [exact P|lia|lia].
    - assert (X : upLoop nil R (length s) s f (L - f) (get s L) = Ok s).
      { assert (Y : basicAtPut s (f + (L - f)) (get s L) = Ok s).
        { rewrite put_ok by lia. f_equal. replace (f + (L - f)) with L by lia. apply put_get. lia. }
        destruct (length s); cbn [upLoop]; (destruct (Z.ltb_spec 0 (L - f)); [lia|exact Y]). }
      exists s. split; [exact X|]. split; [apply rperm_refl|]. intros k K. lia.
  Qed.
  Lemma ups_ok f : 1 <= f -> forall n s L, 0 <= L -> L + Z.of_nat n <= len s -> heap s (f - 1) 1 (L - (f - 1)) ->
    exists s', ups nil R n s f L = Ok s' /\ rperm nil f (L + Z.of_nat n) s s' /\ heap s' (f - 1) 1 (L + Z.of_nat n - (f - 1)).
  Proof.
    intros F. induction n as [|n IH]; intros s L B C H.
    - exists s. split; [reflexivity|]. split; [apply rperm_refl|]. replace (L + Z.of_nat 0) with L by lia. exact H.
    - cbn [ups]. destruct (percolateUp_ok s f (L + 1)) as (s1 & E & P & H1); [lia|lia| |].
      + replace (L + 1 - 1) with L by lia. exact H.
      + rewrite E. cbn [obind]. pose proof (rperm_length nil _ _ _ _ P) as L1.
        destruct (IH s1 (L + 1)) as (s2 & E2 & P2 & H2); [lia|lia|exact H1|].
        exists s2. split; [exact E2|]. replace (L + Z.of_nat (S n)) with (L + 1 + Z.of_nat n) by lia.
        split; [|exact H2]. eapply rperm_trans; [|exact P2]. eapply rperm_mono; [exact P|lia|lia].
  Qed.
End Heap.
