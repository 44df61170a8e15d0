(** Proofs about the mark phase. *)
From Verif Require Import Base Mark MarkSpec.
From Coq Require Import Lia ZifyBool ZifyNat.
Local Open Scope nat_scope.

(** ** Slots *)
Definition slots (ob : object) : list ref := Oop (class_of ob) :: fields ob.

(** The number of slots scanned, for the F_EPHEMERON flags [ef]. *)
Definition scan (ef : nat -> bool) (i : nat) (ob : object) : nat :=
  if is_context ob then match scan_end ob with Ok e => e | _ => 0 end
  else if ef i || is_weak ob then 1
  else S (length (fields ob)).

(** [i] scans [j] *)
Definition scans (h : heap) (ef : nat -> bool) (i k j : nat) : Prop :=
  exists ob, nth_error h i = Some ob /\ k < scan ef i ob /\ nth_error (slots ob) k = Some (Oop j).

Section Heap.
Variable h : heap.
Hypothesis good : Forall (good_object h) h.

Lemma good_ob : forall i ob, nth_error h i = Some ob -> good_object h ob.
Proof. intros i ob H. rewrite Forall_forall in good. apply good. eapply nth_error_In, H. Qed.

Lemma in_heap : forall i, i < length h -> exists ob, nth_error h i = Some ob.
Proof. intros i H. destruct (nth_error h i) eqn:E; [eauto|]. apply nth_error_None in E. lia. Qed.

Lemma heap_lt : forall i ob, nth_error h i = Some ob -> i < length h.
Proof. intros i ob H. apply nth_error_Some. congruence. Qed.

Lemma scan_le : forall ef i j ob, nth_error h j = Some ob -> scan ef i ob <= length (slots ob).
Proof.
  intros ef i j ob H. destruct (good_ob j ob H) as (_ & _ & Hc & _). unfold scan, scan_end, slots. cbn [length].
  destruct (is_context ob).
  - destruct (Hc eq_refl) as (sp & -> & H1 & H2). lia.
  - destruct (ef i || is_weak ob); lia.
Qed.

Lemma scan_context : forall ef i ob, nth_error h i = Some ob -> is_context ob = true ->
  scan_end ob = Ok (scan ef i ob).
Proof.
  intros ef i ob H Hx. destruct (good_ob i ob H) as (_ & _ & Hc & _). unfold scan. rewrite Hx.
  unfold scan_end. rewrite Hx. destruct (Hc Hx) as (sp & -> & _). reflexivity.
Qed.

Lemma slots_good : forall i ob, nth_error h i = Some ob -> Forall (exists_in h) (slots ob).
Proof. intros i ob H. destruct (good_ob i ob H) as (H1 & H2 & _). constructor; assumption. Qed.

Lemma scans_lt : forall ef i k j, scans h ef i k j -> j < length h.
Proof.
  intros ef i k j (ob & H1 & _ & H3). pose proof (slots_good i ob H1) as G. rewrite Forall_forall in G.
  apply (G (Oop j)). eapply nth_error_In, H3.
Qed.

Lemma slot_eq : forall o ob k, nth_error h o = Some ob ->
  slot h o k = match nth_error (slots ob) k with Some r => Ok r | None => UB end.
Proof. intros o ob k H. unfold slot. rewrite H. reflexivity. Qed.

Lemma unmarked_eq : forall s r, exists_in h r ->
  unmarked h s r = Ok (match r with Oop i => if reached s i then None else Some i | Int _ => None end).
Proof.
  intros s [i|z] H; cbn [unmarked exists_in] in *; [|reflexivity]. apply Nat.ltb_lt in H. rewrite H. reflexivity.
Qed.

(** ** The loops *)
Lemma seek_ok : forall s o ob n cur, nth_error h o = Some ob -> cur + n <= length (slots ob) ->
  exists a, seek h s o cur n = Ok a /\
  match a with
  | None => forall k j, cur <= k < cur + n -> nth_error (slots ob) k = Some (Oop j) -> reached s j = true
  | Some (p, i) => cur <= p < cur + n /\ nth_error (slots ob) p = Some (Oop i) /\ reached s i = false
      /\ i < length h
      /\ forall k j, cur <= k < p -> nth_error (slots ob) k = Some (Oop j) -> reached s j = true
  end.
Proof.
  intros s o ob n. induction n as [|n IH]; intros cur Ho Hn; cbn [seek].
  - exists None. split; [reflexivity|]. intros k j Hk. lia.
  - rewrite (slot_eq o ob cur Ho).
    destruct (nth_error (slots ob) cur) as [r|] eqn:Er; [|apply nth_error_None in Er; lia].
    cbn [obind]. pose proof (slots_good o ob Ho) as G. rewrite Forall_forall in G.
    assert (Gr : exists_in h r) by (apply G; eapply nth_error_In, Er).
    rewrite (unmarked_eq s r Gr). cbn [obind].
    destruct (IH (S cur) Ho ltac:(lia)) as (a & A1 & A2).
    destruct r as [i|z].
    + destruct (reached s i) eqn:Ei.
      * exists a. split; [exact A1|]. destruct a as [[p q]|].
        -- destruct A2 as (B1 & B2 & B3 & B4 & B5). repeat (split; [try lia; assumption|]).
           intros k j Hk Hj. destruct (Nat.eq_dec k cur) as [->|]; [congruence|]. apply (B5 k j); [lia|exact Hj].
        -- intros k j Hk Hj. destruct (Nat.eq_dec k cur) as [->|]; [congruence|]. apply (A2 k j); [lia|exact Hj].
      * exists (Some (cur, i)). split; [reflexivity|]. cbn in Gr.
        repeat (split; [try lia; assumption|]). intros k j Hk. lia.
    + exists a. split; [exact A1|]. destruct a as [[p q]|].
      * destruct A2 as (B1 & B2 & B3 & B4 & B5). repeat (split; [try lia; assumption|]).
        intros k j Hk Hj. destruct (Nat.eq_dec k cur) as [->|]; [congruence|]. apply (B5 k j); [lia|exact Hj].
      * intros k j Hk Hj. destruct (Nat.eq_dec k cur) as [->|]; [congruence|]. apply (A2 k j); [lia|exact Hj].
Qed.

(** ** Counting the unmarked objects *)
Definition unm (s : marks) : nat := length (filter (fun i => negb (reached s i)) (seq 0 (length h))).

Lemma filter_le : forall (f g : nat -> bool) l, (forall x, f x = true -> g x = true) ->
  length (filter f l) <= length (filter g l).
Proof.
  intros f g l H. induction l as [|x l IH]; cbn; [lia|].
  destruct (f x) eqn:F; [rewrite (H x F); cbn; lia|]. destruct (g x); cbn; lia.
Qed.

Lemma filter_lt : forall (f g : nat -> bool) l i, (forall x, f x = true -> g x = true) ->
  In i l -> f i = false -> g i = true -> length (filter f l) < length (filter g l).
Proof.
  intros f g l i H Hi Hf Hg. induction l as [|x l IH]; [destruct Hi|].
  cbn. destruct Hi as [->|Hi].
  - rewrite Hf, Hg. cbn. pose proof (filter_le f g l H). lia.
  - specialize (IH Hi). destruct (f x) eqn:F; [rewrite (H x F); cbn; lia|]. destruct (g x); cbn; lia.
Qed.

Lemma unm_le : forall s, unm s <= length h.
Proof.
  intros s. unfold unm. rewrite <- (seq_length (length h) 0) at 2.
  generalize (seq 0 (length h)). intros l. induction l as [|x l IH]; cbn; [lia|].
  destruct (negb (reached s x)); cbn; lia.
Qed.

Lemma reached_set : forall s i b k, reached (set_reached s i b) k = if Nat.eqb k i then b else reached s k.
Proof. reflexivity. Qed.

Lemma unm_set : forall s i, i < length h -> reached s i = false -> unm (set_reached s i true) < unm s.
Proof.
  intros s i Hi Hr. unfold unm. apply filter_lt with (i := i).
  - intros x. rewrite reached_set. destruct (Nat.eqb x i); [discriminate|auto].
  - apply in_seq. lia.
  - rewrite reached_set, Nat.eqb_refl. reflexivity.
  - rewrite Hr. reflexivity.
Qed.

Lemma unm_set_le : forall s i, unm (set_reached s i true) <= unm s.
Proof.
  intros s i. unfold unm. apply filter_le. intros x. rewrite reached_set.
  destruct (Nat.eqb x i); [discriminate|auto].
Qed.

(** ** Marking from an object *)
Definition isOne (l : label) (i : nat) : Prop := l = MarkOne i.

Definition pending (q : list (nat * nat * nat)) (l : label) (i k : nat) : Prop :=
  (exists cur fin, In (i, cur, fin) q /\ cur <= k < fin)
  \/ (exists cur fin, l = MarkRange i cur fin /\ cur <= k < fin).

(** [i] has been marked since [s0]. *)
Definition new (s0 s : marks) (i : nat) : Prop := reached s i = true /\ reached s0 i = false.

(** What is to be marked from the roots [R]: [Q] holds of the roots and is closed. *)
Definition closed_pred (s0 : marks) (Q : nat -> Prop) : Prop :=
  forall i k j, Q i -> reached s0 i = false -> scans h (ephf s0) i k j -> Q j.

Definition buffered (s0 : marks) (i : nat) : Prop :=
  ephf s0 i = true /\ exists ob, nth_error h i = Some ob /\ is_context ob = false.

Record linv (s0 s : marks) (q : list (nat * nat * nat)) (l : label) (Q : nat -> Prop) : Prop := {
  l_eph : ephf s = ephf s0;
  l_sub : forall i, reached s0 i = true -> reached s i = true;
  l_closed : forall i k j, new s0 s i -> ~ isOne l i -> scans h (ephf s0) i k j ->
    reached s j = true \/ isOne l j \/ pending q l i k;
  l_sound : forall i, new s0 s i \/ isOne l i -> Q i;
  l_ranges : forall i cur fin, In (i, cur, fin) q \/ l = MarkRange i cur fin ->
    new s0 s i /\ exists ob, nth_error h i = Some ob /\ fin <= scan (ephf s0) i ob;
  l_one : forall i, isOne l i -> i < length h /\ reached s0 i = false;
  l_buf : exists nb, buffer s = buffer s0 ++ nb /\ NoDup nb /\
    forall i, In i nb <-> new s0 s i /\ ~ isOne l i /\ buffered s0 i;
  l_lt : forall i, new s0 s i -> i < length h
}.

Definition weight (s : marks) (l : label) : nat :=
  match l with
  | MarkRange _ _ _ => 1
  | MarkOne i => if reached s i then 3 else 2
  | MarkPop => 0
  end.

Record marked_from (s0 s : marks) (R : list ref) (Q : nat -> Prop) : Prop := {
  m_eph : ephf s = ephf s0;
  m_sub : forall i, reached s0 i = true -> reached s i = true;
  m_roots : forall i, In (Oop i) R -> reached s i = true;
  m_closed : forall i k j, new s0 s i -> scans h (ephf s0) i k j -> reached s j = true;
  m_sound : forall i, new s0 s i -> Q i;
  m_buf : exists nb, buffer s = buffer s0 ++ nb /\ NoDup nb /\
    forall i, In i nb <-> new s0 s i /\ buffered s0 i;
  m_lt : forall i, new s0 s i -> i < length h
}.

Lemma new_set : forall s0 s i x, new s0 (set_reached s i true) x <->
  (x = i /\ reached s0 i = false) \/ new s0 s x.
Proof.
  intros s0 s i x. unfold new. rewrite reached_set. destruct (Nat.eqb_spec x i) as [->|]; split; try tauto;
    (intros [[-> ?]|?]; tauto).
Qed.

Lemma reached_mono : forall s i x, reached s x = true -> reached (set_reached s i true) x = true.
Proof. intros s i x H. rewrite reached_set. destruct (Nat.eqb x i); auto. Qed.

Lemma mark_loop_ok : forall s0 Q, closed_pred s0 Q ->
  forall fuel s q l, linv s0 s q l Q -> 5 * unm s + 2 * length q + weight s l < fuel ->
  exists s', mark_loop fuel h s q l = Ok s' /\ linv s0 s' [] MarkPop Q
    /\ (forall i, reached s i = true -> reached s' i = true)
    /\ (forall i, isOne l i -> reached s' i = true).
Proof.
  intros s0 Q HQ fuel. induction fuel as [|fuel IH]; intros s q l HI Hf; [lia|].
  destruct l as [o cur fin|i|]; cbn [mark_loop].
  - (* range *)
    destruct (l_ranges _ _ _ _ _ HI o cur fin) as (N1 & ob & O1 & O2); [auto|].
    pose proof (scan_le (ephf s0) o o ob O1) as Hle.
    destruct (le_lt_dec fin cur) as [Hcf|Hcf].
    + replace (fin - cur) with 0 by lia. cbn [seek obind].
      destruct (IH s q MarkPop) as (s' & R1 & R2 & R3 & R4).
      * destruct HI as [H1 H2 H3 H4 H5 H6 H7 H8]. split; auto.
        -- intros x k j Hx _ Hs. destruct (H3 x k j Hx) as [A|[A|A]]; auto; [discriminate|discriminate|].
           destruct A as [A|(c & f & A & B)]; [right; right; left; exact A|]. injection A as <- <- <-. lia.
        -- intros x [Hx|Hx]; [|discriminate]. auto.
        -- intros x c f [Hx|Hx]; [|discriminate]. eauto.
        -- intros x Hx. discriminate.
        -- destruct H7 as (nb & B1 & B2 & B3). exists nb. split; [exact B1|]. split; [exact B2|].
           intros x. rewrite B3. unfold isOne. intuition discriminate.
      * cbn [weight] in *. lia.
      * exists s'. split; [exact R1|]. split; [exact R2|]. split; [exact R3|]. intros x Hx. discriminate.
    + destruct (seek_ok s o ob (fin - cur) cur O1) as (a & A1 & A2); [lia|]. rewrite A1. cbn [obind].
      replace (cur + (fin - cur)) with fin in A2 by lia.
      destruct a as [[k i]|].
      * destruct A2 as (B1 & B2 & B3 & B4 & B5).
        destruct (seek_ok (set_reached s i true) o ob (fin - S k) (S k) O1) as (b & C1 & C2); [lia|].
        rewrite C1. cbn [obind]. replace (S k + (fin - S k)) with fin in C2 by lia.
        set (s1 := set_reached s i true) in *.
        set (q1 := match b with Some (k2, _) => (o, k2, fin) :: q | None => q end).
        assert (Hi0 : reached s0 i = false).
        { destruct (reached s0 i) eqn:E; [|reflexivity]. apply (l_sub _ _ _ _ _ HI) in E. congruence. }
        assert (HU : unm s1 < unm s) by (apply unm_set; assumption).
        destruct (IH s1 q1 (MarkOne i)) as (s' & R1 & R2 & R3 & R4).
        -- destruct HI as [H1 H2 H3 H4 H5 H6 H7 H8]. split.
           ++ exact H1.
           ++ intros x Hx. apply reached_mono; auto.
           ++ intros x k' j Hx Hno Hs. unfold s1 in Hx. apply new_set in Hx. destruct Hx as [[-> _]|Hx].
              { exfalso. apply Hno. reflexivity. }
              destruct (H3 x k' j Hx) as [A|[A|A]]; auto; try discriminate.
              { left. apply reached_mono, A. }
              destruct A as [(c & f & A & B)|(c & f & A & B)].
              { right. right. left. exists c, f. split; [|exact B]. unfold q1. destruct b as [[k2 i2]|]; [right; exact A|exact A]. }
              injection A as <- <- <-. destruct Hs as (ob' & S1 & S2 & S3).
              assert (ob' = ob) by congruence. subst ob'.
              destruct (Nat.eq_dec k' k) as [->|]; [right; left; unfold isOne; congruence|].
              destruct (le_lt_dec k' k).
              { left. apply reached_mono. apply (B5 k' j); [lia|exact S3]. }
              unfold q1. destruct b as [[k2 i2]|].
              { destruct C2 as (D1 & D2 & D3 & D4 & D5). destruct (le_lt_dec k2 k').
                - right. right. left. exists k2, fin. split; [left; reflexivity|lia].
                - left. apply (D5 k' j); [lia|exact S3]. }
              left. apply (C2 k' j); [lia|exact S3].
           ++ intros x [Hx|Hx].
              { unfold s1 in Hx. apply new_set in Hx. destruct Hx as [[-> _]|Hx]; [|auto].
                apply (HQ o k i); [apply H4; left; exact N1|apply N1|exists ob; repeat split; auto; lia]. }
              { unfold isOne in Hx. injection Hx as <-.
                apply (HQ o k i); [apply H4; left; exact N1|apply N1|exists ob; repeat split; auto; lia]. }
           ++ intros x c f [Hx|Hx]; [|discriminate].
              assert (HX : In (x, c, f) q \/ (x = o /\ f = fin)).
              { unfold q1 in Hx. destruct b as [[k2 i2]|]; [destruct Hx as [Hx|Hx]; [injection Hx as <- <- <-; auto|auto]|auto]. }
              destruct HX as [HX|[-> ->]].
              { destruct (H5 x c f) as (X1 & X2); [auto|]. split; [apply new_set; auto|exact X2]. }
              { split; [apply new_set; auto|]. eauto. }
           ++ intros x Hx. unfold isOne in Hx. injection Hx as <-. auto.
           ++ destruct H7 as (nb & E1 & E2 & E3). exists nb. split; [exact E1|]. split; [exact E2|].
              intros x. rewrite E3. unfold s1. rewrite new_set. unfold isOne. split.
              { intros (X1 & _ & X3). split; [auto|]. split; [|exact X3]. intros X. injection X as <-.
                destruct X1. congruence. }
              { intros (X1 & X2 & X3). destruct X1 as [[-> _]|X1]; [exfalso; auto|]. repeat split; try apply X1; try apply X3. discriminate. }
           ++ intros x Hx. apply new_set in Hx. destruct Hx as [[-> _]|Hx]; [exact B4|auto].
        -- cbn [weight] in *. unfold s1 at 2. rewrite reached_set, Nat.eqb_refl.
           assert (length q1 <= S (length q)) by (unfold q1; destruct b as [[? ?]|]; cbn; lia). lia.
        -- exists s'. split; [exact R1|]. split; [exact R2|]. split.
           { intros x Hx. apply R3, reached_mono, Hx. }
           { intros x Hx. discriminate. }
      * destruct (IH s q MarkPop) as (s' & R1 & R2 & R3 & R4).
        -- destruct HI as [H1 H2 H3 H4 H5 H6 H7 H8]. split; auto.
           ++ intros x k j Hx _ Hs. destruct (H3 x k j Hx) as [A|[A|A]]; auto; [discriminate|discriminate|].
              destruct A as [A|(c & f & A & B)]; [right; right; left; exact A|]. injection A as <- <- <-.
              left. destruct Hs as (ob' & S1 & S2 & S3). assert (ob' = ob) by congruence. subst ob'.
              apply (A2 k j); [lia|exact S3].
           ++ intros x [Hx|Hx]; [|discriminate]. auto.
           ++ intros x c f [Hx|Hx]; [|discriminate]. eauto.
           ++ intros x Hx. discriminate.
           ++ destruct H7 as (nb & B1 & B2 & B3). exists nb. split; [exact B1|]. split; [exact B2|].
              intros x. rewrite B3. unfold isOne. intuition discriminate.
        -- cbn [weight] in *. lia.
        -- exists s'. split; [exact R1|]. split; [exact R2|]. split; [exact R3|]. intros x Hx. discriminate.
  - (* one *)
    destruct (l_one _ _ _ _ _ HI i eq_refl) as [Hi Hi0]. destruct (in_heap i Hi) as [ob O1]. rewrite O1.
    set (s1 := set_reached s i true) in *.
    pose proof (good_ob i ob O1) as (G1 & G2 & G3 & G4).
    rewrite (unmarked_eq s1 (Oop (class_of ob)) G1). cbn [obind].
    assert (E0 : ephf s1 = ephf s0) by apply (l_eph _ _ _ _ _ HI).
    rewrite E0.
    assert (HW : 5 * unm s1 + 3 <= 5 * unm s + weight s (MarkOne i)).
    { cbn [weight]. destruct (reached s i) eqn:Er; [pose proof (unm_set_le s i); fold s1 in H; lia|].
      pose proof (unm_set s i Hi Er) as HX. fold s1 in HX. lia. }
    assert (HN : forall x, new s0 s1 x <-> x = i \/ new s0 s x).
    { intros x. unfold s1. rewrite new_set. intuition congruence. }
    assert (Hbuf : exists nb, buffer s = buffer s0 ++ nb /\ NoDup nb /\ ~ In i nb /\
              forall x, In x nb <-> (new s0 s1 x /\ x <> i) /\ buffered s0 x).
    { destruct (l_buf _ _ _ _ _ HI) as (nb & E1 & E2 & E3). exists nb. split; [exact E1|]. split; [exact E2|]. split.
      - rewrite E3. intros (_ & X & _). apply X. reflexivity.
      - intros x. rewrite E3, HN. unfold isOne. split.
        + intros (X1 & X2 & X3). repeat split; try apply X1; try apply X3; [auto|]. intros ->. auto.
        + intros ((X1 & X2) & X3). split; [tauto|]. split; [|exact X3]. intros X. injection X. congruence. }
    destruct Hbuf as (nb & E1 & E2 & E3 & E4).
    (* the next label, generically *)
    assert (HG : forall s2 l2, reached s2 = reached s1 -> ephf s2 = ephf s1 ->
       (exists nb2, buffer s2 = buffer s0 ++ nb2 /\ NoDup nb2 /\
          forall x, In x nb2 <-> new s0 s1 x /\ ~ isOne l2 x /\ buffered s0 x) ->
       (forall x, isOne l2 x -> x = class_of ob /\ reached s1 x = false) ->
       (forall x c f, l2 = MarkRange x c f -> x = i /\ c = 0 /\ f <= scan (ephf s0) i ob) ->
       (forall k j, k < scan (ephf s0) i ob -> nth_error (slots ob) k = Some (Oop j) ->
           reached s1 j = true \/ isOne l2 j \/ pending q l2 i k) ->
       0 < scan (ephf s0) i ob ->
       exists s', mark_loop fuel h s2 q l2 = Ok s' /\ linv s0 s' [] MarkPop Q
         /\ (forall x, reached s x = true -> reached s' x = true)
         /\ (forall x, isOne (MarkOne i) x -> reached s' x = true)).
    { intros s2 l2 F1 F2 F3 F4 F5 F6 F7.
      assert (HR : forall x, new s0 s2 x <-> new s0 s1 x) by (intros x; unfold new; rewrite F1; tauto).
      destruct (IH s2 q l2) as (s' & R1 & R2 & R3 & R4).
      - destruct HI as [H1 H2 H3 H4 H5 H6 H7 H8]. split.
        + congruence.
        + intros x Hx. rewrite F1. apply reached_mono; auto.
        + intros x k j Hx Hno Hs. rewrite F1. apply HR, HN in Hx. destruct Hx as [->|Hx].
          * destruct Hs as (ob' & S1 & S2 & S3). assert (ob' = ob) by congruence. subst ob'. eauto.
          * destruct (Nat.eq_dec x i) as [->|Hxi].
            { destruct Hs as (ob' & S1 & S2 & S3). assert (ob' = ob) by congruence. subst ob'. eauto. }
            destruct (H3 x k j Hx) as [A|[A|A]]; auto.
            { unfold isOne. congruence. }
            { left. apply reached_mono, A. }
            { unfold isOne in A. injection A as <-. left. unfold s1. rewrite reached_set, Nat.eqb_refl. reflexivity. }
            { destruct A as [A|(c & f & A & _)]; [right; right; left; exact A|discriminate]. }
        + intros x [Hx|Hx].
          * apply HR, HN in Hx. destruct Hx as [->|Hx]; apply H4; [right; reflexivity|auto].
          * destruct (F4 x Hx) as [-> _]. apply (HQ i 0 (class_of ob)); [apply H4; right; reflexivity|exact Hi0|].
            exists ob. repeat split; auto.
        + intros x c f [Hx|Hx].
          * destruct (H5 x c f) as (X1 & X2); [auto|]. split; [apply HR, HN; auto|exact X2].
          * destruct (F5 x c f Hx) as (-> & -> & X). split; [apply HR, HN; auto|]. eauto.
        + intros x Hx. destruct (F4 x Hx) as [-> X]. split; [exact G1|].
          destruct (reached s0 (class_of ob)) eqn:E; [|reflexivity].
          apply H2 in E. apply (reached_mono s i) in E. fold s1 in E. congruence.
        + destruct F3 as (nb2 & X1 & X2 & X3). exists nb2. split; [exact X1|]. split; [exact X2|].
          intros x. rewrite X3, HR. reflexivity.
        + intros x Hx. apply HR, HN in Hx. destruct Hx as [->|Hx]; auto.
      - assert (Hu2 : unm s2 = unm s1) by (unfold unm; rewrite F1; reflexivity).
        rewrite Hu2. assert (weight s2 l2 < 3); [|lia].
        destruct l2 as [| x |]; cbn [weight]; try lia. rewrite F1. destruct (F4 x eq_refl) as [_ X]. rewrite X. lia.
      - exists s'. split; [exact R1|]. split; [exact R2|]. split.
        + intros x Hx. apply R3. rewrite F1. apply reached_mono, Hx.
        + intros x Hx. unfold isOne in Hx. injection Hx as <-. apply R3. rewrite F1. unfold s1.
          rewrite reached_set, Nat.eqb_refl. reflexivity. }
    destruct (is_context ob) eqn:Hctx.
    { rewrite (scan_context (ephf s0) i ob O1 Hctx). cbn [obind].
      assert (HP : 0 < scan (ephf s0) i ob).
      { unfold scan. rewrite Hctx. destruct (G3 eq_refl) as (sp & X1 & X2 & X3). unfold scan_end. rewrite Hctx, X1. lia. }
      apply HG; auto.
      - exists nb. split; [exact E1|]. split; [exact E2|]. intros x. rewrite E4. unfold isOne. split.
        + intros ((X1 & X2) & X3). split; [exact X1|]. split; [discriminate|exact X3].
        + intros (X1 & _ & X3). split; [split; [exact X1|]|exact X3]. intros ->.
          destruct X3 as (_ & ob' & Y1 & Y2). congruence.
      - intros x Hx. discriminate.
      - intros x c f Hx. injection Hx as <- <- <-. auto.
      - intros k j Hk Hj. right. right. right. exists 0, (scan (ephf s0) i ob). split; [reflexivity|lia]. }
    assert (HScan : scan (ephf s0) i ob = if ephf s0 i || is_weak ob then 1 else S (length (fields ob))).
    { unfold scan. rewrite Hctx. reflexivity. }
    destruct (ephf s0 i || is_weak ob) eqn:Hew.
    { set (s2 := if ephf s0 i then add_buf s1 i else s1).
      assert (F1 : reached s2 = reached s1) by (unfold s2; destruct (ephf s0 i); reflexivity).
      assert (F2 : ephf s2 = ephf s1) by (unfold s2; destruct (ephf s0 i); reflexivity).
      assert (HB : forall l2, ~ isOne l2 i -> (forall x, isOne l2 x -> reached s1 x = false) ->
         exists nb2, buffer s2 = buffer s0 ++ nb2 /\ NoDup nb2 /\
          forall x, In x nb2 <-> new s0 s1 x /\ ~ isOne l2 x /\ buffered s0 x).
      { intros l2 L1 L2. unfold s2. destruct (ephf s0 i) eqn:He.
        - exists (nb ++ [i]). split; [cbn [add_buf buffer s1 set_reached]; rewrite E1, app_assoc; reflexivity|]. split.
          + apply NoDup_Add with (a := i) (l := nb); [|split; assumption].
            pose proof (Add_app i nb []) as X. rewrite app_nil_r in X. exact X.
          + intros x. rewrite in_app_iff, E4. cbn [In]. split.
            * intros [((X1 & X2) & X3)|[<-|[]]].
              -- split; [exact X1|]. split; [|exact X3]. intros X. apply L2 in X. destruct X1. congruence.
              -- split; [apply HN; auto|]. split; [exact L1|]. split; [exact He|eauto].
            * intros (X1 & X2 & X3). destruct (Nat.eq_dec x i) as [->|]; [auto|]. left. auto.
        - exists nb. split; [exact E1|]. split; [exact E2|]. intros x. rewrite E4. split.
          + intros ((X1 & X2) & X3). split; [exact X1|]. split; [|exact X3]. intros X. apply L2 in X. destruct X1. congruence.
          + intros (X1 & X2 & X3). split; [split; [exact X1|]|exact X3]. intros ->. destruct X3. congruence. }
      destruct (reached s1 (class_of ob)) eqn:Hc.
      - apply HG; auto.
        + apply HB; [discriminate|]. intros x Hx. discriminate.
        + intros x Hx. discriminate.
        + intros x c f Hx. discriminate.
        + intros k j Hk Hj. rewrite HScan in Hk. assert (k = 0) by lia. subst k. cbn in Hj. injection Hj as <-. auto.
        + rewrite HScan. lia.
      - apply HG; auto.
        + apply HB.
          * unfold isOne. intros X. injection X as X. rewrite X in Hc. unfold s1 in Hc.
            rewrite reached_set, Nat.eqb_refl in Hc. discriminate.
          * intros x Hx. unfold isOne in Hx. injection Hx as <-. exact Hc.
        + intros x Hx. unfold isOne in Hx. injection Hx as <-. auto.
        + intros x c f Hx. discriminate.
        + intros k j Hk Hj. rewrite HScan in Hk. assert (k = 0) by lia. subst k. cbn in Hj. injection Hj as <-.
          right. left. reflexivity.
        + rewrite HScan. lia. }
    assert (Hni : ~ buffered s0 i).
    { intros [X _]. rewrite X in Hew. discriminate. }
    assert (HB : forall l2, (forall x, isOne l2 x -> reached s1 x = false) ->
       exists nb2, buffer s1 = buffer s0 ++ nb2 /\ NoDup nb2 /\
        forall x, In x nb2 <-> new s0 s1 x /\ ~ isOne l2 x /\ buffered s0 x).
    { intros l2 L2. exists nb. split; [exact E1|]. split; [exact E2|]. intros x. rewrite E4. split.
      - intros ((X1 & X2) & X3). split; [exact X1|]. split; [|exact X3]. intros X. apply L2 in X. destruct X1. congruence.
      - intros (X1 & X2 & X3). split; [split; [exact X1|]|exact X3]. intros ->. auto. }
    assert (HP : 0 < scan (ephf s0) i ob) by (rewrite HScan; lia).
    destruct (fields ob) as [|f0 fs] eqn:Hfs.
    + destruct (reached s1 (class_of ob)) eqn:Hc.
      * apply HG; auto.
        -- apply HB. intros x Hx. discriminate.
        -- intros x Hx. discriminate.
        -- intros x c f Hx. discriminate.
        -- intros k j Hk Hj. rewrite HScan in Hk. cbn in Hk. assert (k = 0) by lia. subst k. cbn in Hj. injection Hj as <-. auto.
      * apply HG; auto.
        -- apply HB. intros x Hx. unfold isOne in Hx. injection Hx as <-. exact Hc.
        -- intros x Hx. unfold isOne in Hx. injection Hx as <-. auto.
        -- intros x c f Hx. discriminate.
        -- intros k j Hk Hj. rewrite HScan in Hk. cbn in Hk. assert (k = 0) by lia. subst k. cbn in Hj. injection Hj as <-.
           right. left. reflexivity.
    + rewrite <- HScan. apply HG; auto.
      * apply HB. intros x Hx. discriminate.
      * intros x Hx. discriminate.
      * intros x c f Hx. injection Hx as <- <- <-. auto.
      * intros k j Hk Hj. right. right. right. exists 0, (scan (ephf s0) i ob). split; [reflexivity|lia].
  - (* pop *)
    destruct q as [|[[o cur] fin] q].
    + exists s. split; [reflexivity|]. split; [exact HI|]. split; [auto|]. intros x Hx. discriminate.
    + destruct (IH s q (MarkRange o cur fin)) as (s' & R1 & R2 & R3 & R4).
      * destruct HI as [H1 H2 H3 H4 H5 H6 H7 H8]. split; auto.
        -- intros x k j Hx _ Hs. destruct (H3 x k j Hx) as [A|[A|A]]; auto; [discriminate|discriminate|].
           destruct A as [(c & f & A & B)|(c & f & A & B)]; [|discriminate].
           destruct A as [A|A]; [injection A as <- <- <-; right; right; right; eauto|].
           right. right. left. eauto.
        -- intros x [Hx|Hx]; [|discriminate]. auto.
        -- intros x c f [Hx|Hx]; [apply (H5 x c f); left; right; exact Hx|].
           injection Hx as <- <- <-. apply (H5 o cur fin). left. left. reflexivity.
        -- intros x Hx. discriminate.
        -- destruct H7 as (nb & B1 & B2 & B3). exists nb. split; [exact B1|]. split; [exact B2|].
           intros x. rewrite B3. unfold isOne. intuition discriminate.
      * cbn [weight length] in *. lia.
      * exists s'. split; [exact R1|]. split; [exact R2|]. split; [exact R3|]. intros x Hx. discriminate.
Qed.

Lemma mark_an_oop_ok : forall s i Q, i < length h -> reached s i = false ->
  closed_pred s Q -> Q i -> exists s', mark_an_oop h s i = Ok s' /\ marked_from s s' [Oop i] Q.
Proof.
  intros s i Q Hi Hr HQ Hq. unfold mark_an_oop.
  destruct (mark_loop_ok s Q HQ (enough h) s [] (MarkOne i)) as (s' & R1 & R2 & R3 & R4).
  - split; auto.
    + intros x k j [X1 X2]. congruence.
    + intros x [[X1 X2]|Hx]; [congruence|]. unfold isOne in Hx. injection Hx as <-. exact Hq.
    + intros x c f [[]|Hx]. discriminate.
    + intros x Hx. unfold isOne in Hx. injection Hx as <-. auto.
    + exists []. split; [symmetry; apply app_nil_r|]. split; [constructor|].
      intros x. split; [intros []|]. intros ([X1 X2] & _). congruence.
    + intros x [X1 X2]. congruence.
  - cbn [weight length]. rewrite Hr. pose proof (unm_le s). unfold enough. lia.
  - exists s'. split; [exact R1|]. destruct R2 as [H1 H2 H3 H4 H5 H6 H7 H8]. split; auto.
    + intros x [Hx|[]]. injection Hx as <-. apply R4. reflexivity.
    + intros x k j Hx Hs. destruct (H3 x k j Hx) as [A|[A|A]]; auto; [discriminate|discriminate|].
      destruct A as [(c & f & [] & _)|(c & f & A & _)]. discriminate.
    + destruct H7 as (nb & B1 & B2 & B3). exists nb. split; [exact B1|]. split; [exact B2|].
      intros x. rewrite B3. unfold isOne. intuition discriminate.
Qed.

Lemma marked_refl : forall s Q, marked_from s s [] Q.
Proof.
  intros s Q. split; auto.
  - intros x k j [X1 X2]. congruence.
  - intros x [X1 X2]. congruence.
  - exists []. split; [symmetry; apply app_nil_r|]. split; [constructor|].
    intros x. split; [intros []|]. intros ([X1 X2] & _). congruence.
  - intros x [X1 X2]. congruence.
Qed.

Lemma marked_trans : forall s0 s1 s2 R1 R2 Q, marked_from s0 s1 R1 Q -> marked_from s1 s2 R2 Q ->
  marked_from s0 s2 (R1 ++ R2) Q.
Proof.
  intros s0 s1 s2 R1 R2 Q [A1 A2 A3 A4 A5 A6 A7] [B1 B2 B3 B4 B5 B6 B7].
  assert (HN : forall i, new s0 s2 i <-> new s0 s1 i \/ (new s1 s2 i)).
  { intros i. unfold new. split.
    - intros [X1 X2]. destruct (reached s1 i) eqn:E; auto.
    - intros [[X1 X2]|[X1 X2]]; auto. split; [exact X1|].
      destruct (reached s0 i) eqn:E; [|reflexivity]. apply A2 in E. congruence. }
  split.
  - congruence.
  - auto.
  - intros i Hi. apply in_app_iff in Hi. destruct Hi; auto.
  - intros i k j Hi Hs. apply HN in Hi. destruct Hi as [Hi|Hi]; [eauto|]. apply (B4 i k j Hi). rewrite A1. exact Hs.
  - intros i Hi. apply HN in Hi. destruct Hi; auto.
  - destruct A6 as (n1 & C1 & C2 & C3). destruct B6 as (n2 & D1 & D2 & D3).
    exists (n1 ++ n2). split; [rewrite D1, C1, app_assoc; reflexivity|]. split.
    + clear - C2 C3 D2 D3. assert (Hd : forall x, In x n1 -> In x n2 -> False).
      { intros x X1 X2. apply C3 in X1. apply D3 in X2. destruct X1 as [[X1 _] _], X2 as [[_ X2] _]. congruence. }
      clear C3 D3. induction n1 as [|x n1 IH]; [exact D2|]. cbn. inversion C2; subst. constructor.
      * rewrite in_app_iff. intros [X|X]; [auto|]. apply (Hd x); [left; reflexivity|exact X].
      * apply IH; [assumption|]. intros y Y1 Y2. apply (Hd y); [right; exact Y1|exact Y2].
    + intros i. rewrite in_app_iff, C3, D3, HN. unfold buffered. rewrite A1. tauto.
  - intros i Hi. apply HN in Hi. destruct Hi; auto.
Qed.

Lemma closed_mono : forall s0 s1 R Q, marked_from s0 s1 R Q -> closed_pred s0 Q -> closed_pred s1 Q.
Proof.
  intros s0 s1 R Q H HQ i k j Qi Hr Hs. apply (HQ i k j Qi).
  - destruct (reached s0 i) eqn:E; [|reflexivity]. apply (m_sub _ _ _ _ H) in E. congruence.
  - rewrite <- (m_eph _ _ _ _ H). exact Hs.
Qed.

Lemma maybe_mark_ok : forall s r Q, exists_in h r -> closed_pred s Q ->
  (forall i, r = Oop i -> Q i) -> exists s', maybe_mark h s r = Ok s' /\ marked_from s s' [r] Q.
Proof.
  intros s r Q Hr HQ Hq. unfold maybe_mark. rewrite (unmarked_eq s r Hr). cbn [obind].
  assert (HS : forall i, r = Oop i -> reached s i = true -> marked_from s s [r] Q).
  { intros i -> Hi. destruct (marked_refl s Q). split; auto. intros x [X|[]]. injection X as <-. exact Hi. }
  destruct r as [i|z].
  - destruct (reached s i) eqn:Ei; [exists s; split; eauto|]. apply mark_an_oop_ok; auto.
  - exists s. split; [reflexivity|]. destruct (marked_refl s Q). split; auto. intros x [X|[]]. discriminate.
Qed.

Lemma mark_range_ok : forall l s Q, Forall (exists_in h) l -> closed_pred s Q ->
  (forall i, In (Oop i) l -> Q i) -> exists s', mark_range h s l = Ok s' /\ marked_from s s' l Q.
Proof.
  intros l. induction l as [|r l IH]; intros s Q Hl HQ Hq; cbn [mark_range].
  - exists s. split; [reflexivity|apply marked_refl].
  - inversion Hl; subst.
    destruct (maybe_mark_ok s r Q) as (s1 & A1 & A2); auto.
    { intros i ->. apply Hq. left. reflexivity. }
    rewrite A1. cbn [obind].
    destruct (IH s1 Q) as (s2 & B1 & B2); auto.
    { eapply closed_mono; eassumption. }
    { intros i Hi. apply Hq. right. exact Hi. }
    exists s2. split; [exact B1|]. apply (marked_trans s s1 s2 [r] l Q A2 B2).
Qed.
End Heap.
