(** Lemmas on the choice of handlers (Exc.v against ExcSpec.v). *)
From Coq Require Import List ZArith Bool Lia ZifyBool ZifyNat.
From Verif Require Import Base ExcLang Exc ExcSpec.
Import ListNotations.
Local Open Scope nat_scope.

Lemma same_class_eq : forall c d, same_class c d = true <-> c = d.
Proof.
  induction c as [ | x c IH ]; intros [ | y d ]; cbn; split; intros K; try congruence; try easy.
  - apply andb_true_iff in K. destruct K as [ A B ]. apply Nat.eqb_eq in A. apply IH in B. congruence.
  - injection K as -> ->. rewrite Nat.eqb_refl. apply IH. reflexivity.
Qed.

Lemma loop_short : forall c self d,
  length c < length self -> goodness_loop self c d = (d + Z.of_nat (length c))%Z.
Proof.
  induction c as [ | x c IH ]; intros self d K; cbn [goodness_loop].
  - destruct (same_class [] self) eqn:E; [ apply same_class_eq in E; subst; cbn in K; lia | cbn; lia ].
  - destruct (same_class (x :: c) self) eqn:E;
      [ apply same_class_eq in E; subst; lia | ].
    rewrite IH by (cbn in K; lia). cbn [length]. lia.
Qed.

Lemma loop_match : forall pre self d,
  goodness_loop self (pre ++ self) d = Z.of_nat (length self).
Proof.
  induction pre as [ | x pre IH ]; intros self d.
  - cbn [app]. destruct self as [ | x s ]; [ reflexivity | ].
    cbn [goodness_loop]. destruct (same_class (x :: s) (x :: s)) eqn:E.
    + rewrite loop_short by (cbn; lia). cbn [length]. lia.
    + assert (same_class (x :: s) (x :: s) = true) by (apply same_class_eq; reflexivity). congruence.
  - cbn [app goodness_loop]. apply IH.
Qed.

Lemma loop_none : forall c self d,
  (forall pre, c <> pre ++ self) -> goodness_loop self c d = (d + Z.of_nat (length c))%Z.
Proof.
  induction c as [ | x c IH ]; intros self d K; cbn [goodness_loop].
  - destruct (same_class [] self) eqn:E; [ | cbn; lia ].
    apply same_class_eq in E. subst. exfalso. apply (K []). reflexivity.
  - destruct (same_class (x :: c) self) eqn:E.
    + apply same_class_eq in E. exfalso. apply (K []). symmetry. symmetry in E. exact E.
    + rewrite IH; [ cbn [length]; lia | ].
      intros pre Q. apply (K (x :: pre)). cbn. congruence.
Qed.

(** The nearest ancestor a selector names. *)
Fixpoint nearest (s : selector) (c : eclass) : option eclass :=
  if names s c then Some c
  else match c with [] => None | _ :: t => nearest s t end.

Lemma names_class : forall c a, names (Class c) a = true <-> c = a.
Proof. intros c a. cbn. destruct (list_eq_dec Nat.eq_dec c a); split; congruence. Qed.

Lemma names_set : forall cs a, names (Set_of cs) a = true <-> In a cs.
Proof.
  intros cs a. cbn. destruct (in_dec (list_eq_dec Nat.eq_dec) a cs); split; congruence || tauto.
Qed.

Lemma nearest_some : forall s c a,
  nearest s c = Some a ->
  names s a = true /\ (exists pre, c = pre ++ a)
  /\ (forall pre b, c = pre ++ b -> length a < length b -> names s b = false).
Proof.
  intros s. induction c as [ | x c IH ]; intros a K; cbn [nearest] in K.
  - destruct (names s []) eqn:E; [ | discriminate ]. injection K as <-.
    split; [ exact E | split; [ exists []; reflexivity | ] ].
    intros pre b Q L. symmetry in Q. apply app_eq_nil in Q. destruct Q as [ _ -> ]. cbn in L. lia.
  - destruct (names s (x :: c)) eqn:E.
    + injection K as <-. split; [ exact E | split; [ exists []; reflexivity | ] ].
      intros pre b Q L. rewrite Q, app_length in L. lia.
    + destruct (IH a K) as (N & (pre & P) & M). split; [ exact N | split ].
      * exists (x :: pre). cbn. congruence.
      * intros [ | y p ] b Q L.
        -- cbn in Q. rewrite <- Q. exact E.
        -- injection Q as _ Q. apply (M p b Q L).
Qed.

Lemma nearest_none : forall s c,
  nearest s c = None -> forall pre b, c = pre ++ b -> names s b = false.
Proof.
  intros s. induction c as [ | x c IH ]; intros K pre b Q; cbn [nearest] in K.
  - destruct (names s []) eqn:E; [ discriminate | ].
    symmetry in Q. apply app_eq_nil in Q. destruct Q as [ _ -> ]. exact E.
  - destruct (names s (x :: c)) eqn:E; [ discriminate | ].
    destruct pre as [ | y p ]; [ cbn in Q; rewrite <- Q; exact E | ].
    injection Q as _ Q. exact (IH K p b Q).
Qed.

Definition deep (c : eclass) : Prop := (Z.of_nat (length c) < 100000)%Z.

Lemma suffix_dec : forall (self c : eclass),
  (exists pre, c = pre ++ self) \/ (forall pre, c <> pre ++ self).
Proof.
  intros self. induction c as [ | x c IH ].
  - destruct self as [ | y s ]; [ left; exists []; reflexivity | ].
    right. intros pre Q. destruct pre; discriminate.
  - destruct (list_eq_dec Nat.eq_dec (x :: c) self) as [ E | E ].
    + left. exists []. exact E.
    + destruct IH as [ (pre & P) | N ].
      * left. exists (x :: pre). cbn. congruence.
      * right. intros [ | y p ] Q; [ exact (E Q) | ]. injection Q as _ Q. exact (N p Q).
Qed.

Lemma suffix_length : forall (p q a b : eclass),
  p ++ a = q ++ b -> length a = length b -> a = b.
Proof.
  intros p. induction p as [ | x p IH ]; intros q a b Q L.
  - destruct q as [ | y q ]; [ exact Q | ]. cbn in Q. subst a. cbn in L. rewrite app_length in L. lia.
  - destruct q as [ | y q ].
    + cbn in Q. subst b. cbn in L. rewrite app_length in L. lia.
    + injection Q as _ Q. exact (IH q a b Q L).
Qed.

Lemma set_goodness : forall cs c z,
  deep c -> (-1 <= z)%Z ->
  let g := fold_left (fun old d => Z.max old (goodness_loop d c (-100000))) cs z in
  (z <= g)%Z
  /\ (forall a pre, In a cs -> c = pre ++ a -> (Z.of_nat (length a) <= g)%Z)
  /\ (g = z \/ exists a pre, In a cs /\ c = pre ++ a /\ g = Z.of_nat (length a)).
Proof.
  induction cs as [ | d cs IH ]; intros c z D Zp; cbn [fold_left].
  - split; [ lia | split; [ intros a pre [] | left; reflexivity ] ].
  - destruct (suffix_dec d c) as [ (pre & P) | N ].
    + assert (G : goodness_loop d c (-100000) = Z.of_nat (length d)) by (rewrite P; apply loop_match).
      rewrite G.
      destruct (IH c (Z.max z (Z.of_nat (length d))) D ltac:(lia)) as (A & B & E). cbv zeta in *.
      split; [ lia | split ].
      * intros a q [ <- | I1 ] Q; [ lia | exact (B a q I1 Q) ].
      * destruct E as [ E | (a & q & I1 & Q & E) ].
        -- rewrite E. destruct (Z.max_spec z (Z.of_nat (length d))) as [ (U & V) | (U & V) ].
           ++ right. exists d, pre. split; [ left; reflexivity | split; [ exact P | exact V ] ].
           ++ left. exact V.
        -- right. exists a, q. split; [ right; exact I1 | split; [ exact Q | exact E ] ].
    + assert (G : goodness_loop d c (-100000) = (-100000 + Z.of_nat (length c))%Z) by (apply loop_none; exact N).
      unfold deep in D. rewrite G. replace (Z.max z (-100000 + Z.of_nat (length c))) with z by lia.
      destruct (IH c z D Zp) as (A & B & E). cbv zeta in *.
      split; [ exact A | split ].
      * intros a q [ <- | I1 ] Q; [ exfalso; exact (N q Q) | exact (B a q I1 Q) ].
      * destruct E as [ E | (a & q & I1 & Q & E) ]; [ left; exact E | ].
        right. exists a, q. split; [ right; exact I1 | split; [ exact Q | exact E ] ].
Qed.

(** goodness: is the depth of the nearest ancestor named. *)
Lemma goodness_nearest : forall s c,
  deep c ->
  match nearest s c with
  | Some a => goodness s c = Z.of_nat (length a)
  | None => (goodness s c <= -1)%Z
  end.
Proof.
  intros [ d | ds ] c D.
  - destruct (nearest (Class d) c) as [ a | ] eqn:E.
    + destruct (nearest_some _ _ _ E) as (N & (pre & P) & _). apply names_class in N. subst a.
      cbn [goodness]. rewrite P. apply loop_match.
    + cbn [goodness]. rewrite loop_none; [ unfold deep in D; lia | ].
      intros pre Q. pose proof (nearest_none _ _ E pre d Q) as K.
      assert (names (Class d) d = true) by (apply names_class; reflexivity). congruence.
  - cbn [goodness]. destruct (set_goodness ds c (-1) D ltac:(lia)) as (A & B & G). cbv zeta in *.
    destruct (nearest (Set_of ds) c) as [ a | ] eqn:E.
    + destruct (nearest_some _ _ _ E) as (N & (pre & P) & M). apply names_set in N.
      pose proof (B a pre N P) as L.
      destruct G as [ G | (b & q & I1 & Q & G) ]; [ lia | ].
      rewrite G in *.
      destruct (Nat.lt_ge_cases (length a) (length b)) as [ W | W ]; [ | lia ].
      pose proof (M q b Q W) as F. apply names_set in I1. congruence.
    + destruct G as [ G | (b & q & I1 & Q & G) ]; [ lia | ].
      pose proof (nearest_none _ _ E q b Q) as F. apply names_set in I1. congruence.
Qed.

Lemma first_naming_some : forall hs a p h,
  first_naming hs a = Some (p, h) ->
  exists l1 s l2, hs = l1 ++ (s, h) :: l2 /\ length l1 = p /\ names s a = true
                  /\ Forall (fun sh => names (fst sh) a = false) l1.
Proof.
  induction hs as [ | (s, g) hs IH ]; intros a p h K; cbn [first_naming] in K; [ discriminate | ].
  destruct (names s a) eqn:E.
  - injection K as <- <-. exists [], s, hs. repeat split; auto.
  - destruct (first_naming hs a) as [ (q, g') | ] eqn:F; [ | discriminate ].
    injection K as <- <-. destruct (IH a q g' F) as (l1 & s' & l2 & -> & L & N & A).
    exists ((s, g) :: l1), s', l2. cbn. repeat split; auto.
Qed.

Lemma first_naming_none : forall hs a,
  first_naming hs a = None -> Forall (fun sh => names (fst sh) a = false) hs.
Proof.
  induction hs as [ | (s, g) hs IH ]; intros a K; cbn [first_naming] in K; [ constructor | ].
  destruct (names s a) eqn:E; [ discriminate | ].
  destruct (first_naming hs a) as [ (q, g') | ] eqn:F; [ discriminate | ].
  constructor; [ exact E | apply IH; exact F ].
Qed.

Lemma choose_some : forall hs c p h,
  choose hs c = Some (p, h) ->
  exists l1 s l2 a, hs = l1 ++ (s, h) :: l2 /\ length l1 = p
    /\ nearest s c = Some a
    /\ Forall (fun sh => match nearest (fst sh) c with
                         | Some b => length b < length a | None => True end) l1
    /\ Forall (fun sh => match nearest (fst sh) c with
                         | Some b => length b <= length a | None => True end) l2.
Proof.
  intros hs. induction c as [ | x c IH ]; intros p h K; cbn [choose] in K.
  - destruct (first_naming hs []) as [ (q, g) | ] eqn:F; [ | discriminate ].
    injection K as <- <-. destruct (first_naming_some _ _ _ _ F) as (l1 & s & l2 & -> & L & N & A).
    exists l1, s, l2, []. repeat split; auto.
    + cbn. rewrite N. reflexivity.
    + eapply Forall_impl; [ | exact A ]. intros (s', h') Q. cbn in *. rewrite Q. exact Logic.I.
    + rewrite Forall_forall. intros (s', h') _. cbn. destruct (names s' []); cbn; lia || exact Logic.I.
  - destruct (first_naming hs (x :: c)) as [ (q, g) | ] eqn:F.
    + injection K as <- <-. destruct (first_naming_some _ _ _ _ F) as (l1 & s & l2 & -> & L & N & A).
      assert (W : forall s' b, nearest s' (x :: c) = Some b -> length b <= length (x :: c)).
      { intros s' b Q. destruct (nearest_some _ _ _ Q) as (_ & (pre & P) & _). rewrite P, app_length. lia. }
      exists l1, s, l2, (x :: c). repeat split; auto.
      * cbn [nearest]. rewrite N. reflexivity.
      * eapply Forall_impl; [ | exact A ]. intros (s', h') Q. cbn [fst] in *.
        destruct (nearest s' (x :: c)) as [ b | ] eqn:E; [ | exact Logic.I ].
        cbn [nearest] in E. rewrite Q in E.
        destruct (nearest_some _ _ _ E) as (_ & (pre & P) & _).
        rewrite P. cbn [length]. rewrite app_length. lia.
      * rewrite Forall_forall. intros (s', h') _. cbn [fst].
        destruct (nearest s' (x :: c)) as [ b | ] eqn:E; [ exact (W s' b E) | exact Logic.I ].
    + destruct (IH p h K) as (l1 & s & l2 & a & -> & L & N & A & B).
      pose proof (first_naming_none _ _ F) as G.
      apply Forall_app in G. destruct G as [ G1 G2 ]. inversion G2 as [ | ? ? G3 G4 ]. subst. cbn in G3.
      exists l1, s, l2, a. repeat split; auto.
      * cbn [nearest]. rewrite G3. exact N.
      * rewrite Forall_forall in *. intros sh Q. cbn [nearest]. rewrite (G1 sh Q). exact (A sh Q).
      * rewrite Forall_forall in *. intros sh Q. cbn [nearest]. rewrite (G4 sh Q). exact (B sh Q).
Qed.

Lemma choose_none : forall hs c,
  choose hs c = None <-> Forall (fun sh => nearest (fst sh) c = None) hs.
Proof.
  intros hs. induction c as [ | x c IH ]; cbn [choose].
  - destruct (first_naming hs []) as [ r | ] eqn:F; split; intros K.
    + discriminate.
    + exfalso. destruct r as (p, h). destruct (first_naming_some _ _ _ _ F) as (l1 & s & l2 & -> & _ & N & _).
      apply Forall_app in K. destruct K as [ _ K ]. inversion K as [ | ? ? Q _ ]. cbn in Q.
      rewrite N in Q. discriminate.
    + apply first_naming_none in F. eapply Forall_impl; [ | exact F ].
      intros sh Q. cbn [nearest]. rewrite Q. reflexivity.
    + reflexivity.
  - destruct (first_naming hs (x :: c)) as [ r | ] eqn:F; split; intros K.
    + discriminate.
    + exfalso. destruct r as (p, h). destruct (first_naming_some _ _ _ _ F) as (l1 & s & l2 & -> & _ & N & _).
      apply Forall_app in K. destruct K as [ _ K ]. inversion K as [ | ? ? Q _ ]. cbn [fst nearest] in Q.
      rewrite N in Q. discriminate.
    + apply first_naming_none in F. apply IH in K. rewrite Forall_forall in *.
      intros sh Q. cbn [nearest]. rewrite (F sh Q). exact (K sh Q).
    + apply IH. apply first_naming_none in F. rewrite Forall_forall in *.
      intros sh Q. specialize (K sh Q). cbn [nearest] in K. rewrite (F sh Q) in K. exact K.
Qed.

Lemma handles_nearest : forall s c,
  handles s c = match nearest s c with Some _ => true | None => false end.
Proof.
  intros s c. unfold handles.
  destruct (choose [(s, Val None)] c) as [ (p, h) | ] eqn:E.
  - destruct (choose_some _ _ _ _ E) as (l1 & s' & l2 & a & Q & _ & N & _).
    destruct l1 as [ | y l1 ]; [ | destruct l1; discriminate ].
    injection Q as -> _ _. rewrite N. reflexivity.
  - apply choose_none in E. inversion E as [ | ? ? Q _ ]. cbn in Q. rewrite Q. reflexivity.
Qed.

(** How good a handler is once those that are active are discounted. *)
Definition effective (active : Z) (i : Z) (s : selector) (c : eclass) : Z :=
  let g := goodness s c in
  if (-1 <? g)%Z && Z.testbit active (i - 1) then (-1)%Z else g.

Fixpoint all_below (active : Z) (i : Z) (hs : list (selector * expr)) (c : eclass) (b : Z) : Prop :=
  match hs with
  | [] => True
  | (s, _) :: hs' => (effective active i s c <= b)%Z /\ all_below active (i + 2) hs' c b
  end.

Lemma best_keep : forall hs i c active best bg,
  all_below active i hs c bg -> best_handler hs i c active best bg = best.
Proof.
  induction hs as [ | (s, h) hs IH ]; intros i c active best bg K; [ reflexivity | ].
  destruct K as [ K1 K2 ]. cbn [best_handler]. cbv zeta. fold (effective active i s c).
  destruct (bg <? effective active i s c)%Z eqn:E; [ lia | ]. apply IH. exact K2.
Qed.

Lemma best_pick : forall l1 s h l2 i c active best bg,
  (bg < effective active (i + 2 * Z.of_nat (length l1)) s c)%Z ->
  all_below active i l1 c (effective active (i + 2 * Z.of_nat (length l1)) s c - 1) ->
  all_below active (i + 2 * Z.of_nat (length l1) + 2) l2 c
            (effective active (i + 2 * Z.of_nat (length l1)) s c) ->
  best_handler (l1 ++ (s, h) :: l2) i c active best bg
  = Some ((i + 2 * Z.of_nat (length l1))%Z, h).
Proof.
  induction l1 as [ | (s', h') l1 IH ]; intros s h l2 i c active best bg B A1 A2.
  - cbn [length app] in *. replace (i + 2 * Z.of_nat 0)%Z with i in * by lia.
    cbn [best_handler]. cbv zeta. fold (effective active i s c).
    destruct (bg <? effective active i s c)%Z eqn:E; [ | lia ].
    apply best_keep. exact A2.
  - cbn [length] in *. destruct A1 as [ A0 A1 ].
    replace (i + 2 * Z.of_nat (S (length l1)))%Z with (i + 2 + 2 * Z.of_nat (length l1))%Z in * by lia.
    cbn [app best_handler]. cbv zeta. fold (effective active i s' c).
    destruct (bg <? effective active i s' c)%Z eqn:E; apply IH; auto; lia.
Qed.

Lemma below_zero : forall hs i c b (g : Z),
  deep c ->
  Forall (fun sh => match nearest (fst sh) c with
                    | Some a => (Z.of_nat (length a) <= g)%Z | None => True end) hs ->
  (-1 <= g)%Z -> b = g -> all_below 0 i hs c b.
Proof.
  induction hs as [ | (s, h) hs IH ]; intros i c b g D K G Q; [ exact Logic.I | ].
  inversion K as [ | ? ? K1 K2 ]. subst. cbn [fst] in K1. cbn [all_below]. split.
  - unfold effective. cbv zeta. rewrite Z.bits_0, andb_false_r.
    pose proof (goodness_nearest s c D) as N. destruct (nearest s c); lia.
  - eapply IH; eauto.
Qed.

(** With no handler active, the search finds the one [choose] says. *)
Theorem best_choose : forall hs c,
  deep c ->
  best_handler hs 1 c 0 None (-1)
  = match choose hs c with
    | Some (p, h) => Some ((1 + 2 * Z.of_nat p)%Z, h)
    | None => None
    end.
Proof.
  intros hs c D. destruct (choose hs c) as [ (p, h) | ] eqn:E.
  - destruct (choose_some _ _ _ _ E) as (l1 & s & l2 & a & -> & L & N & A & B).
    rewrite <- L.
    assert (G : effective 0 (1 + 2 * Z.of_nat (length l1)) s c = Z.of_nat (length a)).
    { unfold effective. cbv zeta. rewrite Z.bits_0, andb_false_r.
      pose proof (goodness_nearest s c D) as Q. rewrite N in Q. exact Q. }
    apply best_pick; rewrite G.
    + lia.
    + eapply below_zero with (g := (Z.of_nat (length a) - 1)%Z); auto; [ | lia ].
      eapply Forall_impl; [ | exact A ]. intros sh Q. cbv beta in *.
      destruct (nearest (fst sh) c); [ lia | exact Logic.I ].
    + eapply below_zero with (g := Z.of_nat (length a)); auto; [ | lia ].
      eapply Forall_impl; [ | exact B ]. intros sh Q. cbv beta in *.
      destruct (nearest (fst sh) c); [ lia | exact Logic.I ].
  - apply choose_none in E. apply best_keep.
    eapply below_zero with (g := (-1)%Z); auto; [ | lia ].
    eapply Forall_impl; [ | exact E ]. intros sh Q. cbv beta in *. rewrite Q. exact Logic.I.
Qed.

(** If no handler names the class, none is found, whatever is active. *)
Lemma best_none : forall hs i c active,
  deep c -> any_handles hs c = false -> all_below active i hs c (-1).
Proof.
  induction hs as [ | (s, h) hs IH ]; intros i c active D K; [ exact Logic.I | ].
  cbn [any_handles existsb fst] in K. apply orb_false_iff in K. destruct K as [ K1 K2 ].
  split; [ | apply IH; auto ].
  unfold effective. cbv zeta. rewrite handles_nearest in K1.
  pose proof (goodness_nearest s c D) as N. destruct (nearest s c); [ discriminate | ].
  destruct (_ && _); lia.
Qed.

(** Nor if only the one that is active does. *)
Lemma best_active : forall hs p i c,
  deep c -> (0 < i)%Z -> other_handles p hs c = false ->
  forall active, active = Z.setbit 0 (i - 1 + 2 * Z.of_nat p) ->
  all_below active i hs c (-1).
Proof.
  induction hs as [ | (s, h) hs IH ]; intros p i c D Ip K active A; [ exact Logic.I | ].
  cbn [other_handles] in K. destruct p as [ | p ].
  - split; [ | apply best_none; auto ].
    unfold effective. cbv zeta. subst active.
    replace (i - 1 + 2 * Z.of_nat 0)%Z with (i - 1)%Z by lia.
    rewrite Z.setbit_eqb by lia. rewrite Z.eqb_refl. cbn [orb].
    rewrite andb_true_r. destruct (-1 <? goodness s c)%Z eqn:E; lia.
  - apply orb_false_iff in K. destruct K as [ K1 K2 ]. split.
    + unfold effective. cbv zeta. rewrite handles_nearest in K1.
      pose proof (goodness_nearest s c D) as N. destruct (nearest s c); [ discriminate | ].
      destruct (_ && _); lia.
    + apply (IH p (i + 2)%Z c D ltac:(lia) K2). subst active. f_equal. lia.
Qed.
