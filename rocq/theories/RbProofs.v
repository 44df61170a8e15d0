(** Histories of the registries: the invariant and its consequences. *)
From Coq Require Import ZArith List Bool Lia Permutation ZifyBool Sorted.
From Verif Require Import Base RbTree RbHeap RbBal RbErase RbUnlink RbSearch RbSpec RbRun.
Import ListNotations.
Local Open Scope Z_scope.

(** usage of a key among entries; not code *)
Fixpoint us (k : Z) (L : list (Z * Z * Z)) : Z :=
  match L with [] => 0 | (_, k', u) :: L => if k =? k' then u else us k L end.

Lemma us_absent k L : ~ In k (keys L) -> us k L = 0.
Proof.
  induction L as [|[[a k'] u] L IH]; cbn; [easy|]. intros H.
  destruct (Z.eqb_spec k k'); [subst; tauto|]. apply IH. tauto.
Qed.

Lemma us_present k L : Forall (fun x => 0 < snd x) L -> In k (keys L) -> 0 < us k L.
Proof.
  induction L as [|[[a k'] u] L IH]; cbn; [easy|]. intros H Hk.
  pose proof (Forall_inv H) as H0. apply Forall_inv_tail in H. cbn in H0.
  destruct (Z.eqb_spec k k'); [easy|]. apply IH; [easy|]. destruct Hk; [|easy].
  unfold ky in *. cbn in *. lia.
Qed.

Lemma us_mid k k' A a u B : ~ In k' (keys A) ->
  us k (A ++ (a, k', u) :: B) = if k =? k' then u else us k (A ++ B).
Proof.
  induction A as [|[[a1 k1] u1] A IH]; cbn; intros H; [easy|].
  rewrite IH by tauto. unfold ky in H. cbn in H.
  destruct (Z.eqb_spec k k1); destruct (Z.eqb_spec k k'); try easy. subst. tauto.
Qed.

Lemma ss_mid_notin A a k u B : ss (A ++ (a, k, u) :: B) ->
  ~ In k (keys A) /\ ~ In k (keys (A ++ B)).
Proof.
  intros H. apply ss_mid in H. destruct H as (_ & H1 & H2). rewrite Forall_forall in *.
  rewrite keys_app, in_app_iff. split; [intros Hi; apply H1 in Hi; lia|].
  intros [Hi|Hi]; [apply H1 in Hi|apply H2 in Hi]; lia.
Qed.

(** what holds after a history; not code *)
Definition Inv (s : state) (past : list call) : Prop :=
  exists t, R s t /\ good t /\ ss (flat t) /\ Forall (fun x => 0 < snd x) (flat t) /\
    (forall k, us k (flat t) = Z.of_nat (refs k past)) /\
    (length (flat t) <= length past)%nat.

Lemma refs_snoc k past c : refs k (past ++ [c]) =
  match c with
  | Reg k' => if k =? k' then S (refs k past) else refs k past
  | Unreg k' => if k =? k' then pred (refs k past) else refs k past
  end.
Proof. unfold refs. rewrite fold_left_app. reflexivity. Qed.

Lemma Inv_empty : Inv empty [].
Proof.
  exists E. split; [split; [split; constructor|reflexivity]|].
  split; [split; [easy|now exists 0%nat]|]. split; [constructor|]. split; [constructor|].
  split; [easy|]. cbn. lia.
Qed.

(** enough fuel for a registry of at most [n] objects; not code *)
Definition enough (n fuel : nat) : Prop := (2 * Nat.log2 (n + 1) + 2 <= fuel)%nat.

Lemma enough_mono n n' fuel : (n <= n')%nat -> enough n' fuel -> enough n fuel.
Proof.
  unfold enough. intros H. assert (Nat.log2 (n + 1) <= Nat.log2 (n' + 1))%nat
    by (apply Nat.log2_le_mono; lia). lia.
Qed.

Lemma enough_ht t n fuel : good t -> (length (flat t) <= n)%nat -> enough n fuel ->
  (ht t + 2 <= fuel)%nat.
Proof.
  intros Hg Hl He. apply enough_mono with (n := length (flat t)) in He; [|easy].
  pose proof (good_height _ Hg). unfold enough in He. lia.
Qed.

Lemma Inv_reg t t' past A B a k :
  (forall k, us k (flat t) = Z.of_nat (refs k past)) -> Forall (fun x => 0 < snd x) (flat t) ->
  (length (flat t) <= length past)%nat -> ss (flat t') ->
  ~ In k (keys (flat t)) -> flat t = A ++ B -> flat t' = A ++ (a, k, 1) :: B ->
  Forall (fun x => 0 < snd x) (flat t') /\
  (forall k0, us k0 (flat t') = Z.of_nat (refs k0 (past ++ [Reg k]))) /\
  (length (flat t') <= length (past ++ [Reg k]))%nat.
Proof.
  intros Hu Hp Hl Hs' Hk Ht Ht'. rewrite Ht' in *. rewrite Ht in *.
  destruct (ss_mid_notin _ _ _ _ _ Hs') as [N1 N2].
  split; [|split].
  - apply Forall_app in Hp. apply Forall_app. destruct Hp. split; [easy|]. constructor; [cbn; lia|easy].
  - intros k0. rewrite us_mid by easy. rewrite refs_snoc, Hu.
    destruct (Z.eqb_spec k0 k) as [->|]; [|easy].
    specialize (Hu k). rewrite us_absent in Hu by easy. lia.
  - rewrite !app_length in *. cbn [length]. lia.
Qed.

Lemma step_ok fuel o s past :
  Inv s past -> enough (length past) fuel -> step fuel o s <> Err ->
  exists s', step fuel o s = Ok s' /\ Inv s' (past ++ [callOf o]).
Proof.
  intros (t & HR & Hg & Hs & Hp & Hu & Hl) He Hne.
  pose proof (enough_ht _ _ _ Hg Hl He) as Hf.
  destruct o as [a k|k]; cbn [step callOf] in *.
  - destruct (Z.eqb_spec a 0) as [|Ha]; [easy|].
    destruct (heap s a) eqn:Hfr; [easy|].
    destruct (register_ok fuel s t a k HR Hg Hs Ha Hfr Hf) as
      (s' & Hr & t' & HR' & Hg' & Hs' & Hc).
    exists s'. split; [exact Hr|]. exists t'. split; [easy|]. split; [easy|]. split; [easy|].
    destruct Hc as [(A & a0 & u & B & Ht & Ht')|(A & B & Hk & Ht & Ht')].
    + rewrite Ht' in *. rewrite Ht in *. destruct (ss_mid_notin _ _ _ _ _ Hs') as [N1 N2].
      assert (0 < u).
      { apply Forall_app in Hp. destruct Hp as [_ Hp]. apply Forall_inv in Hp. exact Hp. }
      split; [|split].
      * apply Forall_app in Hp. apply Forall_app. destruct Hp as [Hp1 Hp2].
        split; [easy|]. apply Forall_inv_tail in Hp2. constructor; [cbn; lia|easy].
      * intros k0. specialize (Hu k0). rewrite us_mid in * by easy. rewrite refs_snoc.
        destruct (k0 =? k); lia.
      * rewrite !app_length in *. cbn [length] in *. lia.
    + eapply Inv_reg; eassumption.
  - destruct (unregister_ok fuel s t k HR Hg Hs Hf) as (s' & Hr & t' & HR' & Hg' & Hs' & Hc).
    exists s'. split; [exact Hr|]. exists t'. split; [easy|]. split; [easy|]. split; [easy|].
    destruct Hc as [(Hk & Ht')|(A & a & u & B & Ht & Ht')].
    + rewrite Ht'. split; [easy|]. split.
      * intros k0. rewrite refs_snoc, Hu. destruct (Z.eqb_spec k0 k) as [->|]; [|easy].
        specialize (Hu k). rewrite us_absent in Hu by easy. lia.
      * rewrite app_length. cbn. lia.
    + rewrite Ht in *. destruct (ss_mid_notin _ _ _ _ _ Hs) as [N1 N2].
      assert (0 < u).
      { apply Forall_app in Hp. destruct Hp as [_ Hp]. apply Forall_inv in Hp. exact Hp. }
      apply Forall_app in Hp. destruct Hp as [Hp1 Hp2]. apply Forall_inv_tail in Hp2.
      rewrite app_length in *. cbn [length] in *. rewrite Nat.add_1_r.
      destruct (Z.eqb_spec (u - 1) 0); rewrite Ht'.
      * split; [now apply Forall_app|]. split.
        -- intros k0. specialize (Hu k0). rewrite us_mid in Hu by easy. rewrite refs_snoc.
           destruct (Z.eqb_spec k0 k) as [Ek|]; [subst k0|easy].
           rewrite us_absent by easy. lia.
        -- rewrite app_length. lia.
      * split; [apply Forall_app; split; [easy|]; constructor; [cbn; lia|easy]|]. split.
        -- intros k0. specialize (Hu k0). rewrite us_mid in * by easy. rewrite refs_snoc.
           destruct (k0 =? k); lia.
        -- rewrite app_length. cbn [length]. lia.
Qed.

Lemma stepA_ok fuel o s past :
  Inv s past -> enough (length past) fuel -> stepA fuel o s <> Err ->
  (forall k, callOf o = Reg k -> refs k past = 0%nat) ->
  exists s', stepA fuel o s = Ok s' /\ Inv s' (past ++ [callOf o]).
Proof.
  intros HI He Hne Ho. destruct o as [a k|k]; [|now apply step_ok with (o := MUnreg k)].
  destruct HI as (t & HR & Hg & Hs & Hp & Hu & Hl).
  pose proof (enough_ht _ _ _ Hg Hl He) as Hf. cbn [stepA callOf] in *.
  specialize (Ho k eq_refl).
  destruct (Z.eqb_spec a 0) as [|Ha]; [easy|].
  destruct (heap s a) eqn:Hfr; [easy|].
  assert (Hk : ~ In k (keys (flat t))).
  { intros Hi. apply (us_present _ _ Hp) in Hi. rewrite Hu in Hi. lia. }
  destruct (registerArray_ok fuel s t a k HR Hg Hs Ha Hfr Hf Hk) as
    (s' & Hr & t' & HR' & Hg' & Hs' & A & B & Ht & Ht').
  exists s'. split; [exact Hr|]. exists t'. split; [easy|]. split; [easy|]. split; [easy|].
  eapply Inv_reg; eassumption.
Qed.

Lemma run_ok fuel : forall h s past,
  Inv s past -> enough (length past + length h) fuel -> run fuel h s <> Err ->
  exists s', run fuel h s = Ok s' /\ Inv s' (past ++ map callOf h).
Proof.
  induction h as [|o h IH]; intros s past HI He Hne.
  - exists s. rewrite app_nil_r. easy.
  - cbn [run map length] in *.
    destruct (step_ok fuel o s past HI) as (s1 & Hs1 & HI1).
    + apply enough_mono with (2 := He). lia.
    + intros Hx. rewrite Hx in Hne. easy.
    + rewrite Hs1 in *. cbn [obind] in *.
      destruct (IH s1 (past ++ [callOf o]) HI1) as (s' & H1 & H2).
      * rewrite app_length. cbn [length]. apply enough_mono with (2 := He). lia.
      * exact Hne.
      * exists s'. split; [easy|]. rewrite <- app_assoc in H2. exact H2.
Qed.

Lemma runA_ok fuel : forall h s past,
  Inv s past -> enough (length past + length h) fuel -> runA fuel h s <> Err ->
  once past (map callOf h) ->
  exists s', runA fuel h s = Ok s' /\ Inv s' (past ++ map callOf h).
Proof.
  induction h as [|o h IH]; intros s past HI He Hne Ho.
  - exists s. rewrite app_nil_r. easy.
  - cbn [runA map length] in *.
    assert (Ho2 : (forall k, callOf o = Reg k -> refs k past = 0%nat) /\
                  once (past ++ [callOf o]) (map callOf h)).
    { cbn [once] in Ho. destruct (callOf o) as [k|k]; [|now split].
      destruct Ho. split; [|easy]. intros k0 Hk0. injection Hk0 as <-. easy. }
    destruct Ho2 as [Ho1 Ho2].
    destruct (stepA_ok fuel o s past HI) as (s1 & Hs1 & HI1).
    + apply enough_mono with (2 := He). lia.
    + intros Hx. rewrite Hx in Hne. easy.
    + exact Ho1.
    + rewrite Hs1 in *. cbn [obind] in *.
      destruct (IH s1 (past ++ [callOf o]) HI1) as (s' & H1 & H2).
      * rewrite app_length. cbn [length]. apply enough_mono with (2 := He). lia.
      * exact Hne.
      * exact Ho2.
      * exists s'. split; [easy|]. rewrite <- app_assoc in H2. exact H2.
Qed.

Lemma Inv_keys s t past k :
  Forall (fun x => 0 < snd x) (flat t) -> (forall k, us k (flat t) = Z.of_nat (refs k past)) ->
  R s t -> In k (keys (flat t)) <-> (0 < refs k past)%nat.
Proof.
  intros Hp Hu _. split; intros H.
  - apply (us_present _ _ Hp) in H. rewrite Hu in H. lia.
  - destruct (in_dec Z.eq_dec k (keys (flat t))) as [Hi|Hi]; [easy|].
    specialize (Hu k). rewrite us_absent in Hu by easy. lia.
Qed.

Lemma usageOf_ok s t k fuel : R s t -> ss (flat t) -> (ht t < fuel)%nat ->
  usageOf fuel k s = Ok (us k (flat t)).
Proof.
  intros HR Hs Hf. unfold usageOf. assert (Hroot : root s = rt t) by now destruct HR.
  rewrite Hroot.
  destruct (find_ok k s fuel t [] HR Hs) as [(z & c & a & u & l & r & E1 & E2)|(E1 & E2)];
    try (constructor || easy); cbn [plug] in E1; rewrite E2; cbn [obind].
  - subst t. destruct (R_get _ _ _ _ _ _ _ _ HR) as [Hg Hn].
    rewrite (proj2 (Z.eqb_neq _ _) Hn), Hg. cbn [obind usage]. f_equal.
    revert Hs. rewrite flat_plug. cbn [flat]. rewrite <- app_assoc. cbn [app].
    rewrite app_assoc. intros Hs. apply ss_mid_notin in Hs.
    rewrite us_mid by easy. now rewrite Z.eqb_refl.
  - cbn. now rewrite us_absent.
Qed.

(** what an observer sees of a state satisfying the invariant *)
Lemma Inv_observe s past : Inv s past ->
  (exists l, StronglySorted Z.lt l /\ (forall k, In k l <-> (0 < refs k past)%nat) /\
     (forall fuel, (3 * length l + 2 <= fuel)%nat -> traverse fuel s = Ok l) /\
     (forall fuel k, (2 * Nat.log2 (length l + 1) + 1 <= fuel)%nat ->
        usageOf fuel k s = Ok (Z.of_nat (refs k past)))).
Proof.
  intros (t & HR & Hg & Hs & Hp & Hu & Hl).
  exists (keys (flat t)). split; [exact Hs|]. split; [intros k; now apply Inv_keys with s|].
  assert (Hlen : length (keys (flat t)) = length (flat t)) by apply map_length.
  rewrite Hlen. pose proof (good_height _ Hg) as Hh. split.
  - intros fuel Hf. apply traverse_ok; [easy|].
    assert (Nat.log2 (length (flat t) + 1) <= length (flat t))%nat.
    { destruct (length (flat t)) as [|n]; [easy|].
      pose proof (Nat.log2_lt_lin (S n + 1)). lia. }
    lia.
  - intros fuel k Hf. rewrite (usageOf_ok s t k fuel HR Hs) by lia. now rewrite Hu.
Qed.

Lemma registry fuel h :
  (2 * Nat.log2 (length h + 1) + 2 <= fuel)%nat -> run fuel h empty <> Err ->
  exists s l, run fuel h empty = Ok s /\
    StronglySorted Z.lt l /\ (forall k, In k l <-> (0 < refs k (map callOf h))%nat) /\
    (forall fuel, (3 * length l + 2 <= fuel)%nat -> traverse fuel s = Ok l) /\
    (forall fuel k, (2 * Nat.log2 (length l + 1) + 1 <= fuel)%nat ->
        usageOf fuel k s = Ok (Z.of_nat (refs k (map callOf h)))).
Proof.
  intros Hf Hne. destruct (run_ok fuel h empty [] Inv_empty Hf Hne) as (s & H1 & H2).
  destruct (Inv_observe _ _ H2) as (l & H3). exists s, l. now split.
Qed.

Lemma registryA fuel h :
  (2 * Nat.log2 (length h + 1) + 2 <= fuel)%nat -> runA fuel h empty <> Err ->
  once [] (map callOf h) ->
  exists s l, runA fuel h empty = Ok s /\
    StronglySorted Z.lt l /\ (forall k, In k l <-> (0 < refs k (map callOf h))%nat) /\
    (forall fuel, (3 * length l + 2 <= fuel)%nat -> traverse fuel s = Ok l) /\
    (forall fuel k, (2 * Nat.log2 (length l + 1) + 1 <= fuel)%nat ->
        usageOf fuel k s = Ok (Z.of_nat (refs k (map callOf h)))).
Proof.
  intros Hf Hne Ho. destruct (runA_ok fuel h empty [] Inv_empty Hf Hne Ho) as (s & H1 & H2).
  destruct (Inv_observe _ _ H2) as (l & H3). exists s, l. now split.
Qed.

Lemma again_loops fuel h s :
  (2 * Nat.log2 (length h + 1) + 2 <= fuel)%nat -> runA fuel h empty = Ok s ->
  once [] (map callOf h) ->
  forall k, (0 < refs k (map callOf h))%nat -> forall fuel' a, registerArray fuel' a k s = OutOfFuel.
Proof.
  intros Hf Hr Ho k Hk fuel' a.
  destruct (runA_ok fuel h empty [] Inv_empty Hf) as (s' & H1 & H2); [congruence|easy|].
  assert (s' = s) by congruence. subst s'.
  destruct H2 as (t & HR & Hg & Hs & Hp & Hu & Hl).
  apply (registerArray_loops fuel' s t a k HR Hs). now apply (Inv_keys s t _ k Hp Hu HR).
Qed.

Lemma again_witness : exists a a' k, forall fuel, (4 <= fuel)%nat ->
  exists s, runA fuel [MReg a k] empty = Ok s /\
    forall fuel', registerArray fuel' a' k s = OutOfFuel.
Proof.
  exists 1, 2, 10. intros fuel Hf.
  destruct (runA fuel [MReg 1 10] empty) as [s| | | |] eqn:Hr.
  - exists s. split; [easy|]. intros fuel'.
    apply (again_loops fuel [MReg 1 10] s Hf Hr); [cbn; auto|vm_compute; lia].
  - exfalso. do 4 (destruct fuel as [|fuel]; [lia|]). vm_compute in Hr. discriminate.
  - exfalso. do 4 (destruct fuel as [|fuel]; [lia|]). vm_compute in Hr. discriminate.
  - exfalso. do 4 (destruct fuel as [|fuel]; [lia|]). vm_compute in Hr. discriminate.
  - exfalso. do 4 (destruct fuel as [|fuel]; [lia|]). vm_compute in Hr. discriminate.
Qed.
