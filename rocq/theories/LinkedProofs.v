(** Proofs about LinkedLists. *)
From Verif Require Import Base Linked LinkedSpec.
Import ListNotations.
Local Open Scope Z_scope.

Lemma set_same h x v : set h x v x = v.
Proof. unfold set. rewrite Z.eqb_refl. reflexivity. Qed.

Lemma set_other h x v y : y <> x -> set h x v y = h y.
Proof. intros H. unfold set. rewrite (proj2 (Z.eqb_neq y x) H). reflexivity. Qed.

Lemma same_iff a b : same a b = true <-> a = b.
Proof.
  destruct a as [x|], b as [y|]; cbn [same]; split; intros H; try discriminate; try reflexivity.
  - apply Z.eqb_eq in H. congruence.
  - injection H as ->. apply Z.eqb_refl.
Qed.

Lemma same_not a b : a <> b -> same a b = false.
Proof. intros H. destruct (same a b) eqn:E; [|reflexivity]. apply same_iff in E. contradiction. Qed.

Lemma same_refl a : same a a = true.
Proof. apply same_iff. reflexivity. Qed.

Lemma chain_ext h h' l : forall o, (forall y, In y l -> h' y = h y) -> chain h o l -> chain h' o l.
Proof.
  induction l as [|x l IH]; intros o H C; [exact C|]. cbn [chain] in *. destruct C as [-> C]. split; [reflexivity|].
  rewrite (H x) by (left; reflexivity). apply IH; [|exact C]. intros y Y. apply H. right. exact Y.
Qed.

(** The next link of a link of the chain is in the chain. *)
Lemma chain_next h l : forall o x y, chain h o l -> In x l -> h x = Some y -> In y l.
Proof.
  induction l as [|a l IH]; intros o x y C X E; [destruct X|]. cbn [chain] in C. destruct C as [_ C].
  destruct X as [->|X].
  - destruct l as [|b l]; cbn [chain] in C; [congruence|]. destruct C as [C _]. right. left. congruence.
  - right. exact (IH _ x y C X E).
Qed.

Lemma chain_split h a : forall o b, chain h o (a ++ b) ->
  exists o', chain h o' b /\ forall h' b', (forall y, In y a -> h' y = h y) -> chain h' o' b' -> chain h' o (a ++ b').
Proof.
  induction a as [|x a IH]; intros o b C; cbn [app] in *.
  - exists o. split; [exact C|]. auto.
  - cbn [chain] in C. destruct C as [-> C]. destruct (IH _ b C) as (o' & C' & H). exists o'. split; [exact C'|].
    intros h' b' E C2. cbn [chain]. split; [reflexivity|]. rewrite (E x) by (left; reflexivity). apply H; [|exact C2].
    intros y Y. apply E. right. exact Y.
Qed.

(** The same, for a chain whose last link before [b] is [p]. *)
Lemma chain_after h a p b h' b' o : chain h o (a ++ p :: b) -> (forall y, In y a -> h' y = h y) ->
  chain h' (h' p) b' -> chain h' o (a ++ p :: b').
Proof.
  intros C E C2. destruct (chain_split h a o _ C) as (o' & C' & H). cbn [chain] in C'. destruct C' as [-> _].
  apply H; [exact E|]. cbn [chain]. split; [reflexivity|exact C2].
Qed.

Lemma chain_from h a p b o : chain h o (a ++ p :: b) -> chain h (h p) b.
Proof. intros C. destruct (chain_split h a o _ C) as (o' & C' & _). cbn [chain] in C'. apply C'. Qed.

Lemma last_cons (x y : Z) l : hd_error (rev (x :: y :: l)) = hd_error (rev (y :: l)).
Proof.
  cbn [rev]. destruct (rev l) as [|z r]; reflexivity.
Qed.

Lemma last_app (a : list Z) x : hd_error (rev (a ++ [x])) = Some x.
Proof. rewrite rev_app_distr. reflexivity. Qed.

Lemma last_split s : s = [] \/ exists (a : list Z) y, s = a ++ [y].
Proof. destruct s as [|x s] using rev_ind; [left; reflexivity|]. right. exists s, x. reflexivity. Qed.

Lemma last_app_ne (a b : list Z) : b <> [] -> hd_error (rev (a ++ b)) = hd_error (rev b).
Proof. intros B. destruct (last_split b) as [->|(c & y & ->)]; [contradiction|]. rewrite app_assoc, !last_app. reflexivity. Qed.

(** Adding. *)
Lemma add_first_ok h l s x : holds h l s -> ~ In x s ->
  let '(h', l') := add_first h l x in holds h' l' (x :: s) /\ forall y, y <> x -> h' y = h y.
Proof.
  intros (C & L & N) X. unfold add_first. split; [|intros y Y; apply set_other, Y]. split; [|split].
  - cbn [firstl chain]. split; [reflexivity|]. rewrite set_same. apply (chain_ext h); [|exact C].
    intros y Y. apply set_other. intros ->. contradiction.
  - cbn [lastl]. rewrite L. destruct s as [|y s]; [reflexivity|]. rewrite last_cons.
    destruct (hd_error (rev (y :: s))) eqn:E; [reflexivity|]. exfalso. cbn [rev] in E. destruct (rev s); discriminate.
  - constructor; assumption.
Qed.

Lemma NoDup_snoc (s : list Z) x : NoDup s -> ~ In x s -> NoDup (s ++ [x]).
Proof. intros N X. apply (NoDup_Add (a := x) (l := s)); [|split; assumption]. rewrite <- (app_nil_r s) at 1. apply Add_app. Qed.

Lemma add_last_ok h l s x : holds h l s -> ~ In x s -> h x = None ->
  let '(h', l') := add_last h l x in holds h' l' (s ++ [x]) /\ forall y, ~ In y s -> h' y = h y.
Proof.
  intros (C & L & N) X HX. unfold add_last. rewrite L. destruct (last_split s) as [->|(a & y & ->)].
  - cbn [chain] in C. rewrite C. cbn [rev hd_error app]. split; [|reflexivity]. repeat split; [cbn [chain]; auto|repeat constructor; intros []].
  - rewrite last_app. split.
    + split; [|split; [cbn [lastl]; rewrite last_app; reflexivity|apply NoDup_snoc; assumption]].
      rewrite <- app_assoc. cbn [app firstl].
      assert (F : match firstl l with Some f => Some f | None => Some x end = firstl l).
      { destruct (firstl l); [reflexivity|]. destruct a; cbn [app chain] in C; destruct C; discriminate. }
      rewrite F. pose proof (NoDup_remove_2 _ _ _ N) as NY. rewrite app_nil_r in NY.
      apply (chain_after h a y []); [exact C| |].
      * intros z Z. apply set_other. intros ->. contradiction.
      * rewrite set_same. cbn [chain]. split; [reflexivity|]. rewrite set_other; [exact HX|].
        intros ->. apply X, in_or_app. right. left. reflexivity.
    + intros z Z. apply set_other. intros ->. apply Z, in_or_app. right. left. reflexivity.
Qed.

(** Finding. *)
Lemma find_some h x b p a : forall o fuel, chain h o (a ++ p :: x :: b) -> NoDup (a ++ p :: x :: b) -> (length a < fuel)%nat ->
  find_prev fuel h o (Some x) = Ok (Some p).
Proof.
  induction a as [|z a IH]; intros o fuel C N L; (destruct fuel as [|fuel]; [cbn [length] in L; lia|]); cbn [app chain find_prev] in *.
  - destruct C as (-> & C & _). rewrite C, same_refl. reflexivity.
  - destruct C as [-> C]. inversion N as [|? ? NZ N']. rewrite same_not.
    + apply IH; [exact C|exact N'|cbn [length] in L; lia].
    + intros E. rewrite E in C. destruct a as [|w a]; cbn [app chain] in C, N'.
      * destruct C as [C _]. injection C as ->. inversion N' as [|? ? Q _]. apply Q. left. reflexivity.
      * destruct C as [C _]. injection C as ->. inversion N' as [|? ? Q _]. apply Q. apply in_or_app. right. right. left. reflexivity.
Qed.

Lemma find_none h x s : forall o fuel, chain h o s -> ~ In x s -> (length s < fuel)%nat -> find_prev fuel h o (Some x) = Ok None.
Proof.
  induction s as [|z s IH]; intros o fuel C X L; (destruct fuel as [|fuel]; [lia|]); cbn [chain find_prev length] in *.
  - rewrite C. reflexivity.
  - destruct C as [-> C]. rewrite same_not.
    + apply IH; [exact C| |lia]. intros Q. apply X. right. exact Q.
    + intros E. rewrite E in C. destruct s as [|w s]; cbn [chain] in C; [discriminate|]. destruct C as [C _].
      injection C as ->. apply X. right. left. reflexivity.
Qed.

(** Removing. *)
Lemma remove_in h l s x fuel : holds h l s -> In x s -> (length s < fuel)%nat ->
  exists a b h' l', s = a ++ x :: b /\ remove_if_absent fuel h l (Some x) = Ok (Some x, (h', l')) /\ holds h' l' (a ++ b) /\
    h' x = None /\ forall y, ~ In y s -> h' y = h y.
Proof.
  intros (C & L & N) X F. destruct (in_split x s X) as (a & b & ->). exists a, b.
  pose proof (NoDup_remove_1 _ _ _ N) as N1. pose proof (NoDup_remove_2 _ _ _ N) as N2.
  unfold remove_if_absent. destruct (last_split a) as [->|(a0 & p & ->)].
  - cbn [app chain] in *. destruct C as [-> C]. rewrite same_refl. eexists _, _. split; [reflexivity|]. split; [reflexivity|].
    split; [|split; [apply set_same|intros y Y; apply set_other; intros ->; apply Y; left; reflexivity]]. split; [|split; [|exact N1]].
    + cbn [firstl]. apply (chain_ext h); [|exact C]. intros y Y. apply set_other. intros ->. contradiction.
    + cbn [lastl]. destruct b as [|y b]; cbn [chain] in C; [rewrite C; reflexivity|]. destruct C as [-> _].
      rewrite L. apply last_cons.
  - rewrite <- app_assoc in *. cbn [app] in *.
    assert (PX : p <> x) by (intros ->; apply N2, in_or_app; right; left; reflexivity).
    assert (NP2 : ~ In p (a0 ++ x :: b)).
    { apply (NoDup_remove_2 a0 (x :: b) p). exact N. }
    rewrite same_not.
    2:{ intros E. destruct a0 as [|z a0]; cbn [app chain] in C; destruct C as [C _]; rewrite C in E; injection E as ->.
        - contradiction.
        - apply N2. left. reflexivity. }
    rewrite (find_some h x b p a0 (firstl l) fuel C N) by (rewrite app_length in F; lia). cbn [obind].
    eexists _, _. split; [reflexivity|]. split; [reflexivity|]. split; [|split; [apply set_same|]].
    + replace ((a0 ++ [p]) ++ b) with (a0 ++ p :: b) by (rewrite <- app_assoc; reflexivity). split; [|split; [|exact N1]].
      * cbn [firstl]. apply (chain_after h a0 p (x :: b)); [exact C| |].
        -- intros y Y. rewrite !set_other; [reflexivity| |]; intros ->; [apply NP2|apply N2]; apply in_or_app; left; exact Y.
        -- rewrite set_other by exact PX. rewrite set_same. pose proof (chain_from h a0 p (x :: b) _ C) as C2.
           cbn [chain] in C2. destruct C2 as [_ C2]. apply (chain_ext h); [|exact C2]. intros y Y.
           rewrite !set_other; [reflexivity| |]; intros ->; [apply NP2|apply N2]; apply in_or_app; right; right; exact Y.
      * cbn [lastl]. rewrite L. destruct (last_split b) as [->|(b0 & z & ->)].
        -- replace (a0 ++ [p; x]) with ((a0 ++ [p]) ++ [x]) by (rewrite <- app_assoc; reflexivity).
           rewrite !last_app, same_refl. reflexivity.
        -- replace (a0 ++ p :: x :: b0 ++ [z]) with ((a0 ++ p :: x :: b0) ++ [z]) by (rewrite <- app_assoc; reflexivity).
           replace (a0 ++ p :: b0 ++ [z]) with ((a0 ++ p :: b0) ++ [z]) by (rewrite <- app_assoc; reflexivity).
           rewrite !last_app. rewrite same_not; [reflexivity|]. intros E. injection E as ->. apply N2, in_or_app.
           right. right. apply in_or_app. right. left. reflexivity.
    + intros y Y. rewrite !set_other; [reflexivity| |]; intros ->; apply Y, in_or_app; right; [left|right; left]; reflexivity.
Qed.

Lemma remove_out h l s x fuel : holds h l s -> ~ In x s -> (length s < fuel)%nat ->
  remove_if_absent fuel h l (Some x) = Ok (None, (h, l)).
Proof.
  intros (C & L & N) X F. unfold remove_if_absent. rewrite same_not.
  - rewrite (find_none h x s _ fuel C X F). reflexivity.
  - intros E. destruct s as [|z s]; cbn [chain] in C; [congruence|]. destruct C as [C _]. apply X. left. congruence.
Qed.
