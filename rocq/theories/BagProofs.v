(** Bag refines a multiset. *)
From Verif Require Import Base Hashed HashedSpec HashedClient HashedProofs HashedOps HashedLookup Bag BagSpec.
Local Open Scope Z_scope.

Section Proofs.
  Context {K : Type} (keq : K -> K -> bool) (h : K -> Z) (GH : good_hash keq h).
  Implicit Types (l : list K) (m : list (K * Z)) (c : @ltab K Z).
  Local Notation times := (times keq).
  Let krefl : forall a, keq a a = true := proj1 GH.
  Let ksym : forall a b, keq a b = keq b a := proj1 (proj2 GH).
  Let ktrans : forall a b x, keq a b = true -> keq b x = true -> keq a x = true := proj1 (proj2 (proj2 GH)).

  Lemma keq_same a b x : keq a b = true -> keq x a = keq x b.
  Proof.
    intros H. destruct (keq x a) eqn:E1, (keq x b) eqn:E2; try reflexivity.
    - rewrite <- E2. symmetry. apply ktrans with a; assumption.
    - rewrite <- E1. apply ktrans with b; [assumption|]. rewrite ksym. assumption.
  Qed.

  (** ** Counting *)
  Lemma times_cons x y l : times x (y :: l) = ((if keq x y then 1 else 0) + times x l)%nat.
  Proof. unfold BagSpec.times. cbn [filter]. destruct (keq x y); reflexivity. Qed.
  Lemma times_app x l (v : list K) : times x (l ++ v) = (times x l + times x v)%nat.
  Proof. unfold BagSpec.times. rewrite filter_app, app_length. reflexivity. Qed.
  Lemma times_repeat x y n : times x (repeat y n) = if keq x y then n else 0%nat.
  Proof.
    induction n as [|n IH]; [destruct (keq x y); reflexivity|]. cbn [repeat]. rewrite times_cons, IH. destruct (keq x y); reflexivity.
  Qed.
  Lemma times_exists x l : existsb (keq x) l = negb (Nat.eqb (times x l) 0).
  Proof.
    induction l as [|y l IH]; [reflexivity|]. cbn [existsb]. rewrite times_cons, IH. destruct (keq x y); reflexivity.
  Qed.
  Lemma times_take x y : forall l n, times y (take_out keq x n l) =
    if keq y x then (times y l - n)%nat else times y l.
  Proof.
    induction l as [|z l IH]; intros n; [destruct n; cbn; destruct (keq y x); reflexivity|].
    destruct n as [|n]; [cbn [take_out]; destruct (keq y x); lia|]. cbn [take_out].
    destruct (keq x z) eqn:E.
    - rewrite IH, times_cons, (keq_same x z y E). destruct (keq y z) eqn:Y; lia.
    - rewrite !times_cons, IH. destruct (keq y x) eqn:Y; [|reflexivity].
      rewrite ksym in Y. destruct (keq y z) eqn:Z0; [|lia]. exfalso. rewrite <- (keq_same y z x Z0) in E. congruence.
  Qed.
  Lemma times_in x l : (0 < times x l)%nat -> exists u y v, l = u ++ y :: v /\ keq x y = true.
  Proof.
    induction l as [|z l IH]; [cbn; lia|]. rewrite times_cons. destruct (keq x z) eqn:E; intros H.
    - exists [], z, l. auto.
    - destruct IH as (u & y & v & -> & Y); [lia|]. exists (z :: u), y, v. auto.
  Qed.
  Lemma times_length l : forall v : list K, (forall x, times x l = times x v) -> length l = length v.
  Proof.
    induction l as [|a l IH]; intros v H.
    - destruct v as [|b v]; [reflexivity|]. specialize (H b). rewrite times_cons, krefl in H. cbn in H. lia.
    - destruct (times_in a v) as (u & b & w & -> & E); [rewrite <- H, times_cons, krefl; lia|].
      rewrite app_length. cbn [length]. rewrite (IH (u ++ w)); [rewrite app_length; lia|].
      intros x. specialize (H x). rewrite times_app, !times_cons in H. rewrite times_app. rewrite (keq_same a b x E) in H. lia.
  Qed.

  (** ** The table *)
  Definition expand m : list K := flat_map (fun e => repeat (fst e) (Z.to_nat (snd e))) m.
  Definition counts m l : Prop := (forall e, In e m -> 0 < snd e) /\
    forall x, match lookup fst keq x m with Some e => snd e = Z.of_nat (times x l) | None => times x l = 0%nat end.
  Definition bag_ok c m l : Prop := exists d, sim c d /\ rep fst keq h d m /\ counts m l.

  Lemma expand_times m : apart fst keq m -> forall x, times x (expand m) =
    match lookup fst keq x m with Some e => Z.to_nat (snd e) | None => 0%nat end.
  Proof.
    intros A x. induction A as [|e m F A IH]; [reflexivity|]. cbn [expand flat_map lookup List.find]. fold (expand m).
    rewrite times_app, times_repeat, IH. destruct (keq (fst e) x) eqn:E.
    - rewrite ksym, E. fold (lookup fst keq x m). replace (lookup fst keq x m) with (@None (K * Z)); [lia|].
      symmetry. apply lookup_none. intros y Y. rewrite Forall_forall in F. specialize (F y Y).
      destruct (keq (fst y) x) eqn:X; [|reflexivity]. rewrite <- F. symmetry.
      rewrite ksym. rewrite (keq_same (fst e) x) by assumption. assumption.
    - rewrite ksym, E. reflexivity.
  Qed.
  Lemma counts_expand m l : apart fst keq m -> counts m l -> forall x, times x (expand m) = times x l.
  Proof.
    intros A (_ & C) x. rewrite expand_times by assumption. specialize (C x). destruct (lookup fst keq x m); lia.
  Qed.
  Lemma lookup_map (f : K * Z -> K * Z) m x : (forall e, fst (f e) = fst e) ->
    lookup fst keq x (map f m) = option_map f (lookup fst keq x m).
  Proof.
    intros F. unfold lookup. induction m as [|e m IH]; [reflexivity|]. cbn [map List.find]. rewrite F, IH. destruct (keq (fst e) x); reflexivity.
  Qed.
  Lemma lookup_insert x v m y : option_map snd (lookup fst keq y (insert fst keq (fun e => (fst e, v)) (x, v) m)) =
    if keq x y then Some v else option_map snd (lookup fst keq y m).
  Proof.
    unfold insert. cbn [fst]. destruct (lookup fst keq x m) as [e|] eqn:L.
    - rewrite lookup_map by (intros e'; destruct (keq (fst e') x); reflexivity).
      destruct (keq x y) eqn:E.
      + destruct (lookup fst keq y m) as [e'|] eqn:L'; cbn [option_map].
        * apply lookup_some in L' as (_ & L'). rewrite (keq_same x y (fst e') E), L'. reflexivity.
        * exfalso. apply lookup_some in L as (I & L). rewrite lookup_none in L'. specialize (L' e I).
          rewrite (keq_same x y _ E) in L. congruence.
      + destruct (lookup fst keq y m) as [e'|] eqn:L'; cbn [option_map]; [|reflexivity].
        apply lookup_some in L' as (_ & L'). destruct (keq (fst e') x) eqn:X; [|reflexivity]. exfalso.
        rewrite ksym in X. assert (keq x y = true) by (apply ktrans with (fst e'); assumption). congruence.
    - unfold lookup. cbn [List.find fst]. destruct (keq x y); reflexivity.
  Qed.
  Lemma lookup_delete x m y : lookup fst keq y (delete fst keq x m) = if keq x y then None else lookup fst keq y m.
  Proof.
    unfold lookup, delete. induction m as [|e m IH]; [destruct (keq x y); reflexivity|]. cbn [filter List.find].
    destruct (keq (fst e) x) eqn:E; cbn [negb].
    - rewrite IH. destruct (keq x y) eqn:X; [reflexivity|]. destruct (keq (fst e) y) eqn:Y; [|reflexivity]. exfalso.
      rewrite ksym in E. assert (keq x y = true) by (apply ktrans with (fst e); assumption). congruence.
    - cbn [List.find]. rewrite IH. destruct (keq x y) eqn:X; [|reflexivity].
      destruct (keq (fst e) y) eqn:Y; [|reflexivity]. exfalso. rewrite ksym in X.
      assert (keq (fst e) x = true) by (apply ktrans with y; assumption). congruence.
  Qed.
  Lemma insert_values x v m e : In e (insert fst keq (fun e => (fst e, v)) (x, v) m) -> snd e = v \/ In e m.
  Proof.
    unfold insert. cbn [fst]. destruct (lookup fst keq x m).
    - intros I. apply in_map_iff in I as (e' & <- & I). destruct (keq (fst e') x); auto.
    - intros [<-|I]; auto.
  Qed.
  Lemma delete_values x m e : In e (delete fst keq x m) -> In e m /\ keq (fst e) x = false.
  Proof. unfold delete. intros I. apply filter_In in I as (I & E). split; [exact I|]. destruct (keq (fst e) x); [discriminate|reflexivity]. Qed.

  Lemma at_ok x c m l : bag_ok c m l -> lt_at keq h 0 x c = Ok (option_map snd (lookup fst keq x m)).
  Proof.
    intros (d & S & R & _). apply (sim_at keq h 0 x c d _ S). apply (get_ok fst keq h GH x d m R).
  Qed.
  Lemma occurrences_ok x c m l : bag_ok c m l -> occurrences keq h x c = Ok (Z.of_nat (times x l)).
  Proof.
    intros B. unfold occurrences. rewrite (at_ok x c m l B). cbn [obind]. destruct B as (_ & _ & _ & _ & C). specialize (C x).
    destruct (lookup fst keq x m); cbn [option_map]; f_equal; lia.
  Qed.
  Lemma put_bag x v c m l l' : bag_ok c m l -> 0 < v -> Z.of_nat (times x l') = v -> (forall y, keq y x = false -> times y l' = times y l) ->
    exists c' m', lt_at_put keq h h 0 x v c = Ok c' /\ bag_ok c' m' l'.
  Proof.
    intros (d & S & R & C1 & C2) V T O.
    destruct (put_ok fst keq h GH (fun e => (fst e, v)) (x, v) d m ltac:(reflexivity) R) as (d' & P1 & P2).
    destruct (sim_put keq h 0 x v c d d' S P1) as (c' & E & S'). exists c'. eexists. split; [exact E|]. exists d'. split; [exact S'|].
    split; [exact P2|]. split.
    - intros e I. apply insert_values in I as [->|I]; auto.
    - intros y. pose proof (lookup_insert x v m y) as L. destruct (lookup fst keq y (insert _ _ _ _ _)) as [e|]; cbn [option_map] in L.
      + destruct (keq x y) eqn:E'.
        * injection L as ->. rewrite <- T. f_equal. unfold BagSpec.times. f_equal. apply filter_ext. intros z.
          rewrite !(ksym _ z). apply keq_same. exact E'.
        * specialize (C2 y). destruct (lookup fst keq y m); [|discriminate]. injection L as ->. rewrite O by (rewrite ksym; exact E'). exact C2.
      + destruct (keq x y) eqn:E'; [discriminate|]. specialize (C2 y). destruct (lookup fst keq y m); [discriminate|].
        rewrite O by (rewrite ksym; exact E'). exact C2.
  Qed.
  Lemma remove_bag x c d m l' : sim c d -> rep fst keq h d m -> (forall e, In e m -> keq (fst e) x = false -> 0 < snd e) ->
    (forall y, keq y x = false -> match lookup fst keq y m with Some e => snd e = Z.of_nat (times y l') | None => times y l' = 0%nat end) ->
    times x l' = 0%nat ->
    exists c' m' v, lt_remove_key keq h h 0 x c = Ok (c', v) /\ bag_ok c' m' l'.
  Proof.
    intros S R C1 C2 T. destruct (remove_ok fst keq h GH x d m R) as (d' & P1 & P2).
    destruct (sim_remove keq h 0 x c d _ S P1) as (c' & E & S'). cbn [fst snd] in *. exists c'. eexists _, _. split; [exact E|].
    exists d'. split; [exact S'|]. split; [exact P2|]. split.
    - intros e I. apply delete_values in I as (I & X). auto.
    - intros y. rewrite lookup_delete. destruct (keq x y) eqn:E'.
      + rewrite <- T. unfold BagSpec.times. f_equal. apply filter_ext. intros z. rewrite !(ksym _ z). symmetry. apply keq_same. exact E'.
      + apply C2. rewrite ksym. exact E'.
  Qed.

  Lemma times_alike x y l : keq x y = true -> times x l = times y l.
  Proof. intros E. unfold BagSpec.times. f_equal. apply filter_ext. intros z. rewrite !(ksym _ z). apply keq_same. exact E. Qed.
  Lemma add_bag x n c m l l' : bag_ok c m l ->
    (forall y, times y l' = if keq y x then Z.to_nat (Z.of_nat (times y l) + n) else times y l) ->
    exists c' m', add_n keq h x n c = Ok c' /\ bag_ok c' m' l'.
  Proof.
    intros B T. unfold add_n. rewrite (occurrences_ok x c m l B). cbn [obind].
    assert (Tx : times x l' = Z.to_nat (Z.of_nat (times x l) + n)) by (rewrite T, krefl; reflexivity).
    destruct (Z.leb_spec (Z.of_nat (times x l) + n) 0) as [N|N].
    - destruct B as (d & S & R & C1 & C2).
      set (v := Z.of_nat (times x l) + n) in *.
      destruct (put_ok fst keq h GH (fun e => (fst e, v)) (x, v) d m ltac:(reflexivity) R) as (d' & P1 & P2).
      destruct (sim_put keq h 0 x v c d d' S P1) as (c1 & E & S'). rewrite E. cbn [obind].
      edestruct (remove_bag x c1 d' _ l' S' P2) as (c2 & m2 & v2 & E2 & B2).
      + intros e I X. unfold insert in I. cbn [fst] in I. destruct (lookup fst keq x m).
        * apply in_map_iff in I as (e' & <- & I). destruct (keq (fst e') x) eqn:Y; [cbn [fst] in X; congruence|auto].
        * destruct I as [<-|I]; [cbn [fst] in X; rewrite krefl in X; discriminate|auto].
      + intros y Y. pose proof (lookup_insert x v m y) as L. rewrite ksym, Y in L. specialize (C2 y). rewrite T, Y.
        destruct (lookup fst keq y (insert _ _ _ _ _)), (lookup fst keq y m); cbn [option_map] in L; try discriminate; [injection L as ->|]; assumption.
      + lia.
      + rewrite E2. cbn [obind]. eauto.
    - destruct (put_bag x (Z.of_nat (times x l) + n) c m l l' B N) as (c' & m' & E & B'); [lia|intros y Y; rewrite T, Y; reflexivity|].
      rewrite E. cbn [obind]. eauto.
  Qed.

  Lemma size_sum m : forall a, (forall e, In e m -> 0 < snd e) -> fold_left (fun n e => n + snd e) m a = a + Z.of_nat (length (expand m)).
  Proof.
    induction m as [|e m IH]; intros a H; [cbn; lia|]. cbn [fold_left expand flat_map]. fold (expand m).
    rewrite IH by (intros; apply H; right; assumption). rewrite app_length, repeat_length. specialize (H e ltac:(left; reflexivity)). lia.
  Qed.
  Lemma bag_do_ok c m l : bag_ok c m l -> (forall x, times x (bag_do c) = times x l) /\ bag_size c = Z.of_nat (length l).
  Proof.
    intros (d & S & R & C). pose proof R as (G & _ & _). pose proof (g_perm _ _ _ _ _ G) as P. pose proof (g_apart _ _ _ _ _ G) as A.
    unfold bag_do, bag_size. rewrite (sim_pairs c d S). fold (expand (elements (slots d))).
    assert (A' : apart fst keq (elements (slots d))).
    { eapply (apart_perm fst keq h GH); [apply Permutation_sym; exact P|exact A]. }
    assert (C' : counts (elements (slots d)) l).
    { destruct C as (C1 & C2). split.
      - intros e I. apply C1. eapply Permutation_in; [exact P|exact I].
      - intros x. specialize (C2 x). destruct (lookup fst keq x m) as [e|] eqn:L.
        + apply lookup_some in L as (I & L). rewrite (apart_in fst keq h GH _ A' e x); [exact C2| |exact L].
          eapply Permutation_in; [apply Permutation_sym; exact P|exact I].
        + replace (lookup fst keq x (elements (slots d))) with (@None (K * Z)); [exact C2|]. symmetry. apply lookup_none.
          rewrite lookup_none in L. intros e I. apply L. eapply Permutation_in; [exact P|exact I]. }
    split; [apply counts_expand; assumption|]. rewrite size_sum by apply C'. cbn [Z.add].
    f_equal. apply times_length. apply counts_expand; assumption.
  Qed.

  Lemma send_ok msg c m l : bag_ok c m l -> exists c' o m' l', bag_send keq h msg c = Ok (c', o) /\ bag_ok c' m' l' /\ bag_step keq l msg o l'.
  Proof.
    intros B. destruct msg as [x|x n|x|x|x| |]; cbn [bag_send bag_step].
    - destruct (add_bag x 1 c m l (x :: l) B) as (c' & m' & E & B').
      { intros y. rewrite times_cons. destruct (keq y x); lia. }
      rewrite E. cbn [obind]. exists c', (BElt x), m', (x :: l). auto.
    - destruct (add_bag x n c m l (more keq x n l) B) as (c' & m' & E & B').
      { intros y. unfold more. destruct (Z.leb_spec 0 n).
        - rewrite times_app, times_repeat. destruct (keq y x); lia.
        - rewrite times_take. destruct (keq y x); lia. }
      rewrite E. cbn [obind]. exists c', (BElt x), m', (more keq x n l). auto.
    - unfold bag_remove. rewrite (occurrences_ok x c m l B). cbn [obind]. rewrite times_exists.
      destruct (Z.eqb_spec (Z.of_nat (times x l)) 0) as [N|N].
      + replace (times x l) with 0%nat by lia. exists c, BAbsent, m, l. cbn [Nat.eqb negb]. auto.
      + replace (Nat.eqb (times x l) 0) with false by (symmetry; apply Nat.eqb_neq; lia). cbn [negb].
        assert (T : forall y, times y (take_out keq x 1 l) = if keq y x then (times y l - 1)%nat else times y l) by (intros; apply times_take).
        destruct (Z.eqb_spec (Z.of_nat (times x l)) 1) as [N1|N1].
        * destruct B as (d & S & R & C1 & C2).
          destruct (remove_bag x c d m (take_out keq x 1 l) S R) as (c' & m' & v & E & B').
          -- auto.
          -- intros y Y. rewrite T, Y. apply C2.
          -- rewrite T, krefl. lia.
          -- rewrite E. cbn [obind]. exists c', (BElt x), m', (take_out keq x 1 l). auto.
        * destruct (put_bag x (Z.of_nat (times x l) - 1) c m l (take_out keq x 1 l) B) as (c' & m' & E & B'); [lia| | |].
          -- rewrite T, krefl. lia.
          -- intros y Y. rewrite T, Y. reflexivity.
          -- rewrite E. cbn [obind]. exists c', (BElt x), m', (take_out keq x 1 l). auto.
    - rewrite (occurrences_ok x c m l B). cbn [obind]. eexists _, _, m, l. split; [reflexivity|]. auto.
    - unfold bag_includes. rewrite (at_ok x c m l B). cbn [obind]. eexists _, _, m, l. split; [reflexivity|]. split; [exact B|]. split; [|reflexivity].
      f_equal. rewrite times_exists. destruct B as (_ & _ & _ & C1 & C2). specialize (C2 x).
      destruct (lookup fst keq x m) as [e|] eqn:L; cbn [option_map].
      + apply lookup_some in L as (I & _). specialize (C1 e I). symmetry. apply negb_true_iff, Nat.eqb_neq. lia.
      + rewrite C2. reflexivity.
    - eexists _, _, m, l. split; [reflexivity|]. split; [exact B|]. rewrite (proj2 (bag_do_ok c m l B)). auto.
    - eexists _, _, m, l. split; [reflexivity|]. split; [exact B|]. split; [|reflexivity]. eexists. split; [reflexivity|]. apply (bag_do_ok c m l B).
  Qed.
  Lemma run_ok ms : forall c m l, bag_ok c m l -> exists os, bag_run keq h ms c = Ok os /\ bag_runs keq l ms os.
  Proof.
    induction ms as [|msg ms IH]; intros c m l B.
    - exists []. split; [reflexivity|constructor].
    - destruct (send_ok msg c m l B) as (c' & o & m' & l' & E & B' & S). cbn [bag_run]. rewrite E. cbn [obind].
      destruct (IH c' m' l' B') as (os & E' & R'). rewrite E'. cbn [obind]. exists (o :: os). split; [reflexivity|]. econstructor; eassumption.
  Qed.
  Lemma bag_history n ms : exists os, bag_run keq h ms (bag_new n) = Ok os /\ bag_runs keq [] ms os.
  Proof.
    apply (run_ok ms (bag_new n) [] []). exists (new (Z.max 7 n)). split; [apply sim_new|]. split; [apply new_rep|]. split; [intros e []|].
    intros x. reflexivity.
  Qed.
End Proofs.
