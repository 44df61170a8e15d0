(** Sets: histories and set arithmetic. *)
From Verif Require Import Base Hashed HashedSpec HashedClient HashedProofs HashedOps.

Section Sets.
  Context {E : Type} (eq : E -> E -> bool) (h : E -> Z).
  Hypothesis GH : good_hash eq h.
  Notation self := (fun e : E => e).
  Notation rep := (rep self eq h).
  Notation lookup := (lookup self eq).

  Lemma mem_lookup e m : mem eq e m = match lookup e m with Some _ => true | None => false end.
  Proof.
    unfold mem, HashedSpec.lookup. induction m as [|x m IH]; [reflexivity|]. cbn [existsb List.find].
    destruct (eq x e); [reflexivity|assumption].
  Qed.

  Lemma map_self k m : map (fun x : E => if eq x k then x else x) m = m.
  Proof. rewrite <- map_id. apply map_ext. intros x. destruct (eq x k); reflexivity. Qed.

  Lemma set_add_ok e c m : rep c m -> exists c', set_add eq h h e c = Ok c' /\
    rep c' (if mem eq e m then m else e :: m).
  Proof.
    intros R. destruct (put_ok self eq h GH self e c m ltac:(reflexivity) R) as (c' & C1 & C2).
    exists c'. split; [assumption|]. unfold insert in C2. rewrite mem_lookup. destruct (lookup e m); [|assumption].
    rewrite map_self in C2. assumption.
  Qed.

  Lemma set_includes_ok e c m : rep c m -> set_includes eq h e c = Ok (mem eq e m).
  Proof.
    intros R. unfold set_includes. rewrite (get_ok self eq h GH e c m R). cbn [obind]. rewrite mem_lookup. reflexivity.
  Qed.

  Lemma set_send_ok c m msg : rep c m -> exists c' a, set_send eq h h c msg = Ok (c', a) /\
    rep c' (fst (set_step eq m msg)) /\ sagree a (snd (set_step eq m msg)).
  Proof.
    intros R. destruct msg as [e|e|e| | | |]; cbn [set_send set_step fst snd].
    - destruct (set_add_ok e c m R) as (c' & C1 & C2). rewrite C1. cbn [obind]. eexists _, _. split; [reflexivity|].
      split; [assumption|reflexivity].
    - rewrite (set_includes_ok e c m R). cbn [obind]. eexists _, _. split; [reflexivity|]. split; [assumption|reflexivity].
    - destruct (remove_ok self eq h GH e c m R) as (c' & C1 & C2). rewrite C1. cbn [obind].
      eexists _, _. split; [reflexivity|]. split; [assumption|]. cbn. rewrite mem_lookup. reflexivity.
    - eexists _, _. split; [reflexivity|]. split; [assumption|]. destruct R as (_ & T & _). cbn. rewrite T. reflexivity.
    - eexists _, _. split; [reflexivity|]. split; [assumption|]. apply R.
    - destruct (rehash_ok self eq h GH c m R) as (c' & C1 & C2). rewrite C1. cbn [obind].
      eexists _, _. split; [reflexivity|]. split; [assumption|reflexivity].
    - destruct (shallow_copy_ok self eq h GH c m R) as (c' & C1 & C2). rewrite C1. cbn [obind].
      eexists _, _. split; [reflexivity|]. split; [assumption|reflexivity].
  Qed.

  Lemma set_hist_ok msgs : forall c m, rep c m -> exists l, set_hist eq h h c msgs = Ok l /\
    Forall2 sagree l (set_run eq m msgs).
  Proof.
    induction msgs as [|msg msgs IH]; intros c m R.
    - exists []. split; [reflexivity|constructor].
    - destruct (set_send_ok c m msg R) as (c' & a & C1 & C2 & C3). cbn [set_hist set_run]. rewrite C1. cbn [obind].
      destruct (set_step eq m msg) as [m' b]. cbn [fst snd] in *.
      destruct (IH c' m' C2) as (l & L1 & L2). rewrite L1. cbn [obind]. eexists; split; [reflexivity|]. constructor; assumption.
  Qed.

  Lemma set_ok n msgs : exists l, set_hist eq h h (new n) msgs = Ok l /\ Forall2 sagree l (set_run eq [] msgs).
  Proof. apply set_hist_ok. apply new_rep. Qed.

  (** ** Set arithmetic *)
  Let kref a : eq a a = true. Proof. apply GH. Qed.
  Let ksym a b : eq a b = eq b a. Proof. apply GH. Qed.
  Let ktrans a b c : eq a b = true -> eq b c = true -> eq a c = true. Proof. apply GH. Qed.
  Let khash a b : eq a b = true -> h a = h b. Proof. apply GH. Qed.

  Lemma mem_iff e m : mem eq e m = true <-> exists x, In x m /\ eq x e = true.
  Proof. apply existsb_exists. Qed.
  Lemma mem_eq e e' m : eq e e' = true -> mem eq e m = mem eq e' m.
  Proof.
    intros Q. apply Bool.eq_iff_eq_true. rewrite !mem_iff. split; intros (x & I & H); exists x; (split; [assumption|]).
    - eapply ktrans; eassumption.
    - eapply ktrans; [eassumption|]. rewrite ksym. assumption.
  Qed.
  Lemma mem_perm e m m' : Permutation m m' -> mem eq e m = mem eq e m'.
  Proof.
    intros P. apply Bool.eq_iff_eq_true. rewrite !mem_iff. split; intros (x & I & H); exists x; (split; [|assumption]).
    - eapply Permutation_in; eassumption.
    - eapply Permutation_in; [symmetry|]; eassumption.
  Qed.

  (** [c] stands for the set with characteristic function [f]. *)
  Definition stands (c : coll) (f : E -> bool) : Prop := exists m, rep c m /\ forall e, mem eq e m = f e.

  Lemma mem_cons e x m : mem eq e (x :: m) = eq x e || mem eq e m.
  Proof. reflexivity. Qed.

  Lemma set_add_all_ok l : forall c f, stands c f -> exists c', set_add_all eq h h l c = Ok c' /\
    stands c' (fun e => mem eq e l || f e).
  Proof.
    induction l as [|x l IH]; intros c f (m & R & F).
    - exists c. split; [reflexivity|]. exists m. auto.
    - destruct (set_add_ok x c m R) as (c1 & C1 & C2). cbn [set_add_all]. rewrite C1. cbn [obind].
      destruct (IH c1 (fun e => eq x e || f e)) as (c' & D1 & D2).
      { eexists; split; [exact C2|]. intros e. destruct (mem eq x m) eqn:M; [|rewrite mem_cons, F; reflexivity].
        rewrite F. destruct (eq x e) eqn:Q; [|reflexivity]. cbn. rewrite <- F, <- (mem_eq x e m Q). assumption. }
      exists c'. split; [assumption|]. destruct D2 as (m' & R' & F'). exists m'. split; [assumption|]. intros e. rewrite F', mem_cons.
      destruct (eq x e), (mem eq e l); reflexivity.
  Qed.

  Lemma set_union_ok a b f g : stands a f -> stands b g -> exists c, set_union eq h h a b = Ok c /\
    stands c (fun e => f e || g e).
  Proof.
    intros (m & R & F) (m' & R' & F'). unfold set_union.
    destruct (shallow_copy_ok self eq h GH a m R) as (u & U1 & U2). rewrite U1. cbn [obind].
    destruct (set_add_all_ok (elements (slots b)) u f) as (c & C1 & (m2 & C2 & C3)); [exists m; auto|].
    exists c. split; [assumption|]. exists m2. split; [assumption|]. intros e. rewrite C3.
    rewrite (mem_perm e _ _ (g_perm _ _ _ _ _ (proj1 R'))), F'. apply orb_comm.
  Qed.

  Lemma add_if_ok w b g l : stands b g -> forall c f, stands c f ->
    exists c', add_if eq h h w b l c = Ok c' /\
      stands c' (fun e => f e || (mem eq e l && Bool.eqb (g e) w)).
  Proof.
    intros (mb & Rb & G). induction l as [|x l IH]; intros c f S.
    - exists c. split; [reflexivity|]. destruct S as (m & R & F). exists m. split; [assumption|]. intros e. rewrite F.
      rewrite orb_false_r. reflexivity.
    - cbn [add_if]. rewrite (set_includes_ok x b mb Rb). cbn [obind]. rewrite G.
      destruct S as (m & R & F).
      assert (GE : forall e, eq x e = true -> g e = g x) by (intros e Q; rewrite <- !G; symmetry; apply mem_eq, Q).
      destruct (Bool.eqb (g x) w) eqn:W.
      + destruct (set_add_ok x c m R) as (c1 & C1 & C2). rewrite C1. cbn [obind].
        destruct (IH c1 (fun e => eq x e || f e)) as (c' & D1 & (m' & R' & F')).
        { eexists; split; [exact C2|]. intros e. destruct (mem eq x m) eqn:M; [|rewrite mem_cons, F; reflexivity].
          rewrite F. destruct (eq x e) eqn:Q; [|reflexivity]. cbn. rewrite <- F, <- (mem_eq x e m Q). assumption. }
        exists c'. split; [assumption|]. exists m'. split; [assumption|]. intros e. rewrite F', mem_cons.
        destruct (eq x e) eqn:Q; [|reflexivity]. rewrite (GE e Q), W. cbn. rewrite orb_true_r. reflexivity.
      + cbn [obind]. destruct (IH c f ltac:(exists m; auto)) as (c' & D1 & (m' & R' & F')).
        exists c'. split; [assumption|]. exists m'. split; [assumption|]. intros e. rewrite F', mem_cons.
        destruct (eq x e) eqn:Q; [|reflexivity]. rewrite (GE e Q), W. rewrite !andb_false_r. reflexivity.
  Qed.

  Lemma stands_empty n : stands (new n) (fun _ => false).
  Proof. exists []. split; [apply new_rep|reflexivity]. Qed.

  Lemma mem_elements c m e : rep c m -> mem eq e (elements (slots c)) = mem eq e m.
  Proof. intros R. apply mem_perm. apply R. Qed.

  Lemma set_inter_ok a b f g : stands a f -> stands b g -> exists c, set_inter eq h h a b = Ok c /\
    stands c (fun e => f e && g e).
  Proof.
    intros SA SB. pose proof SA as (m & R & F). pose proof SB as (m' & R' & F'). unfold set_inter. destruct (tally a <? tally b)%Z.
    - destruct (add_if_ok true b g (elements (slots a)) SB _ _ (stands_empty (tally a))) as (c & C1 & (m2 & C2 & C3)).
      exists c. split; [assumption|]. exists m2. split; [assumption|]. intros e. rewrite C3, (mem_elements a m e R), F.
      destruct (g e); reflexivity.
    - destruct (add_if_ok true a f (elements (slots b)) SA _ _ (stands_empty (tally a))) as (c & C1 & (m2 & C2 & C3)).
      exists c. split; [assumption|]. exists m2. split; [assumption|]. intros e. rewrite C3, (mem_elements b m' e R'), F'.
      rewrite andb_comm. destruct (f e); reflexivity.
  Qed.

  Lemma set_diff_ok a b f g : stands a f -> stands b g -> exists c, set_diff eq h h a b = Ok c /\
    stands c (fun e => f e && negb (g e)).
  Proof.
    intros SA SB. pose proof SA as (m & R & F). unfold set_diff.
    destruct (add_if_ok false b g (elements (slots a)) SB _ _ (stands_empty (tally a))) as (c & C1 & (m2 & C2 & C3)).
    exists c. split; [assumption|]. exists m2. split; [assumption|]. intros e. rewrite C3, (mem_elements a m e R), F.
    destruct (g e); reflexivity.
  Qed.

  Lemma all_in_ok b m' l : rep b m' -> all_in eq h l b = Ok (forallb (fun x => mem eq x m') l).
  Proof.
    intros R. induction l as [|x l IH]; [reflexivity|]. cbn [all_in forallb]. rewrite (set_includes_ok x b m' R). cbn [obind].
    destruct (mem eq x m'); [assumption|reflexivity].
  Qed.

  Definition subset (f g : E -> bool) : Prop := forall e, f e = true -> g e = true.

  Lemma forallb_subset c m f g m' : rep c m -> (forall e, mem eq e m = f e) -> (forall e, mem eq e m' = g e) ->
    forallb (fun x => mem eq x m') (elements (slots c)) = true <-> subset f g.
  Proof.
    intros R F G. rewrite forallb_forall. split.
    - intros H e. rewrite <- F, <- G, <- (mem_elements c m e R), mem_iff. intros (x & I & Q).
      rewrite <- (mem_eq x e m' Q). auto.
    - intros H x I. rewrite G. apply H. rewrite <- F, <- (mem_elements c m x R). apply mem_iff. eauto.
  Qed.

  (** Pairwise different elements of a set, all in another set: no more of them than it has. *)
  Lemma apart_count m : apart self eq m -> forall m', apart self eq m' ->
    (forall x, In x m -> mem eq x m' = true) -> (length m <= length m')%nat.
  Proof.
    induction 1 as [|a l FA A IH]; intros m' A' H; cbn [length]; [lia|].
    assert (MA : mem eq a m' = true) by (apply H; left; reflexivity).
    rewrite mem_lookup in MA. destruct (lookup a m') as [y|] eqn:LK; [|discriminate].
    pose proof (delete_present self eq h GH a m' y A' LK) as P. rewrite (Permutation_length P). cbn [length].
    apply le_n_S. apply IH; [apply apart_filter; assumption|]. intros x I.
    assert (M : mem eq x m' = true) by (apply H; right; assumption).
    apply mem_iff in M as (z & Z1 & Z2). apply mem_iff. exists z. split; [|assumption].
    apply filter_In. split; [assumption|]. destruct (eq z a) eqn:Q; [exfalso|reflexivity].
    rewrite Forall_forall in FA. specialize (FA x I). cbn in FA.
    rewrite (ktrans a z x) in FA; [discriminate|rewrite ksym; assumption|assumption].
  Qed.

  Lemma subset_count a m f b m' g : rep a m -> rep b m' -> (forall e, mem eq e m = f e) -> (forall e, mem eq e m' = g e) ->
    subset f g -> (length m <= length m')%nat.
  Proof.
    intros R R' F G S. apply apart_count; [apply R|apply R'|]. intros x I. rewrite G. apply S. rewrite <- F. apply mem_iff. eauto.
  Qed.

  Lemma set_le_ok a b f g : stands a f -> stands b g -> exists r, set_le eq h a b = Ok r /\ (r = true <-> subset f g).
  Proof.
    intros (m & R & F) (m' & R' & G). unfold set_le. pose proof R as (_ & T & _). pose proof R' as (_ & T' & _). rewrite T, T'.
    destruct (Z.leb_spec (Z.of_nat (length m)) (Z.of_nat (length m'))) as [L|L].
    - rewrite (all_in_ok b m' _ R'). eexists; split; [reflexivity|]. eapply forallb_subset; eassumption.
    - eexists; split; [reflexivity|]. split; [discriminate|]. intros S. exfalso.
      pose proof (subset_count a m f b m' g R R' F G S). lia.
  Qed.

  Lemma subset_equal m m' f g : apart self eq m -> apart self eq m' -> (forall e, mem eq e m = f e) -> (forall e, mem eq e m' = g e) ->
    subset f g -> length m = length m' -> subset g f.
  Proof.
    intros A A' F G S L e GE. rewrite <- F. destruct (mem eq e m) eqn:M; [reflexivity|exfalso].
    (* m without e still covers as many elements as m' minus one *)
    rewrite <- G in GE. rewrite mem_lookup in GE. destruct (lookup e m') as [y|] eqn:LK; [|discriminate].
    pose proof (delete_present self eq h GH e m' y A' LK) as P. apply Permutation_length in P. cbn [length] in P.
    assert (H : (length m <= length (delete self eq e m'))%nat).
    { apply apart_count; [assumption|apply apart_filter; assumption|]. intros x I.
      assert (MX : mem eq x m' = true) by (rewrite G; apply S; rewrite <- F; apply mem_iff; eauto).
      apply mem_iff in MX as (z & Z1 & Z2). apply mem_iff. exists z. split; [|assumption]. apply filter_In. split; [assumption|].
      destruct (eq z e) eqn:Q; [exfalso|reflexivity].
      assert (mem eq e m = true); [|congruence]. apply mem_iff. exists x. split; [assumption|].
      apply ktrans with z; [rewrite ksym; assumption|assumption]. }
    lia.
  Qed.

  Lemma set_eq_ok a b f g : stands a f -> stands b g -> exists r, set_eq eq h a b = Ok r /\
    (r = true <-> forall e, f e = g e).
  Proof.
    intros (m & R & F) (m' & R' & G). unfold set_eq. pose proof R as (GR & T & _). pose proof R' as (GR' & T' & _). rewrite T, T'.
    destruct (Z.eqb_spec (Z.of_nat (length m)) (Z.of_nat (length m'))) as [L|L].
    - rewrite (all_in_ok b m' _ R'). eexists; split; [reflexivity|]. rewrite (forallb_subset a m f g m' R F G). split.
      + intros S. assert (S' : subset g f) by (eapply (subset_equal m m'); try eassumption; [apply GR|apply GR'|lia]).
        intros e. specialize (S e). specialize (S' e). destruct (f e), (g e); intuition congruence.
      + intros H e. rewrite H. auto.
    - eexists; split; [reflexivity|]. split; [discriminate|]. intros H. exfalso.
      pose proof (subset_count a m f b m' g R R' F G ltac:(intros e; rewrite H; auto)).
      pose proof (subset_count b m' g a m f R' R G F ltac:(intros e; rewrite H; auto)). lia.
  Qed.

  Lemma set_lt_ok a b f g : stands a f -> stands b g -> exists r, set_lt eq h a b = Ok r /\
    (r = true <-> subset f g /\ ~ subset g f).
  Proof.
    intros (m & R & F) (m' & R' & G). unfold set_lt. pose proof R as (GR & T & _). pose proof R' as (GR' & T' & _). rewrite T, T'.
    destruct (Z.ltb_spec (Z.of_nat (length m)) (Z.of_nat (length m'))) as [L|L].
    - rewrite (all_in_ok b m' _ R'). eexists; split; [reflexivity|]. rewrite (forallb_subset a m f g m' R F G). split.
      + intros S. split; [assumption|]. intros S'. pose proof (subset_count b m' g a m f R' R G F S'). lia.
      + intros [S _]. assumption.
    - eexists; split; [reflexivity|]. split; [discriminate|]. intros [S S']. exfalso. apply S'.
      pose proof (subset_count a m f b m' g R R' F G S).
      eapply (subset_equal m m'); try eassumption; [apply GR|apply GR'|lia].
  Qed.

  (** Equal sets have equal hash values. *)
  Definition xsum (l : list E) : Z := fold_right (fun e x => Z.lxor (scramble (h e)) x) 0%Z l.

  Lemma fold_xor l : forall z, fold_left (fun hv e => Z.lxor hv (scramble (h e))) l z = Z.lxor z (xsum l).
  Proof.
    induction l as [|e l IH]; intros z; cbn [fold_left xsum fold_right]; [rewrite Z.lxor_0_r; reflexivity|].
    rewrite IH. fold (xsum l). rewrite Z.lxor_assoc. reflexivity.
  Qed.

  Lemma xsum_perm l l' : Permutation l l' -> xsum l = xsum l'.
  Proof.
    induction 1 as [|a l l' P IH|a b l|]; cbn [xsum fold_right] in *; try congruence.
    - fold (xsum l) (xsum l'). congruence.
    - fold (xsum l). rewrite <- !Z.lxor_assoc. f_equal. apply Z.lxor_comm.
  Qed.

  Lemma xsum_equal m : apart self eq m -> forall m', apart self eq m' -> (forall e, mem eq e m = mem eq e m') -> xsum m = xsum m'.
  Proof.
    induction 1 as [|a l FA A IH]; intros m' A' H.
    - destruct m' as [|b m']; [reflexivity|]. specialize (H b). rewrite mem_cons, kref in H. discriminate.
    - assert (MA : mem eq a m' = true) by (rewrite <- H, mem_cons, kref; reflexivity).
      rewrite mem_lookup in MA. destruct (lookup a m') as [y|] eqn:LK; [|discriminate].
      pose proof (delete_present self eq h GH a m' y A' LK) as P. rewrite (xsum_perm _ _ P). cbn [xsum fold_right].
      fold (xsum l). apply lookup_some in LK as [_ LK]. rewrite (khash _ _ LK). f_equal.
      apply IH; [apply apart_filter; assumption|]. intros e. specialize (H e).
      rewrite (mem_perm e _ _ P), !mem_cons in H.
      destruct (eq a e) eqn:QA.
      + transitivity false; [|symmetry].
        * destruct (mem eq e l) eqn:M; [|reflexivity]. apply mem_iff in M as (x & I & Q). rewrite Forall_forall in FA.
          specialize (FA x I). cbn in FA. rewrite (ktrans a e x) in FA; [discriminate|assumption|rewrite ksym; assumption].
        * destruct (mem eq e (delete self eq a m')) eqn:M; [|reflexivity]. apply mem_iff in M as (x & I & Q).
          apply filter_In in I as [_ I]. rewrite (ktrans x e a) in I; [discriminate|assumption|rewrite ksym; assumption].
      + replace (eq y e) with false in H; [exact H|]. symmetry. destruct (eq y e) eqn:Q; [|reflexivity].
        rewrite (ktrans a y e) in QA; [discriminate|rewrite ksym; assumption|assumption].
  Qed.

  Lemma set_hash_ok a b f : stands a f -> stands b f -> set_hash h a = set_hash h b.
  Proof.
    intros (m & R & F) (m' & R' & G). pose proof R as (GR & T & _). pose proof R' as (GR' & T' & _).
    unfold set_hash. rewrite !fold_xor, T, T'.
    rewrite (xsum_perm _ _ (g_perm _ _ _ _ _ GR)), (xsum_perm _ _ (g_perm _ _ _ _ _ GR')).
    rewrite (xsum_equal m (g_apart _ _ _ _ _ GR) m' (g_apart _ _ _ _ _ GR')); [|intros e; rewrite F, G; reflexivity].
    pose proof (subset_count a m f b m' f R R' F G ltac:(intros e; auto)).
    pose proof (subset_count b m' f a m f R' R G F ltac:(intros e; auto)).
    replace (length m) with (length m') by lia. reflexivity.
  Qed.

  (** ** Expressions *)
  Lemma eval_ok s : exists c, eval eq h h s = Ok c /\ stands c (den eq s).
  Proof.
    induction s as [n|s (c & C1 & C2) e|s (c & C1 & C2) e|s (c & C1 & C2) t (d & D1 & D2)
                   |s (c & C1 & C2) t (d & D1 & D2)|s (c & C1 & C2) t (d & D1 & D2)|s (c & C1 & C2)|s (c & C1 & C2)];
      cbn [eval den]; try (rewrite C1; cbn [obind]); try (rewrite D1; cbn [obind]).
    - eexists; split; [reflexivity|]. apply stands_empty.
    - destruct C2 as (m & R & F). destruct (set_add_ok e c m R) as (c' & C' & R'). exists c'. split; [assumption|].
      eexists; split; [exact R'|]. intros x. destruct (mem eq e m) eqn:M; [|rewrite mem_cons, F; reflexivity].
      rewrite F. destruct (eq e x) eqn:Q; [|reflexivity]. cbn. rewrite <- F, <- (mem_eq e x m Q). assumption.
    - destruct C2 as (m & R & F). destruct (remove_ok self eq h GH e c m R) as (c' & C' & R'). rewrite C'. cbn [obind].
      exists c'. split; [reflexivity|]. eexists; split; [exact R'|]. intros x. rewrite <- F.
      apply Bool.eq_iff_eq_true. rewrite andb_true_iff, !mem_iff. unfold delete. split.
      + intros (y & I & Q). apply filter_In in I as [I J]. split; [eauto|]. destruct (eq e x) eqn:QE; [|reflexivity].
        rewrite (ktrans y x e) in J; [discriminate|assumption|rewrite ksym; assumption].
      + intros [(y & I & Q) J]. exists y. split; [|assumption]. apply filter_In. split; [assumption|].
        destruct (eq y e) eqn:QE; [|reflexivity]. rewrite (ktrans e y x) in J; [discriminate|rewrite ksym; assumption|assumption].
    - apply set_union_ok; assumption.
    - apply set_inter_ok; assumption.
    - apply set_diff_ok; assumption.
    - destruct C2 as (m & R & F). destruct (shallow_copy_ok self eq h GH c m R) as (c' & C' & R'). exists c'.
      split; [assumption|]. exists m. auto.
    - destruct C2 as (m & R & F). destruct (rehash_ok self eq h GH c m R) as (c' & C' & R'). exists c'.
      split; [assumption|]. exists m. auto.
  Qed.

  Lemma eval_includes s x : (olet c := eval eq h h s in set_includes eq h x c) = Ok (den eq s x).
  Proof.
    destruct (eval_ok s) as (c & C & m & R & F). rewrite C. cbn [obind]. rewrite (set_includes_ok x c m R), F. reflexivity.
  Qed.
  Lemma ask_le s t : exists r, ask eq h h (set_le eq h) s t = Ok r /\ (r = true <-> included eq s t).
  Proof.
    destruct (eval_ok s) as (a & A & SA), (eval_ok t) as (b & B & SB). unfold ask. rewrite A, B. cbn [obind].
    apply set_le_ok; assumption.
  Qed.
  Lemma ask_lt s t : exists r, ask eq h h (set_lt eq h) s t = Ok r /\ (r = true <-> included eq s t /\ ~ included eq t s).
  Proof.
    destruct (eval_ok s) as (a & A & SA), (eval_ok t) as (b & B & SB). unfold ask. rewrite A, B. cbn [obind].
    apply set_lt_ok; assumption.
  Qed.
  Lemma ask_eq s t : exists r, ask eq h h (set_eq eq h) s t = Ok r /\ (r = true <-> forall x, den eq s x = den eq t x).
  Proof.
    destruct (eval_ok s) as (a & A & SA), (eval_ok t) as (b & B & SB). unfold ask. rewrite A, B. cbn [obind].
    apply set_eq_ok; assumption.
  Qed.
  Lemma ask_hash s t : (forall x, den eq s x = den eq t x) ->
    exists v, ask eq h h (fun a b => Ok (set_hash h a, set_hash h b)) s t = Ok (v, v).
  Proof.
    intros H. destruct (eval_ok s) as (a & A & SA), (eval_ok t) as (b & B & SB). unfold ask. rewrite A, B. cbn [obind].
    exists (set_hash h a). f_equal. f_equal. symmetry. apply set_hash_ok with (f := den eq s); [assumption|].
    destruct SB as (m & R & F). exists m. split; [assumption|]. intros e. rewrite F, H. reflexivity.
  Qed.
End Sets.

(** ** IdentitySet
    kernel/IdentitySet.st redefines findIndex: to use == and identityHash, while findElementIndex:, used on
    growing, removing and copying, is still the one of kernel/HashedColl.st:329-343 and uses hash. *)
Lemma identity_set_broken : exists (idhash hash : Z -> Z) (msgs : list (smessage Z)),
  (forall a b, idhash a = idhash b -> a = b) /\
  exists l, set_hist Z.eqb idhash hash (new 6) msgs = Ok l /\ ~ Forall2 sagree l (set_run Z.eqb [] msgs).
Proof.
  exists (fun a => a), (fun _ => 0%Z), (map Add [10;20;30;40;50;60;70]%Z ++ [Includes 20%Z]). split; [auto|].
  eexists. split; [vm_compute; reflexivity|]. cbn. intros F.
  repeat match goal with H : Forall2 _ (_ :: _) (_ :: _) |- _ => inversion H; clear H; subst end. discriminate.
Qed.

Section Ext.
  Context {E : Type} (eq : E -> E -> bool) (hf he he' : E -> Z).
  Hypothesis X : forall e, he e = he' e.
  Notation self := (fun e : E => e).

  Lemma find_element_ext (t : list (option E)) k : find_element he t k = find_element he' t k.
  Proof. unfold find_element. rewrite X. reflexivity. Qed.
  Lemma rehash_after_ext fuel : forall t i, rehash_after self he fuel t i = rehash_after self he' fuel t i.
  Proof.
    induction fuel as [|fuel IH]; intros t i; [reflexivity|]. cbn [rehash_after]. destruct (nth_error _ _) as [[e|]|]; try reflexivity.
    rewrite find_element_ext. destruct (find_element he' _ e); cbn [obind]; auto.
  Qed.
  Lemma copy_all_from_ext src : forall c, copy_all_from self he src c = copy_all_from self he' src c.
  Proof.
    induction src as [|[e|] src IH]; intros c; [reflexivity| |apply IH]. cbn [copy_all_from].
    unfold add_while_growing. rewrite find_element_ext. destruct (find_element he' _ e); cbn [obind]; auto.
  Qed.
  Lemma set_send_ext c msg : set_send eq hf he c msg = set_send eq hf he' c msg.
  Proof.
    destruct msg; cbn [set_send]; try reflexivity.
    - unfold set_add, put. destruct (find _ _ _ _ _); cbn [obind]; try reflexivity. destruct (nth _ _ _); [reflexivity|].
      unfold increment_tally, grow_by. rewrite copy_all_from_ext. reflexivity.
    - unfold remove. destruct (find _ _ _ _ _); cbn [obind]; try reflexivity. destruct (nth _ _ _); [|reflexivity].
      rewrite rehash_after_ext. reflexivity.
    - unfold rehash. rewrite copy_all_from_ext. reflexivity.
    - unfold shallow_copy. rewrite copy_all_from_ext. reflexivity.
  Qed.
  Lemma set_hist_ext msgs : forall c, set_hist eq hf he c msgs = set_hist eq hf he' c msgs.
  Proof.
    induction msgs as [|msg msgs IH]; intros c; [reflexivity|]. cbn [set_hist]. rewrite set_send_ext.
    destruct (set_send eq hf he' c msg) as [[c' a]| | | |]; cbn [obind]; try reflexivity. rewrite IH. reflexivity.
  Qed.
End Ext.

Lemma identity_set_ok {E} (same : E -> E -> bool) (idhash hash : E -> Z) :
  good_hash same idhash -> (forall x, hash x = idhash x) -> forall n (msgs : list (smessage E)),
  exists l, set_hist same idhash hash (new n) msgs = Ok l /\ Forall2 sagree l (set_run same [] msgs).
Proof. intros G X n msgs. rewrite (set_hist_ext same idhash hash idhash X). apply set_ok. assumption. Qed.
