(** The caches answer what the hierarchy says. *)
From Verif Require Import Base Hashed MCache MCacheSpec.

Lemma replace_length_ {A} i (x : A) l : length (replace i x l) = length l.
Proof. revert i. induction l as [|y l IH]; intros [|i]; cbn; auto. Qed.
Lemma Forall_replace {A} (P : A -> Prop) i x l : Forall P l -> P x -> Forall P (replace i x l).
Proof.
  intros H X. revert i. induction H as [|y l Y H IH]; intros [|i]; cbn; constructor; auto.
Qed.

Section Proofs.
  Variables (dnu : Z) (selector_of : special -> Z).
  Local Notation send := (send dnu).
  Local Notation step := (step dnu selector_of).
  Local Notation run := (run dnu selector_of).

  Lemma finds_fun w s c r1 : finds w s c r1 -> forall r2, finds w s c r2 -> r1 = r2.
  Proof. induction 1; intros r2 H2; inversion H2; subst; try congruence. apply IHfinds. congruence. Qed.

  Lemma find_method_spec w (rank : Z -> nat) : (forall c p, super w c = Some p -> (rank p < rank c)%nat) ->
    forall fuel s c, (rank c < fuel)%nat -> exists r, find_method fuel w c s = Ok r /\ finds w s c (option_map fst r).
  Proof.
    intros R. induction fuel as [|fuel IH]; intros s c F; [lia|]. cbn [find_method].
    destruct (dict w c s) as [m|] eqn:D; [eexists; split; [reflexivity|constructor; exact D]|].
    destruct (super w c) as [p|] eqn:S; [|eexists; split; [reflexivity|constructor 3; assumption]].
    destruct (IH s p) as (r & E & FI); [specialize (R _ _ S); lia|]. exists r. split; [exact E|]. econstructor 2; eauto.
  Qed.
  Lemma sane_find fuel w s c : sane dnu fuel w -> exists r, find_method fuel w c s = Ok r /\ finds w s c (option_map fst r).
  Proof.
    intros [(rank & R) _]. apply (find_method_spec w rank); [intros c0 p; apply R|apply R].
  Qed.

  Lemma hash_range s c : 0 <= cache_hash s c < METHOD_CACHE_SIZE.
  Proof.
    unfold cache_hash, METHOD_CACHE_SIZE. replace (2 ^ 11 - 1) with (Z.ones 11) by reflexivity.
    rewrite Z.land_ones by lia. apply Z.mod_pos_bound. reflexivity.
  Qed.

  Definition good_entry (w : world) (e : entry) : Prop :=
    forall s, e_sel e = Some s -> finds w s (e_class e) (Some (e_method e)).
  Definition good_inline (w : world) (v : vm) : Prop :=
    forall k c p, inline v k = Some (c, p) -> exists m, finds w (selector_of k) c (Some m) /\ m_prim m = p /\ p <> 0.
  Definition good (v : vm) : Prop := Forall (good_entry (hier v)) (cache v) /\ good_inline (hier v) v.
  Definition sized (v : vm) : Prop := Z.of_nat (length (cache v)) = METHOD_CACHE_SIZE.
  Definition empty (v : vm) : Prop := Forall (fun e => e_sel e = None) (cache v) /\ forall k, inline v k = None.

  Lemma empty_good v : empty v -> good v.
  Proof.
    intros [E I]. split.
    - eapply Forall_impl; [|exact E]. intros e H s S. congruence.
    - intros k c p H. rewrite I in H. discriminate.
  Qed.

  (** One look-up. *)
  Lemma cached_find_spec fuel v s c : sane dnu fuel (hier v) -> sized v ->
    exists v' r, cached_find fuel v s c = Ok (v', r) /\ hier v' = hier v /\ sized v' /\ counter v' = counter v /\
      inline v' = inline v /\
      (r = None -> finds (hier v) s c None) /\
      (good v -> good v' /\ finds (hier v) s c r).
  Proof.
    intros S L. unfold cached_find. pose proof (hash_range s c) as HR. unfold cache_at.
    replace (cache_hash s c <? 0) with false by lia.
    destruct (nth_error (cache v) (Z.to_nat (cache_hash s c))) as [e|] eqn:N.
    2: { apply nth_error_None in N. unfold sized in L. lia. }
    cbn [obind]. destruct (sane_find fuel (hier v) s c S) as (r & E & F).
    assert (forall b, (b = true -> e_sel e = Some s /\ e_class e = c) -> exists v' r0,
      (if b then Ok (v, Some (e_method e)) else
        olet r := find_method fuel (hier v) c s in
        match r with
        | Some (m, mc) => Ok (VM (hier v) (replace (Z.to_nat (cache_hash s c)) (Entry (Some s) c m mc) (cache v)) (counter v) (inline v), Some m)
        | None => Ok (v, None)
        end) = Ok (v', r0) /\ hier v' = hier v /\ sized v' /\ counter v' = counter v /\
      inline v' = inline v /\
      (r0 = None -> finds (hier v) s c None) /\
      (good v -> good v' /\ finds (hier v) s c r0)) as H.
    { intros b B. destruct b.
      - destruct (B eq_refl) as [B1 B2]. exists v, (Some (e_method e)). split; [reflexivity|]. split; [reflexivity|].
        split; [exact L|]. split; [reflexivity|]. split; [reflexivity|]. split; [discriminate|]. intros G. split; [exact G|].
        destruct G as [G _]. rewrite Forall_forall in G. apply nth_error_In in N. subst c. apply (G e N s B1).
      - rewrite E. cbn [obind]. destruct r as [[m mc]|].
        + eexists _, (Some m). split; [reflexivity|]. cbn [hier counter inline]. split; [reflexivity|].
          split; [unfold sized in *; cbn [cache]; rewrite replace_length_; exact L|]. split; [reflexivity|].
          split; [reflexivity|]. split; [discriminate|]. intros [G1 G2]. split; [|exact F]. split.
          * cbn [hier cache]. apply Forall_replace; [exact G1|]. intros s' H. cbn in *. injection H as <-. exact F.
          * exact G2.
        + exists v, None. split; [reflexivity|]. split; [reflexivity|]. split; [exact L|]. split; [reflexivity|].
          split; [reflexivity|]. split; [intros _; exact F|]. intros G. split; [exact G|exact F]. }
    destruct (e_sel e) as [s0|] eqn:ES.
    - apply (H ((s0 =? s) && (e_class e =? c))). intros B. apply andb_true_iff in B as [B1 B2]. split; [f_equal|]; lia.
    - apply (H false). discriminate.
  Qed.

  Lemma run_method_runs m ok : runs m ok (run_method m ok).
  Proof.
    unfold run_method. destruct (Z.eqb_spec (m_prim m) 0) as [H|H]; cbn.
    - constructor 3. exact H.
    - destruct ok; cbn; constructor; exact H.
  Qed.

  Lemma send_spec fuel v s c ok : sane dnu fuel (hier v) -> sized v ->
    exists v' e p k, send fuel v s c ok = Ok (v', (e, p)) /\ hier v' = hier v /\ sized v' /\ inline v' = inline v /\
      counter v' = uwrap64 (uwrap64 (counter v + 1) + k) /\ 0 <= k <= 1 /\
      (good v -> good v' /\ dispatches dnu (hier v) s c ok e /\
        (p <> 0 -> exists m, finds (hier v) s c (Some m) /\ m_prim m = p)).
  Proof.
    intros S L. unfold MCache.send.
    destruct (cached_find_spec fuel (count v) s c S L) as (v1 & r & E1 & H1 & L1 & C1 & I1 & N1 & G1). rewrite E1. cbn [obind].
    change (hier (count v)) with (hier v) in *. change (inline (count v)) with (inline v) in *.
    assert (good v -> good (count v)) as GC by (intros G; exact G).
    destruct r as [m|].
    - exists v1, (run_method m ok), (last_primitive m ok), 0. split; [reflexivity|]. split; [exact H1|]. split; [exact L1|].
      split; [exact I1|]. split; [rewrite C1; unfold uwrap64; cbn [counter count]; rewrite Z.add_0_r, Zmod_mod; reflexivity|].
      split; [lia|]. intros G. destruct (G1 (GC G)) as [G2 F]. split; [exact G2|]. split.
      + apply (dispatch_found _ _ _ _ _ m); [exact F|apply run_method_runs].
      + intros P. exists m. split; [exact F|]. unfold last_primitive in *. destruct ok; [reflexivity|lia].
    - assert (sane dnu fuel (hier (count v1))) as S1 by (cbn; rewrite H1; exact S).
      destruct (cached_find_spec fuel (count v1) dnu c S1 L1) as (v2 & r & E2 & H2 & L2 & C2 & I2 & N2 & G2). rewrite E2. cbn [obind].
      change (hier (count v1)) with (hier v1) in *. change (inline (count v1)) with (inline v1) in *.
      destruct S as [_ D]. destruct (D c) as (md & FD & PD). destruct r as [m|].
      + exists v2, (NotUnderstood (run_method m ok)), (last_primitive m ok), 1. split; [reflexivity|]. split; [congruence|]. split; [exact L2|].
        split; [congruence|]. split; [rewrite C2; cbn [counter count]; rewrite C1; reflexivity|]. split; [lia|].
        intros G. destruct (G1 (GC G)) as [G3 F]. destruct (G2 G3) as [G4 F2]. rewrite H1 in F2.
        split; [exact G4|]. assert (m = md) as -> by (pose proof (finds_fun _ _ _ _ F2 _ FD); congruence). split.
        * apply (dispatch_dnu _ _ _ _ _ md); [exact F|exact FD|apply run_method_runs].
        * intros P. unfold last_primitive in P. destruct ok; lia.
      + exfalso. specialize (N2 eq_refl). rewrite H1 in N2. pose proof (finds_fun _ _ _ _ N2 _ FD). discriminate.
  Qed.

  Definition no_install (o : op) : Prop := match o with Install _ _ _ => False | _ => True end.
  Definition no_constant (o : op) : Prop := match o with DoitConstant => False | _ => True end.

  Record inv (w0 : world) (h : list op) (v : vm) : Prop := Inv {
    inv_hier : hier v = world_after w0 h;
    inv_sized : sized v;
    inv_counter : 0 <= counter v <= 3 * Z.of_nat (length h);
    inv_good : clean h = true -> good v;
    inv_zero : Forall no_constant h -> counter v = 0 -> empty v
  }.

  Lemma uwrap_small z : 0 <= z < 2 ^ 64 -> uwrap64 z = z.
  Proof. intros H. unfold uwrap64. apply Z.mod_small. exact H. Qed.
  Lemma invalidate_empty v : counter v <> 0 -> empty (invalidate v).
  Proof.
    intros H. unfold invalidate. replace (counter v =? 0) with false by lia. split; [|reflexivity]. cbn [cache].
    apply Forall_forall. intros e I. apply in_map_iff in I as (x & <- & _). reflexivity.
  Qed.
  Lemma invalidate_other v : hier (invalidate v) = hier v /\ (sized v -> sized (invalidate v)) /\
    (counter (invalidate v) = 0).
  Proof.
    unfold invalidate, sized. destruct (Z.eqb_spec (counter v) 0) as [H|H]; [auto|]. cbn [hier cache counter].
    rewrite map_length. auto.
  Qed.
  Lemma Forall_snoc {A} (P : A -> Prop) l x : Forall P (l ++ [x]) <-> Forall P l /\ P x.
  Proof. rewrite Forall_app, Forall_cons_iff. intuition. Qed.

  Lemma step_inv fuel w0 h v o : inv w0 h v -> sane dnu fuel (world_after w0 h) -> Z.of_nat (length h) < 2 ^ 62 ->
    Forall no_install (h ++ [o]) \/ Forall no_constant (h ++ [o]) ->
    exists v' e, step fuel v o = Ok (v', e) /\ inv w0 (h ++ [o]) v' /\
      (clean h = true -> right dnu selector_of (world_after w0 h) o e).
  Proof.
    intros [IH IS IC IG IZ] S B Q. rewrite <- IH in S.
    assert (Z.of_nat (length (h ++ [o])) = Z.of_nat (length h) + 1) as LH by (rewrite app_length; cbn [length]; lia).
    assert (world_after w0 (h ++ [o]) = changes (hier v) o) as WA.
    { unfold world_after. rewrite fold_left_app. cbn [fold_left]. unfold world_after in IH. rewrite <- IH. reflexivity. }
    assert (forall v', hier v' = changes (hier v) o -> sized v' -> 0 <= counter v' <= counter v + 3 ->
      (clean (h ++ [o]) = true -> good v') -> (Forall no_constant (h ++ [o]) -> counter v' = 0 -> empty v') -> inv w0 (h ++ [o]) v') as MK.
    { intros v' A1 A2 A3 A4 A5. constructor; [congruence|assumption|lia|assumption|assumption]. }
    assert (forall o0, (match o0 with Store _ _ _ | Superclass _ _ | Flush => False | _ => True end) ->
      clean (h ++ [o0]) = clean h) as CL.
    { intros o0 H. unfold clean. rewrite fold_left_app. destruct o0; try reflexivity; destruct H. }
    destruct o; cbn [MCache.step right].
    - destruct (send_spec fuel v sel cls ok S IS) as (v' & e & p & k & E & E1 & E2 & E3 & E4 & E5 & E6).
      rewrite (uwrap_small (counter v + 1)), uwrap_small in E4 by lia. rewrite E. cbn. eexists _, _. split; [reflexivity|]. split.
      + apply MK; [exact E1|exact E2|lia| |].
        * rewrite CL by exact Logic.I. intros C. apply E6, IG, C.
        * intros _ Z0. lia.
      + intros C. exists e. split; [reflexivity|]. rewrite <- IH. apply E6, IG, C.
    - destruct (send_spec fuel v (selector_of k) cls ok S IS) as (v' & e & p & k0 & E & E1 & E2 & E3 & E4 & E5 & E6).
      rewrite (uwrap_small (counter v + 1)), uwrap_small in E4 by lia.
      assert (forall c0 p0, inline v k = Some (c0, p0) -> (c0 =? cls) && ok = true ->
        exists v1 e1, (olet (v2, e2) := Ok (v, Primitive p0) in Ok (v2, Some e2)) = Ok (v1, e1) /\ inv w0 (h ++ [Special k cls ok]) v1 /\
        (clean h = true -> exists x, e1 = Some x /\ dispatches dnu (world_after w0 h) (selector_of k) cls ok x)) as FAST.
      { intros c0 p0 I B0. cbn. eexists _, _. split; [reflexivity|]. split.
        - apply MK; [reflexivity|exact IS|lia| |].
          + rewrite CL by exact Logic.I. exact IG.
          + rewrite Forall_snoc. intros [F _]. apply IZ, F.
        - intros C. eexists. split; [reflexivity|]. rewrite <- IH. destruct (IG C) as [_ G].
          destruct (G k c0 p0 I) as (m & F & P & NZ). assert (c0 = cls) by lia. destruct ok; [|lia]. subst.
          apply (dispatch_found _ _ _ _ _ m); [exact F|]. constructor. exact NZ. }
      assert (exists v1 e1, (olet (v2, e2) := (olet (v, (e, p)) := send fuel v (selector_of k) cls ok in
          Ok (if cacheable k p then set_inline v k (cls, p) else v, e)) in Ok (v2, Some e2)) = Ok (v1, e1) /\ inv w0 (h ++ [Special k cls ok]) v1 /\
        (clean h = true -> exists x, e1 = Some x /\ dispatches dnu (world_after w0 h) (selector_of k) cls ok x)) as SLOW.
      { rewrite E. cbn. eexists _, _. split; [reflexivity|]. split.
        - apply MK.
          + destruct (cacheable k p); exact E1.
          + destruct (cacheable k p); exact E2.
          + destruct (cacheable k p); cbn [counter set_inline]; lia.
          + rewrite CL by exact Logic.I. intros C. destruct (E6 (IG C)) as (G & _ & P).
            destruct (cacheable k p) eqn:CA; [|exact G]. destruct G as [G1 G2]. split; [exact G1|].
            intros k' c' p' H. cbn [set_inline hier inline] in *. rewrite E1.
            assert (p <> 0) as NZ by (destruct k; cbn in CA; lia). destruct (P NZ) as (m & F & PM).
            rewrite <- E1 in *.
            destruct k, k'; try (apply (G2 _ _ _ H)); injection H as <- <-; exists m; auto.
          + intros _ Z0. destruct (cacheable k p); cbn [counter set_inline] in Z0; lia.
        - intros C. eexists. split; [reflexivity|]. rewrite <- IH. apply E6, IG, C. }
      unfold send_special. destruct (inline v k) as [[c0 p0]|] eqn:I; [|exact SLOW].
      destruct ((c0 =? cls) && ok) eqn:B0; [|exact SLOW]. apply (FAST c0 p0); [reflexivity|assumption].
    - destruct (cached_find_spec fuel (count v) sel cls S IS) as (v1 & r & E1 & H1 & L1 & C1 & I1 & N1 & G1). rewrite E1. cbn [obind].
      change (hier (count v)) with (hier v) in *. cbn [counter count] in C1. rewrite uwrap_small in C1 by lia.
      assert (sane dnu fuel (hier v1)) as S1 by (rewrite H1; exact S).
      destruct (send_spec fuel v1 sel cls ok S1 L1) as (v' & e & p & k & E & E2 & E3 & E4 & E5 & E6 & E7).
      rewrite (uwrap_small (counter v1 + 1)), uwrap_small in E5 by lia. rewrite E. cbn. eexists _, _. split; [reflexivity|].
      assert (clean h = true -> good v1) as GV by (intros C; apply G1; exact (IG C)). split.
      + apply MK; [rewrite E2; exact H1|exact E3|lia| |].
        * rewrite CL by exact Logic.I. intros C. apply E7, GV, C.
        * intros _ Z0. lia.
      + intros C. exists e. split; [reflexivity|]. rewrite <- IH, <- H1. apply E7, GV, C.
    - eexists _, _. split; [reflexivity|]. split.
      + apply MK; [reflexivity|exact IS|cbn [counter count]; rewrite uwrap_small; lia| |].
        * rewrite CL by exact Logic.I. exact IG.
        * intros _ Z0. cbn [counter count] in Z0. rewrite uwrap_small in Z0; lia.
      + intros _. eexists. split; [reflexivity|]. apply run_method_runs.
    - eexists _, _. split; [reflexivity|]. split; [|reflexivity].
      apply MK; [reflexivity|exact IS|cbn [counter with_hier]; lia| |].
      + unfold clean. rewrite fold_left_app. cbn. discriminate.
      + rewrite Forall_snoc. intros [F _]. apply IZ, F.
    - eexists _, _. split; [reflexivity|]. split; [|reflexivity].
      assert (counter (count v) <> 0) as NZ by (cbn [counter count]; rewrite uwrap_small; lia).
      destruct (invalidate_other (count v)) as (O1 & O2 & O3). apply MK; [exact O1|apply O2, IS|lia| |].
      + intros _. apply empty_good, invalidate_empty, NZ.
      + intros _ _. apply invalidate_empty, NZ.
    - eexists _, _. split; [reflexivity|]. split; [|reflexivity].
      apply MK; [reflexivity|exact IS|cbn [counter with_hier]; lia| |].
      + unfold clean. rewrite fold_left_app. cbn. discriminate.
      + rewrite Forall_snoc. intros [F _]. apply IZ, F.
    - destruct Q as [Q|Q]; rewrite Forall_snoc in Q; destruct Q as [Q Q1]; [destruct Q1|].
      eexists _, _. split; [reflexivity|]. split; [|reflexivity].
      match goal with |- inv _ _ (invalidate ?x) => set (v1 := x) end.
      assert (empty (invalidate v1)) as EV.
      { destruct (Z.eq_dec (counter v) 0) as [Z0|Z0]; [|apply invalidate_empty; exact Z0].
        unfold invalidate. cbn [counter v1 with_hier]. replace (counter v =? 0) with true by lia. exact (IZ Q Z0). }
      destruct (invalidate_other v1) as (O1 & O2 & O3). apply MK; [exact O1|apply O2, IS|lia| |].
      + intros _. apply empty_good, EV.
      + intros _ _. exact EV.
    - eexists _, _. split; [reflexivity|]. split.
      + apply MK; [reflexivity|exact IS|cbn [counter count reset_counter]; rewrite uwrap_small; lia| |].
        * rewrite CL by exact Logic.I. exact IG.
        * intros _ Z0. cbn [counter count reset_counter] in Z0. rewrite uwrap_small in Z0; lia.
      + intros _. eexists. split; [reflexivity|]. apply run_method_runs.
    - eexists _, _. split; [reflexivity|]. split; [|reflexivity].
      apply MK; [reflexivity|exact IS|cbn [counter reset_counter]; lia| |].
      + rewrite CL by exact Logic.I. exact IG.
      + rewrite Forall_snoc. intros [_ []].
  Qed.

  Lemma run_snoc fuel h : forall v o, run fuel v (h ++ [o]) =
    (olet (v, es) := run fuel v h in olet (v, e) := step fuel v o in Ok (v, es ++ [e])).
  Proof.
    induction h as [|x h IH]; intros v o.
    - cbn. destruct (step fuel v o) as [[v' e]| | | |]; reflexivity.
    - cbn [app MCache.run]. destruct (step fuel v x) as [[v' e]| | | |]; try reflexivity. cbn [obind]. rewrite IH.
      destruct (run fuel v' h) as [[v2 es]| | | |]; try reflexivity. cbn [obind].
      destruct (step fuel v2 o) as [[v3 e3]| | | |]; reflexivity.
  Qed.

  Lemma vm0_inv w : inv w [] (vm0 w).
  Proof.
    assert (empty (vm0 w)) as E.
    { split; [|reflexivity]. cbn [vm0 cache]. apply Forall_forall. intros e I. apply repeat_spec in I. subst e. reflexivity. }
    constructor; [reflexivity| |cbn; lia|intros _; apply empty_good, E|intros _ _; exact E].
    unfold sized. cbn [vm0 cache]. rewrite repeat_length. unfold METHOD_CACHE_SIZE. lia.
  Qed.

  Lemma run_inv fuel w0 h : (forall pre post, h = pre ++ post -> sane dnu fuel (world_after w0 pre)) ->
    Z.of_nat (length h) < 2 ^ 62 -> Forall no_install h \/ Forall no_constant h ->
    exists v es, run fuel (vm0 w0) h = Ok (v, es) /\ inv w0 h v.
  Proof.
    induction h as [|o h IH] using rev_ind; intros S B Q.
    - eexists _, _. split; [reflexivity|]. apply vm0_inv.
    - rewrite app_length in B. cbn [length] in B. destruct IH as (v & es & E & I).
      + intros pre post ->. apply (S pre (post ++ [o])). rewrite app_assoc. reflexivity.
      + lia.
      + rewrite !Forall_snoc in Q. tauto.
      + destruct (step_inv fuel w0 h v o I) as (v' & e & E' & I' & _); [apply (S h [o]); reflexivity|lia|exact Q|].
        exists v', (es ++ [e]). rewrite run_snoc, E. cbn [obind]. rewrite E'. auto.
  Qed.

  Lemma cache_transparent fuel w0 h o : (forall pre post, h = pre ++ post -> sane dnu fuel (world_after w0 pre)) ->
    Z.of_nat (length h) < 2 ^ 62 -> Forall no_install (h ++ [o]) \/ Forall no_constant (h ++ [o]) -> clean h = true ->
    exists v es e, run fuel (vm0 w0) (h ++ [o]) = Ok (v, es ++ [e]) /\ right dnu selector_of (world_after w0 h) o e.
  Proof.
    intros S B Q C. destruct (run_inv fuel w0 h S B) as (v & es & E & I); [rewrite !Forall_snoc in Q; tauto|].
    destruct (step_inv fuel w0 h v o I) as (v' & e & E' & I' & R); [apply (S h []); rewrite app_nil_r; reflexivity|exact B|exact Q|].
    exists v', es, e. rewrite run_snoc, E. cbn [obind]. rewrite E'. split; [reflexivity|]. apply R, C.
  Qed.
  Lemma cache_installed fuel w0 h o : (forall pre post, h = pre ++ post -> sane dnu fuel (world_after w0 pre)) ->
    Z.of_nat (length h) < 2 ^ 62 -> (forall c s m, ~ In (Install c s m) (h ++ [o])) -> clean h = true ->
    exists v es e, run fuel (vm0 w0) (h ++ [o]) = Ok (v, es ++ [e]) /\ right dnu selector_of (world_after w0 h) o e.
  Proof.
    intros S B Q C. apply cache_transparent; auto. left. apply Forall_forall. intros x I.
    destruct x; cbn; auto. exact (Q _ _ _ I).
  Qed.
  Lemma cache_bootstrap fuel w0 h o : (forall pre post, h = pre ++ post -> sane dnu fuel (world_after w0 pre)) ->
    Z.of_nat (length h) < 2 ^ 62 -> ~ In DoitConstant (h ++ [o]) -> clean h = true ->
    exists v es e, run fuel (vm0 w0) (h ++ [o]) = Ok (v, es ++ [e]) /\ right dnu selector_of (world_after w0 h) o e.
  Proof.
    intros S B Q C. apply cache_transparent; auto. right. apply Forall_forall. intros x I.
    destruct x; cbn; auto.
  Qed.
End Proofs.
