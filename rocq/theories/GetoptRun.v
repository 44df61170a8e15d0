(** Proofs about the reading of a command line, Getopt.v against the steps of GetoptSpec.v. *)
From Coq Require Import Ascii String Permutation Lia.
From Verif Require Import Base Getopt GetoptSpec GetoptProofs.
Import ListNotations.
Local Open Scope list_scope.
Local Open Scope char_scope.

(** * Options *)
Lemma lookup_in o n v : NoDup (map fst o) -> (lookup o n = Some v <-> In (n, v) o).
Proof.
  induction o as [|[k w] o IH]; cbn [map lookup fst]; intro D.
  - split; [discriminate|intros []].
  - apply NoDup_cons_iff in D as [D1 D2]. destruct (key_eqb k n) eqn:Q.
    + apply key_eqb_ok in Q. subst k. split.
      * intro H. injection H as ->. left. reflexivity.
      * intros [H|H]; [injection H as ->; reflexivity|]. apply (in_map fst) in H. contradiction.
    + rewrite IH by exact D2. split.
      * intro H. right. exact H.
      * intros [H|H]; [|exact H]. injection H as -> ->. assert (key_eqb n n = true) by (apply key_eqb_ok; reflexivity). congruence.
Qed.
Lemma lookup_pairs P n v : closed P -> (lookup (rev P) n = Some v <-> In (n, v) P).
Proof.
  intros [D _]. rewrite lookup_in.
  - rewrite <- in_rev. tauto.
  - rewrite map_rev. apply (Permutation_NoDup (Permutation_rev (map fst P))). exact D.
Qed.
Lemma in_all_pairs T n v : table_ok T ->
  (In (n, v) (all_pairs T) <-> exists l c k, In (l ++ [c], k) T /\ ((n = c /\ v = VKind k) \/ (In n l /\ v = VName c))).
Proof.
  intros [F _]. unfold all_pairs. rewrite in_flat_map. split.
  - intros [[l k] [H1 H2]]. rewrite Forall_forall in F. destruct (F _ H1) as [Ne _]. cbn [fst] in Ne.
    exists (removelast l), (List.last l (KText [])), k. rewrite <- (app_removelast_last (KText []) Ne). split; [exact H1|].
    unfold pairs in H2. cbn [fst snd] in H2. destruct H2 as [H2|H2].
    + injection H2 as <- <-. left. auto.
    + apply in_map_iff in H2 as [m [H2 H3]]. injection H2 as <- <-. right. auto.
  - intros [l [c [k [H1 H2]]]]. exists (l ++ [c], k). split; [exact H1|]. unfold pairs. cbn [fst snd].
    rewrite last_last, removelast_last. destruct H2 as [[-> ->]|[H2 ->]].
    + left. reflexivity.
    + right. apply in_map_iff. exists n. auto.
Qed.
Lemma same_entry T (e e' : list key * kind) n : NoDup (names T) -> In e T -> In e' T -> In n (fst e) -> In n (fst e') -> e = e'.
Proof.
  unfold names. induction T as [|x T IH]; cbn [flat_map]; intros D H1 H2 H3 H4; [destruct H1|].
  destruct (nodup_app _ _ D) as [_ [D2 D3]].
  assert (In_names : forall y, In y T -> In n (fst y) -> In n (flat_map fst T)).
  { intros y Hy Hn. apply in_flat_map. exists y. auto. }
  destruct H1 as [->|H1], H2 as [->|H2].
  - reflexivity.
  - exfalso. exact (D3 n H3 (In_names _ H2 H4)).
  - exfalso. exact (D3 n H4 (In_names _ H1 H3)).
  - exact (IH D2 H1 H2 H3 H4).
Qed.
Lemma option_det T n k c k' c' : table_ok T -> is_option T n k c -> is_option T n k' c' -> k = k' /\ c = c'.
Proof.
  intros [_ D] [l [H1 H2]] [l' [H1' H2']]. pose proof (same_entry T _ _ n D H1 H1' H2 H2') as Q.
  injection Q as Q ->. apply app_inj_tail in Q as [_ ->]. auto.
Qed.
Lemma option_in T n k c : is_option T n k c -> In n (names T).
Proof. intros [l [H1 H2]]. unfold names. apply in_flat_map. eexists. split; [exact H1|exact H2]. Qed.
Lemma long_option T n : table_ok T -> In n (names T) -> exists k c, is_option T n k c.
Proof.
  intros [F _] H. unfold names in H. apply in_flat_map in H as [[l k] [H1 H2]]. rewrite Forall_forall in F.
  destruct (F _ H1) as [Ne _]. cbn [fst] in *. exists k, (List.last l (KText [])), (removelast l).
  rewrite <- (app_removelast_last (KText []) Ne). auto.
Qed.

Lemma kind_ok T g n : table_ok T -> closed (all_pairs T) -> options g = rev (all_pairs T) ->
  (exists k c, option_kind g n = Go [] (VKind k) /\ option_name g n = Go [] c /\ is_option T n k c)
  \/ (option_kind g n = Fail [] /\ forall k c, ~ is_option T n k c).
Proof.
  intros K C O. unfold option_kind, option_name. rewrite O.
  destruct (lookup (rev (all_pairs T)) n) as [v|] eqn:Q.
  - apply (lookup_pairs _ _ _ C) in Q. apply (in_all_pairs T n v K) in Q as [l [c [k [H1 [[-> ->]|[H2 ->]]]]]].
    + left. exists k, c. repeat split. exists l. split; [exact H1|apply in_or_app; right; left; reflexivity].
    + left. exists k, c.
      assert (Q : lookup (rev (all_pairs T)) c = Some (VKind k)).
      { apply (lookup_pairs _ _ _ C). apply (in_all_pairs T _ _ K). exists l, c, k. auto. }
      rewrite Q. repeat split. exists l. split; [exact H1|apply in_or_app; left; exact H2].
  - right. split; [reflexivity|]. intros k c [l [H1 H2]].
    assert (exists v, In (n, v) (all_pairs T)) as [v Hv].
    { apply in_app_or in H2 as [H2|[H2|[]]].
      - exists (VName c). apply (in_all_pairs T _ _ K). exists l, c, k. auto.
      - exists (VKind k). apply (in_all_pairs T _ _ K). exists l, c, k. auto. }
    apply (lookup_pairs _ _ _ C) in Hv. congruence.
Qed.

(** * Prefixes *)
Lemma in_inits t u : In t (inits u) <-> t <> [] /\ exists r, u = t ++ r.
Proof.
  unfold inits. rewrite in_map_iff. split.
  - intros [n [<- H]]. apply in_seq in H. split.
    + intro Q. apply (f_equal (@length ascii)) in Q. rewrite firstn_length in Q. cbn [length] in Q. lia.
    + exists (skipn n u). symmetry. apply firstn_skipn.
  - intros [H [r ->]]. exists (length t). split.
    + rewrite firstn_app, firstn_all, Nat.sub_diag. apply app_nil_r.
    + apply in_seq. rewrite app_length. destruct t; [contradiction|]. cbn [length]. lia.
Qed.
Lemma inits_nodup u : NoDup (inits u).
Proof.
  apply (NoDup_map_inv (@length ascii)). unfold inits. rewrite map_map.
  rewrite (map_ext_in _ (fun n => n)).
  - rewrite map_id. apply seq_NoDup.
  - intros n H. apply in_seq in H. rewrite firstn_length. lia.
Qed.
Lemma occ_nodup t l : NoDup l -> occurrences t l = if existsb (text_eqb t) l then 1%nat else 0%nat.
Proof.
  unfold occurrences. induction l as [|a l IH]; intro D; [reflexivity|]. apply NoDup_cons_iff in D as [D1 D2].
  cbn [filter existsb]. destruct (text_eqb t a) eqn:Q; cbn [orb length].
  - apply text_eqb_ok in Q. subst a. rewrite IH by exact D2.
    destruct (existsb (text_eqb t) l) eqn:Z; [apply mem_text in Z; contradiction|reflexivity].
  - apply IH. exact D2.
Qed.
Lemma occ_inits t L : t <> [] ->
  occurrences t (flat_map inits L) = length (filter (fun u => starts_with u t) L).
Proof.
  intro H. induction L as [|u L IH]; [reflexivity|]. cbn [flat_map filter]. unfold occurrences in *.
  rewrite filter_app, app_length, IH. change (length (filter (text_eqb t) (inits u))) with (occurrences t (inits u)).
  rewrite occ_nodup by apply inits_nodup.
  destruct (existsb (text_eqb t) (inits u)) eqn:Q; destruct (starts_with u t) eqn:Z; cbn [length]; try reflexivity.
  - apply mem_text in Q. apply in_inits in Q as [_ Q]. apply starts_with_ok in Q. congruence.
  - apply starts_with_ok in Z. assert (In t (inits u)) as Y by (apply in_inits; auto). apply mem_text in Y. congruence.
Qed.
Lemma filter_one {A} (f : A -> bool) L x : NoDup L -> In x L -> f x = true ->
  (length (filter f L) = 1%nat <-> forall y, In y L -> f y = true -> y = x).
Proof.
  intros D H1 H2. assert (Hx : In x (filter f L)) by (apply filter_In; auto).
  assert (D' : NoDup (filter f L)) by (apply NoDup_filter; exact D). split.
  - intros H y Hy Fy. assert (Q : In y (filter f L)) by (apply filter_In; auto).
    destruct (filter f L) as [|a [|b r]]; try discriminate. destruct Hx as [<-|[]], Q as [<-|[]]. reflexivity.
  - intro H. destruct (filter f L) as [|a [|b r]] eqn:Z; [destruct Hx|reflexivity|].
    exfalso. assert (Ia : In a (filter f L)) by (rewrite Z; left; reflexivity).
    assert (Ib : In b (filter f L)) by (rewrite Z; right; left; reflexivity).
    apply filter_In in Ia as [Ia Fa]. apply filter_In in Ib as [Ib Fb].
    rewrite (H a Ia Fa), (H b Ib Fb) in D'. apply NoDup_cons_iff in D' as [D' _]. apply D'. left. reflexivity.
Qed.
Lemma find_first {A} (f : A -> bool) l k : find f l = Some k ->
  exists i, nth_error l i = Some k /\ f k = true /\ forall j a, (j < i)%nat -> nth_error l j = Some a -> f a = false.
Proof.
  induction l as [|x l IH]; cbn [find]; [discriminate|]. destruct (f x) eqn:Q.
  - intro H. injection H as ->. exists 0%nat. repeat split; [exact Q|]. intros j a Hj. lia.
  - intro H. destruct (IH H) as [i [H1 [H2 H3]]]. exists (S i). repeat split; [exact H1|exact H2|].
    intros [|j] a Hj Ha; [injection Ha as <-; exact Q|]. apply (H3 j a); [lia|exact Ha].
Qed.

Lemma full_ok order T g t : table_ok T -> closed (all_pairs T) -> by_size order ->
  g = reject_bad order (state_of (all_pairs T)) ->
  (exists full, full_name g t = Go [] full /\ stands_for T t full)
  \/ (full_name g t = Fail [] /\ forall full, ~ stands_for T t full).
Proof.
  intros K C B ->. unfold full_name. cbn [prefixes longs reject_bad state_of].
  set (L := long_keys (all_pairs T)).
  assert (IL : forall u, In u L <-> In (KText u) (names T)).
  { intro u. unfold L. rewrite in_long_keys. split; intro H.
    - apply in_map_iff in H as [[k v] [Hk H]]. cbn in Hk. subst k.
      apply (in_all_pairs T _ _ K) in H as [l [c [kd [H1 H2]]]]. unfold names. apply in_flat_map. exists (l ++ [c], kd).
      split; [exact H1|]. apply in_or_app. destruct H2 as [[<- _]|[H2 _]]; [right; left; reflexivity|left; exact H2].
    - destruct (long_option T _ K H) as [k [c [l [H1 H2]]]]. apply in_map_iff.
      apply in_app_or in H2 as [H2|[H2|[]]].
      + exists (KText u, VName c). split; [reflexivity|]. apply (in_all_pairs T _ _ K). exists l, c, k. auto.
      + exists (KText u, VKind k). split; [reflexivity|]. apply (in_all_pairs T _ _ K). exists l, c, k. auto. }
  assert (DL : NoDup L).
  { unfold L. destruct C as [C _]. revert C. generalize (all_pairs T). intro P. induction P as [|[k v] P IH]; intro C; [constructor|].
    cbn [map fst] in C. apply NoDup_cons_iff in C as [C1 C2]. unfold long_keys. cbn [flat_map fst].
    destruct k as [c|u]; cbn [app]; [exact (IH C2)|]. constructor; [|exact (IH C2)].
    intro Q. apply in_long_keys in Q. contradiction. }
  assert (NE : forall u, In u L -> u <> []).
  { intros u Hu. apply IL in Hu. unfold names in Hu. apply in_flat_map in Hu as [e [H1 H2]]. destruct K as [F _].
    rewrite Forall_forall in F. destruct (F _ H1) as [_ F2]. rewrite Forall_forall in F2. destruct (F2 _ H2) as [F3 _]. exact F3. }
  destruct (existsb (text_eqb t) (filter (fun u => (occurrences u (flat_map inits L) =? 1)%nat || existsb (text_eqb u) L) (flat_map inits L))) eqn:Q.
  - apply mem_text in Q. apply filter_In in Q as [Q1 Q2]. apply in_flat_map in Q1 as [u [Hu Hi]].
    apply in_inits in Hi as [Ht Hr].
    destruct (B L) as [Perm Sz].
    destruct (find (fun k => starts_with k t) (order L)) as [k|] eqn:Fd.
    + destruct (find_first _ _ _ Fd) as [i [F1 [F2 F3]]]. left. exists k. split; [reflexivity|].
      assert (Hk : In k L) by (apply (Permutation_in _ (Permutation_sym Perm)); exact (nth_error_In _ _ F1)).
      split; [apply IL; exact Hk|].
      destruct (existsb (text_eqb t) L) eqn:M.
      * left. apply mem_text in M. assert (M' : In t (order L)) by (apply (Permutation_in _ Perm); exact M).
        apply In_nth_error in M' as [j Hj]. apply starts_with_ok in F2 as [r ->].
        destruct (Nat.lt_trichotomy i j) as [Hij|[->|Hij]].
        -- pose proof (Sz i j _ _ Hij F1 Hj) as Hl. rewrite app_length in Hl. destruct r; [symmetry; apply app_nil_r|cbn [length] in Hl; lia].
        -- congruence.
        -- exfalso. pose proof (F3 j t Hij Hj) as F4. assert (starts_with t t = true) by (apply starts_with_ok; exists []; symmetry; apply app_nil_r). congruence.
      * right. cbn beta in Q2. rewrite Bool.orb_false_r in Q2. apply Nat.eqb_eq in Q2. rewrite occ_inits in Q2 by exact Ht.
        split; [exact Ht|]. split; [intro Y; apply IL in Y; apply mem_text in Y; congruence|].
        split; [apply starts_with_ok; exact F2|].
        intros w r Hw Ew. apply IL in Hw. apply (proj1 (filter_one _ L k DL Hk F2) Q2 w Hw).
        apply starts_with_ok. exists r. exact Ew.
    + exfalso. apply starts_with_ok in Hr. assert (Hu' : In u (order L)) by (apply (Permutation_in _ Perm); exact Hu).
      pose proof (find_none _ _ Fd u Hu') as Z. cbn beta in Z. congruence.
  - right. split; [reflexivity|]. intros full [H1 H2]. apply IL in H1.
    assert (Hin : In t (filter (fun u => (occurrences u (flat_map inits L) =? 1)%nat || existsb (text_eqb u) L) (flat_map inits L))).
    { apply filter_In. destruct H2 as [->|[Ht [Hn [[r Hr] Hu]]]].
      - split.
        + apply in_flat_map. exists full. split; [exact H1|]. apply in_inits. split; [exact (NE _ H1)|exists []; symmetry; apply app_nil_r].
        + apply Bool.orb_true_iff. right. apply mem_text. exact H1.
      - split.
        + apply in_flat_map. exists full. split; [exact H1|]. apply in_inits. split; [exact Ht|exists r; exact Hr].
        + apply Bool.orb_true_iff. left. apply Nat.eqb_eq. rewrite occ_inits by exact Ht.
          apply (filter_one _ L full DL H1); [apply starts_with_ok; exists r; exact Hr|].
          intros y Hy Fy. apply starts_with_ok in Fy as [r' Fy]. apply (Hu y r'); [apply IL; exact Hy|exact Fy]. }
    apply mem_text in Hin. congruence.
Qed.

Lemma stands_det T t f f' : stands_for T t f -> stands_for T t f' -> f = f'.
Proof.
  intros [A [->|[A1 [A2 [[r A3] A4]]]]] [B [->|[B1 [B2 [[r' B3] B4]]]]].
  - reflexivity.
  - contradiction.
  - contradiction.
  - exact (B4 f r A A3).
Qed.

(** * The steps *)
Lemma split_eq n v n' v' : ~ In "=" n -> ~ In "=" n' -> n ++ "=" :: v = n' ++ "=" :: v' -> n = n' /\ v = v'.
Proof.
  revert n'; induction n as [|x n IH]; intros [|y n'] H1 H2 Q; cbn in Q.
  - injection Q as ->. auto.
  - injection Q as <- _. exfalso. apply H2. left. reflexivity.
  - injection Q as -> _. exfalso. apply H1. left. reflexivity.
  - injection Q as -> Q. destruct (IH n') as [-> ->]; auto.
    + intro Z. apply H1. right. exact Z.
    + intro Z. apply H2. right. exact Z.
Qed.
Lemma step_long T t r a s' : t <> [] -> step T (Args (("-" :: "-" :: t) :: r)) a s' ->
  exists n full k c, stands_for T n full /\ is_option T (KText full) k c /\ ~ In "=" n /\
   ((t = n /\ k <> MandatoryArg /\ a = [(Some c, None)] /\ s' = Args r) \/
    (t = n /\ k = MandatoryArg /\ exists v r', r = v :: r' /\ a = [(Some c, Some v)] /\ s' = Args r') \/
    (exists v, t = n ++ "=" :: v /\ k <> NoArg /\ a = [(Some c, Some v)] /\ s' = Args r)).
Proof.
  intros Ht H. inversion H as [? ? F|? Q| |n full k c ? A1 A2 A3 A4 A5 Q|n full c v r' A1 A2 A3 A4 Q|n full k c v ? A1 A2 A3 A4 Q|c cs ? A1 A2 Q| | | | |]; subst.
  - destruct F as [F|[F|[F|[c [q [F F']]]]]]; try discriminate. injection F as <- _. contradiction.
  - contradiction.
  - exists t, full, k, c. split; [assumption|split; [assumption|split; [assumption|left; auto]]].
  - exists t, full, MandatoryArg, c. split; [assumption|split; [assumption|split; [assumption|right; left]]].
    split; [reflexivity|split; [reflexivity|]]. exists v, r'. auto.
  - exists n, full, k, c. split; [assumption|split; [assumption|split; [assumption|right; right]]]. exists v. auto.
  - contradiction.
Qed.
Lemma step_cluster T ch cs r a s' : step T (Cluster (ch :: cs) r) a s' ->
  exists k c, is_option T (KChar ch) k c /\
   ((k = NoArg /\ a = [(Some c, None)] /\ s' = Cluster cs r) \/
    (k <> NoArg /\ cs <> [] /\ a = [(Some c, Some cs)] /\ s' = Args r) \/
    (k = OptionalArg /\ cs = [] /\ a = [(Some c, None)] /\ s' = Args r) \/
    (k = MandatoryArg /\ cs = [] /\ exists v r', r = v :: r' /\ a = [(Some c, Some v)] /\ s' = Args r')).
Proof.
  intro H. inversion H as [| | | | | | | |? ? c ? A|? ? k c ? A1 A2 A3|? c ? A|? c v r' A]; subst.
  - exists NoArg, c. auto.
  - exists k, c. split; [assumption|]. right. left. auto.
  - exists OptionalArg, c. split; [assumption|]. right. right. left. auto.
  - exists MandatoryArg, c. split; [assumption|]. right. right. right. repeat split. exists v, r'. auto.
Qed.
Lemma steps_app T s a s' b s'' : steps T s a s' -> steps T s' b s'' -> steps T s (a ++ b) s''.
Proof.
  induction 1 as [s|s x s1 y s2 H1 H2 IH]; intro H; [exact H|]. rewrite <- app_assoc. econstructor; [exact H1|apply IH; exact H].
Qed.
Lemma steps_one T s a s' : step T s a s' -> steps T s a s'.
Proof. intro H. rewrite <- (app_nil_r a). econstructor; [exact H|constructor]. Qed.

(** What a method did is what the steps say. *)
Definition realizes (T : table) (s : state) (r : res (list text)) : Prop :=
  match r with
  | Go acts l => steps T s acts (Args l) \/ (l = [] /\ steps T s acts (Files []))
  | Fail acts => exists s', steps T s acts s' /\ stuck T s'
  | _ => False
  end.
Lemma realizes_bind T s a s' (r : res (list text)) : steps T s a s' -> realizes T s' r ->
  realizes T s (rbind (Go a tt) (fun _ => r)).
Proof.
  intros H1 H2. destruct r as [m l|m|m|m]; cbn [rbind realizes] in *; try contradiction.
  - destruct H2 as [H2|[-> H2]]; [left|right; split; [reflexivity|]]; exact (steps_app _ _ _ _ _ _ H1 H2).
  - destruct H2 as [x [H2 H3]]. exists x. split; [exact (steps_app _ _ _ _ _ _ H1 H2)|exact H3].
Qed.
Lemma parse_option_eq g n c k arg args : option_name g n = Go [] c ->
  parse_option g n (VKind k) arg args =
  match k, arg, args with
  | MandatoryArg, None, [] => Fail []
  | MandatoryArg, None, v :: r => Go [(Some c, Some v)] r
  | NoArg, Some _, _ => Fail []
  | _, _, _ => Go [(Some c, arg)] args
  end.
Proof.
  intro H. unfold parse_option. destruct k, arg as [v|], args as [|w r]; cbn [rbind fst snd app]; try rewrite H; reflexivity.
Qed.

Section Run.
  Variable order : list text -> list text.
  Variable T : table.
  Variable g : getopt.
  Hypothesis K : table_ok T.
  Hypothesis C : closed (all_pairs T).
  Hypothesis B : by_size order.
  Hypothesis G : g = reject_bad order (state_of (all_pairs T)).

  Lemma kind_run n :
    (exists k c, option_kind g n = Go [] (VKind k) /\ option_name g n = Go [] c /\ is_option T n k c)
    \/ (option_kind g n = Fail [] /\ forall k c, ~ is_option T n k c).
  Proof. apply kind_ok; [exact K|exact C|rewrite G; reflexivity]. Qed.

  Lemma short_ok : forall cs args, realizes T (Cluster cs args) (parse_short g cs args).
  Proof.
    induction cs as [|ch cs IH]; intro args.
    - cbn. left. apply steps_one. constructor.
    - cbn [parse_short]. destruct (kind_run (KChar ch)) as [[k [c [H1 [H2 H3]]]]|[H1 H2]]; rewrite H1; cbn [rbind app].
      2:{ exists (Cluster (ch :: cs) args). split; [constructor|]. split; [intros [Q|Q]; discriminate|].
          intros a s' H. apply step_cluster in H as [k [c [H _]]]. exact (H2 k c H). }
      destruct k.
      + rewrite (parse_option_eq _ _ _ _ _ _ H2). cbn [rbind].
        specialize (IH args).
        destruct (parse_short g cs args) as [m l|m|m|m]; cbn [realizes] in *; try contradiction.
        * destruct IH as [IH|[-> IH]]; [left|right; split; [reflexivity|]].
          -- econstructor 2; [apply s_short; exact H3|exact IH].
          -- econstructor 2; [apply s_short; exact H3|exact IH].
        * destruct IH as [s' [I1 I2]]. exists s'. split; [|exact I2]. econstructor 2; [apply s_short; exact H3|exact I1].
      + destruct cs as [|x cs].
        * cbn [length Nat.eqb negb]. rewrite (parse_option_eq _ _ _ _ _ _ H2). destruct args as [|v r].
          -- cbn [rbind realizes]. exists (Cluster [ch] []). split; [constructor|]. split; [intros [Q|Q]; discriminate|].
             intros a s' H. apply step_cluster in H as [k [c' [H4 H5]]]. destruct (option_det _ _ _ _ _ _ K H3 H4) as [<- <-].
             destruct H5 as [[H5 _]|[[_ [H5 _]]|[[H5 _]|[_ [_ [v [r [H5 _]]]]]]]]; try discriminate. apply H5. reflexivity.
          -- cbn. left. apply steps_one. apply s_short_next. exact H3.
        * cbn [length Nat.eqb negb]. rewrite (parse_option_eq _ _ _ _ _ _ H2). cbn. left. apply steps_one.
          eapply s_short_value; [exact H3|discriminate|discriminate].
      + destruct cs as [|x cs].
        * cbn [length Nat.eqb negb]. rewrite (parse_option_eq _ _ _ _ _ _ H2). cbn. left. apply steps_one. apply s_short_none. exact H3.
        * cbn [length Nat.eqb negb]. rewrite (parse_option_eq _ _ _ _ _ _ H2). cbn. left. apply steps_one.
          eapply s_short_value; [exact H3|discriminate|discriminate].
  Qed.

  (** The long option, its argument found. *)
  Definition long_with (name : text) (value : option text) (args : list text) : res (list text) :=
    rbind (full_name g name) (fun name =>
    rbind (option_kind g (KText name)) (fun kd => parse_option g (KText name) kd value args)).
  Lemma index_none i t : index_from "=" i t = None -> ~ In "=" t.
  Proof.
    revert i; induction t as [|x t IH]; intros i H; [intros []|]. cbn [index_from] in H.
    destruct (Ascii.eqb x "=") eqn:Q; [discriminate|]. apply Ascii.eqb_neq in Q. intros [Z|Z]; [contradiction|exact (IH _ H Z)].
  Qed.
  Lemma index_some i t r : index_from "=" i t = Some r ->
    exists n v, t = n ++ "=" :: v /\ ~ In "=" n /\ r = (i + length n)%nat.
  Proof.
    revert i; induction t as [|x t IH]; intros i H; [discriminate|]. cbn [index_from] in H.
    destruct (Ascii.eqb x "=") eqn:Q.
    - apply Ascii.eqb_eq in Q. subst x. injection H as <-. exists [], t. repeat split; [intros []|cbn; lia].
    - apply Ascii.eqb_neq in Q. destruct (IH _ H) as [n [v [-> [H1 H2]]]]. exists (x :: n), v. repeat split.
      + intros [Z|Z]; [congruence|contradiction].
      + cbn [length]. lia.
  Qed.
  Lemma parse_long_eq t args : t <> [] ->
    (~ In "=" t /\ parse_long g ("-" :: "-" :: t) args = long_with t None args)
    \/ exists n v, t = n ++ "=" :: v /\ ~ In "=" n /\ parse_long g ("-" :: "-" :: t) args = long_with n (Some v) args.
  Proof.
    intro Ht. unfold parse_long, long_with. change (skipn 2 ("-" :: "-" :: t)) with t. destruct (index_from "=" 2 t) as [r|] eqn:Q.
    - right. apply index_some in Q as [n [v [-> [H1 ->]]]]. exists n, v. split; [reflexivity|split; [exact H1|]].
      replace (2 + length n - 2)%nat with (length n) by lia.
      rewrite firstn_app, firstn_all, Nat.sub_diag. cbn [firstn]. rewrite app_nil_r.
      replace (S (2 + length n) - 1)%nat with (S (S (length n))) by lia.
      assert (SK : skipn (S (S (S (length n)))) ("-" :: "-" :: n ++ "=" :: v) = v).
      { change (skipn (S (length n)) (n ++ "=" :: v) = v).
        change (n ++ "=" :: v) with (n ++ ["="] ++ v). rewrite app_assoc.
        replace (S (length n)) with (length (n ++ ["="])) by (rewrite app_length; cbn; lia).
        rewrite skipn_app, skipn_all, Nat.sub_diag. reflexivity. }
      rewrite SK.
      assert (NT : nth_error ("-" :: "-" :: n ++ "=" :: v) (S (S (length n))) = Some "=").
      { cbn [nth_error]. rewrite nth_error_app2 by lia. rewrite Nat.sub_diag. reflexivity. }
      rewrite NT. rewrite Ascii.eqb_refl. reflexivity.
    - left. apply index_none in Q. split; [exact Q|].
      replace (match nth_error ("-" :: "-" :: t) (length ("-" :: "-" :: t) - 1) with
               | Some c => if Ascii.eqb "=" c then Some (skipn (S (length ("-" :: "-" :: t) - 1)) ("-" :: "-" :: t)) else None
               | None => None end) with (@None text); [reflexivity|].
      destruct (nth_error ("-" :: "-" :: t) (length ("-" :: "-" :: t) - 1)) as [c|] eqn:Z; [|reflexivity].
      destruct (Ascii.eqb "=" c) eqn:Y; [|reflexivity]. exfalso. apply Ascii.eqb_eq in Y. subst c.
      destruct t as [|x t]; [contradiction|].
      replace (length ("-" :: "-" :: x :: t) - 1)%nat with (S (S (length t))) in Z by (cbn; lia).
      cbn [nth_error] in Z. apply nth_error_In in Z. contradiction.
  Qed.

  Lemma long_with_ok n full k c value args : stands_for T n full -> is_option T (KText full) k c ->
    long_with n value args =
    match k, value, args with
    | MandatoryArg, None, [] => Fail []
    | MandatoryArg, None, v :: r => Go [(Some c, Some v)] r
    | NoArg, Some _, _ => Fail []
    | _, _, _ => Go [(Some c, value)] args
    end.
  Proof.
    intros H1 H2. unfold long_with. destruct (full_ok order T g n K C B G) as [[f [F1 F2]]|[F1 F2]]; [|exfalso; exact (F2 _ H1)].
    rewrite F1. rewrite (stands_det _ _ _ _ F2 H1). cbn [rbind].
    destruct (kind_run (KText full)) as [[k' [c' [I1 [I2 I3]]]]|[I1 I2]]; [|exfalso; exact (I2 _ _ H2)].
    rewrite I1. cbn [rbind app]. destruct (option_det _ _ _ _ _ _ K H2 I3) as [<- <-].
    rewrite (parse_option_eq _ _ _ _ _ _ I2). destruct k, value, args; reflexivity.
  Qed.
  Lemma long_with_fail n value args : (forall full, ~ stands_for T n full) -> long_with n value args = Fail [].
  Proof.
    intro H. unfold long_with. destruct (full_ok order T g n K C B G) as [[f [F1 F2]]|[F1 F2]]; [exfalso; exact (H _ F2)|].
    rewrite F1. reflexivity.
  Qed.
  Lemma stands_dec n : (exists full k c, stands_for T n full /\ is_option T (KText full) k c) \/ forall full, ~ stands_for T n full.
  Proof.
    destruct (full_ok order T g n K C B G) as [[f [F1 F2]]|[F1 F2]]; [left|right; exact F2].
    destruct (long_option T (KText f) K (proj1 F2)) as [k [c H]]. exists f, k, c. auto.
  Qed.

  Lemma long_ok t args : t <> [] -> realizes T (Args (("-" :: "-" :: t) :: args)) (parse_long g ("-" :: "-" :: t) args).
  Proof.
    intro Ht. destruct (parse_long_eq t args Ht) as [[N ->]|[n [v [E0 [N ->]]]]].
    - destruct (stands_dec t) as [[full [k [c [H1 H2]]]]|H].
      + rewrite (long_with_ok _ _ _ _ _ _ H1 H2).
        destruct k; [left; apply steps_one; eapply s_long; eauto; discriminate| |left; apply steps_one; eapply s_long; eauto; discriminate].
        destruct args as [|w r].
        * exists (Args [("-" :: "-" :: t)]). split; [constructor|]. split; [intros [Q|Q]; discriminate|].
          intros a s' S1. apply step_long in S1; [|exact Ht]. destruct S1 as [n [f [k [c' [A1 [A2 [A3 A4]]]]]]].
          destruct A4 as [[<- [A4 _]]|[[<- [_ [v [r [A4 _]]]]]|[v [A4 _]]]].
          -- rewrite (stands_det _ _ _ _ A1 H1) in A2. destruct (option_det _ _ _ _ _ _ K A2 H2) as [-> _]. contradiction.
          -- discriminate.
          -- apply N. rewrite A4. apply in_or_app. right. left. reflexivity.
        * left. apply steps_one. eapply s_long_next; eauto.
      + rewrite long_with_fail by exact H. exists (Args (("-" :: "-" :: t) :: args)). split; [constructor|].
        split; [intros [Q|Q]; discriminate|].
        intros a s' S1. apply step_long in S1; [|exact Ht]. destruct S1 as [n [f [k [c' [A1 [A2 [A3 A4]]]]]]].
        destruct A4 as [[<- _]|[[<- _]|[v [A4 _]]]]; [exact (H _ A1)|exact (H _ A1)|].
        apply N. rewrite A4. apply in_or_app. right. left. reflexivity.
    - assert (IE : In "=" t) by (rewrite E0; apply in_or_app; right; left; reflexivity).
      destruct (stands_dec n) as [[full [k [c [H1 H2]]]]|H].
      + rewrite (long_with_ok _ _ _ _ _ _ H1 H2). destruct k.
        * exists (Args (("-" :: "-" :: t) :: args)). split; [constructor|]. split; [intros [Q|Q]; discriminate|].
          intros a s' S1. apply step_long in S1; [|exact Ht]. destruct S1 as [n' [f [k [c' [A1 [A2 [A3 A4]]]]]]].
          destruct A4 as [[<- _]|[[<- _]|[v' [A4 [A5 _]]]]]; [contradiction|contradiction|].
          rewrite E0 in A4. destruct (split_eq _ _ _ _ N A3 A4) as [<- <-].
          rewrite (stands_det _ _ _ _ A1 H1) in A2. destruct (option_det _ _ _ _ _ _ K A2 H2) as [-> _]. contradiction.
        * left. apply steps_one. rewrite E0. eapply s_long_value; eauto; discriminate.
        * left. apply steps_one. rewrite E0. eapply s_long_value; eauto; discriminate.
      + rewrite long_with_fail by exact H. exists (Args (("-" :: "-" :: t) :: args)). split; [constructor|].
        split; [intros [Q|Q]; discriminate|].
        intros a s' S1. apply step_long in S1; [|exact Ht]. destruct S1 as [n' [f [k [c' [A1 [A2 [A3 A4]]]]]]].
        destruct A4 as [[<- _]|[[<- _]|[v' [A4 _]]]]; [contradiction|contradiction|].
        rewrite E0 in A4. destruct (split_eq _ _ _ _ N A3 A4) as [<- <-]. exact (H _ A1).
  Qed.

  Lemma files_steps args : steps T (Files args) (map (fun a => (None, Some a)) args) (Files []).
  Proof.
    induction args as [|a r IH]; [constructor|]. cbn [map].
    change ((None, Some a) :: map (fun a0 : text => (None, Some a0)) r)
      with ([(@None key, Some a)] ++ map (fun a0 : text => (@None key, Some a0)) r).
    econstructor; [constructor|exact IH].
  Qed.

  Lemma one_ok a args : realizes T (Args (a :: args)) (parse_one g a args).
  Proof.
    unfold parse_one. destruct (text_eqb a ["-"; "-"]) eqn:Q1.
    - apply text_eqb_ok in Q1. subst a. right. split; [reflexivity|].
      change (map (fun a : text => (None, Some a)) args) with ([] ++ map (fun a : text => (@None key, Some a)) args).
      econstructor; [constructor|apply files_steps].
    - apply text_eqb_no in Q1. destruct (operand a) eqn:Q2.
      + left. apply steps_one. apply s_file. unfold operand in Q2. destruct a as [|c t]; [left; reflexivity|].
        destruct (Ascii.eqb c "-") eqn:Q3.
        * apply Ascii.eqb_eq in Q3. subst c. destruct t as [|d [|x t]]; [right; left; reflexivity| |discriminate].
          apply Ascii.eqb_eq in Q2. subst d. right. right. left. reflexivity.
        * apply Ascii.eqb_neq in Q3. right. right. right. exists c, t. auto.
      + destruct a as [|c t]; [discriminate|]. cbn [operand] in Q2. destruct (Ascii.eqb c "-") eqn:Q3; [|discriminate].
        apply Ascii.eqb_eq in Q3. subst c. destruct t as [|d t]; [discriminate|]. cbn [nth_error skipn].
        destruct (Ascii.eqb d "-") eqn:Q4.
        * apply Ascii.eqb_eq in Q4. subst d. apply long_ok. intros ->. contradiction.
        * apply Ascii.eqb_neq in Q4. pose proof (short_ok (d :: t) args) as S1.
          assert (S0 : step T (Args (("-" :: d :: t) :: args)) [] (Cluster (d :: t) args)).
          { apply s_cluster; [exact Q4|]. intro Z. injection Z as -> ->. discriminate. }
          destruct (parse_short g (d :: t) args) as [m l|m|m|m]; cbn [realizes] in *; try contradiction.
          -- destruct S1 as [S1|[-> S1]]; [left|right; split; [reflexivity|]]; exact (ss_cons _ _ [] _ _ _ S0 S1).
          -- destruct S1 as [s' [S1 S2]]. exists s'. split; [exact (ss_cons _ _ [] _ _ _ S0 S1)|exact S2].
  Qed.

  Lemma parse_option_len n kd v args acts l : parse_option g n kd v args = Go acts l -> (length l <= length args)%nat.
  Proof.
    unfold parse_option. destruct kd as [[]|?], v as [?|], args as [|? ?]; cbn [rbind fst snd];
      try discriminate; destruct (option_name g n); cbn [rbind]; intro H; try discriminate; injection H as _ <-; cbn [length]; lia.
  Qed.
  Lemma parse_short_len cs : forall args acts l, parse_short g cs args = Go acts l -> (length l <= length args)%nat.
  Proof.
    induction cs as [|c cs IH]; intros args acts l; cbn [parse_short].
    - intro H. injection H as _ <-. lia.
    - destruct (option_kind g (KChar c)) as [m kd|m|m|m]; cbn [rbind]; try discriminate.
      destruct (match kd with VKind NoArg => false | _ => negb (length cs =? 0)%nat end).
      + destruct (parse_option g (KChar c) kd (Some cs) args) as [x y|x|x|x] eqn:Q; try discriminate.
        intro H. injection H as _ <-. exact (parse_option_len _ _ _ _ _ _ Q).
      + destruct (parse_option g (KChar c) kd None args) as [x y|x|x|x] eqn:Q; cbn [rbind]; try discriminate.
        destruct (parse_short g cs y) as [x' y'|x'|x'|x'] eqn:Q'; try discriminate.
        intro H. injection H as _ <-. pose proof (parse_option_len _ _ _ _ _ _ Q). pose proof (IH _ _ _ Q'). lia.
  Qed.
  Lemma parse_one_len a args acts l : parse_one g a args = Go acts l -> (length l <= length args)%nat.
  Proof.
    unfold parse_one. destruct (text_eqb a ["-"; "-"]); [intro H; injection H as _ <-; cbn; lia|].
    destruct (operand a); [intro H; injection H as _ <-; lia|].
    destruct (match nth_error a 1 with Some c => Ascii.eqb c "-" | None => false end); [|apply parse_short_len].
    unfold parse_long. destruct (match index_from "=" 2 (skipn 2 a) with None => _ | Some r => _ end) as [nm ps].
    destruct (full_name g nm) as [x y|x|x|x]; cbn [rbind]; try discriminate.
    destruct (option_kind g (KText y)) as [x' y'|x'|x'|x']; cbn [rbind]; try discriminate.
    match goal with |- context [parse_option g ?n ?k ?v ?r] => destruct (parse_option g n k v r) as [x2 y2|x2|x2|x2] eqn:Q end; try discriminate.
    intro H. injection H as _ <-. exact (parse_option_len _ _ _ _ _ _ Q).
  Qed.

  Lemma args_ok : forall fuel args, (length args <= fuel)%nat ->
    (exists acts, parse_args fuel g args = Go acts tt /\ accepts T args acts)
    \/ (exists acts, parse_args fuel g args = Fail acts /\ rejects T args acts).
  Proof.
    induction fuel as [|f IH]; intros args H.
    - destruct args; [|cbn in H; lia]. left. exists []. split; [reflexivity|]. exists (Args []). split; [constructor|left; reflexivity].
    - destruct args as [|a r].
      + left. exists []. split; [reflexivity|]. exists (Args []). split; [constructor|left; reflexivity].
      + cbn [parse_args]. cbn [length] in H. pose proof (one_ok a r) as O.
        destruct (parse_one g a r) as [m l|m|m|m] eqn:Q; cbn [realizes rbind] in *; try contradiction.
        * pose proof (parse_one_len _ _ _ _ Q) as Ln. destruct (IH l) as [[acts [I1 I2]]|[acts [I1 I2]]]; [lia| |]; rewrite I1.
          -- left. exists (m ++ acts). split; [reflexivity|]. destruct O as [O|[-> O]].
             ++ destruct I2 as [s [I2 I3]]. exists s. split; [exact (steps_app _ _ _ _ _ _ O I2)|exact I3].
             ++ destruct f; cbn [parse_args] in I1; injection I1 as <-; rewrite app_nil_r; exists (Files []); (split; [exact O|right; reflexivity]).
          -- right. exists (m ++ acts). split; [reflexivity|]. destruct O as [O|[-> O]].
             ++ destruct I2 as [s [I2 I3]]. exists s. split; [exact (steps_app _ _ _ _ _ _ O I2)|exact I3].
             ++ destruct f; discriminate.
        * right. exists m. split; [reflexivity|]. exact O.
  Qed.
End Run.

Lemma parse_correct order T p : table_ok T -> pattern_of T p -> by_size order ->
  exists g, parse_pattern order p = Ok g /\
    forall args, (exists acts, parse g args = Go acts tt /\ accepts T args acts)
              \/ (exists acts, parse g args = Fail acts /\ rejects T args acts).
Proof.
  intros K P B. destruct (pattern_ok order T p P K) as [H C]. exists (reject_bad order (state_of (all_pairs T))).
  split; [exact H|]. intro args. unfold parse. apply (args_ok order T _ K C B eq_refl). lia.
Qed.

(** * The steps leave no choice *)
Lemma file_no_dash c t : file ("-" :: c :: t) -> c :: t = ["010"].
Proof.
  intros [F|[F|[F|[x [r [F F']]]]]]; try discriminate.
  - injection F as -> ->. reflexivity.
  - injection F as <- _. contradiction.
Qed.
Lemma step_det T s a s' b s'' : table_ok T -> step T s a s' -> step T s b s'' -> a = b /\ s' = s''.
Proof.
  intros K H1 H2. destruct s as [args|[|ch cs] r|r].
  - destruct args as [|x r]; [inversion H1|].
    assert (Hcase : x = ["-"; "-"] \/ (exists t, t <> [] /\ x = "-" :: "-" :: t) \/ (forall t, x <> "-" :: "-" :: t)).
    { destruct x as [|c1 [|c2 t]]; [right; right; discriminate|right; right; discriminate|].
      destruct (Ascii.ascii_dec c1 "-") as [->|N1]; [|right; right; intros t' Q; injection Q; intros; contradiction].
      destruct (Ascii.ascii_dec c2 "-") as [->|N2]; [|right; right; intros t' Q; injection Q; intros; contradiction].
      destruct t as [|c3 t]; [left; reflexivity|right; left; exists (c3 :: t); split; [discriminate|reflexivity]]. }
    destruct Hcase as [->|[[t [Ht ->]]|Hx]].
    + assert (U : forall a0 s0, step T (Args (["-"; "-"] :: r)) a0 s0 -> a0 = [] /\ s0 = Files r).
      { intros a0 s0 H. inversion H as [? ? F|? Q| |n full k c ? A1 A2 A3 A4 A5 Q|n full c v r' A1 A2 A3 A4 Q|n full k c v ? A1 A2 A3 A4 Q|c cs ? A1 A2 Q| | | | |]; subst; auto.
        - apply file_no_dash in F. discriminate.
        - contradiction.
        - contradiction.
        - destruct n; discriminate.
        - contradiction. }
      destruct (U _ _ H1) as [-> ->], (U _ _ H2) as [-> ->]. auto.
    + apply step_long in H1 as [n [f [k [c [A1 [A2 [A3 A4]]]]]]]; [|exact Ht].
      apply step_long in H2 as [n' [f' [k' [c' [B1 [B2 [B3 B4]]]]]]]; [|exact Ht].
      assert (IE : forall u v : text, In "=" (u ++ "=" :: v)) by (intros; apply in_or_app; right; left; reflexivity).
      assert (Hn : n = n').
      { destruct A4 as [[<- _]|[[<- _]|[v [A4 _]]]], B4 as [[<- _]|[[<- _]|[v' [B4 _]]]]; try reflexivity.
        - exfalso. apply A3. rewrite B4. apply IE.
        - exfalso. apply A3. rewrite B4. apply IE.
        - exfalso. apply B3. rewrite A4. apply IE.
        - exfalso. apply B3. rewrite A4. apply IE.
        - rewrite A4 in B4. destruct (split_eq _ _ _ _ A3 B3 B4) as [-> _]. reflexivity. }
      subst n'. rewrite (stands_det _ _ _ _ B1 A1) in B2. destruct (option_det _ _ _ _ _ _ K A2 B2) as [<- <-].
      destruct A4 as [[Et [Ek [-> ->]]]|[[Et [Ek [v [q [Er [-> ->]]]]]]|[v [Et [Ek [-> ->]]]]]],
               B4 as [[Et' [Ek' [-> ->]]]|[[Et' [Ek' [v' [q' [Er' [-> ->]]]]]]|[v' [Et' [Ek' [-> ->]]]]]];
        try contradiction; try (exfalso; congruence); auto.
      * exfalso. apply A3. rewrite <- Et, Et'. apply IE.
      * rewrite Er in Er'. injection Er' as <- <-. auto.
      * exfalso. apply A3. rewrite <- Et, Et'. apply IE.
      * exfalso. apply A3. rewrite <- Et', Et. apply IE.
      * exfalso. apply A3. rewrite <- Et', Et. apply IE.
      * rewrite Et in Et'. apply app_inv_head in Et'. injection Et' as <-. auto.
    + assert (U : forall a0 s0, step T (Args (x :: r)) a0 s0 ->
        (file x /\ a0 = [(None, Some x)] /\ s0 = Args r) \/
        (exists c cs, x = "-" :: c :: cs /\ c :: cs <> ["010"] /\ a0 = [] /\ s0 = Cluster (c :: cs) r)).
      { intros a0 s0 H. inversion H as [? ? F|? Q| |n full k c ? A1 A2 A3 A4 A5 Q|n full c v r' A1 A2 A3 A4 Q|n full k c v ? A1 A2 A3 A4 Q|c cs ? A1 A2 Q| | | | |]; subst.
        - left. auto.
        - exfalso. exact (Hx [] eq_refl).
        - exfalso. exact (Hx _ eq_refl).
        - exfalso. exact (Hx _ eq_refl).
        - exfalso. exact (Hx _ eq_refl).
        - right. exists c, cs. auto. }
      destruct (U _ _ H1) as [[F [-> ->]]|[c [cs [-> [N [-> ->]]]]]], (U _ _ H2) as [[F' [-> ->]]|[c' [cs' [E' [N' [-> ->]]]]]].
      * auto.
      * subst x. apply file_no_dash in F. contradiction.
      * apply file_no_dash in F'. contradiction.
      * injection E' as -> ->. auto.
  - inversion H1; subst. inversion H2; subst. auto.
  - apply step_cluster in H1 as [k [c [A1 A2]]]. apply step_cluster in H2 as [k' [c' [B1 B2]]].
    destruct (option_det _ _ _ _ _ _ K A1 B1) as [<- <-].
    destruct A2 as [[Ek [-> ->]]|[[Ek [Ec [-> ->]]]|[[Ek [Ec [-> ->]]]|[Ek [Ec [v [q [Er [-> ->]]]]]]]]],
             B2 as [[Ek' [-> ->]]|[[Ek' [Ec' [-> ->]]]|[[Ek' [Ec' [-> ->]]]|[Ek' [Ec' [v' [q' [Er' [-> ->]]]]]]]]];
      try contradiction; try (exfalso; congruence); auto.
    rewrite Er in Er'. injection Er' as <- <-. auto.
  - destruct r as [|x r]; [inversion H1|]. inversion H1; subst. inversion H2; subst. auto.
Qed.
Definition halted (T : table) (s : state) : Prop := forall a s', ~ step T s a s'.
Lemma finished_halted T s : finished s -> halted T s.
Proof. intros [->| ->] a s' H; inversion H. Qed.
Lemma steps_det T s a s' : table_ok T -> steps T s a s' -> forall b s'', steps T s b s'' -> halted T s' -> halted T s'' ->
  a = b /\ s' = s''.
Proof.
  intros K H. induction H as [s|s x s1 y s2 H1 H2 IH]; intros b s'' H3 N1 N2.
  - inversion H3 as [|? ? ? ? ? H4]; subst; [auto|]. exfalso. exact (N1 _ _ H4).
  - inversion H3 as [|? x' s1' y' ? H4 H5]; subst; [exfalso; exact (N2 _ _ H1)|].
    destruct (step_det _ _ _ _ _ _ K H1 H4) as [<- <-]. destruct (IH _ _ H5 N1 N2) as [<- <-]. auto.
Qed.
Lemma once T args a b : table_ok T ->
  (accepts T args a -> accepts T args b -> a = b) /\
  (rejects T args a -> rejects T args b -> a = b) /\
  ~ (accepts T args a /\ rejects T args b).
Proof.
  intro K. split; [|split].
  - intros [s [A1 A2]] [s' [B1 B2]]. apply (steps_det T (Args args) a s K A1 b s' B1); apply finished_halted; assumption.
  - intros [s [A1 [_ A2]]] [s' [B1 [_ B2]]]. apply (steps_det T (Args args) a s K A1 b s' B1); assumption.
  - intros [[s [A1 A2]] [s' [B1 [B2 B3]]]].
    destruct (steps_det T (Args args) a s K A1 b s' B1) as [_ <-]; [apply finished_halted; assumption|assumption|contradiction].
Qed.
