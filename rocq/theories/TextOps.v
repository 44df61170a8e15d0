(** Proofs about splitting, quoting and comparing strings. *)
From Verif Require Import Base Replace ReplaceSpec SeqOps SeqOpsSpec SeqOpsProofs SeqOpsCopy Text TextSpec.

Lemma copy_middle (a w b : list Z) i j : i = size a + 1 -> j = size a + size w -> copy_from_to 0 true (a ++ w ++ b) i j = Ok w.
Proof.
  intros -> ->. pose proof (size_nonneg a). pose proof (size_nonneg w). pose proof (size_nonneg b).
  rewrite copy_from_to_valid; [|split; [lia|change (Z.of_nat (length (a ++ w ++ b))) with (size (a ++ w ++ b)); rewrite !size_app; lia]].
  unfold slice. f_equal. rewrite (skipn_exact a _ _ 0) by (unfold size; lia). cbn [skipn]. apply firstn_exact. unfold size. lia.
Qed.

(** ** Splitting *)
Section Split.
  Variable sep : Z -> bool.
  Let P (c : Z) : Prop := sep c = true.
  Lemma words_sep c r ws : P c -> words P r ws -> words P (c :: r) ws.
  Proof.
    intros C W. destruct W as [s F|a w r ws A N F G W].
    - constructor. constructor; assumption.
    - change (c :: a ++ w ++ r) with ((c :: a) ++ w ++ r). constructor; auto.
  Qed.
  Lemma split_loop_ok todo : forall pre cur oc, Forall (fun c => ~ P c) cur -> exists ws,
    split_loop sep (pre ++ cur ++ todo) (size pre + 1) (size pre + size cur + 1) (length todo) oc = Ok (oc ++ ws) /\
    words P (cur ++ todo) ws.
  Proof.
    induction todo as [|c todo IH]; intros pre cur oc F; cbn [split_loop length].
    - rewrite !size_app. change (size ([] : list Z)) with 0. destruct cur as [|x cur].
      + change (size ([] : list Z)) with 0. replace (_ <=? _) with false by lia. exists []. rewrite app_nil_r. split; [reflexivity|].
        constructor. constructor.
      + replace (_ <=? _) with true by (unfold size; cbn [length]; lia).
        rewrite copy_middle by lia. cbn [obind]. exists [x :: cur]. split; [reflexivity|].
        rewrite app_nil_r. rewrite <- (app_nil_l (x :: cur)) at 1. rewrite <- (app_nil_r (x :: cur)) at 1.
        constructor; auto; try discriminate. constructor. constructor.
    - assert (A : at_ (pre ++ cur ++ c :: todo) (size pre + size cur + 1) = Ok c).
      { rewrite app_assoc. rewrite at_app by (rewrite size_app; reflexivity). reflexivity. }
      rewrite A. cbn [obind]. destruct (sep c) eqn:C.
      + assert (R : forall oc, exists ws, split_loop sep (pre ++ cur ++ c :: todo) (size pre + size cur + 1 + 1) (size pre + size cur + 1 + 1) (length todo) oc
          = Ok (oc ++ ws) /\ words P todo ws).
        { intros oc'. destruct (IH (pre ++ cur ++ [c]) [] oc') as (ws & E & W); [constructor|]. exists ws. split; [|exact W].
          rewrite <- E. rewrite !size_app. change (size [c]) with 1. change (size ([] : list Z)) with 0.
          rewrite <- !app_assoc. cbn [app]. f_equal; lia. }
        destruct cur as [|x cur].
        * change (size ([] : list Z)) with 0 in *. replace (_ =? _) with true by lia. rewrite Z.add_0_r in R |- *.
          destruct (R oc) as (ws & E & W). exists ws. split; [exact E|]. apply words_sep; assumption.
        * replace (_ =? _) with false by (unfold size; cbn [length]; lia).
          rewrite copy_middle by lia. cbn [obind]. destruct (R (oc ++ [x :: cur])) as (ws & -> & W).
          exists ((x :: cur) :: ws). rewrite <- app_assoc. split; [reflexivity|].
          change ((x :: cur) ++ c :: todo) with ([] ++ (x :: cur) ++ c :: todo). constructor; auto; try discriminate.
          -- intros d r' [= <- _]. exact C.
          -- apply words_sep; assumption.
      + destruct (IH pre (cur ++ [c]) oc) as (ws & E & W).
        { apply Forall_app. split; [exact F|]. constructor; [|constructor]. unfold P. congruence. }
        exists ws. rewrite <- app_assoc in E, W. cbn [app] in E, W. split; [|exact W]. rewrite <- E.
        rewrite size_app. change (size [c]) with 1. f_equal; lia.
  Qed.
  Theorem sub_strings_ok s : exists ws, sub_strings sep s = Ok ws /\ words P s ws.
  Proof. destruct (split_loop_ok s [] [] []) as (ws & E & W); [constructor|]. exists ws. split; [exact E|exact W]. Qed.
End Split.
Lemma words_ext (P Q : Z -> Prop) s ws : (forall c, P c <-> Q c) -> words P s ws -> words Q s ws.
Proof.
  intros H W. induction W as [s F|a w r ws A N F G W IH].
  - constructor. eapply Forall_impl; [|exact F]. intros c. apply H.
  - constructor; auto.
    + eapply Forall_impl; [|exact A]. intros c. apply H.
    + eapply Forall_impl; [|exact F]. intros c X Y. apply X, H, Y.
    + intros c r' E. apply H. eauto.
Qed.
Lemma is_separator_white c : is_separator c = true <-> white c.
Proof. unfold is_separator, white. cbn [In]. lia. Qed.
Theorem sub_strings_white s : exists ws, sub_strings is_separator s = Ok ws /\ words white s ws.
Proof.
  destruct (sub_strings_ok is_separator s) as (ws & E & W). exists ws. split; [exact E|].
  eapply words_ext; [|exact W]. apply is_separator_white.
Qed.
Theorem sub_strings_of_ok s seps : exists ws, sub_strings_of s seps = Ok ws /\ words (fun c => In c seps) s ws.
Proof.
  assert (G : forall f : Z -> bool, (forall c, f c = true <-> In c seps) -> exists ws, sub_strings f s = Ok ws /\ words (fun c => In c seps) s ws).
  { intros f H. destruct (sub_strings_ok f s) as (ws & E & W). exists ws. split; [exact E|]. eapply words_ext; [|exact W]. exact H. }
  assert (X : forall c, existsb (Z.eqb c) seps = true <-> In c seps).
  { intros c. rewrite existsb_exists. split.
    - intros (x & I & E). apply Z.eqb_eq in E. subst. exact I.
    - intros I. exists c. split; [exact I|]. apply Z.eqb_refl. }
  unfold sub_strings_of. destruct seps as [|c [|d seps]]; apply G; auto.
  intros d. cbn [In]. lia.
Qed.
(** There is one way to split. *)
Lemma words_unique (P : Z -> Prop) s ws : words P s ws -> forall ws', words P s ws' -> ws' = ws.
Proof.
  assert (SP : forall w r w' r', Forall (fun c => ~ P c) w -> Forall (fun c => ~ P c) w' ->
    (forall c x, r = c :: x -> P c) -> (forall c x, r' = c :: x -> P c) -> w ++ r = w' ++ r' -> w = w' /\ r = r').
  { clear. induction w as [|x w IH]; intros r [|y w'] r' F F' R R' E; cbn in E.
    - auto.
    - subst r. specialize (R _ _ eq_refl). inversion F'; subst. contradiction.
    - subst r'. specialize (R' _ _ eq_refl). inversion F; subst. contradiction.
    - injection E as -> E. inversion F; inversion F'; subst. destruct (IH _ _ _ H2 H6 R R' E) as [-> ->]. auto. }
  assert (SA : forall a x a' x', Forall P a -> Forall P a' -> (exists c y, x = c :: y /\ ~ P c) -> (exists c y, x' = c :: y /\ ~ P c) ->
    a ++ x = a' ++ x' -> a = a' /\ x = x').
  { clear. induction a as [|u a IH]; intros x [|v a'] x' F F' (c & y & -> & C) (c' & y' & -> & C') E; cbn in E.
    - auto.
    - injection E as -> _. inversion F'; subst. contradiction.
    - injection E as <- _. inversion F; subst. contradiction.
    - injection E as -> E. inversion F; inversion F'; subst. destruct (IH (c :: y) a' (c' :: y') H2 H6) as [-> G]; [eauto|eauto|exact E|].
      rewrite G. auto. }
  assert (NE : forall w r : list Z, w <> [] -> Forall (fun c => ~ P c) w -> exists c y, w ++ r = c :: y /\ ~ P c).
  { clear. intros [|c w] r N F; [congruence|]. inversion F; subst. exists c, (w ++ r). auto. }
  intros W. induction W as [s F|a w r ws A N F G W IH]; intros ws' W'.
  - remember s as s0 eqn:E. destruct W' as [|a w r ws' A N F' G W']; [reflexivity|]. exfalso. subst.
    apply Forall_app in F as [_ F]. destruct (NE w r N F') as (c & y & Y & C). rewrite Y in F. inversion F; subst. contradiction.
  - remember (a ++ w ++ r) as s0 eqn:E. destruct W' as [s1 F1|a' w' r' ws' A' N' F' G' W'].
    + exfalso. subst. apply Forall_app in F1 as [_ F1]. destruct (NE w r N F) as (c & y & Y & C). rewrite Y in F1.
      inversion F1; subst. contradiction.
    + destruct (SA a' (w' ++ r') a (w ++ r) A' A (NE w' r' N' F') (NE w r N F) E) as [-> E2].
      destruct (SP w' r' w r F' F G' G E2) as [-> ->]. f_equal. apply IH. exact W'.
Qed.

(** ** Trimming *)
Lemma trim_end_ok w : forall a b, Forall white b -> (exists c w', w = c :: w' /\ ~ white c) -> exists v x,
  trim_end (a ++ w ++ b) (size a + 1) (size a + size w) (length w) = Ok (Some v) /\ w = v ++ x /\ Forall white x /\
  (forall c v', v = v' ++ [c] -> ~ white c) /\ (exists c v', v = c :: v').
Proof.
  induction w as [|c w IH] using rev_ind; intros a b FB (h & w' & E & H); [discriminate|].
  rewrite app_length. cbn [length]. replace (length w + 1)%nat with (S (length w)) by lia. cbn [trim_end].
  assert (A : at_ (a ++ (w ++ [c]) ++ b) (size a + size (w ++ [c])) = Ok c).
  { rewrite <- app_assoc. rewrite app_assoc. rewrite at_app; [reflexivity|]. rewrite !size_app. change (size [c]) with 1. lia. }
  rewrite A. cbn [obind]. destruct (is_separator c) eqn:C.
  - destruct w as [|y w].
    { cbn in E. injection E as -> _. apply is_separator_white in C. contradiction. }
    cbn in E. injection E as -> E. destruct (IH a ([c] ++ b)) as (v & x & R & EQ & FX & L & NE).
    { constructor; [apply is_separator_white; exact C|exact FB]. }
    { eauto. }
    exists v, (x ++ [c]). split; [|split; [rewrite EQ, app_assoc; reflexivity|split; [|split; assumption]]].
    + rewrite <- R. rewrite size_app. change (size [c]) with 1. replace (size a + (size (h :: w) + 1) - 1) with (size a + size (h :: w)) by lia.
      rewrite <- !app_assoc. reflexivity.
    + apply Forall_app. split; [exact FX|]. constructor; [apply is_separator_white; exact C|constructor].
  - rewrite copy_middle by (rewrite ?size_app; lia). cbn [obind]. exists (w ++ [c]), []. rewrite app_nil_r.
    split; [reflexivity|]. split; [reflexivity|]. split; [constructor|]. split.
    + intros d v' G. apply app_inj_tail in G as [_ <-]. rewrite <- is_separator_white. congruence.
    + rewrite E. eauto.
Qed.
Lemma trim_loop_ok r : forall a, Forall white a -> exists w, trim_loop (a ++ r) (size a + 1) (length r) = Ok w /\ trimmed (a ++ r) w.
Proof.
  induction r as [|c r IH]; intros a FA; cbn [trim_loop length].
  - exists []. split; [reflexivity|]. split; [exists a, []; repeat split; auto|]. split; intros c w' E; [discriminate|].
    destruct w'; discriminate.
  - rewrite at_app by reflexivity. cbn [obind]. destruct (is_separator c) eqn:C.
    + destruct (IH (a ++ [c])) as (w & E & T).
      { apply Forall_app. split; [exact FA|]. constructor; [apply is_separator_white; exact C|constructor]. }
      exists w. rewrite <- app_assoc in E, T. cbn [app] in E, T. split; [|exact T]. rewrite <- E. rewrite size_app. reflexivity.
    + assert (NC : ~ white c) by (rewrite <- is_separator_white; congruence).
      destruct (trim_end_ok (c :: r) a []) as (v & x & E & S1 & FX & L & d & v' & V); [constructor|eauto|].
      rewrite app_nil_r in E. rewrite size_app. replace (Z.to_nat (size a + size (c :: r) - (size a + 1) + 1)) with (length (c :: r)) by (unfold size; lia).
      rewrite E. cbn [obind]. exists v. split; [reflexivity|]. split; [|split; [|exact L]].
      * exists a, x. split; [rewrite S1; reflexivity|]. auto.
      * intros e w' F. subst v. injection F as <- _. cbn in S1. injection S1 as <- _. exact NC.
Qed.
Theorem trim_ok s : exists w, trim_separators s = Ok w /\ trimmed s w.
Proof. destruct (trim_loop_ok s []) as (w & E & T); [constructor|]. exists w. split; [exact E|exact T]. Qed.

(** ** Quoting *)
Definition esc (c : Z) : list Z := if shell_table c =? 0 then [c] else [92; c].
Lemma shell_table_cases c : shell_table c = 0 \/ shell_table c = 1.
Proof. unfold shell_table. destruct (existsb _ _); auto. Qed.
Lemma shell_count_from s : forall n, fold_left (fun n c => n + shell_table c) s n = n + shell_count s.
Proof.
  unfold shell_count. induction s as [|c s IH]; intros n; cbn [fold_left]; [lia|]. rewrite IH, (IH (0 + shell_table c)). lia.
Qed.
Lemma shell_count_cons c s : shell_count (c :: s) = shell_table c + shell_count s.
Proof. unfold shell_count at 1. cbn [fold_left]. rewrite shell_count_from. lia. Qed.
Lemma shell_count_nonneg s : 0 <= shell_count s.
Proof. induction s as [|c s IH]; [cbn; lia|]. rewrite shell_count_cons. destruct (shell_table_cases c); lia. Qed.
Lemma esc_none s : shell_count s = 0 -> flat_map esc s = s.
Proof.
  induction s as [|c s IH]; [reflexivity|]. rewrite shell_count_cons. pose proof (shell_count_nonneg s) as NN. intros H.
  cbn [flat_map]. destruct (shell_table_cases c) as [T|T]; [|lia]. unfold esc at 1. rewrite T. cbn. f_equal. apply IH. lia.
Qed.
Lemma esc_size s : size (flat_map esc s) = size s + shell_count s.
Proof.
  induction s as [|c s IH]; [reflexivity|]. cbn [flat_map]. rewrite size_app, IH, shell_count_cons. unfold esc.
  destruct (shell_table_cases c) as [-> | ->]; unfold size; cbn [Z.eqb length]; lia.
Qed.
Lemma at_put_next (d : list Z) k i x : i = size d + 1 -> (0 < k)%nat ->
  at_put (d ++ repeat 0 k) i x = Some ((d ++ [x]) ++ repeat 0 (k - 1)).
Proof.
  intros -> K. unfold at_put. rewrite size_app, size_repeat. pose proof (size_nonneg d). replace (_ && _) with true by lia.
  rewrite firstn_exact by (unfold size; lia). rewrite (skipn_exact d _ _ 1) by (unfold size; lia).
  destruct k; [lia|]. cbn [repeat skipn]. replace (S k - 1)%nat with k by lia. rewrite <- app_assoc. reflexivity.
Qed.
Lemma escape_loop_ok b : forall a fuel k, (length b < fuel)%nat ->
  Z.of_nat k = size (flat_map esc b) -> exists a' b', a ++ b = a' ++ b' /\ shell_count b' = 0 /\
  escape_loop fuel (a ++ b) (flat_map esc a ++ repeat 0 k) (size a + 1) (shell_count a) (shell_count (a ++ b)) =
    Ok (flat_map esc a' ++ repeat 0 (length b'), size a' + 1, shell_count a').
Proof.
  assert (CA : forall a b, shell_count (a ++ b) = shell_count a + shell_count b).
  { clear. induction a as [|c a IH]; intros b; [reflexivity|]. cbn [app]. rewrite !shell_count_cons, IH. lia. }
  induction b as [|c b IH]; intros a fuel k F K; (destruct fuel as [|fuel]; [lia|]); cbn [escape_loop]; rewrite CA.
  - change (shell_count []) with 0. replace (_ <? _) with false by lia. exists a, []. split; [reflexivity|]. split; [reflexivity|].
    change (size (flat_map esc [])) with 0 in K. replace k with 0%nat by lia. reflexivity.
  - destruct (Z.ltb_spec (shell_count a) (shell_count a + shell_count (c :: b))) as [C|C].
    + rewrite at_app by reflexivity. cbn [obind]. cbn [flat_map] in K. rewrite size_app in K.
      assert (N : forall r, (flat_map esc a ++ esc c) ++ r = flat_map esc (a ++ [c]) ++ r).
      { intros r. rewrite flat_map_app. cbn [flat_map]. rewrite app_nil_r. reflexivity. }
      pose proof (size_nonneg (flat_map esc b)).
      destruct (IH (a ++ [c]) fuel (k - length (esc c))%nat) as (a' & b' & E1 & E2 & E3); [cbn in F; lia|unfold size in *; lia|].
      exists a', b'. rewrite <- app_assoc in E1, E3. cbn [app] in E1, E3. split; [exact E1|]. split; [exact E2|].
      rewrite <- E3. rewrite <- N. rewrite (CA a [c]), size_app, !CA. change (size [c]) with 1. rewrite !shell_count_cons. change (shell_count []) with 0.
      assert (HK : (length (esc c) <= k)%nat) by (unfold size in *; lia).
      assert (SA : size (flat_map esc a) = size a + shell_count a) by apply esc_size.
      unfold esc in *. destruct (shell_table_cases c) as [T|T]; rewrite T in *; cbn [Z.eqb length] in *; cbn [obind].
      * rewrite at_put_next by lia. f_equal; lia.
      * rewrite at_put_next by lia. cbn [obind]. rewrite at_put_next; [|rewrite size_app; change (size [92]) with 1; lia|lia].
        rewrite <- !app_assoc. cbn [app]. replace (k - 1 - 1)%nat with (k - 2)%nat by lia. f_equal; lia.
    + exists a, (c :: b). split; [reflexivity|]. pose proof (shell_count_nonneg (c :: b)). assert (Z0 : shell_count (c :: b) = 0) by lia. split; [exact Z0|].
      rewrite esc_none in K by exact Z0. replace k with (length (c :: b)) by (unfold size in K; lia). reflexivity.
Qed.
Theorem shell_escapes_ok s : shell_escapes s = Ok (flat_map esc s).
Proof.
  unfold shell_escapes. destruct (Z.eqb_spec (shell_count s) 0) as [E|E]; [rewrite esc_none by exact E; reflexivity|].
  pose proof (shell_count_nonneg s). pose proof (size_nonneg s). unfold copy_empty. replace (_ <? 0) with false by lia. cbn [obind].
  destruct (escape_loop_ok s [] (S (length s)) (Z.to_nat (size s + shell_count s))) as (a & b & S1 & S2 & S3); [lia|rewrite esc_size; lia|].
  cbn [app flat_map] in S3. change (size ([] : list Z) + 1) with 1 in S3. change (shell_count []) with 0 in S3. change (repeat 0 ?n) with (([] : list Z) ++ repeat 0 n) in S3 at 1.
  cbn [app] in S3. rewrite S3. cbn [obind]. cbn [app] in S1. subst s. pose proof (size_nonneg a). pose proof (size_nonneg b). pose proof (shell_count_nonneg a).
  assert (CS : shell_count (a ++ b) = shell_count a).
  { clear - S2. induction a as [|c a IH]; cbn [app]; [exact S2|]. rewrite !shell_count_cons. lia. }
  rewrite CS. rewrite size_app. rewrite replacing_next; try (rewrite ?esc_size, ?size_app; unfold size; lia).
  replace (Z.to_nat (size a + 1 - 1)) with (length a) by (unfold size; lia). rewrite (skipn_exact a b _ 0) by lia. cbn [skipn].
  rewrite firstn_all2 by (unfold size; lia). replace (length b - _)%nat with 0%nat by (unfold size; lia). cbn [repeat]. rewrite app_nil_r.
  rewrite flat_map_app, (esc_none b) by exact S2. reflexivity.
Qed.
Lemma special_in c : shell_table c = 1 <-> In c shell_specials.
Proof.
  unfold shell_table. destruct (existsb _ _) eqn:E.
  - apply existsb_exists in E as (x & I & X). apply Z.eqb_eq in X. subst. tauto.
  - split; [discriminate|]. intros I. assert (existsb (Z.eqb c) shell_specials = true); [|congruence].
    apply existsb_exists. exists c. split; [exact I|apply Z.eqb_refl].
Qed.
Lemma plain c : shell_table c = 0 -> c <> 9 -> c <> 10 -> (c =? 92) = false /\ blank c = false /\ active c = false.
Proof.
  intros T N1 N2. assert (NI : ~ In c shell_specials) by (rewrite <- special_in; lia).
  unfold shell_specials in NI. cbn [In] in NI. repeat split.
  - apply Z.eqb_neq. intros ->. tauto.
  - unfold blank. apply orb_false_iff. split; apply Z.eqb_neq; [intros ->; tauto|exact N1].
  - destruct (active c) eqn:A; [|reflexivity]. unfold active in A. apply existsb_exists in A as (x & I & X). apply Z.eqb_eq in X. subst x.
    cbn [In] in I. exfalso. clear T N1. intuition lia.
Qed.
Lemma sh_read_esc s : Forall (fun c => c <> 9 /\ c <> 10) s -> forall w, sh_read (flat_map esc s) (Some w) = Some [w ++ s].
Proof.
  induction s as [|c s IH]; intros F w; cbn [flat_map]; [cbn; rewrite app_nil_r; reflexivity|].
  inversion F as [|? ? [N1 N2] F']; subst. unfold esc at 1. destruct (shell_table_cases c) as [T|T]; rewrite T; cbn [Z.eqb app].
  - destruct (plain c T N1 N2) as (P1 & P2 & P3). cbn [sh_read]. rewrite P1, P2, P3, IH by assumption. rewrite <- app_assoc. reflexivity.
  - cbn [sh_read]. change (92 =? 92) with true. cbn match. replace (c =? 10) with false by lia. rewrite IH by assumption. rewrite <- app_assoc. reflexivity.
Qed.
Theorem shell_word s : s <> [] -> Forall (fun c => c <> 9 /\ c <> 10) s -> exists r, shell_escapes s = Ok r /\ sh_read r None = Some [s].
Proof.
  intros N F. exists (flat_map esc s). split; [apply shell_escapes_ok|]. destruct s as [|c s]; [congruence|].
  inversion F as [|? ? [N1 N2] F']; subst. cbn [flat_map]. unfold esc at 1. destruct (shell_table_cases c) as [T|T]; rewrite T; cbn [Z.eqb app].
  - destruct (plain c T N1 N2) as (P1 & P2 & P3). cbn [sh_read]. rewrite P1, P2, P3. apply (sh_read_esc s F' [c]).
  - cbn [sh_read]. change (92 =? 92) with true. cbn match. replace (c =? 10) with false by lia. apply (sh_read_esc s F' [c]).
Qed.

(** ** Comparing *)
Lemma less_not_alike a b : less a b -> ~ alike a b.
Proof. intros L. induction L; intros A; inversion A; subst; [lia|]. tauto. Qed.
Lemma less_asym a b : less a b -> ~ less b a.
Proof. intros L. induction L; intros M; inversion M; subst; try lia. tauto. Qed.
Lemma alike_sym a b : alike a b -> alike b a.
Proof. intros H. induction H; constructor; auto. Qed.
Lemma less_trans a b c : less a b -> less b c -> less a c.
Proof.
  intros L. revert c. induction L as [y l|x l y m H|x l y m H L IH]; intros c M; inversion M; subst.
  - constructor.
  - constructor.
  - apply L_head. lia.
  - apply L_head. lia.
  - apply L_head. lia.
  - apply L_tail; [lia|]. auto.
Qed.
Lemma compare_loop_ok x : forall pa pb y, size pa = size pb -> exists o,
  compare_loop (pa ++ x) (pb ++ y) (size pa + 1) (Nat.min (length x) (length y)) = Ok o /\
  let z := match o with Some z => z | None => size x - size y end in
  (z < 0 -> less x y) /\ (z = 0 -> alike x y) /\ (0 < z -> less y x).
Proof.
  induction x as [|u x IH]; intros pa pb y P.
  - exists None. split; [reflexivity|]. cbn zeta. change (size ([] : list Z)) with 0. destruct y as [|v y].
    + change (size ([] : list Z)) with 0. split; [lia|]. split; [|lia]. intros _. constructor.
    + split; [intros _; constructor|]. unfold size. cbn [length]. lia.
  - destruct y as [|v y].
    + exists None. split; [reflexivity|]. cbn zeta. split; [unfold size; cbn [length]; lia|]. split; [unfold size; cbn [length]; lia|]. intros _. constructor.
    + cbn [length Nat.min compare_loop]. rewrite at_app by reflexivity. cbn [obind]. rewrite at_app by lia. cbn [obind].
      assert (SM : forall c, lower c = small c) by reflexivity.
      destruct (Z.eqb_spec (lower u) (lower v)) as [E|E].
      * destruct (IH (pa ++ [u]) (pb ++ [v]) y) as (o & R & A & B & C); [rewrite !size_app; change (size [u]) with 1; change (size [v]) with 1; lia|].
        exists o. split.
        -- rewrite <- R. rewrite <- !app_assoc. cbn [app]. rewrite size_app. reflexivity.
        -- cbn zeta. replace (size (u :: x) - size (v :: y)) with (size x - size y) by (unfold size; cbn [length]; lia).
           rewrite !SM in E. repeat split; intros H.
           ++ apply L_tail; auto.
           ++ constructor; auto. apply B. exact H.
           ++ apply L_tail; auto.
      * exists (Some (lower u - lower v)). split; [reflexivity|]. cbn zeta. rewrite !SM in *. repeat split; intros H.
        -- apply L_head. lia.
        -- lia.
        -- apply L_head. lia.
Qed.
Theorem compare_to_ok a b : exists z, compare_to a b = Ok z /\ (z < 0 <-> less a b) /\ (z = 0 <-> alike a b) /\ (0 < z <-> less b a).
Proof.
  destruct (compare_loop_ok a [] [] b eq_refl) as (o & E & A & B & C). cbn [app] in E. change (size ([] : list Z) + 1) with 1 in E.
  unfold compare_to. rewrite E. cbn [obind]. eexists. split; [reflexivity|]. cbn zeta in A, B, C.
  set (z := match o with Some z => z | None => size a - size b end) in *.
  assert (T : z < 0 \/ z = 0 \/ 0 < z) by lia.
  repeat split; auto; intros H; destruct T as [T|[T|T]]; auto; exfalso.
  - exact (less_not_alike _ _ H (B T)).
  - exact (less_asym _ _ H (C T)).
  - exact (less_not_alike _ _ (A T) H).
  - exact (less_not_alike _ _ (C T) (alike_sym _ _ H)).
  - exact (less_asym _ _ H (A T)).
  - exact (less_not_alike _ _ H (alike_sym _ _ (B T))).
Qed.
Lemma alike_length a b : alike a b -> size a = size b.
Proof. intros H. induction H; [reflexivity|]. unfold size in *. cbn [length]. lia. Qed.
Theorem same_as_ok a b : exists r, same_as a b = Ok r /\ (r = true <-> alike a b).
Proof.
  unfold same_as. destruct (Z.eqb_spec (size a) (size b)) as [S1|S1].
  - destruct (compare_to_ok a b) as (z & -> & _ & Z0 & _). cbn [obind]. eexists. split; [reflexivity|]. rewrite Z.eqb_eq. exact Z0.
  - exists false. split; [reflexivity|]. split; [discriminate|]. intros H. apply alike_length in H. contradiction.
Qed.

(** ** isNumeric *)
Lemma is_digit_range c : is_digit c = true <-> 48 <= c <= 57.
Proof. unfold is_digit. lia. Qed.
Lemma numeric_fraction_ok s : s <> [] -> exists b, numeric_fraction s = Ok b /\ (b = true <-> Forall (fun c => 48 <= c <= 57) s).
Proof.
  induction s as [|c s IH]; intros N; [congruence|]. destruct s as [|d s].
  - exists (is_digit c). split; [reflexivity|]. rewrite is_digit_range. split; [intros H; repeat constructor; lia|intros H; inversion H; assumption].
  - destruct (IH ltac:(discriminate)) as (b & E & B). change (numeric_fraction (c :: d :: s)) with (if is_digit c then numeric_fraction (d :: s) else Ok false).
    destruct (is_digit c) eqn:C.
    + exists b. split; [exact E|]. rewrite B. apply is_digit_range in C. split; [intros H; constructor; assumption|intros H; inversion H; assumption].
    + exists false. split; [reflexivity|]. split; [discriminate|]. intros H. inversion H as [|x l D]; subst. apply is_digit_range in D. congruence.
Qed.
Theorem is_numeric_ok s : s <> [] -> (forall a, s = a ++ [46] -> ~ Forall (fun c => 48 <= c <= 57) a) ->
  exists b, is_numeric s = Ok b /\ (b = true <-> numeral s).
Proof.
  assert (G : forall s, (forall a, s = a ++ [46] -> ~ Forall (fun c => 48 <= c <= 57) a) -> exists b, is_numeric s = Ok b /\
    (b = true <-> exists a, Forall (fun c => 48 <= c <= 57) a /\ (s = a \/ exists b, b <> [] /\ Forall (fun c => 48 <= c <= 57) b /\ s = a ++ 46 :: b))).
  { clear. induction s as [|c s IH]; intros N; cbn [is_numeric].
    - exists true. split; [reflexivity|]. split; [|reflexivity]. intros _. exists []. split; [constructor|auto].
    - destruct (is_digit c) eqn:C.
      + apply is_digit_range in C. destruct IH as (b & E & B).
        { intros a -> F. apply (N (c :: a) eq_refl). constructor; assumption. }
        exists b. split; [exact E|]. rewrite B. split.
        * intros (a & F & D). exists (c :: a). split; [constructor; assumption|]. destruct D as [-> |(b' & B1 & B2 & ->)]; [auto|].
          right. exists b'. auto.
        * intros (a & F & D). destruct a as [|x a].
          -- destruct D as [D|(b' & _ & _ & D)]; [discriminate|]. cbn in D. injection D as -> _. lia.
          -- inversion F; subst. exists a. split; [assumption|]. destruct D as [D|(b' & B1 & B2 & D)].
             ++ injection D as _ D. auto.
             ++ cbn in D. injection D as _ D. right. eauto.
      + assert (NC : ~ 48 <= c <= 57) by (rewrite <- is_digit_range; congruence). destruct (Z.eqb_spec c 46) as [-> |C46].
        * destruct s as [|d s].
          -- exfalso. apply (N [] eq_refl). constructor.
          -- destruct (numeric_fraction_ok (d :: s)) as (b & E & B); [discriminate|]. exists b. split; [exact E|]. rewrite B. split.
             ++ intros F. exists []. split; [constructor|]. right. exists (d :: s). split; [discriminate|]. auto.
             ++ intros (a & F & D). destruct a as [|x a].
                ** destruct D as [D|(b' & _ & F2 & D)]; [discriminate|]. cbn in D. injection D as ->. exact F2.
                ** inversion F; subst. destruct D as [D|(b' & _ & F2 & D)]; cbn in D; injection D as D _; lia.
        * exists false. split; [reflexivity|]. split; [discriminate|]. intros (a & F & D). exfalso. destruct a as [|x a].
          -- destruct D as [D|(b' & _ & _ & D)]; [discriminate|]. cbn in D. injection D as -> _. lia.
          -- inversion F; subst. destruct D as [D|(b' & _ & F2 & D)]; cbn in D; injection D as D _; lia. }
  intros NE N. destruct (G s N) as (b & E & B). exists b. split; [exact E|]. rewrite B. unfold numeral. split.
  - intros (a & F & [-> |D]); exists a; split; auto.
  - intros (a & F & [[_ ->] |D]); exists a; split; auto.
Qed.
