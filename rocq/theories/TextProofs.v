(** Proofs about matching. *)
From Verif Require Import Base Replace SeqOps SeqOpsSpec SeqOpsProofs SeqOpsCopy Text TextSpec.

Section Match.
  Variable t : list Z.
  (** What the rest of the text is from index [s] on. *)
  Definition rest (s : Z) : list Z := skipn (Z.to_nat (s - 1)) t.
  (** The pattern matches the text from [s] to [r]. *)
  Definition hit (p : list Z) (s r : Z) : Prop := exists w y, rest s = w ++ y /\ matches eq p w /\ r = s - 1 + size w.
  Lemma rest_cons s : 1 <= s <= size t -> exists c, at_ t s = Ok c /\ rest s = c :: rest (s + 1).
  Proof.
    intros H. unfold rest. set (a := firstn (Z.to_nat (s - 1)) t).
    assert (L : t = a ++ skipn (Z.to_nat (s - 1)) t) by (symmetry; apply firstn_skipn).
    assert (SA : size a = s - 1) by (apply size_firstn; lia).
    destruct (skipn (Z.to_nat (s - 1)) t) as [|c y] eqn:E.
    { apply (f_equal (@length Z)) in E. rewrite skipn_length in E. cbn in E. unfold size in H. lia. }
    exists c. split.
    - rewrite L. rewrite at_app by lia. reflexivity.
    - f_equal. rewrite L. rewrite (skipn_exact a (c :: y) _ 1) by (unfold size in SA; lia). reflexivity.
  Qed.
  Lemma rest_end s : size t < s -> rest s = [].
  Proof. intros H. unfold rest. apply skipn_all2. unfold size in H. lia. Qed.
  Lemma rest_skip s n : 1 <= s -> 0 <= n -> rest (s + n) = skipn (Z.to_nat n) (rest s).
  Proof.
    intros H N. unfold rest. replace (Z.to_nat (s + n - 1)) with (Z.to_nat n + Z.to_nat (s - 1))%nat by lia.
    generalize (Z.to_nat (s - 1)) as k, (Z.to_nat n) as m. clear. intros k m. revert m. induction k as [|k IH] in t |- *; intros m.
    - rewrite Nat.add_0_r. reflexivity.
    - destruct t as [|c t']; [rewrite !skipn_nil; reflexivity|]. rewrite Nat.add_succ_r. cbn [skipn]. apply IH.
  Qed.
  (** What the loop over the places answers: the first that is good from above. *)
  Lemma star_loop_spec f n : forall ss lo, 0 <= lo -> ss = lo + Z.of_nat n - 1 -> (forall x, lo <= x -> exists o, f x = Ok o) ->
    (star_loop f ss n = Ok None /\ forall x, lo <= x <= ss -> f x = Ok None) \/
    exists x r, star_loop f ss n = Ok (Some r) /\ lo <= x <= ss /\ f x = Ok (Some r) /\ forall y, x < y <= ss -> f y = Ok None.
  Proof.
    induction n as [|n IH]; intros ss lo L E T; cbn [star_loop].
    - left. split; [reflexivity|]. intros x X. lia.
    - destruct (T ss ltac:(lia)) as [o F]. rewrite F. cbn [obind]. destruct o as [r|].
      + right. exists ss, r. split; [reflexivity|]. split; [lia|]. split; [exact F|]. intros y Y. lia.
      + destruct (IH (ss - 1) lo L ltac:(lia) T) as [[S1 S2]|(x & r & S1 & S2 & S3 & S4)].
        * left. split; [exact S1|]. intros x X. destruct (Z.eq_dec x ss) as [-> |]; [exact F|]. apply S2. lia.
        * right. exists x, r. split; [exact S1|]. split; [lia|]. split; [exact S3|]. intros y Y.
          destruct (Z.eq_dec y ss) as [-> |]; [exact F|]. apply S4. lia.
  Qed.
  (** The answer is the end of the longest match; and later matches do not end earlier. *)
  Lemma match_main p :
    (forall s, 1 <= s -> exists o, match_substring p t s = Ok o) /\
    (forall s r, 1 <= s <= size t + 1 -> match_substring p t s = Ok (Some r) -> hit p s r) /\
    (forall s r, 1 <= s <= size t + 1 -> hit p s r -> exists r', match_substring p t s = Ok (Some r') /\ r <= r') /\
    (forall s1 s2 r1 r2, 1 <= s1 <= s2 -> s2 <= size t + 1 ->
       match_substring p t s1 = Ok (Some r1) -> match_substring p t s2 = Ok (Some r2) -> r1 <= r2).
  Proof.
    induction p as [|pc p (T & SD & CP & MO)]; cbn [match_substring].
    - split; [eauto|]. split; [|split].
      + intros s r S1 [= <-]. exists [], (rest s). split; [reflexivity|]. split; [constructor|]. cbn. lia.
      + intros s r S1 (w & y & _ & M & ->). inversion M; subst. exists (s - 1). split; [reflexivity|]. cbn. lia.
      + intros s1 s2 r1 r2 S1 S2 [= <-] [= <-]. lia.
    - destruct (Z.eqb_spec pc star) as [-> |NS].
      { assert (LS : forall s, 1 <= s <= size t + 1 -> size t + 1 = s + Z.of_nat (Z.to_nat (size t + 1 - s + 1)) - 1) by lia.
        split; [|split; [|split]].
        - intros s S1. destruct (Z_le_dec s (size t + 1)) as [C|C].
          + destruct (star_loop_spec (match_substring p t) _ _ s ltac:(lia) (LS s ltac:(lia)))
              as [[E _]|(x & r & E & _)]; eauto. intros x X. apply T. lia.
          + replace (Z.to_nat _) with 0%nat by lia. cbn. eauto.
        - intros s r S1 H. destruct (star_loop_spec (match_substring p t) _ _ s ltac:(lia) (LS s ltac:(lia)))
            as [[E _]|(x & r' & E & X & F & _)]; [intros; apply T; lia|congruence|].
          rewrite H in E. injection E as <-. destruct (SD x r ltac:(lia) F) as (w & y & R & M & ->).
          exists (firstn (Z.to_nat (x - s)) (rest s) ++ w), y. split; [|split].
          + rewrite <- app_assoc, <- R. replace x with (s + (x - s)) at 2 by lia. rewrite rest_skip by lia. symmetry. apply firstn_skipn.
          + constructor. exact M.
          + rewrite size_app, size_firstn; [lia|]. unfold rest. rewrite size_skipn by lia. lia.
        - intros s r S1 (w & y & R & M & ->). remember (star :: p) as q eqn:Q.
          destruct M as [|? ? ? M|p' u w M|? ? ? ? N1 N2 ? ?]; try discriminate.
          2: { exfalso. apply N2. injection Q as -> _. reflexivity. }
          assert (p' = p) by congruence. subst p'. clear Q.
          assert (U : size u + size w + size y = size t + 1 - s).
          { apply (f_equal size) in R. unfold rest in R. rewrite size_skipn, !size_app in R by lia. lia. }
          pose proof (size_nonneg u). pose proof (size_nonneg w). pose proof (size_nonneg y).
          destruct (CP (s + size u) (s + size u - 1 + size w) ltac:(lia)) as (r1 & F1 & L1).
          { exists w, y. split; [|split; [exact M|reflexivity]]. rewrite rest_skip by lia. rewrite R, <- app_assoc.
            rewrite (skipn_exact u _ _ 0) by (unfold size; lia). reflexivity. }
          destruct (star_loop_spec (match_substring p t) _ _ s ltac:(lia) (LS s ltac:(lia)))
            as [[E A]|(x & r2 & E & X & F & A)]; [intros; apply T; lia| |].
          + rewrite A in F1 by lia. discriminate.
          + exists r2. split; [exact E|]. destruct (Z_lt_dec x (s + size u)) as [C|C].
            * rewrite A in F1 by lia. discriminate.
            * pose proof (MO (s + size u) x r1 r2 ltac:(lia) ltac:(lia) F1 F). rewrite size_app. lia.
        - intros s1 s2 r1 r2 S1 S2 H1 H2.
          destruct (star_loop_spec (match_substring p t) _ _ s1 ltac:(lia) (LS s1 ltac:(lia)))
            as [[E A]|(x1 & r1' & E & X1 & F1 & A1)]; [intros; apply T; lia|congruence|].
          rewrite H1 in E. injection E as <-.
          destruct (star_loop_spec (match_substring p t) _ _ s2 ltac:(lia) (LS s2 ltac:(lia)))
            as [[E A]|(x2 & r2' & E & X2 & F2 & A2)]; [intros; apply T; lia|congruence|].
          rewrite H2 in E. injection E as <-.
          assert (x1 = x2); [|subst; rewrite F1 in F2; injection F2; lia].
          destruct (Z.lt_trichotomy x1 x2) as [C|[C|C]]; [|exact C|]; exfalso.
          + rewrite A1 in F2 by lia. discriminate.
          + rewrite A2 in F1 by lia. discriminate. }
      (* a character or a hash *)
      assert (ST : forall s, 1 <= s -> exists b : bool,
        (if size t <? s then Ok None else if pc =? hash then match_substring p t (s + 1)
         else olet c := at_ t s in if pc =? c then match_substring p t (s + 1) else Ok None)
        = (if b then match_substring p t (s + 1) else Ok None) /\
        (b = true -> s <= size t) /\
        (b = true <-> exists c y, rest s = c :: y /\ (pc = hash \/ pc <> hash /\ pc = c))).
      { intros s S1. destruct (Z.ltb_spec (size t) s) as [C|C].
        - exists false. split; [reflexivity|]. split; [discriminate|]. rewrite rest_end by lia.
          split; [discriminate|]. intros (c & y & E & _). discriminate.
        - destruct (rest_cons s ltac:(lia)) as (c & A & R). destruct (Z.eqb_spec pc hash) as [H|H].
          + exists true. split; [reflexivity|]. split; [lia|]. split; [|reflexivity]. intros _. eauto.
          + rewrite A. cbn [obind]. exists (pc =? c). split; [reflexivity|]. split; [lia|]. rewrite Z.eqb_eq. split.
            * intros E. exists c, (rest (s + 1)). auto.
            * intros (c' & y & E & [G|[_ G]]); [contradiction|]. congruence. }
      assert (HS : forall s r, 1 <= s -> hit (pc :: p) s r <->
        (exists c y, rest s = c :: y /\ (pc = hash \/ pc <> hash /\ pc = c)) /\ s <= size t /\ hit p (s + 1) r).
      { intros s r S1. split.
        - intros (w & y & R & M & ->). assert (C : s <= size t).
          { destruct (Z_le_dec s (size t)); [assumption|]. rewrite rest_end in R by lia. symmetry in R. apply app_eq_nil in R as [-> _].
            exfalso. apply NS. inversion M; subst; reflexivity. }
          destruct (rest_cons s ltac:(lia)) as (c & A & R'). rewrite R' in R.
          remember (pc :: p) as q eqn:Q. destruct M as [|p' d w M|p' u w M|p' a d w N1 N2 SM M]; try discriminate; injection Q as <- <-.
          + cbn in R. injection R as -> R. split; [exists d, (rest (s + 1)); auto|]. split; [exact C|].
            exists w, y. split; [exact R|]. split; [exact M|]. unfold size. cbn [length]. lia.
          + exfalso. apply NS. reflexivity.
          + cbn in R. injection R as -> R. split; [exists d, (rest (s + 1)); auto|]. split; [exact C|].
            exists w, y. split; [exact R|]. split; [exact M|]. unfold size. cbn [length]. lia.
        - intros ((c & y & R & G) & C & w & y' & R2 & M & ->). destruct (rest_cons s ltac:(lia)) as (c' & A & R').
          rewrite R in R'. injection R' as <- ->. exists (c :: w), y'. split; [rewrite R, R2; reflexivity|]. split.
          + destruct (Z.eqb_spec pc hash) as [-> |H]; [constructor; exact M|]. destruct G as [G|[_ G]]; [contradiction|].
            constructor; [exact H|exact NS|exact G|exact M].
          + unfold size. cbn [length]. lia. }
      split; [|split; [|split]].
      + intros s S1. destruct (ST s S1) as (b & -> & _). destruct b; [apply T; lia|eauto].
      + intros s r S1 H. destruct (ST s ltac:(lia)) as (b & E & B1 & B2). rewrite E in H. destruct b; [|discriminate].
        specialize (B1 eq_refl). apply HS; [lia|]. split; [apply B2; reflexivity|]. split; [exact B1|]. apply SD; [lia|exact H].
      + intros s r S1 H. destruct (ST s ltac:(lia)) as (b & E & B1 & B2). apply HS in H as (G & C & H); [|lia].
        rewrite E. rewrite (proj2 B2 G). apply CP; [lia|exact H].
      + intros s1 s2 r1 r2 S1 S2 H1 H2. destruct (ST s1 ltac:(lia)) as (b1 & E1 & B1 & _). rewrite E1 in H1.
        destruct (ST s2 ltac:(lia)) as (b2 & E2 & B2 & _). rewrite E2 in H2.
        destruct b1, b2; try discriminate. specialize (B1 eq_refl). specialize (B2 eq_refl).
        apply (MO (s1 + 1) (s2 + 1)); auto; lia.
  Qed.
End Match.

Lemma rest_1 t : rest t 1 = t.
Proof. reflexivity. Qed.
Lemma match_exact p t : exists b, match_ p t false = Ok b /\ (b = true <-> matches eq p t).
Proof.
  unfold match_. destruct (match_main t p) as (T & SD & CP & _). destruct (T 1 ltac:(lia)) as [o E]. rewrite E. cbn [obind].
  pose proof (size_nonneg t). eexists. split; [reflexivity|]. split.
  - destruct o as [r|]; [|discriminate]. intros R. apply Z.eqb_eq in R. subst r.
    destruct (SD 1 _ ltac:(lia) E) as (w & y & R & M & L). rewrite rest_1 in R. assert (y = []).
    { apply (f_equal size) in R. rewrite size_app in R. destruct y; [reflexivity|]. unfold size in *. cbn [length] in R. lia. }
    subst y. rewrite app_nil_r in R. rewrite R. exact M.
  - intros M. destruct (CP 1 (size t) ltac:(lia)) as (r & E' & L).
    { exists t, []. split; [rewrite rest_1, app_nil_r; reflexivity|]. split; [exact M|lia]. }
    rewrite E in E'. injection E' as ->. destruct (SD 1 _ ltac:(lia) E) as (w & y & R & _ & L2).
    rewrite rest_1 in R. apply (f_equal size) in R. rewrite size_app in R. pose proof (size_nonneg y). apply Z.eqb_eq. lia.
Qed.
Lemma lower_same a b : lower a = lower b <-> same_letter a b.
Proof. unfold lower, same_letter. destruct ((65 <=? a) && (a <=? 90)) eqn:A, ((65 <=? b) && (b <=? 90)) eqn:B; lia. Qed.
Lemma lower_special a : lower a = 35 <-> a = 35.
Proof. unfold lower. destruct (_ && _) eqn:A; lia. Qed.
Lemma lower_special' a : lower a = 42 <-> a = 42.
Proof. unfold lower. destruct (_ && _) eqn:A; lia. Qed.
Lemma matches_lower p w : matches eq (map lower p) (map lower w) <-> matches same_letter p w.
Proof.
  split.
  - revert w. induction p as [|a p IH]; intros w H; cbn in H.
    + inversion H. destruct w; [constructor|discriminate].
    + remember (lower a :: map lower p) as q eqn:Q. remember (map lower w) as v eqn:V.
      destruct H as [|p' c w' M|p' u w' M|p' b c w' N1 N2 SM M]; try discriminate; injection Q as Q ->.
      * symmetry in Q. apply (proj1 (lower_special a)) in Q. subst. destruct w as [|d w]; [discriminate|]. injection V as _ V. subst. constructor. auto.
      * symmetry in Q. apply (proj1 (lower_special' a)) in Q. subst. symmetry in V. apply map_eq_app in V as (u' & w2 & -> & _ & W). subst. constructor. auto.
      * subst. destruct w as [|d w]; [discriminate|]. injection V as V1 V2. subst.
        constructor; [intros ->; apply N1; reflexivity|intros ->; apply N2; reflexivity| |auto]. apply lower_same. assumption.
  - intros H. induction H as [|p c w M IH|p u w M IH|p a c w N1 N2 SM M IH]; cbn [map].
    + constructor.
    + change (lower 35) with 35. constructor. exact IH.
    + change (lower 42) with 42. rewrite map_app. constructor. exact IH.
    + constructor; [rewrite lower_special; exact N1|rewrite lower_special'; exact N2|apply lower_same; exact SM|exact IH].
Qed.
Lemma match_ignoring p t : exists b, match_ p t true = Ok b /\ (b = true <-> matches same_letter p t).
Proof.
  destruct (match_exact (map lower p) (map lower t)) as (b & E & B). exists b. split; [exact E|]. rewrite B. apply matches_lower.
Qed.

(** indexOf:matchCase:startingAt: *)
Lemma hit_found p t i j : 1 <= i <= size t + 1 -> hit t p i j <-> found eq p t i j.
Proof.
  intros I. unfold hit, found, rest. split.
  - intros (w & y & R & M & ->). exists (firstn (Z.to_nat (i - 1)) t), w, y. rewrite <- R, firstn_skipn.
    split; [reflexivity|]. split; [exact M|].
    change (Z.of_nat (length w)) with (size w). change (Z.of_nat (length (firstn (Z.to_nat (i - 1)) t))) with (size (firstn (Z.to_nat (i - 1)) t)). rewrite size_firstn; lia.
  - intros (a & w & b & -> & M & -> & ->). change (Z.of_nat (length a)) with (size a) in *. change (Z.of_nat (length w)) with (size w). exists w, b. rewrite (skipn_exact a _ _ 0) by (unfold size; lia).
    split; [reflexivity|]. split; [exact M|lia].
Qed.
Lemma index_loop_spec p t n : forall i, 1 <= i -> i + Z.of_nat n <= size t + 1 ->
  match index_loop p t i n with
  | Ok (Some (k, r)) => i <= k < i + Z.of_nat n /\ found eq p t k r /\ (forall r', found eq p t k r' -> r' <= r) /\
      forall j r', i <= j < k -> ~ found eq p t j r'
  | Ok None => forall j r', i <= j < i + Z.of_nat n -> ~ found eq p t j r'
  | _ => False
  end.
Proof.
  destruct (match_main t p) as (T & SD & CP & _).
  induction n as [|n IH]; intros i I N; cbn [index_loop]; [intros j r' J; lia|].
  destruct (T i I) as [o E]. rewrite E. cbn [obind]. destruct o as [r|].
  - split; [lia|]. split; [apply hit_found; [lia|]; apply SD; [lia|exact E]|]. split.
    + intros r' F. apply hit_found in F; [|lia]. destruct (CP i r' ltac:(lia) F) as (r2 & E2 & L). congruence.
    + intros j r' J. lia.
  - assert (NO : forall r', ~ found eq p t i r').
    { intros r' F. apply hit_found in F; [|lia]. destruct (CP i r' ltac:(lia) F) as (r2 & E2 & L). congruence. }
    specialize (IH (i + 1) ltac:(lia) ltac:(lia)). destruct (index_loop p t (i + 1) n) as [[[k r]|]| | | |]; auto.
    + destruct IH as (K & F & L & G). split; [lia|]. split; [exact F|]. split; [exact L|].
      intros j r' J. destruct (Z.eq_dec j i) as [-> |]; [apply NO|apply G; lia].
    + intros j r' J. destruct (Z.eq_dec j i) as [-> |]; [apply NO|apply IH; lia].
Qed.

Lemma found_lower p t i j : found eq (map lower p) (map lower t) i j <-> found same_letter p t i j.
Proof.
  split.
  - intros (a & w & b & E & M & I & J). symmetry in E. apply eq_sym, map_eq_app in E as (a' & r & -> & <- & E).
    apply map_eq_app in E as (w' & b' & -> & <- & <-). rewrite !map_length in *. exists a', w', b'.
    apply matches_lower in M. auto.
  - intros (a & w & b & -> & M & I & J). exists (map lower a), (map lower w), (map lower b). rewrite !map_app, !map_length.
    apply matches_lower in M. auto.
Qed.
Theorem index_of_ok t p mc i : 1 <= i ->
  let same := if mc : bool then eq else same_letter in
  match index_of t p mc i with
  | Ok (Some (k, r)) => i <= k <= size t /\ found same p t k r /\ (forall r', found same p t k r' -> r' <= r) /\
      forall j r', i <= j < k -> ~ found same p t j r'
  | Ok None => forall j r', i <= j <= size t -> ~ found same p t j r'
  | _ => False
  end.
Proof.
  intros I. cbn zeta. pose proof (size_nonneg t). assert (SM : size (map lower t) = size t) by (unfold size; rewrite map_length; reflexivity).
  destruct (Z_le_gt_dec i (size t)) as [L|L].
  - destruct mc; unfold index_of.
    + pose proof (index_loop_spec p t (Z.to_nat (size t - i + 1)) i I ltac:(lia)) as G.
      destruct (index_loop _ _ _ _) as [[[k r]|]| | | |]; auto.
      * destruct G as (A & B & C & D). repeat split; auto; try lia.
      * intros j r' J. apply G. lia.
    + rewrite SM. pose proof (index_loop_spec (map lower p) (map lower t) (Z.to_nat (size t - i + 1)) i I ltac:(lia)) as G.
      destruct (index_loop _ _ _ _) as [[[k r]|]| | | |]; auto.
      * destruct G as (A & B & C & D). split; [lia|]. split; [apply found_lower; exact B|]. split.
        -- intros r' F. apply C, found_lower, F.
        -- intros j r' J F. apply found_lower in F. exact (D j r' J F).
      * intros j r' J F. apply found_lower in F. apply (G j r'); [lia|exact F].
  - destruct mc; unfold index_of; rewrite ?SM; replace (Z.to_nat (size t - i + 1)) with 0%nat by lia; cbn [index_loop]; intros; lia.
Qed.
