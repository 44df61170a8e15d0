(** Free memory, page by page. *)
From Coq Require Import Permutation.
From Verif Require Import Base Alloc AllocSpec.

Definition aligned (x : Z * Z) : Prop := (PAGE | fst x) /\ (PAGE | snd x) /\ 0 < fst x /\ 0 < snd x.
Definition pages (x : Z * Z) : list Z :=
  map (fun i => fst x / PAGE + Z.of_nat i) (seq 0 (Z.to_nat (snd x / PAGE))).
Definition PL (l : list (Z * Z)) : list Z := flat_map pages l.

Lemma PL_cons x l : PL (x :: l) = pages x ++ PL l.
Proof. reflexivity. Qed.
Lemma PL_app l k : PL (l ++ k) = PL l ++ PL k.
Proof. apply flat_map_app. Qed.

Lemma misaligned_ok x : (PAGE | x) -> misaligned x = false.
Proof.
  intros (q & ->). unfold misaligned, PAGE. change (4096 - 1) with (Z.ones 12).
  rewrite Z.land_ones by lia. change (2 ^ 12) with 4096. rewrite Z.mod_mul by lia. reflexivity.
Qed.

Lemma in_pages x y : aligned x -> In y (pages x) <-> fst x <= y * PAGE < fst x + snd x.
Proof.
  intros ((q & Hq) & (r & Hr) & H1 & H2). unfold pages. rewrite in_map_iff.
  rewrite Hq, Hr in *. unfold PAGE in *. rewrite !Z.div_mul by lia. split.
  - intros (i & <- & Hi). apply in_seq in Hi. lia.
  - intros H. exists (Z.to_nat (y - q)). split; [lia|]. apply in_seq. lia.
Qed.

Lemma pages_join a n m : aligned (a, n) -> aligned (a + n, m) ->
  pages (a, n + m) = pages (a, n) ++ pages (a + n, m).
Proof.
  intros ((q & Hq) & (r & Hr) & H1 & H2) ((q' & Hq') & (r' & Hr') & H1' & H2'). cbn [fst snd] in *.
  unfold pages. cbn [fst snd]. subst a n m. rewrite <- !Z.mul_add_distr_r. unfold PAGE in *. rewrite !Z.div_mul by lia.
  replace (Z.to_nat (r + r')) with (Z.to_nat r + Z.to_nat r')%nat by lia.
  rewrite seq_app, map_app. f_equal. rewrite Nat.add_0_l.
  replace (seq (Z.to_nat r) (Z.to_nat r')) with (map (Nat.add (Z.to_nat r)) (seq 0 (Z.to_nat r'))).
  - rewrite map_map. apply map_ext. intros i. lia.
  - generalize (Z.to_nat r) as k, (Z.to_nat r') as n. intros k n. rewrite <- (Nat.add_0_r k) at 2.
    generalize 0%nat as b. induction n as [|n IH]; intros b; [reflexivity|]. cbn. f_equal. rewrite IH.
    f_equal. lia.
Qed.

Lemma aligned_join a n m : aligned (a, n) -> aligned (a + n, m) -> aligned (a, n + m).
Proof.
  intros (H1 & H2 & H3 & H4) (H1' & H2' & H3' & H4'). cbn [fst snd] in *.
  unfold aligned. cbn [fst snd]. split; [exact H1|]. split; [apply Z.divide_add_r; assumption|]. lia.
Qed.

Lemma NoDup_pages x : NoDup (pages x).
Proof. apply FinFun.Injective_map_NoDup; [intros i j; lia|apply seq_NoDup]. Qed.

(** ** heap_add_to_free_list *)
Lemma insert_after_pages m n l : l <> [] -> Forall aligned l -> aligned (m, n) ->
  Permutation (PL (insert_after m n l)) (pages (m, n) ++ PL l) /\ Forall aligned (insert_after m n l).
Proof.
  intros NE A Am. induction l as [|[lp ln] t IH]; [congruence|].
  inversion A as [|? ? A1 A2]; subst. destruct t as [|[np nn] t'].
  - cbn [insert_after]. destruct (lp + ln =? m) eqn:E.
    + apply Z.eqb_eq in E. subst m. split; [|constructor; [apply aligned_join; assumption|constructor]].
      rewrite !PL_cons, pages_join by assumption. cbn [PL flat_map]. rewrite !app_nil_r. apply Permutation_app_comm.
    + split; [|constructor; [exact A1|constructor; [exact Am|constructor]]].
      rewrite !PL_cons. cbn [PL flat_map]. rewrite !app_nil_r. apply Permutation_app_comm.
  - inversion A2 as [|? ? A3 A4]; subst.
    change (insert_after m n ((lp, ln) :: (np, nn) :: t')) with
      (if (lp <? m) && (m <? np)
       then if lp + ln =? m
        then if m + n =? np then (lp, ln + (n + nn)) :: t' else (lp, ln + n) :: (np, nn) :: t'
        else if m + n =? np then (lp, ln) :: (m, n + nn) :: t' else (lp, ln) :: (m, n) :: (np, nn) :: t'
       else (lp, ln) :: insert_after m n ((np, nn) :: t')).
    destruct ((lp <? m) && (m <? np)) eqn:E.
    + destruct (lp + ln =? m) eqn:E1; destruct (m + n =? np) eqn:E2.
      * apply Z.eqb_eq in E1, E2. subst m. assert (Ap : aligned (lp + ln + n, nn)) by (rewrite E2; exact A3).
        assert (Aj : aligned (lp + ln, n + nn)) by (apply aligned_join; assumption).
        split; [|constructor; [apply aligned_join; assumption|exact A4]].
        rewrite !PL_cons, (pages_join lp), (pages_join (lp + ln)) by assumption. rewrite E2.
        rewrite <- !app_assoc. rewrite !app_assoc. do 2 apply Permutation_app_tail. apply Permutation_app_comm.
      * apply Z.eqb_eq in E1. subst m.
        split; [|constructor; [apply aligned_join; assumption|exact A2]].
        rewrite !PL_cons, pages_join by assumption.
        rewrite <- !app_assoc. rewrite !app_assoc. do 2 apply Permutation_app_tail. apply Permutation_app_comm.
      * apply Z.eqb_eq in E2. assert (Ap : aligned (m + n, nn)) by (rewrite E2; exact A3).
        split; [|constructor; [exact A1|constructor; [apply aligned_join; assumption|exact A4]]].
        rewrite !PL_cons, (pages_join m) by assumption. rewrite E2.
        rewrite !app_assoc. do 2 apply Permutation_app_tail. apply Permutation_app_comm.
      * split; [|constructor; [exact A1|constructor; [exact Am|exact A2]]].
        rewrite !PL_cons. rewrite !app_assoc. do 2 apply Permutation_app_tail. apply Permutation_app_comm.
    + destruct (IH ltac:(discriminate) A2) as [P F]. split; [|constructor; assumption].
      rewrite (PL_cons (lp, ln)), (PL_cons (lp, ln)). rewrite P. rewrite !app_assoc. apply Permutation_app_tail, Permutation_app_comm.
Qed.

Lemma add_pages m n l : Forall aligned l -> aligned (m, n) ->
  Permutation (PL (add_to_free_list m n l)) (pages (m, n) ++ PL l) /\ Forall aligned (add_to_free_list m n l).
Proof.
  intros A Am. unfold add_to_free_list. destruct l as [|[f fn] t].
  - split; [reflexivity|]. constructor; [exact Am|constructor].
  - destruct (m <? f).
    + inversion A as [|? ? A1 A2]; subst. destruct (m + n =? f) eqn:E.
      * apply Z.eqb_eq in E. subst f. split; [|constructor; [apply aligned_join; assumption|exact A2]].
        rewrite !PL_cons, pages_join by assumption. rewrite <- app_assoc. reflexivity.
      * split; [reflexivity|]. constructor; assumption.
    + apply insert_after_pages; [discriminate|exact A|exact Am].
Qed.

(** The addresses do not go beyond what they did. *)
Lemma insert_after_Forall (P : Z * Z -> Prop) m n l :
  (forall a x y, P (a, x) -> P (a + x, y) -> P (a, x + y)) ->
  P (m, n) -> Forall P l -> Forall P (insert_after m n l).
Proof.
  intros J Pm F. induction F as [|[lp ln] t P1 F IH]; [constructor|].
  destruct F as [|[np nn] t' P2 F].
  - cbn [insert_after]. destruct (lp + ln =? m) eqn:E; [|repeat constructor; assumption].
    apply Z.eqb_eq in E. subst m. constructor; [apply J; assumption|constructor].
  - cbn [insert_after] in IH |- *. destruct ((lp <? m) && (m <? np)); [|constructor; assumption].
    destruct (lp + ln =? m) eqn:E1; destruct (m + n =? np) eqn:E2;
      try (apply Z.eqb_eq in E1); try (apply Z.eqb_eq in E2); subst;
      repeat constructor; try assumption; auto.
Qed.

Lemma add_Forall (P : Z * Z -> Prop) m n l :
  (forall a x y, P (a, x) -> P (a + x, y) -> P (a, x + y)) ->
  P (m, n) -> Forall P l -> Forall P (add_to_free_list m n l).
Proof.
  intros J Pm F. unfold add_to_free_list. destruct l as [|[f fn] t]; [constructor; [exact Pm|constructor]|].
  destruct (m <? f); [|apply insert_after_Forall; assumption].
  inversion F; subst. destruct (m + n =? f) eqn:E; [|constructor; assumption].
  apply Z.eqb_eq in E. subst f. constructor; [apply J; assumption|assumption].
Qed.

(** A large enough region is found afterwards. *)
Lemma insert_after_room m n l : l <> [] -> Forall (fun x => 0 < snd x) l -> 0 < n ->
  Exists (fun x => n <= snd x) (insert_after m n l).
Proof.
  intros NE F Hn. induction l as [|[lp ln] t IH]; [congruence|]. inversion F; subst. cbn [snd] in *.
  destruct t as [|[np nn] t'].
  - cbn [insert_after]. destruct (lp + ln =? m); [left; cbn; lia|right; left; cbn; lia].
  - inversion H2; subst. cbn [snd] in *. cbn [insert_after] in IH |- *. destruct ((lp <? m) && (m <? np)).
    + destruct (lp + ln =? m); destruct (m + n =? np);
        [left; cbn; lia|left; cbn; lia|right; left; cbn; lia|right; left; cbn; lia].
    + right. apply IH; [discriminate|assumption].
Qed.

Lemma add_room m n l : Forall (fun x => 0 < snd x) l -> 0 < n -> Exists (fun x => n <= snd x) (add_to_free_list m n l).
Proof.
  intros F Hn. unfold add_to_free_list. destruct l as [|[f fn] t]; [left; cbn; lia|].
  destruct (m <? f); [|apply insert_after_room; [discriminate|assumption|assumption]].
  inversion F; subst. cbn [snd] in *. destruct (m + n =? f); left; cbn; lia.
Qed.

(** Free memory stays in order, with nothing left to be joined. *)
Definition head_after (e : Z) (l : list (Z * Z)) : Prop := match l with [] => True | (b, _) :: _ => e < b end.

Lemma insert_after_coalesced m n : 0 < n -> forall l, l <> [] -> Forall (fun x => 0 < snd x) l -> coalesced l ->
  Forall (separate (m, n)) l -> (forall lp ln t, l = (lp, ln) :: t -> lp < m) ->
  coalesced (insert_after m n l) /\ (forall e, head_after e l -> head_after e (insert_after m n l)).
Proof.
  intros Hn. induction l as [|[lp ln] t IH]; intros NE Fp C F Hlt; [congruence|].
  specialize (Hlt _ _ _ eq_refl). inversion F as [|? ? F1 F2]; subst. inversion Fp as [|? ? Fp1 Fp2]; subst.
  unfold separate in F1. cbn [fst snd] in *. destruct C as [C1 C2].
  destruct t as [|[np nn] t'].
  - cbn [insert_after]. destruct (lp + ln =? m) eqn:E.
    + split; [cbn; auto|intros e H; exact H].
    + split; [cbn; split; [lia|auto]|intros e H; exact H].
  - inversion F2 as [|? ? F3 F4]; subst. inversion Fp2 as [|? ? Fp3 Fp4]; subst. unfold separate in F3. cbn [fst snd] in *.
    destruct C2 as [C3 C4].
    change (insert_after m n ((lp, ln) :: (np, nn) :: t')) with
      (if (lp <? m) && (m <? np)
       then if lp + ln =? m
        then if m + n =? np then (lp, ln + (n + nn)) :: t' else (lp, ln + n) :: (np, nn) :: t'
        else if m + n =? np then (lp, ln) :: (m, n + nn) :: t' else (lp, ln) :: (m, n) :: (np, nn) :: t'
       else (lp, ln) :: insert_after m n ((np, nn) :: t')).
    destruct ((lp <? m) && (m <? np)) eqn:E.
    + destruct (lp + ln =? m) eqn:E1; destruct (m + n =? np) eqn:E2.
      * split; [|intros e H; exact H]. split; [destruct t' as [|[b c] t'']; [exact I|lia]|exact C4].
      * split; [|intros e H; exact H]. split; [lia|]. split; assumption.
      * split; [|intros e H; exact H]. split; [lia|]. split; [destruct t' as [|[b c] t'']; [exact I|lia]|exact C4].
      * split; [|intros e H; exact H]. split; [lia|]. split; [lia|]. split; assumption.
    + destruct (IH ltac:(discriminate) Fp2 (conj C3 C4) F2) as [D1 D2].
      { intros lp' ln' t'' Eq. inversion Eq; subst. lia. }
      split; [|intros e H; exact H]. split; [|exact D1].
      specialize (D2 (lp + ln) C1). exact D2.
Qed.

Lemma add_coalesced m n l : 0 < n -> Forall (fun x => 0 < snd x) l -> coalesced l -> Forall (separate (m, n)) l ->
  coalesced (add_to_free_list m n l).
Proof.
  intros Hn Fp C F. unfold add_to_free_list. destruct l as [|[f fn] t]; [cbn; auto|].
  inversion F as [|? ? F1 F2]; subst. inversion Fp as [|? ? Fp1 Fp2]; subst. unfold separate in F1. cbn [fst snd] in *.
  destruct (m <? f) eqn:E.
  - destruct C as [C1 C2]. destruct (m + n =? f) eqn:E2.
    + split; [destruct t as [|[b c] t']; [exact I|lia]|exact C2].
    + split; [lia|]. split; assumption.
  - apply insert_after_coalesced; auto; [discriminate|]. intros lp ln t0 Eq. inversion Eq; subst. lia.
Qed.

(** ** The search for a block *)
Lemma first_fit_ok sz l : (PAGE | sz) -> 0 < sz -> Forall aligned l ->
  (first_fit sz l = Ok None /\ Forall (fun x => snd x < sz) l)
  \/ exists p l', first_fit sz l = Ok (Some (p, l')) /\ aligned (p, sz) /\ Forall aligned l'
       /\ Permutation (PL l) (pages (p, sz) ++ PL l')
       /\ (coalesced l -> coalesced l' /\ forall e, head_after e l -> head_after e l')
       /\ (forall P : Z * Z -> Prop, (forall a x y, 0 < x -> 0 < y -> P (a, x + y) -> P (a, x) /\ P (a + x, y)) ->
            Forall P l -> P (p, sz) /\ Forall P l').
Proof.
  intros Hsz Hpos A. induction A as [|[a n] t Aa At IH]; [left; split; [reflexivity|constructor]|].
  cbn [first_fit]. destruct Aa as (Da & Dn & Pa & Pn). cbn [fst snd] in *.
  rewrite !misaligned_ok by assumption. cbn [orb].
  destruct (sz <=? n) eqn:E.
  - right. destruct (PAGE <=? n - sz) eqn:E2.
    + assert (A1 : aligned (a, sz)) by (unfold aligned; cbn; auto).
      assert (A2 : aligned (a + sz, n - sz)).
      { unfold aligned. cbn [fst snd]. split; [apply Z.divide_add_r; assumption|]. split; [apply Z.divide_sub_r; assumption|].
        unfold PAGE in *. lia. }
      exists a, ((a + sz, n - sz) :: t). split; [reflexivity|]. split; [exact A1|]. split; [constructor; assumption|].
      split.
      { rewrite !PL_cons. replace n with (sz + (n - sz)) at 1 by lia. rewrite pages_join by assumption.
        rewrite <- app_assoc. reflexivity. }
      split.
      { intros [C1 C2]. split; [|intros e; cbn; lia]. split; [|exact C2].
        destruct t as [|[b c] t']; [exact I|]. lia. }
      intros P J F. inversion F; subst.
      destruct (J a sz (n - sz)) as [J1 J2]; [lia|unfold PAGE in *; lia|replace (sz + (n - sz)) with n by lia; assumption|].
      split; [exact J1|constructor; assumption].
    + assert (n = sz).
      { destruct Hsz as (q & ->), Dn as (r & ->). unfold PAGE in *. lia. }
      subst n. exists a, t. split; [reflexivity|]. split; [unfold aligned; cbn; auto|]. split; [exact At|].
      split; [reflexivity|]. split.
      { intros [C1 C2]. split; [exact C2|]. intros e. destruct t as [|[b c] t']; cbn; [auto|lia]. }
      intros P J F. inversion F; subst. auto.
  - destruct IH as [[-> F]|(p & l' & -> & Ap & Al & Pm & Cc & FP)].
    + left. split; [reflexivity|]. constructor; [cbn; lia|exact F].
    + right. exists p, ((a, n) :: l'). split; [reflexivity|]. split; [exact Ap|].
      split; [constructor; [unfold aligned; cbn; auto|exact Al]|]. split.
      { rewrite !PL_cons, Pm. rewrite !app_assoc. apply Permutation_app_tail, Permutation_app_comm. }
      split.
      { intros [C1 C2]. destruct (Cc C2) as [D1 D2]. split; [|intros e; cbn; lia]. split; [|exact D1].
        exact (D2 (a + n) C1). }
      intros P J F. inversion F; subst. destruct (FP P J) as [G1 G2]; [assumption|]. split; [exact G1|constructor; assumption].
Qed.
