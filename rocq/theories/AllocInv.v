(** The memory known to the allocator, and what the operations on whole pages do. *)
From Coq Require Import Permutation.
From Verif Require Import Base Alloc AllocSpec AllocPages.

Definition under (x : Z * Z) : Prop := fst x + snd x <= 2 ^ 47.
Definition mm_of (b : block) : Z := match b with Large _ true => 1 | _ => 0 end.
Fixpoint count (l : list (Z * block)) : Z := match l with [] => 0 | x :: l => mm_of (snd x) + count l end.

Record mem_ok (s : st) : Prop := {
  m_al : Forall aligned (regions s);
  m_top : Forall under (regions s);
  m_pages : NoDup (PL (regions s));
  m_chain : coalesced (prim s);
  m_total : total s = sum (map extent (blocks s));
  m_mmaps : mmaps s = count (blocks s) }.

(** ** Lists *)
Lemma nodup_app {A} (l k : list A) : NoDup (l ++ k) <-> NoDup l /\ NoDup k /\ forall x, In x l -> ~ In x k.
Proof.
  induction l as [|a l IH]; cbn.
  - split; [intros H; split; [constructor|split; [exact H|tauto]]|tauto].
  - split.
    + intros H. inversion H as [|? ? N D]; subst. apply IH in D. destruct D as (D1 & D2 & D3).
      rewrite in_app_iff in N. split; [constructor; tauto|]. split; [exact D2|].
      intros x [<-|Hx]; [tauto|auto].
    + intros (D1 & D2 & D3). inversion D1; subst. constructor; [rewrite in_app_iff; specialize (D3 a (or_introl eq_refl)); tauto|].
      apply IH. split; [assumption|]. split; [exact D2|]. intros x Hx. apply D3. right. exact Hx.
Qed.

Lemma sum_app l k : sum (l ++ k) = sum l + sum k.
Proof. induction l as [|x l IH]; cbn; [reflexivity|rewrite IH; lia]. Qed.

Lemma sum_perm l k : Permutation l k -> sum l = sum k.
Proof. induction 1; cbn; lia. Qed.
Lemma count_perm l k : Permutation l k -> count l = count k.
Proof. induction 1; cbn; lia. Qed.

Lemma PL_perm l k : Permutation l k -> Permutation (PL l) (PL k).
Proof. apply Permutation_flat_map. Qed.

(** ** Pages and extents *)
Lemma pages_length l : Forall aligned l -> Z.of_nat (length (PL l)) * PAGE = sum l.
Proof.
  induction 1 as [|x l Ax F IH]; [reflexivity|]. rewrite PL_cons, app_length. cbn [sum]. rewrite <- IH.
  unfold pages. rewrite map_length, seq_length. destruct Ax as (_ & (r & Hr) & _ & Hp). rewrite Hr in *.
  unfold PAGE in *. rewrite Z.div_mul by lia. lia.
Qed.

Lemma sum_PL l k : Forall aligned l -> Forall aligned k -> Permutation (PL l) (PL k) -> sum l = sum k.
Proof. intros A B P. rewrite <- !pages_length by assumption. rewrite P. reflexivity. Qed.

Lemma in_PL y l : In y (PL l) <-> exists x, In x l /\ In y (pages x).
Proof. apply in_flat_map. Qed.

Lemma pages_bound N l : Forall aligned l -> Forall (fun x => fst x + snd x <= N * PAGE) l -> NoDup (PL l) ->
  Z.of_nat (length (PL l)) <= Z.max 0 N.
Proof.
  intros A U D.
  assert (H : (length (PL l) <= length (map Z.of_nat (seq 0 (Z.to_nat N))))%nat).
  { apply NoDup_incl_length; [exact D|]. intros y Hy. apply in_PL in Hy. destruct Hy as (x & Hx & Hy).
    rewrite Forall_forall in A, U. specialize (A x Hx). specialize (U x Hx).
    apply in_pages in Hy; [|exact A]. destruct A as (_ & _ & P & _). unfold PAGE in *.
    apply in_map_iff. exists (Z.to_nat y). split; [lia|]. apply in_seq. lia. }
  rewrite map_length, seq_length in H. lia.
Qed.

Lemma sum_bound l : Forall aligned l -> Forall under l -> NoDup (PL l) -> 0 <= sum l <= 2 ^ 47.
Proof.
  intros A U D. rewrite <- pages_length by exact A. pose proof (pages_bound (2 ^ 35) l A U D) as H.
  change (2 ^ 47) with (2 ^ 35 * PAGE). set (n := Z.of_nat (length (PL l))) in *.
  assert (0 <= n) by (unfold n; lia). change (2 ^ 35) with 34359738368 in *. unfold PAGE. lia.
Qed.

Lemma separate_pages x y : aligned x -> aligned y -> separate x y -> forall z, In z (pages x) -> ~ In z (pages y).
Proof.
  intros Ax Ay S z Hx Hy. apply in_pages in Hx; [|exact Ax]. apply in_pages in Hy; [|exact Ay].
  unfold separate in S. lia.
Qed.

Lemma pages_separate x y : aligned x -> aligned y -> (forall z, In z (pages x) -> ~ In z (pages y)) -> separate x y.
Proof.
  intros Ax Ay D. unfold separate.
  destruct (Z_le_gt_dec (fst x + snd x) (fst y)) as [|G1]; [left; assumption|].
  destruct (Z_le_gt_dec (fst y + snd y) (fst x)) as [|G2]; [right; assumption|]. exfalso.
  pose proof Ax as ((q & Hq) & _ & _ & P1). pose proof Ay as ((r & Hr) & _ & _ & P2).
  destruct (Z_le_gt_dec q r).
  - apply (D r); apply in_pages; auto; unfold PAGE in *; lia.
  - apply (D q); apply in_pages; auto; unfold PAGE in *; lia.
Qed.

Lemma NoDup_PL_separate x l : aligned x -> Forall aligned l -> NoDup (pages x ++ PL l) -> Forall (separate x) l.
Proof.
  intros Ax A N. apply nodup_app in N. destruct N as (_ & _ & D). apply Forall_forall. intros y Hy.
  rewrite Forall_forall in A. apply pages_separate; [exact Ax|exact (A y Hy)|].
  intros z Hz Hzy. apply (D z Hz). apply in_PL. eauto.
Qed.

Lemma separate_NoDup x l : aligned x -> Forall aligned l -> Forall (separate x) l -> NoDup (PL l) -> NoDup (pages x ++ PL l).
Proof.
  intros Ax A S N. apply nodup_app. split; [apply NoDup_pages|]. split; [exact N|].
  intros z Hz Hz2. apply in_PL in Hz2. destruct Hz2 as (y & Hy & Hzy). rewrite Forall_forall in A, S.
  exact (separate_pages x y Ax (A y Hy) (S y Hy) z Hz Hzy).
Qed.

(** ** Headers *)
Lemma key_in_pages p b : aligned (extent (p, b)) -> In (p / PAGE) (pages (extent (p, b))).
Proof.
  intros A. apply in_pages; [exact A|]. destruct A as ((q & Hq) & _ & _ & P).
  change (fst (extent (p, b))) with p in *. set (n := snd (extent (p, b))) in *. clearbody n. subst p.
  unfold PAGE in *. rewrite Z.div_mul by lia. lia.
Qed.

Lemma keys_nodup l : Forall aligned (map extent l) -> NoDup (PL (map extent l)) -> NoDup (map fst l).
Proof.
  induction l as [|[p b] l IH]; cbn [map]; intros A N; [constructor|].
  inversion A as [|? ? A1 A2]; subst. rewrite PL_cons in N. apply nodup_app in N. destruct N as (_ & N2 & D).
  constructor; [|apply IH; assumption]. cbn [fst]. intros H. apply in_map_iff in H. destruct H as ([p' b'] & E & H).
  cbn [fst] in E. subst p'. apply (D (p / PAGE)); [apply key_in_pages; exact A1|].
  apply in_PL. exists (extent (p, b')). split; [apply in_map; exact H|]. apply key_in_pages.
  rewrite Forall_forall in A2. apply A2. apply in_map. exact H.
Qed.

Lemma del_notin p l : ~ In p (map fst l) -> del p l = l.
Proof.
  induction l as [|x l IH]; cbn; intros H; [reflexivity|]. destruct (fst x =? p) eqn:E; [exfalso; apply H; left; lia|].
  cbn. f_equal. apply IH. tauto.
Qed.

Lemma del_perm p b l : In (p, b) l -> NoDup (map fst l) -> Permutation l ((p, b) :: del p l).
Proof.
  induction l as [|[q c] l IH]; intros H N; [contradiction|]. cbn [map fst] in N. inversion N as [|? ? N1 N2]; subst.
  cbn [del filter fst]. destruct H as [H|H].
  - inversion H; subst. rewrite Z.eqb_refl. cbn [negb]. change (filter _ l) with (del p l). rewrite (del_notin p l N1). reflexivity.
  - destruct (q =? p) eqn:E.
    + apply Z.eqb_eq in E. subst q. exfalso. apply N1. change p with (fst (p, b)). apply in_map. exact H.
    + cbn [negb]. change (filter _ l) with (del p l). rewrite (IH H N2) at 1. apply perm_swap.
Qed.

Lemma in_del q b p l : In (q, b) (del p l) <-> In (q, b) l /\ q <> p.
Proof. unfold del. rewrite filter_In. cbn [fst]. rewrite negb_true_iff, Z.eqb_neq. reflexivity. Qed.

Lemma get_in p b l : NoDup (map fst l) -> In (p, b) l -> get p l = Some b.
Proof.
  unfold get. induction l as [|[q c] l IH]; intros N H; [contradiction|]. cbn [map fst] in N. inversion N as [|? ? N1 N2]; subst.
  cbn [find fst]. destruct (q =? p) eqn:E.
  - apply Z.eqb_eq in E. subst q. destruct H as [H|H]; [inversion H; reflexivity|].
    exfalso. apply N1. change p with (fst (p, b)). apply in_map. exact H.
  - destruct H as [H|H]; [inversion H; lia|]. apply IH; assumption.
Qed.

Lemma get_unique p b c (l : list (Z * block)) : NoDup (map fst l) -> In (p, b) l -> In (p, c) l -> b = c.
Proof. intros N H1 H2. pose proof (get_in p b l N H1). pose proof (get_in p c l N H2). congruence. Qed.

(** ** The parts of the invariant *)
Section Mem.
  Context (s : st) (M : mem_ok s).
  Lemma al_prim : Forall aligned (prim s).
  Proof. pose proof (m_al s M) as H. apply Forall_app in H. apply H. Qed.
  Lemma al_blocks : Forall aligned (map extent (blocks s)).
  Proof. pose proof (m_al s M) as H. apply Forall_app in H. apply H. Qed.
  Lemma top_prim : Forall under (prim s).
  Proof. pose proof (m_top s M) as H. apply Forall_app in H. apply H. Qed.
  Lemma top_blocks : Forall under (map extent (blocks s)).
  Proof. pose proof (m_top s M) as H. apply Forall_app in H. apply H. Qed.
  Lemma nd_blocks : NoDup (PL (map extent (blocks s))).
  Proof. pose proof (m_pages s M) as H. unfold regions in H. rewrite PL_app in H. apply nodup_app in H. apply H. Qed.
  Lemma keys : NoDup (map fst (blocks s)).
  Proof. apply keys_nodup; [apply al_blocks|apply nd_blocks]. Qed.
  Lemma pos_prim : Forall (fun x => 0 < snd x) (prim s).
  Proof. eapply Forall_impl; [|apply al_prim]. intros x (_ & _ & _ & H). exact H. Qed.
  Lemma total_bound : 0 <= total s <= 2 ^ 47.
  Proof. rewrite (m_total s M). apply sum_bound; [apply al_blocks|apply top_blocks|apply nd_blocks]. Qed.
End Mem.

Definition same (s s' : st) : Prop :=
  prim s' = prim s /\ blocks s' = blocks s /\ lists s' = lists s /\ total s' = total s /\ mmaps s' = mmaps s.

Lemma same_mem_ok s s' : same s s' -> mem_ok s -> mem_ok s'.
Proof.
  intros (E1 & E2 & E3 & E4 & E5) [A T P C S K].
  constructor; unfold regions in *; rewrite ?E1, ?E2, ?E4, ?E5; assumption.
Qed.

(** A block of pages has been taken out of the free memory. *)
Record taken (s s' : st) (p sz : Z) (mm : bool) : Prop := {
  t_blocks : blocks s' = blocks s;
  t_lists : lists s' = lists s;
  t_total : total s' = total s + sz;
  t_mmaps : mmaps s' = mmaps s + (if mm then 1 else 0);
  t_al : aligned (p, sz);
  t_top : under (p, sz);
  t_alp : Forall aligned (prim s');
  t_topp : Forall under (prim s');
  t_chain : coalesced (prim s');
  t_pages : NoDup (pages (p, sz) ++ PL (regions s'));
  t_mm : sz <= THRESHOLD -> mm = false;
  t_room : sum (prim s) = sum (prim s') + (if mm then 0 else sz) }.

Lemma search_taken s sz : mem_ok s -> (PAGE | sz) -> 0 < sz ->
  (first_fit sz (prim s) = Ok None /\ Forall (fun x => snd x < sz) (prim s))
  \/ exists p l, first_fit sz (prim s) = Ok (Some (p, l)) /\ taken s (set_total (set_prim s l) (total s + sz)) p sz false.
Proof.
  intros M D P. destruct (first_fit_ok sz (prim s) D P (al_prim s M)) as [H|(p & l & H & Ap & Al & Pm & C & F)]; [left; exact H|].
  right. exists p, l. split; [exact H|].
  destruct (F under) as [U1 U2].
  { intros a x y Hx Hy U. unfold under in *. cbn [fst snd] in *. lia. }
  { apply top_prim; exact M. }
  destruct (C (m_chain s M)) as [C1 _].
  constructor; cbn [blocks lists total mmaps prim set_total set_prim]; auto; [lia| |].
  2: { rewrite (sum_PL (prim s) ((p, sz) :: l) (al_prim s M)); [cbn [sum snd]; lia|constructor; assumption|exact Pm]. }
  pose proof (m_pages s M) as N. unfold regions in *. rewrite PL_app in *. cbn [blocks prim set_total set_prim].
  rewrite app_assoc. eapply Permutation_NoDup; [|exact N]. apply Permutation_app_tail. exact Pm.
Qed.

Lemma same_taken s0 s s' p sz mm : same s0 s -> taken s s' p sz mm -> taken s0 s' p sz mm.
Proof.
  intros (E1 & E2 & E3 & E4 & E5) T. destruct T. constructor; try assumption; congruence.
Qed.

Lemma primitive_alloc_ok os limit s sz : honest os -> mem_ok s -> (PAGE | sz) -> 0 < sz ->
  (exists s', primitive_alloc os limit s sz = Ok (None, s') /\ same s s'
     /\ (over_limit limit s sz = true \/ Forall (fun x => snd x < sz) (prim s)))
  \/ exists p mm s', primitive_alloc os limit s sz = Ok (Some (p, mm), s') /\ taken s s' p sz mm
       /\ over_limit limit s sz = false.
Proof.
  intros HO M D P. unfold primitive_alloc.
  destruct (over_limit limit s sz) eqn:OL.
  { left. exists s. split; [reflexivity|]. split; [repeat split|]. left. reflexivity. }
  rewrite misaligned_ok by exact D.
  destruct (THRESHOLD <? sz) eqn:T.
  - destruct (os (tick s) s sz) as [p|] eqn:O.
    + right. destruct (HO _ _ _ _ O) as (D1 & P1 & T1 & S1).
      exists p, true. eexists. rewrite misaligned_ok by exact D1. split; [reflexivity|]. split; [|reflexivity].
      assert (Ap : aligned (p, sz)) by (unfold aligned; cbn; auto).
      constructor; cbn [blocks lists total mmaps prim set_total set_mmaps ticked]; auto;
        try (apply al_prim; exact M); try (apply top_prim; exact M); try (apply (m_chain s M)); try lia.
      exact (separate_NoDup (p, sz) (regions s) Ap (m_al s M) S1 (m_pages s M)).
    + assert (Sm : same s (ticked s)) by (repeat split).
      pose proof (same_mem_ok _ _ Sm M) as M'.
      destruct (search_taken (ticked s) sz M' D P) as [[-> F]|(p & l & -> & Tk)]; cbn [obind].
      * left. exists (ticked s). split; [reflexivity|]. split; [exact Sm|]. right. exact F.
      * right. exists p, false. eexists. split; [reflexivity|]. split; [|reflexivity]. exact (same_taken _ _ _ _ _ _ Sm Tk).
  - destruct (search_taken s sz M D P) as [[-> F]|(p & l & -> & Tk)]; cbn [obind].
    + left. exists s. split; [reflexivity|]. split; [repeat split|]. right. exact F.
    + right. exists p, false. eexists. split; [reflexivity|]. split; [exact Tk|reflexivity].
Qed.

Lemma NoDup_swap {A} (a b c : list A) : NoDup (a ++ b ++ c) -> NoDup (b ++ a ++ c).
Proof.
  intros H. eapply Permutation_NoDup; [|exact H]. rewrite !app_assoc. apply Permutation_app_tail, Permutation_app_comm.
Qed.

(** It becomes a block in use. *)
Lemma put_ok s s' p sz mm b : mem_ok s -> taken s s' p sz mm -> extent (p, b) = (p, sz) -> mm_of b = (if mm then 1 else 0) ->
  ~ In p (map fst (blocks s)) /\ put p b (blocks s') = (p, b) :: blocks s
  /\ mem_ok (set_blocks s' (put p b (blocks s'))).
Proof.
  intros M T E Emm.
  assert (NI : ~ In p (map fst (blocks s))).
  { intros H. apply in_map_iff in H. destruct H as ([q c] & Eq & H). cbn in Eq. subst q.
    pose proof (t_pages _ _ _ _ _ T) as N. apply nodup_app in N. destruct N as (_ & _ & N).
    apply (N (p / PAGE)).
    - rewrite <- E. apply key_in_pages. rewrite E. apply (t_al _ _ _ _ _ T).
    - apply in_PL. exists (extent (p, c)). split.
      + unfold regions. apply in_or_app. right. rewrite (t_blocks _ _ _ _ _ T). apply in_map. exact H.
      + apply key_in_pages. pose proof (al_blocks s M) as A. rewrite Forall_forall in A. apply A, in_map, H. }
  assert (Ep : put p b (blocks s') = (p, b) :: blocks s).
  { unfold put. rewrite (t_blocks _ _ _ _ _ T), del_notin by exact NI. reflexivity. }
  split; [exact NI|]. split; [exact Ep|]. rewrite Ep.
  pose proof (al_blocks s M). pose proof (top_blocks s M). destruct T.
  constructor; unfold regions; cbn [prim blocks total mmaps set_blocks map]; rewrite ?E.
  - apply Forall_app. split; [assumption|]. constructor; assumption.
  - apply Forall_app. split; [assumption|]. constructor; assumption.
  - rewrite PL_app, PL_cons. unfold regions in t_pages0. rewrite PL_app, t_blocks0 in t_pages0. apply NoDup_swap. exact t_pages0.
  - assumption.
  - rewrite t_total0. rewrite (m_total s M). cbn [sum snd]. lia.
  - rewrite t_mmaps0, (m_mmaps s M). cbn [count snd]. lia.
Qed.

(** heap_primitive_free on what is not in use any more *)
Lemma primitive_free_ok s p sz mm : aligned (p, sz) -> under (p, sz) ->
  Forall aligned (regions s) -> Forall under (regions s) -> NoDup (pages (p, sz) ++ PL (regions s)) ->
  coalesced (prim s) -> total s = sz + sum (map extent (blocks s)) -> mmaps s = count (blocks s) ->
  exists s', primitive_free s p sz mm = Ok s' /\ mem_ok s' /\ blocks s' = blocks s /\ lists s' = lists s
    /\ sum (prim s') = sum (prim s) + (if mm then 0 else sz).
Proof.
  intros Ap Up A U N C T K. unfold primitive_free.
  rewrite (misaligned_ok sz) by apply Ap.
  assert (Ht : uwrap64 (total s - sz) = sum (map extent (blocks s))).
  { unfold uwrap64. rewrite T. replace (sz + sum (map extent (blocks s)) - sz) with (sum (map extent (blocks s))) by lia.
    apply Z.mod_small. unfold regions in *. rewrite Forall_app in A, U. rewrite PL_app in N.
    apply nodup_app in N. destruct N as (_ & N & _). apply nodup_app in N.
    pose proof (sum_bound (map extent (blocks s)) ltac:(tauto) ltac:(tauto) ltac:(tauto)). lia. }
  rewrite Ht.
  assert (A1 : Forall aligned (prim s) /\ Forall aligned (map extent (blocks s))) by (apply Forall_app; exact A).
  assert (U1 : Forall under (prim s) /\ Forall under (map extent (blocks s))) by (apply Forall_app; exact U).
  destruct mm.
  - eexists. split; [reflexivity|]. split; [|split; [reflexivity|split; [reflexivity|cbn [prim set_total]; lia]]].
    constructor; cbn [prim blocks total mmaps set_total]; auto.
    apply nodup_app in N. apply N.
  - rewrite (misaligned_ok p) by apply Ap. eexists. split; [reflexivity|].
    destruct (add_pages p sz (prim s) (proj1 A1) Ap) as [Pm Al].
    split; [|split; [reflexivity|split; [reflexivity|]]].
    2: { cbn [prim set_prim set_total]. rewrite (sum_PL _ ((p, sz) :: prim s) Al); [cbn [sum snd]; lia|constructor; [exact Ap|apply A1]|exact Pm]. }
    constructor; unfold regions; cbn [prim blocks total mmaps set_total set_prim]; auto.
    + apply Forall_app. split; [exact Al|apply A1].
    + apply Forall_app. split; [|apply U1]. apply add_Forall; [|exact Up|apply U1].
      intros a x y _ H. unfold under in *. cbn [fst snd] in *. lia.
    + rewrite PL_app. eapply Permutation_NoDup; [|exact N]. unfold regions. rewrite PL_app, app_assoc.
      apply Permutation_app_tail, Permutation_sym, Pm.
    + apply add_coalesced.
      * apply Ap.
      * eapply Forall_impl; [|apply A1]. intros x (_ & _ & _ & H). exact H.
      * exact C.
      * pose proof (NoDup_PL_separate _ _ Ap A N) as S. unfold regions in S. apply Forall_app in S. apply S.
Qed.

(** A block in use taken out of the table. *)
Lemma del_ok s p b : mem_ok s -> In (p, b) (blocks s) ->
  let s0 := set_blocks s (del p (blocks s)) in
  aligned (extent (p, b)) /\ under (extent (p, b)) /\ Forall aligned (regions s0) /\ Forall under (regions s0)
  /\ NoDup (pages (extent (p, b)) ++ PL (regions s0))
  /\ total s = snd (extent (p, b)) + sum (map extent (del p (blocks s)))
  /\ mmaps s = mm_of b + count (del p (blocks s)).
Proof.
  intros M H s0. pose proof (del_perm p b (blocks s) H (keys s M)) as Pm.
  assert (Pr : Permutation (regions s) (extent (p, b) :: regions s0)).
  { unfold regions, s0. cbn [prim blocks set_blocks]. rewrite (Permutation_map extent Pm). cbn [map].
    apply Permutation_sym, Permutation_middle. }
  pose proof (m_al s M) as A. rewrite Pr in A. inversion A as [|? ? A1 A2]; subst.
  pose proof (m_top s M) as U. rewrite Pr in U. inversion U as [|? ? U1 U2]; subst.
  split; [exact A1|]. split; [exact U1|]. split; [exact A2|]. split; [exact U2|].
  split; [eapply Permutation_NoDup; [|exact (m_pages s M)]; rewrite <- PL_cons; apply PL_perm; exact Pr|].
  split.
  - rewrite (m_total s M). rewrite (sum_perm _ _ (Permutation_map extent Pm)). reflexivity.
  - rewrite (m_mmaps s M). rewrite (count_perm _ _ Pm). reflexivity.
Qed.

(** heap_system_alloc *)
Lemma system_alloc_ok os s sz : honest os -> mem_ok s -> (PAGE | sz) -> 0 < sz ->
  system_alloc os s sz = Err
  \/ exists s', system_alloc os s sz = Ok s' /\ mem_ok s' /\ blocks s' = blocks s /\ lists s' = lists s /\ total s' = total s
       /\ sum (prim s') = sum (prim s) + sz /\ Exists (fun x => sz <= snd x) (prim s').
Proof.
  intros HO M D P. unfold system_alloc. rewrite misaligned_ok by exact D.
  destruct (os (tick s) s sz) as [p|] eqn:O; [right|left; reflexivity].
  destruct (HO _ _ _ _ O) as (D1 & P1 & T1 & S1). rewrite misaligned_ok by exact D1.
  assert (Ap : aligned (p, sz)) by (unfold aligned; cbn; auto).
  destruct (add_pages p sz (prim s) (al_prim s M) Ap) as [Pm Al].
  eexists. split; [reflexivity|]. cbn [blocks lists total prim ticked set_prim].
  split; [|split; [reflexivity|split; [reflexivity|split; [reflexivity|split; [|apply add_room; [apply pos_prim; exact M|exact P]]]]]].
  2: { rewrite (sum_PL _ ((p, sz) :: prim s) Al); [cbn [sum snd]; lia|constructor; [exact Ap|apply al_prim; exact M]|exact Pm]. }
  pose proof (separate_NoDup (p, sz) (regions s) Ap (m_al s M) S1 (m_pages s M)) as N.
  constructor; unfold regions; cbn [blocks lists total prim mmaps ticked set_prim].
  - apply Forall_app. split; [exact Al|apply al_blocks; exact M].
  - apply Forall_app. split; [|apply top_blocks; exact M]. apply add_Forall; [|exact T1|apply top_prim; exact M].
    intros a x y _ H. unfold under in *. cbn [fst snd] in *. lia.
  - rewrite PL_app. eapply Permutation_NoDup; [|exact N]. unfold regions. rewrite PL_app, app_assoc.
    apply Permutation_app_tail, Permutation_sym, Pm.
  - apply add_coalesced; [exact P|apply pos_prim; exact M|apply (m_chain s M)|].
    unfold regions in S1. apply Forall_app in S1. apply S1.
  - apply (m_total s M).
  - apply (m_mmaps s M).
Qed.
