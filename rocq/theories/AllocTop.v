(** What the allocator does with a client that keeps to the rules. *)
From Coq Require Import Permutation.
From Verif Require Import Base Alloc AllocSpec AllocPages AllocInv.

(** ** Arithmetic *)
Lemma land_down v k : 0 <= k -> Z.land v (- 2 ^ k) = v / 2 ^ k * 2 ^ k.
Proof.
  intros Hk. replace (- 2 ^ k) with (Z.lnot (Z.ones k)) by (unfold Z.lnot; rewrite Z.ones_equiv; lia).
  rewrite <- Z.ldiff_land, Z.ldiff_ones_r by exact Hk. rewrite Z.shiftl_mul_pow2, Z.shiftr_div_pow2 by exact Hk. reflexivity.
Qed.

Lemma round_align_ok v : v <= round_align v < v + 8 /\ (8 | round_align v).
Proof.
  unfold round_align. change (- 8) with (- 2 ^ 3). rewrite land_down by lia. change (2 ^ 3) with 8.
  split; [lia|]. exists ((v + 8 - 1) / 8). reflexivity.
Qed.

Lemma round_page_ok v : v <= round_page v < v + PAGE /\ (PAGE | round_page v).
Proof.
  unfold round_page, PAGE. change (Z.opp 4096) with (- 2 ^ 12). rewrite land_down by lia. change (2 ^ 12) with 4096.
  split; [lia|]. exists ((v + 4096 - 1) / 4096). reflexivity.
Qed.

Lemma round_page_id v : (PAGE | v) -> round_page v = v.
Proof.
  intros (q & ->). destruct (round_page_ok (q * PAGE)) as [H (r & E)]. rewrite E in *. unfold PAGE in *. lia.
Qed.

Lemma mem2block_ok p m : (PAGE | p) -> p <= m < p + PAGE -> mem2block m = p.
Proof.
  intros (q & ->) H. unfold mem2block, PAGE in *. change (Z.opp 4096) with (- 2 ^ 12). rewrite land_down by lia.
  change (2 ^ 12) with 4096. lia.
Qed.

(** ** Classes of sizes *)
Lemma sizes_ok k c : nth_error sizes k = Some c -> sztable c = k /\ 8 <= c <= 4048 /\ (8 | c).
Proof.
  intros H. assert (Hk : (k < 23)%nat) by (change 23%nat with (length sizes); apply nth_error_Some; congruence).
  do 23 (destruct k as [|k];
    [cbn in H; inversion H; subst; split; [reflexivity|]; split; [vm_compute; split; discriminate|
      match goal with |- (8 | ?c) => exists (c / 8); reflexivity end]|]).
  lia.
Qed.

Lemma in_sizes c : In c sizes -> exists k, nth_error sizes k = Some c.
Proof. apply In_nth_error. Qed.

Lemma sztable_from_ok l sz : (exists c, In c l /\ sz <= c) ->
  exists c, nth_error l (sztable_from l sz) = Some c /\ sz <= c.
Proof.
  induction l as [|a l IH]; intros (c & H & Hc); [contradiction|]. cbn [sztable_from].
  destruct (sz <=? a) eqn:E; [exists a; split; [reflexivity|lia]|].
  apply IH. destruct H as [<-|H]; [lia|eauto].
Qed.

Lemma sztable_ok sz : sz <= MAX_SMALL -> exists c, nth_error sizes (sztable sz) = Some c /\ sz <= c.
Proof.
  intros H. apply sztable_from_ok. exists 4048. split; [|exact H]. unfold sizes. repeat (try (left; reflexivity); right).
Qed.

(** ** The objects of a block *)
Lemma in_slots p c m : 0 < c -> In m (slots p c) <-> exists i, 0 <= i < 4048 / c /\ m = p + 48 + i * c.
Proof.
  intros Hc. unfold slots, SMALL_HEADER, PAGE. change (4096 - 48) with 4048. rewrite in_map_iff.
  assert (0 <= 4048 / c) by (apply Z.div_pos; lia). set (q := 4048 / c) in *. clearbody q. split.
  - intros (i & <- & Hi). apply in_seq in Hi. exists (Z.of_nat i). split; [lia|reflexivity].
  - intros (i & Hi & ->). exists (Z.to_nat i). split; [rewrite Z2Nat.id by lia; reflexivity|]. apply in_seq. lia.
Qed.

Lemma slot_bounds p c m : 0 < c -> In m (slots p c) -> p < m /\ m + c <= p + 4096.
Proof.
  intros Hc H. apply in_slots in H; [|exact Hc]. destruct H as (i & Hi & ->).
  assert (Hq : c * (4048 / c) <= 4048) by (apply Z.mul_div_le; exact Hc).
  assert ((i + 1) * c <= 4048 / c * c) by (apply Z.mul_le_mono_nonneg_r; lia).
  assert (0 <= i * c) by (apply Z.mul_nonneg_nonneg; lia). lia.
Qed.

Lemma slots_apart p c m m' : 0 < c -> In m (slots p c) -> In m' (slots p c) -> m <> m' -> m + c <= m' \/ m' + c <= m.
Proof.
  intros Hc H H' N. apply in_slots in H, H'; try exact Hc. destruct H as (i & Hi & ->), H' as (j & Hj & ->).
  destruct (Z.lt_trichotomy i j) as [L|[E|G]]; [|subst; congruence|].
  - left. assert ((i + 1) * c <= j * c) by (apply Z.mul_le_mono_nonneg_r; lia). lia.
  - right. assert ((j + 1) * c <= i * c) by (apply Z.mul_le_mono_nonneg_r; lia). lia.
Qed.

Lemma slots_length p c : length (slots p c) = Z.to_nat (4048 / c).
Proof. unfold slots. rewrite map_length, seq_length. reflexivity. Qed.

Lemma slots_nodup p c : 0 < c -> NoDup (slots p c).
Proof.
  intros Hc. apply FinFun.Injective_map_NoDup; [|apply seq_NoDup].
  intros i j H. assert (Z.of_nat i * c = Z.of_nat j * c) by lia. apply Z.mul_reg_r in H0; lia.
Qed.

(** ** The invariant *)
Definition block_ok (live : holdings) (p : Z) (b : block) : Prop :=
  match b with
  | Small c nr avail fr =>
    In c sizes /\ nr = 4048 / c /\ avail = Z.of_nat (length fr) /\ NoDup fr /\ incl fr (slots p c)
    /\ (forall m, In m (slots p c) -> In m fr \/ In m (map fst live))
  | Large n _ => 4048 < n /\ n + 16 < 2 ^ 31 /\ In (p + 16) (map fst live)
  end.

Definition holds (p : Z) (b : block) (m : Z) : Prop :=
  match b with
  | Small c _ _ fr => In m (slots p c) /\ ~ In m fr
  | Large _ _ => m = p + 16
  end.

Definition listed (s : st) (k : nat) (c : Z) : Prop :=
  NoDup (nth k (lists s) [])
  /\ forall p, In p (nth k (lists s) []) <-> exists nr avail m fr, In (p, Small c nr avail (m :: fr)) (blocks s).

Record core (s : st) (live : holdings) : Prop := {
  c_mem : mem_ok s;
  c_len : length (lists s) = length sizes;
  c_list : forall k c, nth_error sizes k = Some c -> listed s k c;
  c_blocks : forall p b, In (p, b) (blocks s) -> block_ok live p b;
  c_live : forall m sz, In (m, sz) live -> exists p b, In (p, b) (blocks s) /\ holds p b m /\ 0 <= sz <= block_size b;
  c_nodup : NoDup (map fst live) }.

Definition full (s : st) (but : Z) : Prop :=
  forall p c nr avail fr, In (p, Small c nr avail fr) (blocks s) -> p <> but -> avail < nr.

Definition inv (s : st) (live : holdings) : Prop := core s live /\ full s 0.

Lemma block_pos s p b : mem_ok s -> In (p, b) (blocks s) -> (PAGE | p) /\ 0 < p.
Proof.
  intros M H. pose proof (al_blocks s M) as A. rewrite Forall_forall in A. specialize (A _ (in_map extent _ _ H)).
  destruct A as (D & _ & P & _). split; [exact D|exact P].
Qed.

Lemma in_put q b p b' l : In (q, b) (put p b' l) <-> (q = p /\ b = b') \/ (In (q, b) l /\ q <> p).
Proof.
  unfold put. cbn [In]. rewrite in_del. split; [intros [H|H]; [inversion H; auto|auto]|intros [[-> ->]|H]; auto].
Qed.

Lemma put_same s p b b' : mem_ok s -> In (p, b) (blocks s) -> extent (p, b') = extent (p, b) -> mm_of b' = mm_of b ->
  mem_ok (set_blocks s (put p b' (blocks s))).
Proof.
  intros M H E Em. destruct (del_ok s p b M H) as (A1 & U1 & A2 & U2 & N & T & K).
  unfold regions in *. cbn [prim blocks set_blocks] in *.
  constructor; unfold regions, put; cbn [prim blocks total mmaps set_blocks map]; rewrite ?E.
  - apply Forall_app in A2. apply Forall_app. split; [apply A2|]. constructor; [exact A1|apply A2].
  - apply Forall_app in U2. apply Forall_app. split; [apply U2|]. constructor; [exact U1|apply U2].
  - rewrite PL_app in *. rewrite PL_cons. apply NoDup_swap. exact N.
  - apply (m_chain s M).
  - rewrite T. cbn [sum]. reflexivity.
  - rewrite K. cbn [count snd]. rewrite Em. reflexivity.
Qed.

Lemma set_lists_mem s x : mem_ok s -> mem_ok (set_lists s x).
Proof. intros [A T P C S K]. constructor; assumption. Qed.

Lemma set_nth_length k x l : length (set_nth k x l) = length l.
Proof. revert k. induction l as [|y l IH]; intros [|k]; cbn; auto. Qed.
Lemma nth_set_nth k x l : (k < length l)%nat -> nth k (set_nth k x l) [] = x.
Proof. revert k. induction l as [|y l IH]; intros [|k] H; cbn in *; try lia; [reflexivity|]. apply IH. lia. Qed.
Lemma nth_set_nth_neq k j x l : j <> k -> nth j (set_nth k x l) [] = nth j l [].
Proof.
  revert k j. induction l as [|y l IH]; intros [|k] [|j] H; cbn; try reflexivity; try congruence. apply IH. congruence.
Qed.

Lemma sizes_inj k k' c : nth_error sizes k = Some c -> nth_error sizes k' = Some c -> k = k'.
Proof. intros H H'. destruct (sizes_ok _ _ H) as [<- _]. destruct (sizes_ok _ _ H') as [<- _]. reflexivity. Qed.

Lemma live_in m sz (live : holdings) : In (m, sz) live -> In m (map fst live).
Proof. intros H. change m with (fst (m, sz)). apply in_map. exact H. Qed.

(** An object is held in one block only. *)
Lemma holds_block s p b m live : core s live -> In (p, b) (blocks s) -> holds p b m -> mem2block m = p.
Proof.
  intros C H Hm. destruct (block_pos s p b (c_mem s live C) H) as [D _]. apply mem2block_ok; [exact D|].
  pose proof (c_blocks s live C p b H) as B. destruct b as [c nr avail fr|n mm]; cbn in Hm, B.
  - destruct B as (Hc & _). destruct (in_sizes c Hc) as (k & Hk). destruct (sizes_ok k c Hk) as (_ & Hb & _).
    pose proof (slot_bounds p c m ltac:(lia) (proj1 Hm)). unfold PAGE. lia.
  - unfold PAGE. lia.
Qed.

(** ** The memory to be divided *)
Definition held (l : list (Z * block)) : Z := sum (map extent (filter shared l)).

Lemma held_cons x l : held (x :: l) = (if shared x then snd (extent x) else 0) + held l.
Proof. unfold held. cbn [filter]. destruct (shared x); cbn [map sum]; lia. Qed.

Lemma held_perm l k : Permutation l k -> held l = held k.
Proof. induction 1; rewrite ?held_cons in *; lia. Qed.

Lemma held_del s p b : mem_ok s -> In (p, b) (blocks s) ->
  held (blocks s) = (if shared (p, b) then snd (extent (p, b)) else 0) + held (del p (blocks s)).
Proof. intros M H. rewrite (held_perm _ _ (del_perm p b _ H (keys s M))). apply held_cons. Qed.

Lemma arena_held s : arena s = sum (prim s) + held (blocks s).
Proof. reflexivity. Qed.

(** ** Taking an object *)
Lemma take_ok s live k c p rest sz :
  core s live -> full s p -> nth_error sizes k = Some c -> nth k (lists s) [] = p :: rest -> 0 <= sz <= c ->
  exists m s' b, take s k p rest = Ok (m, s') /\ inv s' ((m, sz) :: live) /\ total s' = total s /\ arena s' = arena s
    /\ get (mem2block m) (blocks s') = Some b /\ block_size b = c.
Proof.
  intros C F Hk Hl Hsz. pose proof (c_mem s live C) as M. destruct (c_list s live C k c Hk) as [ND IFF].
  destruct (proj1 (IFF p)) as (nr & avail & m & fr & HB); [rewrite Hl; left; reflexivity|].
  destruct (c_blocks s live C _ _ HB) as (Hc & Hnr & Hav & Hnd & Hincl & Hall).
  destruct (sizes_ok k c Hk) as (Hsz2 & Hc8 & H8). destruct (block_pos s _ _ M HB) as [Dp Pp].
  pose proof (slot_bounds p c m ltac:(lia) (Hincl m (or_introl eq_refl))) as Hm.
  subst nr avail. pose proof (proj1 (NoDup_cons_iff _ _) Hnd) as [Hnm Hnd2].
  unfold take. rewrite (get_in p _ _ (keys s M) HB).
  rewrite (proj2 (Z.eqb_neq _ _)) by (cbn [length]; lia).
  rewrite (proj2 (Z.leb_gt m p)) by lia. rewrite (proj2 (Z.leb_gt (p + PAGE) m)) by (unfold PAGE; lia). cbn [orb].
  set (nr := 4048 / c) in *. set (avail := Z.of_nat (length (m :: fr))) in *.
  set (b' := Small c nr (avail - 1) fr).
  pose proof (put_same s p (Small c nr avail (m :: fr)) b' M HB eq_refl eq_refl) as M'.
  set (s1 := set_blocks s (put p b' (blocks s))) in *.
  assert (Nlive : ~ In m (map fst live)).
  { intros H. apply in_map_iff in H. destruct H as ([m0 z] & E & H). cbn in E. subst m0.
    destruct (c_live s live C m z H) as (q & bq & Hq & Hh & _).
    assert (Eqp : q = p).
    { rewrite <- (holds_block s q bq m live C Hq Hh). apply mem2block_ok; [exact Dp|unfold PAGE; lia]. }
    rewrite Eqp in *.
    rewrite (get_unique p bq _ _ (keys s M) Hq HB) in Hh. cbn in Hh. apply (proj2 Hh). left. reflexivity. }
  exists m, (match fr with [] => set_lists s1 (set_nth k rest (lists s1)) | _ => s1 end), b'.
  split; [reflexivity|].
  set (s2 := match fr with [] => set_lists s1 (set_nth k rest (lists s1)) | _ => s1 end).
  assert (Eb : blocks s2 = put p b' (blocks s)) by (unfold s2; destruct fr; reflexivity).
  assert (M2 : mem_ok s2) by (unfold s2; destruct fr; [apply set_lists_mem|]; exact M').
  assert (Lk : (k < length (lists s))%nat) by (rewrite (c_len s live C); apply nth_error_Some; congruence).
  split; [|split; [unfold s2; destruct fr; reflexivity|split]].
  2: { rewrite !arena_held, Eb. replace (prim s2) with (prim s) by (unfold s2; destruct fr; reflexivity).
       rewrite (held_del s p _ M HB). unfold put. rewrite held_cons. reflexivity. }
  - split.
    + constructor.
      * exact M2.
      * unfold s2. destruct fr; cbn [lists set_lists set_blocks s1]; [rewrite set_nth_length|]; apply (c_len s live C).
      * intros k' c' Hk'. destruct (Nat.eq_dec k' k) as [->|Nk].
        -- assert (c' = c) by congruence. subst c'. unfold listed. rewrite Eb.
           rewrite Hl in ND, IFF. inversion ND as [|? ? Np ND']; subst.
           destruct fr as [|f0 fr0].
           ++ unfold s2. cbn [lists set_lists s1 set_blocks]. rewrite nth_set_nth by exact Lk. split; [exact ND'|].
              intros q. split.
              ** intros Hq. assert (q <> p) by (intros ->; contradiction).
                 destruct (proj1 (IFF q)) as (n1 & a1 & m1 & f1 & H1); [right; exact Hq|].
                 exists n1, a1, m1, f1. apply in_put. right. auto.
              ** intros (n1 & a1 & m1 & f1 & H1). apply in_put in H1. destruct H1 as [[-> E]|[H1 Nq]]; [inversion E|].
                 destruct (proj2 (IFF q)) as [E|Hq]; [eauto 6|congruence|exact Hq].
           ++ unfold s2. cbn [lists s1 set_blocks]. rewrite Hl. split; [exact ND|]. intros q. split.
              ** intros [<-|Hq].
                 --- unfold b'. do 4 eexists. apply in_put. left. split; reflexivity.
                 --- destruct (proj1 (IFF q)) as (n1 & a1 & m1 & f1 & H1); [right; exact Hq|].
                     assert (q <> p) by (intros ->; contradiction).
                     exists n1, a1, m1, f1. apply in_put. right. auto.
              ** intros (n1 & a1 & m1 & f1 & H1). apply in_put in H1. destruct H1 as [[-> E]|[H1 Nq]]; [left; reflexivity|].
                 apply IFF. eauto 6.
        -- destruct (c_list s live C k' c' Hk') as [ND' IFF'].
           assert (Nc : c' <> c) by (intros ->; apply Nk; eapply sizes_inj; eauto).
           assert (El : nth k' (lists s2) [] = nth k' (lists s) []).
           { unfold s2. destruct fr; cbn [lists set_lists s1 set_blocks]; [apply nth_set_nth_neq; exact Nk|reflexivity]. }
           unfold listed. rewrite El, Eb. split; [exact ND'|]. intros q. rewrite IFF'.
           split; intros (n1 & a1 & m1 & f1 & H1); exists n1, a1, m1, f1.
           ++ apply in_put. right. split; [exact H1|]. intros ->.
              pose proof (get_unique p _ _ _ (keys s M) H1 HB) as E. inversion E. congruence.
           ++ apply in_put in H1. destruct H1 as [[-> E]|[H1 _]]; [inversion E; congruence|exact H1].
      * intros q b Hq. rewrite Eb in Hq. apply in_put in Hq. destruct Hq as [[-> ->]|[Hq Nq]].
        -- unfold block_ok, b'. split; [exact Hc|]. split; [reflexivity|]. split; [unfold avail; cbn [length]; lia|]. split; [exact Hnd2|].
           split; [intros y Hy; apply Hincl; right; exact Hy|].
           intros y Hy. cbn [map fst In]. destruct (Hall y Hy) as [[->|H]|H]; auto.
        -- pose proof (c_blocks s live C q b Hq) as B. destruct b as [c1 n1 a1 f1|n1 mm1]; cbn in B |- *.
           ++ destruct B as (B1 & B2 & B3 & B4 & B5 & B6). do 5 (split; [assumption|]). intros y Hy. destruct (B6 y Hy); auto.
           ++ tauto.
      * intros m1 z1 [E|H].
        -- inversion E; subst. exists p, b'. rewrite Eb. split; [apply in_put; left; auto|]. split; [|cbn; lia].
           cbn. split; [apply Hincl; left; reflexivity|exact Hnm].
        -- destruct (c_live s live C m1 z1 H) as (q & b & Hq & Hh & Hz).
           destruct (Z.eq_dec q p) as [->|Nq].
           ++ pose proof (get_unique p _ _ _ (keys s M) Hq HB) as ->. exists p, b'. rewrite Eb.
              split; [apply in_put; left; auto|]. cbn in Hh, Hz |- *. split; [|exact Hz]. tauto.
           ++ exists q, b. rewrite Eb. split; [apply in_put; right; auto|]. auto.
      * cbn [map fst]. constructor; [exact Nlive|apply (c_nodup s live C)].
    + intros q c1 n1 a1 f1 Hq _. rewrite Eb in Hq. apply in_put in Hq. destruct Hq as [[-> E]|[Hq Nq]].
      * assert (En : n1 = nr) by (unfold b' in E; congruence). assert (Ea : a1 = avail - 1) by (unfold b' in E; congruence).
        rewrite En, Ea.
        assert (L : (length (m :: fr) <= length (slots p c))%nat) by (apply NoDup_incl_length; assumption).
        rewrite slots_length in L. unfold avail, nr in *. cbn [length] in *.
        assert (0 <= 4048 / c) by (apply Z.div_pos; lia). lia.
      * eapply F; eauto.
  - split; [|reflexivity]. rewrite Eb.
    rewrite (mem2block_ok p m Dp) by (unfold PAGE; lia).
    apply get_in; [rewrite <- Eb; apply keys; exact M2|]. apply in_put. left. auto.
Qed.
