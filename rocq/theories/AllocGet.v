(** Asking for memory. *)
From Coq Require Import Permutation.
From Verif Require Import Base Alloc AllocSpec AllocPages AllocInv AllocTop.

Lemma same_inv s s' live : same s s' -> inv s live -> inv s' live.
Proof.
  intros Sm [C F]. pose proof (same_mem_ok _ _ Sm (c_mem s live C)) as M. destruct Sm as (E1 & E2 & E3 & E4 & E5).
  split.
  - destruct C. constructor; unfold listed in *; rewrite ?E2, ?E3; assumption.
  - intros p c nr avail fr. rewrite E2. apply F.
Qed.

Lemma full_but s live p : inv s live -> full s p.
Proof.
  intros [C F] q c nr avail fr H _. apply (F q c nr avail fr H).
  destruct (block_pos s q _ (c_mem s live C) H). lia.
Qed.

(** A page is divided into objects. *)
Lemma fresh_ok s s' live k c p : inv s live -> taken s s' p PAGE false -> nth_error sizes k = Some c ->
  nth k (lists s) [] = [] ->
  let s2 := set_blocks s' (put p (Small c (4048 / c) (4048 / c) (slots p c)) (blocks s')) in
  let s3 := set_lists s2 (set_nth k [p] (lists s2)) in
  core s3 live /\ full s3 p /\ nth k (lists s3) [] = [p] /\ arena s3 = arena s.
Proof.
  intros [C F] T Hk Hl. pose proof (c_mem s live C) as M.
  destruct (put_ok s s' p PAGE false (Small c (4048 / c) (4048 / c) (slots p c)) M T eq_refl eq_refl) as (NI & Ep & M2).
  destruct (sizes_ok k c Hk) as (_ & Hc & _).
  assert (Lk : (k < length (lists s))%nat) by (rewrite (c_len s live C); apply nth_error_Some; congruence).
  assert (Hq : 1 <= 4048 / c) by (apply Z.div_le_lower_bound; lia).
  intros s2 s3.
  assert (Eb : blocks s3 = (p, Small c (4048 / c) (4048 / c) (slots p c)) :: blocks s) by exact Ep.
  assert (El : lists s3 = set_nth k [p] (lists s)).
  { unfold s3, s2. cbn [lists set_lists set_blocks]. rewrite (t_lists _ _ _ _ _ T). reflexivity. }
  assert (Ns : exists m fr, slots p c = m :: fr).
  { pose proof (slots_length p c) as L. destruct (slots p c) as [|m fr]; [|eauto]. cbn in L.
    set (q := 4048 / c) in *. clearbody q. lia. }
  destruct Ns as (m0 & fr0 & Es).
  split; [|split; [|split]].
  - constructor.
    + apply set_lists_mem. exact M2.
    + rewrite El, set_nth_length. apply (c_len s live C).
    + intros k' c' Hk'. unfold listed. rewrite Eb, El. destruct (c_list s live C k' c' Hk') as [ND IFF].
      destruct (Nat.eq_dec k' k) as [->|Nk].
      * assert (c' = c) by congruence. subst c'. rewrite nth_set_nth by exact Lk.
        split; [constructor; [intros []|constructor]|]. intros q. split.
        -- intros [<-|[]]. rewrite Es. do 4 eexists. left. reflexivity.
        -- intros (n1 & a1 & m1 & f1 & [E|H]); [left; congruence|]. exfalso.
           assert (In q (nth k (lists s) [])) by (apply IFF; eauto 6). rewrite Hl in *. contradiction.
      * rewrite nth_set_nth_neq by exact Nk. split; [exact ND|]. intros q. rewrite IFF.
        split; intros (n1 & a1 & m1 & f1 & H); exists n1, a1, m1, f1; [right; exact H|].
        destruct H as [E|H]; [|exact H]. exfalso. apply Nk. assert (c' = c) by congruence. subst c'. eapply sizes_inj; eauto.
    + intros q b. rewrite Eb. intros [E|H]; [|apply (c_blocks s live C); exact H].
      assert (q = p) by congruence. assert (b = Small c (4048 / c) (4048 / c) (slots p c)) by congruence. subst q b.
      cbn [block_ok]. split; [eapply nth_error_In; exact Hk|]. split; [reflexivity|].
      split; [rewrite slots_length; set (q := 4048 / c) in *; clearbody q; lia|].
      split; [apply slots_nodup; lia|]. split; [apply incl_refl|]. auto.
    + intros m z H. destruct (c_live s live C m z H) as (q & b & Hb & Hh). exists q, b. rewrite Eb. split; [right; exact Hb|exact Hh].
    + apply (c_nodup s live C).
  - intros q c1 n1 a1 f1. rewrite Eb. intros [E|H] N; [congruence|]. apply (F q c1 n1 a1 f1 H).
    destruct (block_pos s q _ M H). lia.
  - rewrite El. apply nth_set_nth. exact Lk.
  - rewrite !arena_held, Eb, held_cons. unfold s3, s2. cbn [prim set_lists set_blocks].
    pose proof (t_room _ _ _ _ _ T). unfold shared, extent. cbn [fst snd]. unfold PAGE in *. lia.
Qed.

Definition in_limit (limit : Z) (s : st) : Prop := limit <> 0 -> total s <= limit.

Lemma over_limit_ok limit s sz t : in_limit limit s -> over_limit limit s sz = false -> t = total s + sz -> limit <> 0 -> t <= limit.
Proof. unfold in_limit, over_limit. intros H1 H2 -> N. specialize (H1 N). lia. Qed.

Section Get.
  Context (os : nat -> st -> Z -> option Z) (chunk limit : Z) (HO : honest os).

  Definition got (s : st) (live : holdings) (sz least : Z) (r : outcome (option Z * st)) (need : Z) : Prop :=
    (exists s', r = Ok (None, s') /\ same s s' /\ (over_limit limit s need = true \/ Forall (fun x => snd x < need) (prim s)))
    \/ exists m s' b, r = Ok (Some m, s') /\ inv s' ((m, sz) :: live) /\ get (mem2block m) (blocks s') = Some b
         /\ least <= block_size b /\ (in_limit limit s -> in_limit limit s') /\ arena s' = arena s.

  Lemma alloc_small_ok s live sz : inv s live -> 0 <= sz <= MAX_SMALL ->
    got s live sz (round_align sz) (alloc_small os limit s sz) PAGE.
  Proof.
    intros I Hsz. unfold alloc_small. destruct (round_align_ok sz) as [R1 (r8 & R8)].
    destruct (sztable_ok (round_align sz)) as (c & Hk & Hc); [unfold MAX_SMALL in *; lia|].
    set (k := sztable (round_align sz)) in *.
    rewrite (nth_error_nth _ _ 0 Hk). destruct (sizes_ok k c Hk) as (_ & Hc2 & _).
    destruct (nth k (lists s) []) as [|p rest] eqn:El.
    - unfold small_block. destruct (primitive_alloc_ok os limit s PAGE HO (c_mem s live (proj1 I)))
        as [(s' & -> & Sm & W)|(p & mm & s' & -> & T & OL)]; [exists 1; reflexivity|reflexivity| |]; cbn [obind].
      + left. exists s'. auto.
      + assert (mm = false) by (apply (t_mm _ _ _ _ _ T); vm_compute; discriminate). subst mm.
        pose proof (t_al _ _ _ _ _ T) as (Dp & _). cbn [fst] in Dp. rewrite misaligned_ok by exact Dp.
        destruct (fresh_ok s s' live k c p I T Hk El) as (C3 & F3 & L3 & R3).
        change ((PAGE - SMALL_HEADER) / c) with (4048 / c).
        destruct (take_ok _ live k c p [] sz C3 F3 Hk L3 ltac:(lia)) as (m & s4 & b & Et & I4 & T4 & R4 & G4 & B4).
        right. exists m, s4, b. cbv zeta in Et. rewrite Et. cbn [obind fst snd]. split; [reflexivity|]. split; [exact I4|].
        split; [exact G4|]. split; [lia|]. split; [|rewrite R4; exact R3]. intros L N. eapply over_limit_ok; eauto.
        rewrite T4. cbn [total set_lists set_blocks]. apply (t_total _ _ _ _ _ T).
    - destruct (take_ok s live k c p rest sz (proj1 I) (full_but s live p I) Hk El ltac:(lia)) as (m & s4 & b & Et & I4 & T4 & R4 & G4 & B4).
      right. exists m, s4, b. rewrite Et. cbn [obind fst snd]. split; [reflexivity|]. split; [exact I4|].
      split; [exact G4|]. split; [lia|]. split; [|exact R4]. unfold in_limit. rewrite T4. auto.
  Qed.

  Lemma large_need sz : MAX_SMALL < sz <= LARGEST ->
    let n := round_page (sz + LARGE_HEADER) in (PAGE | n) /\ sz + 16 <= n < 2 ^ 31.
  Proof.
    intros H n. destruct (round_page_ok (sz + LARGE_HEADER)) as [R D]. fold n in R, D. split; [exact D|].
    unfold LARGE_HEADER, PAGE, LARGEST, MAX_SMALL in *. lia.
  Qed.

  Lemma alloc_large_ok s live sz : inv s live -> MAX_SMALL < sz <= LARGEST ->
    got s live sz sz (alloc_large os limit s sz) (round_page (sz + LARGE_HEADER)).
  Proof.
    intros I Hsz. destruct (large_need sz Hsz) as [D R]. unfold alloc_large, large_block. cbv zeta.
    set (n := round_page (sz + LARGE_HEADER)) in *. clearbody n. unfold MAX_SMALL in *.
    pose proof I as [C F]. pose proof (c_mem s live C) as M.
    destruct (primitive_alloc_ok os limit s n HO M D ltac:(lia))
        as [(s' & -> & Sm & W)|(p & mm & s' & -> & T & OL)]; cbn [obind]; [left; exists s'; auto|].
    pose proof (t_al _ _ _ _ _ T) as (Dp & _ & Pp & _). cbn [fst] in Dp, Pp.
    set (b := Large (n - LARGE_HEADER) mm).
    destruct (put_ok s s' p n mm b M T) as (NI & Ep & M2).
    { unfold b, extent, LARGE_HEADER. cbn [fst snd]. f_equal. lia. }
    { unfold b. destruct mm; reflexivity. }
    set (s2 := set_blocks s' (put p b (blocks s'))) in *.
    assert (Eb : blocks s2 = (p, b) :: blocks s) by exact Ep.
    assert (El : lists s2 = lists s) by exact (t_lists _ _ _ _ _ T).
    assert (Em : mem2block (p + LARGE_HEADER) = p).
    { apply mem2block_ok; [exact Dp|]. unfold PAGE, LARGE_HEADER. lia. }
    right. exists (p + LARGE_HEADER), s2, b. split; [reflexivity|]. split; [split|split; [|split; [|split]]].
    - constructor.
      + exact M2.
      + rewrite El. apply (c_len s live C).
      + intros k c Hk. destruct (c_list s live C k c Hk) as [ND IFF]. unfold listed. rewrite El, Eb. split; [exact ND|].
        intros q. rewrite IFF. split; intros (n1 & a1 & m1 & f1 & H); exists n1, a1, m1, f1; [right; exact H|].
        destruct H as [E|H]; [unfold b in E; congruence|exact H].
      + intros q bq. rewrite Eb. intros [E|H].
        * assert (q = p) by congruence. assert (bq = b) by congruence. subst q bq.
          unfold block_ok, b. unfold LARGE_HEADER. split; [lia|]. split; [lia|]. left. reflexivity.
        * pose proof (c_blocks s live C q bq H) as B. destruct bq as [c1 n1 a1 f1|n1 mm1]; cbn in B |- *.
          -- destruct B as (B1 & B2 & B3 & B4 & B5 & B6). do 5 (split; [assumption|]). intros y Hy. destruct (B6 y Hy); auto.
          -- tauto.
      + intros m1 z1 [E|H].
        * assert (m1 = p + 16) by (unfold LARGE_HEADER in E; congruence). assert (z1 = sz) by congruence. subst m1 z1. exists p, b. rewrite Eb.
          split; [left; reflexivity|]. split; [reflexivity|]. unfold b, LARGE_HEADER. cbn [block_size]. lia.
        * destruct (c_live s live C m1 z1 H) as (q & bq & Hq & Hh). exists q, bq. rewrite Eb. split; [right; exact Hq|exact Hh].
      + cbn [map fst]. constructor; [|apply (c_nodup s live C)]. intros H. apply in_map_iff in H. destruct H as ([m1 z1] & E & H).
        cbn in E. subst m1. destruct (c_live s live C _ _ H) as (q & bq & Hq & Hh & _).
        pose proof (holds_block s q bq _ live C Hq Hh) as E. rewrite Em in E. subst q.
        apply NI. change p with (fst (p, bq)). apply in_map. exact Hq.
    - intros q c1 n1 a1 f1. rewrite Eb. intros [E|H] N; [unfold b in E; congruence|]. apply (F q c1 n1 a1 f1 H N).
    - rewrite Em, Eb. unfold get. cbn [find fst]. rewrite Z.eqb_refl. reflexivity.
    - unfold b, LARGE_HEADER. cbn [block_size]. lia.
    - intros L N. eapply over_limit_ok; eauto. exact (t_total _ _ _ _ _ T).
    - rewrite !arena_held, Eb, held_cons. unfold s2. cbn [prim set_blocks]. pose proof (t_room _ _ _ _ _ T).
      unfold b, shared, extent, LARGE_HEADER. cbn [fst snd]. destruct mm; lia.
  Qed.

  Context (HC : (4096 | chunk)).

  (** What a request needs. *)
  Definition need (sz : Z) : Z := if is_small sz then PAGE else round_page (sz + LARGE_HEADER).

  Lemma attempt_ok sz more : 0 <= sz <= LARGEST -> forall s live, inv s live ->
    attempt os chunk limit more s sz = Err
    \/ exists r s', attempt os chunk limit more s sz = Ok (r, s') /\ inv s' (gain r sz live)
         /\ (in_limit limit s -> in_limit limit s') /\ arena s <= arena s'
         /\ (limit = 0 -> (0 < more)%nat \/ Exists (fun x => need sz <= snd x) (prim s) -> r <> None).
  Proof.
    intros Hsz. assert (Hn : (PAGE | need sz) /\ 0 < need sz).
    { unfold need. destruct (is_small sz) eqn:E; [split; [exists 1; reflexivity|reflexivity]|].
      unfold is_small in E. destruct (large_need sz) as [D R]; [lia|]. split; [exact D|]. unfold MAX_SMALL in *. lia. }
    induction more as [|more IH]; intros s live I; cbn [attempt].
    all: assert (G : got s live sz (if is_small sz then round_align sz else sz)
             (if is_small sz then alloc_small os limit s sz else alloc_large os limit s sz) (need sz))
      by (unfold need; destruct (is_small sz) eqn:E; unfold is_small in E; [apply alloc_small_ok|apply alloc_large_ok]; auto; lia).
    all: fold (need sz); destruct G as [(s' & -> & Sm & W)|(m & s' & b & -> & I' & G' & B' & L' & R')]; cbn [obind].
    2, 4: right; exists (Some m), s'; rewrite G', (proj2 (Z.ltb_ge _ _) B');
      split; [reflexivity|]; split; [exact I'|]; split; [exact L'|]; split; [lia|discriminate].
    - right. exists None, s'. split; [reflexivity|]. split; [exact (same_inv _ _ _ Sm I)|].
      split; [unfold in_limit; destruct Sm as (_ & _ & _ & -> & _); auto|].
      split; [rewrite !arena_held; destruct Sm as (-> & -> & _); lia|].
      intros -> [H|H]; [lia|]. exfalso. destruct W as [W|W]; [discriminate W|].
      apply Exists_exists in H. destruct H as (x & Hx & H). rewrite Forall_forall in W. specialize (W x Hx). lia.
    - pose proof (same_inv _ _ _ Sm I) as I1.
      destruct ((limit =? 0) || (total s' <? limit)) eqn:El.
      + destruct (system_alloc_ok os s' (Z.max (need sz) chunk) HO (c_mem _ _ (proj1 I1))) as [->|(s2 & -> & M2 & Eb & Es & Et & R2 & X)].
        { destruct (Z.max_spec (need sz) chunk) as [[_ ->]|[_ ->]]; [exact HC|apply Hn]. }
        { lia. }
        { left. reflexivity. }
        cbn [obind].
        assert (I2 : inv s2 live).
        { destruct I1 as [C F]. split; [|intros p c nr avail fr; rewrite Eb; apply F].
          destruct C. constructor; unfold listed in *; rewrite ?Eb, ?Es; assumption. }
        destruct (IH s2 live I2) as [->|(r & s3 & -> & I3 & L3 & R3 & N3)]; [left; reflexivity|right].
        exists r, s3. split; [reflexivity|]. split; [exact I3|]. split; [|split].
        * intros L. apply L3. unfold in_limit in *. rewrite Et. destruct Sm as (_ & _ & _ & -> & _). exact L.
        * rewrite arena_held, Eb, R2 in R3. rewrite (arena_held s). destruct Sm as (<- & <- & _). lia.
        * intros Z0 _. apply N3; [exact Z0|]. right. eapply Exists_impl; [|exact X]. cbn. intros x Hx. lia.
      + right. exists None, s'. split; [reflexivity|]. split; [exact I1|].
        split; [unfold in_limit; destruct Sm as (_ & _ & _ & -> & _); auto|].
        split; [rewrite !arena_held; destruct Sm as (-> & -> & _); lia|]. intros ->. discriminate El.
  Qed.
End Get.
