(** Returning memory and changing its size. *)
From Coq Require Import Permutation.
From Verif Require Import Base Alloc AllocSpec AllocPages AllocInv AllocTop AllocGet.

Lemma in_drop m z mem live : In (m, z) (drop mem live) <-> In (m, z) live /\ m <> mem.
Proof. unfold drop. rewrite filter_In. cbn [fst]. rewrite negb_true_iff, Z.eqb_neq. reflexivity. Qed.

Lemma in_drop_fst m mem live : In m (map fst (drop mem live)) <-> In m (map fst live) /\ m <> mem.
Proof.
  rewrite !in_map_iff. split.
  - intros ([m' z] & E & H). cbn in E. subst m'. apply in_drop in H. destruct H as [H N]. split; [exists (m, z); auto|exact N].
  - intros [([m' z] & E & H) N]. cbn in E. subst m'. exists (m, z). split; [reflexivity|]. apply in_drop. auto.
Qed.

Lemma drop_notin mem live : ~ In mem (map fst live) -> drop mem live = live.
Proof.
  induction live as [|x l IH]; cbn; intros H; [reflexivity|]. destruct (fst x =? mem) eqn:E; [exfalso; apply H; left; lia|].
  cbn. f_equal. apply IH. tauto.
Qed.

Lemma nodup_drop mem live : NoDup (map fst live) -> NoDup (map fst (drop mem live)).
Proof.
  induction live as [|x l IH]; cbn; intros H; [constructor|]. apply NoDup_cons_iff in H. destruct H as [N H].
  destruct (fst x =? mem) eqn:E; cbn; [exact (IH H)|]. constructor; [|exact (IH H)].
  intros Hi. apply N. apply (in_drop_fst (fst x) mem l) in Hi. tauto.
Qed.

Lemma unlink_ok p l : In p l -> NoDup l -> exists l', unlink p l = Ok l' /\ NoDup l' /\ forall q, In q l' <-> In q l /\ q <> p.
Proof.
  induction l as [|x t IH]; intros H N; [contradiction|]. apply NoDup_cons_iff in N. destruct N as [Nx N]. cbn [unlink].
  destruct (x =? p) eqn:E.
  - apply Z.eqb_eq in E. subst x. exists t. split; [reflexivity|]. split; [exact N|]. intros q. cbn [In]. split.
    + intros Hq. split; [auto|]. intros ->. contradiction.
    + intros [[->|Hq] Nq]; [congruence|exact Hq].
  - apply Z.eqb_neq in E. destruct H as [H|H]; [congruence|]. destruct (IH H N) as (l' & El & Nl & I).
    destruct t as [|y t']; [contradiction|]. rewrite El. cbn [obind]. exists (x :: l'). split; [reflexivity|]. split.
    + constructor; [|exact Nl]. intros Hx. apply I in Hx. tauto.
    + intros q. cbn [In]. rewrite I. cbn [In]. split; [intros [->|H']; [auto|tauto]|tauto].
Qed.

Lemma wrap32_id x : 0 <= x < 2 ^ 31 -> wrap32 x = x.
Proof. intros H. unfold wrap32. rewrite Z.mod_small; lia. Qed.
Lemma uwrap64_id x : 0 <= x < 2 ^ 31 -> uwrap64 x = x.
Proof. intros H. unfold uwrap64. apply Z.mod_small. lia. Qed.

(** The other blocks do not notice. *)
Lemma other_block s live p b mem q b' : core s live -> In (p, b) (blocks s) -> holds p b mem -> In (q, b') (blocks s) -> q <> p ->
  block_ok (drop mem live) q b'.
Proof.
  intros C Hb Hh Hq N. pose proof (holds_block s p b mem live C Hb Hh) as Em.
  pose proof (c_blocks s live C q b' Hq) as B. destruct (block_pos s q b' (c_mem s live C) Hq) as [Dq _].
  destruct b' as [c1 n1 a1 f1|n1 mm1]; cbn in B |- *.
  - destruct B as (B1 & B2 & B3 & B4 & B5 & B6). do 5 (split; [assumption|]). intros y Hy.
    destruct (B6 y Hy) as [H|H]; [left; exact H|right]. apply in_drop_fst. split; [exact H|]. intros ->.
    destruct (in_sizes c1 B1) as (k & Hk). destruct (sizes_ok k c1 Hk) as (_ & Hc & _).
    pose proof (slot_bounds q c1 mem ltac:(lia) Hy). apply N. rewrite <- Em. symmetry. apply mem2block_ok; [exact Dq|unfold PAGE; lia].
  - destruct B as (B1 & B2 & B3). split; [exact B1|]. split; [exact B2|]. apply in_drop_fst. split; [exact B3|]. intros <-.
    apply N. rewrite <- Em. symmetry. apply mem2block_ok; [exact Dq|unfold PAGE; lia].
Qed.

(** A block goes, and with it the only object it held. *)
Lemma block_gone s s' live p b mem : inv s live -> In (p, b) (blocks s) -> holds p b mem ->
  (forall m, holds p b m -> In m (map fst live) -> m = mem) ->
  mem_ok s' -> blocks s' = del p (blocks s) -> length (lists s') = length sizes ->
  (forall k c, nth_error sizes k = Some c -> NoDup (nth k (lists s') [])
     /\ forall q, In q (nth k (lists s') []) <-> q <> p /\ exists nr avail m fr, In (q, Small c nr avail (m :: fr)) (blocks s)) ->
  inv s' (drop mem live).
Proof.
  intros [C F] Hb Hh Only M' Eb Ln Ls. split.
  - constructor; [exact M'|exact Ln| | | |apply nodup_drop, (c_nodup s live C)].
    + intros k c Hk. destruct (Ls k c Hk) as [ND IFF]. unfold listed. rewrite Eb. split; [exact ND|]. intros q. rewrite IFF. split.
      * intros (N & n1 & a1 & m1 & f1 & H). exists n1, a1, m1, f1. apply in_del. auto.
      * intros (n1 & a1 & m1 & f1 & H). apply in_del in H. destruct H as [H N]. split; [exact N|eauto 6].
    + intros q b' H. rewrite Eb in H. apply in_del in H. destruct H as [H N]. exact (other_block s live p b mem q b' C Hb Hh H N).
    + intros m z H. apply in_drop in H. destruct H as [H N]. destruct (c_live s live C m z H) as (q & bq & Hq & Hhq & Hz).
      exists q, bq. split; [|auto]. rewrite Eb. apply in_del. split; [exact Hq|]. intros ->.
      rewrite (get_unique p bq b (blocks s) (keys s (c_mem s live C)) Hq Hb) in Hhq. apply N. apply Only; [exact Hhq|eapply live_in; eauto].
  - intros q c1 n1 a1 f1 H Nq. rewrite Eb in H. apply in_del in H. apply (F q c1 n1 a1 f1 (proj1 H) Nq).
Qed.

Lemma free_ok s live mem : inv s live -> In mem (map fst live) ->
  exists s', mem_free s mem = Ok s' /\ inv s' (drop mem live) /\ total s' <= total s /\ arena s' = arena s.
Proof.
  intros I Hm. pose proof I as [C F]. pose proof (c_mem s live C) as M.
  apply in_map_iff in Hm. destruct Hm as ([m0 sz] & E & Hm). cbn in E. subst m0.
  destruct (c_live s live C mem sz Hm) as (p & b & Hb & Hh & _).
  pose proof (holds_block s p b mem live C Hb Hh) as Em. destruct (block_pos s p b M Hb) as [Dp Pp].
  pose proof (c_blocks s live C p b Hb) as B.
  destruct (del_ok s p b M Hb) as (A1 & U1 & A2 & U2 & N & T & K).
  unfold mem_free. rewrite Em, (get_in p b _ (keys s M) Hb).
  destruct b as [c nr avail fr|n mm]; cbn in Hh, B.
  - destruct B as (Hc & Hnr & Hav & Hnd & Hincl & Hall). destruct Hh as [Hs Hnf].
    destruct (in_sizes c Hc) as (k & Hk). destruct (sizes_ok k c Hk) as (Ek & Hc8 & _).
    pose proof (slot_bounds p c mem ltac:(lia) Hs) as Hmb.
    rewrite (proj2 (Z.eqb_neq mem 0)) by lia. cbn [block_size].
    rewrite (wrap32_id c), (uwrap64_id c) by lia. unfold is_small. rewrite (proj2 (Z.leb_le c MAX_SMALL)) by (unfold MAX_SMALL; lia).
    rewrite Ek, misaligned_ok by exact Dp.
    destruct (c_list s live C k c Hk) as [ND IFF].
    assert (Lk : (k < length (lists s))%nat) by (rewrite (c_len s live C); apply nth_error_Some; congruence).
    assert (Hle : (length (mem :: fr) <= length (slots p c))%nat).
    { apply NoDup_incl_length; [constructor; assumption|]. intros y [<-|Hy]; [exact Hs|exact (Hincl y Hy)]. }
    rewrite slots_length, <- Hnr in Hle. cbn [length] in Hle.
    assert (Hnr0 : 0 <= nr) by (rewrite Hnr; apply Z.div_pos; lia).
    set (s1 := if avail + 1 =? 1 then set_lists s (set_nth k (p :: nth k (lists s) []) (lists s)) else s).
    assert (S1 : mem_ok s1 /\ blocks s1 = blocks s /\ prim s1 = prim s /\ total s1 = total s /\ mmaps s1 = mmaps s
                 /\ length (lists s1) = length (lists s)
                 /\ (forall j, j <> k -> nth j (lists s1) [] = nth j (lists s) [])
                 /\ NoDup (nth k (lists s1) [])
                 /\ (forall q, In q (nth k (lists s1) []) <-> q = p \/ exists nr avail m fr, In (q, Small c nr avail (m :: fr)) (blocks s))).
    { unfold s1. destruct (avail + 1 =? 1) eqn:Ea.
      - assert (fr = []) by (destruct fr; [reflexivity|cbn [length] in Hav; lia]). subst fr.
        split; [apply set_lists_mem; exact M|]. do 4 (split; [reflexivity|]). cbn [lists set_lists].
        split; [apply set_nth_length|]. split; [intros j Hj; apply nth_set_nth_neq; exact Hj|].
        rewrite nth_set_nth by exact Lk. split.
        + constructor; [|exact ND]. intros H. apply IFF in H. destruct H as (n1 & a1 & m1 & f1 & H).
          pose proof (get_unique p _ _ _ (keys s M) H Hb). congruence.
        + intros q. cbn [In]. rewrite IFF. split; intros [H|H]; auto.
      - split; [exact M|]. do 4 (split; [reflexivity|]). split; [reflexivity|]. split; [reflexivity|]. split; [exact ND|].
        intros q. rewrite IFF. split; [auto|]. intros [->|H]; [|exact H].
        destruct fr as [|m1 f1]; [cbn [length] in Hav; lia|]. eauto 6. }
    destruct S1 as (M1 & Eb1 & Ep1 & Et1 & Emm1 & Ll1 & Ln1 & ND1 & IFF1). clearbody s1.
    rewrite (proj2 (Z.ltb_ge mem p)) by lia. rewrite (proj2 (Z.leb_gt (p + PAGE) mem)) by (unfold PAGE; lia). cbn [orb].
    replace (match fr with [] => false | m :: _ => m =? mem end) with false
      by (destruct fr as [|m1 f1]; [reflexivity|]; symmetry; apply Z.eqb_neq; intros ->; apply Hnf; left; reflexivity).
    rewrite (proj2 (Z.ltb_ge nr (avail + 1))) by lia.
    destruct (avail + 1 =? nr) eqn:Ear.
    + apply Z.eqb_eq in Ear.
      destruct (unlink_ok p (nth k (lists s1) [])) as (l' & -> & NDl & Il); [apply IFF1; left; reflexivity|exact ND1|].
      cbn [obind].
      set (s2 := set_blocks (set_lists s1 (set_nth k l' (lists s1))) (del p (blocks s1))).
      assert (Er : regions s2 = regions (set_blocks s (del p (blocks s)))).
      { unfold regions, s2. cbn [prim blocks set_blocks set_lists]. rewrite Ep1, Eb1. reflexivity. }
      destruct (primitive_free_ok s2 p PAGE false) as (s3 & -> & M3 & Eb3 & El3 & R3).
      * exact A1.
      * exact U1.
      * rewrite Er. exact A2.
      * rewrite Er. exact U2.
      * rewrite Er. exact N.
      * unfold s2. cbn [prim set_blocks set_lists]. rewrite Ep1. apply (m_chain s M).
      * unfold s2. cbn [total blocks set_blocks set_lists]. rewrite Et1, Eb1. exact T.
      * unfold s2. cbn [mmaps blocks set_blocks set_lists]. rewrite Emm1, Eb1. exact K.
      * exists s3. split; [reflexivity|].
        assert (Eb4 : blocks s3 = del p (blocks s)) by (rewrite Eb3; unfold s2; cbn [blocks set_blocks]; rewrite Eb1; reflexivity).
        split; [|split; [rewrite (m_total s3 M3), Eb4, T; unfold extent at 2; cbn [fst snd]; lia|]].
        2: { rewrite !arena_held, R3, Eb4, (held_del s p _ M Hb). unfold s2. cbn [prim set_blocks set_lists]. rewrite Ep1.
             unfold shared, extent, PAGE. cbn [fst snd]. lia. }
        eapply (block_gone s s3 live p (Small c nr avail fr) mem I Hb).
        -- split; assumption.
        -- intros m [H1 H2] _. assert (Hin : incl (slots p c) (mem :: fr)).
           { apply NoDup_length_incl; [constructor; assumption| |].
             - rewrite slots_length, <- Hnr. cbn [length]. lia.
             - intros y [<-|Hy]; [exact Hs|exact (Hincl y Hy)]. }
           destruct (Hin m H1) as [->|H]; [reflexivity|contradiction].
        -- exact M3.
        -- exact Eb4.
        -- rewrite El3. unfold s2. cbn [lists set_blocks set_lists]. rewrite set_nth_length, Ll1. apply (c_len s live C).
        -- intros k' c' Hk'. rewrite El3. unfold s2. cbn [lists set_blocks set_lists].
           destruct (Nat.eq_dec k' k) as [->|Nk].
           ++ assert (c' = c) by congruence. subst c'. rewrite nth_set_nth by (rewrite Ll1; exact Lk). split; [exact NDl|].
              intros q. rewrite Il, IFF1. tauto.
           ++ rewrite nth_set_nth_neq, Ln1 by exact Nk. destruct (c_list s live C k' c' Hk') as [ND' IFF']. split; [exact ND'|].
              intros q. rewrite IFF'. split; [|tauto]. intros (n1 & a1 & m1 & f1 & H). split; [|eauto 6]. intros ->.
              pose proof (get_unique p _ _ _ (keys s M) H Hb) as E. apply Nk. assert (c' = c) by congruence. subst c'.
              eapply sizes_inj; eauto.
    + apply Z.eqb_neq in Ear. rewrite Eb1.
      set (b' := Small c nr (avail + 1) (mem :: fr)). eexists. split; [reflexivity|].
      assert (M2 : mem_ok (set_blocks s1 (put p b' (blocks s)))).
      { rewrite <- Eb1. apply (put_same s1 p (Small c nr avail fr) b' M1); [rewrite Eb1; exact Hb|reflexivity|reflexivity]. }
      split; [|split; [cbn [total set_blocks]; lia|]].
      2: { rewrite !arena_held, (held_del s p _ M Hb). cbn [prim blocks set_blocks]. rewrite Ep1. unfold put. rewrite held_cons. reflexivity. }
      split.
      * constructor; cbn [lists blocks set_blocks].
        -- exact M2.
        -- rewrite Ll1. apply (c_len s live C).
        -- intros k' c' Hk'. unfold listed. cbn [lists blocks set_blocks]. destruct (Nat.eq_dec k' k) as [->|Nk].
           ++ assert (c' = c) by congruence. subst c'. split; [exact ND1|]. intros q. rewrite IFF1. split.
              ** intros [->|(n1 & a1 & m1 & f1 & H)].
                 --- unfold b'. do 4 eexists. apply in_put. left. split; reflexivity.
                 --- destruct (Z.eq_dec q p) as [->|Nq].
                     +++ unfold b'. do 4 eexists. apply in_put. left. split; reflexivity.
                     +++ exists n1, a1, m1, f1. apply in_put. auto.
              ** intros (n1 & a1 & m1 & f1 & H). apply in_put in H. destruct H as [[-> _]|[H _]]; [left; reflexivity|right; eauto 6].
           ++ rewrite Ln1 by exact Nk. destruct (c_list s live C k' c' Hk') as [ND' IFF']. split; [exact ND'|].
              assert (Nc : c' <> c) by (intros ->; apply Nk; eapply sizes_inj; eauto).
              intros q. rewrite IFF'. split; intros (n1 & a1 & m1 & f1 & H); exists n1, a1, m1, f1.
              ** apply in_put. right. split; [exact H|]. intros ->. pose proof (get_unique p _ _ _ (keys s M) H Hb). congruence.
              ** apply in_put in H. destruct H as [[_ E]|[H _]]; [unfold b' in E; congruence|exact H].
        -- intros q bq H. apply in_put in H. destruct H as [[-> ->]|[H Nq]].
           ++ unfold block_ok, b'. split; [exact Hc|]. split; [exact Hnr|]. split; [cbn [length]; lia|].
              split; [constructor; assumption|]. split; [intros y [<-|Hy]; [exact Hs|exact (Hincl y Hy)]|].
              intros y Hy. destruct (Z.eq_dec y mem) as [->|Ny]; [left; left; reflexivity|].
              destruct (Hall y Hy) as [H|H]; [left; right; exact H|right; apply in_drop_fst; auto].
           ++ exact (other_block s live p _ mem q bq C Hb (conj Hs Hnf) H Nq).
        -- intros m z H. apply in_drop in H. destruct H as [H Nm]. destruct (c_live s live C m z H) as (q & bq & Hq & Hhq & Hz).
           destruct (Z.eq_dec q p) as [->|Nq].
           ++ rewrite (get_unique p bq _ _ (keys s M) Hq Hb) in *. exists p, b'. split; [apply in_put; auto|].
              cbn in Hhq, Hz |- *. split; [|exact Hz]. split; [apply Hhq|]. intros [E|E]; [congruence|tauto].
           ++ exists q, bq. split; [apply in_put; auto|auto].
        -- apply nodup_drop, (c_nodup s live C).
      * intros q c1 n1 a1 f1 H Nq. cbn [blocks set_blocks] in H. apply in_put in H. destruct H as [[-> E]|[H _]]; [|exact (F q c1 n1 a1 f1 H Nq)].
        assert (a1 = avail + 1) by (unfold b' in E; congruence). assert (n1 = nr) by (unfold b' in E; congruence). lia.
  - destruct B as (Hn1 & Hn2 & Hl). subst mem. rewrite (proj2 (Z.eqb_neq (p + 16) 0)) by lia.
    cbn [block_size]. rewrite (wrap32_id n), (uwrap64_id n) by lia. unfold is_small.
    rewrite (proj2 (Z.leb_gt n MAX_SMALL)) by (unfold MAX_SMALL; lia).
    assert (Dn : (PAGE | n + LARGE_HEADER)) by apply A1.
    rewrite round_page_id by exact Dn. rewrite wrap32_id, uwrap64_id by (unfold LARGE_HEADER; lia).
    set (s2 := set_blocks (set_mmaps s (mmaps s - (if mm then 1 else 0)))
                       (del p (blocks (set_mmaps s (mmaps s - (if mm then 1 else 0)))))).
    destruct (primitive_free_ok s2 p (n + LARGE_HEADER) mm) as (s3 & -> & M3 & Eb3 & El3 & R3).
    + exact A1.
    + exact U1.
    + exact A2.
    + exact U2.
    + exact N.
    + apply (m_chain s M).
    + exact T.
    + unfold s2. cbn [mmaps blocks set_blocks set_mmaps]. rewrite K. cbn [mm_of]. destruct mm; lia.
    + exists s3. split; [reflexivity|]. split; [|split].
      * eapply (block_gone s s3 live p (Large n mm) (p + 16) I Hb).
        -- reflexivity.
        -- intros m H _. exact H.
        -- exact M3.
        -- exact Eb3.
        -- rewrite El3. apply (c_len s live C).
        -- intros k c Hk. rewrite El3. destruct (c_list s live C k c Hk) as [ND IFF]. cbn [lists s2 set_blocks set_mmaps].
           split; [exact ND|]. intros q. rewrite IFF. split; [|tauto]. intros (n1 & a1 & m1 & f1 & H). split; [|eauto 6].
           intros ->. pose proof (get_unique p _ _ _ (keys s M) H Hb). congruence.
      * rewrite (m_total s3 M3), Eb3, T. unfold s2. cbn [blocks set_blocks set_mmaps].
        unfold extent at 2. cbn [fst snd]. lia.
      * rewrite !arena_held, R3, Eb3, (held_del s p _ M Hb). unfold s2. cbn [prim blocks set_blocks set_mmaps].
        unfold shared, extent, LARGE_HEADER. cbn [fst snd]. destruct mm; lia.
Qed.

(** ** A change of size *)
Lemma resize_ok s live mem sz b : inv s live -> In mem (map fst live) -> get (mem2block mem) (blocks s) = Some b ->
  0 <= sz <= block_size b -> inv s ((mem, sz) :: drop mem live).
Proof.
  intros [C F] Hm G Hsz. pose proof (c_mem s live C) as M.
  assert (Hfst : forall m, In m (map fst live) -> In m (map fst ((mem, sz) :: drop mem live))).
  { intros m H. cbn [map fst In]. destruct (Z.eq_dec mem m); [auto|right; apply in_drop_fst; auto]. }
  split; [|exact F]. destruct C. constructor; try assumption.
  - intros p b' H. specialize (c_blocks p b' H). destruct b' as [c nr avail fr|n mm]; cbn [block_ok] in *.
    + destruct c_blocks as (B1 & B2 & B3 & B4 & B5 & B6). do 5 (split; [assumption|]). intros y Hy. destruct (B6 y Hy); auto.
    + destruct c_blocks as (B1 & B2 & B3). auto.
  - intros m z [E|H].
    + assert (m = mem) by congruence. assert (z = sz) by congruence. subst m z.
      apply in_map_iff in Hm. destruct Hm as ([m0 z0] & E0 & Hm). cbn in E0. subst m0.
      destruct (c_live mem z0 Hm) as (p & b' & Hb & Hh & _). exists p, b'. split; [exact Hb|]. split; [exact Hh|].
      assert (Em : mem2block mem = p).
      { apply (holds_block s p b' mem live); [constructor; assumption|exact Hb|exact Hh]. }
      rewrite Em, (get_in p b' _ (keys s M) Hb) in G. assert (b' = b) by congruence. subst b'. exact Hsz.
    + apply in_drop in H. apply c_live. apply H.
  - cbn [map fst]. constructor; [|apply nodup_drop; assumption]. intros H. apply in_drop_fst in H. tauto.
Qed.

(** The end of a large block is given back. *)
Lemma shrink_ok s live p n mm j : inv s live -> In (p, Large n mm) (blocks s) -> 0 < j -> 0 <= n - j * PAGE ->
  (forall z, In (p + 16, z) live -> z <= n - j * PAGE) ->
  let s1 := set_blocks s (put p (Large (n - j * PAGE) mm) (blocks s)) in
  exists s', primitive_free s1 (p + LARGE_HEADER + (n - j * PAGE)) (j * PAGE) mm = Ok s' /\ inv s' live /\ total s' <= total s
    /\ arena s' = arena s.
Proof.
  intros I Hb Hj Hn Hz s1. pose proof I as [C F]. pose proof (c_mem s live C) as M.
  destruct (del_ok s p _ M Hb) as (A1 & U1 & A2 & U2 & N & T & K).
  pose proof (c_blocks s live C p _ Hb) as (B1 & B2 & B3).
  destruct A1 as (Dp & Dn & Pp & _). unfold extent in Dn, Dp, Pp. cbn [fst snd] in Dn, Dp, Pp.
  set (n' := n - j * PAGE) in *.
  assert (Dn' : (PAGE | n' + 16)).
  { destruct Dn as (q & Hq). exists (q - j). unfold n'. lia. }
  assert (Hn' : 4048 < n').
  { destruct Dn' as (q & Hq). unfold PAGE in Hq. lia. }
  assert (A3 : aligned (p, n' + 16)) by (repeat split; cbn [fst snd]; auto; lia).
  assert (A4 : aligned (p + (n' + 16), j * PAGE)).
  { repeat split; cbn [fst snd]; [apply Z.divide_add_r; assumption|exists j; reflexivity|lia|unfold PAGE; lia]. }
  assert (Ej : extent (p, Large n mm) = (p, n' + 16 + j * PAGE)) by (unfold extent, n'; cbn [fst snd]; f_equal; lia).
  rewrite Ej in *. rewrite pages_join in N by assumption.
  unfold under in U1. cbn [fst snd] in U1. cbn [snd] in T.
  replace (p + LARGE_HEADER + n') with (p + (n' + 16)) by (unfold LARGE_HEADER; lia).
  unfold regions in A2, U2, N. cbn [prim blocks set_blocks] in A2, U2, N. apply Forall_app in A2, U2. rewrite PL_app in N.
  assert (HP : 0 < j * PAGE) by (unfold PAGE; lia).
  destruct (primitive_free_ok s1 (p + (n' + 16)) (j * PAGE) mm A4) as (s' & -> & M' & Eb & El & R').
  - unfold under. cbn [fst snd]. lia.
  - unfold regions, s1, put. cbn [prim blocks set_blocks map]. apply Forall_app. split; [apply A2|]. constructor; [exact A3|apply A2].
  - unfold regions, s1, put. cbn [prim blocks set_blocks map]. apply Forall_app. split; [apply U2|].
    constructor; [|apply U2]. unfold under, extent. cbn [fst snd]. lia.
  - unfold regions, s1, put. cbn [prim blocks set_blocks map]. rewrite PL_app, PL_cons.
    change (extent (p, Large n' mm)) with (p, n' + 16).
    eapply Permutation_NoDup; [|exact N]. rewrite <- app_assoc. rewrite Permutation_app_swap_app.
    apply Permutation_app_head. apply Permutation_app_swap_app.
  - apply (m_chain s M).
  - unfold s1, put. cbn [total blocks set_blocks map sum]. rewrite T. unfold extent at 2. cbn [fst snd]. lia.
  - unfold s1, put. cbn [mmaps blocks set_blocks count snd mm_of]. exact K.
  - exists s'. split; [reflexivity|].
    assert (Eb' : blocks s' = put p (Large n' mm) (blocks s)) by exact Eb.
    assert (El' : lists s' = lists s) by exact El.
    split; [split|split].
    + constructor; [exact M'|rewrite El'; apply (c_len s live C)| | | |apply (c_nodup s live C)].
      * intros k c Hk. destruct (c_list s live C k c Hk) as [ND IFF]. unfold listed. rewrite El', Eb'. split; [exact ND|].
        intros q. rewrite IFF. split; intros (n1 & a1 & m1 & f1 & H); exists n1, a1, m1, f1.
        -- apply in_put. right. split; [exact H|]. intros ->. pose proof (get_unique p _ _ _ (keys s M) H Hb). congruence.
        -- apply in_put in H. destruct H as [[_ E]|[H _]]; [congruence|exact H].
      * intros q bq H. rewrite Eb' in H. apply in_put in H. destruct H as [[-> ->]|[H _]]; [|exact (c_blocks s live C q bq H)].
        split; [exact Hn'|]. split; [|exact B3]. unfold n' in *. lia.
      * intros m z H. destruct (c_live s live C m z H) as (q & bq & Hq & Hh & Hzb).
        destruct (Z.eq_dec q p) as [->|Nq].
        -- rewrite (get_unique p bq _ _ (keys s M) Hq Hb) in *. cbn in Hh. subst m.
           exists p, (Large n' mm). rewrite Eb'. split; [apply in_put; auto|]. split; [reflexivity|]. cbn [block_size]. specialize (Hz z H). lia.
        -- exists q, bq. rewrite Eb'. split; [apply in_put; auto|auto].
    + intros q c1 n1 a1 f1 H Nq. rewrite Eb' in H. apply in_put in H. destruct H as [[_ E]|[H _]]; [congruence|exact (F q c1 n1 a1 f1 H Nq)].
    + rewrite (m_total s' M'), Eb'. unfold put. cbn [map sum]. unfold extent at 1. cbn [fst snd]. rewrite T. lia.
    + rewrite !arena_held, R', Eb', (held_del s p _ M Hb). unfold put. rewrite held_cons. unfold s1. cbn [prim set_blocks].
      rewrite Ej. unfold shared. cbn [snd]. unfold extent. cbn [fst snd]. destruct mm; lia.
Qed.

Section Change.
  Context (os : nat -> st -> Z -> option Z) (chunk limit : Z) (HO : honest os) (HC : (4096 | chunk)).

  Lemma pos_live s live : inv s live -> Forall (fun x => 0 < fst x /\ (8 | fst x)) live.
  Proof.
    intros [C F]. apply Forall_forall. intros [m z] H. cbn [fst]. destruct (c_live s live C m z H) as (p & b & Hb & Hh & _).
    destruct (block_pos s p b (c_mem s live C) Hb) as [(q & Dp) Pp]. pose proof (c_blocks s live C p b Hb) as B.
    destruct b as [c nr avail fr|n mm]; cbn in Hh, B.
    - destruct B as (Hc & _). destruct (in_sizes c Hc) as (k & Hk). destruct (sizes_ok k c Hk) as (_ & Hc8 & (r & D8)).
      pose proof (slot_bounds p c m ltac:(lia) (proj1 Hh)). split; [lia|].
      destruct Hh as [Hh _]. apply in_slots in Hh; [|lia]. destruct Hh as (i & _ & ->). exists (q * 512 + 6 + i * r).
      unfold PAGE in Dp. rewrite Dp, D8. ring.
    - subst m. split; [lia|]. exists (q * 512 + 2). unfold PAGE in Dp. lia.
  Qed.

  Lemma zero_live s live : inv s live -> ~ In 0 (map fst live).
  Proof.
    intros I H. pose proof (pos_live s live I) as P. apply in_map_iff in H. destruct H as ([m z] & E & H). cbn in E. subst m.
    rewrite Forall_forall in P. destruct (P _ H). cbn in *. lia.
  Qed.

  (** _gst_mem_realloc: undefined only for lack of memory. *)
  Lemma realloc_ok s live mem sz : inv s live -> mem = 0 \/ In mem (map fst live) -> 0 <= sz <= LARGEST ->
    mem_realloc os chunk limit s mem sz = Err
    \/ (limit <> 0 /\ mem_realloc os chunk limit s mem sz = UB)
    \/ exists r s', mem_realloc os chunk limit s mem sz = Ok (r, s') /\ inv s' (gain r sz (drop mem live))
         /\ (in_limit limit s -> in_limit limit s') /\ arena s <= arena s'
         /\ (limit = 0 -> r = None -> mem <> 0 /\ sz = 0).
  Proof.
    intros I Hm Hsz. unfold mem_realloc.
    destruct (mem =? 0) eqn:E0.
    { apply Z.eqb_eq in E0. subst mem. rewrite (drop_notin 0 live (zero_live s live I)).
      unfold mem_alloc. destruct (attempt_ok os chunk limit HO HC sz 2 Hsz s live I) as [->|(r & s' & -> & I' & L & R & Nn)]; [auto|].
      right. right. exists r, s'. split; [reflexivity|]. split; [exact I'|]. split; [exact L|]. split; [exact R|].
      intros Z0 E. exfalso. apply (Nn Z0); [left; lia|exact E]. }
    apply Z.eqb_neq in E0. destruct Hm as [Hm|Hm]; [congruence|].
    destruct (sz =? 0) eqn:E1.
    { destruct (free_ok s live mem I Hm) as (s' & -> & I' & T' & R'). cbn [obind]. right. right. exists None, s'.
      split; [reflexivity|]. split; [exact I'|]. split; [unfold in_limit; lia|]. split; [lia|]. intros _ _. lia. }
    apply Z.eqb_neq in E1.
    pose proof I as [C F]. pose proof (c_mem s live C) as M.
    pose proof Hm as Hm'. apply in_map_iff in Hm'. destruct Hm' as ([m0 z] & E & Hmz). cbn in E. subst m0.
    destruct (c_live s live C mem z Hmz) as (p & b & Hb & Hh & Hz).
    pose proof (holds_block s p b mem live C Hb Hh) as Em. rewrite Em.
    pose proof (get_in p b _ (keys s M) Hb) as G. rewrite G.
    destruct (block_size b <? sz) eqn:E2.
    { unfold mem_alloc. destruct (attempt_ok os chunk limit HO HC sz 2 Hsz s live I) as [->|(r & s' & -> & I' & L & R & Nn)]; [auto|]. cbn [obind].
      destruct r as [m|].
      - cbn [gain] in I'. destruct (free_ok s' _ mem I') as (s2 & -> & I2 & T2 & R2); [right; exact Hm|]. cbn [obind].
        right. right. exists (Some m), s2. split; [reflexivity|]. split.
        + cbn [gain]. replace ((m, sz) :: drop mem live) with (drop mem ((m, sz) :: live)); [exact I2|].
          unfold drop. cbn [filter fst]. destruct (m =? mem) eqn:Ex; [|reflexivity]. exfalso. apply Z.eqb_eq in Ex. subst m.
          pose proof (c_nodup _ _ (proj1 I')) as ND. cbn [map fst] in ND. apply NoDup_cons_iff in ND. tauto.
        + split; [|split; [lia|discriminate]]. unfold in_limit in *. intros L1 L2. specialize (L L1 L2). lia.
      - right. left. split; [|reflexivity]. intros Z0. apply (Nn Z0); [left; lia|reflexivity]. }
    pose proof (resize_ok s live mem sz b I Hm ltac:(rewrite Em; exact G) ltac:(lia)) as I1.
    destruct (is_small (block_size b)) eqn:E3.
    { right. right. exists (Some mem), s. split; [reflexivity|]. split; [exact I1|]. split; [auto|]. split; [lia|discriminate]. }
    unfold is_small, MAX_SMALL in E3. pose proof (c_blocks s live C p b Hb) as B. destruct b as [c nr avail fr|n mm].
    { exfalso. destruct B as (Hc & _). destruct (in_sizes c Hc) as (k & Hk). destruct (sizes_ok k c Hk) as (_ & Hc8 & _).
      cbn [block_size] in *. lia. }
    cbn [block_size] in *. cbn in Hh. subst mem.
    destruct ((n - sz) / PAGE =? 0) eqn:E4.
    { right. right. exists (Some (p + 16)), s. split; [reflexivity|]. split; [exact I1|]. split; [auto|]. split; [lia|discriminate]. }
    apply Z.eqb_neq in E4. set (j := (n - sz) / PAGE) in *.
    assert (Hj : 0 < j) by (assert (0 <= j) by (apply Z.div_pos; unfold PAGE; lia); lia).
    assert (Hjn : j * PAGE <= n - sz).
    { unfold j. rewrite Z.mul_comm. apply Z.mul_div_le. reflexivity. }
    destruct (shrink_ok s _ p n mm j I1 Hb Hj) as (s' & Es & I' & T' & R').
    - lia.
    - intros z' [Ez|Hz']; [|exfalso; apply in_drop in Hz'; tauto]. assert (z' = sz) by congruence. lia.
    - cbv zeta in Es. rewrite Es. cbn [obind]. right. right. exists (Some (p + 16)), s'. split; [reflexivity|].
      split; [exact I'|]. split; [unfold in_limit; lia|]. split; [lia|discriminate].
  Qed.

  (** One step of a client *)
  Lemma step_ok s live o : inv s live -> allowed live o ->
    step os chunk limit s live o = Err
    \/ (limit <> 0 /\ (exists mem sz, o = ORealloc mem sz) /\ step os chunk limit s live o = UB)
    \/ exists s' live', step os chunk limit s live o = Ok (s', live') /\ inv s' live' /\ (in_limit limit s -> in_limit limit s') /\ arena s <= arena s'.
  Proof.
    intros I A. destruct o as [sz|mem|mem sz]; cbn [allowed step] in *.
    - unfold mem_alloc. destruct (attempt_ok os chunk limit HO HC sz 2 A s live I) as [->|(r & s' & -> & I' & L & R & _)]; [auto|].
      right. right. cbn [obind fst snd]. do 2 eexists. split; [reflexivity|]. auto.
    - destruct A as [->|A].
      + right. right. exists s, live. unfold mem_free. cbn [Z.eqb obind]. rewrite (drop_notin 0 live (zero_live s live I)).
        split; [reflexivity|]. split; [exact I|]. split; [auto|lia].
      + destruct (free_ok s live mem I A) as (s' & -> & I' & T' & R'). right. right. cbn [obind]. exists s', (drop mem live).
        split; [reflexivity|]. split; [exact I'|]. split; [unfold in_limit; lia|lia].
    - destruct A as [A1 A2]. destruct (realloc_ok s live mem sz I A1 A2) as [->|[[H ->]|(r & s' & -> & I' & L & R & _)]]; [auto| |].
      + right. left. split; [exact H|]. split; [eauto|reflexivity].
      + right. right. cbn [obind fst snd]. do 2 eexists. split; [reflexivity|]. auto.
  Qed.

  Lemma run_inv s live ops s' live' : run os chunk limit s live ops s' live' -> inv s live ->
    inv s' live' /\ (in_limit limit s -> in_limit limit s') /\ arena s <= arena s'.
  Proof.
    induction 1 as [s live|s live o s1 live1 ops s' live' A E R IH]; intros I; [split; [exact I|split; [auto|lia]]|].
    destruct (step_ok s live o I A) as [H|[(_ & _ & H)|(s2 & live2 & H & I2 & L & R2)]]; try congruence.
    rewrite H in E. inversion E; subst. destruct (IH I2) as (I3 & L3 & R3). split; [exact I3|]. split; [auto|lia].
  Qed.

  Lemma init_inv : inv init [].
  Proof.
    split.
    - constructor.
      + constructor; cbn; try constructor.
      + reflexivity.
      + intros k c Hk. unfold listed. cbn [init lists blocks].
        assert (E : nth k (map (fun _ : Z => @nil Z) sizes) [] = []).
        { clear Hk. generalize sizes as l. revert k. intros k l. revert k. induction l as [|a l IH]; intros [|k]; cbn; auto. }
        rewrite E. split; [constructor|]. intros p. split; [contradiction|]. intros (? & ? & ? & ? & []).
      + intros p b [].
      + intros m z [].
      + constructor.
    - intros p c nr avail fr [].
  Qed.

  (** Two objects do not overlap. *)
  Lemma apart s live m z m' z' : inv s live -> In (m, z) live -> In (m', z') live -> m <> m' -> separate (m, z) (m', z').
  Proof.
    intros [C F] H H' N. pose proof (c_mem s live C) as M.
    destruct (c_live s live C m z H) as (p & b & Hb & Hh & Hz). destruct (c_live s live C m' z' H') as (p' & b' & Hb' & Hh' & Hz').
    assert (In_ext : forall q bq mq zq, In (q, bq) (blocks s) -> holds q bq mq -> 0 <= zq <= block_size bq ->
      q <= mq /\ mq + zq <= q + snd (extent (q, bq))).
    { clear - C. intros q bq mq zq. intros Hq Hh Hz. pose proof (c_blocks s live C q bq Hq) as B.
      destruct bq as [c nr avail fr|n mm]; cbn in Hh, Hz, B |- *; [|lia].
      destruct B as (Hc & _). destruct (in_sizes c Hc) as (k & Hk). destruct (sizes_ok k c Hk) as (_ & Hc8 & _).
      pose proof (slot_bounds q c mq ltac:(lia) (proj1 Hh)). lia. }
    pose proof (In_ext p b m z Hb Hh Hz) as X. pose proof (In_ext p' b' m' z' Hb' Hh' Hz') as X'.
    unfold separate. cbn [fst snd].
    destruct (Z.eq_dec p p') as [Ep|Np].
    - subst p'. rewrite (get_unique p b' b _ (keys s M) Hb' Hb) in *. destruct b as [c nr avail fr|n mm]; cbn in Hh, Hh', Hz, Hz'; [|congruence].
      pose proof (c_blocks s live C p _ Hb) as (Hc & _). destruct (in_sizes c Hc) as (k & Hk). destruct (sizes_ok k c Hk) as (_ & Hc8 & _).
      pose proof (slots_apart p c m m' ltac:(lia) (proj1 Hh) (proj1 Hh') N). lia.
    - destruct (del_ok s p b M Hb) as (A1 & U1 & A2 & U2 & Nd & T & K).
      pose proof (NoDup_PL_separate _ _ A1 A2 Nd) as S. rewrite Forall_forall in S.
      specialize (S (extent (p', b'))). unfold separate in S.
      destruct S as [S|S].
      + unfold regions. cbn [prim blocks set_blocks]. apply in_or_app. right. apply in_map. apply in_del. auto.
      + change (fst (extent (p, b))) with p in S. change (fst (extent (p', b'))) with p' in S. lia.
      + change (fst (extent (p, b))) with p in S. change (fst (extent (p', b'))) with p' in S. lia.
  Qed.

  Lemma inv_sound s live : inv s live -> sound live.
  Proof.
    intros I. split; [|split; [exact (c_nodup _ _ (proj1 I))|exact (pos_live s live I)]].
    pose proof (c_nodup _ _ (proj1 I)) as N. pose proof (apart s live) as A. specialize (fun m z m' z' => A m z m' z' I).
    clear I. induction live as [|[m z] l IH]; [constructor|]. cbn [map fst] in N. apply NoDup_cons_iff in N. destruct N as [N1 N2].
    constructor.
    - apply Forall_forall. intros [m' z'] H. apply A; [left; reflexivity|right; exact H|]. intros ->. apply N1. eapply live_in; eauto.
    - apply IH; [exact N2|]. intros m1 z1 m2 z2 H1 H2. apply A; right; assumption.
  Qed.

  (** All has been returned. *)
  Lemma inv_nil s : inv s [] -> blocks s = [] /\ total s = 0 /\ mmaps s = 0 /\ coalesced (prim s) /\ lists s = map (fun _ => []) sizes.
  Proof.
    intros [C F]. pose proof (c_mem s [] C) as M.
    assert (Eb : blocks s = []).
    { destruct (blocks s) as [|[p b] l] eqn:E; [reflexivity|]. exfalso.
      assert (Hb : In (p, b) (blocks s)) by (rewrite E; left; reflexivity).
      pose proof (c_blocks s [] C p b Hb) as B. destruct b as [c nr avail fr|n mm]; [|cbn in B; tauto].
      destruct B as (Hc & Hnr & Hav & Hnd & Hincl & Hall).
      destruct (block_pos s p _ M Hb) as [_ Pp]. pose proof (F p c nr avail fr Hb ltac:(lia)) as L.
      assert (Hin : incl (slots p c) fr) by (intros y Hy; destruct (Hall y Hy) as [H|[]]; exact H).
      destruct (in_sizes c Hc) as (k & Hk). destruct (sizes_ok k c Hk) as (_ & Hc8 & _).
      pose proof (NoDup_incl_length (slots_nodup p c ltac:(lia)) Hin) as H. rewrite slots_length, <- Hnr in H. lia. }
    split; [exact Eb|]. split; [rewrite (m_total s M), Eb; reflexivity|]. split; [rewrite (m_mmaps s M), Eb; reflexivity|].
    split; [apply (m_chain s M)|].
    assert (L : forall k, (k < length sizes)%nat -> nth k (lists s) [] = []).
    { intros k Hk. destruct (nth_error sizes k) as [c|] eqn:E; [|apply nth_error_None in E; lia].
      destruct (c_list s [] C k c E) as [_ IFF]. destruct (nth k (lists s) []) as [|q l]; [reflexivity|]. exfalso.
      destruct (proj1 (IFF q)) as (? & ? & ? & ? & H); [left; reflexivity|]. rewrite Eb in H. contradiction. }
    pose proof (c_len s [] C) as Ln. clear - L Ln. revert L Ln. generalize sizes as z. generalize (lists s) as l.
    induction l as [|a l IH]; intros [|y z] L Ln; try discriminate Ln; [reflexivity|]. cbn [map]. f_equal.
    - exact (L O ltac:(cbn; lia)).
    - apply IH; [|cbn in Ln; lia]. intros k Hk. apply (L (S k)). cbn. lia.
  Qed.
End Change.
