(** The loop of rb_erase_rebalance on trees laid out in memory. *)
From Coq Require Import ZArith List Bool Lia Permutation ZifyBool.
From Verif Require Import Base RbTree RbHeap RbBal.
Import ListNotations.
Local Open Scope Z_scope.

(** the final child and the final state: blackening the child repairs the
    tree; not code *)
Definition post (L : list (Z * Z * Z)) (cs : Z * state) : Prop :=
  exists z' t', fst cs = rt t' /\ R (snd cs) (plug z' t') /\
    flat (plug z' t') = L /\ good (plug z' (blacken t')).

Lemma stop_red fuel s z t n p : R s (plug z t) -> isr t = true -> rb (blacken t) n -> cok z n ->
  ok (eraseLoop (S fuel) (rt t) p s) (post (flat (plug z t))).
Proof.
  intros HR Hr Hb Hc. cbn [eraseLoop]. rewrite (R_isr _ _ _ HR), Hr. cbn [obind orb].
  apply ok_ret. exists z, t. split; [easy|]. split; [easy|]. split; [easy|].
  apply good_plug with n; [easy|easy|left; apply isr_blacken].
Qed.

Lemma stop_root fuel s t n p : R s t -> rb t n ->
  ok (eraseLoop (S fuel) (rt t) p s) (post (flat t)).
Proof.
  intros HR Hb. cbn [eraseLoop]. rewrite (R_isr s [] t HR). cbn [obind].
  assert (Hr : root s = rt t) by now destruct HR. rewrite Hr, Z.eqb_refl, orb_true_r.
  apply ok_ret. exists [], t. split; [easy|]. split; [easy|]. split; [easy|].
  split; [apply isr_blacken|]. cbn. now apply rb_blacken with n.
Qed.

Lemma R_sib_ne s z c a k u l r : R s (plug z (T c a k u l r)) -> l <> E -> rt l <> rt r.
Proof.
  intros H Hl. destruct r as [|cr ar kr ur rl rr].
  - destruct l as [|cl al kl ul ll lr]; [easy|].
    now destruct (R_get s (FL c a k u E :: z) cl al kl ul ll lr H).
  - now apply (R_left_ne _ _ _ _ _ _ _ _ H).
Qed.

(** *** the hole is the left child *)
Section SideL.
Local Notation M c a k u x y := (T c a k u x y).

(** the end of the loop's body, lib-src/rbtrees.c:180-184 *)
Definition finL (parent other : Z) (s : state) : outcome (Z * state) :=
  olet np := get (heap s) parent in
  olet s := color other (red np) s in
  olet s := color parent false s in
  olet no := get (heap s) other in
  olet s := blackIf (rgt no) s in
  olet s := rotateLeft parent s in
  Ok (root s, s).

(** the body of the loop once the sibling is black, lib-src/rbtrees.c:161-187 *)
Definition tailL (fuel : nat) (parent other : Z) (s : state) : outcome (Z * state) :=
  olet no := get (heap s) other in
  olet rl := isRed (heap s) (lft no) in
  olet rr := isRed (heap s) (rgt no) in
  if negb rl && negb rr then
    olet s := color other true s in
    olet np := get (heap s) parent in
    eraseLoop fuel parent (par np) s
  else
    olet os := (if negb rr then
                  olet s := blackIf (lft no) s in
                  olet s := color other true s in
                  olet s := rotateRight other s in
                  olet np := get (heap s) parent in
                  Ok (rgt np, s)
                else Ok (other, s)) in
    let '(other, s) := os in
    finL parent other s.

Lemma finL_ok s z c p kp up t co o ko uo ol cb b kb ub bl br n :
  R s (plug z (M c p kp up t (M co o ko uo ol (M cb b kb ub bl br)))) ->
  rb t n -> rb ol n -> rb (M false b kb ub bl br) (S n) ->
  (if c then cbl z /\ cok z (S n) else cok z (S (S n))) ->
  ok (finL p o s) (post (flat (plug z (M c p kp up t (M co o ko uo ol (M cb b kb ub bl br)))))).
Proof.
  intros HR Ht Hol Hb Hc. unfold finL. bget HR.
  bstep (R_color s (FR c p kp up t :: z) co o ko uo ol (M cb b kb ub bl br) c HR).
  intros s1 H1.
  bstep (R_color s1 z c p kp up t (M c o ko uo ol (M cb b kb ub bl br)) false H1).
  intros s2 H2.
  bget (H2 : R s2 (plug (FR false p kp up t :: z) (M c o ko uo ol (M cb b kb ub bl br)))).
  bstep (R_blackIf s2 (FR c o ko uo ol :: FR false p kp up t :: z) (M cb b kb ub bl br) H2).
  intros s3 H3. cbn [blacken] in H3.
  bstep (rotateLeft_ok s3 z false p kp up t c o ko uo ol (M false b kb ub bl br) H3).
  intros s4 H4. apply ok_ret.
  exists [], (plug z (M c o ko uo (M false p kp up t ol) (M false b kb ub bl br))).
  cbn [fst snd]. split; [now destruct H4|]. split; [exact H4|]. split.
  - cbn [plug]. flatten. reflexivity.
  - cbn [plug].
    assert (G : good (plug z (M c o ko uo (M false p kp up t ol) (M false b kb ub bl br)))).
    { destruct c.
      - apply good_plug with (S n); [easy| |now right]. cbn. cbn in Hb.
        repeat split; try exact Hb; now exists n.
      - apply good_plug with (S (S n)); [easy| |now left]. cbn. exists (S n).
        split; [easy|]. split; [now exists n|exact Hb]. }
    destruct G as [G1 [n' G2]]. split; [apply isr_blacken|]. now apply rb_blacken with n'.
Qed.

Lemma tailL_ok fuel s z c p kp up t o ko uo ol orr n :
  R s (plug z (M c p kp up t (M false o ko uo ol orr))) ->
  rb t n -> rb ol n -> rb orr n ->
  (if c then cbl z /\ cok z (S n) else cok z (S (S n))) ->
  (forall s', R s' (plug z (M c p kp up t (M true o ko uo ol orr))) ->
     isr ol = false -> isr orr = false ->
     ok (eraseLoop fuel p (pz 0 z) s')
        (post (flat (plug z (M c p kp up t (M true o ko uo ol orr)))))) ->
  ok (tailL fuel p o s)
     (post (flat (plug z (M c p kp up t (M false o ko uo ol orr))))).
Proof.
  intros HR Ht Hol Horr Hc Hloop. unfold tailL.
  set (zo := FR c p kp up t :: z).
  bget (HR : R s (plug zo (M false o ko uo ol orr))).
  pose proof (R_isr s (FL false o ko uo orr :: zo) ol HR) as Hil.
  pose proof (R_isr s (FR false o ko uo ol :: zo) orr HR) as Hir.
  rewrite Hil; cbn [obind]; rewrite Hir; cbn [obind].
  destruct (isr ol) eqn:El; destruct (isr orr) eqn:Er; cbn [negb andb obind].
  - (* both red *)
    destruct orr as [|cb b kb ub bl br]; [easy|]. cbn in Er. subst cb.
    apply finL_ok with (n := n); try easy. cbn in Horr |- *. exists n. tauto.
  - (* near red *)
    destruct ol as [|cb b kb ub bl br]; [easy|]. cbn in El. subst cb.
    cbn in Hol. destruct Hol as (Hol1 & Hol2 & Hol3 & Hol4).
    eapply ok_bind.
    { bstep (R_blackIf s (FL false o ko uo orr :: zo) (M true b kb ub bl br) HR).
      intros s1 H1. cbn [blacken] in H1.
      bstep (R_color s1 zo false o ko uo (M false b kb ub bl br) orr true H1).
      intros s2 H2.
      bstep (rotateRight_ok s2 zo true o ko uo bl false b kb ub br orr H2).
      intros s3 H3.
      bget (H3 : R s3 (plug z (M c p kp up t (M false b kb ub bl (M true o ko uo br orr))))).
      apply ok_ret.
      instantiate (1 := fun os => exists s3, os = (b, s3) /\
         R s3 (plug z (M c p kp up t (M false b kb ub bl (M true o ko uo br orr))))).
      now exists s3. }
    intros [o' s'] (s3 & E3 & H3). injection E3 as -> ->.
    assert (Q : ok (finL p b s3)
       (post (flat (plug z (M c p kp up t (M false b kb ub bl (M true o ko uo br orr))))))).
    { apply finL_ok with (n := n); try easy; [cbn; exists n; tauto]. }
    eapply ok_mono; [exact Q|]. intros cs Hcs.
    match type of Hcs with post ?a _ => match goal with |- post ?b _ =>
      replace b with a; [exact Hcs|] end end.
    flatten. reflexivity.
  - (* far red *)
    destruct orr as [|cb b kb ub bl br]; [easy|]. cbn in Er. subst cb.
    apply finL_ok with (n := n); try easy. cbn in Horr |- *. exists n. tauto.
  - (* both black *)
    bstep (R_color s zo false o ko uo ol orr true HR).
    intros s1 H1.
    bget (H1 : R s1 (plug z (M c p kp up t (M true o ko uo ol orr)))).
    eapply ok_mono; [apply Hloop; [exact H1|easy|easy]|].
    intros cs Hcs.
    match type of Hcs with post ?a _ => match goal with |- post ?b _ =>
      replace b with a; [exact Hcs|] end end.
    flatten. reflexivity.
Qed.

Lemma stepL_ok fuel s z c p kp up w t n :
  R s (plug (FL c p kp up w :: z) t) ->
  isr t = false -> rb t n -> cok (FL c p kp up w :: z) (S n) ->
  (forall z' s' t' n', R s' (plug z' t') ->
     isr t' = true /\ rb (blacken t') (S n') \/ rb t' n' /\ (length z' <= length z)%nat ->
     cok z' (S n') ->
     ok (eraseLoop fuel (rt t') (pz 0 z') s') (post (flat (plug z' t')))) ->
  ok (eraseLoop (S fuel) (rt t) p s) (post (flat (plug (FL c p kp up w :: z) t))).
Proof.
  intros HR Htb Ht Hc Hloop. destruct Hc as [Hw Hc]. cbn [fsub fred] in *.
  destruct w as [|cw o ko uo wl wr]; [easy|].
  assert (HRp : R s (plug z (T c p kp up t (T cw o ko uo wl wr)))) by exact HR.
  cbn [eraseLoop]. rewrite (R_isr _ _ _ HR), Htb. cbn [obind orb].
  rewrite (proj2 (Z.eqb_neq _ _) (R_not_root _ _ _ _ HR)).
  bget HRp.
  rewrite Z.eqb_refl.
  cbn [rt].
  bget (HRp : R s (plug (FR c p kp up t :: z) (T cw o ko uo wl wr))).
  set (ol := wl). set (orr := wr).
  destruct cw.
  - (* red sibling *)
    destruct c; [destruct Hc as (Hc1 & _); now cbn in Hc1|].
    destruct Hw as (Hw1 & Hw2 & Hw3 & Hw4).
    assert (Hne : exists o2 ko2 uo2 ol2 or2, ol = M false o2 ko2 uo2 ol2 or2).
    { unfold ol. destruct wl as [|[] o2 ko2 uo2 al2 ar2]; try easy. now exists o2, ko2, uo2, al2, ar2. }
    destruct Hne as (o2 & ko2 & uo2 & ol2 & or2 & Eol).
    eapply ok_bind.
    { bstep (R_color s (FR false p kp up t :: z) true o ko uo wl wr false HRp).
      intros s1 H1.
      bstep (R_color s1 z false p kp up t (T false o ko uo wl wr) true H1).
      intros s2 H2.
      bstep (rotateLeft_ok s2 z true p kp up t false o ko uo wl wr H2).
      intros s3 H3.
      bget (H3 : R s3 (plug (FL false o ko uo orr :: z) (M true p kp up t ol))).
      apply ok_ret.
      instantiate (1 := fun os => exists s3, os = (rt ol, s3) /\
         R s3 (plug (FL false o ko uo orr :: z) (M true p kp up t ol))).
      now exists s3. }
    intros [o' s'] (s3 & E3 & H3). injection E3 as -> ->.
    fold (tailL fuel p (rt ol) s3).
    assert (Hol : rb ol (S n)) by (unfold ol; assumption).
    assert (Horr : rb orr (S n)) by (unfold orr; assumption).
    match goal with |- ok _ (post ?LL) => replace LL with
        (flat (plug (FL false o ko uo orr :: z) (M true p kp up t ol)))
        by (unfold ol, orr; flatten; reflexivity) end.
    rewrite Eol in H3, Hol |- *. cbn [rt] in *. destruct Hol as (m & Em & Hol1 & Hol2).
    injection Em as <-.
    apply tailL_ok with (n := n);
      [exact H3|assumption|assumption|assumption|cbn [cbl fred cok fsub]; tauto|].
    { intros s' H4 Hb1 Hb2. refine (Hloop (FL false o ko uo orr :: z) s' _ n H4 _ _).
      * left. cbn in *. split; [easy|]. exists n. tauto.
      * cbn. tauto. }
  - (* black sibling *)
    cbn [obind].
    assert (HR' : R s (plug z (M c p kp up t (M false o ko uo ol orr)))) by exact HRp.
    change (plug (FL c p kp up (T false o ko uo wl wr) :: z) t)
      with (plug z (M c p kp up t (M false o ko uo ol orr))).
    change (ok (tailL fuel p o s) (post (flat (plug z (M c p kp up t (M false o ko uo ol orr)))))).
    destruct Hw as (m & Em & Hw1 & Hw2). injection Em as <-.
    assert (Hol : rb ol n) by (unfold ol; assumption).
    assert (Horr : rb orr n) by (unfold orr; assumption).
    apply tailL_ok with (n := n);
      [exact HR'|assumption|assumption|assumption|now destruct c|].
    { intros s' H4 Hb1 Hb2. destruct c.
      * refine (Hloop z s' _ n H4 _ _); [|easy].
        left. cbn in *. split; [easy|]. exists n. tauto.
      * refine (Hloop z s' _ (S n) H4 _ _); [|easy].
        right. split; [|lia]. cbn. exists n. tauto. }
Qed.
End SideL.

(** *** the hole is the right child *)
Section SideR.
Local Notation M c a k u x y := (T c a k u y x).

(** the end of the loop's body, lib-src/rbtrees.c:219-223 *)
Definition finR (parent other : Z) (s : state) : outcome (Z * state) :=
  olet np := get (heap s) parent in
  olet s := color other (red np) s in
  olet s := color parent false s in
  olet no := get (heap s) other in
  olet s := blackIf (lft no) s in
  olet s := rotateRight parent s in
  Ok (root s, s).

(** the body of the loop once the sibling is black, lib-src/rbtrees.c:200-226 *)
Definition tailR (fuel : nat) (parent other : Z) (s : state) : outcome (Z * state) :=
  olet no := get (heap s) other in
  olet rl := isRed (heap s) (lft no) in
  olet rr := isRed (heap s) (rgt no) in
  if negb rl && negb rr then
    olet s := color other true s in
    olet np := get (heap s) parent in
    eraseLoop fuel parent (par np) s
  else
    olet os := (if negb rl then
                  olet s := blackIf (rgt no) s in
                  olet s := color other true s in
                  olet s := rotateLeft other s in
                  olet np := get (heap s) parent in
                  Ok (lft np, s)
                else Ok (other, s)) in
    let '(other, s) := os in
    finR parent other s.

Lemma finR_ok s z c p kp up t co o ko uo ol cb b kb ub bl br n :
  R s (plug z (M c p kp up t (M co o ko uo ol (M cb b kb ub bl br)))) ->
  rb t n -> rb ol n -> rb (M false b kb ub bl br) (S n) ->
  (if c then cbl z /\ cok z (S n) else cok z (S (S n))) ->
  ok (finR p o s) (post (flat (plug z (M c p kp up t (M co o ko uo ol (M cb b kb ub bl br)))))).
Proof.
  intros HR Ht Hol Hb Hc. unfold finR. bget HR.
  bstep (R_color s (FL c p kp up t :: z) co o ko uo (M cb b kb ub bl br) ol c HR).
  intros s1 H1.
  bstep (R_color s1 z c p kp up (M c o ko uo ol (M cb b kb ub bl br)) t false H1).
  intros s2 H2.
  bget (H2 : R s2 (plug (FL false p kp up t :: z) (M c o ko uo ol (M cb b kb ub bl br)))).
  bstep (R_blackIf s2 (FL c o ko uo ol :: FL false p kp up t :: z) (M cb b kb ub bl br) H2).
  intros s3 H3. cbn [blacken] in H3.
  bstep (rotateRight_ok s3 z false p kp up (M false b kb ub bl br) c o ko uo ol t H3).
  intros s4 H4. apply ok_ret.
  exists [], (plug z (M c o ko uo (M false p kp up t ol) (M false b kb ub bl br))).
  cbn [fst snd]. split; [now destruct H4|]. split; [exact H4|]. split.
  - cbn [plug]. flatten. reflexivity.
  - cbn [plug].
    assert (G : good (plug z (M c o ko uo (M false p kp up t ol) (M false b kb ub bl br)))).
    { destruct c.
      - apply good_plug with (S n); [easy| |now right]. cbn. cbn in Hb.
        repeat split; try exact Hb; now exists n.
      - apply good_plug with (S (S n)); [easy| |now left]. cbn. exists (S n).
        split; [easy|]. split; [exact Hb|now exists n]. }
    destruct G as [G1 [n' G2]]. split; [apply isr_blacken|]. now apply rb_blacken with n'.
Qed.

Lemma tailR_ok fuel s z c p kp up t o ko uo ol orr n :
  R s (plug z (M c p kp up t (M false o ko uo ol orr))) ->
  rb t n -> rb ol n -> rb orr n ->
  (if c then cbl z /\ cok z (S n) else cok z (S (S n))) ->
  (forall s', R s' (plug z (M c p kp up t (M true o ko uo ol orr))) ->
     isr ol = false -> isr orr = false ->
     ok (eraseLoop fuel p (pz 0 z) s')
        (post (flat (plug z (M c p kp up t (M true o ko uo ol orr)))))) ->
  ok (tailR fuel p o s)
     (post (flat (plug z (M c p kp up t (M false o ko uo ol orr))))).
Proof.
  intros HR Ht Hol Horr Hc Hloop. unfold tailR.
  set (zo := FL c p kp up t :: z).
  bget (HR : R s (plug zo (M false o ko uo ol orr))).
  pose proof (R_isr s (FR false o ko uo orr :: zo) ol HR) as Hil.
  pose proof (R_isr s (FL false o ko uo ol :: zo) orr HR) as Hir.
  rewrite Hir; cbn [obind]; rewrite Hil; cbn [obind].
  destruct (isr ol) eqn:El; destruct (isr orr) eqn:Er; cbn [negb andb obind].
  - (* both red *)
    destruct orr as [|cb b kb ub br bl]; [easy|]. cbn in Er. subst cb.
    apply finR_ok with (n := n); try easy. cbn in Horr |- *. exists n. tauto.
  - (* near red *)
    destruct ol as [|cb b kb ub br bl]; [easy|]. cbn in El. subst cb.
    cbn in Hol. destruct Hol as (Hol1 & Hol2 & Hol3 & Hol4).
    eapply ok_bind.
    { bstep (R_blackIf s (FR false o ko uo orr :: zo) (M true b kb ub bl br) HR).
      intros s1 H1. cbn [blacken] in H1.
      bstep (R_color s1 zo false o ko uo orr (M false b kb ub bl br) true H1).
      intros s2 H2.
      bstep (rotateLeft_ok s2 zo true o ko uo orr false b kb ub br bl H2).
      intros s3 H3.
      bget (H3 : R s3 (plug z (M c p kp up t (M false b kb ub bl (M true o ko uo br orr))))).
      apply ok_ret.
      instantiate (1 := fun os => exists s3, os = (b, s3) /\
         R s3 (plug z (M c p kp up t (M false b kb ub bl (M true o ko uo br orr))))).
      now exists s3. }
    intros [o' s'] (s3 & E3 & H3). injection E3 as -> ->.
    assert (Q : ok (finR p b s3)
       (post (flat (plug z (M c p kp up t (M false b kb ub bl (M true o ko uo br orr))))))).
    { apply finR_ok with (n := n); try easy; [cbn; exists n; tauto]. }
    eapply ok_mono; [exact Q|]. intros cs Hcs.
    match type of Hcs with post ?a _ => match goal with |- post ?b _ =>
      replace b with a; [exact Hcs|] end end.
    flatten. reflexivity.
  - (* far red *)
    destruct orr as [|cb b kb ub br bl]; [easy|]. cbn in Er. subst cb.
    apply finR_ok with (n := n); try easy. cbn in Horr |- *. exists n. tauto.
  - (* both black *)
    bstep (R_color s zo false o ko uo orr ol true HR).
    intros s1 H1.
    bget (H1 : R s1 (plug z (M c p kp up t (M true o ko uo ol orr)))).
    eapply ok_mono; [apply Hloop; [exact H1|easy|easy]|].
    intros cs Hcs.
    match type of Hcs with post ?a _ => match goal with |- post ?b _ =>
      replace b with a; [exact Hcs|] end end.
    flatten. reflexivity.
Qed.

Lemma stepR_ok fuel s z c p kp up w t n :
  R s (plug (FR c p kp up w :: z) t) ->
  isr t = false -> rb t n -> cok (FR c p kp up w :: z) (S n) ->
  (forall z' s' t' n', R s' (plug z' t') ->
     isr t' = true /\ rb (blacken t') (S n') \/ rb t' n' /\ (length z' <= length z)%nat ->
     cok z' (S n') ->
     ok (eraseLoop fuel (rt t') (pz 0 z') s') (post (flat (plug z' t')))) ->
  ok (eraseLoop (S fuel) (rt t) p s) (post (flat (plug (FR c p kp up w :: z) t))).
Proof.
  intros HR Htb Ht Hc Hloop. destruct Hc as [Hw Hc]. cbn [fsub fred] in *.
  destruct w as [|cw o ko uo wl wr]; [easy|].
  assert (HRp : R s (plug z (T c p kp up (T cw o ko uo wl wr) t))) by exact HR.
  cbn [eraseLoop]. rewrite (R_isr _ _ _ HR), Htb. cbn [obind orb].
  rewrite (proj2 (Z.eqb_neq _ _) (R_not_root _ _ _ _ HR)).
  bget HRp.
  rewrite (proj2 (Z.eqb_neq _ _) (R_sib_ne _ _ _ _ _ _ _ _ HRp ltac:(easy))).
  cbn [rt].
  bget (HRp : R s (plug (FL c p kp up t :: z) (T cw o ko uo wl wr))).
  set (ol := wr). set (orr := wl).
  destruct cw.
  - (* red sibling *)
    destruct c; [destruct Hc as (Hc1 & _); now cbn in Hc1|].
    destruct Hw as (Hw1 & Hw2 & Hw3 & Hw4).
    assert (Hne : exists o2 ko2 uo2 ol2 or2, ol = M false o2 ko2 uo2 ol2 or2).
    { unfold ol. destruct wr as [|[] o2 ko2 uo2 al2 ar2]; try easy. now exists o2, ko2, uo2, ar2, al2. }
    destruct Hne as (o2 & ko2 & uo2 & ol2 & or2 & Eol).
    eapply ok_bind.
    { bstep (R_color s (FL false p kp up t :: z) true o ko uo wl wr false HRp).
      intros s1 H1.
      bstep (R_color s1 z false p kp up (T false o ko uo wl wr) t true H1).
      intros s2 H2.
      bstep (rotateRight_ok s2 z true p kp up wl false o ko uo wr t H2).
      intros s3 H3.
      bget (H3 : R s3 (plug (FR false o ko uo orr :: z) (M true p kp up t ol))).
      apply ok_ret.
      instantiate (1 := fun os => exists s3, os = (rt ol, s3) /\
         R s3 (plug (FR false o ko uo orr :: z) (M true p kp up t ol))).
      now exists s3. }
    intros [o' s'] (s3 & E3 & H3). injection E3 as -> ->.
    fold (tailR fuel p (rt ol) s3).
    assert (Hol : rb ol (S n)) by (unfold ol; assumption).
    assert (Horr : rb orr (S n)) by (unfold orr; assumption).
    match goal with |- ok _ (post ?LL) => replace LL with
        (flat (plug (FR false o ko uo orr :: z) (M true p kp up t ol)))
        by (unfold ol, orr; flatten; reflexivity) end.
    rewrite Eol in H3, Hol |- *. cbn [rt] in *. destruct Hol as (m & Em & Hol1 & Hol2).
    injection Em as <-.
    apply tailR_ok with (n := n);
      [exact H3|assumption|assumption|assumption|cbn [cbl fred cok fsub]; tauto|].
    { intros s' H4 Hb1 Hb2. refine (Hloop (FR false o ko uo orr :: z) s' _ n H4 _ _).
      * left. cbn in *. split; [easy|]. exists n. tauto.
      * cbn. tauto. }
  - (* black sibling *)
    cbn [obind].
    assert (HR' : R s (plug z (M c p kp up t (M false o ko uo ol orr)))) by exact HRp.
    change (plug (FR c p kp up (T false o ko uo wl wr) :: z) t)
      with (plug z (M c p kp up t (M false o ko uo ol orr))).
    change (ok (tailR fuel p o s) (post (flat (plug z (M c p kp up t (M false o ko uo ol orr)))))).
    destruct Hw as (m & Em & Hw1 & Hw2). injection Em as <-.
    assert (Hol : rb ol n) by (unfold ol; assumption).
    assert (Horr : rb orr n) by (unfold orr; assumption).
    apply tailR_ok with (n := n);
      [exact HR'|assumption|assumption|assumption|now destruct c|].
    { intros s' H4 Hb1 Hb2. destruct c.
      * refine (Hloop z s' _ n H4 _ _); [|easy].
        left. cbn in *. split; [easy|]. exists n. tauto.
      * refine (Hloop z s' _ (S n) H4 _ _); [|easy].
        right. split; [|lia]. cbn. exists n. tauto. }
Qed.
End SideR.

Lemma eraseLoop_ok fuel : forall z s t n,
  R s (plug z t) ->
  isr t = true /\ rb (blacken t) (S n) /\ (1 <= fuel)%nat \/
  rb t n /\ (length z + 2 <= fuel)%nat ->
  cok z (S n) ->
  ok (eraseLoop fuel (rt t) (pz 0 z) s) (post (flat (plug z t))).
Proof.
  induction fuel as [|fuel IH]; intros z s t n HR Ht Hc; [lia|].
  destruct (isr t) eqn:Er.
  { apply stop_red with (S n); try easy. destruct Ht as [Ht|[Ht _]]; [easy|].
    now apply rb_blacken_red. }
  destruct Ht as [[Hf _]|[Ht Hf]]; [easy|].
  destruct z as [|f z]; [now apply stop_root with n|].
  cbn [length] in Hf.
  destruct f as [c p kp up w|c p kp up w]; cbn [pz fa].
  - apply stepL_ok with n; try easy. intros z' s' t' n' H1 H2 H3.
    apply IH with n'; try easy. destruct H2 as [[? ?]|[? ?]]; [left|right];
      repeat split; try easy; lia.
  - apply stepR_ok with n; try easy. intros z' s' t' n' H1 H2 H3.
    apply IH with n'; try easy. destruct H2 as [[? ?]|[? ?]]; [left|right];
      repeat split; try easy; lia.
Qed.

Lemma eraseRebalance_ok fuel z s t n :
  R s (plug z t) -> rb t n -> cok z (S n) -> (length z + 2 <= fuel)%nat ->
  ok (eraseRebalance fuel (rt t) (pz 0 z) s)
     (fun s' => exists t', R s' t' /\ flat t' = flat (plug z t) /\ good t').
Proof.
  intros HR Ht Hc Hf. unfold eraseRebalance.
  eapply ok_bind; [apply (eraseLoop_ok fuel z s t n HR); [now right|easy]|].
  intros [ch s'] (z' & t' & H1 & H2 & H3 & H4). cbn [fst snd] in *. subst ch.
  eapply ok_mono; [apply (R_blackIf s' z' t' H2)|].
  intros s2 H5. exists (plug z' (blacken t')). split; [easy|]. split; [|easy].
  rewrite <- H3. rewrite !flat_plug, flat_blacken. reflexivity.
Qed.
