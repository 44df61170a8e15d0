(** Proofs about unwinding. *)
From Verif Require Import UnwindLang Unwind UnwindSpec.
From Coq Require Import Lia.
Local Open Scope nat_scope.

Definition withpar (c : ctx) (p : option nat) := Ctx (meth c) (dis c) (unw c) p (outer c) (kon c).
Definition withdis (c : ctx) := Ctx (meth c) true (unw c) (par c) (outer c) (kon c).
Definition withkon (c : ctx) k := Ctx (meth c) (dis c) (unw c) (par c) (outer c) k.
Definition withunw (c : ctx) := Ctx (meth c) (dis c) true (par c) (outer c) (kon c).
Definition clearc (c : ctx) := Ctx (meth c) false false (par c) (outer c) (kon c).

Lemma upd_same H i c : upd H i c i = c.
Proof. unfold upd. rewrite Nat.eqb_refl. reflexivity. Qed.
Lemma upd_other H i c j : j <> i -> upd H i c j = H j.
Proof. intros N. unfold upd. apply Nat.eqb_neq in N. rewrite N. reflexivity. Qed.
Lemma set_par_same H i p : set_par H i p i = withpar (H i) p. Proof. apply upd_same. Qed.
Lemma set_par_other H i p j : j <> i -> set_par H i p j = H j. Proof. apply upd_other. Qed.
Lemma clear_same H i : clear H i i = clearc (H i). Proof. apply upd_same. Qed.
Lemma clear_other H i j : j <> i -> clear H i j = H j. Proof. apply upd_other. Qed.
Lemma set_dis_same H i : set_dis H i i = withdis (H i). Proof. apply upd_same. Qed.
Lemma set_dis_other H i j : j <> i -> set_dis H i j = H j. Proof. apply upd_other. Qed.
Lemma set_kon_same H i k : set_kon H i k i = withkon (H i) k. Proof. apply upd_same. Qed.
Lemma set_kon_other H i j k : j <> i -> set_kon H i k j = H j. Proof. apply upd_other. Qed.
Lemma set_unw_same H i : set_unw H i i = withunw (H i). Proof. apply upd_same. Qed.
Lemma set_unw_other H i j : j <> i -> set_unw H i j = H j. Proof. apply upd_other. Qed.
Lemma ctx_eta c : Ctx (meth c) (dis c) (unw c) (par c) (outer c) (kon c) = c. Proof. destruct c; reflexivity. Qed.

(** The contexts from the caller of an unwinding context to the one to return to, once disabled. *)
Fixpoint link (H0 H : heap) (p : option nat) (B : list nat) : Prop :=
  match B with
  | [] => False
  | b :: B' =>
      match B' with
      | [] => p = Some b /\ H b = H0 b
      | _ =>
          if meth (H0 b) then p = Some b /\ (exists p', H b = withpar (withdis (H0 b)) p' /\ link H0 H p' B')
          else H b = withpar (H0 b) None /\ link H0 H p B'
      end
  end.
Definition dead (H0 H : heap) (i : nat) := meth (H i) = meth (H0 i) /\ outer (H i) = outer (H0 i) /\ par (H i) = None.
(** Control has arrived at [q] on the way along [l]. *)
Definition land (H0 H : heap) (l : list nat) (q : nat) :=
  exists A B, l = A ++ q :: B /\ (forall i, In i A -> unw (H0 i) = false /\ dead H0 H i) /\
    ((B = [] /\ H q = clearc (H0 q)) \/
     (unw (H0 q) = true /\ exists p, H q = withpar (clearc (H0 q)) p /\ link H0 H p B)).
Fixpoint seg (H : heap) (l : list nat) : Prop :=
  match l with
  | [] => True
  | x :: r => dis (H x) = false /\ (unw (H x) = true -> meth (H x) = true) /\
              match r with [] => True | y :: _ => par (H x) = Some y /\ y < x end /\ seg H r
  end.

Lemma seg_lt H r x i : seg H (x :: r) -> In i r -> i < x.
Proof.
  revert x. induction r as [|y r IH]; intros x Sg I; [destruct I|].
  destruct Sg as (_ & _ & (P & L) & Sg). destruct I as [<-|I]; [exact L|]. specialize (IH y Sg I). lia.
Qed.
Lemma seg_length H r x : seg H (x :: r) -> length r <= x.
Proof.
  revert x. induction r as [|y r IH]; intros x Sg; [cbn; lia|].
  destruct Sg as (_ & _ & (P & L) & Sg). specialize (IH y Sg). cbn [length]. lia.
Qed.
Lemma seg_ext H H' l : (forall i, In i l -> meth (H' i) = meth (H i) /\ dis (H' i) = dis (H i) /\ unw (H' i) = unw (H i) /\ par (H' i) = par (H i)) -> seg H l -> seg H' l.
Proof.
  induction l as [|x r IH]; intros E Sg; [exact Sg|]. cbn [seg] in *.
  destruct (E x (or_introl eq_refl)) as (E1 & E2 & E3 & E4). rewrite E1, E2, E3, E4.
  destruct Sg as (S1 & S2 & S3 & S4). split; [exact S1|]. split; [exact S2|]. split; [exact S3|].
  apply IH; [intros i I; apply E; right; exact I|exact S4].
Qed.
Lemma seg_front H l R T : seg H (l ++ T :: R) -> seg H (l ++ [T]).
Proof.
  induction l as [|x r IH]; intros Sg.
  - cbn in *. tauto.
  - cbn [app seg] in *. destruct Sg as (S1 & S2 & S3 & S4). split; [exact S1|]. split; [exact S2|]. split; [|apply IH; exact S4].
    destruct r; cbn [app] in *; exact S3.
Qed.
Lemma link_ext H0 H1 H H' p B : (forall i, In i B -> H1 i = H0 i /\ H' i = H i) -> link H0 H p B -> link H1 H' p B.
Proof.
  revert p. induction B as [|b B IH]; intros p E L; [exact L|].
  destruct (E b (or_introl eq_refl)) as [E1 E2]. cbn [link] in *. rewrite E1, E2.
  destruct B as [|c B]; [exact L|].
  assert (EB : forall i, In i (c :: B) -> H1 i = H0 i /\ H' i = H i) by (intros i I; apply E; right; exact I).
  destruct (meth (H0 b)).
  - destruct L as (L1 & p' & L2 & L3). split; [exact L1|]. exists p'. split; [exact L2|]. apply IH; assumption.
  - destruct L as (L1 & L2). split; [exact L1|]. apply IH; assumption.
Qed.
Lemma link_some H0 H p B : link H0 H p B -> p <> None.
Proof.
  revert p. induction B as [|b B IH]; intros p L; [destruct L|]. cbn [link] in L. destruct B as [|c B].
  - destruct L as [-> _]. discriminate.
  - destruct (meth (H0 b)); [destruct L as [-> _]; discriminate|]. apply IH. apply L.
Qed.
Lemma land_ext H0 H1 H H' l q : (forall i, In i l -> H1 i = H0 i /\ H' i = H i) -> land H0 H l q -> land H1 H' l q.
Proof.
  intros E (A & B & -> & F & C). exists A, B. split; [reflexivity|].
  assert (Eq : H1 q = H0 q /\ H' q = H q) by (apply E; apply in_or_app; right; left; reflexivity).
  destruct Eq as [Eq1 Eq2]. split.
  - intros i I. unfold dead. destruct (E i (in_or_app _ _ _ (or_introl I))) as [Ei1 Ei2]. rewrite Ei1, Ei2. apply F. exact I.
  - rewrite Eq1, Eq2. destruct C as [C|(C1 & p & C2 & C3)]; [left; exact C|right].
    split; [exact C1|]. exists p. split; [exact C2|]. eapply link_ext; [|exact C3].
    intros i I. apply E. apply in_or_app. right. right. exact I.
Qed.
Lemma land_cons H0 H b l q : unw (H0 b) = false -> dead H0 H b -> land H0 H l q -> land H0 H (b :: l) q.
Proof.
  intros U D (A & B & -> & F & C). exists (b :: A), B. split; [reflexivity|]. split; [|exact C].
  intros i [<-|I]; [split; assumption|apply F; exact I].
Qed.

Lemma uc_link : forall B fuel H0 H x p,
  length B < fuel -> par (H x) = p -> link H0 H p B -> seg H0 B -> ~ In x B ->
  exists H' q, unwind_context fuel H x = Ok (H', q) /\ land H0 H' B q /\ In q B /\ dead H H' x /\ (forall i, i <> x -> ~ In i B -> H' i = H i).
Proof.
  induction B as [|b B IH]; intros fuel H0 H x p F P L Sg N; [destruct L|].
  destruct fuel as [|fuel]; [cbn in F; lia|].
  assert (Nb : b <> x) by (intros ->; apply N; left; reflexivity).
  destruct B as [|c B].
  - destruct L as [-> L]. cbn [unwind_context]. rewrite P.
    assert (Sk : skipped (set_par H x None b) = false).
    { rewrite set_par_other by exact Nb. rewrite L. unfold skipped. destruct Sg as (D & _). rewrite D. rewrite andb_false_r. reflexivity. }
    rewrite Sk. exists (clear (set_par H x None) b), b. split; [reflexivity|]. split; [|split; [left; reflexivity|split]].
    + exists [], []. split; [reflexivity|]. split; [intros i []|]. left. split; [reflexivity|].
      rewrite clear_same, set_par_other by exact Nb. rewrite L. reflexivity.
    + unfold dead. rewrite clear_other by (intros E; apply Nb; symmetry; exact E). rewrite set_par_same. repeat split.
    + intros i Ni I. rewrite clear_other by (intros ->; apply I; left; reflexivity). apply set_par_other. exact Ni.
  - assert (Sg' : seg H0 (c :: B)) by apply Sg.
    assert (N' : ~ In x (c :: B)) by (intros I; apply N; right; exact I).
    assert (Ncb : ~ In b (c :: B)) by (intros I; pose proof (seg_lt _ _ _ _ Sg I); lia).
    cbn [link] in L. destruct (meth (H0 b)) eqn:M.
    + destruct L as (-> & p' & L2 & L3). cbn [unwind_context]. rewrite P.
      assert (Sk : skipped (set_par H x None b) = negb (unw (H0 b))).
      { rewrite set_par_other by exact Nb. rewrite L2. unfold skipped. cbn. rewrite M. reflexivity. }
      rewrite Sk. destruct (unw (H0 b)) eqn:U; cbn [negb].
      * exists (clear (set_par H x None) b), b. split; [reflexivity|]. split; [|split; [left; reflexivity|split]].
        -- exists [], (c :: B). split; [reflexivity|]. split; [intros i []|]. right. split; [exact U|]. exists p'.
           rewrite clear_same, set_par_other by exact Nb. rewrite L2. split; [reflexivity|].
           eapply link_ext; [|exact L3]. intros i I. split; [reflexivity|].
           rewrite clear_other by (intros ->; contradiction). apply set_par_other. intros ->. contradiction.
        -- unfold dead. rewrite clear_other by (intros E; apply Nb; symmetry; exact E). rewrite set_par_same. repeat split.
        -- intros i Ni I. rewrite clear_other by (intros ->; apply I; left; reflexivity). apply set_par_other. exact Ni.
      * destruct (IH fuel H0 (set_par H x None) b p') as (H' & q & E & La & Iq & D & O).
        -- cbn [length] in *. lia.
        -- rewrite set_par_other by exact Nb. rewrite L2. reflexivity.
        -- eapply link_ext; [|exact L3]. intros i I. split; [reflexivity|]. apply set_par_other. intros ->. contradiction.
        -- exact Sg'.
        -- exact Ncb.
        -- exists H', q. split; [exact E|]. split; [|split; [right; exact Iq|split]].
           ++ apply land_cons; [exact U| |exact La]. destruct D as (D1 & D2 & D3). unfold dead. rewrite D1, D2, D3.
              rewrite set_par_other by exact Nb. rewrite L2. cbn. repeat split.
           ++ unfold dead. rewrite O by (auto; intros ->; auto). rewrite set_par_same. repeat split.
           ++ intros i Ni I. rewrite O.
              ** apply set_par_other. exact Ni.
              ** intros ->. apply I. left. reflexivity.
              ** intros I'. apply I. right. exact I'.
    + destruct L as (L1 & L2).
      destruct (IH (S fuel) H0 H x p) as (H' & q & E & La & Iq & D & O); [cbn [length] in *; lia|exact P|exact L2|exact Sg'|exact N'|].
      exists H', q. split; [exact E|]. split; [|split; [right; exact Iq|split; [exact D|]]].
      * apply land_cons; [|unfold dead; rewrite O by assumption; rewrite L1; repeat split|exact La].
        destruct (unw (H0 b)) eqn:U; [|reflexivity]. destruct Sg as (_ & S2 & _). rewrite (S2 U) in M. discriminate.
      * intros i Ni I. apply O; [exact Ni|]. intros I'. apply I. right. exact I'.
Qed.

Lemma disable_ok : forall B fuel H old chain T,
  length B < fuel -> par (H old) = hd_error (B ++ [T]) -> (forall i, In i (B ++ [T]) -> i < old) -> seg H (B ++ [T]) ->
  (old = chain \/ (meth (H old) = false /\ old < chain)) ->
  exists H' p, disable fuel H old chain T = Ok (H', true) /\ H' chain = withpar (H chain) p /\ link H H' p (B ++ [T]) /\
    (old <> chain -> H' old = withpar (H old) None) /\ (forall i, i <> chain -> i <> old -> ~ In i (B ++ [T]) -> H' i = H i).
Proof.
  induction B as [|b B IH]; intros fuel H old chain T F P L Sg C; (destruct fuel as [|fuel]; [cbn in F; lia|]); cbn [app hd_error] in *.
  - specialize (L T (or_introl eq_refl)). cbn [disable]. rewrite P. rewrite Nat.eqb_refl.
    set (H1 := if meth (H old) then H else set_par H old None).
    assert (E1 : forall i, i <> old -> H1 i = H i) by (intros i Ni; unfold H1; destruct (meth (H old)); [reflexivity|apply set_par_other; exact Ni]).
    exists (set_par H1 chain (Some T)), (Some T). split; [reflexivity|].
    assert (NT : T <> chain) by (destruct C as [->|[_ C]]; lia).
    split; [|split; [|split]].
    + rewrite set_par_same. destruct C as [<-|[_ C]]; [|rewrite E1 by lia; reflexivity].
      unfold H1. destruct (meth (H old)) eqn:M; [reflexivity|]. rewrite set_par_same. reflexivity.
    + cbn [link]. split; [reflexivity|]. rewrite set_par_other by exact NT. apply E1. lia.
    + intros No. rewrite set_par_other by exact No. destruct C as [C|[C _]]; [contradiction|]. unfold H1. rewrite C. apply set_par_same.
    + intros i I1 I2 I3. rewrite set_par_other by exact I1. apply E1. exact I2.
  - assert (LT : T < b) by (apply (seg_lt H (B ++ [T]) b); [exact Sg|apply in_or_app; right; left; reflexivity]).
    assert (Lb : b < old) by (apply L; left; reflexivity).
    cbn [disable]. rewrite P.
    pose (H1 := if meth (H old) then H else set_par H old None).
    assert (E1 : forall i, i <> old -> H1 i = H i) by (intros i Ni; unfold H1; destruct (meth (H old)); [reflexivity|apply set_par_other; exact Ni]).
    assert (E0 : old <> chain -> H1 old = withpar (H old) None).
    { intros No. destruct C as [C|[C _]]; [contradiction|]. unfold H1. rewrite C. apply set_par_same. }
    assert (Ec : forall p, withpar (H1 chain) p = withpar (H chain) p).
    { intros p. destruct C as [<-|[_ C]]; [|rewrite E1 by lia; reflexivity].
      unfold H1. destruct (meth (H old)) eqn:M; [reflexivity|]. rewrite set_par_same. reflexivity. }
    assert (Nb : (b =? T) = false) by (apply Nat.eqb_neq; lia). rewrite Nb.
    assert (Lc : b < chain) by (destruct C as [<-|[_ C]]; lia).
    assert (Eb : H1 b = H b) by (apply E1; lia).
    assert (LB : forall i, In i (B ++ [T]) -> i < b) by (intros i I; eapply seg_lt; [exact Sg|exact I]).
    assert (SgB : seg H (B ++ [T])) by apply Sg.
    assert (Pb : par (H b) = hd_error (B ++ [T])).
    { destruct Sg as (_ & _ & S3 & _). destruct (B ++ [T]) as [|y r] eqn:E; [destruct B; discriminate|]. exact (proj1 S3). }
    assert (Cons : exists y r, B ++ [T] = y :: r) by (destruct B; cbn; eauto).
    match goal with |- context [disable fuel ?h b chain T] => change h with H1 end. rewrite Eb. destruct (meth (H b)) eqn:M.
    + set (H2 := set_par (set_dis H1 b) chain (Some b)).
      assert (E2 : forall i, i <> b -> i <> chain -> H2 i = H1 i).
      { intros i N1 N2. unfold H2. rewrite set_par_other by exact N2. apply set_dis_other. exact N1. }
      assert (E2b : H2 b = withdis (H b)) by (unfold H2; rewrite set_par_other by lia; rewrite set_dis_same; rewrite Eb; reflexivity).
      assert (E2B : forall i, In i (B ++ [T]) -> H2 i = H i).
      { intros i I. specialize (LB i I). rewrite E2 by lia. apply E1. lia. }
      destruct (IH fuel H2 b b T) as (H' & p & D & D1 & D2 & _ & D4).
      * cbn [length] in F. lia.
      * rewrite E2b. exact Pb.
      * exact LB.
      * eapply seg_ext; [|exact SgB]. intros i I. rewrite E2B by exact I. repeat split.
      * left. reflexivity.
      * exists H', (Some b). split; [exact D|].
        assert (D2' : link H H' p (B ++ [T])).
        { eapply link_ext; [|exact D2]. intros i I. split; [symmetry; apply E2B; exact I|reflexivity]. }
        split; [|split; [|split]].
        -- rewrite D4; [|lia|lia|intros I; specialize (LB _ I); lia].
           unfold H2. rewrite set_par_same, set_dis_other by lia. apply Ec.
        -- cbn [link]. destruct Cons as (y & r & Cons). rewrite Cons in *. rewrite M. split; [reflexivity|]. exists p. split; [|exact D2'].
           rewrite D1, E2b. reflexivity.
        -- intros No. rewrite D4; [|lia|lia|intros I; specialize (LB _ I); lia]. rewrite E2 by lia. apply E0. exact No.
        -- intros i I1 I2 I3. rewrite D4.
           ++ rewrite E2; [apply E1; exact I2| |exact I1]. intros ->. apply I3. left. reflexivity.
           ++ intros ->. apply I3. left. reflexivity.
           ++ intros ->. apply I3. left. reflexivity.
           ++ intros I. apply I3. right. exact I.
    + assert (E1B : forall i, In i (B ++ [T]) -> H1 i = H i).
      { intros i I. specialize (LB i I). apply E1. lia. }
      destruct (IH fuel H1 b chain T) as (H' & p & D & D1 & D2 & D3 & D4).
      * cbn [length] in F. lia.
      * rewrite Eb. exact Pb.
      * exact LB.
      * eapply seg_ext; [|exact SgB]. intros i I. rewrite E1B by exact I. repeat split.
      * right. rewrite Eb. split; [exact M|exact Lc].
      * exists H', p. split; [exact D|].
        assert (D2' : link H H' p (B ++ [T])).
        { eapply link_ext; [|exact D2]. intros i I. split; [symmetry; apply E1B; exact I|reflexivity]. }
        split; [|split; [|split]].
        -- rewrite D1. apply Ec.
        -- cbn [link]. destruct Cons as (y & r & Cons). rewrite Cons in *. rewrite M. split; [|exact D2'].
           rewrite D3 by lia. rewrite Eb. reflexivity.
        -- intros No. rewrite D4; [|exact No|lia|intros I; specialize (LB _ I); lia]. apply E0. exact No.
        -- intros i I1 I2 I3. rewrite D4.
           ++ apply E1. exact I2.
           ++ exact I1.
           ++ intros ->. apply I3. left. reflexivity.
           ++ intros I. apply I3. right. exact I.
Qed.

Lemma skip_disabled_ok fuel H T : fuel <> O -> dis (H T) = false ->
  exists H', skip_disabled fuel H T T = Ok (H', true) /\ forall i, H' i = H i.
Proof.
  intros F D. destruct fuel; [contradiction|]. cbn [skip_disabled]. unfold skipped. rewrite D, andb_false_r. cbn.
  eexists. split; [reflexivity|]. intros i. destruct (Nat.eq_dec i T) as [->|N]; [rewrite set_par_same; apply ctx_eta|apply set_par_other; exact N].
Qed.

(** Returning to [T] from [x]. *)
Lemma unwind_to_ok : forall B fuel H x T,
  length B + 3 <= fuel -> seg H (x :: B ++ [T]) ->
  exists H' q, unwind_to fuel H x T = Ok (H', q, true) /\ land H H' (B ++ [T]) q /\ In q (B ++ [T]) /\ dead H H' x /\
    (forall i, i <> x -> ~ In i (B ++ [T]) -> H' i = H i).
Proof.
  induction B as [|b B IH]; intros fuel H x T F Sg; (destruct fuel as [|fuel]; [cbn in F; lia|]).
  - cbn [app] in *. destruct Sg as (Sx1 & Sx2 & (P & L) & ST1 & ST2 & _). cbn [unwind_to].
    assert (N : (x =? T) = false) by (apply Nat.eqb_neq; lia). rewrite N, P.
    destruct (unw (H T)) eqn:U.
    + destruct (disable_ok [] fuel H x x T) as (H1 & p & D & D1 & D2 & _ & D4).
      * cbn in *. lia.
      * cbn. exact P.
      * intros i [<-|[]]. exact L.
      * cbn. tauto.
      * left. reflexivity.
      * unfold disable_non_unwind_contexts. rewrite D. cbn [obind]. cbn [app link] in D2. destruct D2 as [-> D2].
        destruct (skip_disabled_ok fuel H1 T) as (H2 & Sk & E2); [cbn in F; lia|rewrite D2; exact ST1|]. rewrite Sk. cbn [obind].
        destruct (uc_link [T] fuel H H2 x (Some T)) as (H' & q & Uc & La & Iq & Dd & O).
        -- cbn in *. lia.
        -- rewrite E2, D1. reflexivity.
        -- cbn [link]. split; [reflexivity|]. rewrite E2. exact D2.
        -- cbn. tauto.
        -- intros [E|[]]. lia.
        -- rewrite Uc. cbn [obind]. exists H', q. split; [reflexivity|]. split; [exact La|]. split; [exact Iq|]. split.
           ++ destruct Dd as (X1 & X2 & X3). unfold dead. rewrite X1, X2, X3, !E2, D1. repeat split.
           ++ intros i I1 I2. rewrite O by assumption. rewrite E2. apply D4; assumption.
    + destruct fuel as [|fuel]; [cbn in F; lia|]. cbn [unwind_to]. rewrite Nat.eqb_refl.
      exists (clear (set_par H x None) T), T. split; [reflexivity|]. split; [|split; [left; reflexivity|split]].
      * exists [], []. split; [reflexivity|]. split; [intros i []|]. left. split; [reflexivity|]. rewrite clear_same, set_par_other by lia. reflexivity.
      * unfold dead. rewrite clear_other by lia. rewrite set_par_same. repeat split.
      * intros i I1 I2. rewrite clear_other by (intros ->; apply I2; left; reflexivity). apply set_par_other. exact I1.
  - cbn [app] in *. pose proof Sg as (Sx1 & Sx2 & (P & L) & Sb).
    assert (LT : T < b) by (apply (seg_lt H (B ++ [T]) b); [exact Sb|apply in_or_app; right; left; reflexivity]).
    assert (Lx : forall i, In i (b :: B ++ [T]) -> i < x) by (intros i I; eapply seg_lt; [exact Sg|exact I]).
    cbn [unwind_to]. assert (N : (x =? T) = false) by (apply Nat.eqb_neq; lia). rewrite N, P.
    destruct (unw (H b)) eqn:U.
    + destruct (disable_ok (b :: B) fuel H x x T) as (H1 & p & D & D1 & D2 & _ & D4).
      * cbn in *. lia.
      * cbn. exact P.
      * exact Lx.
      * exact Sb.
      * left. reflexivity.
      * unfold disable_non_unwind_contexts. rewrite D. cbn [obind].
        assert (ET : H1 T = H T).
        { clear - D2. revert p b D2. induction B as [|c B IH]; intros p b D2.
          - cbn [app link] in D2. destruct (meth (H b)); [destruct D2 as (_ & p' & _ & _ & D2)|destruct D2 as (_ & _ & D2)]; exact D2.
          - cbn [app] in D2, IH. cbn [link] in D2. destruct (meth (H b)); [destruct D2 as (_ & p' & _ & D2)|destruct D2 as (_ & D2)]; eapply IH; exact D2. }
        assert (DT : dis (H T) = false).
        { clear - Sb. revert b Sb. induction B as [|c B IH]; intros b Sb; [apply Sb|]. cbn [app] in *. apply (IH c). apply Sb. }
        destruct (skip_disabled_ok fuel H1 T) as (H2 & Sk & E2); [cbn in F; lia|rewrite ET; exact DT|]. rewrite Sk. cbn [obind].
        destruct (uc_link (b :: B ++ [T]) fuel H H2 x p) as (H' & q & Uc & La & Iq & Dd & O).
        -- cbn [length] in *. rewrite app_length. cbn [length]. lia.
        -- rewrite E2, D1. reflexivity.
        -- eapply link_ext; [|exact D2]. intros i I. split; [reflexivity|apply E2].
        -- exact Sb.
        -- intros I. specialize (Lx x I). lia.
        -- rewrite Uc. cbn [obind]. exists H', q. split; [reflexivity|]. split; [exact La|]. split; [exact Iq|]. split.
           ++ destruct Dd as (X1 & X2 & X3). unfold dead. rewrite X1, X2, X3, !E2, D1. repeat split.
           ++ intros i I1 I2. rewrite O by assumption. rewrite E2. apply D4; assumption.
    + assert (E1 : forall i, i <> x -> set_par H x None i = H i) by (intros i Ni; apply set_par_other; exact Ni).
      destruct (IH fuel (set_par H x None) b T) as (H' & q & R & La & Iq & Dd & O).
      * cbn [length] in F. lia.
      * eapply seg_ext; [|exact Sb]. intros i I. specialize (Lx i I). rewrite E1 by lia. repeat split.
      * exists H', q. split; [exact R|]. split; [|split; [right; exact Iq|split]].
        -- apply land_cons; [exact U| |].
           ++ unfold dead in *. rewrite E1 in Dd by lia. exact Dd.
           ++ eapply land_ext; [|exact La]. intros i I. assert (i < x) by (apply Lx; right; exact I). split; [symmetry; apply E1; lia|reflexivity].
        -- unfold dead. rewrite O; [rewrite set_par_same; repeat split|lia|].
           intros I. assert (x < x) by (apply Lx; right; exact I). lia.
        -- intros i I1 I2. rewrite O.
           ++ apply E1. exact I1.
           ++ intros ->. apply I2. left. reflexivity.
           ++ intros I. apply I2. right. exact I.
Qed.
