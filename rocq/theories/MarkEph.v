(** Proofs about the marking of ephemerons. *)
From Verif Require Import Base Mark MarkSpec MarkProofs.
From Coq Require Import Lia ZifyBool ZifyNat.
Local Open Scope nat_scope.

Section Eph.
Variable h : heap.
Hypothesis good : Forall (good_object h) h.
Hypothesis nik : no_integer_keys h.

(** The F_EPHEMERON flags at the start. *)
Definition ef0 (i : nat) : bool := match nth_error h i with Some ob => is_ephemeron ob | None => false end.

Definition eph (e : nat) : Prop :=
  exists ob, nth_error h e = Some ob /\ is_ephemeron ob = true /\ is_context ob = false.

Definition keyn (e : nat) : nat := match key_of h e with Ok k => k | _ => 0 end.
Definition keys (l : list nat) : list nat := map keyn l.

Lemma eph_key : forall e, eph e -> exists ob, nth_error h e = Some ob
  /\ key_of h e = Ok (keyn e) /\ nth_error (fields ob) 0 = Some (Oop (keyn e)) /\ keyn e < length h
  /\ fields ob = Oop (keyn e) :: tl (fields ob).
Proof.
  intros e (ob & H1 & H2 & H3). exists ob. split; [exact H1|].
  destruct (good_ob h good e ob H1) as (_ & G2 & _ & G4). specialize (G4 H2).
  destruct (fields ob) as [|r fs] eqn:Ef; [congruence|].
  destruct r as [k|z].
  - inversion G2 as [|? ? G5 _]; subst. cbn in G5.
    assert (HK : key_of h e = Ok k).
    { unfold key_of, slot. rewrite H1, Ef. cbn. apply Nat.ltb_lt in G5. unfold Nat.ltb in G5. cbn in G5.
      rewrite G5. reflexivity. }
    unfold keyn. rewrite HK. repeat split; auto.
  - exfalso. apply (nik e z). exists ob. rewrite Ef. auto.
Qed.

Lemma eph_ef0 : forall e, eph e -> ef0 e = true.
Proof. intros e (ob & H1 & H2 & _). unfold ef0. rewrite H1. exact H2. Qed.

(** ** Scanned slots and references *)
Lemma scan_mono : forall ef ef' i ob, (ef i = true -> ef' i = true) -> scan ef' i ob <= scan ef i ob.
Proof.
  intros ef ef' i ob H. unfold scan. destruct (is_context ob); [lia|].
  destruct (ef i) eqn:E; [rewrite (H eq_refl); cbn; lia|]. cbn. destruct (is_weak ob); [destruct (ef' i); cbn; lia|].
  destruct (ef' i); cbn; lia.
Qed.

Lemma scans_mono : forall ef ef' i k j, (ef i = true -> ef' i = true) -> scans h ef' i k j -> scans h ef i k j.
Proof.
  intros ef ef' i k j H (ob & H1 & H2 & H3). exists ob. repeat split; auto.
  pose proof (scan_mono ef ef' i ob H). lia.
Qed.

Lemma scans_refers : forall ef i k j, scans h ef i k j -> refers h i j.
Proof.
  intros ef i k j (ob & H1 & H2 & H3). exists ob. split; [exact H1|].
  destruct k as [|k]; cbn in H3; [left; congruence|]. right.
  unfold scan in H2. unfold strong_fields. destruct (is_context ob) eqn:Hc.
  - destruct (good_ob h good i ob H1) as (_ & _ & G & _). destruct (G Hc) as (sp & E & L1 & L2).
    unfold scan_end in H2. rewrite Hc, E in H2. rewrite E.
    assert (Hk : k < Z.to_nat (7 + (sp + 1))) by lia.
    eapply nth_error_In with (n := k). rewrite <- H3. clear - Hk. revert k Hk.
    generalize (Z.to_nat (7 + (sp + 1))). generalize (fields ob).
    intros l n. revert l. induction n; intros l k Hk; [lia|]. destruct l, k; cbn; auto. apply IHn. lia.
  - destruct (ef i || is_weak ob) eqn:He; [lia|]. apply orb_false_iff in He. destruct He as [_ ->].
    destruct (is_ephemeron ob); eapply nth_error_In, H3.
Qed.

Lemma refers_scans : forall i j, refers h i j -> (exists k, scans h ef0 i k j)
  \/ (eph i /\ exists ob, nth_error h i = Some ob /\ In (Oop j) (fields ob)).
Proof.
  intros i j (ob & H1 & H2).
  assert (S0 : forall r, (r = Oop j) -> nth_error (slots ob) 0 = Some r -> exists k, scans h ef0 i k j).
  { intros r -> H. exists 0. exists ob. repeat split; auto. unfold scan.
    destruct (is_context ob) eqn:Hc.
    - destruct (good_ob h good i ob H1) as (_ & _ & G & _). destruct (G Hc) as (sp & E & L1 & L2).
      unfold scan_end. rewrite Hc, E. lia.
    - destruct (ef0 i || is_weak ob); lia. }
  destruct H2 as [->|H2]; [left; eapply S0; reflexivity|].
  unfold strong_fields in H2. destruct (is_context ob) eqn:Hc.
  - left. destruct (good_ob h good i ob H1) as (_ & _ & G & _). destruct (G Hc) as (sp & E & L1 & L2).
    rewrite E in H2. apply In_nth_error in H2. destruct H2 as [k Hk]. exists (S k), ob.
    assert (Hl : k < Z.to_nat (7 + (sp + 1))).
    { assert (k < length (firstn (Z.to_nat (7 + (sp + 1))) (fields ob))) by (apply nth_error_Some; congruence).
      rewrite firstn_length in H. lia. }
    repeat split; auto.
    + unfold scan. rewrite Hc. unfold scan_end. rewrite Hc, E. lia.
    + cbn. rewrite <- Hk. clear - Hl. revert k Hl.
      generalize (Z.to_nat (7 + (sp + 1))). generalize (fields ob).
      intros l n. revert l. induction n; intros l k Hk; [lia|]. destruct l, k; cbn; auto. apply IHn. lia.
  - destruct (is_ephemeron ob) eqn:He.
    + right. split; [exists ob; auto|eauto].
    + destruct (is_weak ob) eqn:Hw; [destruct H2|]. left.
      apply In_nth_error in H2. destruct H2 as [k Hk]. exists (S k), ob. repeat split; auto.
      unfold scan, ef0. rewrite Hc, H1, He, Hw. cbn [orb]. apply -> Nat.succ_lt_mono. apply nth_error_Some. congruence.
Qed.

Lemma eph_refers : forall e ob j, eph e -> nth_error h e = Some ob -> In (Oop j) (fields ob) -> refers h e j.
Proof.
  intros e ob j (ob' & H1 & H2 & H3) H4 H5. assert (ob' = ob) by congruence. subst ob'.
  exists ob. split; [exact H1|]. right. unfold strong_fields. rewrite H2, H3. exact H5.
Qed.

(** ** The first loop *)
Lemma first_pass_ok : forall l s, (forall e, In e l -> eph e) ->
  exists s', first_pass h s l = Ok s' /\ buffer s' = buffer s
    /\ (forall j, reached s' j = true <-> reached s j = true \/ In j (keys l))
    /\ (forall i, ephf s' i = ephf s i \/ (ephf s' i = false /\ In i l))
    /\ (forall e, In e l -> reached s (keyn e) = true -> ephf s' e = false)
    /\ (forall e, NoDup l -> In e l -> ephf s e = true -> reached s (keyn e) = false ->
          (forall e', In e' l -> e' <> e -> keyn e' <> keyn e) -> ephf s' e = true).
Proof.
  intros l. induction l as [|e l IH]; intros s Hl; cbn [first_pass].
  - exists s. split; [reflexivity|]. split; [reflexivity|].
    split; [intros j; cbn; tauto|]. split; [auto|]. split; intros e; intros; cbn in *; tauto.
  - destruct (eph_key e (Hl e (or_introl eq_refl))) as (ob & K1 & K2 & K3 & K4 & K5).
    rewrite K2. cbn [obind].
    set (s1 := if reached s (keyn e) then set_ephf s e false else s).
    destruct (IH (set_reached s1 (keyn e) true)) as (s' & R1 & R2 & R3 & R4 & R5 & R6).
    { intros x Hx. apply Hl. right. exact Hx. }
    assert (F1 : reached s1 = reached s) by (unfold s1; destruct (reached s (keyn e)); reflexivity).
    assert (F2 : buffer s1 = buffer s) by (unfold s1; destruct (reached s (keyn e)); reflexivity).
    exists s'. split; [exact R1|]. split; [rewrite R2; exact F2|]. split; [|split; [|split]].
    + intros j. rewrite R3, reached_set, F1. cbn [keys map In]. destruct (Nat.eqb_spec j (keyn e)) as [->|]; [tauto|].
      split; intros [X|X]; auto. destruct X as [X|X]; auto.
    + intros i. destruct (R4 i) as [X|[X1 X2]]; [|right; split; [exact X1|right; exact X2]].
      cbn [set_reached ephf] in X. rewrite X. unfold s1. destruct (reached s (keyn e)); [|auto].
      cbn [set_ephf ephf]. destruct (Nat.eqb_spec i e) as [->|]; [right; split; [reflexivity|left; reflexivity]|auto].
    + intros x Hx Hr. destruct (in_dec Nat.eq_dec x l) as [Hi|Hi].
      * apply R5; [exact Hi|]. apply reached_mono. rewrite F1. exact Hr.
      * destruct Hx as [<-|Hx]; [|contradiction]. destruct (R4 e) as [X|[X _]]; [|exact X].
        cbn [set_reached ephf] in X. rewrite X. unfold s1. rewrite Hr. cbn [set_ephf ephf]. rewrite Nat.eqb_refl. reflexivity.
    + intros x Hnd Hx He Hr Hk. inversion Hnd as [|? ? N1 N2]; subst. destruct Hx as [<-|Hx].
      * destruct (R4 e) as [X|[_ X]]; [|contradiction]. cbn [set_reached ephf] in X. rewrite X. unfold s1. rewrite Hr. exact He.
      * assert (Hxe : x <> e) by (intros ->; contradiction).
        apply R6; auto.
        -- cbn [set_reached ephf]. unfold s1. destruct (reached s (keyn e)); [|exact He].
           cbn [set_ephf ephf]. apply Nat.eqb_neq in Hxe. rewrite Hxe. exact He.
        -- rewrite reached_set, F1. destruct (Nat.eqb_spec (keyn x) (keyn e)) as [X|]; [|exact Hr].
           exfalso. apply (Hk e); auto. left. reflexivity.
        -- intros e' He' Hne. apply Hk; [right; exact He'|exact Hne].
Qed.

(** ** The second loop *)
Definition qclosed (ef : nat -> bool) (Q : nat -> Prop) : Prop :=
  forall i k j, Q i -> scans h ef i k j -> Q j.

Definition done (s : marks) (i : nat) : Prop :=
  forall ob j, nth_error h i = Some ob -> In (Oop j) (fields ob) -> reached s j = true.

Record pinv (s : marks) (B : list nat) (Q : nat -> Prop) : Prop := {
  p_eph : forall i, ephf s i = ef0 i \/ (ephf s i = false /\ In i B);
  p_closed : forall i k j, reached s i = true -> ~ In i (keys B) -> scans h ef0 i k j -> reached s j = true;
  p_done : forall i, eph i -> reached s i = true ->
    In i B \/ In i (buffer s) \/ done s i \/ In i (keys B);
  p_B : forall i, In i B -> eph i /\ reached s i = true;
  p_buf : forall i, In i (buffer s) -> eph i /\ reached s i = true;
  p_keys : forall i, In i (keys B) -> reached s i = true;
  p_lt : forall i, reached s i = true -> i < length h;
  p_sound : forall i, reached s i = true -> Q i
}.

Lemma eph_ef_le : forall s B Q i, pinv s B Q -> ephf s i = true -> ef0 i = true.
Proof. intros s B Q i H Hi. destruct (p_eph _ _ _ H i) as [X|[X _]]; congruence. Qed.

Lemma iter_ok : forall s e B Q, pinv s (e :: B) Q -> closed_pred h (set_reached s (keyn e) false) Q ->
  (forall ob j, nth_error h e = Some ob -> In (Oop j) (fields ob) -> Q j) ->
  exists ob s2 s3, nth_error h e = Some ob /\ key_of h e = Ok (keyn e)
    /\ mark_range h (set_reached s (keyn e) false) (tl (fields ob)) = Ok s2
    /\ marked_from h (set_reached s (keyn e) false) s2 (tl (fields ob)) Q
    /\ maybe_mark h s2 (Oop (keyn e)) = Ok s3 /\ marked_from h s2 s3 [Oop (keyn e)] Q
    /\ (forall i, reached s i = true -> reached s3 i = true)
    /\ pinv (set_ephf s3 e true) B Q.
Proof.
  intros s e B Q HI Q1 HF.
  assert (He : eph e) by (apply (p_B _ _ _ HI); left; reflexivity).
  destruct (eph_key e He) as (ob & K1 & K2 & K3 & K4 & K5). exists ob.
  set (k := keyn e) in *. set (s1 := set_reached s k false) in *.
  assert (Hk : reached s k = true) by (apply (p_keys _ _ _ HI); left; reflexivity).
  pose proof (good_ob h good e ob K1) as (_ & G2 & _). rewrite K5 in G2. inversion G2 as [|? ? G3 G4]; subst.
  assert (HFe : forall j, In (Oop j) (fields ob) -> Q j) by eauto.
  destruct (mark_range_ok h good (tl (fields ob)) s1 Q G4 Q1) as (s2 & M1 & M2).
  { intros i Hi. apply HFe. rewrite K5. right. exact Hi. }
  destruct (maybe_mark_ok h good s2 (Oop k) Q) as (s3 & M3 & M4).
  { exact K4. }
  { eapply closed_mono; eassumption. }
  { intros i E. injection E as <-. apply HFe. rewrite K5. left. reflexivity. }
  pose proof (marked_trans h s1 s2 s3 _ _ Q M2 M4) as MT.
  assert (HS : forall i, reached s i = true -> reached s3 i = true).
  { intros i Hi. destruct (Nat.eq_dec i k) as [->|Hne].
    - apply (m_roots _ _ _ _ _ M4). left. reflexivity.
    - apply (m_sub _ _ _ _ _ MT). unfold s1. rewrite reached_set. apply Nat.eqb_neq in Hne. rewrite Hne. exact Hi. }
  assert (HC : forall i, reached s3 i = true -> new s1 s3 i \/ (reached s i = true /\ i <> k)).
  { intros i Hi. destruct (reached s1 i) eqn:E1; [|left; split; assumption]. right. unfold s1 in E1. rewrite reached_set in E1.
    destruct (Nat.eqb_spec i k); [discriminate|auto]. }
  assert (HE : ephf s3 = ephf s) by exact (m_eph _ _ _ _ _ MT).
  assert (Hdone : done s3 e).
  { intros ob' j E Hj. assert (ob' = ob) by congruence. subst ob'. apply (m_roots _ _ _ _ _ MT).
    rewrite K5 in Hj. apply in_app_iff. destruct Hj as [Hj|Hj]; [right; left; exact Hj|left; exact Hj]. }
  destruct (m_buf _ _ _ _ _ MT) as (nb & N1 & N2 & N3).
  exists s2, s3. split; [exact K1|]. split; [exact K2|]. split; [exact M1|]. split; [exact M2|].
  split; [exact M3|]. split; [exact M4|]. split; [exact HS|].
  destruct HI as [I1 I2 I3 I4 I5 I6 I7 I8]. split; cbn [set_ephf reached ephf buffer].
  - intros i. rewrite HE. destruct (Nat.eqb_spec i e) as [->|Hne].
    + left. symmetry. apply eph_ef0, He.
    + destruct (I1 i) as [X|[X1 X2]]; [auto|]. right. split; [exact X1|]. destruct X2; [congruence|assumption].
  - intros i kk j Hi Hni Hs. destruct (HC i Hi) as [Hn|[Hr Hne]].
    + apply (m_closed _ _ _ _ _ MT i kk j Hn). cbn [s1 set_reached ephf].
      apply (scans_mono (ephf s) ef0); [|exact Hs]. intros X. destruct (I1 i) as [Y|[Y _]]; congruence.
    + apply HS. apply (I2 i kk j Hr); [|exact Hs]. intros [X|X]; [apply Hne; symmetry; exact X|auto].
  - intros i Hei Hi. unfold done. cbn [set_ephf reached]. fold (done s3 i). destruct (HC i Hi) as [Hn|[Hr Hne]].
    + destruct (I1 i) as [X|[X1 X2]].
      * right. left. rewrite N1. apply in_app_iff. right. apply N3. split; [exact Hn|].
        split; [cbn [s1 set_reached ephf]; rewrite X; apply eph_ef0, Hei|]. destruct Hei as (oi & Y1 & Y2 & Y3). eauto.
      * destruct X2 as [<-|X2]; auto.
    + destruct (I3 i Hei Hr) as [X|[X|[X|X]]].
      * destruct X as [<-|X]; auto.
      * right. left. rewrite N1. apply in_app_iff. left. exact X.
      * right. right. left. intros o j Y1 Y2. apply HS. apply (X o j Y1 Y2).
      * destruct X as [X|X]; [exfalso; apply Hne; symmetry; exact X|auto].
  - intros i Hi. destruct (I4 i) as [X1 X2]; [right; exact Hi|]. auto.
  - intros i Hi. rewrite N1 in Hi. apply in_app_iff in Hi. destruct Hi as [Hi|Hi].
    + destruct (I5 i Hi) as [X1 X2]. auto.
    + apply N3 in Hi. destruct Hi as ([X1 X2] & X3 & oi & X4 & X5). split; [|exact X1].
      exists oi. repeat split; auto. cbn [s1 set_reached ephf] in X3.
      destruct (I1 i) as [Y|[Y _]]; [|congruence]. rewrite Y in X3. unfold ef0 in X3. rewrite X4 in X3. exact X3.
  - intros i Hi. apply HS, I6. right. exact Hi.
  - intros i Hi. destruct (HC i Hi) as [Hn|[Hr _]]; [apply (m_lt _ _ _ _ _ MT), Hn|auto].
  - intros i Hi. destruct (HC i Hi) as [Hn|[Hr _]]; [apply (m_sound _ _ _ _ _ MT), Hn|auto].
Qed.

Lemma second_pass_eq : forall s e B dead ob s2 s3, nth_error h e = Some ob -> key_of h e = Ok (keyn e) ->
  mark_range h (set_reached s (keyn e) false) (tl (fields ob)) = Ok s2 ->
  maybe_mark h s2 (Oop (keyn e)) = Ok s3 ->
  second_pass h s (e :: B) dead =
  second_pass h (set_ephf s3 e true) B
    (if negb (reached s2 (keyn e)) && ephf s2 e then dead ++ [e] else dead).
Proof.
  intros s e B dead ob s2 s3 H1 H2 H3 H4. cbn [second_pass]. rewrite H2. cbn [obind]. rewrite H1, H3. cbn [obind].
  rewrite H4. reflexivity.
Qed.

(** Predicates closed under references. *)
Definition rclosed (Q : nat -> Prop) : Prop := forall i j, Q i -> refers h i j -> Q j.

Lemma rclosed_q : forall Q ef, rclosed Q -> qclosed ef Q.
Proof. intros Q ef H i k j Hi Hs. apply (H i j Hi). eapply scans_refers, Hs. Qed.

Lemma second_pass_ok : forall B s dead Q, rclosed Q -> pinv s B Q ->
  exists s' dead', second_pass h s B dead = Ok (s', dead') /\ pinv s' [] Q
    /\ (forall i, reached s i = true -> reached s' i = true)
    /\ (exists d, dead' = dead ++ d)
    /\ (exists nb, buffer s' = buffer s ++ nb).
Proof.
  intros B. induction B as [|e B IH]; intros s dead Q HQ HI.
  - exists s, dead. split; [reflexivity|]. split; [exact HI|]. split; [auto|].
    split; exists []; symmetry; apply app_nil_r.
  - assert (He : eph e /\ reached s e = true) by (apply (p_B _ _ _ HI); left; reflexivity).
    destruct (iter_ok s e B Q HI) as (ob & s2 & s3 & A1 & A2 & A3 & A4 & A5 & A6 & A7 & A8).
    { intros x k j A _ C. exact (rclosed_q Q _ HQ x k j A C). }
    { intros ob j H1 H2. apply (HQ e j); [apply (p_sound _ _ _ HI), He|]. eapply eph_refers; try apply He; eassumption. }
    rewrite (second_pass_eq s e B dead ob s2 s3 A1 A2 A3 A5).
    destruct (IH (set_ephf s3 e true) (if negb (reached s2 (keyn e)) && ephf s2 e then dead ++ [e] else dead) Q HQ A8)
      as (s' & dead' & B1 & B2 & B3 & (d & B4) & (nb & B5)).
    exists s', dead'. split; [exact B1|]. split; [exact B2|]. split; [intros i Hi; apply B3; apply A7, Hi|]. split.
    + destruct (negb (reached s2 (keyn e)) && ephf s2 e); [exists ([e] ++ d); rewrite B4, <- app_assoc; reflexivity|eauto].
    + destruct (m_buf _ _ _ _ _ A4) as (n1 & C1 & _). destruct (m_buf _ _ _ _ _ A6) as (n2 & C2 & _).
      cbn [set_ephf buffer set_reached] in *. exists (n1 ++ n2 ++ nb). rewrite B5, C2, C1, <- !app_assoc. reflexivity.
Qed.

(** ** Levels *)
Record lev (s : marks) (Q : nat -> Prop) : Prop := {
  v_eph : forall i, ephf s i = ef0 i;
  v_closed : forall i k j, reached s i = true -> scans h ef0 i k j -> reached s j = true;
  v_done : forall i, eph i -> reached s i = true -> In i (buffer s) \/ done s i;
  v_B : forall i, In i (buffer s) -> eph i /\ reached s i = true;
  v_lt : forall i, reached s i = true -> i < length h;
  v_sound : forall i, reached s i = true -> Q i
}.

Definition emptied (s : marks) : marks := Marks (reached s) (ephf s) [].

(** between the two loops *)
Lemma between : forall s (Q : nat -> Prop), (forall e, In e (buffer s) -> Q (keyn e)) -> lev s Q ->
  exists s1, first_pass h (emptied s) (buffer s) = Ok s1 /\ pinv s1 (buffer s) Q /\ buffer s1 = []
    /\ (forall j, reached s1 j = true <-> reached s j = true \/ In j (keys (buffer s)))
    /\ (forall e, In e (buffer s) -> reached s (keyn e) = true -> ephf s1 e = false)
    /\ (forall e, NoDup (buffer s) -> In e (buffer s) -> reached s (keyn e) = false ->
          (forall e', In e' (buffer s) -> e' <> e -> keyn e' <> keyn e) -> ephf s1 e = true).
Proof.
  intros s Q HK [V1 V2 V3 V4 V5 V6].
  destruct (first_pass_ok (buffer s) (emptied s)) as (s1 & R1 & R2 & R3 & R4 & R5 & R6).
  { intros e He. apply V4, He. }
  cbn [emptied reached ephf buffer] in *.
  assert (HKl : forall i, In i (keys (buffer s)) -> i < length h /\ Q i).
  { intros i Hi. apply in_map_iff in Hi. destruct Hi as (e & <- & He). split; [|auto].
    destruct (eph_key e) as (ob & _ & _ & _ & X & _); [apply V4, He|exact X]. }
  exists s1. split; [exact R1|]. split; [|split; [exact R2|split; [exact R3|split; [exact R5|]]]].
  - split.
    + intros i. rewrite <- V1. apply R4.
    + intros i k j Hi Hni Hs. apply R3 in Hi. apply R3. destruct Hi as [Hi|Hi]; [|contradiction]. left. eauto.
    + intros i He Hi. apply R3 in Hi. destruct Hi as [Hi|Hi]; [|auto].
      destruct (V3 i He Hi) as [X|X]; [auto|]. right. right. left. intros ob j Y1 Y2. apply R3. left. apply (X ob j Y1 Y2).
    + intros i Hi. destruct (V4 i Hi) as [X1 X2]. split; [exact X1|]. apply R3. auto.
    + intros i Hi. rewrite R2 in Hi. destruct Hi.
    + intros i Hi. apply R3. auto.
    + intros i Hi. apply R3 in Hi. destruct Hi as [Hi|Hi]; [auto|]. apply HKl, Hi.
    + intros i Hi. apply R3 in Hi. destruct Hi as [Hi|Hi]; [auto|]. apply HKl, Hi.
  - intros e Hnd He Hr Hk. apply R6; auto. rewrite V1. apply eph_ef0, V4, He.
Qed.

Lemma after : forall s Q, pinv s [] Q -> lev s Q.
Proof.
  intros s Q [I1 I2 I3 I4 I5 I6 I7 I8]. split; auto.
  - intros i. destruct (I1 i) as [X|[_ []]]. exact X.
  - intros i k j Hi Hs. apply (I2 i k j Hi); auto.
  - intros i He Hi. destruct (I3 i He Hi) as [[]|[X|[X|[]]]]; auto.
Qed.

Lemma level_ok : forall s Q, rclosed Q -> lev s Q ->
  exists s1 s2 dead, first_pass h (emptied s) (buffer s) = Ok s1
    /\ second_pass h s1 (buffer s) [] = Ok (s2, dead) /\ lev s2 Q
    /\ (forall i, reached s i = true -> reached s2 i = true).
Proof.
  intros s Q HQ HL.
  destruct (between s Q) as (s1 & A1 & A2 & A3 & A4 & _); [|exact HL|].
  { intros e He. destruct (v_B _ _ HL e He) as [X1 X2]. destruct (eph_key e X1) as (ob & K1 & _ & K3 & _).
    apply (HQ e); [apply (v_sound _ _ HL), X2|]. apply (eph_refers e ob); auto. eapply nth_error_In, K3. }
  destruct (second_pass_ok (buffer s) s1 [] Q HQ A2) as (s2 & dead & B1 & B2 & B3 & _).
  exists s1, s2, dead. split; [exact A1|]. split; [exact B1|]. split; [apply after, B2|].
  intros i Hi. apply B3, A4. auto.
Qed.

Lemma level_eq : forall fuel s s1 s2 dead, first_pass h (emptied s) (buffer s) = Ok s1 ->
  second_pass h s1 (buffer s) [] = Ok (s2, dead) ->
  mark_ephemerons (S fuel) h s =
  (olet s := match buffer s2 with [] => Ok s2 | _ => mark_ephemerons fuel h s2 end in
   Ok (Marks (reached s) (ephf s) (buffer s ++ dead))).
Proof. intros fuel s s1 s2 dead H1 H2. cbn [mark_ephemerons]. unfold emptied in H1. rewrite H1. cbn [obind]. rewrite H2. reflexivity. Qed.

(** Everything marked and nothing left to do. *)
Definition final (s : marks) (Q : nat -> Prop) : Prop :=
  (forall i, reached s i = true -> Q i) /\ (forall i j, reached s i = true -> refers h i j -> reached s j = true).

Lemma lev_final : forall s Q, lev s Q -> buffer s = [] -> final s Q.
Proof.
  intros s Q [V1 V2 V3 V4 V5 V6] Hb. split; [exact V6|]. intros i j Hi Hr.
  destruct (refers_scans i j Hr) as [[k Hs]|[He (ob & O1 & O2)]]; [eauto|].
  destruct (V3 i He Hi) as [X|X]; [rewrite Hb in X; destruct X|]. apply (X ob j O1 O2).
Qed.

Lemma mark_ephemerons_ok : forall fuel s Q, rclosed Q -> lev s Q ->
  mark_ephemerons fuel h s = OutOfFuel \/
  exists s', mark_ephemerons fuel h s = Ok s' /\ final s' Q
    /\ (forall i, reached s i = true -> reached s' i = true).
Proof.
  intros fuel. induction fuel as [|fuel IH]; intros s Q HQ HL; [left; reflexivity|].
  destruct (level_ok s Q HQ HL) as (s1 & s2 & dead & A1 & A2 & A3 & A4).
  rewrite (level_eq fuel s s1 s2 dead A1 A2).
  destruct (buffer s2) as [|b bs] eqn:Hb.
  - right. cbn [obind]. eexists. split; [reflexivity|]. split; [|exact A4]. apply (lev_final s2 Q A3 Hb).
  - destruct (IH s2 Q HQ A3) as [X|(s' & X1 & X2 & X3)].
    + left. rewrite X. reflexivity.
    + right. rewrite X1. cbn [obind]. eexists. split; [reflexivity|]. split; [exact X2|]. cbn [reached]. auto.
Qed.

(** ** The start *)
Lemma start_ok : forall roots Q, Forall (exists_in h) roots -> qclosed ef0 Q ->
  (forall i, In (Oop i) roots -> Q i) ->
  exists s, mark_range h (no_marks h) roots = Ok s /\ lev s Q
    /\ (forall i, In (Oop i) roots -> reached s i = true)
    /\ NoDup (buffer s) /\ (forall i, eph i -> reached s i = true -> In i (buffer s)).
Proof.
  intros roots Q Hr HQ Hq.
  assert (E0 : ephf (no_marks h) = ef0) by reflexivity.
  destruct (mark_range_ok h good roots (no_marks h) Q Hr) as (s & M1 & M2); auto.
  { intros i k j A _ B. exact (HQ i k j A B). }
  exists s. split; [exact M1|]. destruct M2 as [A1 A2 A3 A4 A5 (nb & B1 & B2 & B3) A7].
  assert (HN : forall i, reached s i = true -> new (no_marks h) s i) by (intros i Hi; split; auto).
  cbn [no_marks buffer] in B1. cbn in B1.
  assert (HB : forall i, eph i -> reached s i = true -> In i (buffer s)).
  { intros i He Hi. rewrite B1. apply B3. split; [auto|]. split; [rewrite E0; apply eph_ef0, He|].
    destruct He as (ob & X1 & X2 & X3). eauto. }
  split; [|split; [exact A3|split; [congruence|exact HB]]].
  split; auto.
  - intros i. rewrite A1. reflexivity.
  - intros i k j Hi Hs. apply (A4 i k j); auto.
  - intros i Hi. rewrite B1 in Hi. apply B3 in Hi. destruct Hi as ([X1 _] & X2 & ob & X3 & X4).
    split; [|exact X1]. exists ob. repeat split; auto. rewrite E0 in X2. unfold ef0 in X2. rewrite X3 in X2. exact X2.
Qed.

Lemma reachable_rclosed : forall roots, rclosed (reachable h roots).
Proof. intros roots i j Hi Hr. eapply from_object; eassumption. Qed.

Lemma mark_exact : forall fuel roots, Forall (exists_in h) roots ->
  mark_oops fuel h roots = OutOfFuel \/
  exists s, mark_oops fuel h roots = Ok s /\ forall i, reached s i = true <-> reachable h roots i.
Proof.
  intros fuel roots Hr. unfold mark_oops.
  destruct (start_ok roots (reachable h roots) Hr) as (s & A1 & A2 & A3 & _).
  { apply rclosed_q, reachable_rclosed. }
  { intros i Hi. apply from_root, Hi. }
  rewrite A1. cbn [obind].
  destruct (mark_ephemerons_ok fuel s _ (reachable_rclosed roots) A2) as [X|(s' & X1 & [X2 X3] & X4)]; [auto|].
  right. exists s'. split; [exact X1|]. intros i. split; [apply X2|].
  intros Hi. induction Hi as [i Hi|i j Hi IH Hij]; [auto|]. eapply X3; eassumption.
Qed.
End Eph.
