(** Proofs about which ephemerons are mourned. *)
From Verif Require Import Base Mark MarkSpec MarkProofs MarkEph.
From Coq Require Import Lia ZifyBool ZifyNat.
Local Open Scope nat_scope.

Section Mourn.
Variable h : heap.
Hypothesis good : Forall (good_object h) h.
Hypothesis nik : no_integer_keys h.
Hypothesis nek : no_ephemeron_keys h.

Lemma eph_dec : forall i, {eph h i} + {~ eph h i}.
Proof.
  intros i. unfold eph. destruct (nth_error h i) as [ob|]; [|right; intros (? & ? & _); discriminate].
  destruct (is_ephemeron ob) eqn:E1; [|right; intros (? & X & Y & _); congruence].
  destruct (is_context ob) eqn:E2; [right; intros (? & X & _ & Y); congruence|left; eauto].
Qed.

Lemma key_not_eph : forall e, eph h e -> ~ eph h (keyn h e).
Proof.
  intros e He Hk. destruct (eph_key h good nik e He) as (ob & K1 & K2 & K3 & _).
  destruct (eph_key h good nik (keyn h e) Hk) as (ob' & L1 & L2 & L3 & _).
  destruct He as (o1 & X1 & X2 & X3). destruct Hk as (o2 & Y1 & Y2 & Y3).
  assert (o1 = ob) by congruence. assert (o2 = ob') by congruence. subst.
  apply (nek e (keyn h e) (Oop (keyn h (keyn h e)))); [exists ob; auto|exists ob'; auto].
Qed.

Record einv (st s : marks) : Prop := {
  e_new : forall i, eph h i -> (reached s i = true <-> reached st i = true \/ In i (buffer s));
  e_nodup : NoDup (buffer s);
  e_not : forall i, In i (buffer s) -> reached st i = false
}.

Lemma iter_einv : forall st s e B Q s2 s3 R1, pinv h s (e :: B) Q -> einv st s ->
  marked_from h (set_reached s (keyn h e) false) s2 R1 Q -> marked_from h s2 s3 [Oop (keyn h e)] Q ->
  einv st (set_ephf s3 e true).
Proof.
  intros st s e B Q s2 s3 R1 HI [E1 E2 E3] M2 M4. pose proof (marked_trans h _ s2 s3 _ _ Q M2 M4) as MT.
  set (s1 := set_reached s (keyn h e) false) in *.
  destruct (m_buf _ _ _ _ _ MT) as (nb & N1 & N2 & N3).
  assert (He : eph h e) by (apply (p_B _ _ _ _ HI); left; reflexivity).
  assert (HR : forall i, eph h i -> reached s1 i = reached s i).
  { intros i Hi. unfold s1. rewrite reached_set. destruct (Nat.eqb_spec i (keyn h e)) as [->|]; [|reflexivity].
    exfalso. exact (key_not_eph e He Hi). }
  assert (HB : forall i, In i (buffer s) -> eph h i /\ reached s i = true) by apply (p_buf _ _ _ _ HI).
  assert (HN : forall i, eph h i -> (new s1 s3 i <-> In i nb)).
  { intros i Hi. rewrite N3. split; [|tauto]. intros Hn. split; [exact Hn|]. split.
    - cbn [s1 set_reached ephf]. destruct (p_eph _ _ _ _ HI i) as [X|[X1 X2]].
      + rewrite X. apply eph_ef0, Hi.
      + destruct (p_B _ _ _ _ HI i X2) as [_ X3]. destruct Hn as [_ Hn]. rewrite HR in Hn by exact Hi. congruence.
    - destruct Hi as (ob & O1 & O2 & O3). eauto. }
  assert (HNB : forall i, In i nb -> eph h i).
  { intros i Hi. apply N3 in Hi. destruct Hi as (_ & X3 & oi & X4 & X5). exists oi. repeat split; auto.
    cbn [s1 set_reached ephf] in X3. pose proof (eph_ef_le h s (e :: B) Q i HI X3) as Y. unfold ef0 in Y. rewrite X4 in Y. exact Y. }
  cbn [s1 set_reached buffer] in N1. split; cbn [set_ephf reached buffer].
  - intros i Hi. rewrite N1, in_app_iff. split.
    + intros Hr. destruct (reached s1 i) eqn:E.
      * rewrite HR in E by exact Hi. apply E1 in E; tauto.
      * right. right. apply HN; [exact Hi|]. split; assumption.
    + intros [X|[X|X]].
      * apply (m_sub _ _ _ _ _ MT). rewrite HR by exact Hi. apply E1; auto.
      * apply (m_sub _ _ _ _ _ MT). rewrite HR by exact Hi. apply E1; auto.
      * apply HN in X; [|exact Hi]. apply X.
  - rewrite N1. assert (Hd : forall x, In x (buffer s) -> In x nb -> False).
    { intros x X1 X2. destruct (HB x X1) as [Y1 Y2]. apply HN in X2; [|exact Y1]. destruct X2 as [_ X2].
      rewrite HR in X2 by exact Y1. congruence. }
    clear - E2 N2 Hd. induction (buffer s) as [|x l IH]; [exact N2|]. cbn. inversion E2; subst. constructor.
    + rewrite in_app_iff. intros [X|X]; [auto|]. apply (Hd x); [left; reflexivity|exact X].
    + apply IH; [assumption|]. intros y Y1 Y2. apply (Hd y); [right; exact Y1|exact Y2].
  - intros i Hi. rewrite N1 in Hi. apply in_app_iff in Hi. destruct Hi as [Hi|Hi]; [auto|].
    pose proof (HNB i Hi) as He'. apply HN in Hi; [|exact He']. destruct Hi as [_ Hi]. rewrite HR in Hi by exact He'.
    destruct (reached st i) eqn:E; [|reflexivity]. assert (reached s i = true) by (apply E1; auto). congruence.
Qed.

Lemma True_closed : rclosed h (fun _ => True).
Proof. intros i j _ _. exact I. Qed.

Lemma True_pred : forall s, closed_pred h s (fun _ => True).
Proof. intros s i k j _ _ _. exact I. Qed.

(** The second loop: the new buffer, and who may be found dead. *)
Lemma second_pass_einv : forall B st s dead s' dead', pinv h s B (fun _ => True) -> einv st s -> NoDup B ->
  second_pass h s B dead = Ok (s', dead') ->
  einv st s' /\ forall x, In x dead' -> In x dead \/ (In x B /\ ephf s x = true).
Proof.
  intros B. induction B as [|e B IH]; intros st s dead s' dead' HI HE Hnd HS.
  - cbn [second_pass] in HS. injection HS as <- <-. auto.
  - destruct (iter_ok h good nik s e B _ HI (True_pred _) (fun _ _ _ _ => I))
      as (ob & s2 & s3 & A1 & A2 & A3 & A4 & A5 & A6 & A7 & A8).
    rewrite (second_pass_eq h s e B dead ob s2 s3 A1 A2 A3 A5) in HS.
    inversion Hnd as [|? ? N1 N2]; subst.
    destruct (IH st _ _ s' dead' A8 (iter_einv st s e B _ s2 s3 _ HI HE A4 A6) N2 HS) as [C1 C2].
    split; [exact C1|]. intros x Hx. specialize (C2 x Hx).
    assert (E2 : ephf s2 = ephf s) by exact (m_eph _ _ _ _ _ A4).
    assert (E3 : ephf s3 = ephf s) by (rewrite (m_eph _ _ _ _ _ A6); exact E2).
    destruct C2 as [C2|[C2 C3]].
    + rewrite E2 in C2. destruct (negb (reached s2 (keyn h e)) && ephf s e) eqn:Eb; [|auto].
      apply in_app_iff in C2. destruct C2 as [C2|[<-|[]]]; [auto|]. right. split; [left; reflexivity|].
      apply andb_true_iff in Eb. apply Eb.
    + right. split; [right; exact C2|]. cbn [set_ephf ephf] in C3. rewrite E3 in C3.
      destruct (Nat.eqb_spec x e) as [->|]; [contradiction|exact C3].
Qed.

Lemma pinv_weaken : forall s B (Q Q2 : nat -> Prop), (forall i, Q i -> Q2 i) -> pinv h s B Q -> pinv h s B Q2.
Proof. intros s B Q Q2 H [I1 I2 I3 I4 I5 I6 I7 I8]. split; auto. Qed.

Lemma lev_weaken : forall s (Q Q2 : nat -> Prop), (forall i, Q i -> Q2 i) -> lev h s Q -> lev h s Q2.
Proof. intros s Q Q2 H [I1 I2 I3 I4 I5 I6]. split; auto. Qed.

(** One level. *)
Lemma level_eph : forall s, lev h s (fun _ => True) -> NoDup (buffer s) ->
  exists s1 s2 dead, first_pass h (emptied s) (buffer s) = Ok s1
    /\ second_pass h s1 (buffer s) [] = Ok (s2, dead) /\ lev h s2 (fun _ => True)
    /\ (forall i, reached s i = true -> reached s2 i = true)
    /\ einv s s2
    /\ (forall x, In x dead -> eph h x /\ reached s (keyn h x) = false).
Proof.
  intros s HL Hnd. destruct (between h good nik s _ (fun _ _ => I) HL) as (s1 & A1 & A2 & A3 & A4 & A5 & A6).
  destruct (second_pass_ok h good nik (buffer s) s1 [] _ True_closed A2) as (s2 & dead & B1 & B2 & B3 & _).
  assert (HE : einv s s1).
  { split.
    - intros i Hi. rewrite A4, A3. cbn [In]. split; [|tauto]. intros [X|X]; [auto|]. exfalso.
      apply in_map_iff in X. destruct X as (e & <- & He). apply (key_not_eph e); [apply (v_B _ _ _ HL), He|exact Hi].
    - rewrite A3. constructor.
    - rewrite A3. intros i []. }
  destruct (second_pass_einv (buffer s) s s1 [] s2 dead A2 HE Hnd B1) as [C1 C2].
  exists s1, s2, dead. split; [exact A1|]. split; [exact B1|]. split; [apply after, B2|].
  split; [intros i Hi; apply B3, A4; auto|]. split; [exact C1|].
  intros x Hx. destruct (C2 x Hx) as [[]|[X1 X2]]. split; [apply (v_B _ _ _ HL), X1|].
  destruct (reached s (keyn h x)) eqn:E; [|reflexivity]. rewrite (A5 x X1 E) in X2. discriminate.
Qed.

(** ** The recursion ends *)
Definition ephb (i : nat) : bool := if eph_dec i then true else false.
Definition left_over (s : marks) : nat :=
  length (filter (fun i => negb (reached s i) && ephb i) (seq 0 (length h))).

Lemma left_le : forall s, left_over s <= length h.
Proof.
  intros s. unfold left_over. rewrite <- (seq_length (length h) 0) at 2.
  generalize (seq 0 (length h)). intros l. induction l as [|x l IH]; cbn; [lia|].
  destruct (negb (reached s x) && ephb x); cbn; lia.
Qed.

Lemma levels_end : forall fuel s, left_over s < fuel -> lev h s (fun _ => True) -> NoDup (buffer s) ->
  exists s', mark_ephemerons fuel h s = Ok s'
    /\ forall x, In x (buffer s') -> eph h x /\ reached s (keyn h x) = false.
Proof.
  intros fuel. induction fuel as [|fuel IH]; intros s Hf HL Hnd; [lia|].
  destruct (level_eph s HL Hnd) as (s1 & s2 & dead & A1 & A2 & A3 & A4 & A5 & A6).
  rewrite (level_eq h fuel s s1 s2 dead A1 A2).
  destruct (buffer s2) as [|b bs] eqn:Hb.
  - cbn [obind]. eexists. split; [reflexivity|]. cbn [buffer]. rewrite Hb. cbn [app]. exact A6.
  - assert (HX : left_over s2 < left_over s).
    { unfold left_over. assert (Hbin : In b (buffer s2)) by (rewrite Hb; left; reflexivity).
      destruct (v_B _ _ _ A3 b Hbin) as [X1 X2].
      apply filter_lt with (i := b).
      - intros x Hx. apply andb_true_iff in Hx. destruct Hx as [Y1 Y2]. rewrite Y2, andb_true_r.
        destruct (reached s x) eqn:E; [|reflexivity]. rewrite (A4 x E) in Y1. discriminate.
      - apply in_seq. pose proof (v_lt _ _ _ A3 b X2). lia.
      - rewrite X2. reflexivity.
      - rewrite (e_not _ _ A5 b Hbin). unfold ephb. destruct (eph_dec b); [reflexivity|contradiction]. }
    destruct (IH s2) as (s' & B1 & B2); [lia|exact A3|apply (e_nodup _ _ A5)|].
    rewrite B1. cbn [obind]. eexists. split; [reflexivity|]. cbn [buffer]. intros x Hx.
    apply in_app_iff in Hx. destruct Hx as [Hx|Hx]; [|auto]. destruct (B2 x Hx) as [Y1 Y2]. split; [exact Y1|].
    destruct (reached s (keyn h x)) eqn:E; [|reflexivity]. rewrite (A4 _ E) in Y2. discriminate.
Qed.

(** ** A mourned ephemeron's key has only ephemerons around it *)
Lemma without_refers : forall i j, refers (without_ephemerons h) i j -> exists k, scans h (ef0 h) i k j.
Proof.
  intros i j (ob & H1 & H2). unfold without_ephemerons in H1. rewrite nth_error_map in H1.
  destruct (nth_error h i) as [o|] eqn:Eo; [|discriminate]. cbn in H1. injection H1 as <-.
  unfold without_fields in H2. destruct (is_ephemeron o && negb (is_context o)) eqn:E.
  - cbn in H2. destruct H2 as [->|[]]. exists 0, o. split; [exact Eo|]. split; [|reflexivity].
    apply andb_true_iff in E. destruct E as [_ E]. unfold scan. destruct (is_context o); [discriminate|].
    destruct (ef0 h i || is_weak o); lia.
  - assert (HR : refers h i j) by (exists o; auto).
    destruct (refers_scans h good i j HR) as [X|[(ob & X1 & X2 & X3) _]]; [exact X|].
    assert (ob = o) by congruence. subst ob. rewrite X2, X3 in E. discriminate.
Qed.

Lemma mourned_sound : forall roots, Forall (exists_in h) roots ->
  exists s, mark_oops (S (length h)) h roots = Ok s
    /\ forall e, In e (buffer s) -> eph h e /\ ~ reachable (without_ephemerons h) roots (keyn h e).
Proof.
  intros roots Hr. unfold mark_oops.
  destruct (start_ok h good roots (fun _ => True) Hr) as (s & A1 & A2 & A3 & A4 & A5).
  { intros i k j _ _. exact I. }
  { auto. }
  rewrite A1. cbn [obind].
  destruct (levels_end (S (length h)) s) as (s' & B1 & B2); [pose proof (left_le s); lia|exact A2|exact A4|].
  exists s'. split; [exact B1|]. intros e He. destruct (B2 e He) as [X1 X2]. split; [exact X1|].
  intros Hk. assert (HC : reached s (keyn h e) = true); [|congruence]. clear X2.
  induction Hk as [i Hi|i j Hi IH Hij]; [auto|]. destruct (without_refers i j Hij) as [k Hs].
  eapply (v_closed _ _ _ A2); eassumption.
Qed.

(** ** An ephemeron whose key has no other reference is mourned *)
Section One.
Variable e0 : nat.
Hypothesis He0 : eph h e0.
Variable roots : list ref.
Hypothesis Hroots : Forall (exists_in h) roots.

Definition k0 := keyn h e0.
Definition Q' : nat -> Prop := reachable (without_key h e0) roots.
Definition Q2 (i : nat) : Prop := Q' i \/ i = k0.

Hypothesis Hk0 : ~ Q' k0.

Lemma without_key_nth : forall i ob, nth_error h i = Some ob ->
  nth_error (without_key h e0) i =
  Some (if Nat.eqb i e0 then Object_ (is_context ob) (is_weak ob) (is_ephemeron ob) (class_of ob) (tl (fields ob))
        else ob).
Proof.
  intros i ob H. unfold without_key. destruct (nth_error h e0) as [o|] eqn:E.
  - assert (Hl : e0 < length h) by (apply nth_error_Some; congruence).
    destruct (Nat.eqb_spec i e0) as [->|Hne].
    + assert (o = ob) by congruence. subst o.
      rewrite nth_error_app2; rewrite firstn_length_le by lia; [|lia]. rewrite Nat.sub_diag. reflexivity.
    + destruct (le_lt_dec e0 i).
      * rewrite nth_error_app2; rewrite firstn_length_le by lia; [|lia].
        destruct (i - e0) as [|d] eqn:Ed; [lia|]. cbn [app nth_error].
        rewrite <- H. replace i with (S e0 + d) by lia. clear. revert e0. 
        induction h as [|x l IH]; intros e; [destruct e, d; reflexivity|]. destruct e; [reflexivity|]. cbn. apply (IH e).
      * rewrite nth_error_app1 by (rewrite firstn_length_le; lia). rewrite <- H. clear - l. revert i l. generalize e0.
        induction h as [|x t IH]; intros e i Hi; [destruct e; reflexivity|].
        destruct e; [lia|]. destruct i; [reflexivity|]. cbn. apply IH. lia.
  - destruct (Nat.eqb_spec i e0) as [->|]; [congruence|exact H].
Qed.

(** References of the other objects are the same. *)
Lemma other_refers : forall i j, i <> e0 -> refers h i j -> refers (without_key h e0) i j.
Proof.
  intros i j Hi (ob & H1 & H2). exists ob. split; [|exact H2]. rewrite (without_key_nth i ob H1).
  apply Nat.eqb_neq in Hi. rewrite Hi. reflexivity.
Qed.

Lemma e0_refers : forall ob j, nth_error h e0 = Some ob -> j = class_of ob \/ In (Oop j) (tl (fields ob)) ->
  refers (without_key h e0) e0 j.
Proof.
  intros ob j H1 H2. destruct He0 as (o & X1 & X2 & X3). assert (o = ob) by congruence. subst o.
  eexists. split; [rewrite (without_key_nth e0 ob H1), Nat.eqb_refl; reflexivity|]. cbn [class_of].
  destruct H2 as [->|H2]; [auto|]. right. unfold strong_fields. cbn [is_context is_ephemeron fields]. rewrite X2, X3. exact H2.
Qed.

Lemma Q'_closed : forall ef, ef e0 = true -> qclosed h ef Q'.
Proof.
  intros ef Hef i k j Hi Hs. unfold Q' in *. eapply from_object; [exact Hi|].
  destruct (Nat.eq_dec i e0) as [->|Hne].
  - destruct Hs as (ob & S1 & S2 & S3). destruct He0 as (o & X1 & X2 & X3). assert (o = ob) by congruence. subst o.
    unfold scan in S2. rewrite X3, Hef in S2. cbn in S2. assert (k = 0) by lia. subst k. cbn in S3. injection S3 as <-.
    apply (e0_refers ob); auto.
  - apply other_refers; [exact Hne|]. eapply (scans_refers h good), Hs.
Qed.

Lemma k0_not_eph : ~ eph h k0.
Proof. apply key_not_eph, He0. Qed.

(** While [e0] waits in the list, its key is only falsely marked. *)
Lemma pass_finds : forall B s dead s' dead', pinv h s B Q2 -> ephf s e0 = true -> In e0 B -> NoDup B ->
  (forall e, In e B -> e <> e0 -> keyn h e <> k0) ->
  second_pass h s B dead = Ok (s', dead') -> In e0 dead'.
Proof.
  intros B. induction B as [|e B IH]; intros s dead s' dead' HI Hef Hin Hnd Hk HS; [destruct Hin|].
  inversion Hnd as [|? ? N1 N2]; subst.
  destruct (Nat.eq_dec e e0) as [->|Hne].
  - pose proof (pinv_weaken s (e0 :: B) Q2 (fun _ => True) (fun _ _ => I) HI) as HT.
    destruct (iter_ok h good nik s e0 B _ HT (True_pred _) (fun _ _ _ _ => I))
      as (ob & s2 & s3 & A1 & A2 & A3 & A4 & A5 & A6 & A7 & A8).
    rewrite (second_pass_eq h s e0 B dead ob s2 s3 A1 A2 A3 A5) in HS.
    destruct (p_B _ _ _ _ HI e0 (or_introl eq_refl)) as [_ Hre].
    assert (HQe : Q' e0).
    { destruct (p_sound _ _ _ _ HI e0 Hre) as [X|X]; [exact X|]. exfalso. apply k0_not_eph. rewrite <- X. exact He0. }
    set (s1 := set_reached s (keyn h e0) false) in *.
    pose proof (good_ob h good e0 ob A1) as (_ & G2 & _).
    destruct (mark_range_ok h good (tl (fields ob)) s1 Q') as (s2' & M1 & M2).
    { clear - G2. destruct (fields ob); [constructor|]. inversion G2; assumption. }
    { intros i k j C1 _ C2. exact (Q'_closed (ephf s1) Hef i k j C1 C2). }
    { intros i Hi. unfold Q'. eapply from_object; [exact HQe|]. apply (e0_refers ob); auto. }
    assert (s2' = s2) by congruence. subst s2'.
    assert (R2 : reached s2 (keyn h e0) = false).
    { destruct (reached s2 (keyn h e0)) eqn:E; [|reflexivity]. exfalso. apply Hk0. apply (m_sound _ _ _ _ _ M2).
      split; [exact E|]. unfold s1. rewrite reached_set. unfold k0. rewrite Nat.eqb_refl. reflexivity. }
    rewrite R2, (m_eph _ _ _ _ _ M2) in HS. change (ephf s1 e0) with (ephf s e0) in HS. rewrite Hef in HS.
    destruct (second_pass_ok h good nik B (set_ephf s3 e0 true) (dead ++ [e0]) _ True_closed A8)
      as (s'' & dead'' & B1 & _ & _ & (d & B4) & _).
    cbn [negb andb] in HS. rewrite B1 in HS. injection HS as <- <-. rewrite B4, !in_app_iff. left. right. left. reflexivity.
  - destruct Hin as [X|Hin]; [congruence|].
    destruct (p_B _ _ _ _ HI e (or_introl eq_refl)) as [Hee Hre].
    assert (Hke : keyn h e <> k0) by (apply Hk; [left; reflexivity|exact Hne]).
    assert (HQe : Q' e).
    { destruct (p_sound _ _ _ _ HI e Hre) as [X|X]; [exact X|]. exfalso. apply k0_not_eph. rewrite <- X. exact Hee. }
    assert (Hrk : reached s k0 = true).
    { apply (p_keys _ _ _ _ HI). right. apply in_map_iff. exists e0. split; [reflexivity|exact Hin]. }
    destruct (iter_ok h good nik s e B Q2 HI) as (ob & s2 & s3 & A1 & A2 & A3 & A4 & A5 & A6 & A7 & A8).
    { intros i k j [C1|C1] Hr C2.
      - left. exact (Q'_closed (ephf s) Hef i k j C1 C2).
      - subst i. rewrite reached_set in Hr. destruct (Nat.eqb_spec k0 (keyn h e)); congruence. }
    { intros ob j H1 H2. left. unfold Q'. eapply from_object; [exact HQe|]. apply other_refers; [exact Hne|].
      apply (eph_refers h e ob); assumption. }
    rewrite (second_pass_eq h s e B dead ob s2 s3 A1 A2 A3 A5) in HS.
    eapply IH; [exact A8| |exact Hin|exact N2| |exact HS].
    + cbn [set_ephf ephf]. rewrite (m_eph _ _ _ _ _ A6), (m_eph _ _ _ _ _ A4). cbn [set_reached ephf].
      destruct (Nat.eqb e0 e); auto.
    + intros x Hx. apply Hk. right. exact Hx.
Qed.

(** While [e0] is not in the list, its key is not marked. *)
Lemma pass_keeps : forall B s dead, pinv h s B Q' -> ~ In e0 B ->
  exists s' dead', second_pass h s B dead = Ok (s', dead') /\ pinv h s' [] Q'.
Proof.
  intros B. induction B as [|e B IH]; intros s dead HI Hni.
  - exists s, dead. split; [reflexivity|exact HI].
  - destruct (p_B _ _ _ _ HI e (or_introl eq_refl)) as [Hee Hre].
    assert (Hne : e <> e0) by (intros ->; apply Hni; left; reflexivity).
    assert (Hef : ephf s e0 = true).
    { destruct (p_eph _ _ _ _ HI e0) as [X|[_ X]]; [rewrite X; apply eph_ef0, He0|contradiction]. }
    destruct (iter_ok h good nik s e B Q' HI) as (ob & s2 & s3 & A1 & A2 & A3 & A4 & A5 & A6 & A7 & A8).
    { intros i k j C1 _ C2. exact (Q'_closed (ephf s) Hef i k j C1 C2). }
    { intros ob j H1 H2. unfold Q'. eapply from_object; [apply (p_sound _ _ _ _ HI), Hre|]. apply other_refers; [exact Hne|].
      apply (eph_refers h e ob); assumption. }
    rewrite (second_pass_eq h s e B dead ob s2 s3 A1 A2 A3 A5).
    apply IH; [exact A8|]. intros X. apply Hni. right. exact X.
Qed.

Lemma levels_find : forall fuel s s', lev h s Q' -> NoDup (buffer s) ->
  (reached s e0 = true -> In e0 (buffer s)) ->
  mark_ephemerons fuel h s = Ok s' -> reached s' e0 = true -> In e0 (buffer s').
Proof.
  intros fuel. induction fuel as [|fuel IH]; intros s s' HL Hnd Hin HM Hr; [discriminate|].
  pose proof (lev_weaken s Q' (fun _ => True) (fun _ _ => I) HL) as HLT.
  destruct (level_eph s HLT Hnd) as (s1 & s2 & dead & A1 & A2 & A3 & A4 & A5 & A6).
  rewrite (level_eq h fuel s s1 s2 dead A1 A2) in HM.
  assert (HQk : forall e, In e (buffer s) -> e <> e0 -> Q' (keyn h e)).
  { intros e He Hne. destruct (v_B _ _ _ HL e He) as [X1 X2]. destruct (eph_key h good nik e X1) as (ob & K1 & _ & K3 & _).
    unfold Q'. eapply from_object; [apply (v_sound _ _ _ HL), X2|]. apply other_refers; [exact Hne|].
    apply (eph_refers h e ob); auto. eapply nth_error_In, K3. }
  destruct (in_dec Nat.eq_dec e0 (buffer s)) as [Hb|Hb].
  - destruct (between h good nik s Q2) as (s1' & C1 & C2 & C3 & C4 & C5 & C6).
    { intros e He. unfold Q2. destruct (Nat.eq_dec e e0) as [->|Hne]; [right; reflexivity|left; auto]. }
    { apply (lev_weaken s Q'); [intros i; left; assumption|exact HL]. }
    assert (s1' = s1) by congruence. subst s1'.
    assert (Hkk : forall e, In e (buffer s) -> e <> e0 -> keyn h e <> k0).
    { intros e He Hne X. apply Hk0. rewrite <- X. auto. }
    assert (Hrk : reached s k0 = false).
    { destruct (reached s k0) eqn:E; [|reflexivity]. exfalso. apply Hk0, (v_sound _ _ _ HL), E. }
    assert (D : In e0 dead).
    { apply (pass_finds (buffer s) s1 [] s2 dead C2); auto. }
    destruct (match buffer s2 with [] => Ok s2 | _ => mark_ephemerons fuel h s2 end) as [s3| | | |]; try discriminate.
    cbn [obind] in HM. injection HM as <-. cbn [buffer]. apply in_app_iff. right. exact D.
  - destruct (between h good nik s Q') as (s1' & C1 & C2 & C3 & C4 & C5 & C6).
    { intros e He. apply HQk; [exact He|]. intros ->. contradiction. }
    { exact HL. }
    assert (s1' = s1) by congruence. subst s1'.
    destruct (pass_keeps (buffer s) s1 [] C2 Hb) as (s2' & dead' & D1 & D2).
    assert (E2 : s2' = s2) by congruence. subst s2'.
    assert (HI2 : reached s2 e0 = true -> In e0 (buffer s2)).
    { intros X. apply (e_new _ _ A5 e0 He0) in X. destruct X as [X|X]; [|exact X]. exfalso. auto. }
    destruct (buffer s2) as [|b bs] eqn:Hb2.
    + cbn [obind] in HM. injection HM as <-. cbn [reached] in Hr. destruct (HI2 Hr).
    + destruct (mark_ephemerons fuel h s2) as [s3| | | |] eqn:E3; try discriminate. cbn [obind] in HM.
      injection HM as <-. cbn [reached buffer] in *. apply in_app_iff. left.
      apply (IH s2 s3); auto; [apply after, D2|rewrite Hb2; rewrite <- Hb2; apply (e_nodup _ _ A5)|rewrite Hb2; exact HI2].
Qed.

Lemma mourned_complete : forall s, reachable h roots e0 -> mark_oops (S (length h)) h roots = Ok s ->
  In e0 (buffer s).
Proof.
  intros s Hre HM.
  assert (Hr : reached s e0 = true).
  { destruct (mark_exact h good nik (S (length h)) roots Hroots) as [X|(s' & X1 & X2)]; [congruence|].
    assert (s' = s) by congruence. subst s'. apply X2, Hre. }
  unfold mark_oops in HM.
  destruct (start_ok h good roots Q' Hroots) as (s1 & A1 & A2 & A3 & A4 & A5).
  { apply Q'_closed, eph_ef0, He0. }
  { intros i Hi. apply from_root, Hi. }
  rewrite A1 in HM. cbn [obind] in HM. apply (levels_find (S (length h)) s1 s A2 A4); auto.
Qed.
End One.
End Mourn.
