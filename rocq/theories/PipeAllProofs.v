(** Reading many objects. *)
From Coq Require Import ZifyBool ZifyNat.
From Verif Require Import Base Pipe PipeSpec PipeProofs PipeRun PipeBuild PipeAll PipeAllSpec.

Lemma sim_end fuel e s l n : sim e s l n -> (size e < fuel)%nat ->
  exists s', ask (run fuel) AtEnd s = Ok (null l, s') /\ sim e s' l n.
Proof.
  intros S N. destruct (sim_step fuel e s l n AtEnd S I N) as (s' & E & S'). exists s'. unfold ask. rewrite E. split; [reflexivity|].
  cbn [left] in S'. replace (n + Z.of_nat (length l) - Z.of_nat (length l)) with n in S' by lia. exact S'.
Qed.
Lemma sim_next fuel e s x l n : sim e s (x :: l) n -> (size e < fuel)%nat ->
  exists s', run fuel Next s = Ok (x, s') /\ sim e s' l (n + 1).
Proof.
  intros S N. assert (M : may e Next (x :: l)) by (left; discriminate).
  destruct (sim_step fuel e s (x :: l) n Next S M N) as (s' & E & S'). exists s'. split; [exact E|].
  cbn [left tl length] in S'. replace (n + Z.of_nat (Datatypes.S (length l)) - Z.of_nat (length l)) with (n + 1) in S' by lia. exact S'.
Qed.

Ltac at_end S N s1 S1 := 
  let E := fresh "E" in destruct (sim_end _ _ _ _ _ S N) as (s1 & E & S1); rewrite E; clear E; cbn [obind fst snd null].
Ltac get S N s1 S1 := 
  let E := fresh "E" in destruct (sim_next _ _ _ _ _ _ S N) as (s1 & E & S1); rewrite E; clear E; cbn [obind fst snd].

Lemma buffer_pos : (1 <= buffer)%nat.
Proof. apply le_n_S, Nat.le_0_l. Qed.
Opaque buffer.

(** ** Parts of lists *)
Lemma cut_cons x y t : cut x (y :: t) = if eqb y x then ([], t) else (y :: fst (cut x t), snd (cut x t)).
Proof. cbn [cut]. destruct (eqb y x); [reflexivity|]. destruct (cut x t); reflexivity. Qed.

Lemma cut_length x l : (length (snd (cut x l)) <= length l)%nat /\ (l <> [] -> (length (snd (cut x l)) < length l)%nat).
Proof.
  induction l as [|y l [IH _]]; [split; [auto|contradiction]|]. rewrite cut_cons. destruct (eqb y x); cbn [snd length]; lia.
Qed.

Lemma parts_some x l : exists p ps, parts x l = p :: ps.
Proof. destruct l as [|y l]; cbn [parts]; [eauto|]. destruct (eqb y x); [eauto|]. destruct (parts x l); eauto. Qed.

Lemma parts_cut x l : parts x l = if has x l then fst (cut x l) :: parts x (snd (cut x l)) else [l].
Proof.
  induction l as [|y l IH]; [reflexivity|]. rewrite cut_cons. cbn [parts has existsb]. fold (has x l).
  destruct (eqb y x); [reflexivity|]. cbn [orb fst snd]. rewrite IH. destruct (has x l); reflexivity.
Qed.

Lemma cut_none x l : has x l = false -> cut x l = (l, []).
Proof.
  induction l as [|y l IH]; [reflexivity|]. cbn [has existsb]. fold (has x l). intros H. apply orb_false_elim in H. destruct H as [H1 H2].
  rewrite cut_cons, H1, (IH H2). reflexivity.
Qed.

Lemma last_cons {A} (p : A) ps d : ps <> [] -> last (p :: ps) d = last ps d.
Proof. destruct ps; [contradiction|reflexivity]. Qed.
Lemma removelast_cons {A} (p : A) ps : ps <> [] -> removelast (p :: ps) = p :: removelast ps.
Proof. destruct ps; [contradiction|reflexivity]. Qed.

Lemma some_parts_eq x l : l <> [] -> some_parts x l = fst (cut x l) :: some_parts x (snd (cut x l)).
Proof.
  intros Nl. unfold some_parts at 1. rewrite (parts_cut x l). destruct (has x l) eqn:H.
  - assert (Np : parts x (snd (cut x l)) <> []) by (destruct (parts_some x (snd (cut x l))) as (p & ps & ->); discriminate).
    rewrite last_cons, removelast_cons by exact Np. unfold some_parts. destruct (last (parts x (snd (cut x l))) []); reflexivity.
  - rewrite (cut_none x l H). cbn [last fst snd]. destruct l; [contradiction|reflexivity].
Qed.

Section S.
Variables (fuel : nat) (e : expr).
Hypothesis N : (size e < fuel)%nat.

Lemma do_each_ok k : forall ss, all_wf ss -> ss <> [] -> (total ss <= fuel)%nat -> (length (zips (map elems ss)) < k)%nat ->
  do_each fuel k ss = Ok (map Tuple (zips (map elems ss))).
Proof.
  induction k as [|k IH]; intros ss W Ne T L; [lia|]. cbn [do_each].
  destruct (each_ok (run fuel) fuel Next ss (good_run fuel) (or_introl eq_refl) W T) as (ss' & E & F & H & _).
  rewrite E. cbn [obind fst snd]. assert (Nm : map elems ss <> []) by (destruct ss; [contradiction|discriminate]).
  destruct (existsb null (map elems ss)) eqn:X.
  - assert (Z1 : zips (map elems ss) = []) by (apply null_true; rewrite zips_null; auto). rewrite Z1. reflexivity.
  - destruct H as [H1 _]. destruct (later_all _ _ F) as (W' & T' & L'). rewrite (zips_cons _ Nm X) in *. cbn [length] in L.
    change (map (@tl obj) (map elems ss)) with (map (left Next) (map elems ss)) in *. rewrite <- H1 in *.
    assert (Ne' : ss' <> []) by (destruct ss'; [destruct ss; [contradiction|discriminate]|discriminate]).
    rewrite (IH ss' W' Ne' ltac:(lia) ltac:(lia)). reflexivity.
Qed.

Lemma do_all_ok k : forall s l n, sim e s l n -> (length l < k)%nat -> do_all fuel k s = Ok l.
Proof.
  induction k as [|k IH]; intros s l n S L; [lia|].
  assert (G : (match s with OneOfEach _ _ => False | _ => True end) -> do_all fuel (Datatypes.S k) s = Ok l).
  { intros Hs. assert (Eq : do_all fuel (Datatypes.S k) s = olet r := ask (run fuel) AtEnd s in
      if fst r then Ok []
      else olet v := run fuel Next (snd r) in olet q := do_all fuel k (snd v) in Ok (fst v :: q)) by (destruct s; try contradiction; reflexivity).
    rewrite Eq. at_end S N s1 S1. destruct l as [|x l]; [reflexivity|]. cbn [null]. get S1 N s2 S2.
    rewrite (IH s2 l (n + 1) S2) by (cbn in L; lia). reflexivity. }
  destruct s as [| | | | | |ss delta|]; try (apply G; exact I).
  destruct S as [[Ne W] El Hw _ _ _ _]. cbn [elems] in El. cbn [weight] in Hw. fold (total ss) in Hw.
  change (do_all fuel (Datatypes.S k) (OneOfEach ss delta)) with (do_each fuel (Datatypes.S k) ss).
  rewrite do_each_ok; auto; [congruence|lia|]. rewrite <- El, map_length in L. exact L.
Qed.

Lemma lines_do_ok k : peeks LF e -> forall s l n, sim e s l n -> (length l < k)%nat -> lines_do fuel k s = Ok (map Tuple (lines l)).
Proof.
  intros P. induction k as [|k IH]; intros s l n S L; [lia|]. cbn [lines_do]. at_end S N s1 S1. destruct l as [|x l]; [reflexivity|]. cbn [null].
  destruct (sim_step fuel e s1 _ _ (Line []) S1 (conj eq_refl P) N) as (s2 & E & S2). rewrite E. cbn [obind fst snd].
  pose proof (proj2 (line_length (x :: l)) ltac:(discriminate)) as Hl. cbn [left] in S2.
  rewrite (IH _ _ _ S2) by lia. cbn [obind]. rewrite (lines_eq (x :: l)) by discriminate. reflexivity.
Qed.

Lemma up_to_ok k holds x : forall s l n, sim e s l n -> (length l < k)%nat -> Forall (fun y => holds y = true) (fst (cut x l)) ->
  exists s' m, up_to fuel k holds x s = Ok (fst (cut x l), s') /\ sim e s' (snd (cut x l)) m.
Proof.
  induction k as [|k IH]; intros s l n S L H; [lia|]. cbn [up_to]. at_end S N s1 S1. destruct l as [|y l]; cbn [null]; [eauto|].
  get S1 N s2 S2. rewrite cut_cons in *. destruct (eqb y x); [eauto|]. cbn [fst snd] in *. inversion H as [|? ? H1 H2]; subst.
  rewrite H1. cbn [length] in L. destruct (IH s2 l _ S2 ltac:(lia) H2) as (s3 & m & E & S3). rewrite E. cbn [obind fst snd]. eauto.
Qed.

Lemma split_at_ok k holds x : (forall y, holds y = true) -> forall s l n, sim e s l n -> (length l < k)%nat ->
  split_at fuel k holds x s = Ok (some_parts x l).
Proof.
  intros Hh. induction k as [|k IH]; intros s l n S L; [lia|]. cbn [split_at]. at_end S N s1 S1. destruct l as [|y l]; [reflexivity|]. cbn [null].
  destruct (up_to_ok (Datatypes.S k) holds x s1 _ _ S1 L) as (s2 & m & E & S2).
  { apply Forall_forall. auto. }
  rewrite E. cbn [obind fst snd]. pose proof (proj2 (cut_length x (y :: l)) ltac:(discriminate)) as Hl.
  rewrite (IH _ _ _ S2) by lia. cbn [obind]. rewrite <- some_parts_eq by discriminate. reflexivity.
Qed.

Lemma skip_to_ok k x : forall s l n, sim e s l n -> (length l < k)%nat ->
  exists s' m, skip_to fuel k x s = Ok (has x l, s') /\ sim e s' (snd (cut x l)) m.
Proof.
  induction k as [|k IH]; intros s l n S L; [lia|]. cbn [skip_to]. at_end S N s1 S1. destruct l as [|y l]; cbn [null]; [eauto|].
  get S1 N s2 S2. rewrite cut_cons. cbn [has existsb]. fold (has x l). destruct (eqb y x); cbn [orb]; [eauto|].
  cbn [length snd] in *. destruct (IH s2 l _ S2 ltac:(lia)) as (s3 & m & E & S3). eauto.
Qed.

Lemma skip_ok k : forall s l n, sim e s l n ->
  exists s' m, skip fuel k s = Ok ((k <=? length l)%nat, s') /\ sim e s' (skipn k l) m.
Proof.
  induction k as [|k IH]; intros s l n S.
  - exists s, n. split; [reflexivity|exact S].
  - cbn [skip]. at_end S N s1 S1. destruct l as [|y l]; cbn [null].
    + exists s1, n. split; [reflexivity|exact S1].
    + get S1 N s2 S2. destruct (IH s2 l _ S2) as (s3 & m & E & S3). exists s3, m. split; [exact E|exact S3].
Qed.

Lemma available_ok k holds : forall s l n, sim e s l n -> Forall (fun y => holds y = true) (firstn k l) ->
  exists s' m, available fuel k holds s = Ok (firstn k l, s') /\ sim e s' (skipn k l) m.
Proof.
  induction k as [|k IH]; intros s l n S H.
  - exists s, n. split; [reflexivity|exact S].
  - cbn [available]. at_end S N s1 S1. destruct l as [|y l]; cbn [null].
    + exists s1, n. split; [reflexivity|exact S1].
    + get S1 N s2 S2. cbn [firstn] in H. inversion H as [|? ? H1 H2]; subst. rewrite H1.
      destruct (IH s2 l _ S2 H2) as (s3 & m & E & S3). rewrite E. exists s3, m. split; [reflexivity|exact S3].
Qed.

Lemma contents_ok k holds : forall s l n, sim e s l n -> (length l < k)%nat -> Forall (fun y => holds y = true) l ->
  contents fuel k holds s = Ok l.
Proof.
  pose proof buffer_pos as B.
  induction k as [|k IH]; intros s l n S L H; [lia|]. cbn [contents]. at_end S N s1 S1. destruct l as [|y l]; cbn [null]; [reflexivity|].
  assert (H12 : Forall (fun y => holds y = true) (firstn buffer (y :: l)) /\ Forall (fun y => holds y = true) (skipn buffer (y :: l))).
  { apply Forall_app. rewrite firstn_skipn. exact H. }
  destruct H12 as [H1 H2].
  destruct (available_ok buffer holds s1 _ _ S1 H1) as (s2 & m & E & S2).
  rewrite E. cbn [obind fst snd].
  rewrite (IH s2 _ _ S2); [cbn [obind]; rewrite firstn_skipn; reflexivity| |exact H2].
  rewrite skipn_length. cbn [length] in *. lia.
Qed.

(** An object that the collection cannot hold *)
Lemma available_bad k holds : forall s l n, sim e s l n -> Exists (fun y => holds y = false) (firstn k l) -> available fuel k holds s = Err.
Proof.
  induction k as [|k IH]; intros s l n S H; [inversion H|]. cbn [available]. at_end S N s1 S1. destruct l as [|y l]; cbn [null]; [inversion H|].
  get S1 N s2 S2. cbn [firstn] in H. destruct (holds y) eqn:Hy; [|reflexivity].
  inversion H as [? ? H1|? ? H1]; subst; [congruence|]. rewrite (IH s2 l _ S2 H1). reflexivity.
Qed.

Lemma contents_bad k holds : forall s l n, sim e s l n -> (length l < k)%nat -> Exists (fun y => holds y = false) l -> contents fuel k holds s = Err.
Proof.
  pose proof buffer_pos as B.
  induction k as [|k IH]; intros s l n S L H; [lia|]. cbn [contents]. at_end S N s1 S1. destruct l as [|y l]; cbn [null]; [inversion H|].
  destruct (Exists_dec (fun y => holds y = false) (firstn buffer (y :: l))) as [H1|H1].
  { intros z. destruct (holds z); [right; discriminate|left; reflexivity]. }
  - rewrite (available_bad buffer holds s1 _ _ S1 H1). reflexivity.
  - assert (H2 : Forall (fun y => holds y = true) (firstn buffer (y :: l))).
    { apply Forall_Exists_neg in H1. revert H1. apply Forall_impl. intros z. destruct (holds z); [auto|intros C; contradiction (C eq_refl)]. }
    destruct (available_ok buffer holds s1 _ _ S1 H2) as (s2 & m & E & S2). rewrite E. cbn [obind fst snd].
    rewrite (IH s2 _ _ S2); [reflexivity| |].
    + rewrite skipn_length. cbn [length] in *. lia.
    + rewrite <- (firstn_skipn buffer (y :: l)) in H. apply Exists_app in H. destruct H; [contradiction|assumption].
Qed.
End S.

(** After any history *)
Lemma sim_after fuel e ops : fine e -> may_all e ops (meaning e) -> (size e < fuel)%nat ->
  exists s a s' n, build fuel e = Ok s /\ run_all fuel ops s = Ok (a, s') /\ sim e s' (left_all ops (meaning e)) n.
Proof.
  intros F M N. destruct (build_ok fuel e F ltac:(lia)) as (s & E & S & _). exists s. rewrite E.
  revert M S. generalize (meaning e) as l. generalize 0 as n. clear E. revert s.
  induction ops as [|o ops IH]; intros s n l M S.
  - exists [], s, n. auto.
  - destruct M as [M1 M2]. destruct (sim_step fuel e s l n o S M1 N) as (s1 & E1 & S1).
    destruct (IH s1 _ _ M2 S1) as (a & s' & m & _ & E2 & S2). exists (answer o l n :: a), s', m. split; [reflexivity|].
    cbn [run_all]. rewrite E1. cbn [obind fst snd]. rewrite E2. auto.
Qed.

(** ** Lines *)
Definition plain (l : list obj) : Prop := Forall (fun c => same c CR = false /\ same c LF = false /\ same c Nil = false) l.

Lemma line_plain l r : plain l -> line (l ++ LF :: r) = (l, r).
Proof.
  induction 1 as [|c l (H1 & H2 & H3) _ IH]; [reflexivity|]. cbn [app]. rewrite line_cons, H1, H2, H3, IH. reflexivity.
Qed.
Lemma line_crlf l r : plain l -> line (l ++ CR :: LF :: r) = (l, r).
Proof.
  induction 1 as [|c l (H1 & H2 & H3) _ IH]; [reflexivity|]. cbn [app]. rewrite line_cons, H1, H2, H3, IH. reflexivity.
Qed.
Lemma line_last l : plain l -> line l = (l, []).
Proof.
  induction 1 as [|c l (H1 & H2 & H3) _ IH]; [reflexivity|]. rewrite line_cons, H1, H2, H3, IH. reflexivity.
Qed.
Lemma lines_join nls ls : Forall (fun p => (p = [LF] \/ p = [CR; LF])) nls -> length nls = length ls -> Forall plain ls ->
  lines (concat (map (fun p => fst p ++ snd p) (combine ls nls))) = ls.
Proof.
  intros F. revert ls. induction F as [|p nls Hp _ IH]; intros [|l ls] L P; try discriminate; [reflexivity|].
  injection L as L. inversion P as [|? ? P1 P2]; subst. cbn [combine map concat fst snd].
  set (rest := concat _) in *.
  assert (El : line ((l ++ p) ++ rest) = (l, rest)).
  { rewrite <- app_assoc. destruct Hp as [->| ->]; cbn [app]; [apply line_plain|apply line_crlf]; exact P1. }
  rewrite lines_eq; [|destruct l; destruct Hp as [->| ->]; discriminate]. rewrite El. cbn [fst snd]. f_equal. apply IH; auto.
Qed.
