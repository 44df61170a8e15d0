(** Proofs about the symbol table. *)
From Coq Require Import ZArith List Bool Lia.
From Coq Require Import ZifyBool ZifyNat ZifyN.
From Verif Require Import Base Hashed HashedProofs Sym SymSpec.
Import ListNotations.
Local Open Scope Z_scope.

Lemma NoDup_snoc (l : list nat) x : NoDup l -> ~ In x l -> NoDup (l ++ [x]).
Proof.
  intros N H. induction N as [|y l Y N IH]; cbn; [constructor; auto; constructor|].
  constructor.
  - rewrite in_app_iff. cbn in *. intuition.
  - apply IH. cbn in H. tauto.
Qed.

(** ** strings *)

Lemma strncmp_refl s : strncmp_eq s s = true.
Proof. induction s as [|a s IH]; cbn; auto. rewrite Z.eqb_refl, IH. destruct (a =? 0); auto. Qed.

Lemma same_refl s : is_same_string s s = true.
Proof. unfold is_same_string. rewrite Nat.eqb_refl. apply strncmp_refl. Qed.

Lemma strncmp_sym s t : strncmp_eq s t = true -> strncmp_eq t s = true.
Proof.
  revert t; induction s as [|a s IH]; intros [|b t]; cbn; try discriminate; auto.
  destruct (Z.eqb_spec a b) as [E|]; [subst b|discriminate].
  rewrite Z.eqb_refl. destruct (a =? 0); auto.
Qed.

Lemma strncmp_trans s t u :
  length s = length t -> length t = length u ->
  strncmp_eq s t = true -> strncmp_eq t u = true -> strncmp_eq s u = true.
Proof.
  revert t u; induction s as [|a s IH]; intros [|b t] [|c u]; cbn; try discriminate; auto.
  intros L1 L2.
  destruct (Z.eqb_spec a b) as [E|]; [subst b|discriminate].
  destruct (Z.eqb_spec a c) as [E|]; [subst c|discriminate].
  destruct (a =? 0); auto. intros C1 C2. apply (IH t u); auto.
Qed.

Lemma same_spec s t :
  is_same_string s t = true <-> length s = length t /\ strncmp_eq s t = true.
Proof.
  unfold is_same_string. destruct (Nat.eqb_spec (length t) (length s)); split; intuition; try discriminate.
Qed.

Lemma same_sym s t : is_same_string s t = true -> is_same_string t s = true.
Proof. rewrite !same_spec. intuition. now apply strncmp_sym. Qed.

Lemma same_trans s t u :
  is_same_string s t = true -> is_same_string t u = true -> is_same_string s u = true.
Proof. rewrite !same_spec. intuition; try congruence. eapply strncmp_trans; eauto. Qed.

Lemma same_nulfree s t : nulfree s -> is_same_string s t = true -> s = t.
Proof.
  rewrite same_spec. intros N [L C]. revert t N L C.
  induction s as [|a s IH]; intros [|b t]; cbn; try discriminate; auto.
  intros N L. destruct (Z.eqb_spec a b) as [E|]; [subst b|discriminate].
  destruct (Z.eqb_spec a 0).
  - exfalso; apply N; now left.
  - intro C. f_equal. apply IH; auto. intro; apply N; now right.
Qed.

Lemma match_spec s t : sym_match s t = true <-> s = t.
Proof.
  unfold sym_match. destruct (Nat.eqb_spec (length t) (length s)) as [L|L].
  - unfold same_chars. revert t L; induction s as [|a s IH]; intros [|b t]; cbn; try discriminate.
    + now split.
    + intro L. rewrite andb_true_iff, IH by auto. rewrite Z.eqb_eq. split.
      * intros [-> ->]; auto.
      * intro E; injection E; auto.
  - split; [discriminate|]. intro; subst; congruence.
Qed.

Lemma bucket_bound s : (bucket s < 512)%nat.
Proof.
  unfold bucket. change 511 with (Z.ones 9). rewrite Z.land_ones by lia.
  pose proof (Z.mod_pos_bound (scramble (hash_string s)) (2 ^ 9) eq_refl). lia.
Qed.

(** ** the invariant *)

(** every live symbol is in the chain of its bucket and nothing else is; two
    live symbols of the same bucket differ before any NUL *)
Record wf (t : symtab) : Prop := mkwf {
  wf_len : length (table t) = 512%nat;
  wf_in : forall i b, In i (chain t b) <-> In i (alive t) /\ b = bucket (chars_of t i);
  wf_bound : forall i, In i (alive t) -> (i < length (chars t))%nat;
  wf_nodup : NoDup (alive t);
  wf_uniq : forall i j, In i (alive t) -> In j (alive t) ->
    bucket (chars_of t i) = bucket (chars_of t j) ->
    is_same_string (chars_of t i) (chars_of t j) = true -> i = j
}.

Lemma chain_link t i b c :
  length (table t) = 512%nat -> (b < 512)%nat ->
  chain (link i b t) c = if Nat.eqb c b then i :: chain t b else chain t c.
Proof.
  intros L B. unfold chain at 1, link; cbn [table].
  rewrite nth_replace by lia.
  destruct (Nat.eqb_spec c b); subst; auto.
Qed.

Lemma link_len t i b : length (table (link i b t)) = length (table t).
Proof. cbn. apply replace_length. Qed.

Lemma chain_empty cs al b : chain (mksym cs al empty_table) b = [].
Proof.
  unfold chain, empty_table; cbn [table].
  destruct (Nat.lt_ge_cases b 512).
  - apply nth_repeat.
  - apply nth_overflow. rewrite repeat_length. auto.
Qed.

(** linking a list of symbols into a table *)
Definition relink (l : list nat) (t : symtab) : symtab :=
  fold_left (fun t i => link i (bucket (chars_of t i)) t) l t.

Lemma relink_keep l t : chars (relink l t) = chars t /\ alive (relink l t) = alive t /\
  length (table (relink l t)) = length (table t).
Proof.
  revert t; induction l as [|i l IH]; intro t; [cbn; auto|].
  change (relink (i :: l) t) with (relink l (link i (bucket (chars_of t i)) t)).
  destruct (IH (link i (bucket (chars_of t i)) t)) as (A & B & C).
  rewrite A, B, C. repeat split; auto. apply link_len.
Qed.

Lemma relink_chain l t b i :
  length (table t) = 512%nat ->
  In i (chain (relink l t) b) <->
  In i (chain t b) \/ In i l /\ b = bucket (chars_of t i).
Proof.
  revert t; induction l as [|j l IH]; intros t L; [cbn; intuition|].
  change (relink (j :: l) t) with (relink l (link j (bucket (chars_of t j)) t)).
  cbn [In].
  rewrite IH by (rewrite link_len; auto).
  rewrite chain_link by auto using bucket_bound.
  change (chars_of (link j (bucket (chars_of t j)) t) i) with (chars_of t i).
  destruct (Nat.eqb_spec b (bucket (chars_of t j))) as [E|NE].
  - subst b. cbn. intuition; subst; auto.
  - intuition; subst; congruence.
Qed.

Lemma relink_wf l cs :
  (forall i, In i l -> (i < length cs)%nat) -> NoDup l ->
  (forall i j, In i l -> In j l -> bucket (nth i cs []) = bucket (nth j cs []) ->
    is_same_string (nth i cs []) (nth j cs []) = true -> i = j) ->
  wf (relink l (mksym cs l empty_table)).
Proof.
  intros B N U.
  destruct (relink_keep l (mksym cs l empty_table)) as (EC & EA & EL).
  cbn [chars alive] in EC, EA.
  constructor.
  - rewrite EL. reflexivity.
  - intros i b. rewrite relink_chain by reflexivity.
    rewrite chain_empty, EA. unfold chars_of at 2. rewrite EC. cbn. intuition.
  - rewrite EA, EC. auto.
  - rewrite EA; auto.
  - unfold chars_of. rewrite EA, EC. auto.
Qed.

Lemma intern_wf s t : wf t ->
  let '(i, t') := intern s t in
  wf t' /\ In i (alive t') /\ bucket (chars_of t' i) = bucket s /\
  is_same_string s (chars_of t' i) = true /\
  (forall j, In j (alive t) -> In j (alive t') /\ chars_of t' j = chars_of t j).
Proof.
  intro W. unfold intern.
  destruct (List.find _ _) as [i|] eqn:F.
  - apply find_some in F. destruct F as [F S]. apply (wf_in _ W) in F. destruct F as [A B].
    split; [auto|]. intuition.
  - cbn [alloc_symbol].
    set (t1 := mksym (chars t ++ [s]) (alive t ++ [length (chars t)]) (table t)).
    assert (Old : forall j, In j (alive t) -> chars_of t1 j = chars_of t j).
    { intros j J. unfold chars_of, t1; cbn. apply app_nth1. now apply (wf_bound _ W). }
    assert (New : chars_of t1 (length (chars t)) = s).
    { unfold chars_of, t1; cbn. rewrite app_nth2 by lia. now rewrite Nat.sub_diag. }
    assert (Fresh : forall j, In j (alive t) -> j <> length (chars t)).
    { intros j J ->. apply (wf_bound _ W) in J. lia. }
    assert (NoMatch : forall j, In j (alive t) -> bucket s = bucket (chars_of t j) ->
              is_same_string s (chars_of t j) = true -> False).
    { intros j J B M. eapply find_none in F; [|apply (wf_in _ W); split; eauto].
      cbn in F. congruence. }
    split; [|split; [|split; [|split]]].
    + constructor.
      * rewrite link_len. apply (wf_len _ W).
      * intros i b. rewrite chain_link by (auto using bucket_bound; apply (wf_len _ W)).
        change (chain t1) with (chain t).
        change (alive (link (length (chars t)) (bucket s) t1)) with (alive t ++ [length (chars t)]).
        change (chars_of (link (length (chars t)) (bucket s) t1) i) with (chars_of t1 i).
        rewrite in_app_iff. cbn [In].
        pose proof (wf_in _ W i b) as H. pose proof (wf_in _ W i (bucket s)) as H0.
        destruct (Nat.eqb_spec b (bucket s)) as [E|NE]; [subst b; cbn [In]; rewrite H|rewrite H].
        -- split.
           ++ intros [E|[J E]]; [subst i; rewrite New; auto|rewrite Old by auto; auto].
           ++ intros [[J|[E|[]]] EB]; [rewrite Old in EB by auto; auto|auto].
        -- split.
           ++ intros [J E]; rewrite Old by auto; auto.
           ++ intros [[J|[E|[]]] EB]; [rewrite Old in EB by auto; auto|].
              subst i. rewrite New in EB. congruence.
      * cbn [link alive chars t1]. intros i J. apply in_app_iff in J.
        rewrite app_length; cbn. destruct J as [J|[<-|[]]]; [apply (wf_bound _ W) in J|]; lia.
      * cbn [link alive t1]. apply NoDup_snoc; [apply (wf_nodup _ W)|].
        intro J. now apply (Fresh _ J).
      * cbn [link alive t1].
        change (chars_of (link (length (chars t)) (bucket s) t1)) with (chars_of t1).
        intros i j I1 J1. apply in_app_iff in I1, J1.
        destruct I1 as [I1|[<-|[]]], J1 as [J1|[<-|[]]]; auto.
        -- rewrite !Old by auto. apply (wf_uniq _ W); auto.
        -- rewrite New, Old by auto. intros B M. exfalso.
           apply (NoMatch i); auto. now apply same_sym.
        -- rewrite New, Old by auto. intros B M. exfalso. now apply (NoMatch j).
    + cbn. apply in_app_iff. right; now left.
    + change (bucket (chars_of t1 (length (chars t))) = bucket s). now rewrite New.
    + change (is_same_string s (chars_of t1 (length (chars t))) = true).
      rewrite New. apply same_refl.
    + intros j J. split; [cbn; apply in_app_iff; auto|apply Old; auto].
Qed.

(** ** histories *)

Definition held_ok (t : symtab) (p : list Z * nat) : Prop :=
  In (snd p) (alive t) /\ bucket (chars_of t (snd p)) = bucket (fst p) /\
  is_same_string (fst p) (chars_of t (snd p)) = true.

Definition inv (st : sstate) : Prop :=
  wf (fst st) /\ Forall (held_ok (fst st)) (snd st).

Lemma drop_nth_incl A n (l : list A) x : In x (drop_nth n l) -> In x l.
Proof.
  revert n; induction l as [|y l IH]; intros [|n]; cbn; auto.
  intros [E|H]; eauto.
Qed.

Lemma step_inv st o : inv st -> inv (symstep st o).
Proof.
  destruct st as [t h]. intros [W H]. cbn [fst snd] in *.
  destruct o as [s|n|keep]; cbn [symstep].
  - pose proof (intern_wf s t W) as P. destruct (intern s t) as [i t'].
    destruct P as (W' & A & B & M & Old). split; cbn [fst snd]; auto.
    constructor; [split; cbn; auto|].
    eapply Forall_impl; [|exact H]. intros [u j] (J & JB & JM); cbn [fst snd] in *.
    destruct (Old j J) as [J' E]. split; cbn [fst snd]; rewrite ?E; auto.
  - split; cbn; auto. rewrite Forall_forall in *. eauto using drop_nth_incl.
  - unfold rebuild. fold (relink (filter (fun i => is_held h i || keep i) (alive t))
      (mksym (chars t) (filter (fun i => is_held h i || keep i) (alive t)) empty_table)).
    set (l := filter _ _).
    assert (HL : forall i, In i l -> In i (alive t)) by (intros i I1; now apply filter_In in I1).
    destruct (relink_keep l (mksym (chars t) l empty_table)) as (EC & EA & _).
    cbn [chars alive] in EC, EA.
    split; cbn [fst snd].
    + apply relink_wf.
      * intros i I1. apply (wf_bound _ W); auto.
      * apply NoDup_filter, (wf_nodup _ W).
      * intros i j I1 J1. apply (wf_uniq _ W i j); auto.
    + rewrite Forall_forall in *. intros p P. destruct (H p P) as (J & B & M).
      unfold held_ok, chars_of. rewrite EC, EA. repeat split; auto.
      apply filter_In. split; auto. apply orb_true_iff; left.
      apply existsb_exists. exists p. split; auto. apply Nat.eqb_refl.
Qed.

Lemma init_inv names : NoDup names -> Forall nulfree names -> inv (init names, []).
Proof.
  intros N F. split; [|constructor]. unfold init, init_pass2, init_pass1; cbn [fst alive].
  apply relink_wf.
  - intros i I1. apply in_seq in I1. lia.
  - apply seq_NoDup.
  - intros i j I1 J1 _ M. apply in_seq in I1, J1.
    apply same_nulfree in M.
    + eapply NoDup_nth; eauto; lia.
    + rewrite Forall_forall in F. apply F, nth_In. lia.
Qed.

Lemma run_inv names os : NoDup names -> Forall nulfree names -> inv (symrun names os).
Proof.
  intros N F. unfold symrun.
  assert (H : inv (init names, [])) by now apply init_inv.
  revert H. generalize (init names, @nil (list Z * nat)) as st.
  induction os as [|o os IH]; intros st H; cbn; auto.
  apply IH, step_inv, H.
Qed.

Lemma held_same names os s t i j :
  NoDup names -> Forall nulfree names ->
  In (s, i) (snd (symrun names os)) -> In (t, j) (snd (symrun names os)) ->
  s = t -> i = j.
Proof.
  intros N F S1 T1 <-.
  destruct (run_inv names os N F) as [W H]. rewrite Forall_forall in H.
  destruct (H _ S1) as (A1 & B1 & M1), (H _ T1) as (A2 & B2 & M2). cbn [fst snd] in *.
  apply (wf_uniq _ W); auto; [congruence|].
  eapply same_trans; [apply same_sym|]; eauto.
Qed.

Lemma held_distinct names os s t i :
  NoDup names -> Forall nulfree names -> nulfree s \/ nulfree t ->
  In (s, i) (snd (symrun names os)) -> In (t, i) (snd (symrun names os)) -> s = t.
Proof.
  intros N F NF S1 T1.
  destruct (run_inv names os N F) as [W H]. rewrite Forall_forall in H.
  destruct (H _ S1) as (A1 & B1 & M1), (H _ T1) as (A2 & B2 & M2). cbn [fst snd] in *.
  assert (M : is_same_string s t = true) by (eapply same_trans; [|apply same_sym]; eauto).
  destruct NF; [|symmetry]; apply same_nulfree; auto. now apply same_sym.
Qed.

Lemma held_chars names os s i :
  NoDup names -> Forall nulfree names -> nulfree s ->
  In (s, i) (snd (symrun names os)) -> chars_of (fst (symrun names os)) i = s.
Proof.
  intros N F NF S1.
  destruct (run_inv names os N F) as [W H]. rewrite Forall_forall in H.
  destruct (H _ S1) as (A1 & B1 & M1). cbn [fst snd] in *.
  symmetry. now apply same_nulfree.
Qed.

Lemma has_interned names os s r :
  NoDup names -> Forall nulfree names ->
  hasInterned s (fst (symrun names os)) = Ok r ->
  match r with
  | Some i => In i (alive (fst (symrun names os))) /\ chars_of (fst (symrun names os)) i = s
  | None => forall i, In i (alive (fst (symrun names os))) ->
      chars_of (fst (symrun names os)) i <> s
  end.
Proof.
  intros N F. destruct (run_inv names os N F) as [W _]. unfold hasInterned.
  destruct (chain _ (bucket s)) as [|j c] eqn:C; [discriminate|].
  intro E. assert (E' := f_equal (fun o => match o with Ok x => x | _ => None end) E).
  cbv beta iota in E'. subst r. clear E. rewrite <- C. clear C j c.
  destruct (List.find _ _) as [i|] eqn:E.
  - apply find_some in E. destruct E as [E M]. apply (wf_in _ W) in E.
    apply match_spec in M. split; [tauto|auto].
  - intros i A E2. eapply find_none in E; [|apply (wf_in _ W); split; [exact A|now rewrite E2]].
    cbn in E. rewrite E2 in E. assert (sym_match s s = true) by now apply match_spec. congruence.
Qed.

Lemma is_symbol_string names os s r :
  NoDup names -> Forall nulfree names ->
  isSymbolString s (fst (symrun names os)) = Ok r ->
  (r = true <-> exists i, In i (alive (fst (symrun names os))) /\
     chars_of (fst (symrun names os)) i = s).
Proof.
  intros N F. destruct (run_inv names os N F) as [W _]. unfold isSymbolString.
  destruct (chain _ (bucket s)) as [|j c] eqn:C; [discriminate|].
  intro E. assert (E' := f_equal (fun o => match o with Ok x => x | _ => false end) E).
  cbv beta iota in E'. subst r. clear E. rewrite <- C. clear C j c.
  rewrite existsb_exists. split.
  - intros (i & I1 & M). apply (wf_in _ W) in I1. apply match_spec in M.
    exists i. split; [tauto|auto].
  - intros (i & I1 & <-). exists i. split; [apply (wf_in _ W); auto|now apply match_spec].
Qed.

Lemma symbol_string_defined names os s i :
  NoDup names -> Forall nulfree names ->
  In i (alive (fst (symrun names os))) ->
  bucket (chars_of (fst (symrun names os)) i) = bucket s ->
  (exists r, isSymbolString s (fst (symrun names os)) = Ok r) /\
  (exists r, hasInterned s (fst (symrun names os)) = Ok r).
Proof.
  intros N F A B. destruct (run_inv names os N F) as [W _].
  assert (In i (chain (fst (symrun names os)) (bucket s))) by (apply (wf_in _ W); auto).
  unfold isSymbolString, hasInterned.
  destruct (chain _ (bucket s)); [easy|eauto].
Qed.

(** ** numArgs *)

Lemma fold_count (l : list Z) n :
  fold_left (fun n c => if c =? 58 then n + 1 else n) l n =
  n + fold_right (fun c n => if c =? 58 then n + 1 else n) 0 l.
Proof.
  revert n; induction l as [|c l IH]; intro n; cbn; [lia|].
  rewrite IH. destruct (c =? 58); lia.
Qed.

Definition colons (l : list Z) : Z := fold_right (fun c n => if c =? 58 then n + 1 else n) 0 l.

Lemma colons_app a b : colons (a ++ b) = colons a + colons b.
Proof. unfold colons. induction a as [|c a IH]; cbn; [lia|]. rewrite IH. destruct (c =? 58); lia. Qed.

Lemma ident_colons s : identifier s -> colons s = 0.
Proof.
  destruct s as [|c s]; [easy|]. intros [L F].
  assert (H : Forall (fun c => letter c \/ digit c) (c :: s)) by (constructor; auto).
  clear L F. unfold colons. induction H as [|d l D H IH]; cbn; auto.
  rewrite IH. destruct (Z.eqb_spec d 58); auto. unfold letter, digit in D. lia.
Qed.

Lemma letter_test c : letter c <-> isLetter c || (c =? 95) = true.
Proof. unfold letter, isLetter. lia. Qed.

Lemma op_not_letter c : operator c -> isLetter c || (c =? 95) = false /\ c <> 58.
Proof.
  unfold operator. cbn [In]. intros H.
  repeat (destruct H as [<-|H]; [split; [reflexivity|discriminate]|]). easy.
Qed.

Lemma sel_colons n s : selector n s ->
  (exists s', s = s' ++ [58]) -> n = colons s /\ exists c s', s = c :: s' /\ letter c.
Proof.
  induction 1 as [s I1|s NE F|s I1|n s k I1 K IH N E]; intros [s' E'].
  - exfalso. assert (C := ident_colons s I1). subst s. rewrite colons_app in C.
    assert (0 <= colons s'). { clear. unfold colons. induction s' as [|c l IH]; cbn; [lia|]. destruct (c =? 58); lia. }
    cbn in C. lia.
  - exfalso. subst s. apply Forall_app in F. destruct F as [_ F]. inversion F as [|? ? F1 ?]; subst.
    apply op_not_letter in F1. tauto.
  - rewrite colons_app, ident_colons by auto. split; [reflexivity|].
    destruct s as [|c s]; [easy|]. destruct I1. exists c, (s ++ [58]). auto.
  - destruct (IH E) as [-> _]. split.
    + change (58 :: k) with ([58] ++ k). rewrite !colons_app, (ident_colons s I1). cbn [colons fold_right Z.eqb Pos.eqb]. lia.
    + destruct s as [|c s]; [easy|]. destruct I1. eexists c, _. cbn. eauto.
Qed.

Lemma sel_ends n s : selector n s ->
  (exists s', s = s' ++ [58]) \/
  (n = 0 /\ identifier s) \/ (n = 1 /\ s <> [] /\ Forall operator s).
Proof.
  destruct 1 as [s I1|s NE F|s I1|n s k I1 K N [k' E]]; auto.
  - left; eauto.
  - left. subst k. exists (s ++ 58 :: k'). now rewrite <- app_assoc.
Qed.

Lemma numArgs_ok n s : selector n s -> numArgs s = Ok n.
Proof.
  intro H. destruct (sel_ends n s H) as [E|[[-> I1]|(-> & NE & F)]].
  - destruct (sel_colons n s H E) as [-> _]. destruct E as [s' ->].
    unfold numArgs. rewrite rev_app_distr; cbn [rev app Z.eqb Pos.eqb].
    rewrite fold_count. reflexivity.
  - unfold numArgs.
    assert (C := ident_colons s I1).
    destruct (rev s) as [|c r] eqn:R.
    { destruct s; [easy|]. apply (f_equal (@length Z)) in R. rewrite rev_length in R. discriminate. }
    assert (ES : s = rev r ++ [c]) by (rewrite <- (rev_involutive s), R; reflexivity).
    destruct (Z.eqb_spec c 58) as [->|NC].
    { exfalso. rewrite ES, colons_app in C.
      assert (0 <= colons (rev r)). { clear. unfold colons. induction (rev r) as [|c l IH]; cbn; [lia|]. destruct (c =? 58); lia. }
      cbn in C. lia. }
    destruct s as [|d s]; [easy|]. destruct I1 as [L _].
    cbn [existsb]. apply letter_test in L. rewrite L. reflexivity.
  - unfold numArgs.
    destruct (rev s) as [|c r] eqn:R.
    { destruct s; [easy|]. apply (f_equal (@length Z)) in R. rewrite rev_length in R. discriminate. }
    assert (FR : Forall operator (c :: r)) by (rewrite <- R; now apply Forall_rev).
    inversion FR as [|? ? F1 ?]; subst. destruct (op_not_letter c F1) as [_ NC].
    destruct (Z.eqb_spec c 58); [easy|].
    replace (existsb _ s) with false; auto. symmetry.
    clear - F. induction F as [|d l D F IH]; auto. cbn [existsb].
    destruct (op_not_letter d D) as [-> _]. auto.
Qed.

Lemma selector_num_args_ok n s : selector n s -> selector_num_args s = Ok n.
Proof.
  intro H. destruct (sel_ends n s H) as [E|[[-> I1]|(-> & NE & F)]].
  - destruct (sel_colons n s H E) as (-> & c & s' & -> & L).
    unfold selector_num_args. apply letter_test in L. rewrite L. reflexivity.
  - assert (C := ident_colons s I1). unfold colons in C. destruct s as [|c s]; [easy|]. destruct I1 as [L _].
    unfold selector_num_args. apply letter_test in L. rewrite L. rewrite C. reflexivity.
  - destruct s as [|c s]; [easy|]. inversion F as [|? ? F1 ?]; subst.
    unfold selector_num_args. destruct (op_not_letter c F1) as [-> _]. reflexivity.
Qed.

(** ** what goes wrong *)

Definition nul_aa : list Z := [0; 97; 97].
Definition nul_zd : list Z := [0; 122; 100].

Lemma nul_same : exists os s t i,
  s <> t /\
  In (s, i) (snd (symrun [] os)) /\ In (t, i) (snd (symrun [] os)).
Proof.
  exists [Intern nul_aa; Intern nul_zd], nul_aa, nul_zd, 0%nat.
  split; [discriminate|]. vm_compute. split; auto.
Qed.

Lemma nul_chars : exists os s i,
  In (s, i) (snd (symrun [] os)) /\ chars_of (fst (symrun [] os)) i <> s.
Proof.
  exists [Intern nul_aa; Intern nul_zd], nul_zd, 0%nat.
  split; [vm_compute; auto|]. vm_compute. discriminate.
Qed.

Lemma empty_bucket : exists os s,
  (forall i, In i (alive (fst (symrun [[97]] os))) -> chars_of (fst (symrun [[97]] os)) i <> s) /\
  isSymbolString s (fst (symrun [[97]] os)) = Err.
Proof.
  exists [], [98]. split; [|vm_compute; reflexivity].
  cbn. intros i [<-|[]]. vm_compute. discriminate.
Qed.
