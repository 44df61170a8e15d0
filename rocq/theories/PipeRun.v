(** Every message to every stream. *)
From Coq Require Import ZifyBool ZifyNat.
From Verif Require Import Base Pipe PipeSpec PipeProofs.

Lemma weight_pos s : wf s -> (1 <= weight s)%nat.
Proof. destruct s; cbn [wf weight]; intros; try lia. Qed.

Lemma run_find n ss start cur : run (S n) Find (Concat ss start cur) =
  match ss with
  | [] => Err
  | s :: ss =>
    olet x := ask (run n) AtEnd s in
    if fst x then
      let (start, cur) := if 0 <? cur then (start + cur, 0) else (start, cur) in
      match ss with
      | [] => Ok (Flag false, Concat [snd x] start cur)
      | _ => run n Find (Concat ss start cur)
      end
    else Ok (Flag true, Concat (snd x :: ss) start cur)
  end.
Proof. reflexivity. Qed.

Lemma run_look n t p b nx : run (S n) Look (Filter t p b nx false) =
  olet x := ask (run n) AtEnd t in
  if fst x then Ok (Nil, Filter (snd x) p b nx true)
  else
    olet v := run n Next (snd x) in
    if Bool.eqb (p (fst v)) b then Ok (Nil, Filter (snd v) p b (fst v) false) else run n Look (Filter (snd v) p b (fst v) false).
Proof. reflexivity. Qed.

Lemma run_line n acc s : run (S n) (Line acc) s =
  olet x := ask (run n) AtEnd s in
  if fst x then Ok (Tuple (rev acc), snd x)
  else
    olet v := run n Next (snd x) in
    if same (fst v) CR then olet q := run n (PeekFor LF) (snd v) in Ok (Tuple (rev acc), snd q)
    else if same (fst v) LF || same (fst v) Nil then Ok (Tuple (rev acc), snd v)
    else run n (Line (fst v :: acc)) (snd v).
Proof. reflexivity. Qed.

(** ** Sources *)
Lemma source_step n o l pos : ok o (Source l pos) -> (forall acc, o <> Line acc) ->
  exists a s', run (S n) o (Source l pos) = Ok (a, s') /\ post o (Source l pos) a s'.
Proof.
  intros O NL.
  assert (Same : forall a, left o l = l -> says o (Source l pos) a -> ((o = Next \/ exists acc, o = Line acc) -> l = []) ->
    post o (Source l pos) a (Source l pos)).
  { intros a E Sa N. constructor; [apply later_refl; exact I|symmetry; exact E|apply moved_refl| |exact Sa]. intros H C. contradiction (C (N H)). }
  assert (Move : forall a y t, l = y :: t -> left o l = t -> says o (Source l pos) a -> post o (Source l pos) a (Source t (pos + 1))).
  { intros a y t E El Sa. subst l. constructor; [|symmetry; exact El| | |exact Sa].
    - constructor; cbn [wf weight speeks nilly hpos length]; auto; lia.
    - intros k Hk. cbn [posn elems length] in *. injection Hk as <-. f_equal. lia.
    - intros _ _. cbn [weight length]. lia. }
  destruct o; cbn [ok] in O; try contradiction.
  - destruct l; do 2 eexists; (split; [reflexivity|apply Same; [reflexivity|reflexivity|intros [H|[? H]]; discriminate]]).
  - destruct l as [|y t].
    + do 2 eexists. split; [reflexivity|]. apply Same; reflexivity.
    + do 2 eexists. split; [reflexivity|]. apply (Move _ y t); reflexivity.
  - destruct l; do 2 eexists; (split; [reflexivity|apply Same; [reflexivity|reflexivity|intros [H|[? H]]; discriminate]]).
  - destruct l as [|y t].
    + do 2 eexists. split; [reflexivity|]. apply Same; [reflexivity|reflexivity|intros [H|[? H]]; discriminate].
    + destruct (eqb y x) eqn:E.
      * do 2 eexists. split; [cbn [run]; rewrite E; reflexivity|]. apply (Move _ y t); [reflexivity| |]; cbn [left says answer elems]; rewrite E; reflexivity.
      * do 2 eexists. split; [cbn [run]; rewrite E; reflexivity|].
        apply Same; [cbn [left]; rewrite E; reflexivity|cbn [says answer elems]; rewrite E; reflexivity|intros [H|[? H]]; discriminate].
  - do 2 eexists. split; [destruct l; reflexivity|]. apply Same; [reflexivity| |intros [H|[? H]]; discriminate].
    exists pos. split; [reflexivity|]. intros m H. cbn in H. congruence.
  - exfalso. exact (NL acc eq_refl).
Qed.

(** ** Concatenations *)
Lemma found_later ss start cur b s' o : ss <> [] -> found ss start cur b s' ->
  later (Concat ss start cur) s' /\ moved (Concat ss start cur) s' /\ elems s' = elems (Concat ss start cur)
  /\ b = negb (null (elems (Concat ss start cur))) /\ (o <> Next -> weight s' <= weight (Concat ss start cur))%nat.
Proof.
  intros N (ss' & st & cu & -> & N' & W' & T' & P' & C' & El' & Hb & Hd).
  assert (Lt : later (Concat ss start cur) (Concat ss' st cu)).
  { constructor; cbn [wf weight speeks nilly hpos]; auto. fold (total ss') (total ss). lia. }
  split; [exact Lt|]. split; [|split; [exact El'|split; [exact Hb|intros _; exact (l_weight _ _ Lt)]]].
  intros n H. cbn [posn elems] in *. rewrite El'. injection H as <-. f_equal. lia.
Qed.

Lemma concat_step n o ss start cur : good (run n) n -> good_find (run n) n ->
  wf (Concat ss start cur) -> ok o (Concat ss start cur) -> (weight (Concat ss start cur) <= S n)%nat -> (forall acc, o <> Line acc) ->
  exists a s', run (S n) o (Concat ss start cur) = Ok (a, s') /\ post o (Concat ss start cur) a s'.
Proof.
  intros G F [N W] O T NL. cbn [weight] in T. fold (total ss) in T. fold (all_wf ss) in W.
  destruct (ask_find (run n) n ss start cur F N W ltac:(lia)) as (b & s1 & E & H).
  destruct (found_later _ _ _ _ _ o N H) as (L & M & El & Hb & _).
  destruct o; cbn [ok] in O; try contradiction.
  - exists (Flag (negb b)), s1. split; [cbn [run]; rewrite E; reflexivity|]. constructor; auto.
    + intros [C|[? C]]; discriminate.
    + cbn [says answer]. rewrite Hb, negb_involutive. reflexivity.
  - destruct b.
    + destruct H as (ss' & st & cu & -> & N' & W' & T' & P' & C' & El' & _ & Hd). specialize (Hd eq_refl).
      destruct ss' as [|t ss']; [contradiction|]. destruct W' as [Wt W'].
      destruct (G Next t Wt) as (a & t' & Et & [Lt Elt Mt Hl Sa]).
      { left. exact Hd. } { cbn [need]. rewrite total_cons in T'. lia. }
      specialize (Hl (or_introl eq_refl) Hd).
      exists a. exists (Concat (t' :: ss') st (cu + 1)). split; [cbn [run]; rewrite E; cbn [obind fst snd negb]; rewrite Et; reflexivity|].
      cbn [elems map concat] in El. cbn [left] in Elt.
      assert (E' : elems (Concat (t' :: ss') st (cu + 1)) = tl (elems (Concat ss start cur))).
      { cbn [elems map concat]. rewrite <- El, Elt. destruct (elems t); [contradiction|reflexivity]. }
      constructor.
      * constructor; cbn [wf weight speeks nilly hpos]; auto.
        -- split; [discriminate|]. split; [exact (l_wf _ _ Lt)|exact W'].
        -- fold (total ss) (total (t' :: ss')). rewrite total_cons in *. lia.
        -- intros x Hx. destruct (P' x Hx) as [P1 P2]. split; [exact (l_peeks _ _ Lt x P1)|exact P2].
      * exact E'.
      * intros k Hk. cbn [posn] in *. injection Hk as <-. rewrite E'. f_equal. cbn [elems]. rewrite <- El.
        destruct (elems t); [contradiction|]. cbn [app tl length]. lia.
      * intros _ _. cbn [weight]. fold (total ss) (total (t' :: ss')). rewrite total_cons in *. lia.
      * cbn [says answer] in *. cbn [elems]. rewrite <- El. destruct (elems t); [contradiction|]. exact Sa.
    + exists Nil, s1. split; [cbn [run]; rewrite E; reflexivity|].
      symmetry in Hb. apply negb_false_iff, null_true in Hb. constructor; auto.
      * cbn [left]. rewrite El, Hb. reflexivity.
      * intros _ C. contradiction.
      * cbn [says answer]. rewrite Hb. reflexivity.
  - destruct b.
    + destruct H as (ss' & st & cu & -> & N' & W' & T' & P' & C' & El' & _ & Hd). specialize (Hd eq_refl).
      destruct ss' as [|t ss']; [contradiction|]. destruct W' as [Wt W'].
      destruct (G Peek t Wt I) as (a & t' & Et & [Lt Elt Mt _ Sa]).
      { cbn [need]. rewrite total_cons in T'. lia. }
      exists a. exists (Concat (t' :: ss') st cu). split; [cbn [run]; rewrite E; cbn [obind fst snd negb]; rewrite Et; reflexivity|].
      cbn [elems map concat] in El. cbn [left] in Elt.
      assert (E' : elems (Concat (t' :: ss') st cu) = elems (Concat ss start cur)).
      { cbn [elems map concat]. rewrite <- El, Elt. reflexivity. }
      constructor.
      * constructor; cbn [wf weight speeks nilly hpos]; auto.
        -- split; [discriminate|]. split; [exact (l_wf _ _ Lt)|exact W'].
        -- fold (total ss) (total (t' :: ss')). rewrite total_cons in *. pose proof (l_weight _ _ Lt). lia.
        -- intros x Hx. destruct (P' x Hx) as [P1 P2]. split; [exact (l_peeks _ _ Lt x P1)|exact P2].
      * exact E'.
      * intros k Hk. cbn [posn] in *. injection Hk as <-. rewrite E'. f_equal. lia.
      * intros [C|[? C]]; discriminate.
      * cbn [says answer] in *. cbn [elems]. rewrite <- El. destruct (elems t); [contradiction|]. exact Sa.
    + exists Nil, s1. split; [cbn [run]; rewrite E; reflexivity|].
      symmetry in Hb. apply negb_false_iff, null_true in Hb. constructor; auto.
      * intros [C|[? C]]; discriminate.
      * cbn [says answer]. rewrite Hb. reflexivity.
  - destruct b.
    + destruct H as (ss' & st & cu & -> & N' & W' & T' & P' & C' & El' & _ & Hd). specialize (Hd eq_refl).
      destruct ss' as [|t ss']; [contradiction|]. destruct W' as [Wt W'].
      destruct (P' x O) as [Px _].
      destruct (G (PeekFor x) t Wt Px) as (a & t' & Et & [Lt Elt Mt _ Sa]).
      { cbn [need]. rewrite total_cons in T'. lia. }
      cbn [elems map concat] in El. cbn [left] in Elt. cbn [says answer] in Sa.
      destruct (elems t) as [|y l] eqn:Ey; [contradiction|].
      set (cu' := match a with Flag true => cu + 1 | _ => cu end).
      exists a. exists (Concat (t' :: ss') st cu').
      split; [cbn [run]; rewrite E; cbn [obind fst snd negb]; rewrite Et; reflexivity|].
      assert (E' : elems (Concat (t' :: ss') st cu') = left (PeekFor x) (elems (Concat ss start cur))).
      { cbn [elems map concat]. rewrite <- El, Elt. cbn [app left]. destruct (eqb y x); reflexivity. }
      constructor.
      * constructor; cbn [wf weight speeks nilly hpos]; auto.
        -- split; [discriminate|]. split; [exact (l_wf _ _ Lt)|exact W'].
        -- fold (total ss) (total (t' :: ss')). rewrite total_cons in *. pose proof (l_weight _ _ Lt). lia.
        -- intros z Hz. destruct (P' z Hz) as [P1 P2]. split; [exact (l_peeks _ _ Lt z P1)|exact P2].
      * exact E'.
      * intros k Hk. cbn [posn] in *. injection Hk as <-. rewrite E'. f_equal. cbn [elems]. rewrite <- El.
        cbn [app left]. unfold cu'. subst a. destruct (eqb y x); cbn [length]; lia.
      * intros [C|[? C]]; discriminate.
      * cbn [says answer elems]. rewrite <- El. exact Sa.
    + exists (Flag false), s1. split; [cbn [run]; rewrite E; reflexivity|].
      symmetry in Hb. apply negb_false_iff, null_true in Hb. constructor; auto.
      * cbn [left]. rewrite El, Hb. reflexivity.
      * intros [C|[? C]]; discriminate.
      * cbn [says answer]. rewrite Hb. reflexivity.
  - destruct H as (ss' & st & cu & -> & N' & W' & T' & P' & C' & El' & _ & Hd).
    exists (Atom (st + cu)). eexists. split; [cbn [run]; rewrite E; reflexivity|]. constructor; auto.
    + intros [C|[? C]]; discriminate.
    + exists (st + cu). split; [reflexivity|]. intros m Hm. cbn in Hm. injection Hm as <-. exact C'.
  - exfalso. exact (NL acc eq_refl).
Qed.

(** ** Selections *)
Lemma filter_step n o t p b nx over : good_look (run n) n ->
  wf t -> ok o (Filter t p b nx over) -> (weight (Filter t p b nx over) <= S n)%nat -> (forall acc, o <> Line acc) ->
  exists a s', run (S n) o (Filter t p b nx over) = Ok (a, s') /\ post o (Filter t p b nx over) a s'.
Proof.
  intros K W O T NL.
  assert (Same : forall a, left o (elems (Filter t p b nx over)) = elems (Filter t p b nx over) -> says o (Filter t p b nx over) a ->
    ((o = Next \/ exists acc, o = Line acc) -> elems (Filter t p b nx over) = []) ->
    post o (Filter t p b nx over) a (Filter t p b nx over)).
  { intros a E Sa N. constructor; [apply later_refl; exact W|symmetry; exact E|apply moved_refl| |exact Sa]. intros H C. contradiction (C (N H)). }
  assert (Move : over = false -> forall a, left o (elems (Filter t p b nx over)) = filter (matching p b) (elems t) ->
    says o (Filter t p b nx over) a ->
    exists a' s', run n Look (Filter t p b nx over) = Ok (a', s') /\ post o (Filter t p b nx over) a s').
  { intros Ho a E Sa. subst over. cbn [weight] in T. destruct (K t p b nx W ltac:(lia)) as (a' & s' & E' & L & El & Wl).
    exists a', s'. split; [exact E'|]. constructor; auto.
    - rewrite El. symmetry. exact E.
    - intros k C. discriminate.
    - intros _ _. cbn [weight]. lia. }
  destruct o; cbn [ok] in O; try contradiction.
  - do 2 eexists. split; [reflexivity|]. apply Same; [reflexivity| |intros [H|[? H]]; discriminate].
    cbn [says answer elems]. destruct over; reflexivity.
  - destruct over.
    + do 2 eexists. split; [reflexivity|]. apply Same; reflexivity.
    + destruct (Move eq_refl nx) as (a' & s' & E' & Q); [reflexivity|reflexivity|].
      exists nx, s'. split; [cbn [run]; rewrite E'; reflexivity|exact Q].
  - exists (if over then Nil else nx). eexists. split; [destruct over; reflexivity|]. apply Same; [reflexivity| |intros [H|[? H]]; discriminate].
    cbn [says answer elems]. destruct over; reflexivity.
  - destruct over.
    + do 2 eexists. split; [reflexivity|]. apply Same; [reflexivity|reflexivity|intros [H|[? H]]; discriminate].
    + cbn [speeks] in O. cbn [run]. rewrite (same_eqb nx x O). destruct (eqb nx x) eqn:E.
      * destruct (Move eq_refl (Flag true)) as (a' & s' & E' & Q).
        -- cbn [left elems]. rewrite E. reflexivity.
        -- cbn [says answer elems]. rewrite E. reflexivity.
        -- rewrite E'. exists (Flag true), s'. split; [reflexivity|exact Q].
      * do 2 eexists. split; [reflexivity|]. apply Same; [cbn [left elems]; rewrite E; reflexivity| |intros [H|[? H]]; discriminate].
        cbn [says answer elems]. rewrite E. reflexivity.
  - exfalso. exact (NL acc eq_refl).
Qed.

(** ** Collections *)
Lemma collect_later t t' f : later t t' -> later (Collect t f) (Collect t' f).
Proof. intros [A B C D E]. constructor; cbn [wf weight speeks nilly hpos]; auto. lia. Qed.
Lemma collect_moved t t' f : moved t t' -> moved (Collect t f) (Collect t' f).
Proof. intros H k Hk. cbn [posn elems] in *. rewrite !map_length. exact (H k Hk). Qed.

Lemma collect_step n o t f : good (run n) n ->
  wf t -> ok o (Collect t f) -> (weight (Collect t f) <= S n)%nat -> (forall acc, o <> Line acc) ->
  exists a s', run (S n) o (Collect t f) = Ok (a, s') /\ post o (Collect t f) a s'.
Proof.
  intros G W O T NL. cbn [weight] in T.
  destruct (ask_ok (run n) n t G W ltac:(lia)) as (t1 & E & L & El & M).
  assert (Quiet : o = Next \/ o = Peek -> exists a s', run (S n) o (Collect t f) = Ok (a, s') /\ post o (Collect t f) a s').
  { intros Ho. assert (Eq : run (S n) o (Collect t f) = olet r := ask (run n) AtEnd t in
        if fst r then Ok (Nil, Collect (snd r) f)
        else olet v := run n o (snd r) in Ok (f (fst v), Collect (snd v) f)) by (destruct Ho; subst o; reflexivity).
    rewrite Eq, E. cbn [obind fst snd]. destruct (null (elems t)) eqn:X.
    - apply null_true in X. do 2 eexists. split; [reflexivity|]. constructor.
      + apply collect_later, L.
      + cbn [elems]. rewrite El, X. destruct Ho; subst o; reflexivity.
      + apply collect_moved, M.
      + intros _ C. cbn [elems] in C. rewrite X in C. contradiction.
      + destruct Ho; subst o; cbn [says answer elems]; rewrite X; reflexivity.
    - apply null_false in X.
      destruct (G o t1 (l_wf _ _ L)) as (a & t2 & E2 & [L2 El2 M2 Hl Sa]).
      { destruct Ho; subst o; cbn [ok]; auto. left. rewrite El. exact X. }
      { pose proof (l_weight _ _ L). destruct Ho; subst o; cbn [need]; lia. }
      rewrite E2. cbn [obind fst snd]. do 2 eexists. split; [reflexivity|]. constructor.
      + apply collect_later. exact (later_trans _ _ _ L L2).
      + cbn [elems]. rewrite El2, El. destruct Ho; subst o; cbn [left]; [destruct (elems t); reflexivity|reflexivity].
      + apply collect_moved. exact (moved_trans _ _ _ M M2).
      + intros Hn _. cbn [weight]. rewrite El in Hl. specialize (Hl Hn X). pose proof (l_weight _ _ L). lia.
      + destruct Ho; subst o; cbn [says answer elems] in *; rewrite El in Sa; (destruct (elems t); [contradiction|subst a; reflexivity]). }
  destruct o; cbn [ok] in O; try contradiction.
  - do 2 eexists. split; [cbn [run]; rewrite E; reflexivity|]. constructor.
    + apply collect_later, L.
    + cbn [elems left snd]. rewrite El. reflexivity.
    + apply collect_moved, M.
    + intros [C|[? C]]; discriminate.
    + cbn [says answer elems fst]. destruct (elems t); reflexivity.
  - apply Quiet. auto.
  - apply Quiet. auto.
  - cbn [hpos] in O. destruct (G Position t W O ltac:(cbn [need]; lia)) as (a & t2 & E2 & [L2 El2 M2 _ Sa]).
    exists a, (Collect t2 f). split; [cbn [run]; rewrite E2; reflexivity|]. constructor.
    + apply collect_later, L2.
    + cbn [elems left] in *. rewrite El2. reflexivity.
    + apply collect_moved, M2.
    + intros [C|[? C]]; discriminate.
    + destruct Sa as (k & -> & Hk). exists k. split; [reflexivity|exact Hk].
Qed.

(** ** Lines *)
Lemma no_move s s' : posn s = None -> moved s s'.
Proof. intros H k C. congruence. Qed.

Lemma lines_null l : null (map Tuple (lines l)) = null l.
Proof. destruct l as [|c l]; [reflexivity|]. rewrite lines_eq by discriminate. reflexivity. Qed.

Lemma next_line n t : good (run n) n -> wf t -> speeks LF t -> (S (weight t) <= n)%nat -> elems t <> [] ->
  exists t', run n (Line []) t = Ok (Tuple (fst (line (elems t))), t') /\ later t t' /\ (weight t' < weight t)%nat
    /\ map Tuple (lines (elems t)) = Tuple (fst (line (elems t))) :: map Tuple (lines (elems t')).
Proof.
  intros G W P T X. destruct (G (Line []) t W P ltac:(cbn [need]; lia)) as (a & t' & E & [L El _ Hl Sa]).
  cbn [says answer rev app] in Sa. subst a. exists t'. split; [exact E|]. split; [exact L|]. split; [apply Hl; eauto|].
  rewrite (lines_eq (elems t) X). cbn [left] in El. rewrite El. reflexivity.
Qed.

Lemma peekable_step n o t look : good (run n) n -> wf t -> speeks LF t ->
  ok o (Peekable t look) -> (weight (Peekable t look) <= S n)%nat -> (forall acc, o <> Line acc) ->
  exists a s', run (S n) o (Peekable t look) = Ok (a, s') /\ post o (Peekable t look) a s'.
Proof.
  intros G W P O T NL. cbn [weight] in T.
  assert (Lt : forall t' look', later t t' -> (weight (Peekable t' look') <= weight (Peekable t look))%nat -> later (Peekable t look) (Peekable t' look')).
  { intros t' look' L Hw. constructor; auto. cbn [wf]. split; [exact (l_wf _ _ L)|exact (l_peeks _ _ L _ P)]. }
  destruct look as [v|].
  - destruct o; cbn [ok] in O; try contradiction.
    + do 2 eexists. split; [reflexivity|]. constructor; auto using later_refl, no_move.
      * intros [C|[? C]]; discriminate.
      * reflexivity.
    + do 2 eexists. split; [reflexivity|]. constructor.
      * apply Lt; [apply later_refl; exact W|cbn [weight]; lia].
      * reflexivity.
      * apply no_move; reflexivity.
      * intros _ _. cbn [weight]. lia.
      * reflexivity.
    + do 2 eexists. split; [reflexivity|]. constructor; auto using later_refl, no_move.
      * intros [C|[? C]]; discriminate.
      * reflexivity.
    + do 2 eexists. split; [reflexivity|]. constructor.
      * apply Lt; [apply later_refl; exact W|cbn [weight]; destruct (eqb v x); lia].
      * cbn [elems left app]. destruct (eqb v x); reflexivity.
      * apply no_move; reflexivity.
      * intros [C|[? C]]; discriminate.
      * reflexivity.
    + exfalso. exact (NL acc eq_refl).
  - destruct (ask_ok (run n) n t G W ltac:(lia)) as (t1 & E & L & El & M). pose proof (l_weight _ _ L) as LW.
    assert (Nx : elems t <> [] -> exists t', run n (Line []) t1 = Ok (Tuple (fst (line (elems t))), t') /\ later t t' /\ (weight t' < weight t)%nat
       /\ map Tuple (lines (elems t)) = Tuple (fst (line (elems t))) :: map Tuple (lines (elems t'))).
    { intros X. destruct (next_line n t1 G (l_wf _ _ L) (l_peeks _ _ L _ P) ltac:(lia) ltac:(congruence)) as (t' & A & B & C & D).
      rewrite El in A, D. exists t'. split; [exact A|]. split; [exact (later_trans _ _ _ L B)|]. split; [lia|exact D]. }
    destruct o; cbn [ok] in O; try contradiction.
    + do 2 eexists. split; [cbn [run]; rewrite E; reflexivity|]. constructor.
      * apply Lt; [exact L|cbn [weight snd]; lia].
      * cbn [elems left app snd]. rewrite El. reflexivity.
      * apply no_move; reflexivity.
      * intros [C|[? C]]; discriminate.
      * cbn [says answer elems app fst]. rewrite <- (lines_null (elems t)). reflexivity.
    + destruct O as [O|[]]. cbn [elems app] in O.
      assert (X : elems t <> []) by (intros C; rewrite C in O; contradiction).
      destruct (next_line n t G W P ltac:(lia) X) as (t' & A & B & C & D).
      do 2 eexists. split; [cbn [run]; rewrite A; reflexivity|]. constructor.
      * apply Lt; [exact B|cbn [weight snd]; lia].
      * cbn [elems left app snd]. rewrite D. reflexivity.
      * apply no_move; reflexivity.
      * intros _ _. cbn [weight snd]. lia.
      * cbn [says answer elems app fst]. rewrite D. reflexivity.
    + cbn [run]. rewrite E. cbn [obind fst snd]. destruct (null (elems t)) eqn:X.
      * apply null_true in X. do 2 eexists. split; [reflexivity|]. constructor.
        -- apply Lt; [exact L|cbn [weight snd]; lia].
        -- cbn [elems left app snd]. rewrite El. reflexivity.
        -- apply no_move; reflexivity.
        -- intros [C|[? C]]; discriminate.
        -- cbn [says answer elems app]. rewrite X. reflexivity.
      * apply null_false in X. destruct (Nx X) as (t' & A & B & C & D). rewrite A. cbn [obind fst snd].
        do 2 eexists. split; [reflexivity|]. constructor.
        -- apply Lt; [exact B|cbn [weight snd]; lia].
        -- cbn [elems left app snd]. rewrite D. reflexivity.
        -- apply no_move; reflexivity.
        -- intros [F|[? F]]; discriminate.
        -- cbn [says answer elems app]. rewrite D. reflexivity.
    + cbn [run]. rewrite E. cbn [obind fst snd]. destruct (null (elems t)) eqn:X.
      * apply null_true in X. do 2 eexists. split; [reflexivity|]. constructor.
        -- apply Lt; [exact L|cbn [weight snd]; lia].
        -- cbn [elems left app snd]. rewrite El, X. reflexivity.
        -- apply no_move; reflexivity.
        -- intros [C|[? C]]; discriminate.
        -- cbn [says answer elems app]. rewrite X. reflexivity.
      * apply null_false in X. destruct (Nx X) as (t' & A & B & C & D). rewrite A. cbn [obind fst snd].
        do 2 eexists. split; [reflexivity|]. constructor.
        -- apply Lt; [exact B|cbn [weight snd]; destruct (eqb _ x); lia].
        -- cbn [elems left app snd]. rewrite D. destruct (eqb _ x); reflexivity.
        -- apply no_move; reflexivity.
        -- intros [F|[? F]]; discriminate.
        -- cbn [says answer elems app]. rewrite D. reflexivity.
    + exfalso. exact (NL acc eq_refl).
Qed.

Lemma lines_step n o t : good (run n) n -> wf t -> speeks LF t ->
  ok o (Lines t) -> (weight (Lines t) <= S n)%nat -> (forall acc, o <> Line acc) ->
  exists a s', run (S n) o (Lines t) = Ok (a, s') /\ post o (Lines t) a s'.
Proof.
  intros G W P O T NL. cbn [weight] in T.
  assert (Lt : forall t', later t t' -> later (Lines t) (Lines t')).
  { intros t' L. pose proof (l_weight _ _ L). constructor; auto; [|cbn [weight]; lia]. cbn [wf]. split; [exact (l_wf _ _ L)|exact (l_peeks _ _ L _ P)]. }
  assert (Bec : o = Peek \/ (exists x, o = PeekFor x) -> exists a s', run n o (Peekable t None) = Ok (a, s') /\ post o (Lines t) a s').
  { intros Ho. destruct (G o (Peekable t None)) as (a & s' & E & [L El M Hl Sa]).
    - cbn [wf]. auto.
    - destruct Ho as [->|[x ->]]; cbn [ok speeks]; auto.
    - destruct Ho as [->|[x ->]]; cbn [need weight]; lia.
    - exists a, s'. split; [exact E|]. constructor.
      + destruct L as [La Lb Lc Ld Le]. constructor; auto. cbn [weight] in *. lia.
      + exact El.
      + apply no_move; reflexivity.
      + destruct Ho as [->|[x ->]]; intros [C|[? C]]; discriminate.
      + destruct Ho as [->|[x ->]]; exact Sa. }
  destruct o; cbn [ok] in O; try contradiction.
  - destruct (ask_ok (run n) n t G W ltac:(lia)) as (t1 & E & L & El & M).
    do 2 eexists. split; [cbn [run]; rewrite E; reflexivity|]. constructor.
    + apply Lt, L.
    + cbn [elems left snd]. rewrite El. reflexivity.
    + apply no_move; reflexivity.
    + intros [C|[? C]]; discriminate.
    + cbn [says answer elems fst]. rewrite <- (lines_null (elems t)). reflexivity.
  - destruct O as [O|[]]. cbn [elems] in O. assert (X : elems t <> []) by (intros C; rewrite C in O; contradiction).
    destruct (next_line n t G W P ltac:(lia) X) as (t' & A & B & C & D).
    do 2 eexists. split; [cbn [run]; rewrite A; reflexivity|]. constructor.
    + apply Lt, B.
    + cbn [elems left snd]. rewrite D. reflexivity.
    + apply no_move; reflexivity.
    + intros _ _. cbn [weight snd]. lia.
    + cbn [says answer elems fst]. rewrite D. reflexivity.
  - apply Bec. auto.
  - apply Bec. eauto.
  - exfalso. exact (NL acc eq_refl).
Qed.

(** ** Tuples *)
Lemma one_step n o ss delta : good (run n) n -> wf (OneOfEach ss delta) ->
  ok o (OneOfEach ss delta) -> (weight (OneOfEach ss delta) <= S n)%nat -> (forall acc, o <> Line acc) ->
  exists a s', run (S n) o (OneOfEach ss delta) = Ok (a, s') /\ post o (OneOfEach ss delta) a s'.
Proof.
  intros G [N W] O T NL. cbn [weight] in T. fold (total ss) in T. fold (all_wf ss) in W.
  assert (Nm : map elems ss <> []) by (destruct ss; [contradiction|discriminate]).
  assert (Lt : forall ss', Forall2 later ss ss' -> later (OneOfEach ss delta) (OneOfEach ss' delta)).
  { intros ss' F. destruct (later_all _ _ F) as (W' & T' & L').
    constructor; cbn [wf weight speeks nilly]; auto.
    - split; [destruct ss'; [destruct ss; [contradiction|discriminate]|discriminate]|exact W'].
    - fold (total ss) (total ss'). lia.
    - destruct F as [|s s' ss0 ss0' L _]; [auto|]. exact (l_hpos _ _ L). }
  assert (Quiet : o = Next \/ o = Peek -> exists a s', run (S n) o (OneOfEach ss delta) = Ok (a, s') /\ post o (OneOfEach ss delta) a s').
  { intros Ho. destruct (each_ok (run n) n o ss G Ho W ltac:(lia)) as (ss' & E & F & H & Hp).
    assert (Eq : run (S n) o (OneOfEach ss delta) = olet r := each (run n) o ss in
        Ok (match fst r with Some l => Tuple l | None => Nil end, OneOfEach (snd r) delta)) by (destruct Ho; subst o; reflexivity).
    rewrite Eq, E. cbn [obind fst snd]. destruct (later_all _ _ F) as (W' & T' & L').
    assert (Nm' : map elems ss' <> []) by (destruct ss'; [destruct ss; [contradiction|discriminate]|discriminate]).
    do 2 eexists. split; [reflexivity|]. destruct (existsb null (map elems ss)) eqn:X.
    - assert (Z1 : zips (map elems ss) = []) by (apply null_true; rewrite zips_null; auto).
      assert (Z2 : zips (map elems ss') = []) by (apply null_true; rewrite zips_null; auto).
      constructor.
      + apply Lt, F.
      + cbn [elems]. rewrite Z1, Z2. destruct Ho; subst o; reflexivity.
      + apply no_move; reflexivity.
      + intros _ C. cbn [elems] in C. rewrite Z1 in C. contradiction.
      + destruct Ho; subst o; cbn [says answer elems]; rewrite Z1; reflexivity.
    - destruct H as [H1 H2]. pose proof (zips_cons (map elems ss) Nm X) as Zc.
      constructor.
      + apply Lt, F.
      + cbn [elems]. rewrite H1, Zc. destruct Ho; subst o; cbn [left map tl]; [reflexivity|].
        change (map (fun l => left Peek l) (map elems ss)) with (map (fun l : list obj => l) (map elems ss)). rewrite map_id, Zc. reflexivity.
      + apply no_move; reflexivity.
      + intros Hn _. cbn [weight]. fold (total ss) (total ss'). assert (total ss' < total ss)%nat; [|lia].
        apply H2; [|exact N]. destruct Hn as [Hn|[? Hn]]; [exact Hn|]. destruct Ho; subst o; discriminate.
      + destruct Ho; subst o; cbn [says answer elems]; rewrite Zc; reflexivity. }
  destruct o; cbn [ok] in O; try contradiction.
  - destruct (any_end_ok (run n) n ss G W ltac:(lia)) as (ss' & E & F & H).
    do 2 eexists. split; [cbn [run]; rewrite E; reflexivity|]. constructor.
    + apply Lt, F.
    + cbn [elems left snd]. rewrite H. reflexivity.
    + apply no_move; reflexivity.
    + intros [C|[? C]]; discriminate.
    + cbn [says answer elems fst]. rewrite <- (zips_null _ Nm). destruct (zips (map elems ss)); reflexivity.
  - apply Quiet. auto.
  - apply Quiet. auto.
  - destruct ss as [|t ss]; [contradiction|]. cbn [hpos] in O. destruct W as [Wt W]. rewrite total_cons in T.
    destruct (G Position t Wt O ltac:(cbn [need]; lia)) as (a & t' & E & [L El _ _ (k & -> & _)]).
    do 2 eexists. split; [cbn [run]; rewrite E; reflexivity|]. constructor.
    + apply Lt. constructor; [exact L|apply later_all_refl; exact W].
    + cbn [elems left snd map] in *. rewrite El. reflexivity.
    + apply no_move; reflexivity.
    + intros [C|[? C]]; discriminate.
    + exists (k - delta). split; [reflexivity|]. intros m C. discriminate.
Qed.

Theorem all_good n : good (run n) n /\ good_find (run n) n /\ good_look (run n) n.
Proof.
  induction n as [|n (G & F & K)].
  - split; [|split].
    + intros o s W O N. pose proof (weight_pos s W). destruct o; cbn [need] in N; lia.
    + intros ss start cur _ _ H. lia.
    + intros t p b nx _ H. lia.
  - split; [|split].
    + intros o s W O N.
      assert (D : (exists acc, o = Line acc) \/ (forall acc, o <> Line acc)).
      { destruct o; eauto; right; intros; discriminate. }
      destruct D as [[acc ->]|NL].
      { rewrite run_line. apply (line_step (run n) n G); auto. }
      assert (T : (weight s <= S n)%nat) by (destruct o; cbn [need] in N; lia).
      destruct s; cbn [wf] in W.
      * apply source_step; auto.
      * apply concat_step; auto.
      * apply filter_step; auto.
      * apply collect_step; auto.
      * destruct W. apply lines_step; auto.
      * destruct W. apply peekable_step; auto.
      * apply one_step; auto.
      * contradiction.
    + intros ss start cur N W T. rewrite run_find. apply (find_step (run n) n); auto.
    + intros t p b nx W T. rewrite run_look. apply (look_step (run n) n); auto.
Qed.
