(** Streams made from streams behave like lists. *)
From Coq Require Import ZifyBool ZifyNat.
From Verif Require Import Base Pipe PipeSpec.

Lemma eqb_eq : forall a b, eqb a b = true <-> a = b.
Proof.
  fix IH 1. intros a b. destruct a as [x|x| |l], b as [y|y| |m]; cbn [eqb]; try (split; [discriminate|intros H; discriminate H]).
  - rewrite Z.eqb_eq. split; [intros ->; reflexivity|intros H; inversion H; reflexivity].
  - rewrite Bool.eqb_true_iff. split; [intros ->; reflexivity|intros H; inversion H; reflexivity].
  - split; reflexivity.
  - assert (G : forall m, (fix go l m := match l, m with [], [] => true | x :: l, y :: m => eqb x y && go l m | _, _ => false end) l m = true <-> l = m).
    { induction l as [|x l IHl]; intros [|y m']; try (split; [discriminate|intros H; discriminate H]); [split; reflexivity|].
      rewrite andb_true_iff. rewrite (IH x y). rewrite (IHl m'). split; [intros [-> ->]; reflexivity|intros H; inversion H; auto]. }
    rewrite G. split; [intros ->; reflexivity|intros H; inversion H; reflexivity].
Qed.

Lemma same_eqb a x : atomic x -> same a x = eqb a x.
Proof. destruct a, x; cbn; try reflexivity; contradiction. Qed.

(** ** Lines *)
Lemma line_cons c l : line (c :: l) =
  if same c CR then ([], match l with y :: t => if eqb y LF then t else l | [] => [] end)
  else if same c LF || same c Nil then ([], l)
  else (c :: fst (line l), snd (line l)).
Proof.
  assert (G : forall z, line (Atom z :: l) = if z =? 13 then ([], match l with y :: t => if eqb y LF then t else l | [] => [] end)
    else if z =? 10 then ([], l) else (Atom z :: fst (line l), snd (line l))).
  { intros z. destruct (Z.eqb_spec z 13) as [->|N13].
    - cbn [line]. destruct l as [|[y|y| |y] t]; try reflexivity.
      cbn [eqb LF]. destruct (Z.eqb_spec y 10) as [->|N]; [reflexivity|].
      destruct y as [|p|p]; try reflexivity. repeat (destruct p; try reflexivity). contradiction.
    - destruct (Z.eqb_spec z 10) as [->|N10]; [reflexivity|].
      cbn [line]. destruct (line l) as [a r] eqn:E.
      destruct z as [|p|p]; try (cbn [fst snd]; rewrite ?E; reflexivity).
      repeat (destruct p; try (cbn [fst snd]; rewrite ?E; reflexivity)); contradiction. }
  destruct c as [z|b| |m].
  - rewrite G. cbn [same eqb CR LF]. rewrite orb_false_r. reflexivity.
  - cbn. destruct (line l); reflexivity.
  - reflexivity.
  - cbn. destruct (line l); reflexivity.
Qed.

Lemma line_length l : (length (snd (line l)) <= length l)%nat /\ (l <> [] -> (length (snd (line l)) < length l)%nat).
Proof.
  induction l as [|c l [IH _]]; [split; [auto|contradiction]|].
  rewrite line_cons. assert (length (match l with y :: t => if eqb y LF then t else l | [] => [] end) <= length l)%nat.
  { destruct l as [|y t]; [auto|]. destruct (eqb y LF); cbn [length]; lia. }
  destruct (same c CR); [cbn [snd length]; lia|]. destruct (same c LF || same c Nil); cbn [snd length]; lia.
Qed.

Lemma lines_from_more n : forall m l, (length l <= n)%nat -> (length l <= m)%nat -> lines_from n l = lines_from m l.
Proof.
  induction n as [|n IH]; intros m l Hn Hm.
  - destruct l; [|cbn in Hn; lia]. destruct m; reflexivity.
  - destruct l as [|c l]; [destruct m; reflexivity|]. destruct m as [|m]; [cbn in Hm; lia|].
    cbn [lines_from]. pose proof (proj2 (line_length (c :: l)) ltac:(discriminate)) as L.
    destruct (line (c :: l)) as [a r]. cbn [snd] in L. f_equal. cbn [length] in *. apply IH; lia.
Qed.

Lemma lines_eq l : l <> [] -> lines l = fst (line l) :: lines (snd (line l)).
Proof.
  intros N. unfold lines at 1. destruct l as [|c l]; [contradiction|]. cbn [length lines_from].
  pose proof (proj2 (line_length (c :: l)) N) as L. destruct (line (c :: l)) as [a r]. cbn [fst snd length] in *.
  f_equal. apply lines_from_more; lia.
Qed.

(** ** Tuples *)
Definition null {A} (l : list A) : bool := match l with [] => true | _ => false end.
Lemma null_true {A} (l : list A) : null l = true -> l = [].
Proof. destruct l; [reflexivity|discriminate]. Qed.
Lemma null_false {A} (l : list A) : null l = false -> l <> [].
Proof. destruct l; [discriminate|discriminate]. Qed.

Lemma zips_null ls : ls <> [] -> null (zips ls) = existsb null ls.
Proof.
  induction ls as [|l ls IH]; [contradiction|]. intros _. destruct ls as [|l' ls].
  - cbn. destruct l; reflexivity.
  - change (zips (l :: l' :: ls)) with (map (fun xy : obj * list obj => fst xy :: snd xy) (combine l (zips (l' :: ls)))).
    cbn [existsb]. specialize (IH ltac:(discriminate)). cbn [existsb] in IH. rewrite <- IH.
    destruct l as [|x l]; [reflexivity|]. destruct (zips (l' :: ls)); reflexivity.
Qed.

Lemma zips_cons ls : ls <> [] -> existsb null ls = false ->
  zips ls = map (hd Nil) ls :: zips (map (@tl obj) ls).
Proof.
  induction ls as [|l ls IH]; [contradiction|]. intros _ H. cbn [existsb] in H. apply orb_false_elim in H. destruct H as [H1 H2].
  destruct l as [|x l]; [discriminate|]. destruct ls as [|l' ls].
  - reflexivity.
  - specialize (IH ltac:(discriminate) H2).
    change (zips ((x :: l) :: l' :: ls)) with (map (fun xy : obj * list obj => fst xy :: snd xy) (combine (x :: l) (zips (l' :: ls)))).
    rewrite IH. reflexivity.
Qed.

(** ** Streams as lists *)
Definition matching (p : obj -> bool) (b : bool) (x : obj) : bool := Bool.eqb (p x) b.
Fixpoint elems (s : strm) : list obj :=
  match s with
  | Source l _ => l
  | Concat ss _ _ => concat (map elems ss)
  | Filter s p b nx over => if over then [] else nx :: filter (matching p b) (elems s)
  | Collect s f => map f (elems s)
  | Lines s => map Tuple (lines (elems s))
  | Peekable s look => match look with Some v => [v] | None => [] end ++ map Tuple (lines (elems s))
  | OneOfEach ss _ => map Tuple (zips (map elems ss))
  | Items _ => []
  end.

Fixpoint weight (s : strm) : nat :=
  match s with
  | Source l _ => 1 + length l
  | Concat ss _ _ => 3 + list_sum (map (fun s => S (weight s)) ss)
  | Filter s _ _ _ over => 3 + weight s + (if over then 0 else 1)
  | Collect s _ => 1 + weight s
  | Lines s => 5 + weight s
  | Peekable s look => 4 + weight s + (match look with Some _ => 1 | None => 0 end)
  | OneOfEach ss _ => 1 + list_sum (map (fun s => S (weight s)) ss)
  | Items _ => 0
  end%nat.

Fixpoint speeks (x : obj) (s : strm) : Prop :=
  match s with
  | Source _ _ | Lines _ | Peekable _ _ => True
  | Concat ss _ _ => fold_right (fun s P => speeks x s /\ P) True ss
  | Filter _ _ _ _ _ => atomic x
  | _ => False
  end.

Fixpoint wf (s : strm) : Prop :=
  match s with
  | Source _ _ => True
  | Concat ss _ _ | OneOfEach ss _ => ss <> [] /\ fold_right (fun s P => wf s /\ P) True ss
  | Filter s _ _ _ _ | Collect s _ => wf s
  | Lines s | Peekable s _ => wf s /\ speeks LF s
  | Items _ => False
  end.

Definition nilly (s : strm) : Prop := match s with Lines _ | Peekable _ _ => False | _ => True end.

Fixpoint posn (s : strm) : option Z :=
  match s with
  | Source _ n => Some n
  | Concat _ start cur => Some (start + cur)
  | Collect s _ => posn s
  | _ => None
  end.
Fixpoint hpos (s : strm) : Prop :=
  match s with
  | Source _ _ | Concat _ _ _ => True
  | Collect s _ => hpos s
  | OneOfEach (s :: _) _ => hpos s
  | _ => False
  end.

Record later (s s' : strm) : Prop := {
  l_wf : wf s';
  l_weight : (weight s' <= weight s)%nat;
  l_peeks : forall x, speeks x s -> speeks x s';
  l_nilly : nilly s -> nilly s';
  l_hpos : hpos s -> hpos s' }.

Lemma later_refl s : wf s -> later s s.
Proof. intros H. constructor; auto. Qed.
Lemma later_trans s t u : later s t -> later t u -> later s u.
Proof. intros [? ? ? ? ?] [? ? ? ? ?]. constructor; auto. lia. Qed.

Definition ok (o : op) (s : strm) : Prop :=
  match o with
  | AtEnd | Peek => True
  | Next => elems s <> [] \/ nilly s
  | PeekFor x => speeks x s
  | Position => hpos s
  | Line _ => speeks LF s
  | _ => False
  end.

Definition moved (s s' : strm) : Prop :=
  forall n, posn s = Some n -> posn s' = Some (n + Z.of_nat (length (elems s)) - Z.of_nat (length (elems s'))).
Lemma moved_refl s : moved s s.
Proof. intros n H. rewrite H. f_equal. lia. Qed.
Lemma moved_trans s t u : moved s t -> moved t u -> moved s u.
Proof. intros H1 H2 n H. rewrite (H2 _ (H1 _ H)). f_equal. lia. Qed.

Definition says (o : op) (s : strm) (a : obj) : Prop :=
  match o with
  | Position => exists n, a = Atom n /\ forall m, posn s = Some m -> n = m
  | _ => a = answer o (elems s) 0
  end.

Record post (o : op) (s : strm) (a : obj) (s' : strm) : Prop := {
  p_later : later s s';
  p_elems : elems s' = left o (elems s);
  p_moved : moved s s';
  p_less : (o = Next \/ exists acc, o = Line acc) -> elems s <> [] -> (weight s' < weight s)%nat;
  p_says : says o s a }.

Definition need (o : op) (s : strm) : nat := match o with Line _ => S (weight s) | _ => weight s end.

Definition good (r : op -> strm -> outcome (obj * strm)) (n : nat) : Prop :=
  forall o s, wf s -> ok o s -> (need o s <= n)%nat -> exists a s', r o s = Ok (a, s') /\ post o s a s'.

Lemma ask_ok r n s : good r n -> wf s -> (weight s <= n)%nat ->
  exists s', ask r AtEnd s = Ok (null (elems s), s') /\ later s s' /\ elems s' = elems s /\ moved s s'.
Proof.
  intros G W N. destruct (G AtEnd s W I N) as (a & s' & E & [L El M _ Sa]). cbn [says answer] in Sa. subst a.
  exists s'. unfold ask. rewrite E. split; [reflexivity|]. auto.
Qed.

(** ** Several streams *)
Definition all_wf (ss : list strm) : Prop := fold_right (fun s P => wf s /\ P) True ss.
Definition total (ss : list strm) : nat := list_sum (map (fun s => S (weight s)) ss).
Lemma total_cons s ss : total (s :: ss) = (S (weight s) + total ss)%nat.
Proof. reflexivity. Qed.

Lemma later_all ss ss' : Forall2 later ss ss' -> all_wf ss' /\ (total ss' <= total ss)%nat /\ length ss' = length ss.
Proof.
  induction 1 as [|s s' ss ss' L _ (W & T & N)]; [repeat split; auto|]. rewrite !total_cons.
  destruct L as [L1 L2 _ _ _]. cbn [all_wf fold_right length]. split; [split; auto|]. split; lia.
Qed.

Lemma later_all_refl ss : all_wf ss -> Forall2 later ss ss.
Proof. induction ss as [|s ss IH]; intros H; constructor; destruct H; auto using later_refl. Qed.

Lemma any_end_ok r n ss : good r n -> all_wf ss -> (total ss <= n)%nat ->
  exists ss', any_end r ss = Ok (existsb null (map elems ss), ss') /\ Forall2 later ss ss' /\ map elems ss' = map elems ss.
Proof.
  intros G. induction ss as [|s ss IH]; intros W T; [exists []; repeat split; constructor|].
  destruct W as [W1 W2]. rewrite total_cons in T. cbn [any_end].
  destruct (ask_ok r n s G W1 ltac:(lia)) as (s' & E & L & El & _). rewrite E. cbn [obind fst snd].
  destruct (null (elems s)) eqn:N; cbn [map existsb]; rewrite N.
  - exists (s' :: ss). split; [reflexivity|]. split; [constructor; auto using later_all_refl|]. cbn [map]. congruence.
  - destruct (IH W2 ltac:(lia)) as (ss' & E' & F & M). rewrite E'. cbn [obind fst snd orb]. exists (s' :: ss').
    split; [reflexivity|]. split; [constructor; auto|]. cbn [map]. congruence.
Qed.

Lemma each_ok r n o ss : good r n -> (o = Next \/ o = Peek) -> all_wf ss -> (total ss <= n)%nat ->
  exists ss', each r o ss = Ok (if existsb null (map elems ss) then None else Some (map (hd Nil) (map elems ss)), ss')
    /\ Forall2 later ss ss'
    /\ (if existsb null (map elems ss) then existsb null (map elems ss') = true
        else map elems ss' = map (left o) (map elems ss) /\ (o = Next -> ss <> [] -> (total ss' < total ss)%nat))
    /\ (o = Peek -> map elems ss' = map elems ss).
Proof.
  intros G Ho. induction ss as [|s ss IH]; intros W T.
  { exists []. cbn. repeat split; auto; try constructor. contradiction. }
  destruct W as [W1 W2]. rewrite total_cons in T. cbn [each].
  destruct (ask_ok r n s G W1 ltac:(lia)) as (s1 & E & L & El & _). rewrite E. cbn [obind fst snd].
  destruct (null (elems s)) eqn:N; cbn [map existsb]; rewrite N; cbn [orb].
  - exists (s1 :: ss). split; [reflexivity|]. split; [constructor; auto using later_all_refl|].
    cbn [map existsb]. rewrite El, N. split; [reflexivity|]. reflexivity.
  - apply null_false in N.
    assert (Hn : need o s1 = weight s1) by (destruct Ho; subst o; reflexivity).
    destruct (G o s1 (l_wf _ _ L)) as (a & s2 & E2 & Q2).
    { destruct Ho; subst o; cbn [ok]; auto. left. rewrite El. exact N. }
    { pose proof (l_weight _ _ L). lia. }
    rewrite E2. cbn [obind fst snd]. destruct Q2 as [L2 El2 _ Hl2 Sa].
    destruct (IH W2 ltac:(lia)) as (ss' & E' & F & M & Mp). rewrite E'. cbn [obind fst snd].
    exists (s2 :: ss').
    assert (Ea : a = hd Nil (elems s)).
    { destruct Ho; subst o; cbn [says answer] in Sa; rewrite El in Sa; destruct (elems s); [contradiction|exact Sa|contradiction|exact Sa]. }
    split; [rewrite Ea; destruct (existsb null (map elems ss)); reflexivity|].
    split; [constructor; [exact (later_trans _ _ _ L L2)|exact F]|].
    rewrite El in El2. split.
    + destruct (existsb null (map elems ss)) eqn:X.
      * cbn [map existsb]. rewrite M. apply orb_true_r.
      * destruct M as [M1 M2]. split; [cbn [map]; rewrite M1, El2; reflexivity|]. intros Hnx _. rewrite !total_cons.
        assert (weight s2 < weight s1)%nat by (apply Hl2; [auto|rewrite El; exact N]).
        pose proof (l_weight _ _ L). destruct (later_all _ _ F) as (_ & T' & _). lia.
    + intros Hp. cbn [map]. rewrite (Mp Hp), El2. subst o. reflexivity.
Qed.

(** ** The messages *)
Lemma concat_head ss : concat (map elems ss) = match ss with [] => [] | s :: ss => elems s ++ concat (map elems ss) end.
Proof. destruct ss; reflexivity. Qed.

Definition speeks_all x ss : Prop := fold_right (fun s P => speeks x s /\ P) True ss.

Definition found (ss : list strm) (start cur : Z) (b : bool) (s' : strm) : Prop :=
  exists ss' start' cur', s' = Concat ss' start' cur' /\ ss' <> [] /\ all_wf ss' /\ (total ss' <= total ss)%nat
    /\ (forall x, speeks_all x ss -> speeks_all x ss') /\ start' + cur' = start + cur
    /\ concat (map elems ss') = concat (map elems ss)
    /\ b = negb (null (concat (map elems ss)))
    /\ (b = true -> match ss' with [] => False | s :: _ => elems s <> [] end).

Definition good_find (r : op -> strm -> outcome (obj * strm)) (n : nat) : Prop :=
  forall ss start cur, ss <> [] -> all_wf ss -> (2 + total ss <= n)%nat ->
  exists b s', r Find (Concat ss start cur) = Ok (Flag b, s') /\ found ss start cur b s'.

Definition good_look (r : op -> strm -> outcome (obj * strm)) (n : nat) : Prop :=
  forall t p b nx, wf t -> (2 + weight t <= n)%nat ->
  exists a s', r Look (Filter t p b nx false) = Ok (a, s') /\ later (Filter t p b nx false) s'
    /\ elems s' = filter (matching p b) (elems t) /\ (weight s' <= 3 + weight t)%nat.

Lemma find_step r n : good r n -> good_find r n -> forall ss start cur, ss <> [] -> all_wf ss -> (2 + total ss <= S n)%nat ->
  exists b s', (match ss with
        | [] => Err
        | s :: ss =>
          olet x := ask r AtEnd s in
          if fst x then
            let (start, cur) := if 0 <? cur then (start + cur, 0) else (start, cur) in
            match ss with
            | [] => Ok (Flag false, Concat [snd x] start cur)
            | _ => r Find (Concat ss start cur)
            end
          else Ok (Flag true, Concat (snd x :: ss) start cur)
        end) = Ok (Flag b, s') /\ found ss start cur b s'.
Proof.
  intros G F ss start cur N W T. destruct ss as [|s ss]; [contradiction|]. destruct W as [W1 W2]. rewrite total_cons in T.
  destruct (ask_ok r n s G W1 ltac:(lia)) as (s1 & E & L & El & _). rewrite E. cbn [obind fst snd].
  destruct (null (elems s)) eqn:X.
  - apply null_true in X.
    assert (S0 : exists start' cur', (if 0 <? cur then (start + cur, 0) else (start, cur)) = (start', cur') /\ start' + cur' = start + cur).
    { destruct (0 <? cur); eexists; eexists; (split; [reflexivity|lia]). }
    destruct S0 as (start' & cur' & -> & Es).
    destruct ss as [|t ss].
    + exists false. eexists. split; [reflexivity|]. exists [s1], start', cur'. split; [reflexivity|]. split; [discriminate|].
      split; [split; [exact (l_wf _ _ L)|exact I]|]. split; [rewrite !total_cons; pose proof (l_weight _ _ L); lia|].
      split; [intros x [Hx _]; split; [exact (l_peeks _ _ L x Hx)|exact I]|]. split; [exact Es|].
      cbn [map concat]. rewrite El, X. split; [reflexivity|]. split; [reflexivity|discriminate].
    + destruct (F (t :: ss) start' cur' ltac:(discriminate) W2 ltac:(lia)) as (b & s' & E' & ss' & st & cu & Es' & N' & W' & T' & P' & C' & El' & Hb & Hd).
      exists b, s'. split; [exact E'|]. exists ss', st, cu. split; [exact Es'|]. split; [exact N'|]. split; [exact W'|].
      split; [rewrite (total_cons s); lia|]. split; [intros x [_ Hx]; exact (P' x Hx)|]. split; [lia|].
      rewrite (concat_head (s :: t :: ss)), X. cbn [app]. auto.
  - apply null_false in X. exists true. eexists. split; [reflexivity|]. exists (s1 :: ss), start, cur.
    split; [reflexivity|]. split; [discriminate|]. split; [split; [exact (l_wf _ _ L)|exact W2]|].
    split; [rewrite !total_cons; pose proof (l_weight _ _ L); lia|].
    split; [intros x [Hx Hy]; split; [exact (l_peeks _ _ L x Hx)|exact Hy]|]. split; [reflexivity|].
    cbn [map concat]. rewrite El. split; [reflexivity|].
    split; [destruct (elems s); [contradiction|reflexivity]|]. intros _. exact X.
Qed.

Lemma ask_find r n ss start cur : good_find r n -> ss <> [] -> all_wf ss -> (2 + total ss <= n)%nat ->
  exists b s', ask r Find (Concat ss start cur) = Ok (b, s') /\ found ss start cur b s'.
Proof.
  intros F N W T. destruct (F ss start cur N W T) as (b & s' & E & H). exists b, s'. unfold ask. rewrite E. auto.
Qed.

Lemma look_step r n : good r n -> good_look r n -> forall t p b nx, wf t -> (2 + weight t <= S n)%nat ->
  exists a s', (olet x := ask r AtEnd t in
        if fst x then Ok (Nil, Filter (snd x) p b nx true)
        else
          olet v := r Next (snd x) in
          if Bool.eqb (p (fst v)) b then Ok (Nil, Filter (snd v) p b (fst v) false) else r Look (Filter (snd v) p b (fst v) false)) = Ok (a, s')
    /\ later (Filter t p b nx false) s'
    /\ elems s' = filter (matching p b) (elems t) /\ (weight s' <= 3 + weight t)%nat.
Proof.
  intros G K t p b nx W T. destruct (ask_ok r n t G W ltac:(lia)) as (t1 & E & L & El & _). rewrite E. cbn [obind fst snd].
  destruct (null (elems t)) eqn:X.
  - apply null_true in X. do 2 eexists. split; [reflexivity|]. pose proof (l_weight _ _ L). split; [|split].
    + constructor; cbn [wf weight speeks nilly hpos]; auto; [exact (l_wf _ _ L)|lia].
    + cbn [elems]. rewrite X. reflexivity.
    + cbn [weight]. lia.
  - apply null_false in X. pose proof (l_weight _ _ L) as LW.
    destruct (G Next t1 (l_wf _ _ L)) as (a & t2 & E2 & [L2 El2 _ Hl Sa]).
    { left. rewrite El. exact X. } { cbn [need]. lia. }
    rewrite E2. cbn [obind fst snd]. rewrite El in El2, Hl. specialize (Hl (or_introl eq_refl) X).
    destruct (elems t) as [|y l] eqn:Et; [contradiction|]. cbn [says answer left tl] in Sa, El2. rewrite El in Sa. subst a.
    cbn [filter]. unfold matching at 1. destruct (Bool.eqb (p y) b) eqn:M.
    + do 2 eexists. split; [reflexivity|]. split; [|split].
      * constructor; cbn [wf weight speeks nilly hpos]; auto; [exact (l_wf _ _ L2)|lia].
      * cbn [elems]. rewrite El2. unfold matching at 1. rewrite ?M. reflexivity.
      * cbn [weight]. lia.
    + destruct (K t2 p b y (l_wf _ _ L2) ltac:(lia)) as (a' & s' & E' & L' & El' & W'). exists a', s'. split; [exact E'|].
      split; [|split].
      * destruct L' as [La Lb Lc Ld Le]. constructor; auto. cbn [weight] in *. lia.
      * unfold matching at 1. rewrite ?M, El', El2. reflexivity.
      * lia.
Qed.

(** nextLine *)
Lemma line_step r n : good r n -> forall acc s, wf s -> speeks LF s -> (S (weight s) <= S n)%nat ->
  exists a s', (olet x := ask r AtEnd s in
      if fst x then Ok (Tuple (rev acc), snd x)
      else
        olet v := r Next (snd x) in
        if same (fst v) CR then olet q := r (PeekFor LF) (snd v) in Ok (Tuple (rev acc), snd q)
        else if same (fst v) LF || same (fst v) Nil then Ok (Tuple (rev acc), snd v)
        else r (Line (fst v :: acc)) (snd v)) = Ok (a, s') /\ post (Line acc) s a s'.
Proof.
  intros G acc s W P T. destruct (ask_ok r n s G W ltac:(lia)) as (s1 & E & L & El & M1). rewrite E. cbn [obind fst snd].
  destruct (null (elems s)) eqn:X.
  - apply null_true in X. do 2 eexists. split; [reflexivity|]. constructor; auto.
    + cbn [left]. rewrite El, X. reflexivity.
    + contradiction.
    + cbn [says answer]. rewrite X. cbn [line fst]. rewrite app_nil_r. reflexivity.
  - apply null_false in X. pose proof (l_weight _ _ L) as LW.
    destruct (G Next s1 (l_wf _ _ L)) as (a & s2 & E2 & [L2 El2 M2 Hl Sa]).
    { left. rewrite El. exact X. } { cbn [need]. lia. }
    rewrite E2. cbn [obind fst snd]. rewrite El in El2, Hl. specialize (Hl (or_introl eq_refl) X).
    destruct (elems s) as [|c l] eqn:Es; [contradiction|]. cbn [says answer left tl] in Sa, El2. rewrite El in Sa. subst a.
    pose proof (later_trans _ _ _ L L2) as L02. pose proof (moved_trans _ _ _ M1 M2) as M02.
    destruct (same c CR) eqn:Ec.
    + destruct (G (PeekFor LF) s2 (l_wf _ _ L2)) as (a & s3 & E3 & [L3 El3 M3 _ _]).
      { cbn [ok]. exact (l_peeks _ _ L02 LF P). } { cbn [need]. lia. }
      rewrite E3. cbn [obind fst snd]. do 2 eexists. split; [reflexivity|].
      assert (LL : line (c :: l) = ([], match l with y :: t => if eqb y LF then t else l | [] => [] end)) by (rewrite line_cons, Ec; reflexivity).
      constructor.
      * exact (later_trans _ _ _ L02 L3).
      * rewrite El3, El2, Es. cbn [left]. rewrite LL. destruct l; reflexivity.
      * exact (moved_trans _ _ _ M02 M3).
      * intros _ _. pose proof (l_weight _ _ L3). lia.
      * cbn [says answer]. rewrite Es, LL. cbn [fst]. rewrite app_nil_r. reflexivity.
    + destruct (same c LF || same c Nil) eqn:Ed.
      * assert (LL : line (c :: l) = ([], l)) by (rewrite line_cons, Ec, Ed; reflexivity).
        do 2 eexists. split; [reflexivity|]. constructor; auto.
        -- rewrite El2, Es. cbn [left]. rewrite LL. reflexivity.
        -- intros _ _. lia.
        -- cbn [says answer]. rewrite Es, LL. cbn [fst]. rewrite app_nil_r. reflexivity.
      * assert (LL : line (c :: l) = (c :: fst (line l), snd (line l))) by (rewrite line_cons, Ec, Ed; reflexivity).
        destruct (G (Line (c :: acc)) s2 (l_wf _ _ L2)) as (a & s3 & E3 & [L3 El3 M3 _ Sa3]).
        { cbn [ok]. exact (l_peeks _ _ L02 LF P). } { cbn [need]. lia. }
        exists a, s3. split; [exact E3|]. constructor.
        -- exact (later_trans _ _ _ L02 L3).
        -- rewrite El3, El2, Es. cbn [left]. rewrite LL. reflexivity.
        -- exact (moved_trans _ _ _ M02 M3).
        -- intros _ _. pose proof (l_weight _ _ L3). lia.
        -- cbn [says answer] in *. rewrite El2 in Sa3. rewrite Es, LL, Sa3. cbn [rev fst]. rewrite <- app_assoc. reflexivity.
Qed.
