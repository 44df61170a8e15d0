(** Lemmas about the parser as it is called, and about methods. *)
From Verif Require Import Base ParseTree Parse ParseSpec ParseComplete ParseSound ParseMono ParseEnds.

Lemma settled {A} (f : nat -> outcome A) n r :
  (forall i j, (i <= j)%nat -> leo (f i) (f j)) -> f n <> OutOfFuel ->
  ev (fun m => f m = r) -> f n = r.
Proof.
  intros Hm Hn [N HN]. destruct (Hm n (max n N) ltac:(lia)) as [E|E]; [congruence|].
  rewrite E. apply HN. lia.
Qed.

Lemma ends_fuel {A} d L (x : outcome (A * list token)) : ends d L x -> x <> OutOfFuel.
Proof. intros H ->. exact H. Qed.

Lemma ends_stops rest : ends_expression rest -> stops any rest.
Proof. unfold stops. destruct rest as [|[] rest]; cbn; auto; contradiction. Qed.

(** ** Expressions *)
Lemma expression_complete e ts rest : Expr e ts -> no_loose_less (ts ++ rest) -> ends_expression rest ->
  expression_of (ts ++ rest) = Ok (Some e, rest).
Proof.
  intros He Hc Hr. unfold expression_of.
  apply (settled (fun n => p_expression (at_fuel n) any (ts ++ rest))).
  - intros i j Hij. apply (le_expression _ _ (fuel_mono i j Hij)).
  - eapply ends_fuel. apply (en_expression _ _ (fuel_ends _)). unfold fuel_for. lia.
  - apply complete; [exact He|exact Hc|apply ends_stops, Hr].
Qed.

Lemma expression_sound_top ts e rest : tidy ts -> expression_of ts = Ok (Some e, rest) ->
  exists us, ts = us ++ rest /\ Expr e us.
Proof.
  intros Ht H. destruct (so_expression _ (sound_at _) any ts _ _ (or_introl eq_refl) Ht H) as (us & E & D & _).
  exists us. split; [exact E|exact D].
Qed.

Lemma expression_answers ts :
  (exists o rest, expression_of ts = Ok (o, rest) /\ (List.length rest <= List.length ts)%nat) \/
  expression_of ts = Err.
Proof.
  pose proof (en_expression _ _ (fuel_ends (fuel_for ts)) any ts ltac:(unfold fuel_for; lia)) as H.
  fold (expression_of ts) in H. destruct (expression_of ts) as [[o r]| | | |]; cbn in H; try contradiction.
  - left. exists o, r. split; [reflexivity|lia].
  - right. reflexivity.
Qed.

Lemma unambiguous e1 e2 ts : Expr e1 ts -> Expr e2 ts -> no_loose_less ts -> e1 = e2.
Proof.
  intros H1 H2 Hc. rewrite <- (app_nil_r ts) in Hc.
  pose proof (expression_complete _ _ [] H1 Hc Logic.I) as E1.
  pose proof (expression_complete _ _ [] H2 Hc Logic.I) as E2. congruence.
Qed.

(** ** Patterns *)
Lemma keyword_variables_ok acc l rest :
  first_in (fun t => match t with Keyword _ => true | _ => false end) rest = false ->
  keyword_variables acc (flat_map (fun sa => [Keyword (fst sa); Ident (snd sa)]) l ++ rest) = Ok (acc ++ l, rest).
Proof.
  intro Hr. revert acc. induction l as [|[s a] l IH]; intro acc.
  - rewrite app_nil_r. cbn. destruct rest as [|[] rest]; cbn in *; try reflexivity; discriminate.
  - cbn [flat_map app fst snd keyword_variables]. rewrite IH, <- app_assoc. reflexivity.
Qed.
Lemma keyword_variables_sound m : forall acc ts l rest, (List.length ts <= m)%nat -> keyword_variables acc ts = Ok (l, rest) ->
  exists l', l = acc ++ l' /\ ts = flat_map (fun sa => [Keyword (fst sa); Ident (snd sa)]) l' ++ rest.
Proof.
  induction m as [|m IH]; intros acc ts l rest Hm H.
  - destruct ts; [|cbn in Hm; lia]. injection H as <- <-. exists []. rewrite app_nil_r. auto.
  - destruct ts as [|t ts]; [injection H as <- <-; exists []; rewrite app_nil_r; auto|].
    destruct t; try (injection H as <- <-; exists []; rewrite app_nil_r; auto).
    destruct ts as [|t ts]; [discriminate|]. destruct t; try discriminate. cbn [keyword_variables] in H.
    apply IH in H; [|cbn in Hm; lia]. destruct H as (l' & -> & ->). exists ((s, s0) :: l').
    rewrite <- app_assoc. auto.
Qed.
Lemma pattern_complete pat ps rest : Pattern pat ps ->
  first_in (fun t => match t with Keyword _ => true | _ => false end) rest = false ->
  parse_pattern (ps ++ rest) = Ok (pat, rest).
Proof.
  intros H Hr. destruct H as [s|t s a Ho|l Hl].
  - reflexivity.
  - destruct Ho; reflexivity.
  - destruct l as [|[s a] l]; [congruence|].
    pose proof (keyword_variables_ok [] ((s, a) :: l) rest Hr) as E.
    cbn [flat_map app fst snd] in *. cbn [parse_pattern]. rewrite E. reflexivity.
Qed.
Lemma pattern_sound ts pat rest : parse_pattern ts = Ok (pat, rest) ->
  exists ps, ts = ps ++ rest /\ Pattern pat ps.
Proof.
  assert (forall t s r, Operator true t s ->
    match r with Ident a :: r1 => Ok (PBinary s a, r1) | _ => Err end = Ok (pat, rest) ->
    exists ps, t :: r = ps ++ rest /\ Pattern pat ps) as K.
  { intros t s r Ho H. destruct r as [|t' r]; [discriminate|]. destruct t'; try discriminate.
    injection H as <- <-. exists [t; Ident s0]. split; [reflexivity|]. constructor. exact Ho. }
  intro H. destruct ts as [|t ts]; [discriminate|].
  destruct t; try discriminate; cbn [parse_pattern binary_token] in H;
    try (refine (K _ _ _ _ H); constructor; reflexivity).
  - injection H as <- <-. exists [Ident s]. split; [reflexivity|constructor].
  - obi H E. injection H as <- <-.
    destruct (keyword_variables_sound _ _ _ _ _ (le_n _) E) as (l' & -> & E2).
    cbn [app]. exists (flat_map (fun sa => [Keyword (fst sa); Ident (snd sa)]) l').
    split; [exact E2|]. constructor. intros ->. cbn in E2. rewrite <- E2 in E.
    destruct ts as [|t ts]; [discriminate|]. destruct t; try discriminate. cbn [keyword_variables] in E.
    destruct (keyword_variables_sound _ _ _ _ _ (le_n _) E) as (l' & El & _). discriminate El.
Qed.

(** ** Attributes *)
Definition not_lt rest := first_in (fun t => match t with Lt => true | _ => false end) rest = false.
Lemma attributes_complete ms ts : Attributes ms ts -> forall acc rest,
  no_loose_less (ts ++ rest) -> not_lt rest ->
  ev (fun m => parse_attributes m acc (ts ++ rest) = Ok (acc ++ ms, rest)).
Proof.
  induction 1 as [|s ms ts Hm IH|l us ms ts Hl Hm IH]; intros acc rest Hc Hr.
  - apply ev_S, ev_now. intro m. rewrite app_nil_r. cbn [app].
    unfold not_lt in Hr. destruct rest as [|[] rest]; cbn in *; try reflexivity; discriminate.
  - apply ev_S. cbn [app] in *. do 3 apply clean_tail in Hc.
    generalize (IH (acc ++ [MUnary s]) rest Hc Hr). apply ev_imp. intros m E.
    cbn [parse_attributes parse_attribute skip_gt skip obind]. rewrite E, <- app_assoc. reflexivity.
  - apply ev_S. cbn [app] in *. apply clean_tail in Hc. rewrite <- app_assoc in *. cbn [app] in *.
    assert (Hc2 := clean_tail _ _ (clean_app _ _ Hc)).
    assert (ev (fun m => p_keywords (at_fuel m) only_binop [] (us ++ Gt :: ts ++ rest) = Ok (l, Gt :: ts ++ rest))) as E.
    { destruct complete as (_ & _ & _ & _ & _ & C & _). apply (C false l us Hl only_binop [] (Gt :: ts ++ rest)); try reflexivity; exact Hc. }
    generalize (ev_and _ _ E (IH (acc ++ [MKeyword l]) rest Hc2 Hr)). apply ev_imp. intros m [E1 E2].
    destruct (arguments_first _ _ _ Hl) as (s & r & ->). cbn [app] in *.
    cbn [parse_attributes parse_attribute]. rewrite E1. cbn [obind skip_gt skip]. rewrite E2, <- app_assoc. reflexivity.
Qed.
Lemma attributes_app a1 t1 a2 t2 : Attributes a1 t1 -> Attributes a2 t2 -> Attributes (a1 ++ a2) (t1 ++ t2).
Proof.
  induction 1 as [|s ms ts Hm IH|l us ms ts Hl Hm IH]; intro H2; cbn [app].
  - exact H2.
  - constructor. apply IH, H2.
  - rewrite <- app_assoc. cbn [app]. constructor; [exact Hl|]. apply IH, H2.
Qed.
Lemma attributes_sound n : forall acc ts ms rest, tidy ts -> parse_attributes n acc ts = Ok (ms, rest) ->
  exists ms' us, ms = acc ++ ms' /\ ts = us ++ rest /\ Attributes ms' us.
Proof.
  induction n as [|n IH]; intros acc ts ms rest Ht H; [discriminate|].
  assert (Ok (acc, ts) = Ok (ms, rest) -> exists ms' us, ms = acc ++ ms' /\ ts = us ++ rest /\ Attributes ms' us) as K.
  { intro K. injection K as <- <-. exists [], []. rewrite app_nil_r. repeat split. constructor. }
  destruct ts as [|t ts]; [exact (K H)|]. destruct t; try exact (K H). clear K.
  cbn [parse_attributes] in H. obi H E. apply tidy_tail in Ht.
  destruct ts as [|t ts]; [discriminate|]. destruct t; try discriminate; cbn [parse_attribute] in E.
  - skip_inv E. injection E as <- <-. do 2 apply tidy_tail in Ht.
    destruct (IH _ _ _ _ Ht H) as (ms' & us & -> & -> & D). exists (MUnary s :: ms'), (Lt :: Ident s :: Gt :: us).
    rewrite <- app_assoc. repeat split. constructor. exact D.
  - obi E E2.
    destruct (so_keywords _ (sound_at n) only_binop _ _ _ _ eq_refl eq_refl eq_refl Ht E2) as (l' & us & -> & Eus & D & _).
    skip_inv E. injection E as <- <-. rewrite Eus in *. apply tidy_app, tidy_tail in Ht.
    destruct (IH _ _ _ _ Ht H) as (ms' & us' & -> & -> & D'). exists (MKeyword l' :: ms'), (Lt :: us ++ Gt :: us').
    rewrite <- app_assoc. cbn [app]. rewrite <- app_assoc. repeat split. constructor; assumption.
Qed.
Lemma attribute_le i j ts : (i <= j)%nat -> leo (parse_attribute i ts) (parse_attribute j ts).
Proof.
  intro Hij. unfold parse_attribute. destruct ts as [|[] ts]; try apply leo_refl.
  apply leo_bind; [apply (le_keywords _ _ (fuel_mono i j Hij))|]. intros a. apply leo_refl.
Qed.
Lemma attributes_le i : forall j acc ts, (i <= j)%nat -> leo (parse_attributes i acc ts) (parse_attributes j acc ts).
Proof.
  induction i as [|i IH]; intros j acc ts Hij; [left; reflexivity|]. destruct j as [|j]; [lia|].
  cbn [parse_attributes]. destruct ts as [|[] ts]; try apply leo_refl.
  apply leo_bind; [apply attribute_le; lia|]. intros [m r]. apply IH. lia.
Qed.
Lemma attributes_ends n : forall acc ts, (6 * List.length ts + 1 <= n)%nat ->
  ends 0 (List.length ts) (parse_attributes n acc ts).
Proof.
  induction n as [|n IH]; intros acc ts Hn; [lia|].
  destruct ts as [|t ts]; [cbn; lia|].
  destruct t; try (cbn; lia). cbn [parse_attributes].
  eapply (ends_bind 0 (List.length ts)).
  - destruct ts as [|t ts]; [exact Logic.I|]. destruct t; try exact Logic.I; cbn [parse_attribute].
    + apply ends_skip. intros r Hr. cbn in *. lia.
    + eapply ends_bind; [apply (en_keywords _ _ (fuel_ends n)); cbn [List.length] in *; lia|]. intros l r Hr.
      apply ends_skip. intros r2 Hr2. cbn in *. lia.
  - intros m r Hr. eapply ends_weaken; [apply IH; cbn in Hn; lia|cbn; lia].
Qed.

(** ** Methods *)
Lemma method_le i j b ts : (i <= j)%nat -> leo (parse_method i b ts) (parse_method j b ts).
Proof.
  intro Hij. unfold parse_method. apply leo_bind; [apply leo_refl|]. intros [pat ts1].
  apply leo_bind; [apply leo_refl|]. intro ts2.
  apply leo_bind; [apply attributes_le, Hij|]. intros [a1 ts3].
  apply leo_bind; [apply leo_refl|]. intros [vs ts4].
  apply leo_bind; [apply attributes_le, Hij|]. intros [a2 ts5].
  apply leo_bind; [apply (le_statements _ _ (fuel_mono i j Hij))|]. intros [body ts6]. apply leo_refl.
Qed.
Lemma keyword_variables_ends m : forall acc ts, (List.length ts <= m)%nat -> ends 0 (List.length ts) (keyword_variables acc ts).
Proof.
  induction m as [|m IH]; intros acc ts Hm.
  - destruct ts; cbn in *; lia.
  - destruct ts as [|t ts]; [cbn; lia|]. destruct t; try (cbn; lia).
    destruct ts as [|t ts]; [exact Logic.I|]. destruct t; try exact Logic.I. cbn [keyword_variables].
    eapply ends_weaken; [apply IH; cbn in Hm; lia|cbn; lia].
Qed.
Lemma pattern_ends ts : ends 0 (List.length ts) (parse_pattern ts).
Proof.
  destruct ts as [|t ts]; [exact Logic.I|].
  destruct t; try exact Logic.I; cbn [parse_pattern]; try (cbn; lia);
    try (destruct ts as [|t ts]; [exact Logic.I|]; destruct t; try exact Logic.I; cbn; lia).
  eapply ends_bind; [apply (keyword_variables_ends _ _ _ (le_n _))|]. intros l r Hr. cbn in *. lia.
Qed.
Lemma method_ends b ts : ends 0 (List.length ts) (method_of b ts).
Proof.
  unfold method_of, parse_method, fuel_for. eapply ends_bind; [apply pattern_ends|]. intros pat r1 H1.
  assert (forall f : list token -> outcome (method * list token),
    (forall r, (List.length r <= List.length r1)%nat -> ends 0 (List.length ts) (f r)) ->
    ends 0 (List.length ts) (obind (if b then skip_lbrack r1 else Ok r1) f)) as K.
  { intros f Hf. destruct b; [|apply Hf; lia]. apply ends_skip. intros r Hr. apply Hf. lia. }
  apply K. clear K. intros r2 H2.
  eapply ends_bind; [apply attributes_ends; lia|]. intros a1 r3 H3.
  eapply ends_bind; [apply temporaries_ends|]. intros vs r4 H4.
  eapply ends_bind; [apply attributes_ends; lia|]. intros a2 r5 H5.
  eapply ends_bind; [apply (en_statements _ _ (fuel_ends _)); lia|]. intros body r6 H6.
  destruct b; apply ends_skip; intros r7 H7; cbn; lia.
Qed.

Lemma attributes_first ms ts : Attributes ms ts -> ts = [] \/ exists r, ts = Lt :: r.
Proof. intro H. inversion H; eauto. Qed.
Lemma temps_first vs ts : Temps vs ts -> (vs = [] /\ ts = []) \/ exists r, ts = Bar :: r.
Proof. intro H. inversion H; eauto. Qed.

Lemma method_complete b m ts rest : MethodText b m ts -> no_loose_less (ts ++ rest) ->
  method_of b (ts ++ rest) = Ok (m, rest).
Proof.
  intros H Hc. unfold method_of.
  apply (settled (fun n => parse_method n b (ts ++ rest))).
  - intros i j Hij. apply method_le, Hij.
  - eapply ends_fuel. apply method_ends.
  - destruct H as [b pat ps a1 ts1 vs ts2 a2 ts3 body ts4 Hp Ha1 Hv Ha2 Hs].
    set (e := if b then RBrack else Bang) in *.
    assert (Ht : ender e = true) by (destruct b; reflexivity).
    rewrite <- !app_assoc in *. cbn [app] in *.
    set (tail := ts1 ++ ts2 ++ ts3 ++ ts4 ++ e :: rest) in *.
    assert (Hend : forall p : token -> bool, p e = false -> p Caret = false ->
      (forall t, starts_primary t = true -> p t = false) -> first_in p (ts4 ++ e :: rest) = false).
    { intros p H1 H2 H3. destruct (statements_first _ _ _ Hs) as [-> | (t & r & -> & [Hst| -> ])]; cbn; auto. }
    assert (Hkw : first_in (fun t => match t with Keyword _ => true | _ => false end) tail = false).
    { unfold tail. destruct (attributes_first _ _ Ha1) as [-> | [r ->]]; [|reflexivity].
      destruct (temps_first _ _ Hv) as [[_ ->] | [r ->]]; [|reflexivity].
      destruct (attributes_first _ _ Ha2) as [-> | [r ->]]; [|reflexivity].
      cbn [app]. apply Hend; [destruct b; reflexivity|reflexivity|]. intros [] Hst; try reflexivity; discriminate. }
    assert (Hpat : parse_pattern (ps ++ (if b then [LBrack] else []) ++ tail) = Ok (pat, (if b then [LBrack] else []) ++ tail)).
    { apply pattern_complete; [exact Hp|]. destruct b; [reflexivity|exact Hkw]. }
    assert (Hc1 : no_loose_less tail).
    { apply clean_app in Hc. apply clean_app in Hc. exact Hc. }
    assert (Hlt : not_lt (ts4 ++ e :: rest)).
    { apply Hend; [destruct b; reflexivity|reflexivity|]. intros [] Hst; try reflexivity; discriminate. }
    assert (Hbar : first_in (fun t => match t with Bar => true | _ => false end) (ts4 ++ e :: rest) = false).
    { apply Hend; [destruct b; reflexivity|reflexivity|]. intros [] Hst; try reflexivity; discriminate. }
    assert (Hc4 : no_loose_less (ts4 ++ e :: rest)).
    { do 3 apply clean_app in Hc1. exact Hc1. }
    assert (Es : ev (fun n => p_statements (at_fuel n) true [] (ts4 ++ e :: rest) = Ok (body, e :: rest))).
    { destruct complete as (_ & _ & _ & _ & _ & _ & _ & _ & _ & _ & _ & C). apply (C true body ts4 Hs [] e rest); assumption. }
    assert (exists r3 r4 b1, ev (fun n => parse_attributes n [] tail = Ok (b1, r3)) /\
      parse_temporaries false r3 = Ok (vs, r4) /\
      ev (fun n => parse_attributes n b1 r4 = Ok (a1 ++ a2, ts4 ++ e :: rest))) as (r3 & r4 & b1 & E1 & E2 & E3).
    { destruct (temps_first _ _ Hv) as [[-> ->] | [r Er]].
      - exists (ts4 ++ e :: rest), (ts4 ++ e :: rest), (a1 ++ a2). repeat split.
        + unfold tail. cbn [app]. rewrite app_assoc.
          apply (attributes_complete _ _ (attributes_app _ _ _ _ Ha1 Ha2)); [|exact Hlt].
          unfold tail in Hc1. cbn [app] in Hc1. rewrite app_assoc in Hc1. exact Hc1.
        + exact (temps_parsed [] [] _ Hv Hbar).
        + pose proof (attributes_complete _ _ attributes_nil (a1 ++ a2) (ts4 ++ e :: rest) Hc4 Hlt) as K.
          rewrite app_nil_r in K. exact K.
      - exists (ts2 ++ ts3 ++ ts4 ++ e :: rest), (ts3 ++ ts4 ++ e :: rest), a1. repeat split.
        + apply (attributes_complete _ _ Ha1); [exact Hc1|]. rewrite Er. reflexivity.
        + apply temps_parsed; [exact Hv|].
          destruct (attributes_first _ _ Ha2) as [-> | [r' ->]]; [exact Hbar|reflexivity].
        + apply (attributes_complete _ _ Ha2); [|exact Hlt]. do 2 apply clean_app in Hc1. exact Hc1. }
    generalize (ev_and _ _ E1 (ev_and _ _ E3 Es)). apply ev_imp. intros n (F1 & F3 & F4).
    unfold parse_method. rewrite Hpat. cbn [obind].
    assert ((if b then skip_lbrack ((if b then [LBrack] else []) ++ tail)
             else Ok ((if b then [LBrack] else []) ++ tail)) = Ok tail) as -> by (destruct b; reflexivity).
    cbn [obind]. rewrite F1. cbn [obind]. rewrite E2. cbn [obind]. rewrite F3. cbn [obind]. rewrite F4. cbn [obind].
    unfold e. destruct b; reflexivity.
Qed.

Lemma method_sound b ts m rest : tidy ts -> method_of b ts = Ok (m, rest) ->
  exists us, ts = us ++ rest /\ MethodText b m us.
Proof.
  intros Ht H. unfold method_of, parse_method in H.
  generalize dependent (fuel_for ts). intros n H.
  obi H E1. destruct (pattern_sound _ _ _ E1) as (ps & -> & Dp). apply tidy_app in Ht.
  assert (exists r2, l = (if b then [LBrack] else []) ++ r2 /\ (if b then skip_lbrack l else Ok l) = Ok r2) as (r2 & -> & E2).
  { destruct b; [|exists l; auto]. destruct l as [|t l]; [discriminate|]. destruct t; try discriminate. exists l. auto. }
  rewrite E2 in H. cbn [obind] in H. apply tidy_app in Ht.
  obi H E3. destruct (attributes_sound _ _ _ _ _ Ht E3) as (a1 & us1 & -> & -> & D1). apply tidy_app in Ht.
  obi H E4. destruct (temporaries_sound _ _ _ E4) as (us2 & -> & D2). apply tidy_app in Ht.
  obi H E5. destruct (attributes_sound _ _ _ _ _ Ht E5) as (a2 & us3 & -> & -> & D3). apply tidy_app in Ht.
  obi H E6. destruct (so_statements _ (sound_at n) _ _ _ _ _ Ht E6) as (body & us4 & -> & -> & D4).
  cbn [app] in *.
  exists (ps ++ (if b then [LBrack] else []) ++ us1 ++ us2 ++ us3 ++ us4 ++ [if b then RBrack else Bang]).
  match goal with |- context [us4 ++ ?r] =>
    match type of H with context [skip_rbrack r] =>
    assert (m = Method p (a1 ++ a2) l body /\ r = (if b then RBrack else Bang) :: rest) as [-> ->] end end.
  { destruct b; skip_inv H; injection H as <- <-; auto. }
  split.
  - rewrite <- !app_assoc. reflexivity.
  - constructor; assumption.
Qed.

Lemma method_answers b ts :
  (exists m rest, method_of b ts = Ok (m, rest) /\ (List.length rest <= List.length ts)%nat) \/
  method_of b ts = Err.
Proof.
  pose proof (method_ends b ts) as H. destruct (method_of b ts) as [[o r]| | | |]; cbn in H; try contradiction.
  - left. exists o, r. split; [reflexivity|lia].
  - right. reflexivity.
Qed.
Lemma methods_unambiguous b m1 m2 ts : MethodText b m1 ts -> MethodText b m2 ts -> no_loose_less ts -> m1 = m2.
Proof.
  intros H1 H2 Hc. rewrite <- (app_nil_r ts) in Hc.
  pose proof (method_complete _ _ _ [] H1 Hc) as E1. pose proof (method_complete _ _ _ [] H2 Hc) as E2. congruence.
Qed.
Lemma depth_does_not_show b ts n : (fuel_for ts <= n)%nat ->
  p_expression (at_fuel n) any ts = expression_of ts /\ parse_method n b ts = method_of b ts.
Proof.
  intro Hn. split.
  - unfold expression_of. destruct (le_expression _ _ (fuel_mono _ _ Hn) any ts) as [E|E]; [|symmetry; exact E].
    exfalso. eapply ends_fuel; [|exact E]. apply (en_expression _ _ (fuel_ends _)). unfold fuel_for. lia.
  - unfold method_of. destruct (method_le _ _ b ts Hn) as [E|E]; [|symmetry; exact E].
    exfalso. eapply ends_fuel; [|exact E]. apply method_ends.
Qed.

(** ** Concrete texts *)
(** Enough for a text to be tidy: no literal arrays and no doubtful operators. *)
Definition plain_token (t : token) : bool :=
  match t with Hash | Char _ => false | Binop s => negb (prefix "||" s) | _ => true end.
Lemma plain_tidy ts : forallb plain_token ts = true -> tidy ts.
Proof.
  intro H. rewrite forallb_forall in H. split.
  - intros (pre & post & -> & _). specialize (H Hash). rewrite in_app_iff in H. cbn in H.
    discriminate H. auto.
  - intros s Hs Hp. specialize (H _ Hs). cbn in H. rewrite Hp in H. discriminate.
Qed.
Lemma plain_less ts : forallb plain_token ts = true -> no_loose_less ts.
Proof.
  intros H pre z post -> _. rewrite forallb_forall in H. specialize (H (Char 60)).
  rewrite in_app_iff in H. discriminate H. cbn. auto.
Qed.

(** Every text has as many '(' as ')'. *)
Definition depth (t : token) : Z := match t with LParen => 1 | RParen => -1 | _ => 0 end.
Fixpoint balance (ts : list token) : Z := match ts with [] => 0 | t :: ts => depth t + balance ts end.
Lemma balance_app a b : balance (a ++ b) = balance a + balance b.
Proof. induction a as [|t a IH]; cbn [app balance]; lia. Qed.
Lemma balance_path p ts : Path p ts -> balance ts = 0.
Proof. induction 1; cbn [balance depth] in *; lia. Qed.
Lemma balance_idents vs : balance (map Ident vs) = 0.
Proof. induction vs; cbn in *; lia. Qed.
Lemma balance_ints vs : balance (map Int vs) = 0.
Proof. induction vs; cbn in *; lia. Qed.
Lemma balance_colons vs : balance (colons vs) = 0.
Proof. unfold colons. induction vs; cbn in *; lia. Qed.
Lemma balance_temps vs ts : Temps vs ts -> balance ts = 0.
Proof. destruct 1; cbn [balance app depth]; rewrite ?balance_app, ?balance_idents; reflexivity. Qed.
Lemma balance_operator gt t s : Operator gt t s -> depth t = 0.
Proof. destruct 1; reflexivity. Qed.
Lemma balanced :
  (forall a l ts, Lit a l ts -> balance ts = 0) /\
  (forall ls ts, Elts ls ts -> balance ts = 0) /\
  (forall e ts, Primary e ts -> balance ts = 0) /\
  (forall b e ts, Unary b e ts -> balance ts = 0) /\
  (forall gt b e ts, Binary gt b e ts -> balance ts = 0) /\
  (forall gt l ts, Arguments gt l ts -> balance ts = 0) /\
  (forall b e ts, Message b e ts -> balance ts = 0) /\
  (forall ms ts, Cascade ms ts -> balance ts = 0) /\
  (forall e ts, Simple e ts -> balance ts = 0) /\
  (forall e ts, Expr e ts -> balance ts = 0) /\
  (forall vs ts, Targets vs ts -> balance ts = 0) /\
  (forall ret ss ts, Statements ret ss ts -> balance ts = 0).
Proof.
  apply grammar_mut; intros;
    repeat match goal with
    | H : Path _ _ |- _ => apply balance_path in H
    | H : Temps _ _ |- _ => apply balance_temps in H
    | H : Operator _ _ _ |- _ => apply balance_operator in H
    end;
    repeat (cbn [balance depth app]; rewrite ?balance_app, ?balance_idents, ?balance_ints, ?balance_colons); lia.
Qed.
Lemma balance_attributes ms ts : Attributes ms ts -> balance ts = 0.
Proof.
  induction 1 as [|s ms ts Hm IH|l us ms ts Hl Hm IH]; cbn [balance depth app]; rewrite ?balance_app; cbn [balance depth app]; try lia.
  destruct balanced as (_ & _ & _ & _ & _ & C & _). rewrite (C _ _ _ Hl). lia.
Qed.
Lemma balance_pattern pat ts : Pattern pat ts -> balance ts = 0.
Proof.
  destruct 1 as [s|t s a Ho|l Hl].
  - reflexivity.
  - cbn. rewrite (balance_operator _ _ _ Ho). reflexivity.
  - clear. induction l; cbn in *; lia.
Qed.
Lemma balance_method b m ts : MethodText b m ts -> balance ts = 0.
Proof.
  destruct 1 as [b pat ps a1 ts1 vs ts2 a2 ts3 body ts4 Hp Ha1 Hv Ha2 Hs].
  rewrite !balance_app, (balance_pattern _ _ Hp), (balance_attributes _ _ Ha1), (balance_attributes _ _ Ha2),
    (balance_temps _ _ Hv). destruct balanced as (_ & _ & _ & _ & _ & _ & _ & _ & _ & _ & _ & C).
  rewrite (C _ _ _ Hs). destruct b; reflexivity.
Qed.
Lemma not_a_method m : ~ MethodText true m [Ident "foo"; LBrack; Ident "a"; Ident "bar"; Dot; Hash; LParen; Int 1; RBrack].
Proof. intro H. apply balance_method in H. discriminate. Qed.

Lemma less_five_text : Expr (ELit (LArray [LChar 60; LInt 5])) [Hash; LParen; Char 60; Int 5; RParen].
Proof.
  apply expr_simple, simple_message with (b := false), message_binary, binary_unary, unary_primary, prim_lit.
  apply (lit_array false _ [Char 60; Int 5]).
  apply (elts_cons _ [Char 60] _ [Int 5]); [constructor|]. apply (elts_cons _ [Int 5] _ []); constructor.
Qed.

Lemma primary_only e ts t : Expr e (t :: ts) ->
  match e with EBlock _ _ _ => True | _ => False end -> t <> LParen -> Primary e (t :: ts).
Proof.
  intros H He _. remember (t :: ts) as us eqn:E. clear E.
  repeat match goal with
  | H : Expr _ _ |- _ => inversion H; subst; clear H; [|contradiction]
  | H : Simple _ _ |- _ => inversion H; subst; clear H; [|contradiction]
  | H : Message _ _ _ |- _ => inversion H; subst; clear H; [|contradiction]
  | H : Binary _ _ _ _ |- _ => inversion H; subst; clear H; [|contradiction]
  | H : Unary _ _ _ |- _ => inversion H; subst; clear H; [|contradiction]
  end. assumption.
Qed.
Lemma not_a_block e : ~ Expr e [LBrack; Colon; Ident "a"; Binop "||+"; Ident "b"; Bar; Ident "b"; RBrack].
Proof.
  intro H.
  assert (expression_of [LBrack; Colon; Ident "a"; Binop "||+"; Ident "b"; Bar; Ident "b"; RBrack] = Ok (Some e, [])) as E.
  { apply (expression_complete e _ [] H); [|exact Logic.I].
    intros pre z post E _. assert (In (Char 60) [LBrack; Colon; Ident "a"; Binop "||+"; Ident "b"; Bar; Ident "b"; RBrack]) as K.
    { rewrite app_nil_r in E. rewrite E. apply in_or_app. right. left. reflexivity. }
    repeat destruct K as [K|K]; try discriminate; contradiction. }
  vm_compute in E. injection E as <-.
  apply primary_only in H; [|exact Logic.I|discriminate].
  inversion H; subst.
Qed.

(** A literal array that is whole. *)
Lemma elts_balance_prefix us t rest : (exists ls, Elts ls us) ->
  us ++ t :: rest = [Int 1; Const 2; RParen; Ident "size"] -> t = RParen \/ starts_element t = true.
Proof.
  intros [ls H] E. destruct balanced as (_ & B & _). apply B in H.
  destruct us as [|u0 us]; [injection E as -> _; auto|]. injection E as -> E.
  destruct us as [|u1 us]; [injection E as -> _; auto|]. injection E as -> E.
  destruct us as [|u2 us]; [injection E as -> _; auto|]. injection E as -> E.
  destruct us as [|u3 us]; [injection E as -> _; auto|]. injection E as -> E.
  destruct us; discriminate.
Qed.
Lemma whole_array_tidy : tidy [Hash; LParen; Int 1; Const 2; RParen; Ident "size"].
Proof.
  split; [|intros s Hs; repeat destruct Hs as [Hs|Hs]; try discriminate; contradiction].
  intros (pre & post & E & Ho).
  assert (post = [Int 1; Const 2; RParen; Ident "size"]) as ->.
  { destruct pre as [|p0 pre]; [injection E as <-; reflexivity|]. exfalso. injection E as _ E.
    repeat (destruct pre as [|? pre]; [discriminate|injection E as _ E]). destruct pre; discriminate. }
  clear E. remember [Int 1; Const 2; RParen; Ident "size"] as us eqn:E.
  destruct Ho as [ls us t rest He Hs Ht|ls us post He Ho|ls us post He Ho].
  - destruct (elts_balance_prefix us t rest) as [-> | K]; eauto; congruence.
  - clear He Ho. repeat (destruct us as [|? us]; [discriminate|injection E as _ E]). destruct us; discriminate.
  - clear He Ho. repeat (destruct us as [|? us]; [discriminate|injection E as _ E]). destruct us; discriminate.
Qed.
