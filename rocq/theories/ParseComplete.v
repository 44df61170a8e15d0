(** Lemmas: every text of the grammar is parsed, and gives its tree. *)
From Verif Require Import Base ParseTree Parse ParseSpec.

Scheme Lit_mut := Minimality for Lit Sort Prop
  with Elts_mut := Minimality for Elts Sort Prop
  with Primary_mut := Minimality for Primary Sort Prop
  with Unary_mut := Minimality for Unary Sort Prop
  with Binary_mut := Minimality for Binary Sort Prop
  with Arguments_mut := Minimality for Arguments Sort Prop
  with Message_mut := Minimality for Message Sort Prop
  with Cascade_mut := Minimality for Cascade Sort Prop
  with Simple_mut := Minimality for Simple Sort Prop
  with Expr_mut := Minimality for Expr Sort Prop
  with Targets_mut := Minimality for Targets Sort Prop
  with Statements_mut := Minimality for Statements Sort Prop.
Combined Scheme grammar_mut from Lit_mut, Elts_mut, Primary_mut, Unary_mut, Binary_mut,
  Arguments_mut, Message_mut, Cascade_mut, Simple_mut, Expr_mut, Targets_mut, Statements_mut.

(** ** From some fuel on *)
Definition ev (P : nat -> Prop) : Prop := exists N, forall m, (N <= m)%nat -> P m.

Lemma ev_now (P : nat -> Prop) : (forall m, P m) -> ev P.
Proof. intro H. exists O. auto. Qed.
Lemma ev_S (P : nat -> Prop) : ev (fun m => P (S m)) -> ev P.
Proof.
  intros [N H]. exists (S N). intros [|m] Hm; [lia|]. apply H. lia.
Qed.
Lemma ev_and (P Q : nat -> Prop) : ev P -> ev Q -> ev (fun m => P m /\ Q m).
Proof.
  intros [N H] [M K]. exists (max N M). intros m Hm. split; [apply H | apply K]; lia.
Qed.
Lemma ev_imp (P Q : nat -> Prop) : (forall m, P m -> Q m) -> ev P -> ev Q.
Proof. intros H [N K]. exists N. auto. Qed.

(** ** What follows *)
Definition first_in (p : token -> bool) (ts : list token) : bool :=
  match ts with t :: _ => p t | [] => false end.

Definition goes_on (k : kind) (t : token) : bool :=
  match t with
  | Ident _ | Scope | Int _ => true
  | Assign => k_assign k
  | Gt => k_greater k && k_binop k
  | Binop _ | Lt | Minus | Bar => k_binop k
  | Keyword _ => k_keyword k
  | Semi => k_cascade k
  | _ => false
  end.
Definition stops k rest := first_in (goes_on k) rest = false.

Definition breaks (k : kind) (t : token) : bool :=
  match t with
  | Scope | Int _ => true
  | Assign => k_assign k
  | _ => false
  end.
Definition after k rest := first_in (breaks k) rest = false.

Lemma stops_after k rest : stops k rest -> after k rest.
Proof. unfold stops, after. destruct rest as [|[] rest]; cbn; auto; congruence. Qed.

Lemma stops_message k rest e b :
  stops k rest -> ev (fun m => p_message (at_fuel m) k e b rest = Ok (e, rest)).
Proof.
  intro H. apply ev_S, ev_now. intro m. destruct k as [ka kg kb kk kc].
  destruct rest as [|[] rest]; cbn in *; try reflexivity; try discriminate;
    unfold stops in H; cbn in H; rewrite ?H; cbn; try reflexivity.
  - destruct kg, kb; cbn in *; try reflexivity; discriminate.
  - rewrite Bool.orb_true_r. reflexivity.
Qed.

Lemma clean_app a b : no_loose_less (a ++ b) -> no_loose_less b.
Proof.
  intros H pre z post E Hz. apply (H (a ++ pre) z post); [|assumption].
  rewrite E, <- app_assoc. reflexivity.
Qed.
Lemma clean_tail t b : no_loose_less (t :: b) -> no_loose_less b.
Proof. exact (clean_app [t] b). Qed.

(** ** Pieces without recursion *)
Lemma path_parsed p ts rest : Path p ts -> first_in (fun t => match t with Scope => true | _ => false end) rest = false ->
  variable_primary (ts ++ rest) = Ok (p, rest).
Proof.
  intros H Hr. induction H as [s|s p ts H IH].
  - cbn. destruct rest as [|[] rest]; cbn in *; try reflexivity; discriminate.
  - cbn [app variable_primary scoped].
    destruct ts as [|t ts]; [inversion H|].
    assert (exists s', t = Ident s') as [s' ->] by (inversion H; eauto).
    cbn [app variable_primary] in *. destruct (scoped (ts ++ rest)) as [[q r]| | | |]; cbn in *; try discriminate.
    injection IH as <- <-. reflexivity.
Qed.

Lemma path_ident p ts : Path p ts -> exists s ts', ts = Ident s :: ts'.
Proof. intro H. inversion H; eauto. Qed.

Lemma temps_until_ok acc vs rest :
  temps_until acc (map Ident vs ++ Bar :: rest) = Ok (acc ++ vs, rest).
Proof.
  revert acc. induction vs as [|v vs IH]; intro acc; cbn [map app temps_until].
  - rewrite app_nil_r. reflexivity.
  - rewrite IH, <- app_assoc. reflexivity.
Qed.
Lemma temps_parsed vs ts rest : Temps vs ts ->
  first_in (fun t => match t with Bar => true | _ => false end) rest = false ->
  parse_temporaries false (ts ++ rest) = Ok (vs, rest).
Proof.
  intros H Hr. inversion H; subst.
  - cbn. destruct rest as [|[] rest]; cbn in *; try reflexivity; discriminate.
  - cbn [app parse_temporaries]. rewrite <- app_assoc. apply (temps_until_ok []).
Qed.
Lemma colons_parsed acc vs rest :
  first_in (fun t => match t with Colon => true | _ => false end) rest = false ->
  block_variables acc (colons vs ++ rest) = Ok (acc ++ vs, rest).
Proof.
  intro Hr. revert acc. induction vs as [|v vs IH]; intro acc.
  - rewrite app_nil_r. cbn. destruct rest as [|[] rest]; cbn in *; try reflexivity; discriminate.
  - change (colons (v :: vs)) with ([Colon; Ident v] ++ colons vs).
    cbn [app block_variables]. rewrite IH, <- app_assoc. reflexivity.
Qed.
Lemma bytes_parsed acc bs rest : Forall (fun b => 0 <= b <= 255) bs ->
  byte_array acc (map Int bs ++ RBrack :: rest) = Ok (acc ++ bs, rest).
Proof.
  intro H. revert acc. induction H as [|b bs Hb _ IH]; intro acc; cbn [map app byte_array].
  - rewrite app_nil_r. reflexivity.
  - replace ((b <? 0) || (255 <? b)) with false by lia. rewrite IH, <- app_assoc. reflexivity.
Qed.

(** ** First tokens *)
Definition starts_primary (t : token) : bool :=
  match t with
  | Ident _ | Const _ | Int _ | Num _ | Char _ | Hash | Minus | LBrack | LBrace | LParen => true
  | _ => false
  end.
Lemma lit_first a l ts : Lit a l ts -> exists t r, ts = t :: r /\ starts_primary t = true.
Proof. intro H. inversion H; subst; eexists _, _; split; reflexivity. Qed.
Lemma primary_first e ts : Primary e ts -> exists t r, ts = t :: r /\ starts_primary t = true.
Proof.
  intro H. inversion H; subst; try (eexists _, _; split; reflexivity).
  - destruct (path_ident _ _ H0) as (s & r & ->). eexists _, _; split; reflexivity.
  - eapply lit_first. eassumption.
Qed.
Lemma unary_first b e ts : Unary b e ts -> exists t r, ts = t :: r /\ starts_primary t = true.
Proof.
  induction 1 as [e ts H|b e ts s _ (t & r & -> & Ht)].
  - eapply primary_first. eassumption.
  - eexists _, _. split; [reflexivity|assumption].
Qed.
Lemma binary_first gt b e ts : Binary gt b e ts -> exists t r, ts = t :: r /\ starts_primary t = true.
Proof.
  induction 1 as [gt b e ts H|gt b e ts t0 s c a us _ (t & r & -> & Ht) _ _].
  - eapply unary_first. eassumption.
  - eexists _, _. split; [reflexivity|assumption].
Qed.
Lemma message_first b e ts : Message b e ts -> exists t r, ts = t :: r /\ starts_primary t = true.
Proof.
  intro H. inversion H; subst.
  - eapply binary_first. eassumption.
  - destruct (binary_first _ _ _ _ H0) as (t & q & -> & Ht). eexists _, _. split; [reflexivity|assumption].
Qed.
Lemma simple_first e ts : Simple e ts -> exists t r, ts = t :: r /\ starts_primary t = true.
Proof.
  intro H. inversion H; subst.
  - eapply message_first. eassumption.
  - destruct (message_first _ _ _ H0) as (t & q & -> & Ht). eexists _, _. split; [reflexivity|assumption].
Qed.
Lemma expr_first e ts : Expr e ts -> exists t r, ts = t :: r /\ starts_primary t = true.
Proof.
  intro H. inversion H; subst.
  - eapply simple_first. eassumption.
  - inversion H0; subst; [congruence|].
    destruct (path_ident _ _ H3) as (s & r & ->). eexists _, _; split; reflexivity.
Qed.
Lemma arguments_first gt l ts : Arguments gt l ts -> exists s r, ts = Keyword s :: r.
Proof. intro H. inversion H; subst; eauto. Qed.
Lemma statements_first ret ss ts : Statements ret ss ts ->
  ts = [] \/ exists t r, ts = t :: r /\ (starts_primary t = true \/ t = Caret).
Proof.
  intro H. inversion H; subst; auto; right.
  - destruct (expr_first _ _ H0) as (t & r & -> & Ht). eauto.
  - destruct (expr_first _ _ H0) as (t & r & -> & Ht). eexists _, _. split; [reflexivity|auto].
  - eexists _, _. split; [reflexivity|auto].
  - eexists _, _. split; [reflexivity|auto].
Qed.

Lemma elts_no_code ls us rest z p : Elts ls us -> us ++ RParen :: rest <> Int z :: Gt :: p.
Proof.
  intros H E. inversion H as [|l ts ls' us' H1 H2]; subst; [discriminate|].
  destruct H1; cbn in E; try discriminate.
  injection E as _ E. inversion H2 as [|l2 ts2 ls2 us2 H3 H4]; subst; [discriminate|].
  destruct (lit_first _ _ _ H3) as (t & r & -> & Ht). cbn in E. injection E as -> _. discriminate.
Qed.

(** ** The claims *)
(** Parsing [ts] in front of [rest] leads to the loop over messages, whose
    answer is [r]. *)
Definition runs (k : kind) (ts rest : list token) (r : outcome (expr * list token)) : Prop :=
  exists e0 rest0, ev (fun m =>
    (forall acc, p_assigns (at_fuel m) k acc (ts ++ rest) = Ok (acc, Some e0, rest0)) /\
    p_message (at_fuel m) (no_assign k) e0 false rest0 = r).

Definition continues (k : kind) e b rest r : Prop :=
  ev (fun m => p_message (at_fuel m) (no_assign k) e b rest = r).

Definition c_lit (a : bool) (l : lit) (ts : list token) : Prop :=
  forall rest, no_loose_less (ts ++ rest) -> (forall z p, rest <> Int z :: Gt :: p) ->
    ev (fun m => p_literal (at_fuel m) a (ts ++ rest) = Ok (Some l, rest)).
Definition c_elts (ls : list lit) (ts : list token) : Prop :=
  forall acc rest, no_loose_less (ts ++ RParen :: rest) ->
    ev (fun m => p_array (at_fuel m) acc (ts ++ RParen :: rest) = Ok (Some (LArray (acc ++ ls)), rest)).
Definition c_primary (e : expr) (ts : list token) : Prop :=
  forall k rest, no_loose_less (ts ++ rest) -> after k rest ->
    ev (fun m => forall acc, p_assigns (at_fuel m) k acc (ts ++ rest) = Ok (acc, Some e, rest)).
Definition c_unary (b : bool) (e : expr) (ts : list token) : Prop :=
  forall k rest r, no_loose_less (ts ++ rest) -> after k rest ->
    continues k e b rest r -> runs k ts rest r.
Definition not_ident rest := first_in (fun t => match t with Ident _ => true | _ => false end) rest = false.
Definition c_binary (gt b : bool) (e : expr) (ts : list token) : Prop :=
  forall k rest r, k_binop k = true -> k_greater k = gt ->
    no_loose_less (ts ++ rest) -> after k rest -> not_ident rest ->
    continues k e b rest r -> runs k ts rest r.
Definition c_arguments (gt : bool) (l : list (string * expr)) (ts : list token) : Prop :=
  forall k acc rest, k_binop k = true -> k_greater k = gt -> k_assign k = false -> k_cascade k = false ->
    no_loose_less (ts ++ rest) -> stops (Kind false gt true true false) rest ->
    ev (fun m => p_keywords (at_fuel m) k acc (ts ++ rest) = Ok (acc ++ l, rest)).
Definition c_message (b : bool) (e : expr) (ts : list token) : Prop :=
  forall rest r, no_loose_less (ts ++ rest) -> stops (Kind true true true true false) rest ->
    continues any e b rest r -> runs any ts rest r.
Definition c_cascade (ms : list msg) (ts : list token) : Prop :=
  forall acc rest, no_loose_less (ts ++ rest) -> stops any rest ->
    ev (fun m => p_cascade (at_fuel m) acc (ts ++ rest) = Ok (acc ++ ms, rest)).
Definition c_simple (e : expr) (ts : list token) : Prop :=
  forall rest, no_loose_less (ts ++ rest) -> stops any rest -> runs any ts rest (Ok (e, rest)).
Definition c_expr (e : expr) (ts : list token) : Prop :=
  forall rest, no_loose_less (ts ++ rest) -> stops any rest ->
    ev (fun m => p_expression (at_fuel m) any (ts ++ rest) = Ok (Some e, rest)).
Definition c_targets (vs : list (list string)) (us : list token) : Prop :=
  forall xs e0 rest0,
    ev (fun m => forall acc, p_assigns (at_fuel m) any acc xs = Ok (acc, Some e0, rest0)) ->
    ev (fun m => forall acc, p_assigns (at_fuel m) any acc (us ++ xs) = Ok (acc ++ vs, Some e0, rest0)).
Definition ender (t : token) : bool :=
  match t with RParen | RBrack | RBrace | Bang => true | _ => false end.
Definition c_statements (ret : bool) (ss : list stmt) (ts : list token) : Prop :=
  forall acc t rest, no_loose_less (ts ++ t :: rest) -> ender t = true ->
    ev (fun m => p_statements (at_fuel m) ret acc (ts ++ t :: rest) = Ok (acc ++ ss, t :: rest)).

(** ** Literals *)
Ltac now_step := apply ev_S, ev_now; intro; cbn.

Lemma lit_char_case a c : c_lit a (LChar c) [Char c].
Proof.
  intros rest Hc Hr. apply ev_S, ev_now. intro m. cbn.
  destruct rest as [|[] rest]; try reflexivity.
  destruct (Z.eqb_spec c 60) as [->|Hn]; [|reflexivity].
  destruct (Z.leb_spec 0 z) as [Hz|Hz]; [|reflexivity].
  destruct (Hc [] z rest eq_refl Hz) as [_ [p ->]]. exfalso. eapply Hr. reflexivity.
Qed.

Lemma ender_bar t rest : ender t = true ->
  first_in (fun t => match t with Bar => true | _ => false end) (t :: rest) = false.
Proof. destruct t; cbn; congruence. Qed.
Lemma statements_bar ret ss ts t rest : Statements ret ss ts -> ender t = true ->
  first_in (fun t => match t with Bar => true | _ => false end) (ts ++ t :: rest) = false.
Proof.
  intros H Ht. destruct (statements_first _ _ _ H) as [-> | (t' & r & -> & [Hp| -> ])].
  - apply ender_bar, Ht.
  - destruct t'; cbn in *; congruence.
  - reflexivity.
Qed.

Lemma lit_doit_case a vs ts body us : Temps vs ts -> Statements true body us ->
  c_statements true body us ->
  forall rest, no_loose_less ((Hash :: Hash :: LParen :: ts ++ us ++ [RParen]) ++ rest) ->
  ev (fun m => p_literal (at_fuel m) a ((Hash :: Hash :: LParen :: ts ++ us ++ [RParen]) ++ rest) =
     Ok (Some (match body with [] => LNil | _ => LDoit vs body end), rest)).
Proof.
  intros Hts Hs IH rest Hc. cbn [app] in *. rewrite <- !app_assoc in *. cbn [app] in *.
  apply ev_S. assert (Hc' : no_loose_less (us ++ RParen :: rest)).
  { do 3 apply clean_tail in Hc. apply clean_app in Hc. exact Hc. }
  specialize (IH [] RParen rest Hc' eq_refl). revert IH. apply ev_imp. intros m IH.
  cbn [at_fuel step p_literal s_literal]. unfold s_doit. cbn [skip_lparen skip obind].
  rewrite (temps_parsed _ _ _ Hts) by (eapply statements_bar; [eassumption|reflexivity]).
  cbn [obind]. rewrite IH. reflexivity.
Qed.

(** ** Messages *)
Lemma after_stops_unary k rest : after k rest -> not_ident rest ->
  stops (Kind false (k_greater k) false false false) rest.
Proof.
  unfold after, not_ident, stops. destruct rest as [|[] rest]; cbn; try congruence;
    rewrite ?Bool.andb_false_r; reflexivity.
Qed.

Lemma runs_expression k ts rest e :
  runs k ts rest (Ok (e, rest)) ->
  ev (fun m => p_expression (at_fuel m) k (ts ++ rest) = Ok (Some e, rest)).
Proof.
  intros (e0 & rest0 & H). apply ev_S. revert H. apply ev_imp. intros m [H1 H2].
  cbn [at_fuel step p_expression]. unfold s_expression. rewrite H1. cbn [obind]. rewrite H2. reflexivity.
Qed.

Lemma operator_not gt t s : Operator gt t s ->
  forall k rest, after k (t :: rest) /\ not_ident (t :: rest).
Proof. intros H k rest. destruct H; split; reflexivity. Qed.

Lemma operator_token gt t s : Operator gt t s -> binary_token t = Some s.
Proof. destruct 1; reflexivity. Qed.

Lemma operator_message gt t s k e b us rest a r :
  Operator gt t s -> k_binop k = true -> k_greater k = gt ->
  ev (fun m => p_expression (at_fuel m) (no_binop (no_keyword (no_cascade (no_assign k)))) (us ++ rest)
               = Ok (Some a, rest)) ->
  continues k (ESend e (MBinary s a)) true rest r ->
  continues k e b (t :: us ++ rest) r.
Proof.
  intros Ho Hb Hg H1 H2. apply ev_S. generalize (ev_and _ _ H1 H2). apply ev_imp.
  intros m [K1 K2]. cbn [at_fuel step p_message].
  assert (s_binary (at_fuel m) (no_cascade (no_assign k)) (us ++ rest) = Ok (a, rest)) as Eb.
  { unfold s_binary. rewrite K1. reflexivity. }
  destruct Ho; cbn [s_message]; cbn [k_binop k_greater no_assign]; rewrite ?Hb, ?Hg; cbn [negb];
    try (rewrite Eb; exact K2).
  rewrite H. cbn [negb]. rewrite Eb. exact K2.
Qed.

Lemma clean_mid (a : list token) t b c : no_loose_less ((a ++ t :: b) ++ c) -> no_loose_less (a ++ t :: b ++ c).
Proof. rewrite <- app_assoc. exact (fun H => H). Qed.

Lemma stops_break k rest : stops k rest -> (forall z p, rest <> Int z :: p).
Proof. unfold stops. intros H z p ->. discriminate. Qed.

(** An argument of a keyword message, in front of what ends it. *)
Lemma argument_parsed gt b a us k rest :
  c_binary gt b a us -> k_binop k = true -> k_greater k = gt -> k_assign k = false -> k_cascade k = false ->
  no_loose_less (us ++ rest) -> stops (Kind false gt true false false) rest ->
  ev (fun m => p_expression (at_fuel m) (no_keyword k) (us ++ rest) = Ok (Some a, rest)).
Proof.
  intros IH Hb Hg Ha Hk Hc Hs. apply runs_expression. apply (IH (no_keyword k)); try assumption.
  - unfold after. unfold stops in Hs. destruct rest as [|[] rest]; cbn in *; congruence.
  - unfold not_ident. unfold stops in Hs. destruct rest as [|[] rest]; cbn in *; congruence.
  - apply stops_message. unfold stops in *. destruct k as [ka kg kb kk kc]. cbn in *. subst.
    exact Hs.
Qed.

Lemma stops_weaken gt rest : stops (Kind false gt true true false) rest -> stops (Kind false gt true false false) rest.
Proof. unfold stops. destruct rest as [|[] rest]; cbn; auto. Qed.

Theorem complete :
  (forall a l ts, Lit a l ts -> c_lit a l ts) /\
  (forall ls ts, Elts ls ts -> c_elts ls ts) /\
  (forall e ts, Primary e ts -> c_primary e ts) /\
  (forall b e ts, Unary b e ts -> c_unary b e ts) /\
  (forall gt b e ts, Binary gt b e ts -> c_binary gt b e ts) /\
  (forall gt l ts, Arguments gt l ts -> c_arguments gt l ts) /\
  (forall b e ts, Message b e ts -> c_message b e ts) /\
  (forall ms ts, Cascade ms ts -> c_cascade ms ts) /\
  (forall e ts, Simple e ts -> c_simple e ts) /\
  (forall e ts, Expr e ts -> c_expr e ts) /\
  (forall vs ts, Targets vs ts -> c_targets vs ts) /\
  (forall ret ss ts, Statements ret ss ts -> c_statements ret ss ts).
Proof.
  apply grammar_mut.
  (* literals *)
  - intros a z rest _ _. now_step. reflexivity.
  - intros a z Hz rest _ _. now_step. replace (z <? 0) with false by lia. reflexivity.
  - intros a z rest _ _. now_step. reflexivity.
  - intros a z Hz rest _ _. now_step. replace (z <? 0) with false by lia. reflexivity.
  - intros a c rest _ _. now_step. reflexivity.
  - exact lit_char_case.
  - intros a c Hc rest _ _. apply ev_S, ev_now. intro m.
    cbn [at_fuel step p_literal s_literal app]. change (60 =? 60) with true.
    replace (0 <=? c) with true by lia. cbn [andb skip_gt skip obind].
    replace (1114111 <? c) with false by lia. reflexivity.
  - intros rest _ _. now_step. reflexivity.
  - intros rest _ _. now_step. reflexivity.
  - intros rest _ _. now_step. reflexivity.
  - intros a ls ts _ IH rest Hc _. cbn [app] in *. rewrite <- app_assoc in *. cbn [app] in *.
    apply ev_S. do 2 apply clean_tail in Hc. exact (IH [] rest Hc).
  - intros ls ts _ IH rest Hc _. cbn [app] in *. rewrite <- app_assoc in *. cbn [app] in *.
    apply ev_S. apply clean_tail in Hc. exact (IH [] rest Hc).
  - intros a bs Hbs rest _ _. apply ev_S, ev_now. intro m.
    cbn [at_fuel step p_literal s_literal app]. rewrite <- app_assoc. cbn [app].
    rewrite bytes_parsed by assumption. reflexivity.
  - intros bs Hbs rest _ _. apply ev_S, ev_now. intro m.
    cbn [at_fuel step p_literal s_literal app]. rewrite <- app_assoc. cbn [app].
    rewrite bytes_parsed by assumption. reflexivity.
  - intros a p ts Hp rest _ _. apply ev_S, ev_now. intro m.
    destruct (path_ident _ _ Hp) as (s & ts' & ->).
    cbn [at_fuel step p_literal s_literal app]. rewrite <- app_assoc. cbn [app].
    pose proof (path_parsed _ _ (RBrace :: rest) Hp eq_refl) as E. cbn [app] in E.
    rewrite E. reflexivity.
  - intros a vs ts body us Hts Hs IH Hne rest Hc _.
    generalize (lit_doit_case a vs ts body us Hts Hs IH rest Hc). apply ev_imp. intros m E.
    rewrite E. destruct body; [congruence|reflexivity].
  - intros a vs ts Hts rest Hc _. cbn [app] in *.
    assert (c_statements true [] []) as IH.
    { intros acc t rest' _ Ht. rewrite app_nil_r. cbn [app]. do 4 apply ev_S. apply ev_now. intro m.
      destruct t; try discriminate; reflexivity. }
    apply (lit_doit_case a vs ts [] [] Hts (statements_nil true) IH rest Hc).
  (* elements *)
  - intros acc rest _. now_step. rewrite app_nil_r. reflexivity.
  - intros l ts ls us Hl IHl Hls IHls acc rest Hc. rewrite <- app_assoc in *. apply ev_S.
    assert (Hc2 := clean_app _ _ Hc).
    generalize (ev_and _ _ (IHl _ Hc (fun z p => elts_no_code _ _ _ z p Hls)) (IHls (acc ++ [l]) rest Hc2)).
    apply ev_imp. intros m [E1 E2]. cbn [at_fuel step p_array].
    destruct (lit_first _ _ _ Hl) as (t & r & -> & Ht). cbn [app] in *.
    assert (s_array (at_fuel m) acc (t :: r ++ us ++ RParen :: rest) =
            olet (l, ts1) := p_literal (at_fuel m) true (t :: r ++ us ++ RParen :: rest) in
            match l with None => Ok (None, ts1) | Some l => p_array (at_fuel m) (acc ++ [l]) ts1 end) as ->
      by (destruct t; try discriminate Ht; reflexivity).
    rewrite E1. cbn [obind]. rewrite E2, <- app_assoc. reflexivity.
  (* primaries *)
  - intros p ts Hp k rest _ Ha. apply ev_S, ev_now. intros m acc.
    pose proof (path_parsed _ _ rest Hp) as E.
    destruct (path_ident _ _ Hp) as (s & ts' & ->). cbn [at_fuel step p_assigns app s_assigns] in *.
    rewrite E by (unfold after in Ha; destruct rest as [|[] rest]; cbn in *; congruence). cbn [obind].
    unfold after in Ha. destruct rest as [|[] rest]; cbn in *; try reflexivity. rewrite Ha. reflexivity.
  - intros l ts Hl IH k rest Hc Ha. do 2 apply ev_S.
    assert (forall z p, rest <> Int z :: Gt :: p) as Hi.
    { unfold after in Ha. intros z p ->. discriminate. }
    generalize (IH rest Hc Hi). apply ev_imp. intros m E acc. cbn [at_fuel step p_assigns].
    inversion Hl; subst; cbn [app s_assigns p_primary step s_primary] in *; rewrite E; reflexivity.
  - intros e ts He IH k rest Hc Ha. do 2 apply ev_S.
    cbn [app] in *. rewrite <- app_assoc in *. apply clean_tail in Hc.
    generalize (IH (RParen :: rest) Hc eq_refl). apply ev_imp. intros m E acc.
    cbn [at_fuel step p_assigns app s_assigns p_primary s_primary] in *. unfold s_required. rewrite E.
    reflexivity.
  - intros body ts Hs IH k rest Hc Ha. do 2 apply ev_S.
    cbn [app] in *. rewrite <- app_assoc in *. apply clean_tail in Hc.
    generalize (IH [] RBrace rest Hc eq_refl). apply ev_imp. intros m E acc.
    cbn [at_fuel step p_assigns app s_assigns p_primary s_primary] in *. rewrite E. reflexivity.
  - intros temps ts body us Ht Hs IH k rest Hc Ha. do 2 apply ev_S.
    cbn [app] in *. rewrite <- !app_assoc in *. apply clean_tail, clean_app in Hc.
    generalize (IH [] RBrack rest Hc eq_refl). apply ev_imp. intros m E acc.
    cbn [at_fuel step p_assigns app s_assigns p_primary s_primary] in *.
    assert (s_block (at_fuel m) (ts ++ us ++ RBrack :: rest) =
            s_block_body (at_fuel m) [] false (ts ++ us ++ RBrack :: rest)) as ->.
    { destruct Ht; [|reflexivity]. cbn [app].
      destruct (statements_first _ _ _ Hs) as [-> | (t & r & -> & [Hp| -> ])]; try reflexivity.
      destruct t; try discriminate Hp; reflexivity. }
    unfold s_block_body.
    rewrite (temps_parsed _ _ _ Ht) by (eapply statements_bar; [eassumption|reflexivity]).
    cbn [obind]. rewrite E. reflexivity.
  - intros vars Hv k rest Hc Ha. do 6 apply ev_S. apply ev_now. intros m acc.
    cbn [app]. rewrite <- !app_assoc. cbn [app].
    set (P := at_fuel (S (S (S (S m))))).
    change (at_fuel (S (S (S (S (S (S m))))))) with (step (step P)).
    cbn [step p_assigns s_assigns p_primary s_primary].
    destruct vars as [|v vars]; [congruence|].
    assert (s_block P (colons (v :: vars) ++ RBrack :: rest) =
            s_block_body P (v :: vars) false (RBrack :: rest)) as ->.
    { unfold s_block. change (colons (v :: vars)) with ([Colon; Ident v] ++ colons vars).
      cbn [app]. change (Colon :: Ident v :: colons vars ++ RBrack :: rest)
        with (colons (v :: vars) ++ RBrack :: rest).
      rewrite colons_parsed by reflexivity. reflexivity. }
    reflexivity.
  - intros vars temps ts body us Hv Ht Hs IH k rest Hc Ha. do 2 apply ev_S.
    cbn [app] in *. rewrite <- !app_assoc in *. cbn [app] in *. rewrite <- !app_assoc in *. cbn [app] in *.
    apply clean_tail, clean_app, clean_tail, clean_app in Hc.
    generalize (IH [] RBrack rest Hc eq_refl). apply ev_imp. intros m E acc.
    cbn [at_fuel step p_assigns app s_assigns p_primary s_primary] in *.
    destruct vars as [|v vars]; [congruence|].
    assert (s_block (at_fuel m) (colons (v :: vars) ++ Bar :: ts ++ us ++ RBrack :: rest) =
            s_block_body (at_fuel m) (v :: vars) false (ts ++ us ++ RBrack :: rest)) as ->.
    { unfold s_block. change (colons (v :: vars)) with ([Colon; Ident v] ++ colons vars).
      cbn [app]. change (Colon :: Ident v :: colons vars ++ Bar :: ts ++ us ++ RBrack :: rest)
        with (colons (v :: vars) ++ Bar :: ts ++ us ++ RBrack :: rest).
      rewrite colons_parsed by reflexivity. reflexivity. }
    unfold s_block_body.
    rewrite (temps_parsed _ _ _ Ht) by (eapply statements_bar; [eassumption|reflexivity]).
    cbn [obind]. rewrite E. reflexivity.
  - intros vars temps body us Hv Hs IH k rest Hc Ha. do 2 apply ev_S.
    cbn [app] in *. rewrite <- !app_assoc in *. cbn [app] in *. rewrite <- !app_assoc in *. cbn [app] in *.
    rewrite <- !app_assoc in *. cbn [app] in *.
    apply clean_tail, clean_app, clean_tail, clean_app, clean_tail in Hc.
    generalize (IH [] RBrack rest Hc eq_refl). apply ev_imp. intros m E acc.
    cbn [at_fuel step p_assigns app s_assigns p_primary s_primary] in *.
    destruct vars as [|v vars]; [congruence|].
    set (tail := map Ident temps ++ Bar :: us ++ RBrack :: rest).
    assert (s_block (at_fuel m) (colons (v :: vars) ++ Binop "||" :: tail) =
            s_block_body (at_fuel m) (v :: vars) true tail) as ->.
    { unfold s_block. change (colons (v :: vars)) with ([Colon; Ident v] ++ colons vars).
      cbn [app]. change (Colon :: Ident v :: colons vars ++ Binop "||" :: tail)
        with (colons (v :: vars) ++ Binop "||" :: tail).
      rewrite colons_parsed by reflexivity. reflexivity. }
    unfold s_block_body. cbn [parse_temporaries]. unfold tail. rewrite temps_until_ok.
    cbn [obind app]. rewrite E. reflexivity.
  (* unary *)
  - intros e ts He IH k rest r Hc Ha Hk. exists e, rest. apply ev_and; [apply IH; assumption|exact Hk].
  - intros b e ts s Hu IH k rest r Hc Ha Hk. rewrite <- app_assoc in Hc.
    unfold runs. rewrite <- app_assoc. apply (IH k (Ident s :: rest) r Hc eq_refl).
    apply ev_S. exact Hk.
  (* binary *)
  - intros gt b e ts Hu IH k rest r _ _ Hc Ha _ Hk. exact (IH k rest r Hc Ha Hk).
  - intros gt b e ts t s c a us Hb IHb Ho Hu IHu k rest r Hkb Hkg Hc Ha Hi Hk.
    apply clean_mid in Hc. unfold runs. rewrite <- app_assoc. cbn [app].
    destruct (operator_not _ _ _ Ho k (us ++ rest)) as [H1 H2].
    apply (IHb k (t :: us ++ rest) r Hkb Hkg Hc H1 H2).
    apply (operator_message gt t s k e b us rest a r Ho Hkb Hkg); [|exact Hk].
    apply runs_expression. apply clean_app, clean_tail in Hc.
    apply (IHu (no_binop (no_keyword (no_cascade (no_assign k)))) rest _ Hc).
    + unfold after in *. destruct rest as [|[] rest]; cbn in *; auto.
    + apply stops_message. exact (after_stops_unary k rest Ha Hi).
  (* arguments *)
  - intros gt s b a us Hb IH k acc rest Hkb Hkg Hka Hkc Hc Hs. cbn [app] in *.
    apply ev_S. apply clean_tail in Hc.
    generalize (argument_parsed gt b a us k rest IH Hkb Hkg Hka Hkc Hc (stops_weaken _ _ Hs)).
    apply ev_imp. intros m E. cbn [at_fuel step p_keywords s_keywords]. rewrite E. cbn [obind].
    unfold stops in Hs. destruct rest as [|[] rest]; cbn in Hs; try reflexivity; discriminate.
  - intros gt s b a us l ts Hb IHb Hl IHl k acc rest Hkb Hkg Hka Hkc Hc Hs. cbn [app] in *.
    apply ev_S. apply clean_tail in Hc. rewrite <- app_assoc in *.
    destruct (arguments_first _ _ _ Hl) as (s' & r' & ->).
    assert (Hc2 := clean_app _ _ Hc).
    generalize (ev_and _ _ (argument_parsed gt b a us k ((Keyword s' :: r') ++ rest) IHb Hkb Hkg Hka Hkc Hc eq_refl)
      (IHl k (acc ++ [(s, a)]) rest Hkb Hkg Hka Hkc Hc2 Hs)).
    apply ev_imp. intros m [E1 E2]. cbn [at_fuel step p_keywords s_keywords]. rewrite E1. cbn [obind app].
    cbn [app] in E2. rewrite E2, <- app_assoc. reflexivity.
  (* messages *)
  - intros b e ts Hb IH rest r Hc Hs Hk.
    apply (IH any rest r eq_refl eq_refl Hc); [..|exact Hk].
    + unfold after. unfold stops in Hs. destruct rest as [|[] rest]; cbn in *; congruence.
    + unfold not_ident. unfold stops in Hs. destruct rest as [|[] rest]; cbn in *; congruence.
  - intros b e ts l us Hb IHb Hl IHl rest r Hc Hs Hk. rewrite <- app_assoc in Hc.
    unfold runs. rewrite <- app_assoc.
    assert (Hc2 := clean_app _ _ Hc).
    assert (Hs' : stops (Kind false true true true false) rest).
    { unfold stops in *. destruct rest as [|[] rest]; cbn in *; congruence. }
    specialize (IHl (no_cascade (no_assign any)) [] rest eq_refl eq_refl eq_refl eq_refl Hc2 Hs').
    destruct (arguments_first _ _ _ Hl) as (s' & r' & ->).
    apply (IHb any _ r eq_refl eq_refl Hc eq_refl eq_refl).
    apply ev_S. generalize (ev_and _ _ IHl Hk). apply ev_imp. intros m [E1 E2].
    cbn [at_fuel step p_message s_message app]. cbn [app] in E1. cbn [k_keyword no_assign any negb].
    rewrite E1. cbn [obind]. exact E2.
  (* cascades *)
  - intros acc rest Hc Hs. apply ev_S, ev_now. intro m. rewrite app_nil_r. cbn [app].
    unfold stops in Hs. destruct rest as [|[] rest]; cbn in *; try reflexivity; discriminate.
  - intros s ms ts Hm IH acc rest Hc Hs. cbn [app] in *. apply ev_S. do 2 apply clean_tail in Hc.
    generalize (IH (acc ++ [MUnary s]) rest Hc Hs). apply ev_imp. intros m E.
    cbn [at_fuel step p_cascade s_cascade]. rewrite E, <- app_assoc. reflexivity.
  - intros t s b a us ms ts Ho Hu IHu Hm IHm acc rest Hc Hs. cbn [app] in *. rewrite <- app_assoc in *.
    apply ev_S. do 2 apply clean_tail in Hc. assert (Hc2 := clean_app _ _ Hc).
    assert (Hr : after (Kind false true false false false) (ts ++ rest) /\
                 stops (Kind false true false false false) (ts ++ rest)).
    { destruct Hm; cbn [app]; try (split; reflexivity).
      unfold after, stops in *. destruct rest as [|[] rest]; cbn in *; auto. }
    destruct Hr as [Hr1 Hr2].
    assert (ev (fun m => p_expression (at_fuel m) (no_binop (no_keyword cascaded)) (us ++ ts ++ rest) =
                         Ok (Some a, ts ++ rest))) as E.
    { apply runs_expression. apply (IHu (no_binop (no_keyword cascaded)) (ts ++ rest) _ Hc).
      - exact Hr1.
      - apply stops_message. exact Hr2. }
    generalize (ev_and _ _ E (IHm (acc ++ [MBinary s a]) rest Hc2 Hs)). apply ev_imp. intros m [E1 E2].
    assert (s_binary (at_fuel m) cascaded (us ++ ts ++ rest) = Ok (a, ts ++ rest)) as Eb.
    { unfold s_binary. rewrite E1. reflexivity. }
    cbn [at_fuel step p_cascade].
    destruct Ho; cbn [s_cascade binary_token]; rewrite Eb; cbn [obind]; rewrite E2, <- app_assoc; reflexivity.
  - intros l us ms ts Hl IHl Hm IHm acc rest Hc Hs. cbn [app] in *. rewrite <- app_assoc in *.
    apply ev_S. apply clean_tail in Hc. assert (Hc2 := clean_app _ _ Hc).
    assert (Hr : stops (Kind false true true true false) (ts ++ rest)).
    { destruct Hm; cbn [app]; try reflexivity.
      unfold stops in *. destruct rest as [|[] rest]; cbn in *; auto. }
    specialize (IHl cascaded [] _ eq_refl eq_refl eq_refl eq_refl Hc Hr).
    destruct (arguments_first _ _ _ Hl) as (s' & r' & ->).
    generalize (ev_and _ _ IHl (IHm (acc ++ [MKeyword l]) rest Hc2 Hs)). apply ev_imp. intros m [E1 E2].
    cbn [at_fuel step p_cascade s_cascade app]. cbn [app] in E1. rewrite E1. cbn [obind].
    rewrite E2, <- app_assoc. reflexivity.
  (* simple expressions *)
  - intros b e ts Hm IH rest Hc Hs. apply (IH rest _ Hc).
    + unfold stops in *. destruct rest as [|[] rest]; cbn in *; auto.
    + apply stops_message. unfold stops in *. destruct rest as [|[] rest]; cbn in *; auto.
  - intros r m ts ms us Hm IHm Hms IHms Hne rest Hc Hs. rewrite <- app_assoc in Hc.
    unfold runs. rewrite <- app_assoc. assert (Hc2 := clean_app _ _ Hc).
    specialize (IHms [] rest Hc2 Hs).
    assert (exists us', us = Semi :: us') as [us' ->] by (destruct Hms; eauto; congruence).
    apply (IHm _ _ Hc eq_refl). apply ev_S. revert IHms. apply ev_imp. intros n E.
    cbn [at_fuel step p_message s_message app k_cascade no_assign any negb orb]. cbn [app] in E. rewrite E.
    reflexivity.
  (* expressions *)
  - intros e ts Hs IH rest Hc Hr. apply runs_expression. apply IH; assumption.
  - intros vs us e ts Ht IHt Hne Hs IHs rest Hc Hr. rewrite <- app_assoc in *.
    apply clean_app in Hc. destruct (IHs rest Hc Hr) as (e0 & rest0 & H).
    assert (H1 := IHt (ts ++ rest) e0 rest0 (ev_imp _ _ (fun m H => proj1 H) H)).
    apply ev_S. generalize (ev_and _ _ H H1). apply ev_imp. intros m [[_ E2] E3].
    cbn [at_fuel step p_expression]. unfold s_expression. rewrite (E3 []). cbn [obind app].
    rewrite E2. cbn [obind]. destruct vs; [congruence|reflexivity].
  (* targets *)
  - intros xs e0 rest0 H. revert H. apply ev_imp. intros m E acc. rewrite app_nil_r. apply E.
  - intros p ts vs us Hp Ht IH xs e0 rest0 H. apply ev_S.
    generalize (IH xs e0 rest0 H). apply ev_imp. intros m E acc. rewrite <- app_assoc. cbn [app].
    pose proof (path_parsed _ _ (Assign :: us ++ xs) Hp eq_refl) as Ep.
    destruct (path_ident _ _ Hp) as (s & ts' & ->). cbn [at_fuel step p_assigns app s_assigns] in *.
    rewrite Ep. cbn [obind any k_assign]. rewrite E, <- app_assoc. reflexivity.
  (* statements *)
  - intros ret acc t rest _ Ht. rewrite app_nil_r. cbn [app]. do 4 apply ev_S. apply ev_now. intro m.
    destruct t; try discriminate; reflexivity.
  - intros ret e ts He IH acc t rest Hc Ht. apply ev_S.
    assert (Hs : stops any (t :: rest)) by (unfold stops; destruct t; try discriminate Ht; reflexivity).
    generalize (IH _ Hc Hs). apply ev_imp. intros m E. cbn [at_fuel step p_statements].
    destruct (expr_first _ _ He) as (t1 & r1 & -> & Ht1). cbn [app] in *.
    unfold s_statements. rewrite E. cbn [obind].
    destruct t1; try discriminate Ht1; destruct t; try discriminate Ht; reflexivity.
  - intros ret e ts ss us He IHe Hss IHs acc t rest Hc Ht. apply ev_S. rewrite <- app_assoc in *.
    cbn [app] in *.
    assert (Hc2 := clean_tail _ _ (clean_app _ _ Hc)).
    generalize (ev_and _ _ (IHe _ Hc eq_refl) (IHs (acc ++ [SExpr e]) t rest Hc2 Ht)).
    apply ev_imp. intros m [E1 E2]. cbn [at_fuel step p_statements].
    destruct (expr_first _ _ He) as (t1 & r1 & -> & Ht1). cbn [app] in *.
    unfold s_statements. rewrite E1. cbn [obind]. rewrite E2, <- app_assoc.
    destruct t1; try discriminate Ht1; reflexivity.
  - intros e ts He IH acc t rest Hc Ht. apply ev_S. cbn [app] in *. apply clean_tail in Hc.
    assert (Hs : stops any (t :: rest)) by (unfold stops; destruct t; try discriminate Ht; reflexivity).
    generalize (IH _ Hc Hs). apply ev_imp. intros m E. cbn [at_fuel step p_statements s_statements].
    unfold s_required. rewrite E. cbn [obind]. destruct t; try discriminate Ht; reflexivity.
  - intros e ts He IH acc t rest Hc Ht. apply ev_S. cbn [app] in *. apply clean_tail in Hc.
    rewrite <- app_assoc in *. cbn [app] in *.
    generalize (IH _ Hc eq_refl). apply ev_imp. intros m E. cbn [at_fuel step p_statements s_statements].
    unfold s_required. rewrite E. reflexivity.
Qed.
