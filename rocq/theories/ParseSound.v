(** Lemmas: what the parser accepts is a text of the grammar, unless a literal
    array is broken off. *)
From Verif Require Import Base ParseTree Parse ParseSpec ParseComplete.

Lemma tidy_app a b : tidy (a ++ b) -> tidy b.
Proof.
  intros [H1 H2]. split.
  - intros (pre & post & -> & H). apply H1. exists (a ++ pre), post. rewrite <- app_assoc. auto.
  - intros s Hs. apply H2. apply in_or_app. auto.
Qed.
Lemma tidy_tail t b : tidy (t :: b) -> tidy b.
Proof. exact (tidy_app [t] b). Qed.

(** ** Kinds *)
Definition low (k : kind) : Prop := exists gt b, k = Kind false gt b false false.
Definition stopped (k : kind) (rest : list token) : Prop :=
  first_in (fun t => match t with
    | Ident _ => true
    | Gt => k_greater k && k_binop k
    | Binop _ | Lt | Minus | Bar => k_binop k
    | Keyword _ => k_keyword k
    | _ => false
    end) rest = false.

Definition derived (k : kind) (e : expr) (us : list token) : Prop :=
  if k_keyword k then Simple e us
  else if k_binop k then exists b, Binary (k_greater k) b e us
  else exists b, Unary b e us.
Definition derived_expr (k : kind) (e : expr) (us : list token) : Prop :=
  if k_assign k then Expr e us else derived k e us.

Definition no_primary (ts : list token) : Prop := first_in starts_primary ts = false.

(** ** The claims *)
Definition node_ok (k : kind) (sent : bool) (node : expr) (us0 ts : list token) : Prop :=
  Unary sent node us0 \/
  (k_binop k = true /\ Binary (k_greater k) sent node us0 /\ not_ident ts) \/
  (k_keyword k = true /\ Message sent node us0 /\
   stopped (Kind false true true true false) ts).

Record sound (P : parsers) : Prop := Sound {
  so_expression : forall k ts o rest, k = any \/ low k -> tidy ts ->
    p_expression P k ts = Ok (o, rest) ->
    match o with
    | Some e => exists us, ts = us ++ rest /\ derived_expr k e us /\ (k_keyword k = false -> stopped k rest)
    | None => rest = ts /\ no_primary ts
    end;
  so_assigns : forall k acc ts vs o rest, tidy ts ->
    p_assigns P k acc ts = Ok (vs, o, rest) ->
    exists ws us0 us1, vs = acc ++ ws /\ ts = us0 ++ us1 ++ rest /\ Targets ws us0 /\
      (k_assign k = false -> ws = [] /\ us0 = []) /\
      match o with Some e => Primary e us1 | None => us1 = [] /\ no_primary rest end;
  so_message : forall k node sent ts e rest us0, k = no_assign any \/ low k -> tidy ts ->
    node_ok k sent node us0 ts ->
    p_message P k node sent ts = Ok (e, rest) ->
    exists us, ts = us ++ rest /\ derived k e (us0 ++ us) /\ (k_keyword k = false -> stopped k rest);
  so_cascade : forall acc ts ms rest, tidy ts ->
    p_cascade P acc ts = Ok (ms, rest) ->
    exists ms' us, ms = acc ++ ms' /\ ts = us ++ rest /\ Cascade ms' us /\
      ((exists r, ts = Semi :: r) -> ms' <> []);
  so_keywords : forall k acc ts l rest, k_assign k = false -> k_cascade k = false -> k_binop k = true ->
    tidy ts -> p_keywords P k acc ts = Ok (l, rest) ->
    exists l' us, l = acc ++ l' /\ ts = us ++ rest /\ Arguments (k_greater k) l' us /\
      stopped (Kind false (k_greater k) true true false) rest;
  so_primary : forall ts o rest, tidy ts -> p_primary P ts = Ok (o, rest) ->
    match o with
    | Some e => exists us, ts = us ++ rest /\ Primary e us
    | None => rest = ts /\ no_primary ts
    end;
  so_literal : forall a ts o rest, a = true \/ not_ident ts -> tidy ts -> p_literal P a ts = Ok (o, rest) ->
    match o with
    | Some l => exists us, ts = us ++ rest /\ Lit a l us
    | None => first_in starts_element ts = false \/
              (a = true /\ exists post, ts = LParen :: post /\ Open post) \/
              (exists post, ts = Hash :: LParen :: post /\ Open post)
    end;
  so_array : forall acc ts o rest, tidy ts -> p_array P acc ts = Ok (o, rest) ->
    match o with
    | Some l => exists ls us, l = LArray (acc ++ ls) /\ ts = us ++ RParen :: rest /\ Elts ls us
    | None => Open ts
    end;
  so_statements : forall ret acc ts ss rest, tidy ts ->
    p_statements P ret acc ts = Ok (ss, rest) ->
    exists ss' us, ss = acc ++ ss' /\ ts = us ++ rest /\ Statements ret ss' us }.

Lemma sound_0 : sound (at_fuel 0).
Proof. split; intros; discriminate. Qed.

(** ** Pieces without recursion *)
Lemma scoped_sound ts p rest : scoped ts = Ok (p, rest) -> forall s, exists us, Ident s :: ts = us ++ rest /\ Path (s :: p) us.
Proof.
  revert p rest. induction ts as [ts IH] using (well_founded_induction (Wf_nat.well_founded_ltof _ (@List.length token))).
  intros p rest H s. destruct ts as [|t ts].
  - injection H as <- <-. exists [Ident s]. split; [reflexivity|constructor].
  - destruct t; try (injection H as <- <-; exists [Ident s]; split; [reflexivity|constructor]).
    destruct ts as [|t ts]; [discriminate|]. destruct t; try discriminate. cbn [scoped] in H.
    destruct (scoped ts) as [[q r]| | | |] eqn:E; try discriminate. cbn in H. injection H as <- <-.
    destruct (IH ts ltac:(unfold ltof; cbn; lia) q r E s0) as (us & E1 & E2).
    exists (Ident s :: Scope :: us). split; [cbn; rewrite E1; reflexivity|]. constructor. exact E2.
Qed.
Lemma variable_sound ts p rest : variable_primary ts = Ok (p, rest) -> exists us, ts = us ++ rest /\ Path p us.
Proof.
  destruct ts as [|[] ts]; try discriminate. cbn [variable_primary].
  destruct (scoped ts) as [[q r]| | | |] eqn:E; try discriminate. cbn. intro H. injection H as <- <-.
  exact (scoped_sound ts q r E s).
Qed.
Lemma temps_until_sound acc ts vs rest : temps_until acc ts = Ok (vs, rest) ->
  exists ws, vs = acc ++ ws /\ ts = map Ident ws ++ Bar :: rest.
Proof.
  revert acc. induction ts as [|t ts IH]; intros acc H; [discriminate|].
  destruct t; try discriminate; cbn [temps_until] in H.
  - destruct (IH _ H) as (ws & -> & ->). exists (s :: ws). rewrite <- app_assoc. auto.
  - injection H as <- <-. exists []. rewrite app_nil_r. auto.
Qed.
Lemma temporaries_sound ts vs rest : parse_temporaries false ts = Ok (vs, rest) ->
  exists us, ts = us ++ rest /\ Temps vs us.
Proof.
  cbn [parse_temporaries]. intro H. destruct ts as [|t ts].
  - injection H as <- <-. exists []. split; [reflexivity|constructor].
  - destruct t; try (injection H as <- <-; exists []; split; [reflexivity|constructor]).
    destruct (temps_until_sound _ _ _ _ H) as (ws & -> & ->).
    exists (Bar :: map Ident ws ++ [Bar]). split; [cbn; rewrite <- app_assoc; reflexivity|constructor].
Qed.
Lemma block_variables_sound acc ts vs rest : block_variables acc ts = Ok (vs, rest) ->
  exists ws, vs = acc ++ ws /\ ts = colons ws ++ rest.
Proof.
  revert acc. induction ts as [ts IH] using (well_founded_induction (Wf_nat.well_founded_ltof _ (@List.length token))).
  intros acc H. destruct ts as [|t ts].
  - injection H as <- <-. exists []. rewrite app_nil_r. auto.
  - destruct t; try (injection H as <- <-; exists []; rewrite app_nil_r; auto).
    destruct ts as [|t ts]; [discriminate|]. destruct t; try discriminate. cbn [block_variables] in H.
    destruct (IH ts ltac:(unfold ltof; cbn; lia) _ H) as (ws & -> & ->).
    exists (s :: ws). rewrite <- app_assoc. auto.
Qed.
Lemma byte_array_sound acc ts bs rest : byte_array acc ts = Ok (bs, rest) ->
  exists ws, bs = acc ++ ws /\ ts = map Int ws ++ RBrack :: rest /\ Forall (fun b => 0 <= b <= 255) ws.
Proof.
  revert acc. induction ts as [|t ts IH]; intros acc H; [discriminate|].
  destruct t; try discriminate; cbn [byte_array] in H.
  - destruct ((z <? 0) || (255 <? z)) eqn:E; [discriminate|].
    destruct (IH _ H) as (ws & -> & -> & Hw). exists (z :: ws). rewrite <- app_assoc. repeat split.
    constructor; [lia|assumption].
  - injection H as <- <-. exists []. rewrite app_nil_r. auto.
Qed.

Ltac skip_inv H := match type of H with
  | obind (?f ?ts) _ = _ =>
      let t := fresh "t" in let r := fresh "r" in
      destruct ts as [|t r]; [discriminate H|]; destruct t; try discriminate H; cbn in H
  end.

Ltac obi H E := match type of H with
  | obind ?x _ = _ => destruct x as [[? ?]| | | |] eqn:E; cbn [obind] in H; try discriminate H
  end.

Section Step.
Variable P : parsers.
Hypothesis HP : sound P.

Lemma required_sound ts e rest : tidy ts -> s_required P ts = Ok (e, rest) ->
  exists us, ts = us ++ rest /\ Expr e us.
Proof.
  intros Ht H. unfold s_required in H. obi H E. destruct o as [e'|]; [|discriminate].
  injection H as -> ->. destruct (so_expression P HP any ts _ _ (or_introl eq_refl) Ht E) as (us & -> & D & _).
  exists us. split; [reflexivity|exact D].
Qed.

Lemma statements_sound ret acc ts ss rest : tidy ts ->
  s_statements P ret acc ts = Ok (ss, rest) ->
  exists ss' us, ss = acc ++ ss' /\ ts = us ++ rest /\ Statements ret ss' us.
Proof.
  intros Ht H.
  assert (forall K : (olet (e, ts1) := p_expression P any ts in
      match e with
      | None => Ok (acc, ts1)
      | Some e => match ts1 with
          | Dot :: ts2 => p_statements P ret (acc ++ [SExpr e]) ts2
          | _ => Ok (acc ++ [SExpr e], ts1)
          end
      end) = Ok (ss, rest), exists ss' us, ss = acc ++ ss' /\ ts = us ++ rest /\ Statements ret ss' us) as K.
  { clear H. intro H. obi H E. pose proof (so_expression P HP any ts _ _ (or_introl eq_refl) Ht E) as S.
    destruct o as [e|].
    - destruct S as (us & -> & D & _). change (Expr e us) in D.
      assert (forall l', Ok (acc ++ [SExpr e], l') = Ok (ss, rest) ->
        exists (ss' : list stmt) (us0 : list token), ss = acc ++ ss' /\ us ++ l' = us0 ++ rest /\ Statements ret ss' us0) as K.
      { intros l' K. injection K as <- <-. exists [SExpr e], us. repeat split. constructor. exact D. }
      destruct l as [|t l]; [exact (K _ H)|].
      destruct t; try exact (K _ H).
      destruct (so_statements P HP ret _ l ss rest (tidy_tail _ _ (tidy_app _ _ Ht)) H) as (ss' & us' & -> & -> & D').
      exists (SExpr e :: ss'), (us ++ Dot :: us'). rewrite <- !app_assoc. repeat split. constructor; assumption.
    - destruct S as [-> _]. injection H as <- <-. exists [], []. rewrite app_nil_r. repeat split. constructor. }
  unfold s_statements in H.
  destruct ts as [|t ts]; [exact (K H)|]. destruct t; try (destruct ret; exact (K H)).
  destruct ret; [|exact (K H)]. clear K. obi H E.
  destruct (required_sound _ _ _ (tidy_tail _ _ Ht) E) as (us & -> & D).
  assert (forall l', Ok (acc ++ [SReturn e], l') = Ok (ss, rest) ->
        exists (ss' : list stmt) (us0 : list token), ss = acc ++ ss' /\ Caret :: us ++ l' = us0 ++ rest /\ Statements true ss' us0) as K.
  { intros l' K. injection K as <- <-. exists [SReturn e], (Caret :: us). repeat split. constructor. exact D. }
  destruct l as [|t l]; [exact (K _ H)|]. destruct t; try exact (K _ H).
  injection H as <- <-. exists [SReturn e], (Caret :: us ++ [Dot]). cbn [app]. rewrite <- app_assoc.
  repeat split. exact (statements_return_dot _ _ D).
Qed.

Lemma array_sound acc ts o rest : tidy ts -> s_array P acc ts = Ok (o, rest) ->
    match o with
    | Some l => exists ls us, l = LArray (acc ++ ls) /\ ts = us ++ RParen :: rest /\ Elts ls us
    | None => Open ts
    end.
Proof.
  intros Ht H. destruct ts as [|t ts]; [discriminate|].
  assert (t = RParen \/ (t <> RParen /\ s_array P acc (t :: ts) =
     olet (l, ts1) := p_literal P true (t :: ts) in
      match l with
      | None => Ok (None, ts1)
      | Some l => p_array P (acc ++ [l]) ts1
      end)) as [-> | [Hn E]] by (destruct t; auto; right; split; auto; congruence).
  - injection H as <- <-. exists [], []. rewrite app_nil_r. repeat split. constructor.
  - rewrite E in H. clear E. obi H E. pose proof (so_literal P HP true _ _ _ (or_introl eq_refl) Ht E) as S.
    destruct o0 as [l'|].
    + destruct S as (us & Eus & D). rewrite Eus in *. clear Eus E.
      pose proof (so_array P HP (acc ++ [l']) l o rest (tidy_app _ _ Ht) H) as S.
      destruct o as [r|].
      * destruct S as (ls & us' & -> & -> & D'). exists (l' :: ls), (us ++ us'). rewrite <- !app_assoc.
        repeat split. constructor; assumption.
      * destruct S as [ls us' t' r' D' Ht' Hr'|ls us' post D' Ho|ls us' post D' Ho]; rewrite app_assoc.
        -- apply (open_here (l' :: ls)); [constructor|..]; assumption.
        -- apply (open_nested (l' :: ls)); [constructor|]; assumption.
        -- apply (open_nested_bare (l' :: ls)); [constructor|]; assumption.
    + injection H as <- <-. destruct S as [S|[(_ & post & [= -> ->] & S)|(post & [= -> ->] & S)]].
      * exact (open_here [] [] t ts elts_nil S Hn).
      * exact (open_nested_bare [] [] post elts_nil S).
      * exact (open_nested [] [] post elts_nil S).
Qed.

Lemma doit_sound a ts o rest : tidy ts -> s_doit P ts = Ok (o, rest) ->
  exists l us, o = Some l /\ Hash :: Hash :: ts = us ++ rest /\ Lit a l us.
Proof.
  intros Ht H. unfold s_doit in H. skip_inv H.
  obi H E1. destruct (temporaries_sound _ _ _ E1) as (us & -> & D).
  obi H E2. destruct (so_statements P HP _ _ _ _ _ (tidy_app _ _ (tidy_tail _ _ Ht)) E2) as (ss & us' & -> & -> & D').
  skip_inv H. injection H as <- <-. cbn [app]. destruct ss as [|s ss].
  - exists LNil, (Hash :: Hash :: LParen :: us ++ us' ++ [RParen]).
    assert (us' = []) as -> by (inversion D'; reflexivity).
    cbn [app]. split; [reflexivity|]. rewrite <- app_assoc. split; [reflexivity|]. eapply lit_empty_doit. exact D.
  - exists (LDoit l (s :: ss)), (Hash :: Hash :: LParen :: us ++ us' ++ [RParen]).
    cbn [app]. split; [reflexivity|]. rewrite <- !app_assoc. split; [reflexivity|].
    apply lit_doit; [assumption..|congruence].
Qed.

Lemma literal_sound a ts o rest : a = true \/ not_ident ts -> tidy ts -> s_literal P a ts = Ok (o, rest) ->
    match o with
    | Some l => exists us, ts = us ++ rest /\ Lit a l us
    | None => first_in starts_element ts = false \/
              (a = true /\ exists post, ts = LParen :: post /\ Open post) \/
              (exists post, ts = Hash :: LParen :: post /\ Open post)
    end.
Proof.
  intros Ha Ht H. destruct ts as [|t ts]; [injection H as <- <-; left; reflexivity|].
  destruct t; cbn [s_literal] in H;
    try (injection H as <- <-; left; reflexivity);
    try (injection H as <- <-; eexists [_]; split; [reflexivity|constructor]).
  - (* identifiers *)
    assert (a = true) as -> by (destruct Ha as [Ha|Ha]; [exact Ha|discriminate Ha]).
    destruct (String.eqb_spec s "true") as [->|_].
    { injection H as <- <-. eexists [_]. split; [reflexivity|constructor]. }
    destruct (String.eqb_spec s "false") as [->|_].
    { injection H as <- <-. eexists [_]. split; [reflexivity|constructor]. }
    destruct (String.eqb_spec s "nil") as [->|_].
    { injection H as <- <-. eexists [_]. split; [reflexivity|constructor]. }
    discriminate.
  - (* minus *)
    destruct ts as [|t ts]; [discriminate|]. destruct t; try discriminate.
    + destruct (Z.ltb_spec z 0); [discriminate|]. injection H as <- <-.
      eexists [_; _]. split; [reflexivity|]. constructor. lia.
    + destruct (Z.ltb_spec z 0); [discriminate|]. injection H as <- <-.
      eexists [_; _]. split; [reflexivity|]. constructor. lia.
  - (* characters *)
    assert (forall r', Ok (Some (LChar c), r') = Ok (o, rest) ->
      match o with
      | Some l => exists us, Char c :: r' = us ++ rest /\ Lit a l us
      | None => False end) as K.
    { intros r' K. injection K as <- <-. eexists [_]. split; [reflexivity|constructor]. }
    destruct o as [l|].
    2:{ exfalso. destruct ts as [|t ts]; [exact (K _ H)|]. destruct t; try exact (K _ H).
        destruct ((c =? 60) && (0 <=? z)); [|exact (K _ H)]. skip_inv H.
        destruct (1114111 <? z); discriminate. }
    destruct ts as [|t ts]; [exact (K _ H)|]. destruct t; try exact (K _ H).
    destruct ((c =? 60) && (0 <=? z)) eqn:E; [|exact (K _ H)]. skip_inv H.
    destruct (Z.ltb_spec 1114111 z); [discriminate|]. injection H as <- <-.
    apply andb_prop in E. destruct E as [E1 E2]. apply Z.eqb_eq in E1. subst c.
    eexists [_; _; _]. split; [reflexivity|]. constructor. lia.
  - (* hash *)
    destruct ts as [|t ts]; [discriminate|]. destruct t; try discriminate.
    + destruct (doit_sound a _ _ _ (tidy_tail _ _ (tidy_tail _ _ Ht)) H) as (l & us & -> & -> & D). eauto.
    + pose proof (so_array P HP _ _ _ _ (tidy_tail _ _ (tidy_tail _ _ Ht)) H) as S. destruct o as [l|].
      * destruct S as (ls & us & -> & -> & D). exists (Hash :: LParen :: us ++ [RParen]).
        cbn [app]. rewrite <- app_assoc. split; [reflexivity|]. constructor. exact D.
      * right. right. eauto.
    + obi H E. injection H as <- <-. destruct (byte_array_sound _ _ _ _ E) as (ws & -> & -> & D).
      exists (Hash :: LBrack :: map Int ws ++ [RBrack]). cbn [app]. rewrite <- app_assoc.
      split; [reflexivity|]. constructor. exact D.
    + destruct ts as [|t ts]; [discriminate|]. destruct t; try discriminate.
      obi H E. destruct (variable_sound _ _ _ E) as (us & -> & D).
      skip_inv H. injection H as <- <-. exists (Hash :: LBrace :: us ++ [RBrace]).
      cbn [app]. rewrite <- app_assoc. split; [reflexivity|]. constructor. exact D.
  - (* bare arrays *)
    destruct a; [|discriminate].
    pose proof (so_array P HP _ _ _ _ (tidy_tail _ _ Ht) H) as S. destruct o as [l|].
    + destruct S as (ls & us & -> & -> & D). exists (LParen :: us ++ [RParen]).
      cbn [app]. rewrite <- app_assoc. split; [reflexivity|]. constructor. exact D.
    + right. left. eauto.
  - destruct a; [|discriminate]. obi H E. injection H as <- <-.
    destruct (byte_array_sound _ _ _ _ E) as (ws & -> & -> & D).
    exists (LBrack :: map Int ws ++ [RBrack]). cbn [app]. rewrite <- app_assoc.
    split; [reflexivity|]. constructor. exact D.
Qed.

Lemma block_body_sound vars implied ts o rest : tidy ts -> s_block_body P vars implied ts = Ok (o, rest) ->
  exists temps body us0 us, o = Some (EBlock vars temps body) /\ ts = us0 ++ us ++ RBrack :: rest /\
    Statements true body us /\ (if implied then us0 = map Ident temps ++ [Bar] else Temps temps us0).
Proof.
  intros Ht H. unfold s_block_body in H. obi H E1.
  assert (exists us0, ts = us0 ++ l0 /\ (if implied then us0 = map Ident l ++ [Bar] else Temps l us0))
    as (us0 & -> & D).
  { destruct implied.
    - destruct (temps_until_sound _ _ _ _ E1) as (ws & -> & ->). exists (map Ident ws ++ [Bar]).
      rewrite <- app_assoc. auto.
    - destruct (temporaries_sound _ _ _ E1) as (us & -> & D). eauto. }
  obi H E2. destruct (so_statements P HP _ _ _ _ _ (tidy_app _ _ Ht) E2) as (ss & us & -> & -> & D').
  skip_inv H. injection H as <- <-. exists l, ss, us0, us. auto.
Qed.

Lemma block_sound ts o rest : tidy ts -> s_block P ts = Ok (o, rest) ->
  exists e us, o = Some e /\ LBrack :: ts = us ++ rest /\ Primary e us.
Proof.
  intros Ht H.
  assert (s_block_body P [] false ts = Ok (o, rest) ->
    exists e us, o = Some e /\ LBrack :: ts = us ++ rest /\ Primary e us) as K.
  { clear H. intro H. destruct (block_body_sound _ _ _ _ _ Ht H) as (temps & body & us0 & us & -> & -> & D & D').
    exists (EBlock [] temps body), (LBrack :: us0 ++ us ++ [RBrack]). cbn [app]. rewrite <- !app_assoc.
    repeat split. constructor; assumption. }
  destruct ts as [|t ts]; [exact (K H)|]. destruct t; try exact (K H). clear K.
  unfold s_block in H. obi H E. destruct (block_variables_sound _ _ _ _ E) as (ws & -> & Ets).
  cbn [app] in *. clear E.
  assert (ws <> []) as Hne.
  { intros ->. cbn in Ets. subst l0. discriminate H. }
  rewrite Ets in *. clear Ets ts. apply tidy_app in Ht.
  destruct l0 as [|t l]; [discriminate|]. destruct t; try discriminate.
  - destruct (two_bars s) eqn:E; [|discriminate].
    assert (s = "||") as -> by (apply (proj2 Ht); [left; reflexivity|exact E]).
    destruct (block_body_sound _ _ _ _ _ (tidy_tail _ _ Ht) H) as (temps & body & us0 & us & -> & -> & D & ->).
    exists (EBlock ws temps body), (LBrack :: colons ws ++ Binop "||" :: map Ident temps ++ Bar :: us ++ [RBrack]).
    split; [reflexivity|]. cbn [app]. rewrite <- !app_assoc. cbn [app]. rewrite <- !app_assoc. cbn [app].
    rewrite <- !app_assoc. split; [reflexivity|]. constructor; assumption.
  - destruct (block_body_sound _ _ _ _ _ (tidy_tail _ _ Ht) H) as (temps & body & us0 & us & -> & -> & D & D').
    exists (EBlock ws temps body), (LBrack :: colons ws ++ Bar :: us0 ++ us ++ [RBrack]).
    split; [reflexivity|]. cbn [app]. rewrite <- !app_assoc. cbn [app]. rewrite <- !app_assoc.
    split; [reflexivity|]. constructor; assumption.
  - destruct (block_body_sound _ _ _ _ _ Ht H) as (temps & body & us0 & us & -> & Er & D & D').
    assert (us0 = [] /\ us = [] /\ rest = l) as (-> & -> & ->).
    { destruct D' as [|vs]; [|discriminate]. cbn [app] in Er.
      destruct (statements_first _ _ _ D) as [-> | (t & r & -> & [Hp| -> ])].
      - injection Er as ->. auto.
      - injection Er as <- _. discriminate.
      - discriminate. }
    inversion D'; subst. inversion D; subst.
    + exists (EBlock ws [] []), (LBrack :: colons ws ++ [RBrack]). split; [reflexivity|].
      cbn [app]. rewrite <- !app_assoc. split; [reflexivity|]. constructor; assumption.
    + destruct (expr_first _ _ H0) as (t & r & Et & _). discriminate.
    + destruct ts; discriminate.
Qed.

Lemma not_broken post : tidy (Hash :: LParen :: post) -> Open post -> False.
Proof. intros [H _] Ho. apply H. exists [], post. auto. Qed.

Lemma primary_sound ts o rest : tidy ts -> s_primary P ts = Ok (o, rest) ->
    match o with
    | Some e => exists us, ts = us ++ rest /\ Primary e us
    | None => rest = ts /\ no_primary ts
    end.
Proof.
  intros Ht H.
  assert (not_ident ts -> first_in starts_element ts = true ->
     (olet (l, ts1) := p_literal P false ts in Ok (option_map ELit l, ts1)) = Ok (o, rest) ->
    match o with
    | Some e => exists us, ts = us ++ rest /\ Primary e us
    | None => rest = ts /\ no_primary ts
    end) as K.
  { clear H. intros Hi Hs H. obi H E. injection H as <- <-.
    pose proof (so_literal P HP false _ _ _ (or_intror Hi) Ht E) as S. destruct o0 as [l'|]; cbn [option_map].
    - destruct S as (us & -> & D). exists us. split; [reflexivity|]. constructor. exact D.
    - destruct S as [S|[[S _]|(post & -> & S)]]; try congruence.
      exfalso. exact (not_broken _ Ht S). }
  destruct ts as [|t ts]; [injection H as <- <-; split; reflexivity|].
  destruct t; cbn [s_primary] in H;
    try (injection H as <- <-; split; reflexivity);
    try exact (K eq_refl eq_refl H); clear K.
  - obi H E. injection H as <- <-. destruct (variable_sound _ _ _ E) as (us & -> & D).
    exists us. split; [reflexivity|]. constructor. exact D.
  - obi H E. destruct (required_sound _ _ _ (tidy_tail _ _ Ht) E) as (us & -> & D).
    skip_inv H. injection H as <- <-. exists (LParen :: us ++ [RParen]). cbn [app]. rewrite <- app_assoc.
    split; [reflexivity|]. constructor. exact D.
  - destruct (block_sound _ _ _ (tidy_tail _ _ Ht) H) as (e & us & -> & -> & D). eauto.
  - obi H E. destruct (so_statements P HP _ _ _ _ _ (tidy_tail _ _ Ht) E) as (ss & us & -> & -> & D).
    skip_inv H. injection H as <- <-. exists (LBrace :: us ++ [RBrace]). cbn [app]. rewrite <- app_assoc.
    split; [reflexivity|]. constructor. exact D.
Qed.

Lemma assigns_sound k acc ts vs o rest : tidy ts ->
    s_assigns P k acc ts = Ok (vs, o, rest) ->
    exists ws us0 us1, vs = acc ++ ws /\ ts = us0 ++ us1 ++ rest /\ Targets ws us0 /\
      (k_assign k = false -> ws = [] /\ us0 = []) /\
      match o with Some e => Primary e us1 | None => us1 = [] /\ no_primary rest end.
Proof.
  intros Ht H.
  assert (forall us1 e r, Primary e us1 -> Ok (acc, Some e, r) = Ok (vs, o, rest) -> ts = us1 ++ r ->
    exists ws us0 us1, vs = acc ++ ws /\ ts = us0 ++ us1 ++ rest /\ Targets ws us0 /\
      (k_assign k = false -> ws = [] /\ us0 = []) /\
      match o with Some e => Primary e us1 | None => us1 = [] /\ no_primary rest end) as K.
  { intros us1 e r D K E. injection K as <- <- <-. exists [], [], us1. rewrite app_nil_r. repeat split; auto. constructor. }
  assert ((olet (e, ts1) := p_primary P ts in Ok (acc, e, ts1)) = Ok (vs, o, rest) ->
    exists ws us0 us1, vs = acc ++ ws /\ ts = us0 ++ us1 ++ rest /\ Targets ws us0 /\
      (k_assign k = false -> ws = [] /\ us0 = []) /\
      match o with Some e => Primary e us1 | None => us1 = [] /\ no_primary rest end) as K2.
  { intro H2. obi H2 E. pose proof (so_primary P HP _ _ _ Ht E) as S. destruct o0 as [e|].
    - destruct S as (us & E2 & D). exact (K us e l D H2 E2).
    - destruct S as [-> S]. injection H2 as <- <- <-. exists [], [], []. rewrite app_nil_r.
      repeat split; auto. constructor. }
  destruct ts as [|t ts]; [exact (K2 H)|]. destruct t; try exact (K2 H).
  cbn [s_assigns] in H. obi H E. destruct (variable_sound _ _ _ E) as (us & Eus & D).
  assert (forall r, Ok (acc, Some (EVar l), r) = Ok (vs, o, rest) -> l0 = r ->
    exists ws us0 us1, vs = acc ++ ws /\ Ident s :: ts = us0 ++ us1 ++ rest /\ Targets ws us0 /\
      (k_assign k = false -> ws = [] /\ us0 = []) /\
      match o with Some e => Primary e us1 | None => us1 = [] /\ no_primary rest end) as K3.
  { intros r K3 Er. subst r. apply (K us (EVar l) l0); [constructor; exact D|exact K3|exact Eus]. }
  destruct l0 as [|t l0]; [exact (K3 _ H eq_refl)|]. destruct t; try exact (K3 _ H eq_refl).
  destruct (k_assign k) eqn:Ek; [|exact (K3 _ H eq_refl)].
  rewrite Eus in Ht. apply tidy_app, tidy_tail in Ht.
  destruct (so_assigns P HP _ _ _ _ _ _ Ht H) as (ws & us0 & us1 & -> & -> & D' & _ & Do).
  exists (l :: ws), (us ++ Assign :: us0), us1. rewrite Eus, <- !app_assoc. repeat split; try congruence.
  - constructor; assumption.
Qed.

Lemma low_any_assign k : k = any \/ low k -> k_assign k = true -> k = any.
Proof. intros [->|(gt & b & ->)] H; [reflexivity|discriminate]. Qed.

Lemma expression_sound k ts o rest : k = any \/ low k -> tidy ts ->
    s_expression P k ts = Ok (o, rest) ->
    match o with
    | Some e => exists us, ts = us ++ rest /\ derived_expr k e us /\ (k_keyword k = false -> stopped k rest)
    | None => rest = ts /\ no_primary ts
    end.
Proof.
  intros Hk Ht H. unfold s_expression in H.
  destruct (p_assigns P k [] ts) as [[[vs node] ts1]| | | |] eqn:E; try discriminate. cbn [obind] in H.
  destruct (so_assigns P HP _ _ _ _ _ _ Ht E) as (ws & us0 & us1 & -> & -> & D & Dk & Do).
  cbn [app] in H. destruct node as [e|].
  - obi H E2. injection H as <- <-.
    assert (no_assign k = no_assign any \/ low (no_assign k)) as Hk'.
    { destruct Hk as [->|(gt & b & ->)]; [left; reflexivity|right; exists gt, b; reflexivity]. }
    assert (tidy ts1) as Ht1 by (apply tidy_app in Ht; apply tidy_app in Ht; exact Ht).
    destruct (so_message P HP _ _ _ _ _ _ us1 Hk' Ht1 (or_introl (unary_primary _ _ Do)) E2) as (us & -> & Dm & Ds).
    exists (us0 ++ us1 ++ us). rewrite <- !app_assoc. split; [reflexivity|]. split.
    + unfold derived_expr. destruct (k_assign k) eqn:Ek.
      * assert (k = any) as -> by (apply low_any_assign; assumption). unfold derived in Dm. cbn in Dm.
        destruct ws as [|w ws].
        -- assert (us0 = []) as -> by (inversion D; reflexivity). constructor. exact Dm.
        -- apply expr_assign; [exact D|congruence|exact Dm].
      * destruct (Dk eq_refl) as [-> ->]. exact Dm.
    + exact Ds.
  - destruct Do as [-> Hn]. destruct ws; [|discriminate]. injection H as <- <-.
    assert (us0 = []) as -> by (inversion D; reflexivity). split; [reflexivity|exact Hn].
Qed.

Lemma binary_sound k ts a rest : k_assign k = false -> k_cascade k = false -> tidy ts ->
  s_binary P k ts = Ok (a, rest) ->
  exists b us, ts = us ++ rest /\ Unary b a us /\ not_ident rest.
Proof.
  intros Ha Hc Ht H. unfold s_binary in H. obi H E. destruct o as [e|]; [|discriminate].
  injection H as -> ->.
  assert (low (no_binop (no_keyword k))) as Hl.
  { destruct k as [ka kg kb kk kc]. cbn in *. subst. exists kg, false. reflexivity. }
  destruct (so_expression P HP _ _ _ _ (or_intror Hl) Ht E) as (us & -> & D & Hs).
  specialize (Hs eq_refl). unfold derived_expr, derived in D. cbn in D. rewrite Ha in D. destruct D as [b D].
  exists b, us. split; [reflexivity|]. split; [exact D|].
  unfold not_ident. unfold stopped in Hs. destruct rest as [|[] rest]; cbn in *; congruence.
Qed.

Lemma keywords_sound k acc ts l rest : k_assign k = false -> k_cascade k = false -> k_binop k = true ->
    tidy ts -> s_keywords P k acc ts = Ok (l, rest) ->
    exists l' us, l = acc ++ l' /\ ts = us ++ rest /\ Arguments (k_greater k) l' us /\
      stopped (Kind false (k_greater k) true true false) rest.
Proof.
  intros Ha Hc Hb Ht H. destruct ts as [|t ts]; [discriminate|]. destruct t; try discriminate.
  cbn [s_keywords] in H. obi H E. destruct o as [e|]; [|discriminate].
  assert (low (no_keyword k)) as Hl.
  { destruct k as [ka kg kb kk kc]. cbn in *. subst. exists kg, true. reflexivity. }
  destruct (so_expression P HP _ _ _ _ (or_intror Hl) (tidy_tail _ _ Ht) E) as (us & -> & D & Hs).
  specialize (Hs eq_refl). unfold derived_expr, derived in D. cbn in D. rewrite Ha, Hb in D. destruct D as [b D].
  assert (forall r, Ok (acc ++ [(s, e)], r) = Ok (l, rest) -> l0 = r -> first_in (fun t => match t with Keyword _ => true | _ => false end) l0 = false ->
    exists l' us', l = acc ++ l' /\ Keyword s :: us ++ l0 = us' ++ rest /\ Arguments (k_greater k) l' us' /\
      stopped (Kind false (k_greater k) true true false) rest) as K.
  { intros r K Er Hf. subst r. injection K as <- <-. exists [(s, e)], (Keyword s :: us). repeat split.
    - econstructor. exact D.
    - unfold stopped in *. destruct k as [ka kg kb kk kc]. cbn in Hb. subst kb.
      destruct l0 as [|[] l0]; cbn in *; congruence. }
  destruct l0 as [|t l0]; [exact (K _ H eq_refl eq_refl)|].
  destruct t; try exact (K _ H eq_refl eq_refl).
  assert (tidy (Keyword s0 :: l0)) as Ht2 by (apply tidy_tail in Ht; apply tidy_app in Ht; exact Ht).
  destruct (so_keywords P HP k _ _ _ _ Ha Hc Hb Ht2 H) as (l' & us' & -> & Eus & D' & Hs').
  exists ((s, e) :: l'), (Keyword s :: us ++ us'). rewrite <- !app_assoc. cbn [app]. rewrite <- app_assoc, <- Eus.
  repeat split; [|exact Hs']. econstructor; eassumption.
Qed.


Lemma cascade_sound acc ts ms rest : tidy ts -> s_cascade P acc ts = Ok (ms, rest) ->
    exists ms' us, ms = acc ++ ms' /\ ts = us ++ rest /\ Cascade ms' us /\
      ((exists r, ts = Semi :: r) -> ms' <> []).
Proof.
  intros Ht H.
  assert (Ok (acc, ts) = Ok (ms, rest) -> (forall r, ts <> Semi :: r) ->
    exists ms' us, ms = acc ++ ms' /\ ts = us ++ rest /\ Cascade ms' us /\
      ((exists r, ts = Semi :: r) -> ms' <> [])) as K.
  { intros K Hs. injection K as <- <-. exists [], []. rewrite app_nil_r. split; [reflexivity|].
    split; [reflexivity|]. split; [constructor|]. intros [r Hr]. exfalso. exact (Hs r Hr). }
  destruct ts as [|t ts]; [apply (K H); discriminate|]. destruct t; try (apply (K H); discriminate). clear K.
  apply tidy_tail in Ht.
  assert (forall t s r, Operator true t s -> tidy r ->
    (olet (a, ts2) := s_binary P cascaded r in p_cascade P (acc ++ [MBinary s a]) ts2) = Ok (ms, rest) ->
    exists ms' us, ms = acc ++ ms' /\ Semi :: t :: r = us ++ rest /\ Cascade ms' us /\
      ((exists r', Semi :: t :: r = Semi :: r') -> ms' <> [])) as K.
  { clear H. clear Ht ts. intros t s r Ho Ht H. obi H E.
    destruct (binary_sound cascaded _ _ _ eq_refl eq_refl Ht E) as (b & us & -> & D & _).
    destruct (so_cascade P HP _ _ _ _ (tidy_app _ _ Ht) H) as (ms' & us' & -> & -> & D' & _).
    exists (MBinary s e :: ms'), (Semi :: t :: us ++ us'). rewrite <- app_assoc. cbn [app].
    rewrite <- app_assoc. split; [reflexivity|]. split; [reflexivity|].
    split; [econstructor; eassumption|discriminate]. }
  destruct ts as [|t ts]; [discriminate|]. destruct t; try discriminate; cbn [s_cascade binary_token] in H;
    try (apply tidy_tail in Ht; refine (K _ _ _ _ Ht H); constructor; reflexivity).
  - apply tidy_tail in Ht.
    destruct (so_cascade P HP _ _ _ _ Ht H) as (ms' & us' & -> & -> & D' & _).
    exists (MUnary s :: ms'), (Semi :: Ident s :: us'). rewrite <- app_assoc. split; [reflexivity|]. split; [reflexivity|].
    split; [constructor; exact D'|discriminate].
  - obi H E. destruct (so_keywords P HP cascaded _ _ _ _ eq_refl eq_refl eq_refl Ht E) as (l' & us & -> & Eus & D & _).
    rewrite Eus in *.
    destruct (so_cascade P HP _ _ _ _ (tidy_app _ _ Ht) H) as (ms' & us' & -> & -> & D' & _).
    exists (MKeyword l' :: ms'), (Semi :: us ++ us'). rewrite <- app_assoc. cbn [app]. rewrite <- app_assoc.
    split; [reflexivity|]. split; [reflexivity|]. split; [constructor; assumption|discriminate].
Qed.

(** The loop ends: what has been parsed is derived. *)
Lemma node_derived k sent node us0 ts : k = no_assign any \/ low k -> node_ok k sent node us0 ts ->
  derived k node us0.
Proof.
  intros Hk [H|[(Hb & H & _)|(Hw & H & _)]]; unfold derived.
  - destruct (k_keyword k).
    + econstructor. constructor. constructor. exact H.
    + destruct (k_binop k); [|eauto]. exists sent. constructor. exact H.
  - rewrite Hb. destruct (k_keyword k) eqn:Ek; [|eauto].
    destruct Hk as [->|(gt & b & ->)]; [|discriminate]. econstructor. constructor. exact H.
  - rewrite Hw. econstructor. exact H.
Qed.

Lemma message_sound k node sent ts e rest us0 : k = no_assign any \/ low k -> tidy ts ->
    node_ok k sent node us0 ts ->
    s_message P k node sent ts = Ok (e, rest) ->
    exists us, ts = us ++ rest /\ derived k e (us0 ++ us) /\ (k_keyword k = false -> stopped k rest).
Proof.
  intros Hk Ht Hn H.
  assert (Ok (node, ts) = Ok (e, rest) -> stopped k ts \/ k_keyword k = true ->
    exists us, ts = us ++ rest /\ derived k e (us0 ++ us) /\ (k_keyword k = false -> stopped k rest)) as K.
  { intros K Hs. injection K as <- <-. exists []. rewrite app_nil_r. repeat split.
    - eapply node_derived; eassumption.
    - intro Hkw. destruct Hs as [Hs|Hs]; [exact Hs|congruence]. }
  assert (forall t s r, ts = t :: r -> Operator (k_greater k) t s -> k_binop k = true ->
    (olet (a, ts1) := s_binary P (no_cascade k) r in p_message P k (ESend node (MBinary s a)) true ts1) = Ok (e, rest) ->
    exists us, ts = us ++ rest /\ derived k e (us0 ++ us) /\ (k_keyword k = false -> stopped k rest)) as KB.
  { clear H. intros t s r -> Ho Hb H. obi H E. apply tidy_tail in Ht.
    assert (k_assign (no_cascade k) = false) as Hka by (destruct Hk as [->|(gt & b & ->)]; reflexivity).
    destruct (binary_sound (no_cascade k) _ _ _ Hka eq_refl Ht E) as (b & us & -> & D & Hi).
    assert (node_ok k true (ESend node (MBinary s e0)) (us0 ++ t :: us) l) as Hn'.
    { right. left. split; [exact Hb|]. split; [|exact Hi].
      destruct Hn as [Hn|[(_ & Hn & _)|(Hw & _ & Hn)]].
      - eapply binary_send; [constructor; exact Hn|exact Ho|exact D].
      - eapply binary_send; [exact Hn|exact Ho|exact D].
      - exfalso. unfold stopped in Hn. destruct Ho; discriminate. }
    destruct (so_message P HP _ _ _ _ _ _ _ Hk (tidy_app _ _ Ht) Hn' H) as (us' & -> & D' & Hs).
    exists (t :: us ++ us'). cbn [app]. rewrite <- app_assoc. split; [reflexivity|]. split; [|exact Hs].
    rewrite <- app_assoc in D'. exact D'. }
  assert (k_keyword k = true -> k = no_assign any) as Hkany.
  { intro Hkw. destruct Hk as [->|(gt & b & ->)]; [reflexivity|discriminate]. }
  destruct ts as [|t ts]; [apply (K H); left; reflexivity|].
  destruct t; cbn [s_message binary_token] in H;
    try (apply (K H); left; reflexivity);
    try (destruct (k_binop k) eqn:Eb; cbn [negb] in H;
         [eapply (KB _ _ _ eq_refl); [constructor; reflexivity|reflexivity|exact H]
         |apply (K H); left; unfold stopped; cbn; exact Eb]).
  - (* unary *)
    assert (Unary sent node us0) as Hu.
    { destruct Hn as [Hn|[(_ & _ & Hn)|(_ & _ & Hn)]]; [exact Hn|discriminate|discriminate]. }
    assert (node_ok k true (ESend node (MUnary s)) (us0 ++ [Ident s]) ts) as Hn'.
    { left. econstructor. exact Hu. }
    destruct (so_message P HP _ _ _ _ _ _ _ Hk (tidy_tail _ _ Ht) Hn' H) as (us' & -> & D' & Hs).
    exists (Ident s :: us'). split; [reflexivity|]. split; [|exact Hs].
    rewrite <- app_assoc in D'. exact D'.
  - (* keyword *)
    destruct (k_keyword k) eqn:Ew; cbn [negb] in H; [|apply (K H); left; unfold stopped; cbn; exact Ew].
    rewrite (Hkany eq_refl) in *. obi H E.
    destruct (so_keywords P HP (no_cascade (no_assign any)) _ _ _ _ eq_refl eq_refl eq_refl Ht E)
      as (l' & us & -> & Eus & D & Hs).
    assert (node_ok (no_assign any) true (ESend node (MKeyword l')) (us0 ++ us) l0) as Hn'.
    { right. right. split; [reflexivity|]. split; [|exact Hs].
      destruct Hn as [Hn|[(_ & Hn & _)|(_ & _ & Hn)]].
      - eapply message_keyword; [constructor; exact Hn|exact D].
      - eapply message_keyword; [exact Hn|exact D].
      - discriminate Hn. }
    rewrite Eus in Ht.
    destruct (so_message P HP _ _ _ _ _ _ _ (or_introl eq_refl) (tidy_app _ _ Ht) Hn' H) as (us' & -> & D' & Hs').
    exists (us ++ us'). rewrite Eus, <- app_assoc. split; [reflexivity|]. split; [|exact Hs'].
    rewrite <- app_assoc in D'. exact D'.
  - (* greater *)
    destruct (k_greater k) eqn:Eg; cbn [negb] in H.
    + destruct (k_binop k) eqn:Eb; cbn [negb] in H.
      * eapply (KB _ _ _ eq_refl); [constructor; reflexivity|reflexivity|exact H].
      * apply (K H). left. unfold stopped. cbn. rewrite Eb, Bool.andb_false_r. reflexivity.
    + apply (K H). left. unfold stopped. cbn. rewrite Eg. reflexivity.
  - (* semicolon *)
    destruct (negb sent || negb (k_cascade k)) eqn:Es; [apply (K H); left; reflexivity|].
    apply Bool.orb_false_elim in Es. destruct Es as [Es1 Es2]. apply Bool.negb_false_iff in Es1, Es2.
    subst sent. assert (k = no_assign any) as -> by (destruct Hk as [->|(gt & b & ->)]; [reflexivity|discriminate]).
    obi H E. destruct node as [ | | | |r m| |]; try discriminate H. injection H as <- <-.
    destruct (so_cascade P HP _ _ _ _ Ht E) as (ms' & us & -> & Eus & D & Dn).
    exists us. split; [exact Eus|]. split; [|discriminate].
    unfold derived. cbn [k_keyword no_assign any app].
    apply simple_cascade; [|exact D|].
    + destruct Hn as [Hn|[(_ & Hn & _)|(_ & Hn & _)]].
      * constructor. constructor. exact Hn.
      * constructor. exact Hn.
      * exact Hn.
    + apply Dn. eauto.
Qed.

Lemma sound_step : sound (step P).
Proof.
  split; cbn [step p_expression p_assigns p_message p_cascade p_keywords p_primary p_literal p_array p_statements].
  - exact expression_sound.
  - exact assigns_sound.
  - exact message_sound.
  - exact cascade_sound.
  - exact keywords_sound.
  - exact primary_sound.
  - exact literal_sound.
  - exact array_sound.
  - exact statements_sound.
Qed.
End Step.

Theorem sound_at n : sound (at_fuel n).
Proof.
  induction n as [|n IH]; [exact sound_0|]. exact (sound_step _ IH).
Qed.
