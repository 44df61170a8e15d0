(** Lemmas: the parser ends on every text. *)
From Verif Require Import Base ParseTree Parse.
Local Open Scope nat_scope.
Local Notation length := List.length.

(** An answer is reached, which consumes at least [d] of [L] tokens, or an error is
    reported. *)
Definition ends {A} (d L : nat) (x : outcome (A * list token)) : Prop :=
  match x with
  | Ok (_, r) => length r + d <= L
  | Err => True
  | _ => False
  end.
(** The same, for functions that consume something when they do not answer NULL. *)
Definition ends_some {A} (L : nat) (x : outcome (option A * list token)) : Prop :=
  match x with
  | Ok (Some _, r) => length r + 1 <= L
  | Ok (None, r) => length r <= L
  | Err => True
  | _ => False
  end.

Lemma ends_bind {A B} d L d' L' (x : outcome (A * list token)) (f : A * list token -> outcome (B * list token)) :
  ends d L x -> (forall a r, length r + d <= L -> ends d' L' (f (a, r))) -> ends d' L' (obind x f).
Proof. destruct x as [[a r]| | | |]; cbn; auto. Qed.
Lemma ends_bind_some {A B} d L d' (x : outcome (A * list token)) (f : A * list token -> outcome (option B * list token)) :
  ends d L x -> (forall a r, length r + d <= L -> ends_some d' (f (a, r))) -> ends_some d' (obind x f).
Proof. destruct x as [[a r]| | | |]; cbn; auto. Qed.
Lemma ends_skip {B} is ts d' L' (f : list token -> outcome (B * list token)) :
  (forall r, length r < length ts -> ends d' L' (f r)) -> ends d' L' (obind (skip is ts) f).
Proof.
  intro H. destruct ts as [|t ts]; [exact Logic.I|]. cbn. destruct (is t); [|exact Logic.I]. cbn. apply H. cbn. lia.
Qed.
Lemma ends_skip_some {B} is ts L' (f : list token -> outcome (option B * list token)) :
  (forall r, length r < length ts -> ends_some L' (f r)) -> ends_some L' (obind (skip is ts) f).
Proof.
  intro H. destruct ts as [|t ts]; [exact Logic.I|]. cbn. destruct (is t); [|exact Logic.I]. cbn. apply H. cbn. lia.
Qed.

(** ** Pieces without recursion *)
Lemma scoped_ends_le m : forall ts, length ts <= m -> ends 0 (length ts) (scoped ts).
Proof.
  induction m as [|m IH]; intros ts Hm.
  - destruct ts; cbn in *; lia.
  - destruct ts as [|t ts]; [cbn; lia|]. destruct t; try (cbn; lia).
    destruct ts as [|t ts]; [exact Logic.I|]. destruct t; try exact Logic.I. cbn [scoped].
    eapply ends_bind; [apply IH; cbn in Hm; lia|]. intros a r Hr. cbn. lia.
Qed.
Lemma variable_ends s ts : ends 1 (length (Ident s :: ts)) (variable_primary (Ident s :: ts)).
Proof.
  cbn [variable_primary].
  eapply ends_bind; [apply (scoped_ends_le _ ts (le_n _))|]. intros a r Hr. cbn. lia.
Qed.
Lemma temps_until_ends acc ts : ends 0 (length ts) (temps_until acc ts).
Proof.
  revert acc. induction ts as [|t ts IH]; intro acc; [exact Logic.I|].
  destruct t; try exact Logic.I; cbn [temps_until].
  - specialize (IH (acc ++ [s])). destruct (temps_until (acc ++ [s]) ts) as [[a r]| | | |]; cbn in *; auto; lia.
  - cbn. lia.
Qed.
Lemma temporaries_ends b ts : ends 0 (length ts) (parse_temporaries b ts).
Proof.
  unfold parse_temporaries. destruct b; [apply temps_until_ends|].
  destruct ts as [|t ts]; [cbn; lia|]. destruct t; try (cbn; lia).
  pose proof (temps_until_ends [] ts) as H. destruct (temps_until [] ts) as [[a r]| | | |]; cbn in *; auto; lia.
Qed.
Lemma block_variables_ends_le m : forall acc ts, length ts <= m -> ends 0 (length ts) (block_variables acc ts).
Proof.
  induction m as [|m IH]; intros acc ts Hm.
  - destruct ts; cbn in *; lia.
  - destruct ts as [|t ts]; [cbn; lia|]. destruct t; try (cbn; lia).
    destruct ts as [|t ts]; [exact Logic.I|]. destruct t; try exact Logic.I. cbn [block_variables].
    specialize (IH (acc ++ [s]) ts ltac:(cbn in Hm; lia)).
    destruct (block_variables (acc ++ [s]) ts) as [[a r]| | | |]; cbn in *; auto; lia.
Qed.
Lemma byte_array_ends acc ts : ends 0 (length ts) (byte_array acc ts).
Proof.
  revert acc. induction ts as [|t ts IH]; intro acc; [exact Logic.I|].
  destruct t; try exact Logic.I; cbn [byte_array].
  - destruct (_ || _)%bool; [exact Logic.I|]. specialize (IH (acc ++ [z])).
    destruct (byte_array (acc ++ [z]) ts) as [[a r]| | | |]; cbn in *; auto; lia.
  - cbn. lia.
Qed.

(** ** The claims *)
Definition is_send (e : expr) : Prop := exists r m, e = ESend r m.
Definition bare (ts : list token) : bool :=
  match ts with (LParen | LBrack) :: _ => true | _ => false end.
Record all_end (n : nat) (P : parsers) : Prop := AllEnd {
  en_expression : forall k ts, 6 * length ts + 4 <= n -> ends 0 (length ts) (p_expression P k ts);
  en_assigns : forall k acc ts, 6 * length ts + 3 <= n -> ends 0 (length ts) (p_assigns P k acc ts);
  en_message : forall k e b ts, (b = true -> is_send e) -> 6 * length ts + 2 <= n -> ends 0 (length ts) (p_message P k e b ts);
  en_cascade : forall acc ts, 6 * length ts + 1 <= n -> ends 0 (length ts) (p_cascade P acc ts);
  en_keywords : forall k acc s ts, 6 * length (Keyword s :: ts) + 1 <= n ->
    ends 1 (length (Keyword s :: ts)) (p_keywords P k acc (Keyword s :: ts));
  en_primary : forall ts, 6 * length ts + 2 <= n -> ends 0 (length ts) (p_primary P ts);
  en_literal : forall a ts, (a = false -> bare ts = false) -> 6 * length ts + 1 <= n -> ends_some (length ts) (p_literal P a ts);
  en_array : forall acc ts, 6 * length ts + 2 <= n -> ends 0 (length ts) (p_array P acc ts);
  en_statements : forall r acc ts, 6 * length ts + 5 <= n -> ends 0 (length ts) (p_statements P r acc ts) }.

Lemma ends_weaken {A} d L d' L' (x : outcome (A * list token)) :
  ends d L x -> L + d' <= L' + d -> ends d' L' x.
Proof. destruct x as [[a r]| | | |]; cbn; auto. intros. lia. Qed.
Lemma ends_to_some {A} d L L' (x : outcome (option A * list token)) :
  ends d L x -> L + 1 <= L' + d -> ends_some L' x.
Proof. destruct x as [[[a|] r]| | | |]; cbn; auto; intros; lia. Qed.

Section Step.
Variables (n : nat) (P : parsers).
Hypothesis HP : all_end n P.

Ltac fuel := cbn [List.length] in *; lia.
Ltac close := first [exact Logic.I | solve [cbn [List.length] in *; cbn; lia]].

Lemma required_ends ts : 6 * length ts + 4 <= n -> ends 0 (length ts) (s_required P ts).
Proof.
  intro Hn. unfold s_required. eapply ends_bind; [apply (en_expression n P HP); fuel|].
  intros [a|] r Hr; close.
Qed.
Lemma binary_ends k ts : 6 * length ts + 4 <= n -> ends 0 (length ts) (s_binary P k ts).
Proof.
  intro Hn. unfold s_binary. eapply ends_bind; [apply (en_expression n P HP); fuel|].
  intros [a|] r Hr; close.
Qed.
Lemma expression_ends k ts : 6 * length ts + 4 <= S n -> ends 0 (length ts) (s_expression P k ts).
Proof.
  intro Hn. unfold s_expression. eapply ends_bind; [apply (en_assigns n P HP); fuel|].
  intros [vs [e|]] r Hr.
  - eapply ends_bind; [apply (en_message n P HP); [discriminate|fuel]|]. intros e1 r2 Hr2. destruct vs; close.
  - destruct vs; close.
Qed.
Lemma assigns_ends k acc ts : 6 * length ts + 3 <= S n -> ends 0 (length ts) (s_assigns P k acc ts).
Proof.
  intro Hn.
  assert (ends 0 (length ts) (olet (e, ts1) := p_primary P ts in Ok (acc, e, ts1))) as K.
  { eapply ends_bind; [apply (en_primary n P HP); fuel|]. intros e r Hr. close. }
  destruct ts as [|t ts]; [exact K|]. destruct t; try exact K. cbn [s_assigns].
  eapply ends_bind; [apply variable_ends|]. intros p r Hr.
  destruct r as [|t r]; [close|]. destruct t; try close. destruct (k_assign k); [|close].
  eapply ends_weaken; [apply (en_assigns n P HP); fuel|fuel].
Qed.
Lemma block_body_ends vars b ts L : 6 * length ts + 5 <= n -> length ts <= L -> ends 0 L (s_block_body P vars b ts).
Proof.
  intros Hn HL. unfold s_block_body. eapply ends_bind; [apply temporaries_ends|]. intros vs r Hr.
  eapply ends_bind; [apply (en_statements n P HP); fuel|]. intros ss r2 Hr2.
  apply ends_skip. intros r3 Hr3. close.
Qed.
Lemma block_ends ts : 6 * length ts + 5 <= n -> ends 0 (length ts) (s_block P ts).
Proof.
  intro Hn. destruct ts as [|t ts]; [apply block_body_ends; fuel|].
  destruct t; try (apply block_body_ends; fuel). unfold s_block.
  eapply ends_bind; [apply (block_variables_ends_le _ _ _ (le_n _))|]. intros vs r Hr.
  destruct r as [|t r]; [close|]. destruct t; try close; try (apply block_body_ends; fuel).
  destruct (two_bars s); [apply block_body_ends; fuel|close].
Qed.
Lemma primary_ends ts : 6 * length ts + 2 <= S n -> ends 0 (length ts) (s_primary P ts).
Proof.
  intro Hn.
  assert (bare ts = false ->
    ends 0 (length ts) (olet (l, ts1) := p_literal P false ts in Ok (option_map ELit l, ts1))) as K.
  { intro Hb. pose proof (en_literal n P HP false ts (fun _ => Hb) ltac:(fuel)) as H.
    destruct (p_literal P false ts) as [[[l|] r]| | | |]; cbn in *; auto; lia. }
  destruct ts as [|t ts]; [close|]. destruct t; cbn [s_primary]; try close; try exact (K eq_refl).
  - eapply ends_bind; [apply variable_ends|]. intros p r Hr. close.
  - eapply ends_bind; [apply required_ends; fuel|]. intros e r Hr. apply ends_skip. intros r2 Hr2. close.
  - eapply ends_weaken; [apply block_ends; fuel|fuel].
  - eapply ends_bind; [apply (en_statements n P HP); fuel|]. intros ss r Hr. apply ends_skip. intros r2 Hr2. close.
Qed.
Lemma doit_ends ts : 6 * length ts + 5 <= n -> ends_some (length ts) (s_doit P ts).
Proof.
  intro Hn. unfold s_doit. apply ends_skip_some. intros r0 Hr0.
  eapply ends_bind_some; [apply temporaries_ends|]. intros vs r Hr.
  eapply ends_bind_some; [apply (en_statements n P HP); fuel|]. intros ss r2 Hr2.
  apply ends_skip_some. intros r3 Hr3. close.
Qed.
Lemma some_weaken {A} L L' (x : outcome (option A * list token)) : ends_some L x -> L <= L' -> ends_some L' x.
Proof. destruct x as [[[a|] r]| | | |]; cbn; auto; intros; lia. Qed.
Lemma literal_ends a ts : (a = false -> bare ts = false) -> 6 * length ts + 1 <= S n -> ends_some (length ts) (s_literal P a ts).
Proof.
  intros Hb Hn. destruct ts as [|t ts]; [close|]. destruct t; cbn [s_literal]; try close.
  - destruct (String.eqb s "true"); [close|]. destruct (String.eqb s "false"); [close|].
    destruct (String.eqb s "nil"); close.
  - destruct ts as [|t ts]; [close|]. destruct t; try close; destruct (z <? 0)%Z; close.
  - destruct ts as [|t ts]; [close|]. destruct t; try close.
    destruct (_ && _)%bool; [|close]. apply ends_skip_some. intros r Hr.
    destruct (_ <? _)%Z; close.
  - destruct ts as [|t ts]; [close|]. destruct t; try close.
    + eapply some_weaken; [apply doit_ends; fuel|fuel].
    + eapply ends_to_some; [apply (en_array n P HP); fuel|fuel].
    + eapply ends_bind_some; [apply byte_array_ends|]. intros bs r Hr. close.
    + destruct ts as [|t ts]; [close|]. destruct t; try close.
      eapply ends_bind_some; [apply variable_ends|]. intros p r Hr.
      apply ends_skip_some. intros r2 Hr2. close.
  - destruct a; [|discriminate (Hb eq_refl)]. eapply ends_to_some; [apply (en_array n P HP); fuel|fuel].
  - destruct a; [|discriminate (Hb eq_refl)]. eapply ends_bind_some; [apply byte_array_ends|]. intros bs r Hr. close.
Qed.
Lemma array_ends acc ts : 6 * length ts + 2 <= S n -> ends 0 (length ts) (s_array P acc ts).
Proof.
  intro Hn.
  assert (ends 0 (length ts) (olet (l, ts1) := p_literal P true ts in
      match l with None => Ok (None, ts1) | Some l => p_array P (acc ++ [l]) ts1 end)) as K.
  { pose proof (en_literal n P HP true ts ltac:(discriminate) ltac:(fuel)) as H.
    destruct (p_literal P true ts) as [[[l|] r]| | | |]; cbn [obind ends ends_some] in *; auto; [|lia].
    eapply ends_weaken; [apply (en_array n P HP); fuel|fuel]. }
  destruct ts as [|t ts]; [close|]. destruct t; try exact K. close.
Qed.
Lemma keywords_ends k acc s ts : 6 * length (Keyword s :: ts) + 1 <= S n ->
  ends 1 (length (Keyword s :: ts)) (s_keywords P k acc (Keyword s :: ts)).
Proof.
  intro Hn. cbn [s_keywords].
  eapply ends_bind; [apply (en_expression n P HP); fuel|]. intros [e|] r Hr; [|close].
  destruct r as [|t r]; [close|]. destruct t; try close.
  eapply ends_weaken; [apply (en_keywords n P HP); fuel|fuel].
Qed.
Lemma cascade_ends acc ts : 6 * length ts + 1 <= S n -> ends 0 (length ts) (s_cascade P acc ts).
Proof.
  intro Hn. destruct ts as [|t ts]; [close|]. destruct t; try close.
  destruct ts as [|t ts]; [close|].
  destruct t; try close; cbn [s_cascade];
    try (eapply ends_bind; [apply binary_ends; fuel|]; intros a r Hr;
         eapply ends_weaken; [apply (en_cascade n P HP); fuel|fuel]).
  - eapply ends_weaken; [apply (en_cascade n P HP); fuel|fuel].
  - eapply ends_bind; [apply (en_keywords n P HP); fuel|]. intros a r Hr.
    eapply ends_weaken; [apply (en_cascade n P HP); fuel|fuel].
Qed.
Lemma message_ends k e b ts : (b = true -> is_send e) -> 6 * length ts + 2 <= S n -> ends 0 (length ts) (s_message P k e b ts).
Proof.
  intros Hs Hn. destruct ts as [|t ts]; [close|].
  assert (forall x t, ends 0 (length (t :: ts)) (olet (a, ts1) := s_binary P (no_cascade k) ts in
      p_message P k (ESend e (MBinary x a)) true ts1)) as KB.
  { intros x t'. eapply ends_bind; [apply binary_ends; fuel|]. intros a r Hr.
    eapply ends_weaken; [apply (en_message n P HP); [intros _; eexists _, _; reflexivity|fuel]|fuel]. }
  destruct t; cbn [s_message]; try close; try (destruct (k_binop k); cbn [negb]; [apply (KB _ Lt)|close]).
  - eapply ends_weaken; [apply (en_message n P HP); [intros _; eexists _, _; reflexivity|fuel]|fuel].
  - destruct (k_keyword k); cbn [negb]; [|close].
    eapply ends_bind; [apply (en_keywords n P HP); fuel|]. intros a r Hr.
    eapply ends_weaken; [apply (en_message n P HP); [intros _; eexists _, _; reflexivity|fuel]|fuel].
  - destruct (k_greater k); cbn [negb]; [|close]. destruct (k_binop k); cbn [negb]; [apply (KB _ Lt)|close].
  - destruct (negb b || negb (k_cascade k))%bool eqn:Eb; [close|].
    assert (b = true) as -> by (destruct b; [reflexivity|discriminate]).
    destruct (Hs eq_refl) as (r0 & m & ->).
    eapply ends_bind; [apply (en_cascade n P HP); fuel|]. intros a r Hr. close.
Qed.
Lemma statements_ends ret acc ts : 6 * length ts + 5 <= S n -> ends 0 (length ts) (s_statements P ret acc ts).
Proof.
  intro Hn.
  assert (ends 0 (length ts) (olet (e, ts1) := p_expression P any ts in
      match e with
      | None => Ok (acc, ts1)
      | Some e => match ts1 with
          | Dot :: ts2 => p_statements P ret (acc ++ [SExpr e]) ts2
          | _ => Ok (acc ++ [SExpr e], ts1)
          end
      end)) as K.
  { eapply ends_bind; [apply (en_expression n P HP); fuel|]. intros [e|] r Hr; [|close].
    destruct r as [|t r]; [close|]. destruct t; try close.
    eapply ends_weaken; [apply (en_statements n P HP); fuel|fuel]. }
  unfold s_statements. destruct ts as [|t ts]; [exact K|]. destruct t; try exact K.
  destruct ret; [|exact K]. eapply ends_bind; [apply required_ends; fuel|]. intros e r Hr.
  destruct r as [|t r]; [close|]. destruct t; close.
Qed.
Lemma step_ends : all_end (S n) (step P).
Proof.
  split; cbn [step p_expression p_assigns p_message p_cascade p_keywords p_primary p_literal p_array p_statements];
    auto using expression_ends, assigns_ends, message_ends, cascade_ends, keywords_ends, primary_ends,
      literal_ends, array_ends, statements_ends.
Qed.
End Step.

Theorem fuel_ends n : all_end n (at_fuel n).
Proof.
  induction n as [|n IH]; [split; intros; lia|]. exact (step_ends n _ IH).
Qed.
