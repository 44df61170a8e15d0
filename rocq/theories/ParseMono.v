(** Lemmas: more fuel does not change an answer. *)
From Verif Require Import Base ParseTree Parse.

Definition leo {A} (x y : outcome A) : Prop := x = OutOfFuel \/ x = y.
Lemma leo_refl {A} (x : outcome A) : leo x x.
Proof. right. reflexivity. Qed.
Lemma leo_bind {A B} (x y : outcome A) (f g : A -> outcome B) :
  leo x y -> (forall a, leo (f a) (g a)) -> leo (obind x f) (obind y g).
Proof.
  intros [->|<-] H; [left; reflexivity|]. destruct x; cbn; auto using leo_refl.
Qed.

Record le_parsers (P Q : parsers) : Prop := LeParsers {
  le_expression : forall k ts, leo (p_expression P k ts) (p_expression Q k ts);
  le_assigns : forall k acc ts, leo (p_assigns P k acc ts) (p_assigns Q k acc ts);
  le_message : forall k e b ts, leo (p_message P k e b ts) (p_message Q k e b ts);
  le_cascade : forall acc ts, leo (p_cascade P acc ts) (p_cascade Q acc ts);
  le_keywords : forall k acc ts, leo (p_keywords P k acc ts) (p_keywords Q k acc ts);
  le_primary : forall ts, leo (p_primary P ts) (p_primary Q ts);
  le_literal : forall a ts, leo (p_literal P a ts) (p_literal Q a ts);
  le_array : forall acc ts, leo (p_array P acc ts) (p_array Q acc ts);
  le_statements : forall r acc ts, leo (p_statements P r acc ts) (p_statements Q r acc ts) }.

Section Step.
Variables P Q : parsers.
Hypothesis H : le_parsers P Q.

Ltac go := repeat first
  [ apply leo_refl
  | apply (le_expression P Q H) | apply (le_assigns P Q H) | apply (le_message P Q H)
  | apply (le_cascade P Q H) | apply (le_keywords P Q H) | apply (le_primary P Q H)
  | apply (le_literal P Q H) | apply (le_array P Q H) | apply (le_statements P Q H)
  | apply leo_bind; [|intro]
  | match goal with
    | |- leo (let (_, _) := ?x in _) _ => destruct x
    | |- leo (if ?x then _ else _) _ => destruct x
    | |- leo (match ?x with _ => _ end) _ => destruct x
    end ].

Lemma step_le : le_parsers (step P) (step Q).
Proof.
  split; intros;
    cbn [step p_expression p_assigns p_message p_cascade p_keywords p_primary p_literal p_array p_statements].
  - unfold s_expression. go.
  - unfold s_assigns. go.
  - unfold s_message, s_binary. go.
  - unfold s_cascade, s_binary. go.
  - unfold s_keywords. go.
  - unfold s_primary, s_block, s_block_body, s_required. go.
  - unfold s_literal, s_doit. go.
  - unfold s_array. go.
  - unfold s_statements, s_required. go.
Qed.
End Step.

Lemma fuel_le n : le_parsers (at_fuel n) (at_fuel (S n)).
Proof.
  induction n as [|n IH].
  - split; intros; left; reflexivity.
  - exact (step_le _ _ IH).
Qed.

Lemma leo_trans {A} (x y z : outcome A) : leo x y -> leo y z -> leo x z.
Proof. intros [->|<-] K; [left; reflexivity|exact K]. Qed.

Lemma fuel_mono n m : (n <= m)%nat -> le_parsers (at_fuel n) (at_fuel m).
Proof.
  induction 1 as [|m _ IH].
  - split; intros; apply leo_refl.
  - destruct IH, (fuel_le m). split; intros; eapply leo_trans; eauto.
Qed.
