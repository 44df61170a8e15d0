From Verif Require Import Base IntMath IntMathSpec IntMathProofs IntFactProofs.

Lemma gcd_negative : exists a b g, int_gcd a b = Ok g /\ g < 0.
Proof. exists (- 2 ^ 65), 0, (- 2 ^ 65). split; reflexivity. Qed.

Lemma ceiling_log_wrong :
  (exists n b r, 2 <= b /\ 2 <= n /\ ceilingLog n b = Ok r /\ b ^ r < n) /\
  (exists b r, 2 <= b /\ ceilingLog 1 b = Ok r /\ ~ is_ceiling_log b 1 r).
Proof.
  split.
  - exists 101, 10, 2. split; [lia|]. split; [lia|]. split; reflexivity.
  - exists 10, 1. split; [lia|]. split; [reflexivity|]. unfold is_ceiling_log. cbn. lia.
Qed.

Lemma binomial_loops : exists n k, 0 <= k <= n /\ forall fuel, binomial fuel n k = OutOfFuel.
Proof. exists (2 ^ 62), 1. split; [lia|]. apply binomial_diverges; lia. Qed.
