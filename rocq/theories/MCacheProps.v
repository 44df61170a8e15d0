(** C21, C48, C49: the method cache. *)
From Verif Require Import Base Hashed MCache MCacheSpec MCacheProofs MCacheFindings.

(** C21: in a running system every send does what a look-up along the superclass chain says, as long as each
    change to a method dictionary has been followed by its flush. [o] is any operation after any history [h];
    the hypothesis on sanity says that superclass chains end within [fuel] steps and that doesNotUnderstand: is
    inherited by all. *)
Theorem C21_method_cache : forall dnu selector_of fuel w0 h o,
  (forall pre post, h = pre ++ post -> sane dnu fuel (world_after w0 pre)) ->
  Z.of_nat (length h) < 2 ^ 62 -> (forall c s m, ~ In (Install c s m) (h ++ [o])) -> clean h = true ->
  exists v es e, run dnu selector_of fuel (vm0 w0) (h ++ [o]) = Ok (v, es ++ [e]) /\
    right dnu selector_of (world_after w0 h) o e.
Proof. exact cache_installed. Qed.
Print Assumptions C21_method_cache.
Example C21_method_cache_ex :
  let h := [Send 5 32 true; Store 32 5 (Some (Method 7 0)); Flush] in
  sane 1000 3 w_ex /\ clean h = true /\ right 1000 sel_ex (world_after w_ex h) (Send 5 32 true) (Some (Activate (Method 7 0))).
Proof.
  split; [exact sane_ex|]. split; [reflexivity|]. eexists. split; [reflexivity|].
  apply (dispatch_found _ _ _ _ _ (Method 7 0)); constructor; reflexivity.
Qed.

(** C48 as stated is false: superclass: does not flush the caches. *)
Theorem C48_refuted : exists fuel w0 c p s, let h := [Send s c true; Superclass c (Some p)] in
  (forall pre post, h = pre ++ post -> sane 1000 fuel (world_after w0 pre)) /\
  exists v es e, run 1000 sel_ex fuel (vm0 w0) (h ++ [Send s c true]) = Ok (v, es ++ [e]) /\
  ~ right 1000 sel_ex (world_after w0 h) (Send s c true) e.
Proof. exact superclass_stale. Qed.
Print Assumptions C48_refuted.
(** What remains: with an explicit Behavior flushCache after it the change is seen. C21_method_cache admits
    superclass: anywhere in the history; this is the instance where it comes last. *)
Theorem C48_partial : forall dnu selector_of fuel w0 h c p o,
  let h' := h ++ [Superclass c p; Flush] in
  (forall pre post, h' = pre ++ post -> sane dnu fuel (world_after w0 pre)) ->
  Z.of_nat (length h') < 2 ^ 62 -> (forall c s m, ~ In (Install c s m) (h' ++ [o])) -> clean h' = true ->
  exists v es e, run dnu selector_of fuel (vm0 w0) (h' ++ [o]) = Ok (v, es ++ [e]) /\
    right dnu selector_of (world_after w0 h') o e.
Proof. intros. apply cache_installed; assumption. Qed.
Print Assumptions C48_partial.
Example C48_partial_ex : clean ([Send 5 32 true] ++ [Superclass 32 (Some 48); Flush]) = true /\ sane 1000 3 w_ex.
Proof. split; [reflexivity|exact sane_ex]. Qed.

(** C49 as stated is false: a statement that is a constant resets the counter that says whether flushing is
    needed, so the next method definition does not flush. *)
Theorem C49_refuted : exists fuel w0 c s m, let h := [Send s c true; DoitConstant; Install c s m] in
  (forall pre post, h = pre ++ post -> sane 1000 fuel (world_after w0 pre)) /\ clean h = true /\
  exists v es e, run 1000 sel_ex fuel (vm0 w0) (h ++ [Send s c true]) = Ok (v, es ++ [e]) /\
  ~ right 1000 sel_ex (world_after w0 h) (Send s c true) e.
Proof. exact bootstrap_stale. Qed.
Print Assumptions C49_refuted.
(** What remains: files without such statements. *)
Theorem C49_partial : forall dnu selector_of fuel w0 h o,
  (forall pre post, h = pre ++ post -> sane dnu fuel (world_after w0 pre)) ->
  Z.of_nat (length h) < 2 ^ 62 -> ~ In DoitConstant (h ++ [o]) -> clean h = true ->
  exists v es e, run dnu selector_of fuel (vm0 w0) (h ++ [o]) = Ok (v, es ++ [e]) /\
    right dnu selector_of (world_after w0 h) o e.
Proof. exact cache_bootstrap. Qed.
Print Assumptions C49_partial.
Example C49_partial_ex : ~ In DoitConstant [Send 5 32 true; Install 32 5 (Method 9 0)] /\
  right 1000 sel_ex (world_after w_ex [Send 5 32 true; Install 32 5 (Method 9 0)]) (Send 5 32 true) (Some (Activate (Method 9 0))).
Proof.
  split; [intros [H|[H|[]]]; discriminate|]. eexists. split; [reflexivity|].
  apply (dispatch_found _ _ _ _ _ (Method 9 0)); constructor; reflexivity.
Qed.
