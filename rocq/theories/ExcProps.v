(** Exceptions: C106, C107, C108, C109, C110. *)
From Coq Require Import List ZArith Bool.
From Verif Require Import Base ExcLang Exc ExcSpec ExcTop.
Import ListNotations.
Local Open Scope Z_scope.

Definition num (z : Z) : expr := Val (Some z).
Definition on (body : expr) (c : eclass) (h : expr) : expr := On_do body [(Class c, h)].

(** [[[ZeroDivide signal] on: NotFound do: [1]]
        on: ZeroDivide do: [NotFound signal]]
            on: NotFound do: [3] *)
Definition stale_program : expr :=
  on (on (on (Signal ZeroDivide_class) NotFound_class (num 1))
         ZeroDivide_class (Signal NotFound_class))
     NotFound_class (num 3).

(** C106: false as stated.  Handlers inside the protected block catch what the
    handler block signals: the program above answers 1 instead of 3. *)
Theorem C106_handler_environment_refuted : exists p fuel x y,
  sends p = [] /\ answer false fuel p = Some (Some x) /\ execute fuel p = Some y /\ x <> y.
Proof.
  exists stale_program, 20%nat, (Answers (Some 3), []), (Answers (Some 1), []).
  split; [ reflexivity | split; [ reflexivity | split; [ reflexivity | discriminate ] ] ].
Qed.
Print Assumptions C106_handler_environment_refuted.

(** C106, what holds: programs behave as they should unless they do one of the
    things listed at [mean].  Missing: those programs. *)
Theorem C106_handled_as_meant_partial : forall fuel p x log,
  answer true fuel p = Some (Some (x, log)) ->
  execute fuel p = Some (x, log) /\ answer false fuel p = Some (Some (x, log)).
Proof. exact handled_as_meant. Qed.
Print Assumptions C106_handled_as_meant_partial.

(** Errors in an error handler, resumption, ensure: blocks and return:. *)
Definition good_program : expr :=
  on (Seq (on (Ensure (Seq (Signal Warning_class) (Signal Error_class)) (Say 3))
              Error_class (Seq (Say 4) (Signal Error_class)))
          (num 1))
     Exception_class
     (If_said 4 (Ex_return 0 (num 8)) (Seq (Say 5) (Ex_resume 0 (num 1)))).

Example C106_good : answer true 20 good_program = Some (Some (Answers (Some 8), [5; 4; 3])).
Proof. reflexivity. Qed.

(** outer, and a handler within a handler, left with return:. *)
Definition good_outer : expr :=
  on (Seq (on (Signal Warning_class) Warning_class
              (Seq (on (Signal Error_class) Error_class (Ex_return 0 (num 2)))
                   (Seq (Ex_outer 0) (Say 1))))
          (num 9))
     Notification_class (Seq (Say 7) (Ex_resume 0 (num 6))).

Example C106_outer : answer true 20 good_outer = Some (Some (Answers (Some 9), [7; 1])).
Proof. reflexivity. Qed.

(** pass, to a handler that returns, with ensure: blocks in both. *)
Definition good_pass : expr :=
  on (Ensure (Seq (on (Ensure (Signal ZeroDivide_class) (Say 1)) ZeroDivide_class
                      (Ensure (Ex_pass 0) (Say 2)))
                  (Say 3))
             (Say 4))
     Error_class (Ex_return 0 (num 5)).

Example C106_pass : answer true 20 good_pass = Some (Some (Answers (Some 5), [2; 1; 4])).
Proof. reflexivity. Qed.

Example C106_unhandled :
  answer true 20 (on (Signal Error_class) Error_class (Seq (Say 1) (Signal Error_class)))
  = Some (Some (Unhandled Error_class, [1])).
Proof. reflexivity. Qed.

(** resume: is refused by errors of every class, whichever handler sends it, and
    accepted by warnings and by other exceptions. *)
Example C106_resumed :
  let p := fun c d => on (on (Seq (Signal c) (Say 1)) d (Ex_resume 0 (num 5))) Notification_class (num 2) in
  map (fun cd => answer true 20 (p (fst cd) (snd cd)))
    [(ZeroDivide_class, Error_class); (NotFound_class, Exception_class); (Warning_class, Exception_class);
     ([2]%nat, Exception_class); (Warning_class, Warning_class); (Warning_class, Error_class)]
  = [Some (Some (Not_resumable ZeroDivide_class, [])); Some (Some (Not_resumable NotFound_class, []));
     Some (Some (Answers None, [1])); Some (Some (Answers None, [1])); Some (Some (Answers None, [1]));
     Some (Some (Answers (Some 2), []))].
Proof. reflexivity. Qed.

(** The programs left out are told from those that do not end. *)
Example C106_left_out : answer true 20 stale_program = Some None.
Proof. reflexivity. Qed.

(** A sibling handler catches as well: [ZeroDivide signal]
      on: ZeroDivide do: [NotFound signal] on: NotFound do: [1]. *)
Example C106_sibling :
  let p := on (On_do (Signal ZeroDivide_class)
                 [(Class ZeroDivide_class, Signal NotFound_class); (Class NotFound_class, num 1)])
              NotFound_class (num 3) in
  execute 20 p = Some (Answers (Some 1), [])
  /\ answer false 20 p = Some (Some (Answers (Some 3), [])).
Proof. split; reflexivity. Qed.

(** C107: false as stated.
    [[Error signal] on: Error do: [:e | e pass].  Transcript show: 1.  5]
        on: Error do: [7]
    shows 1 and answers 5: control goes on after the inner on:do:. *)
Definition pass_program : expr :=
  on (Seq (on (Signal Error_class) Error_class (Ex_pass 0)) (Seq (Say 1) (num 5)))
     Error_class (num 7).

Theorem C107_pass_refuted : exists p fuel x y,
  sends p = [M_pass] /\ answer false fuel p = Some (Some x) /\ execute fuel p = Some y /\ x <> y.
Proof.
  exists pass_program, 20%nat, (Answers (Some 7), []), (Answers (Some 5), [1]).
  split; [ reflexivity | split; [ reflexivity | split; [ reflexivity | discriminate ] ] ].
Qed.
Print Assumptions C107_pass_refuted.

(** Likewise for outer: it returns to the handler block that sent it. *)
Definition outer_program : expr :=
  on (Seq (on (Signal Error_class) Error_class (Seq (Ex_outer 0) (Say 2))) (Seq (Say 1) (num 5)))
     Error_class (num 7).

Theorem C107_outer_refuted : exists p fuel x y,
  sends p = [M_outer] /\ answer false fuel p = Some (Some x) /\ execute fuel p = Some y /\ x <> y.
Proof.
  exists outer_program, 20%nat, (Answers (Some 7), []), (Answers (Some 5), [2; 1]).
  split; [ reflexivity | split; [ reflexivity | split; [ reflexivity | discriminate ] ] ].
Qed.
Print Assumptions C107_outer_refuted.

(** After pass, resume: returns from the inner on:do: rather than from signal.
    [[Warning signal.  5] on: Warning do: [:e | e pass]]
        on: Warning do: [:e | e resume: 6] *)
Example C107_resume_after_pass :
  let p := on (on (Seq (Signal Warning_class) (num 5)) Warning_class (Ex_pass 0))
              Warning_class (Ex_resume 0 (num 6)) in
  execute 20 p = Some (Answers (Some 6), [])
  /\ answer false 20 p = Some (Some (Answers (Some 5), [])).
Proof. split; reflexivity. Qed.

(** And so does the default action of a notification. *)
Example C107_default_after_pass :
  let p := on (Seq (Signal Warning_class) (num 5)) Warning_class (Ex_pass 0) in
  execute 20 p = Some (Answers None, [])
  /\ answer false 20 p = Some (Some (Answers (Some 5), [])).
Proof. split; reflexivity. Qed.

(** C108: false as stated.  The program [again] of ExcTop.v should end with an
    unhandled error and goes on for ever: return: makes the handler that is
    running available again. *)
Theorem C108_return_refuted : exists p fuel x,
  sends p = [M_return] /\ answer false fuel p = Some (Some x)
  /\ forall fuel', execute fuel' p = None.
Proof.
  exists again, 20%nat, (Unhandled Error_class, []).
  split; [ reflexivity | split; [ reflexivity | exact again_never_ends ] ].
Qed.
Print Assumptions C108_return_refuted.

(** The same inside another on:do:, with an end: 7 would be right. *)
Example C108_caught :
  let p := on (on (Signal Error_class) Error_class
                (If_said 1 (num 9)
                   (Seq (Say 1)
                      (Seq (on (Signal Error_class) Error_class (Ex_return 0 (num 1)))
                           (Signal Error_class)))))
              Error_class (num 7) in
  execute 20 p = Some (Answers (Some 9), [1])
  /\ answer false 20 p = Some (Some (Answers (Some 7), [1])).
Proof. split; reflexivity. Qed.

(** C109: false as stated.
    [done ifTrue: [3] ifFalse: [[Error signal] ensure: [done := true]]]
        on: Error do: [:e | tried ifTrue: [8] ifFalse: [tried := true.  e retry]]
    answers 8 instead of 3: the protected block is evaluated again before the
    ensure: block of the first attempt has run. *)
Definition retry_program : expr :=
  on (If_said 1 (num 3) (Ensure (Signal Error_class) (Say 1)))
     Error_class (If_said 5 (num 8) (Seq (Say 5) (Ex_retry 0))).

Theorem C109_retry_refuted : exists p fuel x y,
  sends p = [M_retry] /\ answer false fuel p = Some (Some x) /\ execute fuel p = Some y /\ x <> y.
Proof.
  exists retry_program, 20%nat, (Answers (Some 3), [5; 1]), (Answers (Some 8), [5; 1; 1]).
  split; [ reflexivity | split; [ reflexivity | split; [ reflexivity | discriminate ] ] ].
Qed.
Print Assumptions C109_retry_refuted.

(** C110: of the handlers of an on:do:on:do:... the one that names the nearest
    ancestor is used. *)
Theorem C110_nearest_handler : forall hs c v,
  Z.of_nat (length c) < 100000 -> picks hs c v ->
  forall fuel, execute (S (S (S fuel))) (On_do (Signal c) (map (fun sv => (fst sv, Val (snd sv))) hs))
  = Some (Answers v, []).
Proof. exact picks_run. Qed.
Print Assumptions C110_nearest_handler.

Theorem C110_no_handler : forall hs c,
  Z.of_nat (length c) < 100000 ->
  (forall s, In s (map fst hs) -> forall pre b, c = pre ++ b -> names s b = false) ->
  forall fuel, execute (S (S (S fuel))) (On_do (Signal c) (map (fun sv => (fst sv, Val (snd sv))) hs))
  = Some (if default_answers c then Answers None else Unhandled c, []).
Proof. exact unpicked_run. Qed.
Print Assumptions C110_no_handler.

Example C110_error_before_exception :
  picks [(Class Exception_class, Some 1); (Set_of [Warning_class; Error_class], Some 2);
         (Class Error_class, Some 3)] ZeroDivide_class (Some 2).
Proof.
  exists [(Class Exception_class, Some 1)], (Set_of [Warning_class; Error_class]),
         [(Class Error_class, Some 3)], Error_class, [0%nat].
  split; [ reflexivity | split; [ reflexivity | split; [ reflexivity | split ] ] ].
  - intros s' I1 pre' b Q L.
    assert (b = ZeroDivide_class).
    { destruct pre' as [ | x pre' ]; [ symmetry; exact Q | ].
      destruct pre' as [ | y pre' ].
      - injection Q as _ Q. subst b. cbn in L. destruct (Nat.lt_irrefl _ L).
      - injection Q as _ _ Q. symmetry in Q. apply app_eq_nil in Q. destruct Q as [ _ -> ].
        cbn in L. inversion L. }
    subst b. destruct I1 as [ <- | [ <- | [ <- | [] ] ] ]; reflexivity.
  - intros s' [ <- | [] ]. reflexivity.
Qed.

Example C110_unnamed : forall s, In s [Class Warning_class; Set_of [NotFound_class]] ->
  forall pre b, ZeroDivide_class = pre ++ b -> names s b = false.
Proof.
  intros s I1 pre b Q.
  assert (K : In b [ZeroDivide_class; Error_class; Exception_class]).
  { destruct pre as [ | x [ | y [ | z pre ] ] ]; cbn in Q.
    - left. exact Q.
    - right. left. injection Q as _ <-. reflexivity.
    - right. right. left. injection Q as _ _ <-. reflexivity.
    - discriminate. }
  destruct I1 as [ <- | [ <- | [] ] ]; destruct K as [ <- | [ <- | [ <- | [] ] ] ]; reflexivity.
Qed.
