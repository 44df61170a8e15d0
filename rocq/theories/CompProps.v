(** Theorems about the compiler of methods (C114, C115, C116). *)
From Coq Require Import ZArith List Bool String Lia.
From Verif Require Import Base Comp CompSpec CompTop CompSafe CompExamples.
Import ListNotations.
Local Open Scope string_scope.
Local Open Scope list_scope.
Local Open Scope Z_scope.

Local Ltac split_all :=
  split; [vm_compute; lia|split; [vm_compute; lia|split; [vm_compute; reflexivity|
    split; vm_compute; reflexivity]]].

(** * C114: a compiled method does what its source says *)

(** Missing from the full statement: what the four refutations below exclude, and
    runs that the source text gives no meaning to or that do not end. *)
Theorem C114_method_partial :
  forall W (sys : system W) c m last prompt cm args limit n w,
  sound sys -> compile_method c m last prompt = Ok cm ->
  tidy_stmts true (m_body m) = true -> fits cm c m -> no_edge (cm_is cm) ->
  cm_max cm + loops_stmts (m_body m) + 1 <= limit ->
  match means sys c n last m args w with
  | Answer a w' => exists fuel, run_method sys limit cm fuel args w = Done a w'
  | Gone => exists fuel, run_method sys limit cm fuel args w = Left
  | Val _ _ _ => False
  | Error | NoEnd => True
  end.
Proof. exact method_runs. Qed.
Print Assumptions C114_method_partial.

(** a method with an argument, a temporary, a loop, a choice, a global variable, a
    return and a cascade meets the hypotheses *)
Example C114_sample :
  sound heard /\ compile_method class sample false true = Ok (compiled sample)
  /\ tidy_stmts true (m_body sample) = true /\ fits (compiled sample) class sample
  /\ no_edge (cm_is (compiled sample))
  /\ cm_max (compiled sample) + loops_stmts (m_body sample) + 1 <= 7
  /\ means heard class 100 false sample [VInt 3] silence
     = Answer (VInt 3) ([(false, "at:", VInt 2); (false, "at:", VInt 1)],
                        [("G", VInt 2); ("G", VInt 1)])
  /\ means heard class 100 false sample [VInt 2] silence
     = Answer (VObj 0) ([(false, "b", VNil); (false, "a", VNil);
                         (false, "at:", VInt 2); (false, "at:", VInt 1)],
                        [("G", VInt 2); ("G", VInt 1)]).
Proof.
  split; [exact heard_sound|]. split; [vm_compute; reflexivity|]. split; [vm_compute; reflexivity|].
  split; [split_all|].
  split; [apply no_edge_in; vm_compute; reflexivity|].
  split; [vm_compute; discriminate|]. split; vm_compute; reflexivity.
Qed.

(** [1 to: 2 do: [:i | self foo. ... self foo]] with forty messages: the jump back
    is of 256 bytes exactly, and the compiler counts two bytes too few for it *)
Theorem C114_loop_of_256_bytes_refuted :
  exists m cm a w',
  compile_method class m false true = Ok cm /\ tidy_stmts true (m_body m) = true
  /\ fits cm class m /\ cm_max cm + loops_stmts (m_body m) + 1 <= room (cm_header cm)
  /\ means heard class 100 false m [] silence = Answer a w'
  /\ forall fuel, run_method heard (room (cm_header cm)) cm fuel [] silence <> Done a w'.
Proof.
  exists forty, (compiled forty), (VObj 0), (List.repeat (false, "foo", VNil) 80, []).
  split; [vm_compute; reflexivity|]. split; [vm_compute; reflexivity|].
  split; [split_all|]. split; [vm_compute; discriminate|].
  split; [vm_compute; reflexivity|]. intros fuel.
  apply (ends_once forty 1000 []
           (Done (VObj 0) ((false, "mustBeBoolean", VNil) :: List.repeat (false, "foo", VNil) 40, []))).
  - vm_compute. reflexivity.
  - discriminate.
  - vm_compute. discriminate.
  - discriminate.
Qed.
Print Assumptions C114_loop_of_256_bytes_refuted.

(** [| i | i := 3. 1 to: i do: [:i | self foo]]: the limit is read from the
    variable of the loop, so that foo is sent once and not three times *)
Theorem C114_limit_of_loop_refuted :
  exists m cm a w',
  compile_method class m false true = Ok cm /\ tidy_stmts false (m_body m) = true
  /\ fits cm class m /\ no_edge (cm_is cm)
  /\ cm_max cm + loops_stmts (m_body m) + 1 <= room (cm_header cm)
  /\ means heard class 100 false m [] silence = Answer a w'
  /\ forall fuel, run_method heard (room (cm_header cm)) cm fuel [] silence <> Done a w'.
Proof.
  exists shadowed, (compiled shadowed), (VObj 0), (List.repeat (false, "foo", VNil) 3, []).
  split; [vm_compute; reflexivity|]. split; [vm_compute; reflexivity|].
  split; [split_all|].
  split; [apply no_edge_in; vm_compute; reflexivity|].
  split; [vm_compute; discriminate|].
  split; [vm_compute; reflexivity|]. intros fuel.
  apply (ends_once shadowed 100 [] (Done (VObj 0) ([(false, "foo", VNil)], []))).
  - vm_compute. reflexivity.
  - discriminate.
  - vm_compute. discriminate.
  - discriminate.
Qed.
Print Assumptions C114_limit_of_loop_refuted.

(** [^1 to: 5 by: 2 do: [:i | self foo]]: the message to:by:do: answers its first
    argument, 5 (kernel/Number.st:998); the loop compiled in line answers 1 *)
Theorem C114_answer_of_to_by_do_refuted :
  exists m cm,
  m_body m = SReturn (ESend 1 (int 1) "to:by:do:"
     (ECons (int 5) (ECons (int 2) (ECons (EBlock 1 ["i"] [] (SExpr (send (var "self") "foo") SNil)) ENil))))
  /\ compile_method class m false true = Ok cm /\ tidy_stmts true (m_body m) = true
  /\ fits cm class m /\ no_edge (cm_is cm)
  /\ cm_max cm + loops_stmts (m_body m) + 1 <= room (cm_header cm)
  /\ run_method heard (room (cm_header cm)) cm 100 [] silence
     = Done (VInt 1) (List.repeat (false, "foo", VNil) 3, [])
  /\ forall fuel w, run_method heard (room (cm_header cm)) cm fuel [] silence <> Done (VInt 5) w.
Proof.
  exists stepped, (compiled stepped).
  split; [reflexivity|].
  split; [vm_compute; reflexivity|]. split; [vm_compute; reflexivity|].
  split; [split_all|].
  split; [apply no_edge_in; vm_compute; reflexivity|].
  split; [vm_compute; discriminate|].
  split; [vm_compute; reflexivity|]. intros fuel w.
  apply (ends_once stepped 100 [] (Done (VInt 1) (List.repeat (false, "foo", VNil) 3, []))).
  - vm_compute. reflexivity.
  - discriminate.
  - discriminate.
  - discriminate.
Qed.
Print Assumptions C114_answer_of_to_by_do_refuted.

(** [super foo; bar] looks bar up from the class of self *)
Theorem C114_super_cascade_refuted :
  exists m cm a w',
  compile_method class m false true = Ok cm /\ tidy_stmts false (m_body m) = true
  /\ fits cm class m /\ no_edge (cm_is cm)
  /\ cm_max cm + loops_stmts (m_body m) + 1 <= room (cm_header cm)
  /\ means heard class 100 false m [] silence = Answer a w'
  /\ forall fuel, run_method heard (room (cm_header cm)) cm fuel [] silence <> Done a w'.
Proof.
  exists cascaded, (compiled cascaded), (VObj 0), ([(true, "bar", VNil); (true, "foo", VNil)], []).
  split; [vm_compute; reflexivity|]. split; [vm_compute; reflexivity|].
  split; [split_all|].
  split; [apply no_edge_in; vm_compute; reflexivity|].
  split; [vm_compute; discriminate|].
  split; [vm_compute; reflexivity|]. intros fuel.
  apply (ends_once cascaded 100 [] (Done (VObj 0) ([(false, "bar", VNil); (true, "foo", VNil)], []))).
  - vm_compute. reflexivity.
  - discriminate.
  - vm_compute. discriminate.
  - discriminate.
Qed.
Print Assumptions C114_super_cascade_refuted.

(** a method with sixty-four temporaries is compiled without complaint, but its
    header says that it has none *)
Theorem C114_temporaries_refuted :
  exists m cm a w',
  compile_method class m false true = Ok cm /\ tidy_stmts true (m_body m) = true
  /\ no_edge (cm_is cm) /\ (List.length (m_temps m) = 64)%nat
  /\ means heard class 100 false m [] silence = Answer a w'
  /\ forall fuel, run_method heard (room (cm_header cm)) cm fuel [] silence <> Done a w'.
Proof.
  exists crowded, (compiled crowded), (VInt 3), ([], []).
  split; [vm_compute; reflexivity|]. split; [vm_compute; reflexivity|].
  split; [apply no_edge_in; vm_compute; reflexivity|].
  split; [vm_compute; reflexivity|].
  split; [vm_compute; reflexivity|]. intros fuel.
  apply (ends_once crowded 100 [] Undefined).
  - vm_compute. reflexivity.
  - discriminate.
  - discriminate.
  - discriminate.
Qed.
Print Assumptions C114_temporaries_refuted.

(** * C115: a method never uses more of the stack than its header reserves *)

(** Missing from the full statement: loops that are nested more than three deep,
    methods of more slots than the header can tell, and runs that the source text
    gives no meaning to or that do not end. *)
Theorem C115_stack_partial :
  forall W (sys : system W) c m last prompt cm args n w,
  sound sys -> compile_method c m last prompt = Ok cm ->
  tidy_stmts true (m_body m) = true -> fits cm c m -> no_edge (cm_is cm) ->
  shallow cm m ->
  match means sys c n last m args w with
  | Answer _ _ | Gone =>
    forall fuel, run_method sys (room (cm_header cm)) cm fuel args w <> Overflow
  | _ => True
  end.
Proof. exact method_stack. Qed.
Print Assumptions C115_stack_partial.

Example C115_sample :
  shallow (compiled sample) sample
  /\ room (cm_header (compiled sample)) = 9 /\ cm_max (compiled sample) = 5
  /\ exists a w', means heard class 100 false sample [VInt 3] silence = Answer a w'.
Proof.
  split; [split; vm_compute; [discriminate|reflexivity]|].
  split; [vm_compute; reflexivity|]. split; [vm_compute; reflexivity|].
  eexists. eexists. vm_compute. reflexivity.
Qed.

(** six loops, each within another: one slot is forgotten for each loop *)
Theorem C115_nested_loops_refuted :
  exists m cm a w' fuel,
  compile_method class m false true = Ok cm /\ tidy_stmts true (m_body m) = true
  /\ fits cm class m /\ no_edge (cm_is cm)
  /\ cm_max cm + Z.of_nat (List.length (m_params m)) + Z.of_nat (cm_temps cm) < 249
  /\ means heard class 100 false m [] silence = Answer a w'
  /\ run_method heard (room (cm_header cm)) cm fuel [] silence = Overflow.
Proof.
  exists nested, (compiled nested), (VObj 0), (List.repeat (false, "foo", VNil) 64, []), 300%nat.
  split; [vm_compute; reflexivity|]. split; [vm_compute; reflexivity|].
  split; [split_all|].
  split; [apply no_edge_in; vm_compute; reflexivity|].
  split; [vm_compute; reflexivity|].
  split; vm_compute; reflexivity.
Qed.
Print Assumptions C115_nested_loops_refuted.

(** * C116: the compiler always ends, and no assertion of it fails *)

Theorem C116_compiler_ends : forall c m last prompt,
  0 < m_line m -> from_stmts (m_line m) (m_body m) -> tidy_stmts false (m_body m) = true ->
  compile_method c m last prompt = Err \/ exists cm, compile_method c m last prompt = Ok cm.
Proof. exact compiles. Qed.
Print Assumptions C116_compiler_ends.

Example C116_sample :
  0 < m_line sample /\ from_stmts (m_line sample) (m_body sample)
  /\ tidy_stmts false (m_body sample) = true.
Proof.
  split; [reflexivity|]. split; [|vm_compute; reflexivity].
  cbn. intuition (try lia). all: repeat constructor; cbn; lia.
Qed.
