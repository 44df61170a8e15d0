(** Properties of returns from blocks and of ensure:. *)
From Verif Require Import UnwindLang Unwind UnwindSpec UnwindTop.
Local Open Scope nat_scope.

(** *** C104 A return from a block ends the method the block belongs to, after evaluating the arguments of all ensure:
    on the way *)
(** Full statement: [meaning ms true fuel main = Some r -> exists k, run ms k (start main) = ...]. It fails when the
    argument of ensure: returns from a block itself while another return is pending: a method that neither return ends
    is not continued. *)
Theorem C104_return_from_block_refuted : exists ms main fuel v t k v' t',
  meaning ms true fuel main = Some (Some v, t) /\ run ms k (start main) = Done v' t' /\ t' <> t.
Proof. exact lost_caller_refutes. Qed.
Print Assumptions C104_return_from_block_refuted.
(** What is missing: arguments of ensure: that do not end normally while a return is pending. *)
Theorem C104_return_from_block_partial : forall ms fuel main r, meaning ms false fuel main = Some r ->
  meaning ms true fuel main = Some r /\
  exists k, run ms k (start main) = match r with (Some v, t) => Done v t | (None, t) => Failed t end.
Proof. exact (fun ms fuel main r M => conj (meaning_lax ms fuel main r M) (run_meaning ms fuel main r M)). Qed.
Print Assumptions C104_return_from_block_partial.
(** Two ensure: are passed; the second one is in a method called by the method that is ended. *)
Example C104_example : meaning
  [ Ens (Blk (Send 1 (Var 0))) (Blk (Out (Lit 10))); Seq (Ens (Blk (Value (Var 0))) (Blk (Out (Value (Blk (Lit 20)))))) (Out (Lit 30));
    Seq (Send 0 (Blk (Ret (Lit 1)))) (Out (Lit 40)) ]
  false 30 (Seq (Out (Send 2 (Lit 0))) (Lit 9)) = Some (Some (VInt 9), [VInt 20; VInt 10; VInt 1]).
Proof. vm_compute. reflexivity. Qed.
(** A block outlives its method. *)
Example C104_example_2 : meaning [ Blk (Ret (Var 0)) ] false 30 (Seq (Out (Lit 3)) (Value (Send 0 (Lit 4)))) = Some (None, [VInt 3]).
Proof. vm_compute. reflexivity. Qed.
(** The argument of ensure: returns from a block, when no return is pending. *)
Example C104_example_3 : meaning [ Seq (Ens (Blk (Ens (Blk (Lit 12)) (Blk (Ret (Lit 34))))) (Blk (Out (Lit 56)))) (Lit 78) ] false 30 (Send 0 (Lit 0)) =
  Some (Some (VInt 34), [VInt 56]).
Proof. vm_compute. reflexivity. Qed.

(** *** C105 The interpreter never continues in a context that does not exist *)
Theorem C105_no_nil_context_refuted : exists ms main fuel r k, meaning ms true fuel main = Some r /\ run ms k (start main) = Wrong.
Proof. exact (ex_intro _ nil_caller (ex_intro _ nil_main (ex_intro _ 30 (ex_intro _ _ (ex_intro _ 100 (conj nil_caller_meaning nil_caller_run)))))). Qed.
Print Assumptions C105_no_nil_context_refuted.
(** What is missing: as for C104, and programs that do not end. *)
Theorem C105_no_nil_context_partial : forall ms fuel main r k, meaning ms false fuel main = Some r -> run ms k (start main) <> Wrong.
Proof. exact run_never_wrong. Qed.
Print Assumptions C105_no_nil_context_partial.
Example C105_example : meaning [ Ens (Blk (Ens (Blk (Value (Var 0))) (Blk (Lit 6)))) (Blk (Lit 7)) ] false 30 (Send 0 (Blk (Ret (Lit 5)))) = Some (Some (VInt 5), []).
Proof. vm_compute. reflexivity. Qed.
