(** Properties of bytecodes and of the optimiser. *)
From Coq Require Import ZArith List Bool.
From Verif Require Import Base BcTables Bc BcSpec BcRun BcProofs BcSuper BcPeep BcJumps.
Import ListNotations.
Local Open Scope Z_scope.

(** C29: the instructions that are emitted are those that are decoded... *)
Theorem C29_decoded : forall is, Forall instruction is ->
  Forall2 (fun i o => meaning (fst i) (snd i) = Some o) is (decode 0 (flat is)).
Proof. exact decode_sequence. Qed.
Print Assumptions C29_decoded.

(** ... and executed *)
Theorem C29_executed : forall is, Forall instruction is ->
  Forall2 (fun i v => exists o, meaning (fst i) (snd i) = Some o
                                /\ translate v = without_line o)
    is (vm_run None (flat is)).
Proof. exact vm_sequence. Qed.
Print Assumptions C29_executed.

Example C29_example :
  Forall instruction [(44, 70000); (28, 3 * 256 + 2); (40, 300); (48, 0)]
  /\ flat [(44, 70000); (28, 3 * 256 + 2); (40, 300); (48, 0)]
     = [(55, 1); (55, 17); (44, 112); (55, 3); (28, 2); (55, 1); (40, 44); (48, 0)]
  /\ decode 0 (flat [(44, 70000); (28, 3 * 256 + 2); (40, 300); (48, 0)])
     = [(PUSH_INTEGER, [70000]); (SEND, [3; 0; 2]); (JUMP, [-300]); (POP_STACK_TOP, [])].
Proof.
  split; [|split; vm_compute; reflexivity].
  repeat apply Forall_cons; try apply Forall_nil;
    (split; [discriminate|]; split; [split; [discriminate|reflexivity]|]);
    intros H; (reflexivity || discriminate H).
Qed.

(** the size computed for a jump is not always that of the bytes emitted *)
Theorem C29_refuted :
  exists fuel bs fb k b, blocks_ok bs
    /\ size_loop fuel (first_bytes 0 (map fuse_jump bs)) (map fuse_jump bs) = Ok fb
    /\ nth_error (map fuse_jump bs) k = Some b
    /\ jump_length fb k b <> 2 * Z.of_nat (length (emit_block fb k b)) - opt_length b.
Proof. exact wrong_size. Qed.
Print Assumptions C29_refuted.

(** C78: the interpreter does what the decoder says... *)
Theorem C78_agree : forall code, bytes code ->
  map translate (vm_run None code) = map without_line (decode 0 code).
Proof. exact vm_agrees. Qed.
Print Assumptions C78_agree.

(** ... and a bytecode is left only after its last operation *)
Theorem C78_transfer : forall b,
  Forall (fun o => may_transfer (fst o) = false) (removelast (nth b vm_table [])).
Proof. exact transfer_last. Qed.
Print Assumptions C78_transfer.

Example C78_example :
  bytes [(55, 1); (243, 7); (233, 4)]
  /\ vm_run None [(55, 1); (243, 7); (233, 4)]
     = [(V_DUP_STACK_TOP, []); (V_PUSH_LIT_CONSTANT, [263]); (V_SEND, [1; 1]);
        (V_PUSH_SELF, []); (V_PUSH_TEMPORARY_VARIABLE, [4]); (V_SEND, [0; 1])].
Proof.
  split; [|vm_compute; reflexivity].
  repeat apply Forall_cons; try apply Forall_nil;
    (split; (split; [discriminate|reflexivity])).
Qed.

(** C79: superoperators *)
Theorem C79_superoperators : forall code,
  decode 0 (optimize_superoperators code) = decode 0 code
  /\ (length (optimize_superoperators code) <= length code)%nat.
Proof. exact superoperators_ok. Qed.
Print Assumptions C79_superoperators.

Theorem C79_jump : forall b n kind,
  jkind b = Some kind -> 0 <= n < 2 ^ 31 -> kind <> 55 ->
  exists kind', jkind (fuse_jump b) = Some kind' /\ dest (fuse_jump b) = dest b /\
    decode 0 (body (fuse_jump b) ++ compile_byte kind' n)
    = decode 0 (body b ++ compile_byte kind n).
Proof. exact fuse_jump_decode. Qed.
Print Assumptions C79_jump.

Example C79_example :
  optimize_superoperators [(54, 3); (56, 0); (32, 4); (28, 1)]
    <> [(54, 3); (56, 0); (32, 4); (28, 1)]
  /\ body (fuse_jump (Block [(32, 1); (21, 0); (52, 0)] (Some 43) 1)) <> [(32, 1); (21, 0); (52, 0)].
Proof. split; vm_compute; discriminate. Qed.

(** C80: the optimiser of basic blocks, if no extended push is popped at once *)
Theorem C80_partial : forall is, block_code is -> extended_push_pop is = false ->
  exists code, optimize_basic_block (flat is) = Ok code
    /\ refines (decode 0 (flat is)) (decode 0 code).
Proof. exact optimize_ok. Qed.
Print Assumptions C80_partial.

Example C80_example :
  block_code [(36, 2); (48, 0); (54, 9); (32, 2); (44, 5); (48, 0); (48, 0); (56, 0); (51, 0)]
  /\ extended_push_pop
       [(36, 2); (48, 0); (54, 9); (32, 2); (44, 5); (48, 0); (48, 0); (56, 0); (51, 0)] = false
  /\ peephole (-1) []
       [(36, 2); (48, 0); (54, 9); (32, 2); (44, 5); (48, 0); (48, 0); (56, 0); (51, 0)]
     = Ok [(36, 2); (54, 9); (56, 0); (51, 0)].
Proof.
  split; [|split; vm_compute; reflexivity].
  repeat apply Forall_cons; try apply Forall_nil;
    (split; [|reflexivity]);
    (split; [discriminate|]; split; [split; [discriminate|reflexivity]|]);
    intros H; (reflexivity || discriminate H).
Qed.

(** 300. ^1 answers 257 *)
Theorem C80_refuted :
  exists is code (load : opname -> list Z -> unit -> Z) other s v v' s1 s2,
    block_code is /\ optimize_basic_block (flat is) = Ok code
    /\ run load other (decode 0 (flat is)) s = Returned v s1
    /\ run load other (decode 0 code) s = Returned v' s2 /\ v <> v'.
Proof. exact lost_extension_wrong. Qed.
Print Assumptions C80_refuted.

(** C81: jumps, if no forward jump has one of three sizes *)
Theorem C81_partial : forall fuel bs pieces, blocks_ok bs ->
  assemble fuel (map fuse_jump bs) = Ok pieces ->
  (forall p n, In p pieces ->
     displacement (List.last (decode 0 p) (INVALID, [])) = Some n ->
     n <> 254 /\ n <> 65534 /\ n <> 16777214) ->
  length pieces = length bs /\ well_placed bs pieces.
Proof. exact assemble_ok. Qed.
Print Assumptions C81_partial.

Example C81_example :
  blocks_ok [Block [(56, 0)] (Some 43) 2; Block [(52, 0)] (Some 40) 0; Block [(51, 0)] None 0]
  /\ assemble 5 [Block [(56, 0)] (Some 43) 2; Block [(52, 0)] (Some 40) 0; Block [(51, 0)] None 0]
     = Ok [[(56, 0); (43, 4)]; [(52, 0); (40, 8)]; [(51, 0)]].
Proof. exact small_method. Qed.

(** a jump that misses its destination *)
Theorem C81_refuted :
  exists fuel bs pieces k b p n, blocks_ok bs
    /\ assemble fuel (map fuse_jump bs) = Ok pieces
    /\ nth_error bs k = Some b /\ nth_error pieces k = Some p
    /\ displacement (List.last (decode 0 p) (INVALID, [])) = Some n
    /\ start_of pieces (S k) + n <> start_of pieces (dest b).
Proof. exact wrong_jump. Qed.
Print Assumptions C81_refuted.
