(** What the theorems on bytecodes speak about: code made of bytes, the code that
    the compiler emits for some instructions, and methods divided in blocks. *)
From Coq Require Import ZArith List Bool.
From Verif Require Import Base BcTables Bc BcSpec.
Import ListNotations.
Local Open Scope Z_scope.

(** code is made of bytes *)
Definition bytes (code : list (Z * Z)) : Prop :=
  Forall (fun p => 0 <= fst p < 256 /\ 0 <= snd p < 256) code.

(** code that does not get stuck can be replaced *)
Definition refines (l1 l2 : list (opname * list Z)) : Prop :=
  forall (val world : Type) (load : opname -> list Z -> world -> val) other
         (s : state val world),
    run load other l1 s <> Stuck -> run load other l2 s = run load other l1 s.

(** the code for a sequence of instructions *)
Definition flat (is : list (Z * Z)) : list (Z * Z) :=
  flat_map (fun i => compile_byte (fst i) (snd i)) is.

(** the instructions of a basic block, without the jump at its end *)
Definition block_code (is : list (Z * Z)) : Prop :=
  Forall (fun i => instruction i /\ is_jump (fst i) = false) is.

(** blocks as found in a method: no block ends with an extension byte, JUMP_BACK
    goes to an earlier block (or to the same) and the other jumps to a later one,
    and offsets fit an int *)
Definition blocks_ok (bs : list block) : Prop :=
  (forall k b, nth_error bs k = Some b ->
     fst (List.last (body b) (0, 0)) <> 55 /\
     forall kind, jkind b = Some kind ->
       kind = 40 /\ (dest b <= k)%nat
       \/ (kind = 41 \/ kind = 42 \/ kind = 43) /\ (k < dest b < length bs)%nat)
  /\ 2 * Z.of_nat (length (concat (map body bs))) + 8 * Z.of_nat (length bs) < 2 ^ 31 - 8.

(** every block is there, followed by its jump, and the jump goes to the start of
    the block it should go to *)
Definition well_placed (bs : list block) (pieces : list (list (Z * Z))) : Prop :=
  forall k b, nth_error bs k = Some b ->
    exists p, nth_error pieces k = Some p /\
      match jkind b with
      | None => decode 0 p = decode 0 (body b)
      | Some kind =>
        exists n o, meaning kind (Z.abs n) = Some o /\ displacement o = Some n
          /\ decode 0 p = decode 0 (body b) ++ [o]
          /\ start_of pieces (S k) + n = start_of pieces (dest b)
      end.
