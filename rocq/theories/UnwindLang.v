(** The programs whose returns are studied: methods with one argument, blocks without arguments. *)
From Verif Require Export Base.

(** Values: integers, nil, and blocks (libgst/interp.h:188-200, gst_block_closure) with their code, the variables they
    see and the activation they were created in. Variables are not assigned to. *)
Inductive expr :=
| Lit (z : Z)
| Var (i : nat)              (* an argument of an enclosing method *)
| Out (e : expr)             (* an observable effect: prints the value *)
| Seq (a b : expr)           (* a. b *)
| If (c a b : expr)          (* c = 0 ifFalse: [a] ifTrue: [b], compiled inline *)
| Blk (e : expr)             (* [e] *)
| Value (e : expr)           (* e value *)
| Send (m : nat) (e : expr)  (* self m: e *)
| Ret (e : expr)             (* ^e *)
| Ens (b c : expr)           (* b ensure: c *)
| Guard (b : expr).          (* b on: ... do: ..., when nothing is signaled *)
Inductive value := VInt (z : Z) | VNil | VClo (code : expr) (env : list value) (outer : nat).
