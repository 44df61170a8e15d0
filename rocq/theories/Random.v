(** Model of Random: the Mersenne Twister of libgst/interp.inl, the primitive that uses it, and the
    methods of kernel/Random.st above them.  A Random is the list of its 32-bit words. *)
From Verif Require Import Base.
Import ListNotations.
Local Open Scope Z_scope.

(** A uint32_t (libgst/interp.inl:220-222). *)
Definition u32 (x : Z) : Z := x mod 4294967296.

(** [mt\[i\] = v] (libgst/interp.inl:248). *)
Fixpoint upd (l : list Z) (i : nat) (v : Z) : list Z :=
  match l, i with
  | [], _ => []
  | _ :: t, O => v :: t
  | x :: t, S i => x :: upd t i v
  end.

(** The body of the loop of random_generate, with [n] for N and [m] for M
    (libgst/interp.inl:245-250). *)
Definition gen_step (n m : nat) (l : list Z) (i : nat) : list Z :=
  let y := Z.lor (Z.land (nth i l 0) 0x80000000) (Z.land (nth ((i + 1) mod n) l 0) 0x7fffffff) in
  let v := Z.lxor (nth ((i + m) mod n) l 0) (Z.shiftr y 1) in
  upd l i (if Z.land y 1 =? 0 then v else Z.lxor v 0x9908b0df).

(** The first [k] turns of that loop (libgst/interp.inl:244). *)
Fixpoint gen_loop (n m : nat) (l : list Z) (k : nat) : list Z :=
  match k with O => l | S k => gen_step n m (gen_loop n m l k) k end.

(** N and M (libgst/interp.inl:217, 241-242). *)
Definition N624 : nat := Z.to_nat 624.
Definition M397 : nat := Z.to_nat 397.

(** random_generate (libgst/interp.inl:238-251). *)
Definition generate (l : list Z) : list Z := gen_loop N624 M397 l N624.

(** What random_next does to the word it reads (libgst/interp.inl:229-232). *)
Definition tempered (y : Z) : Z :=
  let y := Z.lxor y (Z.shiftr y 11) in
  let y := Z.lxor y (Z.land (u32 (Z.shiftl y 7)) 0x9d2c5680) in
  let y := Z.lxor y (Z.land (u32 (Z.shiftl y 15)) 0xefc60000) in
  Z.lxor y (Z.shiftr y 18).

(** The index word as an [int] (libgst/interp.inl:223). *)
Definition to_int (x : Z) : Z := if x <? 2147483648 then x else x - 4294967296.

(** random_next (libgst/interp.inl:219-236).  Reading a word that the object does not have is
    undefined. *)
Definition random_next (o : list Z) : outcome (Z * list Z) :=
  let j := to_int (nth N624 o 0) in
  let o := if j =? 0 then generate o else o in
  if (j <? 0) || (Z.of_nat (length o) <=? j) then UB
  else Ok (tempered (nth (Z.to_nat j) o 0), upd o N624 ((j + 1) mod 624)).

(** The arguments: none for [next], a number for [nextLimit:].
    Random>>next answers [top / (double)0xFFFFFFFF]: here the numerator and the denominator, before
    rounding.  An object with fewer than 625 words makes the primitive fail; so does a limit that is not
    a SmallInteger (of 64-bit machines) or not in 32 bits, a negative one being a large uint64_t (libgst/prims.def:6217-6258,
    kernel/Random.st:127-142).  On failure only the error is modelled, not the stack. *)
Definition next (o : list Z) : outcome ((Z * Z) * list Z) :=
  if (length o <=? N624)%nat then Err
  else olet r := random_next o in Ok ((fst r, 0xFFFFFFFF), snd r).

(** See [next]. *)
Definition next_limit (limit : Z) (o : list Z) : outcome (Z * list Z) :=
  if (limit <? - 2 ^ 62) || (2 ^ 62 <=? limit) then Err
  else if (length o <=? N624)%nat then Err
  else olet r := random_next o in
       let limit := limit mod 2 ^ 64 in
       if 0xFFFFFFFF <? limit then Err
       else Ok (u32 (Z.shiftr ((limit * fst r) mod 2 ^ 64) 32), snd r).

(** between:and: (kernel/Random.st:117-125). *)
Definition between (low high : Z) (o : list Z) : outcome (Z * list Z) :=
  let range := high - low + 1 in
  olet r := next_limit range o in Ok (fst r + low, snd r).

(** The loop of setSeed: (kernel/Random.st:155-158). *)
Fixpoint seed_words (previous : Z) (k : nat) : list Z :=
  match k with
  | O => []
  | S k => let value := 1812433253 * Z.lxor previous (Z.shiftr previous 30) in
           let previous := Z.land value 0xFFFFFFFF in
           previous :: seed_words previous k
  end.

(** Random class>>seed: and setSeed: (kernel/Random.st:52-57, 149-160). *)
Definition seeded (seed : Z) : list Z := seed_words (Z.lor seed 1) N624 ++ [0].

(** Sending [next] [k] times: the numerators (kernel/Random.st:127-133). *)
Fixpoint nexts (k : nat) (o : list Z) : outcome (list Z) :=
  match k with
  | O => Ok []
  | S k => olet r := next o in olet t := nexts k (snd r) in Ok (fst (fst r) :: t)
  end.

(** Sending between:and: [k] times (kernel/Random.st:117-125). *)
Fixpoint betweens (k : nat) (low high : Z) (o : list Z) : outcome (list Z) :=
  match k with
  | O => Ok []
  | S k => olet r := between low high o in olet t := betweens k low high (snd r) in Ok (fst r :: t)
  end.

(** at:put: on a Random, which is a Stream of 32-bit words (kernel/Random.st:36-40). *)
Definition at_put (o : list Z) (i v : Z) : outcome (list Z) :=
  if (1 <=? i) && (i <=? Z.of_nat (length o)) && (0 <=? v) && (v <? 4294967296)
  then Ok (upd o (Z.to_nat (i - 1)) v) else Err.
