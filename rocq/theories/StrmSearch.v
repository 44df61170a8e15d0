(** Searching a stream for a sequence: [skipToAll:] and [upToAll:],
    kernel/Stream.st:236-266,553-576,588-613.

    The stream is the list of the elements not yet read; that [atEnd] and
    [next] read it from left to right is C38. *)
From Coq Require Import ZArith List Bool.
From Verif Require Import Base Hashed StrmSpec Strm.
Import ListNotations.
Local Open Scope Z_scope.

Section Search.
Context {A : Type}.
Variable eqb : A -> A -> bool.

(** the loop [[j <= 1 or: [ch = (aCollection at: j)]] whileFalse: [j := prefix
    at: j]]: kernel/Stream.st:611 *)
Fixpoint back (fuel : nat) (p : list A) (prefix : list Z) (ch : A) (j : Z)
  : outcome Z :=
  match fuel with
  | O => OutOfFuel
  | S fuel =>
    if j <=? 1 then Ok j
    else
      olet y := cat p j in
      if eqb ch y then Ok j
      else olet j := cat prefix j in back fuel p prefix ch j
  end.

(** the loop of kernel/Stream.st:606-612: [n] more indices from [i] on *)
Fixpoint fill (n : nat) (i : Z) (p : list A) (prefix : list Z)
  : outcome (list Z) :=
  match n with
  | O => Ok prefix
  | S n =>
    olet ch := cat p i in
    olet j := cat prefix i in
    olet j := back (S (length p)) p prefix ch j in
    olet prefix := cput prefix (i + 1) j in
    fill n (i + 1) p prefix
  end.

(** kernel/Stream.st:588-613, prefixTableFor:; a fresh ByteArray holds zeros
    (an Array of 256 elements or more holds nils, all of them overwritten) *)
Definition prefixTableFor (p : list A) : outcome (list Z) :=
  let t := repeat 0 (length p) in
  olet t := cput t 1 0 in
  olet t := cput t 2 1 in
  fill (length p - 2) 2 p t.

(** the loop of kernel/Stream.st:568-575; [ch] is the element last read, [n]
    the number of elements read; the answer is whether the sequence was
    found and how many elements have been read *)
Fixpoint kmp (fuel : nat) (p : list A) (prefix : list Z) (j : Z) (ch : A)
    (n : nat) (rest : list A) : outcome (bool * nat) :=
  match fuel with
  | O => OutOfFuel
  | S fuel =>
    let advance j :=
      if csize prefix <? j then Ok (true, n)
      else match rest with
           | [] => Ok (false, n)
           | ch :: rest => kmp fuel p prefix j ch (S n) rest
           end in
    olet y := cat p j in
    if eqb ch y then advance (j + 1)
    else
      olet j := cat prefix j in
      if j =? 0 then advance (j + 1) else kmp fuel p prefix j ch n rest
  end.

(** kernel/Stream.st:553-576, skipToAll: *)
Definition skipToAll (p l : list A) : outcome (bool * nat) :=
  match l with
  | [] => Ok (false, O)
  | ch :: rest =>
    match p with
    | [] => Ok (true, O)
    | _ =>
      olet prefix := prefixTableFor p in
      kmp (2 * length l) p prefix 1 ch 1 rest
    end
  end.

(** kernel/Stream.st:236-266, upToAll: -- the loop is that of skipToAll:,
    the elements read are collected, and those of the sequence found are
    dropped from the end *)
Definition upToAll (p l : list A) : outcome (list A * nat) :=
  match l with
  | [] => Ok ([], O)
  | ch :: rest =>
    match p with
    | [] => Ok ([], O)
    | _ =>
      olet prefix := prefixTableFor p in
      olet r := kmp (2 * length l) p prefix 1 ch 1 rest in
      match r with
      | (true, n) => Ok (firstn (n - length p) l, n)
      | (false, n) => Ok (firstn n l, n)
      end
    end
  end.
End Search.
