(** Red-black trees, lib-src/rbtrees.c, and the registry of objects kept by
    the plug-in interface, libgst/callin.c:978-1090, at the level of memory
    cells and pointers.

    A pointer is an integer, NULL is 0; memory maps the addresses of live
    nodes to their fields.  Dereferencing NULL or a freed node is [UB].  The
    fields oop and usage of [oop_registry] (callin.c:66-81) follow those of
    [rb_node_t]; [usage] is a C int, unbounded here. *)
From Coq Require Import ZArith List Bool.
From Verif Require Import Base.
Import ListNotations.
Local Open Scope Z_scope.

(** lib-src/rbtrees.h:86-93 and libgst/callin.c:66-71; [red] is
    rb_color = RB_RED *)
Record node := Nd {
  par : Z; lft : Z; rgt : Z; red : bool; key : Z; usage : Z }.

(** memory; not code *)
Definition mem := Z -> option node.

(** the memory and the root pointer ( *root ) *)
Record state := St { heap : mem; root : Z }.

(** reading the node at [p]; NULL and freed nodes: undefined.  Not code. *)
Definition get (m : mem) (p : Z) : outcome node :=
  if p =? 0 then UB else match m p with Some n => Ok n | None => UB end.

(** overwriting a node.  Not code. *)
Definition upd (m : mem) (p : Z) (n : node) : mem :=
  fun q => if q =? p then Some n else m q.

(** p->rb_parent = v; lib-src/rbtrees.h:86-93 *)
Definition setPar (p v : Z) (m : mem) : outcome mem :=
  olet n := get m p in
  Ok (upd m p (Nd v (lft n) (rgt n) (red n) (key n) (usage n))).
(** p->rb_left = v; lib-src/rbtrees.h:86-93 *)
Definition setL (p v : Z) (m : mem) : outcome mem :=
  olet n := get m p in
  Ok (upd m p (Nd (par n) v (rgt n) (red n) (key n) (usage n))).
(** p->rb_right = v; lib-src/rbtrees.h:86-93 *)
Definition setR (p v : Z) (m : mem) : outcome mem :=
  olet n := get m p in
  Ok (upd m p (Nd (par n) (lft n) v (red n) (key n) (usage n))).
(** p->rb_color = v; lib-src/rbtrees.h:86-93 *)
Definition setC (p : Z) (v : bool) (m : mem) : outcome mem :=
  olet n := get m p in
  Ok (upd m p (Nd (par n) (lft n) (rgt n) v (key n) (usage n))).

(** lib-src/rbtrees.c:42-49 and 280-289 and 298-306: make [b] the child of
    [p] (the parent of [a]) instead of [a], or the root if p is NULL *)
Definition relink (p a b : Z) (s : state) : outcome state :=
  if p =? 0 then Ok (St (heap s) b)
  else
    olet n := get (heap s) p in
    olet m := (if lft n =? a then setL p b (heap s) else setR p b (heap s)) in
    Ok (St m (root s)).

(** the same for rotations to the right, which test the right child first:
    lib-src/rbtrees.c:62-70 *)
Definition relinkR (p a b : Z) (s : state) : outcome state :=
  if p =? 0 then Ok (St (heap s) b)
  else
    olet n := get (heap s) p in
    olet m := (if rgt n =? a then setR p b (heap s) else setL p b (heap s)) in
    Ok (St m (root s)).

(** [if (p) p->rb_parent = v]; lib-src/rbtrees.c:37-38 *)
Definition setParIf (p v : Z) (m : mem) : outcome mem :=
  if p =? 0 then Ok m else setPar p v m.

(** lib-src/rbtrees.c:32-51 *)
Definition rotateLeft (a : Z) (s : state) : outcome state :=
  olet n := get (heap s) a in
  let b := rgt n in
  olet nb := get (heap s) b in
  olet m := setR a (lft nb) (heap s) in
  olet m := setParIf (lft nb) a m in
  olet m := setL b a m in
  olet n := get m a in
  olet m := setPar b (par n) m in
  olet s := relink (par n) a b (St m (root s)) in
  olet m := setPar a b (heap s) in
  Ok (St m (root s)).

(** lib-src/rbtrees.c:53-72 *)
Definition rotateRight (a : Z) (s : state) : outcome state :=
  olet n := get (heap s) a in
  let b := lft n in
  olet nb := get (heap s) b in
  olet m := setL a (rgt nb) (heap s) in
  olet m := setParIf (rgt nb) a m in
  olet m := setR b a m in
  olet n := get m a in
  olet m := setPar b (par n) m in
  olet s := relinkR (par n) a b (St m (root s)) in
  olet m := setPar a b (heap s) in
  Ok (St m (root s)).

(** assignment to a colour in a state; lib-src/rbtrees.c *)
Definition color (p : Z) (v : bool) (s : state) : outcome state :=
  olet m := setC p v (heap s) in Ok (St m (root s)).

(** [!p || p->rb_color == RB_BLACK], negated; lib-src/rbtrees.c:149,160 *)
Definition isRed (m : mem) (p : Z) : outcome bool :=
  if p =? 0 then Ok false else olet n := get m p in Ok (red n).

(** the loop of lib-src/rbtrees.c:80-138 *)
Fixpoint rebalanceLoop (fuel : nat) (x : Z) (s : state) : outcome state :=
  match fuel with
  | O => OutOfFuel
  | S fuel =>
    olet n := get (heap s) x in
    let p := par n in
    if p =? 0 then Ok s
    else
      olet np := get (heap s) p in
      if negb (red np) then Ok s
      else
        let g := par np in
        olet ng := get (heap s) g in
        if p =? lft ng then
          let u := rgt ng in
          olet ru := isRed (heap s) u in
          if ru then
            olet s := color u false s in
            olet s := color p false s in
            olet s := color g true s in
            rebalanceLoop fuel g s
          else
            olet np := get (heap s) p in
            olet xps := (if rgt np =? x
                         then olet s := rotateLeft p s in Ok (p, x, s)
                         else Ok (x, p, s)) in
            let '(x, p, s) := xps in
            olet s := color p false s in
            olet s := color g true s in
            olet s := rotateRight g s in
            rebalanceLoop fuel x s
        else
          let u := lft ng in
          olet ru := isRed (heap s) u in
          if ru then
            olet s := color u false s in
            olet s := color p false s in
            olet s := color g true s in
            rebalanceLoop fuel g s
          else
            olet np := get (heap s) p in
            olet xps := (if lft np =? x
                         then olet s := rotateRight p s in Ok (p, x, s)
                         else Ok (x, p, s)) in
            let '(x, p, s) := xps in
            olet s := color p false s in
            olet s := color g true s in
            olet s := rotateLeft g s in
            rebalanceLoop fuel x s
  end.

(** lib-src/rbtrees.c:74-141 *)
Definition rebalance (fuel : nat) (x : Z) (s : state) : outcome state :=
  olet s := color x true s in
  olet s := rebalanceLoop fuel x s in
  color (root s) false s.

(** [if (p) p->rb_color = RB_BLACK]; lib-src/rbtrees.c:173,181,228 *)
Definition blackIf (p : Z) (s : state) : outcome state :=
  if p =? 0 then Ok s else color p false s.

(** the loop of lib-src/rbtrees.c:149-227; answers the final child too *)
Fixpoint eraseLoop (fuel : nat) (child parent : Z) (s : state)
  : outcome (Z * state) :=
  match fuel with
  | O => OutOfFuel
  | S fuel =>
    olet rc := isRed (heap s) child in
    if rc || (child =? root s) then Ok (child, s)
    else
      olet np := get (heap s) parent in
      if lft np =? child then
        let other := rgt np in
        olet no := get (heap s) other in
        olet os := (if red no then
                      olet s := color other false s in
                      olet s := color parent true s in
                      olet s := rotateLeft parent s in
                      olet np := get (heap s) parent in
                      Ok (rgt np, s)
                    else Ok (other, s)) in
        let '(other, s) := os in
        olet no := get (heap s) other in
        olet rl := isRed (heap s) (lft no) in
        olet rr := isRed (heap s) (rgt no) in
        if negb rl && negb rr then
          olet s := color other true s in
          olet np := get (heap s) parent in
          eraseLoop fuel parent (par np) s
        else
          olet os := (if negb rr then
                        olet s := blackIf (lft no) s in
                        olet s := color other true s in
                        olet s := rotateRight other s in
                        olet np := get (heap s) parent in
                        Ok (rgt np, s)
                      else Ok (other, s)) in
          let '(other, s) := os in
          olet np := get (heap s) parent in
          olet s := color other (red np) s in
          olet s := color parent false s in
          olet no := get (heap s) other in
          olet s := blackIf (rgt no) s in
          olet s := rotateLeft parent s in
          Ok (root s, s)
      else
        let other := lft np in
        olet no := get (heap s) other in
        olet os := (if red no then
                      olet s := color other false s in
                      olet s := color parent true s in
                      olet s := rotateRight parent s in
                      olet np := get (heap s) parent in
                      Ok (lft np, s)
                    else Ok (other, s)) in
        let '(other, s) := os in
        olet no := get (heap s) other in
        olet rl := isRed (heap s) (lft no) in
        olet rr := isRed (heap s) (rgt no) in
        if negb rl && negb rr then
          olet s := color other true s in
          olet np := get (heap s) parent in
          eraseLoop fuel parent (par np) s
        else
          olet os := (if negb rl then
                        olet s := blackIf (rgt no) s in
                        olet s := color other true s in
                        olet s := rotateLeft other s in
                        olet np := get (heap s) parent in
                        Ok (lft np, s)
                      else Ok (other, s)) in
          let '(other, s) := os in
          olet np := get (heap s) parent in
          olet s := color other (red np) s in
          olet s := color parent false s in
          olet no := get (heap s) other in
          olet s := blackIf (lft no) s in
          olet s := rotateRight parent s in
          Ok (root s, s)
  end.

(** lib-src/rbtrees.c:144-230 *)
Definition eraseRebalance (fuel : nat) (child parent : Z) (s : state)
  : outcome state :=
  olet cs := eraseLoop fuel child parent s in
  blackIf (fst cs) (snd cs).

(** the loop of lib-src/rbtrees.c:248-249 (and 331-332): the leftmost node *)
Fixpoint leftmost (fuel : nat) (p : Z) (m : mem) : outcome Z :=
  match fuel with
  | O => OutOfFuel
  | S fuel =>
    olet n := get m p in
    if lft n =? 0 then Ok p else leftmost fuel (lft n) m
  end.

(** lib-src/rbtrees.c:233-310 *)
Definition erase (fuel : nat) (x : Z) (s : state) : outcome state :=
  olet n := get (heap s) x in
  if (lft n =? 0) || (rgt n =? 0) then
    let child := if lft n =? 0 then rgt n else lft n in
    let parent := par n in
    olet m := setParIf child parent (heap s) in
    olet s := relink parent x child (St m (root s)) in
    if red n then Ok s else eraseRebalance fuel child parent s
  else
    let old := x in
    olet x := leftmost fuel (rgt n) (heap s) in
    olet nx := get (heap s) x in
    let child := rgt nx in
    let parent := par nx in
    let c := red nx in
    olet m := setParIf child parent (heap s) in
    olet s := relink parent x child (St m (root s)) in
    olet nx := get (heap s) x in
    let parent := if par nx =? old then x else parent in
    olet no := get (heap s) old in
    olet m := setPar x (par no) (heap s) in
    olet m := setC x (red no) m in
    olet m := setR x (rgt no) m in
    olet m := setL x (lft no) m in
    olet s := relink (par no) old x (St m (root s)) in
    olet no := get (heap s) old in
    olet m := setPar (lft no) x (heap s) in
    olet m := setParIf (rgt no) x m in
    let s := St m (root s) in
    if c then Ok s else eraseRebalance fuel child parent s.

(** lib-src/rbtrees.c:324-336 *)
Definition first (fuel : nat) (s : state) : outcome Z :=
  if root s =? 0 then Ok 0 else leftmost fuel (root s) (heap s).

(** the loop of lib-src/rbtrees.c:346-347 *)
Fixpoint climb (fuel : nat) (p : Z) (m : mem) : outcome Z :=
  match fuel with
  | O => OutOfFuel
  | S fuel =>
    olet n := get m p in
    let q := par n in
    if q =? 0 then Ok 0
    else
      olet nq := get m q in
      if p =? lft nq then Ok q else climb fuel q m
  end.

(** lib-src/rbtrees.c:338-357 *)
Definition next (fuel : nat) (p : Z) (m : mem) : outcome Z :=
  olet n := get m p in
  if rgt n =? 0 then climb fuel p m else leftmost fuel (rgt n) m.

(** the loops over the registry, libgst/callin.c:1102-1107 and 1130-1135:
    the keys in order of visit *)
Fixpoint walk (fuel : nat) (p : Z) (m : mem) : outcome (list Z) :=
  match fuel with
  | O => OutOfFuel
  | S fuel' =>
    if p =? 0 then Ok []
    else
      olet n := get m p in
      olet q := next fuel p m in
      olet l := walk fuel' q m in
      Ok (key n :: l)
  end.

(** libgst/callin.c:1102-1107 *)
Definition traverse (fuel : nat) (s : state) : outcome (list Z) :=
  olet p := first fuel s in walk fuel p (heap s).

(** the search of libgst/callin.c:987-1001: the node with key [k], or the last
    node of the search (NULL if the tree is empty) and the side where [k]
    belongs (true: left) *)
Inductive place := Found (p : Z) | Below (p : Z) (onleft : bool).

(** libgst/callin.c:987-1001 *)
Fixpoint locate (fuel : nat) (k : Z) (p : Z) (above : Z) (onleft : bool)
    (m : mem) : outcome place :=
  match fuel with
  | O => OutOfFuel
  | S fuel =>
    if p =? 0 then Ok (Below above onleft)
    else
      olet n := get m p in
      if k <? key n then locate fuel k (lft n) p true m
      else if key n <? k then locate fuel k (rgt n) p false m
      else Ok (Found p)
  end.

(** entry->usage = v; libgst/callin.c:998,1028 *)
Definition setUsage (p v : Z) (s : state) : outcome state :=
  olet n := get (heap s) p in
  Ok (St (upd (heap s) p (Nd (par n) (lft n) (rgt n) (red n) (key n) v))
         (root s)).

(** libgst/callin.c:978-1012, _gst_register_oop; [a] is the address answered
    by xmalloc, [k] the address of an object other than nil.  The new node's
    colour is set by rb_rebalance. *)
Definition register (fuel : nat) (a k : Z) (s : state) : outcome state :=
  olet w := locate fuel k (root s) 0 false (heap s) in
  match w with
  | Found p =>
    olet n := get (heap s) p in setUsage p (usage n + 1) s
  | Below e onleft =>
    let m := upd (heap s) a (Nd e 0 0 false k 1) in
    olet s := (if e =? 0 then Ok (St m a)
               else if onleft then olet m := setL e a m in Ok (St m (root s))
               else olet m := setR e a m in Ok (St m (root s))) in
    rebalance fuel a s
  end.

(** the search of libgst/callin.c:1024-1038 and libgst/oop.c:616-627 *)
Fixpoint find (fuel : nat) (k : Z) (p : Z) (m : mem) : outcome Z :=
  match fuel with
  | O => OutOfFuel
  | S fuel =>
    if p =? 0 then Ok 0
    else
      olet n := get m p in
      if key n =? k then Ok p
      else find fuel k (if k <? key n then lft n else rgt n) m
  end.

(** libgst/callin.c:1014-1039, _gst_unregister_oop; free() makes the node
    inaccessible *)
Definition unregister (fuel : nat) (k : Z) (s : state) : outcome state :=
  olet p := find fuel k (root s) (heap s) in
  if p =? 0 then Ok s
  else
    olet n := get (heap s) p in
    olet s := setUsage p (usage n - 1) s in
    if usage n - 1 =? 0 then
      olet s := erase fuel p s in
      Ok (St (fun q => if q =? p then None else heap s q) (root s))
    else Ok s.

(** the search of libgst/callin.c:1049-1059, _gst_register_oop_array: sic, no
    return when the key is found, so that p is the same the next time round;
    answers the place below which to insert and the memory with the usage
    counts incremented *)
Fixpoint locateArray (fuel : nat) (k : Z) (p : Z) (above : Z) (onleft : bool)
    (m : mem) : outcome (Z * bool * mem) :=
  match fuel with
  | O => OutOfFuel
  | S fuel =>
    if p =? 0 then Ok (above, onleft, m)
    else
      olet n := get m p in
      if k <? key n then locateArray fuel k (lft n) p true m
      else if key n <? k then locateArray fuel k (rgt n) p false m
      else locateArray fuel k p p onleft
             (upd m p (Nd (par n) (lft n) (rgt n) (red n) (key n) (usage n + 1)))
  end.

(** libgst/callin.c:1042-1070, _gst_register_oop_array *)
Definition registerArray (fuel : nat) (a k : Z) (s : state) : outcome state :=
  olet w := locateArray fuel k (root s) 0 false (heap s) in
  let '(e, onleft, m) := w in
  let m := upd m a (Nd e 0 0 false k 1) in
  olet s := (if e =? 0 then Ok (St m a)
             else if onleft then olet m := setL e a m in Ok (St m (root s))
             else olet m := setR e a m in Ok (St m (root s))) in
  rebalance fuel a s.

(** the empty registry; libgst/callin.c:85-86 *)
Definition empty : state := St (fun _ => None) 0.
