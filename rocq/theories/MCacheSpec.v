(** Looking up a method along the superclass chain, with no cache. *)
From Verif Require Import Base MCache.

(** The method that class [c] has for [s], if any, in its own dictionary or in the nearest superclass's. *)
Inductive finds (w : world) (s : Z) : Z -> option method -> Prop :=
| finds_own c m : dict w c s = Some m -> finds w s c (Some m)
| finds_inherited c p r : dict w c s = None -> super w c = Some p -> finds w s p r -> finds w s c r
| finds_none c : dict w c s = None -> super w c = None -> finds w s c None.

(** Running a method whose primitive, if any, succeeds or not. *)
Inductive runs (m : method) : bool -> event -> Prop :=
| runs_prim : m_prim m <> 0 -> runs m true (Primitive (m_prim m))
| runs_body : runs m false (Activate m)
| runs_plain b : m_prim m = 0 -> runs m b (Activate m).

(** What a send should do. *)
Inductive dispatches (dnu : Z) (w : world) (s c : Z) (ok : bool) : event -> Prop :=
| dispatch_found m e : finds w s c (Some m) -> runs m ok e -> dispatches dnu w s c ok e
| dispatch_dnu m e : finds w s c None -> finds w dnu c (Some m) -> runs m ok e -> dispatches dnu w s c ok (NotUnderstood e).

(** What an operation may do in the hierarchy [w]. *)
Definition right (dnu : Z) (selector_of : special -> Z) (w : world) (o : op) (e : option event) : Prop :=
  match o with
  | Send s c ok | Perform s c ok => exists x, e = Some x /\ dispatches dnu w s c ok x
  | Special k c ok => exists x, e = Some x /\ dispatches dnu w (selector_of k) c ok x
  | SendMethod m ok | Doit m ok => exists x, e = Some x /\ runs m ok x
  | _ => e = None
  end.

(** The hierarchy after some operations: only the stores count. *)
Definition changes (w : world) (o : op) : world :=
  match o with
  | Store c s m => World (super w) (fun c' s' => if (c' =? c) && (s' =? s) then m else dict w c' s')
  | Install c s m => World (super w) (fun c' s' => if (c' =? c) && (s' =? s) then Some m else dict w c' s')
  | Superclass c p => World (fun c' => if c' =? c then p else super w c') (dict w)
  | _ => w
  end.
Definition world_after (w : world) (h : list op) : world := fold_left changes h w.
(** Whether every store was followed by a flush. *)
Definition clean (h : list op) : bool :=
  fold_left (fun b o => match o with Store _ _ _ | Superclass _ _ => false | Flush => true | _ => b end) h true.

(** Every class inherits doesNotUnderstand:, not as a primitive, within [depth] superclasses. *)
Definition sane (dnu : Z) (depth : nat) (w : world) : Prop :=
  (exists rank : Z -> nat, forall c, (rank c < depth)%nat /\ forall p, super w c = Some p -> (rank p < rank c)%nat) /\
  forall c, exists m, finds w dnu c (Some m) /\ m_prim m = 0.
