(** A system and some methods by which the theorems of the compiler are tried. *)
From Coq Require Import ZArith List Bool String Lia ZifyBool.
From Verif Require Import Base Comp CompSpec CompTop.
Import ListNotations.
Local Open Scope string_scope.
Local Open Scope list_scope.
Local Open Scope Z_scope.

(** the messages that integers understand *)
Definition ints (r : value) (s : string) (args : list value) : option value :=
  match r, args with
  | VInt a, [VInt b] =>
    if String.eqb s ">=" then Some (if b <=? a then VTrue else VFalse)
    else if String.eqb s "<=" then Some (if a <=? b then VTrue else VFalse)
    else if String.eqb s "+" then Some (VInt (a + b))
    else if String.eqb s "-" then Some (VInt (a - b))
    else None
  | _, _ => None
  end.

(** a world: the other messages that were sent (to super or not, the selector, the
    first argument), the latest first, and the global variables *)
Definition world : Type := list (bool * string * value) * list (string * value).

Fixpoint known (g : string) (l : list (string * value)) : value :=
  match l with
  | [] => VNil
  | (x, v) :: l' => if String.eqb x g then v else known g l'
  end.

Definition heard : system world := System world
  (fun w r s args => match ints r s args with
                     | Some v => Some (v, w)
                     | None => Some (VObj 7, ((false, s, hd VNil args) :: fst w, snd w))
                     end)
  (fun w r s args => Some (VObj 8, ((true, s, hd VNil args) :: fst w, snd w)))
  (fun w g => known g (snd w))
  (fun w g v => (fst w, (g, v) :: snd w))
  (fun _ _ => VNil) (fun w _ _ => w) (VObj 0)
  (fun l => match l with LInt z => VInt z | LSym s => VObj 1 | LObj n => VObj (10 + n) | _ => VObj 2 end).

Lemma heard_sound : sound heard.
Proof.
  split; intros; try reflexivity. cbn. rewrite String.eqb_refl. reflexivity.
Qed.

Definition silence : world := ([], []).
Definition class : ctx := Ctx ["iv"] (fun g => String.eqb g "G") true.

Definition send r s := ESend 1 r s ENil.
Definition var x := EVar 1 x.
Definition int z := ELit 1 (KInt z).
Definition assigned x e := EAssign 1 [(1, x)] e.
Definition to_do a b x ss := ESend 1 a "to:do:" (ECons b (ECons (EBlock 1 [x] [] ss) ENil)).
Fixpoint many (n : nat) (e : expr) (ss : stmts) : stmts :=
  match n with O => ss | S n => SExpr e (many n e ss) end.
Fixpoint nest (k : nat) (ss : stmts) : stmts :=
  match k with O => ss | S k => SExpr (to_do (int 1) (int 2) "i" (nest k ss)) SNil end.
Fixpoint letters (n : nat) : string := match n with O => "x" | S n => String.append "y" (letters n) end.

(** [foo: n | t | t := n. 1 to: t do: [:i | (i <= 2) ifTrue: [G := i. self at: i]
    ifFalse: [^t]]. self a; b] *)
Definition sample : meth := Meth 1 ["n"] ["t"]
  (SExpr (assigned "t" (var "n"))
  (SExpr (to_do (int 1) (var "t") "i"
     (SExpr (ESend 2 (ESend 2 (var "i") "<=" (ECons (int 2) ENil)) "ifTrue:ifFalse:"
        (ECons (EBlock 2 [] [] (SExpr (assigned "G" (var "i"))
                               (SExpr (ESend 2 (var "self") "at:" (ECons (var "i") ENil)) SNil)))
        (ECons (EBlock 2 [] [] (SReturn (var "t"))) ENil))) SNil))
  (SExpr (ECascade 3 (var "self") (MCons 3 "a" ENil (MCons 3 "b" ENil MNil))) SNil))).

(** [1 to: 2 do: [:i | self foo. ... self foo]], forty times *)
Definition forty : meth := Meth 1 [] []
  (SExpr (to_do (int 1) (int 2) "i" (many 40 (send (var "self") "foo") SNil)) SNil).

(** [| i | i := 3. 1 to: i do: [:i | self foo]] *)
Definition shadowed : meth := Meth 1 [] ["i"]
  (SExpr (assigned "i" (int 3))
  (SExpr (to_do (int 1) (var "i") "i" (SExpr (send (var "self") "foo") SNil)) SNil)).

(** [^1 to: 5 by: 2 do: [:i | self foo]] *)
Definition stepped : meth := Meth 1 [] []
  (SReturn (ESend 1 (int 1) "to:by:do:"
     (ECons (int 5) (ECons (int 2) (ECons (EBlock 1 ["i"] [] (SExpr (send (var "self") "foo") SNil)) ENil))))).

(** [super foo; bar] *)
Definition cascaded : meth := Meth 1 [] []
  (SExpr (ECascade 1 (var "super") (MCons 1 "foo" ENil (MCons 1 "bar" ENil MNil))) SNil).

(** sixty-four temporaries, and the second of them assigned *)
Definition crowded : meth := Meth 1 [] (map letters (seq 0 64))
  (SExpr (assigned "yx" (int 3)) (SReturn (var "yx"))).

(** six loops, each within another *)
Definition nested : meth := Meth 1 [] [] (nest 6 (SExpr (send (var "self") "foo") SNil)).

Definition compiled (m : meth) : cmethod :=
  match compile_method class m false true with
  | Ok cm => cm
  | _ => CMethod (Header 0 0 0) [] [] 0 0
  end.
Definition ends (m : meth) (fuel : nat) (args : list value) : did world :=
  run_method heard (room (cm_header (compiled m))) (compiled m) fuel args silence.

(** what did end does not end otherwise *)
Lemma ends_once m k args d : ends m k args = d -> (forall x, d <> Next x) ->
  forall fuel d', d' <> d -> (forall x, d' <> Next x) -> ends m fuel args <> d'.
Proof.
  intros E N fuel d' D N' E'. apply D. symmetry.
  eapply run_once; [exact E|exact N|exact E'|exact N'].
Qed.

(** jumps of 256 and 65536 bytes, looked for *)
Lemma no_edge_in is :
  forallb (fun i => negb ((snd i =? 256) || (snd i =? 65536))
                    || negb ((fst i =? bc_jump_back) || (fst i =? bc_pop_jump_false))) is = true ->
  no_edge is.
Proof.
  intros H b a I J. rewrite forallb_forall in H. specialize (H _ I). cbn [fst snd] in H. lia.
Qed.
