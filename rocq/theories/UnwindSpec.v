(** What returns and ensure: mean. *)
From Verif Require Import UnwindLang.

(** An expression has a value, or ends the activation [a] with a value. *)
Inductive result := Norm (v : value) | Jump (a : nat) (v : value).
Inductive answer_of := Res (r : result) (homes : list nat) (t : list value) | Error (t : list value) | Escape | NoFuel.
(** The receiver of ensure: is evaluated, then always its argument; the result of ensure: is that of the receiver,
    unless the argument does not end normally. [lax] says whether that is allowed when the receiver does not end
    normally either: if not, the answer is [Escape].

    [homes] has for each activation created so far the method activation that ^ ends in it; [live] are the method
    activations that have not ended; [act] is the current one. ^ in a block whose method has ended is an error,
    as is evaluating what is no block; the program stops there. *)
Section Spec.
  Variable methods : list expr.
  Variable lax : bool.
  Fixpoint sp (fuel : nat) (act : nat) (live : list nat) (env : list value) (e : expr) (homes : list nat) (t : list value) : answer_of :=
    match fuel with
    | O => NoFuel
    | S f =>
        let bind r k := match r with Res (Norm v) homes t => k v homes t | r => r end in
        (* a new activation [n] *)
        let body live home env e homes t :=
          match sp f (length homes) live env e (homes ++ [home]) t with
          | Res (Jump a v) homes' t => if Nat.eqb a (length homes) then Res (Norm v) homes' t else Res (Jump a v) homes' t
          | r => r
          end in
        let val live v homes t :=
          match v with VClo c env o => body live (nth o homes O) env c homes t | _ => Error t end in
        match e with
        | Lit z => Res (Norm (VInt z)) homes t
        | Var i => Res (Norm (nth i env VNil)) homes t
        | Out e => bind (sp f act live env e homes t) (fun v homes t => Res (Norm v) homes (t ++ [v]))
        | Seq a b => bind (sp f act live env a homes t) (fun _ homes t => sp f act live env b homes t)
        | If c a b => bind (sp f act live env c homes t) (fun v homes t => sp f act live env (match v with VInt 0 => b | _ => a end) homes t)
        | Blk e => Res (Norm (VClo e env act)) homes t
        | Value e => bind (sp f act live env e homes t) (fun v homes t => val live v homes t)
        | Send m e => bind (sp f act live env e homes t) (fun v homes t =>
            body (length homes :: live) (length homes) [v] (nth m methods (Lit 0)) homes t)
        | Ret e => bind (sp f act live env e homes t) (fun v homes t =>
            if in_dec Nat.eq_dec (nth act homes O) live then Res (Jump (nth act homes O) v) homes t
            else Error t)
        | Ens b c => bind (sp f act live env b homes t) (fun b homes t => bind (sp f act live env c homes t) (fun c homes t =>
            let live := length homes :: live in
            match val live b (homes ++ [length homes]) t with
            | Res r homes t =>
                match val live c homes t, r with
                | Res (Norm _) homes t, _ => Res r homes t
                | r2, Norm _ => r2
                | r2, Jump _ _ => if lax then r2 else Escape
                end
            | r => r
            end))
        | Guard b => bind (sp f act live env b homes t) (fun b homes t => val (length homes :: live) b (homes ++ [length homes]) t)
        end
    end.
  (** A statement executed by its own method, activation 1. *)
  Definition meaning (fuel : nat) (main : expr) : option (option value * list value) :=
    match sp fuel 1 [1%nat] [] main [0%nat; 1%nat] [] with
    | Res (Norm v) _ t | Res (Jump 1 v) _ t => Some (Some v, t)
    | Error t => Some (None, t)
    | _ => None
    end.
End Spec.
