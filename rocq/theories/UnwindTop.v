(** Whole programs. *)
From Verif Require Import UnwindLang Unwind UnwindSpec UnwindProofs UnwindSim.
From Coq Require Import Lia.
Local Open Scope nat_scope.

Definition outcome_of (r : option value * list value) : step_result :=
  match r with (Some v, t) => Done v t | (None, t) => Failed t end.

Lemma start_base main : base 1 [0] [0; 1] [1] (hp (start main)).
Proof.
  split; [|split; [split|split]].
  - intros i L. cbn [length] in L. destruct i as [|[|i]]; [reflexivity|reflexivity|lia].
  - intros i L M. cbn [length] in L. destruct i as [|[|i]]; [| |lia].
    + split; [intros _ [E|[]]; discriminate|reflexivity].
    + split; [discriminate|]. intros C. exfalso. apply C. left. reflexivity.
  - intros i [<-|[]]. cbn. lia.
  - cbn. repeat split. lia.
  - cbn. lia.
Qed.
Lemma run_meaning ms fuel main r : meaning ms false fuel main = Some r -> exists k, run ms k (start main) = outcome_of r.
Proof.
  intros M. unfold meaning in M.
  pose proof (all_good ms fuel 1 [0] [0; 1] [1] (hp (start main)) [] [] [] main (start_base main) ltac:(discriminate) eq_refl I) as P.
  change (St 1 (Ev main []) [] (hp (start main)) (length [0; 1]) []) with (start main) in P.
  destruct (sp ms false fuel 1 [1] [] main [0; 1] []) as [[v|h v] homes t|t| |]; try discriminate.
  - injection M as <-. cbn in P. destruct P as (H' & (k & R) & _ & G & St & F & K & k' & Ka). pose proof (grows_length _ _ G) as GL. cbn in GL.
    destruct (answer_ok ms 1 0 H' v t (length homes)) as (H6 & Stp & _).
    + rewrite Ka. reflexivity.
    + lia.
    + rewrite K by (cbn; lia). reflexivity.
    + lia.
    + rewrite K in Stp by (cbn; lia). exists (k + 2). rewrite (run_add ms _ _ _ _ R). cbn [run]. rewrite Stp. reflexivity.
  - destruct h as [|[|h]]; try discriminate. injection M as <-. cbn in P. destruct (P [] 0 [] eq_refl eq_refl) as (H' & q & (k & R) & _ & G & St & F & D & La & K).
    destruct La as (A & B & E & FA & C). destruct A as [|y A]; [|destruct A; discriminate]. cbn in E. injection E as <- <-.
    destruct C as [[_ C]|(_ & p & _ & C)]; [|destruct C]. rewrite C in R. cbn [kon clearc] in R.
    exists (k + 1). rewrite (run_add ms _ _ _ _ R). reflexivity.
  - injection M as <-. destruct P as (k & R). exists k. exact R.
Qed.

(** More steps change nothing. *)
Lemma run_more ms k : forall s r, run ms k s = r -> (forall s', r <> Next s') -> forall k', k <= k' -> run ms k' s = r.
Proof.
  induction k as [|k IH]; intros s r E N k' L; [exfalso; apply (N s); symmetry; exact E|].
  destruct k' as [|k']; [lia|]. cbn [run] in *. destruct (step ms s) as [s1|v t|t|]; try exact E. apply IH; [exact E|exact N|lia].
Qed.
Lemma run_never_wrong ms fuel main r k : meaning ms false fuel main = Some r -> run ms k (start main) <> Wrong.
Proof.
  intros M W. destruct (run_meaning ms fuel main r M) as [k' R].
  assert (N : forall s', outcome_of r <> Next s') by (destruct r as [[v|] t]; discriminate).
  pose proof (run_more ms k' _ _ R N (k + k') ltac:(lia)) as R1.
  pose proof (run_more ms k _ _ W ltac:(discriminate) (k + k') ltac:(lia)) as R2.
  rewrite R1 in R2. destruct r as [[v|] t]; discriminate.
Qed.

(** The restricted meaning is a restriction of the meaning. *)
Section Lax.
  Variable ms : list expr.
  Definition lev r r' := match r with Res _ _ _ | Error _ => r' = r | _ => True end.
  Definition gbody x f live home env e homes t := close (length homes) (sp ms x f (length homes) live env e (homes ++ [home]) t).
  Definition gval x f live v homes t := match v with VClo c env o => gbody x f live (nth o homes 0) env c homes t | _ => Error t end.
  Definition gclean (x : bool) r2 r := match r2, r with Res (Norm _) homes t, _ => Res r homes t | r2, Norm _ => r2 | r2, Jump _ _ => if x then r2 else Escape end.
  Definition gens x f live b c homes t :=
    match gval x f (length homes :: live) b (homes ++ [length homes]) t with
    | Res r homes' t' => gclean x (gval x f (length homes :: live) c homes' t') r
    | r => r
    end.
  Definition gsp x f act live env e homes t :=
    match e with
    | Lit z => Res (Norm (VInt z)) homes t
    | Var i => Res (Norm (nth i env VNil)) homes t
    | Out e => bindr (sp ms x f act live env e homes t) (fun v homes t => Res (Norm v) homes (t ++ [v]))
    | Seq a b => bindr (sp ms x f act live env a homes t) (fun _ homes t => sp ms x f act live env b homes t)
    | If c a b => bindr (sp ms x f act live env c homes t) (fun v homes t => sp ms x f act live env (match v with VInt 0 => b | _ => a end) homes t)
    | Blk e => Res (Norm (VClo e env act)) homes t
    | Value e => bindr (sp ms x f act live env e homes t) (fun v homes t => gval x f live v homes t)
    | Send m e => bindr (sp ms x f act live env e homes t) (fun v homes t => gbody x f (length homes :: live) (length homes) [v] (nth m ms (Lit 0)) homes t)
    | Ret e => bindr (sp ms x f act live env e homes t) (fun v homes t =>
        if in_dec Nat.eq_dec (nth act homes 0) live then Res (Jump (nth act homes 0) v) homes t else Error t)
    | Ens b c => bindr (sp ms x f act live env b homes t) (fun b homes t => bindr (sp ms x f act live env c homes t) (fun c homes t => gens x f live b c homes t))
    | Guard b => bindr (sp ms x f act live env b homes t) (fun b homes t => gval x f (length homes :: live) b (homes ++ [length homes]) t)
    end.
  Lemma sp_gsp x f act live env e homes t : sp ms x (S f) act live env e homes t = gsp x f act live env e homes t.
  Proof.
    destruct e; cbn [sp gsp]; unfold bindr, gens, gval, gbody, close, gclean;
    repeat (try reflexivity; match goal with
      | |- context [sp ms ?y ?f ?a ?l ?v ?e ?h ?t] => destruct (sp ms y f a l v e h t)
      | |- context [match ?x with _ => _ end] => is_var x; destruct x
      | |- context [if Nat.eqb ?x ?y then _ else _] => destruct (Nat.eqb x y)
      | |- context [if in_dec ?x ?y ?z then _ else _] => destruct (in_dec x y z) end).
  Qed.
  Lemma lev_refl r : lev r r. Proof. destruct r; exact I || reflexivity. Qed.
  Lemma lev_bind r r' K K' : lev r r' -> (forall v h t, lev (K v h t) (K' v h t)) -> lev (bindr r K) (bindr r' K').
  Proof. intros L C. destruct r as [[v|a v] h t|t| |]; cbn in *; try subst r'; try reflexivity; try exact I. apply C. Qed.
  Lemma lev_close n r r' : lev r r' -> lev (close n r) (close n r').
  Proof. intros L. destruct r as [[v|a v] h t|t| |]; cbn in *; try subst r'; try reflexivity; try exact I. apply lev_refl. Qed.
  Lemma sp_lax : forall f act live env e homes t, lev (sp ms false f act live env e homes t) (sp ms true f act live env e homes t).
  Proof.
    induction f as [|f IH]; intros act live env e homes t; [exact I|]. rewrite !sp_gsp.
    assert (V : forall live v homes t, lev (gval false f live v homes t) (gval true f live v homes t)).
    { intros live0 v homes0 t0. destruct v; try apply lev_refl. apply lev_close. apply IH. }
    destruct e; cbn [gsp]; try apply lev_refl; apply lev_bind; try apply IH; intros v h u; try apply lev_refl; try apply IH; try apply V.
    - apply lev_close. apply IH.
    - apply lev_bind; [apply IH|]. intros w h1 u1. unfold gens. specialize (V (length h1 :: live) v (h1 ++ [length h1]) u1) as V1.
      destruct (gval false f (length h1 :: live) v (h1 ++ [length h1]) u1) as [r h2 u2|u2| |]; cbn in V1; try rewrite V1; try reflexivity; try exact I.
      specialize (V (length h1 :: live) w h2 u2) as V2.
      destruct (gval false f (length h1 :: live) w h2 u2) as [[v3|a3 v3] h3 u3|u3| |]; cbn in V2; try rewrite V2; destruct r; cbn; try reflexivity; exact I.
  Qed.
  Lemma meaning_lax f main r : meaning ms false f main = Some r -> meaning ms true f main = Some r.
  Proof.
    unfold meaning. pose proof (sp_lax f 1 [1] [] main [0; 1] []) as L.
    destruct (sp ms false f 1 [1] [] main [0; 1] []); cbn in L; try discriminate; rewrite L; exact (fun E => E).
  Qed.
End Lax.

(** ** Programs that are not executed as they mean *)
Definition lost_caller : list expr :=
  [ Seq (Out (Send 1 (Var 0))) (Out (Lit 100));                                              (* m0: aBlock *)
    Ens (Blk (Value (Var 0))) (Blk (Ens (Blk (Ret (Lit 2))) (Blk (Out (Lit 50)))));            (* m1: aBlock *)
    Seq (Send 0 (Blk (Ret (Lit 1)))) (Lit 3);                                                (* m2: ignored *)
    Seq (Out (Send 2 (Lit 0))) (Out (Lit 60)) ].                                             (* m3: ignored *)
Definition lost_main : expr := Seq (Out (Send 3 (Lit 0))) (Lit 9).
Definition nil_caller : list expr :=
  [ Ens (Blk (Ens (Blk (Value (Var 0))) (Blk (Send 1 (Blk (Ret (Lit 6))))))) (Blk (Ret (Lit 7)));
    Value (Blk (Value (Var 0))) ].
Definition nil_main : expr := Send 0 (Blk (Ret (Lit 5))).
Lemma lost_caller_meaning : meaning lost_caller true 30 lost_main = Some (Some (VInt 9), [VInt 50; VInt 2; VInt 100; VInt 3; VInt 60; VInt 60]).
Proof. vm_compute. reflexivity. Qed.
Lemma lost_caller_run : run lost_caller 100 (start lost_main) = Done (VInt 9) [VInt 50; VInt 2].
Proof. vm_compute. reflexivity. Qed.
Lemma nil_caller_meaning : meaning nil_caller true 30 nil_main = Some (Some (VInt 7), []).
Proof. vm_compute. reflexivity. Qed.
Lemma nil_caller_run : run nil_caller 100 (start nil_main) = Wrong.
Proof. vm_compute. reflexivity. Qed.
Lemma lost_caller_refutes : exists ms main fuel v t k v' t',
  meaning ms true fuel main = Some (Some v, t) /\ run ms k (start main) = Done v' t' /\ t' <> t.
Proof.
  exists lost_caller, lost_main, 30. do 2 eexists. exists 100. do 2 eexists.
  split; [exact lost_caller_meaning|]. split; [exact lost_caller_run|]. discriminate.
Qed.
