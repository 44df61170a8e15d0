(** A variable that an expression does not name makes no difference to it. *)
From Coq Require Import ZArith Lia List Bool Ascii String.
From Coq Require Import ZifyBool ZifyNat.
From Verif Require Import Base Comp CompSpec.
Import ListNotations.
Local Open Scope string_scope.
Local Open Scope list_scope.
Local Open Scope Z_scope.

Lemma form_names x r s args : names x r = false -> names_args x args = false ->
  match form_of r s args with
  | FWhile _ a b => names_stmts x a = false /\ names_stmts x b = false
  | FRepeat b => names_stmts x b = false
  | FIf r a b => names x r = false /\ names_stmts x a = false /\ names_stmts x b = false
  | FAnd r b | FOr r b | FTimes r b => names x r = false /\ names_stmts x b = false
  | FTo r l _ _ b _ => names x r = false /\ names x l = false /\ names_stmts x b = false
  | FSend => True
  end.
Proof.
  intros Hr Ha. unfold form_of.
  repeat match goal with
  | |- context [match ?a with ENil => _ | _ => _ end] => is_var a; destruct a
  | |- context [match ?a with EVar _ _ => _ | _ => _ end] => is_var a; destruct a
  | |- context [match ?a with [] => _ | _ => _ end] => is_var a; destruct a
  | |- context [match ?a with KInt _ => _ | _ => _ end] => is_var a; destruct a
  | |- context [if (?a =? ?b)%string then _ else _] => destruct (a =? b)%string
  end; cbn in *; auto;
  repeat match goal with H : (_ || _)%bool = false |- _ => apply orb_false_iff in H; destruct H end;
  repeat split; rewrite ?orb_false_iff; auto.
Qed.

Section Weak.
  Variable W : Type.
  Variable sys : system W.
  Variable c : ctx.

  Definition shape {A} (v : env) (r : result W A) : Prop :=
    match r with Val _ v' _ => map fst v' = map fst v | _ => True end.

  Lemma shape_bind {A B} v (r : result W A) (k : A -> env -> W -> result W B) :
    shape v r -> (forall o v' w, map fst v' = map fst v -> shape v' (k o v' w)) ->
    shape v (bind r k).
  Proof.
    intros H K. destruct r; cbn in *; auto. specialize (K o v0 w H).
    destruct (k o v0 w); cbn in *; auto. congruence.
  Qed.
  Lemma shape_use {B} v r (k : value -> env -> W -> result W B) :
    shape v r -> (forall o v' w, map fst v' = map fst v -> shape v' (k o v' w)) ->
    shape v (use r k).
  Proof. intros H K. apply shape_bind; [exact H|]. intros [o|] v' w E; [apply K, E|exact I]. Qed.
  Lemma shape_next {A B} v (r : result W A) (k : env -> W -> result W B) :
    shape v r -> (forall v' w, map fst v' = map fst v -> shape v' (k v' w)) ->
    shape v (next r k).
  Proof. intros H K. apply shape_bind; [exact H|]. intros o v' w E. apply K, E. Qed.

  Lemma assign_names x a v v' : assign x a v = Some v' -> map fst v' = map fst v.
  Proof.
    revert v'. induction v as [|[y b] v IH]; cbn; [discriminate|]. intros v'.
    destruct (y =? x)%string; [intros [= <-]; reflexivity|].
    destruct (assign x a v); [|discriminate]. intros [= <-]. cbn. f_equal. apply IH. reflexivity.
  Qed.

  Lemma write_shape ts a v w : shape v (write_all sys c ts a v w).
  Proof.
    revert v w. induction ts as [|[ln x] ts IH]; intros v w; cbn; [reflexivity|].
    unfold write. destruct (assign x a v) as [v'|] eqn:E.
    - apply assign_names in E. specialize (IH v' w). destruct (write_all sys c ts a v' w); cbn in *; try exact I; congruence.
    - destruct (place x 0 (c_ivars c)); [apply IH|]. destruct (c_global c x); [apply IH|exact I].
  Qed.

  Lemma message_shape r a s l v w : shape v (message sys r a s l v w).
  Proof.
    unfold message.
    destruct (match r with EVar _ x => (x =? "super")%string | _ => false end);
      [destruct (perform_super sys w a s l) as [[b w']|]
      |destruct (perform sys w a s l) as [[b w']|]]; cbn; auto.
  Qed.

  Lemma count_S n i k z x b v w : count sys c (S n) i k z x b v w =
    if (if 0 <? z then i <=? k else k <=? i)
    then next (block sys c n b ((x, VInt i) :: v) w)
           (fun v w => count sys c n (i + z) k z x b (tl v) w)
    else Val (Some VNil) v w.
  Proof. reflexivity. Qed.

  Lemma shapes n :
    (forall e v w, shape v (eval sys c n e v w))
    /\ (forall es v w, shape v (eval_args sys c n es v w))
    /\ (forall r a ms v w, shape v (cascade sys c n r a ms v w))
    /\ (forall ss v w, shape v (block sys c n ss v w))
    /\ (forall on a b v w, shape v (while sys c n on a b v w))
    /\ (forall b v w, shape v (repeat_ sys c n b v w))
    /\ (forall k b v w, shape v (times sys c n k b v w))
    /\ (forall i k z x b v w, shape v (count sys c n i k z x b v w)).
  Proof.
    induction n as [|n (He & Ha & Hc & Hb & Hw & Hr & Ht & Hk)]; [cbn; tauto|].
    repeat apply conj.
    - intros e v w. destruct e; cbn [eval]; try exact I.
      + destruct (read sys c x v w); cbn; auto.
      + reflexivity.
      + destruct (form_of e s args).
        * apply Hw.
        * apply Hr.
        * apply shape_use; [apply He|]. intros [] v' w' E; try exact I; apply Hb.
        * apply shape_use; [apply He|]. intros [] v' w' E; try exact I; try apply Hb; reflexivity.
        * apply shape_use; [apply He|]. intros [] v' w' E; try exact I; try apply Hb; reflexivity.
        * apply shape_use; [apply He|]. intros [] v' w' E; try exact I.
          apply shape_next; [apply Ht|]. intros; reflexivity.
        * apply shape_use; [apply He|]. intros a v' w' E. apply shape_use; [apply He|].
          intros z v2 w2 E2. destruct a; try exact I. destruct z; try exact I.
          apply shape_next; [apply Hk|]. intros; reflexivity.
        * apply shape_use; [apply He|]. intros a v' w' E. apply shape_bind; [apply Ha|].
          intros. apply message_shape.
      + apply shape_use; [apply He|]. intros. apply Hc.
      + apply shape_use; [apply He|]. intros. apply write_shape.
    - intros es v w. destruct es; cbn [eval_args]; [reflexivity|].
      apply shape_use; [apply He|]. intros. apply shape_bind; [apply Ha|]. reflexivity.
    - intros r a ms v w. destruct ms as [|ln s args ms]; cbn [cascade]; [exact I|].
      assert (M : shape v (bind (eval_args sys c n args v w)
                  (fun l v w => message sys r a s l v w))).
      { apply shape_bind; [apply Ha|]. intros. apply message_shape. }
      destruct ms; [exact M|]. apply shape_next; [exact M|]. intros. apply Hc.
    - intros ss v w. destruct ss as [|e ss|e]; cbn [block]; [reflexivity| |].
      + destruct ss; [apply He| |]; (apply shape_next; [apply He|]; intros; apply Hb).
      + apply shape_use; [apply He|]. intros; exact I.
    - intros on a b v w. cbn [while]. apply shape_use; [apply Hb|]. intros [] v' w' E; try exact I.
      + destruct on; try reflexivity. apply shape_next; [apply Hb|]. intros; apply Hw.
      + destruct on; try reflexivity. apply shape_next; [apply Hb|]. intros; apply Hw.
    - intros b v w. cbn [repeat_]. apply shape_next; [apply Hb|]. intros; apply Hr.
    - intros k b v w. cbn [times]. destruct (1 <=? k); [|reflexivity].
      apply shape_next; [apply Hb|]. intros; apply Ht.
    - intros i k z x b v w. rewrite count_S.
      destruct (if 0 <? z then i <=? k else k <=? i); [|reflexivity].
      pose proof (Hb b ((x, VInt i) :: v) w) as B.
      destruct (block sys c n b ((x, VInt i) :: v) w) as [o v' w'| | | |]; cbn in *; auto.
      destruct v' as [|y v']; [discriminate|]. cbn [tl]. injection B as _ B.
      specialize (Hk (i + z) k z x b v' w').
      destruct (count sys c n (i + z) k z x b v' w'); cbn in *; try exact I; congruence.
  Qed.

  (** * Insertion *)

  Variable p : string * value.

  Fixpoint ins (k : nat) (v : env) : env :=
    match k, v with
    | O, _ => p :: v
    | S k, a :: v => a :: ins k v
    | S _, [] => [p]
    end.

  Definition rm {A} (k : nat) (r : result W A) : result W A :=
    match r with
    | Val o v w => Val o (ins k v) w
    | Answer a w => Answer a w | Gone => Gone | Error => Error | NoEnd => NoEnd
    end.

  Lemma bind_ins {A B} k v (r r' : result W A) (f f' : A -> env -> W -> result W B) :
    r' = rm k r -> shape v r -> (k <= List.length v)%nat ->
    (forall o v' w, (k <= List.length v')%nat -> List.length v' = List.length v ->
      f' o (ins k v') w = rm k (f o v' w)) ->
    bind r' f' = rm k (bind r f).
  Proof.
    intros -> Sh Hk F. destruct r; cbn in *; auto.
    assert (List.length v0 = List.length v) by (rewrite <- (map_length fst v0), Sh; apply map_length).
    apply F; lia.
  Qed.
  Lemma use_ins {B} k v r r' (f f' : value -> env -> W -> result W B) :
    r' = rm k r -> shape v r -> (k <= List.length v)%nat ->
    (forall o v' w, (k <= List.length v')%nat -> f' o (ins k v') w = rm k (f o v' w)) ->
    use r' f' = rm k (use r f).
  Proof.
    intros E Sh Hk F. eapply bind_ins; [exact E|exact Sh|exact Hk|].
    intros [o|] v' w H _; [apply F, H|reflexivity].
  Qed.
  Lemma next_ins {A B} k v (r r' : result W A) (f f' : env -> W -> result W B) :
    r' = rm k r -> shape v r -> (k <= List.length v)%nat ->
    (forall v' w, (k <= List.length v')%nat -> List.length v' = List.length v ->
       f' (ins k v') w = rm k (f v' w)) ->
    next r' f' = rm k (next r f).
  Proof.
    intros E Sh Hk F. eapply bind_ins; [exact E|exact Sh|exact Hk|].
    intros o v' w H H'; apply F; assumption.
  Qed.

  Lemma lookup_ins x k v : (fst p =? x)%string = false -> (k <= List.length v)%nat ->
    lookup x (ins k v) = lookup x v.
  Proof.
    intros H. revert v. induction k as [|k IH]; intros v Hk; cbn [ins].
    - destruct p as [y b]. cbn in *. rewrite H. reflexivity.
    - destruct v as [|[y b] v]; cbn in Hk; [lia|]. cbn. rewrite IH by lia. reflexivity.
  Qed.
  Lemma assign_ins x a k v : (fst p =? x)%string = false -> (k <= List.length v)%nat ->
    assign x a (ins k v) = match assign x a v with Some v' => Some (ins k v') | None => None end.
  Proof.
    intros H. revert v. induction k as [|k IH]; intros v Hk; cbn [ins].
    - destruct p as [y b]. cbn in *. rewrite H. destruct (assign x a v); reflexivity.
    - destruct v as [|[y b] v]; cbn in Hk; [lia|]. cbn. rewrite IH by lia.
      destruct (y =? x)%string; [reflexivity|]. destruct (assign x a v); reflexivity.
  Qed.

  Lemma write_ins ts a k v w :
    existsb (fun t => (snd t =? fst p)%string) ts = false -> (k <= List.length v)%nat ->
    write_all sys c ts a (ins k v) w = rm k (write_all sys c ts a v w).
  Proof.
    revert v w. induction ts as [|[ln x] ts IH]; intros v w H Hk; cbn in *; [reflexivity|].
    apply orb_false_iff in H. destruct H as [H1 H2]. rewrite String.eqb_sym in H1.
    unfold write. rewrite assign_ins by assumption.
    destruct (assign x a v) as [v'|] eqn:E.
    - apply assign_names in E. apply IH; [exact H2|].
      rewrite <- (map_length fst v'), E, map_length. exact Hk.
    - destruct (place x 0 (c_ivars c)); [apply IH; assumption|].
      destruct (c_global c x); [apply IH; assumption|reflexivity].
  Qed.

  Lemma message_ins r a s l k v w :
    message sys r a s l (ins k v) w = rm k (message sys r a s l v w).
  Proof.
    unfold message.
    destruct (match r with EVar _ x => (x =? "super")%string | _ => false end);
      [destruct (perform_super sys w a s l) as [[b w']|]
      |destruct (perform sys w a s l) as [[b w']|]]; reflexivity.
  Qed.

  Lemma read_ins x k v w : (x =? fst p)%string = false -> (k <= List.length v)%nat ->
    read sys c x (ins k v) w = read sys c x v w.
  Proof.
    intros H Hk. unfold read. rewrite lookup_ins; [reflexivity| |exact Hk].
    rewrite String.eqb_sym. exact H.
  Qed.

  Let x := fst p.

  Lemma weaken n :
    (forall e k v w, names x e = false -> (k <= List.length v)%nat ->
       eval sys c n e (ins k v) w = rm k (eval sys c n e v w))
    /\ (forall es k v w, names_args x es = false -> (k <= List.length v)%nat ->
       eval_args sys c n es (ins k v) w = rm k (eval_args sys c n es v w))
    /\ (forall r a ms k v w, names_msgs x ms = false -> (k <= List.length v)%nat ->
       cascade sys c n r a ms (ins k v) w = rm k (cascade sys c n r a ms v w))
    /\ (forall ss k v w, names_stmts x ss = false -> (k <= List.length v)%nat ->
       block sys c n ss (ins k v) w = rm k (block sys c n ss v w))
    /\ (forall on a b k v w, names_stmts x a = false -> names_stmts x b = false -> (k <= List.length v)%nat ->
       while sys c n on a b (ins k v) w = rm k (while sys c n on a b v w))
    /\ (forall b k v w, names_stmts x b = false -> (k <= List.length v)%nat ->
       repeat_ sys c n b (ins k v) w = rm k (repeat_ sys c n b v w))
    /\ (forall m b k v w, names_stmts x b = false -> (k <= List.length v)%nat ->
       times sys c n m b (ins k v) w = rm k (times sys c n m b v w))
    /\ (forall i m z y b k v w, names_stmts x b = false -> (k <= List.length v)%nat ->
       count sys c n i m z y b (ins k v) w = rm k (count sys c n i m z y b v w)).
  Proof.
    induction n as [|n (He & Ha & Hc & Hb & Hw & Hr & Ht & Hk)]; [cbn; tauto|].
    pose proof (shapes n) as (Se & Sa & Sc & Sb & Sw & Sr & St & Sk).
    repeat apply conj.
    - intros e k v w H Hl. destruct e; cbn [eval]; try reflexivity; cbn in H.
      + rewrite read_ins by assumption. destruct (read sys c x0 v w); reflexivity.
      + apply orb_false_iff in H. destruct H as [H1 H2].
        pose proof (form_names x e s args H1 H2) as Fn.
        destruct (form_of e s args).
        * destruct Fn. apply Hw; assumption.
        * apply Hr; assumption.
        * destruct Fn as (F1 & F2 & F3).
          eapply use_ins; [apply He; assumption|apply Se|assumption|]. intros [] v' w' L; try reflexivity; apply Hb; assumption.
        * destruct Fn as (F1 & F2).
          eapply use_ins; [apply He; assumption|apply Se|assumption|]. intros [] v' w' L; try reflexivity; apply Hb; assumption.
        * destruct Fn as (F1 & F2).
          eapply use_ins; [apply He; assumption|apply Se|assumption|]. intros [] v' w' L; try reflexivity; apply Hb; assumption.
        * destruct Fn as (F1 & F2).
          eapply use_ins; [apply He; assumption|apply Se|assumption|]. intros [] v' w' L; try reflexivity.
          eapply next_ins; [apply Ht; assumption|apply St|assumption|]. reflexivity.
        * destruct Fn as (F1 & F2 & F3).
          eapply use_ins; [apply He; assumption|apply Se|assumption|]. intros a v' w' L.
          eapply use_ins; [apply He; assumption|apply Se|assumption|]. intros z v2 w2 L2.
          destruct a; try reflexivity. destruct z; try reflexivity.
          eapply next_ins; [apply Hk; assumption|apply Sk|assumption|]. reflexivity.
        * eapply use_ins; [apply He; assumption|apply Se|assumption|]. intros a v' w' L.
          eapply bind_ins; [apply Ha; assumption|apply Sa|assumption|]. intros. apply message_ins.
      + apply orb_false_iff in H. destruct H as [H1 H2].
        eapply use_ins; [apply He; assumption|apply Se|assumption|]. intros. apply Hc; assumption.
      + apply orb_false_iff in H. destruct H as [H1 H2].
        eapply use_ins; [apply He; assumption|apply Se|assumption|]. intros. apply write_ins; assumption.
    - intros es k v w H Hl. destruct es; cbn [eval_args]; [reflexivity|]. cbn in H.
      apply orb_false_iff in H. destruct H as [H1 H2].
      eapply use_ins; [apply He; assumption|apply Se|assumption|]. intros a v' w' L.
      eapply bind_ins; [apply Ha; assumption|apply Sa|assumption|]. reflexivity.
    - intros r a ms k v w H Hl. destruct ms as [|ln s args ms]; cbn [cascade]; [reflexivity|]. cbn in H.
      apply orb_false_iff in H. destruct H as [H1 H2].
      assert (M : bind (eval_args sys c n args (ins k v) w) (fun l v w => message sys r a s l v w)
                  = rm k (bind (eval_args sys c n args v w) (fun l v w => message sys r a s l v w))).
      { eapply bind_ins; [apply Ha; assumption|apply Sa|assumption|]. intros. apply message_ins. }
      destruct ms; [exact M|]. eapply next_ins; [exact M| |exact Hl|].
      + apply shape_bind; [apply Sa|]. intros. apply message_shape.
      + intros. apply Hc; assumption.
    - intros ss k v w H Hl. destruct ss as [|e ss|e]; cbn [block]; [reflexivity| |]; cbn in H.
      + apply orb_false_iff in H. destruct H as [H1 H2].
        destruct ss; [apply He; assumption| |];
          (eapply next_ins; [apply He; assumption|apply Se|assumption|]; intros; apply Hb; assumption).
      + eapply use_ins; [apply He; assumption|apply Se|assumption|]. reflexivity.
    - intros on a b k v w H1 H2 Hl. cbn [while].
      eapply use_ins; [apply Hb; assumption|apply Sb|assumption|]. intros [] v' w' L; try reflexivity.
      + destruct on; try reflexivity.
        eapply next_ins; [apply Hb; assumption|apply Sb|assumption|]. intros; apply Hw; assumption.
      + destruct on; try reflexivity.
        eapply next_ins; [apply Hb; assumption|apply Sb|assumption|]. intros; apply Hw; assumption.
    - intros b k v w H Hl. cbn [repeat_].
      eapply next_ins; [apply Hb; assumption|apply Sb|assumption|]. intros; apply Hr; assumption.
    - intros m b k v w H Hl. cbn [times]. destruct (1 <=? m); [|reflexivity].
      eapply next_ins; [apply Hb; assumption|apply Sb|assumption|]. intros; apply Ht; assumption.
    - intros i m z y b k v w H Hl. rewrite !count_S.
      destruct (if 0 <? z then i <=? m else m <=? i); [|reflexivity].
      pose proof (Sb b ((y, VInt i) :: v) w) as B.
      assert (E := Hb b (S k) ((y, VInt i) :: v) w H ltac:(cbn; lia)). cbn [ins] in E. rewrite E.
      destruct (block sys c n b ((y, VInt i) :: v) w) as [o v' w'| | | |]; cbn in *; auto.
      destruct v' as [|a v']; [discriminate|]. cbn [tl ins]. injection B as _ B.
      apply Hk; [exact H|]. rewrite <- (map_length fst v'), B, map_length. exact Hl.
  Qed.
End Weak.
