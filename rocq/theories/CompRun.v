(** Code of the right shape does what the source says. *)
From Coq Require Import ZArith Lia List Bool Ascii String.
From Coq Require Import ZifyBool ZifyNat.
From Verif Require Import Base Bc BcProofs Comp CompSpec CompCode CompWeak.
Import ListNotations.
Local Open Scope string_scope.
Local Open Scope list_scope.
Local Open Scope Z_scope.

(** * Instructions in memory *)

Lemma flat_app a b : flat (a ++ b) = flat a ++ flat b.
Proof. apply flat_map_app. Qed.

Definition nx (b a : Z) : nat := List.length (compile_byte b a).

Lemma flat_cons b a is : flat ((b, a) :: is) = compile_byte b a ++ flat is.
Proof. reflexivity. Qed.

Lemma size_app a b : size (a ++ b) = size a + size b.
Proof. unfold size. rewrite flat_app, app_length. lia. Qed.

Lemma size_cons b a is : size ((b, a) :: is) = Z.of_nat (nx b a) + size is.
Proof. unfold size, nx. rewrite flat_cons, app_length. lia. Qed.

Lemma size_nil : size [] = 0.
Proof. reflexivity. Qed.

Lemma size_pos is : 0 <= size is.
Proof. unfold size. lia. Qed.

Lemma nx_small b a : 0 <= a < 256 -> nx b a = 1%nat.
Proof.
  intros H. unfold nx. rewrite compile_byte_cases by lia.
  replace (a <=? 255) with true by lia. reflexivity.
Qed.

Lemma lor_shift a x : 0 <= x < 256 -> Z.lor (Z.shiftl a 8) x = a * 256 + x.
Proof.
  intros H. rewrite Z.shiftl_mul_pow2 by lia. change (2 ^ 8) with 256.
  assert (N : Z.land (a * 256) x = 0).
  { apply Z.bits_inj'. intros n Hn. rewrite Z.land_spec, Z.bits_0.
    destruct (Z_lt_ge_dec n 8) as [J|J].
    - change 256 with (2 ^ 8). rewrite Z.mul_pow2_bits_low by lia. reflexivity.
    - assert (Z.testbit x n = false) as ->; [|apply andb_false_r].
      destruct (Z.eq_dec x 0) as [->|]; [apply Z.bits_0|].
      apply Z.bits_above_log2; [lia|].
      assert (Z.log2 x < 8) by (apply Z.log2_lt_pow2; lia). lia. }
  rewrite <- Z.lxor_lor by exact N. symmetry. apply Z.add_nocarry_lxor, N.
Qed.

Lemma fetch_byte b a r : 0 <= a < 2 ^ 31 -> b <> 55 ->
  fetch 0 (compile_byte b a ++ r) = Some (b, a, nx b a).
Proof.
  intros H Hb. unfold nx. rewrite compile_byte_cases by exact H.
  change (2 ^ 31) with 2147483648 in H.
  assert (Eb : (b =? ext_byte) = false) by (unfold ext_byte; lia).
  repeat match goal with |- context [if ?x <=? ?y then _ else _] => destruct (Z.leb_spec x y) end;
    cbn [fetch app List.length];
    rewrite ?Eb; change (55 =? ext_byte) with true; cbv beta iota;
    rewrite ?Eb; rewrite !lor_shift by lia; repeat f_equal; lia.
Qed.

Section Sim.
  Variable W : Type.
  Variable sys : system W.
  Hypothesis Snd : sound sys.
  Variable c : ctx.
  Variable L : list lit.
  Variable limit : Z.
  Variable code : list (Z * Z).
  Variable N : nat.
  Hypothesis Hcode : Z.of_nat (List.length code) < 2 ^ 23.
  Hypothesis HL : Z.of_nat (List.length L) < 2 ^ 16.
  Hypothesis Hiv : Z.of_nat (List.length (c_ivars c)) < 2 ^ 16.
  Hypothesis HN : Z.of_nat N < 2 ^ 16.

  Definition at_ (p : nat) (is : list (Z * Z)) : Prop :=
    exists pre post, code = pre ++ flat is ++ post /\ List.length pre = p.

  Lemma at_app p a b : at_ p (a ++ b) -> at_ p a /\ at_ (p + Z.to_nat (size a)) b.
  Proof.
    intros (pre & post & E & H). rewrite flat_app in E. split.
    - exists pre, (flat b ++ post). rewrite E, <- app_assoc. auto.
    - exists (pre ++ flat a), post. rewrite E, <- !app_assoc. split; [reflexivity|].
      rewrite app_length. unfold size. lia.
  Qed.

  Lemma at_cons p b a is : at_ p ((b, a) :: is) -> at_ (p + nx b a) is.
  Proof.
    intros H. apply (at_app p [(b, a)] is) in H. destruct H as [_ H].
    rewrite size_cons, size_nil in H.
    replace (p + nx b a)%nat with (p + Z.to_nat (Z.of_nat (nx b a) + 0))%nat by lia. exact H.
  Qed.

  Lemma at_size p is : at_ p is -> size is < 2 ^ 23.
  Proof.
    intros (pre & post & E & _). unfold size. rewrite E, !app_length in Hcode. lia.
  Qed.

  Lemma step_at p b a is stk sl w : at_ p ((b, a) :: is) -> 0 <= a < 2 ^ 31 -> b <> 55 ->
    step sys L limit code (Mst p stk sl w)
    = execute sys L limit b a (Mst (p + nx b a) stk sl w).
  Proof.
    intros (pre & post & E & H) Ha Hb. unfold step. cbn [ip].
    rewrite E, <- H, skipn_app, skipn_all, Nat.sub_diag. cbn [skipn app].
    rewrite flat_cons, <- app_assoc, fetch_byte by assumption. reflexivity.
  Qed.

  Inductive star : mst W -> mst W -> Prop :=
  | star_refl s : star s s
  | star_step s s1 s2 : step sys L limit code s = Next s1 -> star s1 s2 -> star s s2.

  Lemma star_trans a b d : star a b -> star b d -> star a d.
  Proof. induction 1; eauto using star. Qed.

  Definition goes (s : mst W) (d : did W) : Prop :=
    exists s', star s s' /\ step sys L limit code s' = d.

  Lemma star_goes a b d : star a b -> goes b d -> goes a d.
  Proof. intros S1 (s' & S2 & E). exists s'. eauto using star_trans. Qed.

  (** * Environments *)

  Definition slot (y : string * nat * bool) : nat := snd (fst y).

  Definition wf (l : syms) : Prop := NoDup (map slot l).

  Definition env_ok (l : syms) (v : env) (sl : list value) : Prop :=
    List.length sl = N
    /\ Forall2 (fun y a => fst (fst y) = fst a /\ nth_error sl (slot y) = Some (snd a)) l v.

  Fixpoint kept (l : syms) (v v' : env) : Prop :=
    match l, v, v' with
    | y :: l, a :: v, a' :: v' => (snd y = true -> a = a') /\ kept l v v'
    | _, _, _ => True
    end.

  Lemma kept_refl l v : kept l v v.
  Proof. revert v. induction l; destruct v; cbn; auto. Qed.

  Lemma kept_trans l v1 v2 v3 : List.length v1 = List.length l -> List.length v2 = List.length l ->
    List.length v3 = List.length l ->
    kept l v1 v2 -> kept l v2 v3 -> kept l v1 v3.
  Proof.
    revert v1 v2 v3. induction l as [|y l IH]; intros [|a v1] [|b v2] [|d v3]; cbn; try discriminate; auto.
    intros H1 H2 H3 [A B] [A' B']. split; [intros H; rewrite A, A' by exact H; reflexivity|].
    eapply IH; [..|exact B|exact B']; lia.
  Qed.

  Lemma env_ok_len l v sl : env_ok l v sl -> List.length v = List.length l.
  Proof. intros [_ F]. induction F; cbn; congruence. Qed.

  Definition fin {A} (s : mst W) (l : syms) (v : env) (q : nat) (S : A -> list value -> Prop)
      (r : result W A) : Prop :=
    match r with
    | Val o v' w' => exists stk sl, star s (Mst q stk sl w') /\ S o stk /\ env_ok l v' sl /\ kept l v v'
    | Answer a w' => goes s (Done a w')
    | Gone => goes s Left
    | Error | NoEnd => True
    end.

  Lemma fin_star {A} s s' l v q (S : A -> list value -> Prop) r :
    star s s' -> fin s' l v q S r -> fin s l v q S r.
  Proof.
    intros T. destruct r; cbn; eauto using star_goes.
    intros (stk & sl & T' & H). exists stk, sl. eauto using star_trans.
  Qed.

  Lemma fin_bind {A B} s l v q1 q (S1 : A -> list value -> Prop) (S2 : B -> list value -> Prop) r k :
    List.length v = List.length l ->
    fin s l v q1 S1 r ->
    (forall o v' w' stk sl, r = Val o v' w' -> S1 o stk -> env_ok l v' sl -> kept l v v' ->
       fin (Mst q1 stk sl w') l v' q S2 (k o v' w')) ->
    fin s l v q S2 (bind r k).
  Proof.
    intros Hl F K. destruct r; cbn in *; auto.
    destruct F as (stk & sl & T & H & E & Kp). specialize (K _ _ _ _ _ eq_refl H E Kp).
    eapply fin_star; [exact T|]. destruct (k o v0 w); cbn in *; auto.
    destruct K as (stk' & sl' & T' & H' & E' & K'). exists stk', sl'.
    repeat split; auto; try apply E'.
    eapply kept_trans; [exact Hl| | |exact Kp|exact K']; eapply env_ok_len; eassumption.
  Qed.

  Definition one (stk : list value) (o : option value) (stk' : list value) : Prop :=
    exists x, stk' = x :: stk /\ (forall a, o = Some a -> x = a).

  Lemma fin_use {B} s l v q1 q stk (S2 : B -> list value -> Prop) r k :
    List.length v = List.length l ->
    fin s l v q1 (one stk) r ->
    (forall a v' w' sl, r = Val (Some a) v' w' -> env_ok l v' sl -> kept l v v' ->
       fin (Mst q1 (a :: stk) sl w') l v' q S2 (k a v' w')) ->
    fin s l v q S2 (use r k).
  Proof.
    intros Hl F K. unfold use. eapply fin_bind; [exact Hl|exact F|].
    intros [a|] v' w' stk' sl E (x & -> & Hx) He Kp; [|exact I].
    rewrite (Hx a eq_refl). eapply K; eauto.
  Qed.

  Lemma fin_next {B} s l v q1 q stk (S2 : B -> list value -> Prop) r k :
    List.length v = List.length l ->
    fin s l v q1 (one stk) r ->
    (forall x o v' w' sl, r = Val o v' w' -> env_ok l v' sl -> kept l v v' ->
       fin (Mst q1 (x :: stk) sl w') l v' q S2 (k v' w')) ->
    fin s l v q S2 (next r k).
  Proof.
    intros Hl F K. unfold next. eapply fin_bind; [exact Hl|exact F|].
    intros o v' w' stk' sl E (x & -> & Hx) He Kp. eapply K; eauto.
  Qed.

  Lemma fin_ret stk x o v l q sl w : env_ok l v sl -> (forall a, o = Some a -> x = a) ->
    fin (Mst q (x :: stk) sl w) l v q (one stk) (Val o v w).
  Proof.
    intros E H. exists (x :: stk), sl. split; [apply star_refl|]. split; [exists x; auto|].
    split; [exact E|apply kept_refl].
  Qed.

  (** * Single instructions *)

  Lemma one_step p b a is stk sl w s' :
    at_ p ((b, a) :: is) -> 0 <= a < 2 ^ 31 -> b <> 55 ->
    execute sys L limit b a (Mst (p + nx b a) stk sl w) = Next s' ->
    star (Mst p stk sl w) s'.
  Proof.
    intros A Ha Hb E. eapply star_step; [|apply star_refl]. rewrite (step_at _ _ _ _ _ _ _ A Ha Hb). exact E.
  Qed.

  Lemma push_ok v (s : mst W) : Z.of_nat (List.length (stack s)) < limit ->
    push limit v s = Next (Mst (ip s) (v :: stack s) (slots s) (world s)).
  Proof.
    intros H. unfold push. replace (Z.of_nat (List.length (stack s)) <? limit) with true by lia.
    reflexivity.
  Qed.

  Lemma move_fwd n p stk sl (w : W) : 0 <= n ->
    move (2 * n) (Mst p stk sl w) = Next (Mst (p + Z.to_nat n) stk sl w).
  Proof.
    intros H. unfold move. cbn [ip stack slots world].
    rewrite Z.odd_mul. change (Z.odd 2) with false. cbn [andb orb].
    assert (Z.shiftr (2 * n) 1 = n) as ->.
    { rewrite Z.shiftr_div_pow2 by lia. change (2 ^ 1) with 2. lia. }
    replace (Z.of_nat p + n <? 0) with false by lia. do 2 f_equal. lia.
  Qed.

  Lemma move_back n p stk sl (w : W) : 0 <= n <= Z.of_nat p ->
    move (- (2 * n)) (Mst p stk sl w) = Next (Mst (p - Z.to_nat n) stk sl w).
  Proof.
    intros H. unfold move. cbn [ip stack slots world].
    rewrite Z.odd_opp, Z.odd_mul. change (Z.odd 2) with false. cbn [andb orb].
    assert (Z.shiftr (- (2 * n)) 1 = - n) as ->.
    { rewrite Z.shiftr_div_pow2 by lia. change (2 ^ 1) with 2. lia. }
    replace (Z.of_nat p + - n <? 0) with false by lia. do 2 f_equal. lia.
  Qed.

  Ltac big := match goal with |- _ <= _ < _ => idtac end;
    change (2 ^ 31) with 2147483648; change (2 ^ 23) with 8388608 in *;
    change (2 ^ 16) with 65536 in *; lia.

  Lemma ex_dup a q x stk sl w : Z.of_nat (List.length stk) + 2 <= limit ->
    execute sys L limit bc_dup a (Mst q (x :: stk) sl w) = Next (Mst q (x :: x :: stk) sl w).
  Proof. intros H. apply (push_ok x). cbn [stack List.length]. lia. Qed.
  Lemma ex_pop a q x stk sl w :
    execute sys L limit bc_pop a (Mst q (x :: stk) sl w) = Next (Mst q stk sl w).
  Proof. reflexivity. Qed.
  Lemma ex_line a s : execute sys L limit bc_line a s = Next s.
  Proof. reflexivity. Qed.
  Lemma ex_int a q stk sl w : Z.of_nat (List.length stk) + 1 <= limit ->
    execute sys L limit bc_push_integer a (Mst q stk sl w) = Next (Mst q (VInt a :: stk) sl w).
  Proof. intros H. apply (push_ok (VInt a)). cbn [stack]. lia. Qed.
  Lemma ex_nil q stk sl w : Z.of_nat (List.length stk) + 1 <= limit ->
    execute sys L limit bc_push_special 0 (Mst q stk sl w) = Next (Mst q (VNil :: stk) sl w).
  Proof. intros H. apply (push_ok VNil). cbn [stack]. lia. Qed.
  Lemma ex_temp i a q stk sl w : Z.of_nat (List.length stk) + 1 <= limit ->
    nth_error sl i = Some a ->
    execute sys L limit bc_push_temp (Z.of_nat i) (Mst q stk sl w) = Next (Mst q (a :: stk) sl w).
  Proof.
    intros H E. unfold execute. cbn -[nth_error Z.to_nat push]. rewrite Nat2Z.id, E.
    apply (push_ok a). cbn [stack]. lia.
  Qed.
  Lemma ex_store i a q stk sl sl' w : put i a sl = Some sl' ->
    execute sys L limit bc_store_temp (Z.of_nat i) (Mst q (a :: stk) sl w)
    = Next (Mst q (a :: stk) sl' w).
  Proof. intros E. unfold execute. cbn -[put Z.to_nat]. rewrite Nat2Z.id, E. reflexivity. Qed.
  Lemma ex_jump n q stk sl w : 0 <= n ->
    execute sys L limit bc_jump (2 * n) (Mst q stk sl w) = Next (Mst (q + Z.to_nat n) stk sl w).
  Proof. apply move_fwd. Qed.
  Lemma ex_back n q stk sl w : 0 <= n <= Z.of_nat q ->
    execute sys L limit bc_jump_back (2 * n) (Mst q stk sl w)
    = Next (Mst (q - Z.to_nat n) stk sl w).
  Proof. apply move_back. Qed.
  Lemma ex_pj_on n on q stk sl w : on = VTrue \/ on = VFalse -> 0 <= n ->
    execute sys L limit (pj on) (2 * n) (Mst q (on :: stk) sl w)
    = Next (Mst (q + Z.to_nat n) stk sl w).
  Proof. intros [->| ->]; apply move_fwd. Qed.
  Lemma ex_pjt_on n q stk sl w : 0 <= n ->
    execute sys L limit bc_pop_jump_true (2 * n) (Mst q (VTrue :: stk) sl w)
    = Next (Mst (q + Z.to_nat n) stk sl w).
  Proof. apply move_fwd. Qed.
  Lemma ex_pjf_on n q stk sl w : 0 <= n ->
    execute sys L limit bc_pop_jump_false (2 * n) (Mst q (VFalse :: stk) sl w)
    = Next (Mst (q + Z.to_nat n) stk sl w).
  Proof. apply move_fwd. Qed.
  Lemma ex_pjt_off a q stk sl w :
    execute sys L limit bc_pop_jump_true a (Mst q (VFalse :: stk) sl w) = Next (Mst q stk sl w).
  Proof. reflexivity. Qed.
  Lemma ex_pjf_off a q stk sl w :
    execute sys L limit bc_pop_jump_false a (Mst q (VTrue :: stk) sl w) = Next (Mst q stk sl w).
  Proof. reflexivity. Qed.
  Lemma ex_ge q a b stk sl w :
    execute sys L limit bc_greater_equal 0 (Mst q (VInt b :: VInt a :: stk) sl w)
    = Next (Mst q ((if b <=? a then VTrue else VFalse) :: stk) sl w).
  Proof.
    change (match perform sys w (VInt a) ">=" [VInt b] with
            | Some (v, w') => Next (Mst q (v :: stk) sl w') | None => Left end
            = Next (Mst q ((if b <=? a then VTrue else VFalse) :: stk) sl w)).
    rewrite (sound_ge _ Snd). reflexivity.
  Qed.
  Lemma ex_le q a b stk sl w :
    execute sys L limit bc_less_equal 0 (Mst q (VInt b :: VInt a :: stk) sl w)
    = Next (Mst q ((if a <=? b then VTrue else VFalse) :: stk) sl w).
  Proof.
    change (match perform sys w (VInt a) "<=" [VInt b] with
            | Some (v, w') => Next (Mst q (v :: stk) sl w') | None => Left end
            = Next (Mst q ((if a <=? b then VTrue else VFalse) :: stk) sl w)).
    rewrite (sound_le _ Snd). reflexivity.
  Qed.
  Lemma ex_plus q a b stk sl w :
    execute sys L limit bc_plus 0 (Mst q (VInt b :: VInt a :: stk) sl w)
    = Next (Mst q (VInt (a + b) :: stk) sl w).
  Proof.
    change (match perform sys w (VInt a) "+" [VInt b] with
            | Some (v, w') => Next (Mst q (v :: stk) sl w') | None => Left end
            = Next (Mst q (VInt (a + b) :: stk) sl w)).
    rewrite (sound_plus _ Snd). reflexivity.
  Qed.
  Lemma ex_minus q a b stk sl w :
    execute sys L limit bc_minus 0 (Mst q (VInt b :: VInt a :: stk) sl w)
    = Next (Mst q (VInt (a - b) :: stk) sl w).
  Proof.
    change (match perform sys w (VInt a) "-" [VInt b] with
            | Some (v, w') => Next (Mst q (v :: stk) sl w') | None => Left end
            = Next (Mst q (VInt (a - b) :: stk) sl w)).
    rewrite (sound_minus _ Snd). reflexivity.
  Qed.

  Lemma line_star p pre is stk sl w : Line pre -> at_ p (pre ++ is) ->
    star (Mst p stk sl w) (Mst (p + Z.to_nat (size pre)) stk sl w)
    /\ at_ (p + Z.to_nat (size pre)) is.
  Proof.
    intros H A. split; [|apply (at_app _ _ _ A)]. inversion H; subst.
    - rewrite size_nil, Nat.add_0_r. apply star_refl.
    - rewrite size_cons, size_nil. cbn [app] in A.
      replace (p + Z.to_nat (Z.of_nat (nx bc_line n) + 0))%nat with (p + nx bc_line n)%nat by lia.
      eapply one_step; [exact A|assumption|discriminate|]. reflexivity.
  Qed.

  Lemma pop_n_app a st : pop_n (List.length a) (a ++ st) = Some (a, st).
  Proof. induction a as [|x a IH]; cbn; [reflexivity|]. rewrite IH. reflexivity. Qed.

  Lemma ex_send (super : bool) sel args r k q stk sl w :
    send sys super sel (List.length args)
         (Mst q ((if super then [k] else []) ++ rev args ++ r :: stk) sl w)
    = match (if super then perform_super sys else perform sys) w r sel args with
      | Some (v, w') => Next (Mst q (v :: stk) sl w')
      | None => Left
      end.
  Proof.
    unfold send. rewrite <- (rev_length args).
    assert (E : match (if super
       then match stack (Mst q ((if super then [k] else []) ++ rev args ++ r :: stk) sl w) with
            | [] => None | _ :: st => Some st end
       else Some (stack (Mst q ((if super then [k] else []) ++ rev args ++ r :: stk) sl w)))
       with Some st => st | None => [] end = rev args ++ r :: stk) by (destruct super; reflexivity).
    destruct super; cbn [stack app] in *; rewrite pop_n_app, rev_involutive; reflexivity.
  Qed.

  Lemma pushlit_star p l i is stk sl w : PushesLit L l i -> (forall g, l <> LVar g) ->
    at_ p (i :: is) -> Z.of_nat (List.length stk) + 1 <= limit ->
    star (Mst p stk sl w)
      (Mst (p + nx (fst i) (snd i)) ((match l with LInt z => VInt z | _ => object sys l end) :: stk) sl w).
  Proof.
    intros H Hl A R. inversion H; subst; cbn [fst snd].
    - eapply one_step; [exact A|big|discriminate|]. apply ex_int, R.
    - assert (j < List.length L)%nat by (apply nth_error_Some; congruence).
      eapply one_step; [exact A|big|discriminate|]. unfold execute.
      cbn -[nth_error Z.to_nat push]. rewrite Nat2Z.id, H0.
      destruct l; try (apply (push_ok (object sys _)); cbn [stack]; lia).
      + rewrite (sound_int _ Snd). apply (push_ok (VInt z)). cbn [stack]; lia.
      + exfalso. eapply Hl. reflexivity.
  Qed.

  Lemma sends_star super s args is p r stk sl w :
    Sends L super s (List.length args) is -> at_ p is ->
    Z.of_nat (List.length args + 1 + List.length stk) + bump super <= limit ->
    match (if super then perform_super sys w r s args else perform sys w r s args) with
    | Some (v, w') => star (Mst p (rev args ++ r :: stk) sl w)
                           (Mst (p + Z.to_nat (size is)) (v :: stk) sl w')
    | None => goes (Mst p (rev args ++ r :: stk) sl w) Left
    end.
  Proof.
    intros H A R.
    assert (K : forall b a k q (sup : bool), at_ q [(b, a)] -> 0 <= a < 2 ^ 31 -> b <> 55 ->
      execute sys L limit b a (Mst (q + nx b a) ((if sup then [k] else []) ++ rev args ++ r :: stk) sl w)
      = send sys sup s (List.length args)
          (Mst (q + nx b a) ((if sup then [k] else []) ++ rev args ++ r :: stk) sl w) ->
      match (if sup then perform_super sys w r s args else perform sys w r s args) with
      | Some (v, w') => star (Mst q ((if sup then [k] else []) ++ rev args ++ r :: stk) sl w)
                             (Mst (q + nx b a) (v :: stk) sl w')
      | None => goes (Mst q ((if sup then [k] else []) ++ rev args ++ r :: stk) sl w) Left
      end).
    { intros b a k q sup A' Ha Hb E. rewrite ex_send in E.
      destruct sup.
      - destruct (perform_super sys w r s args) as [[v w']|].
        + eapply one_step; [exact A'|exact Ha|exact Hb|exact E].
        + eexists. split; [apply star_refl|]. rewrite (step_at _ _ _ _ _ _ _ A' Ha Hb). exact E.
      - destruct (perform sys w r s args) as [[v w']|].
        + eapply one_step; [exact A'|exact Ha|exact Hb|exact E].
        + eexists. split; [apply star_refl|]. rewrite (step_at _ _ _ _ _ _ _ A' Ha Hb). exact E. }
    assert (Sh : forall j n, (n < 256)%nat ->
      Z.to_nat (Z.shiftr (Z.lor (Z.shiftl (Z.of_nat j) 8) (Z.of_nat n)) 8) = j
      /\ Z.to_nat (Z.land (Z.lor (Z.shiftl (Z.of_nat j) 8) (Z.of_nat n)) 255) = n
      /\ (Z.lor (Z.shiftl (Z.of_nat j) 8) (Z.of_nat n)) = Z.of_nat j * 256 + Z.of_nat n).
    { intros j n Hn. rewrite lor_shift by lia. rewrite shr8, land255. lia. }
    inversion H; subst.
    - rewrite size_cons, size_nil.
      replace (p + Z.to_nat (Z.of_nat (nx b 0) + 0))%nat with (p + nx b 0)%nat by lia.
      apply (K b 0 VNil p false); [exact A|lia|lia|].
      unfold execute. replace (b <? 27) with true by lia. unfold send_builtin. rewrite H0. reflexivity.
    - rewrite size_cons, size_nil.
      replace (p + Z.to_nat (Z.of_nat (nx bc_send_immediate b) + 0))%nat
        with (p + nx bc_send_immediate b)%nat by lia.
      apply (K _ b VNil p false); [exact A|big|discriminate|].
      unfold execute. cbn -[send_builtin]. unfold send_builtin. rewrite H0. reflexivity.
    - assert (j < List.length L)%nat by (apply nth_error_Some; congruence).
      destruct (Sh j _ H1) as (S1 & S2 & S3).
      rewrite size_cons, size_nil. set (a := Z.lor _ _) in *.
      replace (p + Z.to_nat (Z.of_nat (nx bc_send a) + 0))%nat
        with (p + nx bc_send a)%nat by lia.
      apply (K _ a VNil p false); [exact A|rewrite S3; big|discriminate|].
      unfold execute. cbn -[send nth_error Z.to_nat Z.shiftr Z.land]. rewrite S1, S2, H0. reflexivity.
    - destruct i as [i1 i2]. rewrite size_cons, size_cons, size_nil.
      pose proof (pushlit_star p LClass (i1, i2) _ (rev args ++ r :: stk) sl w H2 ltac:(discriminate) A) as P.
      assert (A' : at_ (p + nx i1 i2) [(bc_send_super_immediate, b)])
        by (apply at_cons in A; exact A).
      specialize (K bc_send_super_immediate b (object sys LClass) (p + nx i1 i2)%nat true A'
                    ltac:(big) ltac:(discriminate)).
      cbn [fst snd] in *.
      assert (star (Mst p (rev args ++ r :: stk) sl w)
                (Mst (p + nx i1 i2) (object sys LClass :: rev args ++ r :: stk) sl w)) as P'.
      { apply P. rewrite app_length, rev_length. cbn [List.length bump] in *. lia. }
      assert (K' := K ltac:(unfold execute; cbn -[send_builtin]; unfold send_builtin; rewrite H0; reflexivity)).
      cbn [app] in K'.
      destruct (perform_super sys w r s args) as [[v w']|].
      + eapply star_trans; [exact P'|].
        replace (p + Z.to_nat (Z.of_nat (nx i1 i2) + (Z.of_nat (nx bc_send_super_immediate b) + 0)))%nat
          with (p + nx i1 i2 + nx bc_send_super_immediate b)%nat by lia. exact K'.
      + eapply star_goes; [exact P'|exact K'].
    - assert (j < List.length L)%nat by (apply nth_error_Some; congruence).
      destruct (Sh j _ H1) as (S1 & S2 & S3).
      destruct i as [i1 i2]. rewrite size_cons, size_cons, size_nil. set (a := Z.lor _ _) in *.
      pose proof (pushlit_star p LClass (i1, i2) _ (rev args ++ r :: stk) sl w H2 ltac:(discriminate) A) as P.
      assert (A' : at_ (p + nx i1 i2) [(bc_send_super, a)])
        by (apply at_cons in A; exact A).
      specialize (K bc_send_super a (object sys LClass) (p + nx i1 i2)%nat true A'
                    ltac:(rewrite S3; big) ltac:(discriminate)).
      cbn [fst snd] in *.
      assert (star (Mst p (rev args ++ r :: stk) sl w)
                (Mst (p + nx i1 i2) (object sys LClass :: rev args ++ r :: stk) sl w)) as P'.
      { apply P. rewrite app_length, rev_length. cbn [List.length bump] in *. lia. }
      assert (K' := K ltac:(unfold execute; cbn -[send nth_error Z.to_nat Z.shiftr Z.land]; rewrite S1, S2, H0; reflexivity)).
      cbn [app] in K'.
      destruct (perform_super sys w r s args) as [[v w']|].
      + eapply star_trans; [exact P'|].
        replace (p + Z.to_nat (Z.of_nat (nx i1 i2) + (Z.of_nat (nx bc_send_super a) + 0)))%nat
          with (p + nx i1 i2 + nx bc_send_super a)%nat by lia. exact K'.
      + eapply star_goes; [exact P'|exact K'].
  Qed.

  (** * Variables *)

  Lemma place_index x n l :
    place x n l = match ivar_index x l with Some i => Some (n + i)%nat | None => None end.
  Proof.
    revert n. induction l as [|y l IH]; intros n; cbn; [reflexivity|]. rewrite IH.
    destruct (ivar_index x l) as [i|].
    - f_equal. lia.
    - rewrite String.eqb_sym. destruct (x =? y)%string; [f_equal; lia|reflexivity].
  Qed.

  Lemma ivar_bound x l i : ivar_index x l = Some i -> (i < List.length l)%nat.
  Proof.
    revert i. induction l as [|y l IH]; intros i; cbn; [discriminate|].
    destruct (ivar_index x l) as [j|].
    - intros [= <-]. specialize (IH j eq_refl). lia.
    - destruct (x =? y)%string; [|discriminate]. intros [= <-]. lia.
  Qed.

  Lemma local_lookup x l v sl : env_ok l v sl ->
    match find_local x l with
    | Some (i, _) => exists a, lookup x v = Some a /\ nth_error sl i = Some a
    | None => lookup x v = None
    end.
  Proof.
    intros [_ F]. induction F as [|[[y i] ro] [z a] l v [E1 E2] F IH]; cbn in *; [reflexivity|].
    subst z. rewrite String.eqb_sym. destruct (y =? x)%string; [eauto|exact IH].
  Qed.

  Lemma var_star l v sl p x en i is stk w :
    env_ok l v sl -> find_variable c (scope l) x = Some en -> Pushes L en i ->
    at_ p (i :: is) -> Z.of_nat (List.length stk) + 1 <= limit ->
    exists a, read sys c x v w = Some a
      /\ star (Mst p stk sl w) (Mst (p + nx (fst i) (snd i)) (a :: stk) sl w).
  Proof.
    intros E F P A R. unfold find_variable in F. unfold read. cbn [s_syms scope] in F.
    assert (Sp : forall n a, 0 <= n <= 2 -> (n = 0 -> a = VNil) -> (n = 1 -> a = VTrue) -> (n = 2 -> a = VFalse) ->
      Some (InSpecial n) = Some en ->
      star (Mst p stk sl w) (Mst (p + nx (fst i) (snd i)) (a :: stk) sl w)).
    { intros n a Hn H0 H1 H2 [= <-]. inversion P; subst. cbn [fst snd].
      eapply one_step; [exact A|big|discriminate|].
      assert (n = 0 \/ n = 1 \/ n = 2) as [->|[->| ->]] by lia.
      - rewrite H0 by reflexivity. apply (push_ok VNil). cbn [stack]; lia.
      - rewrite H1 by reflexivity. apply (push_ok VTrue). cbn [stack]; lia.
      - rewrite H2 by reflexivity. apply (push_ok VFalse). cbn [stack]; lia. }
    destruct ((x =? "self") || (x =? "super"))%string.
    { eexists; split; [reflexivity|]. injection F as <-. inversion P; subst. cbn [fst snd].
      eapply one_step; [exact A|big|discriminate|]. apply (push_ok (receiver sys)). cbn [stack]; lia. }
    destruct (x =? "true")%string.
    { eexists; split; [reflexivity|]. eapply Sp; [| | | |exact F]; unfold true_index; try lia; auto. }
    destruct (x =? "false")%string.
    { eexists; split; [reflexivity|]. eapply Sp; [| | | |exact F]; unfold false_index; try lia; auto. }
    destruct (x =? "nil")%string.
    { eexists; split; [reflexivity|]. eapply Sp; [| | | |exact F]; unfold nil_index; try lia; auto. }
    destruct (x =? "thisContext")%string; [discriminate|].
    pose proof (local_lookup x l v sl E) as LL.
    destruct (find_local x l) as [[k ro]|].
    { destruct LL as (a & -> & Ha). exists a. split; [reflexivity|]. injection F as <-.
      inversion P; subst. cbn [fst snd].
      assert (k < List.length sl)%nat by (apply nth_error_Some; congruence).
      destruct E as [En _].
      eapply one_step; [exact A|big|discriminate|]. apply ex_temp; assumption. }
    rewrite LL, place_index. destruct (ivar_index x (c_ivars c)) as [k|] eqn:Ek.
    { eexists; split; [reflexivity|]. injection F as <-. inversion P; subst. cbn [fst snd].
      apply ivar_bound in Ek.
      eapply one_step; [exact A|big|discriminate|]. unfold execute. cbn -[push Z.to_nat].
      rewrite Nat2Z.id. apply (push_ok (inst_get sys w k)). cbn [stack]; lia. }
    destruct (c_global c x) eqn:Eg; [|discriminate].
    eexists; split; [reflexivity|]. injection F as <-. inversion P; subst. cbn [fst snd].
    assert (j < List.length L)%nat by (apply nth_error_Some; congruence).
    eapply one_step; [exact A|big|discriminate|]. unfold execute. cbn -[push Z.to_nat nth_error].
    rewrite Nat2Z.id, H0. apply (push_ok (global_get sys w x)). cbn [stack]; lia.
  Qed.

  Lemma put_ok i a sl : (i < List.length sl)%nat ->
    exists sl', put i a sl = Some sl' /\ List.length sl' = List.length sl
      /\ nth_error sl' i = Some a /\ (forall j, j <> i -> nth_error sl' j = nth_error sl j).
  Proof.
    revert i. induction sl as [|y sl IH]; intros i H; cbn in H; [lia|].
    destruct i as [|i].
    - exists (a :: sl). repeat split; auto. intros [|j] Hj; [lia|reflexivity].
    - destruct (IH i ltac:(lia)) as (sl' & E & E1 & E2 & E3). exists (y :: sl'). cbn. rewrite E.
      split; [reflexivity|]. split; [cbn; lia|]. split; [exact E2|].
      intros [|j] Hj; [reflexivity|]. cbn. apply E3. lia.
  Qed.

  Lemma assign_ok l v sl sl' x i a : wf l -> env_ok l v sl -> find_local x l = Some (i, false) ->
    List.length sl' = List.length sl -> nth_error sl' i = Some a ->
    (forall j, j <> i -> nth_error sl' j = nth_error sl j) ->
    exists v', assign x a v = Some v' /\ env_ok l v' sl' /\ kept l v v'.
  Proof.
    intros Wf [En F] Fx E1 E2 E3.
    assert (G : exists v', assign x a v = Some v' /\ kept l v v' /\
      Forall2 (fun y b => fst (fst y) = fst b /\ nth_error sl' (slot y) = Some (snd b)) l v').
    { clear En. induction F as [|[[y k] ro] [z b] l v [H1 H2] F IH]; cbn in *; [discriminate|].
      subst z. apply NoDup_cons_iff in Wf. destruct Wf as [Nin Wf].
      rewrite (String.eqb_sym y x). destruct (x =? y)%string eqn:Ey.
      - injection Fx as -> ->. exists ((y, a) :: v). split; [reflexivity|]. cbn. split.
        + split; [discriminate|]. apply kept_refl.
        + constructor; [auto|]. clear - F Nin E3. unfold slot in *. cbn [fst snd] in *.
          induction F as [|[[y' k'] ro'] [z' b'] l v [H1 H2] F IH]; constructor; cbn in *.
          * split; [exact H1|]. rewrite E3; [exact H2|]. intros ->. apply Nin. left. reflexivity.
          * apply IH. intros H. apply Nin. right. exact H.
      - destruct (IH Wf Fx) as (v' & -> & K & F'). exists ((y, b) :: v'). split; [reflexivity|].
        cbn. split; [split; [reflexivity|exact K]|]. constructor; [|exact F'].
        cbn. split; [reflexivity|]. unfold slot in *. cbn [fst snd] in *.
        assert (k <> i).
        { intros ->. apply Nin. clear - Fx. induction l as [|[[y' k'] ro'] l IH]; cbn in *; [discriminate|].
          destruct (x =? y')%string; [injection Fx as -> _; left; reflexivity|right; auto]. }
        rewrite E3 by assumption. exact H2. }
    destruct G as (v' & E & K & F'). exists v'. repeat split; auto. congruence.
  Qed.

  Lemma assign_none x a v : lookup x v = None -> assign x a v = None.
  Proof.
    induction v as [|[y b] v IH]; cbn; [reflexivity|]. destruct (y =? x)%string; [discriminate|].
    intros H. rewrite IH by exact H. reflexivity.
  Qed.

  Lemma stores_fin l ts is : Stores c L l ts is -> forall p a v sl w stk,
    wf l -> env_ok l v sl -> at_ p is -> Z.of_nat (List.length stk) + 1 <= limit ->
    fin (Mst p (a :: stk) sl w) l v (p + Z.to_nat (size is)) (one stk) (write_all sys c ts a v w).
  Proof.
    induction 1; intros p a v sl w stk Wf E A R; cbn [write_all].
    - rewrite size_nil, Nat.add_0_r. apply fin_ret; [exact E|]. intros b [= ->]. reflexivity.
    - destruct (line_star _ _ _ (a :: stk) sl w H0 A) as [T A1]. eapply fin_star; [exact T|].
      unfold find_variable in H. cbn [s_syms scope] in H.
      repeat match type of H with (if ?b then _ else _) = _ => destruct b; [discriminate|] end.
      destruct (find_local x l) as [[k ro]|] eqn:Ek.
      2:{ destruct (ivar_index x (c_ivars c)); [discriminate|]. destruct (c_global c x); discriminate. }
      injection H as -> ->.
      pose proof (local_lookup x l v sl E) as LL. rewrite Ek in LL. destruct LL as (b & Lb & Hb).
      assert (Hi : (i < List.length sl)%nat) by (apply nth_error_Some; congruence).
      destruct (put_ok i a sl Hi) as (sl' & P & P1 & P2 & P3).
      destruct (assign_ok l v sl sl' x i a Wf E Ek P1 P2 P3) as (v' & Ea & E' & K).
      unfold write. rewrite Ea.
      eapply fin_star.
      { eapply one_step; [exact A1|destruct E; big|discriminate|]. apply ex_store, P. }
      apply at_cons in A1. specialize (IHStores _ a v' sl' w stk Wf E' A1 R).
      rewrite size_app, size_cons.
      match type of IHStores with fin ?s _ _ ?q _ _ =>
        replace (p + Z.to_nat (size pre + (Z.of_nat (nx bc_store_temp (Z.of_nat i)) + size is)))%nat
          with q by (pose proof (size_pos pre); pose proof (size_pos is); lia) end.
      destruct (write_all sys c ts a v' w); cbn in *; auto.
      destruct IHStores as (stk' & sl2 & I1 & I2 & I3 & I4). exists stk', sl2. repeat split; auto; try apply I3.
      eapply kept_trans; [..|exact K|exact I4]; eapply env_ok_len; eassumption.
    - destruct (line_star _ _ _ (a :: stk) sl w H0 A) as [T A1]. eapply fin_star; [exact T|].
      unfold find_variable in H. cbn [s_syms scope] in H.
      repeat match type of H with (if ?b then _ else _) = _ => destruct b; [discriminate|] end.
      pose proof (local_lookup x l v sl E) as LL.
      destruct (find_local x l) as [[k ro]|] eqn:Ek; [discriminate|].
      unfold write. rewrite assign_none by exact LL. rewrite place_index.
      destruct (ivar_index x (c_ivars c)) as [k|] eqn:Ei; [|destruct (c_global c x); discriminate].
      injection H as ->. cbn [Nat.add]. apply ivar_bound in Ei.
      eapply fin_star.
      { eapply one_step; [exact A1|big|discriminate|]. unfold execute. cbn -[Z.to_nat]. rewrite Nat2Z.id. reflexivity. }
      apply at_cons in A1. specialize (IHStores _ a v sl (inst_put sys w i a) stk Wf E A1 R).
      rewrite size_app, size_cons.
      match type of IHStores with fin ?s _ _ ?q _ _ =>
        replace (p + Z.to_nat (size pre + (Z.of_nat (nx bc_store_receiver_variable (Z.of_nat i)) + size is)))%nat
          with q by (pose proof (size_pos pre); pose proof (size_pos is); lia) end.
      exact IHStores.
    - destruct (line_star _ _ _ (a :: stk) sl w H1 A) as [T A1]. eapply fin_star; [exact T|].
      unfold find_variable in H. cbn [s_syms scope] in H.
      repeat match type of H with (if ?b then _ else _) = _ => destruct b; [discriminate|] end.
      pose proof (local_lookup x l v sl E) as LL.
      destruct (find_local x l) as [[k ro]|] eqn:Ek; [discriminate|].
      unfold write. rewrite assign_none by exact LL. rewrite place_index.
      destruct (ivar_index x (c_ivars c)) as [k|] eqn:Ei; [discriminate|].
      destruct (c_global c x) eqn:Eg; [|discriminate]. injection H as <-.
      assert (j < List.length L)%nat by (apply nth_error_Some; congruence).
      eapply fin_star.
      { eapply one_step; [exact A1|big|discriminate|]. unfold execute. cbn -[Z.to_nat nth_error]. rewrite Nat2Z.id, H0. reflexivity. }
      apply at_cons in A1.
      eapply fin_star. { eapply one_step; [exact A1|big|discriminate|]. apply ex_pop. }
      apply at_cons in A1.
      eapply fin_star.
      { eapply one_step; [exact A1|big|discriminate|]. unfold execute. cbn -[Z.to_nat nth_error push]. rewrite Nat2Z.id, H0.
        rewrite (sound_global _ Snd). apply (push_ok a). cbn [stack]; lia. }
      apply at_cons in A1. cbn [ip stack slots world].
      specialize (IHStores _ a v sl (global_put sys w x a) stk Wf E A1 R).
      rewrite size_app, !size_cons.
      match type of IHStores with fin ?s _ _ ?q _ _ =>
        match goal with |- fin _ _ _ ?q' _ _ => replace q' with q by (pose proof (size_pos pre); pose proof (size_pos is); lia) end end.
      exact IHStores.
  Qed.
  Local Notation CE := (CE c L N).
  Local Notation CA := (CA c L N).
  Local Notation CM := (CM c L N).
  Local Notation CB := (CB c L N).

  Ltac wide := change (2 ^ 31) with 2147483648 in *; change (2 ^ 23) with 8388608 in *;
    change (2 ^ 16) with 65536 in *; lia.

  Ltac sizes := repeat (progress (rewrite ?size_app, ?size_cons, ?size_nil in *));
    repeat match goal with
    | |- context [size ?x] => is_var x; lazymatch goal with H : 0 <= size x |- _ => fail | _ => pose proof (size_pos x) end
    | _ : context [size ?x] |- _ => is_var x; lazymatch goal with H : 0 <= size x |- _ => fail | _ => pose proof (size_pos x) end
    end.

  Definition okE n := forall l e is d, CE l e is d -> forall p q v sl w stk,
    wf l -> env_ok l v sl -> at_ p is -> Z.of_nat (List.length stk) + d <= limit ->
    Z.of_nat q = Z.of_nat p + size is ->
    fin (Mst p stk sl w) l v q (one stk) (eval sys c n e v w).
  Definition many (stk : list value) (a : list value) (s : list value) : Prop :=
    s = rev a ++ stk.
  Definition okA n := forall l es is d, CA l es is d -> forall p q v sl w stk,
    wf l -> env_ok l v sl -> at_ p is -> Z.of_nat (List.length stk) + d <= limit ->
    Z.of_nat q = Z.of_nat p + size is ->
    fin (Mst p stk sl w) l v q (fun a s => many stk a s /\ List.length a = number es)
      (eval_args sys c n es v w).
  Definition okC n := forall l ms is d, CM l ms is d -> forall r p q a b v sl w stk,
    is_super r = false ->
    wf l -> env_ok l v sl -> at_ p is -> Z.of_nat (List.length stk) + d <= limit ->
    Z.of_nat q = Z.of_nat p + size is ->
    fin (Mst p (b :: a :: stk) sl w) l v q (one stk) (cascade sys c n r a ms v w).
  Definition okC0 n := forall l ln s args ms ia da pre is ims dms,
    ms <> MNil -> CA l args ia da -> Line pre -> Sends L false s (number args) is ->
    CM l ms ims dms -> forall r p q a v sl w stk,
    is_super r = false ->
    wf l -> env_ok l v sl -> at_ p (ia ++ pre ++ is ++ ims) ->
    Z.of_nat (List.length stk) + Z.max (2 + da) (Z.max 2 dms) <= limit ->
    Z.of_nat q = Z.of_nat p + size (ia ++ pre ++ is ++ ims) ->
    fin (Mst p (a :: a :: stk) sl w) l v q (one stk) (cascade sys c n r a (MCons ln s args ms) v w).
  Definition okB n := forall l ss is d, CB l ss is d -> forall p q v sl w stk,
    wf l -> env_ok l v sl -> at_ p is -> Z.of_nat (List.length stk) + d <= limit ->
    Z.of_nat q = Z.of_nat p + size is ->
    fin (Mst p stk sl w) l v q (one stk) (block sys c n ss v w)
    /\ (returns ss = true -> forall o v' w', block sys c n ss v w <> Val o v' w').
  Definition okW n := forall l on cond body ic dc ib db j jb, on = VTrue \/ on = VFalse ->
    CB l cond ic dc -> CB l body ib db ->
    j = 2 * size (ib ++ [(bc_pop, 0); (bc_jump_back, jb)]) ->
    jb = 2 * size (ic ++ [(pj on, 2 * size [(bc_jump, j)]); (bc_jump, j)]
                        ++ ib ++ [(bc_pop, 0); (bc_jump_back, jb)]) ->
    forall p q v sl w stk,
    wf l -> env_ok l v sl ->
    at_ p (ic ++ [(pj on, 2 * size [(bc_jump, j)]); (bc_jump, j)]
             ++ ib ++ [(bc_pop, 0); (bc_jump_back, jb); (bc_push_special, 0)]) ->
    Z.of_nat (List.length stk) + Z.max 1 (Z.max dc db) <= limit ->
    Z.of_nat q = Z.of_nat p + size (ic ++ [(pj on, 2 * size [(bc_jump, j)]); (bc_jump, j)]
             ++ ib ++ [(bc_pop, 0); (bc_jump_back, jb); (bc_push_special, 0)]) ->
    fin (Mst p stk sl w) l v q (one stk) (while sys c n on cond body v w).
  Definition okW0 n := forall l on cond ic dc j jb, on = VTrue \/ on = VFalse ->
    CB l cond ic dc ->
    j = 2 * size [(bc_jump_back, jb)] ->
    jb = 2 * size (ic ++ [(pj on, 2 * size [(bc_jump, j)]); (bc_jump, j); (bc_jump_back, jb)]) ->
    forall p q v sl w stk,
    wf l -> env_ok l v sl ->
    at_ p (ic ++ [(pj on, 2 * size [(bc_jump, j)]); (bc_jump, j); (bc_jump_back, jb); (bc_push_special, 0)]) ->
    Z.of_nat (List.length stk) + Z.max 1 dc <= limit ->
    Z.of_nat q = Z.of_nat p + size (ic ++ [(pj on, 2 * size [(bc_jump, j)]); (bc_jump, j);
                                           (bc_jump_back, jb); (bc_push_special, 0)]) ->
    fin (Mst p stk sl w) l v q (one stk) (while sys c n on cond SNil v w).
  Definition okR n := forall l body ib db jb,
    CB l body ib db ->
    jb = 2 * size (ib ++ [(bc_pop, 0); (bc_jump_back, jb)]) ->
    forall p q v sl w stk,
    wf l -> env_ok l v sl ->
    at_ p (ib ++ [(bc_pop, 0); (bc_jump_back, jb); (bc_push_special, 0)]) ->
    Z.of_nat (List.length stk) + Z.max 1 db <= limit ->
    fin (Mst p stk sl w) l v q (one stk) (repeat_ sys c n body v w).
  Definition okT n := forall l b ib db j jb,
    CB l b ib db ->
    j = 2 * size ([(bc_push_integer, 1); (bc_minus, 0)] ++ ib ++ [(bc_pop, 0); (bc_jump_back, jb)]) ->
    jb = 2 * size ([(bc_dup, 0); (bc_push_integer, 1); (bc_greater_equal, 0); (bc_pop_jump_false, j);
                    (bc_push_integer, 1); (bc_minus, 0)] ++ ib ++ [(bc_pop, 0); (bc_jump_back, jb)]) ->
    forall p q k v sl w stk,
    wf l -> env_ok l v sl ->
    at_ p ([(bc_dup, 0); (bc_push_integer, 1); (bc_greater_equal, 0); (bc_pop_jump_false, j);
            (bc_push_integer, 1); (bc_minus, 0)] ++ ib ++ [(bc_pop, 0); (bc_jump_back, jb); (bc_pop, 0)]) ->
    Z.of_nat (List.length stk) + Z.max 3 (1 + db) <= limit ->
    Z.of_nat q = Z.of_nat p + size ([(bc_dup, 0); (bc_push_integer, 1); (bc_greater_equal, 0);
            (bc_pop_jump_false, j);
            (bc_push_integer, 1); (bc_minus, 0)] ++ ib ++ [(bc_pop, 0); (bc_jump_back, jb); (bc_pop, 0)]) ->
    fin (Mst p (VInt k :: stk) sl w) l v q (fun _ s => s = stk) (times sys c n k b v w).
  Definition okK n := forall l z x b i ib db istep j jb,
    CB ((x, i, true) :: l) b ib db -> ~ In i (map (fun y => snd (fst y)) l) -> (i < N)%nat ->
    CE ((x, i, true) :: l) (ELit 0 (KInt z)) istep 1 ->
    j = 2 * size (ib ++ [(bc_pop, 0); (bc_dup, 0); (bc_push_temp, Z.of_nat i)] ++ istep
                     ++ [(bc_plus, 0); (bc_store_temp, Z.of_nat i); (bc_jump_back, jb)]) ->
    jb = 2 * size ([(if 0 <? z then bc_greater_equal else bc_less_equal, 0); (bc_pop_jump_false, j)]
                     ++ ib ++ [(bc_pop, 0); (bc_dup, 0); (bc_push_temp, Z.of_nat i)] ++ istep
                     ++ [(bc_plus, 0); (bc_store_temp, Z.of_nat i); (bc_jump_back, jb)]) ->
    forall p q k m v sl w stk,
    wf l -> env_ok ((x, i, true) :: l) ((x, VInt k) :: v) sl ->
    at_ p ([(if 0 <? z then bc_greater_equal else bc_less_equal, 0); (bc_pop_jump_false, j)]
             ++ ib ++ [(bc_pop, 0); (bc_dup, 0); (bc_push_temp, Z.of_nat i)] ++ istep
             ++ [(bc_plus, 0); (bc_store_temp, Z.of_nat i); (bc_jump_back, jb)]
             ++ [(bc_pop, 0)]) ->
    Z.of_nat (List.length stk) + Z.max 4 (1 + db) <= limit ->
    Z.of_nat q = Z.of_nat p + size ([(if 0 <? z then bc_greater_equal else bc_less_equal, 0); (bc_pop_jump_false, j)]
             ++ ib ++ [(bc_pop, 0); (bc_dup, 0); (bc_push_temp, Z.of_nat i)] ++ istep
             ++ [(bc_plus, 0); (bc_store_temp, Z.of_nat i); (bc_jump_back, jb)]
             ++ [(bc_pop, 0)]) ->
    fin (Mst p (VInt k :: VInt m :: VInt m :: stk) sl w) l v q (fun _ s => s = stk)
      (count sys c n k m z x b v w).

  Lemma pj_byte on : pj on <> 55.
  Proof. destruct on; discriminate. Qed.
  Ltac pjn := apply pj_byte.
  Ltac go A lem := eapply fin_star;
    [eapply one_step; [exact A|solve [wide | sizes; wide]|first [discriminate|pjn]|lem]|]; apply at_cons in A.

  Lemma wf_cons x i l : wf l -> ~ In i (map (fun y => snd (fst y)) l) ->
    wf ((x, i, true) :: l).
  Proof. intros H Hi. unfold wf. cbn. constructor; [exact Hi|exact H]. Qed.

  Lemma fin_pos {A} s l v q q' (S : A -> list value -> Prop) r :
    fin s l v q S r -> q = q' -> fin s l v q' S r.
  Proof. intros H <-. exact H. Qed.

  Lemma fin_weaken {A} s l v q (S S' : A -> list value -> Prop) r :
    (forall o k, S o k -> S' o k) -> fin s l v q S r -> fin s l v q S' r.
  Proof.
    intros H. destruct r; cbn; auto. intros (stk & sl & H1 & H2 & H3). exists stk, sl. auto.
  Qed.

  Lemma msg_fin super s args is p q r a l v sl w stk :
    is_super r = super ->
    env_ok l v sl -> Sends L super s (List.length args) is -> at_ p is ->
    Z.of_nat (List.length args + 1 + List.length stk) + bump super <= limit ->
    Z.of_nat q = Z.of_nat p + size is ->
    fin (Mst p (rev args ++ a :: stk) sl w) l v q (one stk) (message sys r a s args v w).
  Proof.
    intros Es Eo H A R Q.
    pose proof (sends_star super s args is p a stk sl w H A R) as T.
    unfold message. change (match r with EVar _ x => (x =? "super")%string | _ => false end) with (is_super r).
    rewrite Es.
    destruct (if super then perform_super sys w a s args else perform sys w a s args) as [[b w']|];
      [|exact T].
    eapply fin_star; [exact T|].
    replace (p + Z.to_nat (size is))%nat with q by (pose proof (size_pos is); lia).
    apply fin_ret; [exact Eo|]. intros x [= ->]. reflexivity.
  Qed.

  Lemma number_len l es is d : CA l es is d -> Z.of_nat (number es) <= d.
  Proof.
    revert is d. induction es as [|e es IH]; intros is d H; inversion H; subst; cbn [number]; [lia|].
    match goal with H : CA _ es _ _ |- _ => apply IH in H end. lia.
  Qed.

  Lemma cascade_S n r a ln s args ms v w : cascade sys c (S n) r a (MCons ln s args ms) v w
    = let m := bind (eval_args sys c n args v w) (fun l v w => message sys r a s l v w) in
      match ms with MNil => m | _ => next m (fun v w => cascade sys c n r a ms v w) end.
  Proof. reflexivity. Qed.

  (** arguments and a message *)
  Lemma args_fin n l s args ia da pre is r p q a v sl w stk : okA n ->
    CA l args ia da -> Line pre -> Sends L (is_super r) s (number args) is ->
    wf l -> env_ok l v sl -> at_ p (ia ++ pre ++ is) ->
    Z.of_nat (List.length stk) + 1 + Z.max da (Z.of_nat (number args) + bump (is_super r)) <= limit ->
    Z.of_nat q = Z.of_nat p + size (ia ++ pre ++ is) ->
    fin (Mst p (a :: stk) sl w) l v q (one stk)
      (bind (eval_args sys c n args v w) (fun l v w => message sys r a s l v w)).
  Proof.
    intros Ha H1 H2 H3 Wf E A R Q. pose proof (env_ok_len _ _ _ E) as Len.
    apply at_app in A. destruct A as [A2 A3]. pose proof (size_pos ia) as Sz.
    eapply fin_bind; [exact Len|eapply (Ha _ _ _ _ H1 p (p + Z.to_nat (size ia))%nat); eauto; cbn [List.length]; lia|].
    intros args' v2 w2 stk2 sl2 _ [M Nn] E2 K2. unfold many in M. subst stk2.
    destruct (line_star _ _ _ (rev args' ++ a :: stk) sl2 w2 H2 A3) as [T A4].
    eapply fin_star; [exact T|].
    eapply (msg_fin (is_super r)); [reflexivity|exact E2|rewrite Nn; exact H3|exact A4|lia|].
    sizes; lia.
  Qed.

  Lemma ex_jump' n j q stk sl w : j = 2 * n -> 0 <= n ->
    execute sys L limit bc_jump j (Mst q stk sl w) = Next (Mst (q + Z.to_nat n) stk sl w).
  Proof. intros ->. apply ex_jump. Qed.
  Lemma ex_back' n j q stk sl w : j = 2 * n -> 0 <= n <= Z.of_nat q ->
    execute sys L limit bc_jump_back j (Mst q stk sl w)
    = Next (Mst (q - Z.to_nat n) stk sl w).
  Proof. intros ->. apply ex_back. Qed.
  Lemma ex_pj_on' n j on q stk sl w : j = 2 * n -> on = VTrue \/ on = VFalse -> 0 <= n ->
    execute sys L limit (pj on) j (Mst q (on :: stk) sl w)
    = Next (Mst (q + Z.to_nat n) stk sl w).
  Proof. intros ->. apply ex_pj_on. Qed.
  Lemma ex_pjt_on' n j q stk sl w : j = 2 * n -> 0 <= n ->
    execute sys L limit bc_pop_jump_true j (Mst q (VTrue :: stk) sl w)
    = Next (Mst (q + Z.to_nat n) stk sl w).
  Proof. intros ->. apply ex_pjt_on. Qed.
  Lemma ex_pjf_on' n j q stk sl w : j = 2 * n -> 0 <= n ->
    execute sys L limit bc_pop_jump_false j (Mst q (VFalse :: stk) sl w)
    = Next (Mst (q + Z.to_nat n) stk sl w).
  Proof. intros ->. apply ex_pjf_on. Qed.

  Lemma fin_never {A} s l v q q' (S S' : A -> list value -> Prop) r :
    fin s l v q S r -> (forall o v' w', r <> Val o v' w') -> fin s l v q' S' r.
  Proof. destruct r; cbn; auto. intros _ H. exfalso. eapply H. reflexivity. Qed.

  Lemma fin_then {A} s l v q q' (S : A -> list value -> Prop) r :
    fin s l v q S r -> (forall o v' w' stk sl, r = Val o v' w' -> S o stk ->
      star (Mst q stk sl w') (Mst q' stk sl w')) ->
    fin s l v q' S r.
  Proof.
    destruct r; cbn; auto. intros (stk & sl & T & H1 & H2 & H3) H. exists stk, sl.
    split; [eapply star_trans; [exact T|]; eauto|]. auto.
  Qed.

  Lemma env_new l v sl x i a : env_ok l v sl -> ~ In i (map (fun y => snd (fst y)) l) -> (i < N)%nat ->
    exists sl', put i a sl = Some sl' /\ env_ok ((x, i, true) :: l) ((x, a) :: v) sl'.
  Proof.
    intros [En F] Hi Hn. destruct (put_ok i a sl ltac:(lia)) as (sl' & P & P1 & P2 & P3).
    exists sl'. split; [exact P|]. split; [lia|]. constructor; [split; [reflexivity|exact P2]|].
    clear - F Hi P3. induction F as [|y b l v [H1 H2] F IH]; constructor; cbn in Hi.
    - split; [exact H1|]. rewrite P3; [exact H2|]. intros E. apply Hi. left. exact E.
    - apply IH. tauto.
  Qed.

  Lemma env_tail y l a v sl : env_ok (y :: l) (a :: v) sl -> env_ok l v sl.
  Proof. intros [En F]. split; [exact En|]. inversion F; assumption. Qed.

  Lemma env_head x i l a v sl : env_ok ((x, i, true) :: l) ((x, a) :: v) sl -> nth_error sl i = Some a.
  Proof. intros [_ F]. inversion F; subst. match goal with H : _ /\ _ |- _ => apply H end. Qed.

  Lemma fin_inner {B} s l v q1 q stk (S2 : B -> list value -> Prop) x i a r k :
    List.length v = List.length l ->
    fin s ((x, i, true) :: l) ((x, a) :: v) q1 (one stk) r ->
    (forall y o v' w' sl, r = Val o ((x, a) :: v') w' ->
       env_ok ((x, i, true) :: l) ((x, a) :: v') sl -> kept l v v' ->
       (forall b, o = Some b -> y = b) ->
       fin (Mst q1 (y :: stk) sl w') l v' q S2 (k o ((x, a) :: v') w')) ->
    fin s l v q S2 (bind r k).
  Proof.
    intros Hl F K. destruct r; cbn in *; auto.
    destruct F as (stk' & sl & T & (y & -> & H) & E & Kp).
    destruct v0 as [|[x' a'] v']; [destruct E as [_ E]; inversion E|].
    destruct Kp as [K1 Kp]. specialize (K1 eq_refl). injection K1 as <- <-.
    specialize (K y o v' w sl eq_refl E Kp H).
    eapply fin_star; [exact T|]. destruct (k o ((x, a) :: v') w) eqn:Ek; cbn in *; auto.
    destruct K as (stk' & sl' & T' & H' & E' & K'). exists stk', sl'.
    repeat split; auto; try apply E'.
    eapply kept_trans; [exact Hl| | |exact Kp|exact K'].
    - eapply env_ok_len, env_tail, E.
    - eapply env_ok_len; eassumption.
  Qed.

  Lemma eval_send n ln r s args v w : eval sys c (S n) (ESend ln r s args) v w
    = match form_of r s args with
        | FSend =>
          use (eval sys c n r v w) (fun a v w =>
          bind (eval_args sys c n args v w) (fun l v w => message sys r a s l v w))
        | FWhile on cond body => while sys c n on cond body v w
        | FRepeat body => repeat_ sys c n body v w
        | FIf r t f =>
          use (eval sys c n r v w) (fun a v w =>
            match a with
            | VTrue => block sys c n t v w
            | VFalse => block sys c n f v w
            | _ => Error
            end)
        | FAnd r b =>
          use (eval sys c n r v w) (fun a v w =>
            match a with
            | VTrue => block sys c n b v w
            | VFalse => Val (Some VFalse) v w
            | _ => Error
            end)
        | FOr r b =>
          use (eval sys c n r v w) (fun a v w =>
            match a with
            | VTrue => Val (Some VTrue) v w
            | VFalse => block sys c n b v w
            | _ => Error
            end)
        | FTimes r b =>
          use (eval sys c n r v w) (fun a v w =>
            match a with
            | VInt k => next (times sys c n k b v w) (fun v w => Val (Some a) v w)
            | _ => Error
            end)
        | FTo r l step x b with_by =>
          use (eval sys c n r v w) (fun a v w =>
          use (eval sys c n l v w) (fun z v w =>
            match a, z with
            | VInt i, VInt k =>
              next (count sys c n i k step x b v w) (fun v w =>
                Val (if with_by then None else Some a) v w)
            | _, _ => Error
            end))
        end.
  Proof. reflexivity. Qed.
  Lemma eval_assign n ln ts e v w : eval sys c (S n) (EAssign ln ts e) v w
    = use (eval sys c n e v w) (write_all sys c ts).
  Proof. reflexivity. Qed.
  Lemma eval_cascade n ln r ms v w : eval sys c (S n) (ECascade ln r ms) v w
    = use (eval sys c n r v w) (fun a v w => cascade sys c n r a ms v w).
  Proof. reflexivity. Qed.
  Lemma while_S n on cond body v w : while sys c (S n) on cond body v w
    = use (block sys c n cond v w) (fun a v w =>
        match a with
        | VTrue | VFalse =>
          if match a, on with VTrue, VTrue | VFalse, VFalse => true | _, _ => false end
          then next (block sys c n body v w) (fun v w => while sys c n on cond body v w)
          else Val (Some VNil) v w
        | _ => Error
        end).
  Proof. reflexivity. Qed.
  Lemma repeat_S n body v w : repeat_ sys c (S n) body v w
    = next (block sys c n body v w) (fun v w => repeat_ sys c n body v w).
  Proof. reflexivity. Qed.
  Lemma times_S n k body v w : times sys c (S n) k body v w
    = if 1 <=? k
      then next (block sys c n body v w) (fun v w => times sys c n (k - 1) body v w)
      else Val (Some VNil) v w.
  Proof. reflexivity. Qed.
  Lemma block_S n e ss v w : ss <> SNil -> block sys c (S n) (SExpr e ss) v w
    = next (eval sys c n e v w) (fun v w => block sys c n ss v w).
  Proof. intros H. destruct ss; [contradiction|reflexivity|reflexivity]. Qed.
  Lemma args_S n e es v w : eval_args sys c (S n) (ECons e es) v w
    = use (eval sys c n e v w) (fun a v w =>
        bind (eval_args sys c n es v w) (fun l v w => Val (a :: l) v w)).
  Proof. reflexivity. Qed.

  Ltac here P := match goal with |- fin (Mst ?p _ _ _) _ _ _ _ _ =>
    replace p with P by (sizes; lia) end.
  Ltac there Q := match goal with |- fin _ _ _ ?q _ _ => replace q with Q by (sizes; lia) end.
  Ltac cut A A' := apply at_app in A; destruct A as [A A'].

  Theorem ok n : okE n /\ okA n /\ okC0 n /\ okC n /\ okB n /\ okW n /\ okW0 n /\ okR n /\ okT n /\ okK n.
  Proof.
    induction n as [|n (He & Ha & Hc0 & Hc & Hb & Hw & Hw0 & Hr & Ht & Hk)].
    { repeat apply conj; intro; intros; try exact I. split; [exact I|intros; discriminate]. }
    assert (Hc0' : okC0 (S n)).
    { intros l ln s args ms ia da pre is ims dms Nn H1 H2 H3 H4 r p q a v sl w stk Sr Wf E A R Q.
      pose proof (env_ok_len _ _ _ E) as Len.
      rewrite cascade_S. cbv zeta. destruct ms as [|ln' s' args' ms']; [contradiction|].
      replace (ia ++ pre ++ is ++ ims) with ((ia ++ pre ++ is) ++ ims) in * by (rewrite <- !app_assoc; reflexivity).
      apply at_app in A. destruct A as [A1 A2]. pose proof (number_len _ _ _ _ H1) as NL.
      pose proof (size_pos (ia ++ pre ++ is)).
      eapply fin_next; [exact Len| |].
      - eapply (args_fin n l s args ia da pre is r p (p + Z.to_nat (size (ia ++ pre ++ is)))%nat a v sl w (a :: stk) Ha); auto.
        + rewrite Sr. exact H3.
        + rewrite Sr. cbn [List.length bump]. lia.
        + lia.
      - intros x o v' w' sl' _ E' K.
        eapply (Hc _ _ _ _ H4); auto; [lia|rewrite size_app in Q; lia]. }
    repeat apply conj.
    - (* expressions *)
      intros l e is d H. induction H; intros p q v sl w stk Wf E A R Q;
        try (pose proof (env_ok_len _ _ _ E) as Len).
      + (* line *)
        go A ltac:(apply ex_line). apply (IHCE (p + nx bc_line n0)%nat); auto. sizes. lia.
      + (* variable *)
        cbn [eval]. destruct i as [i1 i2].
        destruct (var_star l v sl p x en _ [] stk w E H H0 A ltac:(lia))
          as (a & -> & T). eapply fin_star; [exact T|]. cbn [fst snd].
        replace (p + nx i1 i2)%nat with q by (sizes; lia). apply fin_ret; [exact E|]. intros b [= ->]. reflexivity.
      + (* literal *)
        cbn [eval]. destruct i as [i1 i2].
        pose proof (pushlit_star p (lit_of k) _ [] stk sl w H
                      ltac:(destruct k; discriminate) A ltac:(lia)) as T.
        eapply fin_star; [exact T|]. cbn [fst snd].
        replace (p + nx i1 i2)%nat with q by (sizes; lia). apply fin_ret; [exact E|].
        intros b [= <-]. destruct k; reflexivity.
      + (* assignment *)
        rewrite eval_assign. apply at_app in A. destruct A as [A1 A2].
        pose proof (size_pos is).
        eapply fin_use; [exact Len|eapply (He _ _ _ _ H p (p + Z.to_nat (size is))%nat); eauto; lia|].
        intros a v' w' sl' _ E' K.
        eapply fin_pos; [eapply stores_fin; [exact H0|exact Wf|exact E'|exact A2|lia]|].
        sizes; lia.
      + (* message *)
        rewrite eval_send, H. apply at_app in A. destruct A as [A1 A2].
        pose proof (size_pos ir).
        eapply fin_use; [exact Len|eapply (He _ _ _ _ H0 p (p + Z.to_nat (size ir))%nat); eauto; lia|].
        intros a v' w' sl' _ E' K.
        eapply args_fin; eauto; [lia|]. rewrite size_app in Q. lia.
      + (* cascade *)
        rewrite eval_cascade. apply at_app in A. destruct A as [A1 A2].
        pose proof (size_pos ir).
        eapply fin_use; [exact Len|eapply (He _ _ _ _ H1 p (p + Z.to_nat (size ir))%nat); eauto; lia|].
        intros a v' w' sl' _ E' K.
        go A2 ltac:(apply ex_dup; lia).
        rewrite size_app, size_cons in Q.
        eapply (Hc0 _ _ _ _ _ _ _ _ _ _ _ H0 H2 H3 H4 H5); auto; lia.
      + (* while *) rewrite eval_send, H. eapply Hw; eauto.
      + (* while without a body *) rewrite eval_send, H. eapply Hw0; eauto.
      + (* repeat *) rewrite eval_send, H. eapply Hr; eauto.
      + (* if *)
        rewrite eval_send, H. pose proof (at_size _ _ A) as SZ.
        remember (if returns t then [] else [(bc_jump, 2 * size if_)]) as m eqn:Em.
        remember (2 * size (it ++ m)) as j eqn:Ej.
        cut A A1. pose proof A1 as A2. apply at_cons in A2. cut A2 A3. cut A3 A4.
        eapply fin_use; [exact Len|eapply (He _ _ _ _ H0 p (p + Z.to_nat (size ir))%nat); eauto; sizes; lia|].
        intros a v' w' sl' _ E' K. destruct a; try exact I.
        * go A1 ltac:(apply ex_pjf_off).
          destruct (Hb _ _ _ _ H1 _ (p + Z.to_nat (size ir) + nx bc_pop_jump_false j + Z.to_nat (size it))%nat
            v' sl' w' stk Wf E' A2 ltac:(lia) ltac:(sizes; lia)) as [F Rt].
          destruct (returns t) eqn:Er.
          -- eapply fin_never; [exact F|]. apply Rt. reflexivity.
          -- eapply fin_then; [exact F|]. intros o1 v1 w1 stk1 sl1 _ _. subst m.
             replace q with (p + Z.to_nat (size ir) + nx bc_pop_jump_false j + Z.to_nat (size it)
               + nx bc_jump (2 * size if_) + Z.to_nat (size if_))%nat by (sizes; lia).
             eapply one_step; [exact A3|sizes; wide|discriminate|]. apply ex_jump. apply size_pos.
        * go A1 ltac:(eapply ex_pjf_on'; [exact Ej|apply size_pos]).
          match type of A4 with at_ ?x _ => here x end.
          eapply (Hb _ _ _ _ H2); auto; [lia|]. sizes; lia.
      + (* ifFalse: *)
        rewrite eval_send, H. pose proof (at_size _ _ A) as SZ.
        remember (if returns f then [] else [(bc_jump, 2)]) as m eqn:Em.
        remember (2 * size (if_ ++ m)) as j eqn:Ej.
        cut A A1. pose proof A1 as A2. apply at_cons in A2. cut A2 A3. cut A3 A4.
        eapply fin_use; [exact Len|eapply (He _ _ _ _ H0 p (p + Z.to_nat (size ir))%nat); eauto; sizes; lia|].
        intros a v' w' sl' _ E' K. destruct a; try exact I.
        * go A1 ltac:(eapply ex_pjt_on'; [exact Ej|apply size_pos]).
          match type of A4 with at_ ?x _ => here x end.
          destruct n as [|n']; [exact I|]. change (block sys c (S n') SNil v' w') with (Val (Some VNil) v' w').
          go A4 ltac:(apply ex_nil; lia).
          match goal with |- fin (Mst ?x _ _ _) _ _ _ _ _ => there x end.
          apply fin_ret; [exact E'|]. intros a [= <-]. reflexivity.
        * go A1 ltac:(apply ex_pjt_off).
          destruct (Hb _ _ _ _ H1 _ (p + Z.to_nat (size ir) + nx bc_pop_jump_true j + Z.to_nat (size if_))%nat
            v' sl' w' stk Wf E' A2 ltac:(lia) ltac:(sizes; lia)) as [F Rt].
          destruct (returns f) eqn:Er.
          -- eapply fin_never; [exact F|]. apply Rt. reflexivity.
          -- eapply fin_then; [exact F|]. intros o1 v1 w1 stk1 sl1 _ _. subst m.
             change (nx bc_push_special 0) with 1%nat in *.
             replace q with (p + Z.to_nat (size ir) + nx bc_pop_jump_true j + Z.to_nat (size if_)
               + nx bc_jump 2 + Z.to_nat 1)%nat by (sizes; change (nx bc_push_special 0) with 1%nat in *; lia).
             eapply one_step; [exact A3|wide|discriminate|]. apply (ex_jump 1). lia.
      + (* and: *)
        rewrite eval_send, H. pose proof (at_size _ _ A) as SZ.
        remember (2 * size ((bc_pop, 0) :: ib)) as j eqn:Ej.
        cut A A1. cbn [app] in A1.
        eapply fin_use; [exact Len|eapply (He _ _ _ _ H0 p (p + Z.to_nat (size ir))%nat); eauto; sizes; lia|].
        intros a v' w' sl' _ E' K. destruct a; try exact I.
        * go A1 ltac:(apply ex_dup; lia). go A1 ltac:(apply ex_pjf_off). go A1 ltac:(apply ex_pop).
          eapply (Hb _ _ _ _ H1); auto; [lia|]. sizes; lia.
        * go A1 ltac:(apply ex_dup; lia). go A1 ltac:(eapply ex_pjf_on'; [exact Ej|apply size_pos]).
          match goal with |- fin (Mst ?x _ _ _) _ _ _ _ _ => there x end.
          apply fin_ret; [exact E'|]. intros a [= <-]. reflexivity.
      + (* or: *)
        rewrite eval_send, H. pose proof (at_size _ _ A) as SZ.
        remember (2 * size ((bc_pop, 0) :: ib)) as j eqn:Ej.
        cut A A1. cbn [app] in A1.
        eapply fin_use; [exact Len|eapply (He _ _ _ _ H0 p (p + Z.to_nat (size ir))%nat); eauto; sizes; lia|].
        intros a v' w' sl' _ E' K. destruct a; try exact I.
        * go A1 ltac:(apply ex_dup; lia). go A1 ltac:(eapply ex_pjt_on'; [exact Ej|apply size_pos]).
          match goal with |- fin (Mst ?x _ _ _) _ _ _ _ _ => there x end.
          apply fin_ret; [exact E'|]. intros a [= <-]. reflexivity.
        * go A1 ltac:(apply ex_dup; lia). go A1 ltac:(apply ex_pjt_off). go A1 ltac:(apply ex_pop).
          eapply (Hb _ _ _ _ H1); auto; [lia|]. sizes; lia.
      + (* timesRepeat: *)
        rewrite eval_send, H. pose proof (at_size _ _ A) as SZ.
        cut A A1. pose proof (size_pos ir) as Pr.
        eapply fin_use; [exact Len|eapply (He _ _ _ _ H0 p (p + Z.to_nat (size ir))%nat); eauto; lia|].
        intros a v' w' sl' _ E' K. pose proof (env_ok_len _ _ _ E') as Len'. destruct a as [| | |k|]; try exact I.
        change ([(bc_dup, 0)] ++ ?x) with ((bc_dup, 0) :: x) in *.
        go A1 ltac:(apply ex_dup; lia).
        rewrite size_app, size_cons in Q.
        unfold next at 1. eapply fin_bind; [exact Len'| |].
        * eapply (Ht _ _ _ _ _ _ H1 H2 H3 _ q k v' sl' w' (VInt k :: stk)); auto; [cbn [List.length]; lia|]. lia.
        * intros o v2 w2 stk2 sl2 _ -> E2 K2. apply fin_ret; [exact E2|]. intros a [= <-]. reflexivity.
      + (* to:do: *)
        rewrite eval_send, H. pose proof (at_size _ _ A) as SZ.
        pose proof (size_pos ir) as Pr. pose proof (size_pos il) as Pl.
        cut A A1.
        eapply fin_use; [exact Len|eapply (He _ _ _ _ H1 p (p + Z.to_nat (size ir))%nat); eauto; lia|].
        intros a v' w' sl' _ E' K. pose proof (env_ok_len _ _ _ E') as Len'.
        change ([(bc_store_temp, Z.of_nat i)] ++ ?x) with ((bc_store_temp, Z.of_nat i) :: x) in *.
        destruct (env_new l v' sl' x i a E' H4 H5) as (sl2 & Pt & E2).
        go A1 ltac:(apply ex_store, Pt).
        pose proof (wf_cons x i l Wf H4) as Wf2.
        change (fin (Mst (p + Z.to_nat (size ir) + nx bc_store_temp (Z.of_nat i)) (a :: stk) sl2 w') l v' q (one stk)
          (use (eval sys c n lim v' w') (fun z0 v0 w0 =>
            match a, z0 with
            | VInt i0, VInt k => next (count sys c n i0 k z x b v0 w0)
                (fun v1 w1 => Val (if by_ then None else Some a) v1 w1)
            | _, _ => Error end))).
        set (kk := fun z0 (v0 : env) (w0 : W) => match a, z0 with
            | VInt i0, VInt k => next (count sys c n i0 k z x b v0 w0)
                (fun v1 w1 => Val (if by_ then None else Some a) v1 w1)
            | _, _ => @Error W (option value) end).
        assert (Ek : use (eval sys c n lim v' w') kk
           = bind (eval sys c n lim ((x, a) :: v') w')
                  (fun o v0 w0 => match o with Some z0 => kk z0 (tl v0) w0 | None => Error end)).
        { destruct (weaken W sys c (x, a) n) as (We & _). specialize (We lim 0%nat v' w' H0 ltac:(lia)).
          cbn [ins fst] in We. rewrite We.
          destruct (eval sys c n lim v' w'); reflexivity. }
        rewrite Ek. cut A1 A2.
        eapply fin_inner; [exact Len'|
          eapply (He _ _ _ _ H2 _ (p + Z.to_nat (size ir) + nx bc_store_temp (Z.of_nat i) + Z.to_nat (size il))%nat);
            eauto; cbn [List.length]; lia|].
        intros y o v2 w2 sl3 _ E3 K3 Hy. destruct o as [m|]; [|exact I].
        rewrite (Hy m eq_refl). cbn [tl]. subst kk. cbv beta.
        destruct a as [| | |k|]; try exact I. destruct m as [| | |m|]; try exact I.
        pose proof (env_ok_len _ _ _ E3) as Len3. cbn [List.length] in Len3.
        change ([(bc_dup, dup); (bc_push_temp, Z.of_nat i)] ++ ?x) with ((bc_dup, dup) :: (bc_push_temp, Z.of_nat i) :: x) in *.
        go A2 ltac:(apply ex_dup; cbn [List.length]; lia).
        go A2 ltac:(apply ex_temp; [cbn [List.length]; lia|exact (env_head _ _ _ _ _ _ E3)]).
        rewrite size_app, size_cons, size_app, size_cons, size_cons in Q.
        unfold next at 1. eapply fin_bind; [lia| |].
        * eapply (Hk _ _ _ _ _ _ _ _ _ _ H3 H4 H5 H6 H8 H9 _ q k m v2 sl3 w2 (VInt k :: stk)); auto;
            [cbn [List.length]; lia|]. lia.
        * intros o v4 w4 stk2 sl4 _ -> E4 K4. apply fin_ret; [exact E4|]. intros a.
          destruct by_; [discriminate|]. intros [= <-]. reflexivity.
    - (* arguments *)
      intros l es is d H p q v sl w stk Wf E A R Q. pose proof (env_ok_len _ _ _ E) as Len.
      inversion H; subst.
      + cbn [eval_args]. rewrite size_nil in Q. replace q with p by lia.
        exists stk, sl. split; [apply star_refl|]. split; [split; reflexivity|]. split; [exact E|apply kept_refl].
      + rewrite args_S. cut A A1. pose proof (size_pos is0) as P0.
        eapply fin_use; [exact Len|eapply (He _ _ _ _ H0 p (p + Z.to_nat (size is0))%nat); eauto; lia|].
        intros a v' w' sl' _ E' K. pose proof (env_ok_len _ _ _ E') as Len'.
        rewrite size_app in Q.
        eapply fin_bind; [exact Len'|eapply (Ha _ _ _ _ H1 _ q v' sl' w' (a :: stk)); eauto; cbn [List.length]; lia|].
        intros l2 v2 w2 stk2 sl2 _ [-> Nl] E2 K2.
        exists (rev l2 ++ a :: stk), sl2. split; [apply star_refl|]. split.
        * split; [unfold many; cbn [rev]; rewrite <- app_assoc; reflexivity|cbn [number List.length]; lia].
        * split; [exact E2|apply kept_refl].
    - exact Hc0'.
    - (* further messages of a cascade *)
      intros l ms is d H r p q a b v sl w stk Sr Wf E A R Q. inversion H; subst.
      + rewrite cascade_S. cbv zeta. go A ltac:(apply ex_pop).
        pose proof (number_len _ _ _ _ H0) as NL. rewrite size_cons in Q.
        eapply args_fin; eauto; [rewrite Sr; exact H2|rewrite Sr; cbn [bump]; lia|lia].
      + go A ltac:(apply ex_pop). go A ltac:(apply ex_dup; lia).
        rewrite !size_cons in Q.
        eapply (Hc0' _ _ _ _ _ _ _ _ _ _ _ H0 H1 H2 H3 H4); auto; lia.
    - (* blocks *)
      intros l ss is d H p q v sl w stk Wf E A R Q. pose proof (env_ok_len _ _ _ E) as Len.
      inversion H; subst.
      + split; [|discriminate]. cbn [block].
        destruct (line_star _ _ _ stk sl w H0 A) as [T A1]. eapply fin_star; [exact T|].
        go A1 ltac:(apply ex_nil; lia).
        match goal with |- fin (Mst ?x _ _ _) _ _ _ _ _ => there x end.
        apply fin_ret; [exact E|]. intros a [= <-]. reflexivity.
      + split.
        * change (block sys c (S n) (SReturn e) v w) with (use (eval sys c n e v w) (fun a _ w => @Answer W (option value) a w)). cut A A1. pose proof (size_pos is0).
          eapply fin_use; [exact Len|eapply (He _ _ _ _ H0 p (p + Z.to_nat (size is0))%nat); eauto; lia|].
          intros a v' w' sl' _ E' K. cbn. eexists. split; [apply star_refl|].
          rewrite (step_at _ _ _ _ _ _ _ A1) by (wide || discriminate). reflexivity.
        * intros _ o v' w'. change (block sys c (S n) (SReturn e) v w) with (use (eval sys c n e v w) (fun a _ w => @Answer W (option value) a w)). unfold use. destruct (eval sys c n e v w); cbn; try discriminate.
          destruct o0; discriminate.
      + split; [|discriminate]. eapply (He _ _ _ _ H0); eauto.
      + rewrite block_S by assumption. cut A A1. pose proof (size_pos is0). rewrite size_app, size_cons in Q.
        split.
        * eapply fin_next; [exact Len|eapply (He _ _ _ _ H1 p (p + Z.to_nat (size is0))%nat); eauto; lia|].
          intros x o v' w' sl' _ E' K. go A1 ltac:(apply ex_pop).
          eapply (Hb _ _ _ _ H2); auto; lia.
        * intros Hr' o v' w'. cbn [returns] in Hr'. unfold next.
          destruct (eval sys c n e v w) as [o1 v1 w1| | | |] eqn:Ee; cbn [bind]; try discriminate.
          pose proof (He _ _ _ _ H1 p (p + Z.to_nat (size is0))%nat v sl w stk Wf E A ltac:(lia) ltac:(lia)) as F.
          rewrite Ee in F. destruct F as (stk1 & sl1 & _ & _ & E1 & _).
          eapply (Hb _ _ _ _ H2); [exact Wf|exact E1|apply (at_cons _ _ _ _ A1)|..].
          -- instantiate (1 := stk). lia.
          -- instantiate (1 := q). lia.
          -- exact Hr'.
    - (* while *)
      intros l on cond body ic dc ib db j jb Hon Hcond Hbody Ej Ejb p q v sl w stk Wf E A R Q.
      pose proof (env_ok_len _ _ _ E) as Len. rewrite while_S. pose proof (at_size _ _ A) as SZ. pose proof A as A0.
      remember (2 * size [(bc_jump, j)]) as t eqn:Et.
      cut A A1. cbn [app] in A1. pose proof (size_pos ic) as Pc.
      eapply fin_use; [exact Len|eapply (Hb _ _ _ _ Hcond p (p + Z.to_nat (size ic))%nat); eauto; lia|].
      intros a v' w' sl' _ E' K. pose proof (env_ok_len _ _ _ E') as Len'.
      pose proof A1 as A2. apply at_cons in A2. pose proof A2 as A3. apply at_cons in A3. cut A3 A4.
      assert (Go : fin (Mst (p + Z.to_nat (size ic)) (on :: stk) sl' w') l v' q (one stk)
        (next (block sys c n body v' w') (fun v w => while sys c n on cond body v w))).
      { go A1 ltac:(eapply ex_pj_on'; [exact Et|exact Hon|apply size_pos]).
        match type of A3 with at_ ?x _ => here x end.
        pose proof (size_pos ib) as Pb.
        eapply fin_next; [exact Len'|match type of A4 with at_ ?x _ => eapply (Hb _ _ _ _ Hbody _ x) end; eauto; lia|].
        intros x o v2 w2 sl2 _ E2 K2. go A4 ltac:(apply ex_pop).
        go A4 ltac:(eapply ex_back'; [exact Ejb|sizes; lia]).
        here p.
        subst t. eapply (Hw _ _ _ _ _ _ _ _ _ _ Hon Hcond Hbody Ej Ejb); auto. }
      assert (Stop : forall b, (b = VTrue \/ b = VFalse) -> b <> on ->
        fin (Mst (p + Z.to_nat (size ic)) (b :: stk) sl' w') l v' q (one stk) (Val (Some VNil) v' w')).
      { intros b Hbb Hne.
        go A1 ltac:(destruct Hon as [->| ->], Hbb as [->| ->]; try congruence; [apply ex_pjt_off|apply ex_pjf_off]).
        go A2 ltac:(eapply ex_jump'; [exact Ej|apply size_pos]).
        apply at_cons, at_cons in A4.
        match type of A4 with at_ ?x _ => here x end.
        go A4 ltac:(apply ex_nil; lia).
        match goal with |- fin (Mst ?x _ _ _) _ _ _ _ _ => there x end.
        apply fin_ret; [exact E'|]. intros a0 [= <-]. reflexivity. }
      destruct a; try exact I; destruct Hon as [->| ->];
        first [exact Go | apply Stop; [auto|discriminate]].
    - (* while, without a body *)
      intros l on cond ic dc j jb Hon Hcond Ej Ejb p q v sl w stk Wf E A R Q.
      pose proof (env_ok_len _ _ _ E) as Len. rewrite while_S. pose proof (at_size _ _ A) as SZ. pose proof A as A0.
      remember (2 * size [(bc_jump, j)]) as t eqn:Et.
      cut A A1. cbn [app] in A1. pose proof (size_pos ic) as Pc.
      eapply fin_use; [exact Len|eapply (Hb _ _ _ _ Hcond p (p + Z.to_nat (size ic))%nat); eauto; lia|].
      intros a v' w' sl' _ E' K. pose proof (env_ok_len _ _ _ E') as Len'.
      pose proof A1 as A2. apply at_cons in A2. pose proof A2 as A3. apply at_cons in A3.
      assert (Go : fin (Mst (p + Z.to_nat (size ic)) (on :: stk) sl' w') l v' q (one stk)
        (next (block sys c n SNil v' w') (fun v w => while sys c n on cond SNil v w))).
      { destruct n as [|n']; [exact I|]. change (block sys c (S n') SNil v' w') with (Val (Some VNil) v' w').
        cbn [next bind].
        go A1 ltac:(eapply ex_pj_on'; [exact Et|exact Hon|apply size_pos]).
        match type of A3 with at_ ?x _ => here x end.
        go A3 ltac:(eapply ex_back'; [exact Ejb|sizes; lia]).
        here p.
        subst t. eapply (Hw0 _ _ _ _ _ _ _ Hon Hcond Ej Ejb); auto. }
      assert (Stop : forall b, (b = VTrue \/ b = VFalse) -> b <> on ->
        fin (Mst (p + Z.to_nat (size ic)) (b :: stk) sl' w') l v' q (one stk) (Val (Some VNil) v' w')).
      { intros b Hbb Hne.
        go A1 ltac:(destruct Hon as [->| ->], Hbb as [->| ->]; try congruence; [apply ex_pjt_off|apply ex_pjf_off]).
        go A2 ltac:(eapply ex_jump'; [exact Ej|apply size_pos]).
        apply at_cons in A3.
        match type of A3 with at_ ?x _ => here x end.
        go A3 ltac:(apply ex_nil; lia).
        match goal with |- fin (Mst ?x _ _ _) _ _ _ _ _ => there x end.
        apply fin_ret; [exact E'|]. intros a0 [= <-]. reflexivity. }
      destruct a; try exact I; destruct Hon as [->| ->];
        first [exact Go | apply Stop; [auto|discriminate]].
    - (* repeat *)
      intros l body ib db jb Hbody Ejb p q v sl w stk Wf E A R.
      pose proof (env_ok_len _ _ _ E) as Len. rewrite repeat_S. pose proof (at_size _ _ A) as SZ. pose proof A as A0.
      cut A A1. pose proof (size_pos ib) as Pb.
      eapply fin_next; [exact Len|eapply (Hb _ _ _ _ Hbody p (p + Z.to_nat (size ib))%nat); eauto; lia|].
      intros x o v2 w2 sl2 _ E2 K2. go A1 ltac:(apply ex_pop).
      go A1 ltac:(eapply ex_back'; [exact Ejb|sizes; lia]).
      here p. eapply (Hr _ _ _ _ _ Hbody Ejb); auto.
    - (* timesRepeat: *)
      intros l b ib db j jb Hbody Ej Ejb p q k v sl w stk Wf E A R Q.
      pose proof (env_ok_len _ _ _ E) as Len. rewrite times_S. pose proof (at_size _ _ A) as SZ. pose proof A as A0.
      pose proof (size_pos ib) as Pb.
      cbn [app] in A. go A ltac:(apply ex_dup; cbn [List.length]; lia).
      go A ltac:(apply ex_int; cbn [List.length]; lia).
      go A ltac:(apply ex_ge). cbn [app] in *.
      pose proof A as A1. apply at_cons, at_cons, at_cons in A1. cut A1 A2.
      destruct (1 <=? k).
      + go A ltac:(apply ex_pjf_off). go A ltac:(apply ex_int; cbn [List.length]; lia). go A ltac:(apply ex_minus).
        eapply fin_next; [exact Len|match type of A2 with at_ ?x _ => eapply (Hb _ _ _ _ Hbody _ x) end;
          eauto; cbn [List.length]; lia|].
        intros x o v2 w2 sl2 _ E2 K2. go A2 ltac:(apply ex_pop).
        go A2 ltac:(eapply ex_back'; [exact Ejb|sizes; lia]).
        here p. eapply (Ht _ _ _ _ _ _ Hbody Ej Ejb); auto.
      + go A ltac:(eapply ex_pjf_on'; [exact Ej|apply size_pos]).
        apply at_cons, at_cons in A2.
        match type of A2 with at_ ?x _ => here x end.
        go A2 ltac:(apply ex_pop).
        match goal with |- fin (Mst ?x _ _ _) _ _ _ _ _ => there x end.
        exists stk, sl. split; [apply star_refl|]. split; [reflexivity|]. split; [exact E|apply kept_refl].
    - (* to:do: *)
      intros l z x b i ib db istep j jb Hbody Hi HiN Hstep Ej Ejb p q k m v sl w stk Wf E A R Q.
      pose proof (env_ok_len _ _ _ E) as Len. cbn [List.length] in Len.
      rewrite count_S. pose proof (at_size _ _ A) as SZ. pose proof A as A0.
      pose proof (size_pos ib) as Pb. pose proof (size_pos istep) as Ps.
      pose proof (wf_cons x i l Wf Hi) as Wf2.
      set (o := if 0 <? z then bc_greater_equal else bc_less_equal) in *.
      cbn [app] in A. pose proof A as A1. apply at_cons, at_cons in A1. cut A1 A2.
      assert (Cmp : star (Mst p (VInt k :: VInt m :: VInt m :: stk) sl w)
        (Mst (p + nx o 0) ((if (if 0 <? z then k <=? m else m <=? k) then VTrue else VFalse) :: VInt m :: stk) sl w)).
      { eapply one_step; [exact A|wide|subst o; destruct (0 <? z); discriminate|].
        subst o. destruct (0 <? z); [apply ex_ge|apply ex_le]. }
      eapply fin_star; [exact Cmp|]. apply at_cons in A.
      destruct (if 0 <? z then k <=? m else m <=? k).
      + go A ltac:(apply ex_pjf_off).
        eapply fin_inner; [lia|match type of A2 with at_ ?x _ => eapply (Hb _ _ _ _ Hbody _ x) end;
          eauto; cbn [List.length]; lia|].
        intros y r v2 w2 sl2 _ E2 K2 _. cbn [tl].
        destruct n as [|n']; [exact I|].
        cbn [app] in A2. go A2 ltac:(apply ex_pop). go A2 ltac:(apply ex_dup; cbn [List.length]; lia).
        go A2 ltac:(apply ex_temp; [cbn [List.length]; lia|exact (env_head _ _ _ _ _ _ E2)]).
        cut A2 A3.
        match type of A3 with at_ ?x _ =>
          pose proof (He _ _ _ _ Hstep _ x _ sl2 w2 (VInt k :: VInt m :: VInt m :: stk) Wf2 E2 A2
            ltac:(cbn [List.length]; lia) ltac:(lia)) as F end.
        change (eval sys c (S n') (ELit 0 (KInt z)) ((x, VInt k) :: v2) w2)
          with (@Val W _ (Some (VInt z)) ((x, VInt k) :: v2) w2) in F.
        destruct F as (stk3 & sl3 & T3 & (y3 & -> & Hy3) & E3 & K3). rewrite (Hy3 _ eq_refl) in T3.
        eapply fin_star; [exact T3|].
        cbn [app] in A3. go A3 ltac:(apply ex_plus).
        destruct (env_new l v2 sl3 x i (VInt (k + z)) (env_tail _ _ _ _ _ E3) Hi HiN) as (sl4 & Pt & E4).
        go A3 ltac:(apply ex_store, Pt).
        go A3 ltac:(eapply ex_back'; [exact Ejb|subst o; sizes; lia]).
        here p. eapply (Hk _ _ _ _ _ _ _ _ _ _ Hbody Hi HiN Hstep Ej Ejb); auto.
      + go A ltac:(eapply ex_pjf_on'; [exact Ej|apply size_pos]).
        cbn [app] in A2. apply at_cons, at_cons, at_cons in A2. cut A2 A3. cbn [app] in A3.
        apply at_cons, at_cons, at_cons in A3.
        match type of A3 with at_ ?x _ => here x end.
        go A3 ltac:(apply ex_pop).
        match goal with |- fin (Mst ?x _ _ _) _ _ _ _ _ => there x end.
        exists stk, sl. split; [apply star_refl|]. split; [reflexivity|].
        split; [eapply env_tail, E|apply kept_refl].
  Qed.
End Sim.
