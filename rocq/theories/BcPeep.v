(** Lemmas about the peephole optimiser. *)
From Coq Require Import ZArith List Bool Lia ZifyBool ZifyNat.
From Verif Require Import Base BcTables Bc BcSpec BcRun BcProofs BcSuper.
Import ListNotations.
Local Open Scope Z_scope.
Ltac Zify.zify_post_hook ::= Z.div_mod_to_equations.

Ltac bools := repeat match goal with
  | E : _ && _ = true |- _ => apply andb_true_iff in E as [? ?]
  | E : (_ =? _) = true |- _ => apply Z.eqb_eq in E; subst
  end.

(** ** The machine *)

Lemma run_app {val world} (load : opname -> list Z -> world -> val) other l1 : forall l2 s,
  run load other (l1 ++ l2) s
  = match run load other l1 s with Go s' => run load other l2 s' | r => r end.
Proof.
  induction l1 as [|o l1 IH]; intros l2 s; [reflexivity|].
  cbn [app run]. destruct (step load other o s); auto.
Qed.

Lemma refines_refl l : refines l l.
Proof. intros val world load other s _. reflexivity. Qed.

Lemma refines_trans l1 l2 l3 : refines l1 l2 -> refines l2 l3 -> refines l1 l3.
Proof.
  intros A B val world load other s N. rewrite <- (A _ _ _ _ _ N). apply B.
  rewrite (A _ _ _ _ _ N). exact N.
Qed.

Lemma refines_ctx p l1 l2 q : refines l1 l2 -> refines (p ++ l1 ++ q) (p ++ l2 ++ q).
Proof.
  intros A val world load other s. rewrite !run_app.
  destruct (run load other p s) as [s'|v s'|]; auto.
  rewrite !run_app. intros N. rewrite A; [reflexivity|].
  intros E. rewrite E in N. congruence.
Qed.

(** ** Decoding of the bytecodes that the optimiser knows *)
Definition pushes (o : op) : Prop :=
  forall (val world : Type) (load : opname -> list Z -> world -> val) other,
  exists f : (Z -> val) -> (Z -> val) -> world -> val,
  forall s : state val world,
    step load other o s
    = Go (State (f (temps s) (ivars s) (rest s) :: stack s)
                (temps s) (ivars s) (line s) (rest s)).

Lemma push_op b x : is_push b = true ->
  exists o, pushes o /\ forall r, decode 0 ((b, x) :: r) = o :: decode 0 r.
Proof.
  unfold is_push, push_temporary_variable, push_receiver_variable, push_outer_temp,
    push_integer, push_self, push_special, push_lit_constant.
  intros Hb.
  assert (C : In b [32; 35; 33; 44; 56; 45; 46]) by (cbn [In]; lia).
  cbn [In] in C.
  destruct C as [<- | [<- | [<- | [<- | [<- | [<- | [<- | []]]]]]]].
  - exists (PUSH_TEMPORARY_VARIABLE, [x]). split; [|reflexivity].
    intros v w load other. exists (fun t _ _ => t x). reflexivity.
  - exists (PUSH_RECEIVER_VARIABLE, [x]). split; [|reflexivity].
    intros v w load other. exists (fun _ i _ => i x). reflexivity.
  - exists (PUSH_OUTER_TEMP, [0; x]). split; [|reflexivity].
    intros v w load other. eexists (fun _ _ r => _ r). reflexivity.
  - exists (PUSH_INTEGER, [x]). split; [|reflexivity].
    intros v w load other. eexists (fun _ _ r => _ r). reflexivity.
  - exists (PUSH_SELF, []). split; [|reflexivity].
    intros v w load other. eexists (fun _ _ r => _ r). reflexivity.
  - exists (PUSH_SPECIAL, [x]). split; [|reflexivity].
    intros v w load other. eexists (fun _ _ r => _ r). reflexivity.
  - exists (PUSH_LIT_CONSTANT, [x]). split; [|reflexivity].
    intros v w load other. eexists (fun _ _ r => _ r). reflexivity.
Qed.

Lemma dec_pop y r : decode 0 ((48, y) :: r) = (POP_STACK_TOP, []) :: decode 0 r.
Proof. reflexivity. Qed.
Lemma dec_line z r : decode 0 ((54, z) :: r) = (LINE_NUMBER_BYTECODE, [z]) :: decode 0 r.
Proof. reflexivity. Qed.
Lemma dec_ret z r : decode 0 ((51, z) :: r) = (RETURN_CONTEXT_STACK_TOP, []) :: decode 0 r.
Proof. reflexivity. Qed.

(** ** The rewritings *)
Lemma store_pair b x : (b =? 32) || (b =? 35) = true ->
  exists sto psh,
    (forall r, decode 0 ((b + 4, x) :: r) = sto :: decode 0 r) /\
    (forall r, decode 0 ((b, x) :: r) = psh :: decode 0 r) /\
    refines [sto; (POP_STACK_TOP, []); psh] [sto] /\
    forall z, refines [sto; (POP_STACK_TOP, []); (LINE_NUMBER_BYTECODE, [z]); psh]
                      [sto; (LINE_NUMBER_BYTECODE, [z])].
Proof.
  intros Hb. assert (C : b = 32 \/ b = 35) by lia. destruct C as [-> | ->].
  - exists (STORE_TEMPORARY_VARIABLE, [x]), (PUSH_TEMPORARY_VARIABLE, [x]).
    split; [reflexivity|]. split; [reflexivity|]. split.
    + intros val world load other [[|v st] t i l r]; cbn; [congruence|]. intros _.
      unfold push, set. cbn. rewrite Z.eqb_refl. reflexivity.
    + intros z val world load other [[|v st] t i l r]; cbn; [congruence|]. intros _.
      unfold push, set. cbn. rewrite Z.eqb_refl. reflexivity.
  - exists (STORE_RECEIVER_VARIABLE, [x]), (PUSH_RECEIVER_VARIABLE, [x]).
    split; [reflexivity|]. split; [reflexivity|]. split.
    + intros val world load other [[|v st] t i l r]; cbn; [congruence|]. intros _.
      unfold push, set. cbn. rewrite Z.eqb_refl. reflexivity.
    + intros z val world load other [[|v st] t i l r]; cbn; [congruence|]. intros _.
      unfold push, set. cbn. rewrite Z.eqb_refl. reflexivity.
Qed.

Lemma push_pop o : pushes o -> refines [o; (POP_STACK_TOP, [])] [].
Proof.
  intros P val world load other s _. destruct (P val world load other) as [f E].
  cbn [run]. rewrite E. cbn. destruct s; reflexivity.
Qed.

Lemma pop_push_return o : pushes o ->
  refines [(POP_STACK_TOP, []); o; (RETURN_CONTEXT_STACK_TOP, [])]
          [o; (RETURN_CONTEXT_STACK_TOP, [])].
Proof.
  intros P val world load other s. destruct (P val world load other) as [f E].
  cbn [run]. rewrite E. destruct s as [[|v st] t i l r]; cbn; [congruence|].
  intros _. rewrite E. reflexivity.
Qed.

Lemma pop_line z :
  refines [(POP_STACK_TOP, []); (LINE_NUMBER_BYTECODE, [z])]
          [(LINE_NUMBER_BYTECODE, [z]); (POP_STACK_TOP, [])].
Proof. intros val world load other [[|v st] t i l r]; cbn; [congruence|reflexivity]. Qed.

(** ** The bytecodes written so far *)
Fixpoint pop_ok (out : list (Z * Z)) : bool :=
  match out with
  | (p, _) :: out' => (negb (p =? 48) || not_extended out') && pop_ok out'
  | [] => true
  end.

Lemma pop_ok_tail p out : pop_ok (p :: out) = true -> pop_ok out = true.
Proof. destruct p. cbn [pop_ok]. intros E. apply andb_true_iff in E. tauto. Qed.

Lemma pop_ok_head y out : pop_ok ((48, y) :: out) = true -> not_extended out = true.
Proof. cbn [pop_ok]. change (48 =? 48) with true. cbn [negb orb]. intros E. bools. assumption. Qed.

Lemma pop_ok_cons p y out : pop_ok out = true -> (p = 48 -> not_extended out = true) ->
  pop_ok ((p, y) :: out) = true.
Proof.
  intros A B. cbn [pop_ok]. rewrite A, andb_true_r.
  destruct (Z.eqb_spec p 48) as [E|E]; [cbn; auto|reflexivity].
Qed.

Lemma decode_mid out r : not_extended out = true ->
  decode 0 (rev out ++ r) = decode 0 (rev out) ++ decode 0 r.
Proof. intros E. rewrite decode_app, pending_rev by exact E. reflexivity. Qed.

(** store_pop_push *)
Lemma store_pop_push_ok prev out b x out' r :
  store_pop_push prev out b x = Some out' -> pop_ok out = true -> not_extended out = true ->
  not_extended out' = true /\ pop_ok out' = true /\
  refines (decode 0 (rev out ++ (b, x) :: r)) (decode 0 (rev out' ++ r)).
Proof.
  unfold store_pop_push, push_temporary_variable, push_receiver_variable,
    store_temporary_variable, line_number_bytecode, pop_stack_top, ext_byte.
  destruct ((b =? 32) || (b =? 35)) eqn:Hb; [|discriminate].
  destruct out as [|[p y1] [|[st y] out1]]; try discriminate.
  destruct (not_extended out1 && _ && _ && _ && _) eqn:C1.
  - intros [= <-] Po No.
    assert (p = 48 /\ st = b + 4 /\ y = x /\ not_extended out1 = true)
      as (-> & -> & -> & N1) by (bools; repeat split; (assumption || lia)).
    split. { cbn [not_extended]. unfold ext_byte. lia. }
    split. { now apply pop_ok_tail in Po. }
    destruct (store_pair b x Hb) as (sto & psh & D1 & D2 & R & _).
    cbn [rev]. rewrite <- !app_assoc. cbn [app].
    rewrite !(decode_mid out1) by exact N1. cbn [app].
    rewrite D1, dec_pop, D2, D1.
    apply (refines_ctx _ [sto; (POP_STACK_TOP, []); psh] [sto]). exact R.
  - destruct out1 as [|[st2 y2] out2]; try discriminate.
    destruct (not_extended out2 && _ && _ && _ && _ && _) eqn:C2; [|discriminate].
    intros [= <-] Po No.
    assert (st = 48 /\ st2 = b + 4 /\ y2 = x /\ p = 54 /\ not_extended out2 = true)
      as (-> & -> & -> & -> & N2) by (bools; repeat split; (assumption || lia)).
    split. { reflexivity. }
    assert (Po2 : pop_ok ((b + 4, x) :: out2) = true)
      by (do 2 apply pop_ok_tail in Po; exact Po).
    split. { exact Po2. }
    destruct (store_pair b x Hb) as (sto & psh & D1 & D2 & _ & R).
    cbn [rev]. rewrite <- !app_assoc. cbn [app].
    rewrite !(decode_mid out2) by exact N2. cbn [app].
    rewrite D1, dec_pop, dec_line, D2, D1, dec_line.
    apply (refines_ctx _ [sto; (POP_STACK_TOP, []); (LINE_NUMBER_BYTECODE, [y1]); psh]
                         [sto; (LINE_NUMBER_BYTECODE, [y1])]). apply R.
Qed.

Lemma swap_line_ok out r : pop_ok out = true -> not_extended out = true ->
  not_extended (swap_line out) = true /\ pop_ok (swap_line out) = true /\
  refines (decode 0 (rev out ++ r)) (decode 0 (rev (swap_line out) ++ r)).
Proof.
  intros Po No. unfold swap_line, pop_stack_top, line_number_bytecode.
  destruct out as [|[ln z] [|[p y] out]]; auto using refines_refl.
  destruct ((p =? 48) && (ln =? 54)) eqn:C; auto using refines_refl.
  assert (p = 48 /\ ln = 54) as [-> ->] by lia.
  assert (N : not_extended out = true)
    by (repeat (try exact (pop_ok_head _ _ Po); apply pop_ok_tail in Po)).
  split; [reflexivity|]. split.
  { do 2 apply pop_ok_tail in Po. apply pop_ok_cons; [|reflexivity].
    apply pop_ok_cons; [exact Po|]. intros _. exact N. }
  cbn [rev]. rewrite <- !app_assoc. cbn [app].
  rewrite !(decode_mid out) by exact N.
  cbn [app]. rewrite !dec_line, !dec_pop, dec_line.
  apply (refines_ctx _ [(POP_STACK_TOP, []); (LINE_NUMBER_BYTECODE, [z])]
                       [(LINE_NUMBER_BYTECODE, [z]); (POP_STACK_TOP, [])]).
  apply pop_line.
Qed.

Lemma drop_pop_ok out b x src : is_push b = true ->
  pop_ok out = true -> not_extended out = true ->
  not_extended (drop_pop out src) = true /\ pop_ok (drop_pop out src) = true /\
  refines (decode 0 (rev out ++ (b, x) :: src)) (decode 0 (rev (drop_pop out src) ++ (b, x) :: src)).
Proof.
  intros Hb Po No. unfold drop_pop, return_context_stack_top, pop_stack_top.
  destruct out as [|[p y] out]; [auto using refines_refl|].
  destruct src as [|[rt z] src]; [auto using refines_refl|].
  destruct ((rt =? 51) && (p =? 48)) eqn:C; [|auto using refines_refl].
  assert (rt = 51 /\ p = 48) as [-> ->] by lia.
  assert (N : not_extended out = true)
    by (repeat (try exact (pop_ok_head _ _ Po); apply pop_ok_tail in Po)).
  split; [exact N|]. split; [now apply pop_ok_tail in Po|].
  destruct (push_op b x Hb) as (o & P & D).
  cbn [rev]. rewrite <- !app_assoc. cbn [app].
  rewrite !(decode_mid out) by exact N. cbn [app].
  rewrite dec_pop, !D, dec_ret.
  apply (refines_ctx _ [(POP_STACK_TOP, []); o; (RETURN_CONTEXT_STACK_TOP, [])]
                       [o; (RETURN_CONTEXT_STACK_TOP, [])]).
  now apply pop_push_return.
Qed.

(** ** The loop *)
Lemma compile_byte_shape b n : 0 <= n < 2 ^ 31 ->
  exists exts x, compile_byte b n = exts ++ [(b, x)]
    /\ Forall (fun p => fst p = 55) exts /\ (n <= 255 -> exts = [] /\ x = n)
    /\ (255 < n -> exts <> []).
Proof.
  intros Hn. rewrite compile_byte_cases by exact Hn.
  destruct (Z.leb_spec n 255).
  { exists [], n. repeat split; auto. lia. }
  destruct (Z.leb_spec n 65535).
  { exists [(55, n / 256)], (n mod 256). repeat split; auto; try lia; discriminate. }
  destruct (Z.leb_spec n 16777215).
  { exists [(55, n / 65536); (55, n / 256 mod 256)], (n mod 256).
    repeat split; auto; try lia; discriminate. }
  exists [(55, n / 16777216); (55, n / 65536 mod 256); (55, n / 256 mod 256)], (n mod 256).
  split; [reflexivity|]. split; [repeat constructor|]. split; [lia|discriminate].
Qed.

Lemma peephole_exts exts : Forall (fun p => fst p = 55) exts -> forall prev out src,
  exts <> [] -> peephole prev out (exts ++ src) = peephole 55 (rev exts ++ out) src.
Proof.
  induction 1 as [|[b x] exts Hb _ IH]; intros prev out src N; [congruence|].
  cbn [fst] in Hb. subst b. cbn [app peephole].
  change (is_push 55) with false. cbn iota.
  change ((55 =? jump) || (55 =? jump_back) || (55 =? pop_jump_true) || (55 =? pop_jump_false))
    with false. cbn iota.
  destruct exts as [|e exts]; [reflexivity|].
  rewrite IH by discriminate. cbn [rev]. rewrite <- !app_assoc. reflexivity.
Qed.

Lemma store_pop_push_ext out b x : store_pop_push 55 out b x = None.
Proof.
  unfold store_pop_push. change (55 =? ext_byte) with true. cbn [negb].
  destruct (_ || _); [|reflexivity].
  destruct out as [|[p y1] [|[st y] out1]]; try reflexivity.
  rewrite andb_false_r.
  destruct out1 as [|[st2 y2] out2]; try reflexivity.
  rewrite andb_false_r. reflexivity.
Qed.

(** the first bytecode of the code that follows *)
Lemma flat_first_pop is y src : Forall instruction is -> flat is = (48, y) :: src ->
  exists is', is = (48, 0) :: is' /\ src = flat is'.
Proof.
  intros Hi E. destruct is as [|[b n] is]; [discriminate|].
  apply Forall_inv in Hi as (Hm & Hn & Hz). cbn [fst snd] in *.
  change (flat ((b, n) :: is)) with (compile_byte b n ++ flat is) in E.
  destruct (compile_byte_shape b n Hn) as (exts & x & Ec & Fe & Hs & Hl).
  rewrite Ec in E. destruct exts as [|[e1 e2] exts].
  - cbn [app] in E. injection E as -> Ey Es. rewrite Hz by reflexivity. eauto.
  - cbn [app] in E. apply Forall_inv in Fe. cbn [fst] in Fe. injection E as -> _. discriminate.
Qed.

Lemma extended_tail i is : extended_push_pop (i :: is) = false -> extended_push_pop is = false.
Proof. destruct i as [b n]. destruct is as [|[p m] is]; [reflexivity|]. intros E.
  apply orb_false_iff in E. exact (proj2 E). Qed.

Lemma block_code_instr is : block_code is -> Forall instruction is.
Proof. apply Forall_impl. tauto. Qed.

Lemma peephole_ok m : forall is, (length is <= m)%nat -> block_code is ->
  extended_push_pop is = false -> forall prev out,
  prev <> 55 -> not_extended out = true -> pop_ok out = true ->
  exists code, peephole prev out (flat is) = Ok code
    /\ refines (decode 0 (rev out ++ flat is)) (decode 0 code).
Proof.
  induction m as [|m IH]; intros is Hl Hi He prev out Hp No Po.
  { destruct is; [|cbn in Hl; lia]. exists (rev out). split; [reflexivity|].
    cbn [flat flat_map]. rewrite app_nil_r. apply refines_refl. }
  destruct is as [|[b n] is].
  { exists (rev out). split; [reflexivity|].
    cbn [flat flat_map]. rewrite app_nil_r. apply refines_refl. }
  cbn [length] in Hl. pose proof (Forall_inv Hi) as ((Hm & Hn & Hz) & Hj).
  apply Forall_inv_tail in Hi. cbn [fst snd] in *.
  pose proof (extended_tail _ _ He) as He'.
  assert (Nb : b <> 55) by (intros ->; apply Hm; reflexivity).
  assert (Njs : ((b =? jump) || (b =? jump_back) || (b =? pop_jump_true)
                 || (b =? pop_jump_false)) = false).
  { unfold jump, jump_back, pop_jump_true, pop_jump_false. unfold is_jump in Hj. lia. }
  destruct (compile_byte_shape b n Hn) as (exts & x & Ec & Fe & Hs & Hlong).
  change (flat ((b, n) :: is)) with (compile_byte b n ++ flat is). rewrite Ec, <- app_assoc.
  cbn [app]. destruct (Z.leb_spec n 255) as [Hsm|Hlg].
  - (* not extended *)
    destruct Hs as [-> ->]; [exact Hsm|]. cbn [app peephole]. clear Hlong Ec Fe.
    assert (Plain : exists code, peephole b ((b, n) :: out) (flat is) = Ok code
             /\ refines (decode 0 (rev out ++ (b, n) :: flat is)) (decode 0 code) \/ b = 48
                /\ not_extended out = false).
    { destruct (IH is ltac:(lia) Hi He' b ((b, n) :: out) Nb) as (code & E & R).
      - cbn [not_extended]. unfold ext_byte. lia.
      - apply pop_ok_cons; auto.
      - exists code. left. split; [exact E|]. cbn [rev] in R. rewrite <- app_assoc in R. exact R. }
    destruct Plain as (codep & [(Ep & Rp) | [_ Ab]]); [|congruence].
    destruct (is_push b) eqn:Ib.
    2: { rewrite Njs. eauto. }
    destruct (store_pop_push prev out b n) as [out'|] eqn:Es.
    + destruct (store_pop_push_ok _ _ _ _ _ (flat is) Es Po No) as (N' & P' & R).
      destruct (IH is ltac:(lia) Hi He' b out' Nb N' P') as (code & E & R').
      exists code. split; [exact E|]. eapply refines_trans; eassumption.
    + assert (Keep : exists code,
        peephole b ((b, n) :: swap_line (drop_pop out (flat is))) (flat is) = Ok code
        /\ refines (decode 0 (rev out ++ (b, n) :: flat is)) (decode 0 code)).
      { destruct (drop_pop_ok out b n (flat is) Ib Po No) as (N1 & P1 & R1).
        destruct (swap_line_ok (drop_pop out (flat is)) ((b, n) :: flat is) P1 N1) as (N2 & P2 & R2).
        destruct (IH is ltac:(lia) Hi He' b ((b, n) :: swap_line (drop_pop out (flat is))) Nb)
          as (code & E & R).
        - cbn [not_extended]. unfold ext_byte. lia.
        - apply pop_ok_cons; auto.
        - exists code. split; [exact E|]. cbn [rev] in R. rewrite <- app_assoc in R.
          eapply refines_trans; [exact R1|]. eapply refines_trans; [exact R2|exact R]. }
      destruct (flat is) as [|[p y] src] eqn:Ef; [exact Keep|].
      unfold pop_stack_top. destruct (Z.eqb_spec p 48) as [-> | Np]; [|exact Keep].
      destruct (flat_first_pop is y src (block_code_instr _ Hi) Ef) as (is' & -> & ->).
      apply Forall_inv_tail in Hi. apply extended_tail in He'. cbn [length] in Hl.
      destruct (IH is' ltac:(lia) Hi He' 48 out) as (code & E & R); auto; [lia|].
      exists code. split; [exact E|].
      eapply refines_trans; [|exact R].
      destruct (push_op b n Ib) as (o & Pu & D).
      rewrite !(decode_mid out) by exact No.
      cbn [app]. rewrite D, dec_pop.
      apply (refines_ctx _ [o; (POP_STACK_TOP, [])] []). now apply push_pop.
  - (* extended *)
    specialize (Hlong Hlg). clear Hs.
    rewrite (peephole_exts exts Fe) by exact Hlong. cbn [app peephole].
    assert (Hd : exists e out1, rev exts ++ out = (55, e) :: out1).
    { destruct (exists_last Hlong) as (l' & [e1 e2] & ->). rewrite rev_app_distr. cbn [rev app].
      apply Forall_app in Fe as [_ Fe]. apply Forall_inv in Fe. cbn [fst] in Fe. subst e1. eauto. }
    assert (N48 : b <> 48) by (intros ->; specialize (Hz eq_refl); lia).
    assert (Plain : exists code, peephole b ((b, x) :: rev exts ++ out) (flat is) = Ok code
             /\ refines (decode 0 (rev out ++ exts ++ (b, x) :: flat is)) (decode 0 code)).
    { destruct (IH is ltac:(lia) Hi He' b ((b, x) :: rev exts ++ out) Nb) as (code & E & R).
      - cbn [not_extended]. unfold ext_byte. lia.
      - apply pop_ok_cons; [|intros ->; congruence].
        clear - Fe Po. induction exts as [|[e1 e2] exts IH] using rev_ind; [exact Po|].
        apply Forall_app in Fe as [F1 F2]. apply Forall_inv in F2. cbn [fst] in F2.
        rewrite rev_app_distr. cbn [rev app]. apply pop_ok_cons; [exact (IH F1)|]. subst. discriminate.
      - exists code. split; [exact E|].
        cbn [rev] in R. rewrite rev_app_distr, rev_involutive, <- !app_assoc in R. exact R. }
    rewrite store_pop_push_ext.
    destruct (is_push b) eqn:Ib.
    2: { rewrite Njs. exact Plain. }
    destruct Hd as (e & out1 & Hd). rewrite Hd in *.
    assert (Hdr : forall s, drop_pop ((55, e) :: out1) s = (55, e) :: out1).
    { intros [|[r z] s]; [reflexivity|]. cbn [drop_pop].
      change (55 =? pop_stack_top) with false. rewrite andb_false_r. reflexivity. }
    assert (Hsw : swap_line ((55, e) :: out1) = (55, e) :: out1).
    { cbn [swap_line]. destruct out1 as [|[p y] out1]; [reflexivity|].
      change (55 =? line_number_bytecode) with false. rewrite andb_false_r. reflexivity. }
    destruct (flat is) as [|[p y] src] eqn:Ef.
    + rewrite Hdr, Hsw. exact Plain.
    + unfold pop_stack_top. destruct (Z.eqb_spec p 48) as [-> | Np].
      * exfalso. destruct (flat_first_pop is y src (block_code_instr _ Hi) Ef) as (is' & -> & ->).
        cbn [extended_push_pop existsb] in He. unfold is_push, push_temporary_variable,
          push_receiver_variable, push_outer_temp, push_integer, push_self, push_special,
          push_lit_constant in Ib.
        assert (b <> 56) by (intros ->; specialize (Hz eq_refl); lia). lia.
      * rewrite Hdr, Hsw. exact Plain.
Qed.

Lemma optimize_ok is : block_code is -> extended_push_pop is = false ->
  exists code, optimize_basic_block (flat is) = Ok code
    /\ refines (decode 0 (flat is)) (decode 0 code).
Proof.
  intros Hi He.
  destruct (peephole_ok (length is) is (le_n _) Hi He (-1) []) as (code & E & R); auto; [lia|].
  exists (optimize_superoperators code). unfold optimize_basic_block. rewrite E. cbn [obind].
  split; [reflexivity|]. rewrite superoperators_decode. exact R.
Qed.

(** ** 300. ^1 *)
Definition lost_extension : list (Z * Z) := [(44, 300); (48, 0); (44, 1); (51, 0)].

Definition integer_machine (o : opname) (l : list Z) (w : unit) : Z :=
  match l with [n] => n | _ => 0 end.

Lemma lost_extension_wrong :
  exists is code (load : opname -> list Z -> unit -> Z) other s v v' s1 s2,
    block_code is /\ optimize_basic_block (flat is) = Ok code
    /\ run load other (decode 0 (flat is)) s = Returned v s1
    /\ run load other (decode 0 code) s = Returned v' s2 /\ v <> v'.
Proof.
  exists lost_extension.
  exists (match optimize_basic_block (flat lost_extension) with Ok c => c | _ => [] end).
  exists integer_machine, (fun _ _ _ => Stuck), (State [] (fun _ => 0) (fun _ => 0) 0 tt).
  exists 1, 257.
  exists (State [] (fun _ => 0) (fun _ => 0) 0 tt), (State [] (fun _ => 0) (fun _ => 0) 0 tt).
  split. { repeat constructor; cbn; try lia; discriminate. }
  split; [vm_compute; reflexivity|]. split; [vm_compute; reflexivity|].
  split; [vm_compute; reflexivity|]. lia.
Qed.

(** ** Sequences of instructions *)
Lemma meaning_total b n : meaning b 0 <> None -> exists o, meaning b n = Some o.
Proof.
  unfold meaning. destruct (_ && _); [eauto|]. destruct (_ && _); [eauto|].
  destruct b as [|p|p]; try congruence.
  do 6 (destruct p as [p|p|]; try congruence; eauto).
Qed.

Lemma decode_sequence is : Forall instruction is ->
  Forall2 (fun i o => meaning (fst i) (snd i) = Some o) is (decode 0 (flat is)).
Proof.
  induction 1 as [|[b n] is (Hm & Hn & _) _ IH]; [constructor|]. cbn [fst snd] in *.
  destruct (meaning_total b n Hm) as [o Ho].
  change (flat ((b, n) :: is)) with (compile_byte b n ++ flat is).
  rewrite (decode_emitted b n o) by assumption. constructor; assumption.
Qed.

Lemma instruction_byte b : meaning b 0 <> None -> 0 <= b < 256.
Proof.
  unfold meaning. destruct (_ && _) eqn:E; [lia|]. destruct (_ && _) eqn:E2; [lia|].
  clear E E2. intros Hm. destruct b as [|p|p]; try (exfalso; apply Hm; reflexivity).
  do 6 (destruct p as [p|p|]; try (exfalso; apply Hm; reflexivity); try (clear; lia)).
Qed.

Lemma flat_bytes is : Forall instruction is -> bytes (flat is).
Proof.
  induction 1 as [|[b n] is (Hm & Hn & _) _ IH]; [constructor|]. cbn [fst snd] in *.
  change (flat ((b, n) :: is)) with (compile_byte b n ++ flat is).
  apply Forall_app. split; [|exact IH]. apply instruction_byte in Hm.
  rewrite compile_byte_cases by exact Hn. change (2 ^ 31) with 2147483648 in Hn.
  destruct (Z.leb_spec n 255); [|destruct (Z.leb_spec n 65535);
    [|destruct (Z.leb_spec n 16777215)]];
    repeat constructor; cbn [fst snd]; lia.
Qed.

Lemma vm_sequence is : Forall instruction is ->
  Forall2 (fun i v => exists o, meaning (fst i) (snd i) = Some o /\ translate v = without_line o)
    is (vm_run None (flat is)).
Proof.
  intros Hi. pose proof (vm_agrees _ (flat_bytes is Hi)) as E.
  pose proof (decode_sequence is Hi) as D. revert E D.
  generalize (decode 0 (flat is)) (vm_run None (flat is)). clear.
  induction is as [|i is IH]; intros ds vs E D; inversion D; subst.
  - destruct vs; [constructor|discriminate].
  - destruct vs as [|v vs]; [discriminate|]. cbn [map] in E. injection E as E1 E2.
    constructor; eauto.
Qed.
