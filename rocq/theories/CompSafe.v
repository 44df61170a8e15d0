(** The compiler always ends, and none of its assertions fails. *)
From Coq Require Import ZArith Lia List Bool Ascii String.
From Coq Require Import ZifyBool ZifyNat.
From Verif Require Import Base Bc Comp CompSpec CompState CompGen.
Import ListNotations.
Local Open Scope string_scope.
Local Open Scope list_scope.
Local Open Scope Z_scope.

(** * The search for the lengths of jumps ends *)

Lemma near_mono f a b : near f -> a <= b -> f a <= f b.
Proof.
  intros [-> | ->] H; unfold jump_size, jump_size_gt;
    repeat match goal with |- context [if ?b then _ else _] => destruct b eqn:? end; lia.
Qed.
Lemma near_vals f a : near f -> f a = 2 \/ f a = 4 \/ f a = 6.
Proof.
  intros [-> | ->]; unfold jump_size, jump_size_gt;
    repeat match goal with |- context [if ?b then _ else _] => destruct b end; auto.
Qed.

Lemma lengths_end f ofs around : near f -> forall fuel old fin,
  fin <= f (ofs + old + fin) ->
  old <= f (around + f (ofs + old + f (ofs + old + fin))) ->
  old = 0 \/ old = 2 \/ old = 4 \/ old = 6 -> 8 - old < 2 * Z.of_nat fuel ->
  exists p, jump_lengths fuel f ofs around old fin = Ok p.
Proof.
  intros Nf. induction fuel as [|n IH]; intros old fin H1 H2 H3 H4; [lia|]. cbn [jump_lengths].
  remember (f (ofs + old + fin)) as f1 eqn:E1. remember (f (ofs + old + f1)) as f2 eqn:E2.
  remember (f (around + f2)) as nw eqn:E3.
  destruct (nw =? old) eqn:E; [eexists; reflexivity|].
  pose proof (near_vals f (around + f2) Nf) as V. rewrite <- E3 in V.
  assert (A : f2 <= f (ofs + nw + f2)).
  { rewrite E2 at 1. apply near_mono; [exact Nf|].
    assert (f1 <= f2) by (rewrite E2, E1 at 1; apply near_mono; [exact Nf|lia]). lia. }
  apply IH; [exact A| |lia|lia].
  rewrite E3 at 1. apply near_mono; [exact Nf|].
  assert (f (ofs + nw + f2) <= f (ofs + nw + f (ofs + nw + f2))) by (apply near_mono; [exact Nf|lia]). lia.
Qed.

Lemma lengths_some f ofs around : near f -> exists p, jump_lengths 8 f ofs around 0 0 = Ok p.
Proof.
  intros Nf. apply lengths_end; [exact Nf| | |auto|lia].
  - destruct (near_vals f (ofs + 0 + 0) Nf); lia.
  - match goal with |- _ <= f ?x => destruct (near_vals f x Nf); lia end.
Qed.

(** * Lines *)

Lemma from_less a b : a <= b ->
  forall ss, from_stmts b ss -> from_stmts a ss.
Proof.
  intros H.
  assert (G : (forall e, from b e -> from a e) /\ (forall es, from_args b es -> from_args a es)
    /\ (forall ms, from_msgs b ms -> from_msgs a ms) /\ (forall ss, from_stmts b ss -> from_stmts a ss)).
  { apply syntax_ind; cbn; intros; repeat match goal with H : _ /\ _ |- _ => destruct H end;
      repeat split; auto; try lia.
    eapply Forall_impl; [|eassumption]. cbn. intros. lia. }
  apply G.
Qed.

(** * Parts that do not fail *)

Section Safe.
  Variable off : Z.

  Definition clean (p q : Z) (m : comp) : Prop :=
    forall s, s_offset s = off ->
      match m s with
      | Ok (v, s') => s_offset s' = off /\ p <= v_low v /\ q <= v_net v
      | Err => True
      | _ => False
      end.

  Lemma clean_less p q p' q' m : clean p q m -> p' <= p -> q' <= q -> clean p' q' m.
  Proof.
    intros H Hp Hq s Hs. specialize (H s Hs). destruct (m s) as [[v s']| | | |]; auto.
    destruct H as (A & B & C). repeat split; auto; lia.
  Qed.
  Lemma clean_then p q p' q' a b : clean p q a -> clean p' q' b -> clean (Z.min p (q + p')) (q + q') (a ;; b).
  Proof.
    intros A B s Hs. unfold andthen. specialize (A s Hs). destruct (a s) as [[v s']| | | |]; cbn [obind fst snd]; auto.
    destruct A as (A1 & A2 & A3). specialize (B s' A1). destruct (b s') as [[v' s'']| | | |]; cbn [obind fst snd]; auto.
    destruct B as (B1 & B2 & B3). cbn [vapp v_low v_net]. repeat split; [exact B1|lia|lia].
  Qed.
  Lemma clean_skip : clean 0 0 skip.
  Proof. intros s Hs. cbn. auto with zarith. Qed.
  Lemma clean_incr : clean 0 1 incr.
  Proof. intros s Hs. cbn. auto with zarith. Qed.
  Lemma clean_sub n : clean (- n) (- n) (sub n).
  Proof. intros s Hs. cbn. auto with zarith. Qed.
  Lemma clean_refuse p q : clean p q refuse.
  Proof. intros s Hs. exact I. Qed.
  Lemma clean_emit b a : clean 0 0 (emit b a).
  Proof. intros s Hs. unfold emit. destruct (s_next s =? -1); cbn; auto with zarith. Qed.
  Lemma clean_splice v q : q <= v_net v -> clean q q (splice v).
  Proof. intros H s Hs. cbn. auto with zarith. Qed.
  Lemma clean_jump n b : clean (-1) (-1) (compile_jump n b).
  Proof.
    unfold compile_jump. destruct (n <=? 0); [apply clean_refuse|].
    eapply clean_less; [eapply clean_then; [apply clean_sub|apply clean_emit]|lia|lia].
  Qed.
  Lemma clean_apart m k q p' q' : clean 0 q m -> (forall v, q <= v_net v -> clean p' q' (k v)) ->
    clean p' q' (apart m k).
  Proof.
    intros A B s Hs. unfold apart. specialize (A s Hs). destruct (m s) as [[v s']| | | |]; cbn [obind fst snd]; auto.
    destruct A as (A1 & A2 & A3). replace (v_low v <? 0) with false by lia. apply B; assumption.
  Qed.
  Lemma clean_lengths f ofs around k p q : near f -> (forall a b, clean p q (k a b)) ->
    clean p q (lengths (jump_lengths 8 f ofs around 0 0) k).
  Proof.
    intros Nf B s Hs. unfold lengths. destruct (lengths_some f ofs around Nf) as [x ->]. cbn [obind].
    apply B, Hs.
  Qed.
  Lemma clean_literal l k p q : (forall i, clean p q (k i)) -> clean p q (add_literal l k).
  Proof. intros B s Hs. unfold add_literal. destruct (lit_index l (s_lits s)); apply B, Hs. Qed.
  Lemma clean_undeclare : clean 0 0 undeclare.
  Proof. intros s Hs. cbn. auto with zarith. Qed.
  Lemma clean_declare x w k p q : (forall i, clean p q (k i)) -> clean p q (declare x w k).
  Proof. intros B s Hs. unfold declare. apply B, Hs. Qed.

  Ltac cl1 :=
    lazymatch goal with
    | |- clean _ _ (emit _ _) => apply clean_emit
    | |- clean _ _ skip => apply clean_skip
    | |- clean _ _ incr => apply clean_incr
    | |- clean _ _ (sub _) => apply clean_sub
    | |- clean _ _ (compile_jump _ _) => apply clean_jump
    | |- clean _ _ undeclare => apply clean_undeclare
    | |- clean _ _ (splice _) => apply clean_splice; eassumption
    | |- clean _ _ (_ ;; _) => eapply clean_then; [cl1|cl1]
    | |- clean _ _ (lengths _ _) =>
      eapply clean_lengths; [solve [left; reflexivity|right; reflexivity]|intros ? ?; cl1]
    | |- clean _ _ (apart _ _) => eapply clean_apart; [cl1|intros ? ?; cl1]
    | |- clean _ _ (declare _ _ _) => eapply clean_declare; intros; cl1
    | |- _ => eassumption
    end.
  Ltac num := first [solve [vm_compute; discriminate]|lia].
  Ltac cl := eapply clean_less; [cl1|num|num].

  Lemma clean_line n : off < n -> off < 65535 -> clean 0 0 (line n).
  Proof.
    intros H H' s Hs. unfold line. rewrite Hs. destruct (n >? 65535) eqn:E1.
    - change (65535 =? -1) with false. replace (65535 >? off) with true by lia.
      destruct (negb (65535 =? s_prev s)); cbn; auto with zarith.
    - destruct (n =? -1) eqn:E2; [cbn; auto with zarith|]. replace (n >? off) with true by lia.
      destruct (negb (n =? s_prev s)); cbn; auto with zarith.
  Qed.

  Hypothesis Hoff : off < 65535.
  Local Notation fine := (clean 0 1).

  Lemma clean_variable c x : fine (compile_variable c x).
  Proof.
    unfold compile_variable. change 1 with (1 + 0) at 1. eapply clean_less; [eapply clean_then; [apply clean_incr|]| |].
    - instantiate (1 := 0). instantiate (1 := 0). intros s Hs.
      destruct (find_variable c s x) as [[]|]; try exact I; try (apply clean_emit; exact Hs).
      refine (clean_literal _ _ 0 0 _ s Hs). intros. apply clean_emit.
    - lia.
    - lia.
  Qed.
  Lemma clean_constant l : fine (compile_constant l).
  Proof.
    intros s Hs. unfold compile_constant.
    match goal with |- context [match ?x with Some z => (incr ;; _) s | None => _ end] => destruct x end.
    - assert (C : fine (incr ;; emit bc_push_integer z)) by cl. apply C, Hs.
    - refine (clean_literal _ _ 0 1 _ s Hs). intros. cl.
  Qed.
  Lemma clean_send c super s n : 0 <= n -> clean (- n) (- n) (compile_send c super s n).
  Proof.
    intros Hn. unfold compile_send.
    assert (A : clean 0 0 (if super then if c_super c then compile_constant LClass else refuse else skip)).
    { destruct super; [destruct (c_super c)|]; [|apply clean_refuse|apply clean_skip].
      eapply clean_less; [apply clean_constant|lia|lia]. }
    assert (B : clean 0 0 match builtin_code s with
      | None => add_literal (LSym s) (fun i =>
          emit (if super then bc_send_super else bc_send) (Z.lor (Z.shiftl i 8) n))
      | Some b =>
        if negb super && (b <? 32) then emit b 0
        else emit (if super then bc_send_super_immediate else bc_send_immediate) b
      end).
    { destruct (builtin_code s); [destruct (negb super && (z <? 32)); apply clean_emit|].
      apply clean_literal. intros. apply clean_emit. }
    cl.
  Qed.
  Lemma clean_assignments c ts : Forall (fun t => off < fst t) ts -> clean 0 0 (compile_assignments c ts).
  Proof.
    induction 1 as [|[ln x] ts H _ IH]; cbn [compile_assignments]; [apply clean_skip|]. cbn in H.
    pose proof (clean_line ln H Hoff) as Hl.
    eapply clean_less; [eapply clean_then; [eapply clean_then; [exact Hl|]|exact IH]| |].
    - instantiate (1 := 0). instantiate (1 := 0). intros s Hs.
      destruct (find_variable c s x) as [[ | |i [|]| | ]|]; try exact I; try (apply clean_emit; exact Hs).
      refine (clean_literal _ _ 0 0 _ s Hs). intros. cl.
    - lia.
    - lia.
  Qed.

  Lemma clean_while on a b : fine a -> (forall m, b = Some m -> fine m) -> fine (compile_while on a b).
  Proof.
    intros A B. unfold compile_while. destruct b as [m|].
    - specialize (B m eq_refl). cl.
    - cl.
  Qed.
  Lemma clean_repeat b : fine b -> fine (compile_repeat b).
  Proof. intros A. unfold compile_repeat. cl. Qed.
  Lemma clean_times b : fine b -> clean (-1) 0 (compile_times_repeat b).
  Proof. intros A. unfold compile_times_repeat. cl. Qed.
  Lemma clean_to x lim by_ b : fine lim -> (forall z m, by_ = Some (z, m) -> fine m) -> fine b ->
    clean (-1) 0 (compile_to_by_do x lim by_ b).
  Proof.
    intros A B C. unfold compile_to_by_do. destruct by_ as [[z m]|].
    - specialize (B z m eq_refl). cl.
    - cl.
  Qed.
  Lemma clean_over m r n : fine m -> fine (jump_over m r n).
  Proof. intros A. unfold jump_over. destruct r; cl. Qed.
  Lemma clean_if_else t r f : fine t -> fine f -> clean (-1) 0 (compile_if_true_false t r f).
  Proof.
    intros A B. unfold compile_if_true_false. pose proof (fun n => clean_over t r n A) as A'.
    eapply clean_less; [eapply clean_apart; [exact B|intros v Hv; eapply clean_apart; [apply A'|intros w Hw; cl1]]|num|num].
  Qed.
  Lemma clean_if o t r : fine t -> clean (-1) 0 (compile_if o t r).
  Proof. intros A. unfold compile_if. pose proof (clean_over t r 2 A). cl. Qed.
  Lemma clean_and_or o b : fine b -> clean (-1) 0 (compile_and_or o b).
  Proof. intros A. unfold compile_and_or. cl. Qed.

  Lemma clean_start e : from (off + 1) e -> clean 0 0 (start e).
  Proof.
    intros H. destruct e; cbn in H |- *; try (apply clean_line; lia). apply clean_skip.
  Qed.
  Lemma line_from e : from (off + 1) e -> off < line_of e.
  Proof. destruct e; cbn; lia. Qed.
  Lemma elength_pos es : 0 <= elength es.
  Proof. induction es; cbn [elength]; lia. Qed.

  (** the parts of a form lie where the message lies *)
  Lemma from_form n r s args : from n r -> from_args n args ->
    match form_of r s args with
    | FSend => True
    | FWhile on cd b => from_stmts n cd /\ from_stmts n b
    | FRepeat b => from_stmts n b
    | FIf _ t f => from_stmts n t /\ from_stmts n f
    | FAnd _ b | FOr _ b | FTimes _ b => from_stmts n b
    | FTo _ l _ _ b _ => from n l /\ from_stmts n b
    end.
  Proof.
    intros Hr Ha.
    pose proof (form_parts (from n) (from_stmts n) (from n) r s args (fun e H => H)) as F.
    assert (B : forall ln xs ts b, from n (EBlock ln xs ts b) -> from_stmts n b) by (intros ln xs ts b [_ H]; exact H).
    specialize (F B Logic.I Hr).
    assert (E : (fix each es := match es with ENil => True | ECons e es' => from n e /\ each es' end) args).
    { clear - Ha. induction args as [|e es IH]; [exact Logic.I|]. destruct Ha as [Ha1 Ha2]. split; [exact Ha1|exact (IH Ha2)]. }
    specialize (F E). destruct (form_of r s args); intuition.
  Qed.

  Lemma all_clean c :
    (forall e, tidy false e = true -> from (off + 1) e -> fine (compile_body c e))
    /\ (forall es, tidy_args false es = true -> from_args (off + 1) es -> clean 0 (elength es) (compile_args c es))
    /\ (forall ms, tidy_msgs false ms = true -> from_msgs (off + 1) ms -> clean (-1) (-1) (compile_cascaded c ms))
    /\ (forall ss, tidy_stmts false ss = true -> from_stmts (off + 1) ss -> fine (compile_block c ss)).
  Proof.
    apply tidy_ind_any.
    - intros ln x _. apply clean_variable.
    - intros ln k _. apply clean_constant.
    - intros ln xs ts b _. apply clean_refuse.
    - intros ln ts e H (F1 & F2 & F3). rewrite body_assign. specialize (H F3).
      pose proof (clean_line (line_of e) (line_from e F3) Hoff).
      assert (clean 0 0 (compile_assignments c ts)).
      { apply clean_assignments. eapply Forall_impl; [|exact F2]. cbn. intros. lia. }
      cl.
    - intros ln r ln' s args ms Hr Ha _ Hm _ _ (F1 & F2 & F3 & F4 & F5). rewrite body_cascade.
      specialize (Hr F2). specialize (Ha F4). specialize (Hm F5).
      pose proof (clean_start r F2). assert (clean 0 0 (line ln')) by (apply clean_line; lia).
      pose proof (elength_pos args) as P.
      pose proof (clean_send c (is_super r) s (elength args) P).
      eapply clean_less; [cl1|lia|lia].
    - intros ln r s args Ft Hr Ha H (F1 & F2 & F3). rewrite body_send by exact Ft.
      pose proof (from_form (off + 1) r s args F2 F3) as Fp.
      specialize (Hr F2). specialize (Ha F3). pose proof (clean_start r F2) as Hs.
      destruct (form_of r s args).
      + destruct H as (_ & H1 & H2 & _), Fp as [P1 P2]. apply clean_while; [apply H1, P1|]. intros m.
        destruct args; [discriminate|]. intros [= <-]. apply H2, P2.
      + apply clean_repeat, H, Fp.
      + destruct H as (-> & H1 & H2 & _), Fp as [P1 P2]. specialize (H1 P1). specialize (H2 P2).
        assert (clean (-1) 0 (if_code c s t f)).
        { unfold if_code. destruct (s =? "ifTrue:")%string; [apply clean_if, H1|].
          destruct (s =? "ifFalse:")%string; [apply clean_if, H2|apply clean_if_else; assumption]. }
        cl.
      + destruct H as (-> & H1). specialize (H1 Fp). pose proof (clean_and_or false _ H1). cl.
      + destruct H as (-> & H1). specialize (H1 Fp). pose proof (clean_and_or true _ H1). cl.
      + destruct H as (-> & H1). specialize (H1 Fp). pose proof (clean_times _ H1). cl.
      + destruct H as (-> & (H1 & _) & H2 & _), Fp as [P1 P2]. specialize (H1 P1). specialize (H2 P2).
        pose proof (clean_start limit P1).
        match goal with |- fine (_ ;; _ ;; compile_to_by_do ?x ?l ?b ?k) => assert (clean (-1) 0 (compile_to_by_do x l b k)) end.
        { apply clean_to; [cl| |exact H2].
          intros z m. destruct args as [|? [|[] ?]]; try discriminate. intros [= _ <-].
          cbn in F3. assert (clean 0 0 (line ln0)) by (apply clean_line; lia).
          pose proof (clean_constant (LInt step)). cl. }
        cl.
      + pose proof (elength_pos args) as P. pose proof (clean_send c (is_super r) s (elength args) P).
        eapply clean_less; [cl1|lia|lia].
    - intros _. apply clean_skip.
    - intros e es He Hes [F1 F2]. rewrite args_cons. specialize (He F1). specialize (Hes F2).
      pose proof (clean_start e F1). pose proof (elength_pos es). cbn [elength].
      eapply clean_less; [cl1|lia|lia].
    - intros _. eapply clean_less; [apply clean_skip|lia|lia].
    - intros ln s args ms _ Ha Hm (F1 & F2 & F3). rewrite cascaded_cons. specialize (Ha F2). specialize (Hm F3).
      assert (clean 0 0 (line ln)) by (apply clean_line; lia).
      pose proof (elength_pos args) as P. pose proof (clean_send c false s (elength args) P).
      destruct ms.
      + change (compile_cascaded c MNil) with skip. eapply clean_less; [cl1|lia|lia].
      + eapply clean_less; [cl1|lia|lia].
    - intros _. change (compile_block c SNil) with (incr ;; emit bc_push_special nil_index). cl.
    - intros e He F. rewrite block_return. specialize (He F). pose proof (clean_start e F). cl.
    - intros e ss He Hss [F1 F2]. rewrite block_expr. specialize (He F1). specialize (Hss F2).
      pose proof (clean_start e F1). destruct ss; cl.
  Qed.

  Lemma clean_method c last ss : tidy_stmts false ss = true -> from_stmts (off + 1) ss ->
    clean 0 0 (compile_method_body c last ss).
  Proof.
    destruct (all_clean c) as (G & _ & _ & _).
    induction ss as [|e ss IH|e]; intros T F; cbn [compile_method_body].
    - apply clean_skip.
    - rewrite tidy_sexpr in T. apply andb_true_iff in T. destruct T as [Te Ts], F as [Fe Fs].
      specialize (IH Ts Fs). specialize (G e Te Fe). pose proof (clean_start e Fe).
      change (compile_expression c e) with (start e ;; compile_body c e).
      destruct ss; [destruct last|..]; cl.
    - change (tidy_stmts false (SReturn e)) with (tidy false e) in T. cbn in F.
      specialize (G e T F). pose proof (clean_start e F).
      change (compile_expression c e) with (start e ;; compile_body c e). cl.
  Qed.
End Safe.

Theorem compiles c m last prompt : 0 < m_line m -> from_stmts (m_line m) (m_body m) ->
  tidy_stmts false (m_body m) = true ->
  compile_method c m last prompt = Err \/ exists cm, compile_method c m last prompt = Ok cm.
Proof.
  intros Hl Fs T. unfold compile_method.
  remember (if m_line m >? 65535 then 65535 else m_line m) as ln eqn:Eln.
  assert (Hln : 0 < ln <= 65535 /\ ln <= m_line m) by (subst ln; destruct (m_line m >? 65535) eqn:?; lia). clear Eln.
  replace (ln >? 0) with true by lia. cbn [negb].
  remember (negb prompt && match m_body m with SNil => false | _ => true end) as ab eqn:Eab.
  destruct (declare_names (m_params m) true 0 []) as [l1|]; [|left; reflexivity].
  destruct (declare_names (m_temps m) false (List.length (m_params m)) l1) as [l2|]; [|left; reflexivity].
  remember (Cst [] l2 (List.length (m_params m)) (List.length (m_temps m)) (if ab then ln else 0) (-1) (ln - 1)) as s0 eqn:Es0.
  assert (F' : from_stmts (ln - 1 + 1) (m_body m)).
  { replace (ln - 1 + 1) with ln by lia. revert Fs. generalize (m_body m). apply from_less. lia. }
  assert (C : clean (ln - 1) 0 0 ((fun s => Ok (if ab then Vec [(bc_line, ln)] 0 0 0 else vec0, s)) ;;
                 match m_body m with
                 | SNil => emit (if last then bc_push_special else bc_push_self) 0 ;;
                           emit bc_return 0
                 | ss => compile_method_body c last ss
                 end)).
  { eapply clean_less with (p := Z.min 0 (0 + 0)) (q := 0 + 0); [apply clean_then|lia|lia].
    - intros s Hs. destruct ab; cbn; lia.
    - destruct (m_body m) eqn:Eb.
      + eapply clean_less; [eapply clean_then; apply clean_emit|lia|lia].
      + apply clean_method; [lia|exact T|exact F'].
      + apply clean_method; [lia|exact T|exact F']. }
  specialize (C s0 ltac:(subst s0; reflexivity)).
  match goal with C : match ?x with _ => _ end |- _ => destruct x as [[v s1]| | | |] end; try contradiction; [|left; reflexivity].
  destruct C as (_ & C & _). right. cbn [obind fst snd]. destruct (v_low v <? 0) eqn:Lo; [lia|]. eexists. reflexivity.
Qed.
