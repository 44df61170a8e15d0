(** The compiler emits code of the right shape. *)
From Coq Require Import ZArith Lia List Bool Ascii String.
From Coq Require Import ZifyBool ZifyNat.
From Verif Require Import Base Bc BcProofs Comp CompSpec CompCode CompWeak CompState CompRun.
Import ListNotations.
Local Open Scope string_scope.
Local Open Scope list_scope.
Local Open Scope Z_scope.

(** * Lengths of jumps *)

Definition near (f : Z -> Z) : Prop := f = jump_size \/ f = jump_size_gt.

Lemma lengths_fix f fuel ofs around old fin0 len fin : near f -> 0 <= ofs -> 0 <= old ->
  0 <= fin0 <= 6 -> jump_lengths fuel f ofs around old fin0 = Ok (len, fin) ->
  len = f (around + fin) /\ fin = f (ofs + len + fin) /\ 2 <= fin <= 6 /\ 2 <= len <= 6.
Proof.
  intros Nf Ho. revert old fin0. induction fuel as [|n IH]; intros old fin0 Hd Hf; cbn [jump_lengths]; [discriminate|].
  set (f1 := f (ofs + old + fin0)). set (f2 := f (ofs + old + f1)). set (nw := f (around + f2)).
  assert (B : forall x, 2 <= f x <= 6).
  { intros x. destruct Nf as [-> | ->]; unfold jump_size, jump_size_gt;
      repeat match goal with |- context [if ?b then _ else _] => destruct b end; lia. }
  destruct (nw =? old) eqn:E.
  - intros [= <- <-]. split; [reflexivity|]. replace nw with old by lia.
    assert (B1 := B (ofs + old + fin0)). assert (B2 := B (ofs + old + f1)). fold f1 in B1. fold f2 in B2.
    assert (B3 := B (around + f2)). fold nw in B3.
    split; [|lia]. subst f2 f1. clear - Nf Hf Ho Hd.
    assert (X : 0 <= ofs + old) by lia. remember (ofs + old) as y eqn:Y. clear Y.
    destruct Nf as [-> | ->]; unfold jump_size, jump_size_gt;
      repeat match goal with |- context [if ?b then _ else _] =>
        lazymatch b with context [if _ then _ else _] => fail | _ => destruct b eqn:? end end; lia.
  - intros H. apply IH in H; [exact H| |].
    + specialize (B (around + f2)). fold nw in B. lia.
    + specialize (B (ofs + old + f1)). fold f2 in B. lia.
Qed.

Lemma nx_jump b a : 0 <= a < 2 ^ 24 -> 2 * Z.of_nat (nx b a) = jump_size a.
Proof.
  intros H. change (2 ^ 24) with 16777216 in H. unfold nx.
  rewrite compile_byte_cases by (change (2 ^ 31) with 2147483648; lia). unfold jump_size.
  destruct (a <=? 255) eqn:E1; [|destruct (a <=? 65535) eqn:E2; [|replace (a <=? 16777215) with true by lia]];
    cbn [List.length];
    repeat match goal with |- context [if ?b then _ else _] => destruct b eqn:? end; lia.
Qed.

Lemma gt_size a : a <> 256 -> a <> 65536 -> jump_size_gt a = jump_size a.
Proof.
  intros H1 H2. unfold jump_size_gt, jump_size.
  repeat match goal with |- context [if ?b then _ else _] => destruct b eqn:? end; lia.
Qed.

Lemma nx_pos b a : (1 <= nx b a)%nat.
Proof. unfold nx, compile_byte. rewrite app_length. cbn. lia. Qed.

(** * Selectors with a bytecode of their own *)

Definition row_ok (r : string * nat * Z) : bool :=
  match builtin_of (snd r) with
  | Some (s, n) => String.eqb s (fst (fst r)) && Nat.eqb n (arity (fst (fst r)))
  | None => false
  end && (0 <=? snd r) && (snd r <? 256) && (negb (snd r <? 32) || (snd r <? 27)).

Lemma rows_ok : forallb row_ok builtins = true.
Proof. vm_compute. reflexivity. Qed.

Lemma builtin_known s b : builtin_code s = Some b ->
  builtin_of b = Some (s, arity s) /\ 0 <= b < 256 /\ (b < 32 -> b < 27).
Proof.
  unfold builtin_code. destruct (find _ builtins) as [r|] eqn:F; [|discriminate]. intros [= <-].
  apply find_some in F. destruct F as [F1 F2]. apply String.eqb_eq in F2.
  pose proof rows_ok as R. rewrite forallb_forall in R. specialize (R r F1). unfold row_ok in R.
  rewrite F2 in R. destruct (builtin_of (snd r)) as [[t n]|]; [|discriminate].
  apply andb_true_iff in R. destruct R as [R R4]. apply andb_true_iff in R. destruct R as [R R3].
  apply andb_true_iff in R. destruct R as [R R2]. apply andb_true_iff in R. destruct R as [R0 R1].
  apply String.eqb_eq in R0. apply Nat.eqb_eq in R1. subst. split; [reflexivity|lia].
Qed.

Lemma elength_number es : elength es = Z.of_nat (number es).
Proof. induction es; cbn [elength number]; lia. Qed.

Lemma lit_eqb_eq a b : lit_eqb a b = true -> a = b.
Proof.
  destruct a, b; cbn [lit_eqb]; try discriminate; intros H; try reflexivity; f_equal;
    first [apply String.eqb_eq, H | apply Nat.eqb_eq, H | lia].
Qed.
Lemma lit_index_nth l ls i : lit_index l ls = Some i -> nth_error ls i = Some l.
Proof.
  revert i. induction ls as [|m ls IH]; intros i; cbn; [discriminate|].
  destruct (lit_eqb l m) eqn:E.
  - intros [= <-]. apply lit_eqb_eq in E. subst. reflexivity.
  - destruct (lit_index l ls); [|discriminate]. intros [= <-]. apply IH. reflexivity.
Qed.
Lemma ext_nth a b j (l : lit) : ext a b -> nth_error a j = Some l -> nth_error b j = Some l.
Proof.
  intros [x ->] H. rewrite nth_error_app1; [exact H|]. apply nth_error_Some. congruence.
Qed.

Lemma loops_pos : (forall e, 0 <= loops e) /\ (forall es, 0 <= loops_args es)
  /\ (forall ms, 0 <= loops_msgs ms) /\ (forall ss, 0 <= loops_stmts ss).
Proof.
  apply syntax_ind; intros; cbn [loops loops_args loops_msgs loops_stmts]; try lia.
Qed.

Lemma emit_now b a s : s_next s = -1 -> emit b a s = Ok (Vec [(b, a)] 0 0 0, s).
Proof. intros H. unfold emit. rewrite H. reflexivity. Qed.
Lemma emit_inv b a s v s' : st_ok s -> emit b a s = Ok (v, s') ->
  exists pre, Line pre /\ v = Vec (pre ++ [(b, a)]) 0 0 0.
Proof.
  intros (H & _) E. unfold emit in E. destruct (s_next s =? -1) eqn:En; injection E as <- <-.
  - exists []. split; [constructor|reflexivity].
  - exists [(bc_line, s_next s)]. split; [constructor; lia|reflexivity].
Qed.

Lemma line_inv n s v s' : line n s = Ok (v, s') -> v = vec0.
Proof.
  unfold line. generalize (if n >? 65535 then 65535 else n). intros m.
  destruct (m =? -1); [intros [= <- _]; reflexivity|]. destruct (m >? s_offset s); [|discriminate].
  destruct (negb (m =? s_prev s)); intros [= <- _]; reflexivity.
Qed.

Section Gen.
  Variable c : ctx.
  Variable L : list lit.
  Variable N : nat.
  Hypothesis HN : Z.of_nat N < 256.

  Local Notation CE := (CE c L N).
  Local Notation CA := (CA c L N).
  Local Notation CM := (CM c L N).
  Local Notation CB := (CB c L N).

  Definition final (s : cst) : Prop := ext (s_lits s) L /\ (s_args s + s_temps s <= N)%nat.
  Definition small (is : list (Z * Z)) : Prop := no_edge is /\ size is < 2 ^ 22.

  Definition gives (m : comp) (R : syms -> list (Z * Z) -> Z -> Prop) (b k : Z) : Prop :=
    forall s v s', st_ok s -> m s = Ok (v, s') -> final s' -> small (v_is v) ->
      b <= v_net v /\ exists d, R (s_syms s) (v_is v) d /\ d <= v_max v + k.

  Lemma final_back f s s' : st f s s' -> final s' -> final s.
  Proof.
    intros (A1 & A2 & A3 & A4 & _) (B1 & B2). split; [eapply ext_trans; eassumption|lia].
  Qed.
  Lemma small_app a b : small (a ++ b) -> small a /\ small b.
  Proof.
    intros [H1 H2]. rewrite size_app in H2. pose proof (size_pos a). pose proof (size_pos b).
    split; split; try lia; intros x y Hi; apply H1, in_or_app; auto.
  Qed.
  Lemma small_cons i b : small (i :: b) -> small b.
  Proof. intros H. apply (small_app [i] b), H. Qed.

  Lemma line_ce l e pre is d : Line pre -> CE l e is d -> CE l e (pre ++ is) d.
  Proof. intros H1 H2. inversion H1; subst; cbn [app]; [exact H2|]. apply ce_line; assumption. Qed.

  Lemma add_inv l k s v s' : st_ok s -> (forall i, done same (k i)) -> add_literal l k s = Ok (v, s') -> final s' ->
    exists j s1, k (Z.of_nat j) s1 = Ok (v, s') /\ nth_error L j = Some l /\ st_ok s1 /\ s_next s1 = s_next s.
  Proof.
    intros H G E F. unfold add_literal in E. destruct (lit_index l (s_lits s)) as [i|] eqn:Ei.
    - exists i, s. split; [exact E|]. split; [|auto]. apply lit_index_nth in Ei.
      eapply ext_nth; [|exact Ei]. eapply (final_back same s s'); [eapply G; eassumption|exact F].
    - exists (List.length (s_lits s)), (with_lits s (s_lits s ++ [l])).
      pose proof (st_lits s l H) as H1. split; [exact E|]. split; [|split; [apply H1|reflexivity]].
      apply (ext_nth (s_lits s ++ [l])).
      + eapply (final_back same (with_lits s (s_lits s ++ [l])) s'); [eapply G; [apply H1|exact E]|exact F].
      + rewrite nth_error_app2 by lia. rewrite Nat.sub_diag. reflexivity.
  Qed.

  Ltac then_ H E1 E2 := let v1 := fresh "v" in let s1 := fresh "s" in let v2 := fresh "v" in
    apply andthen_inv in H; destruct H as (v1 & s1 & v2 & E1 & E2 & ->).

  Ltac step H v1 s1 v2 E1 E2 :=
    apply andthen_inv in H; destruct H as (v1 & s1 & v2 & E1 & E2 & ->).

  Lemma gen_variable ln x : gives (compile_variable c x) (fun l => CE l (EVar ln x)) 1 0.
  Proof.
    intros s v s' H E F _. unfold compile_variable in E. then_ E E1 E2. injection E1 as <- <-.
    assert (G : forall i, st_ok i -> forall b a v2 s2, emit b a i = Ok (v2, s2) ->
        forall en, find_variable c s x = Some en -> Pushes L en (b, a) ->
        1 <= v_net (vapp (Vec [] 1 1 0) v2)
        /\ exists d, CE (s_syms s) (EVar ln x) (v_is (vapp (Vec [] 1 1 0) v2)) d
             /\ d <= v_max (vapp (Vec [] 1 1 0) v2) + 0).
    { intros i Hi b a v2 s2 Ee en Hen P. apply emit_inv in Ee; [|exact Hi].
      destruct Ee as (pre & Lp & ->). cbn [vapp v_is v_net v_max app]. split; [lia|].
      exists 1. split; [|lia]. apply line_ce; [exact Lp|]. eapply ce_var; [|exact P]. exact Hen. }
    destruct (find_variable c s x) as [en|] eqn:Ef; [|discriminate].
    destruct en.
    - eapply G; [exact H|exact E2|reflexivity|]. constructor.
      unfold find_variable in Ef. clear - Ef.
      repeat match type of Ef with (if ?b then _ else _) = _ => destruct b end;
        try injection Ef as <-; try discriminate; unfold true_index, false_index, nil_index; try lia.
      destruct (find_local x (s_syms s)) as [[]|]; [discriminate|].
      destruct (ivar_index x (c_ivars c)); [discriminate|]. destruct (c_global c x); discriminate.
    - eapply G; [exact H|exact E2|reflexivity|constructor].
    - eapply G; [exact H|exact E2|reflexivity|constructor].
    - eapply G; [exact H|exact E2|reflexivity|constructor].
    - apply add_inv in E2; [|exact H|intros; apply done_emit|exact F].
      destruct E2 as (j & s1 & E2 & Hj & Hs & _).
      eapply G; [exact Hs|exact E2|reflexivity|]. constructor. exact Hj.
  Qed.

  Lemma const_inv l s v s' : st_ok s -> compile_constant l s = Ok (v, s') -> final s' ->
    exists pre i, Line pre /\ v_is v = pre ++ [i] /\ PushesLit L l i /\ v_net v = 1 /\ v_max v = 1
      /\ v_low v = 0.
  Proof.
    intros H E F. unfold compile_constant in E.
    cbv zeta in E. match type of E with match ?x with _ => _ end = _ => destruct x as [z|] eqn:Ex end.
    - assert (l = LInt z /\ 0 <= z <= 0x7FFFFFFF) as [-> Hz].
      { destruct l as [z'| | | |]; try discriminate. destruct ((0 <=? z') && (z' <=? 0x7FFFFFFF)) eqn:B; [|discriminate].
        destruct (lit_index _ _); [discriminate|]. injection Ex as ->. split; [reflexivity|lia]. }
      then_ E E1 E2. injection E1 as <- <-. apply emit_inv in E2; [|exact H]. destruct E2 as (pre & Lp & ->).
      exists pre, (bc_push_integer, z). repeat split; auto. constructor. exact Hz.
    - apply add_inv in E; [| exact H| |exact F].
      2:{ intros i. apply done_then; [apply quiet_good, quiet_incr|apply done_emit]. }
      destruct E as (j & s1 & E & Hj & Hs & _). then_ E E1 E2. injection E1 as <- <-.
      apply emit_inv in E2; [|exact Hs]. destruct E2 as (pre & Lp & ->).
      exists pre, (bc_push_lit_constant, Z.of_nat j). repeat split; auto. constructor. exact Hj.
  Qed.

  Lemma gen_constant ln k : gives (compile_constant (lit_of k)) (fun l => CE l (ELit ln k)) 1 0.
  Proof.
    intros s v s' H E F _. apply const_inv in E; [|exact H|exact F].
    destruct E as (pre & i & Lp & -> & P & -> & -> & _). split; [lia|]. exists 1. split; [|lia].
    apply line_ce; [exact Lp|]. constructor. exact P.
  Qed.

  Lemma send_inv super s args x v x' : st_ok x -> fits_selector s args = true ->
    compile_send c super s (elength args) x = Ok (v, x') -> final x' ->
    exists pre is, Line pre /\ v_is v = pre ++ is /\ Sends L super s (number args) is
      /\ - Z.of_nat (number args) <= v_net v /\ bump super <= v_max v.
  Proof.
    intros H Ft E F. unfold compile_send in E. then_ E E1 E2. injection E2 as <- <-.
    then_ E1 E2 E3. rewrite elength_number in *.
    assert (Ar : number args = arity s /\ (number args <= 255)%nat).
    { unfold fits_selector in Ft. apply andb_true_iff in Ft. destruct Ft as [F1 F2].
      apply Nat.eqb_eq in F1. apply Nat.leb_le in F2. lia. }
    destruct Ar as [Ar1 Ar2].
    destruct super.
    - destruct (c_super c); [|discriminate].
      assert (D : done same (match builtin_code s with
          | Some b => if negb true && (b <? 32) then emit b 0 else emit bc_send_super_immediate b
          | None => add_literal (LSym s) (fun i => emit bc_send_super
                     (Z.lor (Z.shiftl i 8) (Z.of_nat (number args)))) end)).
      { destruct (builtin_code s); [|apply done_literal; intros; apply done_emit]. apply done_emit. }
      pose proof (proj1 (done_constant LClass) _ _ _ H E2) as S0.
      pose proof (proj2 (done_constant LClass) _ _ _ E2) as N0.
      pose proof (proj1 D _ _ _ ltac:(apply S0) E3) as S1.
      apply const_inv in E2; [|exact H|eapply final_back; eassumption].
      destruct E2 as (pre & i & Lp & Ei & P & En & Em & _).
      exists pre. cbn [vapp v_is v_net v_max] in *. rewrite Ei, En, Em, app_nil_r.
      destruct (builtin_code s) as [b|] eqn:Eb.
      + cbn [negb andb] in E3. rewrite (emit_now _ _ _ N0) in E3. injection E3 as <- <-.
        apply builtin_known in Eb. exists [i; (bc_send_super_immediate, b)].
        rewrite <- app_assoc. cbn [app]. repeat split; auto; cbn [v_net v_max bump]; try lia.
        rewrite Ar1. apply se_super_imm; tauto.
      + apply add_inv in E3; [|apply S0|intros; apply done_emit|exact F].
        destruct E3 as (j & s2 & E3 & Hj & Hs & Nn). assert (N1 : s_next s2 = -1) by congruence. rewrite (emit_now _ _ _ N1) in E3.
        injection E3 as <- <-.
        exists [i; (bc_send_super, Z.lor (Z.shiftl (Z.of_nat j) 8) (Z.of_nat (number args)))].
        rewrite <- app_assoc. cbn [app]. repeat split; auto; cbn [v_net v_max bump]; try lia.
        apply se_super_lit; [exact Hj|lia|exact P].
    - injection E2 as <- <-. cbn [vapp v_is v_net v_max vec0 app bump] in *.
      destruct (builtin_code s) as [b|] eqn:Eb.
      + apply builtin_known in Eb. destruct (negb false && (b <? 32)) eqn:Ec.
        * apply emit_inv in E3; [|exact H]. destruct E3 as (pre & Lp & ->).
          exists pre, [(b, 0)]. cbn [v_is v_net v_max]. rewrite app_nil_r. repeat split; auto; try lia.
          rewrite Ar1. apply se_one; [tauto|]. cbn in Ec. lia.
        * apply emit_inv in E3; [|exact H]. destruct E3 as (pre & Lp & ->).
          exists pre, [(bc_send_immediate, b)]. cbn [v_is v_net v_max]. rewrite app_nil_r. repeat split; auto; try lia.
          rewrite Ar1. apply se_imm; tauto.
      + apply add_inv in E3; [|exact H|intros; apply done_emit|exact F].
        destruct E3 as (j & s2 & E3 & Hj & Hs & Nn). apply emit_inv in E3; [|exact Hs].
        destruct E3 as (pre & Lp & ->).
        exists pre, [(bc_send, Z.lor (Z.shiftl (Z.of_nat j) 8) (Z.of_nat (number args)))].
        cbn [v_is v_net v_max]. rewrite app_nil_r. repeat split; auto; try lia.
        apply se_lit; [exact Hj|lia].
  Qed.

  Lemma stores_inv ts : forall x v x', st_ok x -> compile_assignments c ts x = Ok (v, x') -> final x' ->
    Stores c L (s_syms x) ts (v_is v) /\ v_net v = 0 /\ 0 <= v_max v.
  Proof.
    induction ts as [|[ln y] ts IH]; intros x v x' H E F; cbn [compile_assignments] in E.
    - injection E as <- <-. split; [constructor|]. cbn. lia.
    - step E v1 s1 v2 E1 E2. step E1 v3 s0 v4 E3 E4.
      pose proof (good_line ln _ _ _ H E3) as S0.
      assert (V0 : v3 = vec0).
      { eapply line_inv, E3. }
      subst v3.
      assert (D : done same (fun s => match find_variable c s y with
         | None | Some InSelf | Some (InSpecial _) | Some (InTemp _ true) => Err
         | Some (InTemp i false) => emit bc_store_temp (Z.of_nat i) s
         | Some (InReceiver i) => emit bc_store_receiver_variable (Z.of_nat i) s
         | Some (InGlobal g) =>
           add_literal (LVar g) (fun i =>
             emit bc_store_lit_variable i ;; emit bc_pop 0 ;;
             emit bc_push_lit_variable i) s
         end)).
      { apply (done_fun same (fun s s0 => match find_variable c s y with
         | None | Some InSelf | Some (InSpecial _) | Some (InTemp _ true) => Err
         | Some (InTemp i false) => emit bc_store_temp (Z.of_nat i) s0
         | Some (InReceiver i) => emit bc_store_receiver_variable (Z.of_nat i) s0
         | Some (InGlobal g) =>
           add_literal (LVar g) (fun i =>
             emit bc_store_lit_variable i ;; emit bc_pop 0 ;;
             emit bc_push_lit_variable i) s0
         end)).
        intros s2. destruct (find_variable c s2 y) as [[ | |i [|]| | ]|]; try apply (done_refuse same); seq. }
      pose proof (proj1 D _ _ _ ltac:(apply S0) E4) as S1.
      assert (Sy : s_syms s0 = s_syms x).
      { destruct S0 as (_ & S0 & _). exact S0. }
      assert (Sy1 : s_syms s1 = s_syms x).
      { destruct S1 as (_ & S1 & _). unfold same in S1. congruence. }
      pose proof (proj1 (quiet_assignments c ts) _ _ _ ltac:(apply S1) E2) as S2.
      destruct (IH _ _ _ ltac:(apply S1) E2 F) as (I1 & I2 & I3). rewrite Sy1 in I1.
      pose proof (final_back _ _ _ S2 F) as F1.
      destruct S0 as (_ & S0' & _ & _ & _ & S0). unfold same in S0'.
      assert (Fv : forall s2, s_syms s2 = s_syms x -> find_variable c s2 y = find_variable c (scope (s_syms x)) y).
      { intros s2 Es. unfold find_variable. rewrite Es. reflexivity. }
      rewrite (Fv s0 S0') in E4.
      destruct (find_variable c (scope (s_syms x)) y) as [[ | |i [|]|i|g]|] eqn:Ef; try discriminate.
      + apply emit_inv in E4; [|exact S0]. destruct E4 as (pre & Lp & ->). cbn [vapp v_is v_net v_max vec0 app].
        rewrite <- app_assoc. cbn [app]. split; [|lia]. eapply st_temp; eassumption.
      + apply emit_inv in E4; [|exact S0]. destruct E4 as (pre & Lp & ->). cbn [vapp v_is v_net v_max vec0 app].
        rewrite <- app_assoc. cbn [app]. split; [|lia]. eapply st_receiver; eassumption.
      + apply add_inv in E4; [|exact S0| |exact F1].
        2:{ intros i. apply done_then; [|apply done_emit]. apply done_good, done_then; [|apply done_emit].
            apply done_good, done_emit. }
        destruct E4 as (j & s2 & E4 & Hj & Hs & _). then_ E4 E5 E6. then_ E5 E7 E8.
        pose proof (proj2 (done_emit _ _) _ _ _ E7) as N1.
        apply emit_inv in E7; [|exact Hs]. destruct E7 as (pre & Lp & ->).
        rewrite (emit_now _ _ _ N1) in E8. injection E8 as <- <-.
        rewrite (emit_now _ _ _ N1) in E6. injection E6 as <- <-.
        cbn [vapp v_is v_net v_max vec0 app]. rewrite <- !app_assoc. cbn [app].
        split; [|lia]. eapply st_global; eassumption.
  Qed.

  Lemma start_inv e s v s' : start e s = Ok (v, s') -> v = vec0.
  Proof.
    assert (G : forall n, line n s = Ok (v, s') -> v = vec0).
    { intros n E. eapply line_inv, E. }
    destruct e; cbn [start]; try apply G. intros [= <- _]. reflexivity.
  Qed.

  Lemma vapp_nil v : vapp vec0 v = Vec (v_is v) (v_net v) (Z.max 0 (v_max v)) (Z.min 0 (v_low v)).
  Proof. reflexivity. Qed.

  Definition makes (m : comp) R b k : Prop := done same m /\ gives m R b k.

  Lemma gives_start m R b k e : makes m R b k -> makes (start e ;; m) R b k.
  Proof.
    intros [D G]. split; [apply done_then; [apply good_start|exact D]|].
    intros s v s' H E F Sm. step E v0 s0 v2 E1 E2.
    pose proof (good_start e _ _ _ H E1) as S0. apply start_inv in E1. subst v0.
    cbn [vapp v_is v_net v_max vec0 app] in *.
    destruct (G _ _ _ ltac:(apply S0) E2 F Sm) as (G1 & d & G2 & G3).
    split; [lia|]. exists d. split; [|lia]. destruct S0 as (_ & S0 & _). unfold same in S0. rewrite S0 in G2. exact G2.
  Qed.

  Lemma jump_now n b s v s' : s_next s = -1 -> compile_jump n b s = Ok (v, s') ->
    v = vapp (Vec [] (-1) 0 (-1)) (Vec [(if b then bc_pop_jump_true else bc_pop_jump_false, n)] 0 0 0) /\ s' = s.
  Proof.
    intros Nx E. unfold compile_jump in E. destruct (n <=? 0); [discriminate|].
    step E v0 s0 v1 E1 E2. injection E1 as <- <-. rewrite (emit_now _ _ _ Nx) in E2. injection E2 as <- <-.
    split; reflexivity.
  Qed.

  Lemma emit_then b a s v s' : s_next s = -1 -> emit b a s = Ok (v, s') -> v = Vec [(b, a)] 0 0 0 /\ s' = s.
  Proof. intros Nx E. rewrite (emit_now _ _ _ Nx) in E. injection E as <- <-. auto. Qed.

  Ltac go :=
    repeat match goal with
    | H : (_ ;; _) _ = Ok _ |- _ =>
      let v1 := fresh "v" in let s1 := fresh "s" in let v2 := fresh "v" in
      let E1 := fresh "E" in let E2 := fresh "E" in step H v1 s1 v2 E1 E2
    | H : emit _ _ ?s = Ok _, Nx : s_next ?s = -1 |- _ =>
      apply (emit_then _ _ _ _ _ Nx) in H; destruct H as [-> ->]
    | H : compile_jump _ _ ?s = Ok _, Nx : s_next ?s = -1 |- _ =>
      apply jump_now in H; [destruct H as [-> ->]|exact Nx]
    | H : incr _ = Ok _ |- _ => unfold incr in H; injection H as <- <-
    | H : skip _ = Ok _ |- _ => unfold skip in H; injection H as <- <-
    | H : sub _ _ = Ok _ |- _ => unfold sub in H; injection H as <- <-
    | H : splice _ _ = Ok _ |- _ => unfold splice in H; injection H as <- <-
    end.
  Ltac flat_ := cbn [vapp v_is v_net v_max v_low vec0] in *; rewrite ?app_nil_r, <- ?app_assoc in *; cbn [app] in *.

  (** bounds by maxima of many numbers *)
  Ltac maxes :=
    repeat match goal with |- Z.max _ _ <= _ => apply Z.max_lub end;
    repeat match goal with |- context [Z.max ?a ?b] =>
      lazymatch a with context [Z.max _ _] => fail | _ =>
      lazymatch b with context [Z.max _ _] => fail | _ =>
        let m := fresh "m" in let M := fresh "M" in
        pose proof (Z.le_max_l a b); pose proof (Z.le_max_r a b);
        remember (Z.max a b) as m eqn:M; clear M
      end end end; lia.

  (** what follows a part *)
  Lemma part m s v1 s1 : st_ok s -> done same m -> m s = Ok (v1, s1) ->
    st_ok s1 /\ s_syms s1 = s_syms s /\ (final s1 -> final s) /\ s_next s1 = -1.
  Proof.
    intros H [D1 D2] E. pose proof (D1 _ _ _ H E) as S0.
    split; [apply S0|]. split; [apply S0|]. split; [intros F; eapply final_back; eassumption|]. eapply D2, E.
  Qed.

  Lemma vlen_size v : vlen v = 2 * size (v_is v).
  Proof. reflexivity. Qed.

  Ltac sizes := rewrite ?vlen_size in *; cbn [v_is] in *; repeat (progress rewrite ?size_app, ?size_cons, ?size_nil in *).

  Lemma small_bound is : small is -> size is < 2 ^ 22. Proof. intros H. apply H. Qed.

  Lemma gen_while ln r s args on cond body k : form_of r s args = FWhile on cond body ->
    on = VTrue \/ on = VFalse ->
    makes (compile_block c cond) (fun l => CB l cond) 1 k ->
    makes (compile_block c body) (fun l => CB l body) 1 k -> (args = ENil -> body = SNil) -> 0 <= k ->
    makes (compile_while (true_of on) (compile_block c cond)
             (match args with ENil => None | _ => Some (compile_block c body) end))
          (fun l => CE l (ESend ln r s args)) 1 k.
  Proof.
    intros Fo On [Dc Gc] [Db Gb] Nil Hk. split.
    { apply done_while; [exact Dc|]. intros m. destruct args; [discriminate|]. intros [= <-]. exact Db. }
    intros x v x' H E F Sm. unfold compile_while in E. step E v1 y1 v2 E1 E2. step E1 v3 y3 v4 E3 E4.
    apply apart_inv in E3. destruct E3 as (rc & y5 & Ec & Lc & E5). step E5 v5 y6 v6 E6 E7.
    unfold splice in E6. injection E6 as <- <-.
    destruct (part _ _ _ _ H Dc Ec) as (O1 & Y1 & F1 & N1).
    unfold incr in E4. injection E4 as <- <-.
    assert (Op : (if true_of on then bc_pop_jump_true else bc_pop_jump_false) = pj on).
    { destruct On as [-> | ->]; reflexivity. }
    destruct args as [|a args'].
    - specialize (Nil eq_refl). subst body.
      apply lengths_inv in E7. destruct E7 as (len & fin & El & E7). go. rewrite Op in *.
      apply lengths_fix in El; [|left; reflexivity|pose proof (size_pos (v_is rc)); rewrite vlen_size; lia|lia|lia].
      flat_. pose proof (small_bound _ Sm) as Sz.
      destruct (small_app _ _ Sm) as [Sc _].
      destruct (Gc _ _ _ H Ec F Sc) as (Gn & d & Gd & Gm).
      destruct El as (El1 & El2 & B1 & B2). sizes.
      pose proof (size_pos (v_is rc)) as P1. change (2 ^ 22) with 4194304 in Sz.
      assert (Z0 : 2 * Z.of_nat (nx bc_jump fin) = len).
      { rewrite nx_jump by (change (2 ^ 24) with 16777216; lia). etransitivity; [|symmetry; exact El1]. f_equal; lia. }
      assert (Z1 : 2 * Z.of_nat (nx bc_jump_back (fin + (2 * size (v_is rc) + 2 + len))) = fin).
      { rewrite nx_jump by (change (2 ^ 24) with 16777216; lia). etransitivity; [|symmetry; exact El2]. f_equal; lia. }
      split; [lia|]. exists (Z.max 1 d). split; [|lia].
      replace len with (2 * size [(bc_jump, fin)]) at 1 by (rewrite size_cons, size_nil; lia).
      eapply ce_while0; [exact Fo|exact On|exact Gd|..].
      + rewrite size_cons, size_nil. lia.
      + rewrite size_app, !size_cons, !size_nil. rewrite (nx_small (pj on)) by lia. lia.
    - clear Nil. apply apart_inv in E7. destruct E7 as (wc & y6 & Eb & Lb & E7).
      destruct (part _ _ _ _ O1 Db Eb) as (O2 & Y2 & F2 & N2).
      apply lengths_inv in E7. destruct E7 as (len & fin & El & E7). go. rewrite Op in *.
      pose proof (size_pos (v_is rc)) as P1. pose proof (size_pos (v_is wc)) as P2.
      apply lengths_fix in El; [|left; reflexivity|rewrite !vlen_size; lia|lia|lia].
      flat_. pose proof (small_bound _ Sm) as Sz.
      destruct (small_app _ _ Sm) as [Sc Sm1].
      destruct (small_app [_; _] _ Sm1) as [_ Sm2]. destruct (small_app _ _ Sm2) as [Sb _].
      destruct (Gc _ _ _ H Ec (F2 F) Sc) as (Gn & d & Gd & Gm).
      destruct (Gb _ _ _ O1 Eb F Sb) as (Gn' & d' & Gd' & Gm'). rewrite Y1 in Gd'.
      destruct El as (El1 & El2 & B1 & B2). sizes. rewrite ?(nx_small bc_pop) in * by lia.
      change (2 ^ 22) with 4194304 in Sz.
      remember (2 * size (v_is wc) + 2 + fin) as j eqn:Ej.
      remember (fin + (2 * size (v_is rc) + 2 + (2 * size (v_is wc) + 2) + len)) as jb eqn:Ejb.
      assert (Z0 : 2 * Z.of_nat (nx bc_jump j) = len).
      { rewrite nx_jump by (change (2 ^ 24) with 16777216; lia). etransitivity; [|symmetry; exact El1]. f_equal; lia. }
      assert (Z1 : 2 * Z.of_nat (nx bc_jump_back jb) = fin).
      { rewrite nx_jump by (change (2 ^ 24) with 16777216; lia). etransitivity; [|symmetry; exact El2]. f_equal; lia. }
      split; [lia|]. exists (Z.max 1 (Z.max d d')). split; [|lia].
      replace len with (2 * size [(bc_jump, j)]) by (rewrite size_cons, size_nil; lia).
      apply (ce_while c L N (s_syms x) ln r s (ECons a args') on cond body (v_is rc) d (v_is wc) d' j jb);
        [exact Fo|exact On|exact Gd|exact Gd'|..].
      + rewrite size_app, !size_cons, !size_nil, (nx_small bc_pop) by lia. lia.
      + rewrite !size_app, !size_cons, !size_nil, (nx_small bc_pop) by lia.
        rewrite (nx_small (pj on)) by lia. lia.
  Qed.

  Lemma gen_repeat ln r s args body k : form_of r s args = FRepeat body ->
    makes (compile_block c body) (fun l => CB l body) 1 k -> 0 <= k ->
    makes (compile_repeat (compile_block c body)) (fun l => CE l (ESend ln r s args)) 1 k.
  Proof.
    intros Fo [Db Gb] Hk. split; [apply done_repeat, Db|].
    intros x v x' H E F Sm. unfold compile_repeat in E.
    apply apart_inv in E. destruct E as (vb & y & Eb & Lb & E).
    destruct (part _ _ _ _ H Db Eb) as (O1 & Y1 & F1 & N1). cbv zeta in E. go.
    pose proof (size_pos (v_is vb)) as P1.
    remember (jump_size (vlen vb + 2 + jump_size (vlen vb + 2 + jump_size (vlen vb + 2)))) as fin eqn:Ef.
    assert (El : fin = jump_size (vlen vb + 2 + fin) /\ 2 <= fin <= 6).
    { subst fin. rewrite vlen_size. remember (2 * size (v_is vb) + 2) as y0 eqn:Ey. clear - P1 Ey.
      assert (2 <= y0) by lia. clear Ey P1. unfold jump_size;
      repeat match goal with |- context [if ?b then _ else _] =>
        lazymatch b with context [if _ then _ else _] => fail | _ => destruct b eqn:? end end; lia. }
    clear Ef. flat_. pose proof (small_bound _ Sm) as Sz. destruct (small_app _ _ Sm) as [Sb _].
    destruct (Gb _ _ _ H Eb F Sb) as (Gn & d & Gd & Gm).
    destruct El as (El & B1). sizes. rewrite (nx_small bc_pop) in * by lia.
    change (2 ^ 22) with 4194304 in Sz.
    remember (fin + (2 * size (v_is vb) + 2)) as jb eqn:Ejb.
    assert (Z1 : 2 * Z.of_nat (nx bc_jump_back jb) = fin).
    { rewrite nx_jump by (change (2 ^ 24) with 16777216; lia). etransitivity; [|symmetry; exact El]. f_equal; lia. }
    split; [lia|]. exists (Z.max 1 d). split; [|lia].
    eapply ce_repeat; [exact Fo|exact Gd|].
    rewrite size_app, !size_cons, !size_nil, (nx_small bc_pop) by lia. lia.
  Qed.

  Lemma over_inv m rt n x v x' R b k : makes m R b k -> st_ok x -> jump_over m rt n x = Ok (v, x') -> final x' ->
    small (v_is v) ->
    exists is d, v_is v = is ++ (if rt then [] else [(bc_jump, n)]) /\ R (s_syms x) is d
      /\ d <= v_max v + k /\ b <= v_net v.
  Proof.
    intros [D G] H E F Sm. unfold jump_over in E. step E v1 y v2 E1 E2.
    destruct (part _ _ _ _ H D E1) as (O1 & Y1 & F1 & N1).
    destruct rt; go; flat_.
    - destruct (G _ _ _ H E1 F Sm) as (Gn & d & Gd & Gm). exists (v_is v1), d.
      rewrite app_nil_r. repeat split; auto; lia.
    - destruct (small_app _ _ Sm) as [Sb _].
      destruct (G _ _ _ H E1 F Sb) as (Gn & d & Gd & Gm). exists (v_is v1), d. repeat split; auto; lia.
  Qed.

  Lemma makes_then m1 m2 R1 b1 k1 R b k : makes m1 R1 b1 k1 -> done same m2 ->
    (forall x v1 y v2 x', st_ok x -> st_ok y -> s_syms y = s_syms x -> s_next y = -1 ->
       m2 y = Ok (v2, x') -> final x' -> small (v_is v2) -> 
       b1 <= v_net v1 -> (exists d, R1 (s_syms x) (v_is v1) d /\ d <= v_max v1 + k1) ->
       b <= v_net v1 + v_net v2 /\
       exists d, R (s_syms x) (v_is v1 ++ v_is v2) d /\ d <= Z.max (v_max v1) (v_net v1 + v_max v2) + k) ->
    makes (m1 ;; m2) R b k.
  Proof.
    intros [D1 G1] D2 HH. split; [apply done_then; [apply D1|exact D2]|].
    intros x v x' H E F Sm. step E v1 y v2 E1 E2.
    destruct (part _ _ _ _ H D1 E1) as (O1 & Y1 & F1 & N1).
    destruct (part _ _ _ _ O1 D2 E2) as (O2 & Y2 & F2 & N2). cbn [vapp v_is v_net v_max] in *.
    destruct (small_app _ _ Sm) as [S1 S2].
    destruct (G1 _ _ _ H E1 (F2 F) S1) as (Gn & Gd).
    eapply (HH x v1 y v2 x'); eauto.
  Qed.

  Lemma gen_if ln r s args t f k : form_of r s args = FIf r t f ->
    makes (start r ;; compile_body c r) (fun l => CE l r) 1 k ->
    makes (compile_block c t) (fun l => CB l t) 1 k ->
    makes (compile_block c f) (fun l => CB l f) 1 k ->
    (s = "ifTrue:" -> f = SNil) -> (s = "ifFalse:" -> t = SNil) -> 1 <= k ->
    makes ((start r ;; compile_body c r) ;; if_code c s t f) (fun l => CE l (ESend ln r s args)) 1 k.
  Proof.
    intros Fo Mr Mt Mf Ht Hf Hk. eapply makes_then; [exact Mr|..].
    { unfold if_code. destruct (s =? "ifTrue:")%string; [apply done_if, Mt|].
      destruct (s =? "ifFalse:")%string; [apply done_if, Mf|apply done_if_else; [apply Mt|apply Mf]]. }
    intros x v1 y v2 x' H O1 Y1 N1 E2 F Sm Gn (d & Gd & Gm). unfold if_code in E2.
    destruct (s =? "ifTrue:")%string eqn:S1; [|destruct (s =? "ifFalse:")%string eqn:S2].
    - apply String.eqb_eq in S1. specialize (Ht S1). subst f.
      unfold compile_if in E2. apply apart_inv in E2. destruct E2 as (tc & y' & Et & Lt & E2).
      assert (Dt : done same (jump_over (compile_block c t) (returns t) 2)) by (apply done_over, Mt).
      destruct (part _ _ _ _ O1 Dt Et) as (O2 & Y2 & F2 & N2). go. flat_.
      destruct (small_app [_] _ Sm) as [_ Sm1]. destruct (small_app _ _ Sm1) as [St _].
      destruct (over_inv _ _ _ _ _ _ _ _ _ Mt O1 Et F St) as (it & d' & Ei & Gd' & Gm' & Gn').
      rewrite Y1 in Gd'. rewrite vlen_size, Ei in *. split; [lia|].
      exists (Z.max d (Z.max d' 1)). split; [|lia].
      assert (Sn : 2 = 2 * size [(bc_push_special, 0)]).
      { rewrite size_cons, size_nil, nx_small by lia. reflexivity. }
      rewrite <- app_assoc. rewrite Sn at 1 2.
      apply (ce_if c L N (s_syms x) ln r r s args t SNil (v_is v1) d it d' [(bc_push_special, 0)] 1);
        [exact Fo|exact Gd|exact Gd'|]. apply (cb_nil c L N (s_syms x) []). constructor.
    - apply String.eqb_eq in S2. specialize (Hf S2). subst t.
      unfold compile_if in E2. apply apart_inv in E2. destruct E2 as (tc & y' & Et & Lt & E2).
      assert (Dt : done same (jump_over (compile_block c f) (returns f) 2)) by (apply done_over, Mf).
      destruct (part _ _ _ _ O1 Dt Et) as (O2 & Y2 & F2 & N2). go. flat_.
      destruct (small_app [_] _ Sm) as [_ Sm1]. destruct (small_app _ _ Sm1) as [St _].
      destruct (over_inv _ _ _ _ _ _ _ _ _ Mf O1 Et F St) as (it & d' & Ei & Gd' & Gm' & Gn').
      rewrite Y1 in Gd'. rewrite vlen_size, Ei in *. split; [lia|].
      exists (Z.max d (Z.max 1 d')). split; [|lia]. rewrite <- app_assoc.
      eapply (ce_if_false c L N (s_syms x) ln r r s args f (v_is v1) d it d'); [exact Fo|exact Gd|exact Gd'].
    - clear Ht Hf. unfold compile_if_true_false in E2.
      apply apart_inv in E2. destruct E2 as (fc & y' & Ef & Lf & E2).
      destruct (part _ _ _ _ O1 (proj1 Mf) Ef) as (O2 & Y2 & F2 & N2).
      apply apart_inv in E2. destruct E2 as (tc & y'' & Et & Lt & E2).
      assert (Dt : done same (jump_over (compile_block c t) (returns t) (vlen fc))) by (apply done_over, Mt).
      destruct (part _ _ _ _ O2 Dt Et) as (O3 & Y3 & F3 & N3). go. flat_.
      destruct (small_app [_] _ Sm) as [_ Sm1]. destruct (small_app _ _ Sm1) as [St Sf].
      destruct (over_inv _ _ _ _ _ _ _ _ _ Mt O2 Et F St) as (it & d' & Ei & Gd' & Gm' & Gn').
      destruct (proj2 Mf _ _ _ O1 Ef (F3 F) Sf) as (Gn'' & d'' & Gd'' & Gm'').
      rewrite Y2 in Gd'. rewrite Y1 in *. rewrite (vlen_size tc), Ei, (vlen_size fc) in *. split; [lia|].
      exists (Z.max d (Z.max d' d'')). split; [|lia]. rewrite <- app_assoc.
      eapply (ce_if c L N (s_syms x) ln r r s args t f (v_is v1) d it d' (v_is fc) d''); eassumption.
  Qed.

  Lemma gen_and_or ln r s args (o : bool) b k :
    form_of r s args = (if o then FOr r b else FAnd r b) ->
    makes (start r ;; compile_body c r) (fun l => CE l r) 1 k ->
    makes (compile_block c b) (fun l => CB l b) 1 k -> 1 <= k ->
    makes ((start r ;; compile_body c r) ;; compile_and_or o (compile_block c b))
      (fun l => CE l (ESend ln r s args)) 1 k.
  Proof.
    intros Fo Mr Mb Hk. eapply makes_then; [exact Mr|apply done_and_or, Mb|].
    intros x v1 y v2 x' H O1 Y1 N1 E2 F Sm Gn (d & Gd & Gm). unfold compile_and_or in E2.
    apply apart_inv in E2. destruct E2 as (vb & y' & Eb & Lb & E2).
    destruct (part _ _ _ _ O1 (proj1 Mb) Eb) as (O2 & Y2 & F2 & N2). go. flat_.
    destruct (small_app [_; _; _] _ Sm) as [_ Sb].
    destruct (proj2 Mb _ _ _ O1 Eb F Sb) as (Gn' & d' & Gd' & Gm'). rewrite Y1 in Gd'.
    split; [lia|]. exists (Z.max d (Z.max 2 d')). split; [|lia].
    assert (Sz : vlen vb + 2 = 2 * size ((bc_pop, 0) :: v_is vb)).
    { rewrite vlen_size, size_cons, nx_small by lia. lia. }
    rewrite Sz. destruct o.
    - apply (ce_or c L N (s_syms x) ln r r s args b (v_is v1) d (v_is vb) d' Fo Gd Gd').
    - apply (ce_and c L N (s_syms x) ln r r s args b (v_is v1) d (v_is vb) d' Fo Gd Gd').
  Qed.

  Lemma edge is b a : small is -> In (b, a) is -> b = bc_jump_back \/ b = bc_pop_jump_false ->
    jump_size_gt a = jump_size a.
  Proof. intros [H _] Hi Hb. destruct (H _ _ Hi Hb). apply gt_size; assumption. Qed.

  Lemma gen_times ln r s args b k : form_of r s args = FTimes r b ->
    makes (start r ;; compile_body c r) (fun l => CE l r) 1 k ->
    makes (compile_block c b) (fun l => CB l b) 1 k -> 1 <= k ->
    makes ((start r ;; compile_body c r) ;; compile_times_repeat (compile_block c b))
      (fun l => CE l (ESend ln r s args)) 1 k.
  Proof.
    intros Fo Mr Mb Hk. eapply makes_then; [exact Mr|apply done_times, Mb|].
    intros x v1 y v2 x' H O1 Y1 N1 E2 F Sm Gn (d & Gd & Gm). unfold compile_times_repeat in E2.
    go. apply apart_inv in E0. destruct E0 as (vb & y' & Eb & Lb & E2).
    destruct (part _ _ _ _ O1 (proj1 Mb) Eb) as (O2 & Y2 & F2 & N2).
    go. apply lengths_inv in E0. destruct E0 as (len & fin & El & E0). go.
    pose proof (size_pos (v_is vb)) as P1.
    apply lengths_fix in El; [|right; reflexivity|rewrite !vlen_size; lia|lia|lia].
    flat_. pose proof (small_bound _ Sm) as Sz.
    destruct (small_app [_; _; _; _; _; _; _] _ Sm) as [_ Sm1]. destruct (small_app _ _ Sm1) as [Sb _].
    destruct (proj2 Mb _ _ _ O1 Eb F Sb) as (Gn' & d' & Gd' & Gm'). rewrite Y1 in Gd'.
    destruct El as (El1 & El2 & B1 & B2). sizes. change (2 ^ 22) with 4194304 in Sz.
    repeat rewrite ?(nx_small bc_pop), ?(nx_small bc_dup), ?(nx_small bc_push_integer),
      ?(nx_small bc_greater_equal), ?(nx_small bc_minus) in * by lia.
    remember (6 + 2 * size (v_is vb) + fin) as j eqn:Ej.
    remember (fin + (6 + len + (6 + 2 * size (v_is vb)))) as jb eqn:Ejb.
    assert (Z0 : 2 * Z.of_nat (nx bc_pop_jump_false j) = len).
    { rewrite nx_jump by (change (2 ^ 24) with 16777216; lia). rewrite El1.
      symmetry. eapply edge; [exact Sm| |right; reflexivity]. do 4 right. left. reflexivity. }
    assert (Z1 : 2 * Z.of_nat (nx bc_jump_back jb) = fin).
    { rewrite nx_jump by (change (2 ^ 24) with 16777216; lia). etransitivity; [|symmetry; exact El2].
      replace (6 + (6 + 2 * size (v_is vb)) + len + fin) with jb by lia.
      symmetry. eapply edge; [exact Sm| |left; reflexivity].
      do 7 right. apply in_or_app. right. right. left. reflexivity. }
    split; [lia|]. exists (Z.max d (Z.max 4 (2 + d'))). split; [|maxes].
    apply (ce_times c L N (s_syms x) ln r r s args b (v_is v1) d (v_is vb) d' j jb Fo Gd Gd').
    - repeat rewrite ?size_app, ?size_cons, ?size_nil.
      repeat rewrite ?(nx_small bc_pop), ?(nx_small bc_push_integer), ?(nx_small bc_minus) by lia. lia.
    - repeat rewrite ?size_app, ?size_cons, ?size_nil.
      repeat rewrite ?(nx_small bc_pop), ?(nx_small bc_dup), ?(nx_small bc_push_integer),
        ?(nx_small bc_greater_equal), ?(nx_small bc_minus) by lia. lia.
  Qed.

  Lemma to_code ln r s args lim z x b by_ l i ir dr il dl ib db istep len fin dup around :
    form_of r s args = FTo r lim z x b by_ -> names x lim = false ->
    CE l r ir dr -> CE ((x, i, true) :: l) lim il dl -> CB ((x, i, true) :: l) b ib db ->
    ~ In i (map (fun y => snd (fst y)) l) -> (i < N)%nat ->
    CE ((x, i, true) :: l) (ELit 0 (KInt z)) istep 1 -> 0 <= dup < 2 ^ 31 ->
    around = 2 * size istep + 2 * size ib + 10 ->
    jump_lengths 8 jump_size_gt (around + 2) around 0 0 = Ok (len, fin) ->
    small ((bc_store_temp, Z.of_nat i) :: il ++ (bc_dup, dup) :: (bc_push_temp, Z.of_nat i)
             :: (if 0 <? z then bc_greater_equal else bc_less_equal, 0) :: (bc_pop_jump_false, around + fin)
             :: ib ++ (bc_pop, 0) :: (bc_dup, 0) :: (bc_push_temp, Z.of_nat i) :: istep
             ++ [(bc_plus, 0); (bc_store_temp, Z.of_nat i); (bc_jump_back, around + len + 2 + fin); (bc_pop, 0)]) ->
    CE l (ESend ln r s args)
      (ir ++ (bc_store_temp, Z.of_nat i) :: il ++ (bc_dup, dup) :: (bc_push_temp, Z.of_nat i)
             :: (if 0 <? z then bc_greater_equal else bc_less_equal, 0) :: (bc_pop_jump_false, around + fin)
             :: ib ++ (bc_pop, 0) :: (bc_dup, 0) :: (bc_push_temp, Z.of_nat i) :: istep
             ++ [(bc_plus, 0); (bc_store_temp, Z.of_nat i); (bc_jump_back, around + len + 2 + fin); (bc_pop, 0)])
      (Z.max dr (Z.max (1 + dl) (Z.max 5 (2 + db)))).
  Proof.
    intros Fo Nm Cr Cl Cb Fr Hi Cs Hd Ea El Sm.
    pose proof (size_pos ib) as P1. pose proof (size_pos istep) as P2. pose proof (size_pos il) as P3.
    apply lengths_fix in El; [|right; reflexivity|lia|lia|lia]. destruct El as (El1 & El2 & B1 & B2).
    pose proof (small_bound _ Sm) as Sz. change (2 ^ 22) with 4194304 in Sz. sizes.
    assert (HI : 0 <= Z.of_nat i < 256) by lia.
    remember (around + fin) as j eqn:Ej. remember (around + len + 2 + fin) as jb eqn:Ejb.
    assert (Z0 : 2 * Z.of_nat (nx bc_pop_jump_false j) = len).
    { rewrite nx_jump by (change (2 ^ 24) with 16777216; lia). rewrite El1.
      symmetry. eapply edge; [exact Sm| |right; reflexivity].
      right. apply in_or_app. right. do 3 right. left. reflexivity. }
    assert (Z1 : 2 * Z.of_nat (nx bc_jump_back jb) = fin).
    { rewrite nx_jump by (change (2 ^ 24) with 16777216; lia). etransitivity; [|symmetry; exact El2].
      replace (around + 2 + len + fin) with jb by lia.
      symmetry. eapply edge; [exact Sm| |left; reflexivity].
      right. apply in_or_app. right. do 4 right. apply in_or_app. right. do 3 right.
      apply in_or_app. right. do 2 right. left. reflexivity. }
    apply (ce_to c L N l ln r r s args lim z x b by_ i ir dr il dl ib db istep j jb dup
             Fo Nm Cr Cl Cb Fr Hi Cs Hd).
    - repeat rewrite ?size_app, ?size_cons, ?size_nil.
      rewrite !(nx_small bc_pop), !(nx_small bc_dup), !(nx_small bc_push_temp),
        !(nx_small bc_plus), !(nx_small bc_store_temp) by lia. lia.
    - repeat rewrite ?size_app, ?size_cons, ?size_nil.
      rewrite !(nx_small bc_pop), !(nx_small bc_dup), !(nx_small bc_push_temp),
        !(nx_small bc_plus), !(nx_small bc_store_temp) by lia.
      rewrite (nx_small (if 0 <? z then bc_greater_equal else bc_less_equal)) by lia. lia.
  Qed.

  Lemma gen_to ln r s args lim z x b by_ k kb : form_of r s args = FTo r lim z x b by_ -> names x lim = false ->
    makes (start r ;; compile_body c r) (fun l => CE l r) 1 k ->
    makes (start lim ;; compile_body c lim) (fun l => CE l lim) 1 k ->
    makes (compile_block c b) (fun l => CB l b) 1 kb -> 1 <= k -> kb + 1 <= k ->
    match args with ECons _ (ECons (ELit _ _) _) => True | _ => z = 1 end ->
    makes ((start r ;; compile_body c r) ;;
           compile_to_by_do x (start lim ;; compile_body c lim)
             (match args with
              | ECons _ (ECons (ELit ln' _) _) => Some (z, line ln' ;; compile_constant (LInt z))
              | _ => None
              end) (compile_block c b))
      (fun l => CE l (ESend ln r s args)) 1 k.
  Proof.
    intros Fo Nm Mr Ml Mb Hk Hkb Hz.
    remember (match args with
              | ECons _ (ECons (ELit ln' _) _) => Some (z, line ln' ;; compile_constant (LInt z))
              | _ => None
              end) as by0 eqn:Eby.
    assert (Hby : by0 = None /\ z = 1 \/ exists ln', by0 = Some (z, line ln' ;; compile_constant (LInt z))).
    { destruct args as [|a [|[] es]]; subst by0; eauto. }
    clear Eby Hz. remember (start lim ;; compile_body c lim) as LM eqn:ELM. clear ELM.
    eapply makes_then; [exact Mr| |].
    { apply done_to; [apply Ml| |apply Mb]. intros z' m Em.
      destruct Hby as [[-> _]|[ln' ->]]; [discriminate|]. injection Em as _ <-.
      apply done_then; [apply good_line|apply done_constant]. }
    intros y v1 y1 v2 y' H O1 Y1 N1 E2 F Sm Gn (d & Gd & Gm). unfold compile_to_by_do, declare in E2.
    remember (s_args y1 + s_temps y1)%nat as i eqn:Ei.
    pose proof (st_declare y1 x O1) as O2. rewrite <- Ei in O2. cbn [negb] in E2.
    remember (with_syms y1 ((x, i, true) :: s_syms y1) (S (s_temps y1))) as y2 eqn:Ey2.
    assert (N2 : s_next y2 = -1) by (subst y2; exact N1).
    assert (Y2 : s_syms y2 = (x, i, true) :: s_syms y) by (subst y2; cbn; rewrite Y1; reflexivity).
    assert (A2 : (i < s_args y2 + s_temps y2)%nat) by (subst y2; cbn; lia).
    assert (Fr : ~ In i (map (fun y => snd (fst y)) (s_syms y))).
    { rewrite <- Y1. intros Hi. apply in_map_iff in Hi. destruct Hi as (e & He & Hi).
      destruct O1 as (_ & _ & O1). rewrite Forall_forall in O1. specialize (O1 e Hi). unfold slot_of in O1. lia. }
    clear Ey2 Ei.
    step E2 w1 y3 w2 E3 E4. step E3 w3 y4 w4 E5 E6. step E5 w5 y5 w6 E7 E8. step E7 w7 y6 w8 E9 E10.
    step E9 w9 y7 w10 E11 E12.
    apply (emit_then _ _ _ _ _ N2) in E11. destruct E11 as [-> ->].
    destruct (part _ _ _ _ O2 (proj1 Ml) E12) as (O5 & Y5 & F5 & N5).
    apply (emit_then _ _ _ _ _ N5) in E10. destruct E10 as [-> ->].
    unfold incr in E8. injection E8 as <- <-.
    apply (emit_then _ _ _ _ _ N5) in E6. destruct E6 as [-> ->].
    apply apart_inv in E4. destruct E4 as (sc & y8 & Es & Ls & E4).
    assert (Ds : exists dn, st_ok y8 /\ s_syms y8 = (x, i, true) :: s_syms y /\ (final y8 -> final y6) /\ s_next y8 = -1
       /\ (s_args y6 + s_temps y6 <= s_args y8 + s_temps y8)%nat
       /\ (final y8 -> by0 <> None -> CE ((x, i, true) :: s_syms y) (ELit 0 (KInt z)) (v_is sc) 1
                       /\ v_net sc = 1 /\ v_max sc = 1) /\ dn = true).
    { exists true. destruct Hby as [[-> ->]|[ln' ->]].
      - unfold skip in Es. injection Es as <- <-. split; [exact O5|]. split; [congruence|].
        split; [auto|]. split; [exact N5|]. split; [lia|]. split; [|reflexivity].
        intros _ X. exfalso. apply X. reflexivity.
      - step Es u1 y9 u2 Es1 Es2. pose proof (good_line ln' _ _ _ O5 Es1) as S0.
        assert (u1 = vec0).
        { eapply line_inv, Es1. }
        subst u1. assert (O9 : st_ok y9) by apply S0.
        pose proof (proj1 (done_constant (LInt z)) _ _ _ O9 Es2) as S1.
        pose proof (proj2 (done_constant (LInt z)) _ _ _ Es2) as N8.
        split; [apply S1|]. split.
        { destruct S0 as (_ & S0 & _). destruct S1 as (_ & S1 & _). unfold same in *. congruence. }
        split; [intros Fx; eapply final_back; [exact S0|]; eapply final_back; [exact S1|exact Fx]|].
        split; [exact N8|]. split.
        { destruct S0 as (_ & _ & ? & ? & _). destruct S1 as (_ & _ & ? & ? & _). lia. }
        split; [|reflexivity]. intros Fx _. apply const_inv in Es2; [|exact O9|exact Fx].
        destruct Es2 as (pre & it & Lp & Ev & P & En & Em & _).
        cbn [vapp v_is v_net v_max vec0 app]. rewrite Ev, En, Em. split; [|lia].
        apply line_ce; [exact Lp|]. constructor. exact P. }
    destruct Ds as (_ & O8 & Y8 & F8 & N8 & T8 & Cs & _). clear Es.
    apply apart_inv in E4. destruct E4 as (vb & y9 & Eb & Lb & E4).
    destruct (part _ _ _ _ O8 (proj1 Mb) Eb) as (O9 & Y9 & F9 & N9).
    apply lengths_inv in E4. destruct E4 as (len & fin & El & E4). cbv zeta in El, E4.
    assert (Hi : final y9 -> (i < N)%nat).
    { intros [_ Fx]. pose proof (proj1 (proj1 Ml) _ _ _ O2 E12) as (_ & _ & ? & ? & _).
      pose proof (proj1 (proj1 Mb) _ _ _ O8 Eb) as (_ & _ & ? & ? & _). lia. }
    destruct Hby as [[-> ->]|[ln' ->]].
    - go. unfold undeclare in *.
      match goal with H : Ok _ = Ok (_, y') |- _ => injection H as <- <- end.
      change (final y9) in F. clear Cs.
      assert (Cs : CE ((x, i, true) :: s_syms y) (ELit 0 (KInt 1)) [(bc_push_integer, 1)] 1)
        by (repeat constructor; lia).
      flat_.
      pose proof (small_cons _ _ Sm) as Sm1. destruct (small_app _ _ Sm1) as [Sl Sm2].
      destruct (small_app [_; _; _; _] _ Sm2) as [_ Sm3]. destruct (small_app _ _ Sm3) as [Sb _].
      destruct (proj2 Ml _ _ _ O2 E12 (F8 (F9 F)) Sl) as (Gn' & d' & Gd' & Gm'). rewrite Y2 in Gd'.
      destruct (proj2 Mb _ _ _ O8 Eb F Sb) as (Gn'' & d'' & Gd'' & Gm''). rewrite Y8 in Gd''.
      split; [lia|]. eexists. split.
      + apply (to_code ln r s args lim 1 x b by_ (s_syms y) i (v_is v1) d _ d' _ d'' [(bc_push_integer, 1)] len fin
          (Z.of_nat i) (2 + vlen vb + 10) Fo Nm Gd Gd' Gd'' Fr (Hi F) Cs).
        * specialize (Hi F). change (2 ^ 31) with 2147483648. lia.
        * rewrite size_cons, size_nil, (nx_small bc_push_integer), vlen_size by lia. lia.
        * exact El.
        * exact Sm.
      + maxes.
    - go. unfold undeclare in *.
      match goal with H : Ok _ = Ok (_, y') |- _ => injection H as <- <- end.
      change (final y9) in F. destruct (Cs (F9 F) ltac:(discriminate)) as (Cs' & Cn & Cm). clear Cs.
      flat_. rewrite Z.gtb_ltb in *.
      pose proof (small_cons _ _ Sm) as Sm1. destruct (small_app _ _ Sm1) as [Sl Sm2].
      destruct (small_app [_; _; _; _] _ Sm2) as [_ Sm3]. destruct (small_app _ _ Sm3) as [Sb _].
      destruct (proj2 Ml _ _ _ O2 E12 (F8 (F9 F)) Sl) as (Gn' & d' & Gd' & Gm'). rewrite Y2 in Gd'.
      destruct (proj2 Mb _ _ _ O8 Eb F Sb) as (Gn'' & d'' & Gd'' & Gm''). rewrite Y8 in Gd''.
      split; [lia|]. eexists. split.
      + apply (to_code ln r s args lim z x b by_ (s_syms y) i (v_is v1) d _ d' _ d'' (v_is sc) len fin
          (Z.of_nat i) (vlen sc + vlen vb + 10) Fo Nm Gd Gd' Gd'' Fr (Hi F) Cs').
        * specialize (Hi F). change (2 ^ 31) with 2147483648. lia.
        * rewrite !vlen_size. lia.
        * exact El.
        * exact Sm.
      + maxes.
  Qed.

  Definition parts (es : exprs) k : Prop :=
    quiet same (compile_args c es) /\
    forall x v x', st_ok x -> compile_args c es x = Ok (v, x') -> final x' -> small (v_is v) ->
      Z.of_nat (number es) <= v_net v /\ 0 <= v_max v /\
      exists d, CA (s_syms x) es (v_is v) d /\ d <= v_max v + k.

  Lemma quiet_part m s v1 s1 : st_ok s -> quiet same m -> m s = Ok (v1, s1) ->
    st_ok s1 /\ s_syms s1 = s_syms s /\ (final s1 -> final s).
  Proof.
    intros H [D1 D2] E. pose proof (D1 _ _ _ H E) as S0.
    split; [apply S0|]. split; [apply S0|]. intros F. eapply final_back; eassumption.
  Qed.

  Lemma gen_send ln r s args k : form_of r s args = FSend -> fits_selector s args = true ->
    makes (start r ;; compile_body c r) (fun l => CE l r) 1 k -> parts args k -> 0 <= k ->
    makes (((start r ;; compile_body c r) ;; compile_args c args) ;; compile_send c (is_super r) s (elength args))
      (fun l => CE l (ESend ln r s args)) 1 k.
  Proof.
    intros Fo Ft [Dr Gr] [Da Ga] Hk. split.
    { apply done_then; [|apply done_send]. apply good_then; [apply Dr|apply Da]. }
    intros x v x' H E F Sm. step E v1 y1 v2 E1 E2. step E1 v3 y2 v4 E3 E4.
    destruct (part _ _ _ _ H Dr E3) as (O2 & Y2 & F2 & N2).
    destruct (quiet_part _ _ _ _ O2 Da E4) as (O1 & Y1 & F1).
    destruct (part _ _ _ _ O1 (done_send c (is_super r) s (elength args)) E2) as (O3 & Y3 & F3 & N3).
    destruct (send_inv _ _ _ _ _ _ O1 Ft E2 F) as (pre & is & Lp & Ei & Se & Sn & Sx).
    cbn [vapp v_is v_net v_max] in *. rewrite <- app_assoc in *.
    destruct (small_app _ _ Sm) as [S1 Sm1]. destruct (small_app _ _ Sm1) as [S2 _].
    destruct (Gr _ _ _ H E3 (F1 (F3 F)) S1) as (Gn & d & Gd & Gm).
    destruct (Ga _ _ _ O2 E4 (F3 F) S2) as (An & Ax & d' & Ad & Am). rewrite Y2 in Ad.
    rewrite Ei. split; [lia|]. eexists. split; [eapply ce_send; eassumption|]. lia.
  Qed.

  Definition parts_m (ms : msgs) k : Prop :=
    quiet same (compile_cascaded c ms) /\
    (ms <> MNil -> forall x v x', st_ok x -> s_next x = -1 -> compile_cascaded c ms x = Ok (v, x') ->
      final x' -> small (v_is v) ->
      -1 <= v_net v /\ 0 <= v_max v /\ exists d, CM (s_syms x) ms (v_is v) d /\ d <= v_max v + 2 + k).

  (** the line, the arguments and the message *)
  Lemma gen_message ln s args k x v x' : fits_selector s args = true -> parts args k -> st_ok x ->
    (line ln ;; compile_args c args ;; compile_send c false s (elength args)) x = Ok (v, x') ->
    final x' -> small (v_is v) -> st_ok x' /\ s_syms x' = s_syms x /\ s_next x' = -1 /\
    exists ia da pre is, v_is v = ia ++ pre ++ is /\ CA (s_syms x) args ia da /\ Line pre
      /\ Sends L false s (number args) is /\ da <= v_max v + k /\ 0 <= v_net v /\ 0 <= v_max v.
  Proof.
    intros Ft [Da Ga] H E F Sm. step E v1 y1 v2 E1 E2. step E1 v3 y2 v4 E3 E4.
    pose proof (good_line ln _ _ _ H E3) as S0.
    assert (v3 = vec0).
    { eapply line_inv, E3. }
    subst v3. assert (O2 : st_ok y2) by apply S0. assert (Y2 : s_syms y2 = s_syms x) by apply S0.
    destruct (quiet_part _ _ _ _ O2 Da E4) as (O1 & Y1 & F1).
    destruct (part _ _ _ _ O1 (done_send c false s (elength args)) E2) as (O3 & Y3 & F3 & N3).
    destruct (send_inv _ _ _ _ _ _ O1 Ft E2 F) as (pre & is & Lp & Ei & Se & Sn & Sx).
    cbn [vapp v_is v_net v_max vec0 app bump] in *.
    destruct (small_app _ _ Sm) as [S1 _].
    destruct (Ga _ _ _ O2 E4 (F3 F) S1) as (An & Ax & d' & Ad & Am). rewrite Y2 in Ad.
    split; [exact O3|]. split; [congruence|]. split; [exact N3|].
    exists (v_is v4), d', pre, is. rewrite Ei. repeat split; auto; lia.
  Qed.

  Lemma assoc6 a b d e f (q : comp) x : (a ;; b ;; d ;; e ;; f ;; q) x = ((a ;; b) ;; ((d ;; e) ;; f) ;; q) x.
  Proof.
    unfold andthen, obind, vapp.
    repeat (match goal with |- context [match ?m ?z with Ok _ => _ | _ => _ end] =>
      is_var m; destruct (m z) as [[]| | | |]; cbn [fst snd v_is v_net v_max v_low]; try reflexivity end).
    f_equal. f_equal. rewrite !app_assoc. f_equal; lia.
  Qed.

  Lemma gen_cascaded ln s args ms k : fits_selector s args = true -> parts args k -> parts_m ms k -> 0 <= k ->
    parts_m (MCons ln s args ms) k.
  Proof.
    intros Ft Pa [Dm Gm] Hk. split.
    { rewrite cascaded_cons. apply done_is_quiet, done_quiet; [|exact Dm]. destruct Pa as [Pa _].
      apply done_then; [|apply done_send]. apply good_then; [|seq]. apply good_then; [|seq].
      apply good_then; [seq|]. destruct ms; seq. }
    intros _ x v x' H Nx E F Sm. rewrite cascaded_cons in E.
    rewrite assoc6 in E. step E v1 y1 v2 E1 E2. step E1 v3 y2 v4 E3 E4. step E3 v5 y3 v6 E5 E6.
    apply (emit_then _ _ _ _ _ Nx) in E5. destruct E5 as [-> ->].
    assert (M : y2 = x /\ match ms with MNil => v6 = Vec [] (-1) 0 (-1) | _ => v6 = Vec [(bc_dup, 0)] 0 0 0 end).
    { destruct ms; [unfold sub in E6; injection E6 as <- <-; auto|].
      apply (emit_then _ _ _ _ _ Nx) in E6. destruct E6 as [-> ->]. auto. }
    destruct M as [-> M].
    assert (F1 : final y1).
    { assert (Dl : good same (line ln ;; compile_args c args ;; compile_send c false s (elength args))).
      { destruct Pa as [Pa _]. apply done_good. apply done_then; [|apply done_send]. seq. }
      pose proof (Dl _ _ _ H E4) as S1.
      destruct (quiet_part _ _ _ _ ltac:(apply S1) Dm E2) as (_ & _ & F1). exact (F1 F). }
    cbn [vapp v_is] in Sm. destruct (small_app _ _ Sm) as [Sm1 Sm2]. destruct (small_app _ _ Sm1) as [_ Sm3].
    destruct (gen_message _ _ _ _ _ _ _ Ft Pa H E4 F1 Sm3)
      as (O1 & Y1 & N1 & ia & da & pre & is & Ei & Ca & Lp & Se & Mx & Mn & Mp).
    destruct ms as [|ln' s' args' ms'].
    - cbn [compile_cascaded] in E2. unfold skip in E2. injection E2 as <- <-. subst v6.
      cbn [vapp v_is v_net v_max vec0 app] in *. rewrite Ei, app_nil_r. split; [lia|]. split; [lia|].
      eexists. split; [apply cm_last; eassumption|]. maxes.
    - destruct (Gm ltac:(discriminate) _ _ _ O1 N1 E2 F Sm2) as (Gn & Gx & d & Gd & Gy). rewrite Y1 in Gd. subst v6.
      cbn [vapp v_is v_net v_max vec0 app] in *. rewrite Ei, <- !app_assoc. split; [lia|]. split; [lia|].
      eexists. split; [apply cm_more; [discriminate|eassumption..]|]. maxes.
  Qed.

  Lemma gen_cascade ln r ln' s args ms k : is_super r = false -> ms <> MNil -> fits_selector s args = true ->
    makes (start r ;; compile_body c r) (fun l => CE l r) 1 k -> parts args k -> parts_m ms k -> 0 <= k ->
    makes (start r ;; compile_body c r ;; emit bc_dup 0 ;; incr ;;
           line ln' ;; compile_args c args ;; compile_send c (is_super r) s (elength args) ;;
           compile_cascaded c ms)
      (fun l => CE l (ECascade ln r (MCons ln' s args ms))) 1 k.
  Proof.
    intros Su Ne Ft Mr Pa [Dm Gm] Hk. rewrite Su. split.
    { destruct Pa as [Pa _], Mr as [Mr _]. apply done_quiet; [|exact Dm]. apply done_then; [|apply done_send].
      apply good_then; [|seq]. apply good_then; [|seq]. apply good_then; [|seq]. apply good_then; [|seq].
      apply Mr. }
    intros x v x' H E F Sm. step E v1 y1 v2 E1 E2. step E1 v3 y2 v4 E3 E4.
    step E3 v5 y3 v6 E5 E6. step E5 v7 y4 v8 E7 E8. step E7 v9 y5 v10 E9 E10. step E9 v11 y6 v12 E11 E12.
    destruct Mr as [Dr Gr].
    destruct (part _ _ _ _ H Dr E11) as (O6 & Y6 & F6 & N6).
    apply (emit_then _ _ _ _ _ N6) in E12. destruct E12 as [-> ->].
    unfold incr in E10. injection E10 as <- <-.
    assert (E3' : (line ln' ;; compile_args c args ;; compile_send c false s (elength args)) y6
      = Ok (vapp (vapp v8 v6) v4, y1)).
    { unfold andthen, obind. rewrite E8. cbn [fst snd]. rewrite E6. cbn [fst snd]. rewrite E4. reflexivity. }
    assert (Dl : good same (line ln' ;; compile_args c args ;; compile_send c false s (elength args))).
    { destruct Pa as [Pa _]. apply done_good. apply done_then; [|apply done_send]. seq. }
    pose proof (Dl _ _ _ O6 E3') as S1.
    destruct (quiet_part _ _ _ _ ltac:(apply S1) Dm E2) as (_ & _ & F1).
    cbn [vapp v_is v_net v_max app] in *. rewrite ?app_nil_r, <- ?app_assoc in *.
    destruct (small_app _ _ Sm) as [S2 S3]. pose proof (small_cons _ _ S3) as S4.
    assert (S5 : small (v_is (vapp (vapp v8 v6) v4)) /\ small (v_is v2)).
    { cbn [vapp v_is]. rewrite !app_assoc in S4. apply small_app in S4. exact S4. }
    destruct (gen_message _ _ _ _ _ _ _ Ft Pa O6 E3' (F1 F) (proj1 S5))
      as (O1 & Y1 & N1 & ia & da & pre & is & Ei & Ca & Lp & Se & Mx & Mn & Mp).
    destruct (Gm Ne _ _ _ O1 N1 E2 F (proj2 S5)) as (Gn & Gx & d & Gd & Gy). rewrite Y1, Y6 in Gd. rewrite Y6 in Ca.
    destruct (Gr _ _ _ H E11 (final_back _ _ _ S1 (F1 F)) S2) as (Rn & dr & Rd & Rm).
    cbn [vapp v_is v_net v_max] in *. rewrite <- !app_assoc in Ei.
    split; [lia|]. eexists. split.
    - replace (v_is v11 ++ [(bc_dup, 0)] ++ v_is v8 ++ v_is v6 ++ v_is v4 ++ v_is v2)
        with (v_is v11 ++ (bc_dup, 0) :: ia ++ pre ++ is ++ v_is v2).
      2:{ cbn [app]. do 2 f_equal. rewrite !app_assoc in *. rewrite Ei. reflexivity. }
      apply ce_cascade; eassumption.
    - maxes.
  Qed.

  Lemma gen_args e es k : makes (start e ;; compile_body c e) (fun l => CE l e) 1 k -> parts es k ->
    parts (ECons e es) k.
  Proof.
    intros [De Ge] [Da Ga]. split.
    { rewrite args_cons. apply done_is_quiet, done_quiet; assumption. }
    intros x v x' H E F Sm. rewrite args_cons in E. step E v1 y1 v2 E1 E2.
    destruct (part _ _ _ _ H De E1) as (O1 & Y1 & F1 & N1).
    destruct (quiet_part _ _ _ _ O1 Da E2) as (O2 & Y2 & F2).
    cbn [vapp v_is v_net v_max] in *. destruct (small_app _ _ Sm) as [S1 S2].
    destruct (Ge _ _ _ H E1 (F2 F) S1) as (Gn & d & Gd & Gm).
    destruct (Ga _ _ _ O1 E2 F S2) as (An & Ax & d' & Ad & Am). rewrite Y1 in Ad.
    cbn [number]. split; [lia|]. split; [lia|]. eexists. split; [constructor; eassumption|]. lia.
  Qed.

  Lemma gen_return e k : makes (start e ;; compile_body c e) (fun l => CE l e) 1 k ->
    makes (compile_block c (SReturn e)) (fun l => CB l (SReturn e)) 1 k.
  Proof.
    intros [De Ge]. rewrite block_return. split.
    { apply done_quiet; [|seq]. apply done_quiet; [|seq]. apply done_then; [apply De|seq]. }
    intros x v x' H E F Sm. step E v1 y1 v2 E1 E2. step E1 v3 y2 v4 E3 E4. step E3 v5 y3 v6 E5 E6.
    destruct (part _ _ _ _ H De E5) as (O1 & Y1 & F1 & N1). clear De.
    apply (emit_then _ _ _ _ _ N1) in E6. destruct E6 as [-> ->].
    unfold sub in E4. injection E4 as <- <-. unfold incr in E2. injection E2 as <- <-.
    flat_. destruct (small_app _ _ Sm) as [S1 S2].
    destruct (Ge _ _ _ H E5 F S1) as (Gn & d & Gd & Gm).
    split; [lia|]. exists d. split; [constructor; exact Gd|]. maxes.
  Qed.

  Lemma gen_statement e ss k : makes (start e ;; compile_body c e) (fun l => CE l e) 1 k ->
    makes (compile_block c ss) (fun l => CB l ss) 1 k ->
    makes (compile_block c (SExpr e ss)) (fun l => CB l (SExpr e ss)) 1 k.
  Proof.
    intros Me Ms. rewrite block_expr. 
    assert (Cs : ss = SNil \/ ss <> SNil) by (destruct ss; auto; right; discriminate).
    destruct Cs as [-> | Ne].
    - destruct Me as [De Ge]. split; [apply done_quiet; [exact De|seq]|].
      intros x v x' H E F Sm. step E v1 y1 v2 E1 E2.
      unfold skip in E2. injection E2 as <- <-. flat_.
      destruct (Ge _ _ _ H E1 F Sm) as (Gn & d & Gd & Gm).
      split; [lia|]. exists d. split; [constructor; exact Gd|]. maxes.
    - replace (match ss with SNil => skip | _ => sub 1 ;; emit bc_pop 0 ;; compile_block c ss end)
        with (sub 1 ;; emit bc_pop 0 ;; compile_block c ss) by (destruct ss; congruence).
      eapply makes_then; [exact Me|apply done_then; [seq|apply Ms]|].
      intros x v1 y v2 x' H O1 Y1 N1 E2 F Sm Gn (d & Gd & Gm).
      step E2 v3 y2 v4 E3 E4. step E3 v5 y3 v6 E5 E6. unfold sub in E5. injection E5 as <- <-.
      apply (emit_then _ _ _ _ _ N1) in E6. destruct E6 as [-> ->]. flat_.
      pose proof (small_cons _ _ Sm) as S1.
      destruct (proj2 Ms _ _ _ O1 E4 F S1) as (Gn' & d' & Gd' & Gm'). rewrite Y1 in Gd'.
      split; [lia|]. eexists. split; [apply cb_more; eassumption|]. maxes.
  Qed.

  Lemma gen_nil k : 0 <= k -> makes (compile_block c SNil) (fun l => CB l SNil) 1 k.
  Proof.
    intros Hk. split; [apply (done_then same incr (emit bc_push_special nil_index)); seq|].
    intros x v x' H E F Sm. change (compile_block c SNil) with (incr ;; emit bc_push_special nil_index) in E.
    step E v1 y1 v2 E1 E2. unfold incr in E1. injection E1 as <- <-.
    apply emit_inv in E2; [|exact H]. destruct E2 as (pre & Lp & ->).
    flat_. split; [lia|]. exists 1. split; [apply cb_nil; exact Lp|lia].
  Qed.

  Lemma gen_assign ln ts e k : makes (start e ;; compile_body c e) (fun l => CE l e) 1 k -> 1 <= k ->
    makes (compile_body c e) (fun l => CE l e) 1 k ->
    makes (compile_body c (EAssign ln ts e)) (fun l => CE l (EAssign ln ts e)) 1 k.
  Proof.
    intros _ Hk [De Ge]. rewrite body_assign. split.
    { apply done_quiet; [|apply quiet_assignments]. apply done_then; [apply good_line|exact De]. }
    intros x v x' H E F Sm. step E v1 y1 v2 E1 E2. step E1 v3 y2 v4 E3 E4.
    pose proof (good_line _ _ _ _ H E3) as S0.
    assert (v3 = vec0).
    { eapply line_inv, E3. }
    subst v3. assert (O2 : st_ok y2) by apply S0. assert (Y2 : s_syms y2 = s_syms x) by apply S0.
    destruct (part _ _ _ _ O2 De E4) as (O1 & Y1 & F1 & N1).
    destruct (quiet_part _ _ _ _ O1 (quiet_assignments c ts) E2) as (_ & _ & F2).
    destruct (stores_inv _ _ _ _ O1 E2 F) as (St & Sn & Sx). rewrite Y1, Y2 in St.
    flat_. destruct (small_app _ _ Sm) as [S1 S2].
    destruct (Ge _ _ _ O2 E4 (F2 F) S1) as (Gn & d & Gd & Gm). rewrite Y2 in Gd.
    split; [lia|]. eexists. split; [apply ce_assign; eassumption|]. maxes.
  Qed.

  Lemma makes_more m R b k k' : makes m R b k -> k <= k' -> makes m R b k'.
  Proof.
    intros [D G] Hk. split; [exact D|]. intros x v x' H E F Sm.
    destruct (G _ _ _ H E F Sm) as (Gn & d & Gd & Gm). split; [exact Gn|]. exists d. split; [exact Gd|lia].
  Qed.
  Lemma parts_more es k k' : parts es k -> k <= k' -> parts es k'.
  Proof.
    intros [D G] Hk. split; [exact D|]. intros x v x' H E F Sm.
    destruct (G _ _ _ H E F Sm) as (Gn & Gx & d & Gd & Gm). split; [exact Gn|]. split; [exact Gx|].
    exists d. split; [exact Gd|lia].
  Qed.
  Lemma parts_m_more ms k k' : parts_m ms k -> k <= k' -> parts_m ms k'.
  Proof.
    intros [D G] Hk. split; [exact D|]. intros Ne x v x' H Nx E F Sm.
    destruct (G Ne _ _ _ H Nx E F Sm) as (Gn & Gx & d & Gd & Gm). split; [exact Gn|]. split; [exact Gx|].
    exists d. split; [exact Gd|lia].
  Qed.

  Lemma form_loops ln r s args :
    match form_of r s args with
    | FSend => True
    | FWhile _ cd b => loops_stmts cd <= loops (ESend ln r s args) /\ loops_stmts b <= loops (ESend ln r s args)
    | FRepeat b => loops_stmts b <= loops (ESend ln r s args)
    | FIf _ t f => loops_stmts t <= loops (ESend ln r s args) /\ loops_stmts f <= loops (ESend ln r s args)
    | FAnd _ b | FOr _ b | FTimes _ b => loops_stmts b <= loops (ESend ln r s args)
    | FTo _ l _ _ b _ => loops l <= loops (ESend ln r s args) /\ loops_stmts b + 1 <= loops (ESend ln r s args)
    end /\ loops r <= loops (ESend ln r s args) /\ loops_args args <= loops (ESend ln r s args).
  Proof.
    destruct loops_pos as (L1 & L2 & L3 & L4). pose proof (L1 r) as Lr.
    assert (Q : loops (ESend ln r s args) = Z.max (loops r)
      (loops_args args + match form_of r s args with FTo _ _ _ _ _ _ => 1 | _ => 0 end)) by reflexivity.
    split; [|rewrite Q; destruct (form_of r s args); lia].
    rewrite Q. clear Q. unfold form_of.
    repeat match goal with
    | |- context [match ?x with _ => _ end] => is_var x; destruct x; cbn [loops loops_args loops_stmts] in *
    | |- context [if ?b then _ else _] => destruct b eqn:?
    end; try exact I;
    repeat match goal with |- context [loops ?e] => lazymatch goal with H : 0 <= loops e |- _ => fail | _ => pose proof (L1 e) end end;
    repeat match goal with |- context [loops_stmts ?e] => lazymatch goal with H : 0 <= loops_stmts e |- _ => fail | _ => pose proof (L4 e) end end;
    try lia; cbn [loops loops_args loops_stmts] in *; try lia.
  Qed.

  Theorem emits :
    (forall e, tidy true e = true -> makes (compile_body c e) (fun l => CE l e) 1 (loops e + 1))
    /\ (forall es, tidy_args true es = true -> parts es (loops_args es + 1))
    /\ (forall ms, tidy_msgs true ms = true -> parts_m ms (loops_msgs ms + 1))
    /\ (forall ss, tidy_stmts true ss = true -> makes (compile_block c ss) (fun l => CB l ss) 1 (loops_stmts ss + 1)).
  Proof.
    destruct loops_pos as (L1 & L2 & L3 & L4).
    apply tidy_ind.
    - intros ln x. eapply makes_more with (k := 0); [split; [apply done_variable|apply gen_variable]|cbn; lia].
    - intros ln k. eapply makes_more with (k := 0); [split; [apply done_constant|apply gen_constant]|cbn; lia].
    - intros ln xs ts b. split; [apply done_refuse|]. intros x v x' H E. discriminate.
    - intros ln ts e M. pose proof (L1 e). cbn [loops].
      apply gen_assign; [apply gives_start, M|lia|exact M].
    - intros ln r ln' s args ms Mr Pa Ft Pm Ne Su. cbn [loops loops_msgs].
      pose proof (L1 r). pose proof (L2 args). pose proof (L3 ms).
      rewrite body_cascade.
      apply gen_cascade; [exact Su|exact Ne|exact Ft| | | |lia].
      + eapply makes_more; [apply gives_start, Mr|lia].
      + eapply parts_more; [exact Pa|lia].
      + eapply parts_m_more; [exact Pm|lia].
    - intros ln r s args Ft Mr Pa Hf. rewrite body_send by exact Ft.
      destruct (form_loops ln r s args) as (Fl & Flr & Fla).
      remember (loops (ESend ln r s args)) as k eqn:Ek. pose proof (L1 (ESend ln r s args)) as Lk. rewrite <- Ek in Lk. clear Ek.
      assert (Mr' : makes (start r ;; compile_body c r) (fun l => CE l r) 1 (k + 1)).
      { eapply makes_more; [apply gives_start, Mr|lia]. }
      assert (Pa' : parts args (k + 1)) by (eapply parts_more; [exact Pa|lia]).
      destruct (form_of r s args) eqn:Fo.
      + destruct Hf as (On & Mc & Mb & Nl). apply gen_while; [exact Fo|exact On| | |exact Nl|lia];
          (eapply makes_more; [eassumption|lia]).
      + apply gen_repeat; [exact Fo|eapply makes_more; [eassumption|lia]|lia].
      + destruct Hf as (-> & Mt & Mf & Ht & Hf). apply gen_if; auto; try lia;
          (eapply makes_more; [eassumption|lia]).
      + destruct Hf as (-> & Mb). apply (gen_and_or ln r s args false); auto; try lia.
        eapply makes_more; [eassumption|lia].
      + destruct Hf as (-> & Mb). apply (gen_and_or ln r s args true); auto; try lia.
        eapply makes_more; [eassumption|lia].
      + destruct Hf as (-> & Mb). apply gen_times; auto; try lia.
        eapply makes_more; [eassumption|lia].
      + destruct Hf as (-> & (Ml & Nm) & Mb & Hz).
        eapply gen_to; [exact Fo|exact Nm|exact Mr'| |exact Mb|lia|lia|exact Hz].
        eapply makes_more; [apply gives_start, Ml|lia].
      + apply gen_send; [exact Fo|exact Ft|exact Mr'|exact Pa'|lia].
    - split; [apply quiet_skip|]. intros x v x' H E F Sm.
      change (compile_args c ENil) with skip in E. unfold skip in E. injection E as <- <-.
      cbn. split; [lia|]. split; [lia|]. exists 0. split; [constructor|lia].
    - intros e es Me Pa. cbn [loops_args]. pose proof (L1 e). pose proof (L2 es).
      apply gen_args; [eapply makes_more; [apply gives_start, Me|lia]|eapply parts_more; [exact Pa|lia]].
    - split; [apply quiet_skip|]. intros X. exfalso. apply X. reflexivity.
    - intros ln s args ms Ft Pa Pm. cbn [loops_msgs]. pose proof (L2 args). pose proof (L3 ms).
      apply gen_cascaded; [exact Ft|eapply parts_more; [exact Pa|lia]|eapply parts_m_more; [exact Pm|lia]|lia].
    - apply gen_nil. cbn. lia.
    - intros e Me. cbn [loops_stmts]. apply gen_return, gives_start, Me.
    - intros e ss Me Ms. cbn [loops_stmts]. pose proof (L1 e). pose proof (L4 ss).
      apply gen_statement; [eapply makes_more; [apply gives_start, Me|lia]|eapply makes_more; [exact Ms|lia]].
  Qed.
End Gen.
