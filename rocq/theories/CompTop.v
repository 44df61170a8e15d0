(** Compiled methods as a whole. *)
From Coq Require Import ZArith Lia List Bool Ascii String.
From Coq Require Import ZifyBool ZifyNat.
From Verif Require Import Base Bc BcProofs Comp CompSpec CompCode CompWeak CompState CompRun CompGen.
Import ListNotations.
Local Open Scope string_scope.
Local Open Scope list_scope.
Local Open Scope Z_scope.

(** * The names of a method *)

Fixpoint numbered (xs : list string) (ro : bool) (i : nat) : syms :=
  match xs with [] => [] | x :: xs' => (x, i, ro) :: numbered xs' ro (S i) end.

Lemma declare_numbered xs ro i l l' : declare_names xs ro i l = Some l' -> l' = rev (numbered xs ro i) ++ l.
Proof.
  revert i l. induction xs as [|x xs IH]; intros i l; cbn [declare_names numbered rev].
  - intros [= <-]. reflexivity.
  - destruct (find_local x l); [discriminate|]. intros H. apply IH in H. rewrite H, <- app_assoc. reflexivity.
Qed.

Lemma numbered_slots xs ro i : map slot_of (numbered xs ro i) = seq i (List.length xs).
Proof. revert i. induction xs as [|x xs IH]; intros i; cbn; [reflexivity|]. rewrite IH. reflexivity. Qed.

Lemma Forall2_app_ A B (R : A -> B -> Prop) a b x y : Forall2 R a x -> Forall2 R b y -> Forall2 R (a ++ b) (x ++ y).
Proof. induction 1; cbn; auto. Qed.
Lemma Forall2_rev_ A B (R : A -> B -> Prop) a x : Forall2 R a x -> Forall2 R (rev a) (rev x).
Proof. induction 1; cbn; [constructor|]. apply Forall2_app_; auto. Qed.

Definition holds (sl : list value) (y : string * nat * bool) (a : string * value) : Prop :=
  fst (fst y) = fst a /\ nth_error sl (slot_of y) = Some (snd a).

Lemma numbered_holds xs ro : forall pre vs post, List.length vs = List.length xs ->
  Forall2 (holds (pre ++ vs ++ post)) (numbered xs ro (List.length pre)) (combine xs vs).
Proof.
  induction xs as [|x xs IH]; intros pre [|v vs] post; cbn [List.length numbered combine]; try discriminate; [constructor|].
  intros H. constructor.
  - split; [reflexivity|]. cbn. rewrite nth_error_app2 by lia. rewrite Nat.sub_diag. reflexivity.
  - specialize (IH (pre ++ [v]) vs post ltac:(lia)). rewrite app_length in IH. cbn [List.length] in IH.
    rewrite Nat.add_1_r in IH. rewrite <- app_assoc in IH. exact IH.
Qed.

Lemma combine_nil (xs : list string) : map (fun x => (x, VNil)) xs = combine xs (repeat VNil (List.length xs)).
Proof. induction xs as [|x xs IH]; cbn; [reflexivity|]. rewrite IH. reflexivity. Qed.

(** * Running to the end *)

Lemma run_star W (sys : system W) L limit code s s' d :
  star W sys L limit code s s' -> step sys L limit code s' = d -> (forall x, d <> Next x) ->
  exists n, run sys L limit code n s = d.
Proof.
  induction 1 as [s|s s1 s2 E _ IH]; intros Hd Nx.
  - exists 1%nat. cbn. rewrite Hd. destruct d; reflexivity.
  - destruct (IH Hd Nx) as [n Hn]. exists (S n). cbn. rewrite E. exact Hn.
Qed.

(** * The code of a method *)

Section Method.
  Variable c : ctx.
  Variable L : list lit.
  Variable N : nat.

  Inductive MB (l : syms) (last : bool) : stmts -> list (Z * Z) -> Z -> Prop :=
  | mb_return e is d : CE c L N l e is d -> MB l last (SReturn e) (is ++ [(bc_return, 0)]) d
  | mb_value e is d : last = true -> CE c L N l e is d -> MB l last (SExpr e SNil) (is ++ [(bc_return, 0)]) d
  | mb_self e is d : last = false -> CE c L N l e is d ->
      MB l last (SExpr e SNil) (is ++ [(bc_pop, 0); (bc_push_self, 0); (bc_return, 0)]) (Z.max 1 d)
  | mb_more e ss is js d ds : ss <> SNil -> CE c L N l e is d -> MB l last ss js ds ->
      MB l last (SExpr e ss) (is ++ (bc_pop, 0) :: js) (Z.max d ds).

  Hypothesis HN : Z.of_nat N < 256.

  Lemma gen_method last ss k : tidy_stmts true ss = true -> ss <> SNil -> loops_stmts ss + 1 <= k ->
    done same (compile_method_body c last ss) /\
    forall x v x', st_ok x -> compile_method_body c last ss x = Ok (v, x') -> final L N x' -> small (v_is v) ->
      exists d, MB (s_syms x) last ss (v_is v) d /\ d <= v_max v + k.
  Proof.
    destruct (emits c L N HN) as (G & _ & _ & _). destruct loops_pos as (L1 & _ & _ & L4).
    induction ss as [|e ss IH|e]; intros T Ne Hk; [congruence| |].
    - rewrite tidy_sexpr in T. apply andb_true_iff in T. destruct T as [Te Ts]. cbn [loops_stmts] in Hk.
      pose proof (L1 e) as P1. pose proof (L4 ss) as P2.
      destruct (gives_start L N _ _ _ _ e (G e Te)) as [De Ge]. cbn [compile_method_body].
      change (compile_expression c e) with (start e ;; compile_body c e).
      assert (Cs : ss = SNil \/ ss <> SNil) by (destruct ss; auto; right; discriminate).
      destruct Cs as [-> | Ns].
      + destruct last.
        * split; [apply done_then; [apply De|seq]|].
          intros x v x' H E F Sm. apply andthen_inv in E. destruct E as (v1 & y & v2 & E1 & E2 & ->).
          destruct (part L N _ _ _ _ H De E1) as (O1 & Y1 & F1 & N1).
          apply (emit_then _ _ _ _ _ N1) in E2. destruct E2 as [-> ->]. cbn [vapp v_is v_max] in *.
          destruct (small_app N _ _ Sm) as [S1 _].
          destruct (Ge _ _ _ H E1 F S1) as (Gn & d & Gd & Gm).
          exists d. split; [constructor; auto|lia].
        * split; [apply done_then; [apply De|seq]|].
          intros x v x' H E F Sm. apply andthen_inv in E. destruct E as (v1 & y & v2 & E1 & E2 & ->).
          destruct (part L N _ _ _ _ H De E1) as (O1 & Y1 & F1 & N1).
          assert (E3 : v2 = vapp (vapp (vapp (Vec [] (-1) 0 (-1)) (Vec [(bc_pop, 0)] 0 0 0)) (Vec [(bc_push_self, 0)] 0 0 0))
                       (Vec [(bc_return, 0)] 0 0 0) /\ x' = y).
          { unfold andthen, obind, sub in E2. cbn [fst snd] in E2.
            repeat (rewrite (emit_now _ _ _ N1) in E2; cbn [fst snd] in E2).
            injection E2 as <- <-. split; reflexivity. }
          destruct E3 as [-> ->]. cbn [vapp v_is v_max app v_net] in *.
          destruct (small_app N _ _ Sm) as [S1 _].
          destruct (Ge _ _ _ H E1 F S1) as (Gn & d & Gd & Gm).
          exists (Z.max 1 d). split; [constructor; auto|lia].
      + replace (match ss with SNil => if last then emit bc_return 0
            else sub 1 ;; emit bc_pop 0 ;; emit bc_push_self 0 ;; emit bc_return 0
          | _ => sub 1 ;; emit bc_pop 0 ;; compile_method_body c last ss end)
          with (sub 1 ;; emit bc_pop 0 ;; compile_method_body c last ss) by (destruct ss; congruence).
        destruct (IH Ts Ns ltac:(lia)) as [Ds Gs].
        assert (Dr : done same (sub 1 ;; emit bc_pop 0 ;; compile_method_body c last ss))
          by (apply done_then; [seq|exact Ds]).
        split; [apply done_then; [apply De|exact Dr]|].
        intros x v x' H E F Sm. apply andthen_inv in E. destruct E as (v1 & y & v2 & E1 & E2 & ->).
        destruct (part L N _ _ _ _ H De E1) as (O1 & Y1 & F1 & N1).
        destruct (part L N _ _ _ _ O1 Dr E2) as (_ & _ & F2 & _).
        apply andthen_inv in E2. destruct E2 as (v3 & y3 & v4 & E3 & E4 & ->).
        apply andthen_inv in E3. destruct E3 as (v5 & y5 & v6 & E5 & E6 & ->).
        unfold sub in E5. injection E5 as <- <-.
        apply (emit_then _ _ _ _ _ N1) in E6. destruct E6 as [-> ->]. cbn [vapp v_is v_max app v_net] in *.
        destruct (small_app N _ _ Sm) as [S1 S2]. pose proof (small_cons N _ _ S2) as S3.
        destruct (Ge _ _ _ H E1 (F2 F) S1) as (Gn & d & Gd & Gm).
        destruct (Gs _ _ _ O1 E4 F S3) as (d' & Gd' & Gm'). rewrite Y1 in Gd'.
        exists (Z.max d d'). split; [apply mb_more; assumption|lia].
    - change (tidy_stmts true (SReturn e)) with (tidy true e) in T. cbn [loops_stmts] in Hk.
      destruct (gives_start L N _ _ _ _ e (G e T)) as [De Ge]. cbn [compile_method_body].
      change (compile_expression c e) with (start e ;; compile_body c e).
      split; [apply done_quiet; [|seq]; apply done_then; [apply De|seq]|].
      intros x v x' H E F Sm. apply andthen_inv in E. destruct E as (v1 & y & v2 & E1 & E2 & ->).
      apply andthen_inv in E1. destruct E1 as (v3 & y3 & v4 & E3 & E4 & ->).
      destruct (part L N _ _ _ _ H De E3) as (O1 & Y1 & F1 & N1).
      apply (emit_then _ _ _ _ _ N1) in E4. destruct E4 as [-> ->].
      unfold sub in E2. injection E2 as <- <-. cbn [vapp v_is v_max app v_net] in *. rewrite app_nil_r in *.
      destruct (small_app N _ _ Sm) as [S1 _].
      destruct (Ge _ _ _ H E3 F S1) as (Gn & d & Gd & Gm).
      exists d. split; [constructor; auto|lia].
  Qed.

  Section Run.
    Variable W : Type.
    Variable sys : system W.
    Hypothesis Snd : sound sys.
    Variable limit : Z.
    Variable code : list (Z * Z).
    Hypothesis Hcode : Z.of_nat (List.length code) < 2 ^ 23.
    Hypothesis HL : Z.of_nat (List.length L) < 2 ^ 16.
    Hypothesis Hiv : Z.of_nat (List.length (c_ivars c)) < 2 ^ 16.

    Local Notation at_ := (at_ code).
    Local Notation star := (star W sys L limit code).
    Local Notation goes := (goes W sys L limit code).

    Definition ends (s : mst W) (r : result W (option value)) : Prop :=
      match r with
      | Answer a w => goes s (Done a w)
      | Gone => goes s Left
      | Val _ _ _ => False
      | Error | NoEnd => True
      end.

    Lemma run_method_body n l last ss is d : MB l last ss is d -> forall p v sl w, wf l -> env_ok N l v sl ->
      at_ p is -> d <= limit -> ends (Mst p [] sl w) (body sys c n last ss v w).
    Proof.
      assert (HN' : Z.of_nat N < 2 ^ 16) by (change (2 ^ 16) with 65536; lia).
      destruct (ok W sys Snd c L limit code N Hcode HL Hiv HN' n) as (He & _).
      assert (Ex : forall l e is d p v sl w, CE c L N l e is d -> wf l -> env_ok N l v sl -> at_ p is -> d <= limit ->
        fin W sys L limit code N (Mst p [] sl w) l v (p + Z.to_nat (size is)) (one []) (eval sys c n e v w)).
      { intros. eapply He; eauto. pose proof (size_pos is0). lia. }
      induction 1 as [e is d Ce|e is d El Ce|e is d El Ce|e ss is js d ds Ns Ce _ IH]; intros p v sl w Wf En A R.
      - destruct (at_app c L code N _ _ _ A) as [A1 A2]. specialize (Ex _ _ _ _ _ _ _ w Ce Wf En A1 R).
        change (body sys c n last (SReturn e) v w) with (use (B := option value) (eval sys c n e v w) (fun a _ w => Answer a w)).
        destruct (eval sys c n e v w) as [o v' w'|a w'| | |]; cbn [use bind] in *; cbn [fin] in Ex; auto.
        destruct Ex as (stk & sl' & T & (x & -> & Hx) & _). destruct o as [a|]; [|exact I].
        cbn [ends]. exists (Mst (p + Z.to_nat (size is)) [x] sl' w'). split; [exact T|].
        rewrite (step_at W sys L limit code _ _ _ _ _ _ _ A2) by (try discriminate; lia).
        rewrite (Hx a eq_refl). reflexivity.
      - destruct (at_app c L code N _ _ _ A) as [A1 A2]. specialize (Ex _ _ _ _ _ _ _ w Ce Wf En A1 R). subst last.
        change (body sys c n true (SExpr e SNil) v w) with (use (B := option value) (eval sys c n e v w) (fun a _ w => Answer a w)).
        destruct (eval sys c n e v w) as [o v' w'|a w'| | |]; cbn [use bind] in *; cbn [fin] in Ex; auto.
        destruct Ex as (stk & sl' & T & (x & -> & Hx) & _). destruct o as [a|]; [|exact I].
        cbn [ends]. exists (Mst (p + Z.to_nat (size is)) [x] sl' w'). split; [exact T|].
        rewrite (step_at W sys L limit code _ _ _ _ _ _ _ A2) by (try discriminate; lia).
        rewrite (Hx a eq_refl). reflexivity.
      - destruct (at_app c L code N _ _ _ A) as [A1 A2]. specialize (Ex _ _ _ _ _ _ _ w Ce Wf En A1 ltac:(lia)). subst last.
        change (body sys c n false (SExpr e SNil) v w) with (next (B := option value) (eval sys c n e v w) (fun _ w => Answer (receiver sys) w)).
        destruct (eval sys c n e v w) as [o v' w'|a w'| | |]; cbn [next bind] in *; cbn [fin] in Ex; auto.
        destruct Ex as (stk & sl' & T & (x & -> & Hx) & _).
        pose proof (at_cons c L code N _ _ _ _ A2) as A3. pose proof (at_cons c L code N _ _ _ _ A3) as A4.
        cbn [ends]. eexists. split.
        + eapply star_trans; [exact T|]. eapply star_step.
          { rewrite (step_at W sys L limit code _ _ _ _ _ _ _ A2) by (try discriminate; lia).
            apply ex_pop. }
          eapply star_step.
          { rewrite (step_at W sys L limit code _ _ _ _ _ _ _ A3) by (try discriminate; lia).
            apply (push_ok W c L limit code N (receiver sys)). cbn [stack List.length]. lia. }
          apply star_refl.
        + cbn. rewrite (step_at W sys L limit code _ _ _ _ _ _ _ A4) by (try discriminate; lia). reflexivity.
      - destruct (at_app c L code N _ _ _ A) as [A1 A2]. specialize (Ex _ _ _ _ _ _ _ w Ce Wf En A1 ltac:(lia)).
        replace (body sys c n last (SExpr e ss) v w) with (next (eval sys c n e v w) (fun v w => body sys c n last ss v w))
          by (destruct ss; [congruence|reflexivity..]).
        destruct (eval sys c n e v w) as [o v' w'|a w'| | |]; cbn [next bind] in *; cbn [fin] in Ex; auto.
        destruct Ex as (stk & sl' & T & (x & -> & Hx) & En' & _).
        pose proof (at_cons c L code N _ _ _ _ A2) as A3.
        specialize (IH _ v' sl' w' Wf En' A3 ltac:(lia)).
        assert (T' : star (Mst p [] sl w) (Mst (p + Z.to_nat (size is) + nx bc_pop 0) [] sl' w')).
        { eapply star_trans; [exact T|]. eapply star_step; [|apply star_refl].
          rewrite (step_at W sys L limit code _ _ _ _ _ _ _ A2) by (try discriminate; lia). apply ex_pop. }
        unfold ends in *. destruct (body sys c n last ss v' w'); auto; eapply star_goes; eassumption.
    Qed.
  End Run.
End Method.

(** * A method does what its source says *)

Lemma small_method cm : no_edge (cm_is cm) -> Z.of_nat (List.length (flat (cm_is cm))) < 2 ^ 22 -> small (cm_is cm).
Proof. intros H1 H2. split; assumption. Qed.

Theorem method_runs W (sys : system W) c m last prompt cm args limit n w :
  sound sys -> compile_method c m last prompt = Ok cm -> tidy_stmts true (m_body m) = true ->
  fits cm c m -> no_edge (cm_is cm) -> cm_max cm + loops_stmts (m_body m) + 1 <= limit ->
  match means sys c n last m args w with
  | Answer a w' => exists fuel, run_method sys limit cm fuel args w = Done a w'
  | Gone => exists fuel, run_method sys limit cm fuel args w = Left
  | Val _ _ _ => False
  | Error | NoEnd => True
  end.
Proof.
  intros Snd E T Ft Ed R. unfold means. destruct (Nat.eqb (List.length args) (List.length (m_params m))) eqn:La; [|exact I].
  apply Nat.eqb_eq in La.
  unfold compile_method in E.
  remember (if m_line m >? 65535 then 65535 else m_line m) as ln eqn:Eln.
  assert (Hln : ln <= 65535) by (subst ln; destruct (m_line m >? 65535) eqn:?; lia). clear Eln.
  destruct (ln >? 0) eqn:Pl; [|discriminate]. cbn [negb] in E.
  remember (negb prompt && match m_body m with SNil => false | _ => true end) as ab eqn:Eab.
  destruct (declare_names (m_params m) true 0 []) as [l1|] eqn:D1; [|discriminate].
  destruct (declare_names (m_temps m) false (List.length (m_params m)) l1) as [l2|] eqn:D2; [|discriminate].
  apply declare_numbered in D1. apply declare_numbered in D2. rewrite app_nil_r in D1. subst l1.
  rewrite <- rev_app_distr in D2.
  destruct Ft as (Fp & Ftm & Fc & Fl & Fi).
  remember (Cst [] l2 (List.length (m_params m)) (List.length (m_temps m)) (if ab then ln else 0) (-1) (ln - 1)) as s0 eqn:Es0.
  assert (Sl : map slot_of l2 = rev (seq 0 (List.length (m_params m) + List.length (m_temps m)))).
  { rewrite D2, map_rev, map_app, !numbered_slots, seq_app. reflexivity. }
  assert (O0 : st_ok s0).
  { subst s0. split; [left; reflexivity|]. split; [cbn; lia|]. cbn [s_syms s_args s_temps].
    rewrite Forall_forall. intros y Hy. apply (in_map slot_of) in Hy. rewrite Sl in Hy.
    apply in_rev in Hy. apply in_seq in Hy. lia. }
  assert (Wf : wf l2).
  { unfold wf. change slot with slot_of. rewrite Sl. apply NoDup_rev, seq_NoDup. }
  unfold obind in E.
  match type of E with match ?x with _ => _ end = _ => destruct x as [[v s1]| | | |] eqn:Ec; try discriminate end.
  cbn [fst snd] in E. destruct (v_low v <? 0) eqn:Low; [discriminate|]. injection E as <-.
  cbn [cm_temps cm_lits cm_is cm_max] in *.
  apply andthen_inv in Ec. destruct Ec as (v1 & y & v2 & E1 & E2 & Ev). injection E1 as <- <-.
  assert (Bd : s_next s1 = -1 /\ st same s0 s1 /\
      (m_body m = SNil /\ v_is v2 = [(if last then bc_push_special else bc_push_self, 0); (bc_return, 0)]
       \/ m_body m <> SNil /\
          forall L N, Z.of_nat N < 256 -> final L N s1 -> small (v_is v2) ->
          exists d, MB c L N (s_syms s0) last (m_body m) (v_is v2) d /\ d <= v_max v2 + loops_stmts (m_body m) + 1)).
  { destruct (m_body m) as [|e ss|e] eqn:Eb.
    - assert (N0 : s_next s0 = -1) by (subst s0; reflexivity).
      unfold andthen, obind in E2. rewrite (emit_now _ _ _ N0) in E2. cbn [fst snd] in E2.
      rewrite (emit_now _ _ _ N0) in E2. cbn [fst snd] in E2. injection E2 as <- <-.
      split; [exact N0|]. split; [apply st_refl, O0|]. left. split; [reflexivity|]. reflexivity.
    - destruct (gen_method c [] 0 ltac:(reflexivity) last (SExpr e ss) _ T ltac:(discriminate) (Z.le_refl _)) as [[D D'] _].
      split; [eapply D', E2|]. split; [eapply D; [exact O0|exact E2]|]. right. split; [discriminate|].
      intros L N HN F Sm.
      destruct (gen_method c L N HN last (SExpr e ss) _ T ltac:(discriminate) (Z.le_refl _)) as [_ G].
      destruct (G _ _ _ O0 E2 F Sm) as (d & G1 & G2). exists d. split; [exact G1|lia].
    - destruct (gen_method c [] 0 ltac:(reflexivity) last (SReturn e) _ T ltac:(discriminate) (Z.le_refl _)) as [[D D'] _].
      split; [eapply D', E2|]. split; [eapply D; [exact O0|exact E2]|]. right. split; [discriminate|].
      intros L N HN F Sm.
      destruct (gen_method c L N HN last (SReturn e) _ T ltac:(discriminate) (Z.le_refl _)) as [_ G].
      destruct (G _ _ _ O0 E2 F Sm) as (d & G1 & G2). exists d. split; [exact G1|lia]. }
  destruct Bd as (_ & St & Bd).
  destruct St as (_ & _ & Sa & Stm & _ & _).
  assert (Ha : s_args s0 = List.length (m_params m)) by (subst s0; reflexivity).
  assert (Hm : s_temps s0 = List.length (m_temps m)) by (subst s0; reflexivity).
  assert (Hs : s_syms s0 = l2) by (subst s0; reflexivity).
  clear Es0. remember (List.length (m_params m) + s_temps s1)%nat as N eqn:EN.
  assert (HN : Z.of_nat N < 256) by lia.
  assert (Ft2 : h_temps (make_header (Z.of_nat (s_args s1)) (Z.of_nat (s_temps s1)) (v_max v)) = Z.of_nat (s_temps s1)).
  { cbn [make_header h_temps]. apply Z.mod_small. lia. }
  remember (args ++ repeat VNil (s_temps s1)) as sl eqn:Esl.
  assert (En : env_ok N l2 (rev (combine (m_params m) args ++ map (fun x : string => (x, VNil)) (m_temps m))) sl).
  { split; [subst sl; rewrite app_length, repeat_length; lia|].
    rewrite D2. apply Forall2_rev_, Forall2_app_.
    - subst sl. exact (numbered_holds (m_params m) true [] args _ La).
    - rewrite combine_nil. rewrite <- La.
      replace sl with (args ++ repeat VNil (List.length (m_temps m)) ++ repeat VNil (s_temps s1 - List.length (m_temps m))).
      + apply numbered_holds. apply repeat_length.
      + subst sl. rewrite <- repeat_app. do 2 f_equal. lia. }
  remember (flat (v_is v)) as code eqn:Ecode.
  assert (Act : activate (make_header (Z.of_nat (s_args s1)) (Z.of_nat (s_temps s1)) (v_max v)) args w = Mst 0 [] sl w).
  { unfold activate. rewrite Ft2, Nat2Z.id, Esl. reflexivity. }
  assert (Hcode : Z.of_nat (List.length code) < 2 ^ 23) by (change (2 ^ 23) with (2 * 2 ^ 22); lia).
  assert (A : at_ code 0 (v_is v)).
  { exists [], []. split; [rewrite app_nil_r; exact Ecode|reflexivity]. }
  assert (Vis : exists pre, v_is v = pre ++ v_is v2 /\ v_max v2 <= v_max v /\ 0 <= v_max v
      /\ exists q, star W sys (s_lits s1) limit code (Mst 0 [] sl w) (Mst q [] sl w) /\ at_ code q (v_is v2)).
  { subst v. destruct ab; cbn [vapp v_is v_net v_max vec0] in *.
    - exists [(bc_line, ln)]. split; [reflexivity|]. split; [lia|]. split; [lia|].
      exists (0 + nx bc_line ln)%nat. split; [|exact (at_cons c [] code N _ _ _ _ A)].
      eapply star_step; [|apply star_refl].
      cbn [app] in A. rewrite (step_at W sys (s_lits s1) limit code _ _ _ _ _ _ _ A) by (try discriminate; change (2 ^ 31) with 2147483648; lia).
      reflexivity.
    - exists []. split; [reflexivity|]. split; [lia|]. split; [lia|]. exists 0%nat. split; [apply star_refl|exact A]. }
  destruct Vis as (pre & Vi & Vm & Vp & q & Sq & Aq).
  unfold run_method. cbn [cm_lits cm_is cm_header]. rewrite Act, <- Ecode.
  destruct Bd as [[Eb Vb]|[Eb Bd]].
  - rewrite Eb in *. cbn [loops_stmts] in R. rewrite Vb in Aq.
    pose proof (at_cons c [] code N _ _ _ _ Aq) as A2.
    assert (B : body sys c n last SNil (rev (combine (m_params m) args ++ map (fun x => (x, VNil)) (m_temps m))) w
      = Answer (if last then VNil else receiver sys) w) by reflexivity.
    rewrite B. clear B Vb.
    destruct last; (eapply run_star; [eapply star_trans; [exact Sq|eapply star_step; [|apply star_refl]]| |discriminate]).
    + rewrite (step_at W sys (s_lits s1) limit code _ _ _ _ _ _ _ Aq) by (try discriminate; lia).
      apply (push_ok W c [] limit code N VNil). cbn [stack List.length]; lia.
    + cbn [ip stack slots world]. rewrite (step_at W sys (s_lits s1) limit code _ _ _ _ _ _ _ A2) by (try discriminate; lia). reflexivity.
    + rewrite (step_at W sys (s_lits s1) limit code _ _ _ _ _ _ _ Aq) by (try discriminate; lia).
      apply (push_ok W c [] limit code N (receiver sys)). cbn [stack List.length]; lia.
    + cbn [ip stack slots world]. rewrite (step_at W sys (s_lits s1) limit code _ _ _ _ _ _ _ A2) by (try discriminate; lia). reflexivity.
  - destruct (Bd (s_lits s1) N HN) as (d & Md & Dd).
    + split; [apply ext_refl|lia].
    + split; [|unfold size; rewrite Ecode, Vi, flat_app, app_length in Fc; lia].
      intros b a Hx. apply Ed. rewrite Vi. apply in_or_app. auto.
    + rewrite Hs in Md.
      pose proof (run_method_body c (s_lits s1) N HN W sys Snd limit code Hcode Fl Fi n _ _ _ _ _ Md q _ sl w Wf En Aq ltac:(lia)) as Hend.
      unfold ends in Hend. destruct (body sys c n last (m_body m) _ w); auto; destruct Hend as (s' & S1 & S2);
        (eapply run_star; [eapply star_trans; [exact Sq|exact S1]|exact S2|discriminate]).
Qed.

(** * The header *)

Lemma method_header c m last prompt cm : compile_method c m last prompt = Ok cm ->
  tidy_stmts true (m_body m) = true ->
  cm_header cm = make_header (Z.of_nat (List.length (m_params m))) (Z.of_nat (cm_temps cm)) (cm_max cm).
Proof.
  intros E T. unfold compile_method in E.
  remember (if m_line m >? 65535 then 65535 else m_line m) as ln eqn:Eln. clear Eln.
  destruct (ln >? 0) eqn:Pl; [|discriminate]. cbn [negb] in E.
  remember (negb prompt && match m_body m with SNil => false | _ => true end) as ab eqn:Eab.
  destruct (declare_names (m_params m) true 0 []) as [l1|] eqn:D1; [|discriminate].
  destruct (declare_names (m_temps m) false (List.length (m_params m)) l1) as [l2|] eqn:D2; [|discriminate].
  apply declare_numbered in D1. apply declare_numbered in D2. rewrite app_nil_r in D1. subst l1.
  rewrite <- rev_app_distr in D2.
  remember (Cst [] l2 (List.length (m_params m)) (List.length (m_temps m)) (if ab then ln else 0) (-1) (ln - 1)) as s0 eqn:Es0.
  assert (Sl : map slot_of l2 = rev (seq 0 (List.length (m_params m) + List.length (m_temps m)))).
  { rewrite D2, map_rev, map_app, !numbered_slots, seq_app. reflexivity. }
  assert (O0 : st_ok s0).
  { subst s0. split; [left; reflexivity|]. split; [cbn; lia|]. cbn [s_syms s_args s_temps].
    rewrite Forall_forall. intros y Hy. apply (in_map slot_of) in Hy. rewrite Sl in Hy.
    apply in_rev in Hy. apply in_seq in Hy. lia. }
  unfold obind in E.
  match type of E with match ?x with _ => _ end = _ => destruct x as [[v s1]| | | |] eqn:Ec; try discriminate end.
  cbn [fst snd] in E. destruct (v_low v <? 0) eqn:Low; [discriminate|]. injection E as <-.
  cbn [cm_temps cm_lits cm_is cm_max cm_header] in *.
  apply andthen_inv in Ec. destruct Ec as (v1 & y & v2 & E1 & E2 & Ev). injection E1 as <- <-.
  assert (Sa : s_args s1 = s_args s0).
  { destruct (m_body m) as [|e ss|e] eqn:Eb.
    - assert (N0 : s_next s0 = -1) by (subst s0; reflexivity).
      unfold andthen, obind in E2. rewrite (emit_now _ _ _ N0) in E2. cbn [fst snd] in E2.
      rewrite (emit_now _ _ _ N0) in E2. cbn [fst snd] in E2. injection E2 as <- <-. reflexivity.
    - destruct (gen_method c [] 0 ltac:(reflexivity) last (SExpr e ss) _ T ltac:(discriminate) (Z.le_refl _)) as [[D _] _].
      apply (D _ _ _ O0 E2).
    - destruct (gen_method c [] 0 ltac:(reflexivity) last (SReturn e) _ T ltac:(discriminate) (Z.le_refl _)) as [[D _] _].
      apply (D _ _ _ O0 E2). }
  rewrite Sa, Es0. reflexivity.
Qed.

(** the depth of the stack is not negative *)
Lemma method_max c m last prompt cm : compile_method c m last prompt = Ok cm -> 0 <= cm_max cm.
Proof.
  intros E. unfold compile_method in E.
  destruct (_ >? 0); [|discriminate]. cbn [negb] in E.
  destruct (declare_names (m_params m) true 0 []) as [l1|]; [|discriminate].
  destruct (declare_names (m_temps m) false (List.length (m_params m)) l1) as [l2|]; [|discriminate].
  unfold obind in E.
  match type of E with match ?x with _ => _ end = _ => destruct x as [[v s1]| | | |] eqn:Ec; try discriminate end.
  cbn [fst snd] in E. destruct (v_low v <? 0) eqn:Low; [discriminate|]. injection E as <-. cbn [cm_max].
  apply andthen_inv in Ec. destruct Ec as (v1 & y & v2 & E1 & E2 & ->). injection E1 as <- <-.
  cbn [vapp v_max]. destruct (negb prompt && _); cbn [v_max vec0]; lia.
Qed.

(** * What runs to an end has only that end *)

Lemma run_once W (sys : system W) L limit code n k s d d' :
  run sys L limit code n s = d -> (forall x, d <> Next x) ->
  run sys L limit code k s = d' -> (forall x, d' <> Next x) -> d = d'.
Proof.
  revert k s. induction n as [|n IH]; intros k s H1 N1 H2 N2; cbn in H1; [exfalso; eapply N1; eauto|].
  destruct k as [|k]; cbn in H2; [exfalso; eapply N2; eauto|].
  destruct (step sys L limit code s); try congruence. eapply IH; eauto.
Qed.

Theorem method_stack W (sys : system W) c m last prompt cm args n w :
  sound sys -> compile_method c m last prompt = Ok cm -> tidy_stmts true (m_body m) = true ->
  fits cm c m -> no_edge (cm_is cm) -> shallow cm m ->
  match means sys c n last m args w with
  | Answer _ _ | Gone => forall fuel, run_method sys (room (cm_header cm)) cm fuel args w <> Overflow
  | _ => True
  end.
Proof.
  intros Snd E T Ft Ed (Sh1 & Sh2).
  assert (Hd := method_header _ _ _ _ _ E T).
  assert (R : cm_max cm + loops_stmts (m_body m) + 1 <= room (cm_header cm)).
  { destruct Ft as (F1 & F2 & _). rewrite Hd. unfold room, make_header. cbn [h_args h_temps h_depth].
    rewrite !(Z.mod_small (Z.of_nat _)) by lia. rewrite Z.shiftr_div_pow2 by lia. change (2 ^ 2) with 4.
    assert (P : 0 <= cm_max cm) by (eapply method_max; eassumption).
    rewrite Z.mod_small; [|split; [|]; [apply Z.add_nonneg_nonneg; [apply Z.div_pos; lia|lia]|]].
    - pose proof (Z.mod_pos_bound (cm_max cm + Z.of_nat (List.length (m_params m)) + Z.of_nat (cm_temps cm) + 3) 4 ltac:(lia)).
      pose proof (Z.div_mod (cm_max cm + Z.of_nat (List.length (m_params m)) + Z.of_nat (cm_temps cm) + 3) 4 ltac:(lia)). lia.
    - assert ((cm_max cm + Z.of_nat (List.length (m_params m)) + Z.of_nat (cm_temps cm) + 3) / 4 < 63) by (apply Z.div_lt_upper_bound; lia). lia. }
  pose proof (method_runs W sys c m last prompt cm args _ n w Snd E T Ft Ed R) as G.
  destruct (means sys c n last m args w); auto; destruct G as [k G]; intros fuel O;
    (pose proof (run_once _ _ _ _ _ _ _ _ _ _ G ltac:(discriminate) O ltac:(discriminate)) as X; discriminate X).
Qed.
