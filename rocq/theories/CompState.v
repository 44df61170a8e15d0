(** What the compiler does to its own state: literals are only added, the
    variables in scope stay, slots are taken anew, and after each construct no
    line number waits to be emitted. *)
From Coq Require Import ZArith Lia List Bool Ascii String.
From Coq Require Import ZifyBool ZifyNat.
From Verif Require Import Base Bc BcProofs Comp CompSpec CompCode.
Import ListNotations.
Local Open Scope string_scope.
Local Open Scope list_scope.
Local Open Scope Z_scope.

Scheme expr_mut := Induction for expr Sort Prop
with exprs_mut := Induction for exprs Sort Prop
with msgs_mut := Induction for msgs Sort Prop
with stmts_mut := Induction for stmts Sort Prop.
Combined Scheme syntax_ind from expr_mut, exprs_mut, msgs_mut, stmts_mut.

Lemma andthen_inv a b s v s' : (a ;; b) s = Ok (v, s') ->
  exists v1 s1 v2, a s = Ok (v1, s1) /\ b s1 = Ok (v2, s') /\ v = vapp v1 v2.
Proof.
  unfold andthen, obind. destruct (a s) as [[v1 s1]| | | |]; try discriminate. cbn [fst snd].
  destruct (b s1) as [[v2 s2]| | | |] eqn:E; try discriminate. cbn [fst snd]. intros [= <- <-].
  exists v1, s1, v2. auto.
Qed.
Lemma apart_inv m k s v s' : apart m k s = Ok (v, s') ->
  exists v1 s1, m s = Ok (v1, s1) /\ 0 <= v_low v1 /\ k v1 s1 = Ok (v, s').
Proof.
  unfold apart, obind. destruct (m s) as [[v1 s1]| | | |]; try discriminate. cbn [fst snd].
  destruct (v_low v1 <? 0) eqn:E; [discriminate|]. intros H. exists v1, s1. split; [reflexivity|].
  split; [lia|exact H].
Qed.
Lemma lengths_inv r k s v s' : lengths r k s = Ok (v, s') ->
  exists a b, r = Ok (a, b) /\ k a b s = Ok (v, s').
Proof.
  unfold lengths, obind. destruct r as [[a b]| | | |]; try discriminate. eauto.
Qed.

Definition ext (a b : list lit) : Prop := exists x, b = a ++ x.
Lemma ext_refl a : ext a a.
Proof. exists []. rewrite app_nil_r. reflexivity. Qed.
Lemma ext_trans a b d : ext a b -> ext b d -> ext a d.
Proof. intros [x ->] [y ->]. exists (x ++ y). rewrite app_assoc. reflexivity. Qed.

Definition slot_of (y : string * nat * bool) : nat := snd (fst y).
Definition st_ok (s : cst) : Prop :=
  (s_next s = -1 \/ 0 <= s_next s < 2 ^ 31) /\ 0 <= s_offset s
  /\ Forall (fun y => (slot_of y < s_args s + s_temps s)%nat) (s_syms s).

Definition st (f : syms -> syms) (s s' : cst) : Prop :=
  ext (s_lits s) (s_lits s') /\ s_syms s' = f (s_syms s) /\ s_args s' = s_args s
  /\ (s_temps s <= s_temps s')%nat /\ s_offset s' = s_offset s /\ st_ok s'.

Definition good f (m : comp) : Prop :=
  forall s v s', st_ok s -> m s = Ok (v, s') -> st f s s'.
Definition quiet f (m : comp) : Prop :=
  good f m /\ forall s v s', m s = Ok (v, s') -> s_next s = -1 -> s_next s' = -1.
Definition done f (m : comp) : Prop :=
  good f m /\ forall s v s', m s = Ok (v, s') -> s_next s' = -1.
Definition same (l : syms) : syms := l.

Lemma st_refl s : st_ok s -> st same s s.
Proof. intros H. repeat split; try apply H; auto using ext_refl. Qed.
Lemma st_then f a b d : st same a b -> st f b d -> st f a d.
Proof.
  intros (A1 & A2 & A3 & A4 & A5 & A6) (B1 & B2 & B3 & B4 & B5 & B6).
  repeat split; try apply B6; try lia; try congruence.
  - eapply ext_trans; eassumption.
  - rewrite B2, A2. reflexivity.
Qed.

Lemma good_then f a b : good same a -> good f b -> good f (a ;; b).
Proof.
  intros A B s v s' H E. apply andthen_inv in E. destruct E as (v1 & s1 & v2 & E1 & E2 & _).
  pose proof (A _ _ _ H E1) as H1. eapply st_then; [exact H1|]. eapply B; [apply H1|exact E2].
Qed.
Lemma done_then f a b : good same a -> done f b -> done f (a ;; b).
Proof.
  intros A [B B']. split; [apply good_then; assumption|].
  intros s v s' E. apply andthen_inv in E. destruct E as (v1 & s1 & v2 & E1 & E2 & _). eauto.
Qed.
Lemma done_quiet f a b : done same a -> quiet f b -> done f (a ;; b).
Proof.
  intros [A A'] [B B']. split; [apply good_then; assumption|].
  intros s v s' E. apply andthen_inv in E. destruct E as (v1 & s1 & v2 & E1 & E2 & _). eauto.
Qed.
Lemma quiet_then f a b : quiet same a -> quiet f b -> quiet f (a ;; b).
Proof.
  intros [A A'] [B B']. split; [apply good_then; assumption|].
  intros s v s' E. apply andthen_inv in E. destruct E as (v1 & s1 & v2 & E1 & E2 & _). eauto.
Qed.
Lemma done_is_quiet f a : done f a -> quiet f a.
Proof. intros [A B]. split; [exact A|]. eauto. Qed.
Lemma done_good f a : done f a -> good f a.
Proof. intros [A _]. exact A. Qed.
Lemma quiet_good f a : quiet f a -> good f a.
Proof. intros [A _]. exact A. Qed.

Lemma quiet_pure v : quiet same (fun s => Ok (v, s)).
Proof.
  split.
  - intros s v' s' H [= <- <-]. apply st_refl, H.
  - intros s v' s' [= <- <-]. auto.
Qed.
Lemma quiet_skip : quiet same skip. Proof. apply quiet_pure. Qed.
Lemma quiet_incr : quiet same incr. Proof. apply quiet_pure. Qed.
Lemma quiet_sub n : quiet same (sub n). Proof. apply quiet_pure. Qed.
Lemma quiet_splice v : quiet same (splice v). Proof. apply quiet_pure. Qed.
Lemma done_refuse f : done f refuse.
Proof. split; intros s v s'; discriminate. Qed.
Lemma done_emit b a : done same (emit b a).
Proof.
  split.
  - intros s v s' H E. unfold emit in E. destruct (s_next s =? -1).
    + injection E as <- <-. apply st_refl, H.
    + injection E as <- <-. destruct H as (H1 & H2 & H3).
      repeat split; cbn; auto using ext_refl.
  - intros s v s' E. unfold emit in E. destruct (s_next s =? -1) eqn:En.
    + injection E as <- <-. lia.
    + injection E as <- <-. reflexivity.
Qed.
Lemma good_line n : good same (line n).
Proof.
  intros s v s' H E. unfold line in E. destruct H as (H1 & H2 & H3).
  set (m := if n >? 65535 then 65535 else n) in *.
  assert (m <= 65535) by (subst m; destruct (n >? 65535) eqn:?; lia).
  destruct (m =? -1).
  { injection E as <- <-. repeat split; cbn; auto using ext_refl. }
  destruct (m >? s_offset s) eqn:Em; [|discriminate].
  destruct (negb (m =? s_prev s)); injection E as <- <-; repeat split; cbn; auto using ext_refl.
  right. change (2 ^ 31) with 2147483648. lia.
Qed.
Lemma done_jump n b : done same (compile_jump n b).
Proof.
  unfold compile_jump. destruct (n <=? 0); [apply done_refuse|].
  apply done_then; [apply quiet_good, quiet_sub|apply done_emit].
Qed.
Lemma done_apart f m k : good same m -> (forall v, done f (k v)) -> done f (apart m k).
Proof.
  intros A B. split.
  - intros s v s' H E. apply apart_inv in E. destruct E as (v1 & s1 & E1 & _ & E2).
    pose proof (A _ _ _ H E1) as H1. eapply st_then; [exact H1|]. eapply B; [apply H1|exact E2].
  - intros s v s' E. apply apart_inv in E. destruct E as (v1 & s1 & E1 & _ & E2). eapply B, E2.
Qed.
Lemma done_lengths f r k : (forall a b, done f (k a b)) -> done f (lengths r k).
Proof.
  intros B. split.
  - intros s v s' H E. apply lengths_inv in E. destruct E as (a & b & _ & E). eapply B; eauto.
  - intros s v s' E. apply lengths_inv in E. destruct E as (a & b & _ & E). eapply B, E.
Qed.
Lemma st_lits s l : st_ok s -> st same s (with_lits s (s_lits s ++ [l])).
Proof. intros (H1 & H2 & H3). repeat split; cbn; auto. exists [l]. reflexivity. Qed.
Lemma done_literal l k : (forall i, done same (k i)) -> done same (add_literal l k).
Proof.
  intros B. split.
  - intros s v s' H E. unfold add_literal in E. destruct (lit_index l (s_lits s)) as [i|].
    + eapply B; eauto.
    + pose proof (st_lits s l H) as H1. eapply st_then; [exact H1|]. eapply B; [apply H1|exact E].
  - intros s v s' E. unfold add_literal in E. destruct (lit_index l (s_lits s)) as [i|]; eapply B, E.
Qed.
Lemma done_fun f (m : cst -> comp) : (forall s, done f (m s)) -> done f (fun s => m s s).
Proof.
  intros H. split.
  - intros s v s' O E. eapply (H s); eauto.
  - intros s v s' E. eapply (H s); eauto.
Qed.

Ltac seq :=
  repeat first
    [ assumption
    | apply quiet_skip | apply quiet_incr | apply quiet_sub | apply quiet_splice
    | apply done_emit | apply done_jump | apply done_refuse | apply good_line
    | apply done_literal; intros | apply done_lengths; intros | apply done_apart; [|intros]
    | match goal with
      | |- done _ (_ ;; emit _ _) => apply done_then; [|apply done_emit]
      | |- done _ (_ ;; incr) => apply done_quiet; [|apply quiet_incr]
      | |- done _ (_ ;; sub _) => apply done_quiet; [|apply quiet_sub]
      | |- done _ (_ ;; skip) => apply done_quiet; [|apply quiet_skip]
      | |- done _ (_ ;; splice _) => apply done_quiet; [|apply quiet_splice]
      | |- done _ (_ ;; apart _ _) => apply done_then
      | |- done _ (_ ;; lengths _ _) => apply done_then
      | |- done _ (_ ;; add_literal _ _) => apply done_then
      | |- good _ (_ ;; _) => apply good_then
      | |- good _ (emit _ _) => apply done_good
      | |- good _ incr => apply quiet_good
      | |- good _ skip => apply quiet_good
      | |- good _ (sub _) => apply quiet_good
      | |- good _ (splice _) => apply quiet_good
      | |- good _ (compile_jump _ _) => apply done_good
      | |- good _ (apart _ _) => apply done_good
      | |- good _ (lengths _ _) => apply done_good
      | H : done _ ?m |- good _ ?m => apply done_good
      | H : quiet _ ?m |- good _ ?m => apply quiet_good
      end ].

Lemma done_variable c x : done same (compile_variable c x).
Proof.
  unfold compile_variable. apply done_then; [seq|].
  apply (done_fun same (fun s s0 => match find_variable c s x with
     | None => Err
     | Some InSelf => emit bc_push_self 0 s0
     | Some (InSpecial n) => emit bc_push_special n s0
     | Some (InTemp i _) => emit bc_push_temp (Z.of_nat i) s0
     | Some (InReceiver i) => emit bc_push_receiver_variable (Z.of_nat i) s0
     | Some (InGlobal g) => add_literal (LVar g) (emit bc_push_lit_variable) s0
     end)).
  intros s. destruct (find_variable c s x) as [[]|]; try apply done_emit.
  - apply done_literal. intros. apply done_emit.
  - apply (done_refuse same).
Qed.

Lemma done_constant l : done same (compile_constant l).
Proof.
  unfold compile_constant.
  apply (done_fun same (fun s s0 => match
    match l with
    | LInt z => if (0 <=? z) && (z <=? 0x7FFFFFFF)
                then match lit_index l (s_lits s) with None => Some z | Some _ => None end
                else None
    | _ => None
    end with
    | Some z => (incr ;; emit bc_push_integer z) s0
    | None => add_literal l (fun i => incr ;; emit bc_push_lit_constant i) s0
    end)).
  intros s. match goal with |- done _ (fun s0 => match ?x with _ => _ end) => destruct x end.
  - apply (done_then same incr (emit bc_push_integer z)); seq.
  - apply (done_literal l (fun i => incr ;; emit bc_push_lit_constant i)). intros i. seq.
Qed.

Lemma done_send c super s n : done same (compile_send c super s n).
Proof.
  unfold compile_send. apply done_quiet; [|seq]. apply done_then.
  - destruct super; [destruct (c_super c)|]; [apply done_good, done_constant|apply done_good, done_refuse|seq].
  - destruct (builtin_code s) as [b|]; [destruct (negb super && (b <? 32))|]; seq.
Qed.

Lemma quiet_assignments c ts : quiet same (compile_assignments c ts).
Proof.
  induction ts as [|[ln x] ts IH]; cbn [compile_assignments]; [apply quiet_skip|].
  apply done_is_quiet, done_quiet; [|exact IH]. apply done_then; [apply good_line|].
  apply (done_fun same (fun s s0 => match find_variable c s x with
       | None | Some InSelf | Some (InSpecial _) | Some (InTemp _ true) => Err
       | Some (InTemp i false) => emit bc_store_temp (Z.of_nat i) s0
       | Some (InReceiver i) => emit bc_store_receiver_variable (Z.of_nat i) s0
       | Some (InGlobal g) =>
         add_literal (LVar g) (fun i =>
           emit bc_store_lit_variable i ;; emit bc_pop 0 ;;
           emit bc_push_lit_variable i) s0
       end)).
  intros s. destruct (find_variable c s x) as [[ | |i [|]| | ]|]; try apply (done_refuse same); seq.
Qed.

Lemma done_while on a b : done same a -> (forall m, b = Some m -> done same m) ->
  done same (compile_while on a b).
Proof.
  intros A B. unfold compile_while. destruct b as [m|].
  - specialize (B m eq_refl). seq.
  - seq.
Qed.
Lemma done_repeat b : done same b -> done same (compile_repeat b).
Proof. intros A. unfold compile_repeat. seq. Qed.
Lemma done_times b : done same b -> done same (compile_times_repeat b).
Proof. intros A. unfold compile_times_repeat. apply done_then; seq. Qed.

Lemma st_declare s x : st_ok s ->
  st_ok (with_syms s ((x, (s_args s + s_temps s)%nat, true) :: s_syms s) (S (s_temps s))).
Proof.
  intros (H1 & H2 & H3). repeat split; auto. cbn. constructor; [unfold slot_of; cbn; lia|].
  eapply Forall_impl; [|exact H3]. cbn. intros. lia.
Qed.

Lemma quiet_undeclare : quiet (@tl _) undeclare.
Proof.
  split.
  - intros s v s' (H1 & H2 & H3) [= <- <-]. repeat split; cbn; auto using ext_refl.
    destruct (s_syms s); [exact H3|]. inversion H3; assumption.
  - intros s v s' [= <- <-]. auto.
Qed.

Lemma done_to x lim by_ b : done same lim -> (forall z m, by_ = Some (z, m) -> done same m) ->
  done same b -> done same (compile_to_by_do x lim by_ b).
Proof.
  intros A B C0. unfold compile_to_by_do.
  assert (Bm : good same (match by_ with Some (_, m) => m | None => skip end)).
  { destruct by_ as [[z m]|]; [apply done_good, (B z m eq_refl)|seq]. }
  match goal with |- done _ (declare _ _ ?k) => set (K0 := k) end.
  assert (K : forall n, done (@tl _) (K0 n)).
  { intros n. subst K0. cbv beta. apply done_then; [seq|]. apply done_apart; [exact Bm|]. intros sc. apply done_apart; [seq|].
    intros v. apply done_lengths. intros l f. apply done_quiet; [|apply quiet_undeclare].
    apply done_quiet; [|seq]. apply done_then; [|seq]. apply done_good.
    apply done_then; [|seq]. apply good_then; [|seq].
    apply good_then; [|seq]. apply good_then; [|seq].
    apply good_then; [seq|]. destruct by_ as [[z m]|]; seq. }
  clearbody K0. split.
  - intros s v s' H E. unfold declare in E. destruct (K (Z.of_nat (s_args s + s_temps s))) as [G _].
    specialize (G _ _ _ (st_declare s x H) E). destruct G as (G1 & G2 & G3 & G4 & G5 & G6).
    cbn in *. repeat split; try apply G6; auto. lia.
  - intros s v s' E. eapply K, E.
Qed.

Lemma done_over m r n : done same m -> done same (jump_over m r n).
Proof. intros H. unfold jump_over. destruct r; seq. Qed.
Lemma done_if_else t r f : done same t -> done same f -> done same (compile_if_true_false t r f).
Proof.
  intros A B. pose proof (fun n => done_over t r n A) as A'. unfold compile_if_true_false.
  apply done_apart; [seq|]. intros v. apply done_apart; [apply done_good, A'|]. intros w. seq.
Qed.
Lemma done_if o t r : done same t -> done same (compile_if o t r).
Proof.
  intros A. pose proof (done_over t r 2 A) as A'. unfold compile_if. seq.
Qed.
Lemma done_and_or o b : done same b -> done same (compile_and_or o b).
Proof. intros A. unfold compile_and_or. seq. Qed.

(** * Messages by their form *)

Definition start (e : expr) : comp :=
  match e with EAssign _ _ _ => skip | _ => line (line_of e) end.
Lemma good_start e : good same (start e).
Proof. destruct e; cbn [start]; seq. Qed.

Definition true_of (v : value) : bool := match v with VTrue => true | _ => false end.

Definition if_code c (s : string) (t f : stmts) : comp :=
  if String.eqb s "ifTrue:" then compile_if false (compile_block c t) (returns t)
  else if String.eqb s "ifFalse:" then compile_if true (compile_block c f) (returns f)
  else compile_if_true_false (compile_block c t) (returns t) (compile_block c f).

Local Opaque compile_while compile_repeat compile_times_repeat compile_to_by_do compile_if
  compile_if_true_false compile_and_or compile_send andthen line compile_constant.

Lemma body_send c ln r s args : fits_selector s args = true ->
  compile_body c (ESend ln r s args)
  = match form_of r s args with
    | FSend => start r ;; compile_body c r ;; compile_args c args
               ;; compile_send c (is_super r) s (elength args)
    | FWhile on cd b =>
      compile_while (true_of on) (compile_block c cd)
        (match args with ENil => None | _ => Some (compile_block c b) end)
    | FRepeat b => compile_repeat (compile_block c b)
    | FIf r' t f => start r' ;; compile_body c r' ;; if_code c s t f
    | FAnd r' b => start r' ;; compile_body c r' ;; compile_and_or false (compile_block c b)
    | FOr r' b => start r' ;; compile_body c r' ;; compile_and_or true (compile_block c b)
    | FTimes r' b => start r' ;; compile_body c r' ;; compile_times_repeat (compile_block c b)
    | FTo r' l z x b by_ =>
      start r' ;; compile_body c r' ;;
      compile_to_by_do x (start l ;; compile_body c l)
        (match args with
         | ECons _ (ECons (ELit ln' _) _) => Some (z, line ln' ;; compile_constant (LInt z))
         | _ => None
         end) (compile_block c b)
    end.
Proof.
  intros F. unfold fits_selector in F.
  destruct (existsb (String.eqb s)
    ["whileTrue"; "whileTrue:"; "whileFalse"; "whileFalse:"; "repeat"; "ifTrue:"; "ifFalse:";
     "ifTrue:ifFalse:"; "ifFalse:ifTrue:"; "and:"; "or:"; "timesRepeat:"; "to:do:"; "to:by:do:"]) eqn:E.
  - cbn [existsb] in E.
    assert (G : forall a, (s =? a)%string = true -> s = a) by (intros a; apply String.eqb_eq).
    repeat (apply orb_true_iff in E; destruct E as [E|E]); try discriminate; apply G in E; subst s; clear G;
      (destruct args as [|a1 [|a2 [|a3 args]]]; cbn [number] in F;
       try (vm_compute in F; discriminate F); try (destruct args; [|vm_compute in F; discriminate F]));
      clear F.
    all: unfold form_of, if_code; cbn [compile_body]; unfold inline_of;
      repeat match goal with |- context [String.eqb ?a ?b] =>
        let v := eval vm_compute in (String.eqb a b) in change (String.eqb a b) with v end; cbn [orb].
    all: fold (start r).
    all: repeat match goal with
      | |- ?x = ?x => reflexivity
      | |- context [match ?x with EVar _ _ => _ | ELit _ _ => _ | EBlock _ _ _ _ => _ | ESend _ _ _ _ => _
                    | ECascade _ _ _ => _ | EAssign _ _ _ => _ end] =>
        is_var x; destruct x as [| |? [|? [|? ?]] [|? ?] ?| | |]; try reflexivity
      | |- context [match ?x with KInt _ => _ | KSym _ => _ | KObj _ => _ end] => is_var x; destruct x; try reflexivity
      end.
  - cbn [existsb] in E.
    repeat (apply orb_false_iff in E; destruct E as [? E]).
    assert (I : inline_of s = ToNone).
    { unfold inline_of. repeat match goal with H : (s =? ?a)%string = false |- _ => rewrite H; clear H end.
      reflexivity. }
    assert (Fo : form_of r s args = FSend).
    { unfold form_of. repeat match goal with H : (s =? ?a)%string = false |- _ => rewrite H; clear H end.
      repeat match goal with |- context [match ?x with _ => _ end] => is_var x; destruct x end; reflexivity. }
    rewrite Fo. cbn [compile_body]. rewrite I. reflexivity.
Qed.

Local Transparent compile_while compile_repeat compile_times_repeat compile_to_by_do compile_if
  compile_if_true_false compile_and_or compile_send andthen line compile_constant.

(** what a form is made of *)
Lemma form_parts (PE : expr -> Prop) (PB : stmts -> Prop) (P : expr -> Prop) r s args :
  (forall e, P e -> PE e) -> (forall ln xs ts b, P (EBlock ln xs ts b) -> PB b) -> PB SNil ->
  P r -> (fix each es := match es with ENil => True | ECons e es' => P e /\ each es' end) args ->
  match form_of r s args with
  | FSend => True
  | FWhile on cd b => (on = VTrue \/ on = VFalse) /\ PB cd /\ PB b /\ (args = ENil -> b = SNil)
  | FRepeat b => PB b
  | FIf r' t f => r' = r /\ PB t /\ PB f /\ (s = "ifTrue:" -> f = SNil) /\ (s = "ifFalse:" -> t = SNil)
  | FAnd r' b | FOr r' b | FTimes r' b => r' = r /\ PB b
  | FTo r' l z x b by_ => r' = r /\ PE l /\ PB b
      /\ (match args with ECons _ (ECons (ELit _ _) _) => True | _ => z = 1 end)
  end.
Proof.
  intros H1 H2 H3 Hr Ha. unfold form_of.
  repeat match goal with
  | |- context [match ?x with _ => _ end] => is_var x; destruct x; cbn in Ha
  | |- context [if ?b then _ else _] => destruct b eqn:?
  end; cbn; try exact I;
  repeat match goal with H : _ /\ _ |- _ => destruct H end;
  repeat match goal with |- _ /\ _ => split end; intros; eauto; try congruence;
  subst; discriminate.
Qed.

Definition each (P : expr -> Prop) : exprs -> Prop :=
  fix each es := match es with ENil => True | ECons e es' => P e /\ each es' end.

Definition of_block (PB : stmts -> Prop) (e : expr) : Prop :=
  match e with EBlock _ _ _ b => PB b | _ => True end.

Lemma tidy_send b ln r s es : tidy b (ESend ln r s es)
  = fits_selector s es && tidy b r && tidy_args b es
    && match form_of r s es with FTo _ l _ x _ _ => negb b || negb (names x l) | _ => true end.
Proof. reflexivity. Qed.
Lemma tidy_cascade b ln r ms : tidy b (ECascade ln r ms)
  = tidy b r && tidy_msgs b ms
    && match ms with MCons _ _ _ (MCons _ _ _ _) => true | _ => false end
    && (negb b || negb (is_super r)).
Proof. reflexivity. Qed.
Lemma tidy_acons b e es : tidy_args b (ECons e es) = tidy b e && tidy_args b es.
Proof. reflexivity. Qed.
Lemma tidy_mcons b ln s es ms : tidy_msgs b (MCons ln s es ms)
  = fits_selector s es && tidy_args b es && tidy_msgs b ms.
Proof. reflexivity. Qed.
Lemma tidy_sexpr b e ss : tidy_stmts b (SExpr e ss) = tidy b e && tidy_stmts b ss.
Proof. reflexivity. Qed.

(** induction over the syntax, with the parts of each form at hand *)
Lemma tidy_ind_any (strict : bool) (PE : expr -> Prop) (PA : exprs -> Prop) (PM : msgs -> Prop) (PB : stmts -> Prop) :
  (forall ln x, PE (EVar ln x)) -> (forall ln k, PE (ELit ln k)) ->
  (forall ln xs ts b, PE (EBlock ln xs ts b)) ->
  (forall ln ts e, PE e -> PE (EAssign ln ts e)) ->
  (forall ln r ln' s args ms, PE r -> PA args -> fits_selector s args = true -> PM ms -> ms <> MNil ->
     (strict = true -> is_super r = false) -> PE (ECascade ln r (MCons ln' s args ms))) ->
  (forall ln r s args, fits_selector s args = true -> PE r -> PA args ->
     match form_of r s args with
     | FSend => True
     | FWhile on cd b => (on = VTrue \/ on = VFalse) /\ PB cd /\ PB b /\ (args = ENil -> b = SNil)
     | FRepeat b => PB b
     | FIf r' t f => r' = r /\ PB t /\ PB f /\ (s = "ifTrue:" -> f = SNil) /\ (s = "ifFalse:" -> t = SNil)
     | FAnd r' b | FOr r' b | FTimes r' b => r' = r /\ PB b
     | FTo r' l z x b by_ => r' = r /\ (PE l /\ (strict = true -> names x l = false)) /\ PB b
         /\ (match args with ECons _ (ECons (ELit _ _) _) => True | _ => z = 1 end)
     end -> PE (ESend ln r s args)) ->
  PA ENil -> (forall e es, PE e -> PA es -> PA (ECons e es)) ->
  PM MNil ->
  (forall ln s args ms, fits_selector s args = true -> PA args -> PM ms -> PM (MCons ln s args ms)) ->
  PB SNil -> (forall e, PE e -> PB (SReturn e)) ->
  (forall e ss, PE e -> PB ss -> PB (SExpr e ss)) ->
  (forall e, tidy strict e = true -> PE e)
  /\ (forall es, tidy_args strict es = true -> PA es)
  /\ (forall ms, tidy_msgs strict ms = true -> PM ms)
  /\ (forall ss, tidy_stmts strict ss = true -> PB ss).
Proof.
  intros Hvar Hlit Hblk Hasg Hcas Hsend Hanil Hacons Hmnil Hmcons Hbnil Hbret Hbexp.
  set (T1 := fun e => (tidy strict e = true -> PE e) /\ of_block (fun b => tidy_stmts strict b = true -> PB b) e).
  assert (G : (forall e, T1 e)
    /\ (forall es, (tidy_args strict es = true -> PA es) /\ each T1 es)
    /\ (forall ms, (tidy_msgs strict ms = true -> PM ms)
         /\ match ms with MNil => True | MCons _ s args ms' =>
              (tidy_args strict args = true -> PA args) /\ (tidy_msgs strict ms' = true -> PM ms') end)
    /\ (forall ss, tidy_stmts strict ss = true -> PB ss)).
  { apply syntax_ind; unfold T1; cbn [of_block].
    - intros. split; [intros _; apply Hvar|exact I].
    - intros. split; [intros _; apply Hlit|exact I].
    - intros ln xs ts b IH. split; [intros _; apply Hblk|exact IH].
    - intros ln r [IHr IHr'] s args [IHa IHe]. split; [|exact I]. intros T. rewrite tidy_send in T.
      apply andb_true_iff in T. destruct T as [T X4]. apply andb_true_iff in T. destruct T as [T X3].
      apply andb_true_iff in T. destruct T as [X1 X2].
      apply Hsend; auto.
      pose proof (form_parts (fun e => PE e) (fun b => PB b)
        (fun e => PE e /\ of_block PB e) r s args) as F. cbn beta in F.
      assert (Eb : forall e, T1 e -> tidy strict e = true -> PE e /\ of_block PB e).
      { intros e [A B] C0. split; [auto|]. destruct e; cbn in *; auto. }
      assert (F' := F (fun e H => proj1 H) (fun ln xs ts b H => proj2 H) Hbnil (Eb r (conj IHr IHr') X2)).
      clear F.
      assert (F : (fix each es := match es with ENil => True | ECons e es' => (PE e /\ of_block PB e) /\ each es' end) args).
      { clear - IHe X3 Eb. induction args as [|e es IH]; [exact I|]. rewrite tidy_acons in X3.
        apply andb_true_iff in X3. destruct X3 as [Y1 Y2], IHe as [Z1 Z2]. split; [apply Eb; assumption|].
        apply IH; assumption. }
      specialize (F' F).
      destruct (form_of r s args); auto.
      destruct F' as (F1 & F2 & F3 & F4). repeat split; auto.
      intros ->. cbn in X4. destruct (names x limit); [discriminate|reflexivity].
    - intros ln r [IHr _] ms [IHm IHm']. split; [|exact I]. intros T. rewrite tidy_cascade in T.
      apply andb_true_iff in T. destruct T as [T X4]. apply andb_true_iff in T. destruct T as [T X3].
      apply andb_true_iff in T. destruct T as [X1 X2].
      destruct ms as [|ln' s args ms]; [discriminate|]. rewrite tidy_mcons in X2.
      apply andb_true_iff in X2. destruct X2 as [X2 Y3]. apply andb_true_iff in X2. destruct X2 as [Y1 Y2].
      destruct IHm' as [A B]. apply Hcas; auto.
      + destruct ms; [discriminate|]. discriminate.
      + intros ->. cbn in X4. destruct (is_super r); [discriminate|reflexivity].
    - intros ln ts e [IH _]. split; [|exact I]. intros T. apply Hasg, IH, T.
    - split; [auto|exact I].
    - intros e He es [IHes IHe]. split.
      + intros T. rewrite tidy_acons in T. apply andb_true_iff in T. destruct T. apply Hacons; [apply He|apply IHes]; assumption.
      + split; assumption.
    - auto.
    - intros ln s args [IHa _] ms [IHm _]. split; [|split; assumption].
      intros T. rewrite tidy_mcons in T. apply andb_true_iff in T. destruct T as [T X3].
      apply andb_true_iff in T. destruct T as [X1 X2]. auto.
    - auto.
    - intros e [He _] ss IH T. rewrite tidy_sexpr in T. apply andb_true_iff in T. destruct T. auto.
    - intros e [He _] T. apply Hbret, He, T. }
  repeat split; apply G.
Qed.

Lemma tidy_ind (PE : expr -> Prop) (PA : exprs -> Prop) (PM : msgs -> Prop) (PB : stmts -> Prop) :
  (forall ln x, PE (EVar ln x)) -> (forall ln k, PE (ELit ln k)) ->
  (forall ln xs ts b, PE (EBlock ln xs ts b)) ->
  (forall ln ts e, PE e -> PE (EAssign ln ts e)) ->
  (forall ln r ln' s args ms, PE r -> PA args -> fits_selector s args = true -> PM ms -> ms <> MNil ->
     is_super r = false -> PE (ECascade ln r (MCons ln' s args ms))) ->
  (forall ln r s args, fits_selector s args = true -> PE r -> PA args ->
     match form_of r s args with
     | FSend => True
     | FWhile on cd b => (on = VTrue \/ on = VFalse) /\ PB cd /\ PB b /\ (args = ENil -> b = SNil)
     | FRepeat b => PB b
     | FIf r' t f => r' = r /\ PB t /\ PB f /\ (s = "ifTrue:" -> f = SNil) /\ (s = "ifFalse:" -> t = SNil)
     | FAnd r' b | FOr r' b | FTimes r' b => r' = r /\ PB b
     | FTo r' l z x b by_ => r' = r /\ (PE l /\ names x l = false) /\ PB b
         /\ (match args with ECons _ (ECons (ELit _ _) _) => True | _ => z = 1 end)
     end -> PE (ESend ln r s args)) ->
  PA ENil -> (forall e es, PE e -> PA es -> PA (ECons e es)) ->
  PM MNil ->
  (forall ln s args ms, fits_selector s args = true -> PA args -> PM ms -> PM (MCons ln s args ms)) ->
  PB SNil -> (forall e, PE e -> PB (SReturn e)) ->
  (forall e ss, PE e -> PB ss -> PB (SExpr e ss)) ->
  (forall e, tidy true e = true -> PE e)
  /\ (forall es, tidy_args true es = true -> PA es)
  /\ (forall ms, tidy_msgs true ms = true -> PM ms)
  /\ (forall ss, tidy_stmts true ss = true -> PB ss).
Proof.
  intros Hvar Hlit Hblk Hasg Hcas Hsend. apply (tidy_ind_any true); auto.
  intros ln r s args F Hr Ha H. apply Hsend; auto.
  destruct (form_of r s args); auto. destruct H as (H1 & (H2 & H3) & H4). auto.
Qed.

Lemma body_assign c ln ts e : compile_body c (EAssign ln ts e)
  = (line (line_of e) ;; compile_body c e ;; compile_assignments c ts).
Proof. reflexivity. Qed.
Lemma body_cascade c ln r ln' s args ms : compile_body c (ECascade ln r (MCons ln' s args ms))
  = (start r ;; compile_body c r ;; emit bc_dup 0 ;; incr ;;
     line ln' ;; compile_args c args ;; compile_send c (is_super r) s (elength args) ;;
     compile_cascaded c ms).
Proof. reflexivity. Qed.
Lemma args_cons c e es : compile_args c (ECons e es) = (start e ;; compile_body c e ;; compile_args c es).
Proof. reflexivity. Qed.
Lemma cascaded_cons c ln s args ms : compile_cascaded c (MCons ln s args ms)
  = (emit bc_pop 0 ;; match ms with MNil => sub 1 | _ => emit bc_dup 0 end ;;
     line ln ;; compile_args c args ;; compile_send c false s (elength args) ;;
     compile_cascaded c ms).
Proof. reflexivity. Qed.
Lemma block_expr c e ss : compile_block c (SExpr e ss)
  = (start e ;; compile_body c e ;;
     match ss with SNil => skip | _ => sub 1 ;; emit bc_pop 0 ;; compile_block c ss end).
Proof. reflexivity. Qed.
Lemma block_return c e : compile_block c (SReturn e)
  = (start e ;; compile_body c e ;; emit bc_return 0 ;; sub 1 ;; incr).
Proof. reflexivity. Qed.

Lemma all_done c :
  (forall e, tidy true e = true -> done same (compile_body c e))
  /\ (forall es, tidy_args true es = true -> quiet same (compile_args c es))
  /\ (forall ms, tidy_msgs true ms = true -> quiet same (compile_cascaded c ms))
  /\ (forall ss, tidy_stmts true ss = true -> done same (compile_block c ss)).
Proof.
  apply tidy_ind.
  - intros. apply done_variable.
  - intros. apply done_constant.
  - intros. apply done_refuse.
  - intros ln ts e H. rewrite body_assign. apply done_quiet; [|apply quiet_assignments].
    apply done_then; [apply good_line|exact H].
  - intros ln r ln' s args ms Hr Ha _ Hm _ _. rewrite body_cascade.
    apply done_quiet; [|exact Hm]. apply done_then; [|apply done_send].
    apply good_then; [|seq]. pose proof (good_start r). seq.
  - intros ln r s args F Hr Ha H. rewrite body_send by exact F.
    pose proof (good_start r) as Hs.
    destruct (form_of r s args).
    + destruct H as (_ & H1 & H2 & _). apply done_while; [exact H1|]. intros m.
      destruct args; [discriminate|]. intros [= <-]. exact H2.
    + apply done_repeat, H.
    + destruct H as (-> & H1 & H2 & _). apply done_then; [seq|]. unfold if_code.
      destruct (s =? "ifTrue:")%string; [apply done_if, H1|].
      destruct (s =? "ifFalse:")%string; [apply done_if, H2|apply done_if_else; assumption].
    + destruct H as (-> & H1). apply done_then; [seq|apply done_and_or, H1].
    + destruct H as (-> & H1). apply done_then; [seq|apply done_and_or, H1].
    + destruct H as (-> & H1). apply done_then; [seq|apply done_times, H1].
    + destruct H as (-> & (H1 & _) & H2 & _). apply done_then; [seq|]. pose proof (good_start limit).
      apply done_to; [apply done_then; assumption| |exact H2].
      intros z m. destruct args as [|? [|[] ?]]; try discriminate. intros [= _ <-].
      apply done_then; [seq|apply done_constant].
    + apply done_then; [seq|apply done_send].
  - apply quiet_skip.
  - intros e es He Hes. rewrite args_cons. pose proof (good_start e).
    apply done_is_quiet, done_quiet; [apply done_then; assumption|exact Hes].
  - apply quiet_skip.
  - intros ln s args ms _ Ha Hm. rewrite cascaded_cons. apply done_is_quiet, done_quiet; [|exact Hm].
    apply done_then; [|apply done_send]. apply good_then; [|seq]. apply good_then; [|seq].
    apply good_then; [seq|]. destruct ms; seq.
  - apply (done_then same incr (emit bc_push_special nil_index)); seq.
  - intros e He. rewrite block_return. pose proof (good_start e).
    apply done_quiet; [|seq]. apply done_quiet; [|seq]. apply done_then; seq.
  - intros e ss He Hss. rewrite block_expr. pose proof (good_start e). destruct ss.
    + apply done_quiet; [|seq]. apply done_then; assumption.
    + apply done_then; [seq|]. apply done_then; [seq|exact Hss].
    + apply done_then; [seq|]. apply done_then; [seq|exact Hss].
Qed.
