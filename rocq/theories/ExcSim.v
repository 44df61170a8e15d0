(** Simulation: what the code does is what programs mean, for programs that
    [mean true] does not set apart. *)
From Coq Require Import List ZArith Bool Lia ZifyBool ZifyNat.
From Verif Require Import Base ExcLang Exc ExcSpec ExcProofs.
Import ListNotations.
Local Open Scope nat_scope.

(** * Contexts from the bottom of the stack *)

Definition lower {A} (n : nat) (l : list A) : list A := skipn (length l - n) l.

Lemma lower_all : forall A (l : list A) n, n = length l -> lower n l = l.
Proof. intros A l n ->. unfold lower. rewrite Nat.sub_diag. reflexivity. Qed.

Lemma lower_app : forall A (a b : list A) n, n <= length b -> lower n (a ++ b) = lower n b.
Proof.
  intros A a b n L. unfold lower. rewrite app_length.
  replace (length a + length b - n) with (length a + (length b - n)) by lia.
  rewrite skipn_app, skipn_all2 by lia. cbn. f_equal. lia.
Qed.

Lemma lower_cons : forall A (a : A) b n, n <= length b -> lower n (a :: b) = lower n b.
Proof. intros. apply (lower_app A [a]). exact H. Qed.

Lemma lower_length : forall A (l : list A) n, n <= length l -> length (lower n l) = n.
Proof. intros A l n L. unfold lower. rewrite skipn_length. lia. Qed.

Lemma lower_split : forall A (l : list A) n,
  firstn (length l - n) l ++ lower n l = l.
Proof. intros. apply firstn_skipn. Qed.

Lemma lower_lower : forall A (l : list A) n m,
  n <= m -> m <= length l -> lower n (lower m l) = lower n l.
Proof.
  intros A l n m L M. rewrite <- (lower_split A l m) at 2.
  rewrite lower_app; [ reflexivity | ]. rewrite lower_length by lia. exact L.
Qed.

Lemma lower_map : forall A B (f : A -> B) l n, lower n (map f l) = map f (lower n l).
Proof. intros. unfold lower. rewrite map_length, skipn_map. reflexivity. Qed.

Lemma lower_Forall2 : forall A B (P : A -> B -> Prop) l m n,
  Forall2 P l m -> Forall2 P (lower n l) (lower n m).
Proof.
  intros A B P l m n K.
  assert (L : length l = length m) by (induction K; cbn; lia).
  unfold lower. rewrite L. generalize (length m - n). clear L. intros j. revert j.
  induction K as [ | x y l m X K IH ]; intros [ | j ]; cbn; auto.
Qed.

Lemma Forall2_len : forall A B (P : A -> B -> Prop) l m, Forall2 P l m -> length l = length m.
Proof. intros A B P l m K. induction K; cbn; lia. Qed.

(** * How contexts may have changed *)

Definition moved (r r' : nat) (f g : frame) : Prop :=
  g = put_active f (f_active g)
  /\ (f_active g = f_active f \/ (f_active g = 0%Z /\ r < r')).

Definition evolve (r : nat) (s : list frame) (r' : nat) (s' : list frame) : Prop :=
  r <= r' /\ Forall2 (moved r r') s s'.

Definition shape (s s' : list frame) : Prop :=
  Forall2 (fun f g => g = put_active f (f_active g)) s s'.

Lemma put_same : forall f, put_active f (f_active f) = f.
Proof. intros []. reflexivity. Qed.

Lemma evolve_refl : forall r s, evolve r s r s.
Proof.
  intros r s. split; [ lia | ]. induction s; constructor; auto.
  split; [ symmetry; apply put_same | left; reflexivity ].
Qed.

Lemma put_put : forall f a b, put_active (put_active f a) b = put_active f b.
Proof. intros []. reflexivity. Qed.

Lemma moved_trans : forall r1 r2 r3 f g h,
  r1 <= r2 -> r2 <= r3 -> moved r1 r2 f g -> moved r2 r3 g h -> moved r1 r3 f h.
Proof.
  intros r1 r2 r3 f g h L M (A & B) (C & D). split.
  - rewrite C, A, put_put. reflexivity.
  - destruct D as [ -> | (-> & D) ]; [ | right; split; [ reflexivity | lia ] ].
    destruct B as [ -> | (-> & B) ]; [ left; reflexivity | right; split; [ reflexivity | lia ] ].
Qed.

Lemma Forall2_trans : forall A (P Q T : A -> A -> Prop),
  (forall a b c, P a b -> Q b c -> T a c) ->
  forall l m n, Forall2 P l m -> Forall2 Q m n -> Forall2 T l n.
Proof.
  intros A P Q T K l m n X. revert n.
  induction X; intros n Y; inversion Y; subst; constructor; eauto.
Qed.

Lemma evolve_trans : forall r1 s1 r2 s2 r3 s3,
  evolve r1 s1 r2 s2 -> evolve r2 s2 r3 s3 -> evolve r1 s1 r3 s3.
Proof.
  intros r1 s1 r2 s2 r3 s3 (L & A) (M & B). split; [ lia | ].
  eapply Forall2_trans; [ | exact A | exact B ].
  intros f g h X Y. eapply moved_trans; [ exact L | exact M | exact X | exact Y ].
Qed.

Lemma evolve_shape : forall r s r' s', evolve r s r' s' -> shape s s'.
Proof.
  intros r s r' s' (_ & A). unfold shape.
  induction A as [ | f g s s' (P & _) A IH ]; constructor; auto.
Qed.

Lemma shape_trans : forall s t u, shape s t -> shape t u -> shape s u.
Proof.
  intros s t u A B. eapply Forall2_trans; [ | exact A | exact B ].
  intros f g h P Q. cbv beta in *. rewrite Q, P, put_put. reflexivity.
Qed.

Lemma shape_length : forall s t, shape s t -> length s = length t.
Proof. intros s t K. eapply Forall2_len. exact K. Qed.

Lemma shape_lower : forall n s t, shape s t -> shape (lower n s) (lower n t).
Proof. intros. apply lower_Forall2. exact H. Qed.

Lemma evolve_lower : forall n r s r' s',
  evolve r s r' s' -> evolve r (lower n s) r' (lower n s').
Proof. intros n r s r' s' (L & A). split; [ exact L | ]. apply lower_Forall2. exact A. Qed.

Lemma evolve_length : forall r s r' s', evolve r s r' s' -> length s = length s'.
Proof. intros r s r' s' (_ & A). eapply Forall2_len. exact A. Qed.

Lemma evolve_tl : forall r f s r' s',
  evolve r (f :: s) r' s' -> evolve r s r' (tl s').
Proof. intros r f s r' s' (L & A). inversion A. subst. split; [ exact L | assumption ]. Qed.

Lemma reset_lower : forall id a n s,
  lower n (reset_handler id a s) = reset_handler id a (lower n s).
Proof. intros. apply lower_map. Qed.

Lemma reset_shape : forall id a s, shape s (reset_handler id a s).
Proof.
  intros id a s. induction s as [ | f s IH ]; constructor; [ | exact IH ].
  destruct (f_id f =? id); [ reflexivity | symmetry; apply put_same ].
Qed.

Lemma reset_all_shape : forall s, shape s (reset_all s).
Proof. intros s. induction s as [ | f s IH ]; constructor; [ reflexivity | exact IH ]. Qed.

Lemma evolve_reset_both : forall id r s r' s',
  evolve r s r' s' -> evolve r (reset_handler id 0 s) r' (reset_handler id 0 s').
Proof.
  intros id r s r' s' (L & A). split; [ exact L | ].
  induction A as [ | f g s s' (P & Q) A IH ]; constructor; [ | exact IH ].
  assert (I1 : f_id g = f_id f) by (rewrite P; reflexivity).
  rewrite I1. destruct (f_id f =? id).
  - split; [ rewrite P, !put_put; reflexivity | left; reflexivity ].
  - split; [ exact P | exact Q ].
Qed.

Lemma evolve_reset_zero : forall id r s r' s',
  evolve r s r' s' -> Forall (fun f => f_id f = id -> f_active f = 0%Z) s ->
  evolve r s r' (reset_handler id 0 s').
Proof.
  intros id r s r' s' (L & A) Z0. split; [ exact L | ].
  induction A as [ | f g s s' (P & Q) A IH ]; constructor.
  - inversion Z0 as [ | ? ? Zf Z1 ]. subst.
    assert (I1 : f_id g = f_id f) by (rewrite P; reflexivity).
    destruct (f_id g =? id) eqn:E.
    + apply Nat.eqb_eq in E. split; [ rewrite P, !put_put; reflexivity | ].
      left. cbn. symmetry. apply Zf. congruence.
    + split; [ exact P | exact Q ].
  - apply IH. inversion Z0. assumption.
Qed.

Lemma evolve_reset_all : forall r s r' s',
  evolve r s r' s' -> evolve r s (S r') (reset_all s').
Proof.
  intros r s r' s' (L & A). split; [ lia | ].
  induction A as [ | f g s s' (P & Q) A IH ]; constructor; [ | exact IH ].
  split; [ rewrite P, !put_put; reflexivity | right; split; [ reflexivity | lia ] ].
Qed.

(** Numbers of contexts decrease from the innermost one on. *)
Fixpoint sorted (lv : nat) (s : list frame) : Prop :=
  match s with
  | [] => True
  | f :: s' => f_id f < lv /\ sorted (f_id f) s'
  end.

Lemma sorted_shape : forall s t lv, shape s t -> sorted lv s -> sorted lv t.
Proof.
  intros s t lv K. revert lv. induction K as [ | f g s t P K IH ]; intros lv A; [ exact A | ].
  destruct A as [ A B ].
  assert (I1 : f_id g = f_id f) by (rewrite P; reflexivity).
  cbn [sorted]. rewrite I1. split; [ exact A | apply IH; exact B ].
Qed.

Lemma sorted_le : forall s lv lv', lv <= lv' -> sorted lv s -> sorted lv' s.
Proof. intros [ | f s ] lv lv' L K; [ exact K | ]. cbn in *. split; [ lia | tauto ]. Qed.

Lemma sorted_in : forall s lv f, sorted lv s -> In f s -> f_id f < lv.
Proof.
  induction s as [ | g s IH ]; intros lv f K I0; [ destruct I0 | ].
  destruct I0 as [ <- | I1 ]; [ cbn in K; lia | ].
  destruct K as [ A B ]. pose proof (IH _ _ B I1). lia.
Qed.

Lemma sorted_app : forall a f b lv,
  sorted lv (a ++ f :: b) ->
  f_id f < lv /\ Forall (fun g => f_id f < f_id g) a /\ sorted (f_id f) b.
Proof.
  induction a as [ | g a IH ]; intros f b lv K; cbn in K.
  - split; [ lia | split; [ constructor | tauto ] ].
  - destruct K as [ A B ]. destruct (IH _ _ _ B) as (C & D & E).
    split; [ lia | split; [ constructor; [ exact C | exact D ] | exact E ] ].
Qed.

Lemma reset_other : forall id a s,
  Forall (fun f => f_id f <> id) s -> reset_handler id a s = s.
Proof.
  intros id a s K. induction K as [ | f s P K IH ]; [ reflexivity | ].
  cbn. destruct (f_id f =? id) eqn:E; [ apply Nat.eqb_eq in E; contradiction | ].
  f_equal. exact IH.
Qed.

Lemma reset_at : forall a f b lv z,
  sorted lv (a ++ f :: b) ->
  reset_handler (f_id f) z (a ++ f :: b) = a ++ put_active f z :: b.
Proof.
  intros a f b lv z K. destruct (sorted_app _ _ _ _ K) as (A & B & C).
  unfold reset_handler. rewrite map_app. cbn [map]. rewrite Nat.eqb_refl.
  f_equal; [ | f_equal ].
  - apply (reset_other (f_id f) z a). eapply Forall_impl; [ | exact B ]. intros g L. cbv beta in *. lia.
  - apply (reset_other (f_id f) z b). rewrite Forall_forall. intros g I1.
    pose proof (sorted_in _ _ _ C I1). lia.
Qed.

(** * Handlers and contexts *)

Definition XR (x : sig) (y : exc) : Prop :=
  x_class y = s_class x /\ x_context y = s_id x /\ x_previous y = 0%Z
  /\ (s_passed x = false -> x_resume y = s_resume x).

(** A place that can be jumped to. *)
Definition reach (env : list handler) (t : nat) (below : list handler) : Prop :=
  exists pre h, env = pre ++ h :: below /\ h_id h = t /\ h_status h <> Closed.

Definition vars_ok (env : list handler) (vars : list sig) : Prop :=
  Forall (fun x => s_frozen x = false -> reach env (s_id x) (s_below x)) vars.

Definition bit (p : nat) : Z := Z.setbit 0 (2 * Z.of_nat p).

Definition status_ok (r : nat) (s : status) (a : Z) : Prop :=
  match s with
  | Open => a = 0%Z
  | Running p g => g <= r /\ (a = bit p \/ (a = 0%Z /\ g < r))
  | Closed => True
  end.

Definition entry (r : nat) (below : list handler) (h : handler) (f : frame) : Prop :=
  f_id f = h_id h /\ f_handlers f = h_handlers h /\ f_body f = h_body h
  /\ Forall2 XR (h_vars h) (f_vars f)
  /\ (h_status h = Open -> vars_ok below (h_vars h))
  /\ status_ok r (h_status h) (f_active f).

Fixpoint R (r : nat) (env : list handler) (s : list frame) : Prop :=
  match env, s with
  | [], [] => True
  | h :: env', f :: s' => entry r env' h f /\ R r env' s'
  | _, _ => False
  end.

Lemma R_length : forall r env s, R r env s -> length env = length s.
Proof.
  intros r. induction env as [ | h env IH ]; intros [ | f s ] K; cbn in K; try contradiction; [ reflexivity | ].
  cbn. f_equal. apply IH. tauto.
Qed.

Lemma entry_moved : forall r r' below h f g,
  r <= r' -> entry r below h f -> moved r r' f g -> entry r' below h g.
Proof.
  intros r r' below h f g L (A & B & C & D & E & F) (P & Q).
  unfold entry. rewrite P. cbn. repeat split; auto.
  destruct (h_status h) as [ | p n | ]; cbn in *; [ | | exact Logic.I ].
  - destruct Q as [ -> | (-> & Q) ]; auto.
  - destruct F as [ F1 F2 ]. split; [ lia | ].
    destruct Q as [ -> | (-> & Q) ]; [ | right; split; [ reflexivity | lia ] ].
    destruct F2 as [ F2 | (F2 & F3) ]; [ left; exact F2 | right; split; [ exact F2 | lia ] ].
Qed.

Lemma R_evolve : forall r env s r' s',
  R r env s -> evolve r s r' s' -> R r' env s'.
Proof.
  intros r env s r' s' K (L & A). revert env K.
  induction A as [ | f g s s' M A IH ]; intros [ | h env ] K; cbn in *; try contradiction; [ exact Logic.I | ].
  destruct K as [ K1 K2 ]. split; [ eapply entry_moved; [ exact L | exact K1 | exact M ] | apply IH; exact K2 ].
Qed.

Lemma R_split : forall r a env s,
  R r (a ++ env) s ->
  exists sa sb, s = sa ++ sb /\ length sa = length a /\ R r env sb /\ sb = lower (length env) s.
Proof.
  intros r. induction a as [ | h a IH ]; intros env s K.
  - exists [], s. cbn in K. repeat split; auto. rewrite lower_all; [ reflexivity | ].
    apply (R_length _ _ _ K).
  - destruct s as [ | f s ]; [ contradiction | ]. destruct K as [ K1 K2 ].
    destruct (IH env s K2) as (sa & sb & -> & L & M & Q).
    exists (f :: sa), sb. cbn [app length]. split; [ reflexivity | ]. split; [ lia | ]. split; [ exact M | ].
    rewrite lower_cons; [ exact Q | ]. rewrite app_length. pose proof (R_length _ _ _ M). lia.
Qed.

Lemma R_lower : forall r pre env s, R r (pre ++ env) s -> R r env (lower (length env) s).
Proof. intros r pre env s K. destruct (R_split _ _ _ _ K) as (sa & sb & _ & _ & M & Q). rewrite <- Q. exact M. Qed.

Lemma R_closed : forall r r' a b s sa sb sa',
  R r (a ++ b) s -> s = sa ++ sb -> length sa = length a -> shape sa sa' ->
  forall b' sb', R r' b' sb' -> R r' (map close a ++ b') (sa' ++ sb').
Proof.
  intros r r'. induction a as [ | h a IH ]; intros b s sa sb sa' K Q L P b' sb' B.
  - destruct sa; [ | cbn in L; lia ]. inversion P. subst. exact B.
  - destruct sa as [ | f sa ]; [ cbn in L; lia | ].
    inversion P as [ | ? g ? sa1 P1 P2 ]. subst.
    cbn [app] in K. destruct K as [ K1 K2 ]. cbn [map app R]. split.
    + destruct K1 as (A1 & A2 & A3 & A4 & A5 & A6). rewrite P1. unfold entry.
      destruct h as [ s i hs bd v ]. cbn in *.
      repeat split; auto. discriminate.
    + eapply IH; [ exact K2 | reflexivity | cbn in L; lia | exact P2 | exact B ].
Qed.

Lemma reach_app : forall pre env t en, reach env t en -> reach (pre ++ env) t en.
Proof.
  intros pre env t en (p & h & -> & A & B). exists (pre ++ p), h. rewrite <- app_assoc. auto.
Qed.

Lemma reach_cons : forall h env t en, reach env t en -> reach (h :: env) t en.
Proof. intros h env t en K. apply (reach_app [h]). exact K. Qed.

Lemma reach_inv : forall h env t en,
  reach (h :: env) t en -> (h_id h = t /\ en = env) \/ reach env t en.
Proof.
  intros h env t en ([ | g pre ] & h' & Q & A & B).
  - cbn in Q. injection Q as <- <-. left. auto.
  - cbn in Q. injection Q as <- ->. right. exists pre, h'. auto.
Qed.

Lemma reach_closed : forall a env t en, reach (map close a ++ env) t en -> reach env t en.
Proof.
  induction a as [ | h a IH ]; intros env t en K; [ exact K | ].
  cbn in K. destruct K as ([ | g pre ] & h' & Q & A & B).
  - cbn in Q. injection Q as <- <-. exfalso. apply B. destruct h. reflexivity.
  - cbn in Q. injection Q as _ Q. apply IH. exists pre, h'. auto.
Qed.

Lemma reach_trans : forall env t en t2 en2, reach env t en -> reach en t2 en2 -> reach env t2 en2.
Proof.
  intros env t en t2 en2 (p & h & -> & _) K.
  replace (p ++ h :: en) with ((p ++ [h]) ++ en) by (rewrite <- app_assoc; reflexivity).
  apply reach_app. exact K.
Qed.

Lemma reach_length : forall env t en, reach env t en -> length en < length env.
Proof. intros env t en (p & h & -> & _). rewrite app_length. cbn. lia. Qed.

Lemma reach_R : forall r env t en s,
  R r env s -> reach env t en -> R r en (lower (length en) s).
Proof.
  intros r env t en s K (p & h & -> & _).
  replace (p ++ h :: en) with ((p ++ [h]) ++ en) in K by (rewrite <- app_assoc; reflexivity).
  eapply R_lower. exact K.
Qed.

Lemma reach_id : forall r env t en s lv,
  R r env s -> sorted lv s -> reach env t en -> t < lv.
Proof.
  intros r env t en s lv K O (p & h & -> & A & _).
  destruct (R_split _ _ _ _ K) as (sa & sb & -> & L & M & _).
  destruct sb as [ | f sb ]; [ contradiction | ]. destruct M as [ M _ ].
  destruct (sorted_app _ _ _ _ O) as (B & _). destruct M as (M & _). congruence.
Qed.

(** * The search *)

Lemma search_skip : forall f c, deep c ->
  any_handles (f_handlers f) c = false -> search_frame f c = None.
Proof.
  intros f c D K. unfold search_frame. destruct (f_active f =? -1)%Z; [ reflexivity | ].
  apply best_keep. apply best_none; auto.
Qed.

Lemma search_running : forall f c p, deep c ->
  f_active f = bit p -> other_handles p (f_handlers f) c = false -> search_frame f c = None.
Proof.
  intros f c p D A K. unfold search_frame. destruct (f_active f =? -1)%Z; [ reflexivity | ].
  apply best_keep. rewrite A. eapply best_active; [ exact D | lia | exact K | ].
  unfold bit. f_equal.
Qed.

Lemma look_search : forall r env s c, deep c -> R r env s ->
  match look true r env c with
  | Stray => True
  | No_handler => search s c = None
  | Found above h p b below =>
      env = above ++ h :: below /\ h_status h = Open
      /\ exists sa f sb, s = sa ++ f :: sb /\ length sa = length above
           /\ entry r below h f /\ R r below sb
           /\ search s c = Some (sa ++ put_active f (bit p) :: sb, f, b)
  end.
Proof.
  intros r env s c D. revert s. induction env as [ | h env IH ]; intros [ | f s ] K; try contradiction.
  - reflexivity.
  - destruct K as [ K1 K2 ]. specialize (IH s K2). cbn [look]. cbv zeta.
    destruct (h_status h) as [ | p g | ] eqn:S1.
    + pose proof K1 as (A1 & A2 & A3 & A4 & A5 & A6). rewrite S1 in A6. cbn in A6.
      assert (SF : search_frame f c = match choose (h_handlers h) c with
                     | Some (p, h) => Some ((1 + 2 * Z.of_nat p)%Z, h) | None => None end).
      { unfold search_frame. rewrite A6, A2. cbn [Z.eqb]. apply best_choose. exact D. }
      destruct (choose (h_handlers h) c) as [ (p, b) | ] eqn:C.
      * split; [ reflexivity | split; [ exact S1 | ] ].
        exists [], f, s. cbn [app length search]. rewrite SF. repeat split; auto.
        -- rewrite S1. cbn. exact A6.
        -- rewrite A6. unfold bit.
           replace (1 + 2 * Z.of_nat p - 1)%Z with (2 * Z.of_nat p)%Z by lia. reflexivity.
      * cbn [search]. rewrite SF.
        destruct (look true r env c) as [ | above g p b below | ]; [ rewrite IH; reflexivity | | exact Logic.I ].
        destruct IH as (Q & O & sa & f' & sb & P & L & E & M & W). subst env s.
        split; [ reflexivity | split; [ exact O | ] ].
        exists (f :: sa), f', sb. cbn [app length]. rewrite W. repeat split; auto; apply E.
    + cbn [andb].
      destruct (in_the_way r h c) eqn:W; [ exact Logic.I | ].
      pose proof K1 as (A1 & A2 & A3 & A4 & A5 & A6). rewrite S1 in A6. cbn in A6. destruct A6 as [ G A6 ].
      unfold in_the_way in W. rewrite S1 in W.
      assert (SF : search_frame f c = None).
      { destruct (g <? r) eqn:X.
        - apply search_skip; [ exact D | rewrite A2; exact W ].
        - destruct A6 as [ A6 | (_ & A6) ]; [ | lia ].
          eapply search_running; [ exact D | exact A6 | rewrite A2; exact W ]. }
      cbn [search]. rewrite SF.
      destruct (look true r env c) as [ | above g' p' b below | ]; [ rewrite IH; reflexivity | | exact Logic.I ].
      destruct IH as (Q & O & sa & f' & sb & P & L & E & M & W'). subst env s.
      split; [ reflexivity | split; [ exact O | ] ].
      exists (f :: sa), f', sb. cbn [app length]. rewrite W'. repeat split; auto; apply E.
    + cbn [andb].
      destruct (in_the_way r h c) eqn:W; [ exact Logic.I | ].
      pose proof K1 as (A1 & A2 & A3 & A4 & A5 & A6).
      unfold in_the_way in W. rewrite S1 in W.
      assert (SF : search_frame f c = None) by (apply search_skip; [ exact D | rewrite A2; exact W ]).
      cbn [search]. rewrite SF.
      destruct (look true r env c) as [ | above g' p' b below | ]; [ rewrite IH; reflexivity | | exact Logic.I ].
      destruct IH as (Q & O & sa & f' & sb & P & L & E & M & W'). subst env s.
      split; [ reflexivity | split; [ exact O | ] ].
      exists (f :: sa), f', sb. cbn [app length]. rewrite W'. repeat split; auto; apply E.
Qed.

Lemma search_below_at : forall a f b c lv,
  sorted lv (a ++ f :: b) ->
  search_below (f_id f) (a ++ f :: b) c
  = match search b c with
    | Some (s, g, h) => Some (a ++ f :: s, g, h)
    | None => None
    end.
Proof.
  induction a as [ | g a IH ]; intros f b c lv K; cbn [app search_below].
  - rewrite Nat.eqb_refl. reflexivity.
  - destruct (sorted_app (g :: a) f b lv K) as (_ & B & _). inversion B as [ | ? ? B1 _ ]. subst.
    destruct (f_id g =? f_id f) eqn:E; [ apply Nat.eqb_eq in E; lia | ].
    cbn in K. rewrite (IH f b c (f_id g)) by tauto.
    destruct (search b c) as [ [ [ s g' ] h ] | ]; reflexivity.
Qed.
