(** The simulation, by induction on fuel, and its consequences. *)
From Coq Require Import List ZArith Bool Lia ZifyBool ZifyNat.
From Verif Require Import Base ExcLang Exc ExcSpec ExcProofs ExcSim.
Import ListNotations.
Local Open Scope nat_scope.

Definition live (x : sig) : Prop := s_frozen x = false /\ s_passed x = false.

Definition good (lv r : nat) (vars : list sig) (s : list frame) : Prop :=
  match vars with
  | [] => True
  | x :: _ =>
      live x ->
      length (s_here x) <= length s /\ s_resume x < lv
      /\ R r (s_here x) (reset_handler (s_id x) 0 (lower (length (s_here x)) s))
  end.

Definition Inv (lv r : nat) (env : list handler) (vars : list sig) (s : list frame) : Prop :=
  R r env s /\ sorted lv s /\ vars_ok env vars /\ good lv r vars s.

Definition jump_ok (r : nat) (env : list handler) (vars : list sig) (s : list frame)
    (r' : nat) (s' : list frame) (t : nat) (en : list handler) : Prop :=
  shape s s'
  /\ ((reach env t en /\ evolve r (lower (length en) s) r' (lower (length en) s'))
      \/ (exists x xs, vars = x :: xs /\ live x
          /\ ((t = s_resume x /\ en = s_here x) \/ reach (s_here x) t en)
          /\ evolve r (reset_handler (s_id x) 0 (lower (length en) s)) r'
                    (lower (length en) s'))).

Definition post (r : nat) (env : list handler) (vars : list sig) (s : list frame)
    (so : sres) (r' : nat) (mo : res) (s' : list frame) : Prop :=
  match so with
  | SGot v => mo = Got v /\ evolve r s r' s'
  | SJump t en v => mo = Jump t v /\ jump_ok r env vars s r' s' t en
  | SEnd x => mo = End_ x
  | SRedo _ _ | SStray => True
  end.

Definition fine (so : sres) : Prop :=
  match so with SRedo _ _ | SStray => False | _ => True end.

Lemma good_evolve : forall lv r vars s r' s',
  good lv r vars s -> evolve r s r' s' -> good lv r' vars s'.
Proof.
  intros lv r [ | x vars ] s r' s' K E; [ exact Logic.I | ].
  intros L. destruct (K L) as (A & B & C).
  rewrite <- (evolve_length _ _ _ _ E). split; [ exact A | split; [ exact B | ] ].
  eapply R_evolve; [ exact C | ]. apply evolve_reset_both. apply evolve_lower. exact E.
Qed.

Lemma Inv_evolve : forall lv r env vars s r' s',
  Inv lv r env vars s -> evolve r s r' s' -> Inv lv r' env vars s'.
Proof.
  intros lv r env vars s r' s' (A & B & C & D) E. split; [ | split; [ | split ] ].
  - eapply R_evolve; [ exact A | exact E ].
  - eapply sorted_shape; [ eapply evolve_shape; exact E | exact B ].
  - exact C.
  - eapply good_evolve; [ exact D | exact E ].
Qed.

Lemma post_trans : forall r env vars s r1 s1 so r2 mo s2,
  evolve r s r1 s1 -> post r1 env vars s1 so r2 mo s2 -> post r env vars s so r2 mo s2.
Proof.
  intros r env vars s r1 s1 so r2 mo s2 E K. destruct so as [ v | t en v | t en | x | ]; cbn in *; auto.
  - destruct K as [ -> K ]. split; [ reflexivity | ]. eapply evolve_trans; [ exact E | exact K ].
  - destruct K as (-> & K & J). split; [ reflexivity | ]. split.
    + eapply shape_trans; [ eapply evolve_shape; exact E | exact K ].
    + destruct J as [ (J1 & J2) | (x & xs & J1 & J2 & J3 & J4) ].
      * left. split; [ exact J1 | ].
        eapply evolve_trans; [ apply evolve_lower; exact E | exact J2 ].
      * right. exists x, xs. split; [ exact J1 | split; [ exact J2 | split; [ exact J3 | ] ] ].
        eapply evolve_trans; [ apply evolve_reset_both; apply evolve_lower; exact E | exact J4 ].
Qed.

(** The environment at the end of a jump. *)
Lemma jump_R : forall lv r env vars s r' s' t en,
  Inv lv r env vars s -> jump_ok r env vars s r' s' t en ->
  R r' en (lower (length en) s') /\ length en <= length env.
Proof.
  intros lv r env vars s r' s' t en (A & B & C & D) (P & [ (J1 & J2) | (x & xs & J1 & J2 & J3 & J4) ]).
  - split; [ | apply reach_length in J1; lia ].
    eapply R_evolve; [ eapply reach_R; [ exact A | exact J1 ] | exact J2 ].
  - subst vars. destruct (D J2) as (D1 & D2 & D3).
    pose proof (R_length _ _ _ A) as L.
    assert (N : length en <= length (s_here x)).
    { destruct J3 as [ (_ & ->) | J3 ]; [ lia | apply reach_length in J3; lia ]. }
    split; [ | lia ].
    eapply R_evolve; [ | exact J4 ].
    rewrite <- reset_lower in *.
    destruct J3 as [ (_ & ->) | J3 ]; [ exact D3 | ].
    pose proof (reach_R _ _ _ _ _ D3 J3) as Q.
    rewrite lower_lower in Q; [ exact Q | exact N | ].
    rewrite <- (shape_length _ _ (reset_shape (s_id x) 0 s)). exact D1.
Qed.

Lemma jump_lt : forall lv r env vars s r' s' t en,
  Inv lv r env vars s -> jump_ok r env vars s r' s' t en -> t < lv.
Proof.
  intros lv r env vars s r' s' t en (A & B & C & D) (P & [ (J1 & J2) | (x & xs & J1 & J2 & J3 & J4) ]).
  - eapply reach_id; [ exact A | exact B | exact J1 ].
  - subst vars. destruct (D J2) as (D1 & D2 & D3).
    destruct J3 as [ (-> & _) | J3 ]; [ exact D2 | ].
    eapply reach_id; [ exact D3 | | exact J3 ].
    eapply sorted_shape; [ apply reset_shape | ].
    assert (G : forall n s lv, sorted lv s -> sorted lv (lower n s)).
    { clear. intros n s lv. unfold lower. generalize (length s - n). intros j. revert j lv.
      induction s as [ | f s IH ]; intros [ | j ] lv K; cbn [skipn]; auto.
      cbn in K. eapply sorted_le; [ | apply IH; apply K ]. lia. }
    apply G. exact B.
Qed.

(** The environment of ensure: blocks. *)
Lemma leaving_Inv : forall lv r env vars s r' s' t en,
  Inv lv r env vars s -> jump_ok r env vars s r' s' t en ->
  Inv lv r' (leaving env en) (map freeze vars) s'.
Proof.
  intros lv r env vars s r' s' t en I0 J.
  destruct (jump_R _ _ _ _ _ _ _ _ _ I0 J) as [ K L ].
  pose proof I0 as (A & B & C & D). pose proof J as (P & _).
  split; [ | split; [ | split ] ].
  - pose proof (R_length _ _ _ A) as N.
    pose proof (shape_length _ _ P) as M.
    unfold leaving. rewrite <- (lower_split _ s' (length en)).
    eapply R_closed with (b := lower (length en) env) (s := s)
      (sa := firstn (length s - length en) s) (sb := lower (length en) s) (r := r).
    + rewrite lower_split. exact A.
    + symmetry. apply lower_split.
    + rewrite !firstn_length. lia.
    + rewrite <- M. clear - P. revert P. generalize (length s - length en). intros j P. revert j.
      induction P as [ | f g s s' Q P IH ]; intros [ | j ]; cbn; constructor; auto. apply IH.
    + exact K.
  - eapply sorted_shape; [ exact P | exact B ].
  - unfold vars_ok. rewrite Forall_forall. intros x I1 F. apply in_map_iff in I1.
    destruct I1 as (y & <- & _). destruct y. discriminate.
  - destruct vars as [ | x vars ]; [ exact Logic.I | ]. intros (F & _). destruct x. discriminate.
Qed.

Lemma freeze_XR : forall vars mvars, Forall2 XR vars mvars -> Forall2 XR (map freeze vars) mvars.
Proof.
  intros vars mvars K. induction K as [ | x y vars mvars P K IH ]; constructor; auto.
  destruct x. exact P.
Qed.

Lemma freeze_dead : forall vars x xs, map freeze vars = x :: xs -> ~ live x.
Proof. intros [ | y vars ] x xs Q (F & _); [ discriminate | ]. injection Q as <- _. destruct y. discriminate. Qed.

(** After the ensure: block, the jump goes on, or another has taken its place. *)
Lemma leaving_post : forall lv r env vars s r1 s1 t en v so r2 mo s2,
  Inv lv r env vars s -> jump_ok r env vars s r1 s1 t en ->
  post r1 (leaving env en) (map freeze vars) s1 so r2 mo s2 -> fine so ->
  match so with
  | SGot _ => exists w, mo = Got w /\ post r env vars s (SJump t en v) r2 (Jump t v) s2
  | _ => post r env vars s so r2 mo s2
  end.
Proof.
  intros lv r env vars s r1 s1 t en v so r2 mo s2 I0 J K F.
  pose proof (jump_R _ _ _ _ _ _ _ _ _ I0 J) as (_ & L).
  pose proof I0 as (A & B & C & D). pose proof J as (P & J0).
  pose proof (R_length _ _ _ A) as N.
  destruct so as [ w | t2 en2 w | t2 en2 | x | ]; cbn in K, F; try contradiction.
  - destruct K as [ -> K ]. exists w. split; [ reflexivity | ]. cbn. split; [ reflexivity | ].
    split; [ eapply shape_trans; [ exact P | eapply evolve_shape; exact K ] | ].
    destruct J0 as [ (J1 & J2) | (x & xs & J1 & J2 & J3 & J4) ].
    + left. split; [ exact J1 | ]. eapply evolve_trans; [ exact J2 | apply evolve_lower; exact K ].
    + right. exists x, xs. split; [ exact J1 | split; [ exact J2 | split; [ exact J3 | ] ] ].
      eapply evolve_trans; [ exact J4 | apply evolve_lower; exact K ].
  - destruct K as (-> & P2 & K). cbn. split; [ reflexivity | ].
    split; [ eapply shape_trans; [ exact P | exact P2 ] | ].
    destruct K as [ (K1 & K2) | (x & xs & K1 & K2 & _) ];
      [ | exfalso; exact (freeze_dead _ _ _ K1 K2) ].
    unfold leaving in K1. apply reach_closed in K1.
    pose proof (reach_length _ _ _ K1) as M.
    pose proof (shape_length _ _ P) as Q1.
    destruct J0 as [ (J1 & J2) | (x & xs & J1 & J2 & J3 & J4) ].
    + left. split; [ eapply reach_trans; [ exact J1 | exact K1 ] | ].
      eapply evolve_trans; [ | exact K2 ].
      pose proof (evolve_lower (length en2) _ _ _ _ J2) as Q.
      rewrite !lower_lower in Q by lia. exact Q.
    + right. exists x, xs. split; [ exact J1 | split; [ exact J2 | split ] ].
      * right. destruct J3 as [ (_ & ->) | J3 ]; [ exact K1 | eapply reach_trans; [ exact J3 | exact K1 ] ].
      * eapply evolve_trans; [ | exact K2 ].
        pose proof (evolve_lower (length en2) _ _ _ _ J4) as Q.
        rewrite reset_lower in Q. rewrite !lower_lower in Q by lia. exact Q.
  - exact K.
Qed.

(** A handler block begins. *)
Lemma handler_Inv : forall lv r above h p below sa f sb c target here passed,
  R r (above ++ h :: below) (sa ++ f :: sb) -> length sa = length above ->
  h_status h = Open -> sorted lv (sa ++ f :: sb) ->
  (passed = false -> target = lv /\ here = above ++ h :: below) ->
  Inv (S lv) r (map close above ++ with_status (Running p r) h :: below)
      (Sig c (h_id h) target below here passed false :: h_vars h)
      (sa ++ put_active f (bit p) :: sb).
Proof.
  intros lv r above h p below sa f sb c target here passed K L O T W.
  assert (E : entry r below h f /\ R r below sb).
  { destruct (R_split _ _ _ _ K) as (sa' & sb' & Q & L' & M & _).
    assert (sa' = sa /\ sb' = f :: sb) as [ -> -> ].
    { assert (X : length sa = length sa') by lia. clear - Q X. revert sa' Q X.
      induction sa as [ | a sa IH ]; intros [ | b sa' ] Q X; cbn in *; try lia; [ auto | ].
      injection Q as -> Q. destruct (IH sa' Q ltac:(lia)) as [ -> -> ]. auto. }
    exact M. }
  destruct E as [ E Rb ].
  assert (S1 : sorted (S lv) (sa ++ put_active f (bit p) :: sb)).
  { eapply sorted_le with (lv := lv); [ lia | ]. eapply sorted_shape; [ | exact T ].
    unfold shape. apply Forall2_app.
    - clear. induction sa; constructor; auto. symmetry. apply put_same.
    - constructor; [ reflexivity | ]. clear. induction sb; constructor; auto. symmetry. apply put_same. }
  split; [ | split; [ exact S1 | split ] ].
  - eapply R_closed with (r := r) (b := h :: below) (sa := sa) (sb := f :: sb);
      [ exact K | reflexivity | exact L | | ].
    + clear. unfold shape. induction sa; constructor; auto. symmetry. apply put_same.
    + cbn [R]. split; [ | exact Rb ].
      destruct E as (E1 & E2 & E3 & E4 & E5 & E6). destruct h as [ s i hs bd v ]. cbn in *.
      repeat split; auto; try discriminate.
  - constructor.
    + intros _. cbn. exists (map close above), (with_status (Running p r) h).
      destruct h as [ s i hs bd v ]. cbn. repeat split; auto. discriminate.
    + destruct E as (_ & _ & _ & _ & E5 & _). specialize (E5 O). unfold vars_ok in *.
      eapply Forall_impl; [ | exact E5 ]. intros x Q F. cbv beta in *.
      apply reach_app. apply reach_cons. exact (Q F).
  - cbn [good]. intros (_ & PF). cbn in PF. subst passed. destruct (W eq_refl) as [ -> -> ].
    cbn [s_here s_resume s_id].
    assert (N : length (above ++ h :: below) = length (sa ++ put_active f (bit p) :: sb)).
    { pose proof (R_length _ _ _ Rb). rewrite !app_length. cbn. lia. }
    split; [ lia | split; [ lia | ] ].
    rewrite lower_all by exact N.
    destruct E as (E1 & E2 & E3 & E4 & E5 & E6). rewrite O in E6. cbn in E6.
    replace (h_id h) with (f_id (put_active f (bit p))) by (cbn; exact E1).
    erewrite reset_at by exact S1. rewrite put_put. rewrite <- E6, put_same. exact K.
Qed.

(** A handler block ends. *)
Lemma handler_post : forall lv r above h p below sa f sb c target here passed so r' mo s' env,
  R r (above ++ h :: below) (sa ++ f :: sb) -> length sa = length above ->
  h_status h = Open -> sorted lv (sa ++ f :: sb) ->
  env = above ++ h :: below ->
  (passed = false -> target = lv /\ here = env) ->
  post r (map close above ++ with_status (Running p r) h :: below)
       (Sig c (h_id h) target below here passed false :: h_vars h)
       (sa ++ put_active f (bit p) :: sb) so r' mo s' ->
  match so with
  | SGot v => mo = Got v
              /\ (forall vars, jump_ok r env vars (sa ++ f :: sb) r' s' (h_id h) below)
  | SJump t en v =>
      mo = Jump t v
      /\ ((t = lv /\ passed = false /\ evolve r (sa ++ f :: sb) r' (reset_handler (f_id f) 0 s'))
          \/ (t <> lv /\ forall vars, jump_ok r env vars (sa ++ f :: sb) r' s' t en))
  | SEnd x => mo = End_ x
  | _ => True
  end.
Proof.
  intros lv r above h p below sa f sb c target here passed so r' mo s' env K L O T Q W P. subst env.
  pose proof (handler_Inv lv r above h p below sa f sb c target here passed K L O T W) as I1.
  assert (SH : shape (sa ++ f :: sb) (sa ++ put_active f (bit p) :: sb)).
  { unfold shape. apply Forall2_app.
    - clear. induction sa; constructor; auto. symmetry. apply put_same.
    - constructor; [ reflexivity | ]. clear. induction sb; constructor; auto. symmetry. apply put_same. }
  assert (EB : entry r below h f /\ R r below sb).
  { replace (h :: below) with ([h] ++ below) in K by reflexivity.
    destruct (R_split r above (h :: below) _ K) as (sa' & sb' & Q & L' & M & _).
    assert (sa' = sa /\ sb' = f :: sb) as [ -> -> ].
    { assert (X : length sa = length sa') by lia. clear - Q X. revert sa' Q X.
      induction sa as [ | a sa IH ]; intros [ | b sa' ] Q X; cbn in *; try lia; [ auto | ].
      injection Q as -> Q. destruct (IH sa' Q ltac:(lia)) as [ -> -> ]. auto. }
    exact M. }
  destruct EB as [ E Rb ]. pose proof (R_length _ _ _ Rb) as LB.
  assert (LOW : forall n, n <= length sb ->
     lower n (sa ++ put_active f (bit p) :: sb) = lower n (sa ++ f :: sb)).
  { intros n M. rewrite !lower_app by (cbn; lia). rewrite !lower_cons by lia. reflexivity. }
  assert (RE : reach (above ++ h :: below) (h_id h) below).
  { exists above, h. rewrite O. repeat split; auto. discriminate. }
  assert (Z0 : f_active f = 0%Z).
  { destruct E as (_ & _ & _ & _ & _ & E6). rewrite O in E6. exact E6. }
  destruct so as [ v | t en v | t en | x | ]; cbn in P; auto.
  - destruct P as [ -> P ]. split; [ reflexivity | ]. intros vars. split.
    + eapply shape_trans; [ exact SH | eapply evolve_shape; exact P ].
    + left. split; [ exact RE | ]. rewrite <- LOW by lia. apply evolve_lower. exact P.
  - destruct P as (-> & P & J). split; [ reflexivity | ].
    pose proof I1 as (A & B & C & D).
    destruct J as [ (J1 & J2) | (x & xs & J1 & J2 & J3 & J4) ].
    + right.
      assert (X : (t = h_id h /\ en = below) \/ reach below t en).
      { apply reach_closed in J1. apply reach_inv in J1. destruct h. cbn in *.
        destruct J1 as [ (<- & ->) | J1 ]; auto. }
      assert (RR : reach (above ++ h :: below) t en).
      { destruct X as [ (-> & ->) | X ]; [ exact RE | ]. apply reach_app. apply reach_cons. exact X. }
      assert (N : length en <= length sb).
      { destruct X as [ (_ & ->) | X ]; [ lia | apply reach_length in X; lia ]. }
      split.
      * pose proof (reach_id _ _ _ _ _ _ K T RR). lia.
      * intros vars. split; [ eapply shape_trans; [ exact SH | exact P ] | ].
        left. split; [ exact RR | ]. rewrite <- LOW by exact N. exact J2.
    + injection J1 as <- <-. destruct J2 as [ _ PF ]. cbn in PF. subst passed.
      destruct (W eq_refl) as [ -> -> ]. cbn [s_here s_resume s_id] in *.
      assert (RS : forall n, reset_handler (h_id h) 0 (lower n (sa ++ put_active f (bit p) :: sb))
                             = lower n (sa ++ f :: sb)).
      { intros n. rewrite <- reset_lower. f_equal.
        destruct E as (E1 & _).
        replace (h_id h) with (f_id (put_active f (bit p))) by (cbn; exact E1).
        erewrite reset_at by (eapply sorted_shape; [ exact SH | exact T ]).
        rewrite put_put. rewrite <- Z0, put_same. reflexivity. }
      rewrite RS in J4.
      destruct J3 as [ (-> & ->) | J3 ].
      * left. split; [ reflexivity | split; [ reflexivity | ] ].
        assert (N : length (above ++ h :: below) = length (sa ++ f :: sb))
          by (rewrite !app_length; cbn; lia).
        rewrite lower_all in J4 by exact N.
        rewrite lower_all in J4.
        2: { rewrite N. rewrite (shape_length _ _ SH). apply shape_length. exact P. }
        apply evolve_reset_zero; [ exact J4 | ].
        destruct (sorted_app _ _ _ _ T) as (_ & T1 & T2).
        apply Forall_app. split; [ | constructor ].
        -- eapply Forall_impl; [ | exact T1 ]. intros g X Y. cbv beta in *. lia.
        -- intros _. exact Z0.
        -- rewrite Forall_forall. intros g X Y. pose proof (sorted_in _ _ _ T2 X). lia.
      * right. split.
        -- pose proof (reach_id _ _ _ _ _ _ K T J3). lia.
        -- intros vars. split; [ eapply shape_trans; [ exact SH | exact P ] | ].
           left. split; [ exact J3 | exact J4 ].
Qed.

Definition sim (fuel : nat) : Prop :=
  forall lv env vars e r log so r' log' s mvars,
    Inv lv r env vars s -> Forall2 XR vars mvars ->
    mean true fuel lv env vars e r log = Some (so, r', log') -> fine so ->
    exists mo s', run fuel lv s mvars e log = Some (mo, s', log')
                  /\ post r env vars s so r' mo s'.

(** Activation of a handler that has been found, by signal, outer or pass. *)
Lemma activate_sim : forall fuel, sim fuel ->
  forall lv r above h p b below sa f sb c target here passed so r' log log' env,
  R r (above ++ h :: below) (sa ++ f :: sb) -> length sa = length above ->
  h_status h = Open -> sorted lv (sa ++ f :: sb) ->
  env = above ++ h :: below ->
  (passed = false -> target = lv /\ here = env) ->
  mean true fuel (S lv) (map close above ++ with_status (Running p r) h :: below)
       (Sig c (h_id h) target below here passed false :: h_vars h) b r log = Some (so, r', log') ->
  fine so ->
  exists mo s',
    run fuel (S lv) (sa ++ put_active f (bit p) :: sb)
        (Exc c (f_id f) (f_active f) lv :: f_vars f) b log = Some (mo, s', log')
    /\ match so with
       | SGot v => mo = Got v
                   /\ (forall vars, jump_ok r env vars (sa ++ f :: sb) r' s' (h_id h) below)
       | SJump t en v =>
           mo = Jump t v
           /\ ((t = lv /\ passed = false
                /\ evolve r (sa ++ f :: sb) r' (reset_handler (f_id f) 0 s'))
               \/ (t <> lv /\ forall vars, jump_ok r env vars (sa ++ f :: sb) r' s' t en))
       | SEnd x => mo = End_ x
       | _ => True
       end.
Proof.
  intros fuel IH lv r above h p b below sa f sb c target here passed so r' log log' env K L O T Q W M F.
  assert (I1 := handler_Inv lv r above h p below sa f sb c target here passed K L O T
                  ltac:(subst env; exact W)).
  assert (E : entry r below h f).
  { destruct (R_split r above (h :: below) _ K) as (sa' & sb' & Q' & L' & M' & _).
    assert (sa' = sa /\ sb' = f :: sb) as [ -> -> ].
    { assert (X : length sa = length sa') by lia. clear - Q' X. revert sa' Q' X.
      induction sa as [ | a sa IH ]; intros [ | b sa' ] Q X; cbn in *; try lia; [ auto | ].
      injection Q as -> Q. destruct (IH sa' Q ltac:(lia)) as [ -> -> ]. auto. }
    apply M'. }
  assert (X : Forall2 XR (Sig c (h_id h) target below here passed false :: h_vars h)
                (Exc c (f_id f) (f_active f) lv :: f_vars f)).
  { destruct E as (E1 & E2 & E3 & E4 & E5 & E6). rewrite O in E6. cbn in E6.
    constructor; [ | exact E4 ]. unfold XR. cbn. repeat split; auto.
    intros PF. destruct (W PF) as [ -> _ ]. reflexivity. }
  destruct (IH _ _ _ _ _ _ _ _ _ _ _ I1 X M F) as (mo & s' & RU & P).
  exists mo, s'. split; [ exact RU | ].
  eapply handler_post; [ exact K | exact L | exact O | exact T | exact Q | exact W | exact P ].
Qed.

Lemma nth_XR : forall vars mvars k,
  Forall2 XR vars mvars ->
  match nth_error vars k, nth_error mvars k with
  | Some x, Some y => XR x y
  | None, None => True
  | _, _ => False
  end.
Proof.
  intros vars mvars k K. revert k.
  induction K as [ | x y vars mvars P K IH ]; intros [ | k ]; cbn; auto. apply IH.
Qed.

(** Where outer and pass begin to look. *)
Lemma below_search : forall lv r env s x c,
  R r env s -> sorted lv s -> reach env (s_id x) (s_below x) -> deep c ->
  match look true r (s_below x) c with
  | Stray => True
  | No_handler => search_below (s_id x) s c = None
  | Found above h p b below =>
      let above' := firstn (length env - length (s_below x)) env ++ above in
      env = above' ++ h :: below /\ h_status h = Open
      /\ exists sa f sb, s = sa ++ f :: sb /\ length sa = length above'
           /\ search_below (s_id x) s c = Some (sa ++ put_active f (bit p) :: sb, f, b)
  end.
Proof.
  intros lv r env s x c A T RE D.
  pose proof RE as (pre & hx & Q & IX & _).
  assert (A' := A). rewrite Q in A'.
  destruct (R_split _ _ _ _ A') as (sa & sb & Q1 & L & M & _).
  destruct sb as [ | fx sb ]; [ contradiction | ]. destruct M as [ M Rb ].
  assert (IDX : f_id fx = s_id x) by (destruct M as (M & _); congruence).
  pose proof (look_search r (s_below x) sb c D Rb) as LS.
  rewrite Q1 in T. pose proof (search_below_at sa fx sb c lv T) as SB. rewrite IDX in SB.
  assert (FN : firstn (length env - length (s_below x)) env = pre ++ [hx]).
  { rewrite Q. rewrite app_length. cbn [length].
    replace (length pre + S (length (s_below x)) - length (s_below x)) with (length (pre ++ [hx]))
      by (rewrite app_length; cbn; lia).
    replace (pre ++ hx :: s_below x) with ((pre ++ [hx]) ++ s_below x)
      by (rewrite <- app_assoc; reflexivity).
    rewrite firstn_app, Nat.sub_diag, firstn_all. apply app_nil_r. }
  destruct (look true r (s_below x) c) as [ | above h p b below | ].
  - rewrite Q1, SB, LS. reflexivity.
  - cbv zeta. destruct LS as (B & O & sa2 & f & sb2 & S2 & L2 & E & R2 & W).
    rewrite FN. split; [ | split; [ exact O | ] ].
    + rewrite Q, B. rewrite <- !app_assoc. reflexivity.
    + exists (sa ++ fx :: sa2), f, sb2. rewrite Q1, SB, W. subst sb.
      rewrite <- !app_assoc. cbn [app]. split; [ reflexivity | split; [ | reflexivity ] ].
      rewrite !app_length. cbn [length]. lia.
  - exact Logic.I.
Qed.

Lemma deep_of : forall c, negb (Z.of_nat (length c) <? 100000)%Z = false -> deep c.
Proof. intros c K. unfold deep. lia. Qed.

Lemma no_redo : forall fuel lv env vars e r log t en r' log',
  mean true fuel lv env vars e r log <> Some (SRedo t en, r', log').
Proof.
  induction fuel as [ | fuel IH ]; intros lv env vars e r log t en r' log' K; [ discriminate | ].
  destruct e; cbn [mean] in K; cbv zeta in K.
  all: repeat (match type of K with
               | context [match ?m with _ => _ end] =>
                   match m with
                   | context [match _ with _ => _ end] => fail 1
                   | _ => destruct m eqn:?
                   end
               end; try discriminate);
       try (injection K; intros; subst); try congruence;
       eapply IH; eassumption.
Qed.

Theorem simulation : forall fuel, sim fuel.
Proof.
  induction fuel as [ | fuel IH ]; intros lv env vars e r log so r' log' s mvars I0 X M F; [ discriminate | ].
  pose proof I0 as (A & B & C & D).
  destruct e as [ v | n | n a b | a b | c | body hs | body fin | k a | k a | k | k | k ];
    cbn [mean run] in *; cbv zeta in *.
  - (* Val *)
    injection M as <- <- <-. eexists _, _. split; [ reflexivity | ].
    cbn. split; [ reflexivity | apply evolve_refl ].
  - (* Say *)
    injection M as <- <- <-. eexists _, _. split; [ reflexivity | ].
    cbn. split; [ reflexivity | apply evolve_refl ].
  - (* If_said *)
    destruct (existsb (Z.eqb n) log); eapply IH; eauto.
  - (* Seq *)
    destruct (mean true fuel lv env vars a r log) as [ [ [ so1 r1 ] log1 ] | ] eqn:M1; [ | discriminate ].
    destruct so1 as [ v | t en v | t en | x | ]; try (injection M as <- <- <-).
    + destruct (IH _ _ _ _ _ _ _ _ _ _ _ I0 X M1 Logic.I) as (mo & s1 & -> & (-> & E)).
      destruct (IH _ _ _ _ _ _ _ _ _ _ _ (Inv_evolve _ _ _ _ _ _ _ I0 E) X M F) as (mo2 & s2 & -> & P).
      eexists _, _. split; [ reflexivity | ]. eapply post_trans; [ exact E | exact P ].
    + destruct (IH _ _ _ _ _ _ _ _ _ _ _ I0 X M1 F) as (mo & s1 & -> & (-> & E)).
      eexists _, _. split; [ reflexivity | ]. split; [ reflexivity | exact E ].
    + contradiction.
    + destruct (IH _ _ _ _ _ _ _ _ _ _ _ I0 X M1 F) as (mo & s1 & -> & ->).
      eexists _, _. split; [ reflexivity | ]. reflexivity.
    + contradiction.
  - (* Signal *)
    cbn [andb] in M. destruct (negb _) eqn:DP in M; [ injection M as <- <- <-; contradiction | ].
    apply deep_of in DP.
    pose proof (look_search r env s c DP A) as LS.
    destruct (look true r env c) as [ | above h p b below | ];
      [ | | injection M as <- <- <-; contradiction ].
    + rewrite LS. destruct (default_answers c); injection M as <- <- <-;
        eexists _, _; (split; [ reflexivity | ]); cbn; auto. split; [ reflexivity | apply evolve_refl ].
    + destruct LS as (Q & O & sa & f & sb & Q1 & L & E & Rb & W). rewrite W. subst s.
      assert (A' : R r (above ++ h :: below) (sa ++ f :: sb)) by (rewrite <- Q; exact A).
      destruct (mean true fuel (S lv) _ _ b r log) as [ [ [ so1 r1 ] log1 ] | ] eqn:M1 in M; [ | discriminate ].
      assert (F1 : fine so1).
      { destruct so1 as [ v | t en v | t en | x | ]; try exact Logic.I; injection M as <- <- <-; exact F. }
      destruct (activate_sim fuel IH lv r above h p b below sa f sb c lv env false so1 r1 log log1 env
                  A' L O B Q ltac:(auto) M1 F1) as (mo & s' & RU & P).
      rewrite RU. pose proof E as (E1 & _ & _ & _ & _ & E6). rewrite O in E6. cbn in E6.
      destruct so1 as [ v | t en v | t en | x | ]; try contradiction.
      * destruct P as [ -> P ]. injection M as <- <- <-. eexists _, _. split; [ reflexivity | ].
        cbn. rewrite E1. split; [ reflexivity | apply P ].
      * destruct P as [ -> P ]. destruct P as [ (-> & _ & P) | (NE & P) ].
        -- rewrite Nat.eqb_refl in *. injection M as <- <- <-. eexists _, _. split; [ reflexivity | ].
           cbn. rewrite E6. split; [ reflexivity | exact P ].
        -- apply Nat.eqb_neq in NE. rewrite NE in *. injection M as <- <- <-.
           eexists _, _. split; [ reflexivity | ]. cbn. split; [ reflexivity | apply P ].
      * subst mo. injection M as <- <- <-. eexists _, _. split; reflexivity.
  - (* On_do *)
    pose proof (R_length _ _ _ A) as LE.
    assert (I1 : Inv (S lv) r (Handler Open lv hs body vars :: env) vars
                     (Frame lv hs 0 body mvars :: s)).
    { split; [ | split; [ | split ] ].
      - cbn [R]. split; [ | exact A ]. unfold entry. cbn. repeat split; auto.
      - cbn. split; [ lia | exact B ].
      - unfold vars_ok in *. eapply Forall_impl; [ | exact C ]. intros x Q Fz. apply reach_cons. exact (Q Fz).
      - destruct vars as [ | x vars ]; [ exact Logic.I | ]. intros LV. destruct (D LV) as (D1 & D2 & D3).
        cbn [length]. split; [ lia | split; [ lia | ] ].
        rewrite lower_cons by exact D1. exact D3. }
    destruct (mean true fuel (S lv) (Handler Open lv hs body vars :: env) vars body r log)
      as [ [ [ so1 r1 ] log1 ] | ] eqn:M1; [ | discriminate ].
    destruct so1 as [ v | t en v | t en | x | ].
    + injection M as <- <- <-.
      destruct (IH _ _ _ _ _ _ _ _ _ _ _ I1 X M1 Logic.I) as (mo & s1 & -> & (-> & E)).
      eexists _, _. split; [ reflexivity | ]. split; [ reflexivity | ]. eapply evolve_tl. exact E.
    + destruct (IH _ _ _ _ _ _ _ _ _ _ _ I1 X M1 Logic.I) as (mo & s1 & -> & (-> & J)).
      pose proof J as (P & J0). pose proof (shape_length _ _ P) as LS. cbn [length] in LS.
      destruct s1 as [ | f1 s1 ]; [ discriminate | ]. cbn [tl length] in *.
      assert (P' : shape s s1) by (inversion P; assumption).
      destruct J0 as [ (J1 & J2) | (x & xs & J1 & J2 & J3 & J4) ].
      * apply reach_inv in J1. cbn [h_id] in J1. destruct J1 as [ (<- & ->) | J1 ].
        -- rewrite Nat.eqb_refl in *. injection M as <- <- <-.
           eexists _, _. split; [ reflexivity | ]. split; [ reflexivity | ].
           rewrite !lower_cons in J2 by lia. rewrite !lower_all in J2 by lia. exact J2.
        -- pose proof (reach_id _ _ _ _ _ _ A B J1) as LT.
           assert (NE : (t =? lv) = false) by (apply Nat.eqb_neq; lia).
           rewrite NE in *. injection M as <- <- <-.
           eexists _, _. split; [ reflexivity | ]. split; [ reflexivity | ].
           split; [ exact P' | ]. left. split; [ exact J1 | ].
           apply reach_length in J1. rewrite !lower_cons in J2 by lia. exact J2.
      * subst vars. destruct (D J2) as (D1 & D2 & D3).
        assert (N : length en <= length (s_here x)).
        { destruct J3 as [ (_ & ->) | J3 ]; [ lia | apply reach_length in J3; lia ]. }
        assert (JK : jump_ok r env (x :: xs) s r1 s1 t en).
        { split; [ exact P' | ]. right. exists x, xs.
          split; [ reflexivity | split; [ exact J2 | split; [ exact J3 | ] ] ].
          rewrite !lower_cons in J4 by lia. exact J4. }
        pose proof (jump_lt _ _ _ _ _ _ _ _ _ I0 JK) as LT.
        assert (NE : (t =? lv) = false) by (apply Nat.eqb_neq; lia).
        rewrite NE in *. injection M as <- <- <-.
        eexists _, _. split; [ reflexivity | ]. split; [ reflexivity | exact JK ].
    + exfalso. destruct (t =? lv) eqn:TE.
      * apply Nat.eqb_eq in TE. subst t.
        exact (no_redo _ _ _ _ _ _ _ _ _ _ _ M1).
      * injection M as <- <- <-. exact F.
    + injection M as <- <- <-.
      destruct (IH _ _ _ _ _ _ _ _ _ _ _ I1 X M1 Logic.I) as (mo & s1 & -> & ->).
      eexists _, _. split; [ reflexivity | ]. reflexivity.
    + injection M as <- <- <-. contradiction.
  - (* Ensure *)
    destruct (mean true fuel lv env vars body r log) as [ [ [ so1 r1 ] log1 ] | ] eqn:M1; [ | discriminate ].
    destruct so1 as [ v | t en v | t en | x | ].
    + destruct (IH _ _ _ _ _ _ _ _ _ _ _ I0 X M1 Logic.I) as (mo & s1 & -> & (-> & E)).
      pose proof (Inv_evolve _ _ _ _ _ _ _ I0 E) as I1.
      destruct (mean true fuel lv env vars fin r1 log1) as [ [ [ so2 r2 ] log2 ] | ] eqn:M2; [ | discriminate ].
      assert (F2 : fine so2) by (destruct so2; try exact Logic.I; injection M as <- <- <-; exact F).
      destruct (IH _ _ _ _ _ _ _ _ _ _ _ I1 X M2 F2) as (mo2 & s2 & -> & P).
      pose proof (post_trans _ _ _ _ _ _ _ _ _ _ E P) as P'.
      destruct so2 as [ w | t2 en2 w | t2 en2 | x | ]; try contradiction; injection M as <- <- <-; cbn in P'.
      * destruct P' as [ -> P' ]. eexists _, _. split; [ reflexivity | ]. split; [ reflexivity | exact P' ].
      * destruct P' as [ -> P' ]. eexists _, _. split; [ reflexivity | ]. split; [ reflexivity | exact P' ].
      * subst mo2. eexists _, _. split; reflexivity.
    + destruct (IH _ _ _ _ _ _ _ _ _ _ _ I0 X M1 Logic.I) as (mo & s1 & -> & (-> & J)).
      pose proof (leaving_Inv _ _ _ _ _ _ _ _ _ I0 J) as I1.
      destruct (mean true fuel lv (leaving env en) (map freeze vars) fin r1 log1)
        as [ [ [ so2 r2 ] log2 ] | ] eqn:M2; [ | discriminate ].
      assert (F2 : fine so2) by (destruct so2; try exact Logic.I; injection M as <- <- <-; exact F).
      destruct (IH _ _ _ _ _ _ _ _ _ _ _ I1 (freeze_XR _ _ X) M2 F2) as (mo2 & s2 & -> & P).
      pose proof (leaving_post _ _ _ _ _ _ _ _ _ v _ _ _ _ I0 J P F2) as P'.
      destruct so2 as [ w | t2 en2 w | t2 en2 | x | ]; try contradiction; injection M as <- <- <-.
      * destruct P' as (w' & -> & P'). eexists _, _. split; [ reflexivity | exact P' ].
      * pose proof P' as (-> & _). eexists _, _. split; [ reflexivity | exact P' ].
      * pose proof P' as Q. cbn in Q. subst mo2. eexists _, _. split; reflexivity.
    + exfalso. destruct (mean true fuel lv (leaving env en) (map freeze vars) fin r1 log1)
        as [ [ [ so2 r2 ] log2 ] | ] eqn:M2; [ | discriminate ].
      exact (no_redo _ _ _ _ _ _ _ _ _ _ _ M1).
    + injection M as <- <- <-.
      destruct (IH _ _ _ _ _ _ _ _ _ _ _ I0 X M1 Logic.I) as (mo & s1 & -> & ->).
      eexists _, _. split; reflexivity.
    + injection M as <- <- <-. contradiction.
  - (* Ex_return *)
    pose proof (nth_XR _ _ k X) as XK.
    destruct (nth_error vars k) as [ x | ] eqn:NV; destruct (nth_error mvars k) as [ y | ]; try contradiction.
    2: { injection M as <- <- <-. eexists _, _. split; reflexivity. }
    cbn [andb] in M. destruct (s_frozen x) eqn:FZ; [ injection M as <- <- <-; contradiction | ].
    destruct (mean true fuel lv env vars a r log) as [ [ [ so1 r1 ] log1 ] | ] eqn:M1; [ | discriminate ].
    destruct so1 as [ v | t en v | t en | z | ]; injection M as <- <- <-; try contradiction.
    + destruct (IH _ _ _ _ _ _ _ _ _ _ _ I0 X M1 Logic.I) as (mo & s1 & -> & (-> & E)).
      destruct XK as (_ & XI & _).
      eexists _, _. split; [ reflexivity | ]. cbn. rewrite XI. split; [ reflexivity | ].
      split; [ eapply shape_trans; [ eapply evolve_shape; exact E | apply reset_all_shape ] | ].
      left. split.
      * unfold vars_ok in C. rewrite Forall_forall in C. apply C; [ | exact FZ ].
        eapply nth_error_In. exact NV.
      * apply evolve_lower. apply evolve_reset_all. exact E.
    + destruct (IH _ _ _ _ _ _ _ _ _ _ _ I0 X M1 F) as (mo & s1 & -> & (-> & E)).
      eexists _, _. split; [ reflexivity | ]. split; [ reflexivity | exact E ].
    + destruct (IH _ _ _ _ _ _ _ _ _ _ _ I0 X M1 F) as (mo & s1 & -> & ->).
      eexists _, _. split; reflexivity.
  - (* Ex_resume *)
    pose proof (nth_XR _ _ k X) as XK.
    destruct (nth_error vars k) as [ x | ] eqn:NV; destruct (nth_error mvars k) as [ y | ]; try contradiction.
    2: { injection M as <- <- <-. eexists _, _. split; reflexivity. }
    cbn [andb] in M.
    destruct (s_frozen x || s_passed x || negb (k =? 0)) eqn:FZ; [ injection M as <- <- <-; contradiction | ].
    apply orb_false_iff in FZ. destruct FZ as [ FZ K0 ]. apply orb_false_iff in FZ. destruct FZ as [ FZ FP ].
    apply negb_false_iff in K0. apply Nat.eqb_eq in K0. subst k.
    destruct vars as [ | x' xs ]; [ discriminate | ]. cbn in NV. injection NV as ->.
    destruct (mean true fuel lv env (x :: xs) a r log) as [ [ [ so1 r1 ] log1 ] | ] eqn:M1; [ | discriminate ].
    destruct so1 as [ v | t en v | t en | z | ]; try (injection M as <- <- <-; try contradiction).
    + destruct (IH _ _ _ _ _ _ _ _ _ _ _ I0 X M1 Logic.I) as (mo & s1 & -> & (-> & E)).
      destruct XK as (XC & XI & XP & XR'). rewrite XC.
      destruct (resumable (s_class x)); injection M as <- <- <-.
      * eexists _, _. split; [ reflexivity | ]. cbn. rewrite XI, XP, (XR' FP). split; [ reflexivity | ].
        split; [ eapply shape_trans; [ eapply evolve_shape; exact E | apply reset_shape ] | ].
        right. exists x, xs. split; [ reflexivity | split; [ split; [ exact FZ | exact FP ] | split ] ].
        -- left. auto.
        -- rewrite reset_lower. apply evolve_reset_both. apply evolve_lower. exact E.
      * eexists _, _. split; reflexivity.
    + destruct (IH _ _ _ _ _ _ _ _ _ _ _ I0 X M1 F) as (mo & s1 & -> & (-> & E)).
      eexists _, _. split; [ reflexivity | ]. split; [ reflexivity | exact E ].
    + destruct (IH _ _ _ _ _ _ _ _ _ _ _ I0 X M1 F) as (mo & s1 & -> & ->).
      eexists _, _. split; reflexivity.
  - (* Ex_outer *)
    pose proof (nth_XR _ _ k X) as XK.
    destruct (nth_error vars k) as [ x | ] eqn:NV; destruct (nth_error mvars k) as [ y | ]; try contradiction.
    2: { injection M as <- <- <-. eexists _, _. split; reflexivity. }
    cbn [andb] in M.
    destruct (s_frozen x || negb (Z.of_nat (length (s_class x)) <? 100000)%Z) eqn:FZ;
      [ injection M as <- <- <-; contradiction | ].
    apply orb_false_iff in FZ. destruct FZ as [ FZ DP ]. apply deep_of in DP.
    assert (RE : reach env (s_id x) (s_below x)).
    { unfold vars_ok in C. rewrite Forall_forall in C. apply C; [ | exact FZ ]. eapply nth_error_In. exact NV. }
    pose proof (below_search lv r env s x (s_class x) A B RE DP) as LS.
    destruct XK as (XC & XI & _). rewrite XC, XI.
    destruct (look true r (s_below x) (s_class x)) as [ | above h p b below | ];
      [ | | injection M as <- <- <-; contradiction ].
    + rewrite LS. destruct (default_answers (s_class x)); injection M as <- <- <-;
        eexists _, _; (split; [ reflexivity | ]); cbn; auto. split; [ reflexivity | apply evolve_refl ].
    + cbv zeta in LS.
      set (ab := firstn (length env - length (s_below x)) env ++ above) in *.
      destruct LS as (Q & O & sa & f & sb & Q1 & L & W). rewrite W. subst s.
      assert (A' : R r (ab ++ h :: below) (sa ++ f :: sb)) by (rewrite <- Q; exact A).
      destruct (mean true fuel (S lv) _ _ b r log) as [ [ [ so1 r1 ] log1 ] | ] eqn:M1 in M; [ | discriminate ].
      assert (F1 : fine so1).
      { destruct so1 as [ v | t en v | t en | z | ]; try exact Logic.I; injection M as <- <- <-; exact F. }
      destruct (activate_sim fuel IH lv r ab h p b below sa f sb (s_class x) lv env false so1 r1 log log1 env
                  A' L O B Q ltac:(auto) M1 F1) as (mo & s' & RU & P).
      rewrite RU.
      assert (E6 : f_active f = 0%Z).
      { destruct (R_split r ab (h :: below) _ A') as (sa' & sb' & Q' & L' & M' & _).
        assert (sa' = sa /\ sb' = f :: sb) as [ -> -> ].
        { assert (Y : length sa = length sa') by lia. clear - Q' Y. revert sa' Q' Y.
          induction sa as [ | a sa IH ]; intros [ | b sa' ] Q Y; cbn in *; try lia; [ auto | ].
          injection Q as -> Q. destruct (IH sa' Q ltac:(lia)) as [ -> -> ]. auto. }
        destruct M' as [ (_ & _ & _ & _ & _ & E6) _ ]. rewrite O in E6. exact E6. }
      destruct so1 as [ v | t en v | t en | z | ]; try contradiction.
      * injection M as <- <- <-. contradiction.
      * destruct P as [ -> P ]. destruct P as [ (-> & _ & P) | (NE & P) ].
        -- rewrite Nat.eqb_refl in *. injection M as <- <- <-. eexists _, _. split; [ reflexivity | ].
           cbn. rewrite E6. split; [ reflexivity | exact P ].
        -- apply Nat.eqb_neq in NE. rewrite NE in *. injection M as <- <- <-.
           eexists _, _. split; [ reflexivity | ]. cbn. split; [ reflexivity | apply P ].
      * subst mo. injection M as <- <- <-. eexists _, _. split; reflexivity.
  - (* Ex_pass *)
    pose proof (nth_XR _ _ k X) as XK.
    destruct (nth_error vars k) as [ x | ] eqn:NV; destruct (nth_error mvars k) as [ y | ]; try contradiction.
    2: { injection M as <- <- <-. eexists _, _. split; reflexivity. }
    cbn [andb] in M.
    destruct (s_frozen x || negb (Z.of_nat (length (s_class x)) <? 100000)%Z) eqn:FZ;
      [ injection M as <- <- <-; contradiction | ].
    apply orb_false_iff in FZ. destruct FZ as [ FZ DP ]. apply deep_of in DP.
    assert (RE : reach env (s_id x) (s_below x)).
    { unfold vars_ok in C. rewrite Forall_forall in C. apply C; [ | exact FZ ]. eapply nth_error_In. exact NV. }
    pose proof (below_search lv r env s x (s_class x) A B RE DP) as LS.
    destruct XK as (XC & XI & _). rewrite XC, XI.
    destruct (look true r (s_below x) (s_class x)) as [ | above h p b below | ];
      [ | | injection M as <- <- <-; contradiction ].
    + rewrite LS. destruct (default_answers (s_class x)); injection M as <- <- <-; [ contradiction | ].
      eexists _, _. split; reflexivity.
    + cbv zeta in LS.
      set (ab := firstn (length env - length (s_below x)) env ++ above) in *.
      destruct LS as (Q & O & sa & f & sb & Q1 & L & W). rewrite W. subst s.
      assert (A' : R r (ab ++ h :: below) (sa ++ f :: sb)) by (rewrite <- Q; exact A).
      destruct (mean true fuel (S lv) _ _ b r log) as [ [ [ so1 r1 ] log1 ] | ] eqn:M1 in M; [ | discriminate ].
      assert (F1 : fine so1).
      { destruct so1 as [ v | t en v | t en | z | ]; try exact Logic.I; injection M as <- <- <-; exact F. }
      destruct (activate_sim fuel IH lv r ab h p b below sa f sb (s_class x) (s_resume x) (s_here x) true
                  so1 r1 log log1 env A' L O B Q ltac:(discriminate) M1 F1) as (mo & s' & RU & P).
      rewrite RU.
      destruct so1 as [ v | t en v | t en | z | ]; try contradiction; injection M as <- <- <-.
      * contradiction.
      * destruct P as [ -> P ]. destruct P as [ (_ & P & _) | (NE & P) ]; [ discriminate | ].
        apply Nat.eqb_neq in NE. rewrite NE.
        eexists _, _. split; [ reflexivity | ]. cbn. split; [ reflexivity | apply P ].
      * subst mo. eexists _, _. split; reflexivity.
  - (* Ex_retry *)
    pose proof (nth_XR _ _ k X) as XK.
    destruct (nth_error vars k) as [ x | ] eqn:NV; destruct (nth_error mvars k) as [ y | ]; try contradiction.
    2: { injection M as <- <- <-. eexists _, _. split; reflexivity. }
    injection M as <- <- <-. contradiction.
Qed.

(** * With and without [strict] *)

Lemma look_strict : forall r env c,
  look true r env c <> Stray -> look false r env c = look true r env c.
Proof.
  intros r env c. induction env as [ | h env IH ]; intros K; [ reflexivity | ].
  cbn [look] in *. cbv zeta in *.
  destruct (h_status h) as [ | p g | ].
  - destruct (choose (h_handlers h) c) as [ (p, b) | ]; [ reflexivity | ].
    rewrite IH; [ reflexivity | ]. intros Q. rewrite Q in K. apply K. reflexivity.
  - cbn [andb] in *. destruct (in_the_way r h c); [ exfalso; apply K; reflexivity | ].
    rewrite IH; [ reflexivity | ]. intros Q. rewrite Q in K. apply K. reflexivity.
  - cbn [andb] in *. destruct (in_the_way r h c); [ exfalso; apply K; reflexivity | ].
    rewrite IH; [ reflexivity | ]. intros Q. rewrite Q in K. apply K. reflexivity.
Qed.

Theorem strict_sound : forall fuel lv env vars e r log so r' log',
  mean true fuel lv env vars e r log = Some (so, r', log') -> so <> SStray ->
  mean false fuel lv env vars e r log = Some (so, r', log').
Proof.
  induction fuel as [ | fuel IH ]; intros lv env vars e r log so r' log' K F; [ discriminate | ].
  destruct e as [ v | n | n a b | a b | c | body hs | body fin | k a | k a | k | k | k ];
    cbn [mean] in *; cbv zeta in *; cbn [andb] in *.
  - exact K.
  - exact K.
  - destruct (existsb (Z.eqb n) log); apply IH; assumption.
  - destruct (mean true fuel lv env vars a r log) as [ [ [ so1 r1 ] log1 ] | ] eqn:M1; [ | discriminate ].
    assert (N : so1 <> SStray) by (intros ->; injection K as <- <- <-; apply F; reflexivity).
    rewrite (IH _ _ _ _ _ _ _ _ _ M1 N). destruct so1; auto.
  - destruct (negb _); [ injection K as <- <- <-; exfalso; apply F; reflexivity | ].
    assert (N : look true r env c <> Stray).
    { intros Q. rewrite Q in K. injection K as <- <- <-. apply F. reflexivity. }
    rewrite (look_strict r env c N).
    destruct (look true r env c) as [ | above h p b below | ]; [ exact K | | contradiction ].
    destruct (mean true fuel _ _ _ b r log) as [ [ [ so1 r1 ] log1 ] | ] eqn:M1; [ | discriminate ].
    assert (N1 : so1 <> SStray) by (intros ->; injection K as <- <- <-; apply F; reflexivity).
    rewrite (IH _ _ _ _ _ _ _ _ _ M1 N1). exact K.
  - destruct (mean true fuel _ _ vars body r log) as [ [ [ so1 r1 ] log1 ] | ] eqn:M1; [ | discriminate ].
    assert (N1 : so1 <> SStray) by (intros ->; injection K as <- <- <-; apply F; reflexivity).
    rewrite (IH _ _ _ _ _ _ _ _ _ M1 N1).
    destruct so1 as [ v | t en v | t en | z | ]; auto.
    destruct (t =? lv); [ apply IH; assumption | exact K ].
  - destruct (mean true fuel lv env vars body r log) as [ [ [ so1 r1 ] log1 ] | ] eqn:M1; [ | discriminate ].
    assert (N1 : so1 <> SStray) by (intros ->; injection K as <- <- <-; apply F; reflexivity).
    rewrite (IH _ _ _ _ _ _ _ _ _ M1 N1).
    destruct so1 as [ v | t en v | t en | z | ]; auto.
    + destruct (mean true fuel lv env vars fin r1 log1) as [ [ [ so2 r2 ] log2 ] | ] eqn:M2; [ | discriminate ].
      assert (N2 : so2 <> SStray) by (intros ->; injection K as <- <- <-; apply F; reflexivity).
      rewrite (IH _ _ _ _ _ _ _ _ _ M2 N2). exact K.
    + destruct (mean true fuel lv (leaving env en) _ fin r1 log1) as [ [ [ so2 r2 ] log2 ] | ] eqn:M2; [ | discriminate ].
      assert (N2 : so2 <> SStray) by (intros ->; injection K as <- <- <-; apply F; reflexivity).
      rewrite (IH _ _ _ _ _ _ _ _ _ M2 N2). exact K.
    + destruct (mean true fuel lv (leaving env en) _ fin r1 log1) as [ [ [ so2 r2 ] log2 ] | ] eqn:M2; [ | discriminate ].
      assert (N2 : so2 <> SStray) by (intros ->; injection K as <- <- <-; apply F; reflexivity).
      rewrite (IH _ _ _ _ _ _ _ _ _ M2 N2). exact K.
  - destruct (nth_error vars k) as [ x | ]; [ | exact K ].
    destruct (s_frozen x); [ injection K as <- <- <-; exfalso; apply F; reflexivity | ].
    destruct (mean true fuel lv env vars a r log) as [ [ [ so1 r1 ] log1 ] | ] eqn:M1; [ | discriminate ].
    assert (N1 : so1 <> SStray) by (intros ->; injection K as <- <- <-; apply F; reflexivity).
    rewrite (IH _ _ _ _ _ _ _ _ _ M1 N1). exact K.
  - destruct (nth_error vars k) as [ x | ]; [ | exact K ].
    destruct (s_frozen x || s_passed x || negb (k =? 0));
      [ injection K as <- <- <-; exfalso; apply F; reflexivity | ].
    destruct (mean true fuel lv env vars a r log) as [ [ [ so1 r1 ] log1 ] | ] eqn:M1; [ | discriminate ].
    assert (N1 : so1 <> SStray) by (intros ->; injection K as <- <- <-; apply F; reflexivity).
    rewrite (IH _ _ _ _ _ _ _ _ _ M1 N1). exact K.
  - destruct (nth_error vars k) as [ x | ]; [ | exact K ].
    destruct (s_frozen x || negb _); [ injection K as <- <- <-; exfalso; apply F; reflexivity | ].
    assert (N : look true r (s_below x) (s_class x) <> Stray).
    { intros Q. rewrite Q in K. injection K as <- <- <-. apply F. reflexivity. }
    rewrite (look_strict r _ _ N).
    destruct (look true r (s_below x) (s_class x)) as [ | above h p b below | ]; [ exact K | | contradiction ].
    destruct (mean true fuel _ _ _ b r log) as [ [ [ so1 r1 ] log1 ] | ] eqn:M1; [ | discriminate ].
    assert (N1 : so1 <> SStray) by (intros ->; injection K as <- <- <-; apply F; reflexivity).
    rewrite (IH _ _ _ _ _ _ _ _ _ M1 N1).
    destruct so1; auto. injection K as <- <- <-. exfalso. apply F. reflexivity.
  - destruct (nth_error vars k) as [ x | ]; [ | exact K ].
    destruct (s_frozen x || negb _); [ injection K as <- <- <-; exfalso; apply F; reflexivity | ].
    assert (N : look true r (s_below x) (s_class x) <> Stray).
    { intros Q. rewrite Q in K. injection K as <- <- <-. apply F. reflexivity. }
    rewrite (look_strict r _ _ N).
    destruct (look true r (s_below x) (s_class x)) as [ | above h p b below | ]; [ | | contradiction ].
    + destruct (default_answers (s_class x)); [ | exact K ].
      injection K as <- <- <-. exfalso. apply F. reflexivity.
    + destruct (mean true fuel _ _ _ b r log) as [ [ [ so1 r1 ] log1 ] | ] eqn:M1; [ | discriminate ].
      assert (N1 : so1 <> SStray) by (intros ->; injection K as <- <- <-; apply F; reflexivity).
      rewrite (IH _ _ _ _ _ _ _ _ _ M1 N1).
      destruct so1; auto. injection K as <- <- <-. exfalso. apply F. reflexivity.
  - destruct (nth_error vars k) as [ x | ]; [ | exact K ].
    injection K as <- <- <-. exfalso. apply F. reflexivity.
Qed.

(** * Whole statements *)

Theorem handled_as_meant : forall fuel p x log,
  answer true fuel p = Some (Some (x, log)) ->
  execute fuel p = Some (x, log) /\ answer false fuel p = Some (Some (x, log)).
Proof.
  intros fuel p x log K. unfold answer in *.
  destruct (mean true fuel 0 [] [] p 0 []) as [ [ [ so r ] l ] | ] eqn:M; [ | discriminate ].
  assert (I0 : Inv 0 0 [] [] []) by (repeat split; constructor).
  assert (F : fine so).
  { destruct so; try exact Logic.I; [ | discriminate ]. exact (no_redo _ _ _ _ _ _ _ _ _ _ _ M). }
  assert (N : so <> SStray) by (destruct so; congruence).
  destruct (simulation fuel _ _ _ _ _ _ _ _ _ _ _ I0 (Forall2_nil _) M F) as (mo & s' & RU & P).
  rewrite (strict_sound _ _ _ _ _ _ _ _ _ _ M N).
  unfold execute. rewrite RU.
  destruct so as [ v | t en v | t en | z | ]; cbn in P; try contradiction.
  - destruct P as [ -> _ ]. injection K as <- <-. auto.
  - destruct P as [ -> _ ]. injection K as <- <-. auto.
  - subst mo. injection K as <- <-. auto.
Qed.

(** * The choice among several handlers *)

Lemma first_naming_app : forall l1 s h l2 a,
  Forall (fun sh => names (fst sh) a = false) l1 -> names s a = true ->
  first_naming (l1 ++ (s, h) :: l2) a = Some (length l1, h).
Proof.
  induction l1 as [ | (s', h') l1 IH ]; intros s h l2 a K N; cbn [app first_naming].
  - rewrite N. reflexivity.
  - inversion K as [ | ? ? K1 K2 ]. subst. cbn in K1. rewrite K1, (IH s h l2 a K2 N). reflexivity.
Qed.

Lemma first_naming_no : forall hs a,
  Forall (fun sh => names (fst sh) a = false) hs -> first_naming hs a = None.
Proof.
  induction hs as [ | (s, h) hs IH ]; intros a K; [ reflexivity | ].
  inversion K as [ | ? ? K1 K2 ]. subst. cbn in *. rewrite K1, (IH a K2). reflexivity.
Qed.

Lemma choose_at : forall hs pre a,
  (forall pre' b, pre ++ a = pre' ++ b -> length a < length b ->
     Forall (fun sh => names (fst sh) b = false) hs) ->
  forall r, first_naming hs a = Some r -> choose hs (pre ++ a) = Some r.
Proof.
  intros hs. induction pre as [ | x pre IH ]; intros a K r F.
  - cbn [app]. destruct a; cbn [choose]; rewrite F; reflexivity.
  - cbn [app choose]. rewrite first_naming_no.
    + apply IH; [ | exact F ]. intros pre' b Q L. apply (K (x :: pre') b); [ | exact L ].
      cbn. congruence.
    + apply (K [] (x :: pre ++ a)); [ reflexivity | ]. cbn. rewrite app_length. lia.
Qed.

Lemma picks_choose : forall hs c v,
  picks hs c v ->
  exists p, choose (map (fun sv => (fst sv, Val (snd sv))) hs) c = Some (p, Val v).
Proof.
  intros hs c v (l1 & s & l2 & a & pre & -> & -> & N & M & O).
  exists (length l1). apply choose_at.
  - intros pre' b Q L. rewrite Forall_forall. intros sh I1. apply in_map_iff in I1.
    destruct I1 as (sv & <- & I1). cbn [fst]. apply (M (fst sv)) with (pre' := pre'); auto.
    apply in_map. exact I1.
  - rewrite map_app. cbn [map fst snd].
    rewrite first_naming_app with (s := s) (h := Val v).
    + rewrite map_length. reflexivity.
    + rewrite Forall_forall. intros sh I1. apply in_map_iff in I1.
      destruct I1 as (sv & <- & I1). cbn [fst]. apply O. apply in_map. exact I1.
    + exact N.
Qed.

Theorem picks_run : forall hs c v,
  (Z.of_nat (length c) < 100000)%Z -> picks hs c v ->
  forall fuel, execute (S (S (S fuel))) (On_do (Signal c) (map (fun sv => (fst sv, Val (snd sv))) hs))
  = Some (Answers v, []).
Proof.
  intros hs c v D K fuel. destruct (picks_choose _ _ _ K) as (p & C).
  unfold execute. cbn [run search]. cbv zeta.
  unfold search_frame. cbn [f_active f_handlers]. cbn [Z.eqb].
  rewrite best_choose by exact D. rewrite C. reflexivity.
Qed.

Theorem unpicked_run : forall hs c,
  (Z.of_nat (length c) < 100000)%Z ->
  (forall s, In s (map fst hs) -> forall pre b, c = pre ++ b -> names s b = false) ->
  forall fuel, execute (S (S (S fuel))) (On_do (Signal c) (map (fun sv => (fst sv, Val (snd sv))) hs))
  = Some (if default_answers c then Answers None else Unhandled c, []).
Proof.
  intros hs c D K fuel.
  assert (C : choose (map (fun sv => (fst sv, Val (snd sv))) hs) c = None).
  { apply choose_none. rewrite Forall_forall. intros sh I1. apply in_map_iff in I1.
    destruct I1 as (sv & <- & I1). cbn [fst].
    destruct (nearest (fst sv) c) as [ a | ] eqn:E; [ | reflexivity ].
    destruct (nearest_some _ _ _ E) as (N & (pre & P) & _).
    rewrite (K (fst sv) (in_map fst _ _ I1) pre a P) in N. discriminate. }
  unfold execute. cbn [run search]. cbv zeta.
  unfold search_frame. cbn [f_active f_handlers]. cbn [Z.eqb].
  rewrite best_choose by exact D. rewrite C. destruct (default_answers c); reflexivity.
Qed.

(** * A program that never ends *)

(** [Error signal] on: Error do: [:e |
      [Error signal] on: Error do: [:f | f return: 1].  Error signal] *)
Definition again_handler : expr :=
  Seq (On_do (Signal Error_class) [(Class Error_class, Ex_return 0 (Val (Some 1%Z)))])
      (Signal Error_class).
Definition again : expr := On_do (Signal Error_class) [(Class Error_class, again_handler)].

Lemma again_inner : forall fuel lv vars a f,
  let r := run fuel lv [put_active f a] vars
    (On_do (Signal Error_class) [(Class Error_class, Ex_return 0 (Val (Some 1%Z)))]) [] in
  r = None \/ r = Some (Got (Some 1%Z), [put_active f 0], []).
Proof.
  intros fuel lv vars a f.
  destruct fuel as [ | [ | [ | [ | fuel ] ] ] ]; cbv zeta; try (left; reflexivity).
  right. cbn [run search]. cbv zeta.
  unfold search_frame at 1. cbn [f_active f_handlers].
  change (best_handler [(Class Error_class, Ex_return 0 (Val (Some 1%Z)))] 1 Error_class 0 None (-1))
    with (Some (1%Z, Ex_return 0 (Val (Some 1%Z)))).
  cbn [Z.eqb]. cbv iota beta.
  cbn [nth_error f_id f_active f_vars put_active x_context].
  replace (lv =? S lv) with false by (symmetry; apply Nat.eqb_neq; lia).
  rewrite Nat.eqb_refl. cbn [reset_all map tl]. rewrite put_put. reflexivity.
Qed.

Lemma again_signal : forall fuel lv vars f,
  f_handlers f = [(Class Error_class, again_handler)] ->
  run fuel (S lv) [put_active f 1]
      (Exc Error_class (f_id f) 0 lv :: f_vars f) again_handler [] = None ->
  run (S fuel) lv [put_active f 0] vars (Signal Error_class) [] = None.
Proof.
  intros fuel lv vars f H K. cbn [run]. cbv zeta. cbn [search].
  unfold search_frame. cbn [f_active put_active f_handlers]. rewrite H. cbn [Z.eqb].
  change (best_handler [(Class Error_class, again_handler)] 1 Error_class 0 None (-1))
    with (Some (1%Z, again_handler)).
  cbv iota beta. change (1 - 1)%Z with 0%Z. change (Z.setbit 0 0) with 1%Z.
  fold (put_active f 0). rewrite put_put. cbn [f_id f_active f_vars put_active].
  fold (put_active f 1). rewrite K. reflexivity.
Qed.

Lemma again_loops : forall fuel lv vars a f,
  f_handlers f = [(Class Error_class, again_handler)] ->
  run fuel lv [put_active f a] vars again_handler [] = None.
Proof.
  intros fuel. induction fuel as [ fuel IH ] using (well_founded_induction lt_wf).
  intros lv vars a f H.
  destruct fuel as [ | fuel ]; [ reflexivity | ].
  assert (Q : run (S fuel) lv [put_active f a] vars again_handler []
              = match run fuel lv [put_active f a] vars
                        (On_do (Signal Error_class)
                               [(Class Error_class, Ex_return 0 (Val (Some 1%Z)))]) [] with
                | Some (Got _, stk, log) => run fuel lv stk vars (Signal Error_class) log
                | r => r
                end) by reflexivity.
  rewrite Q. destruct (again_inner fuel lv vars a f) as [ -> | -> ]; [ reflexivity | ].
  destruct fuel as [ | fuel ]; [ reflexivity | ].
  apply again_signal; [ exact H | ]. apply IH; [ lia | exact H ].
Qed.

Theorem again_never_ends : forall fuel, execute fuel again = None.
Proof.
  intros fuel. unfold execute.
  destruct fuel as [ | fuel ]; [ reflexivity | ].
  assert (Q : run fuel 1 [Frame 0 [(Class Error_class, again_handler)] 0 (Signal Error_class) []] []
                  (Signal Error_class) [] = None).
  { destruct fuel as [ | fuel ]; [ reflexivity | ].
    apply (again_signal fuel 1 [] (Frame 0 [(Class Error_class, again_handler)] 0 (Signal Error_class) []));
      [ reflexivity | ].
    apply again_loops. reflexivity. }
  unfold again. cbn [run]. cbv zeta. rewrite Q. reflexivity.
Qed.
