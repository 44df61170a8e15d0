(** Making streams, and whole histories. *)
From Coq Require Import ZifyBool ZifyNat.
From Verif Require Import Base Pipe PipeSpec PipeProofs PipeRun.

Record sim (e : expr) (s : strm) (l : list obj) (n : Z) : Prop := {
  s_wf : wf s;
  s_elems : elems s = l;
  s_weight : (weight s <= size e)%nat;
  s_peeks : forall x, peeks x e -> speeks x s;
  s_nil : ends_nil e -> nilly s;
  s_pos : positioned e -> posn s = Some n;
  s_has : has_position e -> hpos s }.

Definition zero (e : expr) (s : strm) : Prop :=
  match s with Concat _ start cur => ~ no_cat e /\ start + cur = 0 | _ => True end.

Lemma positioned_has e : positioned e -> has_position e.
Proof. induction e; cbn; auto; contradiction. Qed.

Lemma good_run n : good (run n) n.
Proof. exact (proj1 (all_good n)). Qed.

Lemma filtered_ok fuel s p b : wf s -> (2 + weight s <= fuel)%nat ->
  exists s', filtered fuel s p b = Ok s' /\ wf s' /\ elems s' = filter (matching p b) (elems s) /\ (weight s' <= 3 + weight s)%nat
    /\ (forall x, atomic x -> speeks x s') /\ nilly s' /\ zero (Select (From []) p) s'.
Proof.
  intros W N. destruct (all_good fuel) as (_ & _ & K). destruct (K s p b Nil W N) as (a & s' & E & L & El & Lw).
  exists s'. unfold filtered. rewrite E. split; [reflexivity|]. split; [exact (l_wf _ _ L)|]. split; [exact El|]. split; [exact Lw|].
  split; [intros x Hx; exact (l_peeks _ _ L x Hx)|]. split; [exact (l_nilly _ _ L I)|].
  destruct s'; cbn [zero]; auto.
  exfalso. assert (F : forall n, forall t p b nx, match run n Look (Filter t p b nx false) with Ok (_, Concat _ _ _) => False | _ => True end).
  { clear. induction n as [|n IH]; intros t p b nx; [exact I|]. rewrite run_look. destruct (ask (run n) AtEnd t) as [[x t1]| | | |]; cbn [obind fst snd]; auto.
    destruct x; [exact I|]. destruct (run n Next t1) as [[v t2]| | | |]; cbn [obind fst snd]; auto.
    destruct (Bool.eqb (p v) b); [exact I|]. apply IH. }
  specialize (F fuel s p b Nil). rewrite E in F. exact F.
Qed.

Lemma matching_true p l : filter (matching p true) l = filter p l.
Proof. apply filter_ext. intros x. unfold matching. destruct (p x); reflexivity. Qed.
Lemma matching_false p l : filter (matching p false) l = filter (fun x => negb (p x)) l.
Proof. apply filter_ext. intros x. unfold matching. destruct (p x); reflexivity. Qed.

Lemma one_ok fuel s ss : wf s -> all_wf ss -> hpos s -> (weight s <= fuel)%nat ->
  exists s' n, one_of_each fuel (s :: ss) = Ok (OneOfEach (s' :: ss) n) /\ later s s' /\ elems s' = elems s.
Proof.
  intros W Ws P N. destruct (good_run fuel Position s W P N) as (a & s' & E & [L El _ _ (k & -> & _)]).
  exists s', k. unfold one_of_each. rewrite E. cbn [obind fst snd]. auto.
Qed.

Lemma fold_app {A} (P : A -> Prop) l x : fold_right (fun s Q => P s /\ Q) True (l ++ [x]) <-> fold_right (fun s Q => P s /\ Q) True l /\ P x.
Proof. induction l as [|y l IH]; cbn [app fold_right]; [tauto|]. rewrite IH. tauto. Qed.

Lemma total_app ss t : total (ss ++ [t]) = (total ss + S (weight t))%nat.
Proof. induction ss as [|s ss IH]; [cbn; lia|]. cbn [app]. rewrite !total_cons, IH. lia. Qed.

Lemma cat_ok e s t t' : wf s -> zero e s -> wf t -> wf t' ->
  (match s with Concat _ _ _ => t = t' | _ => True end) ->
  exists ss start cur, cat s t t' = Concat ss start cur /\ start + cur = 0 /\ ss <> [] /\ all_wf ss
    /\ concat (map elems ss) = elems s ++ elems t' /\ (3 + total ss <= 5 + weight s + weight t')%nat
    /\ (forall x, speeks x s -> speeks x t' -> speeks_all x ss).
Proof.
  intros W Z Wt Wt' Eq.
  assert (Two : exists ss start cur, Concat [s; t'] 0 0 = Concat ss start cur /\ start + cur = 0 /\ ss <> [] /\ all_wf ss
    /\ concat (map elems ss) = elems s ++ elems t' /\ (3 + total ss <= 5 + weight s + weight t')%nat
    /\ (forall x, speeks x s -> speeks x t' -> speeks_all x ss)).
  { exists [s; t'], 0, 0. split; [reflexivity|]. split; [reflexivity|]. split; [discriminate|]. split; [cbn; auto|].
    split; [cbn [map concat]; rewrite app_nil_r; reflexivity|]. split; [rewrite !total_cons; cbn; lia|]. intros x H1 H2. cbn. auto. }
  destruct s as [| ss start cur| | | | | |]; try exact Two. subst t'. destruct Z as [_ Z]. destruct W as [N W].
  exists (ss ++ [t]), start, cur. split; [reflexivity|]. split; [exact Z|]. split; [destruct ss; discriminate|].
  split; [apply fold_app; auto|]. split; [rewrite map_app, concat_app; cbn [map concat elems]; rewrite app_nil_r; reflexivity|].
  split; [rewrite total_app; cbn [weight]; fold (total ss); lia|]. intros x H1 H2. apply fold_app. auto.
Qed.

Lemma build_ok fuel e : fine e -> (size e <= fuel)%nat -> exists s, build fuel e = Ok s /\ sim e s (meaning e) 0 /\ zero e s.
Proof.
  induction e as [l|e IH e' IH'|e IH l|e IH p|e IH p|e IH f|e IH|e IH e' IH'|e IH e' IH' e'' IH'']; cbn [fine size]; intros Fi N.
  - eexists. split; [reflexivity|]. split; [|exact I].
    constructor; cbn [wf elems meaning weight size speeks nilly posn hpos]; auto.
  - destruct Fi as [F1 F2]. destruct (IH F1 ltac:(lia)) as (s & E & [A B C D E0 F G] & Z). destruct (IH' F2 ltac:(lia)) as (t & E' & [A' B' C' D' E0' F' G'] & Z').
    destruct (cat_ok e s t t A Z A' A' ltac:(destruct s; auto)) as (ss & start & cur & Ec & Z0 & Ne & Wf & El & Tw & Pk).
    cbn [build]. rewrite E, E'. cbn [obind]. rewrite Ec. eexists. split; [reflexivity|]. split; [|split; [intros X; exact X|exact Z0]].
    constructor; cbn [wf elems meaning weight size peeks speeks nilly posn hpos]; auto.
    + congruence.
    + fold (total ss). lia.
    + intros x [H1 H2]. apply Pk; auto.
    + intros _. f_equal. exact Z0.
  - destruct Fi as [F1 F2]. destruct (IH F1 ltac:(lia)) as (s & E & [A B C D E0 F G] & Z).
    assert (Ec : cat s (Items l) (Source l 0) = Concat [s; Source l 0] 0 0).
    { destruct s; try reflexivity. destruct Z as [Z _]. contradiction. }
    cbn [build]. rewrite E. cbn [obind]. rewrite Ec. eexists. split; [reflexivity|]. split; [|split; [intros X; exact X|reflexivity]].
    constructor; cbn [wf elems meaning weight size peeks speeks nilly posn hpos]; auto.
    + split; [discriminate|cbn; auto].
    + cbn [map concat elems]. rewrite app_nil_r. congruence.
    + fold (total [s; Source l 0]). rewrite !total_cons. cbn [weight total map list_sum fold_right]. lia.
    + intros x H1. cbn. auto.
  - destruct (IH Fi ltac:(lia)) as (s & E & [A B C D E0 F G] & Z).
    destruct (filtered_ok fuel s p true A ltac:(lia)) as (s' & Es & W & El & Lw & P & Nl & Z').
    cbn [build]. rewrite E. cbn [obind]. exists s'. split; [exact Es|]. split.
    + constructor; cbn [meaning size peeks positioned has_position]; auto; try contradiction.
      * rewrite El, B. apply matching_true.
      * lia.
    + exact Z'.
  - destruct (IH Fi ltac:(lia)) as (s & E & [A B C D E0 F G] & Z).
    destruct (filtered_ok fuel s p false A ltac:(lia)) as (s' & Es & W & El & Lw & P & Nl & Z').
    cbn [build]. rewrite E. cbn [obind]. exists s'. split; [exact Es|]. split.
    + constructor; cbn [meaning size peeks positioned has_position]; auto; try contradiction.
      * rewrite El, B. apply matching_false.
      * lia.
    + exact Z'.
  - destruct (IH Fi ltac:(lia)) as (s & E & [A B C D E0 F G] & Z).
    cbn [build]. rewrite E. cbn [obind]. eexists. split; [reflexivity|]. split; [|exact I].
    constructor; cbn [wf elems meaning weight size peeks speeks nilly posn hpos positioned has_position]; auto; try contradiction.
    + congruence.
    + lia.
  - destruct Fi as [Fi Fp]. destruct (IH Fi ltac:(lia)) as (s & E & [A B C D E0 F G] & Z).
    cbn [build]. rewrite E. cbn [obind]. eexists. split; [reflexivity|]. split; [|exact I].
    constructor; cbn [wf elems meaning weight size peeks speeks nilly posn hpos positioned has_position]; auto; try contradiction.
    + congruence.
    + lia.
  - destruct Fi as (F1 & F2 & Fh). destruct (IH F1 ltac:(lia)) as (s & E & [A B C D E0 F G] & Z). destruct (IH' F2 ltac:(lia)) as (t & E' & [A' B' C' D' E0' F' G'] & Z').
    destruct (one_ok fuel s [t] A (conj A' I) (G Fh) ltac:(lia)) as (s' & k & Eo & L & El).
    cbn [build]. rewrite E, E'. cbn [obind]. rewrite Eo. eexists. split; [reflexivity|]. split; [|exact I]. pose proof (l_weight _ _ L).
    constructor; cbn [wf elems weight size peeks speeks nilly posn hpos positioned has_position]; auto; try contradiction.
    + split; [discriminate|]. split; [exact (l_wf _ _ L)|]. cbn. auto.
    + cbn [meaning map elems]. rewrite El, B, B'. reflexivity.
    + fold (total [s'; t]). rewrite !total_cons. cbn [total map list_sum fold_right]. lia.
    + intros _. exact (l_hpos _ _ L (G Fh)).
  - destruct Fi as (F1 & F2 & F3 & Fh). destruct (IH F1 ltac:(lia)) as (s & E & [A B C D E0 F G] & Z). destruct (IH' F2 ltac:(lia)) as (t & E' & [A' B' C' D' E0' F' G'] & Z').
    destruct (IH'' F3 ltac:(lia)) as (u & E'' & [A'' B'' C'' D'' E0'' F'' G''] & Z'').
    destruct (one_ok fuel s [t; u] A (conj A' (conj A'' I)) (G Fh) ltac:(lia)) as (s' & k & Eo & L & El).
    cbn [build]. rewrite E, E', E''. cbn [obind]. rewrite Eo. eexists. split; [reflexivity|]. split; [|exact I]. pose proof (l_weight _ _ L).
    constructor; cbn [wf elems weight size peeks speeks nilly posn hpos positioned has_position]; auto; try contradiction.
    + split; [discriminate|]. split; [exact (l_wf _ _ L)|]. cbn. auto.
    + cbn [meaning map elems]. rewrite El, B, B', B''. reflexivity.
    + fold (total [s'; t; u]). rewrite !total_cons. cbn [total map list_sum fold_right]. lia.
    + intros _. exact (l_hpos _ _ L (G Fh)).
Qed.

Lemma sim_step fuel e s l n o : sim e s l n -> may e o l -> (size e < fuel)%nat ->
  exists s', run fuel o s = Ok (answer o l n, s') /\ sim e s' (left o l) (n + Z.of_nat (length l) - Z.of_nat (length (left o l))).
Proof.
  intros [A B C D E0 F G] M N.
  destruct (good_run fuel o s A) as (a & s' & E & [L El Mv _ Sa]).
  { destruct o; cbn [may ok] in *; auto; try contradiction.
    - rewrite B. destruct M; auto.
    - apply G, positioned_has, M.
    - apply D, M. }
  { destruct o; cbn [need]; lia. }
  exists s'. split.
  - rewrite E. f_equal. f_equal. destruct o; cbn [says] in Sa; try (rewrite <- B; exact Sa).
    destruct Sa as (k & -> & Hk). cbn [answer]. f_equal. apply Hk, F, M.
  - constructor.
    + exact (l_wf _ _ L).
    + rewrite El, B. reflexivity.
    + pose proof (l_weight _ _ L). lia.
    + intros x Hx. exact (l_peeks _ _ L x (D x Hx)).
    + intros H. exact (l_nilly _ _ L (E0 H)).
    + intros H. rewrite (Mv n (F H)), El, B. reflexivity.
    + intros H. exact (l_hpos _ _ L (G H)).
Qed.

Lemma sim_all fuel e : (size e < fuel)%nat -> forall ops s l n, sim e s l n -> may_all e ops l ->
  exists s', run_all fuel ops s = Ok (answers ops l n, s') /\ elems s' = left_all ops l.
Proof.
  intros N. induction ops as [|o ops IH]; intros s l n S M.
  - exists s. split; [reflexivity|]. apply S.
  - destruct M as [M1 M2]. destruct (sim_step fuel e s l n o S M1 N) as (s' & E & S').
    destruct (IH s' _ _ S' M2) as (s'' & E' & El). exists s''. cbn [run_all]. rewrite E. cbn [obind fst snd]. rewrite E'. auto.
Qed.

Theorem history fuel e ops : fine e -> may_all e ops (meaning e) -> (size e < fuel)%nat ->
  exists s s', build fuel e = Ok s /\ run_all fuel ops s = Ok (answers ops (meaning e) 0, s').
Proof.
  intros F M N. destruct (build_ok fuel e F ltac:(lia)) as (s & E & S & _).
  destruct (sim_all fuel e N ops s _ _ S M) as (s' & E' & _). eauto.
Qed.

