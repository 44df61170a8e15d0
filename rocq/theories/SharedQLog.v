(** What went through a SharedQueue, in which order. *)
From Verif Require Import Base SharedQ SharedQSpec SharedQProofs.
Local Open Scope Z_scope.

Definition rest (t : thread) : list op :=
  match at_ t with OutM _ | SigV _ => tl (todo t) | _ => todo t end.
Definition pending (t : thread) : list Z :=
  match at_ t with OutM (Some v) | SigV (Some v) => [v] | _ => [] end.
Definition key (t : thread) : list Z * list Z := (puts (rest t), answers t ++ pending t).

Lemma map_set {A B} (f : A -> B) l : forall i x, map f (set_nth i x l) = set_nth i (f x) (map f l).
Proof. induction l as [|y l IH]; intros [|i] x; cbn; auto. f_equal. auto. Qed.

Lemma map_set_same {A B} (f : A -> B) l : forall i t x, nth_error l i = Some t -> f x = f t ->
  map f (set_nth i x l) = map f l.
Proof.
  induction l as [|y l IH]; intros [|i] t x H E; cbn in *; try discriminate.
  - injection H as ->. congruence.
  - f_equal. eapply IH; eauto.
Qed.

Lemma key_signal_m dv st : pinv 1 dv st -> map key (threads (signal_m st)) = map key (threads st).
Proof.
  intros (_ & _ & _ & _ & _ & _ & _ & _ & A9 & _). unfold signal_m. destruct (mwait st) as [|w r]; auto.
  destruct (proj1 (A9 w) (or_introl eq_refl)) as (t & E & B). rewrite E. cbn.
  eapply map_set_same; [exact E|]. unfold blockm in B. unfold key, rest, pending. cbn. rewrite B. auto.
Qed.

Lemma key_signal_v dm st : pinv dm 1 st -> map key (threads (signal_v st)) = map key (threads st).
Proof.
  intros (_ & _ & _ & _ & _ & _ & _ & _ & _ & A10 & _). unfold signal_v. destruct (vwait st) as [|w r]; auto.
  destruct (proj1 (A10 w) (or_introl eq_refl)) as (t & E & B). rewrite E. cbn.
  eapply map_set_same; [exact E|]. unfold blockv in B. unfold key, rest, pending. cbn. rewrite B. auto.
Qed.

Lemma queue_signal_m st : queue (signal_m st) = queue st.
Proof. unfold signal_m. destruct (mwait st); auto. destruct (nth_error _ _); auto. Qed.
Lemma queue_signal_v st : queue (signal_v st) = queue st.
Proof. unfold signal_v. destruct (vwait st); auto. destruct (nth_error _ _); auto. Qed.

(** The effect of a step on the collection and on what a process has done. *)
Lemma step_key st i st' o : inv st -> step st i = Ok (st', o) ->
  (o = [] /\ queue st' = queue st /\ map key (threads st') = map key (threads st)) \/
  (exists t v, nth_error (threads st) i = Some t /\
    ((exists r, o = [Added i v] /\ queue st' = queue st ++ [v] /\ key t = (v :: r, snd (key t)) /\
        map key (threads st') = set_nth i (r, snd (key t)) (map key (threads st))) \/
     (o = [Removed i v] /\ queue st = v :: queue st' /\
        map key (threads st') = set_nth i (fst (key t), snd (key t) ++ [v]) (map key (threads st))) \/
     (o = [Looked i v] /\ queue st' = queue st /\ hd_error (queue st) = Some v /\
        map key (threads st') = set_nth i (fst (key t), snd (key t) ++ [v]) (map key (threads st))))).
Proof.
  intros I H. pose proof (step_inv st i st' o I H) as I'. unfold step in H.
  destruct (nth_error (threads st) i) as [t|] eqn:E; [|discriminate].
  pose proof I as (_ & _ & _ & _ & _ & _ & _ & _ & _ & _ & A11). pose proof (A11 _ _ E) as T. unfold typed in T.
  destruct (todo t) as [|x r] eqn:Td; [discriminate|].
  assert (Kw : forall c, at_ t = Idle \/ at_ t = GotV ->
    (c = InM \/ c = BlockM \/ c = GotV \/ c = BlockV) -> key (move t c) = key t).
  { intros c [Ha|Ha] C; unfold key, rest, pending; rewrite Ha; destruct C as [-> | [-> | [-> | ->]]]; auto. }
  destruct (at_ t) as [| | | | |v|v] eqn:A; try discriminate.
  - left. destruct x; injection H as <- <-; (split; [reflexivity|]); unfold wait_m, wait_v;
      destruct (0 <? _); cbn [queue go threads]; (split; [reflexivity|]);
      (eapply map_set_same; [exact E|apply Kw; auto]).
  - left. injection H as <- <-. split; [reflexivity|]. unfold wait_m.
    destruct (0 <? _); cbn [queue go threads]; (split; [reflexivity|]);
      (eapply map_set_same; [exact E|apply Kw; auto]).
  - right. exists t. destruct x as [v| |].
    + injection H as <- <-. exists v. split; [reflexivity|]. left. exists (puts r).
      split; [reflexivity|]. split; [reflexivity|].
      unfold key, rest, pending. rewrite A, Td. split; [reflexivity|].
      cbn. rewrite map_set. f_equal. unfold key, rest, pending. cbn. rewrite Td. reflexivity.
    + destruct (queue st) as [|v q] eqn:Q; [discriminate|]. injection H as <- <-. exists v.
      split; [reflexivity|]. right. left. split; [reflexivity|]. split; [reflexivity|].
      cbn [threads go set_queue]. rewrite map_set. f_equal. unfold key, rest, pending. cbn. rewrite A, Td.
      rewrite app_nil_r. reflexivity.
    + destruct (queue st) as [|v q] eqn:Q; [discriminate|]. injection H as <- <-. exists v.
      split; [reflexivity|]. right. right. split; [reflexivity|]. split; [auto|]. split; [reflexivity|].
      cbn [threads go]. rewrite map_set. f_equal. unfold key, rest, pending. cbn. rewrite A, Td.
      rewrite app_nil_r. reflexivity.
  - left.
    assert (K : forall t', at_ t' <> BlockM -> at_ t' <> BlockV -> holds t' = 0 -> weight t' = weight t -> typed t' ->
      key t' = key t -> queue (signal_m (go st i t')) = queue st /\
      map key (threads (signal_m (go st i t'))) = map key (threads st)).
    { intros t' B1 B2 B3 B4 B5 B6. split; [rewrite queue_signal_m; reflexivity|].
      rewrite (key_signal_m 0).
      - cbn. eapply map_set_same; eauto.
      - rewrite <- (set_queue_same st). apply (go_inv st i t); auto; try congruence.
        + unfold holds at 2. rewrite A. lia.
        + cbn. lia. }
    assert (Wt : weight t = match x with Next => 0 | _ => 1 end) by (unfold weight; rewrite A, Td; auto).
    destruct x; injection H as <- <-; (split; [reflexivity|]); apply K; try (cbn; discriminate); try reflexivity;
      try (rewrite Wt; reflexivity); try exact Logic.I; unfold typed, key, rest, pending; cbn; rewrite ?Td, ?A; auto.
    + destruct T as [(v9 & r9 & T1 & T2)|(v9 & r9 & T1 & [T2|T2])]; try discriminate. left. eauto.
    + destruct v; cbn; rewrite ?app_nil_r; reflexivity.
    + destruct T as [(v9 & r9 & T1 & T2)|(v9 & r9 & T1 & [T2|T2])]; try discriminate. right. eauto.
  - left. injection H as <- <-. split; [reflexivity|]. split; [rewrite queue_signal_v; reflexivity|].
    rewrite (key_signal_v 0).
    + cbn. eapply map_set_same; [exact E|]. unfold key, rest, pending. cbn. rewrite A.
      destruct v; rewrite ?app_nil_r; reflexivity.
    + rewrite <- (set_queue_same st). apply (go_inv st i t); auto; try (cbn; congruence).
      * unfold holds. rewrite A. reflexivity.
      * unfold weight. cbn [finish at_ todo]. rewrite A. lia.
      * exact Logic.I.
Qed.

Lemma added_app a b : added (a ++ b) = added a ++ added b.
Proof. apply flat_map_app. Qed.
Lemma removed_app a b : removed (a ++ b) = removed a ++ removed b.
Proof. apply flat_map_app. Qed.
Lemma added_by_app i a b : added_by i (a ++ b) = added_by i a ++ added_by i b.
Proof. apply flat_map_app. Qed.
Lemma found_by_app i a b : found_by i (a ++ b) = found_by i a ++ found_by i b.
Proof. apply flat_map_app. Qed.

(** [os]: what has happened so far. *)
Definition logged (progs : list (list op)) (st : shared) (os : list obs) : Prop :=
  removed os ++ queue st = added os /\
  forall i p, nth_error progs i = Some p ->
    exists k, nth_error (map key (threads st)) i = Some k /\
      puts p = added_by i os ++ fst k /\ found_by i os = snd k.

Lemma step_logged progs st i st' o os : inv st -> logged progs st os -> step st i = Ok (st', o) ->
  logged progs st' (os ++ o).
Proof.
  intros I (L1 & L2) H. destruct (step_key _ _ _ _ I H) as [(-> & Q & K)|(t & v & E & C)].
  - rewrite app_nil_r. split; [rewrite Q; auto|]. rewrite K. auto.
  - assert (Ek : nth_error (map key (threads st)) i = Some (key t)) by (rewrite nth_error_map, E; auto).
    destruct C as [(r & -> & Q & Kt & K)|[(-> & Q & K)|(-> & Q & Hd & K)]]; (split; [rewrite added_app, removed_app; cbn|]).
    + rewrite app_nil_r, Q, app_assoc, L1. auto.
    + intros j p P. destruct (L2 j p P) as (k & K1 & K2 & K3). rewrite K.
      rewrite added_by_app, found_by_app. cbn. destruct (Nat.eqb_spec j i) as [->|N].
      * rewrite (nth_set_same _ _ _ _ Ek). eexists. split; [reflexivity|].
        rewrite Ek in K1. injection K1 as <-. rewrite Kt in K2. cbn in *. rewrite app_nil_r, <- app_assoc. auto.
      * rewrite nth_set_other by auto. exists k. cbn. rewrite !app_nil_r. auto.
    + rewrite app_nil_r. rewrite <- app_assoc. cbn. rewrite <- Q. auto.
    + intros j p P. destruct (L2 j p P) as (k & K1 & K2 & K3). rewrite K.
      rewrite added_by_app, found_by_app. cbn. destruct (Nat.eqb_spec j i) as [->|N].
      * rewrite (nth_set_same _ _ _ _ Ek). eexists. split; [reflexivity|].
        rewrite Ek in K1. injection K1 as <-. cbn. rewrite K3, ?app_nil_r. auto.
      * rewrite nth_set_other by auto. exists k. cbn. rewrite !app_nil_r. auto.
    + rewrite !app_nil_r, Q. auto.
    + intros j p P. destruct (L2 j p P) as (k & K1 & K2 & K3). rewrite K.
      rewrite added_by_app, found_by_app. cbn. destruct (Nat.eqb_spec j i) as [->|N].
      * rewrite (nth_set_same _ _ _ _ Ek). eexists. split; [reflexivity|].
        rewrite Ek in K1. injection K1 as <-. cbn. rewrite K3, ?app_nil_r. auto.
      * rewrite nth_set_other by auto. exists k. cbn. rewrite !app_nil_r. auto.
Qed.

Lemma run_logged progs h : forall st st' os0 os, inv st -> logged progs st os0 -> run st h = Ok (st', os) ->
  logged progs st' (os0 ++ os).
Proof.
  induction h as [|i h IH]; intros st st' os0 os I L H; cbn in H.
  - injection H as <- <-. rewrite app_nil_r. auto.
  - destruct (step st i) as [[st1 o]| | | |] eqn:E; cbn in H; try discriminate.
    destruct (run st1 h) as [[st2 os2]| | | |] eqn:R; cbn in H; try discriminate.
    injection H as <- <-. rewrite app_assoc. eapply IH; [eapply step_inv; eauto| |exact R].
    eapply step_logged; eauto.
Qed.

Lemma logged_init progs : logged progs (new_queue progs) [].
Proof.
  split; [reflexivity|]. intros i p P. exists (puts p, []). split; [|split; reflexivity].
  cbn. rewrite map_map. rewrite nth_error_map, P. reflexivity.
Qed.

Lemma logged_run progs h st os : run (new_queue progs) h = Ok (st, os) -> logged progs st os.
Proof. intros H. apply (run_logged progs h _ _ [] _ (inv_init progs) (logged_init progs) H). Qed.

(** What peek finds. *)
Lemma run_looked progs h : forall st st' os0 os a i v b, inv st -> logged progs st os0 ->
  run st h = Ok (st', os) -> os = a ++ Looked i v :: b ->
  nth_error (added (os0 ++ a)) (length (removed (os0 ++ a))) = Some v.
Proof.
  induction h as [|j h IH]; intros st st' os0 os a i v b I L H D; cbn in H.
  - injection H as <- <-. destruct a; discriminate.
  - destruct (step st j) as [[st1 o]| | | |] eqn:E; cbn in H; try discriminate.
    destruct (run st1 h) as [[st2 os2]| | | |] eqn:R; cbn in H; try discriminate.
    injection H as <- <-.
    pose proof (step_inv _ _ _ _ I E) as I1. pose proof (step_logged _ _ _ _ _ _ I L E) as L1.
    destruct (step_key _ _ _ _ I E) as [(-> & Q & K)|(t & x & Et & C)].
    + cbn in D. rewrite app_nil_r in L1. eapply IH; eauto.
    + assert (exists e, o = [e]) as (e & ->) by (destruct C as [(r & -> & _)|[(-> & _)|(-> & _)]]; eauto).
      destruct a as [|e' a]; cbn in D; injection D as De Db.
      * subst e. rewrite app_nil_r. destruct L as (L & _). rewrite <- L.
        destruct C as [(r & X & _)|[(X & _)|(X & _ & Hd & _)]]; try discriminate. injection X as _ <-.
        destruct (queue st) as [|y q]; [discriminate|]. injection Hd as ->.
        rewrite nth_error_app2 by lia. rewrite Nat.sub_diag. reflexivity.
      * subst e'. replace (os0 ++ e :: a) with ((os0 ++ [e]) ++ a) by (rewrite <- app_assoc; reflexivity).
        eapply IH; eauto.
Qed.

(** ** Who waits *)

Lemma at_rest st : inv st -> (forall j u, nth_error (threads st) j = Some u -> resting u) ->
  vsig st = Z.of_nat (length (queue st)).
Proof.
  intros (A1 & A2 & A3 & A4 & _) R. rewrite <- A4. rewrite (wsum_zero weight); [lia|].
  intros i t H. unfold weight. destruct (R i t H) as [-> | ->]; auto.
Qed.

Lemma blocked_empty st i t : inv st -> nth_error (threads st) i = Some t -> at_ t = BlockV ->
  (forall j u, nth_error (threads st) j = Some u -> resting u) -> queue st = [].
Proof.
  intros I E B R. pose proof (at_rest st I R) as V.
  destruct I as (A1 & A2 & A3 & A4 & A5 & A6 & A7 & A8 & A9 & A10 & A11).
  assert (In i (vwait st)) as W by (apply A10; exists t; auto).
  rewrite A6 in V by (intros X; rewrite X in W; destruct W).
  destruct (queue st); auto. cbn in V. lia.
Qed.

Lemma wsum_pos l : 0 < wsum holds l -> exists j u, nth_error l j = Some u /\ holds u = 1.
Proof.
  induction l as [|x l IH]; cbn; intros H; [lia|].
  destruct (Z.eq_dec (holds x) 1) as [E|N].
  - exists O, x. auto.
  - assert (holds x = 0) by (unfold holds in *; destruct (at_ x); lia).
    destruct IH as (j & u & Hj & Hu); [lia|]. exists (S j), u. auto.
Qed.

Lemma holder_steps st i t : inv st -> nth_error (threads st) i = Some t -> todo t <> [] ->
  at_ t <> BlockM -> at_ t <> BlockV -> exists r, step st i = Ok r.
Proof.
  intros I E T B1 B2. pose proof (step_ok st i I) as N. unfold step in N |- *. rewrite E in *.
  destruct (todo t) as [|x r]; [congruence|].
  destruct (at_ t); try congruence; destruct x; eauto; destruct (queue st); eauto; congruence.
Qed.

Lemma progress st i t : inv st -> nth_error (threads st) i = Some t -> todo t <> [] -> at_ t <> BlockV ->
  exists j r, step st j = Ok r.
Proof.
  intros I E T B. destruct (at_ t) eqn:A;
    try (destruct (holder_steps st i t I E T) as (r' & H'); [congruence|congruence|eauto]).
  - pose proof I as (A1 & A2 & A3 & A4 & A5 & A6 & A7 & A8 & A9 & A10 & A11).
    assert (In i (mwait st)) as W by (apply A9; exists t; auto).
    assert (S0 : msig st = 0) by (apply A5; intros X; rewrite X in W; destruct W).
    destruct (wsum_pos (threads st)) as (j & u & Hj & Hu); [lia|].
    exists j. apply (holder_steps st j u); auto.
    + pose proof (A11 _ _ Hj) as X. unfold typed, holds in *. destruct (at_ u); try lia.
      * destruct X as (o & r & ->). discriminate.
      * destruct X as [(v & q & -> & _)|(v & q & _ & [-> | ->])]; discriminate.
    + intros X. unfold holds in Hu. rewrite X in Hu. lia.
    + intros X. unfold holds in Hu. rewrite X in Hu. lia.
Qed.
