(** Proofs about reading LinkedLists, and about programs that use several. *)
From Verif Require Import Base Linked LinkedSpec LinkedProofs.
Import ListNotations.
Local Open Scope Z_scope.

Lemma walk_ok h t : forall x fuel, chain h (h x) t -> (length t < fuel)%nat -> walk fuel h x = Ok (x :: t).
Proof.
  induction t as [|y t IH]; intros x fuel C F; (destruct fuel as [|fuel]; [lia|]); cbn [chain walk length] in *.
  - rewrite C. reflexivity.
  - destruct C as [-> C]. rewrite (IH y fuel C) by lia. reflexivity.
Qed.

Lemma count_ok h t : forall x n fuel, chain h (h x) t -> (length t < fuel)%nat -> count fuel h x n = Ok (n + Z.of_nat (length t)).
Proof.
  induction t as [|y t IH]; intros x n fuel C F; (destruct fuel as [|fuel]; [lia|]); cbn [chain count length] in *.
  - rewrite C. f_equal. lia.
  - destruct C as [-> C]. rewrite (IH y (n + 1) fuel C) by lia. f_equal. lia.
Qed.

Lemma at_loop_ok h index t : forall x i fuel, chain h (h x) t -> (length t < fuel)%nat -> i <= index ->
  at_loop fuel h i index x = match nth_error (x :: t) (Z.to_nat (index - i)) with Some v => Ok v | None => Err end.
Proof.
  induction t as [|y t IH]; intros x i fuel C F I; (destruct fuel as [|fuel]; [lia|]); cbn [chain at_loop length] in *;
    (destruct (Z.eqb_spec i index) as [->|D]; [rewrite Z.sub_diag; reflexivity|]);
    replace (Z.to_nat (index - i)) with (S (Z.to_nat (index - (i + 1)))) by lia; cbn [nth_error].
  - rewrite C. destruct (Z.to_nat (index - (i + 1))); reflexivity.
  - destruct C as [-> C]. apply IH; [exact C|lia|lia].
Qed.

Lemma inc_ok h x t : forall y fuel, chain h (h y) t -> (length t < fuel)%nat ->
  exists b, inc_loop fuel h y x = Ok b /\ (b = true <-> In x (y :: t)).
Proof.
  induction t as [|z t IH]; intros y fuel C F; (destruct fuel as [|fuel]; [lia|]); cbn [chain inc_loop length] in *;
    (destruct (Z.eqb_spec x y) as [->|D]; [exists true; split; [reflexivity|]; split; [left; reflexivity|reflexivity]|]).
  - rewrite C. exists false. split; [reflexivity|]. split; [discriminate|]. intros [->|[]]. contradiction.
  - destruct C as [-> C]. destruct (IH z fuel C ltac:(lia)) as (b & E & B). exists b. split; [exact E|]. rewrite B.
    split; [right; assumption|]. intros [->|H]; [contradiction|exact H].
Qed.

Lemma reads_ok h l s fuel : holds h l s -> (length s < fuel)%nat ->
  do_ fuel h l = Ok s /\ size fuel h l = Ok (Z.of_nat (length s)) /\
  (forall i, at_ fuel h l i = if 1 <=? i then match nth_error s (Z.to_nat (i - 1)) with Some v => Ok v | None => Err end else Err) /\
  (forall x, exists b, includes fuel h l x = Ok b /\ (b = true <-> In x s)) /\
  first_ l = match s with [] => Err | x :: _ => Ok x end /\
  last_ l = match s with [] => Err | x :: t => Ok (Some (last t x)) end.
Proof.
  intros (C & L & N) F. unfold do_, size, at_, includes, first_, last_. rewrite L.
  destruct s as [|x t]; cbn [chain length] in *.
  - rewrite C. split; [reflexivity|]. split; [reflexivity|]. split.
    + intros i. destruct (1 <=? i); [|reflexivity]. destruct (Z.to_nat (i - 1)); reflexivity.
    + split; [|split; reflexivity]. intros x. exists false. split; [reflexivity|]. split; [discriminate|intros []].
  - destruct C as [-> C]. split; [apply walk_ok; [exact C|lia]|]. split; [rewrite (count_ok h t) by (exact C || lia); f_equal; lia|].
    split; [|split; [intros y; apply inc_ok; [exact C|lia]|split; [reflexivity|]]].
    + intros i. destruct (Z.leb_spec 1 i) as [I|I]; [|reflexivity]. apply at_loop_ok; [exact C|lia|exact I].
    + f_equal. destruct (last_split t) as [->|(a & y & ->)]; [reflexivity|].
      rewrite last_last. change (x :: a ++ [y]) with ((x :: a) ++ [y]). apply last_app.
Qed.

(** One list changes. *)
Lemma world_put h ls w i h' l' s' : world h ls w -> holds h' l' s' ->
  (forall y, ~ In y (w i) -> ~ In y s' -> h' y = h y) ->
  (forall y, In y s' -> In y (w i) \/ forall j, ~ In y (w j)) ->
  (forall y, In y (w i) -> ~ In y s' -> h' y = None) ->
  world h' (putl ls i l') (put w i s').
Proof.
  intros (A & B & D) H Fr Nw Go. unfold world, putl, put. split; [|split].
  - intros j. destruct (Nat.eqb_spec j i) as [->|J]; [exact H|]. destruct (A j) as (C & L & N).
    split; [|split; assumption]. apply (chain_ext h); [|exact C]. intros y Y. apply Fr.
    + intros Q. apply J. exact (B j i y Y Q).
    + intros Q. destruct (Nw y Q) as [Q'|Q']; [apply J; exact (B j i y Y Q')|exact (Q' j Y)].
  - intros j k x X Y. destruct (Nat.eqb_spec j i) as [->|J], (Nat.eqb_spec k i) as [->|K]; try reflexivity.
    + destruct (Nw x X) as [Q|Q]; [exact (B _ _ x Q Y)|destruct (Q k Y)].
    + destruct (Nw x Y) as [Q|Q]; [exact (B _ _ x X Q)|destruct (Q j X)].
    + exact (B _ _ x X Y).
  - intros x X. pose proof (X i) as Xi. rewrite Nat.eqb_refl in Xi. destruct (in_dec Z.eq_dec x (w i)) as [I|I]; [apply Go; assumption|].
    rewrite (Fr x I Xi). apply D. intros j Q. specialize (X j). destruct (Nat.eqb_spec j i) as [Ej|J]; [rewrite Ej in Q|]; contradiction.
Qed.

Lemma remove_split x a b : NoDup (a ++ x :: b) -> remove Z.eq_dec x (a ++ x :: b) = a ++ b.
Proof.
  intros N. pose proof (NoDup_remove_2 _ _ _ N) as X. rewrite remove_app. cbn [remove]. destruct (Z.eq_dec x x); [|contradiction].
  rewrite !notin_remove; [reflexivity| |]; intros Q; apply X, in_or_app; auto.
Qed.

Lemma target_remove h ls w i x fuel : world h ls w -> In x (w i) -> (length (w i) < fuel)%nat ->
  exists h' l', remove_if_absent fuel h (ls i) (Some x) = Ok (Some x, (h', l')) /\
    world h' (putl ls i l') (put w i (remove Z.eq_dec x (w i))).
Proof.
  intros W X F. pose proof W as (A & _). pose proof (A i) as H. pose proof H as (_ & _ & N).
  destruct (remove_in h (ls i) (w i) x fuel H X F) as (a & b & h' & l' & E & R & H' & Z & Fr).
  exists h', l'. split; [exact R|]. rewrite E in N. pose proof (remove_split x a b N) as RS. rewrite <- E in RS.
  apply (world_put h); [exact W|rewrite RS; exact H'|intros y Y _; apply Fr, Y| |].
  - intros y Y. left. apply in_remove in Y. apply Y.
  - intros y Y Q. destruct (Z.eq_dec y x) as [->|D]; [exact Z|]. exfalso. apply Q, in_in_remove; assumption.
Qed.

Lemma world_same h ls w i : world h ls w -> world h (putl ls i (ls i)) (put w i (w i)).
Proof. intros W. apply (world_put h); [exact W|apply W|reflexivity|left; assumption|contradiction]. Qed.

Definition target (m : msg) : nat :=
  match m with AddFirst i _ | AddLast i _ | RemoveFirst i | RemoveLast i | Remove i _ => i end.

Lemma send_ok h ls w m fuel : world h ls w -> allowed w m -> (length (w (target m)) < fuel)%nat ->
  exists h' ls', send fuel (h, ls) m = Ok (fst (meaning w m), (h', ls')) /\ world h' ls' (snd (meaning w m)).
Proof.
  intros W P F. pose proof W as (A & B & D). destruct m as [i x|i x|i|i|i x]; cbn [allowed target send meaning fst snd] in *.
  - pose proof (add_first_ok h (ls i) (w i) x (A i) (P i)) as H. destruct (add_first h (ls i) x) as [h' l']. destruct H as [H Fr].
    cbn [obind fst snd]. eexists _, _. split; [reflexivity|]. apply (world_put h); [exact W|exact H| | |].
    + intros y _ Y. apply Fr. intros ->. apply Y. left. reflexivity.
    + intros y [<-|Y]; [right; exact P|left; exact Y].
    + intros y Y Q. destruct Q. right. exact Y.
  - pose proof (add_last_ok h (ls i) (w i) x (A i) (P i) (D x P)) as H. destruct (add_last h (ls i) x) as [h' l']. destruct H as [H Fr].
    cbn [obind fst snd]. eexists _, _. split; [reflexivity|]. apply (world_put h); [exact W|exact H| | |].
    + intros y Y _. apply Fr, Y.
    + intros y Y. apply in_app_or in Y. destruct Y as [Y|[<-|[]]]; [left; exact Y|right; exact P].
    + intros y Y Q. destruct Q. apply in_or_app. left. exact Y.
  - unfold remove_first. destruct (w i) as [|x t] eqn:E.
    + destruct (A i) as (C & _). rewrite E in C. cbn [chain] in C. unfold remove_if_absent. rewrite C. cbn [same obind fst snd hd_error tl].
      eexists _, _. split; [reflexivity|]. rewrite <- E. apply world_same, W.
    + destruct (A i) as (C & _ & N). rewrite E in C, N. cbn [chain] in C. destruct C as [C _]. rewrite C.
      destruct (target_remove h ls w i x fuel W) as (h' & l' & R & W'); [rewrite E; left; reflexivity|rewrite E; exact F|].
      rewrite R. cbn [obind fst snd hd_error tl]. eexists _, _. split; [reflexivity|]. rewrite E in W'.
      rewrite (remove_split x [] t N : remove Z.eq_dec x (x :: t) = t) in W'. exact W'.
  - unfold remove_last. destruct (A i) as (C & L & N). rewrite L. destruct (last_split (w i)) as [E|(a & x & E)]; rewrite E in *.
    + cbn [chain] in C. unfold remove_if_absent. rewrite C. cbn [rev same obind fst snd hd_error removelast].
      eexists _, _. split; [reflexivity|]. rewrite <- E. apply world_same, W.
    + rewrite last_app.
      destruct (target_remove h ls w i x fuel W) as (h' & l' & R & W'); [rewrite E; apply in_or_app; right; left; reflexivity|rewrite E; exact F|].
      rewrite R. cbn [obind fst snd]. eexists _, _. split; [reflexivity|]. rewrite E in W'.
      rewrite (remove_split x a [] N), app_nil_r in W'. rewrite removelast_last. exact W'.
  - destruct (in_dec Z.eq_dec x (w i)) as [X|X].
    + destruct (target_remove h ls w i x fuel W X F) as (h' & l' & R & W'). rewrite R. cbn [obind fst snd].
      eexists _, _. split; [reflexivity|exact W'].
    + rewrite (remove_out h (ls i) (w i) x fuel (A i) X F). cbn [obind fst snd]. eexists _, _. split; [reflexivity|].
      rewrite (notin_remove Z.eq_dec _ _ X). apply world_same, W.
Qed.

Lemma sends_ok ms : forall w r w', meanings w ms r w' ->
  exists f0, forall h ls fuel, world h ls w -> (f0 <= fuel)%nat ->
    exists h' ls', sends fuel (h, ls) ms = Ok (r, (h', ls')) /\ world h' ls' w'.
Proof.
  induction ms as [|m ms IH]; intros w r w' M; destruct r as [|a r]; cbn [meanings] in M; try contradiction.
  - subst w'. exists O. intros h ls fuel W _. exists h, ls. split; [reflexivity|exact W].
  - destruct M as (P & -> & M). destruct (IH _ r w' M) as (f0 & H).
    exists (f0 + S (length (w (target m))))%nat. intros h ls fuel W F.
    destruct (send_ok h ls w m fuel W P ltac:(lia)) as (h2 & ls2 & E2 & W2).
    destruct (H h2 ls2 fuel W2 ltac:(lia)) as (h3 & ls3 & E3 & W3). exists h3, ls3. split; [|exact W3].
    cbn [sends]. rewrite E2. cbn [obind fst snd]. rewrite E3. reflexivity.
Qed.

(** What goes wrong. *)
Lemma reuse_bad : exists h l s x fuel, holds h l s /\ ~ In x s /\
  let '(h', l') := add_last h l x in do_ fuel h' l' = Ok (s ++ [x; 8]) /\ last_ l' = Ok (Some x).
Proof.
  exists (set (fun _ => None) 7 (Some 8)), (mk None None), [], 7, 5%nat. split; [|split; [intros []|]].
  - split; [reflexivity|]. split; [reflexivity|constructor].
  - split; reflexivity.
Qed.

Lemma twice_bad : exists h l s x, holds h l s /\ In x s /\
  let '(h', l') := add_last h l x in forall fuel, do_ fuel h' l' = OutOfFuel /\ size fuel h' l' = OutOfFuel.
Proof.
  exists (fun _ => None), (mk (Some 7) (Some 7)), [7], 7. split; [|split; [left; reflexivity|]].
  - split; [split; reflexivity|]. split; [reflexivity|]. repeat constructor. intros [].
  - cbn [add_last firstl lastl do_ size]. assert (Q : set (fun _ => None) 7 (Some 7) 7 = Some 7) by reflexivity.
    set (h := set _ _ _) in *. clearbody h. intros fuel. split.
    + unfold do_. cbn [firstl]. induction fuel as [|fuel IH]; [reflexivity|]. cbn [walk]. rewrite Q, IH. reflexivity.
    + unfold size. cbn [firstl]. generalize 1. induction fuel as [|fuel IH]; intros n; [reflexivity|]. cbn [count]. rewrite Q. apply IH.
Qed.

Lemma nil_bad : exists h l s fuel, holds h l s /\ remove_if_absent fuel h l None = Err.
Proof.
  exists (fun _ => None), (mk (Some 7) (Some 7)), [7], 5%nat. split; [|reflexivity].
  split; [split; reflexivity|]. split; [reflexivity|]. repeat constructor. intros [].
Qed.
