(** Streams made from streams: cases. *)
From Coq Require Import Arith.
From Verif Require Import Base Pipe PipeSpec PipeProofs PipeRun PipeBuild PipeAll PipeAllSpec PipeAllProofs.

Definition n (z : Z) : obj := Atom z.
Definition odd (x : obj) : bool := match x with Atom z => Z.odd z | _ => false end.
Definition double (x : obj) : obj := match x with Atom z => Atom (2 * z) | _ => x end.
(** ((1 2 3 ...) select: odd) , ((4 5) collect: double) *)
Definition pipeline : expr := Cat (Select (From [n 1; n 2; n 3]) odd) (Map (From [n 4; n 5]) double).
Definition messages : list op := [Peek; Next; Position; Next; AtEnd; Next; Next; Position; Next; AtEnd].

Lemma pipeline_fine : fine pipeline /\ may_all pipeline messages (meaning pipeline) /\ (size pipeline < 40)%nat.
Proof. split; [cbn; auto|]. split; [cbn; auto 20|cbn; lia]. Qed.
Lemma pipeline_answers : answers messages (meaning pipeline) 0 =
  [n 1; n 1; n 1; n 3; Flag false; n 8; n 10; n 4; Nil; Flag true].
Proof. vm_compute. reflexivity. Qed.

Ltac with_fuel f k := assert (exists m, f = (k + m)%nat) as [m ->] by (exists (f - k)%nat; lia).

(** ** What fails *)
Lemma collect_peek_for fuel : (4 <= fuel)%nat ->
  exists s, build fuel (Map (From [n 1]) double) = Ok s /\ run fuel (PeekFor (n 2)) s = Err /\ answer (PeekFor (n 2)) (meaning (Map (From [n 1]) double)) 0 = Flag true.
Proof. intros H. with_fuel fuel 4%nat. eexists. split; [reflexivity|]. split; reflexivity. Qed.

Lemma tuple_peek_for fuel : (6 <= fuel)%nat ->
  exists s, build fuel (Zip (From [n 1]) (From [n 2])) = Ok s /\ run fuel (PeekFor (Tuple [n 1; n 2])) s = Err
    /\ answer (PeekFor (Tuple [n 1; n 2])) (meaning (Zip (From [n 1]) (From [n 2]))) 0 = Flag true.
Proof. intros H. with_fuel fuel 6%nat. eexists. split; [reflexivity|]. split; reflexivity. Qed.

Lemma filter_peek_for fuel : (6 <= fuel)%nat ->
  let e := Select (From [Tuple [n 1]]) (fun _ => true) in
  exists s s', build fuel e = Ok s /\ run fuel (PeekFor (Tuple [n 1])) s = Ok (Flag false, s')
    /\ answer (PeekFor (Tuple [n 1])) (meaning e) 0 = Flag true.
Proof. intros H. with_fuel fuel 6%nat. cbv zeta. eexists. eexists. split; [reflexivity|]. split; reflexivity. Qed.

Lemma cat_items fuel : (12 <= fuel)%nat ->
  let e := CatItems (Cat (From [n 1]) (From [])) [n 2] in
  exists s s', build fuel e = Ok s /\ run fuel Next s = Ok (n 1, s') /\ run fuel Next s' = Err /\ meaning e = [n 1; n 2].
Proof. intros H. with_fuel fuel 12%nat. cbv zeta. eexists. eexists. split; [reflexivity|]. split; [reflexivity|]. split; reflexivity. Qed.

Lemma filter_with fuel : (6 <= fuel)%nat -> build fuel (Zip (Select (From [n 1]) odd) (From [n 2])) = Err.
Proof. intros H. with_fuel fuel 6%nat. reflexivity. Qed.

Lemma tuple_position fuel : (8 <= fuel)%nat ->
  exists s s', build fuel (Zip (From [n 1; n 2]) (From [n 3])) = Ok s
    /\ run_all fuel [Next; Next; Position] s = Ok ([Tuple [n 1; n 3]; Nil; n 2], s').
Proof. intros H. with_fuel fuel 8%nat. eexists. eexists. split; reflexivity. Qed.

Lemma line_end fuel : (8 <= fuel)%nat -> exists s s', build fuel (ByLine (From [])) = Ok s /\ run fuel Next s = Ok (Tuple [], s').
Proof. intros H. with_fuel fuel 8%nat. eexists. eexists. split; reflexivity. Qed.

Lemma collect_lines fuel : (8 <= fuel)%nat -> exists s, build fuel (ByLine (Map (From [n 65; CR; LF]) (fun x => x))) = Ok s /\ run fuel Next s = Err.
Proof. intros H. with_fuel fuel 8%nat. eexists. split; reflexivity. Qed.

(** A String holds characters: here the numbers to 255. *)
Definition character (x : obj) : bool := match x with Atom z => (0 <=? z) && (z <=? 255) | _ => false end.
Lemma collect_contents fuel k : (8 <= fuel)%nat -> (4 <= k)%nat ->
  let e := Map (From [n 65; n 66]) (fun x => Flag (eqb x (n 65))) in
  exists s, build fuel e = Ok s /\ contents fuel k character s = Err /\ do_all fuel k s = Ok [Flag true; Flag false].
Proof.
  intros H K. cbv zeta. set (e := Map _ _). assert (Sz : (size e < fuel)%nat) by (cbn; lia).
  destruct (build_ok fuel e I ltac:(lia)) as (s & E & S & _). exists s. split; [exact E|]. split.
  - apply (contents_bad fuel e Sz k character s _ _ S); [cbn; lia|]. apply Exists_cons_hd. reflexivity.
  - rewrite (do_all_ok fuel e Sz k s _ _ S); [reflexivity|cbn; lia].
Qed.

Lemma split_end fuel k : (8 <= fuel)%nat -> (4 <= k)%nat ->
  let e := From [n 65; n 44] in
  exists s, build fuel e = Ok s /\ split_at fuel k (fun _ => true) (n 44) s = Ok [[n 65]] /\ parts (n 44) (meaning e) = [[n 65]; []].
Proof.
  intros H K. cbv zeta. set (e := From _). assert (Sz : (size e < fuel)%nat) by (cbn; lia).
  destruct (build_ok fuel e I ltac:(lia)) as (s & E & S & _). exists s. split; [exact E|]. split; [|reflexivity].
  rewrite (split_at_ok fuel e Sz k (fun _ => true) (n 44) ltac:(auto) s _ _ S); [reflexivity|cbn; lia].
Qed.

(** The parts, put together again *)
Lemma some_parts_join x l : Forall (fun y => eqb y x = true -> y = x) l ->
  concat (map (fun p => p ++ [x]) (some_parts x l)) = l \/ concat (map (fun p => p ++ [x]) (some_parts x l)) = l ++ [x].
Proof.
  intros F. remember (length l) as k eqn:Hk. assert (L : (length l <= k)%nat) by lia. clear Hk. revert l F L.
  induction k as [|k IH]; intros l F L.
  - destruct l; [left; reflexivity|cbn in L; lia].
  - destruct l as [|y l]; [left; reflexivity|]. rewrite some_parts_eq by discriminate. cbn [map concat].
    destruct (has x (y :: l)) eqn:H.
    + assert (Q : forall l, Forall (fun y => eqb y x = true -> y = x) l -> has x l = true ->
         (fst (cut x l) ++ [x]) ++ snd (cut x l) = l /\ Forall (fun y => eqb y x = true -> y = x) (snd (cut x l))).
      { clear. induction l as [|y l IH]; intros F H; [discriminate|]. inversion F as [|? ? F1 F2]; subst. rewrite cut_cons.
        cbn [has existsb] in H. fold (has x l) in H. destruct (eqb y x) eqn:Ey.
        - cbn [fst snd app]. rewrite (F1 eq_refl). auto.
        - cbn [orb] in H. destruct (IH F2 H) as [A B]. cbn [fst snd app]. split; [f_equal; exact A|exact B]. }
      destruct (Q (y :: l) F H) as [A B]. pose proof (proj2 (cut_length x (y :: l)) ltac:(discriminate)) as Hl.
      destruct (IH (snd (cut x (y :: l))) B ltac:(cbn [length] in *; lia)) as [R|R]; rewrite R.
      * left. exact A.
      * right. rewrite app_assoc, A. reflexivity.
    + rewrite (cut_none _ _ H). cbn [fst snd]. right. cbn. rewrite app_nil_r. reflexivity.
Qed.
