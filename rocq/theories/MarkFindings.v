(** Heaps on which the mark phase goes wrong. *)
From Verif Require Import Base Mark MarkSpec MarkProofs MarkEph MarkMourn.
From Coq Require Import Lia ZifyBool ZifyNat.
Local Open Scope nat_scope.

Definition plain (c : nat) (fs : list ref) : object := Object_ false false false c fs.
Definition ephem (c : nat) (fs : list ref) : object := Object_ false false true c fs.

Ltac good_tac := repeat constructor; cbn; try lia; try discriminate.

(** ** The key is a SmallInteger *)
Definition integer_key : heap := [plain 0 []; ephem 0 [Int 3; Oop 0]].

Lemma integer_key_good : good_heap integer_key [Oop 1].
Proof. split; good_tac. Qed.

Lemma integer_key_ub : forall fuel, 0 < fuel -> mark_oops fuel integer_key [Oop 1] = UB.
Proof. intros [|fuel] H; [lia|]. vm_compute. reflexivity. Qed.

(** ** Two ephemerons, each the key of the other *)
Definition cyclic : heap := [plain 0 []; ephem 0 [Oop 2]; ephem 0 [Oop 1]].

Lemma cyclic_good : good_heap cyclic [Oop 1] /\ no_integer_keys cyclic.
Proof.
  split; [split; good_tac|]. intros e z (ob & H1 & H2 & H3 & H4).
  destruct e as [|[|[|e]]]; cbn in H1; try (injection H1 as <-; cbn in *; discriminate).
  destruct e; discriminate.
Qed.

(** The state at each level. *)
Definition turn (s : marks) (a : nat) : Prop :=
  reached s 0 = true /\ reached s 1 = true /\ reached s 2 = true
  /\ ephf s 0 = false /\ ephf s 1 = true /\ ephf s 2 = true /\ buffer s = [a].

Lemma mark_one : forall s k, k = 1 \/ k = 2 -> reached s 0 = true -> ephf s k = true ->
  mark_an_oop cyclic s k = Ok (add_buf (set_reached s k true) k).
Proof.
  intros s k Hk H0 He. unfold mark_an_oop. change (enough cyclic) with (S (S 17)). generalize 17. intros n.
  destruct s as [r ef b]. cbn [reached ephf] in *.
  destruct Hk as [-> | ->]; cbn [mark_loop cyclic nth_error ephem is_context is_weak class_of]; unfold unmarked;
    cbn [set_reached reached ephf Nat.eqb length Nat.ltb Nat.leb]; rewrite H0, He; reflexivity.
Qed.

Lemma turns : forall fuel s, turn s 1 \/ turn s 2 -> mark_ephemerons fuel cyclic s = OutOfFuel.
Proof.
  intros fuel. induction fuel as [|fuel IH]; intros s H; [reflexivity|].
  destruct s as [r ef b]. destruct H as [H|H]; destruct H as (R0 & R1 & R2 & E0 & E1 & E2 & B);
    cbn [reached ephf buffer] in *; subst b.
  - cbn [mark_ephemerons buffer first_pass]. change (key_of cyclic 1) with (@Ok nat 2). cbn [obind reached ephf].
    rewrite R2. cbn [second_pass]. change (key_of cyclic 1) with (@Ok nat 2).
    change (nth_error cyclic 1) with (Some (ephem 0 [Oop 2])). cbn [obind ephem tl fields mark_range].
    unfold maybe_mark, unmarked. change (Nat.ltb 2 (length cyclic)) with true.
    cbn [set_reached set_ephf reached ephf Nat.eqb negb andb obind].
    rewrite mark_one; [|auto|exact R0|exact E2].
    cbn [obind add_buf set_reached set_ephf buffer app reached ephf].
    rewrite IH; [reflexivity|]. right. unfold turn. cbn [reached ephf buffer Nat.eqb]. auto 10.
  - cbn [mark_ephemerons buffer first_pass]. change (key_of cyclic 2) with (@Ok nat 1). cbn [obind reached ephf].
    rewrite R1. cbn [second_pass]. change (key_of cyclic 2) with (@Ok nat 1).
    change (nth_error cyclic 2) with (Some (ephem 0 [Oop 1])). cbn [obind ephem tl fields mark_range].
    unfold maybe_mark, unmarked. change (Nat.ltb 1 (length cyclic)) with true.
    cbn [set_reached set_ephf reached ephf Nat.eqb negb andb obind].
    rewrite mark_one; [|auto|exact R0|exact E1].
    cbn [obind add_buf set_reached set_ephf buffer app reached ephf].
    rewrite IH; [reflexivity|]. left. unfold turn. cbn [reached ephf buffer Nat.eqb]. auto 10.
Qed.

Definition level1 : outcome marks := 
  olet s := mark_range cyclic (no_marks cyclic) [Oop 1] in
  olet s1 := first_pass cyclic (emptied s) (buffer s) in
  olet (s2, _) := second_pass cyclic s1 (buffer s) [] in Ok s2.

Lemma cyclic_forever : forall fuel, mark_oops fuel cyclic [Oop 1] = OutOfFuel.
Proof.
  intros fuel. unfold mark_oops.
  destruct (mark_range cyclic (no_marks cyclic) [Oop 1]) as [s| | | |] eqn:E1; try (vm_compute in E1; discriminate).
  cbn [obind]. destruct fuel as [|fuel]; [reflexivity|].
  assert (HL : level1 = olet s1 := first_pass cyclic (emptied s) (buffer s) in
                        olet (s2, _) := second_pass cyclic s1 (buffer s) [] in Ok s2).
  { unfold level1. rewrite E1. reflexivity. }
  destruct (first_pass cyclic (emptied s) (buffer s)) as [s1| | | |] eqn:E2; try (vm_compute in HL; discriminate).
  cbn [obind] in HL.
  destruct (second_pass cyclic s1 (buffer s) []) as [[s2 dead]| | | |] eqn:E3; try (vm_compute in HL; discriminate).
  cbn [obind] in HL. rewrite (level_eq cyclic fuel s s1 s2 dead E2 E3).
  assert (HT : turn s2 2).
  { assert (X : match level1 with Ok x => turn x 2 | _ => False end) by (vm_compute; auto 10).
    rewrite HL in X. exact X. }
  pose proof HT as (_ & _ & _ & _ & _ & _ & Hb). rewrite Hb. rewrite (turns fuel s2); auto.
Qed.

(** ** Who is mourned *)
Definition mourned (h : heap) (roots : list ref) : option (list nat) :=
  match mark_oops (S (length h)) h roots with Ok s => Some (buffer s) | _ => None end.

Lemma mourned_run : forall h roots l, mourned h roots = Some l ->
  exists s, mark_oops (S (length h)) h roots = Ok s /\ buffer s = l.
Proof.
  intros h roots l H. unfold mourned in H. destruct (mark_oops (S (length h)) h roots) as [s| | | |]; try discriminate.
  injection H as <-. eauto.
Qed.

(** A value that refers to the key. *)
Definition value_has_key : heap := [plain 0 []; ephem 0 [Oop 2; Oop 3]; plain 0 []; plain 0 [Oop 2]].

(** A key that is the value of an ephemeron whose key is alive. *)
Definition key_is_value : heap :=
  [plain 0 []; ephem 0 [Oop 0; Oop 3]; ephem 0 [Oop 3; Oop 0]; plain 0 []].

Ltac no_int := let e := fresh in intros e ? (? & ? & ? & ? & ?);
  repeat (destruct e as [|e]; cbn in *; try match goal with H : Some _ = Some _ |- _ => injection H as <- end;
          cbn in *; try discriminate).

Lemma never_mourned : exists h roots e s, good_heap h roots /\ no_integer_keys h /\ no_ephemeron_keys h
  /\ to_mourn h roots e /\ mark_oops (S (length h)) h roots = Ok s /\ ~ In e (buffer s).
Proof.
  destruct (mourned_run value_has_key [Oop 1] [] ltac:(vm_compute; reflexivity)) as (s & H1 & H2).
  exists value_has_key, [Oop 1], 1, s. split; [split; good_tac|]. split; [|split; [|split; [|split; [exact H1|rewrite H2; auto]]]].
  - intros e z (ob & A1 & A2 & A3 & A4).
    destruct e as [|[|[|[|e]]]]; cbn in A1; try (injection A1 as <-; cbn in *; discriminate). destruct e; discriminate.
  - intros e k r (ob & A1 & A2 & A3 & A4) (ok & B1 & B2 & B3 & B4).
    destruct e as [|[|[|[|e]]]]; cbn in A1; try (injection A1 as <-; cbn in *; try discriminate).
    + injection A4 as <-. cbn in B1. injection B1 as <-. discriminate.
    + destruct e; discriminate.
  - exists 2. split; [|split].
    + eexists. repeat split.
    + apply from_root. left. reflexivity.
    + intros Hr. assert (X : forall i, reachable (cut value_has_key 1) [Oop 1] i -> i = 0 \/ i = 1).
      { intros i Hi. induction Hi as [i Hi|i j Hi IH (ob & A1 & A2)].
        - destruct Hi as [Hi|[]]. injection Hi as <-. auto.
        - destruct IH as [-> | ->]; cbn in A1; injection A1 as <-; cbn in A2; destruct A2 as [->|[]]; auto. }
      destruct (X 2 Hr); discriminate.
Qed.

Lemma wrongly_mourned : exists h roots e s, good_heap h roots /\ no_integer_keys h /\ no_ephemeron_keys h
  /\ mark_oops (S (length h)) h roots = Ok s /\ In e (buffer s) /\ ~ to_mourn h roots e.
Proof.
  destruct (mourned_run key_is_value [Oop 0; Oop 1; Oop 2] [2] ltac:(vm_compute; reflexivity)) as (s & H1 & H2).
  exists key_is_value, [Oop 0; Oop 1; Oop 2], 2, s. split; [split; good_tac|].
  split; [|split; [|split; [exact H1|split; [rewrite H2; left; reflexivity|]]]].
  - intros e z (ob & A1 & A2 & A3 & A4).
    destruct e as [|[|[|[|e]]]]; cbn in A1; try (injection A1 as <-; cbn in *; discriminate). destruct e; discriminate.
  - intros e k r (ob & A1 & A2 & A3 & A4) (ok & B1 & B2 & B3 & B4).
    destruct e as [|[|[|[|e]]]]; cbn in A1; try (injection A1 as <-; cbn in *; try discriminate).
    + injection A4 as <-. cbn in B1. injection B1 as <-. discriminate.
    + injection A4 as <-. cbn in B1. injection B1 as <-. discriminate.
    + destruct e; discriminate.
  - intros (k & (ob & A1 & A2 & A3 & A4) & _ & Hn). cbn in A1. injection A1 as <-. cbn in A4. injection A4 as <-.
    apply Hn. apply from_object with (i := 1); [apply from_root; cbn; auto|].
    exists (ephem 0 [Oop 0; Oop 3]). split; [reflexivity|]. right. cbn. auto.
Qed.

(** ** Statements *)
Lemma mark_exact_s : forall fuel h roots, good_heap h roots -> no_integer_keys h ->
  match mark_oops fuel h roots with
  | Ok s => forall i, reached s i = true <-> reachable h roots i
  | OutOfFuel => True
  | _ => False
  end.
Proof.
  intros fuel h roots [H1 H2] H3. destruct (mark_exact h H1 H3 fuel roots H2) as [->|(s & -> & X)]; auto.
Qed.

Lemma mark_ends : forall h roots, good_heap h roots -> no_integer_keys h -> no_ephemeron_keys h ->
  exists s, mark_oops (S (length h)) h roots = Ok s /\ forall i, reached s i = true <-> reachable h roots i.
Proof.
  intros h roots H0 H3 H4. pose proof H0 as [H1 H2].
  destruct (mourned_sound h H1 H3 H4 roots H2) as (s & A1 & _).
  exists s. split; [exact A1|]. pose proof (mark_exact_s (S (length h)) h roots H0 H3) as X. rewrite A1 in X. exact X.
Qed.

Lemma eph_ephemeron : forall h e k, ephemeron h e (Oop k) -> eph h e /\ (key_of h e = Ok k -> keyn h e = k).
Proof.
  intros h e k (ob & A1 & A2 & A3 & A4). split; [exists ob; auto|]. intros H. unfold keyn. rewrite H. reflexivity.
Qed.

Lemma mourning : forall h roots s e k, good_heap h roots -> no_integer_keys h -> no_ephemeron_keys h ->
  mark_oops (S (length h)) h roots = Ok s -> ephemeron h e (Oop k) ->
  (In e (buffer s) -> ~ reachable (without_ephemerons h) roots k)
  /\ (reachable h roots e -> ~ reachable (without_key h e) roots k -> In e (buffer s)).
Proof.
  intros h roots s e k [H1 H2] H3 H4 HM He. destruct (eph_ephemeron h e k He) as [E1 _].
  assert (E2 : keyn h e = k).
  { destruct (eph_key h H1 H3 e E1) as (ob & A1 & _ & A3 & _). destruct He as (ob' & B1 & _ & _ & B4). congruence. }
  split.
  - destruct (mourned_sound h H1 H3 H4 roots H2) as (s' & A1 & A2). assert (s' = s) by congruence. subst s'.
    intros Hi. destruct (A2 e Hi) as [_ X]. rewrite E2 in X. exact X.
  - intros Hr Hk. apply (mourned_complete h H1 H3 H4 e E1 roots H2); auto. unfold Q', k0. rewrite E2. exact Hk.
Qed.
