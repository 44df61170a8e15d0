(** Theorems about the scavenger (C117, C118). *)
From Coq Require Import ZArith List Bool Lia ZifyBool.
From Verif Require Import Base Scav ScavSpec ScavProofs.
Import ListNotations.
Local Open Scope list_scope.
Local Open Scope Z_scope.

(** * C117: a scavenge loses nothing and changes nothing *)

(** Missing from the full statement: ephemerons, and scavenges in which more
    objects survive than the tenuring queue has slots (half the survivor space's
    size in words), however many of them are tenured. *)
Theorem C117_scavenge_partial :
  forall shapes places size pages registered registers m slots last at0,
  let roots := concat pages ++ registered ++ registers in
  before places ->
  (forall o, places o = Young -> well_made size (shapes o) /\ ephemeron (shapes o) = false) ->
  at_most (size / 2) (reach shapes places roots) ->
  exists fuel s',
  scavenge shapes fuel pages registered registers (start places m slots size last at0) = Ok s'
  /\ (forall o, places o = Old -> place_of s' o = Old)
  /\ (forall o, reach shapes places roots o -> holds s' o (words (shapes o)))
  /\ (forall o, places o = Young -> ~ reach shapes places roots o -> place_of s' o = Young)
  /\ apart shapes size s' /\ mourned s' = [].
Proof.
  intros shapes places size pages registered registers m slots last at0 roots B M (l & F & N).
  exists (2 * length l + 5)%nat.
  exact (scavenge_ok shapes places roots size l B M F N (2 * length l + 5) (le_n _)
           pages registered registers m slots last at0 eq_refl).
Qed.
Print Assumptions C117_scavenge_partial.

(** a list of n cells, each with a value: cell o is followed by cell o + 1 and its
    value is object 30 + o; objects 60 and up are loose *)
Definition cells (n : nat) (o : nat) : shape :=
  if Nat.ltb o n
  then Shape [WInt 4; WInt 0; if Nat.ltb (S o) n then WOop (S o) else WInt 0; WOop (30 + o)] 3 false
  else Shape [WInt 2; WInt 0] 1 false.
Definition hundred (o : nat) : place := if Nat.ltb o 100 then Young else Old.
Lemma hundred_before : before hundred.
Proof. intros o. unfold hundred. destruct (Nat.ltb o 100); auto. Qed.
Lemma cells_made n size o : 4 <= size -> well_made size (cells n o) /\ ephemeron (cells n o) = false.
Proof.
  intros E. unfold cells, well_made. destruct (Nat.ltb o n); cbn [words scanned ephemeron hd_error length];
    (split; [split; [reflexivity|]; split; [lia|]; split; [lia|]; lia|reflexivity]).
Qed.
Definition run_cells (n : nat) (size : Z) (last : option nat) (pages : list (list word)) : outcome st :=
  scavenge (cells n) 100 pages [] [] (start hundred (fun _ => WInt 0) (fun _ => O) size last (InOld 0)).
Definition is_lost (r : outcome st) (o : nat) : bool :=
  match r with Ok s => match place_of s o with Young => true | _ => false end | _ => false end.

(** five cells and their values in a survivor space of twenty words: they meet the
    hypotheses, and two cells are tenured *)
Example C117_list :
  before hundred
  /\ (forall o, hundred o = Young -> well_made 20 (cells 5 o) /\ ephemeron (cells 5 o) = false)
  /\ at_most (20 / 2) (reach (cells 5) hundred [WOop 0])
  /\ exists s', run_cells 5 20 None [[WOop 0]] = Ok s'
     /\ place_of s' 0%nat = Tenured (words (cells 5 0)) /\ place_of s' 1%nat = Tenured (words (cells 5 1))
     /\ place_of s' 2%nat = Tenured (words (cells 5 2)) /\ place_of s' 3%nat = At 12
     /\ place_of s' 30%nat = At 8 /\ place_of s' 60%nat = Young.
Proof.
  split; [exact hundred_before|]. split; [intros; apply cells_made; lia|]. split.
  - exists ([0; 1; 2; 3; 4; 30; 31; 32; 33; 34]%nat). split; [|cbn; lia].
    intros o Ro. induction Ro as [o _ [[= <-]|[]]|o x _ IH _ Hf]; [left; auto|].
    cbn in IH. repeat (destruct IH as [<-|IH]; [cbn in Hf; intuition (try congruence); 
      match goal with E : WOop _ = WOop o |- _ => injection E as <- end; cbn; tauto|]). contradiction.
  - eexists. split; [vm_compute; reflexivity|]. repeat split.
Qed.

(** an ephemeron whose value is a list longer than the survivor space: the
    ephemeron is moved while its fields are looked at, its key is then read from
    where it was, and lost *)
Definition with_key (o : nat) : shape :=
  match o with
  | 0 => Shape [WInt 4; WInt 0; WOop 1; WOop 2] 3 true
  | 1 => Shape [WInt 2; WInt 0] 1 false
  | 2 => Shape [WInt 4; WInt 0; WOop 3; WInt 5] 3 false
  | 3 => Shape [WInt 4; WInt 0; WOop 4; WInt 5] 3 false
  | _ => Shape [WInt 4; WInt 0; WInt 7; WInt 5] 3 false
  end%nat.
Theorem C117_ephemeron_refuted :
  exists shapes places size pages fuel s' o,
  before places /\ (forall o, places o = Young -> well_made size (shapes o))
  /\ at_most (size / 2) (reach shapes places (concat pages))
  /\ scavenge shapes fuel pages [] [] (start places (fun _ => WInt 0) (fun _ => O) size None (InOld 0)) = Ok s'
  /\ reach shapes places (concat pages) o /\ place_of s' o = Young /\ mourned s' = [].
Proof.
  exists with_key, (fun o => if Nat.ltb o 5 then Young else Old), 12, [[WOop 0]], 100%nat.
  eexists. exists 1%nat.
  split; [intros o; destruct (Nat.ltb o 5); auto|].
  split. { intros o _. do 4 (destruct o as [|o]; [cbn; unfold well_made; cbn; intuition lia|]).
           unfold well_made. cbn. intuition lia. }
  split. { exists (seq 0 5). split; [|vm_compute; discriminate]. intros o Ro. apply in_seq.
           assert (Y : (fun o => if Nat.ltb o 5 then Young else Old) o = Young) by (inversion Ro; auto).
           cbn beta in Y. destruct (Nat.ltb_spec o 5); [lia|discriminate]. }
  split; [vm_compute; reflexivity|]. split; [|split; vm_compute; reflexivity].
  eapply reach_field with (x := 0%nat); [apply reach_root; [reflexivity|left; reflexivity]|reflexivity|].
  vm_compute. auto.
Qed.
Print Assumptions C117_ephemeron_refuted.

(** the class of an ephemeron is not copied at all, however large the survivor
    space is *)
Definition with_class (o : nat) : shape :=
  match o with
  | 0 => Shape [WInt 4; WOop 1; WInt 5; WInt 7] 3 true
  | _ => Shape [WInt 2; WInt 0] 1 false
  end%nat.
Theorem C117_ephemeron_class_refuted :
  exists shapes places size pages fuel s' o,
  before places /\ (forall o, places o = Young -> well_made size (shapes o))
  /\ at_most (size / 2) (reach shapes places (concat pages))
  /\ scavenge shapes fuel pages [] [] (start places (fun _ => WInt 0) (fun _ => O) size None (InOld 0)) = Ok s'
  /\ reach shapes places (concat pages) o /\ place_of s' o = Young /\ place_of s' 0%nat = At 0
  /\ nth_error (words (shapes 0%nat)) 1 = Some (WOop o).
Proof.
  exists with_class, (fun o => if Nat.ltb o 2 then Young else Old), 100, [[WOop 0]], 100%nat.
  eexists. exists 1%nat.
  split; [intros o; destruct (Nat.ltb o 2); auto|].
  split. { intros o _. do 2 (destruct o as [|o]; [cbn; unfold well_made; cbn; intuition lia|]).
           unfold well_made. cbn. intuition lia. }
  split. { exists (seq 0 2). split; [|vm_compute; discriminate]. intros o Ro. apply in_seq.
           assert (Y : (fun o => if Nat.ltb o 2 then Young else Old) o = Young) by (inversion Ro; auto).
           cbn beta in Y. destruct (Nat.ltb_spec o 2); [lia|discriminate]. }
  split; [vm_compute; reflexivity|]. split; [|split; [vm_compute; reflexivity|split; vm_compute; reflexivity]].
  eapply reach_field with (x := 0%nat); [apply reach_root; [reflexivity|left; reflexivity]|reflexivity|].
  vm_compute. auto.
Qed.
Print Assumptions C117_ephemeron_class_refuted.

(** the object that was scanned last in the scavenge before is copied first in
    this one, and a list of more cells than the tenuring queue has slots starts
    with it: eight cells, a survivor space of sixteen words.  Seven values are
    lost. *)
Theorem C117_scanned_last_refuted :
  exists n size last pages s' o,
  before hundred /\ (forall o, well_made size (cells n o) /\ ephemeron (cells n o) = false)
  /\ run_cells n size last pages = Ok s'
  /\ reach (cells n) hundred (concat pages) o /\ place_of s' o = Young.
Proof.
  exists 8%nat, 16, (Some 0%nat), [[WOop 0]]. eexists. exists 30%nat.
  split; [exact hundred_before|]. split; [intros; apply cells_made; lia|].
  split; [vm_compute; reflexivity|]. split; [|vm_compute; reflexivity].
  eapply reach_field with (x := 0%nat); [apply reach_root; [reflexivity|left; reflexivity]|reflexivity|].
  vm_compute. auto.
Qed.
Print Assumptions C117_scanned_last_refuted.

(** exactly as many objects as the tenuring queue has slots have been copied and
    scanned when a longer list is met *)
Theorem C117_full_queue_refuted :
  exists n size pages s' o,
  before hundred /\ (forall o, well_made size (cells n o) /\ ephemeron (cells n o) = false)
  /\ run_cells n size None pages = Ok s'
  /\ reach (cells n) hundred (concat pages) o /\ place_of s' o = Young.
Proof.
  exists 9%nat, 16, [map WOop (seq 60 8); [WOop 0]]. eexists. exists 30%nat.
  split; [exact hundred_before|]. split; [intros; apply cells_made; lia|].
  split; [vm_compute; reflexivity|]. split; [|vm_compute; reflexivity].
  eapply reach_field with (x := 0%nat); [apply reach_root; [reflexivity|vm_compute; tauto]|reflexivity|].
  vm_compute. auto.
Qed.
Print Assumptions C117_full_queue_refuted.

(** * C118: a scavenge mourns an ephemeron only if its key is not alive otherwise *)

(** the key of the first ephemeron is the value of the second, the key of which is
    referred to *)
Definition two_keys (o : nat) : shape :=
  match o with
  | 0 => Shape [WInt 4; WInt 0; WOop 1; WInt 0] 3 true
  | 2 => Shape [WInt 4; WInt 0; WOop 3; WOop 1] 3 true
  | _ => Shape [WInt 2; WInt 0] 1 false
  end%nat.
Theorem C118_mourned_refuted :
  exists shapes places size pages fuel s' o k,
  before places /\ (forall o, places o = Young -> well_made size (shapes o))
  /\ scavenge shapes fuel pages [] [] (start places (fun _ => WInt 0) (fun _ => O) size None (InOld 0)) = Ok s'
  /\ In o (mourned s') /\ key_of (shapes o) = [WOop k]
  /\ alive shapes places (concat pages) k.
Proof.
  exists two_keys, (fun o => if Nat.ltb o 5 then Young else Old), 100, [[WOop 0; WOop 2; WOop 3]], 100%nat.
  eexists. exists 0%nat, 1%nat.
  split; [intros o; destruct (Nat.ltb o 5); auto|].
  split. { intros o _. do 3 (destruct o as [|o]; [cbn; unfold well_made; cbn; intuition lia|]).
           unfold well_made. cbn. intuition lia. }
  split; [vm_compute; reflexivity|]. split; [vm_compute; auto|]. split; [reflexivity|].
  eapply alive_value with (x := 2%nat) (k := 3%nat).
  - apply alive_root; [reflexivity|vm_compute; auto].
  - reflexivity.
  - reflexivity.
  - reflexivity.
  - apply alive_root; [reflexivity|vm_compute; auto].
  - vm_compute. auto.
Qed.
Print Assumptions C118_mourned_refuted.
