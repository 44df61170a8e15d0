(** Stale caches. *)
From Verif Require Import Base Hashed MCache MCacheSpec MCacheProofs.

(** Classes 32 and 48; class 16 is their common ancestor and has doesNotUnderstand: (selector 1000). *)
Definition w_ex : world :=
  World (fun c => if (c =? 32) || (c =? 48) then Some 16 else None)
    (fun c s => if s =? 1000 then (if (c =? 32) || (c =? 48) then None else Some (Method 1 0))
                else if s =? 5 then (if c =? 16 then Some (Method 2 0) else if c =? 48 then Some (Method 3 0) else None) else None).
Definition sel_ex (k : special) : Z := match k with SAt => 60 | SAtPut => 61 | SSize => 62 | SClass => 63 end.
Definition rank_ex (c : Z) : nat := if c =? 32 then 2 else if c =? 48 then 1 else 0.

Lemma sane_ex : sane 1000 3 w_ex.
Proof.
  split.
  - exists rank_ex. intros c. unfold rank_ex, w_ex. cbn [super].
    split; [destruct (c =? 32), (c =? 48); cbn; lia|]. intros p.
    destruct (Z.eqb_spec c 32) as [->|]; cbn [orb]; [intros [= <-]; cbn; lia|].
    destruct (Z.eqb_spec c 48) as [->|]; [intros [= <-]; cbn; lia|discriminate].
  - intros c. exists (Method 1 0). split; [|reflexivity].
    destruct ((c =? 32) || (c =? 48)) eqn:E.
    + apply (finds_inherited w_ex 1000 c 16); cbn [w_ex dict super].
      * cbn. rewrite E. reflexivity.
      * rewrite E. reflexivity.
      * constructor. reflexivity.
    + constructor. cbn. rewrite E. reflexivity.
Qed.

Lemma superclass_stale : exists fuel w0 c p s, let h := [Send s c true; Superclass c (Some p)] in
  (forall pre post, h = pre ++ post -> sane 1000 fuel (world_after w0 pre)) /\
  exists v es e, run 1000 sel_ex fuel (vm0 w0) (h ++ [Send s c true]) = Ok (v, es ++ [e]) /\
  ~ right 1000 sel_ex (world_after w0 h) (Send s c true) e.
Proof.
  exists 3%nat, w_ex, 32, 48, 5. intros h. split.
  - assert (sane 1000 3 (changes w_ex (Superclass 32 (Some 48)))) as S.
    { split.
      - exists rank_ex. intros c. unfold rank_ex, w_ex. cbn [super changes].
        split; [destruct (c =? 32), (c =? 48); cbn; lia|]. intros p.
        destruct (Z.eqb_spec c 32) as [->|]; cbn [orb]; [intros [= <-]; cbn; lia|].
        destruct (Z.eqb_spec c 48) as [->|]; [intros [= <-]; cbn; lia|discriminate].
      - intros c. exists (Method 1 0). split; [|reflexivity].
        assert (finds (changes w_ex (Superclass 32 (Some 48))) 1000 16 (Some (Method 1 0))) as F16 by (constructor; reflexivity).
        assert (finds (changes w_ex (Superclass 32 (Some 48))) 1000 48 (Some (Method 1 0))) as F48
          by (apply (finds_inherited _ _ _ 16); [reflexivity|reflexivity|exact F16]).
        destruct (Z.eqb_spec c 32) as [->|N1]; [apply (finds_inherited _ _ _ 48); [reflexivity|reflexivity|exact F48]|].
        destruct (Z.eqb_spec c 48) as [->|N2]; [exact F48|].
        constructor. cbn. replace (c =? 32) with false by lia. replace (c =? 48) with false by lia. reflexivity. }
    intros pre post E. destruct pre as [|o1 pre]; [exact sane_ex|]. injection E as <- E.
    destruct pre as [|o2 pre]; [exact sane_ex|]. injection E as <- E. destruct pre; [exact S|discriminate].
  - eexists _, [Some (Activate (Method 2 0)); None], (Some (Activate (Method 2 0))). split; [vm_compute; reflexivity|].
    intros (x & [= <-] & D). inversion D as [m e F R|]; subst.
    assert (finds (world_after w_ex h) 5 32 (Some (Method 3 0))) as F3.
    { apply (finds_inherited _ _ _ 48); [reflexivity|reflexivity|]. constructor. reflexivity. }
    pose proof (finds_fun _ _ _ _ F _ F3) as EQ. injection EQ as ->. inversion R.
Qed.

Lemma bootstrap_stale : exists fuel w0 c s m, let h := [Send s c true; DoitConstant; Install c s m] in
  (forall pre post, h = pre ++ post -> sane 1000 fuel (world_after w0 pre)) /\ clean h = true /\
  exists v es e, run 1000 sel_ex fuel (vm0 w0) (h ++ [Send s c true]) = Ok (v, es ++ [e]) /\
  ~ right 1000 sel_ex (world_after w0 h) (Send s c true) e.
Proof.
  exists 3%nat, w_ex, 32, 5, (Method 9 0). intros h. split; [|split; [reflexivity|]].
  - assert (sane 1000 3 (changes w_ex (Install 32 5 (Method 9 0)))) as S.
    { destruct sane_ex as [R D]. split; [exact R|]. intros c. destruct (D c) as (m & F & P). exists m. split; [|exact P].
      clear - F. remember (Some m) as r eqn:E. clear E. induction F as [c m' H|c p r H1 H2 F IH|c H1 H2].
      - constructor. cbn in *. replace (1000 =? 5) with false by reflexivity. rewrite andb_false_r. exact H.
      - apply (finds_inherited _ _ _ p); [|exact H2|exact IH]. cbn in *. rewrite andb_false_r. exact H1.
      - constructor 3; [|exact H2]. cbn in *. rewrite andb_false_r. exact H1. }
    intros pre post E. destruct pre as [|o1 pre]; [exact sane_ex|]. injection E as <- E.
    destruct pre as [|o2 pre]; [exact sane_ex|]. injection E as <- E.
    destruct pre as [|o3 pre]; [exact sane_ex|]. injection E as <- E. destruct pre; [exact S|discriminate].
  - eexists _, [Some (Activate (Method 2 0)); None; None], (Some (Activate (Method 2 0))). split; [vm_compute; reflexivity|].
    intros (x & [= <-] & D). inversion D as [m e F R|]; subst.
    assert (finds (world_after w_ex h) 5 32 (Some (Method 9 0))) as F3 by (constructor; reflexivity).
    pose proof (finds_fun _ _ _ _ F _ F3) as EQ. injection EQ as ->. inversion R.
Qed.
