(** A system that gives memory in order, and what happens with it. *)
From Verif Require Import Base Alloc AllocSpec AllocPages AllocInv AllocTop AllocGet AllocPut.

(** Memory beyond all that is in use. *)
Definition top (l : list (Z * Z)) : Z := fold_right (fun x t => Z.max (fst x + snd x) t) 4096 l.
Definition bump (_ : nat) (s : st) (sz : Z) : option Z :=
  let p := round_page (top (regions s)) in if p + sz <=? 2 ^ 47 then Some p else None.

Lemma top_ge l : 4096 <= top l /\ Forall (fun x => fst x + snd x <= top l) l.
Proof.
  induction l as [|x l [IH1 IH2]]; [split; [reflexivity|constructor]|].
  change (top (x :: l)) with (Z.max (fst x + snd x) (top l)). split; [lia|]. constructor; [lia|].
  eapply Forall_impl; [|exact IH2]. intros y Hy. cbv beta in Hy. lia.
Qed.

Lemma bump_honest : honest bump.
Proof.
  intros n s sz p H. unfold bump in H. destruct (_ <=? _) eqn:E; [|discriminate]. inversion H; subst.
  destruct (round_page_ok (top (regions s))) as [R D]. destruct (top_ge (regions s)) as [T F].
  split; [exact D|]. split; [lia|]. split; [lia|]. eapply Forall_impl; [|exact F]. intros y Hy. unfold separate. cbv beta in Hy. cbn [fst snd]. lia.
Qed.

(** The pieces a client holds do not overlap free memory either. *)
Lemma live_free s live : inv s live -> Forall (fun x => Forall (separate x) (prim s)) live.
Proof.
  intros [C F]. apply Forall_forall. intros [m z] H. apply Forall_forall. intros y Hy.
  pose proof (c_mem s live C) as M. destruct (c_live s live C m z H) as (p & b & Hb & Hh & Hz).
  destruct (del_ok s p b M Hb) as (A1 & U1 & A2 & U2 & Nd & T & K).
  pose proof (NoDup_PL_separate _ _ A1 A2 Nd) as S. rewrite Forall_forall in S.
  specialize (S y (in_or_app _ _ _ (or_introl Hy))).
  assert (X : p <= m /\ m + z <= p + snd (extent (p, b))).
  { pose proof (c_blocks s live C p b Hb) as B. destruct b as [c nr avail fr|n mm]; cbn in Hh, Hz, B |- *; [|lia].
    destruct B as (Hc & _). destruct (in_sizes c Hc) as (k & Hk). destruct (sizes_ok k c Hk) as (_ & Hc8 & _).
    pose proof (slot_bounds p c m ltac:(lia) (proj1 Hh)). lia. }
  unfold separate in *. change (fst (extent (p, b))) with p in S. cbn [fst snd]. lia.
Qed.

Section Runs.
  Context (os : nat -> st -> Z -> option Z) (chunk limit : Z) (HO : honest os) (HC : (4096 | chunk)).
  Context ops s live (R : run os chunk limit init [] ops s live).

  Lemma run_init : inv s live /\ (in_limit limit init -> in_limit limit s).
  Proof. destruct (run_inv os chunk limit HO HC _ _ _ _ _ R init_inv) as (I & L & _). auto. Qed.

  Lemma run_sound : sound live /\ Forall (fun x => Forall (separate x) (prim s)) live.
  Proof. pose proof (proj1 run_init) as I. split; [exact (inv_sound s live I)|exact (live_free s live I)]. Qed.

  Lemma run_safe o : allowed live o ->
    (exists r, step os chunk limit s live o = Ok r) \/ step os chunk limit s live o = Err
    \/ (step os chunk limit s live o = UB /\ limit <> 0 /\ exists mem sz, o = ORealloc mem sz).
  Proof.
    intros A. destruct (step_ok os chunk limit HO HC s live o (proj1 run_init) A) as [H|[(H1 & H2 & H3)|(s' & l' & H & _)]]; eauto.
  Qed.

  Lemma run_served sz s' : limit = 0 -> 0 <= sz <= LARGEST -> mem_alloc os chunk limit s sz <> Ok (None, s').
  Proof.
    intros Z0 Hsz E. unfold mem_alloc in E.
    destruct (attempt_ok os chunk limit HO HC sz 2 Hsz s live (proj1 run_init)) as [H|(r & s2 & H & _ & _ & _ & N)]; [congruence|].
    apply (N Z0); [left; lia|congruence].
  Qed.

  Lemma run_kept mem sz r s' : limit = 0 -> (mem = 0 \/ In mem (map fst live)) -> 0 < sz <= LARGEST ->
    mem_realloc os chunk limit s mem sz = Ok (r, s') -> r <> None.
  Proof.
    intros Z0 Hm Hsz E N. destruct (realloc_ok os chunk limit HO HC s live mem sz (proj1 run_init) Hm ltac:(lia))
      as [H|[[H _]|(r2 & s2 & H & _ & _ & _ & Q)]]; [congruence|congruence|].
    destruct (Q Z0); [congruence|lia].
  Qed.

  Lemma run_limit : 0 < limit -> 0 <= total s <= limit.
  Proof.
    intros H. destruct run_init as [I L]. split; [apply total_bound; apply (c_mem _ _ (proj1 I))|].
    apply L; [|lia]. unfold in_limit. cbn. lia.
  Qed.

  Lemma run_returned : live = [] ->
    blocks s = [] /\ total s = 0 /\ mmaps s = 0 /\ coalesced (prim s) /\ sum (prim s) = arena s.
  Proof.
    intros E. pose proof (proj1 run_init) as I. rewrite E in I. destruct (inv_nil s I) as (Eb & Et & Em & C & _).
    repeat (split; [assumption|]). unfold arena. rewrite Eb. cbn. lia.
  Qed.

  Lemma run_total : total s = sum (map extent (blocks s)) /\ mmaps s = Z.of_nat (length (filter (fun x => negb (shared x)) (blocks s))).
  Proof.
    pose proof (c_mem _ _ (proj1 (proj1 run_init))) as M. split; [apply (m_total s M)|]. rewrite (m_mmaps s M).
    clear. induction (blocks s) as [|[p b] l IH]; [reflexivity|]. cbn [count filter]. unfold shared at 1. cbn [snd].
    destruct b as [|n [|]]; cbn [mm_of negb length]; lia.
  Qed.

  Lemma run_more ops' s' live' : run os chunk limit s live ops' s' live' -> arena s <= arena s'.
  Proof. intros R'. destruct (run_inv os chunk limit HO HC _ _ _ _ _ R' (proj1 run_init)) as (_ & _ & H). exact H. Qed.
End Runs.

(** Runs, computed. *)
Fixpoint play (os : nat -> st -> Z -> option Z) (chunk limit : Z) (s : st) (live : holdings) (ops : list op) : outcome (st * holdings) :=
  match ops with
  | [] => Ok (s, live)
  | o :: ops => olet r := step os chunk limit s live o in play os chunk limit (fst r) (snd r) ops
  end.
Fixpoint keeps (os : nat -> st -> Z -> option Z) (chunk limit : Z) (s : st) (live : holdings) (ops : list op) : Prop :=
  match ops with
  | [] => True
  | o :: ops => allowed live o /\ match step os chunk limit s live o with Ok r => keeps os chunk limit (fst r) (snd r) ops | _ => False end
  end.
Lemma play_run os chunk limit ops : forall s live s' live', keeps os chunk limit s live ops ->
  play os chunk limit s live ops = Ok (s', live') -> run os chunk limit s live ops s' live'.
Proof.
  induction ops as [|o ops IH]; intros s live s' live' K P; cbn in K, P; [inversion P; subst; constructor|].
  destruct K as [A K]. destruct (step os chunk limit s live o) as [[s1 l1]| | | |] eqn:E; try contradiction.
  cbn [obind fst snd] in *. econstructor; eauto.
Qed.

(** Small and large pieces, one made smaller and one larger ... *)
Definition history : list op :=
  [OAlloc 100; OAlloc 40; OAlloc 300000; OAlloc 10000; ORealloc 266256 5000; OFree 8240; ORealloc 4144 5000].
Definition held_then : holdings := [(24592, 5000); (266256, 5000); (12304, 10000)].
(** ... and all returned. *)
Definition the_end : list op := [OFree 12304; OFree 0; ORealloc 24592 0; OFree 266256].

Lemma history_keeps : keeps bump 262144 0 init [] (history ++ the_end).
Proof.
  assert (L : forall z, (0 <=? z) && (z <=? 2147475456) = true -> 0 <= z <= LARGEST) by (unfold LARGEST; lia).
  unfold history, the_end.
  repeat (split; [first [apply L; reflexivity
                        |split; [right; cbn; tauto|apply L; reflexivity]
                        |left; reflexivity|right; cbn; tauto]|];
          match goal with |- match ?e with _ => _ end => let x := eval vm_compute in e in replace e with x by (vm_compute; reflexivity) end;
          cbn [fst snd app]).
  exact I.
Qed.

Definition after_history : st :=
  St [(4096, 8192); (32768, 233472)] [(24576, Large 8176 false); (266240, Large 8176 true); (12288, Large 12272 false)]
     (map (fun _ => []) sizes) 28672 1 2.
Definition after_all : st := St [(4096, 262144)] [] (map (fun _ => []) sizes) 0 0 2.

Lemma keeps_app os chunk limit a b : forall s live, keeps os chunk limit s live (a ++ b) -> keeps os chunk limit s live a.
Proof.
  induction a as [|o a IH]; intros s live K; [exact I|]. cbn in K |- *. destruct K as [A K]. split; [exact A|].
  destruct (step os chunk limit s live o); try contradiction. apply IH. exact K.
Qed.

Lemma history_run : run bump 262144 0 init [] history after_history held_then.
Proof. apply play_run; [exact (keeps_app _ _ _ _ _ _ _ history_keeps)|vm_compute; reflexivity]. Qed.
Lemma whole_run : run bump 262144 0 init [] (history ++ the_end) after_all [].
Proof. apply play_run; [exact history_keeps|vm_compute; reflexivity]. Qed.

(** With a limit: two pages, both in use. *)
Definition two_pages : st :=
  St [(12288, 253952)] [(8192, Small 4048 1 0 []); (4096, Small 4048 1 0 [])] (map (fun _ => []) sizes) 8192 0 1.
Lemma limit_run : run bump 262144 8192 init [] [OAlloc 3000; OAlloc 3000] two_pages [(8240, 3000); (4144, 3000)].
Proof.
  apply play_run; [|vm_compute; reflexivity].
  repeat (split; [unfold allowed, LARGEST; lia|];
          match goal with |- match ?e with _ => _ end => let x := eval vm_compute in e in replace e with x by (vm_compute; reflexivity) end;
          cbn [fst snd]).
  exact I.
Qed.

Lemma realloc_null : exists os chunk limit ops s live mem sz, honest os /\ (4096 | chunk) /\ run os chunk limit init [] ops s live
  /\ allowed live (ORealloc mem sz) /\ step os chunk limit s live (ORealloc mem sz) = UB.
Proof.
  exists bump, 262144, 8192, [OAlloc 3000; OAlloc 3000], two_pages, [(8240, 3000); (4144, 3000)], 4144, 5000.
  split; [exact bump_honest|]. split; [exists 64; reflexivity|]. split; [exact limit_run|].
  split; [split; [right; cbn; tauto|unfold LARGEST; lia]|vm_compute; reflexivity].
Qed.

(** 4 Gb are allocated and returned. *)
Lemma large_lost : exists os chunk limit sz s s' mem, honest os /\ (4096 | chunk)
  /\ mem_alloc os chunk limit init sz = Ok (Some mem, s) /\ mem_free s mem = Ok s' /\ blocks s' = [] /\ total s' = sz /\ 0 < sz.
Proof.
  exists bump, 262144, 0, (2 ^ 32).
  exists (St [] [(4096, Large 4294971376 true)] (map (fun _ => []) sizes) 4294971392 1 1),
         (St [] [] (map (fun _ => []) sizes) 4294967296 0 1), 4112.
  split; [exact bump_honest|]. split; [exists 64; reflexivity|]. split; [vm_compute; reflexivity|].
  split; [vm_compute; reflexivity|]. split; [reflexivity|]. split; reflexivity.
Qed.
