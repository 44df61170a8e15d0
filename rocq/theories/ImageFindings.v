(** A decision procedure for good memories, an example, what is wrong with
    images, and the queues of semaphores. *)
From Verif Require Import Base Image ImageSpec ImageIO ImageProofs ImageLoad.
Local Open Scope Z_scope.

(** * Deciding whether a memory is good *)

Definition slot_at (m : memory) (w : Z) : option slot :=
  let d := w - ot_base m in
  if (d mod 16 =? 0) && (0 <=? d / 16 - 259) then nth_error (table m) (Z.to_nat (d / 16 - 259)) else None.

Lemma slot_at_some m w s : slot_at m w = Some s ->
  exists i, w = ot_base m + 16 * (Z.of_nat i + 259) /\ nth_error (table m) i = Some s.
Proof.
  unfold slot_at. cbv zeta. destruct (_ && _) eqn:C; [|discriminate]. intros E.
  exists (Z.to_nat ((w - ot_base m) / 16 - 259)). split; [lia|exact E].
Qed.
Lemma slot_at_addr m i s : nth_error (table m) i = Some s -> slot_at m (ot_base m + 16 * (Z.of_nat i + 259)) = Some s.
Proof.
  intros E. unfold slot_at. cbv zeta.
  replace (ot_base m + 16 * (Z.of_nat i + 259) - ot_base m) with ((Z.of_nat i + 259) * 16) by lia.
  rewrite Z.mod_mul, Z.div_mul by lia. replace ((0 =? 0) && (0 <=? Z.of_nat i + 259 - 259)) with true by lia.
  replace (Z.to_nat (Z.of_nat i + 259 - 259)) with i by lia. exact E.
Qed.

Definition liveb (m : memory) (s : slot) : bool := negb (Z.land (sflags s) (live_flags m) =? 0).
Definition plainb (s : slot) : bool := Z.land (sflags s) 15 =? 0.

(** the superclasses of a class, itself first *)
Fixpoint chain (fuel : nat) (m : memory) (w : Z) : option (list Z) :=
  match fuel with
  | O => None
  | S fuel =>
    match slot_at m w with
    | None => None
    | Some s =>
      if liveb m s && plainb s then
        match nth_error (odata (sobj s)) 0 with
        | None => None
        | Some v => if v =? ot_base m + 16 * 256 then Some [w]
                    else option_map (cons w) (chain fuel m v)
        end
      else None
    end
  end.

Lemma chain_ok m fuel w cs : chain fuel m w = Some cs ->
  lineage m w /\ forall top, top <> ot_base m + 16 * 256 -> inherits m top w -> In top cs.
Proof.
  revert w cs. induction fuel as [|fuel IH]; intros w cs E; [discriminate|]. cbn [chain] in E.
  destruct (slot_at m w) as [s|] eqn:SA; [|discriminate]. destruct (slot_at_some m w s SA) as (i & W & N).
  destruct (liveb m s && plainb s) eqn:LP; [|discriminate].
  assert (LP' : Z.land (sflags s) (live_flags m) <> 0 /\ Z.land (sflags s) 15 = 0) by (unfold liveb, plainb in LP; lia).
  destruct LP' as (LV & PL).
  destruct (nth_error (odata (sobj s)) 0) as [v|] eqn:D; [|discriminate].
  assert (INV : forall top, inherits m top w -> top = w \/ inherits m top v).
  { intros top H. destruct H as [|w' i' s' v' W' N' D' H]; [left; reflexivity|right].
    assert (i' = i) by lia. subst i'. rewrite N' in N. injection N as <-. rewrite D' in D. injection D as <-. exact H. }
  destruct (Z.eqb_spec v (ot_base m + 16 * 256)) as [->|NV].
  - injection E as <-. split; [exact (top m w i s W N LV PL D)|]. intros t0 NT H. destruct (INV t0 H) as [->|H']; [left; reflexivity|].
    remember (ot_base m + 16 * 256) as nl eqn:NL. destruct H' as [|w' i' s' v' W' N' D' H']; [contradiction NT; reflexivity|lia].
  - destruct (chain fuel m v) as [cs'|] eqn:CH; [|discriminate]. injection E as <-. destruct (IH v cs' CH) as (A & B).
    split; [exact (up m w i s v W N LV PL D A)|]. intros t0 NT H. destruct (INV t0 H) as [->|H']; [left; reflexivity|right; apply B; assumption].
Qed.

Fixpoint linksb (fuel : nat) (m : memory) (w : Z) : bool :=
  if w =? ot_base m + 16 * 256 then true
  else
    match fuel with
    | O => false
    | S fuel =>
      match slot_at m w with
      | None => false
      | Some s => liveb m s && plainb s && match nth_error (odata (sobj s)) 0 with
                                           | None => false
                                           | Some v => linksb fuel m v
                                           end
      end
    end.

Lemma linksb_ok m fuel w : linksb fuel m w = true -> links m w.
Proof.
  revert w. induction fuel as [|fuel IH]; intros w E; cbn [linksb] in E;
    (destruct (Z.eqb_spec w (ot_base m + 16 * 256)) as [E0|]; [rewrite E0; constructor|]); [discriminate|].
  destruct (slot_at m w) as [s|] eqn:SA; [|discriminate]. destruct (slot_at_some m w s SA) as (i & W & N).
  destruct (nth_error (odata (sobj s)) 0) as [v|] eqn:D; [|rewrite andb_false_r in E; discriminate].
  apply andb_prop in E. destruct E as (LP & E).
  apply (a_link m w i s v W N); [unfold liveb in LP; lia|unfold plainb in LP; lia|exact D|apply IH, E].
Qed.

Definition wordb (w : Z) : bool := (0 <=? w) && (w <? 2 ^ 64).
Definition shapeb (spec : Z) : bool := Z.testbit spec 5 && ((spec / 2) mod 16 <? 12).

Definition slotb (fuel : nat) (r : roles) (m : memory) (s : slot) : bool :=
  let d := odata (sobj s) in
  let c := oclass (sobj s) in
  match chain fuel m c, slot_at m c with
  | Some cs, Some sc =>
    match nth_error (odata (sobj sc)) 2 with
    | Some spec =>
      let pc := pointer_count spec (len d) in
      let callable := existsb (Z.eqb (c_callable_class r)) cs in
      let linked := match d with v :: _ => linksb fuel m v | [] => false end in
      (0 <=? sflags s) && (sflags s <? 2 ^ 31) && (osize (sobj s) =? 2 * (2 + len d) + 1)
      && (8 * (2 + len d) + 65536 <? 2 ^ 31) && forallb wordb d
      && liveb m sc && plainb sc && Z.odd spec && (0 <=? spec) && (spec <? 2 ^ 63)
      && (pc <=? len d)
      && (if plainb s then (pc =? len d) && negb (shapeb spec) else shapeb spec)
      && (plainb s || negb callable || ((2 <=? pc) && (pc <? len d)))
      && ((Z.land (sflags s) 64 =? 0) || (plainb s && (2 <=? len d)))
      && (negb (c =? callin_process_class r) || (plainb s && (4 <=? len d)))
      && (negb (c =? process_class r) || (plainb s && linked))
      && (negb (c =? semaphore_class r) || (plainb s && (2 <=? len d) && linked))
      && (negb (existsb (Z.eqb (file_descriptor_class r)) cs) || (plainb s && (2 <=? len d)))
      && (negb callable || negb (plainb s))
    | None => false
    end
  | _, _ => false
  end.

Lemma slotb_ok fuel r m s : c_callable_class r <> ot_base m + 16 * 256 -> file_descriptor_class r <> ot_base m + 16 * 256 ->
  slotb fuel r m s = true -> good_slot r m s.
Proof.
  intros NC NF. unfold slotb. cbv zeta. destruct (chain fuel m (oclass (sobj s))) as [cs|] eqn:CH; [|discriminate].
  destruct (slot_at m (oclass (sobj s))) as [sc|] eqn:SA; [|discriminate].
  destruct (nth_error (odata (sobj sc)) 2) as [spec|] eqn:N2; [|discriminate].
  destruct (chain_ok m fuel _ cs CH) as (LN & IN). destruct (slot_at_some m _ sc SA) as (c & W & N).
  intros H. repeat (apply andb_prop in H; destruct H as (H & ?)).
  assert (EX : forall top, In top cs -> existsb (Z.eqb top) cs = true).
  { intros top0 I. apply existsb_exists. exists top0. split; [exact I|apply Z.eqb_refl]. }
  assert (LK : forall d0, match d0 with v :: _ => linksb fuel m v | [] => false end = true ->
     exists v, nth_error d0 0 = Some v /\ links m v).
  { intros [|v d0] E; [discriminate|]. exists v. split; [reflexivity|exact (linksb_ok m fuel v E)]. }
  unfold good_slot. cbv zeta. split; [lia|]. split; [lia|]. split; [lia|].
  split. { apply Forall_forall. intros w I. match goal with X : forallb wordb _ = true |- _ => rewrite forallb_forall in X; specialize (X w I); unfold wordb in X; unfold word; lia end. }
  split; [exact LN|].
  split.
  { exists spec. split.
    { exists c, sc. unfold liveb, plainb in *. repeat (split; [first [exact W | exact N | exact N2 | lia | assumption]|]). lia. }
    unfold plainb, shapeb in *.
    split; [lia|]. split.
    { intros P. match goal with X : (if Z.land (sflags s) 15 =? 0 then _ else _) = true |- _ =>
        rewrite P in X; cbn [Z.eqb] in X; apply andb_prop in X; destruct X as (X1 & X2) end.
      split; [lia|apply negb_true_iff, X2]. }
    split; [intros P; destruct (Z.eqb_spec (Z.land (sflags s) 15) 0); [contradiction|assumption]|].
    intros P HI. pose proof (EX _ (IN _ NC HI)) as X. rewrite X in *. lia. }
  unfold plainb in *.
  split; [intros; lia|]. split; [intros; lia|].
  specialize (LK (odata (sobj s))). destruct (match odata (sobj s) with v :: _ => linksb fuel m v | [] => false end);
    [specialize (LK eq_refl)|clear LK]; (split; [intros E; rewrite E, Z.eqb_refl in *; split; [lia|]; first [exact LK | lia]|]);
    (split; [intros E; rewrite E, Z.eqb_refl in *; split; [lia|]; split; [lia|]; first [exact LK | lia]|]).
  all: split; [intros HI; pose proof (EX _ (IN _ NF HI)) as X; rewrite X in *; lia|].
  all: intros HI; pose proof (EX _ (IN _ NC HI)) as X; rewrite X in *; lia.
Qed.

Definition memoryb (fuel : nat) (r : roles) (m : memory) : bool :=
  (0 <=? ot_base m) && (ot_base m mod 16 =? 0) && (len (table m) <=? 2 ^ 23)
  && (ot_base m + 16 * (259 + len (table m)) <=? 2 ^ 64)
  && negb (nil_class m =? callin_process_class r)
  && forallb (fun w => wordb w && negb (w =? ot_base m + 16 * 256))
       [callin_process_class r; process_class r; semaphore_class r; file_descriptor_class r; c_callable_class r]
  && forallb (fun s => negb (liveb m s) || slotb fuel r m s) (table m).

Lemma memoryb_ok fuel r m : memoryb fuel r m = true -> good_memory r m.
Proof.
  unfold memoryb. intros H. apply andb_prop in H. destruct H as (H & HT). apply andb_prop in H. destruct H as (H & HR).
  assert (RW : Forall (fun w => word w /\ w <> ot_base m + 16 * 256)
    [callin_process_class r; process_class r; semaphore_class r; file_descriptor_class r; c_callable_class r]).
  { apply Forall_forall. intros w I. rewrite forallb_forall in HR. specialize (HR w I). unfold wordb in HR. unfold word. lia. }
  pose proof (len_nonneg (table m)). split; [unfold good_base; lia|]. split; [lia|]. split; [exact RW|].
  intros i s E L. rewrite forallb_forall in HT. specialize (HT s (nth_error_In _ _ E)).
  unfold liveb in HT. destruct (Z.eqb_spec (Z.land (sflags s) (live_flags m)) 0); [contradiction|]. cbn in HT.
  rewrite Forall_forall in RW. apply (slotb_ok fuel); [| |exact HT]; apply RW; cbn; tauto.
Qed.

(** * Queues *)

Lemma queue_inv g v l : queue g v l -> (v = null /\ l = [])
  \/ exists i n w l', v = ref i /\ l = i :: l' /\ g i = Some n /\ nth_error (pointers n) 0 = Some w /\ queue g w l'.
Proof. destruct 1 as [|i n w l' G P Q]; [left; auto|right; exists i, n, w, l'; auto]. Qed.

Lemma queue_fun g v l l' : queue g v l -> queue g v l' -> l = l'.
Proof.
  intros H. revert l'. induction H as [|i n v l G P Q IH]; intros l' H'; apply queue_inv in H';
    destruct H' as [(E & ->)|(i' & n' & w & l2 & E & -> & G' & P' & Q')].
  - reflexivity.
  - symmetry in E. apply ref_null in E. contradiction.
  - apply ref_null in E. contradiction.
  - apply ref_inj in E. subst i'. rewrite G' in G. injection G as ->. rewrite P' in P. injection P as ->.
    f_equal. apply IH, Q'.
Qed.

Lemma only_fun P l a b : only P l a -> only P l b -> a = b.
Proof.
  intros H. revert b. induction H as [|i l l' Y H IH|i l l' Y H IH]; intros b B; inversion B; subst; try contradiction; try reflexivity.
  - f_equal. apply IH. assumption.
  - apply IH. assumption.
Qed.

Lemma with_nth_same {A} k (x : A) l : (k < length l)%nat -> nth_error (with_nth k x l) k = Some x.
Proof.
  intros H. unfold with_nth. rewrite nth_error_app2; rewrite firstn_length_le by lia; [|lia]. rewrite Nat.sub_diag. reflexivity.
Qed.

(** a queue of processes in the saved graph *)
Lemma queue_saved N g g' v l l' : same_image N g g' -> callin N <> process N ->
  queue g v l -> only (fun i => ~ is_callin N g i) l l' ->
  (forall i n, In i l -> g i = Some n -> Z.land (attributes n) 64 = 0 /\ (cls n = process N \/ cls n = callin N)) ->
  queue g' (first_link l') l'.
Proof.
  intros SI D Q. revert l'. induction Q as [|i n w l G P Q IH]; intros l' O A; inversion O as [|i' k k' Y O'|i' k k' Y O']; subst.
  - apply q_end.
  - cbn [first_link]. destruct (A i n (or_introl eq_refl) G) as (NC & K).
    assert (CN : cls n <> callin N) by (intros C; apply Y; exists n; auto). destruct K as [K|K]; [|contradiction].
    pose proof (SI i) as S0. rewrite G in S0. destruct (g' i) as [n'|] eqn:G'; [|contradiction].
    assert (X : nth_error (pointers n') 0 = Some (first_link k')).
    { inversion S0; subst; try contradiction; try congruence.
      assert (l0 = l) by (apply (queue_fun g w); congruence). subst l0.
      assert (l' = k') by (eapply only_fun; eassumption). subst l'.
      cbn [with_pointer pointers]. apply with_nth_same. apply nth_error_Some. congruence. }
    apply (q_link g' i n' (first_link k')); [exact G'|exact X|]. apply IH; [exact O'|]. intros j m0 J. apply A. right. exact J.
  - apply IH; [exact O'|]. intros j m0 J. apply A. right. exact J.
Qed.

Lemma semaphore_saved N g g' i n v l : same_image N g g' -> callin N <> process N -> callin N <> semaphore N -> process N <> semaphore N ->
  g i = Some n -> cls n = semaphore N -> Z.land (attributes n) 64 = 0 -> (2 <= length (pointers n))%nat ->
  nth_error (pointers n) 0 = Some v -> queue g v l ->
  (forall j p, In j l -> g j = Some p -> Z.land (attributes p) 64 = 0 /\ (cls p = process N \/ cls p = callin N)) ->
  exists n' l', g' i = Some n' /\ only (fun j => ~ is_callin N g j) l l'
    /\ nth_error (pointers n') 0 = Some (first_link l') /\ nth_error (pointers n') 1 = Some (last_link l')
    /\ queue g' (first_link l') l'.
Proof.
  intros SI D1 D2 D3 G C A LP P Q AP. pose proof (SI i) as S0. rewrite G in S0. destruct (g' i) as [n'|] eqn:G'; [|contradiction].
  exists n'. inversion S0; subst; try contradiction; try congruence.
  assert (l0 = l) by (apply (queue_fun g v); congruence). subst l0.
  exists l'. split; [reflexivity|]. split; [assumption|]. cbn [with_pointer pointers]. split; [|split].
  - rewrite with_nth_other; [apply with_nth_same; lia|rewrite with_nth_length; lia|lia].
  - apply with_nth_same. rewrite with_nth_length; lia.
  - eapply queue_saved; eassumption.
Qed.

(** * An image *)

Definition a (i : Z) : Z := 65536 + 16 * (i + 259).
Definition obj (c : Z) (d : list Z) : object := Obj (2 * (2 + len d) + 1) (a c) d.
Definition nil : Z := 65536 + 16 * 256.
Definition plain : Z := 3 * 8192 + 1.

(** classes Class, Process, CallinProcess, Semaphore, FileDescriptor, CCallable
    and one with 64-bit elements; an array of these; a semaphore on which a
    process, a process called in from C and another process wait; a free entry;
    a context; a file; an external function; a subclass of Process *)
Definition image_with (waiting : Z) : memory :=
  Mem 65536
    [Slot 0x100 (obj 0 [nil; nil; plain]); Slot 0x100 (obj 0 [nil; nil; plain]);
     Slot 0x100 (obj 0 [a 1; nil; plain]); Slot 0x100 (obj 0 [nil; nil; plain]);
     Slot 0x100 (obj 0 [nil; nil; plain]); Slot 0x100 (obj 0 [nil; nil; 2 * 8192 + 51]);
     Slot 0x100 (obj 0 [nil; nil; 51]); Slot 0x108 (obj 6 [258; 2 ^ 63 + 5]);
     Slot 0x100 (obj 3 [a 9; a 11; 1]); Slot 0x100 (obj waiting [a 10; 3; 5; a 8]);
     Slot 0x100 (obj 2 [a 11; 3; 5; a 8]); Slot 0x100 (obj 1 [nil; 3; 5; a 8]);
     Slot 0 (Obj 0 0 []); Slot 0x140 (obj 0 [nil; 77]); Slot 0x100 (obj 4 [5; a 7]);
     Slot 0x108 (obj 5 [nil; nil; 12345]); Slot 0x100 (obj 0 [a 1; nil; plain])]
    (a 0) 0x40100.
Definition image : memory := image_with 1.
Definition known : roles := Roles (a 2) (a 1) (a 3) (a 4) (a 5).

Lemma image_good : good_memory known image.
Proof. apply (memoryb_ok 6). vm_compute. reflexivity. Qed.
Lemma image_good' : good_memory known (image_with 16).
Proof. apply (memoryb_ok 6). vm_compute. reflexivity. Qed.

Definition saved_with (waiting : Z) (big : bool) : outcome (list Z) :=
  save_to_fd 20 (fun _ => 1000000) big 7 [1; 2; 3; 4; 5; 6] [8; 9] 0 known (image_with waiting).
Definition bytes_saved (waiting : Z) (big : bool) : list Z :=
  match saved_with waiting big with Ok file => file | _ => [] end.

Lemma saved_ok w big : w = 1 \/ w = 16 ->
  save_to_fd 20 (fun _ => 1000000) big 7 [1; 2; 3; 4; 5; 6] [8; 9] 0 known (image_with w) = Ok (bytes_saved w big).
Proof. intros [-> | ->]; destruct big; vm_compute; reflexivity. Qed.

Definition loaded (sigsegv map_ big : bool) (base : Z) (file : list Z) : header * memory :=
  match load_snapshot sigsegv map_ big 7 (a 0) base file with Ok (Some hm) => hm
  | _ => (Header 0 0 [] 0 0 [], image) end.

(** an image of a machine with the other byte order, mapped, at the same address *)
Lemma other_order_mapped :
  exists r m file, good_memory r m
    /\ save_to_fd 20 (fun _ => 1000000) false 7 [1; 2; 3; 4; 5; 6] [8; 9] 0 r m = Ok file
    /\ load_snapshot true true true 7 (a 0) (ot_base m) file = UB.
Proof.
  exists known, (image_with 1), (bytes_saved 1 false). split; [exact image_good|].
  split; [exact (saved_ok 1 false (or_introl eq_refl))|]. vm_compute. reflexivity.
Qed.

Lemma other_order_numbers :
  exists r m file h m' i, good_memory r m
    /\ save_to_fd 20 (fun _ => 1000000) false 7 [1; 2; 3; 4; 5; 6] [8; 9] 0 r m = Ok file
    /\ load_snapshot true true true 7 (a 0) 131072 file = Ok (Some (h, m'))
    /\ numbers m i = Some [258; 2 ^ 63 + 5] /\ numbers m' i = Some [2 ^ 57 + 2 ^ 48; 5 * 2 ^ 56 + 128].
Proof.
  exists known, (image_with 1), (bytes_saved 1 false), (fst (loaded true true true 131072 (bytes_saved 1 false))),
    (snd (loaded true true true 131072 (bytes_saved 1 false))), 7%nat.
  split; [exact image_good|].
  split; [exact (saved_ok 1 false (or_introl eq_refl))|]. split; [|split]; vm_compute; reflexivity.
Qed.

Lemma queue_lost :
  exists r m file h m' i n n' v l l', good_memory r m
    /\ save_to_fd 20 (fun _ => 1000000) false 7 [1; 2; 3; 4; 5; 6] [8; 9] 0 r m = Ok file
    /\ load_snapshot true true false 7 (a 0) 131072 file = Ok (Some (h, m'))
    /\ view false m i = Some n /\ cls n = semaphore (names (ot_base m) r)
    /\ nth_error (pointers n) 0 = Some v /\ queue (view false m) v l
    /\ only (fun j => ~ is_callin (names (ot_base m) r) (view false m) j) l l'
    /\ view false m' i = Some n'
    /\ forall v', nth_error (pointers n') 0 = Some v' -> ~ queue (view false m') v' l'.
Proof.
  exists known, (image_with 16), (bytes_saved 16 false), (fst (loaded true true false 131072 (bytes_saved 16 false))),
    (snd (loaded true true false 131072 (bytes_saved 16 false))), 8%nat.
  eexists. eexists. exists (ref 9), [9; 10; 11]%nat, [9; 11]%nat.
  split; [exact image_good'|].
  split; [exact (saved_ok 16 false (or_intror eq_refl))|]. split; [vm_compute; reflexivity|].
  split; [vm_compute; reflexivity|]. split; [vm_compute; reflexivity|]. split; [vm_compute; reflexivity|].
  split.
  { eapply (q_link _ 9); [vm_compute; reflexivity|vm_compute; reflexivity|].
    eapply (q_link _ 10); [vm_compute; reflexivity|vm_compute; reflexivity|].
    eapply (q_link _ 11); [vm_compute; reflexivity|vm_compute; reflexivity|]. apply q_end. }
  split.
  { apply only_keep. { intros (n & E & C). vm_compute in E. injection E as <-. vm_compute in C. discriminate. }
    apply only_drop. { intros H. apply H. eexists. split; vm_compute; reflexivity. }
    apply only_keep. { intros (n & E & C). vm_compute in E. injection E as <-. vm_compute in C. discriminate. }
    apply only_nil. }
  split; [vm_compute; reflexivity|]. intros v' V Q. vm_compute in V. injection V as <-.
  assert (Q' : queue (view false (snd (loaded true true false 131072 (bytes_saved 16 false)))) (ref 9) [9; 10]%nat).
  { eapply (q_link _ 9); [vm_compute; reflexivity|vm_compute; reflexivity|].
    eapply (q_link _ 10); [vm_compute; reflexivity|vm_compute; reflexivity|]. apply q_end. }
  discriminate (queue_fun _ _ _ _ Q Q').
Qed.

(** saving fails and the old image is gone *)
Lemma image_destroyed :
  exists r m old results, good_memory r m
    /\ save_to_fd 20 (fun _ => 1000000) false 7 [1; 2; 3; 4; 5; 6] [8; 9] 0 r m = Ok old
    /\ save_to_file 20 results true false 7 [1; 2; 3; 4; 5; 6] [8; 9] 0 r m (Some old) = Ok (false, None).
Proof.
  exists known, (image_with 1), (bytes_saved 1 false), (fun n => match n with O => 100 | _ => -1 end).
  split; [exact image_good|]. split; [exact (saved_ok 1 false (or_introl eq_refl))|]. vm_compute. reflexivity.
Qed.

(** but no part of an image is left under the name *)
Lemma no_partial_file r m e vers sets sums junk : good_memory r m -> word vers -> word junk ->
  Forall word sets -> length sets = 6%nat -> Forall word sums -> length sums = 2%nat ->
  exists k, forall fuel, (k <= fuel)%nat -> forall results opened old,
    (exists file, save_to_file fuel results opened e vers sets sums junk r m old = Ok (true, Some file)
       /\ forall map_ nilc base', good_base base' (len (table m)) -> (map_ = true -> len file < 2 ^ 31) ->
          exists h m', load_snapshot true map_ e vers nilc base' file = Ok (Some (h, m'))
            /\ same_image (names (ot_base m) r) (view e m) (view e m'))
    \/ (save_to_file fuel results opened e vers sets sums junk r m old = Ok (false, None)
        /\ (opened = false \/ exists j, results j <= 0)).
Proof.
  intros GM WV WJ WS LS WM LM. destruct (image_ok r m e vers sets sums junk GM WV WJ WS LS WM LM) as (k & K).
  exists k. intros fuel L results opened old. destruct (K fuel L) as (file & SV & LD). unfold save_to_file.
  destruct opened; [|right; split; [reflexivity|left; reflexivity]]. destruct (SV results) as [E|(E & J)]; rewrite E.
  - left. exists file. split; [reflexivity|]. intros map_ nilc base' GB SM.
    destruct (LD true map_ e vers nilc base' (Z.le_refl _) GB SM (or_introl eq_refl)) as (h & m' & A & _ & _ & _ & _ & B).
    exists h, m'. auto.
  - right. split; [reflexivity|right; exact J].
Qed.

(** a part of an image is loaded nevertheless *)
Lemma truncated_loaded :
  exists r m file n, good_memory r m
    /\ save_to_fd 20 (fun _ => 1000000) false 7 [1; 2; 3; 4; 5; 6] [8; 9] 0 r m = Ok file
    /\ (n < length file)%nat
    /\ load_snapshot true true false 7 (a 0) (ot_base m) (firstn n file) = UB.
Proof.
  exists known, (image_with 1), (bytes_saved 1 false), 1000%nat.
  split; [exact image_good|]. split; [exact (saved_ok 1 false (or_introl eq_refl))|].
  split; [|vm_compute; reflexivity]. apply Nat.ltb_lt. vm_compute. reflexivity.
Qed.

Lemma forallb_combine (x y : list Z) : length x = length y ->
  forallb (fun '(a, b) => a =? b) (combine x y) = true -> x = y.
Proof.
  revert y. induction x as [|u x IH]; intros [|v y] L H; try discriminate; [reflexivity|].
  cbn in H. apply andb_prop in H. destruct H as (H1 & H2). f_equal; [lia|]. apply IH; [injection L; auto|exact H2].
Qed.

(** files that are not images *)
Lemma not_an_image sigsegv map_ big vers nilc base file : 168 <= len file -> (map_ = true -> len file < 2 ^ 31) ->
  firstn 6 (skipn 64 file) <> [71; 83; 84; 73; 109; 0]
  -> load_snapshot sigsegv map_ big vers nilc base file = Ok None.
Proof.
  intros L SM H. unfold load_snapshot. destruct (buffer_read_init_ok map_ file SM) as (r0 & A1 & A2 & A3 & A4). rewrite A1. cbn [obind].
  rewrite <- (firstn_skipn 168 file) in A3.
  assert (L1 : len (firstn 168 file) = 168) by (unfold len in *; rewrite firstn_length; lia).
  destruct (buffer_read_ok 168 r0 _ _ A2 A3 L1) as (r1 & B1 & _); [lia|]. unfold load_file_version. rewrite B1. cbn [obind].
  assert (P : part 64 6 (firstn 168 file) = firstn 6 (skipn 64 file)).
  { unfold part. change (Z.to_nat 64) with 64%nat. change (Z.to_nat 6) with 6%nat.
    rewrite skipn_firstn_comm, firstn_firstn. reflexivity. }
  rewrite P. destruct (forallb _ _) eqn:FB; [|reflexivity]. exfalso. apply H. apply forallb_combine in FB.
  - rewrite FB. reflexivity.
  - rewrite firstn_length, skipn_length. unfold len in L.
    change (length (pad 6 (chars signature))) with 6%nat. lia.
Qed.

Lemma same_order_ok r m e vers sets sums junk :
  good_memory r m -> word vers -> word junk -> Forall word sets -> length sets = 6%nat ->
  Forall word sums -> length sums = 2%nat ->
  exists k, forall fuel, (k <= fuel)%nat -> exists file,
    (forall results, save_to_fd fuel results e vers sets sums junk r m = Ok file
       \/ (save_to_fd fuel results e vers sets sums junk r m = Err /\ exists j, results j <= 0))
    /\ forall sigsegv map_ vers' nilc base', vers <= vers' -> good_base base' (len (table m)) ->
       (map_ = true -> len file < 2 ^ 31) ->
       exists h m', load_snapshot sigsegv map_ e vers' nilc base' file = Ok (Some (h, m'))
         /\ version h = vers /\ settings h = sets /\ md5 h = sums
         /\ ot_base m' = base' /\ same_image (names (ot_base m) r) (view e m) (view e m').
Proof.
  intros GM WV WJ WS LS WM LM. destruct (image_ok r m e vers sets sums junk GM WV WJ WS LS WM LM) as (k & K).
  exists k. intros fuel L. destruct (K fuel L) as (file & SV & LD). exists file. split; [exact SV|].
  intros sg mp vers' nilc base' LV GB SM. exact (LD sg mp e vers' nilc base' LV GB SM (or_introl eq_refl)).
Qed.

Lemma queue_example : exists n, view false image 8%nat = Some n /\ cls n = semaphore (names 65536 known)
  /\ nth_error (pointers n) 0 = Some (ref 9) /\ queue (view false image) (ref 9) [9; 10; 11]%nat
  /\ callin (names 65536 known) <> process (names 65536 known).
Proof.
  eexists. split; [vm_compute; reflexivity|]. split; [vm_compute; reflexivity|]. split; [vm_compute; reflexivity|]. split.
  { eapply (q_link _ 9); [vm_compute; reflexivity|vm_compute; reflexivity|].
    eapply (q_link _ 10); [vm_compute; reflexivity|vm_compute; reflexivity|].
    eapply (q_link _ 11); [vm_compute; reflexivity|vm_compute; reflexivity|]. apply q_end. }
  vm_compute. discriminate.
Qed.
