(** Saving and loading an image. *)
From Verif Require Import Base Image ImageSpec ImageIO.
Local Open Scope Z_scope.

(** * Addresses *)

Definition addr (m : memory) (i : nat) : Z := ot_base m + 16 * (Z.of_nat i + 259).

Lemma obj_at_addr m i s : nth_error (table m) i = Some s -> sflags s <> 0 -> obj_at m (addr m i) = Ok (sobj s).
Proof.
  intros E F. unfold obj_at, addr.
  replace (ot_base m + 16 * (Z.of_nat i + 259) - ot_base m) with ((Z.of_nat i + 259) * 16) by lia.
  rewrite Z.mod_mul, Z.div_mul by lia.
  assert (i < length (table m))%nat by (apply nth_error_Some; congruence).
  replace ((0 =? 0) && (0 <=? Z.of_nat i + 259 - 259) && (Z.of_nat i + 259 - 259 <? len (table m))) with true by (unfold len; lia).
  replace (Z.to_nat (Z.of_nat i + 259 - 259)) with i by lia. rewrite E.
  destruct (Z.eqb_spec (sflags s) 0); [contradiction|reflexivity].
Qed.

Lemma entry_addr m i : entry m (addr m i) = nth_error (table m) i.
Proof.
  unfold entry, addr. f_equal.
  replace (ot_base m + 16 * (Z.of_nat i + 259) - ot_base m) with ((Z.of_nat i + 259) * 16) by lia.
  rewrite Z.div_mul by lia. lia.
Qed.

Lemma live_flags_nz f l : Z.land f l <> 0 -> f <> 0.
Proof. intros H E. subst. apply H. apply Z.land_0_l. Qed.

Lemma any_true f k : any f k = true <-> Z.land f k <> 0.
Proof. unfold any. destruct (Z.eqb_spec (Z.land f k) 0); cbn; split; congruence. Qed.
Lemma any_false f k : any f k = false <-> Z.land f k = 0.
Proof. unfold any. destruct (Z.eqb_spec (Z.land f k) 0); cbn; split; congruence. Qed.

(** * Graphs *)

Definition node_of (big : bool) (base spec flags c : Z) (d : list Z) : node :=
  let k := Z.to_nat (pointer_count spec (len d)) in
  Node (Z.land flags 0x2FF) (value base c) (map (value base) (firstn k d))
       (flat_map (bytes_of big) (skipn k d)).

Lemma view_node big m i s spec : nth_error (table m) i = Some s -> Z.land (sflags s) (live_flags m) <> 0 ->
  good_class m (oclass (sobj s)) spec ->
  view big m i = Some (node_of big (ot_base m) spec (sflags s) (oclass (sobj s)) (odata (sobj s))).
Proof.
  intros E L (c & sc & W & EC & LC & _ & ES & _). unfold view. rewrite E.
  destruct (Z.eqb_spec (Z.land (sflags s) (live_flags m)) 0); [contradiction|].
  rewrite W at 1. change (ot_base m + 16 * (Z.of_nat c + 259)) with (addr m c). rewrite entry_addr, EC, ES. reflexivity.
Qed.

Lemma value_inj base v w : word v -> word w -> value base v = value base w -> v = w.
Proof.
  unfold word, value. intros V W H. destruct (Z.odd v), (Z.odd w); try discriminate.
  { injection H. auto. }
  apply (f_equal (fun x => match x with VInt a => a | VRef a => a end)) in H.
  assert (E : (v - w) mod 2 ^ 64 = 0).
  { replace (v - w) with ((v - base) - (w - base)) by lia. rewrite Zminus_mod, H, Z.sub_diag. reflexivity. }
  lia.
Qed.

Section Save.
Variable r : roles.
Variable m : memory.
Hypothesis GM : good_memory r m.
Variable big : bool.

Let N := names (ot_base m) r.
Let g := view big m.

Lemma base_even : Z.odd (ot_base m) = false.
Proof.
  destruct GM as ((A & B & _) & _). rewrite (Z.div_mod (ot_base m) 16), B by lia.
  rewrite Z.add_0_r, Z.odd_mul. reflexivity.
Qed.

Lemma nil_addr : nil_oop (ot_base m) = ot_base m + 16 * 256.
Proof.
  destruct GM as ((A & B & C & D) & _). unfold nil_oop, oop_at, uwrap64. apply Z.mod_small. lia.
Qed.

Lemma addr_word i s : nth_error (table m) i = Some s -> word (addr m i).
Proof.
  intros E. apply nth_error_Some_lt in E || (assert (i < length (table m))%nat by (apply nth_error_Some; congruence)).
  destruct GM as ((A & B & C & D) & _). unfold word, addr, len in *. lia.
Qed.

Lemma nil_word : word (ot_base m + 16 * 256).
Proof. destruct GM as ((A & B & C & D) & _). unfold word, len in *. lia. Qed.

Lemma value_addr i s : nth_error (table m) i = Some s -> value (ot_base m) (addr m i) = ref i.
Proof.
  intros E. pose proof (addr_word i s E) as W. unfold value, ref.
  replace (Z.odd (addr m i)) with false.
  2:{ unfold addr. rewrite Z.odd_add, base_even, Z.odd_mul. reflexivity. }
  unfold addr in *. f_equal. replace (ot_base m + 16 * (Z.of_nat i + 259) - ot_base m) with (16 * (Z.of_nat i + 259)) by lia.
  apply Z.mod_small. assert (i < length (table m))%nat by (apply nth_error_Some; congruence).
  destruct GM as ((A & B & C & D) & _). unfold word, len in *. lia.
Qed.

Lemma value_nil : value (ot_base m) (ot_base m + 16 * 256) = null.
Proof.
  unfold value, null. replace (Z.odd (ot_base m + 16 * 256)) with false.
  2:{ rewrite Z.odd_add, base_even. reflexivity. }
  f_equal. replace (ot_base m + 16 * 256 - ot_base m) with (16 * 256) by lia. reflexivity.
Qed.

(** the node of a live object that is not made of bytes *)
Lemma live_node i s : nth_error (table m) i = Some s -> Z.land (sflags s) (live_flags m) <> 0 ->
  exists spec, good_class m (oclass (sobj s)) spec
    /\ g i = Some (node_of big (ot_base m) spec (sflags s) (oclass (sobj s)) (odata (sobj s)))
    /\ (Z.land (sflags s) 15 = 0 -> pointer_count spec (len (odata (sobj s))) = len (odata (sobj s))).
Proof.
  intros E L. destruct GM as (_ & _ & _ & G). pose proof (G i s E L) as GS.
  destruct GS as (_ & _ & _ & _ & _ & (spec & C & _ & P & _) & _).
  exists spec. split; [exact C|]. split; [apply view_node; assumption|]. intros F. apply P, F.
Qed.

Lemma all_pointers spec flags c d : pointer_count spec (len d) = len d ->
  node_of big (ot_base m) spec flags c d = Node (Z.land flags 0x2FF) (value (ot_base m) c) (map (value (ot_base m)) d) [].
Proof.
  intros P. unfold node_of. rewrite P. unfold len. rewrite Nat2Z.id, firstn_all, skipn_all. reflexivity.
Qed.

Lemma class_word w spec : good_class m w spec -> word w.
Proof. intros (c & s & -> & E & _). exact (addr_word c s E). Qed.

Lemma kind_inv G top x : kind_of G top x -> x = top \/ exists i n v, x = ref i /\ G i = Some n
  /\ nth_error (pointers n) 0 = Some v /\ kind_of G top v.
Proof. intros [|i n v A B C]; [left; reflexivity|right]. exists i, n, v. auto. Qed.

(** is_a_kind_of answers whether the class inherits *)
Lemma ref_inj i j : ref i = ref j -> i = j.
Proof.
  unfold ref. intros H. apply (f_equal (fun x => match x with VInt a => a | VRef a => a end)) in H. lia.
Qed.
Lemma ref_null i : ref i <> null.
Proof.
  unfold ref, null. intros H. apply (f_equal (fun x => match x with VInt a => a | VRef a => a end)) in H. lia.
Qed.

Lemma pointer0 i s : nth_error (table m) i = Some s -> Z.land (sflags s) (live_flags m) <> 0 ->
  Z.land (sflags s) 15 = 0 ->
  exists n, g i = Some n /\ cls n = value (ot_base m) (oclass (sobj s))
    /\ attributes n = Z.land (sflags s) 0x2FF
    /\ pointers n = map (value (ot_base m)) (odata (sobj s)) /\ bytes n = [].
Proof.
  intros E L B. destruct (live_node i s E L) as (spec & C & V & P).
  rewrite all_pointers in V by (apply P, B). eexists. split; [exact V|]. cbn. auto.
Qed.

Lemma inherits_addr top i s : nth_error (table m) i = Some s -> addr m i <> top ->
  (inherits m top (addr m i) <-> exists v, nth_error (odata (sobj s)) 0 = Some v /\ inherits m top v).
Proof.
  intros E NE. split.
  - intros K. inversion K as [X|w j s' v' W' E' F' K' X]; [congruence|].
    assert (j = i) by (unfold addr in W'; lia). subst j. rewrite E in E'. injection E' as <-. eauto.
  - intros (v & F & K). eapply super; eauto. reflexivity.
Qed.

Lemma kind_of_addr top i s : nth_error (table m) i = Some s -> Z.land (sflags s) (live_flags m) <> 0 ->
  Z.land (sflags s) 15 = 0 -> ref i <> top ->
  (kind_of g top (ref i) <-> exists v, nth_error (odata (sobj s)) 0 = Some v /\ kind_of g top (value (ot_base m) v)).
Proof.
  intros E L B NE. destruct (pointer0 i s E L B) as (n & V & _ & _ & P & _). split.
  - intros K. destruct (kind_inv _ _ _ K) as [X|(j & n' & v' & X & E' & F' & K')]; [congruence|].
    apply ref_inj in X. subst j. rewrite V in E'. injection E' as <-. rewrite P, nth_error_map in F'.
    destruct (nth_error (odata (sobj s)) 0) as [v|]; [|discriminate]. injection F' as <-. eauto.
  - intros (v & F & K). eapply k_super; eauto. rewrite P, nth_error_map, F. reflexivity.
Qed.

Lemma value_eq v w : word v -> word w -> (value (ot_base m) v = value (ot_base m) w <-> v = w).
Proof. intros V W. split; [apply value_inj; assumption|congruence]. Qed.

Lemma kind_ok w top : word top -> top <> ot_base m + 16 * 256 -> lineage m w ->
  exists k, forall fuel, (k <= fuel)%nat ->
  exists b, is_a_kind_of fuel m w top = Ok b
    /\ (b = true <-> inherits m top w) /\ (b = true <-> kind_of g (value (ot_base m) top) (value (ot_base m) w)).
Proof.
  intros T TN LN.
  assert (NN : ~ inherits m top (ot_base m + 16 * 256)).
  { intros K. inversion K; [congruence|]. lia. }
  assert (NK : ~ kind_of g (value (ot_base m) top) (value (ot_base m) (ot_base m + 16 * 256))).
  { rewrite value_nil. intros K. destruct (kind_inv _ _ _ K) as [X|(j & n' & v' & X & E' & F' & K')].
    - apply TN. rewrite <- value_eq by (assumption || apply nil_word). rewrite value_nil. congruence.
    - exact (ref_null j (eq_sym X)). }
  induction LN as [w i s W E L B F | w i s v W E L B F LV (k & IH)];
    change (ot_base m + 16 * (Z.of_nat i + 259)) with (addr m i) in W; subst w;
    pose proof (addr_word i s E) as AW; pose proof (value_addr i s E) as VA;
    pose proof (value_eq (addr m i) top AW T) as VE; rewrite VA in *;
    [exists 1%nat | exists (S k)]; intros fuel Hf; (destruct fuel; [lia|]); cbn [is_a_kind_of];
    (destruct (Z.eqb_spec (addr m i) top) as [EQ|NE];
     [exists true; split; [reflexivity|]; split;
      [rewrite EQ; split; [intros _; apply same|reflexivity]
      | rewrite (proj2 VE EQ); split; [intros _; apply k_same|reflexivity]]|]);
    rewrite (obj_at_addr m i s E (live_flags_nz _ _ L)); unfold field; cbn [obind]; rewrite F; cbn [obind];
    rewrite nil_addr; pose proof (inherits_addr top i s E NE) as IA;
    assert (KA := kind_of_addr (value (ot_base m) top) i s E L B ltac:(tauto)); rewrite F in IA, KA.
  - rewrite Z.eqb_refl. exists false. split; [reflexivity|].
    rewrite IA, KA.
    split; (split; [discriminate|intros (v & X & K); injection X as <-; contradiction]).
  - destruct (Z.eqb_spec v (ot_base m + 16 * 256)) as [->|NV].
    + exists false. split; [reflexivity|]. rewrite IA, KA.
      split; (split; [discriminate|intros (v & X & K); injection X as <-; contradiction]).
    + destruct (IH fuel) as (b & R & I1 & I2); [lia|]. exists b. split; [exact R|]. rewrite IA, KA.
      split; [rewrite I1 | rewrite I2]; (split; [intros K; exists v; split; [reflexivity|exact K]|intros (v' & X & K); injection X as <-; exact K]).
Qed.

(** * Queues *)

Lemma links_ok v : links m v -> exists k l, (forall fuel, (k <= fuel)%nat ->
    (exists l', only (fun i => ~ is_callin N g i) l l'
      /\ (exists w, skip_callins fuel m r v = Ok w /\ value (ot_base m) w = first_link l' /\ word w)
      /\ (forall f l0, (f = ot_base m + 16 * 256 <-> l0 = ot_base m + 16 * 256) -> word f -> word l0 ->
          exists f' la', semaphore_links fuel m r v f l0 = Ok (f', la') /\ word f' /\ word la'
            /\ value (ot_base m) f' = (if f =? ot_base m + 16 * 256 then first_link l' else value (ot_base m) f)
            /\ value (ot_base m) la' = match l' with [] => value (ot_base m) l0 | _ => last_link l' end)))
  /\ queue g (value (ot_base m) v) l.
Proof.
  destruct GM as (GB & NC & RW & GS). inversion RW as [|? ? [CW _] _]. subst.
  induction 1 as [|w i s v W E L B F LV (k & l & IH & Q)].
  - exists 1%nat, []. split; [|rewrite value_nil; constructor].
    intros fuel Hf. destruct fuel; [lia|]. exists []. split; [constructor|].
    split.
    + exists (ot_base m + 16 * 256). cbn [skip_callins]. unfold class_of. rewrite nil_addr, Z.eqb_refl. cbn [obind].
      destruct (Z.eqb_spec (nil_class m) (callin_process_class r)); [contradiction|].
      split; [reflexivity|]. split; [exact value_nil|exact nil_word].
    + intros f l0 FL FW LW. cbn [semaphore_links]. rewrite nil_addr, Z.eqb_refl. exists f, l0.
      split; [reflexivity|]. split; [exact FW|]. split; [exact LW|]. split; [|reflexivity].
      destruct (Z.eqb_spec f (ot_base m + 16 * 256)); [|reflexivity]. subst. exact value_nil.
  - change (ot_base m + 16 * (Z.of_nat i + 259)) with (addr m i) in W. subst w.
    pose proof (addr_word i s E) as AW. pose proof (value_addr i s E) as VA.
    assert (AN : addr m i <> ot_base m + 16 * 256) by (unfold addr; lia).
    destruct (pointer0 i s E L B) as (n & V & CL & _ & P & _).
    assert (CWd : word (oclass (sobj s))).
    { destruct (live_node i s E L) as (spec & C & _). exact (class_word _ _ C). }
    exists (S k), (i :: l). split.
    2:{ rewrite VA. econstructor; eauto. rewrite P, nth_error_map, F. reflexivity. }
    intros fuel Hf. destruct fuel; [lia|]. destruct (IH fuel ltac:(lia)) as (l' & O & (nx & S1 & S2 & S3) & SE).
    pose proof (value_eq (oclass (sobj s)) (callin_process_class r) CWd CW) as VC.
    cbn [skip_callins semaphore_links]. unfold class_of. rewrite nil_addr.
    destruct (Z.eqb_spec (addr m i) (ot_base m + 16 * 256)); [contradiction|].
    rewrite (obj_at_addr m i s E (live_flags_nz _ _ L)). unfold field. cbn [obind]. rewrite F. cbn [obind].
    destruct (Z.eqb_spec (oclass (sobj s)) (callin_process_class r)) as [EQ|NE]; cbn [negb].
    + exists l'. split; [apply only_drop; [intros X; apply X; exists n; split; [exact V|]; rewrite CL; apply VC, EQ|exact O]|].
      split; [exists nx; auto|exact SE].
    + exists (i :: l'). split; [apply only_keep; [|exact O]|].
      { intros (n' & V' & C'). rewrite V in V'. injection V' as <-. apply NE, VC. rewrite <- CL. exact C'. }
      split; [exists (addr m i); split; [reflexivity|split; [exact VA|exact AW]]|].
      intros f l0 FL FW LW.
      destruct (SE (if f =? ot_base m + 16 * 256 then addr m i else f) (addr m i)) as (f' & la' & R & F1 & F2 & F3 & F4).
      * destruct (Z.eqb_spec f (ot_base m + 16 * 256)); split; intros; contradiction.
      * destruct (f =? ot_base m + 16 * 256); assumption.
      * exact AW.
      * exists f', la'. split; [exact R|]. split; [exact F1|]. split; [exact F2|]. split.
        -- rewrite F3. destruct (Z.eqb_spec f (ot_base m + 16 * 256)) as [EF|NF].
           ++ destruct (Z.eqb_spec (addr m i) (ot_base m + 16 * 256)); [contradiction|]. exact VA.
           ++ destruct (Z.eqb_spec f (ot_base m + 16 * 256)); [contradiction|]. reflexivity.
        -- rewrite F4. destruct l' as [|j l']; [exact VA|]. unfold last_link. cbn [rev].
           destruct (rev l' ++ [j]) eqn:Z; [destruct (rev l'); discriminate|].
           destruct (rev l') eqn:Y; cbn in Z; injection Z as <- <-; reflexivity.
Qed.
(** * fixup_object *)

Lemma put_ok n w l : (n < length l)%nat -> put n w l = Ok (with_nth n w l).
Proof.
  revert n. induction l as [|x l IH]; intros n H; [cbn in H; lia|]. destruct n; [reflexivity|].
  cbn [put]. rewrite IH by (cbn in H; lia). reflexivity.
Qed.
Lemma with_nth_length {A} n (w : A) l : (n < length l)%nat -> length (with_nth n w l) = length l.
Proof. intros H. unfold with_nth. rewrite app_length, firstn_length. cbn [length]. rewrite skipn_length. lia. Qed.
Lemma with_nth_map {A B} (f : A -> B) n w l : map f (with_nth n w l) = with_nth n (f w) (map f l).
Proof. unfold with_nth. rewrite map_app, firstn_map. cbn [map]. rewrite skipn_map. reflexivity. Qed.
Lemma Forall_firstn {A} (P : A -> Prop) n l : Forall P l -> Forall P (firstn n l).
Proof. revert n. induction l; intros n H; destruct n; cbn; auto. inversion H; subst. constructor; auto. Qed.
Lemma Forall_skipn {A} (P : A -> Prop) n l : Forall P l -> Forall P (skipn n l).
Proof. revert n. induction l; intros n H; destruct n; cbn; auto. inversion H; subst. auto. Qed.
Lemma with_nth_Forall {A} (P : A -> Prop) n w l : Forall P l -> P w -> Forall P (with_nth n w l).
Proof.
  intros H W. apply Forall_app. split; [apply Forall_firstn, H|]. constructor; [exact W|apply Forall_skipn, H].
Qed.
Lemma with_nth_other {A} n k (w : A) l : (n < length l)%nat -> n <> k -> nth_error (with_nth n w l) k = nth_error l k.
Proof.
  revert n k. induction l as [|x l IH]; intros n k H NE; [cbn in H; lia|].
  destruct n; [destruct k; [lia|reflexivity]|]. destruct k; [reflexivity|].
  change (with_nth (S n) w (x :: l)) with (x :: with_nth n w l). cbn. apply IH; cbn in H; lia.
Qed.

Lemma class_unique w a b : good_class m w a -> good_class m w b -> a = b.
Proof.
  intros (c & s & W & E & _ & _ & F & _) (c' & s' & W' & E' & _ & _ & F' & _).
  assert (c = c') by lia. subst c'. congruence.
Qed.

Definition fixed (s : slot) (o : object) : Prop :=
  osize o = osize (sobj s) /\ oclass o = oclass (sobj s)
  /\ length (odata o) = length (odata (sobj s)) /\ Forall word (odata o)
  /\ (Z.land (sflags s) 15 = 0 -> nth_error (odata o) 2 = nth_error (odata (sobj s)) 2)
  /\ forall spec, good_class m (oclass (sobj s)) spec ->
     saved N g (node_of big (ot_base m) spec (sflags s) (oclass (sobj s)) (odata (sobj s)))
               (node_of big (ot_base m) spec (sflags s) (oclass o) (odata o)).

Lemma odd_value : value (ot_base m) (from_int 0) = VInt 1.
Proof. reflexivity. Qed.

Lemma fixup_ok i s : nth_error (table m) i = Some s -> Z.land (sflags s) (live_flags m) <> 0 ->
  exists k, forall fuel, (k <= fuel)%nat -> exists o, fixup_object fuel m r s = Ok o /\ fixed s o.
Proof.
  intros E L. destruct GM as (GB & NC & RW & GS). pose proof (GS i s E L) as GD.
  destruct (live_node i s E L) as (spec & C & _ & PC). pose proof (class_word _ _ C) as CW.
  destruct GD as (FR & SZ & SM & FW & LN & (spec' & C' & PB & P0 & P1 & PCC) & HC & HI & HP & HS & HF & HA).
  rewrite (class_unique _ _ _ C' C) in *. clear spec' C'.
  assert (R1 : Forall word [callin_process_class r; process_class r; semaphore_class r; file_descriptor_class r; c_callable_class r]).
  { eapply Forall_impl; [|exact RW]. intros a [X _]. exact X. }
  assert (R2 : Forall (fun w => w <> ot_base m + 16 * 256) [callin_process_class r; process_class r; semaphore_class r; file_descriptor_class r; c_callable_class r]).
  { eapply Forall_impl; [|exact RW]. intros a [_ X]. exact X. }
  inversion R1 as [|? ? W1 R1a]; subst. inversion R1a as [|? ? W2 R1b]; subst. inversion R1b as [|? ? W3 R1c]; subst.
  inversion R1c as [|? ? W4 R1d]; subst. inversion R1d as [|? ? W5 _]; subst. clear R1 R1a R1b R1c R1d.
  inversion R2 as [|? ? _ R1a]; subst. inversion R1a as [|? ? _ R1b]; subst. inversion R1b as [|? ? _ R1c]; subst.
  inversion R1c as [|? ? N4 R1d]; subst. inversion R1d as [|? ? N5 _]; subst. clear R2 R1a R1b R1c R1d.
  destruct (kind_ok _ _ W4 N4 LN) as (k1 & K1). destruct (kind_ok _ _ W5 N5 LN) as (k2 & K2).
  assert (QL : forall v, (oclass (sobj s) = process_class r \/ oclass (sobj s) = semaphore_class r) ->
     nth_error (odata (sobj s)) 0 = Some v -> links m v).
  { intros v [X|X] Y; [destruct (HP X) as (_ & v' & A & B)|destruct (HS X) as (_ & _ & v' & A & B)]; rewrite Y in A; injection A as <-; exact B. }
  assert (KQ : exists k3, forall v, (oclass (sobj s) = process_class r \/ oclass (sobj s) = semaphore_class r) ->
     nth_error (odata (sobj s)) 0 = Some v ->
     exists l, (forall fuel, (k3 <= fuel)%nat ->
    (exists l', only (fun i => ~ is_callin N g i) l l'
      /\ (exists w, skip_callins fuel m r v = Ok w /\ value (ot_base m) w = first_link l' /\ word w)
      /\ (forall f l0, (f = ot_base m + 16 * 256 <-> l0 = ot_base m + 16 * 256) -> word f -> word l0 ->
          exists f' la', semaphore_links fuel m r v f l0 = Ok (f', la') /\ word f' /\ word la'
            /\ value (ot_base m) f' = (if f =? ot_base m + 16 * 256 then first_link l' else value (ot_base m) f)
            /\ value (ot_base m) la' = match l' with [] => value (ot_base m) l0 | _ => last_link l' end)))
     /\ queue g (value (ot_base m) v) l).
  { destruct (nth_error (odata (sobj s)) 0) as [v|] eqn:EV; [|exists 0%nat; discriminate].
    destruct (Z.eq_dec (oclass (sobj s)) (process_class r)) as [X|X];
      [|destruct (Z.eq_dec (oclass (sobj s)) (semaphore_class r)) as [Y|Y]].
    - destruct (links_ok v (QL v (or_introl X) eq_refl)) as (k3 & l & A & B). exists k3. intros v' _ EV'.
      injection EV' as <-. exists l. split; [exact A|exact B].
    - destruct (links_ok v (QL v (or_intror Y) eq_refl)) as (k3 & l & A & B). exists k3. intros v' _ EV'.
      injection EV' as <-. exists l. split; [exact A|exact B].
    - exists 0%nat. intros v' [?|?]; contradiction. }
  destruct KQ as (k3 & KQ).
  exists (k1 + k2 + k3)%nat. intros fuel Hf.
  assert (AT : forall d, Z.land (attributes (node_of big (ot_base m) spec (sflags s) (oclass (sobj s)) d)) 64 = Z.land (sflags s) 64).
  { intros d. cbn [node_of attributes]. rewrite <- Z.land_assoc. reflexivity. }
  assert (V1 := value_eq _ _ CW W1). assert (V2 := value_eq _ _ CW W2). assert (V3 := value_eq _ _ CW W3).
  pose proof nil_word as NW. pose proof nil_addr as NA. pose proof value_nil as VN.
  unfold fixup_object. rewrite NA. set (d := odata (sobj s)) in *.
  assert (LEN : forall d' : list Z, length d' = length d -> len d' = len d) by (intros d' X; unfold len; congruence).
  assert (ALL : forall d', length d' = length d -> Z.land (sflags s) 15 = 0 ->
     node_of big (ot_base m) spec (sflags s) (oclass (sobj s)) d'
     = Node (Z.land (sflags s) 0x2FF) (value (ot_base m) (oclass (sobj s))) (map (value (ot_base m)) d') []).
  { intros d' X Y. apply all_pointers. rewrite (LEN d' X). apply P0, Y. }
  assert (FIN : forall d' n', length d' = length d -> Forall word d' ->
     (Z.land (sflags s) 15 = 0 -> nth_error d' 2 = nth_error d 2) ->
     saved N g (node_of big (ot_base m) spec (sflags s) (oclass (sobj s)) d) n' ->
     n' = node_of big (ot_base m) spec (sflags s) (oclass (sobj s)) d' ->
     fixed s (Obj (osize (sobj s)) (oclass (sobj s)) d')).
  { intros d' n' X1 X2 X3 X4 ->. split; [reflexivity|]. split; [reflexivity|]. split; [exact X1|].
    split; [exact X2|]. split; [exact X3|]. intros spec' C'. rewrite (class_unique _ _ _ C' C). exact X4. }
  assert (LL : length d = length d) by reflexivity.
  destruct (any (sflags s) F_CONTEXT) eqn:FC.
  { apply any_true in FC. destruct (HC FC) as [B2 B3]. unfold set_field. rewrite put_ok by (unfold len in B3; fold d; lia).
    cbn [obind]. eexists. split; [reflexivity|].
    assert (length (with_nth 1 (from_int 0) d) = length d) as WL by (apply with_nth_length; unfold len in B3; lia).
    eapply FIN; [exact WL| |intros _; apply with_nth_other; [unfold len in B3; lia|lia]|apply s_context; rewrite AT; exact FC|].
    - apply with_nth_Forall; [exact FW|]. unfold word. vm_compute; split; congruence.
    - rewrite !ALL by assumption. unfold with_pointer. cbn [attributes cls pointers bytes]. rewrite with_nth_map. reflexivity. }
  apply any_false in FC. assert (FC' := eq_trans (AT d) FC).
  destruct (Z.eqb_spec (oclass (sobj s)) (callin_process_class r)) as [CI|CI].
  { destruct (HI CI) as [B2 B3]. unfold len in B3. unfold set_field. fold d. rewrite put_ok by lia. cbn [obind osize oclass odata].
    rewrite put_ok by (rewrite with_nth_length; lia). cbn [obind osize oclass odata].
    rewrite put_ok by (rewrite !with_nth_length; rewrite ?with_nth_length; lia). cbn [obind osize oclass odata].
    eexists. split; [reflexivity|].
    eapply FIN; [| | |apply s_callin; [exact FC'|cbn; apply V1, CI]|].
    - rewrite !with_nth_length; rewrite ?with_nth_length; rewrite ?with_nth_length; lia.
    - repeat apply with_nth_Forall; assumption.
    - intros _. rewrite !with_nth_other; rewrite ?with_nth_length; rewrite ?with_nth_length; lia || reflexivity.
    - rewrite !ALL by (assumption || (rewrite !with_nth_length; rewrite ?with_nth_length; rewrite ?with_nth_length; lia)).
      unfold with_pointer. cbn [attributes cls pointers bytes]. rewrite !with_nth_map, VN. reflexivity. }
  assert (CI' : cls (node_of big (ot_base m) spec (sflags s) (oclass (sobj s)) d) <> callin N) by (cbn; intros X; apply CI, V1, X).
  destruct (Z.eqb_spec (oclass (sobj s)) (process_class r)) as [CP|CP].
  { destruct (HP CP) as [B2 (v & Ev & _)]. unfold field. fold d. rewrite Ev. cbn [obind].
    destruct (KQ v (or_introl CP) Ev) as (l & KL & QU). destruct (KL fuel ltac:(lia)) as (l' & O & (w & S1 & S2 & S3) & _).
    rewrite S1. cbn [obind]. unfold set_field. fold d.
    assert (0 < length d)%nat by (destruct d; [discriminate|cbn; lia]).
    rewrite put_ok by lia. cbn [obind]. eexists. split; [reflexivity|].
    eapply FIN; [| | |eapply s_process; [exact FC'|exact CI'|cbn; apply V2, CP| |exact QU|exact O]|].
    - apply with_nth_length. lia.
    - apply with_nth_Forall; assumption.
    - intros _. apply with_nth_other; lia.
    - rewrite ALL by assumption. cbn [pointers]. rewrite nth_error_map, Ev. reflexivity.
    - rewrite !ALL by (assumption || (apply with_nth_length; lia)). unfold with_pointer. cbn [attributes cls pointers bytes].
      rewrite with_nth_map, S2. reflexivity. }
  assert (CP' : cls (node_of big (ot_base m) spec (sflags s) (oclass (sobj s)) d) <> process N) by (cbn; intros X; apply CP, V2, X).
  destruct (Z.eqb_spec (oclass (sobj s)) (semaphore_class r)) as [CS|CS].
  { destruct (HS CS) as (B2 & B3 & v & Ev & _). unfold len in B3. unfold field. fold d. rewrite Ev. cbn [obind].
    destruct (KQ v (or_intror CS) Ev) as (l & KL & QU). destruct (KL fuel ltac:(lia)) as (l' & O & _ & SE).
    destruct (SE (ot_base m + 16 * 256) (ot_base m + 16 * 256)) as (f' & la' & S1 & S2 & S3 & S4 & S5); [tauto|assumption|assumption|].
    rewrite Z.eqb_refl in S4.
    rewrite S1. cbn [obind]. unfold set_field. fold d. rewrite put_ok by lia. cbn [obind osize oclass odata].
    rewrite put_ok by (rewrite with_nth_length; lia). cbn [obind]. eexists. split; [reflexivity|].
    eapply FIN; [| | |eapply s_semaphore; [exact FC'|exact CI'|exact CP'|cbn; apply V3, CS| |exact QU|exact O]|].
    - rewrite !with_nth_length; rewrite ?with_nth_length; lia.
    - repeat apply with_nth_Forall; assumption.
    - intros _. rewrite !with_nth_other; rewrite ?with_nth_length; lia || reflexivity.
    - rewrite ALL by assumption. cbn [pointers]. rewrite nth_error_map, Ev. reflexivity.
    - rewrite !ALL by (assumption || (rewrite !with_nth_length; rewrite ?with_nth_length; lia)).
      unfold with_pointer. cbn [attributes cls pointers bytes]. rewrite !with_nth_map, S4, S5.
      destruct l'; [rewrite VN|]; reflexivity. }
  assert (CS' : cls (node_of big (ot_base m) spec (sflags s) (oclass (sobj s)) d) <> semaphore N) by (cbn; intros X; apply CS, V3, X).
  destruct (K1 fuel ltac:(lia)) as (b1 & A1 & A2 & A3). rewrite A1. cbn [obind].
  change (value (ot_base m) (oclass (sobj s))) with (cls (node_of big (ot_base m) spec (sflags s) (oclass (sobj s)) d)) in A3.
  change (value (ot_base m) (file_descriptor_class r)) with (descriptor N) in A3.
  destruct b1.
  { destruct (HF (proj1 A2 eq_refl)) as [B2 B3]. unfold len in B3. unfold set_field. fold d. rewrite put_ok by lia. cbn [obind].
    eexists. split; [reflexivity|].
    eapply FIN; [| | |eapply s_descriptor; try assumption; apply A3; reflexivity|].
    - apply with_nth_length; lia.
    - apply with_nth_Forall; assumption.
    - intros _. apply with_nth_other; lia.
    - rewrite !ALL by (assumption || (apply with_nth_length; lia)). unfold with_pointer. cbn [attributes cls pointers bytes].
      rewrite with_nth_map, VN. reflexivity. }
  assert (ND : ~ kind_of g (descriptor N) (cls (node_of big (ot_base m) spec (sflags s) (oclass (sobj s)) d))).
  { intros X. apply A3 in X. discriminate. }
  destruct (K2 fuel ltac:(lia)) as (b2 & B1 & B2 & B3). rewrite B1. cbn [obind].
  change (value (ot_base m) (oclass (sobj s))) with (cls (node_of big (ot_base m) spec (sflags s) (oclass (sobj s)) d)) in B3.
  change (value (ot_base m) (c_callable_class r)) with (callable N) in B3.
  destruct b2.
  - pose proof (proj1 B2 eq_refl) as IC. pose proof (HA IC) as HB. pose proof (PCC HB IC) as PP.
    unfold field. fold d. set (k := Z.to_nat (pointer_count spec (len d))).
    assert (KB : (2 <= k < length d)%nat) by (unfold k, len in *; lia).
    destruct (nth_error d 1) as [st|] eqn:ES; [|apply nth_error_None in ES; lia]. cbn [obind].
    assert (PT : nth_error (pointers (node_of big (ot_base m) spec (sflags s) (oclass (sobj s)) d)) 1 = Some (value (ot_base m) st)).
    { cbn [node_of pointers]. fold k. rewrite nth_error_map.
      rewrite <- (firstn_skipn k d) in ES. rewrite nth_error_app1 in ES by (rewrite firstn_length; lia). rewrite ES. reflexivity. }
    assert (SW : word st). { apply nth_error_In in ES. rewrite Forall_forall in FW. apply FW, ES. }
    destruct (Z.eqb_spec st (ot_base m + 16 * 256)) as [EN|NN].
    + unfold set_field. fold d. rewrite put_ok by lia. cbn [obind]. eexists. split; [reflexivity|].
      assert (DL : length (with_nth (length d - 1) 0 d) = length d) by (apply with_nth_length; lia).
      assert (DD : with_nth (length d - 1) 0 d = firstn (length d - 1) d ++ [0]).
      { unfold with_nth. f_equal. f_equal. apply skipn_all2. lia. }
      destruct (exists_last (l := d)) as (d0 & x & DX); [intros X; rewrite X in KB; cbn in KB; lia|].
      assert (LD : length d = S (length d0)) by (rewrite DX, app_length; cbn; lia).
      eapply FIN; [exact DL| |contradiction|
        eapply (s_callable N g _ (bytes_of big x)); try assumption; [apply B3; reflexivity|rewrite PT, EN, VN; reflexivity|apply bytes_of_length|]|].
      * apply with_nth_Forall; [assumption|]. split; reflexivity || discriminate.
      * cbn [node_of bytes]. fold k. exists (flat_map (bytes_of big) (skipn k d0)).
        rewrite DX, skipn_app. replace (k - length d0)%nat with 0%nat by lia. rewrite flat_map_app. cbn. rewrite app_nil_r. reflexivity.
      * unfold node_of. rewrite (LEN _ DL). fold k. cbn [attributes cls pointers bytes]. rewrite DD, DX.
        rewrite app_length. cbn [length]. replace (length d0 + 1 - 1)%nat with (length d0) by lia.
        rewrite (firstn_app_exact d0 [x] (length d0) eq_refl). rewrite !firstn_app, !skipn_app.
        replace (k - length d0)%nat with 0%nat by lia. cbn [firstn skipn]. rewrite !app_nil_r. f_equal.
        rewrite !flat_map_app. cbn [flat_map]. rewrite !app_nil_r. rewrite app_length, bytes_of_length.
        replace (length (flat_map (bytes_of big) (skipn k d0)) + 8 - 8)%nat with (length (flat_map (bytes_of big) (skipn k d0))) by lia.
        rewrite firstn_app_exact by reflexivity. unfold bytes_of. clear. destruct big; reflexivity.
    + exists (sobj s). split; [reflexivity|]. replace (sobj s) with (Obj (osize (sobj s)) (oclass (sobj s)) d) at 2 by (unfold d; destruct (sobj s); reflexivity).
      eapply FIN; [reflexivity|exact FW|reflexivity|eapply s_callable_stored; try assumption; [apply B3; reflexivity|exact PT|]|reflexivity].
      rewrite <- VN. intros X. apply NN, (value_inj (ot_base m)); assumption.
  - exists (sobj s). split; [reflexivity|]. replace (sobj s) with (Obj (osize (sobj s)) (oclass (sobj s)) d) at 2 by (unfold d; destruct (sobj s); reflexivity).
    eapply FIN; [reflexivity|exact FW|reflexivity|eapply s_other; try assumption|reflexivity].
    intros X. apply B3 in X. discriminate.
Qed.
End Save.
