(** Lemmas about the sizes and the destinations of jumps. *)
From Coq Require Import ZArith List Bool Lia ZifyBool ZifyNat.
From Verif Require Import Base BcTables Bc BcSpec BcRun BcProofs BcSuper.
Import ListNotations.
Local Open Scope Z_scope.
Ltac Zify.zify_post_hook ::= Z.div_mod_to_equations.

(** ** The loop on sizes *)
Fixpoint consistent (fb : list Z) (k : nat) (i : Z) (bs : list block) : Prop :=
  match bs with
  | [] => True
  | b :: bs' =>
    nth k fb 0 = i /\ consistent fb (S k) (i + opt_length b + jump_length fb k b) bs'
  end.

Lemma size_pass_changed bs : forall k i fb, snd (size_pass k i true fb bs) = true.
Proof. induction bs as [|b bs IH]; intros k i fb; [reflexivity|]. cbn [size_pass orb]. apply IH. Qed.

Lemma size_pass_ok bs : forall k i fb fb',
  size_pass k i false fb bs = (fb', false) -> fb' = fb /\ consistent fb k i bs.
Proof.
  induction bs as [|b bs IH]; intros k i fb fb' E.
  - cbn in E. injection E as <-. split; [reflexivity|exact Logic.I].
  - cbn [size_pass] in E. destruct (Z.eqb_spec (nth k fb 0) i) as [Ei|Ni].
    + cbn [negb orb] in E. destruct (IH _ _ _ _ E) as [-> C].
      split; [reflexivity|]. cbn [consistent]. auto.
    + cbn [negb orb] in E. exfalso.
      match type of E with size_pass ?a ?b true ?c ?d = _ =>
        pose proof (size_pass_changed d a b c) as Ch end.
      rewrite E in Ch. discriminate Ch.
Qed.

Lemma size_loop_ok fuel : forall fb0 bs fb,
  size_loop fuel fb0 bs = Ok fb -> consistent fb 0 0 bs.
Proof.
  induction fuel as [|f IH]; intros fb0 bs fb E; [discriminate|].
  cbn [size_loop] in E. destruct (size_pass 0 0 false fb0 bs) as [fb' []] eqn:Ep.
  - now apply IH in E.
  - injection E as <-. apply size_pass_ok in Ep as [-> C]. exact C.
Qed.

Lemma jl_pos fb k b : 0 <= jump_length fb k b <= 8.
Proof.
  unfold jump_length. destruct (jkind b); [|lia]. unfold compute_jump_length.
  repeat (match goal with |- context [if ?c then _ else _] => destruct c end); lia.
Qed.

Lemma opt_length_pos b : 0 <= opt_length b.
Proof. unfold opt_length. lia. Qed.

Definition total (bs : list block) : Z :=
  fold_right (fun b t => opt_length b + 8 + t) 0 bs.

Lemma total_cons b bs : total (b :: bs) = opt_length b + 8 + total bs.
Proof. reflexivity. Qed.

Lemma total_pos bs : 0 <= total bs.
Proof.
  induction bs as [|b bs IH]; [cbn; lia|]. rewrite total_cons.
  pose proof (opt_length_pos b). lia.
Qed.

(** positions: bounds and order *)
Lemma consistent_bounds fb bs : forall k i j, consistent fb k i bs -> (j < length bs)%nat ->
  i <= nth (k + j) fb 0 <= i + total bs.
Proof.
  induction bs as [|b bs IH]; intros k i j C Hj; [cbn in Hj; lia|].
  destruct C as [E C]. pose proof (jl_pos fb k b). pose proof (opt_length_pos b).
  pose proof (total_pos bs). rewrite total_cons. destruct j as [|j].
  - rewrite Nat.add_0_r. lia.
  - cbn [length] in Hj. specialize (IH _ _ j C ltac:(lia)).
    replace (S k + j)%nat with (k + S j)%nat in IH by lia. lia.
Qed.

Lemma consistent_at fb bs : forall k i j b, consistent fb k i bs -> nth_error bs j = Some b ->
  consistent fb (S (k + j)) (nth (k + j) fb 0 + opt_length b + jump_length fb (k + j) b)
    (skipn (S j) bs).
Proof.
  induction bs as [|b0 bs IH]; intros k i j b C Hj; [destruct j; discriminate|].
  destruct C as [E C]. destruct j as [|j].
  - injection Hj as ->. rewrite Nat.add_0_r, E. exact C.
  - cbn [nth_error] in Hj. specialize (IH _ _ j b C Hj).
    replace (S k + j)%nat with (k + S j)%nat in IH by lia. exact IH.
Qed.

Lemma forward_pos fb bs k b d : consistent fb 0 0 bs -> nth_error bs k = Some b ->
  (k < d < length bs)%nat ->
  nth k fb 0 + opt_length b + jump_length fb k b <= nth d fb 0.
Proof.
  intros C Hk Hd. pose proof (consistent_at fb bs 0 0 k b C Hk) as C'. cbn [Nat.add] in C'.
  pose proof (consistent_bounds fb (skipn (S k) bs) (S k) _ (d - S k) C') as B.
  rewrite skipn_length in B. specialize (B ltac:(lia)).
  replace (S k + (d - S k))%nat with d in B by lia. lia.
Qed.

Lemma backward_pos fb bs k d : consistent fb 0 0 bs -> (d <= k < length bs)%nat ->
  nth d fb 0 <= nth k fb 0.
Proof.
  intros C Hd. destruct (Nat.eq_dec d k) as [-> | N]; [lia|].
  destruct (nth_error bs d) as [b|] eqn:E.
  - pose proof (forward_pos fb bs d b k C E ltac:(lia)).
    pose proof (jl_pos fb d b). pose proof (opt_length_pos b). lia.
  - apply nth_error_None in E. lia.
Qed.

Lemma pos_range fb bs k : consistent fb 0 0 bs -> (k < length bs)%nat ->
  0 <= nth k fb 0 <= total bs.
Proof. intros C H. pose proof (consistent_bounds fb bs 0 0 k C H). cbn [Nat.add] in *. lia. Qed.

Lemma jl_even fb k b : jump_length fb k b mod 2 = 0.
Proof.
  unfold jump_length. destruct (jkind b); [|reflexivity]. unfold compute_jump_length.
  repeat (match goal with |- context [if ?c then _ else _] => destruct c end); reflexivity.
Qed.

Lemma consistent_even fb bs : forall k i j, consistent fb k i bs -> (j < length bs)%nat ->
  i mod 2 = 0 -> nth (k + j) fb 0 mod 2 = 0.
Proof.
  induction bs as [|b bs IH]; intros k i j C Hj Hi; [cbn in Hj; lia|].
  destruct C as [E C]. destruct j as [|j].
  - rewrite Nat.add_0_r, E. exact Hi.
  - cbn [length] in Hj. replace (k + S j)%nat with (S k + j)%nat by lia.
    apply (IH _ _ j C ltac:(lia)). pose proof (jl_even fb k b). unfold opt_length. lia.
Qed.

(** ** The emitted jumps *)
Definition operand (fb : list Z) (k : nat) (b : block) : Z :=
  nth (dest b) fb 0 - (nth k fb 0 + opt_length b + jump_length fb k b).

Definition unlucky (n : Z) : bool := existsb (Z.eqb n) [254; 65534; 16777214].

Lemma operand_range fb bs k b :
  consistent fb 0 0 bs -> total bs < 2 ^ 31 - 8 -> nth_error bs k = Some b ->
  (dest b < length bs)%nat ->
  Z.abs (operand fb k b) < 2 ^ 31 /\
  ((k < dest b)%nat -> 0 <= operand fb k b) /\ ((dest b <= k)%nat -> operand fb k b <= 0).
Proof.
  intros C T Hk Hd. change (2 ^ 31) with 2147483648 in *.
  assert (Lk : (k < length bs)%nat) by (apply nth_error_Some; congruence).
  pose proof (pos_range fb bs k C Lk). pose proof (pos_range fb bs (dest b) C Hd).
  pose proof (opt_length_pos b). pose proof (jl_pos fb k b).
  assert (Tk : nth k fb 0 + opt_length b <= total bs).
  { pose proof (consistent_at fb bs 0 0 k b C Hk) as C'. cbn [Nat.add] in C'.
    clear - C Hk. revert Hk. cut (forall k0 i j, consistent fb k0 i bs -> nth_error bs j = Some b ->
      nth (k0 + j) fb 0 + opt_length b <= i + total bs).
    { intros A Hk. specialize (A 0%nat 0 k C Hk). cbn [Nat.add] in A. lia. }
    clear C. induction bs as [|b0 bs IH]; intros k0 i j C Hj; [destruct j; discriminate|].
    destruct C as [E C]. pose proof (jl_pos fb k0 b0). pose proof (opt_length_pos b0).
    pose proof (total_pos bs). rewrite total_cons. destruct j as [|j].
    - injection Hj as ->. rewrite Nat.add_0_r. lia.
    - cbn [nth_error] in Hj. specialize (IH _ _ j C Hj).
      replace (S k0 + j)%nat with (k0 + S j)%nat in IH by lia. lia. }
  unfold operand in *.
  assert (Cases : ((k < dest b)%nat
                   /\ nth k fb 0 + opt_length b + jump_length fb k b <= nth (dest b) fb 0)
                  \/ ((dest b <= k)%nat /\ nth (dest b) fb 0 <= nth k fb 0)).
  { destruct (Nat.lt_ge_cases k (dest b)) as [L|G].
    - left. split; [exact L|]. now apply (forward_pos fb bs k b (dest b)).
    - right. split; [exact G|]. apply (backward_pos fb bs k (dest b)); auto. }
  destruct Cases as [[? ?] | [? ?]]; (split; [lia|]; split; intros; lia).
Qed.

Lemma emitted_size fb bs k b kind :
  consistent fb 0 0 bs -> total bs < 2 ^ 31 - 8 -> nth_error bs k = Some b -> jkind b = Some kind ->
  (dest b < length bs)%nat -> ((k < dest b)%nat -> unlucky (operand fb k b) = false) ->
  2 * Z.of_nat (length (compile_byte kind (Z.abs (operand fb k b)))) = jump_length fb k b.
Proof.
  intros C T Hk Hkind Hd Hu. change (2 ^ 31) with 2147483648 in *.
  assert (Lk : (k < length bs)%nat) by (apply nth_error_Some; congruence).
  pose proof (pos_range fb bs k C Lk). pose proof (pos_range fb bs (dest b) C Hd).
  pose proof (opt_length_pos b). pose proof (jl_pos fb k b).
  assert (Jl : jump_length fb k b
               = compute_jump_length (nth (dest b) fb 0 - (nth k fb 0 + opt_length b)))
    by (unfold jump_length; rewrite Hkind; reflexivity).
  pose proof (operand_range fb bs k b C T Hk Hd) as (R0 & _ & _).
  change (2 ^ 31) with 2147483648 in R0.
  pose proof (consistent_even fb bs 0 0 k C Lk eq_refl) as Ek.
  pose proof (consistent_even fb bs 0 0 (dest b) C Hd eq_refl) as Ed. cbn [Nat.add] in Ek, Ed.
  assert (Eo : opt_length b mod 2 = 0) by (unfold opt_length; lia).
  unfold operand in *.
  set (p := nth k fb 0) in *. set (q := nth (dest b) fb 0) in *.
  set (o := opt_length b) in *. set (jl := jump_length fb k b) in *.
  assert (Cases : ((k < dest b)%nat /\ p + o + jl <= q) \/ ((dest b <= k)%nat /\ q <= p)).
  { destruct (Nat.lt_ge_cases k (dest b)) as [L|G].
    - left. split; [exact L|]. now apply (forward_pos fb bs k b (dest b)).
    - right. split; [exact G|]. apply (backward_pos fb bs k (dest b)); auto. }
  assert (R : 0 <= Z.abs (q - (p + o + jl)) < 2147483648).
  { lia. }
  rewrite compile_byte_cases by exact R.
  assert (Ln : 2 * Z.of_nat (length (if Z.abs (q - (p + o + jl)) <=? 255 then [(kind, 0)]
      else if Z.abs (q - (p + o + jl)) <=? 65535 then [(0, 0); (kind, 0)]
      else if Z.abs (q - (p + o + jl)) <=? 16777215 then [(0, 0); (0, 0); (kind, 0)]
      else [(0, 0); (0, 0); (0, 0); (kind, 0)])) = jl).
  2: { etransitivity; [|exact Ln]. do 3 (destruct (_ <=? _); [reflexivity|]). reflexivity. }
  clearbody p q o jl. clear Hk Hkind C T.
  unfold compute_jump_length in Jl.
  remember (Z.abs (q - (p + o + jl))) as m eqn:Em.
  destruct Cases as [[Ck Cq] | [Ck Cq]].
  - specialize (Hu Ck). unfold unlucky in Hu. cbn [existsb] in Hu.
    destruct ((q - (p + o) >? -254) && (q - (p + o) <? 258)) eqn:E1;
      [|destruct ((q - (p + o) >? -65532) && (q - (p + o) <? 65540)) eqn:E2;
        [|destruct ((q - (p + o) >? -16777210) && (q - (p + o) <? 16777222)) eqn:E3]];
      subst jl.
    + replace (m <=? 255) with true by lia. reflexivity.
    + replace (m <=? 255) with false by lia.
      replace (m <=? 65535) with true by lia. reflexivity.
    + replace (m <=? 255) with false by lia.
      replace (m <=? 65535) with false by lia.
      replace (m <=? 16777215) with true by lia. reflexivity.
    + replace (m <=? 255) with false by lia.
      replace (m <=? 65535) with false by lia.
      replace (m <=? 16777215) with false by lia. reflexivity.
  - clear Hu.
    destruct ((q - (p + o) >? -254) && (q - (p + o) <? 258)) eqn:E1;
      [|destruct ((q - (p + o) >? -65532) && (q - (p + o) <? 65540)) eqn:E2;
        [|destruct ((q - (p + o) >? -16777210) && (q - (p + o) <? 16777222)) eqn:E3]];
      subst jl.
    + replace (m <=? 255) with true by lia. reflexivity.
    + replace (m <=? 255) with false by lia.
      replace (m <=? 65535) with true by lia. reflexivity.
    + replace (m <=? 255) with false by lia.
      replace (m <=? 65535) with false by lia.
      replace (m <=? 16777215) with true by lia. reflexivity.
    + replace (m <=? 255) with false by lia.
      replace (m <=? 65535) with false by lia.
      replace (m <=? 16777215) with false by lia. reflexivity.
Qed.

(** ** Where the blocks start *)
Lemma start_S {A} (pieces : list (list A)) k p : nth_error pieces k = Some p ->
  start_of pieces (S k) = start_of pieces k + 2 * Z.of_nat (length p).
Proof.
  revert k. unfold start_of. induction pieces as [|q pieces IH]; intros k E; [destruct k; discriminate|].
  destruct k as [|k].
  - injection E as ->. cbn [firstn concat]. rewrite app_length. cbn [firstn concat length]. lia.
  - cbn [nth_error] in E. specialize (IH k E).
    cbn [firstn concat]. cbn [firstn] in IH. rewrite !app_length. lia.
Qed.

Lemma emit_nth fb bs : forall k j, nth_error (emit fb k bs) j
  = match nth_error bs j with Some b => Some (emit_block fb (k + j) b) | None => None end.
Proof.
  induction bs as [|b bs IH]; intros k [|j]; try reflexivity.
  - cbn [emit nth_error]. rewrite Nat.add_0_r. reflexivity.
  - cbn [emit nth_error]. rewrite IH. replace (S k + j)%nat with (k + S j)%nat by lia. reflexivity.
Qed.

Definition lucky fb bs : Prop :=
  forall k b, nth_error bs k = Some b -> jkind b <> None -> (k < dest b)%nat ->
    unlucky (operand fb k b) = false.

Lemma emit_block_size fb bs k b :
  consistent fb 0 0 bs -> total bs < 2 ^ 31 - 8 -> lucky fb bs ->
  nth_error bs k = Some b -> (jkind b <> None -> (dest b < length bs)%nat) ->
  2 * Z.of_nat (length (emit_block fb k b)) = opt_length b + jump_length fb k b.
Proof.
  intros C T Lu Hk Hd. unfold emit_block. rewrite app_length.
  destruct (jkind b) as [kind|] eqn:Ek.
  - pose proof (emitted_size fb bs k b kind C T Hk Ek) as E.
    fold (operand fb k b). unfold opt_length in *.
    rewrite <- E; [lia| |].
    + apply Hd. discriminate.
    + intros L. apply (Lu k b Hk); congruence.
  - unfold jump_length. rewrite Ek. cbn [length]. unfold opt_length. lia.
Qed.

Lemma starts fb bs : consistent fb 0 0 bs -> total bs < 2 ^ 31 - 8 -> lucky fb bs ->
  Forall (fun b => jkind b <> None -> (dest b < length bs)%nat) bs ->
  forall k b, nth_error bs k = Some b ->
    start_of (emit fb 0 bs) k = nth k fb 0 /\
    start_of (emit fb 0 bs) (S k) = nth k fb 0 + opt_length b + jump_length fb k b.
Proof.
  intros C T Lu Hd.
  assert (Next : forall k b, nth_error bs k = Some b -> start_of (emit fb 0 bs) k = nth k fb 0 ->
     start_of (emit fb 0 bs) (S k) = nth k fb 0 + opt_length b + jump_length fb k b).
  { intros k b Hk E. rewrite (start_S _ _ (emit_block fb k b)).
    - rewrite E, (emit_block_size fb bs k b C T Lu Hk); [lia|].
      apply nth_error_In in Hk. rewrite Forall_forall in Hd. now apply Hd.
    - rewrite emit_nth, Hk. reflexivity. }
  intros k. induction k as [|k IH]; intros b Hk.
  - assert (E0 : start_of (emit fb 0 bs) 0 = nth 0 fb 0).
    { unfold start_of. cbn [firstn concat length]. destruct bs as [|b0 bs]; [discriminate|].
      destruct C as [E _]. lia. }
    split; [exact E0|]. now apply Next.
  - assert (exists b0, nth_error bs k = Some b0) as [b0 Hk0].
    { destruct (nth_error bs k) eqn:E; [eauto|]. apply nth_error_None in E.
      assert (S k < length bs)%nat by (apply nth_error_Some; congruence). lia. }
    destruct (IH b0 Hk0) as [_ E].
    assert (ES : start_of (emit fb 0 bs) (S k) = nth (S k) fb 0).
    { rewrite E. pose proof (consistent_at fb bs 0 0 k b0 C Hk0) as C'. cbn [Nat.add] in C'.
      assert (Sk : skipn (S k) bs = b :: skipn (S (S k)) bs).
      { clear - Hk. revert bs Hk. induction (S k) as [|n IH]; intros bs Hk.
        - destruct bs; [discriminate|]. injection Hk as ->. reflexivity.
        - destruct bs; [discriminate|]. cbn [nth_error] in Hk. cbn [skipn]. now apply IH. }
      rewrite Sk in C'. destruct C' as [E' _]. symmetry. exact E'. }
    split; [exact ES|]. now apply Next.
Qed.

(** ** The whole method *)
Lemma fuse_jump_kind b : (jkind (fuse_jump b) = None <-> jkind b = None)
  /\ dest (fuse_jump b) = dest b /\ (length (body (fuse_jump b)) <= length (body b))%nat
  /\ (jkind b = None -> fuse_jump b = b).
Proof.
  destruct b as [bd kd d]. unfold fuse_jump. cbn [jkind body dest].
  destruct kd as [kind|]; [|repeat split; auto].
  destruct (rev bd) as [|[bc x] before] eqn:Er; [repeat split; auto; discriminate|].
  destruct (not_extended before); [|repeat split; auto; discriminate].
  destruct (search_superop_fixed_arg_1 bc x kind); [|repeat split; auto; discriminate].
  cbn [jkind body dest]. repeat split; try discriminate.
  rewrite <- (rev_length bd), Er, rev_length. cbn [length]. lia.
Qed.

Lemma total_fuse bs : total (map fuse_jump bs)
  <= 2 * Z.of_nat (length (concat (map body bs))) + 8 * Z.of_nat (length bs).
Proof.
  induction bs as [|b bs IH]; [cbn; lia|]. cbn [map concat length]. rewrite total_cons, app_length.
  destruct (fuse_jump_kind b) as (_ & _ & L & _). unfold opt_length. lia.
Qed.

Lemma pending_last l : fst (List.last l (0, 0)) <> 55 -> pending 0 l = 0.
Proof.
  intros N. rewrite <- (rev_involutive l). apply pending_rev.
  destruct (rev l) as [|[b x] t] eqn:E; [reflexivity|]. cbn [not_extended].
  assert (El : l = rev t ++ [(b, x)]) by (rewrite <- (rev_involutive l), E; reflexivity).
  rewrite El, last_last in N. cbn [fst] in N. unfold ext_byte. lia.
Qed.

Lemma piece_decode bs fb k b kind : blocks_ok bs -> consistent fb 0 0 (map fuse_jump bs) ->
  nth_error bs k = Some b -> jkind b = Some kind ->
  let n := operand fb k (fuse_jump b) in
  exists o, meaning kind (Z.abs n) = Some o /\ displacement o = Some n /\
    decode 0 (emit_block fb k (fuse_jump b)) = decode 0 (body b) ++ [o].
Proof.
  intros [Hb Ht] C Hk Hkind n. destruct (Hb k b Hk) as [He Hj]. specialize (Hj kind Hkind).
  pose proof (total_fuse bs) as Tf.
  assert (Hk' : nth_error (map fuse_jump bs) k = Some (fuse_jump b)) by now apply map_nth_error.
  assert (Lk : (k < length bs)%nat) by (apply nth_error_Some; congruence).
  destruct (fuse_jump_kind b) as (_ & Ed & _ & _).
  destruct (operand_range fb (map fuse_jump bs) k (fuse_jump b) C ltac:(lia) Hk') as (R & Rf & Rb).
  { rewrite map_length, Ed. lia. }
  rewrite Ed in *. fold n in R, Rf, Rb.
  assert (D : exists o, meaning kind (Z.abs n) = Some o /\ displacement o = Some n).
  { destruct Hj as [[-> Hd] | [Hj Hd]].
    - exists (JUMP, [- Z.abs n]). split; [reflexivity|]. cbn [displacement]. f_equal.
      specialize (Rb Hd). lia.
    - specialize (Rf (proj1 Hd)).
      destruct Hj as [-> | [-> | ->]]; eexists; (split; [reflexivity|]); cbn [displacement];
        f_equal; lia. }
  destruct D as (o & Dm & Dd). exists o. split; [exact Dm|]. split; [exact Dd|].
  destruct (fuse_jump_decode b (Z.abs n) kind Hkind) as (kind' & Ek & _ & Ef).
  { lia. }
  { intros ->. discriminate Dm. }
  unfold emit_block. rewrite Ek. rewrite Ed.
  fold (operand fb k (fuse_jump b)).
  replace (nth (dest b) fb 0 -
     (nth k fb 0 + opt_length (fuse_jump b) + jump_length fb k (fuse_jump b))) with n
    by (unfold n, operand; rewrite Ed; reflexivity).
  rewrite Ef, decode_app, pending_last by exact He. f_equal.
  rewrite <- (app_nil_r (compile_byte _ _)).
  rewrite (decode_emitted kind (Z.abs n) o []); [reflexivity|lia|exact Dm].
Qed.

Lemma assemble_ok fuel bs pieces : blocks_ok bs ->
  assemble fuel (map fuse_jump bs) = Ok pieces ->
  (forall p n, In p pieces -> displacement (List.last (decode 0 p) (INVALID, [])) = Some n ->
     n <> 254 /\ n <> 65534 /\ n <> 16777214) ->
  length pieces = length bs /\ well_placed bs pieces.
Proof.
  intros Hbs Ha Hun. unfold assemble in Ha.
  destruct (size_loop _ _ _) as [fb| | | |] eqn:El; try discriminate Ha.
  cbn [obind] in Ha. injection Ha as <-. apply size_loop_ok in El.
  split.
  { assert (Len : forall bs k, length (emit fb k bs) = length bs)
      by (clear; induction bs as [|b bs IH]; intros k; cbn; auto).
    rewrite Len. apply map_length. }
  pose proof (total_fuse bs) as Tf. pose proof Hbs as [Hb Ht].
  set (bs' := map fuse_jump bs) in *.
  assert (Piece : forall k b, nth_error bs k = Some b ->
            nth_error (emit fb 0 bs') k = Some (emit_block fb k (fuse_jump b))).
  { intros k b Hk. rewrite emit_nth. unfold bs'. rewrite (map_nth_error fuse_jump _ _ Hk).
    reflexivity. }
  assert (Orig : forall k b', nth_error bs' k = Some b' ->
            exists b, nth_error bs k = Some b /\ b' = fuse_jump b).
  { intros k b' E. unfold bs' in E. rewrite nth_error_map in E.
    destruct (nth_error bs k) as [b|]; [|discriminate]. injection E as <-. eauto. }
  assert (Lu : lucky fb bs').
  { intros k b' Hk Hj Hd. destruct (Orig k b' Hk) as (b & Hkb & ->).
    destruct (jkind b) as [kind|] eqn:Ek.
    2: { exfalso. apply Hj. now apply (fuse_jump_kind b). }
    destruct (piece_decode bs fb k b kind Hbs El Hkb Ek) as (o & _ & Dd & De).
    destruct (Hun (emit_block fb k (fuse_jump b)) (operand fb k (fuse_jump b))) as (A & B & D).
    - eapply nth_error_In. apply Piece. exact Hkb.
    - rewrite De, last_last. exact Dd.
    - unfold unlucky. cbn [existsb]. lia. }
  assert (Hd : Forall (fun b => jkind b <> None -> (dest b < length bs')%nat) bs').
  { apply Forall_forall. intros b' Hin Hj. apply In_nth_error in Hin as [k Hk].
    destruct (Orig k b' Hk) as (b & Hkb & ->). destruct (fuse_jump_kind b) as (Hn & Ed & _ & _).
    rewrite Ed. unfold bs'. rewrite map_length.
    assert (k < length bs)%nat by (apply nth_error_Some; congruence).
    destruct (jkind b) as [kind|] eqn:Ek; [|exfalso; apply Hj; now apply Hn].
    destruct (Hb k b Hkb) as [_ Hj']. specialize (Hj' kind Ek). lia. }
  pose proof (starts fb bs' El ltac:(lia) Lu Hd) as St.
  intros k b Hk. exists (emit_block fb k (fuse_jump b)). split; [now apply Piece|].
  destruct (jkind b) as [kind|] eqn:Ek.
  - destruct (piece_decode bs fb k b kind Hbs El Hk Ek) as (o & Dm & Dd & De).
    exists (operand fb k (fuse_jump b)), o.
    split; [exact Dm|]. split; [exact Dd|]. split; [exact De|].
    assert (Hk' : nth_error bs' k = Some (fuse_jump b)) by now apply map_nth_error.
    destruct (St k _ Hk') as [_ ->].
    destruct (fuse_jump_kind b) as (Hn & Ed & _ & _).
    assert (Ld : (dest b < length bs')%nat).
    { rewrite Forall_forall in Hd. rewrite <- Ed. apply (Hd (fuse_jump b)).
      - eapply nth_error_In. exact Hk'.
      - intros E. apply Hn in E. congruence. }
    destruct (nth_error bs' (dest b)) as [bd|] eqn:Edb.
    2: { apply nth_error_None in Edb. lia. }
    destruct (St _ _ Edb) as [-> _]. unfold operand. rewrite Ed. lia.
  - destruct (fuse_jump_kind b) as (_ & _ & _ & Eb). rewrite Eb by exact Ek.
    unfold emit_block. rewrite Ek, app_nil_r. reflexivity.
Qed.

(** ** A method for which the sizes are wrong *)
Definition statement : list (Z * Z) := [(56, 0); (30, 34); (48, 0)].

(** self ifTrue: [254 times self ifTrue: [self foo]; then self ifTrue: [42 times
    self foo]].  ^self *)
Definition wrong_blocks : list block :=
  Block [(56, 0)] (Some 43) 511
  :: concat (map (fun k => [Block [(56, 0)] (Some 43) (2 * k + 3); Block statement None 0])
                 (seq 0 254))
  ++ [Block [(56, 0)] (Some 43) 511;
      Block ((54, 1) :: concat (repeat statement 42)) None 0;
      Block [(56, 0); (51, 0)] None 0].

Definition pieces_of (r : outcome (list (list (Z * Z)))) : list (list (Z * Z)) :=
  match r with Ok p => p | _ => [] end.
Definition wrong_pieces : list (list (Z * Z)) :=
  pieces_of (assemble 10 (map fuse_jump wrong_blocks)).

Lemma wrong_ok : blocks_ok wrong_blocks.
Proof.
  assert (C : forallb (fun kb => let '(k, b) := kb in
      negb (fst (List.last (body b) (0, 0)) =? 55) &&
      match jkind b with
      | None => true
      | Some kind => (kind =? 43) && (k <? dest b)%nat && (dest b <? length wrong_blocks)%nat
      end) (combine (seq 0 (length wrong_blocks)) wrong_blocks) = true)
    by (vm_compute; reflexivity).
  split; [|vm_compute; reflexivity].
  intros k b Hk. rewrite forallb_forall in C.
  assert (Hin : In (k, b) (combine (seq 0 (length wrong_blocks)) wrong_blocks)).
  { assert (G : forall (l : list block) i j x, nth_error l j = Some x ->
              In ((i + j)%nat, x) (combine (seq i (length l)) l)).
    { clear. induction l as [|y l IH]; intros i j x E; [destruct j; discriminate|].
      cbn [length seq combine]. destruct j as [|j].
      - injection E as ->. left. f_equal. lia.
      - right. replace (i + S j)%nat with (S i + j)%nat by lia. now apply IH. }
    exact (G wrong_blocks 0%nat k b Hk). }
  specialize (C _ Hin). cbn beta iota in C. apply andb_true_iff in C as [C1 C2].
  split; [lia|]. intros kind Ek. rewrite Ek in C2. right. lia.
Qed.

Lemma wrong_jump :
  exists fuel bs pieces k b p n, blocks_ok bs
    /\ assemble fuel (map fuse_jump bs) = Ok pieces
    /\ nth_error bs k = Some b /\ nth_error pieces k = Some p
    /\ displacement (List.last (decode 0 p) (INVALID, [])) = Some n
    /\ start_of pieces (S k) + n <> start_of pieces (dest b).
Proof.
  exists 10%nat, wrong_blocks, wrong_pieces, 0%nat,
    (Block [(56, 0)] (Some 43) 511), [(56, 0); (55, 10); (43, 240)], 2800.
  split; [exact wrong_ok|].
  split; [vm_compute; reflexivity|]. split; [vm_compute; reflexivity|].
  split; [vm_compute; reflexivity|]. split; [vm_compute; reflexivity|].
  cbn [dest]. vm_compute. discriminate.
Qed.

Lemma wrong_size :
  exists fuel bs fb k b, blocks_ok bs
    /\ size_loop fuel (first_bytes 0 (map fuse_jump bs)) (map fuse_jump bs) = Ok fb
    /\ nth_error (map fuse_jump bs) k = Some b
    /\ jump_length fb k b <> 2 * Z.of_nat (length (emit_block fb k b)) - opt_length b.
Proof.
  exists 10%nat, wrong_blocks.
  destruct (size_loop 10 (first_bytes 0 (map fuse_jump wrong_blocks)) (map fuse_jump wrong_blocks))
    as [fb| | | |] eqn:E; vm_compute in E; try discriminate E.
  exists fb, 509%nat, (Block [(56, 0)] (Some 43) 511).
  split; [exact wrong_ok|]. split; [reflexivity|]. split; [vm_compute; reflexivity|].
  injection E as <-. vm_compute. discriminate.
Qed.

Lemma small_method :
  blocks_ok [Block [(56, 0)] (Some 43) 2; Block [(52, 0)] (Some 40) 0; Block [(51, 0)] None 0]
  /\ assemble 5 [Block [(56, 0)] (Some 43) 2; Block [(52, 0)] (Some 40) 0; Block [(51, 0)] None 0]
     = Ok [[(56, 0); (43, 4)]; [(52, 0); (40, 8)]; [(51, 0)]].
Proof.
  split; [|vm_compute; reflexivity]. split; [|vm_compute; reflexivity].
  intros [|[|[|[|k]]]] b E; cbn [nth_error] in E; try discriminate E; injection E as <-;
    (split; [discriminate|]); cbn [jkind dest length]; intros kind Ek; try discriminate Ek;
    injection Ek as <-; lia.
Qed.
