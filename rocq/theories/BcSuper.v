(** Lemmas about superoperators. *)
From Coq Require Import ZArith List Bool Lia ZifyBool ZifyNat.
From Verif Require Import Base BcTables Bc BcSpec BcRun BcProofs.
Import ListNotations.
Local Open Scope Z_scope.

Definition opname_eq_dec (x y : opname) : {x = y} + {x <> y}.
Proof. decide equality. Defined.
Definition aexp_eq_dec (x y : aexp) : {x = y} + {x <> y}.
Proof. decide equality. apply Z.eq_dec. Defined.
Definition tmpl_eq_dec (x y : list (opname * list aexp)) : {x = y} + {x <> y}.
Proof.
  apply list_eq_dec. intros [a b] [c d].
  destruct (opname_eq_dec a c) as [-> | n]; [|right; congruence].
  destruct (list_eq_dec aexp_eq_dec b d) as [-> | n]; [left; reflexivity|right; congruence].
Defined.

(** ** Symbolic composition of table entries *)
Definition entry (b : Z) : list (opname * list aexp) := nth (Z.to_nat b) byte_table [].

Definition at_const (x : Z) (e : aexp) : aexp :=
  match e with F => K x | H => K 0 | L => K x | N => K (- x) | K n => K n end.

Definition after_ext (x : Z) (e : aexp) : option aexp :=
  match e with F => None | N => None | H => Some F | L => Some (K x) | K n => Some (K n) end.

Fixpoint sequence {A} (l : list (option A)) : option (list A) :=
  match l with
  | [] => Some []
  | None :: _ => None
  | Some x :: l' => match sequence l' with Some r => Some (x :: r) | None => None end
  end.

Definition entry_const (x : Z) (t : opname * list aexp) := (fst t, map (at_const x) (snd t)).
Definition entry_ext (x : Z) (t : opname * list aexp) : option (opname * list aexp) :=
  match sequence (map (after_ext x) (snd t)) with
  | Some l => Some (fst t, l)
  | None => None
  end.

Definition eqb_tmpl x y : bool := if tmpl_eq_dec x y then true else false.

Definition check1 (q : Z * Z * Z * Z) : bool :=
  let '(b1, b2, x, n) := q in
  (n =? -1) || (negb (n =? 55) && negb (b1 =? 55) && negb (b2 =? 55)
    && eqb_tmpl (map (entry_const x) (entry b1) ++ entry b2) (entry n)).

Definition check2 (q : Z * Z * Z * Z) : bool :=
  let '(b1, b2, x, n) := q in
  (n =? -1) || (negb (n =? 55) && negb (b2 =? 55)
    && (if b1 =? 55
        then match sequence (map (entry_ext x) (entry b2)) with
             | Some l => eqb_tmpl l (entry n)
             | None => false
             end
        else eqb_tmpl (entry b1 ++ map (entry_const x) (entry b2)) (entry n))).

Lemma checked1 : forallb check1 keylist_1 = true.
Proof. vm_compute. reflexivity. Qed.

Lemma checked2 : forallb check2 keylist_2 = true.
Proof. vm_compute. reflexivity. Qed.

Lemma eqb_tmpl_true x y : eqb_tmpl x y = true -> x = y.
Proof. unfold eqb_tmpl. destruct (tmpl_eq_dec x y); [auto|discriminate]. Qed.

Lemma inst_const a l x t : inst a l (entry_const x t) = inst 0 x t.
Proof.
  destruct t as [o es]. unfold inst, entry_const. cbn [fst snd]. f_equal.
  rewrite map_map. apply map_ext. intros []; cbn [at_const aval]; reflexivity.
Qed.

Lemma inst_after_ext a l x es : forall r,
  sequence (map (after_ext x) es) = Some r ->
  map (aval a l) r = map (aval (Z.shiftl (Z.lor a l) 8) x) es.
Proof.
  induction es as [|e es IH]; cbn [map sequence]; intros r E.
  - injection E as <-. reflexivity.
  - destruct (after_ext x e) as [e'|] eqn:Ee; [|discriminate E].
    destruct (sequence _) as [r'|]; [|discriminate E]. injection E as <-.
    cbn [map]. f_equal; [|apply IH; reflexivity].
    destruct e; cbn [after_ext] in Ee; try discriminate Ee; injection Ee as <-;
      cbn [aval]; try reflexivity.
    rewrite Z.shiftr_shiftl_l by lia. rewrite Z.shiftl_0_r. reflexivity.
Qed.

Lemma inst_ext a l x ts : forall r,
  sequence (map (entry_ext x) ts) = Some r ->
  map (inst a l) r = map (inst (Z.shiftl (Z.lor a l) 8) x) ts.
Proof.
  induction ts as [|[o es] ts IH]; cbn [map sequence]; intros r E.
  - injection E as <-. reflexivity.
  - unfold entry_ext at 1 in E. cbn [fst snd] in E.
    destruct (sequence (map (after_ext x) es)) as [r1|] eqn:E1; [|discriminate E].
    destruct (sequence (map (entry_ext x) ts)) as [r2|]; [|discriminate E].
    injection E as <-. cbn [map]. f_equal; [|apply IH; reflexivity].
    unfold inst. cbn [fst snd]. f_equal. now apply inst_after_ext.
Qed.

Lemma dispatch_entry a b x : dispatch a b x = map (inst a x) (entry b).
Proof. reflexivity. Qed.

Lemma search1_in b1 x b2 n :
  search_superop_fixed_arg_1 b1 x b2 = Some n -> check1 (b1, b2, x, n) = true /\ n <> -1.
Proof.
  unfold search_superop_fixed_arg_1. destruct (_ >? _); [discriminate|].
  set (i := Z.to_nat _). destruct (nth i keylist_1 _) as [[[y1 y2] y3] m] eqn:En.
  destruct (_ && _) eqn:Eq; [|discriminate].
  destruct (Z.eqb_spec m (-1)) as [Em|Nm]; [discriminate|]. intros [= <-].
  split; [|exact Nm].
  assert (y1 = b1 /\ y2 = b2 /\ y3 = x) as (-> & -> & ->) by lia.
  rewrite <- En. destruct (Nat.lt_ge_cases i (length keylist_1)) as [Lt|G].
  - pose proof checked1 as C. rewrite forallb_forall in C. apply C. now apply nth_In.
  - rewrite nth_overflow in En by exact G. congruence.
Qed.

Lemma search2_in b1 b2 x n :
  search_superop_fixed_arg_2 b1 b2 x = Some n -> check2 (b1, b2, x, n) = true /\ n <> -1.
Proof.
  unfold search_superop_fixed_arg_2. destruct (_ >? _); [discriminate|].
  set (i := Z.to_nat _). destruct (nth i keylist_2 _) as [[[y1 y2] y3] m] eqn:En.
  destruct (_ && _) eqn:Eq; [|discriminate].
  destruct (Z.eqb_spec m (-1)) as [Em|Nm]; [discriminate|]. intros [= <-].
  split; [|exact Nm].
  assert (y1 = b1 /\ y2 = b2 /\ y3 = x) as (-> & -> & ->) by lia.
  rewrite <- En. destruct (Nat.lt_ge_cases i (length keylist_2)) as [Lt|G].
  - pose proof checked2 as C. rewrite forallb_forall in C. apply C. now apply nth_In.
  - rewrite nth_overflow in En by exact G. congruence.
Qed.

Lemma super1 b1 x1 b2 n x2 r : search_superop_fixed_arg_1 b1 x1 b2 = Some n ->
  decode 0 ((b1, x1) :: (b2, x2) :: r) = decode 0 ((n, x2) :: r).
Proof.
  intros E. apply search1_in in E as [C Nn]. cbn [check1] in C.
  apply orb_true_iff in C as [C|C]; [lia|].
  apply andb_true_iff in C as [C Ct]. apply eqb_tmpl_true in Ct.
  rewrite decode_op by lia. rewrite decode_op by lia. rewrite decode_op by lia.
  rewrite app_assoc. f_equal. rewrite !dispatch_entry, <- Ct, map_app. f_equal.
  rewrite map_map. apply map_ext. intros t. symmetry. apply inst_const.
Qed.

Lemma super2 b1 b2 x2 n a x1 r : search_superop_fixed_arg_2 b1 b2 x2 = Some n ->
  decode a ((b1, x1) :: (b2, x2) :: r) = decode a ((n, x1) :: r).
Proof.
  intros E. apply search2_in in E as [C Nn]. cbn [check2] in C.
  apply orb_true_iff in C as [C|C]; [lia|].
  apply andb_true_iff in C as [C Ct].
  rewrite (decode_op a n) by lia.
  destruct (Z.eqb_spec b1 55) as [-> | N1].
  - destruct (sequence _) as [l|] eqn:Es; [|discriminate Ct].
    apply eqb_tmpl_true in Ct.
    rewrite decode_ext, <- shl8. rewrite decode_op by lia. f_equal.
    rewrite !dispatch_entry, <- Ct. symmetry. now apply inst_ext.
  - apply eqb_tmpl_true in Ct.
    rewrite decode_op by exact N1. rewrite decode_op by lia.
    rewrite app_assoc. f_equal. rewrite !dispatch_entry, <- Ct, map_app. f_equal.
    rewrite map_map. apply map_ext. intros t. symmetry. apply inst_const.
Qed.

(** the extension pending after some code *)
Fixpoint pending (a : Z) (l : list (Z * Z)) : Z :=
  match l with
  | [] => a
  | (b, x) :: l' => pending (if b =? ext_byte then Z.shiftl (Z.lor a x) 8 else 0) l'
  end.

Lemma decode_app l : forall a r,
  decode a (l ++ r) = decode a l ++ decode (pending a l) r.
Proof.
  induction l as [|[b x] l IH]; intros a r; [reflexivity|].
  cbn [app decode pending]. destruct (b =? ext_byte); rewrite IH; [reflexivity|].
  now rewrite app_assoc.
Qed.

Lemma pending_app l : forall a r, pending a (l ++ r) = pending (pending a l) r.
Proof. induction l as [|[b x] l IH]; intros a r; [reflexivity|]. cbn [app pending]. apply IH. Qed.

Lemma pending_rev before : not_extended before = true -> pending 0 (rev before) = 0.
Proof.
  destruct before as [|[b x] before]; [reflexivity|]. cbn [not_extended rev]. intros E.
  rewrite pending_app. cbn [pending]. now destruct (b =? ext_byte).
Qed.

Lemma combine_decode before : forall last r,
  decode 0 (rev (combine_last before last) ++ r) = decode 0 (rev before ++ last :: r).
Proof.
  induction before as [|[b1 a1] before IH]; intros [b2 a2] r; [reflexivity|].
  cbn [combine_last fst snd].
  destruct (search_superop_fixed_arg_2 b1 b2 a2) as [n|] eqn:E2.
  { rewrite IH. cbn [rev]. rewrite <- app_assoc. cbn [app].
    rewrite !decode_app. f_equal. symmetry. now apply super2. }
  change (match before with [] => true | (b0, _) :: _ => negb (b0 =? ext_byte) end)
    with (not_extended before).
  destruct (not_extended before) eqn:Ne.
  2: { cbn [rev]. rewrite <- !app_assoc. reflexivity. }
  destruct (search_superop_fixed_arg_1 b1 a1 b2) as [n|] eqn:E1.
  { rewrite IH. cbn [rev]. rewrite <- app_assoc. cbn [app].
    rewrite !decode_app. f_equal. rewrite pending_rev by exact Ne.
    symmetry. now apply super1. }
  cbn [rev]. rewrite <- !app_assoc. reflexivity.
Qed.

Lemma fold_combine code : forall out r,
  decode 0 (rev (fold_left combine_last code out) ++ r) = decode 0 (rev out ++ code ++ r).
Proof.
  induction code as [|p code IH]; intros out r; [reflexivity|].
  cbn [fold_left app]. rewrite IH. apply combine_decode.
Qed.

Lemma superoperators_decode code :
  decode 0 (optimize_superoperators code) = decode 0 code.
Proof.
  unfold optimize_superoperators. rewrite <- (app_nil_r (rev _)).
  rewrite fold_combine. cbn [rev app]. now rewrite app_nil_r.
Qed.

(** the superoperators are bytecodes, not longer than the code *)
Lemma fold_combine_length code : forall out,
  (length (fold_left combine_last code out) <= length out + length code)%nat.
Proof.
  assert (C : forall before last, (length (combine_last before last) <= S (length before))%nat).
  { induction before as [|[b1 a1] before IH]; intros last; [cbn; lia|].
    cbn [combine_last].
    destruct (search_superop_fixed_arg_2 b1 (fst last) (snd last)) as [n|].
    { specialize (IH (n, a1)). cbn [length]. lia. }
    destruct (match before with [] => true | (b0, _) :: _ => negb (b0 =? ext_byte) end);
      [|cbn [length]; lia].
    destruct (search_superop_fixed_arg_1 b1 a1 (fst last)) as [n|]; [|cbn [length]; lia].
    specialize (IH (n, snd last)). cbn [length]. lia. }
  induction code as [|p code IH]; intros out; cbn [fold_left length]; [lia|].
  specialize (IH (combine_last out p)). specialize (C out p). lia.
Qed.

Lemma superoperators_length code :
  (length (optimize_superoperators code) <= length code)%nat.
Proof.
  unfold optimize_superoperators. rewrite rev_length.
  pose proof (fold_combine_length code []). cbn [length] in *. lia.
Qed.

Lemma entry_range_1 : forallb (fun q => let '(_, _, _, n) := q in (-1 <=? n) && (n <? 256)) keylist_1 = true.
Proof. vm_compute. reflexivity. Qed.
Lemma entry_range_2 : forallb (fun q => let '(_, _, _, n) := q in (-1 <=? n) && (n <? 256)) keylist_2 = true.
Proof. vm_compute. reflexivity. Qed.

(** ** The jump at the end of a block *)
Lemma fuse_jump_decode blk n kind : jkind blk = Some kind -> 0 <= n < 2 ^ 31 -> kind <> 55 ->
  exists kind', jkind (fuse_jump blk) = Some kind' /\ dest (fuse_jump blk) = dest blk /\
    decode 0 (body (fuse_jump blk) ++ compile_byte kind' n)
    = decode 0 (body blk ++ compile_byte kind n).
Proof.
  intros Hk Hn H55. destruct blk as [bd kd d]. cbn [jkind body dest] in *. subst kd.
  unfold fuse_jump. cbn [jkind body dest].
  destruct (rev bd) as [|[bc x] before] eqn:Er; [exists kind; auto|].
  destruct (not_extended before) eqn:Ne; [|exists kind; auto].
  destruct (search_superop_fixed_arg_1 bc x kind) as [test|] eqn:Es; [|exists kind; auto].
  exists test. cbn [jkind body dest]. split; [reflexivity|]. split; [reflexivity|].
  assert (Eb : bd = rev before ++ [(bc, x)]).
  { rewrite <- (rev_involutive bd), Er. reflexivity. }
  rewrite Eb, <- app_assoc. cbn [app]. rewrite !decode_app.
  rewrite pending_rev by exact Ne. f_equal.
  apply search1_in in Es as [C Nn]. cbn [check1] in C.
  apply orb_true_iff in C as [C|C]; [lia|].
  apply andb_true_iff in C as [C Ct]. apply eqb_tmpl_true in Ct.
  rewrite decode_op by lia.
  rewrite <- (app_nil_r (compile_byte test n)), <- (app_nil_r (compile_byte kind n)).
  rewrite !decode_compile by (assumption || lia).
  rewrite !app_nil_r, !dispatch_entry, <- Ct, map_app. f_equal.
  rewrite map_map. apply map_ext. intros t. apply inst_const.
Qed.

Lemma superoperators_ok code :
  decode 0 (optimize_superoperators code) = decode 0 code
  /\ (length (optimize_superoperators code) <= length code)%nat.
Proof. split; [apply superoperators_decode|apply superoperators_length]. Qed.
