From Coq Require Import Znumtheory.
From Verif Require Import Base Digits IntRep IntRepProofs Mpz MpzSpec MpzProofs MpzOps MpzPrims.

Lemma ring_l a b pa pb : int_arg a -> pad_of a pa -> int_arg b -> pad_of b pb ->
  answers (prim_plus a b pa pb) (st_val a + st_val b) /\
  answers (prim_minus a b pa pb) (st_val a - st_val b) /\
  answers (prim_times a b pa pb) (st_val a * st_val b).
Proof. intros. split; [|split]; [apply plus_exact|apply minus_exact|apply times_exact]; assumption. Qed.

Lemma bits_l a b pa pb : int_arg a -> pad_of a pa -> int_arg b -> pad_of b pb ->
  answers (prim_bitAnd a b pa pb) (Z.land (st_val a) (st_val b)) /\
  answers (prim_bitOr a b pa pb) (Z.lor (st_val a) (st_val b)) /\
  answers (prim_bitXor a b pa pb) (Z.lxor (st_val a) (st_val b)) /\
  answers (prim_bitInvert a pa) (Z.lnot (st_val a)).
Proof.
  intros. split; [|split; [|split]];
    [apply bitAnd_exact|apply bitOr_exact|apply bitXor_exact|apply bitInvert_exact]; assumption.
Qed.

Lemma tdiv_l a b pa pb : int_arg a -> pad_of a pa -> int_arg b -> pad_of b pb -> st_val b <> 0 ->
  answers (prim_quo a b pa pb) (Z.quot (st_val a) (st_val b)) /\
  answers (prim_rem a b pa pb) (Z.rem (st_val a) (st_val b)) /\
  ((st_val b | st_val a) -> answers (prim_divExact a b pa pb) (st_val a / st_val b)).
Proof.
  intros. split; [|split]; [apply quo_exact|apply rem_exact|intros; apply divExact_exact]; assumption.
Qed.

Lemma fdiv_l a b pa pb : int_arg a -> pad_of a pa -> int_arg b -> pad_of b pb -> st_val b <> 0 ->
  ~ (is_large b /\ (st_val b | st_val a) /\ (st_val a < 0 <-> 0 < st_val b)) ->
  answers (prim_intDiv a b pa pb) (st_val a / st_val b) /\
  answers (prim_modulo a b pa pb) (st_val a mod st_val b).
Proof.
  intros A PA B PB NZ W. destruct (fdiv_exact a b pa pb A PA B PB NZ) as [Q R].
  assert (F : fdiv_wrong a b = false).
  { unfold fdiv_wrong. destruct b as [d|neg bs]; [reflexivity|].
    destruct (_ && _) eqn:E; [exfalso|reflexivity]. apply andb_prop in E. destruct E as [X Z0].
    apply W. split; [exact I|]. split.
    - apply Z.rem_divide; [assumption|]. apply Z.eqb_eq. assumption.
    - clear - X NZ. set (x := st_val a) in *. set (y := st_val (Large neg bs)) in *. clearbody x y.
      destruct (x <? 0) eqn:?, (y <? 0) eqn:?; cbn [xorb] in X; try discriminate; lia. }
  rewrite F, Z.sub_0_r in Q. rewrite F, Z.add_0_r in R. auto.
Qed.

Lemma byte_list l : forallb (fun x => (0 <=? x) && (x <? 256)) l = true -> digits_ok 256 l.
Proof.
  intros H. apply Forall_forall. intros x I. rewrite forallb_forall in H. specialize (H x I). lia.
Qed.

(** Deciding canonicity of concrete objects. *)
Definition canonical_b (i : stint) : bool :=
  match i with
  | Small z => (- 2 ^ 62 <=? z) && (z <? 2 ^ 62)
  | Large neg bs =>
    let n := Z.of_nat (length bs) in
    let v := st_val i in
    forallb (fun x => (0 <=? x) && (x <? 256)) bs &&
    if neg then (v <? - 2 ^ 62) && (- 2 ^ (8 * n - 1) <=? v) && (v <? - 2 ^ (8 * n - 9))
    else (2 ^ 62 <=? v) && (2 ^ (8 * n - 9) <=? v) && (v <? 2 ^ (8 * n - 1))
  end.
Lemma canonical_dec i : canonical_b i = true -> canonical i.
Proof.
  destruct i as [z|neg bs]; unfold canonical_b, canonical; [lia|].
  cbv zeta. set (v := st_val _). clearbody v.
  set (p := 2 ^ (8 * _ - 1)). set (q := 2 ^ (8 * _ - 9)). clearbody p q.
  rewrite andb_true_iff. intros [D H]. split; [apply byte_list, D|].
  destruct neg; split; intros E; try discriminate; lia.
Qed.

(** - 2^65 and 2^65 *)
Definition m65 : stint := Large true [0; 0; 0; 0; 0; 0; 0; 0; 254].
Definition p65 : stint := Large false [0; 0; 0; 0; 0; 0; 0; 0; 2].

Lemma m65_c : canonical m65. Proof. apply canonical_dec. vm_compute. reflexivity. Qed.
Lemma p65_c : canonical p65. Proof. apply canonical_dec. vm_compute. reflexivity. Qed.

Lemma fdiv_refuted_l :
  exists a b, canonical a /\ canonical b /\ st_val b <> 0 /\
    (forall pa pb, pad_of a pa -> pad_of b pb ->
      answers (prim_intDiv a b pa pb) (st_val a / st_val b - 1) /\
      answers (prim_modulo a b pa pb) (st_val b) /\ st_val a mod st_val b = 0).
Proof.
  exists m65, p65. split; [apply m65_c|]. split; [apply p65_c|]. split; [discriminate|].
  intros pa pb PA PB.
  destruct (fdiv_exact m65 p65 pa pb (canonical_arg _ m65_c) PA (canonical_arg _ p65_c) PB) as [Q R]; [discriminate|].
  split; [exact Q|]. split; [exact R|reflexivity].
Qed.

Lemma shift_refuted_l :
  (exists a c, canonical a /\ - 2 ^ 31 < c < 0 /\
    forall pa, pad_of a pa -> exists z, answers (prim_bitShift a (Small c) pa) z /\ z <> Z.shiftl (st_val a) c) /\
  (exists a c, canonical a /\ c = - 2 ^ 32 /\
    forall pa, pad_of a pa -> exists z, answers (prim_bitShift a (Small c) pa) z /\ z <> Z.shiftl (st_val a) c) /\
  (exists a, canonical a /\ forall pa, pad_of a pa -> prim_bitShift a (Small (- 2 ^ 31)) pa = UB).
Proof.
  split; [|split].
  - exists m65, (-66). split; [apply m65_c|]. split; [lia|]. intros pa PA.
    destruct (bitShift_result m65 (Small (-66)) pa (canonical_arg _ m65_c) PA (-66) eq_refl) as [_ N].
    specialize (N ltac:(unfold wrap32; lia)). eexists. split; [exact N|]. discriminate.
  - exists p65, (- 2 ^ 32). split; [apply p65_c|]. split; [reflexivity|]. intros pa PA.
    destruct (bitShift_result p65 (Small (- 2 ^ 32)) pa (canonical_arg _ p65_c) PA (- 2 ^ 32) eq_refl) as [_ N].
    specialize (N ltac:(unfold wrap32; lia)). eexists. split; [exact N|].
    rewrite Z.shiftl_div_pow2 by lia.
    rewrite (Z.div_small (st_val p65)); [discriminate|].
    change (st_val p65) with (2 ^ 65). split; [lia|]. apply Z.pow_lt_mono_r; lia.
  - exists m65. split; [apply m65_c|]. intros pa PA. unfold prim_bitShift.
    destruct (from_oop_ok m65 pa (canonical_arg _ m65_c) PA) as (u & -> & U). reflexivity.
Qed.

Lemma gcd_refuted_l :
  exists a b, canonical a /\ canonical b /\
    forall pa pb, pad_of a pa -> pad_of b pb ->
      answers (prim_gcd a b pa pb) (st_val a) /\ st_val a < 0.
Proof.
  exists m65, (Small 0). split; [apply m65_c|]. split; [cbn; lia|]. intros pa pb PA PB.
  split; [|reflexivity].
  exact (gcd_zero m65 (Small 0) pa pb (canonical_arg _ m65_c) PA ltac:(cbn; lia) PB (or_intror eq_refl)).
Qed.

Lemma mpz_hyps :
  let ex_a := Large true [253; 255; 255; 255; 255; 255; 255; 255; 254] in
  let ex_b := Large false [0; 0; 0; 0; 0; 0; 0; 0; 64] in
  let ex_pad := [1; 2; 3; 4; 5; 6; 255] in
  canonical ex_a /\ canonical ex_b /\ int_arg ex_a /\ int_arg ex_b /\
  pad_of ex_a ex_pad /\ pad_of ex_b ex_pad /\
  st_val ex_a = - 2 ^ 64 - 3 /\ st_val ex_b = 2 ^ 70 /\
  ~ (is_large ex_b /\ (st_val ex_b | st_val ex_a) /\ (st_val ex_a < 0 <-> 0 < st_val ex_b)).
Proof.
  intros a b p.
  assert (CA : canonical a) by (apply canonical_dec; vm_compute; reflexivity).
  assert (CB : canonical b) by (apply canonical_dec; vm_compute; reflexivity).
  split; [exact CA|]. split; [exact CB|]. split; [apply canonical_arg, CA|]. split; [apply canonical_arg, CB|].
  assert (P : digits_ok 256 p) by (apply byte_list; reflexivity).
  split; [split; [exact P|]; split; [cbn; lia|exists 2%nat; reflexivity]|].
  split; [split; [exact P|]; split; [cbn; lia|exists 2%nat; reflexivity]|].
  split; [reflexivity|]. split; [reflexivity|].
  intros (_ & D & _). apply Z.mod_divide in D; [|discriminate]. vm_compute in D. discriminate.
Qed.
