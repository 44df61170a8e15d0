(** Positional notation, least significant digit first: the meaning of the
    byte arrays of LargeIntegers and of the limb arrays handed to GMP.  This is
    vocabulary for the specifications, not a model of a particular function. *)
From Verif Require Import Base.

(** The number written by [l] in base [B]. *)
Definition dval (B : Z) (l : list Z) : Z := fold_right (fun d acc => d + B * acc) 0 l.

Definition digits_ok (B : Z) (l : list Z) : Prop := Forall (fun d => 0 <= d < B) l.

(** The [n] lowest digits of [z]. *)
Fixpoint to_digits (B : Z) (n : nat) (z : Z) : list Z :=
  match n with
  | O => []
  | S k => z mod B :: to_digits B k (z / B)
  end.

Lemma dval_nil B : dval B [] = 0.
Proof. reflexivity. Qed.

Lemma dval_cons B d l : dval B (d :: l) = d + B * dval B l.
Proof. reflexivity. Qed.

Lemma pow_len_S B n : B ^ Z.of_nat (S n) = B * B ^ Z.of_nat n.
Proof. rewrite Nat2Z.inj_succ, Z.pow_succ_r by lia. reflexivity. Qed.

Lemma dval_bound B l : 1 < B -> digits_ok B l -> 0 <= dval B l < B ^ Z.of_nat (length l).
Proof.
  intros HB. induction 1 as [|d l Hd Hl IH]; cbn [length].
  - cbn. lia.
  - rewrite dval_cons, pow_len_S. nia.
Qed.

Lemma dval_app B l1 l2 : dval B (l1 ++ l2) = dval B l1 + B ^ Z.of_nat (length l1) * dval B l2.
Proof.
  induction l1 as [|d l IH]; cbn [app length].
  - rewrite dval_nil. change (B ^ Z.of_nat 0) with 1. lia.
  - rewrite !dval_cons, IH, pow_len_S. ring.
Qed.

Lemma to_digits_length B n z : length (to_digits B n z) = n.
Proof. revert z; induction n; intros; cbn; congruence. Qed.

Lemma to_digits_ok B n z : 0 < B -> digits_ok B (to_digits B n z).
Proof.
  intros HB. revert z; induction n; intros z; cbn; constructor.
  - apply Z.mod_pos_bound; lia.
  - apply IHn.
Qed.

Lemma to_digits_val B n z : 0 < B -> dval B (to_digits B n z) = z mod B ^ Z.of_nat n.
Proof.
  intros HB. revert z; induction n as [|n IH]; intros z; cbn [to_digits].
  - cbn. rewrite Z.mod_1_r. reflexivity.
  - rewrite dval_cons, IH, pow_len_S.
    rewrite Z.rem_mul_r by (try apply Z.pow_nonzero; lia). reflexivity.
Qed.

Lemma to_digits_dval B l : 1 < B -> digits_ok B l -> to_digits B (length l) (dval B l) = l.
Proof.
  intros HB. induction 1 as [|d l Hd Hl IH]; cbn [length to_digits]; [reflexivity|].
  rewrite dval_cons.
  replace ((d + B * dval B l) mod B) with d.
  - replace ((d + B * dval B l) / B) with (dval B l); [rewrite IH; reflexivity|].
    rewrite (Z.mul_comm B), Z.div_add, Z.div_small by lia. reflexivity.
  - rewrite (Z.mul_comm B), Z.mod_add, Z.mod_small by lia. reflexivity.
Qed.

Lemma dval_inj B l1 l2 : 1 < B -> digits_ok B l1 -> digits_ok B l2 ->
  length l1 = length l2 -> dval B l1 = dval B l2 -> l1 = l2.
Proof.
  intros HB O1 O2 HL HV.
  rewrite <- (to_digits_dval B l1 HB O1), <- (to_digits_dval B l2 HB O2), HL, HV.
  reflexivity.
Qed.

Lemma digits_ok_app B l1 l2 : digits_ok B (l1 ++ l2) <-> digits_ok B l1 /\ digits_ok B l2.
Proof. apply Forall_app. Qed.

Lemma dval_repeat0 B n : dval B (repeat 0 n) = 0.
Proof. induction n; [reflexivity|]. cbn [repeat]. rewrite dval_cons, IHn. lia. Qed.

Lemma digits_ok_repeat B d n : 0 <= d < B -> digits_ok B (repeat d n).
Proof. intros H. induction n; constructor; auto. Qed.

Lemma digits_ok_firstn B n l : digits_ok B l -> digits_ok B (firstn n l).
Proof.
  intros H. revert n. induction H; intros [|n]; cbn; try constructor; auto; apply IHForall.
Qed.

Lemma digits_ok_skipn B n l : digits_ok B l -> digits_ok B (skipn n l).
Proof. intros H. revert n. induction H; intros [|n]; cbn; try constructor; auto; apply IHForall. Qed.

Lemma dval_split B n l : (n <= length l)%nat ->
  dval B l = dval B (firstn n l) + B ^ Z.of_nat n * dval B (skipn n l).
Proof.
  intros H. rewrite <- (firstn_skipn n l) at 1. rewrite dval_app.
  rewrite firstn_length_le by assumption. reflexivity.
Qed.
