(** Decoding undoes encoding. *)
From Verif Require Import Base Base64 Base64Spec Base64Proofs.
Import ListNotations.
Local Open Scope Z_scope.

Lemma triple_bound a b c : byte a -> byte b -> byte c -> 0 <= a * 65536 + b * 256 + c < 2 ^ 24.
Proof. unfold byte. intros. change (2 ^ 24) with 16777216. lia. Qed.

Lemma byte0 : byte 0.
Proof. unfold byte. lia. Qed.

Lemma main_ok t b n : text t b n -> forall pre tr done x fuel e out index i,
  e = Z.of_nat (length pre + length t) -> out = Z.of_nat (length done + length b + x) ->
  index = Z.of_nat (length pre) + 1 -> i = Z.of_nat (length done) + 1 -> (length t < fuel)%nat ->
  main_loop fuel (pre ++ t ++ repeat 10 tr) e out index i (done ++ repeat 0 (length b + x)) = Ok (done ++ b ++ repeat 0 x).
Proof.
  induction 1 as [a b c A B C|a b A B|a A|a b c m t bs n A B C T IH]; intros pre tr done x fuel e out index i E O Ix I F;
    (destruct fuel as [|fuel]; [lia|]).
  - unfold group3 in *. cbv zeta in *. cbn [length app repeat Nat.add] in *.
    rewrite (group_step fuel pre _ _ _ _ _ e out index i _ _ _ _ _ (proj1 (sixth_ok _ 3)) (proj1 (sixth_ok _ 2)) (proj1 (sixth_ok _ 1)) (proj1 (sixth_ok _ 0)) Ix) by lia.
    fold (joint (a * 65536 + b * 256 + c)). rewrite joint_ok by (apply triple_bound; assumption).
    destruct (digits_ok a b c A B C) as (-> & -> & ->).
    rewrite (proj2 (Z.ltb_lt 0 _)) by lia. rewrite (proj2 (Z.ltb_lt 1 _)) by lia.
    pose proof (put_three done 0 0 0 (repeat 0 x) a b c i I) as P.
    destruct (at_put (done ++ 0 :: 0 :: 0 :: repeat 0 x) i a) as [q1| | | |]; cbn [obind] in *; try discriminate.
    destruct (at_put q1 (i + 1) b) as [q2| | | |]; cbn [obind] in *; try discriminate. rewrite P. cbn [obind].
    apply (last_loop fuel _ e out _ _ _ (pre ++ [sixth (a * 65536 + b * 256 + c) 3; sixth (a * 65536 + b * 256 + c) 2; sixth (a * 65536 + b * 256 + c) 1; sixth (a * 65536 + b * 256 + c) 0]) (repeat 10 tr)).
    + rewrite <- app_assoc. reflexivity.
    + rewrite app_length. cbn [length]. lia.
    + rewrite app_length. cbn [length]. lia.
    + lia.
  - unfold group2 in *. cbv zeta in *. cbn [length app repeat Nat.add] in *.
    rewrite (group_step fuel pre _ _ _ _ _ e out index i _ _ _ _ _ (proj1 (sixth_ok _ 3)) (proj1 (sixth_ok _ 2)) (proj1 (sixth_ok _ 1)) (proj1 pad_char) Ix) by lia.
    assert (J : (a * 65536 + b * 256) / 64 ^ 3 mod 64 * 2 ^ 18 + (a * 65536 + b * 256) / 64 ^ 2 mod 64 * 2 ^ 12 + (a * 65536 + b * 256) / 64 ^ 1 mod 64 * 2 ^ 6 + 0 = a * 65536 + b * 256 + 0).
    { pose proof (joint_ok (a * 65536 + b * 256 + 0) (triple_bound a b 0 A B byte0)) as J. unfold joint in J.
      replace (a * 65536 + b * 256 + 0) with (a * 65536 + b * 256) in * by lia.
      destruct (low_zero a b A B) as (_ & _ & Z0). rewrite Z0 in J. exact J. }
    rewrite J.
    destruct (digits_ok a b 0 A B byte0) as (-> & -> & ->).
    assert (P : (olet data := at_put (done ++ 0 :: 0 :: repeat 0 x) i a in
      olet data := (if 0 <? out - i then at_put data (i + 1) b else Ok data) in
      (if 1 <? out - i then at_put data (i + 2) 0 else Ok data)) = Ok (done ++ a :: b :: repeat 0 x)).
    { rewrite (proj2 (Z.ltb_lt 0 _)) by lia. destruct x as [|x].
      - rewrite (proj2 (Z.ltb_ge 1 _)) by lia. pose proof (put_two done 0 0 [] a b i I) as P. cbn [repeat].
        destruct (at_put (done ++ [0; 0]) i a) as [q1| | | |]; cbn [obind] in *; try discriminate. rewrite P. reflexivity.
      - rewrite (proj2 (Z.ltb_lt 1 _)) by lia. cbn [repeat]. exact (put_three done 0 0 0 (repeat 0 x) a b 0 i I). }
    destruct (at_put (done ++ 0 :: 0 :: repeat 0 x) i a) as [q1| | | |]; cbn [obind] in *; try discriminate.
    destruct (if 0 <? out - i then at_put q1 (i + 1) b else Ok q1) as [q2| | | |]; cbn [obind] in *; try discriminate. rewrite P. cbn [obind].
    apply (last_loop fuel _ e out _ _ _ (pre ++ [sixth (a * 65536 + b * 256) 3; sixth (a * 65536 + b * 256) 2; sixth (a * 65536 + b * 256) 1; 61]) (repeat 10 tr)).
    + rewrite <- app_assoc. reflexivity.
    + rewrite app_length. cbn [length]. lia.
    + rewrite app_length. cbn [length]. lia.
    + lia.
  - unfold group1 in *. cbv zeta in *. cbn [length app repeat Nat.add] in *.
    rewrite (group_step fuel pre _ _ _ _ _ e out index i _ _ _ _ _ (proj1 (sixth_ok _ 3)) (proj1 (sixth_ok _ 2)) (proj1 pad_char) (proj1 pad_char) Ix) by lia.
    assert (J : a * 65536 / 64 ^ 3 mod 64 * 2 ^ 18 + a * 65536 / 64 ^ 2 mod 64 * 2 ^ 12 + 0 * 2 ^ 6 + 0 = a * 65536 + 0 * 256 + 0).
    { pose proof (joint_ok (a * 65536 + 0 * 256 + 0) (triple_bound a 0 0 A byte0 byte0)) as J. unfold joint in J.
      replace (a * 65536 + 0 * 256 + 0) with (a * 65536) in * by lia.
      destruct (low_zero a 0 A byte0) as (Z1 & Z0 & _). rewrite Z1, Z0 in J. exact J. }
    rewrite J. destruct (digits_ok a 0 0 A byte0 byte0) as (-> & -> & ->).
    assert (P : (olet data := at_put (done ++ 0 :: repeat 0 x) i a in
      olet data := (if 0 <? out - i then at_put data (i + 1) 0 else Ok data) in
      (if 1 <? out - i then at_put data (i + 2) 0 else Ok data)) = Ok (done ++ a :: repeat 0 x)).
    { destruct x as [|[|x]].
      - rewrite (proj2 (Z.ltb_ge 0 _)) by lia. rewrite (proj2 (Z.ltb_ge 1 _)) by lia. cbn [repeat]. rewrite (put_mid done 0 [] a i I). reflexivity.
      - rewrite (proj2 (Z.ltb_lt 0 _)) by lia. rewrite (proj2 (Z.ltb_ge 1 _)) by lia. cbn [repeat].
        pose proof (put_two done 0 0 [] a 0 i I) as P.
        destruct (at_put (done ++ [0; 0]) i a) as [q1| | | |]; cbn [obind] in *; try discriminate. rewrite P. reflexivity.
      - rewrite (proj2 (Z.ltb_lt 0 _)) by lia. rewrite (proj2 (Z.ltb_lt 1 _)) by lia. cbn [repeat].
        exact (put_three done 0 0 0 (repeat 0 x) a 0 0 i I). }
    destruct (at_put (done ++ 0 :: repeat 0 x) i a) as [q1| | | |]; cbn [obind] in *; try discriminate.
    destruct (if 0 <? out - i then at_put q1 (i + 1) 0 else Ok q1) as [q2| | | |]; cbn [obind] in *; try discriminate. rewrite P. cbn [obind].
    apply (last_loop fuel _ e out _ _ _ (pre ++ [sixth (a * 65536) 3; sixth (a * 65536) 2; 61; 61]) (repeat 10 tr)).
    + rewrite <- app_assoc. reflexivity.
    + rewrite app_length. cbn [length]. lia.
    + rewrite app_length. cbn [length]. lia.
    + lia.
  - destruct (text_first t bs n T) as (y & w & Et & Y).
    rewrite !app_length, repeat_length in *. unfold group3 in *. cbv zeta in *. cbn [length app repeat Nat.add] in *.
    rewrite <- !app_assoc. cbn [app].
    rewrite (group_step fuel pre _ _ _ _ _ e out index i _ _ _ _ _ (proj1 (sixth_ok _ 3)) (proj1 (sixth_ok _ 2)) (proj1 (sixth_ok _ 1)) (proj1 (sixth_ok _ 0)) Ix) by lia.
    fold (joint (a * 65536 + b * 256 + c)). rewrite joint_ok by (apply triple_bound; assumption).
    destruct (digits_ok a b c A B C) as (-> & -> & ->).
    rewrite (proj2 (Z.ltb_lt 0 _)) by lia. rewrite (proj2 (Z.ltb_lt 1 _)) by lia.
    pose proof (put_three done 0 0 0 (repeat 0 (length bs + x)) a b c i I) as P.
    destruct (at_put (done ++ 0 :: 0 :: 0 :: repeat 0 (length bs + x)) i a) as [q1| | | |]; cbn [obind] in *; try discriminate.
    destruct (at_put q1 (i + 1) b) as [q2| | | |]; cbn [obind] in *; try discriminate. rewrite P. cbn [obind].
    set (g := [sixth (a * 65536 + b * 256 + c) 3; sixth (a * 65536 + b * 256 + c) 2; sixth (a * 65536 + b * 256 + c) 1; sixth (a * 65536 + b * 256 + c) 0]).
    set (s := pre ++ _). assert (S1 : s = (pre ++ g) ++ repeat 10 m ++ y :: w ++ repeat 10 tr).
    { unfold s, g. rewrite <- app_assoc. cbn [app]. rewrite Et. reflexivity. }
    assert (S2 : s = (pre ++ g ++ repeat 10 m) ++ t ++ repeat 10 tr).
    { unfold s, g. rewrite <- !app_assoc. cbn [app]. reflexivity. }
    assert (LG : length g = 4%nat) by reflexivity. assert (LT : (1 <= length t)%nat) by (rewrite Et; cbn [length]; lia).
    assert (K : skip_nl (S (length s)) s e (index + 4) = Ok (index + 4 + Z.of_nat m)).
    { rewrite S1 at 2. apply skip_ok; [rewrite app_length; lia| |exact Y|rewrite app_length; lia].
      rewrite S1, !app_length, repeat_length. lia. }
    rewrite K. cbn [obind]. rewrite S2.
    replace (done ++ a :: b :: c :: repeat 0 (length bs + x)) with ((done ++ [a; b; c]) ++ repeat 0 (length bs + x)) by (rewrite <- app_assoc; reflexivity).
    rewrite (IH (pre ++ g ++ repeat 10 m) tr (done ++ [a; b; c]) x); [rewrite <- app_assoc; reflexivity| | | | |lia].
    + rewrite !app_length, repeat_length. lia.
    + rewrite app_length. cbn [length]. lia.
    + rewrite !app_length, repeat_length. lia.
    + rewrite app_length. cbn [length]. lia.
Qed.

Lemma out_size k n d : (d <= 3 * k)%nat -> Z.of_nat (4 * k + n) * 3 / 4 - Z.of_nat d = Z.of_nat (3 * k - d + 3 * n / 4).
Proof.
  intros D. rewrite !Nat2Z.inj_add, Nat2Z.inj_div, Nat2Z.inj_sub by exact D. rewrite !Nat2Z.inj_mul.
  replace ((Z.of_nat 4 * Z.of_nat k + Z.of_nat n) * 3) with (Z.of_nat 3 * Z.of_nat n + (3 * Z.of_nat k) * 4) by lia.
  rewrite Z.div_add by lia. change (Z.of_nat 4) with 4. change (Z.of_nat 3) with 3. generalize (3 * Z.of_nat n / 4). lia.
Qed.

Lemma decode_ok t b n tr : text t b n -> decode (t ++ repeat 10 tr) = Ok (b ++ repeat 0 (3 * n / 4)%nat).
Proof.
  intros T. destruct (text_shape t b n T) as (p & c & d & E & C & EC & D & k & K1 & K2 & K3).
  destruct (last_end p c d EC) as (u & x & U & EX). rewrite <- E in U. unfold decode.
  assert (LU : length t = (length u + 1)%nat) by (rewrite U, app_length; reflexivity).
  assert (FE : find_end (S (length (t ++ repeat 10 tr))) (t ++ repeat 10 tr) (Z.of_nat (length (t ++ repeat 10 tr))) (Z.of_nat (length (t ++ repeat 10 tr))) = Ok (Z.of_nat (length t))).
  { rewrite U. replace (Z.of_nat (length ((u ++ [x]) ++ repeat 10 tr))) with (Z.of_nat (length u + 1 + tr)) at 2 by (rewrite !app_length, repeat_length; cbn [length]; lia).
    rewrite find_end_ok; [f_equal; rewrite app_length; cbn [length]; lia|exact EX|lia|rewrite !app_length, repeat_length; lia]. }
  rewrite FE. cbn [obind].
  assert (LP : length t = (length p + 1 + d)%nat) by (rewrite E, app_length; cbn [length]; rewrite repeat_length; lia).
  assert (FP : find_padding (S (length (t ++ repeat 10 tr))) (t ++ repeat 10 tr) (Z.of_nat (length t)) 0 = Ok (Z.of_nat d)).
  { rewrite LP. rewrite E at 2. rewrite <- app_assoc. cbn [app]. apply (find_padding_ok p c d (repeat 10 tr) 0); [exact C|lia|].
    rewrite app_length. lia. }
  rewrite FP. cbn [obind]. rewrite K1, out_size by lia. rewrite (proj2 (Z.ltb_ge _ 0)) by lia.
  rewrite Nat2Z.id. replace (3 * k - d)%nat with (length b) by lia.
  apply (main_ok t b n T [] tr [] (3 * n / 4)%nat); cbn [length]; try reflexivity; [f_equal; lia|]. rewrite app_length. lia.
Qed.

Lemma decode_plain t b n tr : text t b n -> (n <= 1)%nat -> decode (t ++ repeat 10 tr) = Ok b.
Proof. intros T N. rewrite (decode_ok t b n tr T). destruct n as [|[|n]]; [| |lia]; cbn; rewrite app_nil_r; reflexivity. Qed.

Lemma decode_lines : exists t b n, text t b n /\ decode t = Ok (b ++ [0]).
Proof.
  exists (group3 65 66 67 ++ repeat 10 1 ++ group3 68 69 70 ++ repeat 10 1 ++ group1 71), [65; 66; 67; 68; 69; 70; 71], 2%nat.
  split; [|vm_compute; reflexivity].
  change 2%nat with (1 + (1 + 0))%nat. apply More; [unfold byte; lia..|]. apply More; [unfold byte; lia..|]. apply T1. unfold byte; lia.
Qed.

Lemma decode_empty : decode [] = Err.
Proof. reflexivity. Qed.
