(** Proofs about the decoding of base 64. *)
From Verif Require Import Base Base64 Base64Spec.
Import ListNotations.
Local Open Scope Z_scope.

Definition sixes : list Z := map Z.of_nat (seq 0 64).

Lemma six_in v : 0 <= v < 64 -> In v sixes.
Proof. intros V. apply in_map_iff. exists (Z.to_nat v). split; [lia|]. apply in_seq. lia. Qed.

Lemma letters_ok : forallb (fun v => match decoder_at (letter v) with Ok w => w =? v | _ => false end &&
  end_char (letter v) && negb (letter v =? 61) && negb (letter v =? 10)) sixes = true.
Proof. vm_compute. reflexivity. Qed.

Lemma letter_ok v : 0 <= v < 64 -> decoder_at (letter v) = Ok v /\ end_char (letter v) = true /\ letter v <> 61 /\ letter v <> 10.
Proof.
  intros V. pose proof (proj1 (forallb_forall _ _) letters_ok v (six_in v V)) as H. cbv beta in H.
  rewrite !andb_true_iff, !negb_true_iff, !Z.eqb_neq in H. destruct H as (((A & B) & C) & D).
  split; [|auto]. destruct (decoder_at (letter v)); try discriminate. apply Z.eqb_eq in A. congruence.
Qed.

Lemma sixth_ok x k : decoder_at (sixth x k) = Ok (x / 64 ^ k mod 64) /\ end_char (sixth x k) = true /\ sixth x k <> 61 /\ sixth x k <> 10.
Proof. apply letter_ok. apply Z.mod_pos_bound. lia. Qed.

Lemma pad_char : decoder_at 61 = Ok 0 /\ end_char 61 = true /\ end_char 10 = false.
Proof. vm_compute. auto. Qed.

(** Reading and writing. *)
Lemma at_mid u x v i : i = Z.of_nat (length u) + 1 -> at_ (u ++ x :: v) i = Ok x.
Proof.
  intros ->. unfold at_. rewrite app_length. cbn [length].
  rewrite (proj2 (Z.leb_le 1 _)) by lia. rewrite (proj2 (Z.leb_le _ (Z.of_nat _))) by lia. cbn [andb].
  replace (Z.to_nat (Z.of_nat (length u) + 1 - 1)) with (length u) by lia. rewrite app_nth2, Nat.sub_diag by lia. reflexivity.
Qed.

Lemma put_mid u x v y i : i = Z.of_nat (length u) + 1 -> at_put (u ++ x :: v) i y = Ok (u ++ y :: v).
Proof.
  intros ->. unfold at_put. rewrite app_length. cbn [length].
  rewrite (proj2 (Z.leb_le 1 _)) by lia. rewrite (proj2 (Z.leb_le _ (Z.of_nat _))) by lia. cbn [andb].
  replace (Z.to_nat (Z.of_nat (length u) + 1 - 1)) with (length u) by lia.
  replace (Z.to_nat (Z.of_nat (length u) + 1)) with (S (length u)) by lia.
  rewrite firstn_app, Nat.sub_diag, firstn_all, firstn_O, app_nil_r. f_equal. f_equal. f_equal.
  rewrite skipn_app. rewrite skipn_all2 by lia. replace (S (length u) - length u)%nat with 1%nat by lia. reflexivity.
Qed.

(** Sizes. *)
Lemma text_shape t b n : text t b n -> exists p c d, t = p ++ c :: repeat 61 d /\ c <> 61 /\ end_char c = true /\ (d <= 2)%nat /\
  exists k, length t = (4 * k + n)%nat /\ (length b + d = 3 * k)%nat /\ (1 <= k)%nat.
Proof.
  induction 1 as [a b c A B C|a b A B|a A|a b c m t bs n A B C T (p & x & d & -> & X & E & D & k & K1 & K2 & K3)].
  - eexists [_; _; _], _, 0%nat. split; [reflexivity|]. split; [apply sixth_ok|]. split; [apply sixth_ok|]. split; [lia|].
    exists 1%nat. cbn [length group3]. lia.
  - eexists [_; _], _, 1%nat. split; [reflexivity|]. split; [apply sixth_ok|]. split; [apply sixth_ok|]. split; [lia|].
    exists 1%nat. cbn [length group2]. lia.
  - eexists [_], _, 2%nat. split; [reflexivity|]. split; [apply sixth_ok|]. split; [apply sixth_ok|]. split; [lia|].
    exists 1%nat. cbn [length group1]. lia.
  - exists (group3 a b c ++ repeat 10 m ++ p), x, d. split; [rewrite <- !app_assoc; reflexivity|].
    split; [exact X|]. split; [exact E|]. split; [exact D|]. exists (S k). rewrite 2!app_length, repeat_length, K1. cbn [length group3]. lia.
Qed.

Lemma repeat_snoc {A} (x : A) n : repeat x (S n) = repeat x n ++ [x].
Proof. induction n as [|n IH]; [reflexivity|]. cbn [repeat app]. rewrite <- IH. reflexivity. Qed.

(** The end. *)
Lemma last_end p c d : end_char c = true -> exists u x, p ++ c :: repeat 61 d = u ++ [x] /\ end_char x = true.
Proof.
  intros E. destruct d as [|d].
  - exists p, c. split; [reflexivity|exact E].
  - rewrite repeat_snoc. exists (p ++ c :: repeat 61 d), 61. split; [rewrite <- app_assoc; reflexivity|apply pad_char].
Qed.

Lemma find_end_ok u x r j : forall fuel, end_char x = true -> (j <= r)%nat -> (j < fuel)%nat ->
  let s := (u ++ [x]) ++ repeat 10 r in
  find_end fuel s (Z.of_nat (length s)) (Z.of_nat (length u + 1 + j)) = Ok (Z.of_nat (length u + 1)).
Proof.
  induction j as [|j IH]; intros fuel E J F s; (destruct fuel as [|fuel]; [lia|]); cbn [find_end].
  - unfold s at 1. rewrite <- app_assoc. cbn [app]. rewrite at_mid by lia. cbn [obind]. rewrite E.
    destruct r as [|r].
    + replace (Z.of_nat (length u + 1 + 0) =? Z.of_nat (length s)) with true; [cbn [obind]; f_equal; lia|].
      symmetry. apply Z.eqb_eq. unfold s. rewrite !app_length. cbn [length repeat]. lia.
    + rewrite (proj2 (Z.eqb_neq _ _)) by (unfold s; rewrite !app_length, repeat_length; cbn [length]; lia).
      unfold s. cbn [repeat]. rewrite at_mid by (rewrite app_length; cbn [length]; lia). cbn [obind]. rewrite Z.eqb_refl. f_equal. lia.
  - assert (Sp : s = ((u ++ [x]) ++ repeat 10 j) ++ 10 :: repeat 10 (r - S j)).
    { unfold s. rewrite <- (app_assoc (u ++ [x])). f_equal. change (10 :: repeat 10 (r - S j)) with (repeat 10 (S (r - S j))).
      rewrite <- repeat_app. f_equal. lia. }
    rewrite Sp at 1. rewrite at_mid by (rewrite !app_length, repeat_length; cbn [length]; lia). cbn [obind].
    rewrite (proj2 (proj2 pad_char)). cbn [obind].
    replace (Z.of_nat (length u + 1 + S j) - 1) with (Z.of_nat (length u + 1 + j)) by lia. apply IH; [exact E|lia|lia].
Qed.

(** The padding. *)
Lemma find_padding_ok p c d v k : forall fuel, c <> 61 -> (k <= d)%nat -> (d - k < fuel)%nat ->
  find_padding fuel (p ++ c :: repeat 61 d ++ v) (Z.of_nat (length p + 1 + d)) (Z.of_nat k) = Ok (Z.of_nat d).
Proof.
  intros fuel C. revert k. induction fuel as [|fuel IH]; intros k K F; [lia|]. cbn [find_padding].
  destruct (Nat.eq_dec k d) as [->|D].
  - rewrite at_mid by lia. cbn [obind]. rewrite (proj2 (Z.eqb_neq c 61) C). reflexivity.
  - assert (Sp : p ++ c :: repeat 61 d ++ v = (p ++ c :: repeat 61 (d - k - 1)) ++ 61 :: repeat 61 k ++ v).
    { rewrite <- app_assoc. f_equal. cbn [app]. f_equal. change (61 :: repeat 61 k ++ v) with (repeat 61 (S k) ++ v).
      rewrite app_assoc. f_equal. rewrite <- repeat_app. f_equal. lia. }
    rewrite Sp at 1. rewrite at_mid by (rewrite app_length; cbn [length]; rewrite repeat_length; lia). cbn [obind].
    rewrite Z.eqb_refl. replace (Z.of_nat k + 1) with (Z.of_nat (S k)) by lia. apply IH; lia.
Qed.

(** Newlines. *)
Lemma skip_stop u v e fuel index : index = Z.of_nat (length u) + 1 -> (0 < fuel)%nat ->
  (e < index \/ exists x w, v = x :: w /\ x <> 10) -> skip_nl fuel (u ++ v) e index = Ok index.
Proof.
  intros -> F H. destruct fuel as [|fuel]; [lia|]. cbn [skip_nl]. destruct H as [H|(x & w & -> & X)].
  - rewrite (proj2 (Z.leb_gt _ e)) by lia. destruct v as [|x w].
    + rewrite app_nil_r. rewrite (proj2 (Z.ltb_lt _ _)) by lia. reflexivity.
    + rewrite (proj2 (Z.ltb_ge _ _)) by (rewrite app_length; cbn [length]; lia). rewrite at_mid by lia. cbn [obind].
      rewrite andb_false_r. reflexivity.
  - rewrite (proj2 (Z.ltb_ge _ _)) by (rewrite app_length; cbn [length]; lia). rewrite at_mid by lia. cbn [obind].
    rewrite (proj2 (Z.eqb_neq x 10) X). reflexivity.
Qed.

Lemma skip_ok m : forall u x w e fuel index, index = Z.of_nat (length u) + 1 -> (m < fuel)%nat ->
  x <> 10 -> Z.of_nat (length u + m) < e ->
  skip_nl fuel (u ++ repeat 10 m ++ x :: w) e index = Ok (index + Z.of_nat m).
Proof.
  induction m as [|m IH]; intros u x w e fuel index I F X E.
  - cbn [repeat app]. rewrite skip_stop; [f_equal; lia|exact I|lia|]. right. eauto.
  - destruct fuel as [|fuel]; [lia|]. cbn [skip_nl repeat app].
    rewrite (proj2 (Z.ltb_ge _ _)) by (rewrite app_length; cbn [length]; lia).
    rewrite at_mid by exact I. cbn [obind]. rewrite Z.eqb_refl, (proj2 (Z.leb_le index e)) by lia. cbn [andb].
    replace (u ++ 10 :: repeat 10 m ++ x :: w) with ((u ++ [10]) ++ repeat 10 m ++ x :: w) by (rewrite <- app_assoc; reflexivity).
    rewrite IH; [f_equal; lia| |lia|exact X|]; rewrite app_length; cbn [length]; lia.
Qed.

(** Groups. *)
Lemma at_off pre l k x i : nth_error l k = Some x -> i = Z.of_nat (length pre) + 1 + Z.of_nat k -> at_ (pre ++ l) i = Ok x.
Proof.
  intros H ->. destruct (nth_error_split l k H) as (u & v & -> & U). rewrite app_assoc. apply at_mid. rewrite app_length. lia.
Qed.

Lemma group_step fuel pre c1 c2 c3 c4 rest e out index i data d1 d2 d3 d4 :
  decoder_at c1 = Ok d1 -> decoder_at c2 = Ok d2 -> decoder_at c3 = Ok d3 -> decoder_at c4 = Ok d4 ->
  index = Z.of_nat (length pre) + 1 -> index <= e ->
  let s := pre ++ c1 :: c2 :: c3 :: c4 :: rest in
  let triple := d1 * 2 ^ 18 + d2 * 2 ^ 12 + d3 * 2 ^ 6 + d4 in
  main_loop (S fuel) s e out index i data =
    olet data := at_put data i (digit_at triple 3) in
    olet data := (if 0 <? out - i then at_put data (i + 1) (digit_at triple 2) else Ok data) in
    olet data := (if 1 <? out - i then at_put data (i + 2) (digit_at triple 1) else Ok data) in
    olet index := skip_nl (S (length s)) s e (index + 4) in
    main_loop fuel s e out index (i + 3) data.
Proof.
  intros D1 D2 D3 D4 I L s triple. cbn [main_loop]. rewrite (proj2 (Z.leb_le index e) L).
  unfold s at 1 2 3 4. rewrite (at_off pre _ 0 c1) by (reflexivity || lia). cbn [obind]. rewrite D1. cbn [obind].
  rewrite (at_off pre _ 1 c2) by (reflexivity || lia). cbn [obind]. rewrite D2. cbn [obind].
  rewrite (at_off pre _ 2 c3) by (reflexivity || lia). cbn [obind]. rewrite D3. cbn [obind].
  rewrite (at_off pre _ 3 c4) by (reflexivity || lia). cbn [obind]. rewrite D4. cbn [obind]. reflexivity.
Qed.

Lemma put_three done x y z r a b c i : i = Z.of_nat (length done) + 1 ->
  (olet d := at_put (done ++ x :: y :: z :: r) i a in olet d := at_put d (i + 1) b in at_put d (i + 2) c) = Ok (done ++ a :: b :: c :: r).
Proof.
  intros ->. rewrite put_mid by reflexivity. cbn [obind].
  replace (done ++ a :: y :: z :: r) with ((done ++ [a]) ++ y :: z :: r) by (rewrite <- app_assoc; reflexivity).
  rewrite put_mid by (rewrite app_length; cbn [length]; lia). cbn [obind].
  replace ((done ++ [a]) ++ b :: z :: r) with ((done ++ [a; b]) ++ z :: r) by (rewrite <- !app_assoc; reflexivity).
  rewrite put_mid by (rewrite app_length; cbn [length]; lia). rewrite <- app_assoc. reflexivity.
Qed.

Lemma put_two done x y r a b i : i = Z.of_nat (length done) + 1 ->
  (olet d := at_put (done ++ x :: y :: r) i a in at_put d (i + 1) b) = Ok (done ++ a :: b :: r).
Proof.
  intros ->. rewrite put_mid by reflexivity. cbn [obind].
  replace (done ++ a :: y :: r) with ((done ++ [a]) ++ y :: r) by (rewrite <- app_assoc; reflexivity).
  rewrite put_mid by (rewrite app_length; cbn [length]; lia). rewrite <- app_assoc. reflexivity.
Qed.

(** The digits. *)
Definition joint (x : Z) : Z := (x / 64 ^ 3 mod 64) * 2 ^ 18 + (x / 64 ^ 2 mod 64) * 2 ^ 12 + (x / 64 ^ 1 mod 64) * 2 ^ 6 + x / 64 ^ 0 mod 64.

Lemma joint_ok x : 0 <= x < 2 ^ 24 -> joint x = x.
Proof.
  intros X. unfold joint. change (64 ^ 3) with 262144. change (64 ^ 2) with 4096. change (64 ^ 1) with 64. change (64 ^ 0) with 1.
  change (2 ^ 18) with 262144. change (2 ^ 12) with 4096. change (2 ^ 6) with 64. change (2 ^ 24) with 16777216 in X. lia.
Qed.

Lemma digits_ok a b c : byte a -> byte b -> byte c ->
  digit_at (a * 65536 + b * 256 + c) 3 = a /\ digit_at (a * 65536 + b * 256 + c) 2 = b /\ digit_at (a * 65536 + b * 256 + c) 1 = c.
Proof.
  unfold byte, digit_at. intros A B C. change (256 ^ (3 - 1)) with 65536. change (256 ^ (2 - 1)) with 256. change (256 ^ (1 - 1)) with 1. lia.
Qed.

Lemma low_zero a b : byte a -> byte b -> a * 65536 / 64 ^ 1 mod 64 = 0 /\ a * 65536 / 64 ^ 0 mod 64 = 0 /\ (a * 65536 + b * 256) / 64 ^ 0 mod 64 = 0.
Proof. unfold byte. intros A B. change (64 ^ 1) with 64. change (64 ^ 0) with 1. lia. Qed.

Lemma text_first t b n : text t b n -> exists x w, t = x :: w /\ x <> 10.
Proof.
  intros T. destruct T; unfold group3, group2, group1; cbn [app]; eexists _, _; (split; [reflexivity|apply sixth_ok]).
Qed.

Lemma last_loop fuel s e out index i data u v : s = u ++ v -> index = Z.of_nat (length u) + 1 -> e = Z.of_nat (length u) ->
  (0 < fuel)%nat ->
  (olet index := skip_nl (S (length s)) s e index in main_loop fuel s e out index i data) = Ok data.
Proof.
  intros -> I E F. rewrite skip_stop; [|exact I|lia|left; lia]. cbn [obind]. destruct fuel as [|fuel]; [lia|]. cbn [main_loop].
  rewrite (proj2 (Z.leb_gt index e)) by lia. reflexivity.
Qed.
