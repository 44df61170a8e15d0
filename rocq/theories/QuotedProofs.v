(** Proofs about quoted-printable. *)
From Verif Require Import Base Quoted QuotedSpec.
Import ListNotations.
Local Open Scope Z_scope.

Lemma hexes_ok : forallb (fun v => hex_digit (hex v) && match digit_value (hex v) with Ok w => w =? v | _ => false end)
  (map Z.of_nat (seq 0 16)) = true.
Proof. vm_compute. reflexivity. Qed.

Lemma hex_ok v : 0 <= v < 16 -> hex_digit (hex v) = true /\ digit_value (hex v) = Ok v.
Proof.
  intros V. assert (I : In v (map Z.of_nat (seq 0 16))).
  { apply in_map_iff. exists (Z.to_nat v). split; [lia|]. apply in_seq. lia. }
  pose proof (proj1 (forallb_forall _ _) hexes_ok v I) as H. cbv beta in H. apply andb_true_iff in H. destruct H as [A B].
  split; [exact A|]. destruct (digit_value (hex v)); try discriminate. apply Z.eqb_eq in B. congruence.
Qed.

Lemma escape_loop v t : 0 <= v < 256 -> loop (61 :: hex (v / 16) :: hex (v mod 16) :: t) =
  (if v <? 128 then olet b := loop t in Ok (v :: b) else Err).
Proof.
  intros V. destruct (hex_ok (v / 16) ltac:(lia)) as [A1 A2]. destruct (hex_ok (v mod 16) ltac:(lia)) as [_ B2].
  cbn [loop]. change (61 =? 61) with true. cbv iota. rewrite A1, A2, B2. cbn [obind].
  replace (v / 16 * 16 + v mod 16) with v by lia. unfold as_character. destruct (v <? 128); reflexivity.
Qed.

Lemma escape_ok v t b : 0 <= v < 128 -> loop t = Ok b -> loop (61 :: hex (v / 16) :: hex (v mod 16) :: t) = Ok (v :: b).
Proof. intros V D. rewrite escape_loop by lia. rewrite (proj2 (Z.ltb_lt v 128)) by lia. rewrite D. reflexivity. Qed.

Lemma literal_loop c t : c <> 61 -> loop (c :: t) = olet b := loop t in Ok (c :: b).
Proof. intros C. cbn [loop]. rewrite (proj2 (Z.eqb_neq c 61) C). reflexivity. Qed.

Lemma literal_ok c t b : c <> 61 -> loop t = Ok b -> loop (c :: t) = Ok (c :: b).
Proof. intros C D. rewrite literal_loop by exact C. rewrite D. reflexivity. Qed.

Lemma decode_loop t : t <> [] -> decode t = loop t.
Proof. intros N. destruct t as [|c t]; [contradiction|]. unfold decode. cbn [length]. rewrite (proj2 (Z.ltb_ge _ 0)) by lia. reflexivity. Qed.

Lemma quoted_loop t b : quoted [10] 128 t b -> loop t = Ok b.
Proof.
  induction 1 as [|c t b B C Q IH|v t b V Q IH|t b Q IH].
  - reflexivity.
  - apply literal_ok; assumption.
  - apply escape_ok; assumption.
  - cbn [app]. exact IH.
Qed.

Lemma quoted_ok t b : quoted [10] 128 t b -> t <> [] -> decode t = Ok b.
Proof. intros Q N. rewrite decode_loop by exact N. apply quoted_loop. exact Q. Qed.

(** No text is decoded wrong. *)
Lemma quoted_never t b : quoted [10] 256 t b -> decode t = Ok b \/ decode t = Err.
Proof.
  intros Q. destruct t as [|c0 t0]; [right; reflexivity|]. rewrite decode_loop by discriminate. revert Q. generalize (c0 :: t0). clear.
  intros t. induction 1 as [|c t b B C Q IH|v t b V Q IH|t b Q IH].
  - left. reflexivity.
  - rewrite literal_loop by exact C. destruct IH as [-> | ->]; [left|right]; reflexivity.
  - rewrite escape_loop by exact V. destruct (v <? 128); [|right; reflexivity]. destruct IH as [-> | ->]; [left|right]; reflexivity.
  - cbn [app]. exact IH.
Qed.

Lemma high_loop t1 b1 v t2 : quoted [10] 256 t1 b1 -> 128 <= v < 256 -> loop (t1 ++ escape v ++ t2) = Err.
Proof.
  intros Q V. induction Q as [|c t b B C Q IH|w t b W Q IH|t b Q IH].
  - cbn [app escape]. rewrite escape_loop by lia. rewrite (proj2 (Z.ltb_ge v 128)) by lia. reflexivity.
  - cbn [app]. rewrite literal_loop by exact C. cbn [app] in IH. rewrite IH. reflexivity.
  - cbn [app]. rewrite escape_loop by exact W. cbn [app] in IH. rewrite IH. destruct (w <? 128); reflexivity.
  - cbn [app]. exact IH.
Qed.

Lemma high_err t1 b1 v t2 : quoted [10] 256 t1 b1 -> 128 <= v < 256 -> decode (t1 ++ escape v ++ t2) = Err.
Proof.
  intros Q V. rewrite decode_loop; [apply (high_loop t1 b1); assumption|]. destruct t1; discriminate.
Qed.

Lemma high_bad : exists t b, quoted [10] 256 t b /\ decode t = Err.
Proof.
  exists [67; 97; 102; 61; 69; 57], [67; 97; 102; 233]. split; [|reflexivity].
  do 3 (apply Q_literal; [lia|lia|]). apply (Q_escape [10] 256 233 [] []); [lia|]. apply Q_end.
Qed.

(** With the two characters that the standard has at the end of lines, the second one stays. *)
Lemma crlf_ok t b : quoted [13; 10] 128 t b -> t <> [] ->
  exists b', decode t = Ok b' /\ filter (fun c => negb (c =? 10)) b' = filter (fun c => negb (c =? 10)) b.
Proof.
  intros Q N. rewrite decode_loop by exact N. clear N.
  induction Q as [|c t b B C Q (b' & D & IH)|v t b V Q (b' & D & IH)|t b Q (b' & D & IH)].
  - exists []. split; reflexivity.
  - exists (c :: b'). split; [apply literal_ok; assumption|]. cbn [filter]. rewrite IH. reflexivity.
  - exists (v :: b'). split; [apply escape_ok; assumption|]. cbn [filter]. rewrite IH. reflexivity.
  - exists (10 :: b'). split; [|exact IH]. cbn [app]. change (loop (61 :: 13 :: 10 :: t)) with (loop (10 :: t)).
    apply literal_ok; [lia|exact D].
Qed.

Lemma crlf_bad : exists t b b', quoted [13; 10] 128 t b /\ decode t = Ok b' /\ b' <> b.
Proof.
  exists [65; 61; 13; 10; 66], [65; 66], [65; 10; 66]. split; [|split; [reflexivity|discriminate]].
  apply Q_literal; [lia|lia|]. apply (Q_soft [13; 10] 128 [66] [66]). apply Q_literal; [lia|lia|]. apply Q_end.
Qed.

Lemma header_ok t b : header_quoted 128 t b -> ~ In 95 t -> t <> [] -> decode t = Ok b.
Proof.
  intros Q N T. rewrite decode_loop by exact T. clear T. revert N.
  induction Q as [|c t b B C C2 C3 Q IH|t b Q IH|v t b V Q IH]; intros N.
  - reflexivity.
  - apply literal_ok; [exact C|]. apply IH. intros I. apply N. right. exact I.
  - destruct N. left. reflexivity.
  - apply escape_ok; [exact V|]. apply IH. intros I. apply N. right. right. right. exact I.
Qed.

Lemma header_bad : exists t b b', header_quoted 128 t b /\ decode t = Ok b' /\ b' <> b.
Proof.
  exists [65; 95; 66], [65; 32; 66], [65; 95; 66]. split; [|split; [reflexivity|discriminate]].
  apply H_literal; [lia..|]. apply H_space. apply H_literal; [lia..|]. apply H_end.
Qed.

(** Texts that stand for nothing are taken all the same: small letters, and letters after F, for digits. *)
Lemma malformed_taken : exists t1 t2 b1 b2, decode t1 = Ok b1 /\ (forall b, ~ quoted [10] 256 t1 b) /\
  decode t2 = Ok b2 /\ (forall b, ~ quoted [10] 256 t2 b).
Proof.
  assert (X : forall v, 0 <= v < 256 -> hex (v / 16) <> 99 /\ hex (v mod 16) <> 90).
  { intros v V. pose proof (proj1 (hex_ok (v / 16) ltac:(lia))) as A. pose proof (proj1 (hex_ok (v mod 16) ltac:(lia))) as B.
    split; intros K; [rewrite K in A|rewrite K in B]; discriminate. }
  exists [61; 99; 51], [61; 51; 90], [51], [83].
  split; [reflexivity|]. split; [|split; [reflexivity|]]; intros b Q; inversion Q; subst.
  - lia.
  - exact (proj1 (X v ltac:(assumption)) ltac:(congruence)).
  - lia.
  - exact (proj2 (X v ltac:(assumption)) ltac:(congruence)).
Qed.

(** After a digit there has to be a digit, or at least a capital letter. *)
Lemma second_err t1 b1 v n2 t2 : quoted [10] 256 t1 b1 -> 0 <= v < 16 -> ~ (48 <= n2 <= 57 \/ 65 <= n2 <= 90) ->
  decode (t1 ++ [61; hex v]) = Err /\ decode (t1 ++ 61 :: hex v :: n2 :: t2) = Err.
Proof.
  intros Q V N. rewrite !decode_loop by (destruct t1; discriminate). destruct (hex_ok v V) as [A1 A2].
  assert (D : digit_value n2 = Err).
  { unfold digit_value. destruct ((48 <=? n2) && (n2 <=? 57)) eqn:X; [lia|]. destruct ((65 <=? n2) && (n2 <=? 90)) eqn:Y; [lia|]. reflexivity. }
  induction Q as [|c t b B C Q [IH1 IH2]|w t b W Q [IH1 IH2]|t b Q IH].
  - cbn [app loop]. change (61 =? 61) with true. cbv iota. rewrite A1, A2, D. split; reflexivity.
  - cbn [app]. rewrite !literal_loop by exact C. rewrite IH1, IH2. split; reflexivity.
  - cbn [app]. rewrite !escape_loop by exact W. rewrite IH1, IH2. destruct (w <? 128); split; reflexivity.
  - cbn [app]. exact IH.
Qed.
