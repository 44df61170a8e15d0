(** Proofs about the printing and reading of DateTimes, Dates, Times and Durations. *)
From Coq Require Import Ascii String.
From Verif Require Import Base Dates DatesSpec DatesProofs Moment MomentSpec MomentProofs MomentText MomentTextSpec.
Local Open Scope Z_scope.

(** Runs of digits. *)
Definition num (t : text) (n : Z) : Prop := Forall (fun c => is_digit c = true) t /\ t <> [] /\ value t = n.
Definition nd (r : text) : Prop := match r with [] => True | c :: _ => is_digit c = false end.
Definition from (a : Z) (t : text) : Z := fold_left (fun a c => 10 * a + dval c) t a.

Lemma digit_facts d : 0 <= d < 10 -> is_digit (digit d) = true /\ dval (digit d) = d.
Proof.
  intros H. assert (d = 0 \/ d = 1 \/ d = 2 \/ d = 3 \/ d = 4 \/ d = 5 \/ d = 6 \/ d = 7 \/ d = 8 \/ d = 9) as C by lia.
  repeat destruct C as [->|C]; try (split; reflexivity). subst. split; reflexivity.
Qed.

Lemma dec_fuel_ok k : forall n acc, 0 <= n < 2 ^ Z.of_nat k -> (0 < k)%nat ->
  Forall (fun c => is_digit c = true) acc ->
  let t := dec_fuel k n acc in Forall (fun c => is_digit c = true) t /\ t <> [] /\ from 0 t = from n acc.
Proof.
  induction k as [|k IH]; intros n acc B P A; [lia|]. cbn [dec_fuel].
  destruct (Z.ltb_spec n 10) as [L|L].
  - destruct (digit_facts n) as (D & E); [lia|]. split; [constructor; auto|]. split; [discriminate|].
    unfold from. cbn [fold_left]. rewrite E. f_equal.
  - destruct (digit_facts (n mod 10)) as (D & E); [lia|].
    assert (K : (0 < k)%nat) by (destruct k; [cbn in B; lia|lia]).
    assert (B' : 0 <= n / 10 < 2 ^ Z.of_nat k).
    { rewrite Nat2Z.inj_succ, Z.pow_succ_r in B by lia. generalize dependent (2 ^ Z.of_nat k). intros. lia. }
    destruct (IH (n / 10) (digit (n mod 10) :: acc) B' K) as (X & Y & Z0); [constructor; auto|].
    split; [exact X|]. split; [exact Y|]. rewrite Z0. unfold from. cbn [fold_left]. rewrite E. f_equal. lia.
Qed.

Lemma dec_num n : 0 <= n -> num (dec n) n.
Proof.
  intros H. unfold dec. destruct (dec_fuel_ok (S (Z.to_nat (Z.log2 n))) n []) as (A & B & C); [|lia|constructor|].
  - rewrite Nat2Z.inj_succ, Z2Nat.id by apply Z.log2_nonneg. split; [lia|].
    destruct (Z.eq_dec n 0) as [->|N]; [reflexivity|]. pose proof (Z.log2_spec n). lia.
  - split; [exact A|]. split; [exact B|]. exact C.
Qed.

Lemma print_int_num n : 0 <= n -> num (print_int n) n.
Proof. intros H. unfold print_int. destruct (Z.ltb_spec n 0); [lia|]. apply dec_num. exact H. Qed.

Lemma num_zero t n : num t n -> num ("0"%char :: t) n.
Proof.
  intros (A & B & C). split; [constructor; auto|]. split; [discriminate|]. rewrite <- C. reflexivity.
Qed.

Lemma num_zeros k t n : num t n -> num (repeat "0"%char k ++ t) n.
Proof. intros H. induction k; cbn [repeat app]; [exact H|apply num_zero; exact IHk]. Qed.

Lemma pad2_num n : 0 <= n -> num (pad2 n) n.
Proof.
  intros H. unfold pad2. destruct (_ <? _); cbn [app]; [apply num_zero|]; apply print_int_num; exact H.
Qed.

Lemma digit_not_minus c : is_digit c = true -> Ascii.eqb c "-" = false.
Proof. intros H. destruct (Ascii.eqb_spec c "-") as [->|]; [discriminate|reflexivity]. Qed.

Lemma num_head t n : num t n -> exists c t', t = c :: t' /\ is_digit c = true /\ Forall (fun c => is_digit c = true) t'.
Proof. intros (A & B & _). destruct A as [|c t' D A]; [contradiction|]. exists c, t'. auto. Qed.

Lemma num_number t n : num t n -> as_number t = n.
Proof.
  intros H. destruct (num_head t n H) as (c & t' & -> & D & _). unfold as_number. rewrite (digit_not_minus c D).
  apply H.
Qed.

Lemma minus_number t n : num t n -> as_number ("-"%char :: t) = - n.
Proof. intros (_ & _ & <-). reflexivity. Qed.

Lemma run_ok (p : ascii -> bool) t c r : Forall (fun c => p c = true) t -> p c = false -> run p (t ++ c :: r) = (t, r).
Proof. intros F N. induction F as [|d t D F IH]; cbn [run app]; [rewrite N; reflexivity|]. rewrite D, IH. reflexivity. Qed.

Lemma run_end (p : ascii -> bool) t r : Forall (fun c => p c = true) t -> match r with [] => True | c :: _ => p c = false end ->
  run p (t ++ r) = (t, tl r).
Proof.
  intros F N. destruct r as [|c r]; [|apply run_ok; auto]. rewrite app_nil_r. cbn [tl].
  induction F as [|d t D F IH]; cbn [run]; [reflexivity|]. rewrite D, IH. reflexivity.
Qed.

Lemma digits_of_ok t r : Forall (fun c => is_digit c = true) t -> nd r -> digits_of (t ++ r) = (t, r).
Proof.
  intros F N. induction F as [|d t D F IH]; cbn [app digits_of].
  - destruct r as [|c r]; cbn [digits_of]; [reflexivity|]. cbn in N. rewrite N. reflexivity.
  - rewrite D, IH. reflexivity.
Qed.

(** Durations. *)
Definition put (i : Z) (h : Z * Z * Z) (v : Z) : Z * Z * Z :=
  let '(x, y, z) := h in
  if i =? 4 then (x * 24 + y, z, v) else if i =? 1 then (v, y, z) else if i =? 2 then (x, v, z) else (x, y, v).
Definition seen (t r : text) : ascii := match r with [] => hd ":"%char t | e :: _ => e end.

Lemma field_ok k i c h t v r : i <= 4 -> stops c = false -> num t v -> nd r ->
  read_hms (S k) i c h ((if 1 <? i then [":"%char] else []) ++ t ++ r) = read_hms k (i + 1) (seen t r) (put i h v) r.
Proof.
  intros I C N R. destruct (num_head t v N) as (d & t' & E & D & _).
  assert (X : forall s0 s1, match s0 with [] => Ok (h, []) | c0 :: r0 =>
      if stops c then Ok (h, s0) else
      let s := if 1 <? i then r0 else s0 in
      if 4 <? i then Ok (h, s) else
      match s with [] => Err | d0 :: _ => if is_digit d0 then let (ds, s1) := digits_of s in
         let c1 := match s1 with [] => d0 | e :: _ => e end in let '(x, y, z) := h in let v0 := as_number ds in
         let h0 := if i =? 4 then (x * 24 + y, z, v0) else if i =? 1 then (v0, y, z) else if i =? 2 then (x, v0, z) else (x, y, v0) in
         read_hms k (i + 1) c1 h0 s1 else Ok (h, s) end end = s1 -> read_hms (S k) i c h s0 = s1) by (intros s0 s1 <-; reflexivity).
  apply X. clear X.
  assert (Y : match t ++ r with [] => Err | d0 :: _ => if is_digit d0 then let (ds, s1) := digits_of (t ++ r) in
         let c1 := match s1 with [] => d0 | e :: _ => e end in let '(x, y, z) := h in let v0 := as_number ds in
         let h0 := if i =? 4 then (x * 24 + y, z, v0) else if i =? 1 then (v0, y, z) else if i =? 2 then (x, v0, z) else (x, y, v0) in
         read_hms k (i + 1) c1 h0 s1 else Ok (h, t ++ r) end = read_hms k (i + 1) (seen t r) (put i h v) r).
  { rewrite (digits_of_ok t r (proj1 N) R). rewrite (num_number t v N). rewrite E. cbn [app]. rewrite D.
    destruct h as [[x y] z]. unfold put, seen. destruct r; reflexivity. }
  assert (I4 : (4 <? i) = false) by lia.
  destruct (1 <? i) eqn:I1; cbn [app].
  - rewrite C, I4. exact Y.
  - destruct (t ++ r) as [|c0 r0] eqn:F; [exfalso; rewrite E in F; discriminate|]. rewrite C, I4. exact Y.
Qed.

Definition ended (r : text) : Prop := match r with [] => True | c :: _ => stops c = true /\ is_digit c = false end.
Lemma ended_nd r : ended r -> nd r.
Proof. destruct r as [|c r]; [auto|]. intros (_ & A). exact A. Qed.

Lemma done_ok k i t h r : ended r -> read_hms (S k) i (seen t r) h r = Ok (h, r).
Proof. intros E. destruct r as [|c r]; [reflexivity|]. cbn [seen read_hms]. rewrite (proj1 E). reflexivity. Qed.

Lemma colon_seen t r : seen t (":"%char :: r) = ":"%char. Proof. reflexivity. Qed.
Lemma colon_nd r : nd (":"%char :: r). Proof. reflexivity. Qed.

Lemma first_ok k c h t v r : stops c = false -> num t v -> nd r ->
  read_hms (S k) 1 c h (t ++ r) = read_hms k 2 (seen t r) (put 1 h v) r.
Proof. intros C N R. exact (field_ok k 1 c h t v r ltac:(lia) C N R). Qed.
Lemma later_ok k i c h t v r : 1 < i <= 4 -> stops c = false -> num t v -> nd r ->
  read_hms (S k) i c h (":"%char :: t ++ r) = read_hms k (i + 1) (seen t r) (put i h v) r.
Proof.
  intros I C N R. pose proof (field_ok k i c h t v r ltac:(lia) C N R) as H.
  replace (1 <? i) with true in H by lia. exact H.
Qed.

(** Two, three and four fields. *)
Lemma two_ok a b va vb r : num a va -> num b vb -> ended r ->
  read_hms 6 1 ":"%char (0, 0, 0) (a ++ ":"%char :: b ++ r) = Ok (va, vb, 0, r).
Proof.
  intros A B E.
  rewrite (first_ok 5 ":"%char (0, 0, 0) a va (":"%char :: b ++ r)) by (auto; lia || reflexivity).
  rewrite colon_seen. rewrite (later_ok 4 2 ":"%char _ b vb r) by (auto using ended_nd; lia || reflexivity).
  rewrite done_ok by exact E. reflexivity.
Qed.

Lemma three_ok a b c va vb vc r : num a va -> num b vb -> num c vc -> ended r ->
  read_hms 6 1 ":"%char (0, 0, 0) (a ++ ":"%char :: b ++ ":"%char :: c ++ r) = Ok (va, vb, vc, r).
Proof.
  intros A B C E.
  rewrite (first_ok 5 ":"%char (0, 0, 0) a va (":"%char :: b ++ ":"%char :: c ++ r)) by (auto; lia || reflexivity).
  rewrite colon_seen. rewrite (later_ok 4 2 ":"%char _ b vb (":"%char :: c ++ r)) by (auto; lia || reflexivity).
  rewrite colon_seen. rewrite (later_ok 3 3 ":"%char _ c vc r) by (auto using ended_nd; lia || reflexivity).
  rewrite done_ok by exact E. reflexivity.
Qed.

Lemma four_ok a b c d va vb vc vd r : num a va -> num b vb -> num c vc -> num d vd -> ended r ->
  read_hms 6 1 ":"%char (0, 0, 0) (a ++ ":"%char :: b ++ ":"%char :: c ++ ":"%char :: d ++ r) =
  Ok (va * 24 + vb, vc, vd, r).
Proof.
  intros A B C D E.
  rewrite (first_ok 5 ":"%char (0, 0, 0) a va (":"%char :: b ++ ":"%char :: c ++ ":"%char :: d ++ r)) by (auto; lia || reflexivity).
  rewrite colon_seen. rewrite (later_ok 4 2 ":"%char _ b vb (":"%char :: c ++ ":"%char :: d ++ r)) by (auto; lia || reflexivity).
  rewrite colon_seen. rewrite (later_ok 3 3 ":"%char _ c vc (":"%char :: d ++ r)) by (auto; lia || reflexivity).
  rewrite colon_seen. rewrite (later_ok 2 4 ":"%char _ d vd r) by (auto using ended_nd; lia || reflexivity).
  rewrite done_ok by exact E. reflexivity.
Qed.

Lemma unsigned s t n : num t n -> read_duration (t ++ s) =
  olet p := read_hms 6 1 ":"%char (0, 0, 0) (t ++ s) in let '(x, y, z, s) := p in Ok ((x * 3600 + y * 60 + z) * 1, s).
Proof.
  intros N. destruct (num_head t n N) as (c & t' & -> & D & _). cbn [app]. unfold read_duration.
  rewrite (digit_not_minus c D). destruct (Ascii.eqb_spec c "+") as [->|]; [discriminate|]. reflexivity.
Qed.

Lemma print_pos_ok s r : 0 <= s -> ended r -> exists a b c d va vb vc vd,
  print_pos s ++ r = a ++ ":"%char :: b ++ ":"%char :: c ++ ":"%char :: d ++ r /\
  num a va /\ num b vb /\ num c vc /\ num d vd /\ (va * 24 + vb) * 3600 + vc * 60 + vd = s.
Proof.
  intros H E. destruct (parts_bounds s) as (_ & _ & _ & A & B & C & D).
  exists (print_int (dur_days s)), (pad2 (dur_hours s)), (pad2 (dur_minutes s)), (pad2 (dur_seconds s)),
    (dur_days s), (dur_hours s), (dur_minutes s), (dur_seconds s).
  split; [unfold print_pos; rewrite <- !app_assoc; reflexivity|].
  split; [apply print_int_num, A, H|]. split; [apply pad2_num, B, H|]. split; [apply pad2_num, C, H|].
  split; [apply pad2_num, D, H|]. pose proof (recompose s) as R. unfold duration in R. lia.
Qed.

Lemma blank_ended r : blank_next r -> ended r.
Proof.
  destruct r as [|c r]; [auto|]. cbn [blank_next ended]. intros H.
  repeat destruct H as [->|H]; try (split; reflexivity). subst. split; reflexivity.
Qed.

Lemma next_nd r : not_digit_next r -> nd r.
Proof.
  destruct r as [|c r]; [auto|]. cbn [not_digit_next nd]. intros H. destruct (is_digit c) eqn:E; [exfalso|reflexivity].
  apply H. revert E. clear. destruct c as [[] [] [] [] [] [] [] []]; intros E; vm_compute in E; try discriminate E; cbn; tauto.
Qed.

Lemma duration_text s r : blank_next r -> read_duration (print_duration s ++ r) = Ok (s, r).
Proof.
  intros B. apply blank_ended in B. unfold print_duration. destruct (Z.ltb_spec s 0) as [H|H].
  - destruct (print_pos_ok (- s) r ltac:(lia) B) as (a & b & c & d & va & vb & vc & vd & E & A1 & A2 & A3 & A4 & V).
    cbn [app]. unfold read_duration. cbn [Ascii.eqb Bool.eqb]. rewrite E.
    rewrite (four_ok a b c d va vb vc vd r) by auto. cbn [obind]. f_equal. f_equal. lia.
  - destruct (print_pos_ok s r H B) as (a & b & c & d & va & vb & vc & vd & E & A1 & A2 & A3 & A4 & V).
    rewrite E. rewrite (unsigned _ a va A1). rewrite (four_ok a b c d va vb vc vd r) by auto. cbn [obind]. f_equal. f_equal. lia.
Qed.

(** Times. *)
Lemma time_run_ok t : forall c e r, Forall (fun c => is_digit c = true) t -> is_digit e = false ->
  time_run c (t ++ e :: r) = (t, e, r).
Proof.
  induction t as [|d t IH]; intros c e r F N; cbn [app time_run]; [rewrite N; reflexivity|].
  inversion F as [|? ? D F']. subst. rewrite D. rewrite (IH d e r F' N). reflexivity.
Qed.

Lemma time_run_end t : forall c, Forall (fun c => is_digit c = true) t -> exists e, time_run c t = (t, e, []).
Proof.
  induction t as [|d t IH]; intros c F; cbn [time_run]; [eauto|].
  inversion F as [|? ? D F']. subst. rewrite D. destruct (IH d F') as (e & ->). eauto.
Qed.

Lemma time_part_ok c t v e r : is_sep c = false -> num t v -> is_digit e = false ->
  time_part c (t ++ e :: r) = (v, e, r).
Proof.
  intros C N E. unfold time_part. rewrite C, (time_run_ok t c e r (proj1 N) E), (num_number t v N).
  destruct (num_head t v N) as (d & t' & -> & _). reflexivity.
Qed.

Lemma time_part_last c t v r : is_sep c = false -> num t v -> nd r -> exists e, time_part c (t ++ r) = (v, e, tl r).
Proof.
  intros C N R. destruct r as [|e r]; [|exists e; apply time_part_ok; auto].
  rewrite app_nil_r. destruct (time_run_end t c (proj1 N)) as (e & E). exists e. unfold time_part. rewrite C, E, (num_number t v N).
  destruct (num_head t v N) as (d & t' & -> & _). reflexivity.
Qed.

Lemma time_text s r : 0 <= s < 86400 -> not_digit_next r -> read_time (print_time s ++ r) = (s, tl r).
Proof.
  intros H R. apply next_nd in R. destruct (nonneg_parts s (proj1 H)) as (A & B & C & D).
  unfold read_time, print_time. rewrite <- !app_assoc. cbn [app].
  rewrite (time_part_ok ":"%char _ (dur_hours s) ":"%char) by (reflexivity || (apply print_int_num; lia)).
  rewrite (time_part_ok ":"%char _ (dur_minutes s) ":"%char) by (reflexivity || (apply pad2_num; lia)).
  destruct (time_part_last ":"%char (pad2 (dur_seconds s)) (dur_seconds s) r) as (e & ->); [reflexivity|apply pad2_num; lia|exact R|].
  f_equal. rewrite B, C, D. unfold time_of. lia.
Qed.

(** Dates. *)
Lemma digit_not_letter c : is_digit c = true -> is_letter c = false.
Proof. unfold is_digit, is_letter, is_upper. lia. Qed.
Lemma letter_not_digit c : is_letter c = true -> is_digit c = false.
Proof. unfold is_digit, is_letter, is_upper. lia. Qed.

Lemma part_num t n c r : num t n -> is_digit c = false -> read_part (t ++ c :: r) = Ok (n, false, r).
Proof.
  intros N C. unfold read_part. pose proof (num_number t n N) as V.
  destruct (num_head t n N) as (d & t' & -> & D & F). cbn [app skip_to_part].
  rewrite D, (digit_not_letter d D). cbn [orb negb andb]. rewrite (digit_not_letter d D), (run_ok _ t' c r F C), V. reflexivity.
Qed.

Lemma part_end t n r : num t n -> nd r -> read_part (t ++ r) = Ok (n, false, tl r).
Proof.
  intros N C. unfold read_part. pose proof (num_number t n N) as V.
  destruct (num_head t n N) as (d & t' & -> & D & F). cbn [app skip_to_part].
  rewrite D, (digit_not_letter d D). cbn [orb negb andb]. rewrite (digit_not_letter d D), (run_end _ t' r F C), V. reflexivity.
Qed.

Lemma part_minus t n r : num t n -> nd r -> read_part ("-"%char :: t ++ r) = Ok (- n, false, tl r).
Proof.
  intros N C. unfold read_part. change (skip_to_part ("-"%char :: t ++ r)) with ("-"%char :: t ++ r).
  change (is_letter "-"%char) with false. cbv beta match iota. rewrite (run_end _ t r (proj1 N) C), (minus_number t n N). reflexivity.
Qed.

Lemma part_int n r : nd r -> read_part (print_int n ++ r) = Ok (n, false, tl r).
Proof.
  intros R. unfold print_int. destruct (Z.ltb_spec n 0) as [H|H].
  - cbn [app]. rewrite (part_minus _ (- n)) by (auto; apply dec_num; lia). f_equal. f_equal. f_equal. lia.
  - apply part_end; [apply dec_num; lia|exact R].
Qed.

Lemma part_month m r : 1 <= m <= 12 -> exists t, short_name m = Ok t /\ read_part (t ++ "-"%char :: r) = Ok (m, true, r).
Proof.
  intros H. assert (m = 1 \/ m = 2 \/ m = 3 \/ m = 4 \/ m = 5 \/ m = 6 \/ m = 7 \/ m = 8 \/ m = 9 \/ m = 10 \/ m = 11 \/ m = 12) as C by lia.
  repeat destruct C as [->|C]; try (eexists; split; [reflexivity|reflexivity]). subst. eexists; split; [reflexivity|reflexivity].
Qed.

Lemma date_text d r : not_digit_next r ->
  exists t, print_date (from_days d) = Ok t /\ read_date (t ++ r) = Ok (from_days d, tl r).
Proof.
  intros R. apply next_nd in R. pose proof (from_days_valid d) as V. unfold parts in V. unfold valid in V.
  pose proof (new_date_parts d) as N. remember (from_days d) as x eqn:X. clear X. destruct V as (M & D).
  destruct (part_month (month x) (print_int (year x) ++ r) M) as (t & T & P).
  unfold print_date. rewrite T. cbn [obind]. eexists. split; [reflexivity|].
  rewrite <- !app_assoc. cbn [app]. unfold read_date.
  rewrite (part_num _ (day x) "-"%char) by (reflexivity || (apply print_int_num; lia)). cbn [obind].
  rewrite <- app_assoc in P || idtac. rewrite P. cbn [obind andb].
  rewrite (part_int (year x) r R). cbn [obind orb negb andb]. rewrite N. reflexivity.
Qed.

(** DateTimes. *)
Lemma skip_seps_num t n r : num t n -> skip_seps (t ++ r) = t ++ r.
Proof.
  intros N. destruct (num_head t n N) as (c & t' & -> & D & _). cbn [app skip_seps].
  replace (is_sep c) with false; [reflexivity|]. symmetry. unfold is_digit, is_sep in *. lia.
Qed.

Lemma year_part y r : y <> 0 ->
  read_part ((if y <? 0 then "-"%char else " "%char) :: (repeat "0"%char (4 - List.length (dec (Z.abs y))) ++ dec (Z.abs y)) ++ "-"%char :: r)
  = Ok (y, false, r).
Proof.
  intros Y. assert (N : num (repeat "0"%char (4 - List.length (dec (Z.abs y))) ++ dec (Z.abs y)) (Z.abs y)) by (apply num_zeros, dec_num; lia).
  remember (repeat "0"%char (4 - List.length (dec (Z.abs y))) ++ dec (Z.abs y)) as t eqn:T. clear T.
  destruct (Z.ltb_spec y 0) as [H|H].
  - rewrite (part_minus t (Z.abs y)); [|exact N|reflexivity]. cbn [tl]. f_equal. f_equal. f_equal. lia.
  - change (read_part (" "%char :: t ++ "-"%char :: r)) with (read_part (t ++ "-"%char :: r)).
    rewrite (part_num t (Z.abs y) "-"%char r N eq_refl). f_equal. f_equal. f_equal. lia.
Qed.

Lemma offset_text o r : small (mkM (from_days 0) 0 o) -> 0 <= o \/ dur_seconds o = 0 -> ended r ->
  read_duration (print_offset o ++ r) = Ok (o, r).
Proof.
  intros S P E. unfold small in S. cbn [ofs] in S. unfold print_offset.
  assert (R : (Z.abs (dur_hours o) * 60 + Z.abs (dur_minutes o)) * 60 + Z.abs (dur_seconds o) = Z.abs o).
  { pose proof (recompose o) as R. rewrite (dur_days_small o S) in R. unfold duration in R.
    destruct (parts_bounds o) as (_ & _ & _ & _ & B & C & D). unfold agrees in *. destruct (Z.le_gt_cases 0 o); lia. }
  pose proof (pad2_num (Z.abs (dur_hours o)) ltac:(lia)) as A. pose proof (pad2_num (Z.abs (dur_minutes o)) ltac:(lia)) as B.
  assert (Q : forall sg, (let '(sg, s) := (sg, (pad2 (Z.abs (dur_hours o)) ++ ":"%char :: pad2 (Z.abs (dur_minutes o)) ++
      (if dur_seconds o =? 0 then [] else ":"%char :: print_int (dur_seconds o)) ++ r)) in
     olet p := read_hms 6 1 ":"%char (0, 0, 0) s in
     let '(x, y, z, s) := p in Ok ((x * 3600 + y * 60 + z) * sg, s)) = Ok (Z.abs o * sg, r)).
  { intros sg. destruct (Z.eqb_spec (dur_seconds o) 0) as [Z0|Z0].
    - cbn [app]. rewrite (two_ok _ _ _ _ r A B E). cbn [obind]. f_equal. f_equal. rewrite Z0 in R. lia.
    - destruct (parts_bounds o) as (_ & _ & _ & _ & _ & _ & D). unfold agrees in D. destruct P as [P|P]; [|contradiction].
      pose proof (print_int_num (dur_seconds o) ltac:(lia)) as C. cbn [app].
      rewrite (three_ok _ _ _ _ _ _ r A B C E). cbn [obind]. f_equal. f_equal. lia. }
  cbn [app]. rewrite <- !app_assoc. cbn [app]. rewrite <- !app_assoc.
  destruct (Z.ltb_spec o 0) as [H|H].
  - etransitivity; [exact (Q (-1))|]. f_equal. f_equal. lia.
  - etransitivity; [exact (Q 1)|]. f_equal. f_equal. lia.
Qed.

Lemma moment_text x r : wf x -> small x -> 0 <= ofs x \/ dur_seconds (ofs x) = 0 ->
  year (m_date x) < 0 \/ 31 < year (m_date x) -> blank_next r ->
  exists t, print_moment x = Ok t /\ read_moment (t ++ r) = Ok (x, r).
Proof.
  intros W S P Y E. apply blank_ended in E. unfold print_moment.
  destruct (wall_ok x W) as (H1 & H2 & H3 & H4). destruct W as (W1 & W2).
  pose proof (from_days_valid (days (m_date x))) as V. pose proof (new_date_parts (days (m_date x))) as N.
  rewrite <- W2 in V, N. unfold parts, valid in V. destruct V as (M & D).
  destruct (Z.eqb_spec (year (m_date x)) 0) as [Y0|Y0]; [exfalso; lia|].
  eexists. split; [reflexivity|].
  assert (A1 := pad2_num (month (m_date x)) ltac:(lia)). assert (A2 := pad2_num (day (m_date x)) ltac:(lia)).
  assert (A3 := pad2_num (hour x) ltac:(lia)). assert (A4 := pad2_num (minute x) ltac:(lia)). assert (A5 := pad2_num (second x) ltac:(lia)).
  assert (OE : ended (print_offset (ofs x) ++ r)) by (unfold print_offset; destruct (_ <? _); split; reflexivity).
  assert (T : read_date ((((if year (m_date x) <? 0 then "-"%char else " "%char)
      :: repeat "0"%char (4 - Datatypes.length (dec (Z.abs (year (m_date x))))) ++
         dec (Z.abs (year (m_date x))) ++
         ["-"%char] ++ pad2 (month (m_date x)) ++ ["-"%char] ++ pad2 (day (m_date x)) ++
         ["T"%char] ++ print_clock x ++ print_offset (ofs x)) ++ r)) =
    Ok (m_date x, print_clock x ++ print_offset (ofs x) ++ r)).
  { cbn [app]. repeat (rewrite <- app_assoc; cbn [app]).
    unfold read_date. rewrite app_assoc. rewrite (year_part (year (m_date x)) _ Y0). cbn [obind].
    rewrite (part_num _ (month (m_date x)) "-"%char _ A1 eq_refl). cbn [obind andb].
    rewrite (part_num _ (day (m_date x)) "T"%char _ A2 eq_refl). cbn [obind orb negb].
    replace ((1 <=? year (m_date x)) && (year (m_date x) <=? 31)) with false by lia.
    rewrite N. reflexivity. }
  unfold read_moment. rewrite T. cbn [obind].
  assert (K : exists c t', print_clock x = c :: t' /\ is_digit c = true).
  { destruct (num_head _ _ A3) as (c & t' & E3 & D3 & _). unfold print_clock. rewrite E3. cbn [app]. eauto. }
  assert (U : read_duration (print_clock x ++ print_offset (ofs x) ++ r) = Ok (secs x, print_offset (ofs x) ++ r)).
  { unfold print_clock. rewrite <- !app_assoc. cbn [app]. rewrite (unsigned _ _ _ A3).
    rewrite (three_ok _ _ _ _ _ _ _ A3 A4 A5 OE). cbn [obind]. f_equal. f_equal. lia. }
  destruct K as (c & t' & K & KD). rewrite K in U |- *. cbn [app] in U |- *.
  replace (Ascii.eqb c "T") with false by (symmetry; destruct (Ascii.eqb_spec c "T") as [->|]; [discriminate|reflexivity]).
  cbn [skip_seps]. replace (is_sep c) with false by (symmetry; unfold is_digit, is_sep in *; lia).
  rewrite KD. rewrite U. cbn [obind].
  assert (PO : read_duration (print_offset (ofs x) ++ r) = Ok (ofs x, r)) by (apply offset_text; auto).
  assert (SK : exists c s', print_offset (ofs x) ++ r = c :: s' /\ (c = "+"%char \/ c = "-"%char)).
  { unfold print_offset. eexists. eexists. split; [reflexivity|]. destruct (ofs x <? 0); auto. }
  destruct SK as (c1 & s1 & SK & C1). rewrite SK in PO |- *. cbn [skip_seps].
  replace (is_sep c1) with false by (destruct C1 as [-> | ->]; reflexivity).
  replace (Ascii.eqb c1 "+" || Ascii.eqb c1 "-") with true by (destruct C1 as [-> | ->]; reflexivity).
  rewrite PO. cbn [obind]. f_equal. f_equal.
  assert (PL : plus (mkM (m_date x) 0 0) (secs x) = mkM (m_date x) (secs x) 0).
  { destruct (plus_ok (mkM (m_date x) 0 0) (secs x)) as (I & O & W'). apply wf_eq; [exact W'|split; [exact W1|exact W2]| |exact O].
    rewrite I. unfold instant. cbn [m_date secs ofs]. lia. }
  rewrite PL. destruct x; reflexivity.
Qed.

Lemma midnight_text d c r : is_digit c = false -> is_sep c = false -> ~ In c ["T"; "+"; "-"]%char ->
  exists t, print_date (from_days d) = Ok t /\ read_moment (t ++ " "%char :: c :: r) = Ok (from_parts d 0 0, c :: r).
Proof.
  intros D S N. destruct (date_text d (" "%char :: c :: r)) as (t & P & R).
  { cbn. intuition discriminate. }
  exists t. split; [exact P|]. unfold read_moment. rewrite R. cbn [obind tl].
  destruct (Ascii.eqb_spec c "T") as [->|_]; [exfalso; apply N; left; reflexivity|].
  assert (K : skip_seps (c :: r) = c :: r) by (cbn [skip_seps]; rewrite S; reflexivity). rewrite K, D. cbn [obind]. rewrite K.
  destruct (Ascii.eqb_spec c "+") as [->|_]; [exfalso; apply N; right; left; reflexivity|].
  destruct (Ascii.eqb_spec c "-") as [->|_]; [exfalso; apply N; right; right; left; reflexivity|].
  cbn [orb]. f_equal. f_equal. unfold plus, m_days. cbn [m_date secs ofs]. rewrite days_from. change (Z.rem 0 86400) with 0.
  change (86400 <? 0 + 0) with false. cbn iota. change (dur_days 0) with 0. rewrite !Z.add_0_r. reflexivity.
Qed.
