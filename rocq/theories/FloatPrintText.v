(** The text of a number that is printed. *)
From Coq Require Import Reals Lra ZifyBool.
From Flocq Require Import Core.
From Verif Require Import Base Digits Real RealSpec FloatPrint FloatPrintSpec FloatPrintLoop.
Open Scope Z_scope.

Lemma number_from_eq l : forall n, fold_left (fun n d => n * 10 + d) l n = n * 10 ^ Z.of_nat (length l) + number 10 l.
Proof.
  unfold number. induction l as [|d l IH]; intros n; [cbn; lia|].
  cbn [fold_left length]. rewrite (IH (n * 10 + d)), (IH (0 * 10 + d)). rewrite Nat2Z.inj_succ, Z.pow_succ_r by lia. ring.
Qed.

Lemma number_cat a b : number 10 (a ++ b) = number 10 a * 10 ^ Z.of_nat (length b) + number 10 b.
Proof. unfold number at 1. rewrite fold_left_app. fold (number 10 a). apply number_from_eq. Qed.

Lemma number_zeros k : number 10 (repeat 0 k) = 0.
Proof. induction k as [|k IH]; [reflexivity|]. change (repeat 0 (S k)) with ([0] ++ repeat 0 k). rewrite number_cat, IH. reflexivity. Qed.

Lemma number_bound l : Forall (fun d => 0 <= d < 10) l -> 0 <= number 10 l < 10 ^ Z.of_nat (length l).
Proof.
  induction l as [|d l IH]; intros H; [cbn; lia|]. inversion H as [|? ? Hd Hl]; subst.
  change (d :: l) with ([d] ++ l). rewrite number_cat. specialize (IH Hl).
  change (length ([d] ++ l)) with (S (length l)). rewrite Nat2Z.inj_succ, Z.pow_succ_r by lia.
  change (number 10 [d]) with (0 * 10 + d). nia.
Qed.

(** ** Decimal digits *)
Lemma dec_from_ok fuel : forall n acc, 0 <= n < 10 ^ Z.of_nat fuel -> (0 < fuel)%nat ->
  exists ds, dec_from fuel n acc = ds ++ acc /\ number 10 ds = n /\ Forall (fun d => 0 <= d < 10) ds /\ ds <> []
    /\ (0 < n -> 10 ^ (Z.of_nat (length ds) - 1) <= n).
Proof.
  induction fuel as [|fuel IH]; intros n acc Hn Hf; [lia|]. cbn [dec_from]. destruct (n <? 10) eqn:E.
  - exists [n]. split; [reflexivity|]. split; [cbn; lia|]. split; [constructor; [lia|constructor]|].
    split; [discriminate|]. intros. change (10 ^ (Z.of_nat (length [n]) - 1)) with 1. lia.
  - rewrite Nat2Z.inj_succ, Z.pow_succ_r in Hn by lia.
    assert (Hq : 0 <= n / 10 < 10 ^ Z.of_nat fuel) by (split; [apply Z.div_pos; lia|apply Z.div_lt_upper_bound; lia]).
    destruct fuel as [|fuel]; [cbn in Hq; lia|].
    destruct (IH (n / 10) (n mod 10 :: acc) Hq ltac:(lia)) as (ds & Ed & V & F & Ne & B).
    exists (ds ++ [n mod 10]). rewrite Ed, <- app_assoc. split; [reflexivity|].
    split; [rewrite number_cat, V; cbn [length]; change (Z.of_nat 1) with 1; rewrite Z.pow_1_r; unfold number; cbn [fold_left]; lia|].
    split; [apply Forall_app; split; [exact F|constructor; [lia|constructor]]|].
    split; [intros C; apply app_eq_nil in C; destruct C; discriminate|].
    intros _. rewrite app_length. cbn [length]. specialize (B ltac:(lia)).
    assert (L : 1 <= Z.of_nat (length ds)) by (destruct ds; [contradiction|cbn [length]; lia]).
    replace (Z.of_nat (length ds + 1) - 1) with (Z.succ (Z.of_nat (length ds) - 1)) by lia.
    rewrite Z.pow_succ_r by lia. lia.
Qed.

Lemma dec_ok n : 0 <= n -> number 10 (dec n) = n /\ Forall (fun d => 0 <= d < 10) (dec n) /\ dec n <> []
  /\ (0 < n -> 10 ^ (Z.of_nat (length (dec n)) - 1) <= n < 10 ^ Z.of_nat (length (dec n))).
Proof.
  intros H. unfold dec.
  destruct (dec_from_ok (S (Z.to_nat (Z.log2 n))) n []) as (ds & Ed & V & F & Ne & B).
  - split; [exact H|]. rewrite Nat2Z.inj_succ, Z2Nat.id by apply Z.log2_nonneg.
    apply Z.lt_le_trans with (2 ^ Z.succ (Z.log2 n)).
    + destruct (Z.eq_dec n 0) as [->|]; [reflexivity|]. apply Z.log2_spec. lia.
    + apply Z.pow_le_mono_l. lia.
  - lia.
  - rewrite Ed, app_nil_r. repeat split; auto.
    rewrite <- V. apply number_bound. exact F.
Qed.

Lemma dec_length n L : 0 < n -> 1 <= L -> 10 ^ (L - 1) <= n < 10 ^ L -> Z.of_nat (length (dec n)) = L.
Proof.
  intros H HL B. destruct (dec_ok n ltac:(lia)) as (_ & _ & Ne & B'). specialize (B' H).
  assert (L1 : 1 <= Z.of_nat (length (dec n))) by (destruct (dec n); [contradiction|cbn [length]; lia]).
  set (k := Z.of_nat (length (dec n))) in *.
  destruct (Z.lt_trichotomy k L) as [C|[C|C]]; [exfalso|exact C|exfalso].
  - pose proof (Z.pow_le_mono_r 10 k (L - 1) ltac:(lia) ltac:(lia)). lia.
  - pose proof (Z.pow_le_mono_r 10 L (k - 1) ltac:(lia) ltac:(lia)). lia.
Qed.

Lemma trim_ok l : exists k, l = trim l ++ repeat 0 k.
Proof.
  induction l as [|d l (k & E)]; [exists O; reflexivity|]. cbn [trim]. destruct (trim l) as [|a t].
  - destruct (Z.eqb_spec d 0) as [->|].
    + exists (S k). cbn. f_equal. exact E.
    + exists k. cbn. f_equal. exact E.
  - exists k. cbn. f_equal. exact E.
Qed.

(** ** 0.d1d2... times a power of ten *)
Definition val (l : list Z) (e : Z) : R := (IZR (number 10 l) * bpow ten (e - Z.of_nat (length l)))%R.

Lemma val_zeros l k e : val (l ++ repeat 0 k) e = val l e.
Proof.
  unfold val. rewrite number_cat, number_zeros, Z.add_0_r, app_length, repeat_length, mult_IZR.
  change (10 ^ Z.of_nat k) with (Zpower ten (Z.of_nat k)). rewrite IZR_Zpower by lia.
  rewrite Rmult_assoc, <- bpow_plus. do 2 f_equal. lia.
Qed.

Lemma val_lead l k e : val (repeat 0 k ++ l) (e + Z.of_nat k) = val l e.
Proof.
  unfold val. rewrite number_cat, number_zeros, app_length, repeat_length.
  f_equal; f_equal; lia.
Qed.

Lemma written_val ints fracs ex : written 10 ints fracs ex = val (ints ++ fracs) (exponent ex + Z.of_nat (length ints)).
Proof.
  unfold written, val. f_equal. rewrite app_length, bpow_powerRZ. f_equal. lia.
Qed.

Lemma int_part_ok n : forall ds, int_part n ds = (map Dg (firstn n ds ++ repeat 0 (n - length ds)%nat), skipn n ds).
Proof.
  induction n as [|n IH]; intros ds; [reflexivity|]. cbn [int_part]. rewrite IH. destruct ds as [|d ds].
  - cbn [tl firstn skipn length]. rewrite firstn_nil, skipn_nil, Nat.sub_0_r. reflexivity.
  - reflexivity.
Qed.

Lemma map_repeat_Dg k : repeat (Dg 0) k = map Dg (repeat 0 k).
Proof. induction k as [|k IH]; [reflexivity|]. cbn. f_equal. exact IH. Qed.

(** The integer part and what follows it. *)
Lemma parts n ds : (1 <= n)%nat -> Forall (fun d => 0 <= d < 10) ds ->
  let ints := firstn n ds ++ repeat 0 (n - length ds)%nat in
  let fracs := match skipn n ds with [] => [0] | r => r end in
  length ints = n /\ Forall (fun d => 0 <= d < 10) (ints ++ fracs) /\ fracs <> []
  /\ forall e, val (ints ++ fracs) e = val ds e.
Proof.
  intros Hn F ints fracs.
  assert (L : length ints = n) by (unfold ints; rewrite app_length, firstn_length, repeat_length; lia).
  split; [exact L|].
  destruct (skipn n ds) as [|a r] eqn:E.
  - assert (Hl : (length ds <= n)%nat).
    { pose proof (f_equal (@length _) E) as H. rewrite skipn_length in H. cbn in H. lia. }
    assert (Ei : ints ++ fracs = ds ++ repeat 0 (n - length ds + 1)%nat).
    { unfold ints, fracs. rewrite firstn_all2 by exact Hl. rewrite repeat_app, <- app_assoc. reflexivity. }
    rewrite Ei. split; [|split].
    + apply Forall_app. split; [exact F|]. apply Forall_forall. intros x Hx. apply repeat_spec in Hx. lia.
    + discriminate.
    + intros e. apply val_zeros.
  - assert (Hl : (n < length ds)%nat).
    { pose proof (f_equal (@length _) E) as H. rewrite skipn_length in H. cbn in H. lia. }
    assert (Ei : ints ++ fracs = ds).
    { unfold ints, fracs. replace (n - length ds)%nat with O by lia. rewrite app_nil_r, <- E. apply firstn_skipn. }
    rewrite Ei. split; [exact F|split; [discriminate|reflexivity]].
Qed.

Lemma layout_ok small exponential N ex L : 0 < N -> 1 <= L -> 10 ^ (L - 1) <= N < 10 ^ L ->
  (small = true \/ 1 <= ex) ->
  exists ints fracs x, layout small exponential N ex = text false ints fracs x /\ readable ints fracs x
    /\ written 10 ints fracs x = (IZR N * bpow ten (ex - L))%R.
Proof.
  intros HN HL B Hs. destruct (dec_ok N ltac:(lia)) as (V & F & Ne & _).
  pose proof (dec_length N L HN HL B) as EL.
  destruct (trim_ok (dec N)) as (k & Ek). set (ds := trim (dec N)) in *.
  assert (Fd : Forall (fun d => 0 <= d < 10) ds) by (rewrite Ek in F; apply Forall_app in F; apply F).
  assert (Nd : ds <> []).
  { intros C. rewrite C in Ek. cbn [app] in Ek. rewrite Ek, number_zeros in V. lia. }
  assert (Vd : forall e, val ds e = (IZR N * bpow ten (e - L))%R).
  { intros e. rewrite <- (val_zeros ds k), <- Ek. unfold val. rewrite V, EL. reflexivity. }
  unfold layout. fold ds.
  destruct (small && negb exponential && (0 <? 1 - ex)) eqn:Lead.
  - assert (exponential = false) as -> by (destruct exponential; [rewrite andb_false_r in Lead; discriminate|reflexivity]).
    assert (He : ex <= 0) by lia.
    change (Z.max 1 1) with 1. change (Z.to_nat 1) with 1%nat. rewrite int_part_ok.
    destruct ds as [|d ds'] eqn:Eds; [contradiction|].
    exists [0], (repeat 0 (Z.to_nat (- ex)) ++ d :: ds'), None. split; [|split].
    + unfold zeros. replace (0 <? 1 - ex) with true by lia. cbn [firstn skipn length Nat.sub repeat app map text].
      unfold text. cbn [app map]. rewrite app_nil_r. rewrite map_app. cbn [map]. rewrite map_repeat_Dg.
      replace (1 - ex - 1) with (- ex) by lia. cbn [app].
      destruct ds'; cbn [map app]; rewrite ?app_nil_r; reflexivity.
    + split; [discriminate|]. split; [intros C; apply app_eq_nil in C; destruct C; discriminate|].
      split; [split; [lia|]|split; [exact I|exact I]].
      apply Forall_app. split; [constructor; [lia|constructor]|]. apply Forall_app. split; [|exact Fd].
      apply Forall_forall. intros x Hx. apply repeat_spec in Hx. lia.
    + rewrite written_val. change ([0] ++ repeat 0 (Z.to_nat (- ex)) ++ d :: ds') with (repeat 0 (S (Z.to_nat (- ex))) ++ d :: ds').
      cbn [exponent length]. change (0 + Z.of_nat 1) with 1.
      replace 1 with (ex + Z.of_nat (S (Z.to_nat (- ex)))) at 1 by lia. rewrite val_lead. apply Vd.
  - set (n := if exponential then 1 else Z.max 1 ex).
    assert (Hn : (1 <= Z.to_nat n)%nat) by (unfold n; destruct exponential; lia).
    rewrite int_part_ok. destruct (parts (Z.to_nat n) ds Hn Fd) as (Li & Fi & Nf & Vi). cbv zeta in *.
    set (ints := firstn (Z.to_nat n) ds ++ repeat 0 (Z.to_nat n - length ds)%nat) in *.
    set (fracs := match skipn (Z.to_nat n) ds with [] => [0] | r => r end) in *.
    exists ints, fracs, (if exponential then Some (ex - 1 <? 0, dec (Z.abs (ex - 1))) else None).
    destruct (dec_ok (Z.abs (ex - 1)) ltac:(lia)) as (Vx & Fx & Nx & _).
    split; [|split].
    + unfold text. cbn [app]. f_equal.
      unfold fracs. destruct exponential, (skipn (Z.to_nat n) ds); reflexivity.
    + split; [destruct ints; [cbn in Li; lia|discriminate]|]. split; [exact Nf|]. split; [split; [lia|exact Fi]|].
      destruct exponential; [split; [exact Fx|exact Nx]|split; exact I].
    + rewrite written_val, Vi, Li, Z2Nat.id by lia. rewrite Vd. do 3 f_equal.
      unfold n. destruct exponential; cbn [exponent].
      * rewrite Vx. destruct (ex - 1 <? 0) eqn:E; lia.
      * destruct small; lia.
Qed.
