From Verif Require Import Base Digits IntRep IntRepProofs CInt CIntProofs Index IndexSpec.

(** List lemmas *)
Lemma nth_error_ext_eq {A} (l l' : list A) :
  length l = length l' -> (forall k, (k < length l)%nat -> nth_error l k = nth_error l' k) -> l = l'.
Proof.
  revert l'. induction l as [|x l IH]; intros [|y l'] L H; try discriminate; [reflexivity|].
  f_equal.
  - specialize (H 0%nat ltac:(cbn; lia)). cbn in H. congruence.
  - apply IH; [cbn in L; lia|]. intros k Hk. apply (H (S k)). cbn. lia.
Qed.

Lemma nth_error_firstn {A} n (l : list A) k :
  nth_error (firstn n l) k = if (k <? n)%nat then nth_error l k else None.
Proof.
  revert l k. induction n as [|n IH]; intros l k.
  - cbn. destruct k; reflexivity.
  - destruct l as [|x l]; cbn [firstn].
    + destruct (k <? S n)%nat; destruct k; reflexivity.
    + destruct k as [|k]; cbn [nth_error]; [reflexivity|].
      rewrite IH. reflexivity.
Qed.

Lemma nth_error_skipn {A} n (l : list A) k : nth_error (skipn n l) k = nth_error l (n + k).
Proof.
  revert l. induction n as [|n IH]; intros l; [reflexivity|].
  destruct l as [|x l]; cbn [skipn plus nth_error]; [destruct k; reflexivity|apply IH].
Qed.

Lemma slice_length off n l : 0 <= off -> 0 <= n -> off + n <= Z.of_nat (length l) ->
  length (slice off n l) = Z.to_nat n.
Proof.
  intros. unfold slice. rewrite firstn_length, skipn_length. lia.
Qed.

Lemma nth_error_slice off n l k :
  nth_error (slice off n l) k = if (k <? Z.to_nat n)%nat then nth_error l (Z.to_nat off + k) else None.
Proof. unfold slice. rewrite nth_error_firstn, nth_error_skipn. reflexivity. Qed.

Lemma splice_length off new l : 0 <= off -> off + Z.of_nat (length new) <= Z.of_nat (length l) ->
  length (splice off new l) = length l.
Proof.
  intros. unfold splice. rewrite !app_length, firstn_length, skipn_length. lia.
Qed.

Lemma nth_error_splice off new l k : 0 <= off -> off + Z.of_nat (length new) <= Z.of_nat (length l) ->
  nth_error (splice off new l) k =
  if (k <? Z.to_nat off)%nat then nth_error l k
  else if (k <? Z.to_nat off + length new)%nat then nth_error new (k - Z.to_nat off)
  else nth_error l k.
Proof.
  intros H1 H2. unfold splice.
  assert (LF : length (firstn (Z.to_nat off) l) = Z.to_nat off) by (rewrite firstn_length; lia).
  destruct (k <? Z.to_nat off)%nat eqn:E1.
  - rewrite nth_error_app1 by lia. rewrite nth_error_firstn, E1. reflexivity.
  - rewrite nth_error_app2 by lia. rewrite LF.
    destruct (k <? Z.to_nat off + length new)%nat eqn:E2.
    + rewrite nth_error_app1 by lia. reflexivity.
    + rewrite nth_error_app2 by lia. rewrite nth_error_skipn. f_equal. lia.
Qed.

Lemma slice_splice_same off new l : 0 <= off -> off + Z.of_nat (length new) <= Z.of_nat (length l) ->
  slice off (Z.of_nat (length new)) (splice off new l) = new.
Proof.
  intros H1 H2. apply nth_error_ext_eq.
  - rewrite slice_length by (rewrite ?splice_length; lia). lia.
  - intros k Hk. rewrite slice_length in Hk by (rewrite ?splice_length; lia).
    rewrite nth_error_slice. replace (k <? _)%nat with true by lia.
    rewrite nth_error_splice by lia.
    replace (_ <? Z.to_nat off)%nat with false by lia.
    replace (_ <? Z.to_nat off + _)%nat with true by lia. f_equal. lia.
Qed.

Lemma slice_splice_other off off' n new l : 0 <= off -> 0 <= off' -> 0 <= n ->
  off + Z.of_nat (length new) <= Z.of_nat (length l) -> off' + n <= Z.of_nat (length l) ->
  (off' + n <= off \/ off + Z.of_nat (length new) <= off') ->
  slice off' n (splice off new l) = slice off' n l.
Proof.
  intros H1 H2 H3 H4 H5 D. apply nth_error_ext_eq.
  - rewrite !slice_length by (rewrite ?splice_length; lia). lia.
  - intros k Hk. rewrite slice_length in Hk by (rewrite ?splice_length; lia).
    rewrite !nth_error_slice. replace (k <? _)%nat with true by lia.
    rewrite nth_error_splice by lia.
    destruct (_ <? Z.to_nat off)%nat eqn:E1; [reflexivity|].
    destruct (_ <? Z.to_nat off + _)%nat eqn:E2; [lia|reflexivity].
Qed.

Lemma list_set_length {A} n (v : A) l : length (list_set n v l) = length l.
Proof. revert l; induction n; intros [|x l]; cbn; auto. Qed.

Lemma nth_error_list_set {A} n (v : A) l k : (n < length l)%nat ->
  nth_error (list_set n v l) k = if (k =? n)%nat then Some v else nth_error l k.
Proof.
  revert l k; induction n; intros [|x l] k H; cbn in *; try lia; destruct k; cbn; auto.
  apply IHn. lia.
Qed.

(** A shape whose elements are bytes. *)
Definition byte_shape (s : shape) : bool :=
  match s with SFixed | Pointer => false | _ => true end.

Lemma wf_cases o : wf_obj o ->
  (exists l, o_shape o = Pointer /\ o_data o = Words l /\ 0 <= o_fixed o <= Z.of_nat (length l) /\
             Z.of_nat (length l) < 2 ^ 57) \/
  (exists l, o_shape o = SFixed /\ o_data o = Words l) \/
  (exists l, byte_shape (o_shape o) = true /\ o_data o = Bytes l /\
    let len := Z.of_nat (length l) in
    digits_ok 256 l /\ 0 <= o_empty o < 8 /\ len < 2 ^ 60 /\ len mod 8 = 0 /\ 0 <= o_fixed o /\
    o_fixed o * 8 + o_empty o <= len /\ (len - o_fixed o * 8 - o_empty o) mod esize (o_shape o) = 0).
Proof.
  intros [F W]. destruct o as [s f e d]; cbn [o_shape o_fixed o_empty o_data] in *.
  destruct s, d; try contradiction;
  [right; left; eauto | right; right .. | left ];
  exists l; repeat split; try tauto; lia.
Qed.

Lemma at_bytes o l i : byte_shape (o_shape o) = true -> o_data o = Bytes l ->
  at_ o i = (if uwrap64 i <? 1 then Err else
    match locate_bytes o (uwrap64 i) with
    | None => Err
    | Some off =>
      if off + esize (o_shape o) <=? Z.of_nat (length l)
      then Ok (decode (o_shape o) (dval 256 (slice off (esize (o_shape o)) l)))
      else UB
    end).
Proof.
  intros B D. unfold at_. destruct (uwrap64 i <? 1); [reflexivity|].
  rewrite D. destruct (o_shape o); try discriminate B; reflexivity.
Qed.

Lemma at_put_bytes o l i v : byte_shape (o_shape o) = true -> o_data o = Bytes l ->
  at_put o i v = (if uwrap64 i <? 1 then Err else
    match encode (o_shape o) v with
    | None => Err
    | Some src =>
      match locate_bytes o (uwrap64 i) with
      | None => Err
      | Some off =>
        match src with
        | Ok u =>
          if off + esize (o_shape o) <=? Z.of_nat (length l)
          then Ok (with_data o (Bytes (splice off (to_digits 256 (Z.to_nat (esize (o_shape o))) u) l)))
          else UB
        | Err => Err | UB => UB | Abort => Abort | OutOfFuel => OutOfFuel
        end
      end
    end).
Proof.
  intros B D. unfold at_put. destruct (uwrap64 i <? 1); [reflexivity|].
  rewrite D. destruct (o_shape o); try discriminate B; reflexivity.
Qed.

Lemma esize_cases s : byte_shape s = true -> esize s = 1 \/ esize s = 2 \/ esize s = 4 \/ esize s = 8.
Proof. destruct s; cbn; auto; discriminate. Qed.

(* The bounds check is exact for plain indices on non-empty objects. *)
Lemma locate_bytes_ok o l n i :
  byte_shape (o_shape o) = true -> o_data o = Bytes l ->
  0 <= o_fixed o -> 0 <= o_empty o < 8 -> Z.of_nat (length l) < 2 ^ 60 -> Z.of_nat (length l) mod 8 = 0 ->
  has_size o n -> 1 <= n -> plain_index o i -> 1 <= uwrap64 i ->
  locate_bytes o (uwrap64 i) =
  if (1 <=? i) && (i <=? n) then Some (o_fixed o * 8 + (i - 1) * esize (o_shape o)) else None.
Proof.
  intros B D F E L M HS N P U.
  unfold has_size in HS. rewrite D in HS. destruct P as [R P].
  assert (NP : o_shape o <> Pointer) by (intros C; rewrite C in B; discriminate).
  assert (NW : num_words o * 8 = Z.of_nat (length l)).
  { unfold num_words. rewrite D. lia. }
  unfold locate_bytes. rewrite NW.
  set (f := o_fixed o) in *. set (e := o_empty o) in *. set (len := Z.of_nat (length l)) in *.
  pose proof (esize_cases _ B) as SC.
  assert (PI : esize (o_shape o) <= 2 \/ - 2 ^ 60 < i < 2 ^ 60) by tauto.
  unfold uwrap64 in *.
  assert (exists q, i mod 2 ^ 64 = i + q * 2 ^ 64) as [q Hq].
  { exists (- (i / 2 ^ 64)). pose proof (Z.div_mod i (2 ^ 64)). lia. }
  rewrite Hq in *.
  destruct SC as [SC|[SC|[SC|SC]]]; rewrite SC in *;
  match goal with |- context [if ?a >? ?b then _ else _] => 
    set (lhs := a); set (rhs := b) end;
  assert (RHS : rhs = (n - 1) * esize (o_shape o)) by (rewrite SC; subst rhs; lia);
  rewrite SC in RHS; clearbody rhs; subst rhs;
  destruct ((1 <=? i) && (i <=? n)) eqn:EI;
  [ replace (lhs >? _) with false by (subst lhs; lia); f_equal; lia
  | replace (lhs >? _) with true by (subst lhs; lia); reflexivity
  | replace (lhs >? _) with false by (subst lhs; lia); f_equal; lia
  | replace (lhs >? _) with true by (subst lhs; lia); reflexivity
  | replace (lhs >? _) with false by (subst lhs; lia); f_equal; lia
  | replace (lhs >? _) with true by (subst lhs; lia); reflexivity
  | replace (lhs >? _) with false by (subst lhs; lia); f_equal; lia
  | replace (lhs >? _) with true by (subst lhs; lia); reflexivity ].
Qed.

Lemma locate_word_ok o l n i :
  o_shape o = Pointer -> o_data o = Words l ->
  0 <= o_fixed o -> Z.of_nat (length l) < 2 ^ 57 ->
  has_size o n -> 1 <= n -> - 2 ^ 62 <= i < 2 ^ 62 -> 1 <= uwrap64 i ->
  locate_word o (uwrap64 i) =
  if (1 <=? i) && (i <=? n) then Some (o_fixed o + i - 1) else None.
Proof.
  intros S D F L HS N R U. unfold has_size in HS. rewrite D in HS. destruct HS as [_ HS].
  unfold locate_word, num_words. rewrite D. rewrite HS.
  set (f := o_fixed o) in *. clearbody f. unfold uwrap64 in *.
  assert (exists q, i mod 2 ^ 64 = i + q * 2 ^ 64) as [q Hq].
  { exists (- (i / 2 ^ 64)). pose proof (Z.div_mod i (2 ^ 64)). lia. }
  rewrite Hq in *.
  match goal with |- context [if ?a >? ?b then _ else _] => set (lhs := a); set (rhs := b) end.
  assert (RHS : rhs = n - 1) by (subst rhs; lia).
  clearbody rhs; subst rhs.
  destruct ((1 <=? i) && (i <=? n)) eqn:EI.
  - replace (lhs >? _) with false by (subst lhs; lia). f_equal. lia.
  - replace (lhs >? _) with true by (subst lhs; lia). reflexivity.
Qed.

Lemma wrap_zero i : - 2 ^ 62 <= i < 2 ^ 62 -> (uwrap64 i <? 1) = (i =? 0).
Proof. unfold uwrap64. lia. Qed.

(** at: and at:put: as functions of the element, for plain indices. *)
Lemma at_bytes_ok o l n i :
  wf_obj o -> byte_shape (o_shape o) = true -> o_data o = Bytes l -> has_size o n -> 1 <= n ->
  plain_index o i ->
  at_ o i = if (1 <=? i) && (i <=? n) then
     Ok (decode (o_shape o) (dval 256 (slice (o_fixed o * 8 + (i - 1) * esize (o_shape o)) (esize (o_shape o)) l)))
   else Err.
Proof.
  intros W B D HS N P. rewrite (at_bytes o l) by assumption.
  destruct (wf_cases o W) as [(l' & S & _)|[(l' & S & _)|(l' & _ & D' & W')]];
    [rewrite S in B; discriminate..|].
  rewrite D in D'. injection D' as <-. cbv zeta in W'. destruct W' as (O & E & L & M & F & FE & DV).
  rewrite wrap_zero by apply P. destruct (i =? 0) eqn:I0.
  { replace ((1 <=? i) && (i <=? n)) with false by lia. reflexivity. }
  rewrite (locate_bytes_ok o l n i) by (try assumption; destruct P; unfold uwrap64; lia).
  destruct ((1 <=? i) && (i <=? n)) eqn:EI; [|reflexivity].
  unfold has_size in HS. rewrite D in HS.
  pose proof (esize_cases _ B) as SC.
  replace (_ <=? _) with true; [reflexivity|].
  destruct SC as [SC|[SC|[SC|SC]]]; rewrite SC in *; lia.
Qed.

Lemma at_put_bytes_ok o l n i v :
  wf_obj o -> byte_shape (o_shape o) = true -> o_data o = Bytes l -> has_size o n -> 1 <= n ->
  plain_index o i ->
  at_put o i v = if (1 <=? i) && (i <=? n) then
     match encode (o_shape o) v with
     | None => Err
     | Some (Ok u) => Ok (with_data o (Bytes (splice (o_fixed o * 8 + (i - 1) * esize (o_shape o))
                                  (to_digits 256 (Z.to_nat (esize (o_shape o))) u) l)))
     | Some Err => Err | Some UB => UB | Some Abort => Abort | Some OutOfFuel => OutOfFuel
     end
   else Err.
Proof.
  intros W B D HS N P. rewrite (at_put_bytes o l) by assumption.
  destruct (wf_cases o W) as [(l' & S & _)|[(l' & S & _)|(l' & _ & D' & W')]];
    [rewrite S in B; discriminate..|].
  rewrite D in D'. injection D' as <-. cbv zeta in W'. destruct W' as (O & E & L & M & F & FE & DV).
  rewrite wrap_zero by apply P. destruct (i =? 0) eqn:I0.
  { replace ((1 <=? i) && (i <=? n)) with false by lia. reflexivity. }
  rewrite (locate_bytes_ok o l n i) by (try assumption; destruct P; unfold uwrap64; lia).
  destruct ((1 <=? i) && (i <=? n)) eqn:EI; [|destruct (encode _ _); reflexivity].
  destruct (encode (o_shape o) v) as [[u| | | |]|]; try reflexivity.
  unfold has_size in HS. rewrite D in HS.
  pose proof (esize_cases _ B) as SC.
  replace (_ <=? _) with true; [reflexivity|].
  destruct SC as [SC|[SC|[SC|SC]]]; rewrite SC in *; lia.
Qed.

Lemma at_words_ok o l n i :
  wf_obj o -> o_shape o = Pointer -> o_data o = Words l -> has_size o n -> 1 <= n ->
  - 2 ^ 62 <= i < 2 ^ 62 ->
  at_ o i = if (1 <=? i) && (i <=? n) then
     match nth_error l (Z.to_nat (o_fixed o + i - 1)) with Some v => Ok v | None => UB end
   else Err.
Proof.
  intros W S D HS N R. unfold at_. rewrite S, D.
  rewrite wrap_zero by assumption. destruct (i =? 0) eqn:I0.
  { replace ((1 <=? i) && (i <=? n)) with false by lia. reflexivity. }
  destruct (wf_cases o W) as [(l' & _ & D' & F & L)|[(l' & S' & _)|(l' & B & _)]];
    [|congruence|rewrite S in B; discriminate].
  rewrite D in D'. injection D' as <-.
  rewrite (locate_word_ok o l n i) by (try assumption; unfold uwrap64; lia).
  destruct ((1 <=? i) && (i <=? n)); reflexivity.
Qed.

Lemma at_put_words_ok o l n i v :
  wf_obj o -> o_shape o = Pointer -> o_data o = Words l -> has_size o n -> 1 <= n ->
  - 2 ^ 62 <= i < 2 ^ 62 ->
  at_put o i v = if (1 <=? i) && (i <=? n) then
     Ok (with_data o (Words (list_set (Z.to_nat (o_fixed o + i - 1)) v l)))
   else Err.
Proof.
  intros W S D HS N R. unfold at_put. rewrite S, D.
  rewrite wrap_zero by assumption. destruct (i =? 0) eqn:I0.
  { replace ((1 <=? i) && (i <=? n)) with false by lia. reflexivity. }
  destruct (wf_cases o W) as [(l' & _ & D' & F & L)|[(l' & S' & _)|(l' & B & _)]];
    [|congruence|rewrite S in B; discriminate].
  rewrite D in D'. injection D' as <-.
  rewrite (locate_word_ok o l n i) by (try assumption; unfold uwrap64; lia).
  unfold has_size in HS. rewrite D in HS. destruct HS as [_ HS].
  destruct ((1 <=? i) && (i <=? n)) eqn:EI; [|reflexivity].
  replace (_ <? _) with true by lia. reflexivity.
Qed.

(** C05 *)
Lemma out_of_range_refused o n i v :
  wf_obj o -> has_size o n -> 1 <= n -> plain_index o i -> ~ (1 <= i <= n) ->
  at_ o i = Err /\ at_put o i v = Err.
Proof.
  intros W HS N P NR.
  assert (EI : (1 <=? i) && (i <=? n) = false) by lia.
  destruct (wf_cases o W) as [(l & S & D & _)|[(l & S & D)|(l & B & D & _)]].
  - rewrite (at_words_ok o l n i), (at_put_words_ok o l n i v) by (try assumption; apply P).
    rewrite EI. auto.
  - unfold at_, at_put. rewrite S. destruct (_ <? _); auto.
  - rewrite (at_bytes_ok o l n i), (at_put_bytes_ok o l n i v) by assumption.
    rewrite EI. auto.
Qed.

Lemma in_range_reads o n i :
  wf_obj o -> has_size o n -> plain_index o i -> 1 <= i <= n -> exists v, at_ o i = Ok v.
Proof.
  intros W HS P R.
  assert (EI : (1 <=? i) && (i <=? n) = true) by lia.
  destruct (wf_cases o W) as [(l & S & D & F & L)|[(l & S & D)|(l & B & D & _)]].
  - rewrite (at_words_ok o l n i) by (try assumption; try apply P; lia). rewrite EI.
    unfold has_size in HS. rewrite D in HS. destruct HS as [_ HS].
    destruct (nth_error l _) eqn:E; [eauto|]. apply nth_error_None in E. lia.
  - unfold has_size in HS. rewrite D in HS. destruct HS as [HS _]. congruence.
  - rewrite (at_bytes_ok o l n i) by (try assumption; lia). rewrite EI. eauto.
Qed.

Lemma slice_ext off n l l' : length l = length l' ->
  0 <= off -> 0 <= n -> off + n <= Z.of_nat (length l) ->
  (forall k, off <= k < off + n -> nth_error l (Z.to_nat k) = nth_error l' (Z.to_nat k)) ->
  slice off n l = slice off n l'.
Proof.
  intros L H1 H2 H3 H. apply nth_error_ext_eq.
  - rewrite !slice_length by lia. reflexivity.
  - intros k Hk. rewrite slice_length in Hk by lia. rewrite !nth_error_slice.
    replace (k <? _)%nat with true by lia.
    specialize (H (off + Z.of_nat k) ltac:(lia)).
    replace (Z.to_nat (off + Z.of_nat k)) with (Z.to_nat off + k)%nat in H by lia. exact H.
Qed.

Lemma has_size_layout o o' n : same_layout o o' -> has_size o n -> has_size o' n.
Proof.
  intros (A & B & C & D). unfold has_size. rewrite <- A, <- B, <- C.
  destruct (o_data o), (o_data o'); try contradiction; rewrite D; auto.
Qed.

Lemma reads_only_slot o o' n i :
  wf_obj o -> wf_obj o' -> same_layout o o' -> has_size o n -> plain_index o i -> 1 <= i <= n ->
  (forall k, in_slot o i k -> agree_at o o' k) -> at_ o i = at_ o' i.
Proof.
  intros W W' SL HS P R A.
  pose proof (has_size_layout _ _ _ SL HS) as HS'.
  assert (P' : plain_index o' i).
  { unfold plain_index in *. rewrite <- (proj1 SL). exact P. }
  destruct SL as (S1 & S2 & S3 & S4).
  assert (EI : (1 <=? i) && (i <=? n) = true) by lia.
  destruct (wf_cases o W) as [(l & S & D & F & L)|[(l & S & D)|(l & B & D & OK)]].
  - rewrite D in S4. destruct (o_data o') as [l'|] eqn:D'; [|contradiction].
    rewrite (at_words_ok o l n i), (at_words_ok o' l' n i)
      by (try assumption; try apply P; try congruence; lia). rewrite EI.
    specialize (A (o_fixed o + i - 1)). unfold in_slot, agree_at in A. rewrite D, D' in A.
    specialize (A eq_refl). rewrite <- S2, A. reflexivity.
  - unfold has_size in HS. rewrite D in HS. destruct HS as [HS _]. congruence.
  - rewrite D in S4. destruct (o_data o') as [|l'] eqn:D'; [contradiction|].
    rewrite (at_bytes_ok o l n i), (at_bytes_ok o' l' n i)
      by (try assumption; try congruence; lia). rewrite EI. rewrite <- S1, <- S2.
    do 3 f_equal. cbv zeta in OK.
    unfold has_size in HS. rewrite D in HS. pose proof (esize_cases _ B) as SC.
    apply slice_ext; [assumption|..].
    + destruct SC as [SC|[SC|[SC|SC]]]; rewrite SC; lia.
    + lia.
    + destruct SC as [SC|[SC|[SC|SC]]]; rewrite SC in *; lia.
    + intros k Hk. specialize (A k). unfold in_slot, agree_at in A. rewrite D, D' in A. apply A. lia.
Qed.

Lemma splice_ok off new l : digits_ok 256 new -> digits_ok 256 l -> digits_ok 256 (splice off new l).
Proof.
  intros. unfold splice. apply digits_ok_app; split; [apply digits_ok_firstn; assumption|].
  apply digits_ok_app; split; [assumption|apply digits_ok_skipn; assumption].
Qed.

Lemma wf_with_bytes o l l' :
  wf_obj o -> byte_shape (o_shape o) = true -> o_data o = Bytes l -> length l' = length l -> digits_ok 256 l' ->
  wf_obj (with_data o (Bytes l')).
Proof.
  intros [F W] B D L O. split; [exact F|]. cbn [o_shape o_fixed o_empty o_data with_data].
  rewrite D in W. rewrite L. revert W B. destruct (o_shape o); intros W B; try discriminate B; cbv zeta in *; tauto.
Qed.

Lemma writes_only_slot o n i v o' :
  wf_obj o -> has_size o n -> plain_index o i -> 1 <= i <= n ->
  at_put o i v = Ok o' ->
  wf_obj o' /\ same_layout o o' /\ forall k, 0 <= k -> ~ in_slot o i k -> agree_at o o' k.
Proof.
  intros W HS P R E.
  assert (EI : (1 <=? i) && (i <=? n) = true) by lia.
  destruct (wf_cases o W) as [(l & S & D & F & L)|[(l & S & D)|(l & B & D & OK)]].
  - rewrite (at_put_words_ok o l n i v) in E by (try assumption; try apply P; lia).
    rewrite EI in E. injection E as <-.
    unfold has_size in HS. rewrite D in HS. destruct HS as [_ HS].
    split; [|split].
    + destruct W as [W1 W2]. split; [exact W1|]. cbn [o_shape o_fixed o_empty o_data with_data].
      rewrite S, D in *. rewrite list_set_length. exact W2.
    + unfold same_layout. cbn [o_shape o_fixed o_empty o_data with_data]. rewrite D, list_set_length. auto.
    + intros k K0 NS. unfold agree_at, in_slot in *. cbn [o_data with_data]. rewrite D in *.
      rewrite nth_error_list_set by lia. replace (Z.to_nat k =? _)%nat with false by lia. reflexivity.
  - unfold has_size in HS. rewrite D in HS. destruct HS as [HS _]. congruence.
  - rewrite (at_put_bytes_ok o l n i v) in E by (try assumption; lia).
    rewrite EI in E. destruct (encode (o_shape o) v) as [[u| | | |]|]; try discriminate.
    injection E as <-. cbv zeta in OK.
    unfold has_size in HS. rewrite D in HS. pose proof (esize_cases _ B) as SC.
    assert (RNG : 0 <= o_fixed o * 8 + (i - 1) * esize (o_shape o) /\
      o_fixed o * 8 + (i - 1) * esize (o_shape o) + esize (o_shape o) <= Z.of_nat (length l)).
    { destruct SC as [SC|[SC|[SC|SC]]]; rewrite SC in *; lia. }
    set (off := o_fixed o * 8 + (i - 1) * esize (o_shape o)) in *.
    assert (LN : Z.of_nat (length (to_digits 256 (Z.to_nat (esize (o_shape o))) u)) = esize (o_shape o)).
    { rewrite to_digits_length. lia. }
    set (new := to_digits 256 (Z.to_nat (esize (o_shape o))) u) in *.
    assert (SLN : length (splice off new l) = length l) by (apply splice_length; lia).
    split; [|split].
    + apply (wf_with_bytes o l); try assumption. apply splice_ok; [apply to_digits_ok; lia|apply OK].
    + unfold same_layout. cbn [o_shape o_fixed o_empty o_data with_data]. rewrite D, SLN. auto.
    + intros k K0 NS. unfold agree_at, in_slot in *. cbn [o_data with_data]. rewrite D in *.
      rewrite nth_error_splice by lia.
      destruct (_ <? Z.to_nat off)%nat eqn:E1; [reflexivity|].
      destruct (_ <? Z.to_nat off + _)%nat eqn:E2; [|reflexivity]. exfalso. apply NS. subst off. lia.
Qed.

(** C06 *)
Lemma wrap_in_32 z : - 2 ^ 31 <= z < 2 ^ 31 -> wrap32 (uwrap32 z) = z.
Proof. unfold wrap32, uwrap32. lia. Qed.

Definition canonical_small z : canonical (Small z) -> - 2 ^ 62 <= z < 2 ^ 62 := fun H => H.

Lemma small_of i z : canonical i -> st_val i = z -> - 2 ^ 62 <= z < 2 ^ 62 -> i = Small z.
Proof.
  intros C V R. apply canonical_unique; [assumption|exact R|exact V].
Qed.

(* Every value that fits and is not deviant is encoded, and decoded back. *)
Lemma encode_decode s v : byte_shape s = true -> fits s v -> ~ deviant s v ->
  exists u, encode s v = Some (Ok u) /\ 0 <= u < 256 ^ esize s /\ decode s u = v.
Proof.
  intros B F ND.
  destruct s; try discriminate B; destruct v as [i|c|c|b|b|w]; cbn [fits deviant] in F, ND; try contradiction.
  - destruct F as [C R]. pose proof (small_of i _ C eq_refl ltac:(lia)) as E.
    rewrite E. set (z := st_val i) in *. clearbody z. cbn [encode].
    replace ((-128 <=? z) && (z <=? 127)) with true by lia.
    eexists. split; [reflexivity|]. split; [cbn; lia|]. cbn [decode]. do 2 f_equal. unfold signed.
    change (2 ^ (8 - 1)) with 128. change (2 ^ 8) with 256. destruct (_ <? _) eqn:?; lia.
  - destruct F as [C R]. pose proof (small_of i _ C eq_refl ltac:(lia)) as E.
    rewrite E. set (z := st_val i) in *. clearbody z. cbn [encode].
    replace ((0 <=? z) && (z <=? 255)) with true by lia.
    eexists. split; [reflexivity|]. split; [cbn; lia|]. cbn [decode]. do 2 f_equal. lia.
  - cbn [encode]. eexists. split; [reflexivity|]. split; [cbn; lia|]. cbn [decode]. f_equal. lia.
  - destruct F as [C R]. pose proof (small_of i _ C eq_refl ltac:(lia)) as E.
    rewrite E. set (z := st_val i) in *. clearbody z. cbn [encode].
    replace ((-32768 <=? z) && (z <=? 32767)) with true by lia.
    eexists. split; [reflexivity|]. split; [cbn; lia|]. cbn [decode]. do 2 f_equal. lia.
  - destruct F as [C R]. pose proof (small_of i _ C eq_refl ltac:(lia)) as E.
    rewrite E. set (z := st_val i) in *. clearbody z. cbn [encode].
    replace ((0 <=? z) && (z <=? 65535)) with true by lia.
    eexists. split; [reflexivity|]. split; [cbn; lia|]. cbn [decode]. do 2 f_equal. lia.
  - destruct F as [C R]. cbn [encode].
    rewrite (proj2 (is_c_int_32_spec i (st_val i) (conj C eq_refl) ND) R).
    pose proof (small_of i _ C eq_refl ltac:(lia)) as E.
    rewrite E. set (z := st_val i) in *. clearbody z. cbn [to_c_int_32].
    eexists. split; [reflexivity|]. split; [change (256 ^ esize Int) with (2 ^ 32); unfold uwrap32; lia|].
    cbn [decode]. f_equal. unfold from_c_int_32.
    replace (wrap32 (uwrap32 (wrap32 z))) with z by (unfold wrap32, uwrap32; lia).
    replace ((- 2 ^ 62 <=? z) && (z <=? 2 ^ 62 - 1)) with true by lia. reflexivity.
  - destruct F as [C R]. cbn [encode].
    rewrite (proj2 (is_c_uint_32_spec i (st_val i) (conj C eq_refl) ND) R).
    pose proof (small_of i _ C eq_refl ltac:(lia)) as E.
    rewrite E. set (z := st_val i) in *. clearbody z. cbn [to_c_int_32].
    eexists. split; [reflexivity|]. split; [change (256 ^ esize UInt) with (2 ^ 32); unfold uwrap32; lia|].
    cbn [decode]. f_equal. unfold from_c_uint_32.
    replace (uwrap32 (wrap32 z)) with z by (unfold wrap32, uwrap32; lia).
    replace (z <=? 2 ^ 62 - 1) with true by lia. reflexivity.
  - cbn [encode]. eexists. split; [reflexivity|]. change (256 ^ esize FloatE) with (2 ^ 32).
    split; [unfold uwrap32; lia|]. cbn [decode]. f_equal. unfold uwrap32. lia.
  - destruct F as [C R]. cbn [encode].
    rewrite (proj2 (is_c_int_64_spec i (st_val i) (conj C eq_refl)) R).
    rewrite (to_c_int_64_spec i (st_val i) (conj C eq_refl) R).
    eexists. split; [reflexivity|]. change (256 ^ esize Int64) with (2 ^ 64).
    split; [unfold uwrap64; lia|]. cbn [decode]. f_equal.
    replace (wrap64 (uwrap64 (st_val i))) with (st_val i) by (unfold wrap64, uwrap64; lia).
    destruct (from_c_int_64_obj (st_val i) R) as [C' V']. apply canonical_unique; congruence.
  - destruct F as [C R]. cbn [encode].
    rewrite (proj2 (is_c_uint_64_spec i (st_val i) (conj C eq_refl)) R).
    rewrite (to_c_uint_64_spec i (st_val i) (conj C eq_refl) ltac:(lia)).
    eexists. split; [reflexivity|]. change (256 ^ esize UInt64) with (2 ^ 64).
    split; [lia|]. cbn [decode]. f_equal.
    destruct (from_c_uint_64_obj (st_val i) R) as [C' V']. apply canonical_unique; congruence.
  - cbn [encode]. eexists. split; [reflexivity|]. change (256 ^ esize FloatD) with (2 ^ 64).
    split; [unfold uwrap64; lia|]. cbn [decode]. f_equal. unfold uwrap64. lia.
  - cbn [encode]. replace (c <=? 127) with true by lia.
    eexists. split; [reflexivity|]. change (256 ^ esize Utf32) with (2 ^ 32).
    split; [unfold uwrap32; lia|]. cbn [decode].
    replace (uwrap32 c) with c by (unfold uwrap32; lia). unfold char_new.
    replace (c <=? 127) with true by lia. reflexivity.
  - cbn [encode]. eexists. split; [reflexivity|]. change (256 ^ esize Utf32) with (2 ^ 32).
    split; [unfold uwrap32; lia|]. cbn [decode].
    replace (uwrap32 c) with c by (unfold uwrap32; lia). unfold char_new.
    replace (c <=? 127) with false by lia. replace (c >? 1114111) with false by lia. reflexivity.
Qed.

Lemma store_load o n i v :
  wf_obj o -> has_size o n -> plain_index o i -> 1 <= i <= n ->
  fits (o_shape o) v -> ~ deviant (o_shape o) v ->
  exists o', at_put o i v = Ok o' /\ wf_obj o' /\ has_size o' n /\ at_ o' i = Ok v /\
    forall j, plain_index o j -> 1 <= j <= n -> j <> i -> at_ o' j = at_ o j.
Proof.
  intros W HS P R FT ND.
  assert (EI : (1 <=? i) && (i <=? n) = true) by lia.
  assert (EX : exists o', at_put o i v = Ok o').
  { destruct (wf_cases o W) as [(l & S & D & F & L)|[(l & S & D)|(l & B & D & OK)]].
    - rewrite (at_put_words_ok o l n i v) by (try assumption; try apply P; lia). rewrite EI. eauto.
    - rewrite S in FT. destruct v; contradiction.
    - rewrite (at_put_bytes_ok o l n i v) by (try assumption; lia). rewrite EI.
      destruct (encode_decode _ _ B FT ND) as (u & -> & _). eauto. }
  destruct EX as [o' EP]. exists o'. split; [exact EP|].
  destruct (writes_only_slot o n i v o' W HS P R EP) as (W' & SL & AG).
  pose proof (has_size_layout _ _ _ SL HS) as HS'.
  split; [exact W'|]. split; [exact HS'|]. split.
  - destruct (wf_cases o W) as [(l & S & D & F & L)|[(l & S & D)|(l & B & D & OK)]].
    + rewrite (at_put_words_ok o l n i v) in EP by (try assumption; try apply P; lia).
      rewrite EI in EP. injection EP as <-.
      erewrite at_words_ok; [|exact W'|exact S|reflexivity|exact HS'|lia|apply P].
      rewrite EI. cbn [o_fixed with_data]. unfold has_size in HS. rewrite D in HS.
      rewrite nth_error_list_set by lia. rewrite Nat.eqb_refl. reflexivity.
    + rewrite S in FT. destruct v; contradiction.
    + rewrite (at_put_bytes_ok o l n i v) in EP by (try assumption; lia). rewrite EI in EP.
      destruct (encode_decode _ _ B FT ND) as (u & EE & UR & DD). rewrite EE in EP. injection EP as <-.
      erewrite at_bytes_ok; [|exact W'|exact B|reflexivity|exact HS'|lia|exact P].
      rewrite EI. cbn [o_fixed o_shape with_data]. f_equal.
      unfold has_size in HS. rewrite D in HS. pose proof (esize_cases _ B) as SC. cbv zeta in OK.
      assert (RNG : 0 <= o_fixed o * 8 + (i - 1) * esize (o_shape o) /\
        o_fixed o * 8 + (i - 1) * esize (o_shape o) + esize (o_shape o) <= Z.of_nat (length l)).
      { destruct SC as [SC|[SC|[SC|SC]]]; rewrite SC in *; lia. }
      set (new := to_digits 256 (Z.to_nat (esize (o_shape o))) u) in *.
      assert (LN : Z.of_nat (length new) = esize (o_shape o)) by (subst new; rewrite to_digits_length; lia).
      pose proof (slice_splice_same (o_fixed o * 8 + (i - 1) * esize (o_shape o)) new l ltac:(lia) ltac:(lia)) as SS.
      rewrite LN in SS. rewrite SS.
      subst new. rewrite to_digits_val by lia. rewrite Z2Nat.id by lia.
      rewrite Z.mod_small by lia. exact DD.
  - intros j PJ RJ NE. symmetry. apply (reads_only_slot o o' n j); try assumption.
    intros k IS. apply AG.
    + unfold in_slot in IS. destruct W as [F _]. destruct (o_data o).
      * lia.
      * destruct (o_shape o); cbn [esize] in IS; lia.
    + intros IS'. unfold in_slot in *. destruct (o_data o); [lia|].
      destruct (o_shape o); cbn [esize] in *; lia.
Qed.

(** Findings *)
Lemma index_bounds_refuted_l :
  (exists o, wf_obj o /\ has_size o 0 /\ at_ o 1 = UB /\ at_put o 1 (VOther 0) = UB) /\
  (exists o i v, wf_obj o /\ has_size o 1 /\ - 2 ^ 62 <= i < 2 ^ 62 /\ ~ (1 <= i <= 1) /\ at_ o i = Ok v) /\
  (exists o i v o', wf_obj o /\ has_size o 1 /\ - 2 ^ 62 <= i < 0 /\ at_put o i v = Ok o' /\ at_ o 1 <> at_ o' 1).
Proof.
  split; [|split].
  - exists (mk_obj Pointer 0 0 (Words [])).
    split; [split; cbn; lia|]. split; [split; reflexivity|]. split; vm_compute; reflexivity.
  - exists (mk_obj Int64 0 0 (Bytes [7; 0; 0; 0; 0; 0; 0; 0])), (2 ^ 61 + 1), (VInt (Small 7)).
    split; [|split; [|split; [|split]]]; [|reflexivity|lia|lia|vm_compute; reflexivity].
    split; cbn; [lia|]. repeat split; try lia. repeat constructor; lia.
  - exists (mk_obj UInt 0 4 (Bytes [7; 0; 0; 0; 0; 0; 0; 0])), (- 2 ^ 62 + 1), (VInt (Small 9)).
    eexists.
    split; [|split; [|split; [|split]]]; [|reflexivity|lia|vm_compute; reflexivity|vm_compute; discriminate].
    split; cbn; [lia|]. repeat split; try lia. repeat constructor; lia.
Qed.

Lemma store_load_refuted_l :
  (exists o o' v w, wf_obj o /\ has_size o 4 /\ fits (o_shape o) v /\ at_put o 1 v = Ok o' /\ at_ o' 1 = Ok w /\ w <> v) /\
  (exists o v, wf_obj o /\ has_size o 2 /\ o_shape o = Int /\ fits (o_shape o) v /\ at_put o 1 v = Err) /\
  (exists o v, wf_obj o /\ has_size o 2 /\ o_shape o = UInt /\ fits (o_shape o) v /\ at_put o 1 v = Err) /\
  (exists o v, wf_obj o /\ has_size o 1 /\ o_shape o = UInt64 /\ fits (o_shape o) v /\ at_put o 1 v = UB).
Proof.
  set (z8 := Bytes [0; 0; 0; 0; 0; 0; 0; 0]).
  assert (W : forall s, s = Short \/ s = Int \/ s = UInt \/ s = UInt64 -> wf_obj (mk_obj s 0 0 z8)).
  { intros s Hs. assert (digits_ok 256 [0; 0; 0; 0; 0; 0; 0; 0]) by (repeat constructor; lia).
    destruct Hs as [->|[->|[->| ->]]]; (split; cbn; [lia|]; repeat split; try lia; assumption). }
  split; [|split; [|split]].
  - exists (mk_obj Short 0 0 z8). eexists. exists (VInt (Small (-1))). eexists.
    split; [auto|]. split; [reflexivity|]. split; [cbn; lia|].
    split; [vm_compute; reflexivity|]. split; [vm_compute; reflexivity|discriminate].
  - exists (mk_obj Int 0 0 z8), (VInt (Small (2 ^ 31 - 1))).
    split; [auto|]. split; [reflexivity|]. split; [reflexivity|]. split; [cbn; lia|vm_compute; reflexivity].
  - exists (mk_obj UInt 0 0 z8), (VInt (Small (2 ^ 32 - 1))).
    split; [auto|]. split; [reflexivity|]. split; [reflexivity|]. split; [cbn; lia|vm_compute; reflexivity].
  - exists (mk_obj UInt64 0 0 z8), (VInt (from_c_uint_64 (2 ^ 63))).
    destruct (from_c_uint_64_obj (2 ^ 63) ltac:(lia)) as [C V].
    split; [auto 6|]. split; [reflexivity|]. split; [reflexivity|].
    split; [cbn [fits o_shape]; rewrite V; split; [exact C|lia]|vm_compute; reflexivity].
Qed.

Lemma basic_size_ok o n : wf_obj o -> has_size o n -> basic_size o = n.
Proof.
  intros [F W] H. unfold basic_size, has_size, num_words in *. unfold wf_obj in W.
  destruct o as [s fx em d]; cbn [o_shape o_fixed o_empty o_data] in *.
  destruct s, d as [l|l]; try contradiction; try (destruct H; discriminate); cbn [esize] in *; try lia.
Qed.
