(** Proofs about searching sub-collections and replacing all of them. *)
From Verif Require Import Base Replace ReplaceSpec ReplaceProofs SeqOps SeqOpsSpec SeqOpsProofs SeqOpsCopy.

Lemma Forall2_length {A B} (P : A -> B -> Prop) (l : list A) (m : list B) : Forall2 P l m -> length l = length m.
Proof. intros H. induction H; cbn; lia. Qed.

Section All.
  Context {A : Type}.
  Variable eqb : A -> A -> bool.
  Implicit Types l s sub old new : list A.
  (** Whether [s] starts with something like [sub]. *)
  Fixpoint prefixb (s sub : list A) {struct sub} : bool :=
    match sub, s with
    | [], _ => true
    | y :: sub, x :: s => eqb x y && prefixb s sub
    | _ :: _, [] => false
    end.
  Lemma prefixb_spec s sub : prefixb s sub = true <-> exists m b, s = m ++ b /\ same eqb m sub.
  Proof.
    revert s. induction sub as [|y sub IH]; intros s; cbn.
    - split; [|reflexivity]. intros _. exists [], s. split; [reflexivity|constructor].
    - destruct s as [|x s]; cbn.
      + split; [discriminate|]. intros (m & b & E & M). inversion M; subst. discriminate.
      + rewrite andb_true_iff, IH. split.
        * intros (E & m & b & -> & M). exists (x :: m), b. split; [reflexivity|]. constructor; assumption.
        * intros (m & b & E & M). inversion M; subst. cbn in E. injection E as -> ->. split; [assumption|]. eauto.
  Qed.
  Lemma occurs_prefixb sub s k : occurs eqb sub s k <-> (k <= length s)%nat /\ prefixb (skipn k s) sub = true.
  Proof.
    unfold occurs. rewrite prefixb_spec. split.
    - intros (a & m & b & -> & <- & M). split; [rewrite app_length; lia|]. exists m, b. split; [|exact M].
      rewrite (skipn_exact a _ _ 0) by lia. reflexivity.
    - intros (L & m & b & E & M). exists (firstn k s), m, b. split; [|split; [|exact M]].
      + rewrite <- E. symmetry. apply firstn_skipn.
      + rewrite firstn_length. lia.
  Qed.
  Lemma prefixb_length s sub : prefixb s sub = true -> (length sub <= length s)%nat.
  Proof.
    intros H. apply prefixb_spec in H as (m & b & -> & M). apply Forall2_length in M. rewrite app_length. lia.
  Qed.

  (** ** Searching *)
  Lemma match_sub_ok y : forall a x b, (length y <= length x)%nat ->
    match_sub eqb (a ++ x) (b ++ y) (size a) (size b + 1) (length y) = Ok (prefixb x y).
  Proof.
    induction y as [|u y IH]; intros a x b L; [reflexivity|]. cbn [match_sub length prefixb].
    destruct x as [|v x]; [cbn in L; lia|]. rewrite !at_app by reflexivity. cbn [obind].
    destruct (eqb v u); [|reflexivity]. cbn [andb].
    replace (a ++ v :: x) with ((a ++ [v]) ++ x) by (rewrite <- app_assoc; reflexivity).
    replace (b ++ u :: y) with ((b ++ [u]) ++ y) by (rewrite <- app_assoc; reflexivity).
    replace (size a + 1) with (size (a ++ [v])) by (rewrite size_app; reflexivity).
    replace (size b + 1) with (size (b ++ [u])) by (rewrite size_app; reflexivity).
    apply IH. cbn in L. lia.
  Qed.
  (** The first of [n] places at which [sub] occurs. *)
  Fixpoint first_at (sub s : list A) (n : nat) : option nat :=
    match n with
    | O => None
    | S n => if prefixb s sub then Some 0%nat else option_map S (first_at sub (tl s) n)
    end.
  Lemma scan_sub_ok sub n : sub <> [] -> forall a x, (n + length sub <= length x + 1)%nat ->
    scan_sub eqb (a ++ x) sub (size a + 1) n = Ok (option_map (fun k => size a + 1 + Z.of_nat k) (first_at sub x n)).
  Proof.
    intros N. destruct sub as [|u sub]; [congruence|]. clear N.
    induction n as [|n IH]; intros a x L; [reflexivity|]. cbn [scan_sub first_at].
    destruct x as [|v x]; [cbn in L; lia|]. rewrite at_app by reflexivity. cbn [obind].
    change (at_ (u :: sub) 1) with (at_ ([] ++ u :: sub) (size ([] : list A) + 1)). rewrite at_app by reflexivity. cbn [obind].
    cbn [prefixb length tl].
    replace (if eqb v u then match_sub eqb (a ++ v :: x) (u :: sub) (size a + 1) 2 (S (length sub) - 1) else Ok false)
      with (Ok (eqb v u && prefixb x sub)).
    2:{ destruct (eqb v u); [|reflexivity]. cbn [andb]. symmetry.
        replace (a ++ v :: x) with ((a ++ [v]) ++ x) by (rewrite <- app_assoc; reflexivity).
        replace (size a + 1) with (size (a ++ [v])) by (rewrite size_app; reflexivity).
        replace (S (length sub) - 1)%nat with (length sub) by lia.
        apply (match_sub_ok sub (a ++ [v]) x [u]). cbn in L. lia. }
    cbn [obind]. destruct (eqb v u && prefixb x sub).
    { cbn. do 2 f_equal. lia. }
    replace (a ++ v :: x) with ((a ++ [v]) ++ x) by (rewrite <- app_assoc; reflexivity).
    replace (size a + 1 + 1) with (size (a ++ [v]) + 1) by (rewrite size_app; reflexivity).
    rewrite IH by (cbn [length] in L |- *; lia). f_equal. destruct (first_at (u :: sub) x n); cbn [option_map]; [|reflexivity].
    f_equal. rewrite size_app. change (size [v]) with 1. lia.
  Qed.
  Lemma first_at_some sub n : forall s k, first_at sub s n = Some k ->
    (k < n)%nat /\ prefixb (skipn k s) sub = true /\ forall j, (j < k)%nat -> prefixb (skipn j s) sub = false.
  Proof.
    induction n as [|n IH]; intros s k H; cbn in H; [discriminate|]. destruct (prefixb s sub) eqn:P.
    - injection H as <-. repeat split; [lia|exact P|]. intros j J. lia.
    - destruct (first_at sub (tl s) n) as [k'|] eqn:F; [|discriminate]. injection H as <-.
      destruct (IH _ _ F) as (L & Q & R). repeat split; [lia| |].
      + destruct s; cbn in *; [rewrite skipn_nil in Q|]; exact Q.
      + intros [|j] J; [exact P|]. specialize (R j ltac:(lia)). destruct s; cbn in *; [rewrite skipn_nil in R|]; exact R.
  Qed.
  Lemma first_at_none sub n : forall s, first_at sub s n = None -> forall j, (j < n)%nat -> prefixb (skipn j s) sub = false.
  Proof.
    induction n as [|n IH]; intros s H j J; [lia|]. cbn in H. destruct (prefixb s sub) eqn:P; [discriminate|].
    destruct (first_at sub (tl s) n) as [k'|] eqn:F; [discriminate|]. destruct j as [|j]; [exact P|].
    specialize (IH _ F j ltac:(lia)). destruct s; cbn in *; [rewrite skipn_nil in IH|]; exact IH.
  Qed.
  (** The search from after [a] in [a ++ s]. *)
  Lemma index_of_sub_cases sub a s : sub <> [] ->
    index_of_sub eqb (a ++ s) sub (size a + 1) = Ok None /\ (forall k, ~ occurs eqb sub s k) \/
    exists k, index_of_sub eqb (a ++ s) sub (size a + 1) = Ok (Some (size a + 1 + Z.of_nat k)) /\
      occurs eqb sub s k /\ forall j, (j < k)%nat -> ~ occurs eqb sub s j.
  Proof.
    intros N. assert (0 < size sub) by (unfold size; destruct sub; [congruence|]; cbn [length]; lia).
    unfold index_of_sub. replace (size sub =? 0) with false by lia. rewrite size_app.
    destruct (Z.leb_spec (size a + 1 + size sub - 1) (size a + size s)) as [C|C].
    - set (n := Z.to_nat _). assert (NN : (n + length sub = length s + 1)%nat) by (unfold n, size in *; lia).
      rewrite scan_sub_ok by (auto; lia). destruct (first_at sub s n) as [k|] eqn:F.
      + right. exists k. split; [reflexivity|]. apply first_at_some in F as (L & P & R). split.
        * apply occurs_prefixb. split; [lia|exact P].
        * intros j J O. apply occurs_prefixb in O as [_ O]. rewrite R in O by lia. discriminate.
      + left. split; [reflexivity|]. intros k O. apply occurs_prefixb in O as [L O].
        destruct (Nat.lt_ge_cases k n) as [K|K].
        * rewrite (first_at_none _ _ _ F) in O by lia. discriminate.
        * apply prefixb_length in O. rewrite skipn_length in O. lia.
    - left. split; [reflexivity|]. intros k O. apply occurs_prefixb in O as [L O].
      apply prefixb_length in O. rewrite skipn_length in O. unfold size in *. lia.
  Qed.

  (** ** Cutting *)
  Lemma cut_exists sub : sub <> [] -> forall n s, (length s <= n)%nat -> exists ps t, cut eqb sub s ps t.
  Proof.
    intros N. induction n as [|n IH]; intros s L.
    - exists [], s. constructor. intros k (a & m & b & -> & _ & M). apply Forall2_length in M.
      rewrite !app_length in L. destruct sub; [congruence|]. cbn in M. lia.
    - destruct (index_of_sub_cases sub [] s N) as [(_ & H)|(k & _ & (a & m & b & -> & <- & M) & F)].
      + exists [], s. constructor. exact H.
      + pose proof (Forall2_length _ _ _ M) as ML. rewrite !app_length in L.
        destruct (IH b) as (ps & t & C).
        { destruct sub; [congruence|]. cbn in ML. lia. }
        exists (a :: ps), t. constructor; auto.
  Qed.
  Lemma cut_unique sub s ps t : sub <> [] -> cut eqb sub s ps t -> forall ps' t', cut eqb sub s ps' t' -> ps' = ps /\ t' = t.
  Proof.
    intros N H. induction H as [s H|p m s ps t M F C IH]; intros ps' t' H'.
    - remember s as s0 eqn:E. destruct H' as [s0' _|p m s' ps' t' M F C]; [subst; auto|]. subst. exfalso. apply (H (length p)).
      exists p, m, s'. auto.
    - remember (p ++ m ++ s) as s0 eqn:E. destruct H' as [s0' Q|p' m' s' ps' t' M' F' C'].
      { subst. exfalso. apply (Q (length p)). exists p, m, s. auto. }
      assert (LL : length p' = length p).
      { destruct (Nat.lt_trichotomy (length p') (length p)) as [L|[L|L]]; [|exact L|]; exfalso.
        - apply (F _ L). exists p', m', s'. auto.
        - apply (F' _ L). rewrite E. exists p, m, s. auto. }
      assert (ML : length m' = length m) by (apply Forall2_length in M, M'; lia).
      assert (p' = p). { apply (f_equal (firstn (length p))) in E. rewrite !firstn_exact in E by lia. exact E. }
      subst p'. apply app_inv_head in E.
      assert (m' = m). { apply (f_equal (firstn (length m))) in E. rewrite !firstn_exact in E by lia. exact E. }
      subst m'. apply app_inv_head in E. subst s'. destruct (IH _ _ C') as [-> ->]. auto.
  Qed.

  Theorem index_of_sub_ok l sub i : sub <> [] -> 1 <= i <= size l + 1 ->
    match index_of_sub eqb l sub i with
    | Ok (Some k) => i <= k /\ occurs eqb sub l (Z.to_nat (k - 1)) /\
        forall j, i <= j < k -> ~ occurs eqb sub l (Z.to_nat (j - 1))
    | Ok None => forall j, i <= j -> ~ occurs eqb sub l (Z.to_nat (j - 1))
    | _ => False
    end.
  Proof.
    intros N I. set (a := firstn (Z.to_nat (i - 1)) l). set (s := skipn (Z.to_nat (i - 1)) l).
    assert (L : l = a ++ s) by (symmetry; apply firstn_skipn).
    assert (SA : size a = i - 1) by (unfold a; apply size_firstn; lia).
    assert (O : forall j, i <= j -> occurs eqb sub l (Z.to_nat (j - 1)) -> occurs eqb sub s (Z.to_nat (j - i))).
    { intros j J H. apply occurs_prefixb in H as [H1 H2]. apply occurs_prefixb. unfold s. rewrite skipn_length. split; [lia|].
      replace (skipn (Z.to_nat (j - i)) (skipn (Z.to_nat (i - 1)) l)) with (skipn (Z.to_nat (j - 1)) l); [exact H2|].
      rewrite L at 1. rewrite (skipn_exact a s _ (Z.to_nat (j - i))) by (unfold size in SA; lia). reflexivity. }
    destruct (index_of_sub_cases sub a s N) as [(E & H)|(k & E & H & F)];
      rewrite <- L in E; rewrite SA in E; replace (i - 1 + 1) with i in E by lia; rewrite E.
    - intros j J P. exact (H _ (O j J P)).
    - split; [lia|]. split.
      + destruct H as (b & m & c & S1 & S2 & S3). exists (a ++ b), m, c. split; [rewrite L, S1, app_assoc; reflexivity|].
        split; [|exact S3]. rewrite app_length. unfold size in SA. lia.
      + intros j J P. apply (F (Z.to_nat (j - i)) ltac:(lia)). apply O; [lia|exact P].
  Qed.

  Variable nil : A.
  (** ** The loops follow the cuts *)
  Lemma index_of_first a p m s sub : sub <> [] -> same eqb m sub ->
    (forall k, (k < length p)%nat -> ~ occurs eqb sub (p ++ m ++ s) k) ->
    index_of_sub eqb (a ++ p ++ m ++ s) sub (size a + 1) = Ok (Some (size a + 1 + size p)).
  Proof.
    intros N M F. destruct (index_of_sub_cases sub a (p ++ m ++ s) N) as [(_ & H)|(k & -> & O & G)].
    - exfalso. apply (H (length p)). exists p, m, s. auto.
    - do 2 f_equal. unfold size. do 2 f_equal. destruct (Nat.lt_trichotomy k (length p)) as [L|[L|L]]; [|exact L|]; exfalso.
      + exact (F _ L O).
      + apply (G _ L). exists p, m, s. auto.
  Qed.
  Lemma index_of_none a s sub : sub <> [] -> (forall k, ~ occurs eqb sub s k) ->
    index_of_sub eqb (a ++ s) sub (size a + 1) = Ok None.
  Proof. intros N H. destruct (index_of_sub_cases sub a s N) as [(E & _)|(k & _ & O & _)]; [exact E|]. destruct (H k O). Qed.
  Lemma cut_length sub s ps t : sub <> [] -> cut eqb sub s ps t -> (length ps <= length s)%nat.
  Proof.
    intros N C. induction C as [s H|p m s ps t M F C IH]; cbn; [lia|]. apply Forall2_length in M.
    rewrite !app_length. destruct sub; [congruence|]. cbn in M. lia.
  Qed.
  Lemma count_sub_ok sub s ps t : sub <> [] -> cut eqb sub s ps t -> forall a fuel n, (length ps < fuel)%nat ->
    count_sub eqb fuel (a ++ s) sub (size a + 1) n = Ok (n + Z.of_nat (length ps)).
  Proof.
    intros N C. induction C as [s H|p m s ps t M F C IH]; intros a fuel n FU; (destruct fuel as [|fuel]; [lia|]); cbn [count_sub].
    - rewrite index_of_none by assumption. cbn. f_equal. lia.
    - rewrite index_of_first by assumption. cbn [obind]. pose proof (size_nonneg a). pose proof (size_nonneg p).
      replace (0 <? _) with true by lia. rewrite !app_assoc. rewrite <- (app_assoc a).
      assert (size sub = size m) by (apply Forall2_length in M; unfold size; lia).
      replace (size a + 1 + size p + size sub) with (size (a ++ p ++ m) + 1) by (rewrite !size_app; lia).
      rewrite IH by (cbn in FU; lia). f_equal. cbn [length]. lia.
  Qed.
  (** How long the result is. *)
  Lemma pasted_length sub new s ps t : cut eqb sub s ps t ->
    size (pasted new ps t) = size s + (size new - size sub) * Z.of_nat (length ps).
  Proof.
    intros C. induction C as [s H|p m s ps t M F C IH]; unfold pasted in *; cbn [concat map app length].
    - lia.
    - rewrite !size_app. rewrite !size_app in IH. apply Forall2_length in M. unfold size in *. lia.
  Qed.
  Lemma replace_all_loop_ok prim old new s ps t : old <> [] -> cut eqb old s ps t -> forall a d k fuel, (length ps < fuel)%nat ->
    Z.of_nat k = size (pasted new ps t) ->
    replace_all_loop eqb prim fuel (a ++ s) old new (d ++ repeat nil k) (size a + 1) (size d + 1) = Ok (d ++ pasted new ps t).
  Proof.
    intros N C. induction C as [s H|p m s ps t M F C IH]; intros a d k fuel FU K; (destruct fuel as [|fuel]; [lia|]);
      cbn [replace_all_loop]; pose proof (size_nonneg a); pose proof (size_nonneg d); pose proof (size_nonneg s).
    - rewrite index_of_none by assumption. cbn [obind]. unfold pasted in *. cbn [concat map app] in *.
      rewrite size_app, size_repeat. rewrite replacing_next; try (rewrite ?size_app; lia).
      replace (Z.to_nat (size a + 1 - 1)) with (length a) by (unfold size; lia).
      rewrite (skipn_exact a s _ 0) by lia. cbn [skipn]. rewrite firstn_all2 by (unfold size in *; lia).
      replace (k - _)%nat with 0%nat by lia. cbn [repeat]. rewrite app_nil_r. reflexivity.
    - rewrite index_of_first by assumption. cbn [obind]. pose proof (size_nonneg p). pose proof (size_nonneg new). pose proof (size_nonneg m).
      assert (E : pasted new (p :: ps) t = p ++ new ++ pasted new ps t).
      { unfold pasted. cbn [concat map]. rewrite <- !app_assoc. reflexivity. }
      rewrite E in K. rewrite !size_app in K. pose proof (size_nonneg (pasted new ps t)).
      rewrite replacing_next; try (rewrite ?size_app; lia). cbn [obind].
      replace (Z.to_nat (size a + 1 - 1)) with (length a) by (unfold size; lia).
      rewrite (skipn_exact a _ _ 0) by lia. cbn [skipn].
      replace (size d + 1 + (size a + 1 + size p - (size a + 1)) - 1 - (size d + 1) + 1) with (size p) by lia.
      rewrite size_to_nat, firstn_exact by lia.
      rewrite replacing_next; try (rewrite ?size_app; unfold size in *; lia). cbn [obind].
      change (Z.to_nat (1 - 1)) with 0%nat. cbn [skipn].
      replace (Z.to_nat (_ - _ + 1)) with (length new) by (unfold size; lia). rewrite firstn_all.
      replace (a ++ p ++ m ++ s) with ((a ++ (p ++ m)) ++ s) by (rewrite <- !app_assoc; reflexivity).
      assert (size old = size m) by (apply Forall2_length in M; unfold size; lia).
      replace (size a + 1 + (size a + 1 + size p - (size a + 1)) + size old) with (size (a ++ (p ++ m)) + 1) by (rewrite !size_app; lia).
      replace (size d + 1 + (size a + 1 + size p - (size a + 1)) + size new) with (size ((d ++ p) ++ new) + 1) by (rewrite !size_app; lia).
      rewrite IH; [|cbn in FU; lia|unfold size in *; lia]. f_equal. rewrite E, <- !app_assoc. reflexivity.
  Qed.
  Theorem copy_replace_all_ok prim fuel l old new : old <> [] -> (length l < fuel)%nat ->
    exists ps t, cut eqb old l ps t /\ copy_replace_all eqb nil prim fuel l old new = Ok (pasted new ps t).
  Proof.
    intros N FU. destruct (cut_exists old N (length l) l ltac:(lia)) as (ps & t & C). exists ps, t. split; [exact C|].
    pose proof (cut_length _ _ _ _ N C). unfold copy_replace_all.
    change (count_sub eqb fuel l old 1 0) with (count_sub eqb fuel ([] ++ l) old (size ([] : list A) + 1) 0).
    rewrite (count_sub_ok _ _ _ _ N C) by lia. cbn [obind]. rewrite Z.add_0_l.
    rewrite <- (pasted_length _ new _ _ _ C). unfold copy_empty. pose proof (size_nonneg (pasted new ps t)).
    replace (_ <? 0) with false by lia. cbn [obind].
    apply (replace_all_loop_ok prim old new _ _ _ N C [] [] (Z.to_nat (size (pasted new ps t))) fuel); lia.
  Qed.
  Lemma seq_replace_all_loop_ok old new s ps t : old <> [] -> cut eqb old s ps t -> forall a d fuel, (length ps < fuel)%nat ->
    seq_replace_all_loop eqb fuel (a ++ s) old new d (size a + 1) = Ok (d ++ pasted new ps t).
  Proof.
    assert (FT : forall a p r : list A, from_to_do (a ++ p ++ r) (size a + 1) (size a + size p) = Ok p).
    { intros a p r. unfold from_to_do. pose proof (size_nonneg a). pose proof (size_nonneg p). pose proof (size_nonneg r).
      rewrite from_do_ok; [|lia|rewrite !size_app; lia]. f_equal.
      replace (Z.to_nat (size a + 1 - 1)) with (length a) by (unfold size; lia).
      rewrite (skipn_exact a _ _ 0) by lia. cbn [skipn]. apply firstn_exact. unfold size. lia. }
    intros N C. induction C as [s H|p m s ps t M F C IH]; intros a d fuel FU; (destruct fuel as [|fuel]; [lia|]); cbn [seq_replace_all_loop].
    - rewrite index_of_none by assumption. cbn [obind]. rewrite size_app.
      specialize (FT a s []). rewrite app_nil_r in FT. rewrite FT. reflexivity.
    - rewrite index_of_first by assumption. cbn [obind].
      replace (size a + 1 + (size a + 1 + size p - (size a + 1)) - 1) with (size a + size p) by lia.
      rewrite FT. cbn [obind]. replace (a ++ p ++ m ++ s) with ((a ++ (p ++ m)) ++ s) by (rewrite <- !app_assoc; reflexivity).
      assert (size old = size m) by (apply Forall2_length in M; unfold size; lia).
      replace (size a + 1 + (size a + 1 + size p - (size a + 1)) + size old) with (size (a ++ (p ++ m)) + 1) by (rewrite !size_app; lia).
      rewrite IH by (cbn in FU; lia). unfold pasted. cbn [concat map]. f_equal. rewrite <- !app_assoc. reflexivity.
  Qed.
  Theorem seq_copy_replace_all_ok fuel l old new : old <> [] -> (length l < fuel)%nat ->
    exists ps t, cut eqb old l ps t /\ seq_copy_replace_all eqb nil fuel l old new = Ok (pasted new ps t).
  Proof.
    intros N FU. destruct (cut_exists old N (length l) l ltac:(lia)) as (ps & t & C). exists ps, t. split; [exact C|].
    pose proof (cut_length _ _ _ _ N C). unfold seq_copy_replace_all.
    change (count_sub eqb fuel l old 1 0) with (count_sub eqb fuel ([] ++ l) old (size ([] : list A) + 1) 0).
    rewrite (count_sub_ok _ _ _ _ N C) by lia. cbn [obind]. rewrite Z.add_0_l.
    rewrite <- (pasted_length _ new _ _ _ C). unfold copy_empty. pose proof (size_nonneg (pasted new ps t)).
    replace (_ <? 0) with false by lia. cbn [obind].
    apply (seq_replace_all_loop_ok old new _ _ _ N C [] [] fuel). lia.
  Qed.
  (** Looking for nothing finds it everywhere. *)
  Lemma count_empty fuel : forall l i n, 1 <= i -> count_sub eqb fuel l [] i n = OutOfFuel.
  Proof.
    induction fuel as [|fuel IH]; intros l i n I; [reflexivity|]. cbn [count_sub]. unfold index_of_sub.
    change (size ([] : list A)) with 0. cbn [Z.eqb obind]. replace (0 <? i) with true by lia. rewrite IH by lia. reflexivity.
  Qed.
  Theorem copy_replace_all_empty prim fuel l new :
    copy_replace_all eqb nil prim fuel l [] new = OutOfFuel /\ seq_copy_replace_all eqb nil fuel l [] new = OutOfFuel.
  Proof. unfold copy_replace_all, seq_copy_replace_all. rewrite count_empty by lia. split; reflexivity. Qed.
End All.
