(** Proofs about kernel/Getopt.st as modelled in Getopt.v. *)
From Coq Require Import Ascii String Permutation Lia.
From Verif Require Import Base Getopt GetoptSpec.
Import ListNotations.
Local Open Scope list_scope.
Local Open Scope char_scope.

(** * Equality *)
Lemma text_eqb_ok a b : text_eqb a b = true <-> a = b.
Proof.
  revert b; induction a as [|x a IH]; intros [|y b]; cbn; split; intro H; try discriminate; auto.
  - apply andb_prop in H as [H1 H2]. apply Ascii.eqb_eq in H1. apply IH in H2. congruence.
  - injection H as -> ->. rewrite Ascii.eqb_refl. apply IH. reflexivity.
Qed.
Lemma text_eqb_no a b : text_eqb a b = false <-> a <> b.
Proof.
  split; intro H.
  - intro E0. apply text_eqb_ok in E0. congruence.
  - destruct (text_eqb a b) eqn:Q; [apply text_eqb_ok in Q; contradiction|reflexivity].
Qed.
Lemma key_eqb_ok a b : key_eqb a b = true <-> a = b.
Proof.
  destruct a, b; cbn; split; intro H; try discriminate.
  - apply Ascii.eqb_eq in H. congruence.
  - injection H as ->. apply Ascii.eqb_refl.
  - apply text_eqb_ok in H. congruence.
  - injection H as ->. apply text_eqb_ok. reflexivity.
Qed.
Lemma key_dec (a b : key) : {a = b} + {a <> b}.
Proof.
  destruct (key_eqb a b) eqn:Q; [left; apply key_eqb_ok; exact Q|right; intro H; apply key_eqb_ok in H; congruence].
Qed.
Lemma mem_text t l : existsb (text_eqb t) l = true <-> In t l.
Proof.
  rewrite existsb_exists. split.
  - intros [x [H1 H2]]. apply text_eqb_ok in H2. subst. exact H1.
  - intro H. exists t. split; [exact H|apply text_eqb_ok; reflexivity].
Qed.
Lemma starts_with_ok s p : starts_with s p = true <-> exists r, s = p ++ r.
Proof.
  revert s; induction p as [|y p IH]; intro s.
  - split; [intros _; exists s; reflexivity|intros _; destruct s; reflexivity].
  - destruct s as [|x s].
    + split; [discriminate|intros [r H]; discriminate].
    + change (starts_with (x :: s) (y :: p)) with (Ascii.eqb x y && starts_with s p). split.
      * intro H. apply andb_prop in H as [H1 H2]. apply Ascii.eqb_eq in H1. apply IH in H2 as [r ->].
        exists r. subst. reflexivity.
      * intros [r H]. injection H as -> ->. rewrite Ascii.eqb_refl. cbn [andb]. apply IH. exists r. reflexivity.
Qed.

Lemma separator_ok c : separator c = true <-> blank c.
Proof.
  split.
  - destruct c as [[] [] [] [] [] [] [] []]; vm_compute; intro H; try discriminate; tauto.
  - intro H. unfold blank in H. cbn [In] in H. destruct H as [<-|[<-|[<-|[<-|[<-|[]]]]]]; reflexivity.
Qed.

(** * Words *)
Lemma sub_word sep w : forall cur rest, Forall (fun c => sep c = false) w ->
  sub_strings sep cur (w ++ rest) = sub_strings sep (cur ++ w) rest.
Proof.
  induction w as [|c w IH]; intros cur rest H.
  - rewrite app_nil_r. reflexivity.
  - inversion H as [|? ? H1 H2]; subst. cbn [app sub_strings]. rewrite H1, IH by exact H2.
    rewrite <- app_assoc. reflexivity.
Qed.
Lemma sub_blank sep ws : forall rest, Forall (fun c => sep c = true) ws ->
  sub_strings sep [] (ws ++ rest) = sub_strings sep [] rest.
Proof.
  induction ws as [|c ws IH]; intros rest H; [reflexivity|].
  inversion H as [|? ? H1 H2]; subst. cbn [app sub_strings]. rewrite H1. cbn. apply IH. exact H2.
Qed.
Lemma sub_end sep w rest : w <> [] -> rest = [] \/ (exists c r, rest = c :: r /\ sep c = true) ->
  sub_strings sep w rest = w :: sub_strings sep [] rest.
Proof.
  intros H [->|[c [r [-> H1]]]]; destruct w as [|x w]; try contradiction; cbn.
  - reflexivity.
  - rewrite H1. reflexivity.
Qed.
Lemma sub_bars l : l <> [] -> Forall (fun w => w <> [] /\ ~ In "|" w) l ->
  sub_strings (Ascii.eqb "|") [] (bars l) = l.
Proof.
  induction l as [|w l IH]; intros H0 H; [contradiction|]. inversion H as [|? ? [H1 H2] H3]; subst.
  assert (W : Forall (fun c => Ascii.eqb "|" c = false) w).
  { apply Forall_forall. intros c Hc. apply Ascii.eqb_neq. intros <-. contradiction. }
  destruct l as [|w' l].
  - cbn [bars]. rewrite <- (app_nil_r w) at 1. rewrite sub_word by exact W. cbn [app].
    rewrite sub_end by auto. reflexivity.
  - change (bars (w :: w' :: l)) with (w ++ "|" :: bars (w' :: l)). rewrite sub_word by exact W. cbn [app].
    rewrite sub_end; [|exact H1|right; eexists _, _; split; [reflexivity|reflexivity]].
    f_equal. change (sub_strings (Ascii.eqb "|") [] ("|" :: bars (w' :: l)))
      with (sub_strings (Ascii.eqb "|") [] (bars (w' :: l))). apply IH; [discriminate|exact H3].
Qed.

(** * One word of the pattern *)
Lemma spell_chars n : name_ok n -> Forall (fun c => plain c) (spell n).
Proof.
  assert (D : plain "-") by (unfold plain, blank; cbn [In]; repeat split; try discriminate; intros [H|[H|[H|[H|[H|[]]]]]]; discriminate).
  destruct n as [c|t]; cbn.
  - intros [H _]. constructor; [exact D|constructor; [exact H|constructor]].
  - intros [_ H]. constructor; [exact D|constructor; [exact D|]].
    eapply Forall_impl; [|exact H]. intros a [Ha _]. exact Ha.
Qed.
Lemma spell_not_nil n : spell n <> [].
Proof. destruct n; discriminate. Qed.
Lemma bars_chars (R : ascii -> Prop) l : R "|" -> Forall (Forall R) l -> Forall R (bars l).
Proof.
  intros B. induction l as [|w l IH]; intro H; [constructor|]. inversion H; subst.
  destruct l as [|w' l]; [assumption|].
  change (bars (w :: w' :: l)) with (w ++ "|" :: bars (w' :: l)). apply Forall_app. split; [assumption|].
  constructor; [exact B|apply IH; assumption].
Qed.
Lemma filter_all {A} (f : A -> bool) l : Forall (fun x => f x = true) l -> filter f l = l.
Proof. induction 1 as [|x l H _ IH]; [reflexivity|cbn; rewrite H, IH; reflexivity]. Qed.
Lemma check_ok l : Forall name_ok l -> check_synonyms (map spell l) = true.
Proof.
  intro H. unfold check_synonyms. apply andb_true_intro. split; [apply andb_true_intro; split|].
  - apply forallb_forall. intros x Hx. apply in_map_iff in Hx as [n [<- _]].
    apply starts_with_ok. destruct n; cbn [spell]; eexists; reflexivity.
  - apply Bool.negb_true_iff. apply Bool.not_true_iff_false. intro Q. apply existsb_exists in Q as [x [Hx Q]].
    apply in_map_iff in Hx as [n [<- Hn]]. rewrite Forall_forall in H. specialize (H n Hn).
    apply Bool.orb_true_iff in Q as [Q|Q].
    + destruct n; cbn in Q; discriminate.
    + apply text_eqb_ok in Q. destruct n; cbn in Q, H; injection Q as Q.
      * destruct H; contradiction.
      * destruct H; contradiction.
  - apply Bool.negb_true_iff. apply Bool.not_true_iff_false. intro Q. apply existsb_exists in Q as [x [Hx Q]].
    apply in_map_iff in Hx as [n [<- Hn]]. rewrite Forall_forall in H. specialize (H n Hn).
    apply andb_prop in Q as [Q1 Q2]. apply starts_with_ok in Q1 as [r Q1]. destruct n as [c|t]; cbn in Q1, H.
    + injection Q1 as Q1 _. destruct H; contradiction.
    + apply existsb_exists in Q2 as [y [Hy Q2]]. apply Ascii.eqb_eq in Q2. subst y. cbn in Hy.
      destruct Hy as [Hy|[Hy|Hy]]; try discriminate. destruct H as [_ H]. rewrite Forall_forall in H.
      destruct (H _ Hy) as [_ H']. apply H'. reflexivity.
Qed.

Definition long_keys (P : list (key * oval)) : list text :=
  flat_map (fun p => match fst p with KText t => [t] | KChar _ => [] end) P.
Definition inits (t : text) : list text := map (fun n => firstn n t) (seq 1 (length t)).
Definition state_of (P : list (key * oval)) : getopt :=
  mkG (rev P) (long_keys P) (flat_map inits (long_keys P)).
Definition closed (P : list (key * oval)) : Prop :=
  NoDup (map fst P) /\ forall n c, In (n, VName c) P -> In c (map fst P).

Lemma in_long_keys t P : In t (long_keys P) <-> In (KText t) (map fst P).
Proof.
  unfold long_keys. rewrite in_flat_map, in_map_iff. split.
  - intros [[k v] [H1 H2]]. exists (k, v). cbn in *. destruct k; [contradiction|].
    destruct H2 as [->|[]]. auto.
  - intros [[k v] [H1 H2]]. exists (k, v). cbn in *. subst k. cbn. auto.
Qed.
Lemma long_keys_app P Q : long_keys (P ++ Q) = long_keys P ++ long_keys Q.
Proof. apply flat_map_app. Qed.

Lemma syn_ok P n v : closed P -> name_ok n -> ~ In n (map fst P) ->
  at_synonym (state_of P) (spell n) v = Ok (state_of (P ++ [(n, v)]), n).
Proof.
  intros [_ C] N X. unfold at_synonym.
  assert (V : forall o, (forall k w, In (k, VName w) o -> In (k, VName w) (rev P)) -> includes_value o n = false).
  { intros o Ho. unfold includes_value. apply Bool.not_true_iff_false. intro Q.
    apply existsb_exists in Q as [[k w] [H1 H2]]. cbn [fst snd] in H2. destruct w as [|w]; [discriminate|].
    apply andb_prop in H2 as [H2 _]. apply key_eqb_ok in H2. subst w.
    apply Ho in H1. apply in_rev in H1. apply C in H1. contradiction. }
  assert (W : includes_value (rev P) n = false) by (apply V; auto).
  destruct n as [c|t].
  - cbn [spell options state_of]. rewrite W. unfold state_of. rewrite rev_app_distr, long_keys_app. cbn [rev app long_keys flat_map fst].
    rewrite app_nil_r. reflexivity.
  - cbn [spell]. destruct N as [N0 _]. destruct t as [|x t]; [contradiction|].
    cbv beta iota. cbn [skipn]. unfold add_long. cbn [options longs prefixes state_of].
    unfold state_of at 1. cbn [options]. rewrite W.
    cbn [options longs prefixes state_of].
    replace (existsb (text_eqb (x :: t)) (long_keys P)) with false.
    2:{ symmetry. apply Bool.not_true_iff_false. intro Q. apply mem_text in Q. apply in_long_keys in Q. contradiction. }
    unfold state_of. rewrite rev_app_distr, long_keys_app, flat_map_app. cbn [rev app long_keys flat_map fst].
    rewrite app_nil_r. reflexivity.
Qed.

Lemma closed_snoc P n v : closed P -> ~ In n (map fst P) -> (forall c, v = VName c -> In c (map fst P)) ->
  closed (P ++ [(n, v)]).
Proof.
  intros [A B] X Y. split.
  - rewrite map_app. cbn [map fst]. apply (Permutation_NoDup (Permutation_cons_append (map fst P) n)).
    constructor; assumption.
  - intros m c H. rewrite map_app, in_app_iff. left. apply in_app_or in H as [H|[H|[]]].
    + exact (B m c H).
    + injection H as _ ->. apply Y. reflexivity.
Qed.

Lemma syns_ok l : forall P c, closed P -> Forall name_ok l -> NoDup l -> (forall n, In n l -> ~ In n (map fst P)) ->
  In c (map fst P) ->
  at_synonyms (state_of P) (map spell l) (VName c) = Ok (state_of (P ++ map (fun n => (n, VName c)) l))
  /\ closed (P ++ map (fun n => (n, VName c)) l).
Proof.
  induction l as [|n l IH]; intros P c C N D X Y.
  - cbn. rewrite app_nil_r. auto.
  - cbn [map at_synonyms]. inversion N; subst. inversion D; subst.
    rewrite syn_ok; [|assumption..|apply X; left; reflexivity]. cbn [obind fst].
    replace (P ++ (n, VName c) :: map (fun n0 => (n0, VName c)) l)
      with ((P ++ [(n, VName c)]) ++ map (fun n0 => (n0, VName c)) l) by (rewrite <- app_assoc; reflexivity).
    apply IH; try assumption.
    + apply closed_snoc; [assumption|apply X; left; reflexivity|]. intros c' E0. injection E0 as <-. exact Y.
    + intros m Hm. rewrite map_app, in_app_iff. intros [Q|[Q|[]]].
      * exact (X m (or_intror Hm) Q).
      * cbn in Q. subst m. contradiction.
    + rewrite map_app, in_app_iff. left. exact Y.
Qed.

(** What is stored for one option and for all. *)
Definition pairs (e : list key * kind) : list (key * oval) :=
  let c := List.last (fst e) (KText []) in
  (c, VKind (snd e)) :: map (fun n => (n, VName c)) (removelast (fst e)).
Definition all_pairs (T : table) : list (key * oval) := flat_map pairs T.

Lemma pairs_keys e : fst e <> [] -> Permutation (map fst (pairs e)) (fst e).
Proof.
  intro H. unfold pairs. cbn [map fst]. rewrite map_map. cbn [fst]. rewrite map_id.
  rewrite (app_removelast_last (KText []) H) at 3. apply Permutation_cons_append.
Qed.
Lemma map_last {A B} (f : A -> B) l d d' : l <> [] -> List.last (map f l) d' = f (List.last l d).
Proof.
  induction l as [|a l IH]; intro H; [contradiction|]. destruct l as [|b l]; [reflexivity|].
  change (List.last (map f (b :: l)) d' = f (List.last (b :: l) d)). apply IH. discriminate.
Qed.
Lemma map_removelast {A B} (f : A -> B) l : removelast (map f l) = map f (removelast l).
Proof.
  induction l as [|a l IH]; [reflexivity|]. destruct l as [|b l]; [reflexivity|].
  change (f a :: removelast (map f (b :: l)) = f a :: map f (removelast (b :: l))). f_equal. exact IH.
Qed.

Lemma entry_ok P e : closed P -> fst e <> [] -> Forall name_ok (fst e) -> NoDup (fst e) ->
  (forall n, In n (fst e) -> ~ In n (map fst P)) ->
  at_all_synonyms (state_of P) (map spell (fst e)) (snd e) = Ok (state_of (P ++ pairs e)) /\ closed (P ++ pairs e).
Proof.
  intros C Ne N D X. destruct e as [l k]; cbn [fst snd] in *.
  pose proof (app_removelast_last (KText []) Ne) as AL.
  set (c := List.last l (KText [])) in *. set (r := removelast l) in *.
  unfold at_all_synonyms. destruct (map spell l) as [|y ys] eqn:Q; [destruct l; [contradiction|discriminate]|].
  rewrite <- Q. rewrite (map_last spell l (KText []) [] Ne), map_removelast. fold c r.
  assert (Hc : In c l) by (rewrite AL; apply in_or_app; right; left; reflexivity).
  assert (Hr : forall n, In n r -> In n l) by (intros n Hn; rewrite AL; apply in_or_app; left; exact Hn).
  rewrite Forall_forall in N. rewrite AL in D.
  apply (Permutation_NoDup (Permutation_sym (Permutation_cons_append r c))) in D. apply NoDup_cons_iff in D as [D4 D5].
  rewrite syn_ok; [|assumption|apply N; exact Hc|apply X; exact Hc]. cbn [obind fst snd].
  unfold pairs. cbn [fst snd]. fold c r.
  replace (P ++ (c, VKind k) :: map (fun n => (n, VName c)) r)
    with ((P ++ [(c, VKind k)]) ++ map (fun n => (n, VName c)) r) by (rewrite <- app_assoc; reflexivity).
  apply syns_ok.
  - apply closed_snoc; [assumption|apply X; exact Hc|discriminate].
  - apply Forall_forall. auto.
  - assumption.
  - intros n Hn. rewrite map_app, in_app_iff. intros [Z|[Z|[]]].
    + exact (X n (Hr n Hn) Z).
    + cbn in Z. subst n. contradiction.
  - rewrite map_app, in_app_iff. right. left. reflexivity.
Qed.

Lemma word_ok P e : closed P -> fst e <> [] -> Forall name_ok (fst e) -> NoDup (fst e) ->
  (forall n, In n (fst e) -> ~ In n (map fst P)) ->
  parse_word (state_of P) (word e) = Ok (state_of (P ++ pairs e)) /\ closed (P ++ pairs e).
Proof.
  intros C Ne N D X. destruct (entry_ok P e C Ne N D X) as [E1 E2]. split; [|exact E2].
  unfold parse_word, word. destruct e as [l k]; cbn [fst snd] in *.
  assert (B : Forall (fun c => negb (Ascii.eqb c ":") = true) (bars (map spell l))).
  { apply bars_chars; [reflexivity|]. apply Forall_forall. intros w Hw. apply in_map_iff in Hw as [n [<- Hn]].
    rewrite Forall_forall in N. eapply Forall_impl; [|exact (spell_chars n (N n Hn))].
    intros c [Hc _]. apply Bool.negb_true_iff. apply Ascii.eqb_neq. exact Hc. }
  rewrite filter_app, (filter_all _ _ B).
  replace (filter (fun c => negb (c =? ":")%char) (colons k)) with (@nil ascii) by (destruct k; reflexivity).
  rewrite app_nil_r, skipn_app, skipn_all, Nat.sub_diag, app_length.
  replace (forallb (Ascii.eqb ":") ([] ++ skipn 0 (colons k))) with true by (destruct k; reflexivity).
  replace (length (bars (map spell l)) + length (colons k) - length (bars (map spell l)))%nat
    with (length (colons k)) by lia.
  replace (colons_to_kind (length (colons k))) with (Ok k) by (destruct k; reflexivity).
  cbn [obind]. rewrite sub_bars.
  - rewrite check_ok by exact N. exact E1.
  - destruct l; [contradiction|discriminate].
  - apply Forall_forall. intros w Hw. apply in_map_iff in Hw as [n [<- Hn]]. split; [apply spell_not_nil|].
    intro Q. rewrite Forall_forall in N. pose proof (spell_chars n (N n Hn)) as S0. rewrite Forall_forall in S0.
    destruct (S0 _ Q) as [_ [S1 _]]. apply S1. reflexivity.
Qed.

Lemma nodup_app {A} (l m : list A) : NoDup (l ++ m) -> NoDup l /\ NoDup m /\ forall x, In x l -> ~ In x m.
Proof.
  induction l as [|a l IH]; cbn; intro H.
  - repeat split; [constructor|exact H|intros x []].
  - inversion H; subst. destruct (IH H3) as [A1 [A2 A3]]. rewrite in_app_iff in H2. repeat split.
    + constructor; [tauto|exact A1].
    + exact A2.
    + intros x [<-|Hx]; [tauto|apply A3; exact Hx].
Qed.

Lemma words_ok T : forall P, closed P -> table_ok T -> (forall n, In n (names T) -> ~ In n (map fst P)) ->
  parse_words (state_of P) (map word T) = Ok (state_of (P ++ all_pairs T)) /\ closed (P ++ all_pairs T).
Proof.
  induction T as [|e T IH]; intros P C [F D] X.
  - cbn. rewrite app_nil_r. auto.
  - inversion F as [|? ? [F1 F2] F3]; subst. unfold names in D, X. cbn [flat_map] in D, X.
    destruct (nodup_app _ _ D) as [D1 [D2 D3]].
    cbn [map parse_words]. destruct (word_ok P e C F1 F2 D1) as [W1 W2].
    { intros n Hn. apply X. apply in_or_app. left. exact Hn. }
    rewrite W1. cbn [obind]. unfold all_pairs. cbn [flat_map]. rewrite app_assoc. apply IH.
    + exact W2.
    + split; assumption.
    + intros n Hn. rewrite map_app, in_app_iff. intros [Q|Q].
      * apply (X n); [apply in_or_app; right; exact Hn|exact Q].
      * apply (Permutation_in _ (pairs_keys e F1)) in Q. exact (D3 n Q Hn).
Qed.

Lemma word_chars e : Forall name_ok (fst e) -> Forall (fun c => separator c = false) (word e).
Proof.
  intro H. unfold word. apply Forall_app. split.
  - apply bars_chars; [reflexivity|]. apply Forall_forall. intros w Hw. apply in_map_iff in Hw as [n [<- Hn]].
    rewrite Forall_forall in H. eapply Forall_impl; [|exact (spell_chars n (H n Hn))].
    intros c [_ [_ Hc]]. apply Bool.not_true_iff_false. rewrite separator_ok. exact Hc.
  - destruct (snd e); repeat constructor.
Qed.
Lemma word_not_nil e : fst e <> [] -> word e <> [].
Proof.
  destruct e as [[|n [|m l]] k]; intro H; cbn [fst] in H; [contradiction| |];
    unfold word; cbn [fst map bars]; destruct n; discriminate.
Qed.
Lemma pattern_words T p : pattern_of T p -> table_ok T -> sub_strings separator [] p = map word T.
Proof.
  intro H. induction H as [ws H|ws e T rest H1 H2 IH H3]; intros [F D].
  - rewrite <- (app_nil_r ws). rewrite sub_blank; [reflexivity|].
    eapply Forall_impl; [|exact H]. intros c Hc. apply separator_ok. exact Hc.
  - inversion F as [|? ? [F1 F2] F3]; subst.
    rewrite sub_blank.
    2:{ eapply Forall_impl; [|exact H1]. intros c Hc. apply separator_ok. exact Hc. }
    rewrite sub_word by (apply word_chars; exact F2). cbn [app map].
    rewrite sub_end.
    + f_equal. apply IH. split; [exact F3|]. unfold names in D. cbn [flat_map] in D.
      destruct (nodup_app _ _ D) as [_ [D2 _]]. exact D2.
    + apply word_not_nil. exact F1.
    + destruct H3 as [->|[c [r [-> H3]]]]; [left; reflexivity|right]. exists c, r. split; [reflexivity|].
      apply separator_ok. exact H3.
Qed.

Lemma pattern_ok order T p : pattern_of T p -> table_ok T ->
  parse_pattern order p = Ok (reject_bad order (state_of (all_pairs T))) /\ closed (all_pairs T).
Proof.
  intros H K. unfold parse_pattern. rewrite (pattern_words T p H K).
  change (mkG [] [] []) with (state_of []).
  destruct (words_ok T [] ) as [W1 W2].
  - split; [constructor|intros n c []].
  - exact K.
  - intros n _ [].
  - rewrite W1. cbn [obind app]. split; [reflexivity|exact W2].
Qed.
