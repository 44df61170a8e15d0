(** Proofs about names of files. *)
From Verif Require Import Base Replace SeqOps SeqOpsSpec SeqOpsProofs SeqOpsCopy Text TextSpec TextOps Path PathSpec.

(** ** Components *)
Lemma split_slash s : exists ws, sub_strings (fun c => c =? slash) s = Ok ws /\ words is_slash s ws.
Proof.
  destruct (sub_strings_ok (fun c => c =? slash) s) as (ws & E & W). exists ws. split; [exact E|].
  eapply words_ext; [|exact W]. intros c. unfold is_slash, slash. lia.
Qed.
Lemma words_split s ws : words is_slash s ws -> sub_strings (fun c => c =? slash) s = Ok ws.
Proof.
  intros W. destruct (split_slash s) as (ws' & E & W'). rewrite E. f_equal. exact (words_unique _ _ _ W _ W').
Qed.
Lemma words_slash c r ws : is_slash c -> words is_slash r ws -> words is_slash (c :: r) ws.
Proof.
  intros C W. destruct W as [s F|a w r ws A N F G W].
  - constructor. constructor; assumption.
  - change (c :: a ++ w ++ r) with ((c :: a) ++ w ++ r). constructor; auto.
Qed.
Lemma words_app a wa b wb : words is_slash a wa -> words is_slash b wb -> words is_slash (a ++ 47 :: b) (wa ++ wb).
Proof.
  intros A B. induction A as [s F|a w r ws A N F G W IH].
  - induction s as [|c s IHs]; cbn [app].
    + apply words_slash; [reflexivity|exact B].
    + inversion F; subst. apply words_slash; auto.
  - rewrite <- !app_assoc. cbn [app]. constructor; auto. intros c r'. destruct r as [|d r]; cbn [app].
    + intros [= <- _]. reflexivity.
    + intros [= <- _]. eapply G. reflexivity.
Qed.
Definition name (w : list Z) : Prop := w <> [] /\ simple w.
Lemma words_names s ws : words is_slash s ws -> Forall name ws.
Proof.
  intros W. induction W as [s F|a w r ws A N F G W IH]; constructor; auto. split; [exact N|].
  intros I. rewrite Forall_forall in F. apply (F 47 I). reflexivity.
Qed.
Lemma name_plain w : name w -> Forall (fun c => ~ is_slash c) w.
Proof. intros [_ H]. apply Forall_forall. intros c I E. unfold is_slash in E. subst. contradiction. Qed.
Lemma words_flat l : Forall name l -> words is_slash (flat_map (fun w => 47 :: w) l) l.
Proof.
  intros F. induction F as [|w l N F IH]; cbn [flat_map]; [constructor; constructor|].
  change ((47 :: w) ++ flat_map (fun w => 47 :: w) l) with ([47] ++ w ++ flat_map (fun w => 47 :: w) l). constructor; auto.
  - repeat constructor.
  - apply N.
  - apply name_plain, N.
  - intros c r'. destruct l; cbn [flat_map app]; [discriminate|]. intros [= <- _]. reflexivity.
Qed.
Lemma words_rel x l : Forall name (x :: l) -> words is_slash (x ++ flat_map (fun w => 47 :: w) l) (x :: l).
Proof.
  intros F. inversion F as [|? ? N F']; subst. change (x ++ ?r) with ([] ++ x ++ r). constructor; auto.
  - apply N.
  - apply name_plain, N.
  - intros c r'. destruct l; cbn [flat_map app]; [discriminate|]. intros [= <- _]. reflexivity.
  - apply words_flat. exact F'.
Qed.
Lemma fold_flat l : forall a : list Z, fold_left (fun old each => old ++ [slash] ++ each) l a = a ++ flat_map (fun w => 47 :: w) l.
Proof.
  induction l as [|w l IH]; intros a; cbn [fold_left flat_map]; [rewrite app_nil_r; reflexivity|].
  rewrite IH, <- !app_assoc. reflexivity.
Qed.
Lemma absolute_words e : Forall name e -> words is_slash (absolute e) e.
Proof.
  intros F. destruct e as [|w e]; [constructor; repeat constructor|]. exact (words_flat (w :: e) F).
Qed.
Lemma absolute_first e : exists r, absolute e = 47 :: r.
Proof. destruct e; cbn; eauto. Qed.

(** ** Walking *)
Lemma leads_fold ws : forall d, leads d ws (fold_left step ws d).
Proof.
  induction ws as [|w ws IH]; intros d; cbn [fold_left]; [constructor|]. unfold step at 2.
  destruct (list_eq_dec Z.eq_dec w [dot]) as [-> |N1]; [constructor; apply IH|].
  destruct (list_eq_dec Z.eq_dec w [dot; dot]) as [-> |N2].
  - destruct d as [|x d] using rev_ind; [apply P_root; apply IH|]. rewrite removelast_last. apply P_up. apply IH.
  - apply P_down; auto.
Qed.
Lemma leads_fun d ws e : leads d ws e -> e = fold_left step ws d.
Proof.
  intros L. induction L as [d|d ws e L IH|d x ws e L IH|ws e L IH|d w ws e N1 N2 L IH]; cbn [fold_left]; auto.
  - rewrite IH. change (step (d ++ [x]) [46; 46]) with (removelast (d ++ [x])). rewrite removelast_last. reflexivity.
  - rewrite IH. f_equal. unfold step. destruct (list_eq_dec Z.eq_dec w [dot]); [contradiction|].
    destruct (list_eq_dec Z.eq_dec w [dot; dot]); [contradiction|reflexivity].
Qed.
Lemma leads_unique d ws e : leads d ws e -> forall e', leads d ws e' -> e' = e.
Proof. intros L e' M. rewrite (leads_fun _ _ _ L). exact (leads_fun _ _ _ M). Qed.
Lemma leads_proper d ws e : leads d ws e -> Forall proper d -> Forall name ws -> Forall proper e.
Proof.
  intros L. induction L as [d|d ws e L IH|d x ws e L IH|ws e L IH|d w ws e N1 N2 L IH]; intros D W; auto.
  - inversion W; auto.
  - apply Forall_app in D as [D _]. inversion W; auto.
  - inversion W; auto.
  - inversion W as [|? ? [A B] W']; subst. apply IH; auto. apply Forall_app. split; [exact D|]. constructor; [|constructor].
    repeat split; auto.
Qed.
Lemma leads_down ws : forall d, Forall proper ws -> leads d ws (d ++ ws).
Proof.
  induction ws as [|w ws IH]; intros d F; [rewrite app_nil_r; constructor|]. inversion F as [|? ? (A & B & C & D) F']; subst.
  apply P_down; auto. change (w :: ws) with ([w] ++ ws). rewrite app_assoc. apply IH. exact F'.
Qed.
Lemma leads_up s : forall c ws e, leads c ws e -> leads (c ++ s) (map (fun _ => [dot; dot]) s ++ ws) e.
Proof.
  induction s as [|x s IH] using rev_ind; intros c ws e L; [rewrite app_nil_r; exact L|].
  rewrite map_app, <- app_assoc. cbn [map app]. rewrite (app_assoc c s [x]).
  replace (map (fun _ => [dot; dot]) s ++ [dot; dot] :: ws) with ([dot; dot] :: map (fun _ => [dot; dot]) s ++ ws).
  - apply P_up. apply IH. exact L.
  - clear. induction s as [|y s IH]; [reflexivity|]. cbn [map app]. rewrite <- IH. reflexivity.
Qed.
Lemma proper_name l : Forall proper l -> Forall name l.
Proof. apply Forall_impl. intros w (A & B & _). split; assumption. Qed.

(** ** fullNameFor: *)
Theorem full_name_ok cwd s : s <> [] -> exists cs e, words is_slash cwd cs /\ denotes cs s e /\
  full_name cwd s = Ok (absolute e) /\ (Forall proper cs -> Forall proper e).
Proof.
  intros N. destruct s as [|c s]; [congruence|]. destruct (split_slash cwd) as (cs & EC & WC). destruct (split_slash (c :: s)) as (ws & EW & WW).
  exists cs, (fold_left step ws (if c =? 47 then [] else cs)). split; [exact WC|]. split; [exists ws; split; [exact WW|apply leads_fold]|].
  split.
  - unfold full_name, is_absolute. change (at_ (c :: s) 1) with (if (1 <=? 1) && (1 <=? size (c :: s)) then Ok c else Err).
    replace (1 <=? size (c :: s)) with true by (unfold size; cbn [length]; lia). cbn [Z.leb Z.compare Pos.compare Pos.compare_cont andb obind].
    change slash with 47 at 1. replace (if c =? 47 then Ok [] else sub_strings (fun c0 => c0 =? slash) cwd) with (Ok (if c =? 47 then [] else cs))
      by (destruct (c =? 47); [reflexivity|symmetry; exact EC]).
    cbn [obind]. rewrite EW. cbn [obind]. destruct (fold_left step ws _) as [|w e] eqn:E; [reflexivity|]. rewrite fold_flat. reflexivity.
  - intros P. eapply leads_proper; [apply leads_fold| |apply (words_names _ _ WW)]. destruct (c =? 47); [constructor|exact P].
Qed.
Theorem denotes_unique d s e e' : denotes d s e -> denotes d s e' -> e' = e.
Proof.
  intros (ws & W & L) (ws' & W' & L'). rewrite (words_unique _ _ _ W _ W') in L'. destruct s as [|c s]; [contradiction|].
  exact (leads_unique _ _ _ L _ L').
Qed.
Theorem full_name_again cwd e : Forall proper e -> full_name cwd (absolute e) = Ok (absolute e).
Proof.
  intros P. destruct (absolute_first e) as (r & R). destruct (full_name_ok cwd (absolute e)) as (cs & e' & WC & D & E & _); [rewrite R; discriminate|].
  rewrite E. f_equal. f_equal. apply (denotes_unique cs (absolute e)); [|exact D]. exists e. split; [apply absolute_words, proper_name, P|].
  rewrite R. change (47 =? 47) with true. cbn match. exact (leads_down e [] P).
Qed.

(** ** pathFrom:to: *)
Lemma drop_common_ok src : forall dest s d, dest <> [] -> drop_common src dest = (s, d) ->
  d <> [] /\ exists c, src = c ++ s /\ dest = c ++ d.
Proof.
  induction src as [|a src IH]; intros dest s d N E; cbn [drop_common] in E.
  - injection E as <- <-. split; [exact N|]. exists []. auto.
  - destruct dest as [|b [|b' dest]]; [congruence| |].
    + injection E as <- <-. split; [exact N|]. exists []. auto.
    + destruct (list_eq_dec Z.eq_dec a b) as [-> |NE].
      * destruct (IH (b' :: dest) s d) as (ND & c & -> & C); [discriminate|exact E|]. split; [exact ND|]. exists (b :: c). rewrite C. auto.
      * injection E as <- <-. split; [exact N|]. exists []. auto.
Qed.
Lemma join_names x l : joined_by_slash (x :: l) = Ok (x ++ flat_map (fun w => 47 :: w) l).
Proof. cbn [joined_by_slash]. rewrite fold_flat. reflexivity. Qed.
Lemma dots_name : name [dot; dot].
Proof. split; [discriminate|]. unfold simple, dot. cbn. lia. Qed.
Lemma denotes_rel p l e : Forall name l -> l <> [] -> leads p l e -> exists r, joined_by_slash l = Ok r /\ denotes p r e.
Proof.
  intros F N L. destruct l as [|x l]; [congruence|]. rewrite join_names. eexists. split; [reflexivity|].
  exists (x :: l). split; [apply words_rel; exact F|]. inversion F as [|? ? [N1 S1] F']; subst. destruct x as [|c x]; [congruence|]. cbn [app].
  replace (c =? 47) with false; [exact L|]. symmetry. apply Z.eqb_neq. intros ->. apply S1. left. reflexivity.
Qed.
Theorem compute_path_ok p x e : Forall proper (p ++ [x]) -> Forall proper e -> p <> [] \/ e <> [] ->
  exists r, compute_path (absolute (p ++ [x])) (absolute e) = Ok r /\ denotes p r e.
Proof.
  intros PS PE NE. unfold compute_path. rewrite (words_split _ _ (absolute_words _ (proper_name _ PS))). cbn [obind].
  rewrite (words_split _ _ (absolute_words _ (proper_name _ PE))). cbn [obind].
  assert (PP : Forall proper p) by (apply Forall_app in PS; tauto).
  destruct (p ++ [x]) as [|y q] eqn:EQ; [destruct p; discriminate|]. rewrite <- EQ, removelast_last. clear y q EQ PS.
  destruct p as [|a p].
  - destruct NE as [NE|NE]; [congruence|]. destruct e as [|b e]; [congruence|]. cbn [drop_common map app]. cbv zeta.
    apply denotes_rel; [apply proper_name; exact PE|discriminate|]. exact (leads_down _ [] PE).
  - inversion PP as [|? ? (A1 & A2 & A3 & A4) PP']; subst. destruct e as [|b e]; cbv zeta.
    + destruct (list_eq_dec Z.eq_dec a []) as [-> |_]; [congruence|]. exists [47]. split; [reflexivity|].
      exists []. split; [constructor; repeat constructor|]. constructor.
    + destruct (list_eq_dec Z.eq_dec a b) as [-> |N].
      * destruct (drop_common (b :: p) (b :: e)) as [s d] eqn:DC.
        destruct (drop_common_ok (b :: p) (b :: e) s d ltac:(discriminate) DC) as (ND & c & C1 & C2).
        rewrite C1, C2. rewrite C2 in PE. apply Forall_app in PE as [PC PD]. apply denotes_rel.
        -- apply Forall_app. split; [|apply proper_name; exact PD]. apply Forall_forall. intros w I. apply in_map_iff in I as (? & <- & _). apply dots_name.
        -- destruct s; [|discriminate]. exact ND.
        -- apply leads_up. apply leads_down. exact PD.
      * exists (absolute (b :: e)). split; [rewrite join_names; reflexivity|]. exists (b :: e). split; [apply absolute_words, proper_name, PE|].
        destruct (absolute_first (b :: e)) as (r & ->). change (47 =? 47) with true. cbn match. exact (leads_down _ [] PE).
Qed.
Theorem path_from_to_ok cwd cs src dest : words is_slash cwd cs -> Forall proper cs -> src <> [] -> dest <> [] ->
  exists es ed, denotes cs src es /\ denotes cs dest ed /\ path_from_to cwd src dest = compute_path (absolute es) (absolute ed) /\
    Forall proper es /\ Forall proper ed.
Proof.
  intros W P NS ND. destruct (full_name_ok cwd src NS) as (c1 & es & W1 & D1 & E1 & P1).
  destruct (full_name_ok cwd dest ND) as (c2 & ed & W2 & D2 & E2 & P2). rewrite (words_unique _ _ _ W _ W1) in *. rewrite (words_unique _ _ _ W _ W2) in *.
  exists es, ed. split; [exact D1|]. split; [exact D2|]. split; [|auto]. unfold path_from_to. rewrite E1. cbn [obind]. rewrite E2. reflexivity.
Qed.

(** ** Parts of names *)
Lemma find_last_ok p r : forall i,
  (find_last p r i = 0 -> i = Z.of_nat (length r) -> Forall (fun c => p c = false) r) /\
  (i = Z.of_nat (length r) -> find_last p r i <> 0 -> exists b c a, r = b ++ c :: a /\ p c = true /\ Forall (fun c => p c = false) b /\
     find_last p r i = Z.of_nat (length a) + 1).
Proof.
  induction r as [|c r IH]; intros i; cbn [find_last length].
  - split; [constructor|congruence].
  - destruct (p c) eqn:C.
    + split; [lia|]. intros I _. exists [], c, r. repeat split; auto. lia.
    + destruct (IH (i - 1)) as [A B]. split.
      * intros E I. constructor; [exact C|]. apply A; [exact E|lia].
      * intros I N. destruct (B ltac:(lia) N) as (b & d & a & -> & PD & F & E). exists (c :: b), d, a. repeat split; auto.
Qed.
Lemma last_slash_ok s : (last_slash s = 0 /\ simple s) \/
  exists d n, s = d ++ 47 :: n /\ simple n /\ last_slash s = size d + 1.
Proof.
  unfold last_slash. destruct (find_last_ok (fun c => c =? slash) (rev s) (size s)) as [A B].
  assert (L : size s = Z.of_nat (length (rev s))) by (rewrite rev_length; reflexivity).
  destruct (Z.eq_dec (find_last (fun c => c =? slash) (rev s) (size s)) 0) as [E|E].
  - left. split; [exact E|]. specialize (A E L). intros I. apply in_rev in I. rewrite Forall_forall in A. specialize (A 47 I). discriminate.
  - right. destruct (B L E) as (b & c & a & R & C & F & ->). apply Z.eqb_eq in C. subst c.
    exists (rev a), (rev b). apply (f_equal (@rev Z)) in R. rewrite rev_involutive, rev_app_distr in R. cbn [rev] in R.
    rewrite <- app_assoc in R. split; [exact R|]. split; [|unfold size; rewrite rev_length; reflexivity].
    intros I. apply in_rev in I. rewrite Forall_forall in F. specialize (F 47 I). discriminate.
Qed.
Lemma copy_front (a b : list Z) j : j = size a -> copy_from_to 0 true (a ++ b) 1 j = Ok a.
Proof. intros ->. apply (copy_middle [] a b); unfold size; cbn [length]; lia. Qed.
Lemma copy_back (a b : list Z) i j : i = size a + 1 -> j = size (a ++ b) -> copy_from_to 0 true (a ++ b) i j = Ok b.
Proof.
  intros -> ->. rewrite <- (app_nil_r b) at 1. apply copy_middle; [reflexivity|]. rewrite size_app. lia.
Qed.
Theorem parts_ok s : exists d n, strip_file_name s = Ok d /\ strip_path s = Ok n /\ simple n /\
  (In 47 s -> s = d ++ n) /\ (simple s -> d = [46; 47] /\ n = s).
Proof.
  destruct (last_slash_ok s) as [[E N]|(d & n & S1 & N & E)].
  - exists [46; 47], s. unfold strip_file_name. rewrite E. split; [reflexivity|]. split.
    + unfold strip_path. destruct s as [|c s]; [reflexivity|]. rewrite E. apply (copy_back [] (c :: s)); reflexivity.
    + split; [exact N|]. split; [|auto]. intros I. contradiction.
  - exists (d ++ [47]), n. subst s. unfold strip_file_name. rewrite E. pose proof (size_nonneg d). split.
    + replace (_ =? 0) with false by lia. destruct (Z.eqb_spec (size d + 1) 1) as [Q|Q].
      * destruct d; [reflexivity|]. unfold size in Q. cbn [length] in Q. lia.
      * change (47 :: n) with ([47] ++ n). rewrite app_assoc. apply copy_front. rewrite size_app. reflexivity.
    + split; [|split; [exact N|split]].
      * unfold strip_path. rewrite E. destruct (d ++ 47 :: n) as [|y q] eqn:Q; [destruct d; discriminate|]. rewrite <- Q.
        change (47 :: n) with ([47] ++ n). rewrite app_assoc. apply copy_back; [|reflexivity]. rewrite size_app. reflexivity.
      * intros _. rewrite <- app_assoc. reflexivity.
      * intros X. exfalso. apply X. apply in_app_iff. right. left. reflexivity.
Qed.
Lemma same_words a b : (exists c x y, a = c :: x /\ b = c :: y) -> (forall ws, words is_slash a ws -> words is_slash b ws) ->
  forall d e, denotes d a e -> denotes d b e.
Proof.
  intros (c & x & y & -> & ->) H d e (ws & W & L). exists ws. split; [apply H; exact W|exact L].
Qed.
Theorem append_parts s n : strip_path s = Ok n -> n <> [] -> exists p r, path_for s = Ok p /\ append_to n p = Ok r /\
  forall d e, denotes d s e -> denotes d r e.
Proof.
  intros SP NE. unfold path_for. destruct (last_slash_ok s) as [[E N]|(d & m & S1 & N & E)].
  - rewrite E. exists [], n. split; [reflexivity|]. split; [reflexivity|]. unfold strip_path in SP. destruct s as [|c s]; [congruence|].
    rewrite E in SP. change (0 + 1) with 1 in SP. pose proof (copy_back [] (c :: s) 1 (size (c :: s)) eq_refl eq_refl) as CB. cbn [app] in CB. rewrite CB in SP. injection SP as <-. auto.
  - subst s. assert (n = m).
    { unfold strip_path in SP. rewrite E in SP. destruct (d ++ 47 :: m) as [|y q] eqn:Q; [destruct d; discriminate|]. rewrite <- Q in SP.
      change (47 :: m) with ([47] ++ m) in SP. rewrite app_assoc in SP. rewrite copy_back in SP; [|rewrite size_app; reflexivity|reflexivity].
      injection SP as ->. reflexivity. }
    subst m. rewrite E. pose proof (size_nonneg d). replace (_ =? 0) with false by lia.
    destruct n as [|c n]; [congruence|]. assert (C : (c =? slash) = false).
    { apply Z.eqb_neq. intros ->. apply N. left. reflexivity. }
    assert (AT : at_ (c :: n) 1 = Ok c).
    { change (c :: n) with ([] ++ c :: n). rewrite at_app by reflexivity. reflexivity. }
    destruct (Z.eqb_spec (size d + 1) 1) as [Q|Q].
    + destruct d as [|z d]; [|unfold size in Q; cbn [length] in Q; lia]. exists [slash], (47 :: c :: n). split; [reflexivity|]. split; [|auto].
      unfold append_to. rewrite AT. cbn [obind]. rewrite C. reflexivity.
    + exists d. destruct d as [|z d] using rev_ind; [contradiction Q; reflexivity|]. clear IHd.
      assert (AZ : at_ (d ++ [z]) (size (d ++ [z])) = Ok z) by (rewrite at_app by (rewrite size_app; reflexivity); reflexivity).
      assert (AP : append_to (c :: n) (d ++ [z]) = Ok (if z =? slash then (d ++ [z]) ++ c :: n else (d ++ [z]) ++ [slash] ++ c :: n)).
      { unfold append_to. destruct (d ++ [z]) as [|y q] eqn:EQ; [destruct d; discriminate|]. rewrite AT. cbn [obind]. rewrite C, AZ. reflexivity. }
      eexists. split; [apply copy_front; lia|]. split; [exact AP|]. destruct (Z.eqb_spec z slash) as [-> |NZ]; [|auto].
      apply same_words.
      * destruct d as [|u d]; [exists slash, (47 :: c :: n), (c :: n)|exists u, ((d ++ [slash]) ++ 47 :: c :: n), ((d ++ [slash]) ++ c :: n)]; auto.
      * intros ws W. destruct (split_slash d) as (wd & _ & WD). destruct (split_slash (c :: n)) as (wn & _ & WN).
        assert (W2 : words is_slash ((d ++ [slash]) ++ 47 :: c :: n) (wd ++ wn)).
        { rewrite <- app_assoc. cbn [app]. apply words_app; [exact WD|]. apply words_slash; [reflexivity|exact WN]. }
        rewrite (words_unique _ _ _ W2 _ W). rewrite <- app_assoc. cbn [app]. apply words_app; assumption.
Qed.
Lemma find_dot_ok r : forall i, i = Z.of_nat (length r) ->
  match find_dot r i with
  | None => exists b a, r = b ++ 47 :: a /\ ~ In 46 b /\ simple b
  | Some k => (k = 0 /\ ~ In 46 r /\ simple r) \/ exists b a, r = b ++ 46 :: a /\ ~ In 46 b /\ simple b /\ k = Z.of_nat (length a) + 1
  end.
Proof.
  induction r as [|c r IH]; intros i I; cbn [find_dot].
  - left. repeat split; auto. intros [].
  - destruct (Z.eqb_spec c slash) as [-> |C1]; [exists [], r; repeat split; auto; intros []|].
    destruct (Z.eqb_spec c dot) as [-> |C2]; [right; exists [], r; repeat split; auto; try (intros []); cbn [length] in I; lia|].
    unfold slash, dot in *. specialize (IH (i - 1) ltac:(cbn [length] in I; lia)). destruct (find_dot r (i - 1)) as [k|].
    + destruct IH as [(K & A & B)|(b & a & -> & A & B & K)].
      * left. split; [exact K|]. split; unfold simple in *; intros [X|X]; auto.
      * right. exists (c :: b), a. repeat split; auto; unfold simple in *; intros [X|X]; auto.
    + destruct IH as (b & a & -> & A & B). exists (c :: b), a. repeat split; auto; unfold simple in *; intros [X|X]; auto.
Qed.
(** Where the last point of a name is decides whether it has an extension. *)
Lemma no_extension s : (forall d x, s = d ++ 46 :: x -> ~ In 46 x -> simple x -> d = [] \/ exists d', d = d' ++ [47]) ->
  forall b e, s = b ++ e -> ~ has_extension b e.
Proof.
  intros H b e S1 (dir & n & x & -> & N & SN & D & -> & X1 & X2). destruct (H (dir ++ n) x) as [E|(d' & E)]; auto.
  - apply app_eq_nil in E as [_ E]. contradiction.
  - destruct n as [|y n _] using rev_ind; [congruence|]. rewrite app_assoc in E. apply app_inj_tail in E as [_ ->]. apply SN. apply in_app_iff. right. left. reflexivity.
Qed.
Lemma last_point_unique d x d' x' : ~ In 46 x -> ~ In 46 x' -> d ++ 46 :: x = d' ++ 46 :: x' -> d = d' /\ x = x'.
Proof.
  revert d'. induction d as [|y d IH]; intros [|y' d'] X X' E; cbn in E.
  - injection E as ->. auto.
  - injection E as <- E. exfalso. apply X. rewrite E. apply in_app_iff. right. left. reflexivity.
  - injection E as -> E. exfalso. apply X'. rewrite <- E. apply in_app_iff. right. left. reflexivity.
  - injection E as -> E. destruct (IH d' X X' E) as [-> ->]. auto.
Qed.
Theorem extension_ok s : exists b e, strip_extension s = Ok b /\ extension_for s = Ok e /\ s = b ++ e /\
  (has_extension b e \/ e = [] /\ forall b' e', s = b' ++ e' -> ~ has_extension b' e').
Proof.
  assert (NONE : extension_index s = Ok None -> (forall d x, s = d ++ 46 :: x -> ~ In 46 x -> simple x -> d = [] \/ exists d', d = d' ++ [47]) ->
    exists b e, strip_extension s = Ok b /\ extension_for s = Ok e /\ s = b ++ e /\
    (has_extension b e \/ e = [] /\ forall b' e', s = b' ++ e' -> ~ has_extension b' e')).
  { intros E H. exists s, []. unfold strip_extension, extension_for. rewrite E. cbn [obind]. rewrite app_nil_r. repeat split; auto. right. split; [reflexivity|].
    apply no_extension. exact H. }
  destruct s as [|c0 s0] eqn:S0.
  { apply NONE; [reflexivity|]. intros d x E. destruct d; discriminate. }
  rewrite <- S0 in *. assert (EI : extension_index s = match find_dot (rev s) (size s) with
      | None => Ok None
      | Some i => if i <=? 1 then Ok None else olet c := at_ s (i - 1) in Ok (if c =? slash then None else Some i) end) by (rewrite S0; reflexivity).
  clear S0. pose proof (find_dot_ok (rev s) (size s)) as FD. rewrite rev_length in FD. specialize (FD eq_refl).
  destruct (find_dot (rev s) (size s)) as [k|].
  - destruct FD as [(K & A & B)|(b & a & R & A & B & K)].
    + apply NONE; [rewrite EI, K; reflexivity|]. intros d x -> _ _. exfalso. apply A. rewrite <- in_rev. apply in_app_iff. right. left. reflexivity.
    + apply (f_equal (@rev Z)) in R. rewrite rev_involutive, rev_app_distr in R. cbn [rev] in R. rewrite <- app_assoc in R. cbn [app] in R.
      assert (A' : ~ In 46 (rev b)) by (rewrite <- in_rev; exact A). assert (B' : simple (rev b)) by (unfold simple; rewrite <- in_rev; exact B).
      assert (K' : k = size (rev a) + 1) by (unfold size; rewrite rev_length; exact K). clear K A B.
      set (dd := rev a) in *. set (x := rev b) in *. clearbody dd x. clear a b. subst s.
      destruct dd as [|z dd _] using rev_ind.
      * apply NONE; [rewrite EI, K'; reflexivity|]. intros d y E Y1 Y2. destruct (last_point_unique [] x d y A' Y1 E) as [<- _]. auto.
      * pose proof (size_nonneg dd). assert (ED : extension_index ((dd ++ [z]) ++ 46 :: x) = Ok (if z =? slash then None else Some k)).
        { rewrite EI. rewrite size_app in K'. change (size [z]) with 1 in K'. replace (k <=? 1) with false by lia. rewrite <- app_assoc. cbn [app].
          rewrite at_app by lia. reflexivity. }
        destruct (Z.eqb_spec z slash) as [-> |NZ].
        -- apply NONE; [exact ED|]. intros d y E Y1 Y2. destruct (last_point_unique _ x d y A' Y1 E) as [<- _]. right. exists dd. reflexivity.
        -- exists (dd ++ [z]), (46 :: x). unfold strip_extension, extension_for. rewrite ED. cbn [obind]. split; [apply copy_front; lia|].
           split; [apply copy_back; [exact K'|reflexivity]|]. split; [reflexivity|]. left.
           destruct (last_slash_ok (dd ++ [z])) as [[_ S1]|(dir & n & E & SN & _)].
           ++ exists [], (dd ++ [z]), x. repeat split; auto. destruct dd; discriminate.
           ++ exists (dir ++ [47]), n, x. rewrite <- app_assoc. cbn [app]. repeat split; auto.
              ** intros ->. apply app_inj_tail in E as [_ ->]. apply NZ. reflexivity.
              ** right. exists dir. reflexivity.
  - destruct FD as (b & a & R & A & B). apply NONE; [rewrite EI; reflexivity|]. intros d x S1 X1 X2. exfalso.
    apply (f_equal (@rev Z)) in R. rewrite rev_involutive, rev_app_distr in R. cbn [rev] in R. rewrite <- app_assoc in R. cbn [app] in R.
    rewrite S1 in R. assert (A' : ~ In 46 (rev b)) by (rewrite <- in_rev; exact A).
    assert (G : forall d a', d ++ 46 :: x = a' ++ 47 :: rev b -> False); [|exact (G _ _ R)].
    clear - X2 A'. induction d as [|y d IH]; intros [|y' a'] E; cbn in E.
    + discriminate.
    + injection E as _ E. apply X2. rewrite E. apply in_app_iff. right. left. reflexivity.
    + injection E as -> E. apply A'. rewrite <- E. apply in_app_iff. right. left. reflexivity.
    + injection E as _ E. exact (IH _ E).
Qed.
