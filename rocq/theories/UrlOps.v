(** Proofs about relative URLs and form fields. *)
From Verif Require Import Base SeqOps SeqOpsSpec SeqOpsProofs SeqOpsCopy Text TextSpec TextOps PathProofs Url UrlSpec UrlProofs.

(** ** Segments *)
Definition plain (s : list Z) : Prop := ~ In 47 s.
Notation render := (flat_map (fun w => 47 :: w)).
Fixpoint segs (s cur : list Z) : list (list Z) :=
  match s with [] => [cur] | c :: s => if c =? 47 then cur :: segs s [] else segs s (cur ++ [c]) end.
Lemma pieces_segs s : forall cur st, fold_left put_dir (pieces s cur) st = fold_left put_dir (segs s cur) st.
Proof.
  induction s as [|c s IH]; intros cur st; cbn [pieces segs].
  - destruct cur; reflexivity.
  - destruct (c =? 47); [cbn [fold_left]; apply IH|apply IH].
Qed.
Lemma segs_plain s : forall cur, plain cur -> Forall plain (segs s cur).
Proof.
  induction s as [|c s IH]; intros cur P; cbn [segs]; [constructor; auto|].
  destruct (Z.eqb_spec c 47) as [E|E].
  - constructor; [exact P|]. apply IH. intros [].
  - apply IH. intros I. apply in_app_or in I. destruct I as [I|[I|[]]]; [auto|congruence].
Qed.
Lemma segs_render s : forall cur, render (segs s cur) = 47 :: cur ++ s.
Proof.
  induction s as [|c s IH]; intros cur; cbn [segs].
  - reflexivity.
  - destruct (Z.eqb_spec c 47) as [-> |E]; [cbn [flat_map]; rewrite IH; reflexivity|]. rewrite IH, <- app_assoc. reflexivity.
Qed.
Lemma segs_ne s cur : segs s cur <> [].
Proof. revert cur. induction s as [|c s IH]; intros cur; cbn [segs]; [discriminate|]. destruct (c =? 47); [discriminate|apply IH]. Qed.
(** Every path that starts with a slash. *)
Lemma path_segs s : exists ss l, Forall plain ss /\ plain l /\ segs s [] = ss ++ [l] /\ 47 :: s = render ss ++ 47 :: l.
Proof.
  destruct (exists_last (segs_ne s [])) as (ss & l & E). exists ss, l.
  pose proof (segs_plain s [] ltac:(intros [])) as F. rewrite E in F. apply Forall_app in F. destruct F as [F1 F2]. inversion F2; subst.
  repeat split; auto. pose proof (segs_render s []) as R. rewrite E, flat_map_app in R. cbn [app flat_map] in R. rewrite app_nil_r in R. symmetry. exact R.
Qed.

(** ** Spec side *)
Lemma segment_plain s r : plain s -> (r = [] \/ exists t, r = 47 :: t) -> segment (s ++ r) = (s, r).
Proof.
  intros P R. induction s as [|c s IH]; cbn [segment app].
  - destruct R as [-> |(t & ->)]; reflexivity.
  - destruct (Z.eqb_spec c 47) as [-> |N]; [exfalso; apply P; left; reflexivity|]. rewrite IH; [reflexivity|]. intros I. apply P. right. exact I.
Qed.
Lemma last_segment_plain a l : plain l -> last_segment (a ++ 47 :: l) = l.
Proof.
  intros P. unfold last_segment. rewrite rev_app_distr. cbn [rev]. rewrite <- !app_assoc. rewrite segment_plain.
  - cbn [fst]. apply rev_involutive.
  - intros I. apply P. apply in_rev. exact I.
  - right. eexists. reflexivity.
Qed.
Lemma last_segment_all l : plain l -> last_segment l = l.
Proof.
  intros P. unfold last_segment. rewrite <- (app_nil_r (rev l)), segment_plain; [cbn [fst]; apply rev_involutive| |auto].
  intros I. apply P. apply in_rev. exact I.
Qed.
Lemma drop_to_slash_plain l r : plain l -> drop_to_slash (l ++ 47 :: r) = r.
Proof.
  intros P. induction l as [|c l IH]; cbn [app drop_to_slash]; [reflexivity|].
  destruct (Z.eqb_spec c 47) as [-> |N]; [exfalso; apply P; left; reflexivity|]. apply IH. intros I. apply P. right. exact I.
Qed.
Lemma drop_segment_render st : Forall plain st -> drop_segment (render st) = render (removelast st).
Proof.
  intros F. destruct st as [|x st]; [reflexivity|]. destruct (exists_last (l := x :: st) ltac:(discriminate)) as (a & l & E). rewrite E in *.
  rewrite removelast_last, flat_map_app. cbn [flat_map]. rewrite app_nil_r. unfold drop_segment. rewrite rev_app_distr. cbn [rev]. rewrite <- app_assoc. cbn [app].
  rewrite drop_to_slash_plain; [apply rev_involutive|]. apply Forall_app in F. destruct F as [_ F]. inversion F; subst.
  intros I. apply in_rev in I. contradiction.
Qed.
Lemma merge_plain a l r : plain l -> merge (a ++ 47 :: l) r = a ++ 47 :: r.
Proof.
  intros P. unfold merge. rewrite rev_app_distr. cbn [rev]. rewrite <- app_assoc. cbn [app].
  assert (Q : plain (rev l)) by (intros I; apply in_rev in I; contradiction). revert Q. generalize (rev l) as m. clear P l.
  intros m Q. induction m as [|c m IH]; cbn [app].
  - change (47 =? 47) with true. cbn match. cbn [rev]. rewrite rev_involutive, <- app_assoc. reflexivity.
  - destruct (Z.eqb_spec c 47) as [-> |N]; [exfalso; apply Q; left; reflexivity|]. apply IH. intros I. apply Q. right. exact I.
Qed.
Lemma starts_true p s t : s = p ++ t -> starts p s = true.
Proof.
  intros ->. unfold starts. rewrite firstn_app, Nat.sub_diag, firstn_all. cbn [firstn]. rewrite app_nil_r. destruct (list_eq_dec _ p p); congruence.
Qed.
Lemma starts_false p s : (forall t, s <> p ++ t) -> starts p s = false.
Proof.
  intros N. unfold starts. destruct (list_eq_dec _ _ _) as [E|E]; [|reflexivity]. exfalso. apply (N (skipn (length p) s)). rewrite <- E at 1. symmetry. apply firstn_skipn.
Qed.
Lemma same_false p s : p <> s -> same p s = false.
Proof. intros N. unfold same. destruct (list_eq_dec _ _ _); congruence. Qed.
Lemma plain_removelast st : Forall plain st -> Forall plain (removelast st).
Proof.
  intros F. destruct st as [|x st]; [constructor|]. rewrite (app_removelast_last (l := x :: st) [] ltac:(discriminate)) in F. apply Forall_app in F. apply F.
Qed.
(** A segment that is no dots is moved to the output. *)
Lemma step_plain fuel s r out : plain s -> s <> [46] -> s <> [46; 46] -> (s <> [] \/ r = []) -> (r = [] \/ exists t, r = 47 :: t) ->
  remove_dots (S fuel) (47 :: s ++ r) out = remove_dots fuel r (out ++ 47 :: s).
Proof.
  intros P N1 N2 NE R.
  assert (FS : first_segment (47 :: s ++ r) = (47 :: s, r)) by (cbn [first_segment]; rewrite segment_plain by assumption; reflexivity).
  assert (SP : forall c t, s ++ r = c :: 47 :: t -> c <> 47 -> s = [c]).
  { intros c t E NC. destruct s as [|a s].
    - destruct NE as [NE|NE]; [congruence|]. rewrite NE in E. discriminate.
    - injection E as -> E. destruct s as [|b s]; [reflexivity|]. injection E as -> E. exfalso. apply P. right. left. reflexivity. }
  assert (SP2 : forall c d t, s ++ r = c :: d :: 47 :: t -> c <> 47 -> d <> 47 -> s = [c; d]).
  { intros c d t E NC ND. destruct s as [|a s].
    - destruct NE as [NE|NE]; [congruence|]. rewrite NE in E. discriminate.
    - injection E as -> E. destruct s as [|b s]; cbn [app] in E.
      + destruct R as [-> |(u & ->)]; [discriminate|]. injection E as E _. congruence.
      + injection E as -> E. destruct s as [|e s]; [reflexivity|]. injection E as -> E. exfalso. apply P. right. right. left. reflexivity. }
  cbn [remove_dots].
  rewrite (starts_false [46; 46; 47]) by (intros t E; discriminate E). rewrite (starts_false [46; 47]) by (intros t E; discriminate E).
  rewrite (starts_false [47; 46; 47]) by (intros t E; cbn [app] in E; injection E as E; apply N1, (SP _ _ E); lia).
  rewrite (same_false [47; 46]) by (intros E; injection E as E; destruct s as [|a s]; cbn [app] in E;
    [destruct R as [-> |(u & ->)]; congruence|]; injection E as <- E; destruct s; [contradiction|discriminate]).
  rewrite (starts_false [47; 46; 46; 47]) by (intros t E; cbn [app] in E; injection E as E; apply N2, (SP2 _ _ _ E); lia).
  rewrite (same_false [47; 46; 46]).
  2:{ intros E. injection E as E. destruct s as [|a s]; cbn [app] in E; [destruct R as [-> |(u & ->)]; congruence|]. injection E as <- E.
      destruct s as [|b s]; cbn [app] in E; [destruct R as [-> |(u & ->)]; congruence|]. injection E as <- E. destruct s; [contradiction|discriminate]. }
  rewrite (same_false [46]), (same_false [46; 46]) by discriminate. cbn [orb]. rewrite FS. reflexivity.
Qed.
Lemma remove_dots_render ss : forall l st fuel, Forall plain ss -> Forall (fun s => s <> []) ss -> plain l -> l <> [46] -> l <> [46; 46] ->
  Forall plain st -> (length (render ss ++ 47%Z :: l) < fuel)%nat ->
  remove_dots fuel (render ss ++ 47 :: l) (render st) = Some (render (fold_left put_dir ss st) ++ 47 :: l).
Proof.
  induction ss as [|s ss IH]; intros l st fuel F1 F2 PL N1 N2 FS L.
  - cbn [flat_map app fold_left] in *. destruct fuel as [|fuel]; [lia|]. rewrite <- (app_nil_r l) at 1. rewrite step_plain by auto.
    destruct fuel as [|fuel]; [cbn in L; lia|]. reflexivity.
  - inversion F1 as [|? ? PS F1']; inversion F2 as [|? ? NS F2']; subst. destruct fuel as [|fuel]; [lia|].
    cbn [flat_map] in L |- *. rewrite !app_length in L. cbn [length] in L. rewrite <- app_assoc. cbn [app].
    assert (NX : exists t, render ss ++ 47 :: l = 47 :: t).
    { destruct ss; eexists; reflexivity. }
    cbn [fold_left]. destruct (list_eq_dec Z.eq_dec s [46]) as [-> |D1]; [|destruct (list_eq_dec Z.eq_dec s [46; 46]) as [-> |D2]].
    + destruct NX as (t & NX). cbn [app remove_dots]. rewrite (starts_false [46; 46; 47]), (starts_false [46; 47]) by (intros x E; discriminate E).
      rewrite (starts_true [47; 46; 47] _ t) by (rewrite NX; reflexivity). cbn [skipn put_dir]. apply IH; auto. rewrite app_length. cbn [length] in *. lia.
    + destruct NX as (t & NX). cbn [app remove_dots]. rewrite (starts_false [46; 46; 47]), (starts_false [46; 47]), (starts_false [47; 46; 47]) by (intros x E; discriminate E).
      rewrite (same_false [47; 46]) by discriminate.
      rewrite (starts_true [47; 46; 46; 47] _ t) by (rewrite NX; reflexivity). cbn [skipn put_dir]. rewrite drop_segment_render by exact FS.
      apply IH; auto using plain_removelast. rewrite app_length. cbn [length] in *. lia.
    + rewrite step_plain by auto.
      assert (PD : put_dir st s = st ++ [s]).
      { unfold put_dir. destruct s as [|a s]; [congruence|]. destruct (Z.eq_dec a 46) as [-> |NA].
        - destruct s as [|b s]; [congruence|]. destruct (Z.eq_dec b 46) as [-> |NB].
          + destruct s; [congruence|reflexivity].
          + destruct b as [|b|b]; try reflexivity. repeat (destruct b; try reflexivity). contradiction.
        - destruct a as [|a|a]; try reflexivity. repeat (destruct a; try reflexivity). contradiction. }
      rewrite PD. replace (render st ++ 47 :: s) with (render (st ++ [s])) by (rewrite flat_map_app; cbn [flat_map]; rewrite app_nil_r; reflexivity).
      apply IH; auto. { apply Forall_app; auto. } rewrite app_length. cbn [length] in *. lia.
Qed.

(** ** Relative references *)
Lemma ends_slash_app a l : plain l -> ends_with_slash (a ++ 47 :: l) = empty l.
Proof.
  intros P. unfold ends_with_slash. rewrite rev_app_distr. cbn [rev]. destruct l as [|c l] using rev_ind; [reflexivity|]. clear IHl.
  rewrite rev_app_distr. cbn [rev app]. destruct (Z.eq_dec c 47) as [-> |N]; [exfalso; apply P; apply in_or_app; right; left; reflexivity|].
  replace (empty (l ++ [c])) with false by (destruct l; reflexivity).
  destruct c as [|c|c]; try reflexivity. repeat (destruct c; try reflexivity). contradiction.
Qed.
Lemma ends_slash_plain l : plain l -> ends_with_slash l = false.
Proof.
  intros P. unfold ends_with_slash. destruct l as [|c l] using rev_ind; [reflexivity|]. clear IHl.
  rewrite rev_app_distr. cbn [rev app]. destruct (Z.eq_dec c 47) as [-> |N]; [exfalso; apply P; apply in_or_app; right; left; reflexivity|].
  destruct c as [|c|c]; try reflexivity. repeat (destruct c; try reflexivity). contradiction.
Qed.
Lemma put_name st s : s <> [] -> s <> [46] -> s <> [46; 46] -> put_dir st s = st ++ [s].
Proof.
  intros NS D1 D2. unfold put_dir. destruct s as [|a s]; [congruence|]. destruct (Z.eq_dec a 46) as [-> |NA].
  - destruct s as [|b s]; [congruence|]. destruct (Z.eq_dec b 46) as [-> |NB].
    + destruct s; [congruence|reflexivity].
    + destruct b as [|b|b]; try reflexivity. repeat (destruct b; try reflexivity). contradiction.
  - destruct a as [|a|a]; try reflexivity. repeat (destruct a; try reflexivity). contradiction.
Qed.
Lemma inner_ne ss l pre : (forall a b, pre ++ render ss ++ 47 :: l <> a ++ 47 :: 47 :: b) -> Forall (fun s => s <> []) ss.
Proof.
  revert pre. induction ss as [|s ss IH]; intros pre H; constructor.
  - intros ->. cbn [flat_map app] in H. destruct ss as [|t ss].
    + exact (H pre l eq_refl).
    + exact (H pre _ eq_refl).
  - apply (IH (pre ++ 47 :: s)). intros a b E. apply (H a b). rewrite <- E. cbn [flat_map]. rewrite <- !app_assoc. reflexivity.
Qed.
(** What is answered for the pieces before the last and the last. *)
Definition answer (st : list (list Z)) (slash : bool) : list Z :=
  match st with [] => [47] | _ => render st ++ (if slash then [47] else []) end.
Lemma answer_last ss l st : l <> [46] -> l <> [46; 46] -> 
  answer (fold_left put_dir (ss ++ [l]) st) (empty l) = render (fold_left put_dir ss st) ++ 47 :: l.
Proof.
  intros N1 N2. rewrite fold_left_app. cbn [fold_left]. set (st' := fold_left put_dir ss st). destruct l as [|c l].
  - cbn [put_dir empty]. unfold answer. destruct st'; reflexivity.
  - rewrite put_name by (auto || discriminate). cbn [empty]. unfold answer. destruct (st' ++ [c :: l]) eqn:E; [destruct st'; discriminate|].
    rewrite <- E, flat_map_app, app_nil_r. cbn [flat_map]. rewrite app_nil_r. reflexivity.
Qed.
Theorem construct_path_ok b r : (exists q, b = 47 :: q) -> r <> [] -> tidy b -> tidy r -> target_path b r = Some (construct_path b r).
Proof.
  intros (qb & ->) NR (TB1 & TB2 & TB3) (TR1 & TR2 & TR3).
  destruct (starts_with_slash r) eqn:SL.
  - destruct r as [|c qr]; [congruence|]. assert (c = 47) as ->.
    { destruct (Z.eq_dec c 47) as [E|N]; [exact E|]. cbn in SL. destruct c as [|c|c]; try discriminate. repeat (destruct c; try discriminate). contradiction. }
    destruct (path_segs qr) as (ss & l & F & PL & ES & EQ). unfold target_path, construct_path, without_dots.
    rewrite EQ in TR1, TR2, TR3. rewrite last_segment_plain in TR2, TR3 by exact PL.
    rewrite EQ. rewrite (remove_dots_render ss l []); auto; [|exact (inner_ne ss l [] TR1)]. rewrite ends_slash_app by exact PL. rewrite <- EQ.
    rewrite pieces_segs. cbn [segs]. change (47 =? 47) with true. cbn match. cbn [fold_left put_dir]. rewrite ES.
    rewrite <- (answer_last ss l []) by assumption. reflexivity.
  - assert (NS : forall x : list Z, match r with 47 :: _ => [] | _ => x end = x /\ (forall T (u v : T), match r with 47 :: _ => u | _ => v end = v)).
    { intros x. destruct r as [|c r]; [congruence|]. cbn in SL. destruct c as [|c|c]; auto. repeat (destruct c; auto). discriminate. }
    unfold target_path, construct_path, without_dots. rewrite !(proj2 (NS [])).
    destruct (path_segs qb) as (sb & lb & FB & PB & ESB & EQB). rewrite EQB in TB1, TB2, TB3. rewrite last_segment_plain in TB2, TB3 by exact PB.
    destruct (path_segs r) as (sr & lr & FR & PR & ESR & EQR).
    assert (SR : last_segment r = lr /\ Forall (fun s => s <> []) sr /\ ends_with_slash r = empty lr).
    { destruct sr as [|s0 sr].
      - injection EQR as ->. rewrite last_segment_all by exact PR. repeat split; [constructor|]. rewrite ends_slash_plain by exact PR. destruct lr; [congruence|reflexivity].
      - injection EQR as E. rewrite <- app_assoc in E. rewrite E in *.
        rewrite app_assoc in TR2 |- * at 1. rewrite last_segment_plain by exact PR. split; [reflexivity|]. split.
        + constructor; [|exact (inner_ne sr lr s0 TR1)]. intros ->. cbn [app] in SL. destruct sr; discriminate SL.
        + rewrite app_assoc. apply ends_slash_app. exact PR. }
    destruct SR as (E1 & F2 & E2). rewrite E1 in TR2, TR3. rewrite E2. rewrite EQB. rewrite merge_plain by exact PB. rewrite EQR.
    rewrite app_assoc. rewrite <- flat_map_app. rewrite (remove_dots_render (sb ++ sr) lr []); auto.
    2:{ apply Forall_app; auto. }
    2:{ apply Forall_app. split; [exact (inner_ne sb lb [] TB1)|exact F2]. }
    rewrite ends_slash_app by exact PB. rewrite <- EQB. rewrite !pieces_segs. rewrite ESR. cbn [segs]. change (47 =? 47) with true. cbn match. cbn [fold_left put_dir]. rewrite ESB.
    assert (BASE : (if empty lb then fold_left put_dir (sb ++ [lb]) [] else removelast (fold_left put_dir (sb ++ [lb]) [])) = fold_left put_dir sb []).
    { rewrite fold_left_app. cbn [fold_left]. destruct lb as [|c lb]; [reflexivity|]. cbn [empty]. rewrite put_name by (auto || discriminate). apply removelast_last. }
    rewrite BASE. f_equal. rewrite fold_left_app. symmetry. apply answer_last; assumption.
Qed.
Theorem construct_ok b r s bp rp : scheme b = Some s -> s <> [102; 105; 108; 101] -> scheme r = None ->
  bp = match path b with Some p => p | None => [47] end -> (exists q, bp = 47 :: q) -> path r = Some rp -> rp <> [] -> tidy bp -> tidy rp ->
  exists t, target_path bp rp = Some t /\
    construct b r = Ok (mk_url (scheme b) (username b) (password b) (host b) (port b) (Some t) (query r) (fragment r)).
Proof.
  intros SB NF SR EB SL ER NE TB TR. exists (construct_path bp rp). split; [apply construct_path_ok; assumption|].
  unfold construct. rewrite SR, ER. cbn match. unfold is_file. rewrite SB. cbn [same_text]. destruct (list_eq_dec _ _ _) as [E|_]; [contradiction|].
  cbn [obind]. rewrite <- SB. rewrite <- EB. reflexivity.
Qed.

(** ** Form fields *)
Lemma words_amp r ws : words (fun c => In c [38]) r ws -> words (fun c => In c [38]) (38 :: r) ws.
Proof.
  intros W. destruct W as [s F|a w r ws A N F G W].
  - constructor. constructor; [left; reflexivity|exact F].
  - change (38 :: a ++ w ++ r) with ((38 :: a) ++ w ++ r). constructor; auto. constructor; [left; reflexivity|exact A].
Qed.
Lemma words_fields s w : w <> [] -> Forall (fun c => ~ In c [38]) w -> forall ws, words (fun c => In c [38]) s ws ->
  words (fun c => In c [38]) (w ++ 38 :: s) (w :: ws).
Proof.
  intros N F ws W. change (w ++ 38 :: s) with ([] ++ w ++ 38 :: s). constructor; auto.
  - intros c r E. injection E as <- _. left. reflexivity.
  - apply words_amp. exact W.
Qed.
Lemma form_words nm q f : form_text nm q f -> exists ws, words (fun c => In c [38]) q ws /\
  Forall2 (fun w e => exists k x, w = k ++ 61 :: x /\ free [61] k /\ nm k (fst e) /\ stands_for x (snd e)) ws f /\
  Forall (fun w => exists a b, q = a ++ w ++ b) ws.
Proof.
  assert (FW : forall k e, free [38; 61] k -> free [38] e -> Forall (fun c => ~ In c [38]) (k ++ 61 :: e)).
  { intros k e K E. apply Forall_app. split; [exact (free_sub [38] [38; 61] _ ltac:(intros x; cbn; tauto) K)|]. constructor; [cbn; lia|exact E]. }
  assert (NE : forall k e : list Z, k ++ 61 :: e <> []) by (intros [|? ?] e; discriminate).
  assert (F1 : forall k, free [38; 61] k -> free [61] k) by (intros k; apply free_sub; intros x; cbn; tauto).
  intros T. induction T as [|k n e v K N E V|k n e v q f K N E V T (ws & W & F2 & SU)].
  - exists []. repeat constructor.
  - exists [k ++ 61 :: e]. split; [|split].
    + rewrite <- (app_nil_r (k ++ 61 :: e)) at 1. change (words (fun c => In c [38]) ([] ++ (k ++ 61 :: e) ++ []) [k ++ 61 :: e]).
      constructor; [constructor|apply NE|auto|discriminate|constructor; constructor].
    + constructor; [|constructor]. exists k, e. auto.
    + constructor; [|constructor]. exists [], []. rewrite app_nil_r. reflexivity.
  - exists ((k ++ 61 :: e) :: ws). replace (k ++ 61 :: e ++ 38 :: q) with ((k ++ 61 :: e) ++ 38 :: q) by (rewrite <- app_assoc; reflexivity). split; [|split].
    + apply words_fields; auto.
    + constructor; [|exact F2]. exists k, e. auto.
    + constructor; [exists [], (38 :: q); reflexivity|]. eapply Forall_impl; [|exact SU]. intros w (a & b & ->).
      exists ((k ++ 61 :: e) ++ 38 :: a), b. rewrite <- (app_assoc (k ++ 61 :: e)). reflexivity.
Qed.
Lemma stands_ne x v : stands_for x v -> v <> [] -> x <> [].
Proof. intros S1 N. destruct S1; congruence || discriminate. Qed.
Lemma decode_field_ok d k x v : free [61] k -> stands_for x v -> upper_escapes x -> v <> [] ->
  decode_field d (k ++ 61 :: x) = add_field d k (Some v).
Proof.
  intros K V U N. unfold decode_field. pose proof (size_nonneg k). pose proof (size_nonneg x).
  assert (SX : 0 < size x). { pose proof (stands_ne x v V N). destruct x; [congruence|]. unfold size. cbn [length]. lia. }
  assert (SZ : size (k ++ 61 :: x) = size k + size x + 1) by (rewrite size_app; unfold size; cbn [length]; lia).
  rewrite index_skip by (left; apply (free_not [61]); [exact K|left; reflexivity]). rewrite index_here by lia.
  rewrite copy_front by lia. cbn [obind]. replace (1 + size k <? size (k ++ 61 :: x)) with true by lia.
  replace (k ++ 61 :: x) with ((k ++ [61]) ++ x) by (rewrite <- app_assoc; reflexivity).
  rewrite copy_back; [|rewrite size_app; change (size [61]) with 1; lia|reflexivity]. cbn [obind]. rewrite (decode_upper x v V U). reflexivity.
Qed.
Definition shape (l : list (list Z)) : option field :=
  match l with [] => None | [v] => Some (One (Some v)) | l => Some (Many (map Some l)) end.
Lemma lookup_put d k v k' : lookup_field (put_field d k v) k' = if list_eq_dec Z.eq_dec k k' then Some v else lookup_field d k'.
Proof.
  unfold lookup_field, put_field. cbn [find fst]. destruct (list_eq_dec Z.eq_dec k k') as [E|E]; [reflexivity|].
  induction d as [|[a b] d IH]; [reflexivity|]. cbn [filter fst]. destruct (list_eq_dec Z.eq_dec a k) as [-> |N].
  - cbn [find fst]. destruct (list_eq_dec Z.eq_dec k k'); [contradiction|]. exact IH.
  - cbn [find fst]. destruct (list_eq_dec Z.eq_dec a k'); [reflexivity|]. exact IH.
Qed.
Lemma values_snoc f k v k' : values (f ++ [(k, v)]) k' = values f k' ++ (if list_eq_dec Z.eq_dec k k' then [v] else []).
Proof.
  unfold values. rewrite filter_app, map_app. f_equal. cbn [filter fst]. destruct (list_eq_dec Z.eq_dec k k'); reflexivity.
Qed.
Lemma add_field_ok d k v f : (forall k, lookup_field d k = shape (values f k)) ->
  exists d', add_field d k (Some v) = Ok d' /\ forall k', lookup_field d' k' = shape (values (f ++ [(k, v)]) k').
Proof.
  intros H. unfold add_field. rewrite H. pose proof (values_snoc f k v) as VS.
  destruct (values f k) as [|a [|b l]] eqn:E; cbn [shape]; (eexists; split; [reflexivity|]); intros k'; rewrite lookup_put, VS;
    (destruct (list_eq_dec Z.eq_dec k k') as [<- |N]; [rewrite E|rewrite app_nil_r; apply H]).
  - reflexivity.
  - reflexivity.
  - cbn [app shape map]. rewrite map_app. reflexivity.
Qed.
Lemma decode_fields_ok ws f : Forall2 (fun w e => exists k x, w = k ++ 61 :: x /\ free [61] k /\ k = fst e /\ stands_for x (snd e)) ws f ->
  Forall upper_escapes ws -> Forall (fun e => snd e <> []) f -> forall d f0, (forall k, lookup_field d k = shape (values f0 k)) ->
  exists d', decode_fields d ws = Ok d' /\ forall k, lookup_field d' k = shape (values (f0 ++ f) k).
Proof.
  intros F2. induction F2 as [|w [n v] ws f (k & x & -> & K & EK & V) F2 IH]; intros U NE d f0 H; cbn [decode_fields].
  - exists d. rewrite app_nil_r. auto.
  - inversion U as [|? ? U1 U2]; inversion NE as [|? ? N1 N2]; subst. cbn [fst snd] in *.
    rewrite (decode_field_ok d n x v) by (auto; intros p a b r ->; apply (U1 (n ++ 61 :: p) a b r); rewrite <- app_assoc; reflexivity).
    destruct (add_field_ok d n v f0 H) as (d' & -> & H'). cbn [obind]. destruct (IH U2 N2 d' _ H') as (d2 & -> & H2). exists d2. split; [reflexivity|].
    intros k. rewrite H2, <- app_assoc. reflexivity.
Qed.
Theorem decoded_fields_ok q f : form_text (fun k n => k = n) q f -> upper_escapes q -> Forall (fun e => snd e <> []) f ->
  exists d, decoded_fields q = Ok d /\ forall k, lookup_field d k = shape (values f k).
Proof.
  intros T U NE. destruct (form_words _ q f T) as (ws & W & F2 & SU). unfold decoded_fields.
  destruct (sub_strings_of_ok q [38]) as (ws' & -> & W'). rewrite (words_unique _ _ _ W _ W'). cbn [obind].
  apply (decode_fields_ok ws f F2) with (f0 := []); auto.
  eapply Forall_impl; [|exact SU]. intros w (a & b & ->) p x y r ->. apply (U (a ++ p) x y (r ++ b)). rewrite <- !app_assoc. reflexivity.
Qed.

(** ** Comparing *)
Theorem equals_never h u cu v cv : equals h u cu v cv <> Ok true.
Proof.
  unfold equals. destruct (hash_of h u cu) as [[hu ?]| | | |]; cbn [obind]; try discriminate.
  destruct (hash_of h v cv) as [[hv ?]| | | |]; cbn [obind]; try discriminate. destruct (negb (hu =? hv)); [discriminate|].
  destruct (same_name (scheme u) (scheme v)) as [s| | | |]; cbn [obind]; try discriminate. destruct (negb s); [discriminate|].
  destruct (same_name (host u) (host v)) as [t| | | |]; cbn [obind]; try discriminate. destruct (negb t); [discriminate|].
  destruct (negb (port u =? port v)); discriminate.
Qed.
Lemma same_name_refl a : same_name a a = Ok true.
Proof. destruct a as [a|]; [|reflexivity]. unfold same_name. destruct a; (destruct (list_eq_dec _ _ _) as [|N]; [reflexivity|exfalso; apply N; reflexivity]). Qed.
Theorem equals_itself h u c x : hash_of h u c = Ok (x, Some x) -> equals h u c u (Some x) = Err.
Proof.
  intros E. unfold equals. rewrite E. cbn [obind hash_of]. rewrite Z.eqb_refl. cbn [negb]. rewrite !same_name_refl. cbn [obind negb].
  rewrite Z.eqb_refl. reflexivity.
Qed.
