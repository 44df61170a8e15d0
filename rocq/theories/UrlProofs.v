(** Proofs about encoding, parsing and printing URLs. *)
From Verif Require Import Base Replace SeqOps SeqOpsSpec SeqOpsProofs SeqOpsCopy Text TextSpec TextOps.
From Verif Require Import IntPrint IntPrintSpec IntPrintProofs PathProofs Url UrlSpec.

(** ** Encoding *)
Lemma digit_value_hex c x : hex c x -> ~ 97 <= c <= 102 -> digit_value c = Ok x /\ 0 <= x < 16.
Proof.
  intros H N. unfold digit_value. destruct H as [c H|c H|c H]; [| |lia].
  - replace (_ && _) with true by lia. split; [reflexivity|lia].
  - replace ((48 <=? c) && (c <=? 57)) with false by lia. replace (_ && _) with true by lia. split; [reflexivity|lia].
Qed.
Lemma decode_upper s t : stands_for s t -> upper_escapes s ->
  decode s = Ok t.
Proof.
  intros F. induction F as [|s t F IH|c s t N1 N2 F IH|a b x y s t HA HB F IH]; intros U.
  - reflexivity.
  - cbn [decode]. change (43 =? 43) with true. cbn match. rewrite IH; [reflexivity|]. intros p a b r ->. apply (U (43 :: p) a b r eq_refl).
  - cbn [decode]. replace (c =? 43) with false by lia. replace (c =? 37) with false by lia. cbn [negb]. rewrite IH; [reflexivity|].
    intros p a b r ->. apply (U (c :: p) a b r eq_refl).
  - destruct (U [] a b s eq_refl) as [UA UB]. destruct (digit_value_hex a x HA UA) as [EA RA]. destruct (digit_value_hex b y HB UB) as [EB RB].
    cbn [decode]. change (37 =? 43) with false. change (37 =? 37) with true. cbn [negb]. rewrite EA. cbn [obind]. rewrite EB. cbn [obind].
    replace (_ <=? _) with true by lia. rewrite IH; [reflexivity|]. intros p c d r ->. apply (U (37 :: a :: b :: p) c d r eq_refl).
Qed.
Lemma hex_digit_ok d : 0 <= d < 16 -> hex (hex_digit d) d /\ ~ 97 <= hex_digit d <= 102 /\ safe (hex_digit d).
Proof.
  intros D. unfold hex_digit, safe. destruct (Z.ltb_spec d 10) as [L|L].
  - split; [|split; lia]. replace d with (48 + d - 48) at 2 by lia. apply H_dec. lia.
  - split; [|split; lia]. replace d with (55 + d - 55) at 2 by lia. apply H_upper. lia.
Qed.
Lemma no_percent_safe c : no_percent c = true -> c <> 32 -> safe c /\ c <> 43 /\ c <> 37.
Proof.
  unfold no_percent, safe. cbn [existsb In]. intros H N. lia.
Qed.
Definition byte (c : Z) : Prop := 0 <= c < 256.
Lemma div16 c : byte c -> 0 <= c / 16 < 16 /\ 0 <= c mod 16 < 16 /\ c / 16 * 16 + c mod 16 = c.
Proof. unfold byte. intros H. pose proof (Z.div_mod c 16 ltac:(lia)). pose proof (Z.mod_pos_bound c 16 ltac:(lia)). lia. Qed.
Theorem encode_ok s : Forall byte s -> stands_for (encode s) s /\ Forall safe (encode s) /\ decode (encode s) = Ok s.
Proof.
  intros F. induction F as [|c s B F (IH1 & IH2 & IH3)]; [repeat constructor|]. cbn [encode].
  destruct (Z.eqb_spec c 32) as [-> |N].
  - cbn [app]. repeat split.
    + constructor. exact IH1.
    + constructor; [unfold safe; cbn; lia|exact IH2].
    + cbn [decode]. change (43 =? 43) with true. cbn match. rewrite IH3. reflexivity.
  - destruct (no_percent c) eqn:P.
    + destruct (no_percent_safe c P N) as (SC & N1 & N2). cbn [app]. repeat split.
      * constructor; auto.
      * constructor; auto.
      * cbn [decode]. replace (c =? 43) with false by lia. replace (c =? 37) with false by lia. cbn [negb]. rewrite IH3. reflexivity.
    + destruct (div16 c B) as (D1 & D2 & D3). destruct (hex_digit_ok _ D1) as (H1 & U1 & S1). destruct (hex_digit_ok _ D2) as (H2 & U2 & S2).
      cbn [app]. repeat split.
      * rewrite <- D3 at 3. constructor; auto.
      * constructor; [unfold safe; cbn [In]; lia|]. constructor; [exact S1|]. constructor; [exact S2|exact IH2].
      * destruct (digit_value_hex _ _ H1 U1) as [E1 _]. destruct (digit_value_hex _ _ H2 U2) as [E2 _].
        cbn [decode]. change (37 =? 43) with false. change (37 =? 37) with true. cbn [negb]. rewrite E1. cbn [obind]. rewrite E2. cbn [obind].
        rewrite D3. replace (c <=? 255) with true by (unfold byte in B; lia). rewrite IH3. reflexivity.
Qed.

(** ** Scanning *)
Lemma scan_stop stop a c b : forall ch, Forall (fun x => stop x = false) a -> stop c = true -> scan stop (a ++ c :: b) ch = (a, Some c, b).
Proof.
  induction a as [|x a IH]; intros ch F C; cbn [scan app]; [rewrite C; reflexivity|].
  inversion F as [|? ? X F']; subst. rewrite X. rewrite IH by assumption. reflexivity.
Qed.
(** The last character read. *)
Fixpoint last_of (a : list Z) (ch : option Z) : option Z := match a with [] => ch | c :: a => last_of a (Some c) end.
Lemma scan_cases stop s : forall ch, exists a, Forall (fun x => stop x = false) a /\
  ((s = a /\ scan stop s ch = (a, last_of a ch, [])) \/ exists c b, s = a ++ c :: b /\ stop c = true /\ scan stop s ch = (a, Some c, b)).
Proof.
  induction s as [|c s IH]; intros ch; cbn [scan].
  - exists []. split; [constructor|]. left. auto.
  - destruct (stop c) eqn:C.
    + exists []. split; [constructor|]. right. exists c, s. auto.
    + destruct (IH (Some c)) as (a & F & [[E S1]|(d & b & E & D & S1)]); exists (c :: a); (split; [constructor; assumption|]); rewrite S1.
      * left. split; [congruence|reflexivity].
      * right. exists d, b. rewrite E. auto.
Qed.
Lemma index_skip c a r : forall i from none, (Forall (fun x => x <> c) a \/ i + size a <= from) ->
  index_char c (a ++ r) i from none = index_char c r (i + size a) from none.
Proof.
  induction a as [|x a IH]; intros i from none H; cbn [app index_char].
  - change (size ([] : list Z)) with 0. f_equal. lia.
  - assert (E : size (x :: a) = 1 + size a) by (unfold size; cbn [length]; lia). pose proof (size_nonneg a).
    replace ((from <=? i) && (x =? c)) with false.
    + rewrite IH; [f_equal; lia|]. destruct H as [H|H]; [left; inversion H; assumption|right; lia].
    + symmetry. apply andb_false_iff. destruct H as [H|H]; [right; inversion H; lia|left; lia].
Qed.
Lemma index_here c r i from none : from <= i -> index_char c (c :: r) i from none = i.
Proof. intros H. cbn [index_char]. replace (_ && _) with true by lia. reflexivity. Qed.
Lemma index_none c a : forall i from none, Forall (fun x => x <> c) a \/ i + size a <= from -> index_char c a i from none = none.
Proof. intros i from none H. rewrite <- (app_nil_r a). rewrite index_skip by exact H. reflexivity. Qed.

(** ** Query and fragment *)
Lemma free_not cs c s : free cs s -> In c cs -> Forall (fun x => x <> c) s.
Proof. intros F I. eapply Forall_impl; [|exact F]. intros x N ->. exact (N I). Qed.
Definition tail_of (c : Z) (o : option (list Z)) : list Z := match o with Some x => c :: x | None => [] end.
Lemma from_string_parts fuel m qu fr u : free [63; 35] m -> if_any (free [35]) qu -> if_any (free [63]) fr ->
  from_url_string fuel m = Ok u ->
  from_string fuel (m ++ tail_of 63 qu ++ tail_of 35 fr) =
    Ok (mk_url (scheme u) (username u) (password u) (host u) (port u) (path u) qu fr).
Proof.
  intros M Q F E. assert (M1 := free_not _ 63 _ M ltac:(cbn; auto)). assert (M2 := free_not _ 35 _ M ltac:(cbn; auto)).
  pose proof (size_nonneg m). unfold from_string.
  destruct qu as [q|]; [assert (Q1 := free_not _ 35 _ Q ltac:(cbn; auto)); pose proof (size_nonneg q)|];
  (destruct fr as [f|]; [assert (F1 := free_not _ 63 _ F ltac:(cbn; auto)); pose proof (size_nonneg f)|]); cbn [tail_of app]; rewrite ?app_nil_r.
  - set (s := m ++ (63 :: q) ++ 35 :: f). assert (SZ : size s = size m + size q + size f + 2).
    { unfold s. rewrite !size_app. unfold size. cbn [length]. lia. }
    assert (I1 : index_char 63 s 1 1 0 = size m + 1).
    { unfold s. rewrite index_skip by auto. cbn [app]. rewrite index_here by lia. lia. }
    assert (I2 : index_char 35 s 1 1 0 = size m + size q + 2).
    { unfold s. rewrite index_skip by auto. rewrite index_skip by (left; constructor; [lia|exact Q1]). rewrite index_here; unfold size; cbn [length]; lia. }
    assert (I3 : index_char 35 s 1 (size m + 1 + 1) (size s + 1) = size m + size q + 2).
    { unfold s. rewrite index_skip by auto. rewrite index_skip by (left; constructor; [lia|exact Q1]). rewrite index_here; unfold size; cbn [length]; lia. }
    assert (I4 : index_char 63 s 1 (size m + size q + 2 + 1) (size s + 1) = size s + 1).
    { unfold s. rewrite app_assoc. rewrite index_skip by (right; rewrite size_app; unfold size; cbn [length]; lia).
      apply index_none. left. constructor; [lia|exact F1]. }
    change (m ++ 63 :: q ++ 35 :: f) with s. cbn zeta. rewrite I1, I2, I3, I4. replace (size m + 1 =? 0) with false by lia. replace (size m + size q + 2 =? 0) with false by lia.
    replace (Z.min _ _ - 1) with (size m) by lia. unfold s at 1. rewrite copy_front by reflexivity. cbn [obind]. rewrite E. cbn [obind].
    replace (0 <? size m + 1) with true by lia. replace (0 <? size m + size q + 2) with true by lia.
    replace s with ((m ++ [63]) ++ q ++ 35 :: f) at 1 by (unfold s; rewrite <- app_assoc; reflexivity).
    rewrite copy_middle by (rewrite size_app; change (size [63]) with 1; lia). cbn [obind].
    replace s with ((m ++ (63 :: q) ++ [35]) ++ f) at 1 by (unfold s; rewrite <- !app_assoc; reflexivity).
    rewrite copy_back; [reflexivity|rewrite !size_app; unfold size; cbn [length]; lia|].
    replace ((m ++ (63 :: q) ++ [35]) ++ f) with s by (unfold s; rewrite <- !app_assoc; reflexivity). lia.
  - set (s := m ++ 63 :: q). assert (SZ : size s = size m + size q + 1).
    { unfold s. rewrite !size_app. unfold size. cbn [length]. lia. }
    assert (I1 : index_char 63 s 1 1 0 = size m + 1).
    { unfold s. rewrite index_skip by auto. rewrite index_here by lia. lia. }
    assert (I2 : forall from none, index_char 35 s 1 from none = none).
    { intros from none. unfold s. apply index_none. left. apply Forall_app. split; [exact M2|]. constructor; [lia|exact Q1]. }
    cbn zeta. rewrite I1, !I2. replace (size m + 1 =? 0) with false by lia. change (0 =? 0) with true. cbn match.
    replace (size m + 1 - 1) with (size m) by lia. unfold s at 1. rewrite copy_front by reflexivity. cbn [obind]. rewrite E. cbn [obind].
    replace (0 <? size m + 1) with true by lia. change (0 <? 0) with false. cbn match.
    replace s with ((m ++ [63]) ++ q) at 1 by (unfold s; rewrite <- app_assoc; reflexivity).
    rewrite copy_back; [reflexivity|rewrite !size_app; unfold size; cbn [length]; lia|].
    replace ((m ++ [63]) ++ q) with s by (unfold s; rewrite <- !app_assoc; reflexivity). lia.
  - set (s := m ++ 35 :: f). assert (SZ : size s = size m + size f + 1).
    { unfold s. rewrite !size_app. unfold size. cbn [length]. lia. }
    assert (I1 : index_char 35 s 1 1 0 = size m + 1).
    { unfold s. rewrite index_skip by auto. rewrite index_here by lia. lia. }
    assert (I2 : forall from none, index_char 63 s 1 from none = none).
    { intros from none. unfold s. apply index_none. left. apply Forall_app. split; [exact M1|]. constructor; [lia|exact F1]. }
    cbn zeta. rewrite I1, !I2. replace (size m + 1 =? 0) with false by lia. change (0 =? 0) with true. cbn match.
    replace (Z.min _ _ - 1) with (size m) by lia. unfold s at 1. rewrite copy_front by reflexivity. cbn [obind]. rewrite E. cbn [obind].
    replace (0 <? size m + 1) with true by lia. change (0 <? 0) with false. cbn match. cbn [obind].
    replace s with ((m ++ [35]) ++ f) at 1 by (unfold s; rewrite <- app_assoc; reflexivity).
    rewrite copy_back; [reflexivity|rewrite !size_app; unfold size; cbn [length]; lia|].
    replace ((m ++ [35]) ++ f) with s by (unfold s; rewrite <- !app_assoc; reflexivity). lia.
  - rewrite !(index_none 63 m), !(index_none 35 m) by auto. change (0 =? 0) with true. change (0 <? 0) with false. cbn match. cbn zeta.
    rewrite <- (app_nil_r m) at 1. rewrite copy_front by lia. cbn [obind]. rewrite E. reflexivity.
Qed.

(** ** Host, port, user and password *)
Definition delims := [47; 58; 64; 63; 35].
Lemma free_scan3 s : free delims s -> Forall (fun c => (c =? 47) || (c =? 58) || (c =? 64) = false) s.
Proof. apply Forall_impl. intros c. unfold delims. cbn [In]. intros H. lia. Qed.
Lemma free_scan2 s : free [47; 64; 63; 35] s -> Forall (fun c => (c =? 47) || (c =? 64) = false) s.
Proof. apply Forall_impl. intros c. cbn [In]. intros H. lia. Qed.
Lemma auth_user fuel n r ch : free delims n ->
  authority (S fuel) (n ++ 64 :: r) ch true None None None None = authority fuel r (Some 64) true (Some n) None None None.
Proof. intros N. cbn [authority]. rewrite scan_stop by (auto using free_scan3). reflexivity. Qed.
Lemma auth_password fuel n p r ch : free delims n -> free [47; 64; 63; 35] p ->
  authority (S fuel) (n ++ 58 :: p ++ 64 :: r) ch true None None None None = authority fuel r (Some 64) true (Some n) (Some p) None None.
Proof.
  intros N P. cbn [authority]. rewrite scan_stop by (auto using free_scan3). cbn [orb is Z.eqb Pos.eqb].
  rewrite scan_stop by (auto using free_scan2). reflexivity.
Qed.
Lemma auth_host fuel h r ch us pw : free delims h ->
  authority (S fuel) (h ++ 47 :: r) ch true us pw None None = Ok (r, Some 47, us, pw, Some h, None).
Proof. intros N. cbn [authority]. rewrite scan_stop by (auto using free_scan3). reflexivity. Qed.
Lemma auth_port fuel h d r ch us pw : free delims h -> free [47; 64; 63; 35] d ->
  authority (S fuel) (h ++ 58 :: d ++ 47 :: r) ch true us pw None None = Ok (r, Some 47, us, pw, Some h, Some d).
Proof.
  intros N D. cbn [authority]. rewrite scan_stop by (auto using free_scan3). cbn [orb is Z.eqb Pos.eqb].
  rewrite scan_stop by (auto using free_scan2). reflexivity.
Qed.
Lemma port_digits n : 0 < n -> exists d, print_string n 10 = Ok d /\ free delims d /\ free [47; 64; 63; 35] d /\ as_integer d = n.
Proof.
  intros N. destruct (print_ok n 10 ltac:(lia)) as (l & NL & E). replace (n <? 0) with false in E by lia. cbn [app] in E.
  assert (G : Forall (fun c => 48 <= c <= 57) (map ascii_digit l)).
  { destruct (Num_numeral 10 (Z.abs n) l ltac:(lia) NL) as (F & _ & _). apply Forall_map. eapply Forall_impl; [|exact F].
    intros x X. unfold ascii_digit. cbn beta in X. destruct (Z.ltb_spec x 10); lia. }
  exists (map ascii_digit l). split; [exact E|]. split; [|split].
  - eapply Forall_impl; [|exact G]. intros c. unfold delims. cbn [In]. lia.
  - eapply Forall_impl; [|exact G]. intros c. cbn [In]. lia.
  - rewrite <- (app_nil_r (map ascii_digit l)). apply as_integer_ok; [exact I|exact E].
Qed.
(** ** Printing and parsing *)
Definition name_char (c : Z) : Prop := 97 <= c <= 122 \/ 65 <= c <= 90 \/ 48 <= c <= 57 \/ c = 43.
Definition good_scheme (s : list Z) : Prop := s <> [] /\ Forall name_char s.
(** The URLs whose parts can be told from each other in the text. *)
Definition parseable (u : url) : Prop :=
  match host u with
  | Some h =>
      (exists s, scheme u = Some s /\ good_scheme s) /\ free delims h /\ if_any (free delims) (username u) /\
      if_any (free [47; 64; 63; 35]) (password u) /\ (username u = None -> password u = None) /\ 0 <= port u /\
      if_any (fun p => exists q, p = 47 :: q /\ q <> [] /\ free [63; 35] p) (path u)
  | None =>
      username u = None /\ password u = None /\ port u = 0 /\
      exists p, path u = Some p /\ p <> [] /\ free [63; 35] p /\ (forall q, p <> 47 :: 47 :: q) /\
        match scheme u with Some s => good_scheme s | None => exists q, p = 47 :: q end
  end /\ if_any (free [35]) (query u) /\ if_any (free [63]) (fragment u).
Lemma scheme_scan s r : good_scheme s ->
  scan (fun c => negb (alnum c) && negb (c =? 43)) (s ++ 58 :: r) None = (s, Some 58, r).
Proof.
  intros [N F]. apply scan_stop; [|reflexivity]. eapply Forall_impl; [|exact F]. intros c. unfold name_char, alnum. lia.
Qed.
Lemma good_free s : good_scheme s -> free [63; 35] s.
Proof. intros [_ F]. eapply Forall_impl; [|exact F]. intros c. unfold name_char. cbn [In]. lia. Qed.
Lemma free_sub cs ds s : incl cs ds -> free ds s -> free cs s.
Proof. intros I. apply Forall_impl. intros c N J. apply N, I, J. Qed.
Theorem round_trip u fuel : parseable u -> (2 <= fuel)%nat -> exists s, print_url u = Ok s /\ from_string fuel s = Ok u.
Proof.
  intros (P & Q & F) FU. destruct fuel as [|[|fuel]]; try lia. clear FU.
  assert (MAIN : exists m, (forall qu fr, print_url (mk_url (scheme u) (username u) (password u) (host u) (port u) (path u) qu fr) =
      Ok (m ++ tail_of 63 qu ++ tail_of 35 fr)) /\ free [63; 35] m /\
      from_url_string (S (S fuel)) m = Ok (mk_url (scheme u) (username u) (password u) (host u) (port u) (path u) None None)).
  { destruct u as [sc us pw ho po pa qu fr]. cbn [scheme username password host port path query fragment] in *. destruct ho as [h|].
    - destruct P as ((s & -> & GS) & FH & FU & FP & UP & PO & PA).
      set (rest := match pa with Some (_ :: q) => q | _ => [] end).
      assert (PR : match pa with Some p => p | None => [47] end = 47 :: rest).
      { destruct pa as [p|]; [|reflexivity]. destruct PA as (q & -> & _). reflexivity. }
      assert (PF : free [63; 35] (47 :: rest)).
      { destruct pa as [p|]; [destruct PA as (q & E & _ & G); subst p; exact G|]. constructor; [cbn; lia|constructor]. }
      assert (PE : (if empty rest then None else Some ([47] ++ rest)) = pa).
      { destruct pa as [p|]; [|reflexivity]. destruct PA as (q & -> & NQ & _). unfold rest. destruct q; [congruence|]. reflexivity. }
      assert (PORT : exists pt po', (if 0 <? po then olet d := print_string po 10 in Ok (58 :: d) else Ok []) = Ok pt /\ free [63; 35] pt /\
         match po' with None => 0 | Some p => as_integer p end = po /\
         forall fuel ch us pw, authority (S fuel) (h ++ pt ++ 47 :: rest) ch true us pw None None = Ok (rest, Some 47, us, pw, Some h, po')).
      { destruct (Z.ltb_spec 0 po) as [L|L].
        - destruct (port_digits po L) as (d & -> & D1 & D2 & D3). exists (58 :: d), (Some d). split; [reflexivity|].
          split; [constructor; [cbn; lia|]; eapply free_sub; [|exact D1]; unfold delims; intros x; cbn; tauto|]. split; [exact D3|].
          intros. cbn [app]. apply auth_port; assumption.
        - exists [], None. split; [reflexivity|]. split; [constructor|]. split; [lia|]. intros. cbn [app]. apply auth_host; assumption. }
      destruct PORT as (pt & po' & E1 & E2 & E3 & E4).
      set (ui := match us with Some n => n ++ match pw with Some p => 58 :: p | None => [] end ++ [64] | None => [] end).
      exists ((s ++ [58]) ++ ([47; 47] ++ ui ++ h ++ pt) ++ 47 :: rest). split; [|split].
      + intros qu' fr'. unfold print_url. cbn [scheme username password host port path query fragment]. rewrite E1. cbn [obind].
        fold ui. rewrite PR. f_equal. rewrite <- !app_assoc. reflexivity.
      + assert (FD : forall x, free delims x -> free [63; 35] x) by (intros x; apply free_sub; unfold delims; intros y; cbn; tauto).
        assert (FD2 : forall x, free [47; 64; 63; 35] x -> free [63; 35] x) by (intros x; apply free_sub; intros y; cbn; tauto).
        assert (FU2 : free [63; 35] ui).
        { unfold ui. destruct us as [n|]; [|constructor]. apply Forall_app. split; [apply FD; exact FU|]. apply Forall_app.
          split; [|constructor; [cbn; lia|constructor]]. destruct pw as [p|]; [|constructor]. constructor; [cbn; lia|]. apply FD2. exact FP. }
        apply Forall_app. split; [apply Forall_app; split; [apply good_free; exact GS|constructor; [cbn; lia|constructor]]|].
        apply Forall_app. split; [|exact PF]. apply Forall_app. split; [constructor; [cbn; lia|]; constructor; [cbn; lia|]; constructor|].
        apply Forall_app. split; [exact FU2|]. apply Forall_app. split; [apply FD; exact FH|exact E2].
      + unfold from_url_string. rewrite <- !app_assoc. cbn [app]. rewrite scheme_scan by exact GS. destruct GS as [NS _].
        destruct s as [|c s]; [congruence|]. cbn [empty is negb orb Z.eqb Pos.eqb].
        assert (A : authority (S (S fuel)) (ui ++ h ++ pt ++ 47 :: rest) (Some 58) true None None None None =
          Ok (rest, Some 47, us, pw, Some h, po')).
        { unfold ui. destruct us as [n|].
          - destruct pw as [p|].
            + rewrite <- !app_assoc. cbn [app]. rewrite auth_password by assumption. apply E4.
            + rewrite <- !app_assoc. cbn [app]. rewrite auth_user by assumption. apply E4.
          - rewrite (UP eq_refl). apply E4. }
        rewrite A. cbn [obind]. rewrite E3, PE. reflexivity.
    - destruct P as (-> & -> & -> & p & -> & NP & FP & NS & SC). exists (match sc with Some s => s ++ [58] | None => [] end ++ p).
      split; [|split].
      + intros qu' fr'. unfold print_url. cbn [scheme username password host port path query fragment obind]. f_equal. rewrite <- !app_assoc. reflexivity.
      + apply Forall_app. split; [|exact FP]. destruct sc as [s|]; [|constructor]. apply Forall_app.
        split; [apply good_free; exact SC|constructor; [cbn; lia|constructor]].
      + assert (TAIL : forall sc w ch, (match p with
           | 47 :: 47 :: rd =>
               olet (rd, ch, us, pw, ho, po) := authority (S (S fuel)) rd ch w None None None None in
               let po := match po with None => 0 | Some p => as_integer p end in
               let pa := if empty rd then None else Some (match ch with Some c => [c] | None => [] end ++ rd) in
               Ok (mk_url sc us pw ho po pa None None)
           | _ => Ok (mk_url sc None None None 0 (if empty p then None else Some p) None None) end)
           = Ok (mk_url sc None None None 0 (Some p) None None)).
        { intros sc' w ch. assert (EP : (if empty p then None else Some p) = Some p) by (destruct p; [congruence|reflexivity]). rewrite EP.
          destruct p as [|a [|b p]]; [congruence| |].
          - destruct a as [|a|a]; try reflexivity. repeat (destruct a; try reflexivity).
          - destruct (Z.eq_dec a 47) as [-> |NA]; [destruct (Z.eq_dec b 47) as [-> |NB]; [exfalso; eapply NS; reflexivity|]|].
            + destruct b as [|b|b]; try reflexivity. repeat (destruct b; try reflexivity). contradiction.
            + destruct a as [|a|a]; try reflexivity. repeat (destruct a; try reflexivity). contradiction. }
        unfold from_url_string. destruct sc as [s|].
        * rewrite <- !app_assoc. cbn [app]. rewrite scheme_scan by exact SC. destruct SC as [NE _]. destruct s as [|c s]; [congruence|].
          cbn [empty is negb orb Z.eqb Pos.eqb]. apply TAIL.
        * destruct SC as (q & E). cbn [app]. replace (scan _ p None) with (@nil Z, Some 47, q) by (rewrite E; reflexivity). cbn [empty orb]. apply TAIL. }
  destruct MAIN as (m & E1 & E2 & E3). exists (m ++ tail_of 63 (query u) ++ tail_of 35 (fragment u)). destruct u as [sc us pw ho po pa qu fr].
  cbn [scheme username password host port path query fragment] in *. split; [apply E1|].
  rewrite (from_string_parts _ _ _ _ _ E2 Q F E3). reflexivity.
Qed.

(** ** Termination *)
Lemma last_of_ne a ch : a <> [] -> exists b x, a = b ++ [x] /\ last_of a ch = Some x.
Proof.
  revert ch. induction a as [|c a IH]; intros ch N; [congruence|]. destruct a as [|d a].
  - exists [], c. auto.
  - destruct (IH (Some c) ltac:(discriminate)) as (b & x & E & L). exists (c :: b), x. rewrite E. split; [reflexivity|]. rewrite <- E. exact L.
Qed.
(** An at sign at the very end is never left behind. *)
Lemma stuck fuel : forall ch wr us pw ho po, is 64 ch = true -> authority fuel [] ch wr us pw ho po = OutOfFuel.
Proof.
  induction fuel as [|fuel IH]; intros ch wr us pw ho po E; [reflexivity|]. cbn [authority scan].
  destruct ch as [c|]; [|discriminate]. cbn [is] in *. apply Z.eqb_eq in E. subst c. change (64 =? 58) with false. change (64 =? 64) with true. cbn match.
  rewrite orb_false_r. destruct (if wr then Some [] else ho), po; apply IH; reflexivity.
Qed.
Theorem never_answers us fuel : free delims us -> from_url_string fuel ([104; 116; 116; 112; 58; 47; 47] ++ us ++ [64]) = OutOfFuel.
Proof.
  intros F. unfold from_url_string. change ([104; 116; 116; 112; 58; 47; 47] ++ us ++ [64]) with ([104; 116; 116; 112] ++ 58 :: 47 :: 47 :: us ++ [64]).
  rewrite scheme_scan by (split; [discriminate|]; repeat constructor; unfold name_char; lia). cbn [empty is negb orb Z.eqb Pos.eqb].
  replace (authority fuel (us ++ [64]) (Some 58) true None None None None)
    with (OutOfFuel : outcome (list Z * option Z * option (list Z) * option (list Z) * option (list Z) * option (list Z))); [reflexivity|].
  destruct fuel as [|fuel]; [reflexivity|]. rewrite auth_user by exact F. symmetry. apply stuck. reflexivity.
Qed.
Theorem authority_ends fuel : forall rd ch wr us pw ho po, (length rd < fuel)%nat -> (rd = [] -> is 64 ch = false) ->
  (forall x, rd <> x ++ [64]) -> exists r, authority fuel rd ch wr us pw ho po = Ok r.
Proof.
  induction fuel as [|fuel IH]; intros rd ch wr us pw ho po L E N; [lia|]. cbn [authority].
  (* what is left after an at sign is shorter, not empty, and does not end with one *)
  assert (REC : forall a rd' wr us pw ho po, rd = a ++ 64 :: rd' -> exists r, authority fuel rd' (Some 64) wr us pw ho po = Ok r).
  { intros a rd' wr' us' pw' ho' po' ->. apply IH.
    - rewrite app_length in L. cbn [length] in L. lia.
    - intros ->. exfalso. exact (N a eq_refl).
    - intros x ->. apply (N (a ++ 64 :: x)). rewrite <- app_assoc. reflexivity. }
  assert (LAST : forall a ch, (a = [] -> is 64 ch = false) -> (forall x, a <> x ++ [64]) -> is 64 (last_of a ch) = false).
  { intros a ch' E' N'. destruct a as [|c a]; [apply E'; reflexivity|]. destruct (last_of_ne (c :: a) ch' ltac:(discriminate)) as (b & x & EQ & ->).
    cbn [is]. apply Z.eqb_neq. intros ->. exact (N' b EQ). }
  assert (FIN : forall a rd1 ch1 wr1 (po1 : option (list Z)) us pw ho, rd = a ++ rd1 \/ is 64 ch1 = false ->
     (is 64 ch1 = true -> exists b, rd = b ++ 64 :: rd1) ->
     exists r, (if is 64 ch1 then let (us, ho) := match ho with Some _ => (ho, None) | None => (us, ho) end in
       let (pw, po) := match po1 with Some _ => (po1, None) | None => (pw, po1) end in authority fuel rd1 ch1 wr1 us pw ho po
       else Ok (rd1, ch1, us, pw, ho, po1)) = Ok r).
  { intros a rd1 ch1 wr1 po1 us' pw' ho' _ H. destruct (is 64 ch1) eqn:I1; [|eauto]. destruct (H eq_refl) as (b & EB).
    assert (ch1 = Some 64) as ->. { destruct ch1 as [c|]; [|discriminate]. cbn [is] in I1. f_equal. lia. }
    destruct ho', po1; eapply REC; exact EB. }
  destruct (scan_cases (fun c => (c =? 47) || (c =? 58) || (c =? 64)) rd ch) as (a & FA & [[EA SA]|(c & b & EA & SC & SA)]); rewrite SA; clear SA.
  - subst a. assert (L64 := LAST rd ch E N). destruct (is 58 (last_of rd ch)) eqn:I58.
    + cbn [scan]. apply (FIN []); [right; exact L64|]. intros X. congruence.
    + apply (FIN []); [right; exact L64|]. intros X. congruence.
  - destruct (is 58 (Some c)) eqn:I58.
    + destruct (scan_cases (fun c => (c =? 47) || (c =? 64)) b (Some c)) as (a2 & FA2 & [[EA2 SA]|(c2 & b2 & EA2 & SC2 & SA)]); rewrite SA; clear SA.
      * subst a2. assert (L64 : is 64 (last_of b (Some c)) = false).
        { apply LAST; [intros _; cbn [is] in *; lia|]. intros x ->. apply (N (a ++ c :: x)). rewrite EA, <- app_assoc. reflexivity. }
        apply (FIN []); [right; exact L64|]. intros X. congruence.
      * apply (FIN (a ++ c :: a2 ++ [c2])); [left; rewrite EA, EA2, <- !app_assoc; cbn [app]; rewrite <- !app_assoc; reflexivity|].
        intros X. cbn [is] in X. apply Z.eqb_eq in X. subst c2. exists (a ++ c :: a2). rewrite EA, EA2, <- !app_assoc. reflexivity.
    + apply (FIN (a ++ [c])); [left; rewrite EA, <- app_assoc; reflexivity|]. intros X. cbn [is] in X. apply Z.eqb_eq in X. subst c. exists a. exact EA.
Qed.
Theorem from_url_string_ends s fuel : (length s < fuel)%nat -> (forall x, s <> x ++ [64]) -> exists u, from_url_string fuel s = Ok u.
Proof.
  intros L N. unfold from_url_string.
  assert (G : forall sc rd ch wr a, s = a ++ rd -> (rd = [47; 47] -> is 64 ch = false) -> exists u,
    match rd with
    | 47 :: 47 :: rd =>
      olet (rd, ch, us, pw, ho, po) := authority fuel rd ch wr None None None None in
      let po := match po with None => 0 | Some p => as_integer p end in
      let pa := if empty rd then None else Some (match ch with Some c => [c] | None => [] end ++ rd) in
      Ok (mk_url sc us pw ho po pa None None)
    | _ => Ok (mk_url sc None None None 0 (if empty rd then None else Some rd) None None)
    end = Ok u).
  { intros sc rd ch wr a E C. assert (OTHER : forall x, exists u, Ok (mk_url sc None None None 0 x None None) = Ok u) by eauto.
    destruct rd as [|x [|y rd]]; [eauto| |].
    - destruct x as [|x|x]; try apply OTHER. repeat (destruct x; try apply OTHER).
    - destruct (Z.eq_dec x 47) as [-> |NA]; [destruct (Z.eq_dec y 47) as [-> |NB]|].
      + destruct (authority_ends fuel rd ch wr None None None None) as [[[[[[r1 r2] r3] r4] r5] r6] ->]; [| | |cbn [obind]; eauto].
        * subst s. rewrite app_length in L. cbn [length] in L. lia.
        * intros ->. apply C. reflexivity.
        * intros z ->. apply (N (a ++ 47 :: 47 :: z)). rewrite E, <- app_assoc. reflexivity.
      + destruct y as [|y|y]; try apply OTHER. repeat (destruct y; try apply OTHER). contradiction.
      + destruct x as [|x|x]; try apply OTHER. repeat (destruct x; try apply OTHER). contradiction. }
  destruct (scan_cases (fun c => negb (alnum c) && negb (c =? 43)) s None) as (a & FA & [[EA SA]|(c & b & EA & SC & SA)]); rewrite SA.
  - destruct (empty a || negb (is 58 (last_of a None))) eqn:C; cbn match.
    + apply (G _ _ _ _ [] eq_refl). intros ->. discriminate SA.
    + eauto.
  - destruct (empty a || negb (is 58 (Some c))) eqn:C; cbn match.
    + apply (G _ _ _ _ [] eq_refl). intros ->. cbn in SA. injection SA as <- <- <-. reflexivity.
    + apply (G _ _ _ _ (a ++ [c])); [rewrite <- app_assoc; exact EA|]. intros _. cbn [is] in *. lia.
Qed.
