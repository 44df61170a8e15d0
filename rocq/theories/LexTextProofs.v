(** Lemmas about the literals of LexText.v. *)
From Verif Require Import Base Digits IntRep SmallInt IntMath IntPrint IntPrintSpec IntPrintProofs
  Lex LexSpec LexProofs LexText LexTextSpec.
Local Open Scope Z_scope.

(** ** integers printed and compiled back *)

Lemma map_digit_text b l : Forall (fun d => 0 <= d < b) l -> digit_text b l (map ascii_digit l).
Proof. induction 1; cbn; constructor; auto. Qed.

Lemma numeral_numeral_text b v l : numeral b v l -> numeral_text b v (map ascii_digit l).
Proof.
  intros (Hf & Hv & Hl). exists l. split; [destruct l; [contradiction|discriminate]|].
  split; [apply map_digit_text; exact Hf|congruence].
Qed.

Lemma numeral_decimal_text v l : numeral 10 v l -> decimal_text v (map ascii_digit l).
Proof.
  intros H. split; [apply numeral_numeral_text; exact H|].
  destruct H as (Hf & _ & Hl). destruct l as [|d l]; [contradiction|]. cbn.
  apply Forall_inv in Hf. unfold ascii_digit. destruct (d <? 10) eqn:E; lia.
Qed.

Lemma sgn_abs n : sgn_lit (n <? 0) (Z.abs n) = n.
Proof. unfold sgn_lit. destruct (n <? 0) eqn:E; lia. Qed.

Lemma print_literal n rest : after_literal rest ->
  exists s o, print_string n 10 = Ok s /\ int_literal (s ++ rest) = Ok (Some o, rest) /\
    st_val o = n /\ (n <> - 2 ^ 62 -> canonical o).
Proof.
  intros Hr. destruct (print_notation n 10) as (s & Hs & l & Hl & ->); [lia|].
  destruct (decimal_literal (n <? 0) (Z.abs n) (map ascii_digit l) rest) as (o & E & V & C).
  { apply numeral_decimal_text. exact Hl. }
  { exact Hr. }
  rewrite sgn_abs in V, C. exists ((if n <? 0 then [45] else []) ++ map ascii_digit l), o.
  rewrite <- app_assoc. auto.
Qed.

Lemma radix_print_literal n b rest : 2 <= b <= 36 -> after_literal rest ->
  exists s o, print_radix n b = Ok s /\ int_literal (s ++ rest) = Ok (Some o, rest) /\
    (if (- (3 * 2 ^ 62) <=? n) && (n <? - 2 ^ 62) then st_val o <> n else is_int_obj o n).
Proof.
  intros B Hr. destruct (print_radix_ok n b B) as (bs & s & E1 & E2 & E3).
  destruct (print_notation b 10) as (bs' & F1 & lb & Nb & Eb); [lia|].
  rewrite E1 in F1. injection F1 as <-. replace (b <? 0) with false in Eb by lia. cbn [app] in Eb.
  rewrite Z.abs_eq in Nb by lia.
  destruct (print_notation n b B) as (s' & F2 & l & Nn & Es). rewrite E2 in F2. injection F2 as <-.
  apply numeral_decimal_text in Nb. apply numeral_numeral_text in Nn. rewrite <- Eb in Nb.
  exists (bs ++ 114 :: s). subst s. destruct (n <? 0) eqn:SG; cbn [app].
  - destruct (radix_neg_literal b (Z.abs n) bs (map ascii_digit l) rest B Nb Nn (after_any b rest Hr)) as (o & L & V).
    exists o. split; [exact E3|]. split.
    { rewrite <- app_assoc. exact L. }
    replace (- Z.abs n) with n in V by lia.
    replace ((- (3 * 2 ^ 62) <=? n) && (n <? - 2 ^ 62)) with ((2 ^ 62 <? Z.abs n) && (Z.abs n <=? 3 * 2 ^ 62)); [exact V|].
    clear -SG. lia.
  - destruct (radix_literal false b (Z.abs n) bs (map ascii_digit l) rest B Nb Nn (after_any b rest Hr)) as (o & L & V & C).
    exists o. split; [exact E3|]. split.
    { rewrite <- app_assoc. exact L. }
    replace ((- (3 * 2 ^ 62) <=? n) && (n <? - 2 ^ 62)) with false by (clear -SG; lia).
    unfold sgn_lit in *. replace (Z.abs n) with n in V, C by lia.
    split; [apply C; lia|exact V].
Qed.

(** ** strings *)

Lemma string_body_ok s rest : after_string rest ->
  string_body (flat_map (fun c => if c =? 39 then [39; 39] else [c]) s ++ 39 :: rest) = Ok (s, rest).
Proof.
  intros A. induction s as [|c s IH]; cbn [flat_map app].
  - cbn [string_body]. change (39 =? 39) with true. cbv iota. destruct rest as [|d u]; [reflexivity|].
    cbn in A. destruct (Z.eqb_spec d 39); [contradiction|reflexivity].
  - destruct (Z.eqb_spec c 39) as [E|E].
    + subst c. cbn [app string_body]. change (39 =? 39) with true. cbv iota. rewrite IH. reflexivity.
    + cbn [app string_body]. destruct (Z.eqb_spec c 39); [contradiction|]. rewrite IH. reflexivity.
Qed.

Lemma print_str_app s rest :
  print_str s ++ rest = 39 :: (flat_map (fun c => if c =? 39 then [39; 39] else [c]) s ++ 39 :: rest).
Proof. unfold print_str. cbn [app]. rewrite <- app_assoc. reflexivity. Qed.

Lemma cstring_id s : ~ In 0 s -> cstring s = s.
Proof.
  induction s as [|c s IH]; intros H; [reflexivity|]. cbn [cstring].
  destruct (Z.eqb_spec c 0) as [E|E]; [exfalso; apply H; left; congruence|].
  rewrite IH; [reflexivity|]. intros K. apply H. right. exact K.
Qed.

Lemma cstring_prefix s : exists t, s = cstring s ++ t /\ ~ In 0 (cstring s) /\
  (t = [] \/ exists u, t = 0 :: u).
Proof.
  induction s as [|c s (t & E & N & T)]; cbn [cstring].
  - exists []. auto.
  - destruct (Z.eqb_spec c 0) as [->|H].
    + exists (0 :: s). split; [reflexivity|]. split; [intros []|right; eauto].
    + exists t. split; [cbn; congruence|]. split; [|exact T]. intros [K|K]; auto.
Qed.

Lemma string_read s rest : after_string rest ->
  string_literal (print_str s ++ rest) = Ok (cstring s, rest).
Proof.
  intros A. rewrite print_str_app. unfold string_literal. change (39 =? 39) with true. cbv iota.
  rewrite string_body_ok by exact A. reflexivity.
Qed.

Lemma cstring_iff s : cstring s = s <-> ~ In 0 s.
Proof.
  split; [|apply cstring_id]. intros E K. destruct (cstring_prefix s) as (_ & _ & N & _).
  rewrite E in N. contradiction.
Qed.

(** ** symbols *)

Lemma bin_op_char_iff c : bin_op_char c = true <-> operator_char c.
Proof.
  unfold bin_op_char, operator_char. rewrite existsb_exists. split.
  - intros (x & I & E). apply Z.eqb_eq in E. subst. exact I.
  - intros I. exists c. split; [exact I|apply Z.eqb_refl].
Qed.

Lemma simple_op_iff c :
  existsb (Z.eqb c) [43; 45; 42; 47; 92; 60; 62; 61; 126; 44; 37; 64; 63; 38; 124] = bin_op_char c.
Proof. unfold bin_op_char. cbn [existsb]. lia. Qed.

Lemma symbol_stop c rest : after_symbol (c :: rest) -> symbol_char c = false /\ bin_op_char c = false /\ is_dec c = false.
Proof.
  intros (A & B & C & D & E). cbn in E. split; [|split].
  - unfold symbol_char, letter_char, is_dec. lia.
  - destruct (bin_op_char c) eqn:K; [|reflexivity]. apply bin_op_char_iff in K. contradiction.
  - unfold is_dec. lia.
Qed.

Lemma symbol_body_ok s rest : forallb symbol_char s = true -> after_symbol rest ->
  symbol_body (s ++ rest) = (s, rest).
Proof.
  intros F A. induction s as [|c s IH]; cbn [app].
  - destruct rest as [|c t]; [reflexivity|]. cbn [symbol_body].
    destruct (symbol_stop _ _ A) as (-> & _). reflexivity.
  - cbn [forallb] in F. apply andb_prop in F. destruct F as [F1 F2]. cbn [symbol_body]. rewrite F1, IH by exact F2.
    reflexivity.
Qed.

Lemma letter_not_op c : letter_char c = true -> bin_op_char c = false /\ c <> 39 /\ symbol_char c = true /\ is_dec c = false.
Proof.
  intros H. unfold bin_op_char, symbol_char. rewrite H. unfold letter_char in H. cbn [existsb].
  split; [lia|]. split; [lia|]. split; [reflexivity|]. unfold is_dec. lia.
Qed.

Lemma forallb_imp {A} (p q : A -> bool) l : (forall x, p x = true -> q x = true) ->
  forallb p l = true -> forallb q l = true.
Proof. intros H. rewrite !forallb_forall. auto. Qed.

Lemma after_symbol_string rest : after_symbol rest -> after_string rest.
Proof. destruct rest as [|c t]; [exact (fun x => x)|]. intros (_ & _ & _ & _ & H) E. subst. apply H. cbn. auto. Qed.

Lemma symbol_read s rest : s <> [] -> after_symbol rest ->
  exists t, print_symbol s = Ok t /\
    symbol_literal (t ++ rest) = Ok (if match isSimpleSymbol s with Ok b => b | _ => false end then s else cstring s, rest) /\
    (isSimpleSymbol s = Ok true -> ~ In 0 s).
Proof.
  intros NE A. destruct s as [|c s]; [contradiction|]. clear NE.
  unfold print_symbol. 
  assert (Q : symbol_literal ((35 :: print_str (c :: s)) ++ rest) = Ok (cstring (c :: s), rest)).
  { cbn [app]. rewrite print_str_app. unfold symbol_literal. change (negb (35 =? 35)) with false.
    change (bin_op_char 39) with false. change (39 =? 39) with true. cbv iota.
    rewrite string_body_ok by (apply after_symbol_string; exact A). reflexivity. }
  unfold isSimpleSymbol. destruct (letter_char c) eqn:L.
  - set (b := forallb _ (c :: s)). cbn [obind]. destruct b eqn:B.
    + exists (35 :: c :: s). split; [reflexivity|].
      subst b. cbn [forallb] in B. apply andb_prop in B. destruct B as [_ B].
      destruct (letter_not_op c L) as (H1 & H2 & H3 & H4).
      split.
      * cbn [app]. unfold symbol_literal. change (negb (35 =? 35)) with false. rewrite H1, H3, H4.
        replace (c =? 39) with false by lia. cbn [andb negb]. cbv iota.
        rewrite symbol_body_ok; [reflexivity| |exact A].
        eapply forallb_imp; [|exact B]. intros x. unfold symbol_char, letter_char, is_dec. lia.
      * intros _ [K|K].
        -- subst. discriminate L.
        -- rewrite forallb_forall in B. specialize (B 0 K). discriminate B.
    + exists (35 :: print_str (c :: s)). split; [reflexivity|]. split; [exact Q|discriminate].
  - destruct (Nat.ltb 2 (length (c :: s))) eqn:LEN.
    + cbn [obind]. exists (35 :: print_str (c :: s)). split; [reflexivity|]. split; [exact Q|discriminate].
    + cbn [obind]. set (b := forallb _ (c :: s)). destruct b eqn:B.
      * subst b. exists (35 :: c :: s). split; [reflexivity|].
        cbn [forallb] in B. apply andb_prop in B. destruct B as [B1 B2].
        rewrite simple_op_iff in B1. apply Nat.ltb_ge in LEN. cbn [length] in LEN.
        split.
        -- cbn [app]. unfold symbol_literal. change (negb (35 =? 35)) with false. cbv iota. rewrite B1.
           destruct s as [|d s].
           ++ cbn [app scan_bin_op]. destruct rest as [|d u]; [reflexivity|].
              destruct (symbol_stop _ _ A) as (_ & -> & _). reflexivity.
           ++ destruct s; [|cbn [length] in LEN; lia]. cbn [forallb] in B2. apply andb_prop in B2.
              destruct B2 as [B2 _]. rewrite simple_op_iff in B2. cbn [app scan_bin_op]. rewrite B2.
              destruct rest as [|e u]; [rewrite andb_false_r; reflexivity|].
              destruct (symbol_stop _ _ A) as (_ & _ & ->). rewrite andb_false_r. reflexivity.
        -- intros _ [K|K].
           ++ subst. discriminate B1.
           ++ rewrite forallb_forall in B2. specialize (B2 0 K). discriminate B2.
      * exists (35 :: print_str (c :: s)). split; [reflexivity|]. split; [exact Q|discriminate].
Qed.

Lemma symbol_read_exact s rest : s <> [] -> after_symbol rest ->
  exists t u, print_symbol s = Ok t /\ symbol_literal (t ++ rest) = Ok (u, rest) /\ (u = s <-> ~ In 0 s).
Proof.
  intros NE A. destruct (symbol_read s rest NE A) as (t & P & R & H).
  exists t. eexists. split; [exact P|]. split; [exact R|].
  destruct (isSimpleSymbol s) as [b| | | |] eqn:E; try (apply cstring_iff).
  destruct b; [|apply cstring_iff]. split; [intros _; apply H; reflexivity|reflexivity].
Qed.

(** ** characters *)

Lemma skip_white_dec d t : is_dec d = true -> skip_white (d :: t) = d :: t.
Proof. intros H. cbn [skip_white existsb]. unfold is_dec in H. replace ((d =? 9) || _) with false by lia. reflexivity. Qed.

Lemma skip_white_split s : exists blanks, s = blanks ++ skip_white s /\ Forall (fun x => In x [9; 12; 13; 32]) blanks.
Proof.
  induction s as [|c s (bl & E & F)].
  - exists []. split; [reflexivity|constructor].
  - cbn [skip_white]. destruct (existsb (Z.eqb c) [9; 12; 13; 32]) eqn:K.
    + exists (c :: bl). split; [cbn; congruence|]. constructor; [|exact F].
      apply existsb_exists in K. destruct K as (x & I & Q). apply Z.eqb_eq in Q. subst. exact I.
    + exists []. split; [reflexivity|constructor].
Qed.

Lemma char_new_small c : 0 <= c <= 127 -> char_new c = (false, c).
Proof.
  intros H. unfold char_new. replace (uwrap32 c) with c.
  - replace (c <=? 127) with true by lia. reflexivity.
  - unfold uwrap32. change (2 ^ 32) with 4294967296. lia.
Qed.

Lemma char_new_unicode c : 128 <= c <= 1114111 -> char_new c = (true, c).
Proof.
  intros H. unfold char_new. replace (uwrap32 c) with c.
  - replace (c <=? 127) with false by lia. replace (1114111 <? c) with false by lia. reflexivity.
  - unfold uwrap32. change (2 ^ 32) with 4294967296. lia.
Qed.

(** the character with a code point *)
Definition code_point_char (v : Z) : char_obj := (negb (v <=? 127), v).

Lemma char_new_code v : 0 <= v <= 1114111 -> char_new v = code_point_char v.
Proof.
  intros H. unfold code_point_char. destruct (Z.leb_spec v 127).
  - apply char_new_small. lia.
  - apply char_new_unicode. lia.
Qed.

Lemma char_code_read w v rest :
  (exists c t, w = c :: t /\ is_dec c = true) ->
  scan_number (w ++ 62 :: rest) = Ok (TInt v, 62 :: rest) -> 0 <= v ->
  match rest with [] => True | d :: _ => ~ operator_char d end ->
  char_literal (36 :: 60 :: w ++ 62 :: rest) =
    if 1114111 <? wrap32 v then Err else Ok (char_new (wrap32 v), rest).
Proof.
  intros (c & t & -> & D) S P A. unfold char_literal.
  change (negb (36 =? 36)) with false. change (127 <? 60) with false. change (60 =? 60) with true. cbv iota zeta.
  cbn [app] in *. rewrite skip_white_dec by exact D. rewrite D, S. cbn [obind].
  replace (0 <=? v) with true by lia. change (skip_white (62 :: rest)) with (62 :: rest).
  change (62 =? 62) with true. cbv iota.
  assert (E : scan_bin_op (62 :: rest) = ([62], rest)).
  { cbn [scan_bin_op]. destruct rest as [|d u]; [reflexivity|].
    destruct (bin_op_char d) eqn:K; [|reflexivity]. apply bin_op_char_iff in K. contradiction. }
  rewrite E. reflexivity.
Qed.

Lemma after_gt rest : after_literal (62 :: rest).
Proof. cbn. repeat split; lia. Qed.

Lemma tok_small v t : num_done false v t -> v < 2 ^ 62 -> t = TInt v.
Proof. intros [[_ E]|[L _]] H; [exact E|lia]. Qed.

Lemma decimal_code_read w v rest : decimal_text v w -> v < 2 ^ 62 ->
  match rest with [] => True | d :: _ => ~ operator_char d end ->
  char_literal (36 :: 60 :: w ++ 62 :: rest) =
    if 1114111 <? wrap32 v then Err else Ok (char_new (wrap32 v), rest).
Proof.
  intros D V A. destruct (decimal_scan v w (62 :: rest) D (after_gt rest)) as (t & E & N).
  apply tok_small in N; [|exact V]. subst t.
  apply char_code_read; auto.
  - destruct (decimal_head v w D) as (c & t & Hc & Hd & _). eauto.
  - destruct D as [D _]. eapply numeral_text_nonneg; [|exact D]. lia.
Qed.

Lemma radix_code_read b bw w v rest : 2 <= b <= 36 -> decimal_text b bw -> numeral_text b v w -> v < 2 ^ 62 ->
  match rest with [] => True | d :: _ => ~ operator_char d end ->
  char_literal (36 :: 60 :: bw ++ 114 :: w ++ 62 :: rest) =
    if 1114111 <? wrap32 v then Err else Ok (char_new (wrap32 v), rest).
Proof.
  intros B D W V A.
  destruct (radix_scan false b v bw w (62 :: rest) B D W (after_any b _ (after_gt rest))) as (t & E & N).
  apply tok_small in N; [|exact V]. subst t. cbn [app] in E.
  replace (bw ++ 114 :: w ++ 62 :: rest) with ((bw ++ 114 :: w) ++ 62 :: rest)
    by (rewrite <- app_assoc; reflexivity).
  apply char_code_read; auto.
  - destruct (decimal_head b bw D) as (c & t & -> & Hd & _). cbn [app]. eauto.
  - rewrite <- app_assoc. exact E.
  - eapply numeral_text_nonneg; [|exact W]. lia.
Qed.

Lemma wrap32_small v : 0 <= v < 2 ^ 31 -> wrap32 v = v.
Proof. intros H. unfold wrap32. lia. Qed.

Lemma plain_char c rest : 0 <= c <= 127 -> c <> 60 ->
  char_literal (36 :: c :: rest) = Ok ((false, c), rest).
Proof.
  intros H N. unfold char_literal. change (negb (36 =? 36)) with false.
  replace (127 <? c) with false by lia. cbv iota zeta. replace (c =? 60) with false by lia.
  rewrite char_new_small by lia. reflexivity.
Qed.

Lemma plain_lt rest : after_char 60 rest -> char_literal (36 :: 60 :: rest) = Ok ((false, 60), rest).
Proof.
  intros [A _]. specialize (A eq_refl). unfold char_literal. change (negb (36 =? 36)) with false.
  change (127 <? 60) with false. change (60 =? 60) with true. cbv iota zeta.
  rewrite char_new_small by lia. destruct (skip_white_split rest) as (bl & E & F).
  destruct (skip_white rest) as [|d t]; [reflexivity|].
  specialize (A bl d t E F). replace (is_dec d) with false; [reflexivity|]. unfold is_dec. lia.
Qed.

Lemma numeral_pad b v l : numeral b v l -> 2 <= b -> forall n,
  numeral_text b v (repeat 48 n ++ map ascii_digit l).
Proof.
  intros (F & V & L) B n. exists (repeat 0 n ++ l). split.
  { destruct l; [contradiction|]. intros E. apply app_eq_nil in E. destruct E. discriminate. }
  split.
  - induction n; cbn [repeat app]; [apply map_digit_text; exact F|].
    change 48 with (ascii_digit 0). constructor; [lia|exact IHn].
  - induction n; cbn [repeat app]; [congruence|]. rewrite IHn. unfold pos_value. cbn [fold_left]. reflexivity.
Qed.

Lemma decimal_16 : decimal_text 16 [49; 54].
Proof.
  apply (numeral_decimal_text 16 [1; 6]). split; [repeat constructor; lia|]. split; [reflexivity|discriminate].
Qed.

Lemma store_code c rest : 0 <= snd c <= 1114111 -> ~ 32 <= snd c <= 126 ->
  match rest with [] => True | d :: _ => ~ operator_char d end ->
  exists s, store_char c = Ok s /\ char_literal (s ++ rest) = Ok (code_point_char (snd c), rest).
Proof.
  intros R N A. unfold store_char. replace ((32 <=? snd c) && (snd c <=? 126)) with false by lia.
  assert (Fin : (if 1114111 <? wrap32 (snd c) then Err else Ok (char_new (wrap32 (snd c)), rest))
                = Ok (code_point_char (snd c), rest)).
  { rewrite wrap32_small by lia. replace (1114111 <? snd c) with false by lia.
    rewrite char_new_code by lia. reflexivity. }
  unfold print_code_point. destruct (snd c <? 32) eqn:L.
  - destruct (print_notation (snd c) 10) as (s & E & l & Nl & Es); [lia|].
    replace (snd c <? 0) with false in Es by lia. cbn [app] in Es. rewrite Z.abs_eq in Nl by lia.
    rewrite E. cbn [obind]. eexists. split; [reflexivity|].
    cbn [app]. rewrite <- app_assoc. cbn [app]. subst s.
    rewrite (decimal_code_read _ (snd c)); [exact Fin|apply numeral_decimal_text; exact Nl|lia|exact A].
  - destruct (print_notation (snd c) 16) as (s & E & l & Nl & Es); [lia|].
    replace (snd c <? 0) with false in Es by lia. cbn [app] in Es. rewrite Z.abs_eq in Nl by lia.
    rewrite E. cbn [obind]. eexists. split; [reflexivity|]. subst s.
    set (pad := (if snd c <=? 255 then [48] else []) ++ if snd c <=? 4095 then [48] else []).
    replace ((if snd c <=? 255 then [48] else []) ++ (if snd c <=? 4095 then [48] else []) ++ map ascii_digit l)
      with (pad ++ map ascii_digit l) by (unfold pad; rewrite <- app_assoc; reflexivity).
    assert (P : exists n, pad = repeat 48 n).
    { unfold pad. destruct (snd c <=? 255), (snd c <=? 4095); [exists 2%nat|exists 1%nat|exists 1%nat|exists 0%nat]; reflexivity. }
    destruct P as [n P]. rewrite P.
    change ((36 :: 60 :: ([49; 54; 114] ++ repeat 48 n ++ map ascii_digit l) ++ [62]) ++ rest)
      with (36 :: 60 :: [49; 54] ++ 114 :: (((repeat 48 n ++ map ascii_digit l) ++ [62]) ++ rest)).
    rewrite <- (app_assoc (repeat 48 n ++ map ascii_digit l)). cbn [app].
    rewrite <- Fin.
    apply (radix_code_read 16 [49; 54] (repeat 48 n ++ map ascii_digit l) (snd c) rest);
      [lia|exact decimal_16| |lia|exact A].
    apply numeral_pad; [exact Nl|lia].
Qed.

Lemma store_read c rest : 0 <= snd c <= 1114111 -> after_char (snd c) rest ->
  exists s, store_char c = Ok s /\ char_literal (s ++ rest) = Ok (code_point_char (snd c), rest).
Proof.
  intros R A. destruct (Z_lt_dec (snd c) 32) as [H|H].
  - apply store_code; [exact R|lia|]. apply A. lia.
  - destruct (Z_lt_dec 126 (snd c)) as [K|K].
    + apply store_code; [exact R|lia|]. apply A. lia.
    + unfold store_char. replace ((32 <=? snd c) && (snd c <=? 126)) with true by lia.
      eexists. split; [reflexivity|]. cbn [app]. unfold code_point_char.
      replace (snd c <=? 127) with true by lia. cbn [negb].
      destruct (Z.eq_dec (snd c) 60) as [E|E].
      * rewrite E in *. apply plain_lt. exact A.
      * apply plain_char; lia.
Qed.

Lemma store_read_char c rest : a_char c -> after_char (snd c) rest ->
  exists s d, store_char c = Ok s /\ char_literal (s ++ rest) = Ok (d, rest) /\
    (char_eq d c = true <-> fst c = true \/ snd c <= 127) /\
    (fst c = true \/ snd c <= 127 -> d = c).
Proof.
  intros C A. assert (R : 0 <= snd c <= 1114111) by (unfold a_char in C; destruct (fst c); lia).
  destruct (store_read c rest R A) as (s & E1 & E2). exists s, (code_point_char (snd c)).
  split; [exact E1|]. split; [exact E2|]. destruct c as [u v]. unfold a_char, char_eq, code_point_char in *.
  cbn [fst snd] in *. rewrite Z.eqb_refl. cbn [andb]. destruct (Z.leb_spec v 127) as [L|L].
  - destruct u; [lia|]. cbn. split; [|reflexivity]. split; [intros _; right; exact L|reflexivity].
  - destruct u; cbn.
    + split; [|reflexivity]. split; [intros _; left; reflexivity|reflexivity].
    + split; [|intros [K|K]; [discriminate|lia]]. split; [discriminate|intros [K|K]; [discriminate|lia]].
Qed.

Lemma code_literal w v rest : decimal_text v w -> match rest with [] => True | d :: _ => ~ operator_char d end ->
  (v <= 1114111 -> exists u, char_literal (36 :: 60 :: w ++ 62 :: rest) = Ok ((u, v), rest) /\ (u = true <-> 127 < v)) /\
  (1114111 < v < 2 ^ 31 -> char_literal (36 :: 60 :: w ++ 62 :: rest) = Err).
Proof.
  intros D A. pose proof (numeral_text_nonneg 10 v w ltac:(lia) (proj1 D)) as P. split.
  - intros V. rewrite (decimal_code_read w v rest D ltac:(lia) A). rewrite wrap32_small by lia.
    replace (1114111 <? v) with false by lia. rewrite char_new_code by lia. eexists. split; [reflexivity|].
    destruct (Z.leb_spec v 127); cbn; split; (discriminate || lia).
  - intros V. rewrite (decimal_code_read w v rest D ltac:(lia) A). rewrite wrap32_small by lia.
    replace (1114111 <? v) with true by lia. reflexivity.
Qed.

(** ** in the form of the properties *)

Lemma int_literal_partial (sg : bool) v w rest : decimal_text v w -> after_literal rest ->
  (if sg then - v else v) <> - 2 ^ 62 ->
  exists o, int_literal ((if sg then [45] else []) ++ w ++ rest) = Ok (Some o, rest) /\
    is_int_obj o (if sg then - v else v).
Proof.
  intros D A N. destruct (decimal_literal sg v w rest D A) as (o & E & V & C).
  exists o. split; [exact E|]. split; [apply C; exact N|exact V].
Qed.

Lemma int_literal_value (sg : bool) v w rest : decimal_text v w -> after_literal rest ->
  exists o, int_literal ((if sg then [45] else []) ++ w ++ rest) = Ok (Some o, rest) /\
    st_val o = (if sg then - v else v).
Proof.
  intros D A. destruct (decimal_literal sg v w rest D A) as (o & E & V & C). eauto.
Qed.

Lemma int_literal_radix (sg : bool) b v bw w rest : 2 <= b <= 36 -> decimal_text b bw -> numeral_text b v w ->
  after_radix b rest -> (if sg then - v else v) <> - 2 ^ 62 ->
  exists o, int_literal ((if sg then [45] else []) ++ bw ++ 114 :: w ++ rest) = Ok (Some o, rest) /\
    is_int_obj o (if sg then - v else v).
Proof.
  intros B D W A N. destruct (radix_literal sg b v bw w rest B D W A) as (o & E & V & C).
  exists o. split; [exact E|]. split; [apply C; exact N|exact V].
Qed.

(** the text -4611686018427387904 *)
Definition min_text : list Z := [52;54;49;49;54;56;54;48;49;56;52;50;55;51;56;55;57;48;52].

Lemma min_text_ok : decimal_text (2 ^ 62) min_text.
Proof.
  apply (numeral_decimal_text (2 ^ 62) (map (fun c => c - 48) min_text)).
  split; [repeat constructor; cbn; lia|]. split; [reflexivity|]. cbn. discriminate.
Qed.

Lemma int_literal_refuted : exists o, int_literal (45 :: min_text) = Ok (Some o, []) /\
  st_val o = - 2 ^ 62 /\ ~ canonical o /\ is_int_obj (Small (- 2 ^ 62)) (- 2 ^ 62).
Proof.
  exists (Large true [0; 0; 0; 0; 0; 0; 0; 192]). split; [reflexivity|]. split; [reflexivity|].
  split.
  - intros H. cbn in H. destruct H as (_ & _ & H). revert H. cbn. lia.
  - split; [cbn; lia|reflexivity].
Qed.

Lemma print_literal_partial n rest : after_literal rest -> n <> - 2 ^ 62 ->
  exists s o, print_string n 10 = Ok s /\ int_literal (s ++ rest) = Ok (Some o, rest) /\ is_int_obj o n.
Proof.
  intros A N. destruct (print_literal n rest A) as (s & o & P & E & V & C).
  exists s, o. split; [exact P|]. split; [exact E|]. split; [apply C; exact N|exact V].
Qed.

Lemma radix_print_partial n b rest : 2 <= b <= 36 -> after_literal rest ->
  ~ - (3 * 2 ^ 62) <= n < - 2 ^ 62 ->
  exists s o, print_radix n b = Ok s /\ int_literal (s ++ rest) = Ok (Some o, rest) /\ is_int_obj o n.
Proof.
  intros B A N. destruct (radix_print_literal n b rest B A) as (s & o & P & E & V).
  exists s, o. split; [exact P|]. split; [exact E|].
  replace ((- (3 * 2 ^ 62) <=? n) && (n <? - 2 ^ 62)) with false in V by (clear -N; lia). exact V.
Qed.

Lemma radix_print_wrong n b rest : 2 <= b <= 36 -> after_literal rest ->
  - (3 * 2 ^ 62) <= n < - 2 ^ 62 ->
  exists s o, print_radix n b = Ok s /\ int_literal (s ++ rest) = Ok (Some o, rest) /\ st_val o <> n.
Proof.
  intros B A N. destruct (radix_print_literal n b rest B A) as (s & o & P & E & V).
  exists s, o. split; [exact P|]. split; [exact E|].
  replace ((- (3 * 2 ^ 62) <=? n) && (n <? - 2 ^ 62)) with true in V by (clear -N; lia). exact V.
Qed.

Lemma string_read_partial s rest : ~ In 0 s -> after_string rest ->
  string_literal (print_str s ++ rest) = Ok (s, rest).
Proof. intros N A. rewrite string_read by exact A. rewrite cstring_id by exact N. reflexivity. Qed.

Lemma string_read_nul p q rest : ~ In 0 p -> after_string rest ->
  string_literal (print_str (p ++ 0 :: q) ++ rest) = Ok (p, rest).
Proof.
  intros N A. rewrite string_read by exact A.
  replace (cstring (p ++ 0 :: q)) with p; [reflexivity|].
  induction p as [|c p IH]; [reflexivity|]. cbn [app cstring].
  destruct (Z.eqb_spec c 0) as [E|E]; [exfalso; apply N; left; congruence|].
  rewrite <- IH; [reflexivity|]. intros K. apply N. right. exact K.
Qed.

Lemma symbol_read_partial s rest : s <> [] -> ~ In 0 s -> after_symbol rest ->
  exists t, print_symbol s = Ok t /\ symbol_literal (t ++ rest) = Ok (s, rest).
Proof.
  intros NE N A. destruct (symbol_read_exact s rest NE A) as (t & u & P & R & H).
  exists t. split; [exact P|]. rewrite R. f_equal. f_equal. apply H. exact N.
Qed.

Lemma symbol_read_nul s rest : In 0 s -> after_symbol rest ->
  exists t u, print_symbol s = Ok t /\ symbol_literal (t ++ rest) = Ok (u, rest) /\ u <> s.
Proof.
  intros I A. assert (NE : s <> []) by (intros ->; destruct I).
  destruct (symbol_read_exact s rest NE A) as (t & u & P & R & H).
  exists t, u. split; [exact P|]. split; [exact R|]. intros E. apply H in E. contradiction.
Qed.

Lemma char_read_partial c rest : a_char c -> after_char (snd c) rest -> fst c = true \/ snd c <= 127 ->
  exists s, store_char c = Ok s /\ char_literal (s ++ rest) = Ok (c, rest).
Proof.
  intros C A H. destruct (store_read_char c rest C A) as (s & d & P & R & _ & E).
  exists s. rewrite <- (E H). rewrite (E H) at 1. auto.
Qed.

Lemma char_read_wrong v rest : 128 <= v <= 255 -> after_char v rest ->
  exists s d, store_char (false, v) = Ok s /\ char_literal (s ++ rest) = Ok (d, rest) /\
    char_eq d (false, v) = false.
Proof.
  intros V A. destruct (store_read_char (false, v) rest) as (s & d & P & R & Q & _); [cbn; lia|exact A|].
  exists s, d. split; [exact P|]. split; [exact R|]. destruct (char_eq d (false, v)); [|reflexivity].
  destruct Q as [Q _]. destruct (Q eq_refl) as [K|K]; cbn in K; [discriminate|lia].
Qed.

Lemma decimal_big : decimal_text 4294967361 [52;50;57;52;57;54;55;51;54;49].
Proof.
  apply (numeral_decimal_text 4294967361 (map (fun c => c - 48) [52;50;57;52;57;54;55;51;54;49])).
  split; [repeat constructor; cbn; lia|]. split; [reflexivity|]. cbn. discriminate.
Qed.

Lemma string_read_refuted : exists s t, string_literal (print_str s) = Ok (t, []) /\ t <> s.
Proof. exists [97; 0; 98], [97]. split; [reflexivity|discriminate]. Qed.

Lemma char_read_refuted : exists c s d, a_char c /\ store_char c = Ok s /\
  s = [36; 60; 49; 54; 114; 48; 48; 67; 56; 62] /\
  char_literal s = Ok (d, []) /\ char_eq d c = false.
Proof.
  exists (false, 200), [36; 60; 49; 54; 114; 48; 48; 67; 56; 62], (true, 200).
  split; [cbn; lia|]. repeat split.
Qed.
