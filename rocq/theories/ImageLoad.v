(** What is in the file, and what is loaded from it. *)
From Verif Require Import Base Image ImageSpec ImageIO ImageProofs.
Local Open Scope Z_scope.

(** * The number of entries used *)

Lemma used_bound m t i u : (u <= i)%nat -> (u <= used_oops m t i u <= i + length t)%nat.
Proof.
  revert i u. induction t as [|s t IH]; intros i u H; cbn [used_oops length]; [lia|].
  specialize (IH (S i) (if valid m s then S i else u)). destruct (valid m s); lia.
Qed.
Lemma used_valid m t i u j s : nth_error t j = Some s -> valid m s = true -> (i + j < used_oops m t i u)%nat.
Proof.
  revert i u j. induction t as [|x t IH]; intros i u j E V; [destruct j; discriminate|].
  cbn [used_oops]. destruct j.
  - injection E as ->. rewrite V. pose proof (used_bound m t (S i) (S i)). lia.
  - specialize (IH (S i) (if valid m x then S i else u) j E V). lia.
Qed.

Lemma enough_fuel {A} (P : A -> nat -> Prop) l : (forall x, In x l -> exists k, forall fuel, (k <= fuel)%nat -> P x fuel) ->
  exists k, forall x fuel, In x l -> (k <= fuel)%nat -> P x fuel.
Proof.
  induction l as [|a l IH]; intros H; [exists 0%nat; intros x fuel []|].
  destruct IH as (k & K); [intros x X; apply H; right; exact X|]. destruct (H a (or_introl eq_refl)) as (k' & K').
  exists (k + k')%nat. intros x fuel [<-|X] L; [apply K'; lia|apply K; [exact X|lia]].
Qed.

Lemma filter_le {A} (f : A -> bool) l : (length (List.filter f l) <= length l)%nat.
Proof. induction l as [|a l IH]; cbn; [lia|]. destruct (f a); cbn; lia. Qed.

Lemma over_table_ok f (x y : slot -> slot) base nilc lf l :
  (forall pre a post, l = pre ++ a :: post ->
     f (Mem base (map y pre ++ map x (a :: post)) nilc lf) (x a) = Ok (y a)) ->
  over_table f (length l) 0 (Mem base (map x l) nilc lf) = Ok (Mem base (map y l) nilc lf).
Proof.
  intros H.
  assert (G : forall post pre, l = pre ++ post ->
    over_table f (length post) (length pre) (Mem base (map y pre ++ map x post) nilc lf)
    = Ok (Mem base (map y l) nilc lf)).
  { induction post as [|a post IH]; intros pre E; cbn [over_table length].
    - rewrite E, !map_app. reflexivity.
    - cbn [table]. assert (NE : nth_error (map y pre ++ map x (a :: post)) (length pre) = Some (x a)).
      { rewrite nth_error_app2; rewrite map_length; [|lia]. rewrite Nat.sub_diag. reflexivity. }
      rewrite NE, (H pre a post E). cbn [obind]. unfold with_slot. cbn [table ot_base nil_class live_flags].
      assert (RS : forall q w z n, length q = n -> replace_slot n z (q ++ w) = q ++ replace_slot 0 z w).
      { clear. intros q w z n <-. induction q as [|b q IHq]; [reflexivity|]. cbn [app length replace_slot].
        rewrite IHq. reflexivity. }
      rewrite RS by apply map_length. cbn [map replace_slot].
      specialize (IH (pre ++ [a])). rewrite <- app_assoc in IH. specialize (IH E).
      rewrite app_length, map_app, <- app_assoc in IH. cbn [length app map] in IH.
      rewrite Nat.add_1_r in IH. exact IH. }
  exact (G l [] eq_refl).
Qed.

Lemma header_parts H : length (settings H) = 6%nat ->
  let ws := header_words H in
  Header (nth 0 ws 0) (nth 1 ws 0) (firstn 6 (skipn 2 ws)) (nth 8 ws 0) (nth 9 ws 0) (skipn 10 ws) = H.
Proof.
  destruct H as [v n s f b d]. cbn [settings]. intros E.
  destruct s as [|s1 [|s2 [|s3 [|s4 [|s5 [|s6 [|]]]]]]]; try discriminate. reflexivity.
Qed.

Lemma seen_invert e e' w : negb (Bool.eqb e e') = true -> word w -> byte_invert (seen e e' w) = w.
Proof. intros E W. unfold seen. destruct (Bool.eqb e e'); [discriminate|]. apply byte_invert_twice, W. Qed.

Lemma bytes_seen e e' l : Forall word l -> flat_map (bytes_of e') (map (seen e e') l) = flat_map (bytes_of e) l.
Proof.
  induction 1 as [|w l X FW IH]; [reflexivity|]. cbn [map flat_map]. rewrite IH. f_equal.
  unfold seen. destruct (Bool.eqb_spec e e') as [-> |NE]; [reflexivity|].
  replace e' with (negb e) by (destruct e, e'; try reflexivity; congruence). apply bytes_invert, X.
Qed.

Lemma wrap64_eq x : exists q, wrap64 x = x + q * 2 ^ 64.
Proof.
  unfold wrap64. exists (- ((x + 2 ^ 63) / 2 ^ 64)). pose proof (Z.div_mod (x + 2 ^ 63) (2 ^ 64)). lia.
Qed.

Section Image.
Variable r : roles.
Variable m : memory.
Hypothesis GM : good_memory r m.
Variable e : bool.      (* endianness of the machine that saves *)
Variable fuel : nat.
Variable F : slot -> object.
Hypothesis HF : forall s, In s (table m) -> valid m s = true ->
  fixup_object fuel m r s = Ok (F s) /\ fixed r m e s (F s).
Variables vers junk : Z.
Variables sets sums : list Z.
Hypothesis HV : word vers.
Hypothesis HJ : word junk.
Hypothesis HS : Forall word sets /\ length sets = 6%nat.
Hypothesis HM : Forall word sums /\ length sums = 2%nat.

Let used := used_oops m (table m) 0 0.
Let t := firstn used (table m).
Let free := List.filter (fun s => negb (valid m s)) t.
Let h := Header vers (Z.of_nat used) sets (len free) (ot_base m) sums.

Lemma valid_live s : valid m s = true <-> Z.land (sflags s) (live_flags m) <> 0.
Proof. apply any_true. Qed.

Lemma slot_good s : In s (table m) -> valid m s = true -> good_slot r m s.
Proof.
  intros I V. apply In_nth_error in I. destruct I as (i & E). destruct GM as (_ & _ & _ & G). apply (G i s E), valid_live, V.
Qed.

Lemma in_t s : In s t -> In s (table m).
Proof. unfold t. intros H. rewrite <- (firstn_skipn used (table m)). apply in_or_app. left. exact H. Qed.

Lemma used_le : (used <= length (table m))%nat.
Proof. unfold used. pose proof (used_bound m (table m) 0 0). lia. Qed.
Lemma t_length : length t = used.
Proof. unfold t. rewrite firstn_length. pose proof used_le. lia. Qed.

Definition obj_words (s : slot) : list Z := osize (F s) :: oclass (F s) :: odata (F s).
Definition obj_bytes (s : slot) : list Z := if valid m s then bytes_of_words e (obj_words s) else [].

Lemma size_word s : In s (table m) -> valid m s = true ->
  word (osize (F s)) /\ word (oclass (F s)) /\ Forall word (odata (F s)) /\ to_int (osize (sobj s)) = 2 + len (odata (F s))
  /\ osize (F s) = from_int (2 + len (odata (F s))) /\ 8 * (2 + len (odata (F s))) + 65536 < 2 ^ 31.
Proof.
  intros I V. destruct (HF s I V) as (_ & S1 & S2 & S3 & S4 & _). pose proof (slot_good s I V) as G.
  destruct G as (_ & SZ & SM & _ & _ & (spec & C & _) & _).
  assert (L : len (odata (F s)) = len (odata (sobj s))) by (unfold len; congruence).
  pose proof (len_nonneg (odata (F s))) as LN.
  rewrite S1, S2, L in *. pose proof (class_word r m GM _ _ C) as CW.
  split; [unfold word; rewrite SZ; lia|]. split; [exact CW|]. split; [exact S4|].
  split; [|split; [|lia]].
  - rewrite SZ. unfold to_int, wrap64. rewrite Z.mod_small by lia. rewrite Z.shiftr_div_pow2 by lia.
    change (2 ^ 1) with 2. lia.
  - rewrite SZ. unfold from_int, uwrap64. rewrite Z.mod_small by lia. lia.
Qed.

Lemma save_all_ok rs l w : (forall s, In s l -> In s (table m)) -> wgood w ->
  (exists w', save_all_objects fuel rs e r m l w = Ok w' /\ wgood w' /\ total w' = total w ++ flat_map obj_bytes l)
  \/ (save_all_objects fuel rs e r m l w = Err /\ exists k, rs k <= 0).
Proof.
  revert w. induction l as [|s l IH]; intros w H G.
  - left. exists w. cbn. rewrite app_nil_r. auto.
  - cbn [save_all_objects flat_map]. unfold obj_bytes at 1. destruct (valid m s) eqn:V.
    + destruct (HF s (H s (or_introl eq_refl)) V) as (FX & _).
      destruct (size_word s (H s (or_introl eq_refl)) V) as (W1 & W2 & W3 & TI & OS & SM).
      assert (FN : sflags s <> 0) by (apply valid_live in V; apply live_flags_nz in V; exact V).
      unfold save_object. destruct (Z.eqb_spec (sflags s) 0); [contradiction|]. rewrite TI.
      destruct (Z.leb_spec (2 ^ 31) (8 * (2 + len (odata (F s))))); [lia|]. rewrite FX. cbn [obind].
      fold (obj_words s).
      destruct (buffer_write_ok rs (bytes_of_words e (obj_words s)) w G) as [(w' & B1 & B2 & B3)|(B1 & B2)].
      * rewrite bytes_of_words_len. unfold obj_words, len in *. cbn [length]. lia.
      * rewrite B1. cbn [obind]. destruct (IH w') as [(w2 & C1 & C2 & C3)|C]; [intros; apply H; right; assumption|exact B2| |].
        -- left. exists w2. split; [exact C1|]. split; [exact C2|]. rewrite C3, B3, app_assoc. reflexivity.
        -- right. exact C.
      * rewrite B1. right. split; [reflexivity|exact B2].
    + cbn [obind app]. apply IH; [intros; apply H; right; assumption|exact G].
Qed.

(** what the file contains *)
Definition contents : list Z :=
  header_text e ++ bytes_of_words e (header_words h)
  ++ bytes_of_words e (flat_map (table_entry junk m) t) ++ flat_map obj_bytes t.

Lemma header_text_length b : length (header_text b) = 72%nat.
Proof. destruct b; reflexivity. Qed.
Lemma header_words_length : length (header_words h) = 12%nat.
Proof.
  destruct HS as [_ A]. destruct HM as [_ B]. unfold header_words, h. cbn [version oop_table_size settings num_free_oops h_ot_base md5 length].
  rewrite app_length. cbn [length]. rewrite A, B. reflexivity.
Qed.
Lemma entries_length l : length (flat_map (table_entry junk m) l) = (2 * length l)%nat.
Proof.
  induction l as [|s l IH]; [reflexivity|]. cbn [flat_map]. rewrite app_length, IH. unfold table_entry.
  destruct (valid m s); cbn [length]; lia.
Qed.

Lemma table_small : Z.of_nat used <= 2 ^ 23.
Proof. pose proof used_le. destruct GM as ((_ & _ & A & _) & _). unfold len in A. lia. Qed.

Lemma save_contents rs :
  save_to_fd fuel rs e vers sets sums junk r m = Ok contents
  \/ (save_to_fd fuel rs e vers sets sums junk r m = Err /\ exists k, rs k <= 0).
Proof.
  unfold save_to_fd. cbv zeta. fold used. fold t. fold free. fold h.
  assert (G0 : wgood (Writer [] [] 0%nat)) by (unfold wgood, write_buffer_size, len; cbn [wbuf length]; lia).
  destruct (buffer_write_ok rs (header_text e ++ bytes_of_words e (header_words h)) _ G0) as [(w1 & A1 & A2 & A3)|(A1 & A2)].
  { rewrite len_app, bytes_of_words_len. unfold len. rewrite header_text_length, header_words_length. lia. }
  2:{ rewrite A1. right. split; [reflexivity|exact A2]. }
  rewrite A1. cbn [obind].
  destruct (buffer_write_ok rs (bytes_of_words e (flat_map (table_entry junk m) t)) w1 A2) as [(w2 & B1 & B2 & B3)|(B1 & B2)].
  { rewrite bytes_of_words_len. unfold len. rewrite entries_length, t_length. pose proof table_small. lia. }
  2:{ rewrite B1. right. split; [reflexivity|exact B2]. }
  rewrite B1. cbn [obind].
  destruct (save_all_ok rs t w2 in_t B2) as [(w3 & C1 & C2 & C3)|(C1 & C2)].
  2:{ rewrite C1. right. split; [reflexivity|exact C2]. }
  rewrite C1. cbn [obind]. destruct (flush_ok rs w3) as [D|D]; [left|right; exact D].
  rewrite D, C3, B3, A3. unfold contents, total. cbn [wout wbuf app]. rewrite <- !app_assoc. reflexivity.
Qed.

(** * Loading *)

Variable e' : bool.     (* endianness of the machine that loads *)
Variables vers' nilc base' : Z.
Variables sigsegv map_ : bool.
Hypothesis HV' : vers <= vers'.
Hypothesis HB' : good_base base' (len (table m)).

Let wrong := negb (Bool.eqb e e').
Let delta := wrap64 (base' - ot_base m).
Let cow := use_copy_on_write sigsegv map_ wrong delta.
Hypothesis HC : wrong = true -> cow = false.
Hypothesis HZ : map_ = true -> len contents < 2 ^ 31.

Lemma version_ok b rd : rgood rd -> rest rd = (header_text e ++ bytes_of_words e (header_words h)) ++ b ->
  exists rd', load_file_version e' vers' rd = Ok (Some (h, wrong), rd') /\ rgood rd' /\ rest rd' = b /\ mapped rd' = mapped rd.
Proof.
  intros G R. unfold load_file_version.
  assert (LN : len (header_text e ++ bytes_of_words e (header_words h)) = 168).
  { rewrite len_app, bytes_of_words_len. unfold len. rewrite header_text_length, header_words_length. reflexivity. }
  destruct (buffer_read_ok 168 rd _ _ G R LN) as (rd' & A1 & A2 & A3 & A4); [lia|]. rewrite A1. cbn [obind].
  exists rd'. split; [|auto].
  assert (E1 : nth 71 (header_text e ++ bytes_of_words e (header_words h)) 0 = flags_written e) by (destruct e; reflexivity).
  assert (E2 : part 64 6 (header_text e ++ bytes_of_words e (header_words h)) = pad 6 (chars signature)) by (destruct e; reflexivity).
  rewrite E1, E2. replace (forallb _ _) with true by reflexivity. cbn [negb].
  replace (any (Z.lxor (flags_written e) 2) 2) with false by (destruct e; reflexivity).
  replace (any (Z.lxor (flags_written e) (if e' then 1 else 0)) 1) with wrong by (unfold wrong; destruct e, e'; reflexivity).
  rewrite (skipn_app_exact _ _ 72) by apply header_text_length.
  assert (FW : Forall word (header_words h)).
  { unfold header_words, h. cbn [version oop_table_size settings num_free_oops h_ot_base md5].
    pose proof table_small. constructor; [exact HV|]. constructor; [unfold word; lia|]. apply Forall_app.
    split; [apply HS|]. constructor; [|constructor; [|apply HM]].
    - unfold free, word, len. pose proof (filter_le (fun s => negb (valid m s)) t) as H0. rewrite t_length in H0. lia.
    - destruct GM as ((B1 & _ & B3 & B2) & _). unfold word, len in *. lia. }
  pose proof (words_seen e e' _ FW) as WS. rewrite header_words_length in WS. rewrite WS.
  pose proof (seen_fix e e' _ FW) as SF. rewrite header_words_length in SF. fold wrong in SF. rewrite SF.
  rewrite (header_parts h (proj2 HS)). cbn [version h].
  destruct (Z.ltb_spec vers' vers); [lia|reflexivity].
Qed.

(** flags of an entry in the file, and in memory after loading *)
Definition file_flags (s : slot) : Z := Z.lor (Z.ldiff (sflags s) F_RUNTIME) F_OLD.
Definition new_flags (s : slot) : Z := if cow then Z.lor (file_flags s) F_LOADED else file_flags s.
Definition is_bytes (s : slot) : bool := any (sflags s) F_BYTE.
Definition free_slot : slot := Slot 0 (Obj 0 0 []).

Definition L1 (s : slot) : slot :=
  if valid m s then
    Slot (new_flags s) (Obj (osize (F s)) (oclass (F s))
                            (if is_bytes s then map (seen e e') (odata (F s)) else odata (F s)))
  else free_slot.

Lemma flags_bit f n : 0 <= n -> Z.testbit (Z.lor (Z.ldiff f F_RUNTIME) F_OLD) n
  = (Z.testbit f n && negb (Z.testbit F_RUNTIME n)) || Z.testbit F_OLD n.
Proof. intros. rewrite Z.lor_spec, Z.ldiff_spec. reflexivity. Qed.

Lemma land_file_flags f k : (Z.ldiff k (Z.lor F_RUNTIME F_OLD)) = k ->
  Z.land (Z.lor (Z.ldiff f F_RUNTIME) F_OLD) k = Z.land f k.
Proof.
  intros E. rewrite <- E. apply Z.bits_inj'. intros n N. rewrite !Z.land_spec, flags_bit, Z.ldiff_spec, Z.lor_spec by exact N.
  destruct (Z.testbit f n), (Z.testbit F_RUNTIME n), (Z.testbit F_OLD n), (Z.testbit k n); reflexivity.
Qed.
Lemma land_visible f k : Z.testbit f 8 = true \/ Z.testbit k 8 = false -> Z.ldiff k F_RUNTIME = k ->
  Z.land (Z.lor (Z.ldiff f F_RUNTIME) F_OLD) k = Z.land f k.
Proof.
  intros H E. rewrite <- E. apply Z.bits_inj'. intros n N. rewrite !Z.land_spec, flags_bit, Z.ldiff_spec by exact N.
  destruct (Z.eq_dec n 8) as [->|NE].
  { replace (Z.testbit F_RUNTIME 8) with false by reflexivity. destruct H as [-> | ->]; cbn; [reflexivity|].
    rewrite !andb_false_r. reflexivity. }
  replace (Z.testbit F_OLD n) with false. 2:{ change F_OLD with (2 ^ 8). rewrite Z.pow2_bits_eqb by lia. lia. }
  destruct (Z.testbit f n), (Z.testbit F_RUNTIME n), (Z.testbit k n); reflexivity.
Qed.
Lemma file_flags_nz f : Z.lor (Z.ldiff f F_RUNTIME) F_OLD <> 0.
Proof.
  intros E. apply (f_equal (fun x => Z.testbit x 8)) in E. rewrite flags_bit in E by lia. cbn in E.
  rewrite orb_true_r in E. discriminate.
Qed.
Lemma new_flags_old s : Z.testbit (new_flags s) 8 = true.
Proof.
  unfold new_flags, file_flags. destruct cow; [rewrite Z.lor_spec|]; rewrite flags_bit by lia; cbn; rewrite orb_true_r; reflexivity.
Qed.
Lemma new_flags_nz s : new_flags s <> 0.
Proof. intros E. pose proof (new_flags_old s) as H. rewrite E in H. discriminate. Qed.
Lemma new_flags_live s : Z.land (new_flags s) F_LIVE_AT_START <> 0.
Proof.
  intros E. apply (f_equal (fun x => Z.testbit x 8)) in E. rewrite Z.land_spec, new_flags_old in E. discriminate.
Qed.
Lemma new_flags_and s k : Z.ldiff k (Z.lor F_LOADED F_RUNTIME) = k -> Z.testbit k 8 = false -> Z.land (new_flags s) k = Z.land (sflags s) k.
Proof.
  intros E B8.
  assert (E' : Z.ldiff k F_RUNTIME = k).
  { apply Z.bits_inj'. intros n N. apply (f_equal (fun x => Z.testbit x n)) in E. rewrite Z.ldiff_spec, Z.lor_spec in E.
    rewrite Z.ldiff_spec. destruct (Z.testbit k n), (Z.testbit F_LOADED n), (Z.testbit F_RUNTIME n); try reflexivity; discriminate. }
  rewrite <- (land_visible (sflags s) k) by auto. unfold new_flags. fold (file_flags s). destruct cow; [|reflexivity].
  apply Z.bits_inj'. intros n N. apply (f_equal (fun x => Z.testbit x n)) in E. rewrite Z.ldiff_spec, Z.lor_spec in E.
  rewrite !Z.land_spec, Z.lor_spec.
  destruct (Z.testbit k n), (Z.testbit (file_flags s) n), (Z.testbit F_LOADED n), (Z.testbit F_RUNTIME n); try reflexivity; discriminate.
Qed.
Lemma file_flags_word s : In s (table m) -> valid m s = true -> word (file_flags s).
Proof.
  intros I V. destruct (slot_good s I V) as (B & _). unfold file_flags, word.
  assert (Z.lor (Z.ldiff (sflags s) F_RUNTIME) F_OLD = Z.land (Z.lor (Z.ldiff (sflags s) F_RUNTIME) F_OLD) (Z.ones 31)) as ->.
  { apply Z.bits_inj'. intros n N. rewrite Z.land_spec, flags_bit by exact N. destruct (Z.ltb_spec n 31).
    - rewrite Z.ones_spec_low by lia. rewrite andb_true_r. reflexivity.
    - rewrite Z.ones_spec_high by lia. rewrite andb_false_r.
      assert (T : forall x, 0 <= x < 2 ^ 31 -> Z.testbit x n = false).
      { intros x X. apply Z.testbit_false; [exact N|]. rewrite Z.div_small; [reflexivity|].
        pose proof (Z.pow_le_mono_r 2 31 n). lia. }
      rewrite (T (sflags s)) by exact B. rewrite (T F_OLD) by (unfold F_OLD; lia). reflexivity. }
  rewrite Z.land_ones by lia. pose proof (Z.mod_pos_bound (Z.lor (Z.ldiff (sflags s) F_RUNTIME) F_OLD) (2 ^ 31)). lia.
Qed.

Lemma pairs_entries l : pairs (flat_map (table_entry junk m) l)
  = map (fun s => if valid m s then (to_int (osize (sobj s)), file_flags s) else (junk, 0)) l.
Proof.
  induction l as [|s l IH]; [reflexivity|]. cbn [flat_map map]. unfold table_entry at 1. destruct (valid m s); cbn [app pairs]; rewrite IH; reflexivity.
Qed.

Lemma entries_word : Forall word (flat_map (table_entry junk m) t).
Proof.
  apply Forall_forall. intros w W. apply in_flat_map in W. destruct W as (s & I & W). unfold table_entry in W.
  destruct (valid m s) eqn:V.
  - apply in_t in I. destruct W as [<-|[<-|[]]].
    + destruct (size_word s I V) as (_ & _ & _ & TI & _ & SM). rewrite TI. unfold word. pose proof (len_nonneg (odata (F s))). lia.
    + apply file_flags_word; assumption.
  - destruct W as [<-|[<-|[]]]; [exact HJ|unfold word; lia].
Qed.

Lemma table_ok b rd : rgood rd -> rest rd = bytes_of_words e (flat_map (table_entry junk m) t) ++ b ->
  exists rd', load_oop_table e' wrong (Z.of_nat used) rd
    = Ok (map (fun s => if valid m s then (to_int (osize (sobj s)), file_flags s) else (junk, 0)) t, rd')
    /\ rgood rd' /\ rest rd' = b /\ mapped rd' = mapped rd.
Proof.
  intros G R. unfold load_oop_table. pose proof table_small.
  assert (LN : len (bytes_of_words e (flat_map (table_entry junk m) t)) = 16 * Z.of_nat used).
  { rewrite bytes_of_words_len. unfold len. rewrite entries_length, t_length. lia. }
  destruct (buffer_read_ok _ rd _ _ G R LN) as (rd' & A1 & A2 & A3 & A4); [lia|]. rewrite A1. cbn [obind].
  exists rd'. split; [|auto].
  replace (Z.to_nat (2 * Z.of_nat used)) with (length (flat_map (table_entry junk m) t)) by (rewrite entries_length, t_length; lia).
  rewrite (words_seen e e') by apply entries_word. pose proof (seen_fix e e' _ entries_word) as SF. fold wrong in SF. rewrite SF.
  rewrite pairs_entries. reflexivity.
Qed.

Lemma fix2 a b d : wrong = true -> word a -> word b ->
  fixup_byte_order 2 (map (seen e e') (a :: b :: d)) = a :: b :: map (seen e e') d.
Proof.
  intros W A B. unfold fixup_byte_order. cbn [map firstn skipn app]. unfold seen at 1 2. unfold wrong in W.
  destruct (Bool.eqb e e'); [discriminate|]. rewrite !byte_invert_twice by assumption. reflexivity.
Qed.
Lemma not_wrong d : wrong = false -> map (seen e e') d = d.
Proof. unfold wrong, seen. destruct (Bool.eqb e e'); [|discriminate]. intros _. apply map_id. Qed.

Lemma objects_ok l b rd : (forall s, In s l -> In s (table m)) -> rgood rd -> (cow = true -> mapped rd = true) ->
  rest rd = flat_map obj_bytes l ++ b ->
  exists rd', load_objects e' wrong cow (map (fun s => if valid m s then (to_int (osize (sobj s)), file_flags s) else (junk, 0)) l) rd
    = Ok (map L1 l, rd').
Proof.
  revert rd. induction l as [|s l IH]; intros rd I G MP R; [eexists; reflexivity|].
  cbn [map load_objects]. unfold L1 at 1. cbn [flat_map] in R. unfold obj_bytes at 1 in R.
  assert (I' : forall s, In s l -> In s (table m)) by (intros; apply I; right; assumption).
  destruct (valid m s) eqn:V.
  2:{ cbn [Z.eqb]. destruct (IH rd I' G MP R) as (rd' & E). rewrite E. eexists. reflexivity. }
  specialize (I s (or_introl eq_refl)).
  destruct (size_word s I V) as (W1 & W2 & W3 & TI & OS & SM). rewrite TI.
  destruct (Z.eqb_spec (file_flags s) 0) as [E|_]; [apply file_flags_nz in E; contradiction|].
  assert (FO : Forall word (obj_words s)) by (unfold obj_words; auto).
  assert (LW : length (obj_words s) = Z.to_nat (2 + len (odata (F s)))) by (unfold obj_words, len; cbn [length]; lia).
  assert (LB : len (bytes_of_words e (obj_words s)) = 8 * (2 + len (odata (F s)))).
  { rewrite bytes_of_words_len. unfold len at 1. rewrite LW. pose proof (len_nonneg (odata (F s))). lia. }
  rewrite <- app_assoc in R. rewrite <- LW. pose proof (words_seen e e' _ FO) as WS. pose proof (seen_fix e e' _ FO) as SF. fold wrong in SF.
  unfold new_flags. destruct (Sumbool.sumbool_of_bool cow) as [CW|CW]; rewrite CW.
  - assert (WR : wrong = false) by (apply Bool.not_true_is_false; intros X; pose proof (HC X); congruence).
    destruct (buffer_advance_ok _ rd _ _ G R LB) as (rd' & A1 & A2 & A3 & A4).
    { specialize (MP CW). apply (f_equal (@len Z)) in R. rewrite len_app, LB in R. unfold rest in R. rewrite MP in R.
      destruct G as (P & _). pose proof (len_nonneg (flat_map obj_bytes l ++ b)). unfold len in *. rewrite skipn_length in R. lia. }
    rewrite A1. cbn [obind]. rewrite WS, not_wrong by exact WR. unfold obj_words. cbn [object_of obind].
    destruct (IH rd') as (rd2 & E2); [exact I'|exact A2|intros C; rewrite A4; exact (MP C)|exact A3|]. rewrite CW in E2. rewrite E2. cbn [obind]. eexists.
    rewrite (not_wrong (odata (F s)) WR). destruct (is_bytes s); reflexivity.
  - destruct (buffer_read_ok _ rd _ _ G R LB) as (rd' & A1 & A2 & A3 & A4); [lia|].
    rewrite A1. cbn [obind]. rewrite WS.
    replace (any (file_flags s) F_BYTE) with (is_bytes s).
    2:{ unfold is_bytes, any, file_flags. rewrite land_visible; [reflexivity|right; reflexivity|reflexivity]. }
    assert (OK : object_of (if wrong then fixup_byte_order (if is_bytes s then 2%nat else length (obj_words s)) (map (seen e e') (obj_words s)) else map (seen e e') (obj_words s))
      = Ok (Obj (osize (F s)) (oclass (F s)) (if is_bytes s then map (seen e e') (odata (F s)) else odata (F s)))).
    { destruct (is_bytes s).
      - destruct (Sumbool.sumbool_of_bool wrong) as [WR|WR]; rewrite WR; [|rewrite !not_wrong by exact WR; reflexivity].
        unfold obj_words. rewrite fix2; [reflexivity|exact WR|exact W1|exact W2].
      - rewrite SF. reflexivity. }
    rewrite OK. cbn [obind osize]. rewrite OS, Z.eqb_refl. cbn [negb].
    destruct (IH rd') as (rd2 & E2); [exact I'|exact A2|intros C; rewrite A4; exact (MP C)|exact A3|]. rewrite CW in E2. rewrite E2. cbn [obind]. eexists. reflexivity.
Qed.

(** the instance specification of the class, and the number of pointers *)
Definition spec_of (s : slot) : Z :=
  match entry m (oclass (sobj s)) with Some c => nth 2 (odata (sobj c)) 0 | None => 0 end.
Definition count_of (s : slot) : nat := Z.to_nat (pointer_count (spec_of s) (len (odata (F s)))).

Lemma spec_class w spec : good_class m w spec ->
  match entry m w with Some c => nth 2 (odata (sobj c)) 0 | None => 0 end = spec.
Proof.
  intros (c & sc & W & E & _ & _ & N2 & _). rewrite W. change (ot_base m + 16 * (Z.of_nat c + 259)) with (addr m c).
  rewrite entry_addr, E. apply nth_error_nth. exact N2.
Qed.

Lemma spec_ok s : In s (table m) -> valid m s = true ->
  good_class m (oclass (sobj s)) (spec_of s) /\ oclass (F s) = oclass (sobj s)
  /\ len (odata (F s)) = len (odata (sobj s))
  /\ 0 <= pointer_count (spec_of s) (len (odata (F s))) <= len (odata (F s))
  /\ (is_bytes s = false -> count_of s = length (odata (F s)))
  /\ (is_bytes s = true -> pointer_count (spec_of s) (len (odata (F s))) = fixed_fields (spec_of s)).
Proof.
  intros I V. destruct (HF s I V) as (_ & S1 & S2 & S3 & S4 & _). pose proof (slot_good s I V) as G.
  destruct G as (_ & _ & _ & _ & _ & (spec & C & P1 & P2 & P3 & _) & _).
  assert (E : spec_of s = spec) by exact (spec_class _ _ C). rewrite E.
  assert (L : len (odata (F s)) = len (odata (sobj s))) by (unfold len; congruence).
  assert (N0 : 0 <= pointer_count spec (len (odata (sobj s)))).
  { unfold pointer_count. destruct C as (_ & _ & _ & _ & _ & _ & _ & _ & C). pose proof (len_nonneg (odata (sobj s))).
    destruct (_ && _); [apply Z.div_pos; lia|lia]. }
  split; [exact C|]. split; [exact S2|]. split; [exact L|]. rewrite L. split; [split; [exact N0|exact P1]|]. split.
  - intros B. apply any_false in B. destruct (P2 B) as (P & _). unfold count_of. rewrite E, L, P. unfold len. lia.
  - intros B. apply any_true in B. specialize (P3 B). unfold pointer_count. rewrite P3. unfold fixed_fields.
    rewrite Z.shiftr_div_pow2 by lia. reflexivity.
Qed.

Definition reloc (w : Z) : Z := if is_int w then w else oop_absolute delta w.

Definition L2 (s : slot) : slot :=
  if valid m s then
    Slot (new_flags s) (Obj (osize (F s)) (oclass (F s))
      (firstn (count_of s) (odata (F s)) ++ map (seen e e') (skipn (count_of s) (odata (F s)))))
  else free_slot.
Definition L3 (s : slot) : slot :=
  if valid m s then
    Slot (new_flags s) (Obj (osize (F s)) (oop_absolute delta (oclass (F s)))
      (map reloc (firstn (count_of s) (odata (F s))) ++ map (seen e e') (skipn (count_of s) (odata (F s)))))
  else free_slot.

Lemma L1_eq s : valid m s = true -> L1 s = Slot (new_flags s) (Obj (osize (F s)) (oclass (F s))
                            (if is_bytes s then map (seen e e') (odata (F s)) else odata (F s))).
Proof. intros V. unfold L1. rewrite V. reflexivity. Qed.
Lemma L2_eq s : valid m s = true -> L2 s = Slot (new_flags s) (Obj (osize (F s)) (oclass (F s))
      (firstn (count_of s) (odata (F s)) ++ map (seen e e') (skipn (count_of s) (odata (F s))))).
Proof. intros V. unfold L2. rewrite V. reflexivity. Qed.
Lemma L3_eq s : valid m s = true -> L3 s = Slot (new_flags s) (Obj (osize (F s)) (oop_absolute delta (oclass (F s)))
      (map reloc (firstn (count_of s) (odata (F s))) ++ map (seen e e') (skipn (count_of s) (odata (F s))))).
Proof. intros V. unfold L3. rewrite V. reflexivity. Qed.
Lemma free_eq s : valid m s = false -> L1 s = free_slot /\ L2 s = free_slot /\ L3 s = free_slot.
Proof. intros V. unfold L1, L2, L3. rewrite V. auto. Qed.

Lemma absolute_mod w : oop_absolute delta w = (w - ot_base m + base') mod 2 ^ 64.
Proof.
  unfold oop_absolute, uwrap64, delta. destruct (wrap64_eq (base' - ot_base m)) as (q & ->).
  replace (w + (base' - ot_base m + q * 2 ^ 64)) with (w - ot_base m + base' + q * 2 ^ 64) by lia.
  rewrite Z.mod_add by lia. reflexivity.
Qed.
Lemma absolute_addr c s : nth_error (table m) c = Some s ->
  oop_absolute delta (ot_base m + 16 * (Z.of_nat c + 259)) = base' + 16 * (Z.of_nat c + 259).
Proof.
  intros E. rewrite absolute_mod.
  replace (ot_base m + 16 * (Z.of_nat c + 259) - ot_base m + base') with (base' + 16 * (Z.of_nat c + 259)) by lia.
  apply Z.mod_small. destruct HB' as (B1 & _ & _ & B2).
  assert (c < length (table m))%nat by (apply nth_error_Some; congruence). unfold len in B2. lia.
Qed.

(** a table in which every entry has been treated by one of the three passes *)
Definition mixed (T : list slot) : Prop := forall c s, nth_error t c = Some s ->
  exists z, (z = L1 \/ z = L2 \/ z = L3) /\ nth_error T c = Some (z s).

Lemma nth_t c s : nth_error (table m) c = Some s -> valid m s = true -> nth_error t c = Some s.
Proof.
  intros E V. unfold t. pose proof (used_valid m (table m) 0 0 c s E V) as U. fold used in U. cbn in U.
  rewrite <- E. rewrite <- (firstn_skipn used (table m)) at 2.
  symmetry. apply nth_error_app1. rewrite firstn_length. pose proof used_le. lia.
Qed.

(** a class in such a table still has its instance specification *)
Lemma class_entry z c s spec : z = L1 \/ z = L2 \/ z = L3 -> nth_error (table m) c = Some s -> valid m s = true ->
  Z.land (sflags s) 15 = 0 -> nth_error (odata (sobj s)) 2 = Some spec -> Z.odd spec = true ->
  sflags (z s) = new_flags s /\ nth_error (odata (sobj (z s))) 2 = Some spec.
Proof.
  intros Z0 E V B N2 O. assert (I : In s (table m)) by exact (nth_error_In _ _ E).
  destruct (spec_ok s I V) as (_ & _ & _ & _ & K & _). destruct (HF s I V) as (_ & _ & _ & _ & _ & T & _).
  specialize (T B). assert (BY : is_bytes s = false) by (apply any_false; exact B). specialize (K BY). rewrite N2 in T.
  destruct Z0 as [-> | [-> | ->]]; unfold L1, L2, L3; rewrite V; cbn [sflags sobj odata]; (split; [reflexivity|]).
  - rewrite BY. exact T.
  - rewrite K, firstn_all, skipn_all. cbn [map]. rewrite app_nil_r. exact T.
  - rewrite K, firstn_all, skipn_all. cbn [map]. rewrite app_nil_r, (map_nth_error _ _ _ T). f_equal.
    unfold reloc, is_int. rewrite O. reflexivity.
Qed.

Lemma lookup T s : mixed T -> In s (table m) -> valid m s = true ->
  instance_spec (Mem base' T nilc F_LIVE_AT_START) (oop_absolute delta (oclass (F s))) = Ok (spec_of s).
Proof.
  intros MT I V. destruct (spec_ok s I V) as ((c & sc & W & E & LV & B & N2 & O & R) & CL & _).
  rewrite CL, W, (absolute_addr c sc E).
  apply valid_live in LV. destruct (MT c sc (nth_t c sc E LV)) as (z & Z0 & N).
  destruct (class_entry z c sc _ Z0 E LV B N2 O) as (F1 & F2).
  set (M := Mem base' T nilc F_LIVE_AT_START).
  change (base' + 16 * (Z.of_nat c + 259)) with (addr M c). unfold instance_spec.
  rewrite (obj_at_addr M c (z sc)); [|exact N|rewrite F1; apply new_flags_nz]. cbn [obind]. unfold field. rewrite F2. cbn [obind].
  f_equal. unfold wrap64. rewrite Z.mod_small; lia.
Qed.

Lemma mixed_parts x y pre a post : (x = L1 \/ x = L2) -> (y = L2 \/ y = L3) -> t = pre ++ a :: post ->
  mixed (map y pre ++ map x (a :: post)).
Proof.
  intros X Y E c s N. rewrite E in N. destruct (Nat.lt_ge_cases c (length pre)) as [L|L].
  - rewrite nth_error_app1 in N by exact L. exists y. split; [tauto|].
    rewrite nth_error_app1 by (rewrite map_length; exact L). apply map_nth_error, N.
  - rewrite nth_error_app2 in N by exact L. exists x. split; [tauto|].
    rewrite nth_error_app2 by (rewrite map_length; exact L). rewrite map_length. apply map_nth_error, N.
Qed.

Lemma in_split_t pre a post : t = pre ++ a :: post -> In a (table m).
Proof. intros E. apply in_t. rewrite E. apply in_or_app. right. left. reflexivity. Qed.

Lemma pass2 : (if wrong then over_table (fixup_bytes_object delta) (length t) 0 (Mem base' (map L1 t) nilc F_LIVE_AT_START)
               else Ok (Mem base' (map L1 t) nilc F_LIVE_AT_START)) = Ok (Mem base' (map L2 t) nilc F_LIVE_AT_START).
Proof.
  destruct (Sumbool.sumbool_of_bool wrong) as [WR|WR]; rewrite WR.
  - apply over_table_ok. intros pre a post E. pose proof (in_split_t _ _ _ E) as I.
    pose proof (mixed_parts L1 L2 pre a post (or_introl eq_refl) (or_introl eq_refl) E) as MX.
    destruct (valid m a) eqn:V.
    2:{ destruct (free_eq a V) as (E1 & E2 & _). rewrite E1, E2. reflexivity. }
    unfold fixup_bytes_object. rewrite (L1_eq a V), (L2_eq a V).
    assert (AF : any (new_flags a) F_BYTE = is_bytes a).
    { unfold any, is_bytes. rewrite new_flags_and by reflexivity. reflexivity. }
    destruct (spec_ok a I V) as (_ & _ & _ & K1 & K2 & K3).
    cbn [sflags sobj oclass osize odata]. rewrite AF. destruct (is_bytes a).
    + rewrite (lookup _ a MX I V). cbn [obind]. specialize (K3 eq_refl). rewrite <- K3.
      assert (LM : len (map (seen e e') (odata (F a))) = len (odata (F a))) by (unfold len; rewrite map_length; reflexivity).
      rewrite LM. replace (_ || _) with false by lia. f_equal. f_equal. f_equal. fold (count_of a). unfold fixup_byte_order.
      rewrite firstn_map, skipn_map, map_map. f_equal.
      destruct (size_word a I V) as (_ & _ & FW & _). apply (Forall_firstn _ (count_of a)) in FW.
      rewrite <- (map_id (firstn (count_of a) (odata (F a)))) at 2. apply map_ext_in. intros w W.
      rewrite Forall_forall in FW. apply seen_invert; [exact WR|exact (FW w W)].
    + f_equal. f_equal. f_equal. rewrite K2, firstn_all, skipn_all by reflexivity. cbn [map]. rewrite app_nil_r. reflexivity.
  - f_equal. f_equal. apply map_ext_in. intros s I. unfold L1, L2. destruct (valid m s); [|reflexivity].
    rewrite !not_wrong by exact WR. rewrite firstn_skipn. destruct (is_bytes s); reflexivity.
Qed.

Lemma scalar_spec spec : 0 <= spec -> is_scalar spec = Z.testbit spec 5 && ((spec / 2) mod 16 <? 12).
Proof.
  intros H. unfold is_scalar.
  assert (A : Z.land spec 62 = spec mod 64 - spec mod 2).
  { assert (Z.land spec 62 = Z.ldiff (Z.land spec (Z.ones 6)) (Z.ones 1)) as ->.
    { apply Z.bits_inj'. intros n N. rewrite Z.ldiff_spec, !Z.land_spec.
      replace 62 with (Z.ldiff (Z.ones 6) (Z.ones 1)) by reflexivity. rewrite Z.ldiff_spec.
      destruct (Z.testbit spec n), (Z.testbit (Z.ones 6) n), (Z.testbit (Z.ones 1) n); reflexivity. }
    rewrite Z.land_ones, Z.ldiff_ones_r, Z.shiftr_div_pow2, Z.shiftl_mul_pow2 by lia. change (2 ^ 6) with 64. change (2 ^ 1) with 2. lia. }
  assert (B : any spec 32 = Z.testbit spec 5).
  { unfold any. change 32 with (2 ^ 5). destruct (Z.testbit spec 5) eqn:T.
    - destruct (Z.eqb_spec (Z.land spec (2 ^ 5)) 0) as [E|]; [|reflexivity].
      apply (f_equal (fun x => Z.testbit x 5)) in E. rewrite Z.land_spec, T in E. discriminate.
    - replace (Z.land spec (2 ^ 5)) with 0; [reflexivity|]. symmetry. apply Z.bits_inj'. intros n N.
      rewrite Z.land_spec, Z.pow2_bits_eqb, Z.bits_0 by lia. destruct (Z.eqb_spec 5 n) as [<-|]; [rewrite T; reflexivity|apply andb_false_r]. }
  rewrite A, B. destruct (Z.testbit spec 5) eqn:T; [|reflexivity]. cbn [andb].
  rewrite Z.testbit_true in T by lia. change (2 ^ 5) with 32 in T. lia.
Qed.

Lemma reloc_zero w : delta = 0 -> word w -> oop_absolute delta w = w.
Proof. intros D W. unfold oop_absolute, uwrap64. rewrite D, Z.add_0_r. apply Z.mod_small, W. Qed.

Lemma pass3 : (if delta =? 0 then Ok (Mem base' (map L2 t) nilc F_LIVE_AT_START)
               else over_table (restore_oop_pointer_slots delta) (length t) 0 (Mem base' (map L2 t) nilc F_LIVE_AT_START))
              = Ok (Mem base' (map L3 t) nilc F_LIVE_AT_START).
Proof.
  destruct (Z.eqb_spec delta 0) as [D|D].
  - f_equal. f_equal. apply map_ext_in. intros s I. apply in_t in I. unfold L2, L3. destruct (valid m s) eqn:V; [|reflexivity].
    destruct (size_word s I V) as (_ & W2 & FW & _). rewrite (reloc_zero _ D W2). f_equal. f_equal. f_equal.
    rewrite <- (map_id (firstn (count_of s) (odata (F s)))) at 1. apply map_ext_in. intros w W.
    rewrite Forall_forall in FW. unfold reloc. rewrite reloc_zero; [destruct (is_int w); reflexivity|exact D|].
    apply FW. rewrite <- (firstn_skipn (count_of s) (odata (F s))). apply in_or_app. left. exact W.
  - apply over_table_ok. intros pre a post E. pose proof (in_split_t _ _ _ E) as I.
    pose proof (mixed_parts L2 L3 pre a post (or_intror eq_refl) (or_intror eq_refl) E) as MX.
    unfold restore_oop_pointer_slots. set (M := Mem base' _ nilc F_LIVE_AT_START) in *.
    assert (VM : valid M (L2 a) = valid m a).
    { unfold L2. destruct (valid m a) eqn:V; [|reflexivity]. apply any_true. cbn [sflags]. apply new_flags_live. }
    rewrite VM. destruct (valid m a) eqn:V; [|destruct (free_eq a V) as (_ & -> & ->); reflexivity].
    rewrite (L2_eq a V), (L3_eq a V).
    cbn [sflags sobj oclass osize odata].
    destruct (spec_ok a I V) as (GC & _ & _ & K1 & K2 & K3). destruct (size_word a I V) as (_ & _ & _ & TI & OS & SM).
    unfold num_oops. cbn [oclass osize]. unfold M. rewrite (lookup _ a MX I V). cbn [obind].
    set (d := firstn (count_of a) (odata (F a)) ++ map (seen e e') (skipn (count_of a) (odata (F a)))).
    assert (LD : len d = len (odata (F a))).
    { unfold d, len. rewrite app_length, map_length, <- app_length, firstn_skipn. reflexivity. }
    assert (NO : (if is_scalar (spec_of a) then fixed_fields (spec_of a) else to_int (osize (F a)) - 2)
                 = pointer_count (spec_of a) (len (odata (F a)))).
    { destruct GC as (_ & _ & _ & _ & _ & _ & _ & _ & R). rewrite scalar_spec by lia. unfold pointer_count.
      destruct (_ && _); [unfold fixed_fields; rewrite Z.shiftr_div_pow2 by lia; reflexivity|].
      destruct (HF a I V) as (_ & S1 & _). rewrite S1, TI. lia. }
    rewrite NO, LD. replace (_ || _) with false by lia. f_equal. f_equal. f_equal. fold (count_of a).
    assert (LF : length (firstn (count_of a) (odata (F a))) = count_of a).
    { rewrite firstn_length. unfold count_of, len in *. lia. }
    unfold d. rewrite (firstn_app_exact _ _ _ LF), (skipn_app_exact _ _ _ LF). reflexivity.
Qed.

Definition new_memory : memory := Mem base' (map L3 t) nilc F_LIVE_AT_START.

Lemma load_ok : load_snapshot sigsegv map_ e' vers' nilc base' contents = Ok (Some (h, new_memory)).
Proof.
  unfold load_snapshot. destruct (buffer_read_init_ok map_ contents HZ) as (r0 & A1 & A2 & A3 & A4). rewrite A1. cbn [obind].
  unfold contents in A3. rewrite app_assoc in A3.
  destruct (version_ok _ r0 A2 A3) as (r1 & B1 & B2 & B3 & B4). rewrite B1. cbn [obind].
  replace (wrap32 (oop_table_size h)) with (Z.of_nat used).
  2:{ cbn [oop_table_size h]. unfold wrap32. pose proof table_small. rewrite Z.mod_small by lia. lia. }
  destruct (table_ok _ r1 B2 B3) as (r2 & C1 & C2 & C3 & C4). rewrite C1. cbn [obind].
  cbn [h_ot_base h]. fold delta. fold cow.
  destruct (objects_ok t [] r2 in_t C2) as (r3 & D); [|rewrite app_nil_r; exact C3|].
  { intros CW. rewrite C4, B4, A4. unfold cow, use_copy_on_write in CW. destruct map_; [reflexivity|].
    rewrite andb_false_r in CW. discriminate. }
  rewrite D. cbn [obind]. rewrite map_length. rewrite pass2. cbn [obind]. rewrite pass3. reflexivity.
Qed.

Lemma new_class w spec : good_class m w spec -> good_class new_memory (oop_absolute delta w) spec.
Proof.
  intros (c & s & W & E & LV & B & N2 & O & R). apply valid_live in LV.
  destruct (class_entry L3 c s spec (or_intror (or_intror eq_refl)) E LV B N2 O) as (F1 & F2).
  exists c, (L3 s). split; [rewrite W; exact (absolute_addr c s E)|]. split; [apply map_nth_error, (nth_t c s E LV)|].
  rewrite F1. split; [apply new_flags_live|]. split; [rewrite new_flags_and by reflexivity; exact B|]. auto.
Qed.

Lemma odd_absolute w : Z.odd (oop_absolute delta w) = Z.odd w.
Proof.
  rewrite absolute_mod. destruct GM as ((_ & B1 & _) & _). destruct HB' as (_ & B2 & _).
  rewrite !Zodd_mod. replace (2 ^ 64) with (2 * 2 ^ 63) by reflexivity.
  assert ((w - ot_base m + base') mod (2 * 2 ^ 63) mod 2 = w mod 2) as ->; [|reflexivity].
  assert (M2 : forall x, x mod (2 * 2 ^ 63) mod 2 = x mod 2).
  { intros x. rewrite Z.rem_mul_r by lia. rewrite (Z.mul_comm 2 ((x / 2) mod 2 ^ 63)), Z.mod_add by lia. apply Z.mod_mod. lia. }
  rewrite M2. lia.
Qed.
Lemma value_absolute w : Z.odd w = false -> value base' (oop_absolute delta w) = value (ot_base m) w.
Proof.
  intros E. unfold value. rewrite odd_absolute, E. f_equal. rewrite absolute_mod.
  rewrite Zminus_mod_idemp_l. f_equal. lia.
Qed.
Lemma value_reloc w : value base' (reloc w) = value (ot_base m) w.
Proof.
  unfold reloc, is_int. destruct (Z.odd w) eqn:E; [|apply value_absolute, E]. unfold value. rewrite E. reflexivity.
Qed.

Lemma node_same s : In s (table m) -> valid m s = true ->
  node_of e' base' (spec_of s) (sflags (L3 s)) (oclass (sobj (L3 s))) (odata (sobj (L3 s)))
  = node_of e (ot_base m) (spec_of s) (sflags s) (oclass (F s)) (odata (F s)).
Proof.
  intros I V. destruct (spec_ok s I V) as ((c & sc & W & _) & CL & _ & K1 & _). destruct (size_word s I V) as (_ & _ & FW & _).
  unfold L3. rewrite V. cbn [sflags sobj oclass odata]. unfold node_of.
  assert (LL : len (map reloc (firstn (count_of s) (odata (F s))) ++ map (seen e e') (skipn (count_of s) (odata (F s)))) = len (odata (F s))).
  { unfold len. rewrite app_length, !map_length, <- app_length, firstn_skipn. reflexivity. }
  rewrite LL. fold (count_of s).
  assert (LF : length (map reloc (firstn (count_of s) (odata (F s)))) = count_of s).
  { rewrite map_length, firstn_length. unfold count_of, len in *. lia. }
  rewrite (firstn_app_exact _ _ _ LF), (skipn_app_exact _ _ _ LF). f_equal.
  - apply new_flags_and; reflexivity.
  - apply value_absolute. rewrite CL, W. destruct GM as ((_ & B1 & _) & _). rewrite Zodd_mod.
    replace ((ot_base m + 16 * (Z.of_nat c + 259)) mod 2) with 0 by lia. reflexivity.
  - rewrite map_map. apply map_ext. exact value_reloc.
  - apply bytes_seen, Forall_skipn, FW.
Qed.

Lemma image_same : same_image (names (ot_base m) r) (view e m) (view e' new_memory).
Proof.
  intros i. destruct (nth_error (table m) i) as [s|] eqn:E.
  - destruct (valid m s) eqn:V.
    + pose proof (nth_error_In _ _ E) as I. destruct (spec_ok s I V) as (GC & CL & _).
      rewrite (view_node e m i s (spec_of s) E (proj1 (valid_live s) V) GC).
      assert (E3 : nth_error (table new_memory) i = Some (L3 s)) by (apply map_nth_error, (nth_t i s E V)).
      rewrite (view_node e' new_memory i (L3 s) (spec_of s) E3).
      * change (ot_base new_memory) with base'. rewrite (node_same s I V).
        destruct (HF s I V) as (_ & _ & _ & _ & _ & _ & SV). rewrite CL. rewrite CL in SV. apply SV, GC.
      * unfold L3. rewrite V. apply new_flags_live.
      * replace (oclass (sobj (L3 s))) with (oop_absolute delta (oclass (sobj s))); [apply new_class, GC|].
        unfold L3. rewrite V. cbn [sobj oclass]. rewrite CL. reflexivity.
    + assert (VN : view e m i = None).
      { unfold view. rewrite E. apply any_false in V. rewrite V. reflexivity. }
      rewrite VN. unfold view. cbn [table new_memory live_flags]. destruct (nth_error (map L3 t) i) as [z|] eqn:N3; [|exact Logic.I].
      assert (NT : nth_error t i = Some s).
      { assert (i < length t)%nat by (rewrite <- (map_length L3); apply nth_error_Some; congruence).
        unfold t in *. rewrite <- E. rewrite <- (firstn_skipn used (table m)) at 2. symmetry. apply nth_error_app1. exact H. }
      rewrite (map_nth_error L3 _ _ NT) in N3. injection N3 as <-. unfold L3. rewrite V. exact Logic.I.
  - assert (VN : view e m i = None) by (unfold view; rewrite E; reflexivity).
    rewrite VN. unfold view. cbn [table new_memory].
    assert (NT : nth_error (map L3 t) i = None).
    { apply nth_error_None. rewrite map_length, t_length. apply nth_error_None in E. pose proof used_le. lia. }
    rewrite NT. exact Logic.I.
Qed.
End Image.

Lemma image_ok r m e vers sets sums junk :
  good_memory r m -> word vers -> word junk -> Forall word sets -> length sets = 6%nat ->
  Forall word sums -> length sums = 2%nat ->
  exists k, forall fuel, (k <= fuel)%nat -> exists file,
    (forall results, save_to_fd fuel results e vers sets sums junk r m = Ok file
       \/ (save_to_fd fuel results e vers sets sums junk r m = Err /\ exists j, results j <= 0))
    /\ forall sigsegv map_ e' vers' nilc base', vers <= vers' -> good_base base' (len (table m)) ->
       (map_ = true -> len file < 2 ^ 31) ->
       (e = e' \/ sigsegv = false \/ map_ = false \/ base' <> ot_base m) ->
       exists h m', load_snapshot sigsegv map_ e' vers' nilc base' file = Ok (Some (h, m'))
         /\ version h = vers /\ settings h = sets /\ md5 h = sums
         /\ ot_base m' = base' /\ same_image (names (ot_base m) r) (view e m) (view e' m').
Proof.
  intros GM WV WJ WS LS WM LM.
  destruct (enough_fuel (fun s fuel => valid m s = true -> exists o, fixup_object fuel m r s = Ok o /\ fixed r m e s o) (table m)) as (k & K).
  { intros s I. destruct (valid m s) eqn:V; [|exists 0%nat; intros; discriminate]. apply In_nth_error in I. destruct I as (i & E).
    destruct (fixup_ok r m GM e i s E) as (k & K); [apply any_true; exact V|]. exists k. intros fuel L _. apply K, L. }
  exists k. intros fuel L.
  pose (F := fun s => match fixup_object fuel m r s with Ok o => o | _ => sobj s end).
  assert (HF : forall s, In s (table m) -> valid m s = true -> fixup_object fuel m r s = Ok (F s) /\ fixed r m e s (F s)).
  { intros s I V. destruct (K s fuel I L V) as (o & E & X). unfold F. rewrite E. auto. }
  exists (contents m e F vers junk sets sums). split.
  - intros results. exact (save_contents r m GM e fuel F HF vers junk sets sums (conj WS LS) (conj WM LM) results).
  - intros sg mp e' vers' nilc base' LV GB MZ C.
    exists (Header vers (Z.of_nat (used_oops m (table m) 0 0)) sets
              (len (List.filter (fun s => negb (valid m s)) (firstn (used_oops m (table m) 0 0) (table m)))) (ot_base m) sums).
    exists (new_memory m e F e' nilc base' sg mp).
    assert (HC : negb (Bool.eqb e e') = true -> use_copy_on_write sg mp (negb (Bool.eqb e e')) (wrap64 (base' - ot_base m)) = false).
    { intros W. unfold use_copy_on_write. destruct C as [C|[C|[C|C]]]; try (rewrite C); rewrite ?andb_false_r; try reflexivity.
      - subst e'. rewrite Bool.eqb_reflx in W. discriminate.
      - destruct (Z.eqb_spec (wrap64 (base' - ot_base m)) 0) as [D|]; [|rewrite andb_false_r; reflexivity].
        exfalso. apply C. destruct (wrap64_eq (base' - ot_base m)) as (q & Q). rewrite Q in D.
        destruct GB as (A1 & _ & A3 & A2). destruct GM as ((B1 & _ & B3 & B2) & _). lia. }
    split; [|split; [reflexivity|split; [reflexivity|split; [reflexivity|split; [reflexivity|]]]]].
    + eapply load_ok; try eassumption; try (split; eassumption). 
    + eapply image_same; try eassumption; first [exact (conj WS LS) | exact (conj WM LM)].
Qed.
