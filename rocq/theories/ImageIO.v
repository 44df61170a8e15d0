(** Bytes, words, and buffered files. *)
From Verif Require Import Base Image ImageSpec.
Local Open Scope Z_scope.

Lemma len_app {A} (a b : list A) : len (a ++ b) = len a + len b.
Proof. unfold len. rewrite app_length. lia. Qed.
Lemma len_nonneg {A} (a : list A) : 0 <= len a.
Proof. unfold len. lia. Qed.

Definition byte (b : Z) : Prop := 0 <= b < 256.

Lemma le_bytes_length n w : length (le_bytes n w) = n.
Proof. revert w. induction n; intros w; cbn; auto. Qed.
Lemma bytes_of_length e w : length (bytes_of e w) = 8%nat.
Proof. unfold bytes_of. destruct e; rewrite ?rev_length, le_bytes_length; reflexivity. Qed.

Lemma le_round n w : 0 <= w < 256 ^ Z.of_nat n -> le_word (le_bytes n w) = w.
Proof.
  revert w. induction n; intros w H.
  - cbn in *. lia.
  - cbn [le_bytes le_word]. rewrite Nat2Z.inj_succ, Z.pow_succ_r in H by lia.
    rewrite IHn; [rewrite Z.add_comm; symmetry; apply Z.div_mod; lia|].
    split; [apply Z.div_pos; lia|]. apply Z.div_lt_upper_bound; lia.
Qed.

Lemma word_round e w : word w -> word_of e (bytes_of e w) = w.
Proof.
  intros H. unfold word_of, bytes_of. destruct e; [rewrite rev_involutive|]; apply le_round; exact H.
Qed.

(** BYTE_INVERT reverses the bytes *)
Lemma land_byte x k : 0 <= k -> 0 <= x ->
  Z.land x (Z.shiftl 255 k) = Z.shiftl (x / 2 ^ k mod 256) k.
Proof.
  intros K X. change 255 with (Z.ones 8). change 256 with (2 ^ 8).
  rewrite <- Z.land_ones, <- Z.shiftr_div_pow2 by lia.
  apply Z.bits_inj'. intros n Hn. rewrite Z.land_spec, !Z.shiftl_spec by lia.
  destruct (Z.ltb_spec n k).
  - rewrite !(Z.testbit_neg_r _ (n - k)) by lia. apply andb_false_r.
  - rewrite Z.land_spec, Z.shiftr_spec by lia. f_equal. f_equal. lia.
Qed.

Lemma lor_add a b k : 0 <= k -> 0 <= b < 2 ^ k -> Z.lor (Z.shiftl a k) b = a * 2 ^ k + b.
Proof.
  intros K B. rewrite <- Z.shiftl_mul_pow2 by lia.
  assert (Z.land (Z.shiftl a k) b = 0) as D.
  { apply Z.bits_inj'. intros n Hn. rewrite Z.land_spec, Z.bits_0, Z.shiftl_spec by lia.
    destruct (Z.ltb_spec n k).
    - rewrite (Z.testbit_neg_r _ (n - k)) by lia. reflexivity.
    - rewrite <- (Z.mod_small b (2 ^ k) B), Z.mod_pow2_bits_high by lia. apply andb_false_r. }
  rewrite <- Z.lxor_lor by exact D. symmetry. apply Z.add_nocarry_lxor. exact D.
Qed.

Lemma byte_invert_le w : word w -> byte_invert w = le_word (rev (le_bytes 8 w)).
Proof.
  intros H.
  set (b := fun k => w / 2 ^ (8 * k) mod 256).
  assert (B : forall k, 0 <= b k < 256) by (intros; apply Z.mod_pos_bound; lia).
  assert (E : le_bytes 8 w = [b 0; b 1; b 2; b 3; b 4; b 5; b 6; b 7]).
  { unfold b. cbn [le_bytes]. rewrite !Z.div_div by lia.
    repeat first [progress f_equal | rewrite Z.div_1_r; reflexivity]. }
  rewrite E. cbn [rev app le_word]. unfold byte_invert. red in H.
  change 0x00000000000000ff with (Z.shiftl 255 0).
  change 0x000000000000ff00 with (Z.shiftl 255 8).
  change 0x0000000000ff0000 with (Z.shiftl 255 16).
  change 0x00000000ff000000 with (Z.shiftl 255 24).
  change 0x000000ff00000000 with (Z.shiftl 255 32).
  change 0x0000ff0000000000 with (Z.shiftl 255 40).
  change 0x00ff000000000000 with (Z.shiftl 255 48).
  change 0xff00000000000000 with (Z.shiftl 255 56).
  rewrite !land_byte by lia.
  change (w / 2 ^ 0 mod 256) with (b 0). change (w / 2 ^ 8 mod 256) with (b 1).
  change (w / 2 ^ 16 mod 256) with (b 2). change (w / 2 ^ 24 mod 256) with (b 3).
  change (w / 2 ^ 32 mod 256) with (b 4). change (w / 2 ^ 40 mod 256) with (b 5).
  change (w / 2 ^ 48 mod 256) with (b 6). change (w / 2 ^ 56 mod 256) with (b 7).
  rewrite !Z.shiftl_shiftl by lia. rewrite !Z.shiftr_shiftl_l by lia.
  cbn [Z.add Z.sub Z.opp Z.pos_sub Pos.add Pos.pred_double Z.double Z.succ_double Z.pred_double Pos.sub Pos.sub_mask].
  pose proof (B 0); pose proof (B 1); pose proof (B 2); pose proof (B 3);
  pose proof (B 4); pose proof (B 5); pose proof (B 6); pose proof (B 7).
  clearbody b. clear B E.
  generalize dependent (b 0); generalize dependent (b 1); generalize dependent (b 2);
  generalize dependent (b 3); generalize dependent (b 4); generalize dependent (b 5);
  generalize dependent (b 6); generalize dependent (b 7). clear. intros b7 ? b6 ? b5 ? b4 ? b3 ? b2 ? b1 ? b0 ?.
  rewrite Z.shiftl_0_r.
  rewrite (lor_add b6 b7 8) by lia. rewrite (lor_add b5 _ 16) by lia. rewrite (lor_add b4 _ 24) by lia.
  rewrite (lor_add b3 _ 32) by lia. rewrite (lor_add b2 _ 40) by lia. rewrite (lor_add b1 _ 48) by lia.
  rewrite (lor_add b0 _ 56) by lia. lia.
Qed.

Lemma byte_invert_other e w : word w -> word_of (negb e) (bytes_of e w) = byte_invert w.
Proof.
  intros H. rewrite byte_invert_le by exact H. unfold word_of, bytes_of. destruct e; reflexivity.
Qed.

Lemma le_word_bound bs : Forall byte bs -> 0 <= le_word bs < 256 ^ len bs.
Proof.
  induction 1 as [|b bs Hb Hs IH].
  - unfold len. cbn. lia.
  - unfold len in *. cbn [length le_word]. rewrite Nat2Z.inj_succ, Z.pow_succ_r by lia. red in Hb. lia.
Qed.
Lemma le_bytes_byte n w : Forall byte (le_bytes n w).
Proof. revert w. induction n; intros w; cbn; constructor; auto. apply Z.mod_pos_bound. lia. Qed.
Lemma le_round' bs : Forall byte bs -> le_bytes (length bs) (le_word bs) = bs.
Proof.
  induction 1 as [|b bs Hb Hs IH]; [reflexivity|]. cbn [length le_bytes le_word]. red in Hb.
  f_equal; [lia|]. replace ((b + 256 * le_word bs) / 256) with (le_word bs) by lia. exact IH.
Qed.
Lemma bytes_of_byte e w : Forall byte (bytes_of e w).
Proof. unfold bytes_of. destruct e; [apply Forall_rev|]; apply le_bytes_byte. Qed.
Lemma byte_invert_word w : word w -> word (byte_invert w).
Proof.
  intros H. rewrite byte_invert_le by exact H.
  pose proof (le_word_bound (rev (le_bytes 8 w)) (Forall_rev (le_bytes_byte 8 w))) as B.
  unfold len in B. rewrite rev_length, le_bytes_length in B. exact B.
Qed.
Lemma bytes_invert e w : word w -> bytes_of (negb e) (byte_invert w) = bytes_of e w.
Proof.
  intros H. rewrite byte_invert_le by exact H.
  assert (L : le_bytes 8 (le_word (rev (le_bytes 8 w))) = rev (le_bytes 8 w)).
  { pose proof (le_round' (rev (le_bytes 8 w)) (Forall_rev (le_bytes_byte 8 w))) as T.
    rewrite rev_length, le_bytes_length in T. exact T. }
  unfold bytes_of. destruct e; cbn [negb]; rewrite L; [reflexivity|apply rev_involutive].
Qed.
Lemma byte_invert_twice w : word w -> byte_invert (byte_invert w) = w.
Proof.
  intros H. rewrite <- (byte_invert_other true (byte_invert w)) by apply byte_invert_word, H.
  change true with (negb false) at 2. rewrite bytes_invert by exact H. apply word_round, H.
Qed.

(** lists of words *)
Lemma bytes_of_words_length e ws : length (bytes_of_words e ws) = (8 * length ws)%nat.
Proof.
  induction ws; [reflexivity|]. unfold bytes_of_words in *. cbn [flat_map length].
  rewrite app_length, bytes_of_length, IHws. lia.
Qed.
Lemma bytes_of_words_len e ws : len (bytes_of_words e ws) = 8 * len ws.
Proof. unfold len. rewrite bytes_of_words_length. lia. Qed.
Lemma bytes_of_words_app e a b : bytes_of_words e (a ++ b) = bytes_of_words e a ++ bytes_of_words e b.
Proof. apply flat_map_app. Qed.

Lemma firstn_app_exact {A} (a b : list A) n : length a = n -> firstn n (a ++ b) = a.
Proof. intros <-. rewrite firstn_app, Nat.sub_diag, firstn_all, firstn_O, app_nil_r. reflexivity. Qed.
Lemma skipn_app_exact {A} (a b : list A) n : length a = n -> skipn n (a ++ b) = b.
Proof. intros <-. rewrite skipn_app, Nat.sub_diag, skipn_all. reflexivity. Qed.

(** reading the words that a machine wrote *)
Definition seen (e e' : bool) (w : Z) : Z := if Bool.eqb e e' then w else byte_invert w.

Lemma words_seen e e' ws : Forall word ws ->
  words_of_bytes e' (length ws) (bytes_of_words e ws) = map (seen e e') ws.
Proof.
  induction 1 as [|w ws Hw Hs IH]; [reflexivity|].
  unfold bytes_of_words. cbn [length words_of_bytes flat_map map].
  rewrite (firstn_app_exact _ _ 8), (skipn_app_exact _ _ 8) by apply bytes_of_length.
  f_equal; [|exact IH]. unfold seen. destruct (Bool.eqb_spec e e') as [<-|N].
  - apply word_round, Hw.
  - replace e' with (negb e) by (destruct e, e'; try reflexivity; congruence). apply byte_invert_other, Hw.
Qed.

Lemma seen_fix e e' ws : Forall word ws ->
  (if negb (Bool.eqb e e') then fixup_byte_order (length ws) (map (seen e e') ws) else map (seen e e') ws) = ws.
Proof.
  intros H. unfold seen. destruct (Bool.eqb e e'); cbn [negb].
  - induction ws; [reflexivity|]. cbn. inversion H; subst. f_equal. auto.
  - unfold fixup_byte_order. rewrite <- (map_length byte_invert ws) at 1 2.
    rewrite firstn_all, skipn_all, app_nil_r, map_map. induction H; [reflexivity|]. cbn. f_equal; auto.
    apply byte_invert_twice. assumption.
Qed.

(** * Writing *)

Definition total (w : writer) : list Z := wout w ++ wbuf w.

Lemma full_write_ok rs data : forall fuel out calls, (length data <= fuel)%nat ->
  (exists calls', full_write fuel rs data out calls = Ok (out ++ data, calls'))
  \/ (full_write fuel rs data out calls = Err /\ exists k, rs k <= 0).
Proof.
  assert (G : forall n data, (length data <= n)%nat -> forall fuel out calls, (length data <= fuel)%nat ->
    (exists calls', full_write fuel rs data out calls = Ok (out ++ data, calls'))
    \/ (full_write fuel rs data out calls = Err /\ exists k, rs k <= 0)).
  { clear data. induction n; intros data Hn fuel out calls Hf.
    - destruct data; [|cbn in Hn; lia]. left. exists calls. destruct fuel; cbn; rewrite app_nil_r; reflexivity.
    - destruct data as [|x data]; [left; exists calls; destruct fuel; cbn; rewrite app_nil_r; reflexivity|].
      destruct fuel; [cbn in Hf; lia|]. cbn [full_write].
      destruct (Z.leb_spec (rs calls) 0); [right; split; [reflexivity|eauto]|].
      set (k := Z.to_nat (Z.min (rs calls) (len (x :: data)))).
      assert (1 <= k <= length (x :: data))%nat by (unfold k, len in *; cbn [length] in *; lia).
      destruct (IHn (skipn k (x :: data))) with (fuel := fuel) (out := out ++ firstn k (x :: data)) (calls := S calls) as [(c & E)|E].
      + rewrite skipn_length. cbn [length] in *. lia.
      + rewrite skipn_length. cbn [length] in *. lia.
      + left. exists c. rewrite E, <- app_assoc, firstn_skipn. reflexivity.
      + right. exact E. }
  intros. eapply G; eauto.
Qed.

Definition wgood (w : writer) : Prop := len (wbuf w) <= write_buffer_size.

Lemma buffer_write_ok rs data w : wgood w -> len data + 65536 < 2 ^ 31 ->
  (exists w', buffer_write rs data w = Ok w' /\ wgood w' /\ total w' = total w ++ data)
  \/ (buffer_write rs data w = Err /\ exists k, rs k <= 0).
Proof.
  intros G L. unfold buffer_write, wgood, total in *. unfold write_buffer_size in *.
  destruct (Z.leb_spec (2 ^ 31) (len (wbuf w) + len data)); [lia|].
  destruct (Z.ltb_spec 65536 (len (wbuf w) + len data)).
  - destruct (full_write_ok rs (wbuf w) (length (wbuf w)) (wout w) (wcalls w)) as [(c & E)|(E & K)]; [lia| |];
      rewrite E; cbn [obind]; [|right; split; [reflexivity|exact K]]. cbn [wbuf wout wcalls].
    destruct (Z.ltb_spec 65536 (len data)).
    + destruct (full_write_ok rs data (length data) (wout w ++ wbuf w) c) as [(c' & E')|(E' & K)]; [lia| |];
        rewrite E'; cbn [obind]; [|right; split; [reflexivity|exact K]].
      left. eexists. split; [reflexivity|]. cbn. split; [unfold len; cbn; lia|]. rewrite app_nil_r. reflexivity.
    + left. eexists. split; [reflexivity|]. cbn. split; [lia|]. reflexivity.
  - cbn [obind]. destruct (Z.ltb_spec 65536 (len data)).
    + exfalso. pose proof (len_nonneg (wbuf w)). lia.
    + left. eexists. split; [reflexivity|]. cbn. split; [rewrite len_app; lia|]. apply app_assoc.
Qed.

Lemma flush_ok rs w : buffer_write_flush rs w = Ok (total w) \/ (buffer_write_flush rs w = Err /\ exists k, rs k <= 0).
Proof.
  unfold buffer_write_flush. destruct (full_write_ok rs (wbuf w) (length (wbuf w)) (wout w) (wcalls w)) as [(c & E)|(E & K)]; [lia| |];
    rewrite E; cbn; [left; reflexivity|right; split; [reflexivity|exact K]].
Qed.

(** * Reading *)

(** what is still to be read *)
Definition rest (r : reader) : list Z :=
  if mapped r then skipn (Z.to_nat (rpos r)) (rbuf r)
  else skipn (Z.to_nat (rpos r)) (rbuf r) ++ skipn (Z.to_nat (rfd r)) (rfile r).

Definition rgood (r : reader) : Prop :=
  0 <= rpos r <= len (rbuf r) /\ 0 <= rfd r <= len (rfile r)
  /\ if mapped r then rbuf r = rfile r
     else len (rbuf r) <= read_buffer_size /\ (len (rbuf r) < read_buffer_size -> rfd r = len (rfile r)).

Lemma part_len a n (l : list Z) : 0 <= a -> 0 <= n -> len (part a n l) = Z.min n (Z.max 0 (len l - a)).
Proof. intros. unfold part, len. rewrite firstn_length, skipn_length. lia. Qed.

Lemma skipn_add {A} a b (l : list A) : skipn a (skipn b l) = skipn (b + a) l.
Proof.
  revert l. induction b; intros l; [reflexivity|]. destruct l; [rewrite !skipn_nil; reflexivity|]. cbn. apply IHb.
Qed.

Lemma buffer_fill_ok r : 0 <= rfd r <= len (rfile r) -> mapped r = false ->
  rgood (buffer_fill r) /\ rest (buffer_fill r) = skipn (Z.to_nat (rfd r)) (rfile r).
Proof.
  intros H M. unfold buffer_fill, rgood, rest, rsize. cbn. rewrite M. unfold read_buffer_size.
  pose proof (part_len (rfd r) 524288 (rfile r)) as P. split.
  - rewrite P by lia. split; [lia|]. split; [lia|]. split; lia.
  - cbn [Z.to_nat skipn]. unfold part.
    destruct (Z.le_gt_cases (rfd r + 524288) (len (rfile r))).
    + rewrite Z.min_l by lia. rewrite <- (firstn_skipn (Z.to_nat 524288) (skipn (Z.to_nat (rfd r)) (rfile r))) at 2.
      rewrite skipn_add. do 2 f_equal. lia.
    + rewrite Z.min_r by lia. unfold len in *. rewrite Nat2Z.id, skipn_all, app_nil_r.
      apply firstn_all2. rewrite skipn_length. lia.
Qed.

Lemma buffer_read_init_ok mp file : (mp = true -> len file < 2 ^ 31) ->
  exists r, buffer_read_init mp file = Ok r /\ rgood r /\ rest r = file /\ mapped r = mp.
Proof.
  intros H. unfold buffer_read_init. destruct mp.
  - specialize (H eq_refl). destruct (Z.leb_spec (2 ^ 31) (len file)); [lia|].
    eexists. split; [reflexivity|]. pose proof (len_nonneg file). unfold rgood. cbn. repeat split; try lia.
  - pose proof (len_nonneg file).
    destruct (buffer_fill_ok (Reader false [] 0 file 0)) as [A B]; [cbn; lia|reflexivity|].
    eexists. split; [reflexivity|]. split; [exact A|]. split; [exact B|reflexivity].
Qed.

Lemma buffer_advance_ok n r a b : rgood r -> rest r = a ++ b -> len a = n ->
  rpos r + n <= len (rbuf r) ->
  exists r', buffer_advance n r = Ok (a, r') /\ rgood r' /\ rest r' = b /\ mapped r' = mapped r.
Proof.
  intros (P & F & G) R N L. unfold buffer_advance. pose proof (len_nonneg a).
  destruct (Z.ltb_spec (len (rbuf r)) (rpos r + n)); [lia|].
  assert (E : part (rpos r) n (rbuf r) = a /\ rest (Reader (mapped r) (rbuf r) (rpos r + n) (rfile r) (rfd r)) = b).
  { unfold part, rest in *. cbn [mapped rbuf rpos rfile rfd].
    replace (Z.to_nat (rpos r + n)) with (Z.to_nat (rpos r) + length a)%nat by (unfold len in *; lia).
    rewrite <- skipn_add. unfold len in N. replace (Z.to_nat n) with (length a) by lia.
    assert (LL : (length a <= length (skipn (Z.to_nat (rpos r)) (rbuf r)))%nat)
      by (rewrite skipn_length; unfold len in *; lia).
    destruct (mapped r).
    - rewrite R. split; [apply firstn_app_exact|apply skipn_app_exact]; reflexivity.
    - rewrite <- (firstn_skipn (length a) (skipn (Z.to_nat (rpos r)) (rbuf r))) in R.
      rewrite <- app_assoc in R.
      assert (R1 := f_equal (firstn (length a)) R). assert (R2 := f_equal (skipn (length a)) R).
      rewrite !(firstn_app_exact _ _ (length a)) in R1 by (reflexivity || (rewrite firstn_length; lia)).
      rewrite !(skipn_app_exact _ _ (length a)) in R2 by (reflexivity || (rewrite firstn_length; lia)).
      split; assumption. }
  destruct E as [E1 E2]. eexists. rewrite E1. split; [reflexivity|]. split; [|split; [exact E2|reflexivity]].
  unfold rgood. cbn. split; [lia|]. split; [lia|]. exact G.
Qed.

Lemma land_opp_pow2 n k : 0 <= k -> Z.land n (- 2 ^ k) = n - n mod 2 ^ k.
Proof.
  intros K. replace (- 2 ^ k) with (Z.lnot (Z.ones k)) by (rewrite Z.ones_equiv; unfold Z.lnot; lia).
  rewrite <- Z.ldiff_land, Z.ldiff_ones_r, Z.shiftl_mul_pow2, Z.shiftr_div_pow2 by lia.
  pose proof (Z.div_mod n (2 ^ k)). pose proof (Z.pow_pos_nonneg 2 k). lia.
Qed.

Lemma app_cut {A} (x y a b : list A) : x ++ y = a ++ b -> (length x <= length a)%nat ->
  exists c, a = x ++ c /\ y = c ++ b.
Proof.
  revert a. induction x; intros a' H L; [exists a'; auto|].
  destruct a' as [|z a']; [cbn in L; lia|]. cbn in H. injection H as -> H.
  destruct (IHx a' H) as (c & -> & ->); [cbn in L; lia|]. exists c. auto.
Qed.

Lemma ok_pair {A B} (x a : A) (y b : B) : Ok (x, y) = Ok (a, b) -> x = a /\ y = b.
Proof. intros H. injection H as -> ->. split; reflexivity. Qed.

Lemma fill_ex r : 0 <= rfd r <= len (rfile r) -> mapped r = false ->
  exists r2, buffer_fill r = r2 /\ rgood r2 /\ rest r2 = skipn (Z.to_nat (rfd r)) (rfile r)
    /\ rpos r2 = 0 /\ mapped r2 = false.
Proof.
  intros H M. exists (buffer_fill r). destruct (buffer_fill_ok r H M) as [A B].
  split; [reflexivity|]. split; [exact A|]. split; [exact B|]. split; [reflexivity|exact M].
Qed.

Lemma buffer_read_ok n r a b : rgood r -> rest r = a ++ b -> len a = n -> n < 2 ^ 31 ->
  exists r', buffer_read n r = Ok (a, r') /\ rgood r' /\ rest r' = b /\ mapped r' = mapped r.
Proof.
  intros G R N L. pose proof (len_nonneg a) as NN. unfold buffer_read.
  replace ((2 ^ 31 <=? n) || (n <? 0)) with false by lia.
  destruct (mapped r) eqn:M.
  - destruct G as (P & F & G). rewrite M in G.
    assert (len (rest r) = len (rbuf r) - rpos r) as LR.
    { unfold rest. rewrite M. unfold len. rewrite skipn_length. unfold len in *. lia. }
    rewrite R, len_app in LR. pose proof (len_nonneg b).
    unfold rsize. rewrite M, <- G. destruct (Z.ltb_spec (len (rbuf r) - rpos r) n); [lia|].
    rewrite <- M. apply buffer_advance_ok; auto; [|lia]. split; [exact P|split; [exact F|rewrite M; exact G]].
  - assert (RS : rsize r = 524288) by (unfold rsize; rewrite M; reflexivity).
    destruct (Z.ltb_spec (rsize r - rpos r) n) as [H|H].
    + cbn [orb]. destruct (G) as (P & F & Q). rewrite M in Q. unfold read_buffer_size in Q.
      assert (LR : len (rest r) = len (rbuf r) - rpos r + (len (rfile r) - rfd r)).
      { unfold rest. rewrite M, len_app. unfold len in *. rewrite !skipn_length. lia. }
      rewrite R, len_app in LR. pose proof (len_nonneg b).
      destruct (Z.ltb_spec (len (rbuf r)) (rsize r)) as [S|S]; [exfalso; lia|].
      assert (E0 : part (rpos r) (rsize r - rpos r) (rbuf r) = skipn (Z.to_nat (rpos r)) (rbuf r)).
      { unfold part. apply firstn_all2. rewrite skipn_length. unfold len in *. lia. }
      assert (R' := R). unfold rest in R'. rewrite M in R'.
      destruct (app_cut _ _ _ _ R') as (a' & A1 & A2); [rewrite skipn_length; unfold len in *; lia|].
      cbv zeta. rewrite E0. set (d1 := skipn (Z.to_nat (rpos r)) (rbuf r)) in *.
      assert (LA : len a' = n - (rsize r - rpos r)).
      { rewrite A1, len_app in N. unfold d1 in N. unfold len in *. rewrite skipn_length in N. lia. }
      rewrite <- LA. set (big := if rsize r <? len a' then Z.land (len a') (- rsize r) else 0).
      assert (BB : 0 <= big <= len a' /\ len a' - big <= 524288).
      { unfold big. rewrite RS. destruct (Z.ltb_spec 524288 (len a')); [|lia].
        pose proof (land_opp_pow2 (len a') 19 ltac:(lia)) as W. change (2 ^ 19) with 524288 in W. rewrite W. lia. }
      rewrite <- (firstn_skipn (Z.to_nat big) a') in A2.
      set (a1 := firstn (Z.to_nat big) a') in *. set (a2 := skipn (Z.to_nat big) a') in *.
      assert (L1 : len a1 = big) by (unfold a1, len in *; rewrite firstn_length; lia).
      assert (L2 : len a2 = len a' - big) by (unfold a2, len in *; rewrite skipn_length; lia).
      assert (E1 : part (rfd r) big (rfile r) = a1).
      { unfold part. rewrite A2, <- app_assoc. apply firstn_app_exact. unfold len in L1. lia. }
      rewrite E1. destruct (Z.ltb_spec (len a1) big); [lia|].
      assert (E2 : skipn (Z.to_nat (rfd r + big)) (rfile r) = a2 ++ b).
      { replace (Z.to_nat (rfd r + big)) with (Z.to_nat (rfd r) + Z.to_nat big)%nat by lia.
        rewrite <- skipn_add, A2, <- app_assoc. apply skipn_app_exact. unfold len in L1. lia. }
      assert (LF : rfd r + big <= len (rfile r)).
      { assert (T := f_equal len A2). rewrite !len_app in T. unfold len in T, L1. rewrite skipn_length in T.
        unfold len in *. lia. }
      destruct (fill_ex (Reader false (rbuf r) 0 (rfile r) (rfd r + big))) as (r2 & ER & G2 & R2 & P2 & M2); [cbn [rfd rfile]; lia|reflexivity|].
      cbn [rfd rfile] in R2. rewrite E2 in R2. rewrite ER. cbv beta.
      assert (FIT : rpos r2 + len a2 <= len (rbuf r2)).
      { rewrite P2. destruct G2 as (X & Y & W). rewrite M2 in W. unfold read_buffer_size in W.
        destruct (Z.le_gt_cases (len a2) (len (rbuf r2))); [lia|].
        destruct W as [W1 W2]. rewrite W2 in * by lia.
        assert (T := f_equal len R2). unfold rest in T. rewrite M2, P2 in T. cbn [Z.to_nat skipn] in T.
        rewrite W2 in T by lia. rewrite !len_app in T. unfold len in T. rewrite skipn_length in T. unfold len in *. lia. }
      destruct (buffer_advance_ok (len a2) r2 a2 b G2 R2 eq_refl FIT) as (r3 & B1 & B2 & B3 & B4).
      unfold buffer_advance in B1. rewrite P2, Z.add_0_l in B1.
      rewrite <- L2. destruct (Z.ltb_spec (len (rbuf r2)) (len a2)); [discriminate|].
      apply ok_pair in B1. destruct B1 as [B1 <-]. rewrite B1.
      assert (AA : d1 ++ a1 ++ a2 = a) by (unfold a1, a2; rewrite firstn_skipn; congruence).
      rewrite AA. eexists. split; [reflexivity|]. split; [exact B2|]. split; [exact B3|]. exact M2.
    + rewrite <- M. apply buffer_advance_ok; auto.
      destruct G as (P & F & Q). rewrite M in Q. unfold read_buffer_size in Q.
      destruct (Z.le_gt_cases (rpos r + n) (len (rbuf r))); [assumption|].
      destruct Q as [Q1 Q2]. assert (T := f_equal len R). unfold rest in T. rewrite M, Q2, !len_app in T by lia.
      pose proof (len_nonneg b). unfold len in T. rewrite !skipn_length in T. unfold len in *. lia.
Qed.
