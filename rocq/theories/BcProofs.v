(** Lemmas about emission, decoding and superoperators. *)
From Coq Require Import ZArith List Bool Lia ZifyBool ZifyNat.
From Verif Require Import Base BcTables Bc BcSpec BcRun.
Import ListNotations.
Local Open Scope Z_scope.
Ltac Zify.zify_post_hook ::= Z.div_mod_to_equations.

(** * Arithmetic *)
Lemma land_shift_byte a x : 0 <= x < 256 -> Z.land (a * 256) x = 0.
Proof.
  intros Hx. apply Z.bits_inj'. intros i Hi. rewrite Z.land_spec, Z.bits_0.
  change 256 with (2 ^ 8). rewrite <- Z.shiftl_mul_pow2 by lia.
  rewrite Z.shiftl_spec by lia.
  destruct (Z.ltb_spec i 8).
  - rewrite Z.testbit_neg_r by lia. reflexivity.
  - replace (Z.testbit x i) with false; [apply andb_false_r|].
    symmetry. destruct (Z.eqb_spec x 0) as [-> | N]; [apply Z.bits_0|].
    apply Z.bits_above_log2; [lia|].
    assert (Z.log2 x < 8) by (apply Z.log2_lt_pow2; lia). lia.
Qed.

Lemma lor_byte a x : 0 <= x < 256 -> Z.lor (a * 256) x = a * 256 + x.
Proof.
  intros Hx. pose proof (land_shift_byte a x Hx) as E.
  rewrite Z.add_nocarry_lxor by exact E. symmetry. now apply Z.lxor_lor.
Qed.

Lemma shl8 a : Z.shiftl a 8 = a * 256.
Proof. rewrite Z.shiftl_mul_pow2 by lia. reflexivity. Qed.

Lemma shr8 a : Z.shiftr a 8 = a / 256.
Proof. rewrite Z.shiftr_div_pow2 by lia. reflexivity. Qed.

Lemma land255 a : Z.land a 255 = a mod 256.
Proof. change 255 with (Z.ones 8). rewrite Z.land_ones by lia. reflexivity. Qed.

(** * Emission *)
Lemma compile_byte_cases b n : 0 <= n < 2 ^ 31 ->
  compile_byte b n =
  if n <=? 255 then [(b, n)]
  else if n <=? 65535 then [(55, n / 256); (b, n mod 256)]
  else if n <=? 16777215 then
    [(55, n / 65536); (55, n / 256 mod 256); (b, n mod 256)]
  else [(55, n / 16777216); (55, n / 65536 mod 256); (55, n / 256 mod 256);
        (b, n mod 256)].
Proof.
  intros Hn. change (2 ^ 31) with 2147483648 in Hn.
  unfold compile_byte. rewrite land255.
  assert (Sh : forall k, Z.land (Z.shiftr n (Z.of_nat k * 8)) 255
                         = n / 256 ^ Z.of_nat k mod 256).
  { intros k. rewrite land255, Z.shiftr_div_pow2 by lia.
    rewrite Z.mul_comm, Z.pow_mul_r by lia. reflexivity. }
  cbn [num_ext]. rewrite !shr8.
  destruct (Z.leb_spec n 255).
  { replace (n >? 255) with false by lia. cbn [seq rev app map].
    f_equal. f_equal. lia. }
  replace (n >? 255) with true by lia.
  destruct (Z.leb_spec n 65535).
  { replace (n / 256 >? 255) with false by lia. cbn [seq rev app map].
    rewrite Sh. change (256 ^ Z.of_nat 1) with 256. unfold ext_byte.
    replace (n / 256 mod 256) with (n / 256) by lia. reflexivity. }
  replace (n / 256 >? 255) with true by lia.
  destruct (Z.leb_spec n 16777215).
  { replace (n / 256 / 256 >? 255) with false by lia. cbn [seq rev app map].
    rewrite !Sh. change (256 ^ Z.of_nat 1) with 256.
    change (256 ^ Z.of_nat 2) with 65536. unfold ext_byte.
    replace (n / 65536 mod 256) with (n / 65536) by lia. reflexivity. }
  replace (n / 256 / 256 >? 255) with true by lia.
  replace (n / 256 / 256 / 256 >? 255) with false by lia. cbn [seq rev app map].
  rewrite !Sh. change (256 ^ Z.of_nat 1) with 256.
  change (256 ^ Z.of_nat 2) with 65536. change (256 ^ Z.of_nat 3) with 16777216.
  unfold ext_byte.
  replace (n / 16777216 mod 256) with (n / 16777216) by lia. reflexivity.
Qed.

Lemma decode_ext a x r : decode a ((55, x) :: r) = decode (Z.lor a x * 256) r.
Proof. cbn [decode]. change (55 =? ext_byte) with true. cbn iota. rewrite shl8. reflexivity. Qed.

Lemma decode_op a b x r : b <> 55 -> decode a ((b, x) :: r) = dispatch a b x ++ decode 0 r.
Proof.
  intros H. cbn [decode]. destruct (Z.eqb_spec b ext_byte) as [E|_]; [contradiction|].
  reflexivity.
Qed.

Lemma decode_compile b n r : 0 <= n < 2 ^ 31 -> b <> 55 ->
  decode 0 (compile_byte b n ++ r)
  = dispatch (n / 256 * 256) b (n mod 256) ++ decode 0 r.
Proof.
  intros Hn Hb. rewrite compile_byte_cases by exact Hn.
  change (2 ^ 31) with 2147483648 in Hn.
  destruct (Z.leb_spec n 255); [|destruct (Z.leb_spec n 65535);
    [|destruct (Z.leb_spec n 16777215)]]; cbn [app];
    rewrite ?decode_ext; rewrite decode_op by exact Hb; rewrite ?Z.lor_0_l;
    rewrite ?lor_byte by lia; do 2 f_equal; lia.
Qed.

(** the entries of byte.def for the opcodes of the compiler *)
Lemma dispatch_meaning b n o : 0 <= n -> meaning b n = Some o ->
  dispatch (n / 256 * 256) b (n mod 256) = [o].
Proof.
  intros Hn. unfold meaning.
  assert (A : Z.lor (n / 256 * 256) (n mod 256) = n) by (rewrite lor_byte; lia).
  assert (B : Z.shiftr (n / 256 * 256) 8 = n / 256) by (rewrite shr8; lia).
  destruct (_ && _) eqn:E1; [|destruct ((16 <=? b) && (b <=? 26)) eqn:E2].
  - intros [= <-].
    assert (C : In b [0;1;2;3;4;5;6;7;8;9;10;11;12;13;14;15]) by (cbn [In]; lia).
    repeat (destruct C as [<- | C]; [reflexivity|]). destruct C.
  - intros [= <-].
    assert (C : In b [16;17;18;19;20;21;22;23;24;25;26]) by (cbn [In]; lia).
    repeat (destruct C as [<- | C]; [reflexivity|]). destruct C.
  - intros Hm.
    assert (C : In b [28;29;30;31;32;33;34;35;36;37;38;39;40;41;42;43;44;45;46;47;
                      48;49;50;51;52;53;54;56]).
    { clear - Hm. destruct b as [|p|p]; try discriminate Hm.
      do 6 (destruct p as [p|p|]; try discriminate Hm; try (clear; cbn [In]; tauto)). }
    cbn [In] in C.
    do 28 (destruct C as [<- | C];
      [injection Hm as <-; unfold dispatch;
       match goal with |- context [nth ?k byte_table []] =>
         let v := eval vm_compute in (nth k byte_table []) in
         change (nth k byte_table []) with v end;
       cbn [fst snd map aval]; rewrite ?A, ?B; reflexivity|]).
    destruct C.
Qed.

Lemma meaning_not_ext b n o : meaning b n = Some o -> b <> 55.
Proof. intros E ->. discriminate E. Qed.

Lemma decode_emitted b n o r : 0 <= n < 2 ^ 31 -> meaning b n = Some o ->
  decode 0 (compile_byte b n ++ r) = o :: decode 0 r.
Proof.
  intros Hn Hm. rewrite decode_compile by eauto using meaning_not_ext.
  rewrite (dispatch_meaning b n o) by (assumption || lia). reflexivity.
Qed.

(** * The interpreter *)

(** what an operation of the interpreter stands for, for symbolic operands *)
Definition aexp_of (e : vexp) : aexp :=
  match e with VArg => F | VHi => H | VLo => L | VK n => K n end.

Definition template (o : vmop * list vexp) : opname * list aexp :=
  let l := map aexp_of (snd o) in
  match fst o with
  | V_JUMP_BACK => (JUMP, map (fun e => match e with F => N | _ => e end) l)
  | V_SEND => match l with [a; b] => (SEND, [a; K 0; b]) | _ => (INVALID, []) end
  | V_SEND_SUPER => match l with [a; b] => (SEND, [a; K 1; b]) | _ => (INVALID, []) end
  | V_SEND_IMMEDIATE => match l with [a] => (SEND_IMMEDIATE, [a; K 0]) | _ => (INVALID, []) end
  | V_SEND_SUPER_IMMEDIATE =>
    match l with [a] => (SEND_IMMEDIATE, [a; K 1]) | _ => (INVALID, []) end
  | o =>
    (fst (translate (o, [])),
     match snd (translate (o, [])) with [] => match o with
       V_LINE_NUMBER_BYTECODE | V_INVALID => [] | _ => l end | k => map K k end)
  end.

Definition template_without_line (o : opname * list aexp) : opname * list aexp :=
  match o with
  | (LINE_NUMBER_BYTECODE, _) => (LINE_NUMBER_BYTECODE, [])
  | (INVALID, _) => (INVALID, [])
  | _ => o
  end.

Definition not_back (o : vmop * list vexp) : bool :=
  match o with
  | (V_JUMP_BACK, [VArg]) => true
  | (V_JUMP_BACK, _) => false
  | _ => true
  end.

Lemma tables_agree :
  map (map template) vm_table = map (map template_without_line) byte_table.
Proof. vm_compute. reflexivity. Qed.

Lemma back_ok : forallb (forallb not_back) vm_table = true.
Proof. vm_compute. reflexivity. Qed.

Definition vinst (arg : Z) (t : vmop * list vexp) : vop :=
  (fst t, map (vval arg) (snd t)).
Definition inst (arg lsb : Z) (t : opname * list aexp) : op :=
  (fst t, map (aval arg lsb) (snd t)).

Lemma aval_of a x e : 0 <= x < 256 ->
  vval (Z.lor (a * 256) x) e = aval (a * 256) x (aexp_of e).
Proof.
  intros Hx. destruct e; cbn [vval aval aexp_of]; try reflexivity.
  - rewrite lor_byte by exact Hx. rewrite !shr8. lia.
  - rewrite lor_byte by exact Hx. rewrite land255. lia.
Qed.

Lemma map_aval a x l : 0 <= x < 256 ->
  map (vval (Z.lor (a * 256) x)) l = map (aval (a * 256) x) (map aexp_of l).
Proof. intros Hx. rewrite map_map. apply map_ext. intros e. now apply aval_of. Qed.

Lemma translate_template a x t : 0 <= x < 256 -> not_back t = true ->
  translate (vinst (Z.lor (a * 256) x) t) = inst (a * 256) x (template t).
Proof.
  intros Hx Hb. destruct t as [o l]. unfold vinst, inst, template.
  cbn [fst snd]. rewrite map_aval by exact Hx.
  destruct o; cbn [translate fst snd map]; try reflexivity.
  all: try (destruct l as [|e1 [|e2 [|e3 l]]]; reflexivity).
  destruct l as [|[] [|]]; try discriminate Hb. reflexivity.
Qed.

Lemma without_template a x t :
  without_line (inst a x t) = inst a x (template_without_line t).
Proof. destruct t as [o l]; destruct o; reflexivity. Qed.

Lemma nth_map_nil {A B} (f : A -> B) n (l : list (list A)) :
  map f (nth n l []) = nth n (map (map f) l) [].
Proof. change [] with (map f []) at 2. symmetry. apply map_nth. Qed.

Lemma dispatch_agrees a b x : 0 <= x < 256 ->
  map translate (map (vinst (Z.lor (a * 256) x)) (nth (Z.to_nat b) vm_table []))
  = map without_line (dispatch (a * 256) b x).
Proof.
  intros Hx. unfold dispatch.
  change (fun t : opname * list aexp => (fst t, map (aval (a * 256) x) (snd t)))
    with (inst (a * 256) x).
  rewrite !map_map.
  rewrite (map_ext _ _ (without_template (a * 256) x)).
  transitivity (map (fun t => inst (a * 256) x (template t)) (nth (Z.to_nat b) vm_table [])).
  - apply map_ext_in. intros t Ht. apply translate_template; [exact Hx|].
    pose proof back_ok as Hb. rewrite forallb_forall in Hb.
    destruct (Nat.lt_ge_cases (Z.to_nat b) (length vm_table)) as [L|G].
    + pose proof (Hb _ (nth_In vm_table [] L)) as Hf. rewrite forallb_forall in Hf. auto.
    + rewrite nth_overflow in Ht by exact G. destruct Ht.
  - rewrite <- (map_map template (inst (a * 256) x)).
    rewrite <- (map_map template_without_line (inst (a * 256) x)).
    rewrite !nth_map_nil, tables_agree. reflexivity.
Qed.

Lemma vm_agrees_gen code : bytes code -> forall a,
  map translate (vm_run (Some a) code) = map without_line (decode (a * 256) code).
Proof.
  induction 1 as [|[b x] code [_ Hx] _ IH]; intros a; [reflexivity|].
  cbn [vm_run decode snd] in *.
  assert (IH0 : map translate (vm_run None code) = map without_line (decode 0 code)).
  { change 0 with (0 * 256). rewrite <- IH. destruct code as [|[b' x'] code]; reflexivity. }
  rewrite shl8. destruct (b =? ext_byte).
  - rewrite IH, shl8. reflexivity.
  - rewrite !map_app, IH0. f_equal. now apply dispatch_agrees.
Qed.

Lemma vm_agrees code : bytes code ->
  map translate (vm_run None code) = map without_line (decode 0 code).
Proof.
  intros Hc. change 0 with (0 * 256). rewrite <- vm_agrees_gen by exact Hc.
  destruct code as [|[b x] code]; reflexivity.
Qed.

Lemma transfer_last : forall b, 
  Forall (fun o => may_transfer (fst o) = false) (removelast (nth b vm_table [])).
Proof.
  intros b. destruct (Nat.lt_ge_cases b (length vm_table)) as [L|G].
  - assert (C : forallb (fun l => forallb (fun o => negb (may_transfer (fst o))) (removelast l)) vm_table = true)
      by (vm_compute; reflexivity).
    rewrite forallb_forall in C. specialize (C _ (nth_In vm_table [] L)).
    rewrite forallb_forall in C. apply Forall_forall. intros o Ho.
    specialize (C o Ho). now destruct (may_transfer (fst o)).
  - rewrite nth_overflow by exact G. constructor.
Qed.
