(** Theorems about the printing of Floats (C128). *)
From Coq Require Import Reals Lra ZifyBool.
From Flocq Require Import Core.
From Verif Require Import Base Real RealSpec FloatPrint FloatPrintSpec FloatPrintExamples.
Open Scope R_scope.

(** Every Float is printed, and as a literal. *)
Theorem C128_text : forall k negative m e, is_float k m ->
  exists ints fracs ex, print_float k negative m e = Ok (text negative ints fracs ex) /\ readable ints fracs ex.
Proof. exact print_text. Qed.
Print Assumptions C128_text.

(** The number printed is less than one unit in the last place away.  In full the
    number printed would be nearer to the Float than to its neighbours, for every
    Float (see C128_near_refuted and C128_tenth_refuted). *)
Theorem C128_error_partial : forall k negative m e, is_float k m ->
  ~ ten_above (value k m e) (ulp k e / 2) ->
  exists ints fracs ex, print_float k negative m e = Ok (text negative ints fracs ex)
    /\ Rabs (written 10 ints fracs ex - value k m e) < ulp k e.
Proof. exact print_error. Qed.
Print Assumptions C128_error_partial.

(** Minus a tenth, which is printed as -0.1, meets the hypotheses. *)
Example C128_text_sample : is_float FloatD 7205759403792794
  /\ print_float FloatD true 7205759403792794 (-4) = Ok (text true [0]%Z [1]%Z None)
  /\ ~ ten_above (value FloatD 7205759403792794 (-4)) (ulp FloatD (-4) / 2).
Proof. exact sample_text. Qed.

(** A number with few decimal digits that is near to a Float is what is printed
    for the Float.  In full this would hold for powers of ten above the Float
    (see C128_tenth_refuted), and for large numbers as for small ones (see
    C128_large_refuted). *)
Theorem C128_short_partial : forall k negative m e d j, is_float k m -> (0 < d)%Z -> 2 * ulp k e <= bpow ten j ->
  let V := IZR d * bpow ten j in
  Rabs (V - value k m e) < ulp k e / 2 -> (1 <= ulp k e -> Rabs (V - value k m e) < ulp k e / 4) ->
  (value k m e < V -> forall i, V <> bpow ten i) ->
  exists ints fracs ex, print_float k negative m e = Ok (text negative ints fracs ex) /\ written 10 ints fracs ex = V.
Proof. exact print_short. Qed.
Print Assumptions C128_short_partial.

(** In particular one with 6, 15 or 18 digits. *)
Theorem C128_decimal_partial : forall k negative m e d j, is_float k m -> (0 < d < 10 ^ kept k)%Z ->
  let V := IZR d * bpow ten j in
  Rabs (V - value k m e) < ulp k e / 2 -> (1 <= ulp k e -> Rabs (V - value k m e) < ulp k e / 4) ->
  (value k m e < V -> forall i, V <> bpow ten i) ->
  exists ints fracs ex, print_float k negative m e = Ok (text negative ints fracs ex) /\ written 10 ints fracs ex = V.
Proof. exact print_decimal. Qed.
Print Assumptions C128_decimal_partial.

(** A tenth meets the hypotheses. *)
Example C128_short_sample : is_float FloatD 7205759403792794 /\ 2 * ulp FloatD (-4) <= bpow ten (-1)
  /\ (0 < 1 < 10 ^ kept FloatD)%Z
  /\ Rabs (IZR 1 * bpow ten (-1) - value FloatD 7205759403792794 (-4)) < ulp FloatD (-4) / 2
  /\ ulp FloatD (-4) < 1
  /\ ~ value FloatD 7205759403792794 (-4) < IZR 1 * bpow ten (-1).
Proof. exact sample_short. Qed.

(** The FloatE for a ten-thousandth is printed as 0.00001. *)
Theorem C128_tenth_refuted : exists m e ints fracs, is_float FloatE m
  /\ print_float FloatE false m e = Ok (text false ints fracs None)
  /\ Rabs (1 / 10000 - value FloatE m e) < ulp FloatE e / 2
  /\ written 10 ints fracs None = 1 / 100000.
Proof. do 4 eexists. exact tenth_witness. Qed.
Print Assumptions C128_tenth_refuted.

(** There is a FloatD whose text the compiler reads as the one before it. *)
Theorem C128_near_refuted : exists m e ints fracs y, is_float FloatD m
  /\ print_float FloatD false m e = Ok (text false ints fracs None)
  /\ float_literal FloatD 10 ints fracs None = Ok y
  /\ scaled y = value FloatD (m - 1) e.
Proof.
  destruct near_witness as (y & H). exists 4814580399281224%Z, 2%Z, [4]%Z. eexists. exists y. exact H.
Qed.
Print Assumptions C128_near_refuted.

(** For the FloatD nearest to 1.89e22 another number, with more digits, is
    printed. *)
Theorem C128_large_refuted : exists m e d j ints fracs ex, is_float FloatD m /\ (0 < d < 10 ^ kept FloatD)%Z
  /\ print_float FloatD false m e = Ok (text false ints fracs ex)
  /\ 1 <= ulp FloatD e
  /\ Rabs (IZR d * bpow ten j - value FloatD m e) = ulp FloatD e / 4
  /\ written 10 ints fracs ex < IZR d * bpow ten j.
Proof. exists 4506111145019531%Z, 74%Z, 189%Z, 20%Z. do 3 eexists. exact large_witness. Qed.
Print Assumptions C128_large_refuted.
