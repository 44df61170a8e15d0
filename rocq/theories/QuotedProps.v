(** C141: decoding quoted-printable text.  Statements use QuotedSpec. *)
From Verif Require Import Base Quoted QuotedSpec QuotedProofs.
Import ListNotations.
Local Open Scope Z_scope.

(** A text that is not empty, with newlines at the end of lines and with no byte above 127 in digits, is decoded to
    the bytes that it stands for.  Missing for the full statement: the other bytes, which [C141_high_refuted] shows to
    fail, and the empty text. *)
Theorem C141_decode_partial : forall t b, quoted [10] 128 t b -> t <> [] -> decode t = Ok b.
Proof. exact quoted_ok. Qed.

(** Whatever the bytes, a text is decoded right or refused. *)
Theorem C141_never_wrong : forall t b, quoted [10] 256 t b -> decode t = Ok b \/ decode t = Err.
Proof. exact quoted_never. Qed.

(** Every text with a byte above 127 in digits is refused, whatever comes after it. *)
Theorem C141_high : forall t1 b1 v t2, quoted [10] 256 t1 b1 -> 128 <= v < 256 -> decode (t1 ++ escape v ++ t2) = Err.
Proof. exact high_err. Qed.

(** So bytes above 127, which the encoding is there for, cannot be decoded. *)
Theorem C141_high_refuted : exists t b, quoted [10] 256 t b /\ decode t = Err.
Proof. exact high_bad. Qed.

(** With carriage return and newline at the end of lines, as in messages, only newlines can be wrong. *)
Theorem C141_crlf_partial : forall t b, quoted [13; 10] 128 t b -> t <> [] ->
  exists b', decode t = Ok b' /\ filter (fun c => negb (c =? 10)) b' = filter (fun c => negb (c =? 10)) b.
Proof. exact crlf_ok. Qed.

(** And they are: a soft line break leaves a newline. *)
Theorem C141_crlf_refuted : exists t b b', quoted [13; 10] 128 t b /\ decode t = Ok b' /\ b' <> b.
Proof. exact crlf_bad. Qed.

(** Words in headers are decoded right if they have no underline, *)
Theorem C141_header_partial : forall t b, header_quoted 128 t b -> ~ In 95 t -> t <> [] -> decode t = Ok b.
Proof. exact header_ok. Qed.

(** which stays where a space is meant. *)
Theorem C141_header_refuted : exists t b b', header_quoted 128 t b /\ decode t = Ok b' /\ b' <> b.
Proof. exact header_bad. Qed.

(** Texts that stand for nothing are not all refused. *)
Theorem C141_malformed_refuted : exists t1 t2 b1 b2, decode t1 = Ok b1 /\ (forall b, ~ quoted [10] 256 t1 b) /\
  decode t2 = Ok b2 /\ (forall b, ~ quoted [10] 256 t2 b).
Proof. exact malformed_taken. Qed.

(** What is refused: a byte cut short at the end of the text, and one whose second digit is no digit and no capital
    letter, anywhere. *)
Theorem C141_cut_short : forall t1 b1 v n2 t2, quoted [10] 256 t1 b1 -> 0 <= v < 16 -> ~ (48 <= n2 <= 57 \/ 65 <= n2 <= 90) ->
  decode (t1 ++ [61; hex v]) = Err /\ decode (t1 ++ 61 :: hex v :: n2 :: t2) = Err.
Proof. exact second_err. Qed.

(** "a=3Db=" newline "c" stands for "a=bc". *)
Example C141_ex_quoted : quoted [10] 128 [97; 61; 51; 68; 98; 61; 10; 99] [97; 61; 98; 99].
Proof.
  apply Q_literal; [lia|lia|]. apply (Q_escape [10] 128 61); [lia|]. apply Q_literal; [lia|lia|].
  apply (Q_soft [10] 128 [99] [99]). apply Q_literal; [lia|lia|]. apply Q_end.
Qed.
Example C141_ex_decode : decode [97; 61; 51; 68; 98; 61; 10; 99] = Ok [97; 61; 98; 99].
Proof. reflexivity. Qed.
Example C141_ex_never : quoted [10] 256 [97; 61; 69; 57] [97; 233] /\ decode [97; 61; 69; 57] = Err.
Proof.
  split; [|reflexivity]. apply Q_literal; [lia|lia|]. apply (Q_escape [10] 256 233); [lia|]. apply Q_end.
Qed.
Example C141_ex_high : quoted [10] 256 [97; 98] [97; 98] /\ decode ([97; 98] ++ escape 233 ++ [99]) = Err.
Proof. split; [|reflexivity]. do 2 (apply Q_literal; [lia|lia|]). apply Q_end. Qed.
Example C141_ex_crlf : quoted [13; 10] 128 [97; 61; 13; 10; 98] [97; 98] /\ decode [97; 61; 13; 10; 98] = Ok [97; 10; 98].
Proof.
  split; [|reflexivity]. apply Q_literal; [lia|lia|]. apply (Q_soft [13; 10] 128 [98] [98]). apply Q_literal; [lia|lia|]. apply Q_end.
Qed.
Example C141_ex_header : header_quoted 128 [97; 61; 50; 48; 98] [97; 32; 98] /\ ~ In 95 [97; 61; 50; 48; 98].
Proof.
  split; [|cbn; lia]. apply H_literal; [lia..|]. apply (H_escape 128 32); [lia|]. apply H_literal; [lia..|]. apply H_end.
Qed.
(** "a=3" and "a=3d". *)
Example C141_ex_cut_short : quoted [10] 256 [97] [97] /\ decode [97; 61; 51] = Err /\ decode [97; 61; 51; 100] = Err.
Proof. split; [|split; reflexivity]. apply Q_literal; [lia|lia|]. apply Q_end. Qed.

Print Assumptions C141_decode_partial.
Print Assumptions C141_never_wrong.
Print Assumptions C141_high.
Print Assumptions C141_high_refuted.
Print Assumptions C141_crlf_partial.
Print Assumptions C141_crlf_refuted.
Print Assumptions C141_header_partial.
Print Assumptions C141_header_refuted.
Print Assumptions C141_malformed_refuted.
Print Assumptions C141_cut_short.
