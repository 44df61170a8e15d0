(** C140: what was encoded in base 64 is decoded to the same bytes. *)
From Verif Require Import Base Base64 Base64Spec Base64Proofs Base64Run.
Import ListNotations.
Local Open Scope Z_scope.

(** Texts of one line or two, with any number of newlines at the end. *)
Theorem C140_decode : forall t b n tr, text t b n -> (n <= 1)%nat -> decode (t ++ repeat 10 tr) = Ok b.
Proof. exact decode_plain. Qed.
Print Assumptions C140_decode.

(** Texts of any number of lines: the bytes, and then zeros. *)
Theorem C140_zeros : forall t b n tr, text t b n -> decode (t ++ repeat 10 tr) = Ok (b ++ repeat 0 (3 * n / 4)%nat).
Proof. exact decode_ok. Qed.
Print Assumptions C140_zeros.

(** FINDING: the size of the answer is computed from that of the text with its newlines
    (packages/net/MIME.st:2976): a text of three lines or more is decoded to more bytes than were
    encoded. *)
Theorem C140_lines_refuted : exists t b n, text t b n /\ decode t = Ok (b ++ [0]).
Proof. exact decode_lines. Qed.
Print Assumptions C140_lines_refuted.

(** FINDING: the text of no bytes is an error: the search for the end of the text leaves the String
    (packages/net/MIME.st:2970). *)
Theorem C140_empty_refuted : exists t, t = [] /\ decode t = Err.
Proof. exists []. split; [reflexivity|exact decode_empty]. Qed.
Print Assumptions C140_empty_refuted.

(** Cases that meet the hypotheses: the bytes of "Hello" on one line, and on two. *)
Example C140_text_case : text [83; 71; 86; 115; 98; 71; 56; 61] [72; 101; 108; 108; 111] 0.
Proof.
  apply (More 72 101 108 0 (group2 108 111) [108; 111] 0); try (unfold byte; lia). apply T2; unfold byte; lia.
Qed.

Example C140_lines_case : text [83; 71; 86; 115; 10; 98; 71; 56; 61] [72; 101; 108; 108; 111] 1 /\
  decode [83; 71; 86; 115; 10; 98; 71; 56; 61; 10; 10] = Ok [72; 101; 108; 108; 111].
Proof.
  split; [|vm_compute; reflexivity].
  apply (More 72 101 108 1 (group2 108 111) [108; 111] 0); try (unfold byte; lia). apply T2; unfold byte; lia.
Qed.
