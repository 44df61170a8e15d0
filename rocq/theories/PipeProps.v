(** C129: streams made from streams. *)
From Verif Require Import Base Pipe PipeSpec PipeProofs PipeRun PipeBuild PipeAll PipeAllSpec PipeAllProofs PipeExamples.

(** A stream made from others by [,], select:, reject:, collect:, lines and with: answers
    atEnd, next, peek, peekFor:, position and nextLine, in any order, like a stream on the
    list of its objects.  Full statement: for every expression and all messages; what is
    missing is in [fine] and [may_all], and the theorems below show why. *)
Theorem C129_history_partial : forall fuel e ops,
  fine e -> may_all e ops (meaning e) -> (size e < fuel)%nat ->
  exists s s', build fuel e = Ok s /\ run_all fuel ops s = Ok (answers ops (meaning e) 0, s').
Proof. exact history. Qed.
Print Assumptions C129_history_partial.
Example C129_history_ex : fine pipeline /\ may_all pipeline messages (meaning pipeline) /\ (size pipeline < 40)%nat
  /\ answers messages (meaning pipeline) 0 = [Atom 1; Atom 1; Atom 1; Atom 3; Flag false; Atom 8; Atom 10; Atom 4; Nil; Flag true].
Proof.
  destruct pipeline_fine as (A & B & C). split; [exact A|]. split; [exact B|]. split; [exact C|]. exact pipeline_answers.
Qed.

(** Lines that end with LF or CR LF, when they contain neither nor nil, are found again. *)
Theorem C129_lines : forall fuel n ls ends,
  Forall (fun p => p = [LF] \/ p = [CR; LF]) ends -> length ends = length ls ->
  Forall (Forall (fun c => same c CR = false /\ same c LF = false /\ same c Nil = false)) ls ->
  let text := concat (map (fun p => fst p ++ snd p) (combine ls ends)) in
  (size (ByLine (From text)) < fuel)%nat -> (length ls < n)%nat ->
  exists s, build fuel (ByLine (From text)) = Ok s /\ do_all fuel n s = Ok (map Tuple ls).
Proof.
  intros fuel n ls ends F L P text N K. destruct (build_ok fuel (ByLine (From text)) (conj I I) (Nat.lt_le_incl _ _ N)) as (s & E & S & _).
  exists s. split; [exact E|]. cbn [meaning] in S. unfold text in S at 2. rewrite (lines_join ends ls F L P) in S.
  apply (do_all_ok fuel _ N n s _ _ S). rewrite map_length. exact K.
Qed.
Print Assumptions C129_lines.
Example C129_lines_ex : Forall (fun p => p = [LF] \/ p = [CR; LF]) [[LF]; [CR; LF]; [LF]] /\
  Forall (Forall (fun c => same c CR = false /\ same c LF = false /\ same c Nil = false)) [[Atom 65]; []; [Atom 66; Atom 67]]
  /\ concat (map (fun p => fst p ++ snd p) (combine [[Atom 65]; []; [Atom 66; Atom 67]] [[LF]; [CR; LF]; [LF]]))
     = [Atom 65; LF; CR; LF; Atom 66; Atom 67; LF].
Proof. split; [|split]; repeat (constructor; auto). Qed.

(** [(s collect: f) peekFor: x] fails instead of comparing. *)
Theorem C129_collect_peekFor_refuted : exists e x, forall fuel, (4 <= fuel)%nat ->
  exists s, build fuel e = Ok s /\ run fuel (PeekFor x) s = Err /\ answer (PeekFor x) (meaning e) 0 = Flag true.
Proof. do 2 eexists. exact collect_peek_for. Qed.
Print Assumptions C129_collect_peekFor_refuted.

(** [(s with: t) peekFor: x] fails exactly when it should answer true. *)
Theorem C129_with_peekFor_refuted : exists e x, forall fuel, (6 <= fuel)%nat ->
  exists s, build fuel e = Ok s /\ run fuel (PeekFor x) s = Err /\ answer (PeekFor x) (meaning e) 0 = Flag true.
Proof. do 2 eexists. exact tuple_peek_for. Qed.
Print Assumptions C129_with_peekFor_refuted.

(** [(s select: p) peekFor: x] answers false for an equal object that is not the same. *)
Theorem C129_select_peekFor_refuted : exists e x, forall fuel, (6 <= fuel)%nat ->
  exists s s', build fuel e = Ok s /\ run fuel (PeekFor x) s = Ok (Flag false, s') /\ answer (PeekFor x) (meaning e) 0 = Flag true.
Proof. do 2 eexists. exact filter_peek_for. Qed.
Print Assumptions C129_select_peekFor_refuted.

(** [a , b , collection] is made, but fails when reading reaches the collection. *)
Theorem C129_concatenate_collection_refuted : exists e x y, forall fuel, (12 <= fuel)%nat ->
  exists s s', build fuel e = Ok s /\ run fuel Next s = Ok (x, s') /\ run fuel Next s' = Err /\ meaning e = [x; y].
Proof. do 3 eexists. exact cat_items. Qed.
Print Assumptions C129_concatenate_collection_refuted.

(** [(s select: p) with: t] cannot be made. *)
Theorem C129_select_with_refuted : exists l p l', forall fuel, (6 <= fuel)%nat -> build fuel (Zip (Select (From l) p) (From l')) = Err.
Proof. do 3 eexists. exact filter_with. Qed.
Print Assumptions C129_select_with_refuted.

(** next at the end of [s with: t] takes an object from s all the same: two messages gave
    one object, the position is 2. *)
Theorem C129_with_position_refuted : exists e x, forall fuel, (8 <= fuel)%nat ->
  exists s s', build fuel e = Ok s /\ run_all fuel [Next; Next; Position] s = Ok ([x; Nil; Atom 2], s') /\ meaning e = [x].
Proof.
  exists (Zip (From [Atom 1; Atom 2]) (From [Atom 3])), (Tuple [Atom 1; Atom 3]).
  intros fuel H. destruct (tuple_position fuel H) as (s & s' & A & B). exists s, s'. split; [exact A|]. split; [exact B|]. reflexivity.
Qed.
Print Assumptions C129_with_position_refuted.

(** next at the end of [s lines] answers an empty line and not nil. *)
Theorem C129_lines_end_refuted : exists e, meaning e = [] /\ forall fuel, (8 <= fuel)%nat ->
  exists s s', build fuel e = Ok s /\ run fuel Next s = Ok (Tuple [], s').
Proof. exists (ByLine (From [])). split; [reflexivity|]. exact line_end. Qed.
Print Assumptions C129_lines_end_refuted.

(** [(s collect: f) lines] fails at a CR. *)
Theorem C129_collect_lines_refuted : exists l f, forall fuel, (8 <= fuel)%nat ->
  exists s, build fuel (ByLine (Map (From l) f)) = Ok s /\ run fuel Next s = Err.
Proof. do 2 eexists. exact collect_lines. Qed.
Print Assumptions C129_collect_lines_refuted.

(** The comparison by which peekFor:, upTo: and splitAt: find an object is equality, also of the
    nested arrays that with: makes. *)
Theorem C129_equality : forall a b, eqb a b = true <-> a = b.
Proof. exact eqb_eq. Qed.
Print Assumptions C129_equality.
Example C129_equality_ex : eqb (Tuple [Atom 1; Tuple [Nil]]) (Tuple [Atom 1; Tuple [Flag true]]) = false.
Proof. reflexivity. Qed.
