(** Theorems about streams. *)
From Coq Require Import ZArith List Bool Lia.
From Verif Require Import Base Hashed StrmSpec Strm StrmRun StrmProofs StrmSearch StrmSearchProofs.
Import ListNotations.
Local Open Scope Z_scope.

(** C38: the answers to every history of messages are those of a sequence
    with a cursor *)
Theorem C38_cursor : forall (A : Type) (nilA : A) (eqb : A -> A -> bool) l os,
  (forallb (understands KRead) os = true ->
     srun nilA eqb os (readOn l) = Ok (shistory eqb KRead os l 0)) /\
  (forallb (understands KWrite) os = true ->
     srun nilA eqb os (writeOn l) = Ok (shistory eqb KWrite os [] 0) /\
     srun nilA eqb os (writeWith l) = Ok (shistory eqb KWrite os l (length l))) /\
  (forallb (understands KReadWrite) os = true ->
     srun nilA eqb os (rwOn l) = Ok (shistory eqb KReadWrite os l 0) /\
     srun nilA eqb os (rwWith l) = Ok (shistory eqb KReadWrite os l (length l))).
Proof. exact @streams_ok. Qed.
Print Assumptions C38_cursor.

Example C38_cursor_ex :
  let os := [OPutAll [1;2;3;4;5;6;7;8;9;10;11]; OPutN 3 12; OSkip (-5); OPeek; OPut 7; ONextN 2;
             OReset; OSkipTo 3; OPeekFor 4; OPeekFor 4; OPosition; OTruncate; OContents; ONext] in
  forallb (understands KReadWrite) os = true /\
  shistory Z.eqb KReadWrite os [] 0 =
    [SDone; SElt 12; SDone; SElt 10; SElt 7; SElts [11;12]; SDone; SBool true; SBool true;
     SBool false; SNum 4; SDone; SElts [1;2;3;4]; SNil].
Proof. split; vm_compute; reflexivity. Qed.

(** C38: what was written, and nothing else, is read back *)
Theorem C38_round_trip : forall (A : Type) (nilA : A) (eqb : A -> A -> bool) l os rs,
  forallb (understands KWrite) os = true -> forallb (understands KRead) rs = true ->
  let '(l', c') := sfinal eqb KWrite os [] 0 in
  exists s r, sexec nilA eqb os (writeOn l) = Ok s /\ contents s = Ok (firstn c' l') /\
    readStream s = Ok r /\ srun nilA eqb rs r = Ok (shistory eqb KRead rs (firstn c' l') 0).
Proof. exact @write_then_read. Qed.
Print Assumptions C38_round_trip.

Example C38_round_trip_ex :
  let os := [OPutAll [1;2;3;4;5;6;7;8;9]; OPut 10; OSkip (-2)] in
  let rs := [ONextN 7; OUpToEnd; OAtEnd] in
  forallb (understands KWrite) os = true /\ forallb (understands KRead) rs = true /\
  let '(l', c') := sfinal Z.eqb KWrite os [] 0 in
  shistory Z.eqb KRead rs (firstn c' l') 0 = [SElts [1;2;3;4;5;6;7]; SElts [8]; SBool true].
Proof. repeat split. Qed.

(** C63: the range asked for is ignored *)
Theorem C63_refuted : exists s,
  rwOnTo [1;2;3;4] 2 = Ok s /\ contents s = Ok [1;2;3;4] /\
  srun 0 Z.eqb [OUpToEnd] s = Ok [SElts [1;2;3;4]].
Proof. eexists. repeat split; vm_compute; reflexivity. Qed.
Print Assumptions C63_refuted.

(** C64: false of ReadWriteStreams (below); true of WriteStreams
    ([C38_round_trip]) and of ReadStreams: *)
Theorem C64_partial : forall (A : Type) (nilA : A) (eqb : A -> A -> bool) l os rs,
  forallb (understands KRead) os = true -> forallb (understands KRead) rs = true ->
  exists s r, sexec nilA eqb os (readOn l) = Ok s /\
    readStream s = Ok r /\ srun nilA eqb rs r = Ok (shistory eqb KRead rs l 0).
Proof. exact @read_read. Qed.
Print Assumptions C64_partial.

Example C64_partial_ex :
  let os : list (sop Z) := [ONext; ONext] in let rs := [ONext; OUpToEnd] in
  forallb (understands KRead) os = true /\ forallb (understands KRead) rs = true /\
  shistory Z.eqb KRead rs [1;2;3] 0 = [SElt 1; SElts [2;3]].
Proof. repeat split. Qed.

Theorem C64_refuted : exists r,
  contents (rwOn [1;2;3]) = Ok [1;2;3] /\
  readStream (rwOn [1;2;3]) = Ok r /\ contents r = Ok [].
Proof. eexists. repeat split; vm_compute; reflexivity. Qed.
Print Assumptions C64_refuted.

(** C65: upTo: of a stream that ends where its collection ends *)
Theorem C65_partial : forall (A : Type) (nilA : A) (eqb : A -> A -> bool) k l c x,
  k <> KWrite -> (c <= length l)%nat ->
  let s := ST l (Z.of_nat c + 1) (csize l) (code k) in
  let '(n, b) := count_to eqb x (skipn c l) in
  exists s', upTo nilA eqb x s = Ok (SElts (firstn (if b then n - 1 else n) (skipn c l)), s') /\
    s' = ST l (Z.of_nat (c + n) + 1) (csize l) (code k).
Proof. exact @upTo_ok. Qed.
Print Assumptions C65_partial.

Example C65_partial_ex :
  readOn [1;2;3;4] = ST [1;2;3;4] (Z.of_nat 0 + 1) (csize [1;2;3;4]) (code KRead) /\
  count_to Z.eqb 3 (skipn 0 [1;2;3;4]) = (3%nat, true).
Proof. split; reflexivity. Qed.

(** but the search goes on beyond the end of the stream: for a stream on the
    first two of four elements the answer to [upTo: 4] should be those two,
    and it is an error; after [truncate] it sees elements that are gone *)
Theorem C65_refuted :
  (exists s s', readOnTo [1;2;3;4] 2 = Ok s /\ contents s = Ok [1;2] /\
     upTo 0 Z.eqb 4 s = Ok (SError, s')) /\
  (exists s s' s'', sexec 0 Z.eqb [OSetPosition 2; OTruncate; OReset] (rwOn [1;2;3;4]) = Ok s /\
     contents s = Ok [1;2] /\ upTo 0 Z.eqb 4 s = Ok (SError, s') /\
     upTo 0 Z.eqb 5 s = Ok (SElts [1;2], s'')).
Proof. split; [do 2 eexists|do 3 eexists]; repeat split; vm_compute; reflexivity. Qed.
Print Assumptions C65_refuted.

(** C66: whenever a sequence is said to be found it is there *)
Theorem C66_sound_partial : forall (A : Type) (eqb : A -> A -> bool),
  (forall x y, eqb x y = true <-> x = y) ->
  forall p l n, p <> [] -> skipToAll eqb p l = Ok (true, n) ->
  (length p <= n <= length l)%nat /\ occurs_at p l (n - length p).
Proof. exact @skipToAll_sound. Qed.
Print Assumptions C66_sound_partial.

Example C66_sound_partial_ex :
  [1;2;1] <> [] /\ skipToAll Z.eqb [1;2;1] [1;1;2;1;3] = Ok (true, 4%nat) /\
  occurs_at [1;2;1] [1;1;2;1;3] 1.
Proof. split; [discriminate|]. split; reflexivity. Qed.

(** and the first occurrence of two or more elements is found, if the first
    of them does not recur among them (except possibly as the last) *)
Theorem C66_partial : forall (A : Type) (eqb : A -> A -> bool),
  (forall x y, eqb x y = true <-> x = y) ->
  forall p l, (2 <= length p)%nat -> head_once p ->
  (exists b n, skipToAll eqb p l = Ok (b, n) /\
    (b = true -> (length p <= n)%nat /\ first_occurrence p l (n - length p)) /\
    (b = false -> n = length l /\ forall i, ~ occurs_at p l i)) /\
  (forall i, first_occurrence p l i -> upToAll eqb p l = Ok (firstn i l, (i + length p)%nat)) /\
  ((forall i, ~ occurs_at p l i) -> upToAll eqb p l = Ok (l, length l)).
Proof.
  exact (fun A eqb ok p l H1 H2 =>
    conj (skipToAll_complete eqb ok p l H1 H2) (upToAll_complete eqb ok p l H1 H2)).
Qed.
Print Assumptions C66_partial.

Example C66_partial_ex :
  (2 <= length [1;2;3;1])%nat /\ head_once [1;2;3;1] /\
  upToAll Z.eqb [1;2;3;1] [1;2;1;2;3;1;5] = Ok ([1;2], 6%nat).
Proof.
  split; [cbn; lia|]. split; [|reflexivity].
  intros x [= <-] k Hk. cbn in Hk. destruct k as [|[|[|k]]]; cbn; try lia; discriminate.
Qed.

(** the empty sequence is found at once if there is something to read *)
Theorem C66_empty_partial : forall (A : Type) (eqb : A -> A -> bool) l, l <> [] ->
  exists i, skipToAll eqb [] l = Ok (true, i) /\ first_occurrence [] l i /\
    upToAll eqb [] l = Ok (firstn i l, i).
Proof. exact @search_empty. Qed.
Print Assumptions C66_empty_partial.

(** In general it is missed, for instance 1 1 2 in 1 1 1 2, and in the very
    example of the comment ('aabab' in 'aabaabab'); and a sequence of one
    element is an error.  The empty sequence is not found in an empty stream. *)
Theorem C66_refuted :
  (first_occurrence (@nil Z) [] 0 /\ skipToAll Z.eqb [] [] = Ok (false, 0%nat)) /\
  (first_occurrence [1;1;2] [1;1;1;2] 1 /\
     skipToAll Z.eqb [1;1;2] [1;1;1;2] = Ok (false, 4%nat) /\
     upToAll Z.eqb [1;1;2] [1;1;1;2] = Ok ([1;1;1;2], 4%nat)) /\
  (occurs_at [1;1;2;1;2] [1;1;2;1;1;2;1;2] 3 /\
     skipToAll Z.eqb [1;1;2;1;2] [1;1;2;1;1;2;1;2] = Ok (false, 8%nat)) /\
  (forall x y l, skipToAll Z.eqb [x] (y :: l) = Err /\ upToAll Z.eqb [x] (y :: l) = Err).
Proof.
  split; [|split; [|split]].
  - split; [|reflexivity]. split; [cbn; lia|]. split; [reflexivity|]. intros j Hj. lia.
  - split; [|split; vm_compute; reflexivity].
    split; [cbn; lia|]. split; [reflexivity|].
    intros j Hj. assert (j = 0%nat) as -> by lia. discriminate.
  - split; vm_compute; reflexivity.
  - split; reflexivity.
Qed.
Print Assumptions C66_refuted.

(** C67: with the cursor at the end of what was written *)
Theorem C67_partial : forall (A : Type) (nilA : A) (eqb : A -> A -> bool) l os,
  forallb (understands KWrite) os = true ->
  let '(l', c') := sfinal eqb KWrite os [] 0 in c' = length l' ->
  exists s, sexec nilA eqb os (writeOn l) = Ok s /\ reverseContents nilA s = Ok (rev l').
Proof. exact @reverse_history. Qed.
Print Assumptions C67_partial.

Example C67_partial_ex :
  let os := [OPutAll [1;2;3]; OReset; OPut 5; OSetToEnd; OPut 4] in
  forallb (understands KWrite) os = true /\ sfinal Z.eqb KWrite os [] 0 = ([5;2;3;4], 4%nat).
Proof. split; reflexivity. Qed.

Theorem C67_refuted :
  reverseContents 0 (rwOn [1;2;3]) = Err /\
  exists s, sexec 0 Z.eqb [OPutAll [1;2;3]; OSkip (-1)] (writeOn []) = Ok s /\
    contents s = Ok [1;2] /\ reverseContents 0 s = Err.
Proof. split; [reflexivity|]. eexists. repeat split; vm_compute; reflexivity. Qed.
Print Assumptions C67_refuted.
