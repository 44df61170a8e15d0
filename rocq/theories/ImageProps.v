(** Properties of saved images. *)
From Verif Require Import Base Image ImageSpec ImageIO ImageProofs ImageLoad ImageFindings.
Local Open Scope Z_scope.

(** C37: an image that has been saved loads, at every address, as the same
    graph of objects, up to what saving resets on purpose. *)
Theorem C37_same_graph r m e vers sets sums junk :
  good_memory r m -> word vers -> word junk -> Forall word sets -> length sets = 6%nat ->
  Forall word sums -> length sums = 2%nat ->
  exists k, forall fuel, (k <= fuel)%nat -> exists file,
    (forall results, save_to_fd fuel results e vers sets sums junk r m = Ok file
       \/ (save_to_fd fuel results e vers sets sums junk r m = Err /\ exists j, results j <= 0))
    /\ forall sigsegv map_ vers' nilc base', vers <= vers' -> good_base base' (len (table m)) ->
       (map_ = true -> len file < 2 ^ 31) ->
       exists h m', load_snapshot sigsegv map_ e vers' nilc base' file = Ok (Some (h, m'))
         /\ version h = vers /\ settings h = sets /\ md5 h = sums
         /\ ot_base m' = base' /\ same_image (names (ot_base m) r) (view e m) (view e m').
Proof. exact (same_order_ok r m e vers sets sums junk). Qed.
Print Assumptions C37_same_graph.

Example C37_example : good_memory known image /\ good_base 131072 (len (table image))
  /\ len (bytes_saved 1 false) < 2 ^ 31.
Proof. split; [exact image_good|]. split; [vm_compute; intuition congruence|reflexivity]. Qed.

(** C83: the same holds on a machine with the other byte order if the file is not
    mapped or the address differs.  Missing: the case of the next theorem. *)
Theorem C83_other_order_partial r m e vers sets sums junk :
  good_memory r m -> word vers -> word junk -> Forall word sets -> length sets = 6%nat ->
  Forall word sums -> length sums = 2%nat ->
  exists k, forall fuel, (k <= fuel)%nat -> exists file,
    (forall results, save_to_fd fuel results e vers sets sums junk r m = Ok file
       \/ (save_to_fd fuel results e vers sets sums junk r m = Err /\ exists j, results j <= 0))
    /\ forall sigsegv map_ e' vers' nilc base', vers <= vers' -> good_base base' (len (table m)) ->
       (map_ = true -> len file < 2 ^ 31) ->
       (e = e' \/ sigsegv = false \/ map_ = false \/ base' <> ot_base m) ->
       exists h m', load_snapshot sigsegv map_ e' vers' nilc base' file = Ok (Some (h, m'))
         /\ version h = vers /\ settings h = sets /\ md5 h = sums
         /\ ot_base m' = base' /\ same_image (names (ot_base m) r) (view e m) (view e' m').
Proof. exact (image_ok r m e vers sets sums junk). Qed.
Print Assumptions C83_other_order_partial.

Example C83_example : good_memory known image /\ good_base 131072 (len (table image))
  /\ 131072 <> ot_base image /\ false <> true.
Proof. split; [exact image_good|]. split; [vm_compute; intuition congruence|]. split; discriminate. Qed.

(** mapped at the address where it was saved, such an image is used with its
    bytes in the wrong order *)
Theorem C83_mapped_refuted :
  exists r m file, good_memory r m
    /\ save_to_fd 20 (fun _ => 1000000) false 7 [1; 2; 3; 4; 5; 6] [8; 9] 0 r m = Ok file
    /\ load_snapshot true true true 7 (a 0) (ot_base m) file = UB.
Proof. exact other_order_mapped. Qed.
Print Assumptions C83_mapped_refuted.

(** elements of more than one byte change their values *)
Theorem C83_elements_refuted :
  exists r m file h m' i, good_memory r m
    /\ save_to_fd 20 (fun _ => 1000000) false 7 [1; 2; 3; 4; 5; 6] [8; 9] 0 r m = Ok file
    /\ load_snapshot true true true 7 (a 0) 131072 file = Ok (Some (h, m'))
    /\ numbers m i = Some [258; 2 ^ 63 + 5] /\ numbers m' i = Some [2 ^ 57 + 2 ^ 48; 5 * 2 ^ 56 + 128].
Proof. exact other_order_numbers. Qed.
Print Assumptions C83_elements_refuted.

(** C84: a semaphore on which only direct instances of Process and CallinProcess
    wait keeps the former in their order. *)
Theorem C84_queue_partial N g g' i n v l : same_image N g g' ->
  callin N <> process N -> callin N <> semaphore N -> process N <> semaphore N ->
  g i = Some n -> cls n = semaphore N -> Z.land (attributes n) 64 = 0 -> (2 <= length (pointers n))%nat ->
  nth_error (pointers n) 0 = Some v -> queue g v l ->
  (forall j p, In j l -> g j = Some p -> Z.land (attributes p) 64 = 0 /\ (cls p = process N \/ cls p = callin N)) ->
  exists n' l', g' i = Some n' /\ only (fun j => ~ is_callin N g j) l l'
    /\ nth_error (pointers n') 0 = Some (first_link l') /\ nth_error (pointers n') 1 = Some (last_link l')
    /\ queue g' (first_link l') l'.
Proof. exact (semaphore_saved N g g' i n v l). Qed.
Print Assumptions C84_queue_partial.

Example C84_example : exists n, view false image 8%nat = Some n /\ cls n = semaphore (names 65536 known)
  /\ nth_error (pointers n) 0 = Some (ref 9) /\ queue (view false image) (ref 9) [9; 10; 11]%nat
  /\ callin (names 65536 known) <> process (names 65536 known).
Proof. exact queue_example. Qed.

(** processes behind an instance of a subclass are lost *)
Theorem C84_queue_refuted :
  exists r m file h m' i n n' v l l', good_memory r m
    /\ save_to_fd 20 (fun _ => 1000000) false 7 [1; 2; 3; 4; 5; 6] [8; 9] 0 r m = Ok file
    /\ load_snapshot true true false 7 (a 0) 131072 file = Ok (Some (h, m'))
    /\ view false m i = Some n /\ cls n = semaphore (names (ot_base m) r)
    /\ nth_error (pointers n) 0 = Some v /\ queue (view false m) v l
    /\ only (fun j => ~ is_callin (names (ot_base m) r) (view false m) j) l l'
    /\ view false m' i = Some n'
    /\ forall v', nth_error (pointers n') 0 = Some v' -> ~ queue (view false m') v' l'.
Proof. exact queue_lost. Qed.
Print Assumptions C84_queue_refuted.

(** C85: after saving, the file is a whole image or there is none *)
Theorem C85_whole_or_none_partial r m e vers sets sums junk : good_memory r m -> word vers -> word junk ->
  Forall word sets -> length sets = 6%nat -> Forall word sums -> length sums = 2%nat ->
  exists k, forall fuel, (k <= fuel)%nat -> forall results opened old,
    (exists file, save_to_file fuel results opened e vers sets sums junk r m old = Ok (true, Some file)
       /\ forall map_ nilc base', good_base base' (len (table m)) -> (map_ = true -> len file < 2 ^ 31) ->
          exists h m', load_snapshot true map_ e vers nilc base' file = Ok (Some (h, m'))
            /\ same_image (names (ot_base m) r) (view e m) (view e m'))
    \/ (save_to_file fuel results opened e vers sets sums junk r m old = Ok (false, None)
        /\ (opened = false \/ exists j, results j <= 0)).
Proof. exact (no_partial_file r m e vers sets sums junk). Qed.
Print Assumptions C85_whole_or_none_partial.

Example C85_example : good_memory known image /\ word 7 /\ Forall word [1; 2; 3; 4; 5; 6] /\ Forall word [8; 9].
Proof. split; [exact image_good|]. unfold word. split; [lia|]. split; repeat constructor; lia. Qed.

(** but the image that was there before is lost when saving fails *)
Theorem C85_old_image_refuted :
  exists r m old results, good_memory r m
    /\ save_to_fd 20 (fun _ => 1000000) false 7 [1; 2; 3; 4; 5; 6] [8; 9] 0 r m = Ok old
    /\ save_to_file 20 results true false 7 [1; 2; 3; 4; 5; 6] [8; 9] 0 r m (Some old) = Ok (false, None).
Proof. exact image_destroyed. Qed.
Print Assumptions C85_old_image_refuted.

(** C86: a file without the signature is refused *)
Theorem C86_signature_partial sigsegv map_ big vers nilc base file :
  168 <= len file -> (map_ = true -> len file < 2 ^ 31) ->
  firstn 6 (skipn 64 file) <> [71; 83; 84; 73; 109; 0]
  -> load_snapshot sigsegv map_ big vers nilc base file = Ok None.
Proof. exact (not_an_image sigsegv map_ big vers nilc base file). Qed.
Print Assumptions C86_signature_partial.

Example C86_example : 168 <= len (repeat 7 200) /\ firstn 6 (skipn 64 (repeat 7 200)) <> [71; 83; 84; 73; 109; 0].
Proof. split; [vm_compute|]; discriminate. Qed.

(** a file that ends too early is not *)
Theorem C86_truncated_refuted :
  exists r m file n, good_memory r m
    /\ save_to_fd 20 (fun _ => 1000000) false 7 [1; 2; 3; 4; 5; 6] [8; 9] 0 r m = Ok file
    /\ (n < length file)%nat
    /\ load_snapshot true true false 7 (a 0) (ot_base m) (firstn n file) = UB.
Proof. exact truncated_loaded. Qed.
Print Assumptions C86_truncated_refuted.
