(** Theorems about the memory allocator (C126, C127). *)
From Verif Require Import Base Alloc AllocSpec AllocPut AllocExamples.

(** The pieces of memory that a client holds never overlap each other or the
    memory that is free, are aligned and not at 0; whatever was allocated,
    returned and resized before, and whatever addresses the system chose. *)
Theorem C126_sound : forall os chunk limit ops s live, honest os -> (4096 | chunk) ->
  run os chunk limit init [] ops s live ->
  sound live /\ Forall (fun x => Forall (separate x) (prim s)) live.
Proof. intros os chunk limit ops s live HO HC R. exact (run_sound os chunk limit HO HC ops s live R). Qed.
Print Assumptions C126_sound.

(** Seven operations with a system that gives addresses in order. *)
Example C126_history : honest bump /\ (4096 | 262144)
  /\ run bump 262144 0 init [] history after_history [(24592, 5000); (266256, 5000); (12304, 10000)].
Proof. split; [exact bump_honest|]. split; [exists 64; reflexivity|]. exact history_run. Qed.

(** A client that keeps to the rules never makes the allocator abort or do
    anything undefined, unless it makes a piece larger when the heap has a
    limit. *)
Theorem C126_safe : forall os chunk limit ops s live o, honest os -> (4096 | chunk) ->
  run os chunk limit init [] ops s live -> allowed live o ->
  (exists r, step os chunk limit s live o = Ok r) \/ step os chunk limit s live o = Err
  \/ (step os chunk limit s live o = UB /\ limit <> 0 /\ exists mem sz, o = ORealloc mem sz).
Proof. intros os chunk limit ops s live o HO HC R. exact (run_safe os chunk limit HO HC ops s live R o). Qed.
Print Assumptions C126_safe.

Example C126_next : allowed [(24592, 5000); (266256, 5000); (12304, 10000)] (ORealloc 12304 2000000)
  /\ exists r, step bump 262144 0 after_history [(24592, 5000); (266256, 5000); (12304, 10000)] (ORealloc 12304 2000000) = Ok r
     /\ snd r = [(274448, 2000000); (24592, 5000); (266256, 5000)].
Proof.
  split; [split; [right; cbn; tauto|unfold LARGEST; lia]|]. eexists. split; [vm_compute; reflexivity|vm_compute; reflexivity].
Qed.

(** In that case it is: memory is copied to address 0. *)
Theorem C126_realloc_refuted : exists os chunk limit ops s live mem sz, honest os /\ (4096 | chunk) /\ run os chunk limit init [] ops s live
  /\ allowed live (ORealloc mem sz) /\ step os chunk limit s live (ORealloc mem sz) = UB.
Proof. exact realloc_null. Qed.
Print Assumptions C126_realloc_refuted.

(** Without a limit a request is only refused if the system refuses it (which
    ends the program, Err) ... *)
Theorem C126_served : forall os chunk limit ops s live sz s', honest os -> (4096 | chunk) ->
  run os chunk limit init [] ops s live -> limit = 0 -> 0 <= sz <= LARGEST ->
  mem_alloc os chunk limit s sz <> Ok (None, s').
Proof. intros os chunk limit ops s live sz s' HO HC R. exact (run_served os chunk limit HO HC ops s live R sz s'). Qed.
Print Assumptions C126_served.

(** ... and a piece that is resized is not lost. *)
Theorem C126_kept : forall os chunk limit ops s live mem sz r s', honest os -> (4096 | chunk) ->
  run os chunk limit init [] ops s live -> limit = 0 -> (mem = 0 \/ In mem (map fst live)) -> 0 < sz <= LARGEST ->
  mem_realloc os chunk limit s mem sz = Ok (r, s') -> r <> None.
Proof. intros os chunk limit ops s live mem sz r s' HO HC R. exact (run_kept os chunk limit HO HC ops s live R mem sz r s'). Qed.
Print Assumptions C126_kept.

(** A limit is kept. *)
Theorem C126_limit : forall os chunk limit ops s live, honest os -> (4096 | chunk) ->
  run os chunk limit init [] ops s live -> 0 < limit -> sum (map extent (blocks s)) <= limit.
Proof.
  intros os chunk limit ops s live HO HC R H. rewrite <- (proj1 (run_total os chunk limit HO HC ops s live R)).
  exact (proj2 (run_limit os chunk limit HO HC ops s live R H)).
Qed.
Print Assumptions C126_limit.

(** A heap of two pages, in use. *)
Example C126_two : run bump 262144 8192 init [] [OAlloc 3000; OAlloc 3000] two_pages [(8240, 3000); (4144, 3000)]
  /\ sum (map extent (blocks two_pages)) = 8192.
Proof. split; [exact limit_run|reflexivity]. Qed.

(** When all has been returned nothing is in use, heap_total and mmap_count are
    0, and all the memory that was got to be divided is free, without two
    blocks that touch. *)
Theorem C127_returned : forall os chunk limit ops s, honest os -> (4096 | chunk) ->
  run os chunk limit init [] ops s [] ->
  blocks s = [] /\ total s = 0 /\ mmaps s = 0 /\ coalesced (prim s) /\ sum (prim s) = arena s.
Proof. intros os chunk limit ops s HO HC R. exact (run_returned os chunk limit HO HC ops s [] R eq_refl). Qed.
Print Assumptions C127_returned.

(** The history above, and all returned: the chunk is whole again. *)
Example C127_whole : run bump 262144 0 init [] (history ++ the_end) after_all [] /\ prim after_all = [(4096, 262144)].
Proof. split; [exact whole_run|reflexivity]. Qed.

(** None of that memory is ever lost, ... *)
Theorem C127_kept : forall os chunk limit ops s live ops' s' live', honest os -> (4096 | chunk) ->
  run os chunk limit init [] ops s live -> run os chunk limit s live ops' s' live' -> arena s <= arena s'.
Proof. intros os chunk limit ops s live ops' s' live' HO HC R. exact (run_more os chunk limit HO HC ops s live R ops' s' live'). Qed.
Print Assumptions C127_kept.

Example C127_arena : arena after_history = 262144 /\ arena after_all = 262144.
Proof. split; vm_compute; reflexivity. Qed.

(** ... and heap_total and mmap_count are right. *)
Theorem C127_total : forall os chunk limit ops s live, honest os -> (4096 | chunk) -> run os chunk limit init [] ops s live ->
  total s = sum (map extent (blocks s)) /\ mmaps s = Z.of_nat (length (filter (fun x => negb (shared x)) (blocks s))).
Proof. intros os chunk limit ops s live HO HC R. exact (run_total os chunk limit HO HC ops s live R). Qed.
Print Assumptions C127_total.

(** But 4 Gb that are returned are not given back: _gst_mem_free keeps the size
    in an int. *)
Theorem C127_large_refuted : exists os chunk limit sz s s' mem, honest os /\ (4096 | chunk)
  /\ mem_alloc os chunk limit init sz = Ok (Some mem, s) /\ mem_free s mem = Ok s' /\ blocks s' = [] /\ total s' = sz /\ 0 < sz.
Proof. exact large_lost. Qed.
Print Assumptions C127_large_refuted.
