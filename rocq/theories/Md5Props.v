(** C133: the MD5 digest. *)
From Verif Require Import Base Digest Md5 DigestSpec DigestProofs Md5Proofs.
Local Open Scope Z_scope.

(** Whatever the buffer of the context holds at first and however the message is cut into the
    Strings that are put one after the other, no access leaves the buffer and the digest is the
    one of RFC 1321. *)
Theorem C133_digest : forall junk chunks, length junk = 128%nat ->
  Forall (fun d => Z.of_nat (length d) < 2 ^ 32) chunks ->
  exists d, md5_digest junk chunks = Ok d /\ md5_of (concat chunks) d.
Proof. exact digest_ok. Qed.
Print Assumptions C133_digest.

Example C133_digest_ex :
  md5_digest (repeat 7 128) [[97]; []; [98; 99]] =
    Ok [0x90; 0x01; 0x50; 0x98; 0x3c; 0xd2; 0x4f; 0xb0; 0xd6; 0x96; 0x3f; 0x7d; 0x28; 0xe1; 0x7f; 0x72].
Proof. vm_compute. reflexivity. Qed.

(** RFC 1321 gives a message one digest. *)
Theorem C133_one : forall m d d', md5_of m d -> md5_of m d' -> d = d'.
Proof. intros m d d'. exact (hash_unique _ _ _ _ m d d'). Qed.
Print Assumptions C133_one.

(** Only the bytes count, not how they are cut. *)
Theorem C133_cut : forall junk junk' chunks chunks', length junk = 128%nat -> length junk' = 128%nat ->
  Forall (fun d => Z.of_nat (length d) < 2 ^ 32) chunks -> Forall (fun d => Z.of_nat (length d) < 2 ^ 32) chunks' ->
  concat chunks = concat chunks' -> md5_digest junk chunks = md5_digest junk' chunks'.
Proof. exact same_digest. Qed.
Print Assumptions C133_cut.

(** The same for what is read from a stream. *)
Theorem C133_stream : forall junk l, length junk = 128%nat ->
  exists d, md5_digest junk (pieces (S (length l)) l) = Ok d /\ md5_of l d.
Proof. exact stream_ok. Qed.
Print Assumptions C133_stream.

Example C133_stream_ex : map (@length Z) (pieces 3000 (repeat 1 2500)) = [1024; 1024; 452]%nat.
Proof. vm_compute. reflexivity. Qed.

(** A digest has 16 bytes, and the hexadecimal one reads as it. *)
Theorem C133_hex : forall m d, md5_of m d -> length d = 16%nat /\ reads_as (hex_digest d) d.
Proof. exact md5_of_hex. Qed.
Print Assumptions C133_hex.

Example C133_hex_ex : hex_digest [0x90; 0x01; 0x50; 0xfa] = [57; 48; 48; 49; 53; 48; 102; 97].
Proof. vm_compute. reflexivity. Qed.
