(** C134: the SHA-1 digest. *)
From Verif Require Import Base Digest Sha1 DigestSpec DigestProofs Sha1Proofs.
From Verif Require Md5Proofs.
Local Open Scope Z_scope.

(** Whatever the buffer of the context holds at first, however the message is cut into the Strings
    that are put one after the other and wherever they lie in memory, no access leaves the buffer
    and the digest is the one of RFC 3174. *)
Theorem C134_digest : forall junk chunks, length junk = 128%nat ->
  Forall (fun d => Z.of_nat (length (snd d)) < 2 ^ 32) chunks ->
  Forall (fun b => 0 <= b < 256) (concat (map snd chunks)) ->
  exists d, sha1_digest junk chunks = Ok d /\ sha1_of (concat (map snd chunks)) d.
Proof. exact digest_ok. Qed.
Print Assumptions C134_digest.

Example C134_digest_ex :
  sha1_digest (repeat 7 128) [(false, [97]); (true, []); (false, [98; 99])] =
    Ok [0xa9; 0x99; 0x3e; 0x36; 0x47; 0x06; 0x81; 0x6a; 0xba; 0x3e; 0x25; 0x71; 0x78; 0x50; 0xc2; 0x6c; 0x9c; 0xd0; 0xd8; 0x9d].
Proof. vm_compute. reflexivity. Qed.

(** RFC 3174 gives a message one digest. *)
Theorem C134_one : forall m d d', sha1_of m d -> sha1_of m d' -> d = d'.
Proof. intros m d d'. exact (Md5Proofs.hash_unique _ _ _ _ m d d'). Qed.
Print Assumptions C134_one.

(** Only the bytes count, not how they are cut nor where they lie. *)
Theorem C134_cut : forall junk junk' chunks chunks', length junk = 128%nat -> length junk' = 128%nat ->
  Forall (fun d => Z.of_nat (length (snd d)) < 2 ^ 32) chunks -> Forall (fun d => Z.of_nat (length (snd d)) < 2 ^ 32) chunks' ->
  Forall (fun b => 0 <= b < 256) (concat (map snd chunks)) ->
  concat (map snd chunks) = concat (map snd chunks') -> sha1_digest junk chunks = sha1_digest junk' chunks'.
Proof. exact same_digest. Qed.
Print Assumptions C134_cut.

Example C134_cut_ex :
  sha1_digest (repeat 7 128) [(true, repeat 97 130)] = sha1_digest (repeat 0 128) [(false, repeat 97 64); (false, repeat 97 66)].
Proof. vm_compute. reflexivity. Qed.

(** A digest has 20 bytes, and the hexadecimal one reads as it. *)
Theorem C134_hex : forall m d, sha1_of m d -> length d = 20%nat /\ reads_as (hex_digest d) d.
Proof. exact sha1_of_hex. Qed.
Print Assumptions C134_hex.

Example C134_hex_ex : hex_digest [0xa9; 0x99; 0x3e; 0x36] = [97; 57; 57; 57; 51; 101; 51; 54].
Proof. vm_compute. reflexivity. Qed.
