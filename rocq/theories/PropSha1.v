(** PropSha1: property C60 (the hash function itself) *)
From Verif Require Import Base ModelMessages ModelTorrent ModelSha1 SpecMessages SpecTorrent SpecSha1 ProofSha1.

(** C60: a digest has twenty bytes, so a handshake for any torrent description has 68. *)
Theorem C60_digest : forall m, List.length (sha1 m) = 20%nat /\ bytes_ok (sha1 m).
Proof. exact (fun m => conj (digest_length m) (digest_ok m)). Qed.
Print Assumptions C60_digest.

Theorem C60_handshake_length : forall i pid, List.length pid = 20%nat ->
  List.length (message_as_bytes (new_handshake (compute_info_hash sha1 i) pid)) = 68%nat.
Proof. exact c60_handshake. Qed.
Print Assumptions C60_handshake_length.

(** C60: padding gives whole blocks and loses nothing. *)
Theorem C60_padding : forall m, (exists n, List.length (pad m) = (64 * n)%nat /\ (List.length m < 64 * n)%nat) /\
  forall m', (8 * lenN m < 2 ^ 64)%N -> (8 * lenN m' < 2 ^ 64)%N -> pad m = pad m' -> m = m'.
Proof. exact (fun m => conj (pad_blocks m) (fun m' => pad_inj m m')). Qed.
Print Assumptions C60_padding.

(** C60: the digest of every sequence of bytes is the one that FIPS 180-4 defines. *)
Theorem C60_is_sha1 : forall m, bytes_ok m -> forall d, is_digest m d <-> d = sha1 m.
Proof. exact c60_unique. Qed.
Print Assumptions C60_is_sha1.

(** Test vectors: FIPS 180, and every case of the padding. *)
Example C60_example : map Some (map sha1
    [[]; s2b "abc"; s2b "abcdbcdecdefdefgefghfghighijhijkijkljklmklmnlmnomnopnopq"; repeat 97%N 55; repeat 97%N 63;
     repeat 97%N 64; repeat 97%N 65; repeat 97%N 1000; map N.of_nat (seq 0 256)])
  = map unhex
    [s2b "da39a3ee5e6b4b0d3255bfef95601890afd80709"; s2b "a9993e364706816aba3e25717850c26c9cd0d89d";
     s2b "84983e441c3bd26ebaae4aa1f95129e5e54670f1"; s2b "c1c8bbdc22796e28c0e15163d20899b65621d65a";
     s2b "03f09f5b158a7a8cdad920bddc29b81c18a551f5"; s2b "0098ba824b5c16427bd7a1122a5a442a25ec644d";
     s2b "11655326c708d70319be2610e8a57d9a5b959d3b"; s2b "291e9a6c66994949b57ba5e650361e98fc36b1ba";
     s2b "4916d6bdb7f78e6803698cab32d1586ea457dfc8"].
Proof. vm_compute. reflexivity. Qed.
