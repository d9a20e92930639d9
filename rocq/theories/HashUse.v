(** How a client uses the hash functions: start with memory that holds anything, add the message in pieces, take the digest. *)
From Coq Require Import ZArith List.
From Verif Require Import Mach HashModel.
Import ListNotations.
Open Scope Z_scope.

Definition updates (A : alg) (s : hstate A) (chunks : list (list Z)) : Res (hstate A) := fold_left (fun r c => s <- r ;; hupdate A s c) chunks (Ok s).
Definition digest (A : alg) (s : hstate A) (chunks : list (list Z)) : Res (list Z) := s <- updates A (hinit A s) chunks ;; hfinal A s.
Definition hmac_digest (A : alg) (h : hstate A * hstate A) (key : list Z) (chunks : list (list Z)) : Res (list Z) :=
  h <- hmac_init A h key ;; h <- fold_left (fun r c => h <- r ;; hmac_update A h c) chunks (Ok h) ;; hmac_final A h.
(** The encryption of a message in pieces, one call after the other. *)
Fixpoint crypt_chunks (s : rc4) (chunks : list (list Z)) : list Z :=
  match chunks with [] => [] | c :: t => let '(s', r) := rc4_crypt s c in r ++ crypt_chunks s' t end.
(** The number of bits that SHA-256 has counted after these pieces: the length of a piece is counted modulo 2^32. *)
Definition counted (chunks : list (list Z)) : Z := fold_left (fun n c => (n + (8 * zlen c) mod 2 ^ 32) mod 2 ^ 64) chunks 0.
