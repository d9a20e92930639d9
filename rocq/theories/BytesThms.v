(** C12: byte literals. *)
From Coq Require Import ZArith Bool List Lia.
From Verif Require Import Mach LexModel LexSpec BytesModel BytesSpec BytesProofs BytesProofs2.
Import ListNotations.
Open Scope Z_scope.

(** The lexer takes a literal as one token and announces its length. *)
Theorem C12_lexed : forall l bs fuel p x r k m, Means l bs -> zlen (lit_text l) < 2 ^ 62 -> (length (lit_text l) < fuel)%nat ->
  scan_token fuel m (Cur p (lit_text l ++ x :: r) k) = Ok (m, Tok (TBytes (is64 l) (zlen bs)) (Cur (rev (lit_text l) ++ p) (x :: r) (k + newlines (lit_text l)))).
Proof.
  intros [q c|q c] bs fuel p x r k m H Hz Hf; cbn [lit_text length is64] in *; rewrite app_length in Hf; cbn in Hf.
  - apply lex_hex; [exact H|lia].
  - apply lex_b64; [exact H| |lia]. rewrite !zlen_cons, zlen_app in Hz. change (zlen [q]) with 1 in Hz. lia.
Qed.
Print Assumptions C12_lexed.
(** Nothing else is accepted: white space, an even number of hex digits; base64 digits and then at most two "=", padded or with the padding left out. *)
Theorem C12_hex_accepted_only : forall q l fuel p k m t d, is_quote q = true -> live l -> (length l < fuel)%nat ->
  scan_token (S fuel) m (Cur p (120 :: q :: l) k) = Ok (m, Tok t d) ->
  exists c bs, l = c ++ q :: c_rest d /\ Means (Hex q c) bs /\ t = TBytes false (zlen bs).
Proof. exact hex_inv. Qed.
Print Assumptions C12_hex_accepted_only.
Theorem C12_b64_accepted_only : forall q l fuel p k m t d, is_quote q = true -> live l -> zlen l < 2 ^ 62 -> (length l < fuel)%nat ->
  scan_token (S fuel) m (Cur p (98 :: 54 :: 52 :: q :: l) k) = Ok (m, Tok t d) ->
  exists c ds pad vs, l = c ++ q :: c_rest d /\ no_space c = ds ++ pad /\ b64_values ds = Some vs /\ (pad = [] \/ pad = [61] \/ pad = [61; 61]) /\
    (Nat.modulo (length ds + length pad) 4 = 0%nat \/ pad = [] /\ (Nat.modulo (length ds) 4 = 2%nat \/ Nat.modulo (length ds) 4 = 3%nat)) /\ t = TBytes true (zlen (b64_bytes vs)).
Proof. exact b64_inv. Qed.
Print Assumptions C12_b64_accepted_only.
(** Adjacent literals make one constant, the bytes of each in turn; only a base64 literal after other bytes is excepted. *)
Theorem C12_bytes_partial : forall fuel ts,
  Forall (fun t => Means (fst (fst t)) (snd (fst t)) /\ (length (lit_text (fst (fst t))) < fuel)%nat) ts -> b64_first ts ->
  parse_bytes fuel (map (fun t => let '(l, bs, r) := t in BTok (zlen bs) (is64 l) (lit_text l ++ r) (zlen (lit_text l))) ts) =
  Ok (match concat (map (fun t => snd (fst t)) ts) with [] => None | bs => Some (map Some bs) end).
Proof. exact parse_bytes_ok. Qed.
Print Assumptions C12_bytes_partial.
(** b64'QUI=' x"0 1ff" *)
Example C12_ex : let l1 := B64 39 [81; 85; 73; 61] in let l2 := Hex 34 [48; 32; 49; 102; 102] in
  Means l1 [65; 66] /\ Means l2 [1; 255] /\ b64_first [(l1, [65; 66], lit_text l2 ++ [59; 0]); (l2, [1; 255], [59; 0])] /\
  parse_bytes 20 [BTok 2 true (lit_text l1 ++ lit_text l2 ++ [59; 0]) 9; BTok 2 false (lit_text l2 ++ [59; 0]) 8] = Ok (Some [Some 65; Some 66; Some 1; Some 255]).
Proof.
  cbv zeta. split; [apply (Means_b64 39 [81; 85; 73; 61] [81; 85; 73] [61] [16; 20; 8]); [reflexivity..|auto|reflexivity]|].
  split; [apply (Means_hex 34 [48; 32; 49; 102; 102]); [reflexivity|repeat (apply Forall_cons; [(left; discriminate) || (right; reflexivity)|]); apply Forall_nil|reflexivity]|].
  split; [|vm_compute; reflexivity].
  intros [|t [|t2 [|t3 ts]]] l bs r b E; inversion E; subst; first [left; reflexivity | right; right; reflexivity].
Qed.
(** A base64 literal after other bytes is lost: b64"QQ==" b64"Qg==" leaves its byte uninitialised. *)
Theorem C12_concat_refuted : exists l1 l2, Means l1 [65] /\ Means l2 [66] /\
  parse_bytes 20 [BTok 1 true (lit_text l1 ++ lit_text l2 ++ [0]) 9; BTok 1 true (lit_text l2 ++ [0]) 9] = Ok (Some [Some 65; None]).
Proof.
  exists (B64 34 [81; 81; 61; 61]), (B64 34 [81; 103; 61; 61]). split; [apply (Means_b64 34 _ [81; 81] [61; 61] [16; 16]); [reflexivity..|auto|reflexivity]|].
  split; [apply (Means_b64 34 _ [81; 103] [61; 61] [16; 32]); [reflexivity..|auto|reflexivity]|]. vm_compute. reflexivity.
Qed.
Print Assumptions C12_concat_refuted.
(** An unpadded base64 literal near the end of the file, which the lexer accepts, is read past the end of the buffer: b64"QQ"; *)
Theorem C12_unpadded_refuted : let src := [98; 54; 52; 34; 81; 81; 34; 59; 0] in
  (exists c, scan_token 20 false (Cur [] src 1) = Ok (false, Tok (TBytes true 1) c)) /\ parse_bytes 20 [BTok 1 true src 7] = Oob.
Proof. split; [eexists|]; vm_compute; reflexivity. Qed.
Print Assumptions C12_unpadded_refuted.
