(** C10, C11, C13, C51-C55: the lexer. *)
From Coq Require Import ZArith Bool List Lia ZifyBool.
From Verif Require Import Mach LexModel LexSpec LexSpec2 LexProofs LexProofs2 LexProofs3 LexProofs4 LexProofs5 LexProofs6 LexProofs7.
Import ListNotations.
Open Scope Z_scope.

(** ** C10: comments *)
(** A block comment is skipped exactly up to the "*/" that matches its "/*". *)
Theorem C10_block_comment_partial : forall fuel t ps qs p k,
  Forall src_byte t -> zlen t + 4 <= 2147483647 -> (length t + 3 < fuel)%nat -> closes 1 ps qs (pieces (length t) t) ->
  scan_token fuel false (Cur p (47 :: 42 :: t ++ [0]) k) =
  scan_token fuel false (Cur (rev (47 :: 42 :: text_of ps ++ [42; 47]) ++ p) (text_of qs ++ [0]) (k + newlines (text_of ps))).
Proof. exact comment_skipped. Qed.
Print Assumptions C10_block_comment_partial.
(** A line comment ends with its line. *)
Theorem C10_line_comment : forall fuel s r p k,
  Forall (fun c => c <> 0 /\ c <> 10) s -> live r -> zlen r <= 2147483647 -> (length s + length r + 2 < fuel)%nat ->
  scan_token fuel false (Cur p (47 :: 47 :: s ++ 10 :: r) k) = scan_token fuel false (Cur (rev (47 :: 47 :: s ++ [10]) ++ p) r (k + 1)).
Proof. exact line_skipped. Qed.
Print Assumptions C10_line_comment.
(** A comment that is never closed is not reported: the rest of the file silently disappears. *)
Theorem C10_unterminated_refuted : forall fuel t p k,
  Forall src_byte t -> zlen t + 4 <= 2147483647 -> (length t + 3 < fuel)%nat -> (forall a b, pieces (length t) t = a ++ b -> 1 <= depth 1 a) ->
  scan_token fuel false (Cur p (47 :: 42 :: t ++ [0]) k) = Ok (false, Tok TEof (Cur (rev t ++ 42 :: 47 :: p) [0] (k + newlines t))).
Proof. exact comment_dropped. Qed.
Print Assumptions C10_unterminated_refuted.
(** "/*a/*b*/c*/;" is a semicolon, "/*;" nothing. *)
Example C10_ex : closes 1 [Other 97; Open; Other 98; Close; Other 99] [Other 59] (pieces 11 [97; 47; 42; 98; 42; 47; 99; 42; 47; 59]) /\
  (exists c, scan_token 20 false (Cur [] ([47; 42; 97; 47; 42; 98; 42; 47; 99; 42; 47; 59] ++ [0]) 1) = Ok (false, Tok (TOp [59]) c)) /\
  (exists c, scan_token 20 false (Cur [] ([47; 42; 59] ++ [0]) 1) = Ok (false, Tok TEof c)) /\ (forall a b, pieces 1 [59] = a ++ b -> 1 <= depth 1 a).
Proof.
  split; [|split; [eexists; vm_compute; reflexivity|split; [eexists; vm_compute; reflexivity|]]].
  - split; [reflexivity|]. split; [reflexivity|]. intros a b E. destruct a as [|? [|? [|? [|? [|? [|? ?]]]]]]; vm_compute in E; inversion E; subst; vm_compute; discriminate.
  - intros [|x [|? ?]] b E; vm_compute in E; inversion E; subst; vm_compute; discriminate.
Qed.

(** ** C11: string literals *)
(** A literal whose characters and escapes have a meaning is read as that meaning.  Excepted: \x80 to \xff and \U above 10ffff. *)
Theorem C11_strings_partial : forall fuel is v p r k,
  meanings is = Some v -> Forall exact is -> zlen (text is) < Z.of_nat fuel ->
  scan_token fuel false (Cur p (34 :: text is ++ 34 :: r) k) = Ok (false, Tok (TString v) (Cur (34 :: rev (text is) ++ 34 :: p) r k)).
Proof.
  intros fuel is v p r k Hm He Hf. destruct fuel as [|f]; [pose proof (zlen_nonneg (text is)); lia|]. unfold scan_token. rewrite skip_ws_none by lia. cbn [bind]. rewrite peek_cons. cbn [bind]. rewrite next_cons. cbn [bind].
  change (newlines [34]) with 0. rewrite Z.add_0_r. cbn [Z.eqb Pos.eqb]. rewrite (scan_string_items is v) by assumption. reflexivity.
Qed.
Print Assumptions C11_strings_partial.
(** Any bytes can be written, and read back. *)
Theorem C11_round_trip : forall bs fuel p r k, Forall (fun b => 0 <= b <= 255) bs -> zlen (text (map escape bs)) < Z.of_nat fuel ->
  Forall src_byte (text (map escape bs)) /\
  scan_token fuel false (Cur p (34 :: text (map escape bs) ++ 34 :: r) k) = Ok (false, Tok (TString bs) (Cur (34 :: rev (text (map escape bs)) ++ 34 :: p) r k)).
Proof.
  intros bs fuel p r k F Hf. split; [apply escape_src; exact F|]. destruct (escapes_ok bs). apply C11_strings_partial; assumption.
Qed.
Print Assumptions C11_round_trip.
(** Nothing else is accepted. *)
Theorem C11_accepted_only : forall fuel p l k m t d, live l -> (length l < fuel)%nat ->
  scan_token (S fuel) m (Cur p (34 :: l) k) = Ok (m, Tok t d) ->
  exists is v, t = TString v /\ Forall (fun i => meaning i <> None) is /\ l = text is ++ 34 :: c_rest d /\ (Forall exact is -> meanings is = Some v).
Proof.
  intros fuel p l k m t d L Hf H. unfold scan_token in H. rewrite skip_ws_none in H by lia. cbn [bind] in H. rewrite peek_cons in H. cbn [bind] in H. rewrite next_cons in H. cbn [bind] in H.
  cbn [Z.eqb Pos.eqb] in H. destruct (scan_string (S fuel) (Cur (34 :: p) l (k + newlines [34]))) as [s| |] eqn:E; cbn [bind] in H; try discriminate. injection H as ->.
  apply (scan_string_inv (S fuel) (Cur (34 :: p) l (k + newlines [34])) t d L); [cbn [c_rest]; lia|exact E].
Qed.
Print Assumptions C11_accepted_only.
Theorem C11_raw : forall s p x r k fuel, (length s < fuel)%nat -> Forall (fun c => c <> 0) s -> x <> 96 ->
  scan_token fuel false (Cur p (96 :: raw_text s ++ 96 :: x :: r) k) =
  Ok (false, Tok (TString s) (Cur (96 :: rev (raw_text s) ++ 96 :: p) (x :: r) (k + newlines (raw_text s)))).
Proof.
  intros s p x r k fuel Hf F Hx. destruct fuel as [|f]; [lia|]. unfold scan_token. rewrite skip_ws_none by lia. cbn [bind]. rewrite peek_cons. cbn [bind]. rewrite next_cons. cbn [bind].
  change (newlines [96]) with 0. rewrite Z.add_0_r. cbn [Z.eqb Pos.eqb]. rewrite scan_raw_ok by assumption. reflexivity.
Qed.
Print Assumptions C11_raw.
(** "\x80" gives two bytes, not one. *)
Theorem C11_hex_refuted : exists is v w c, meanings is = Some v /\ scan_token 20 false (Cur [] (34 :: text is ++ [34; 0]) 1) = Ok (false, Tok (TString w) c) /\ w <> v.
Proof. exists [HexByte [56; 48]], [128], [194; 128]. eexists. split; [reflexivity|]. split; [vm_compute; reflexivity|discriminate]. Qed.
Print Assumptions C11_hex_refuted.
(** "\UFFFFFFFF" is accepted and gives bytes that are not UTF-8. *)
Theorem C11_range_refuted : exists c, scan_token 20 false (Cur [] (34 :: text [UniLong [70; 70; 70; 70; 70; 70; 70; 70]] ++ [34; 0]) 1) = Ok (false, Tok (TString [255; 191; 191; 191]) c).
Proof. eexists. vm_compute. reflexivity. Qed.
Print Assumptions C11_range_refuted.
Example C11_ex : meanings [Plain 97; Simple 110; HexByte [52; 49]; Uni [48; 48; 69; 57]] = Some [97; 10; 65; 195; 169] /\
  Forall exact [Plain 97; Simple 110; HexByte [52; 49]; Uni [48; 48; 69; 57]] /\ text (map escape [34; 10; 0; 65]) = [92; 34; 92; 110; 92; 48; 65] /\ raw_text [97; 96] = [97; 96; 96].
Proof. split; [reflexivity|]. split; [|split; reflexivity]. repeat constructor. cbn. intros v E. injection E as <-. lia. Qed.

(** ** C13: bidirectional markers *)
Theorem C13_bidi_partial : forall t, Forall (fun c => c <> 0) t -> (forall u v, t <> u ++ 226 :: 128 :: 172 :: v) ->
  exists b, bidi_ok (t ++ [0]) = Ok b /\ (b = true <-> Balanced (markers t)).
Proof.
  intros t F N. unfold bidi_ok. destruct (bidi_ok_lemma t (S (length (t ++ [0]))) 0 ltac:(rewrite app_length; cbn; lia) F ltac:(lia) N) as (b & E & H). rewrite E. cbn [bind]. exists (b =? 0). split; [reflexivity|]. rewrite Z.eqb_eq, H. unfold BalFrom, Balanced. split; intros [A B]; (split; [intros a c Ea; specialize (A a c Ea); lia|lia]).
Qed.
Print Assumptions C13_bidi_partial.
(** An embedding closed by its U+202C is rejected. *)
Theorem C13_pdf_refuted : exists t, Balanced (markers t) /\ bidi_ok (t ++ [0]) = Ok false.
Proof. exists [226; 128; 170; 97; 226; 128; 172]. split; [|vm_compute; reflexivity]. split; [|reflexivity]. intros [|x [|y [|? ?]]] b E; vm_compute in E; inversion E; subst; vm_compute; discriminate. Qed.
Print Assumptions C13_pdf_refuted.
Example C13_ex : bidi_ok ([226; 129; 166; 97; 226; 129; 169] ++ [0]) = Ok true /\ bidi_ok ([226; 129; 169; 97; 226; 129; 166] ++ [0]) = Ok false.
Proof. split; vm_compute; reflexivity. Qed.

(** ** C51: the lexer never leaves the file, always moves on, and knows where it is *)
Theorem C51_lexer_safe_partial : forall buf m, live buf -> hi_ok buf -> zlen buf <= 2147483647 ->
  exists l e, run (S (length buf)) (S (length buf)) m (Cur [] buf 1) = Ok (l, e) /\ Forall (fun p => at_pos buf (snd p)) l /\ progress (zlen buf) l /\
    match e with None => exists l' d, l = l' ++ [(TEof, d)] | Some d => at_pos buf d end.
Proof. intros buf m L H Z. apply (run_ok_gen buf L H Z); [apply G0; exact L|cbn; lia|lia]. Qed.
Print Assumptions C51_lexer_safe_partial.
Example C51_ex : exists l, run 20 20 false (Cur [] [97; 10; 43; 43; 0] 1) = Ok (l, None) /\ map fst l = [TIdent 0 CNormal; TOp [43; 43]; TEof].
Proof. eexists. split; [vm_compute; reflexivity|reflexivity]. Qed.
(** A byte above 127 in a hex escape indexes the digit table out of bounds. *)
Theorem C51_escape_refuted : exists buf, live buf /\ scan_token 20 false (Cur [] buf 1) = Oob.
Proof. exists [34; 92; 120; 195; 169; 34; 0]. split; [|vm_compute; reflexivity]. exists [34; 92; 120; 195; 169; 34]. split; [reflexivity|]. repeat constructor; try lia. Qed.
Print Assumptions C51_escape_refuted.
(** After an error at the end of the file, recovery reads past the NUL. *)
Theorem C51_recovery_refuted : exists buf, live buf /\ next_token 20 false (Cur [] buf 1) = Oob.
Proof. exists [39; 97; 0]. split; [|vm_compute; reflexivity]. exists [39; 97]. split; [reflexivity|]. repeat constructor; lia. Qed.
Print Assumptions C51_recovery_refuted.

(** ** C52: operators by maximal munch *)
Theorem C52_maximal_munch : forall fuel p a r k, (2 < fuel)%nat -> live (a :: r) -> existsb (starts a) operators = true ->
  ~ prefix_of [47; 47] (a :: r) -> ~ prefix_of [47; 42] (a :: r) -> ~ prefix_of [60; 42] (a :: r) ->
  (forall b s, a :: r = 64 :: b :: s -> is_letter b || is_us b = false) ->
  exists o s, longest o (a :: r) /\ a :: r = o ++ s /\ scan_token fuel false (Cur p (a :: r) k) = Ok (false, Tok (TOp o) (Cur (rev o ++ p) s k)).
Proof. exact scan_op. Qed.
Print Assumptions C52_maximal_munch.
Example C52_ex : longest [62; 62; 61] [62; 62; 61; 61; 0] /\ exists c, scan_token 5 false (Cur [] [62; 62; 61; 61; 0] 1) = Ok (false, Tok (TOp [62; 62; 61]) c).
Proof.
  split; [|eexists; vm_compute; reflexivity]. apply longest_by; [cbn; tauto|exists [61; 0]; reflexivity|vm_compute; reflexivity].
Qed.

(** ** C53: identifier classes *)
Theorem C53_identifiers : forall s p x r k fuel m, (S (length s) < fuel)%nat -> Forall (fun c => is_ident_char c = true) s -> is_ident_char x = false -> s <> [] ->
  (forall a t, s = a :: t -> is_digit a = false) -> ~ (s = [120] /\ (x = 34 \/ x = 39 \/ x = 96)) -> ~ (s = [98; 54; 52] /\ (x = 34 \/ x = 39 \/ x = 96)) ->
  ident_result 0 s (Cur (rev s ++ p) (x :: r) k) (scan_token fuel m (Cur p (s ++ x :: r) k)) m.
Proof. exact scan_token_ident. Qed.
Print Assumptions C53_identifiers.
Theorem C53_prefixed : forall s p x r k fuel m pre, pre = 64 \/ pre = 35 \/ pre = 36 -> (S (length s) < fuel)%nat -> Forall (fun c => is_ident_char c = true) s -> is_ident_char x = false -> s <> [] ->
  (forall a t, s = a :: t -> is_digit a = false) ->
  ident_result pre s (Cur (rev s ++ pre :: p) (x :: r) k) (scan_token fuel m (Cur p (pre :: s ++ x :: r) k)) m.
Proof. exact scan_token_prefixed. Qed.
Print Assumptions C53_prefixed.
Example C53_ex : class_of [95; 70; 111; 111] = Some Mixed /\ class_of [70; 79; 79] = Some Upper /\ class_of [102; 79] = Some Lower /\ class_of [95; 49] = None /\
  (exists c, scan_token 9 false (Cur [] [95; 70; 111; 111; 32; 0] 1) = Ok (false, Tok (TIdent 0 CType) c)).
Proof. repeat split. eexists. vm_compute. reflexivity. Qed.

(** ** C54: source clean-up *)
Theorem C54_clean_partial : forall fuel s, (length s < fuel)%nat -> zlen s < 2 ^ 63 -> hd 0 s <> 255 -> hd 0 (tl s) <> 254 ->
  exists rest, clean_buffer fuel (s ++ [0]) (zlen s) = Ok (Some (nocr (no_bom s) ++ 0 :: rest, zlen (nocr (no_bom s)))).
Proof. exact clean_buffer_ok. Qed.
Print Assumptions C54_clean_partial.
(** A file whose second byte is 0xFE is refused as UTF-16 whatever its first byte is, and one that starts with 0xFF whatever its second is. *)
Theorem C54_utf16_refuted : clean_buffer 9 ([97; 254; 98] ++ [0]) 3 = Ok None /\ clean_buffer 9 ([255; 97] ++ [0]) 2 = Ok None.
Proof. split; vm_compute; reflexivity. Qed.
Print Assumptions C54_utf16_refuted.
Example C54_ex : clean_buffer 9 ([239; 187; 191; 97; 13; 10; 98] ++ [0]) 7 = Ok (Some ([97; 10; 98; 0; 13; 10; 98; 0], 3)).
Proof. vm_compute. reflexivity. Qed.

(** ** C55: character literals *)
(** One to sixteen one-byte items make a big-endian number. *)
Theorem C55_char_bytes : forall fuel is p r k, Forall char_item is -> is <> [] -> zlen is <= 16 -> (length is < fuel)%nat ->
  scan_token fuel false (Cur p (39 :: text is ++ 39 :: r) k) = Ok (false, Tok (TChar (be 0 (map item_byte is)) (zlen is)) (Cur (39 :: rev (text is) ++ 39 :: p) r k)).
Proof.
  intros fuel is p r k F Hn Hl Hf. destruct fuel as [|f]; [lia|]. unfold scan_token. rewrite skip_ws_none by lia. cbn [bind]. rewrite peek_cons. cbn [bind]. rewrite next_cons. cbn [bind].
  change (newlines [39]) with 0. rewrite Z.add_0_r. cbn [Z.eqb Pos.eqb]. rewrite scan_char_items by assumption. reflexivity.
Qed.
Print Assumptions C55_char_bytes.
(** A single non-ASCII character is its code point; so are \u and \U escapes. *)
Theorem C55_char_utf8 : forall fuel u p r k, 128 <= u <= 1114111 -> (0 < fuel)%nat ->
  scan_token fuel false (Cur p (39 :: utf8 u ++ 39 :: r) k) = Ok (false, Tok (TChar u (if 65535 <? u then 4 else 2)) (Cur (39 :: rev (utf8 u) ++ 39 :: p) r k)).
Proof.
  intros fuel u p r k Hu Hf. destruct fuel as [|f]; [lia|]. unfold scan_token. rewrite skip_ws_none by lia. cbn [bind]. rewrite peek_cons. cbn [bind]. rewrite next_cons. cbn [bind].
  change (newlines [39]) with 0. rewrite Z.add_0_r. cbn [Z.eqb Pos.eqb]. rewrite scan_char_utf8 by assumption. reflexivity.
Qed.
Print Assumptions C55_char_utf8.
Theorem C55_char_escape : forall fuel (long : bool) ds v p r k, hexnum 0 ds = Some v -> length ds = (if long then 8 else 4)%nat -> (0 < fuel)%nat ->
  scan_token fuel false (Cur p (39 :: (92 :: (if long then 85 else 117) :: ds) ++ 39 :: r) k) =
  Ok (false, Tok (TChar v (if long then 4 else 2)) (Cur (39 :: rev (92 :: (if long then 85 else 117) :: ds) ++ 39 :: p) r k)).
Proof.
  intros fuel long ds v p r k Hv Hl Hf. destruct fuel as [|f]; [lia|]. unfold scan_token. rewrite skip_ws_none by lia. cbn [bind]. rewrite peek_cons. cbn [bind]. rewrite next_cons. cbn [bind].
  change (newlines [39]) with 0. rewrite Z.add_0_r. cbn [Z.eqb Pos.eqb]. rewrite (scan_char_uni (S f) long ds v) by assumption. reflexivity.
Qed.
Print Assumptions C55_char_escape.
Example C55_ex : Forall char_item [Plain 65; Simple 110; HexByte [102; 70]] /\ be 0 (map item_byte [Plain 65; Simple 110; HexByte [102; 70]]) = 65 * 65536 + 10 * 256 + 255 /\ utf8 233 = [195; 169].
Proof. split; [|split; reflexivity]. repeat constructor; cbn; try lia; discriminate. Qed.
