(** Comments as white space, character literals, and running the lexer over a whole file. *)
From Coq Require Import ZArith Bool List Lia ZifyBool.
From Verif Require Import Mach LexModel LexSpec LexSpec2 LexProofs LexProofs2 LexProofs4 LexProofs5.
Import ListNotations.
Open Scope Z_scope.

Lemma skip_ws_mono : forall f g inner m c r, skip_whitespace f inner m c = Ok r -> (f <= g)%nat -> skip_whitespace g inner m c = Ok r.
Proof.
  induction f as [|f IH]; intros g inner m c r H Hg; [discriminate|]. destruct g as [|g]; [lia|]. cbn [skip_whitespace] in *.
  destruct (peek c) as [a| |]; cbn [bind] in *; [|discriminate|discriminate].
  destruct (a =? 47).
  { destruct m; [exact H|]. destruct (peekn c 1) as [b| |]; cbn [bind] in *; [|discriminate|discriminate].
    destruct (b =? 47).
    - destruct (skip 2 c) as [c1| |]; cbn [bind] in *; [|discriminate|discriminate]. destruct (line_comment inner c1) as [c2| |]; cbn [bind] in *; [|discriminate|discriminate]. apply IH; [exact H|lia].
    - destruct (b =? 42); [|exact H].
      destruct (skip 2 c) as [c1| |]; cbn [bind] in *; [|discriminate|discriminate]. destruct (block_comment inner 1 c1) as [c2| |]; cbn [bind] in *; [|discriminate|discriminate]. apply IH; [exact H|lia]. }
  destruct (a =? 10).
  { destruct m; [exact H|]. destruct (next c) as [c1| |]; cbn [bind] in *; [|discriminate|discriminate]. apply IH; [exact H|lia]. }
  destruct ((a =? 32) || (a =? 9) || (a =? 12)).
  { destruct (next c) as [c1| |]; cbn [bind] in *; [|discriminate|discriminate]. apply IH; [exact H|lia]. }
  exact H.
Qed.
(** Skipping white space succeeds with any fuel above the length. *)
Lemma skip_ws_ok fuel inner m p l k : live l -> zlen l <= 2147483647 -> (length l < fuel)%nat -> (length l < inner)%nat ->
  exists d, skip_whitespace fuel inner m (Cur p l k) = Ok d.
Proof.
  intros L Z Hf Hi. destruct (skip_whitespace_wp (Cur p l k) L Z fuel inner m (Cur p l k)) as (d & E & _); [|exact Hf|exact Hi|exists d; exact E].
  split; [|intros E; cbn in E; subst; destruct (live_nil L)]. exists []. split; [reflexivity|]. split; [reflexivity|]. rewrite newlines_nil. cbn [c_row]. lia.
Qed.
Lemma scan_ws_eq fuel m c c' : (forall d, skip_whitespace fuel fuel m c' = Ok d -> skip_whitespace fuel fuel m c = Ok d) -> (exists d, skip_whitespace fuel fuel m c' = Ok d) ->
  scan_token fuel m c = scan_token fuel m c'.
Proof. intros H (d & E). unfold scan_token. rewrite (H d E), E. reflexivity. Qed.
Lemma live_of t : Forall src_byte t -> live (t ++ [0]). Proof. intros F. exists t. auto. Qed.

Lemma comment_skipped fuel t ps qs p k : Forall src_byte t -> zlen t + 4 <= 2147483647 -> (length t + 3 < fuel)%nat -> closes 1 ps qs (pieces (length t) t) ->
  scan_token fuel false (Cur p (47 :: 42 :: t ++ [0]) k) =
  scan_token fuel false (Cur (rev (47 :: 42 :: text_of ps ++ [42; 47]) ++ p) (text_of qs ++ [0]) (k + newlines (text_of ps))).
Proof.
  intros F Z Hf C. pose proof (pieces_text (length t) t (le_n _)) as PT. destruct C as (Ep & C). assert (C' : closes 1 ps qs (pieces (length t) t)) by (split; assumption).
  assert (Et : t = text_of ps ++ [42; 47] ++ text_of qs).
  { rewrite <- PT, Ep, text_of_app. reflexivity. }
  assert (Lq : (length (text_of qs) + 2 <= length t)%nat) by (rewrite Et, !app_length; cbn; lia).
  assert (Fq : Forall src_byte (text_of qs)) by (rewrite Et in F; apply Forall_app in F; destruct F as [_ F]; apply Forall_app in F; apply F).
  assert (Eb : block_comment fuel 1 (Cur (42 :: 47 :: p) (t ++ [0]) k) = Ok (Cur (rev (text_of ps ++ [42; 47]) ++ 42 :: 47 :: p) (text_of qs ++ [0]) (k + newlines (text_of ps)))).
  { destruct (block_comment_ok (length t) t fuel 1 (42 :: 47 :: p) k (le_n _) ltac:(lia) F ltac:(lia) ltac:(lia)) as [H _]. apply H. exact C'. }
  assert (Ec : rev (47 :: 42 :: text_of ps ++ [42; 47]) ++ p = rev (text_of ps ++ [42; 47]) ++ 42 :: 47 :: p).
  { cbn [rev]. rewrite <- !app_assoc. reflexivity. }
  rewrite Ec. set (c' := Cur _ (text_of qs ++ [0]) _).
  assert (Q : exists d, forall g, (length (text_of qs) + 1 < g)%nat -> skip_whitespace g fuel false c' = Ok d).
  { assert (ZQ : zlen (text_of qs ++ [0]) <= 2147483647) by (unfold zlen in *; rewrite app_length; cbn [length]; lia).
    assert (HQ : (length (text_of qs ++ [0%Z]) < length (text_of qs) + 2)%nat) by (rewrite app_length; cbn [length]; lia).
    assert (HI : (length (text_of qs ++ [0%Z]) < fuel)%nat) by lia.
    destruct (skip_ws_ok (length (text_of qs) + 2) fuel false (rev (text_of ps ++ [42; 47]) ++ 42 :: 47 :: p) _ (k + newlines (text_of ps)) (live_of _ Fq) ZQ HQ HI) as (d & E).
    exists d. intros g Hg. eapply skip_ws_mono; [exact E|lia]. }
  destruct Q as (d & Q). apply scan_ws_eq.
  - intros d' E. rewrite (Q fuel ltac:(lia)) in E. injection E as <-. destruct fuel as [|f]; [lia|]. cbn [skip_whitespace]. rewrite peek_cons. cbn [bind]. rewrite peekn_cons1. cbn [bind]. rewrite skip2_cons. cbn [bind].
    change (47 =? 47) with true. change (42 =? 47) with false. change (42 =? 42) with true. cbv iota. replace (k + newlines [47; 42]) with k by (cbn; lia). rewrite Eb. cbn [bind]. apply Q. lia.
  - exists d. apply Q. lia.
Qed.
Lemma comment_dropped fuel t p k : Forall src_byte t -> zlen t + 4 <= 2147483647 -> (length t + 3 < fuel)%nat -> (forall a b, pieces (length t) t = a ++ b -> 1 <= depth 1 a) ->
  scan_token fuel false (Cur p (47 :: 42 :: t ++ [0]) k) = Ok (false, Tok TEof (Cur (rev t ++ 42 :: 47 :: p) [0] (k + newlines t))).
Proof.
  intros F Z Hf C. destruct fuel as [|[|f]]; [lia|lia|]. unfold scan_token. cbn [skip_whitespace]. rewrite peek_cons. cbn [bind]. rewrite peekn_cons1. cbn [bind]. rewrite skip2_cons. cbn [bind].
  change (47 =? 47) with true. change (42 =? 47) with false. change (42 =? 42) with true. cbv iota. replace (k + newlines [47; 42]) with k by (cbn; lia).
  destruct (block_comment_ok (length t) t (S (S f)) 1 (42 :: 47 :: p) k (le_n _) ltac:(lia) F ltac:(lia) ltac:(lia)) as [_ H]. rewrite (H C). cbn [bind]. rewrite peek_cons. reflexivity.
Qed.
Lemma line_skipped fuel s r p k : Forall (fun c => c <> 0 /\ c <> 10) s -> live r -> zlen r <= 2147483647 -> (length s + length r + 2 < fuel)%nat ->
  scan_token fuel false (Cur p (47 :: 47 :: s ++ 10 :: r) k) = scan_token fuel false (Cur (rev (47 :: 47 :: s ++ [10]) ++ p) r (k + 1)).
Proof.
  intros F L Z Hf.
  assert (N : newlines s = 0).
  { clear -F. unfold newlines. induction F as [|x s [_ H] F IH]; [reflexivity|]. cbn [filter]. replace (x =? 10) with false by lia. exact IH. }
  assert (Ec : rev (47 :: 47 :: s ++ [10]) ++ p = 10 :: rev s ++ 47 :: 47 :: p). { cbn [rev]. rewrite rev_app_distr, <- !app_assoc. reflexivity. }
  rewrite Ec. set (c' := Cur _ r _).
  assert (Q : exists d, forall g, (length r < g)%nat -> skip_whitespace g fuel false c' = Ok d).
  { destruct (skip_ws_ok (S (length r)) fuel false (10 :: rev s ++ 47 :: 47 :: p) r (k + 1) L Z ltac:(lia) ltac:(lia)) as (d & E). exists d. intros g Hg. eapply skip_ws_mono; [exact E|lia]. }
  destruct Q as (d & Q). apply scan_ws_eq; [|exists d; apply Q; lia].
  intros d' E. rewrite (Q fuel ltac:(lia)) in E. injection E as <-. destruct fuel as [|f]; [lia|]. cbn [skip_whitespace]. rewrite peek_cons. cbn [bind]. rewrite peekn_cons1. cbn [bind]. rewrite skip2_cons. cbn [bind].
  change (47 =? 47) with true. cbv iota. replace (k + newlines [47; 47]) with k by (cbn; lia). rewrite (line_comment_ok s 10 r) by (auto; lia). change (10 =? 10) with true. cbv iota. cbn [bind]. rewrite N. replace (k + 0 + 1) with (k + 1) by lia. apply Q. lia.
Qed.
Lemma space_skipped fuel a r p k : a = 32 \/ a = 9 \/ a = 10 \/ a = 12 -> live r -> zlen r <= 2147483647 -> (length r + 1 < fuel)%nat ->
  scan_token fuel false (Cur p (a :: r) k) = scan_token fuel false (Cur (a :: p) r (k + newlines [a])).
Proof.
  intros Ha L Z Hf. set (c' := Cur (a :: p) r _).
  assert (Q : exists d, forall g, (length r < g)%nat -> skip_whitespace g fuel false c' = Ok d).
  { destruct (skip_ws_ok (S (length r)) fuel false (a :: p) r (k + newlines [a]) L Z ltac:(lia) ltac:(lia)) as (d & E). exists d. intros g Hg. eapply skip_ws_mono; [exact E|lia]. }
  destruct Q as (d & Q). apply scan_ws_eq; [|exists d; apply Q; lia].
  intros d' E. rewrite (Q fuel ltac:(lia)) in E. injection E as <-. destruct fuel as [|f]; [lia|]. cbn [skip_whitespace]. rewrite peek_cons. cbn [bind].
  destruct Ha as [ -> | [ -> | [ -> | -> ] ] ]; cbn [Z.eqb Pos.eqb orb]; rewrite next_cons; cbn [bind]; apply Q; lia.
Qed.

Lemma run_ok_gen buf : live buf -> hi_ok buf -> zlen buf <= 2147483647 ->
  forall n fuel m c, G (Cur [] buf 1) c -> (length (c_rest c) < n)%nat -> (length buf < fuel)%nat ->
  exists l e, run n fuel m c = Ok (l, e) /\ Forall (fun p => at_pos buf (snd p)) l /\ progress (zlen (c_rest c)) l /\
    match e with None => exists l' d, l = l' ++ [(TEof, d)] | Some d => at_pos buf d end.
Proof.
  intros L H Z n. set (c0 := Cur [] buf 1).
  assert (AP : forall c, E c0 c -> at_pos buf c) by (intros c (u & A & B & D); exists u; cbn in *; rewrite app_nil_r in B; auto).
  induction n as [|n IH]; intros fuel m c Gc Hn Hf; [lia|]. cbn [run].
  pose proof (G_len c0 c Gc) as Gl. cbn [c_rest c0] in Gl.
  destruct (scan_token_wp c0 L H Z fuel m c Gc ltac:(lia)) as ((m' & s) & Es & Ps). rewrite Es. cbn [bind snd] in *.
  destruct s as [t d|d].
  2:{ exists [], (Some d). split; [reflexivity|]. split; [constructor|]. split; [exact I|]. apply AP. exact Ps. }
  assert (Gen : (match t with TEof => true | _ => false end) = false -> Le c0 c d /\ (length (c_rest d) < length (c_rest c))%nat ->
     exists l e, ('(l, e) <- run n fuel m' d ;; Ok ((t, d) :: l, e)) = Ok (l, e) /\ Forall (fun p => at_pos buf (snd p)) l /\ progress (zlen (c_rest c)) l /\
       match e with None => exists l' d, l = l' ++ [(TEof, d)] | Some d => at_pos buf d end).
  { intros Ht [[Gd _] Hd]. destruct (IH fuel m' d Gd ltac:(lia) Hf) as (l & e & El & Fl & Pl & Fin). rewrite El. cbn [bind].
    exists ((t, d) :: l), e. split; [reflexivity|]. split; [constructor; [apply AP, Gd|exact Fl]|]. split.
    - cbn [progress]. rewrite Ht. split; [|exact Pl]. split; [unfold zlen; lia|apply Gd].
    - destruct e; [exact Fin|]. destruct Fin as (l' & d' & ->). exists ((t, d) :: l'), d'. reflexivity. }
  destruct t; try (apply Gen; [reflexivity|exact Ps]).
  cbn in Ps. destruct Ps as [Er [Gd _]]. exists [(TEof, d)], None. split; [reflexivity|]. split; [constructor; [apply AP, Gd|constructor]|]. split; [cbn; auto|]. exists [], d. reflexivity.
Qed.

Lemma hex_literal_ok : forall ds h v p r k, hexnum h ds = Some v -> hex_literal (length ds) h (Cur p (ds ++ r) k) = Ok (Some v, Cur (rev ds ++ p) r k).
Proof.
  induction ds as [|d ds IH]; intros h v p r k H; cbn [hexnum] in H; cbn [length hex_literal app].
  - injection H as <-. reflexivity.
  - destruct (hexdigit d) as [x|] eqn:E; [|discriminate]. destruct (hexdigit_some _ _ E) as (A & B & C & D). rewrite peek_cons. cbn [bind]. unfold nibble. replace (128 <=? d) with false by lia. cbn [bind]. rewrite B.
    replace (x <? 0) with false by lia. rewrite next_cons. cbn [bind].
    replace (newlines [d]) with 0 by (rewrite newlines_cons; replace (d =? 10) with false; [reflexivity|]; unfold is_hex, is_digit in C; lia). rewrite Z.add_0_r.
    rewrite (IH _ _ (d :: p) r k H). cbn [rev]. rewrite <- app_assoc. reflexivity.
Qed.
Lemma char_step f w b i r p k : char_item i -> w <= 15 -> char_loop (S f) w b (Cur p (render i ++ r) k) = char_loop f (w + 1) (b * 256 + item_byte i) (Cur (rev (render i) ++ p) r k).
Proof.
  intros Hi Hw. cbn [char_loop]. unfold matchc.
  destruct i as [c|c|ds|ds|ds]; cbn [char_item] in Hi; [| | |contradiction|contradiction]; cbn [render app]; rewrite peek_cons; cbn [bind].
  - replace (c =? 39) with false by lia. cbn [bind]. rewrite peek_cons. cbn [bind]. rewrite next_cons. cbn [bind]. replace (c =? 0) with false by lia. replace (15 <? w) with false by lia. replace (128 <=? c) with false by lia. replace (c =? 10) with false by lia. replace (c =? 92) with false by lia.
    replace (newlines [c]) with 0 by (rewrite newlines_cons; replace (c =? 10) with false by lia; reflexivity). rewrite Z.add_0_r. reflexivity.
  - cbn [meaning] in Hi. change (92 =? 39) with false. cbv iota. cbn [bind]. rewrite peek_cons. cbn [bind]. rewrite next_cons. cbn [bind]. change (newlines [92]) with 0. rewrite Z.add_0_r. replace (15 <? w) with false by lia.
    change (92 =? 0) with false. change (128 <=? 92) with false. change (92 =? 10) with false. change (92 =? 92) with true. cbv iota. rewrite peek_cons. cbn [bind]. cbn [item_byte].
    destruct (find (fun p0 => fst p0 =? c) simple_escapes) as [q|] eqn:E; [|contradiction]. destruct (simple_valid c q E) as (A1 & A2 & A3 & A4 & A5 & A6 & A7 & A8).
    replace (128 <=? c) with false by lia. cbv zeta. rewrite A2. replace (snd q =? -1) with false by lia. rewrite next_cons. cbn [bind].
    replace (newlines [c]) with 0 by (rewrite newlines_cons; replace (c =? 10) with false by lia; reflexivity). rewrite Z.add_0_r.
    assert (Hq : snd q <> 120 /\ snd q <> 117 /\ snd q <> 85).
    { assert (In q simple_escapes) by (eapply find_some; exact E). cbn in H. repeat (destruct H as [ <- | H ]; [cbn; lia|]). contradiction. }
    replace (snd q =? 120) with false by lia. replace (snd q =? 117) with false by lia. replace (snd q =? 85) with false by lia. cbn [orb]. cbn [rev app]. reflexivity.
  - cbn [meaning] in Hi. change (92 =? 39) with false. cbv iota. cbn [bind]. rewrite peek_cons. cbn [bind]. rewrite next_cons. cbn [bind]. change (newlines [92]) with 0. rewrite Z.add_0_r. replace (15 <? w) with false by lia.
    change (92 =? 0) with false. change (128 <=? 92) with false. change (92 =? 10) with false. change (92 =? 92) with true. cbv iota. rewrite peek_cons. cbn [bind]. cbn [item_byte].
    change (128 <=? 120) with false. cbv zeta iota. change (valid_escape 120) with 120. change (120 =? -1) with false. cbv iota. rewrite next_cons. cbn [bind]. change (newlines [120]) with 0. rewrite Z.add_0_r. change (120 =? 120) with true. cbv iota.
    destruct (Nat.eqb (length ds) 2) eqn:El; [|contradiction]. apply Nat.eqb_eq in El. destruct (hexnum 0 ds) as [v|] eqn:Ev; [|contradiction].
    rewrite <- El. rewrite (hex_literal_ok ds 0 v _ r k Ev). cbn [bind]. cbn [rev]. rewrite <- !app_assoc. reflexivity.
Qed.
Lemma char_loop_ok : forall is f w b p r k, Forall char_item is -> (length is < f)%nat -> w + zlen is <= 16 ->
  char_loop f w b (Cur p (text is ++ 39 :: r) k) = Ok (Tok (TChar (be b (map item_byte is)) (w + zlen is)) (Cur (39 :: rev (text is) ++ p) r k)).
Proof.
  induction is as [|i is IH]; intros f w b p r k F Hf Hw; (destruct f as [|f]; [cbn in Hf; lia|]).
  - cbn [char_loop text map concat app rev be]. unfold matchc. rewrite peek_cons. cbn [bind]. change (39 =? 39) with true. cbv iota. rewrite next_cons. cbn [bind]. change (newlines [39]) with 0. rewrite Z.add_0_r. change (zlen (@nil item)) with 0. rewrite Z.add_0_r. reflexivity.
  - inversion F as [|? ? Hi F']; subst. rewrite zlen_cons in *. pose proof (zlen_nonneg is). cbn [length] in Hf.
    unfold text in *. cbn [map concat]. rewrite <- app_assoc. rewrite char_step by (auto; lia). rewrite IH by (auto; lia). cbn [map be]. replace (w + 1 + zlen is) with (w + (1 + zlen is)) by lia. rewrite rev_app_distr, <- app_assoc. reflexivity.
Qed.
Lemma scan_char_items fuel is p r k : Forall char_item is -> is <> [] -> zlen is <= 16 -> (length is < fuel)%nat ->
  scan_char fuel (Cur p (text is ++ 39 :: r) k) = Ok (Tok (TChar (be 0 (map item_byte is)) (zlen is)) (Cur (39 :: rev (text is) ++ p) r k)).
Proof.
  intros F Hn Hl Hf. unfold scan_char. rewrite <- (Z.add_0_l (zlen is)). rewrite <- char_loop_ok with (f := fuel) by (auto; lia).
  destruct is as [|i is]; [contradiction|]. inversion F as [|? ? Hi _]; subst. unfold matchc, text. cbn [map concat].
  destruct i; cbn [char_item] in Hi; try contradiction; cbn [render app]; rewrite peek_cons; cbn [bind].
  - replace (c =? 39) with false by lia. reflexivity.
  - reflexivity.
  - reflexivity.
Qed.
(** Code points. *)
Lemma scan_char_uni fuel (long : bool) ds v p r k : hexnum 0 ds = Some v -> length ds = (if long then 8 else 4)%nat -> (0 < fuel)%nat ->
  scan_char fuel (Cur p ((92 :: (if long then 85 else 117) :: ds) ++ 39 :: r) k) =
  Ok (Tok (TChar v (if long then 4 else 2)) (Cur (39 :: rev (92 :: (if long then 85 else 117) :: ds) ++ p) r k)).
Proof.
  intros Ev El Hf. destruct fuel as [|f]; [lia|]. pose proof (fun p r => hex_literal_ok ds 0 v p r k Ev) as HL. rewrite El in HL. destruct long; cbv iota in *; unfold scan_char, matchc; cbn [app];
  repeat (first [rewrite peek_cons | rewrite next_cons | progress (cbn [bind Z.eqb Z.ltb Z.leb Z.compare Pos.compare Pos.compare_cont negb Pos.eqb orb char_loop]) | progress (unfold matchc) |
    progress change (newlines [92]) with 0 | progress change (newlines [85]) with 0 | progress change (newlines [117]) with 0 | progress change (newlines [39]) with 0 | rewrite Z.add_0_r |
    progress change (valid_escape 85) with 85 | progress change (valid_escape 117) with 117 | rewrite HL]);
  cbn [rev]; rewrite <- !app_assoc; reflexivity.
Qed.
Lemma land_lo h n u : forallb (fun i => (Z.land (h + Z.of_nat i) 63 =? Z.of_nat i mod 64)) (seq 0 n) = true -> 0 <= u < Z.of_nat n -> Z.land (h + u) 63 = u mod 64.
Proof. intros H Hu. rewrite forallb_forall in H. specialize (H (Z.to_nat u)). rewrite Z2Nat.id in H by lia. rewrite Z.eqb_eq in H. apply H. apply in_seq. lia. Qed.
Lemma cont_ok n h u p r k : 0 <= u < 64 -> utf8_tail (S n) h (Cur p (128 + u :: r) k) = utf8_tail n (h * 64 + u) (Cur (128 + u :: p) r k).
Proof.
  intros Hu. cbn [utf8_tail]. rewrite peek_cons. cbn [bind]. replace (128 + u =? 0) with false by lia. rewrite next_cons. cbn [bind].
  replace (newlines [128 + u]) with 0 by (rewrite newlines_cons; replace (128 + u =? 10) with false by lia; reflexivity). rewrite Z.add_0_r.
  replace (Z.land (128 + u) 192) with 128.
  2:{ assert (K : forallb (fun i => Z.land (128 + Z.of_nat i) 192 =? 128) (seq 0 64) = true) by (vm_compute; reflexivity). rewrite forallb_forall in K. specialize (K (Z.to_nat u)). rewrite Z2Nat.id in K by lia. symmetry. apply Z.eqb_eq. apply K. apply in_seq. lia. }
  change (negb (128 =? 128)) with false. cbv iota. rewrite (land_lo 128 64 u eq_refl) by lia. rewrite Z.mod_small by lia. reflexivity.
Qed.
Lemma lead_ok h m n u : forallb (fun i => Z.land (h + Z.of_nat i) m =? Z.of_nat i) (seq 0 n) = true -> 0 <= u < Z.of_nat n -> Z.land (h + u) m = u.
Proof. intros H Hu. rewrite forallb_forall in H. specialize (H (Z.to_nat u)). rewrite Z2Nat.id in H by lia. rewrite Z.eqb_eq in H. apply H. apply in_seq. lia. Qed.
Lemma scan_char_utf8 fuel u p r k : 128 <= u <= 1114111 -> (0 < fuel)%nat ->
  scan_char fuel (Cur p (utf8 u ++ 39 :: r) k) = Ok (Tok (TChar u (if 65535 <? u then 4 else 2)) (Cur (39 :: rev (utf8 u) ++ p) r k)).
Proof.
  intros Hu Hf. destruct fuel as [|f]; [lia|].
  assert (K : exists a t, utf8 u = a :: t /\ 192 <= a <= 247 /\ forall p' , scan_utf8 a (Cur p' (t ++ 39 :: r) k) = Ok (Some u, Cur (rev t ++ p') (39 :: r) k)).
  { unfold utf8. destruct (Z.leb_spec u 127); [lia|].
    pose proof (Z.mod_pos_bound u 64 ltac:(lia)). pose proof (Z.div_mod u 64 ltac:(lia)).
    pose proof (Z.mod_pos_bound (u / 64) 64 ltac:(lia)). pose proof (Z.div_mod (u / 64) 64 ltac:(lia)). assert (D2 : u / 64 / 64 = u / 4096) by (rewrite Z.div_div by lia; reflexivity).
    pose proof (Z.mod_pos_bound (u / 4096) 64 ltac:(lia)). pose proof (Z.div_mod (u / 4096) 64 ltac:(lia)). assert (D3 : u / 4096 / 64 = u / 262144) by (rewrite Z.div_div by lia; reflexivity).
    rewrite D2 in *. rewrite D3 in *.
    destruct (Z.leb_spec u 2047); [|destruct (Z.leb_spec u 65535)]; eexists; eexists; (split; [reflexivity|]); (split; [lia|]); intros p'; unfold scan_utf8; cbn [app].
    - replace (192 + u / 64 <? 192) with false by lia. replace (192 + u / 64 <=? 223) with true by lia. rewrite (lead_ok 192 31 32 (u / 64) eq_refl) by lia.
      rewrite cont_ok by lia. cbn [utf8_tail rev app]. repeat f_equal. lia.
    - replace (224 + u / 4096 <? 192) with false by lia. replace (224 + u / 4096 <=? 223) with false by lia. replace (224 + u / 4096 <=? 239) with true by lia. rewrite (lead_ok 224 15 16 (u / 4096) eq_refl) by lia.
      rewrite cont_ok by lia. rewrite cont_ok by lia. cbn [utf8_tail rev app]. repeat f_equal. lia.
    - replace (240 + u / 262144 <? 192) with false by lia. replace (240 + u / 262144 <=? 223) with false by lia. replace (240 + u / 262144 <=? 239) with false by lia. replace (240 + u / 262144 <=? 247) with true by lia. rewrite (lead_ok 240 7 8 (u / 262144) eq_refl) by lia.
      rewrite cont_ok by lia. rewrite cont_ok by lia. rewrite cont_ok by lia. cbn [utf8_tail rev app]. repeat f_equal. lia. }
  destruct K as (a & t & -> & Ha & K). unfold scan_char, matchc. cbn [app].
  assert (Na : newlines [a] = 0) by (rewrite newlines_cons; replace (a =? 10) with false by lia; reflexivity).
  repeat (first [rewrite peek_cons | rewrite next_cons | progress cbn [bind] | progress (replace (a =? 39) with false by lia) | progress (replace (a =? 0) with false by lia) | progress cbn [char_loop] | progress (unfold matchc) | rewrite Na | rewrite Z.add_0_r |
    progress change (15 <? 0) with false | progress (replace (128 <=? a) with true by lia) | progress change (negb (0 =? 0)) with false | progress change (39 =? 39) with true | progress change (newlines [39]) with 0 | progress cbv iota | rewrite K]).
  cbn [rev]; rewrite <- !app_assoc; reflexivity.
Qed.
