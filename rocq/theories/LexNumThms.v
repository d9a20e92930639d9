(** C80: numbers. *)
From Coq Require Import ZArith Bool List Lia ZifyBool.
From Verif Require Import Mach LexModel LexSpec LexProofs LexNumSpec LexNumProofs LexNumProofs2 LexNumProofs3 LexNumProofs4.
Import ListNotations.
Open Scope Z_scope.

(** Every number of the published grammar is one token, of the right kind, whatever follows it. *)
Theorem C80_grammar : forall fuel m p s r k b, official b s -> live r -> ends s r -> (length s < fuel)%nat ->
  scan_token fuel m (Cur p (s ++ r) k) = Ok (m, Tok (if b then TReal else TInteger) (Cur (rev s ++ p) r k)).
Proof.
  intros fuel m p s r k b Ho L He Hf. apply official_number in Ho. destruct (number_head b s Ho) as (a & t & -> & Ha). cbn [app]. rewrite scan_token_digit by (try (apply dec_iff; exact Ha); lia).
  change (a :: t ++ r) with ((a :: t) ++ r). rewrite (digit_ok fuel p k b) by assumption. reflexivity.
Qed.
Print Assumptions C80_grammar.
(** Exactly the wider language of [number] is accepted: what is in it, *)
Theorem C80_accepts : forall fuel m p s r k b, number b s -> live r -> ends s r -> (length s < fuel)%nat ->
  scan_token fuel m (Cur p (s ++ r) k) = Ok (m, Tok (if b then TReal else TInteger) (Cur (rev s ++ p) r k)).
Proof.
  intros fuel m p s r k b Ho L He Hf. destruct (number_head b s Ho) as (a & t & -> & Ha). cbn [app]. rewrite scan_token_digit by (try (apply dec_iff; exact Ha); lia).
  change (a :: t ++ r) with ((a :: t) ++ r). rewrite (digit_ok fuel p k b) by assumption. reflexivity.
Qed.
Print Assumptions C80_accepts.
(** and nothing else: text that starts with a digit gives a number that a letter, a digit or '_' does not follow, or an error. *)
Theorem C80_accepts_only_partial : forall fuel m p a l k m' t d, dec_dig a -> live (a :: l) -> (0 < fuel)%nat -> scan_token fuel m (Cur p (a :: l) k) = Ok (m', Tok t d) ->
  exists b s r, number b s /\ t = (if b then TReal else TInteger) /\ a :: l = s ++ r /\ d = Cur (rev s ++ p) r k /\ ~ word_char (hd 0 r).
Proof.
  intros fuel m p a l k m' t d Ha L Hf H. rewrite scan_token_digit in H by (try (apply dec_iff; exact Ha); lia).
  destruct (scan_digit fuel (Cur p (a :: l) k)) as [s| |] eqn:E; cbn [bind] in H; try discriminate. injection H as _ ->. apply digit_inv in E; [|exact L|apply dec_iff; exact Ha].
  destruct E as (b & s & r & Hn & -> & E & -> & _ & (x & r' & -> & Hx)). exists b, s, (x :: r'). repeat (split; [assumption || reflexivity|]). cbn [hd]. rewrite <- word_iff. congruence.
Qed.
Print Assumptions C80_accepts_only_partial.
(** The language is wider than the grammar: "1_.5" is a real although no number of the grammar has '_' before the dot, and "1_e5" before an exponent. *)
Theorem C80_grammar_refuted : (exists d, scan_token 9 false (Cur [] [49; 95; 46; 53; 0] 1) = Ok (false, Tok TReal d) /\ c_rest d = [0] /\ forall b, ~ official b [49; 95; 46; 53]) /\
  (exists d, scan_token 9 false (Cur [] [49; 95; 101; 53; 0] 1) = Ok (false, Tok TReal d) /\ c_rest d = [0]).
Proof.
  split; (eexists; split; [vm_compute; reflexivity|]).
  - split; [reflexivity|]. intros b H. apply usok_official in H. destruct (H [49] [46; 53] eq_refl) as (d & w & E & Hd). injection E as <- _. unfold hex_dig in Hd. lia.
  - reflexivity.
Qed.
Print Assumptions C80_grammar_refuted.
(** "0x1F_00ul;" and "1.5e-3f32)" are numbers; "1__0", "1_", "0b12", "1.0u" and "0x1.8f32" followed by 'g' are not. *)
Example C80_ex : official false [48; 120; 49; 70; 95; 48; 48; 117; 108] /\ ends [48; 120; 49; 70; 95; 48; 48; 117; 108] [59; 0] /\ official true ([49] ++ 46 :: [53] ++ [101; 45; 51] ++ [102; 51; 50]) /\
  ends ([49] ++ 46 :: [53] ++ [101; 45; 51] ++ [102; 51; 50]) [41; 0] /\ ends [49] [46; 46; 53; 0] /\ live [59; 0] /\
  Forall (fun s => match scan_token 20 false (Cur [] (s ++ [0]) 1) with Ok (_, Err _) => True | _ => False end) [[49; 95; 95; 48]; [49; 95]; [48; 98; 49; 50]; [49; 46; 48; 117]; [48; 120; 49; 46; 56; 103]].
Proof.
  split.
  { apply (of_hex _ [49; 70; 95; 48; 48] [117; 108]); [|apply opt_some, it_ul; auto|exists 120; auto]. apply (units_more hex_dig [49; 70; 95; 48]); [|unfold hex_dig; lia]. apply (units_us hex_dig [49; 70]); [|unfold hex_dig; lia].
    apply (units_more hex_dig [49]); [|unfold hex_dig; lia]. constructor. unfold hex_dig. lia. }
  split; [exists 59, [0]; split; [reflexivity|]; unfold word_char; split; lia|]. split.
  { apply of_frac; [constructor; unfold dec_dig; lia|constructor; unfold dec_dig; lia| |]; apply opt_some; [apply (power_of 101 101 [45] [51]); [auto|cbn; auto|discriminate|repeat constructor; unfold dec_dig; lia]|apply rt_width; cbn; auto]. }
  split; [exists 41, [0]; split; [reflexivity|]; unfold word_char; split; lia|]. split; [exists 46, [46; 53; 0]; split; [reflexivity|]; unfold word_char; cbn; split; lia|].
  split; [exists [59]; split; [reflexivity|]; repeat constructor; lia|]. repeat (apply Forall_cons; [vm_compute; exact I|]). constructor.
Qed.
