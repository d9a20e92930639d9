(** C35: UTF-8, UTF-16 and UTF-32 conversions. *)
From Coq Require Import ZArith Bool List Lia ZifyBool.
From Verif Require Import Mach CodecModel CodecSpec LexSpec UtfModel UtfSpec UtfProofs.
Import ListNotations.
Open Scope Z_scope.

(** The allocator gives the requested number of units, with any content. *)
Definition allocator (junk : Z -> list Z) : Prop := forall n, 0 <= n -> zlen (junk n) = n.

(** UTF-32 to UTF-8 gives the UTF-8 of the text, of the announced length. *)
Theorem C35_utf32_to_utf8 : forall junk us, allocator junk -> Forall scalar us -> zlen us < 2 ^ 60 ->
  from_utf32 junk us = Ok (Some (utf8s us)) /\ utf8len_for_utf32 us 0 = zlen (utf8s us).
Proof.
  intros junk us J S N. apply scalar_range in S. rewrite <- enc8s_utf8s by exact S. pose proof (zlen_nonneg us).
  split; [apply from_utf32_ok; assumption|apply len32_ok; lia].
Qed.
Print Assumptions C35_utf32_to_utf8.
(** No access is out of bounds, whatever the numbers. *)
Theorem C35_utf32_to_utf8_safe : forall junk us, allocator junk -> Forall (fun u => 0 <= u < 2 ^ 32) us -> zlen us < 2 ^ 60 ->
  exists s, from_utf32 junk us = Ok (Some s) /\ zlen s = utf8len_for_utf32 us 0.
Proof.
  intros junk us J S N. pose proof (zlen_nonneg us). eexists. split; [apply from_utf32_ok; assumption|]. rewrite len32_ok by lia. lia.
Qed.
Print Assumptions C35_utf32_to_utf8_safe.
(** UTF-8 to UTF-32 and to UTF-16 give back the text, of the announced lengths. *)
Theorem C35_utf8_to_utf32 : forall junk us, allocator junk -> Forall scalar us -> zlen (utf8s us) < 2 ^ 60 ->
  to_utf32 junk (utf8s us) = Ok (Some us) /\ utf8_codepoints (utf8s us) 0 = zlen us.
Proof.
  intros junk us J S N. apply scalar_range in S. pose proof (utf8s_bytes us S) as B. pose proof (looses_utf8 us S) as L. pose proof (zlen_nonneg (utf8s us)). split.
  - destruct (to_utf32_ok junk _ J B ltac:(lia)) as [(us' & L' & E)|[_ K]]; [|destruct (K us L)]. rewrite E. repeat f_equal. exact (looses_det _ _ L' _ L).
  - rewrite codepoints_ok by lia. rewrite (heads_looses _ _ L). lia.
Qed.
Print Assumptions C35_utf8_to_utf32.
Theorem C35_utf8_to_utf16 : forall junk us, allocator junk -> Forall scalar us -> zlen (utf8s us) < 2 ^ 60 ->
  to_utf16 junk (utf8s us) = Ok (Some (utf16s us)) /\ utf16len_for_utf8 (S (length (utf8s us))) (utf8s us) 0 0 = Ok (zlen (utf16s us)).
Proof.
  intros junk us J S N. apply scalar_range in S. pose proof (zlen_nonneg (utf8s us)). split; [apply to_utf16_ok; assumption|].
  pose proof (walk_utf8s us (Datatypes.S (length (utf8s us))) [] 0 S) as W. cbn [app] in W. change (zlen (@nil Z)) with 0 in W. rewrite W; try lia; [reflexivity|].
  clear -S. unfold utf8s. induction S as [|u us H F IH]; cbn [flat_map length] in *; [lia|]. rewrite app_length. pose proof (loose_length _ _ (loose_utf8 u H)). lia.
Qed.
Print Assumptions C35_utf8_to_utf16.
Theorem C35_utf16_length : forall us, zlen us < 2 ^ 60 -> utf16len_for_utf32 us = zlen (utf16s us).
Proof. intros us N. pose proof (zlen_nonneg us). unfold utf16len_for_utf32. rewrite len16_32, zlen_utf16s by lia. reflexivity. Qed.
Print Assumptions C35_utf16_length.
Example C35_ex : let junk := fun n => repeat 7 (Z.to_nat n) in allocator junk /\ Forall scalar [97; 228; 8364; 128512]
  /\ utf8s [97; 228; 8364; 128512] = [97; 195; 164; 226; 130; 172; 240; 159; 152; 128] /\ utf16s [97; 228; 8364; 128512] = [97; 228; 8364; 55357; 56832]
  /\ from_utf32 junk [97; 228; 8364; 128512] = Ok (Some (utf8s [97; 228; 8364; 128512])) /\ to_utf16 junk (utf8s [97; 228; 8364; 128512]) = Ok (Some [97; 228; 8364; 55357; 56832]).
Proof.
  cbv zeta. split; [intros n H; unfold zlen; rewrite repeat_length; lia|]. split; [repeat (constructor; [unfold scalar; lia|]); constructor|]. vm_compute. auto.
Qed.

(** UTF-16 to UTF-8: a fault iff the units are not UTF-16.  If they are, the result is the UTF-8 of the text followed by four bytes of
    the allocator's for every surrogate pair; so it is right when there is no pair. *)
Theorem C35_utf16_to_utf8_partial : forall junk t, allocator junk -> Forall is_unit t -> zlen t < 2 ^ 60 ->
  (exists us j, Forall scalar us /\ t = utf16s us /\ zlen j = 4 * pairs us /\ from_utf16 junk t = Ok (Some (utf8s us ++ j)))
  \/ (from_utf16 junk t = Ok None /\ forall us, Forall scalar us -> t <> utf16s us).
Proof. exact from_utf16_ok. Qed.
Print Assumptions C35_utf16_to_utf8_partial.
Theorem C35_utf16_to_utf8_bmp_partial : forall junk us, allocator junk -> Forall scalar us -> Forall (fun u => u < 65536) us -> zlen us < 2 ^ 60 ->
  from_utf16 junk (utf16s us) = Ok (Some (utf8s us)) /\ utf8len_for_utf16 (utf16s us) 0 = zlen (utf8s us).
Proof.
  intros junk us J S Hb N.
  assert (pairs us = 0) as HP by (unfold pairs; clear -Hb; induction Hb as [|u us H F IH]; [reflexivity|]; cbn [filter]; replace (u <? 65536) with true by lia; exact IH).
  pose proof (zlen_utf16s us) as HL.
  assert (Forall is_unit (utf16s us)) as U.
  { clear -S Hb. unfold utf16s. induction S as [|u us H F IH]; [constructor|]. inversion Hb; subst. cbn [flat_map]. unfold utf16 at 1. replace (u <? 65536) with true by lia. constructor; [unfold is_unit, scalar in *; lia|]. apply IH. assumption. }
  split.
  - destruct (from_utf16_ok junk (utf16s us) J U ltac:(lia)) as [(us' & j & S' & E & Lj & R)|[_ K]]; [|destruct (K us S eq_refl)].
    apply utf16s_inj in E; [|assumption|assumption]. subst us'. rewrite HP in Lj. destruct j as [|z j]; [rewrite app_nil_r in R; exact R|]. rewrite zlen_cons in Lj. pose proof (zlen_nonneg j). lia.
  - pose proof (zlen_nonneg us). rewrite len16_ok by lia. rewrite units_len_utf16s by exact S. lia.
Qed.
Print Assumptions C35_utf16_to_utf8_bmp_partial.
(** U+1F600 gives eight bytes, the last four what the allocator left there. *)
Theorem C35_utf16_to_utf8_refuted : ~ forall junk us, allocator junk -> Forall scalar us -> zlen us < 2 ^ 60 -> from_utf16 junk (utf16s us) = Ok (Some (utf8s us)).
Proof.
  intros H. specialize (H (fun n => repeat 7 (Z.to_nat n)) [128512]).
  assert (from_utf16 (fun n => repeat 7 (Z.to_nat n)) (utf16s [128512]) = Ok (Some [240; 159; 152; 128; 7; 7; 7; 7])) as E by (vm_compute; reflexivity). rewrite E in H. clear E.
  enough (Ok (Some [240; 159; 152; 128; 7; 7; 7; 7]) = Ok (Some (utf8s [128512]))) as X by (vm_compute in X; discriminate X).
  apply H; [intros n Hn; unfold zlen; rewrite repeat_length; lia|constructor; [unfold scalar; lia|constructor]|vm_compute; reflexivity].
Qed.
Print Assumptions C35_utf16_to_utf8_refuted.
Example C35_utf16_ex : from_utf16 (fun n => repeat 7 (Z.to_nat n)) [97; 8364] = Ok (Some [97; 226; 130; 172]) /\ from_utf16 (fun n => repeat 7 (Z.to_nat n)) [97; 55357; 97] = Ok None
  /\ from_utf16 (fun n => repeat 7 (Z.to_nat n)) [56832] = Ok None /\ from_utf16 (fun n => repeat 7 (Z.to_nat n)) [55357] = Ok None.
Proof. vm_compute. auto. Qed.

(** Any bytes as UTF-8: no access is out of bounds, and the conversion fails iff the bytes cannot be split into the sequences of [loose]
    (which has, besides UTF-8, some overlong forms, the surrogates and numbers above 0x10FFFF). *)
Theorem C35_malformed_utf8_partial : forall junk s, allocator junk -> Forall is_byte s -> zlen s < 2 ^ 60 ->
  (exists us, looses us s /\ to_utf32 junk s = Ok (Some us) /\ exists x, to_utf16 junk s = Ok (Some x))
  \/ ((forall us, ~ looses us s) /\ to_utf32 junk s = Ok None /\ to_utf16 junk s = Ok None).
Proof.
  intros junk s J B N.
  destruct (to_utf32_ok junk s J B ltac:(lia)) as [(us & L & E)|[E K]]; destruct (to_utf16_total junk s J B N) as [(us' & x & L' & E')|[E' K']];
    [left; eauto|destruct (K' us L)|destruct (K us' L')|right; auto].
Qed.
Print Assumptions C35_malformed_utf8_partial.
(** A split is unique, and every UTF-8 text is one. *)
Theorem C35_split_unique : forall us vs s, looses us s -> looses vs s -> us = vs.
Proof. intros us vs s L L'. exact (looses_det _ _ L _ L'). Qed.
Print Assumptions C35_split_unique.
Theorem C35_utf8_is_loose : forall us, Forall scalar us -> looses us (utf8s us).
Proof. intros us S. apply looses_utf8, scalar_range, S. Qed.
Print Assumptions C35_utf8_is_loose.
(** Hence UTF-8 with a byte missing at the end, a stray continuation byte or a wrong lead byte is refused: *)
Theorem C35_truncated : forall junk us u a b, allocator junk -> Forall scalar us -> scalar u -> utf8 u = a ++ b -> a <> [] -> b <> [] -> zlen (utf8s us) < 2 ^ 59 ->
  to_utf32 junk (utf8s us ++ a) = Ok None.
Proof.
  intros junk us u a b J S Su E Ha Hb N. apply scalar_range in S. assert (0 <= u <= 1114111) as Hu by (unfold scalar in Su; lia).
  pose proof (utf8s_bytes us S) as B. pose proof (utf8_bytes u Hu) as Bu. rewrite E in Bu. apply Forall_app in Bu as [Ba _].
  pose proof (loose_length _ _ (loose_utf8 u Hu)) as Lu. rewrite E, app_length in Lu.
  assert (zlen (utf8s us ++ a) < 2 ^ 60) as N' by (rewrite zlen_app; unfold zlen at 2; lia).
  destruct (to_utf32_ok junk (utf8s us ++ a) J ltac:(apply Forall_app; auto) ltac:(lia)) as [(vs & L & _)|[E2 _]]; [|exact E2]. exfalso.
  clear - S L Hu E Ha Hb. unfold utf8s in L. revert vs L. induction S as [|v us Hv F IH]; intros vs L; cbn [flat_map app] in L.
  - destruct L as [|w c ws cs Lw Lws]; [congruence|]. exact (loose_prefix u (c ++ cs) b w c cs (loose_utf8 u Hu) E Lw eq_refl Hb).
  - rewrite <- app_assoc in L. destruct (looses_head _ _ v (utf8 v) _ L eq_refl (loose_utf8 v Hv)) as (vs' & -> & L'). exact (IH vs' L').
Qed.
Print Assumptions C35_truncated.
Example C35_truncated_ex : utf8 8364 = [226; 130] ++ [172] /\ to_utf32 (fun n => repeat 7 (Z.to_nat n)) (utf8s [97] ++ [226; 130]) = Ok None.
Proof. vm_compute. auto. Qed.
(** The rest of "malformed input is refused" is not so: an overlong '@', a surrogate and a number above 0x10FFFF are accepted. *)
Theorem C35_malformed_utf8_refuted : let junk := fun n => repeat 7 (Z.to_nat n) in
  ~ forall s us, Forall is_byte s -> to_utf32 junk s = Ok (Some us) -> Forall scalar us /\ s = utf8s us.
Proof.
  intros junk H. specialize (H [193; 128] [64]). destruct H as [_ H]; [repeat constructor; discriminate|vm_compute; reflexivity|vm_compute in H; discriminate H].
Qed.
Print Assumptions C35_malformed_utf8_refuted.
Example C35_malformed_ex : let to := to_utf32 (fun n => repeat 7 (Z.to_nat n)) in
  to [224; 159; 191] = Ok (Some [2047]) /\ to [237; 160; 128] = Ok (Some [55296]) /\ to [247; 191; 191; 191] = Ok (Some [2097151])
  /\ to [128] = Ok None /\ to [192; 128] = Ok None /\ to [224; 128; 128] = Ok None /\ to [226; 130] = Ok None /\ to [248; 128; 128; 128] = Ok None.
Proof. vm_compute. auto 9. Qed.

(** Into a caller's buffer: everything and the length, or a fault when the buffer is too small or a number is above 0x10FFFF.
    Nothing is written behind the buffer. *)
Theorem C35_utf32to8 : forall us buf, Forall (fun u => 0 <= u < 2 ^ 32) us ->
  (Forall (fun u => u <= 1114111) us /\ zlen (utf8s us) <= zlen buf /\ utf32to8 us buf = Ok (Some (zlen (utf8s us)), utf8s us ++ ended (skipn (length (utf8s us)) buf)))
  \/ (~ (Forall (fun u => u <= 1114111) us /\ zlen (utf8s us) <= zlen buf) /\ exists buf', utf32to8 us buf = Ok (None, buf') /\ zlen buf' = zlen buf).
Proof.
  intros us buf H. assert (Forall (fun u => 0 <= u) us) as H0 by (revert H; apply Forall_impl; intros; lia).
  assert (Forall (fun u => u <= 1114111) us -> flat_map enc8 us = utf8s us) as EU.
  { intros F. apply enc8s_utf8s. clear -F H0. induction F; constructor; inversion H0; subst; [lia|auto]. }
  destruct (utf32to8_loop_ok us [] buf H0) as [(F & HL & E)|(N & buf' & E & HL)]; cbn [app] in *; change (zlen (@nil Z)) with 0 in E; unfold utf32to8; rewrite E.
  - left. rewrite EU in * by exact F. auto.
  - right. split; [intros [F HL2]; apply N; rewrite EU by exact F; auto|]. eauto.
Qed.
Print Assumptions C35_utf32to8.
Theorem C35_utf8to32 : forall s buf, Forall is_byte s ->
  (exists us, looses us s /\ zlen us <= zlen buf /\ utf8to32 s buf = Ok (Some (zlen us), us ++ ended2 (skipn (length us) buf)))
  \/ ((forall us, looses us s -> zlen buf < zlen us) /\ exists buf', utf8to32 s buf = Ok (None, buf') /\ zlen buf' = zlen buf).
Proof. intros s buf B. exact (utf8to32_loop_ok (length s) s (le_n _) (S (length s)) [] [] buf (le_n _) B). Qed.
Print Assumptions C35_utf8to32.
Example C35_buffer_ex : utf32to8 [228; 8364] [9; 9; 9; 9; 9; 9; 9] = Ok (Some 5, [195; 164; 226; 130; 172; 0; 9]) /\ utf32to8 [228; 8364] [9; 9; 9; 9] = Ok (None, [195; 164; 9; 9])
  /\ utf8to32 [195; 164; 97] [9; 9] = Ok (Some 2, [228; 97]) /\ utf8to32 [195; 164; 97] [9] = Ok (None, [228]).
Proof. vm_compute. auto. Qed.
