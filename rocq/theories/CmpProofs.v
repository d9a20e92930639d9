From Coq Require Import ZArith Bool List Lia ZifyBool.
From Verif Require Import Word Int128Model Int128Spec Int128Proofs Int128Proofs2 Int128Proofs3 CmpModel CmpSpec.
Open Scope Z_scope.

Definition wval (w : Z) (s : bool) (v : Z) : Z := if s then swrap w v else v.

Lemma swrap_bits w v : 0 < w -> 0 <= v < 2 ^ w -> swrap w v = if v <? 2 ^ (w - 1) then v else v - 2 ^ w.
Proof. intros Hw Hv. unfold swrap. rewrite Z.mod_small by exact Hv. reflexivity. Qed.

Lemma half w : 0 < w -> 2 ^ w = 2 * 2 ^ (w - 1).
Proof. intros. rewrite (pow_split 1 w) by lia. reflexivity. Qed.

Lemma emit_ordered_spec w ls rs aconst a b op l r :
  0 < w -> 0 <= val_of l r a < 2 ^ w -> 0 <= val_of l r b < 2 ^ w ->
  (ls = false -> rs = false) ->
  match aconst with Some v => v = val_of l r a | None => True end ->
  eval_ir w l r (emit_ordered w ls rs aconst a b op) = zcmp op (wval w ls (val_of l r a)) (wval w rs (val_of l r b)).
Proof.
  intros Hw Ha Hb Hs Hc. pose proof (half w Hw) as Hh. pose proof (pow_pos (w - 1) ltac:(lia)) as Hp.
  assert (S0 : swrap w 0 = 0) by (apply swrap_small; lia).
  unfold emit_ordered, wval.
  destruct aconst as [v|]; [subst v|]; destruct ls, rs; try (specialize (Hs eq_refl); discriminate); cbn [andb negb].
  all: try (destruct (Z.leb_spec w 64)); try (destruct (Z.ltb_spec (swrap w (val_of l r a)) 0)).
  all: destruct op; cbn [eval_ir eval_pred upred spred zcmp val_of]; rewrite ?S0.
  all: rewrite ?(swrap_bits w (val_of l r a)), ?(swrap_bits w (val_of l r b)) in * by lia.
  all: generalize dependent (val_of l r a); generalize dependent (val_of l r b); intros y Hy x Hx; intros.
  all: repeat match goal with H : context [if ?c then _ else _] |- _ => destruct c eqn:?; revert H | |- context [if ?c then _ else _] => destruct c eqn:? end.
  all: lia.
Qed.

Lemma zcmp_swap op x y : zcmp (swap_op op) x y = zcmp op y x.
Proof. destruct op; cbn; lia. Qed.

Lemma emit_cmp_spec w ls rs lconst rconst op l r :
  0 < w -> 0 <= l < 2 ^ w -> 0 <= r < 2 ^ w ->
  match lconst with Some v => v = l | None => True end ->
  match rconst with Some v => v = r | None => True end ->
  eval_ir w l r (emit_cmp w ls rs lconst rconst op) = zcmp op (wval w ls l) (wval w rs r).
Proof.
  intros Hw Hl Hr Hlc Hrc. unfold emit_cmp. destruct ls, rs; cbn [Bool.eqb negb andb].
  - rewrite emit_ordered_spec; try assumption; [reflexivity|discriminate].
  - rewrite emit_ordered_spec; try assumption; [reflexivity|discriminate].
  - rewrite emit_ordered_spec; try assumption; [|discriminate]. rewrite zcmp_swap. reflexivity.
  - rewrite emit_ordered_spec; try assumption; [reflexivity|reflexivity].
Qed.

Lemma ext_trunc_same a b v : kbits a = kbits b -> is_bits a v -> ext_trunc a b v = v.
Proof. intros E Hv. unfold ext_trunc. rewrite E, Z.ltb_irrefl. apply Z.mod_small. rewrite <- E. exact Hv. Qed.

Lemma swrap_swrap_wide b c v : 0 < b <= c -> swrap c (swrap b v mod 2 ^ c) = swrap b v.
Proof.
  intros H. rewrite swrap_mod by lia. apply swrap_small; [lia|].
  pose proof (swrap_range b v ltac:(lia)). assert (2 ^ (b - 1) <= 2 ^ (c - 1)) by (apply Z.pow_le_mono_r; lia). lia.
Qed.

Lemma ext_trunc_value a b v : is_bits a v -> kbits a <= kbits b -> (ksigned a = ksigned b \/ ksigned a = false /\ kbits a < kbits b) ->
  is_bits b (ext_trunc a b v) /\ bits_value b (ext_trunc a b v) = bits_value a v.
Proof.
  intros Hv Hle Hs. assert (Ha : 0 < kbits a) by (destruct a; reflexivity). assert (Hb : 0 < kbits b) by (destruct b; reflexivity).
  unfold ext_trunc, bits_value, is_bits in *. destruct (Z.ltb_spec (kbits a) (kbits b)) as [Hlt|Hge].
  - destruct (ksigned a) eqn:Ea.
    + destruct Hs as [Hs|[Hs _]]; [|discriminate]. rewrite <- Hs.
      split; [apply Z.mod_pos_bound, pow_pos; lia|]. apply swrap_swrap_wide; lia.
    + assert (2 ^ kbits a * 2 <= 2 ^ kbits b).
      { replace (2 ^ kbits a * 2) with (2 ^ (kbits a + 1)) by (rewrite Z.pow_add_r by lia; reflexivity). apply Z.pow_le_mono_r; lia. }
      assert (2 ^ kbits a <= 2 ^ (kbits b - 1)) by (apply Z.pow_le_mono_r; lia).
      split; [lia|]. destruct (ksigned b); [apply swrap_small; lia|reflexivity].
  - assert (E : kbits a = kbits b) by lia. rewrite E in *. rewrite Z.mod_small by exact Hv. split; [exact Hv|].
    destruct Hs as [->|[_ Hs]]; [reflexivity|lia].
Qed.

Lemma by_bitsize_s k : kbits (signed_by_bitsize (kbits k)) = kbits k /\ ksigned (signed_by_bitsize (kbits k)) = true.
Proof. destruct k; split; reflexivity. Qed.
Lemma by_bitsize_u k : kbits (unsigned_by_bitsize (kbits k)) = kbits k /\ ksigned (unsigned_by_bitsize (kbits k)) = false.
Proof. destruct k; split; reflexivity. Qed.

(** The types chosen keep the value of both sides and have one width. *)
Lemma comp_types_spec l r : narrow_signed_is_plain l r ->
  exists tl tr, comp_types l r = (tl, tr) /\ kbits tl = kbits tr /\
    kbits (kind l) <= kbits tl /\ kbits (kind r) <= kbits tr /\
    ksigned tl = ksigned (kind l) /\ ksigned tr = ksigned (kind r).
Proof.
  intros [N1 N2]. unfold comp_types, max_bit_size.
  destruct (Bool.eqb_spec (ksigned (kind l)) (ksigned (kind r))) as [E|E]; cbn [negb].
  - destruct (Z.ltb_spec (kbits (kind l)) (kbits (kind r))); do 2 eexists; repeat split; auto; lia.
  - destruct (Z.eqb_spec (kbits (kind l)) (kbits (kind r))) as [Eb|Eb].
    { do 2 eexists; repeat split; auto; lia. }
    destruct (by_bitsize_s (kind l)) as [S1 S2]. destruct (by_bitsize_s (kind r)) as [S3 S4].
    destruct (by_bitsize_u (kind l)) as [U1 U2]. destruct (by_bitsize_u (kind r)) as [U3 U4].
    destruct (Z.ltb_spec (kbits (kind l)) (kbits (kind r))) as [Hlt|Hge]; unfold widen_target.
    + destruct (ksigned (kind l)) eqn:El.
      * assert (Er : ksigned (kind r) = false) by (destruct (ksigned (kind r)); congruence).
        rewrite (N1 eq_refl Er Hlt). cbn [andb]. do 2 eexists; split; [reflexivity|]. rewrite S3, S4. repeat split; auto; lia.
      * rewrite Bool.andb_false_r. do 2 eexists; split; [reflexivity|]. rewrite U3, U4. repeat split; auto; lia.
    + destruct (ksigned (kind r)) eqn:Er.
      * assert (El : ksigned (kind l) = false) by (destruct (ksigned (kind l)); congruence).
        rewrite (N2 eq_refl El ltac:(lia)). cbn [andb]. do 2 eexists; split; [reflexivity|]. rewrite S1, S2. repeat split; auto; lia.
      * rewrite Bool.andb_false_r. do 2 eexists; split; [reflexivity|]. rewrite U1, U2. repeat split; auto; lia.
Qed.

Lemma run_cmp_spec l r lc rc lv rv op : narrow_signed_is_plain l r -> is_bits (kind l) lv -> is_bits (kind r) rv ->
  run_cmp l r lc rc lv rv op = zcmp op (bits_value (kind l) lv) (bits_value (kind r) rv).
Proof.
  intros N Hl Hr. destruct (comp_types_spec l r N) as (tl & tr & E & Ew & Bl & Br & Sl & Sr).
  unfold run_cmp. rewrite E.
  destruct (ext_trunc_value _ tl lv Hl Bl (or_introl (eq_sym Sl))) as [L1 L2].
  destruct (ext_trunc_value _ tr rv Hr Br (or_introl (eq_sym Sr))) as [R1 R2].
  rewrite emit_cmp_spec.
  - rewrite <- L2, <- R2. unfold bits_value, wval. rewrite Ew. reflexivity.
  - destruct tl; reflexivity.
  - exact L1.
  - rewrite Ew. exact R1.
  - destruct lc; exact I || reflexivity.
  - destruct rc; exact I || reflexivity.
Qed.

Lemma emit_any_width w ls rs lconst rconst op l r :
  0 < w -> 0 <= l < 2 ^ w -> 0 <= r < 2 ^ w ->
  match lconst with Some v => v = l | None => True end ->
  match rconst with Some v => v = r | None => True end ->
  eval_ir w l r (emit_cmp w ls rs lconst rconst op) =
  zcmp op (if ls then swrap w l else l) (if rs then swrap w r else r).
Proof. exact (emit_cmp_spec w ls rs lconst rconst op l r). Qed.

Lemma in_kind_mono k t z : kbits k <= kbits t -> ksigned k = ksigned t -> in_kind k z -> in_kind t z.
Proof.
  intros Hb Hs. unfold in_kind, kmin, kmax. rewrite Hs.
  assert (2 ^ (kbits k - 1) <= 2 ^ (kbits t - 1)) by (apply Z.pow_le_mono_r; destruct k; cbn in *; lia).
  assert (2 ^ kbits k <= 2 ^ kbits t) by (apply Z.pow_le_mono_r; destruct k; cbn in *; lia).
  destruct (ksigned t); lia.
Qed.

Lemma conv_keeps a t : valid a -> kbits (itype a) <= kbits t -> ksigned (itype a) = ksigned t ->
  wf128 (ival (int_conv a t)) /\ value (int_conv a t) = value a.
Proof.
  intros Ha Hb Hs. destruct (int_conv_spec a t Ha) as (V & _ & U). split; [apply V|].
  rewrite U. apply wrap_small. apply (in_kind_mono (itype a)); try assumption. apply Ha.
Qed.

Lemma fold_cmp_spec l r a b op : narrow_signed_is_plain l r -> valid a -> valid b -> itype a = kind l -> itype b = kind r ->
  fold_cmp l r a b op = zcmp op (value a) (value b).
Proof.
  intros N Ha Hb Ta Tb. destruct (comp_types_spec l r N) as (tl & tr & E & Ew & Bl & Br & Sl & Sr).
  unfold fold_cmp. rewrite E.
  assert (Xa : wf128 (ival (if kbits (kind l) =? kbits tl then mkInt (ival a) (itype a) else int_conv a tl)) /\
               value (if kbits (kind l) =? kbits tl then mkInt (ival a) (itype a) else int_conv a tl) = value a).
  { destruct (kbits (kind l) =? kbits tl); [split; [apply Ha|reflexivity]|]. apply conv_keeps; rewrite ?Ta; auto. }
  assert (Xb : wf128 (ival (if kbits (kind r) =? kbits tr then mkInt (ival b) (itype b) else int_conv b tr)) /\
               value (if kbits (kind r) =? kbits tr then mkInt (ival b) (itype b) else int_conv b tr) = value b).
  { destruct (kbits (kind r) =? kbits tr); [split; [apply Hb|reflexivity]|]. apply conv_keeps; rewrite ?Tb; auto. }
  destruct Xa as [Xa1 Xa2], Xb as [Xb1 Xb2]. rewrite int_comp_spec, Xa2, Xb2 by assumption. reflexivity.
Qed.
