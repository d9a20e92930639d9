(** More lemmas about indexing and slicing. *)
From Coq Require Import ZArith Bool List Lia ZifyBool.
From Verif Require Import SliceModel SliceSpec SliceProofs.
Import ListNotations.
Local Open Scope Z_scope.

Lemma analyse_accepts sg e len n r : no_length e = false -> well_formed sg len n r -> inside n r -> ~ folded_tail len r -> ~ too_far n r ->
  ~ (len <> None /\ first n r = n /\ cst (start r) = true) -> analyse e len r <> None.
Proof.
  intros E (TS & TE & N & LEN & NS) IN NT NF ND A. assert (P : is_pointer e = false) by (destruct e; try discriminate; auto).
  destruct r as [[sv sc] st sf ef il].
  unfold analyse, end_part, start_part, length_part, unresolved, inside, folded_tail, too_far, const_stop, count, first, well_formed, fits_i64, MAX in *.
  rewrite E, P in *. cbn [andb orb negb start stop sfe efe is_len val cst shp r_start r_stop r_sfe r_efe r_len const_end start_index len_index] in *.
  pose proof (typed_word _ _ TS) as TW.
  assert (TE2 : match st with Some o => typed sg (val o) /\ - 2 ^ 63 <= val o < 2 ^ 64 | None => True end) by (destruct st as [o |]; auto; split; [apply TE; auto | apply (typed_word sg); apply TE; auto]).
  destruct st as [[v vc] |]; [destruct TE2 as [TE3 TE4] | destruct (NS eq_refl) as [-> ->]]; destruct len as [m |]; try (destruct (LEN m eq_refl) as [-> LN]); destruct sf, sc; try destruct vc; try destruct ef; try destruct il;
  cbn [andb orb negb start stop sfe efe is_len val cst shp r_start r_stop r_sfe r_efe r_len const_end start_index len_index] in *; clear LEN TE NS.
  all: repeat (caseb; cbn [andb orb negb start stop sfe efe is_len val cst shp r_start r_stop r_sfe r_efe r_len const_end start_index len_index] in * ).
  all: try (apply NT; repeat split; auto; [discriminate | eexists; split; [reflexivity | reflexivity]]).
  all: repeat match goal with
    | H : context [i32 ?v] |- _ => rewrite (i32_small v) in H by lia
    end.
  all: try lia.
  all: try discriminate A.
  all: apply ND; repeat split; [discriminate | lia].
Qed.

Lemma values_unsafe sg e n x s t b : slice_values true sg e n x = Ends s t b -> slice_values false sg e n x = Ends s t b.
Proof.
  intros H. unfold slice_values in *. cbv zeta in *. cbn [andb] in *.
  destruct (shp x), (r_stop x) as [o |]; caseb; try exact H; cbn [andb negb] in *; try exact H; try discriminate.
Qed.
Lemma emit_unsafe sg e n x p k : emit true sg e n x = Sliced p k -> emit false sg e n x = Sliced p k.
Proof. unfold emit. destruct (slice_values true sg e n x) as [| | s t b] eqn:V; try discriminate. rewrite (values_unsafe _ _ _ _ _ _ _ V). auto. Qed.

Lemma slice_sound sg e len n r x p k : no_length e = false -> well_formed sg len n r -> ~ folded_tail len r -> ~ too_far n r -> sane_length sg n r ->
  analyse e len r = Some x -> emit true sg e n x = Sliced p k -> p = first n r /\ k = count n r /\ inside n r.
Proof.
  intros E W NT NF SL A M. destruct (analyse_ok sg e len n r x E W NT NF A) as (C & F & K & L & R1 & R2).
  assert (N : 0 <= n < 2 ^ 63) by (destruct W as (_ & _ & N & _); exact N).
  assert (RL : r_len x = true -> rlast n x = rcount n x) by (unfold rcount; intros ->; reflexivity).
  rewrite (emit_safe sg e n x E N C) in M.
  2:{ intros Q. rewrite (RL Q), F, K. destruct (R2 Q) as [I | I]; [exact (SL I) | destruct sg; lia]. }
  fold (rleast x) in M. rewrite F, K in M. destruct (_ && _ && _) eqn:Q in M; [| discriminate]. injection M as <- <-. split; auto. split; auto.
  unfold inside. split; [lia |]. split; [lia |]. unfold least in L. unfold rleast in *. destruct (is_len r); [rewrite (R1 eq_refl) in *; lia |]. destruct (stop r) eqn:SR; [destruct L as [L | [L | [L _]]]; [lia | lia | discriminate] | lia].
Qed.
Lemma slice_complete sg e len n r : no_length e = false -> well_formed sg len n r -> ~ folded_tail len r -> ~ too_far n r ->
  ~ (len <> None /\ first n r = n /\ (cst (start r) = true \/ stop r = None)) -> inside n r ->
  exists x, analyse e len r = Some x /\ forall safe, emit safe sg e n x = Sliced (first n r) (count n r).
Proof.
  intros E W NT NF ND IN. destruct (analyse e len r) as [x |] eqn:A.
  2:{ exfalso. apply (analyse_accepts sg e len n r E W IN NT NF); auto. intros (a & b & c). apply ND. auto. }
  exists x. split; auto. destruct (analyse_ok sg e len n r x E W NT NF A) as (C & F & K & L & R1 & R2).
  assert (N : 0 <= n < 2 ^ 63) by (destruct W as (_ & _ & N & _); exact N).
  assert (RL : r_len x = true -> rlast n x = rcount n x) by (unfold rcount; intros ->; reflexivity).
  assert (M : emit true sg e n x = Sliced (first n r) (count n r)).
  { rewrite (emit_safe sg e n x E N C).
    2:{ intros Q. rewrite (RL Q), F, K. destruct IN as (I1 & I2 & I3). destruct (R2 Q) as [I | I]; [rewrite I in I3; cbv iota in I3; destruct sg; lia | destruct sg; lia]. }
    fold (rleast x). rewrite F, K. destruct IN as (I1 & I2 & I3). fold (least r) in *.
    assert (I4 : least r <= count n r) by (unfold least; destruct (is_len r); [lia | destruct (stop r); lia]).
    destruct (_ && _ && _) eqn:Q; [reflexivity |]. exfalso.
    destruct L as [L | [L | (L1 & L2 & L3)]]; [lia | lia |].
    apply ND. split; auto. split; [| auto]. destruct W as (_ & _ & _ & _ & W). destruct (W L1) as [_ W2]. rewrite L1, W2 in I3. rewrite L3 in Q. assert (CN : count n r = n - first n r) by (unfold count; rewrite L1; reflexivity). lia. }
  intros [|]; [exact M | apply emit_unsafe; exact M].
Qed.

Lemma no_assertion sg e len n r x safe : well_formed sg len n r -> (len <> None -> no_length e = false) -> analyse e len r = Some x -> emit safe sg e n x <> Assertion.
Proof.
  intros (TS & TE & N & LEN & NS) LE A M.
  destruct r as [[sv sc] st sf ef il].
  unfold analyse, end_part, start_part, length_part, unresolved, emit, slice_values in *.
  cbn [andb orb negb start stop sfe efe is_len val cst shp r_start r_stop r_sfe r_efe r_len const_end start_index len_index] in *.
  destruct (no_length e) eqn:E.
  all: destruct st as [[v vc] |]; [| destruct (NS eq_refl) as [-> ->]]; destruct len as [m |]; try (specialize (LE ltac:(discriminate)); discriminate LE); destruct sf, sc; try destruct vc; try destruct ef; try destruct il;
  cbn [andb orb negb start stop sfe efe is_len val cst shp r_start r_stop r_sfe r_efe r_len const_end start_index len_index] in *; try discriminate A.
  all: repeat match goal with H : (if ?b then _ else _) = Some _ |- _ => destruct b; try discriminate H | H : match (if ?b then _ else _) with _ => _ end = Some _ |- _ => destruct b; cbn [andb orb negb start stop sfe efe is_len val cst shp r_start r_stop r_sfe r_efe r_len const_end start_index len_index] in H; try discriminate H end.
  all: injection A as <-.
  all: cbn [andb orb negb start stop sfe efe is_len val cst shp r_start r_stop r_sfe r_efe r_len const_end start_index len_index] in *.
  all: rewrite ?andb_false_r in *; repeat match goal with H : context [if ?b then EPanic else _] |- _ => destruct b; try discriminate H end; try discriminate.
Qed.
