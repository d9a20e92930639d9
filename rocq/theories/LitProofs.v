From Coq Require Import ZArith Bool List Lia ZifyBool.
From Verif Require Import Word Int128Model Int128Spec Int128Proofs Int128Proofs2 Int128Proofs3 Int128Proofs4 LitModel LitSpec.
Import ListNotations.
Open Scope Z_scope.

Lemma spelled_ge b s : forall acc v, 0 <= acc -> spelled b acc s = Some v -> acc <= v.
Proof.
  induction s as [|c s IH]; intros acc v Ha; cbn [spelled].
  - intros [= <-]. lia.
  - destruct (c =? 95); [apply IH; exact Ha|].
    destruct (digit_of c) as [d|] eqn:Ed; [|discriminate]. destruct (d <? radix b) eqn:El; [|discriminate].
    assert (0 <= d) by (unfold digit_of in Ed; destruct ((48 <=? c) && (c <=? 57)) eqn:?; [injection Ed as <-; lia|];
      destruct ((65 <=? c) && (c <=? 70)) eqn:?; [injection Ed as <-; lia|];
      destruct ((97 <=? c) && (c <=? 102)) eqn:?; [injection Ed as <-; lia|discriminate]).
    assert (2 <= radix b) by (destruct b; cbn; lia).
    intros H1. apply IH in H1; nia.
Qed.

(** Characters of digits are never suffix letters or separators. *)
Lemma digit_range c d : digit_of c = Some d -> 48 <= c <= 102 /\ 0 <= d < 16.
Proof.
  unfold digit_of. destruct ((48 <=? c) && (c <=? 57)) eqn:?; [intros [= <-]; lia|].
  destruct ((65 <=? c) && (c <=? 70)) eqn:?; [intros [= <-]; lia|].
  destruct ((97 <=? c) && (c <=? 102)) eqn:?; [intros [= <-]; lia|discriminate].
Qed.

Definition lower_ok (c : Z) : bool :=
  match digit_of c with
  | Some d => negb (lower c =? 117) && negb (lower c =? 108) && negb (lower c =? 105) && negb (lower c =? 127)
              && (hex_nibble c =? d) && (if d <? 10 then (c - 48 =? d) && (lower c =? c) else true)
  | None => true
  end.
Lemma lower_ok_all : forallb lower_ok (map Z.of_nat (seq 0 128)) = true.
Proof. vm_compute. reflexivity. Qed.
Lemma digit_lower c d : digit_of c = Some d ->
  lower c <> 117 /\ lower c <> 108 /\ lower c <> 105 /\ lower c <> 127 /\ hex_nibble c = d /\ (d < 10 -> c - 48 = d /\ lower c = c).
Proof.
  intros H. destruct (digit_range c d H) as [R D].
  pose proof lower_ok_all as A. rewrite forallb_forall in A. specialize (A c).
  assert (In c (map Z.of_nat (seq 0 128))) as HI.
  { replace c with (Z.of_nat (Z.to_nat c)) by lia. apply in_map, in_seq. lia. }
  specialize (A HI). unfold lower_ok in A. rewrite H in A. destruct (d <? 10) eqn:E10; lia.
Qed.

Definition step_for (b : Base) : Int128 -> bool -> Z -> Int128 * bool :=
  match b with
  | Bin => step_pow2 1 (fun ch => ch - 48) | Oct => step_pow2 3 (fun ch => ch - 48)
  | Hex => step_pow2 4 hex_nibble | Dec => step_dec
  end.

Lemma wshr_ones bits : 0 <= bits <= 64 -> wshr (W - 1) bits = 2 ^ (64 - bits) - 1.
Proof.
  intros H. unfold wshr. rewrite Z.shiftr_div_pow2 by lia. pose proof (pow_pos bits ltac:(lia)).
  symmetry. apply Z.div_unique_pos with (r := 2 ^ bits - 1); [lia|].
  change W with (2 ^ 64). rewrite (pow_split bits 64) by lia. lia.
Qed.

Lemma high_div a : wf128 a -> high a = uval a / 2 ^ 64.
Proof. intros Ha. apply Z.div_unique_pos with (r := low a); [apply Ha|unfold uval; lia]. Qed.

Lemma step_pow2_ok bits dg i ch d acc : 0 < bits <= 4 -> dg ch = d -> 0 <= d < 2 ^ bits ->
  wf128 i -> uval i = acc ->
  let '(i', w') := step_pow2 bits dg i false ch in
  (acc * 2 ^ bits + d < 2 ^ 128 -> w' = false /\ wf128 i' /\ uval i' = acc * 2 ^ bits + d) /\
  (2 ^ 128 <= acc * 2 ^ bits + d -> w' = true).
Proof.
  intros Hb Hd Hr Hi Hu. unfold step_pow2. rewrite Hd, orb_false_l, wshr_ones by lia.
  rewrite (high_div i Hi), Hu. pose proof (uval_bounds _ Hi) as B. rewrite Hu in B.
  pose proof (pow_pos bits ltac:(lia)) as P1. pose proof (pow_pos (64 - bits) ltac:(lia)) as P2.
  assert (E1 : 2 ^ 128 = 2 ^ (64 - bits) * 2 ^ 64 * 2 ^ bits).
  { rewrite <- !Z.pow_add_r by lia. f_equal. lia. }
  assert (Hq : 2 ^ (64 - bits) - 1 < acc / 2 ^ 64 <-> 2 ^ 128 <= acc * 2 ^ bits + d).
  { split; intros H.
    - assert (2 ^ (64 - bits) * 2 ^ 64 <= acc) by (assert (2 ^ (64 - bits) <= acc / 2 ^ 64) by lia;
        pose proof (Z.mul_div_le acc (2 ^ 64) ltac:(reflexivity)); nia).
      rewrite E1. assert (2 ^ (64 - bits) * 2 ^ 64 * 2 ^ bits <= acc * 2 ^ bits) by (apply Z.mul_le_mono_nonneg_r; lia). lia.
    - assert (2 ^ (64 - bits) <= acc / 2 ^ 64); [|lia]. apply Z.div_le_lower_bound; [reflexivity|].
      destruct (Z.ltb_spec acc (2 ^ 64 * 2 ^ (64 - bits))) as [Hlt|Hge]; [exfalso|lia].
      assert ((acc + 1) * 2 ^ bits <= 2 ^ 64 * 2 ^ (64 - bits) * 2 ^ bits) by (apply Z.mul_le_mono_nonneg_r; lia).
      lia. }
  split; intros H.
  - split; [apply Z.ltb_ge; lia|].
    destruct (shl64_spec i bits Hi ltac:(lia)) as [S1 S2]. rewrite Hu, Z.mod_small in S2 by nia.
    destruct (add64_spec _ (w64 d) S1 (w64_word d)) as [A1 A2].
    assert (Ew : w64 d = d).
    { apply Z.mod_small. split; [lia|]. apply Z.lt_le_trans with (1 := proj2 Hr). change W with (2 ^ 64). apply Z.pow_le_mono_r; lia. }
    rewrite Ew in *. split; [exact A1|]. rewrite A2, S2. apply Z.mod_small. nia.
  - apply Z.ltb_lt. lia.
Qed.

Lemma step_dec_ok i ch d acc : ch - 48 = d -> 0 <= d < 10 -> wf128 i -> uval i = acc ->
  acc * 10 + d < 2 ^ 128 ->
  let '(i', w') := step_dec i false ch in w' = false /\ wf128 i' /\ uval i' = acc * 10 + d.
Proof.
  intros Hd Hr Hi Hu Hlt. unfold step_dec. rewrite Hd, orb_false_l. pose proof (uval_bounds _ Hi) as B. rewrite Hu in B.
  destruct (mult64_spec i 10 Hi ltac:(unf; lia)) as [M1 M2]. rewrite Hu, Z.mod_small in M2 by lia.
  destruct (add64_spec _ (w64 d) M1 (w64_word d)) as [A1 A2].
  assert (Ew : w64 d = d) by (apply Z.mod_small; unf; lia). rewrite Ew in *. rewrite M2, Z.mod_small in A2 by lia.
  split; [|split; assumption]. apply Z.ltb_ge. rewrite (high_div i Hi), (high_div _ A1), A2, Hu.
  apply Z.div_le_mono; [reflexivity|lia].
Qed.

Lemma radix_pow2 b : b <> Dec -> radix b = 2 ^ digit_bits b /\ 0 < digit_bits b <= 4.
Proof. destruct b; intros; try contradiction; cbn; lia. Qed.

Lemma step_ok b i ch d acc : digit_of ch = Some d -> d < radix b -> wf128 i -> uval i = acc ->
  let '(i', w') := step_for b i false ch in
  (acc * radix b + d < 2 ^ 128 -> w' = false /\ wf128 i' /\ uval i' = acc * radix b + d) /\
  (b <> Dec -> 2 ^ 128 <= acc * radix b + d -> w' = true).
Proof.
  intros Hd Hr Hi Hu. destruct (digit_lower ch d Hd) as (_ & _ & _ & _ & Hx & H10). destruct (digit_range ch d Hd) as [_ [D0 _]].
  destruct b; cbn [step_for radix] in *.
  - pose proof (step_pow2_ok 1 (fun ch => ch - 48) i ch d acc ltac:(lia) ltac:(apply H10; lia) ltac:(cbn; lia) Hi Hu) as X.
    change (2 ^ 1) with 2 in X. destruct (step_pow2 1 (fun ch => ch - 48) i false ch). split; [apply X|intros _; apply X].
  - pose proof (step_pow2_ok 3 (fun ch => ch - 48) i ch d acc ltac:(lia) ltac:(apply H10; lia) ltac:(cbn; lia) Hi Hu) as X.
    change (2 ^ 3) with 8 in X. destruct (step_pow2 3 (fun ch => ch - 48) i false ch). split; [apply X|intros _; apply X].
  - pose proof (step_dec_ok i ch d acc ltac:(apply H10; lia) ltac:(lia) Hi Hu) as X.
    destruct (step_dec i false ch). split; [exact X|congruence].
  - pose proof (step_pow2_ok 4 hex_nibble i ch d acc ltac:(lia) Hx ltac:(cbn; lia) Hi Hu) as X.
    change (2 ^ 4) with 16 in X. destruct (step_pow2 4 hex_nibble i false ch). split; [apply X|intros _; apply X].
Qed.

Lemma step_sticky b i ch : snd (step_for b i true ch) = true.
Proof. destruct b; reflexivity. Qed.

Lemma scan_sticky b suf : forall s i n acc v, spelled b acc s = Some v ->
  exists i' n', scan_digits (step_for b) (s ++ suf) i true n = scan_digits (step_for b) suf i' true n'.
Proof.
  induction s as [|c s IH]; intros i n acc v H; cbn [spelled app] in *; [do 2 eexists; reflexivity|].
  cbn [scan_digits].
  destruct (Z.eqb_spec c 95) as [->|Hc].
  - change (lower 95) with 127. cbn [Z.eqb Pos.eqb orb]. eapply IH; exact H.
  - destruct (digit_of c) as [d|] eqn:Ed; [|discriminate]. destruct (d <? radix b); [|discriminate].
    destruct (digit_lower c d Ed) as (L1 & L2 & L3 & L4 & _).
    rewrite (proj2 (Z.eqb_neq _ _) L1), (proj2 (Z.eqb_neq _ _) L2), (proj2 (Z.eqb_neq _ _) L3), (proj2 (Z.eqb_neq _ _) L4). cbn [orb].
    destruct (step_for b i true c) as [i' w'] eqn:Es. pose proof (step_sticky b i c) as St. rewrite Es in St. cbn in St. subst w'.
    eapply IH; exact H.
Qed.

Lemma scan_ok b suf : forall s i n acc v, spelled b acc s = Some v -> 0 <= acc -> wf128 i -> uval i = acc ->
  (v < 2 ^ 128 -> exists i', scan_digits (step_for b) (s ++ suf) i false n = scan_digits (step_for b) suf i' false (n + digit_count s)
       /\ wf128 i' /\ uval i' = v) /\
  (b <> Dec -> 2 ^ 128 <= v -> exists i' n', scan_digits (step_for b) (s ++ suf) i false n = scan_digits (step_for b) suf i' true n').
Proof.
  induction s as [|c s IH]; intros i n acc v H Ha Hi Hu; cbn [spelled app digit_count] in *.
  - injection H as <-. pose proof (uval_bounds _ Hi). split; [intros _; exists i; rewrite Z.add_0_r; auto|lia].
  - cbn [scan_digits]. destruct (Z.eqb_spec c 95) as [->|Hc].
    + change (lower 95) with 127. cbn [Z.eqb Pos.eqb orb]. rewrite Z.add_0_l. eapply IH; eassumption.
    + destruct (digit_of c) as [d|] eqn:Ed; [|discriminate]. destruct (Z.ltb_spec d (radix b)) as [Hd|]; [|discriminate].
      destruct (digit_lower c d Ed) as (L1 & L2 & L3 & L4 & _). destruct (digit_range c d Ed) as [_ [D0 _]].
      rewrite (proj2 (Z.eqb_neq _ _) L1), (proj2 (Z.eqb_neq _ _) L2), (proj2 (Z.eqb_neq _ _) L3), (proj2 (Z.eqb_neq _ _) L4). cbn [orb].
      assert (2 <= radix b) by (destruct b; cbn; lia).
      assert (Hnn : 0 <= acc * radix b + d) by nia.
      pose proof (spelled_ge b s _ v Hnn H) as Hv.
      pose proof (step_ok b i c d acc Ed Hd Hi Hu) as St.
      destruct (step_for b i false c) as [i' w'] eqn:Es. destruct St as [St1 St2].
      destruct (Z.ltb_spec (acc * radix b + d) (2 ^ 128)) as [Hlt|Hge].
      * destruct (St1 Hlt) as (-> & Wi & Ui).
        destruct (IH i' (n + 1) _ v H Hnn Wi Ui) as [P1 P2]. split; [|exact P2].
        intros Hv2. destruct (P1 Hv2) as (i2 & E & W2 & U2). exists i2. rewrite E. split; [f_equal; lia|auto].
      * split; [lia|]. intros Hb _. rewrite (St2 Hb Hge). eapply scan_sticky. exact H.
Qed.

(** ** The type and range part *)
Lemma finish_spec i k n : wf128 i -> uval i = n -> (ksigned k = true -> n < 2 ^ 127) ->
  finish i k = (if (kmin k <=? n) && (n <=? kmax k) then LOk (mkInt i k) else LError) /\ value (mkInt i k) = n.
Proof.
  intros Hi Hu Hs. assert (V : value (mkInt i k) = n).
  { unfold value; cbn [ival itype]. destruct (ksigned k) eqn:Es; [|exact Hu].
    unfold sval. rewrite Hu. destruct (Z.ltb_spec n (2 ^ 127)); [reflexivity|]. specialize (Hs eq_refl). lia. }
  split; [|exact V]. unfold finish. pose proof (int_fits_spec (mkInt i k) k Hi) as F. rewrite V in F. unfold in_kind in F.
  destruct (int_fits (mkInt i k) k); destruct ((kmin k <=? n) && (n <=? kmax k)) eqn:E; try reflexivity.
  - assert (kmin k <= n <= kmax k) by (apply F; reflexivity). lia.
  - assert (false = true) by (apply F; lia). discriminate.
Qed.

Definition good (n : Z) (r : LitRes) : Prop :=
  match r with LOk c => valid c /\ value c = n | _ => True end.

Lemma finish_good i k n : wf128 i -> uval i = n -> (ksigned k = true -> n < 2 ^ 127) -> good n (finish i k).
Proof.
  intros Hi Hu Hs. destruct (finish_spec i k n Hi Hu Hs) as [-> V].
  destruct ((kmin k <=? n) && (n <=? kmax k)) eqn:E; [|exact I]. split; [|exact V]. split; [exact Hi|]. rewrite V. cbn [itype]. unfold in_kind. lia.
Qed.

Lemma kind_by_bitsize_signed u b k : kind_by_bitsize u b = Some k -> ksigned k = negb u /\ kbits k = b.
Proof.
  unfold kind_by_bitsize. repeat match goal with |- context [if ?x =? ?y then _ else _] => destruct (Z.eqb_spec x y) end;
    try discriminate; intros [= <-]; subst; destruct u; split; reflexivity.
Qed.

Lemma pick_in i m ks k : pick_kind i m ks = Some k -> In k ks.
Proof.
  induction ks as [|x r IH]; cbn [pick_kind]; [discriminate|].
  destruct (kbits x <? m); [intros H; right; auto|]. destruct (int_fits (mkInt i x) x); [intros [= ->]; left; reflexivity|intros H; right; auto].
Qed.
Lemma kinds_of_signed u k : In k (kinds_of u) -> ksigned k = negb u.
Proof. destruct u; cbn; intuition subst; reflexivity. Qed.

Definition no_crash_width (sc : Scan) : Prop :=
  match sc_suffix sc with Some (_, tb) => tb <> 1 /\ tb <> 2 /\ tb <> 4 | None => True end.

Lemma finish_lit_good cint bpd u sc n :
  (sc_wrapped sc = false -> wf128 (sc_i sc) /\ uval (sc_i sc) = n) ->
  (match sc_suffix sc with Some (false, _) => n < 2 ^ 127 | Some _ => True | None => u = false -> n < 2 ^ 127 end) ->
  good n (finish_lit cint bpd u sc).
Proof.
  intros Hw Hs. unfold finish_lit. destruct (sc_wrapped sc); [exact I|]. destruct (Hw eq_refl) as [Wi Ui]. clear Hw.
  set (p := match sc_suffix sc with Some p => p | None => (u, 0) end).
  assert (Hp : fst p = false -> n < 2 ^ 127).
  { subst p. destruct (sc_suffix sc) as [[s tb]|]; cbn [fst]; [intros ->; exact Hs|exact Hs]. }
  destruct p as [un tb]. cbn [fst] in Hp.
  assert (SZ : forall b, good n (match kind_by_bitsize un b with Some k => finish (sc_i sc) k | None => LCrash end)).
  { intros b. destruct (kind_by_bitsize un b) as [k|] eqn:Ek; [|exact I].
    apply kind_by_bitsize_signed in Ek. apply finish_good; try assumption. destruct Ek as [-> _]. destruct un; [discriminate|auto]. }
  destruct (negb (tb =? 0)).
  - destruct ((tb <? 0) || negb (is_power_of_two tb) || (128 <? tb)); [exact I|]. apply SZ.
  - destruct (bpd * sc_count sc =? 0).
    + destruct (pick_kind (sc_i sc) cint (kinds_of un)) as [k|] eqn:Ep; [|apply SZ].
      apply pick_in, kinds_of_signed in Ep. apply finish_good; try assumption. rewrite Ep. destruct un; [discriminate|auto].
    + destruct (128 <? bpd * sc_count sc); [exact I|]. apply SZ.
Qed.

(** Widths derived from a digit count always exist. *)
Lemma pow2_width_sweep : forallb (fun tb =>
   let tb1 := if tb <? 8 then 8 else tb in
   let tb2 := if is_power_of_two tb1 then tb1 else next_pow2 tb1 in
   match kind_by_bitsize true tb2, kind_by_bitsize false tb2 with Some k, Some k' => (tb <=? kbits k) && (kbits k =? kbits k') | _, _ => false end)
   (map Z.of_nat (seq 1 128)) = true.
Proof. vm_compute. reflexivity. Qed.
Lemma pow2_width un tb : 0 < tb <= 128 ->
   exists k, kind_by_bitsize un (if is_power_of_two (if tb <? 8 then 8 else tb) then (if tb <? 8 then 8 else tb) else next_pow2 (if tb <? 8 then 8 else tb)) = Some k
     /\ tb <= kbits k.
Proof.
  intros H. pose proof pow2_width_sweep as A. rewrite forallb_forall in A. specialize (A tb).
  assert (In tb (map Z.of_nat (seq 1 128))) as HI.
  { replace tb with (Z.of_nat (Z.to_nat tb)) by lia. apply in_map, in_seq. lia. }
  specialize (A HI). cbv zeta in A.
  destruct (kind_by_bitsize true _) as [k|] eqn:E1; [|discriminate]. destruct (kind_by_bitsize false _) as [k'|] eqn:E2; [|discriminate].
  destruct un; [exists k|exists k']; (split; [assumption|lia]).
Qed.

Lemma pow2_tb_sweep : forallb (fun tb => if is_power_of_two tb then (tb =? 1) || (tb =? 2) || (tb =? 4) ||
    match kind_by_bitsize true tb, kind_by_bitsize false tb with Some _, Some _ => true | _, _ => false end else true)
   (map Z.of_nat (seq 1 128)) = true.
Proof. vm_compute. reflexivity. Qed.

Lemma finish_no_crash i k : finish i k <> LCrash.
Proof. unfold finish. destruct (int_fits _ _); discriminate. Qed.

Lemma finish_lit_no_crash cint bpd u sc : cint = 16 \/ cint = 32 -> 0 <= bpd * sc_count sc -> no_crash_width sc -> finish_lit cint bpd u sc <> LCrash.
Proof.
  intros Hc Hcount Hn. unfold finish_lit, no_crash_width in *. destruct (sc_wrapped sc); [discriminate|].
  set (p := match sc_suffix sc with Some p => p | None => (u, 0) end).
  assert (Hp : snd p <> 1 /\ snd p <> 2 /\ snd p <> 4) by (subst p; destruct (sc_suffix sc) as [[s tb]|]; cbn [snd]; [exact Hn|lia]).
  destruct p as [un tb]. cbn [snd] in Hp.
  destruct (Z.eqb_spec tb 0) as [E0|E0]; cbn [negb].
  - destruct (Z.eqb_spec (bpd * sc_count sc) 0) as [E1|E1].
    + destruct (pick_kind _ _ _); [apply finish_no_crash|]. destruct Hc as [-> | ->]; apply finish_no_crash.
    + destruct (Z.ltb_spec 128 (bpd * sc_count sc)); [discriminate|].
      destruct (pow2_width un (bpd * sc_count sc) ltac:(lia)) as (k & Ek & _). rewrite Ek. apply finish_no_crash.
  - destruct ((tb <? 0) || negb (is_power_of_two tb) || (128 <? tb)) eqn:E; [discriminate|].
    pose proof pow2_tb_sweep as A. rewrite forallb_forall in A. specialize (A tb).
    assert (In tb (map Z.of_nat (seq 1 128))) as HI.
    { replace tb with (Z.of_nat (Z.to_nat tb)) by lia. apply in_map, in_seq. lia. }
    specialize (A HI). destruct (is_power_of_two tb); [|lia].
    destruct (kind_by_bitsize true tb) eqn:T1; destruct (kind_by_bitsize false tb) eqn:T2; destruct un; rewrite ?T1, ?T2; try apply finish_no_crash; lia.
Qed.

(** ** Whole literals *)
Definition suffix_result (suf : list Z) : option (bool * Z) :=
  match suf with
  | [] => None
  | c :: r => if lower c =? 117 then Some (true, read_int_suffix c r) else Some (false, read_int_suffix c r)
  end.
Lemma scan_suffix step suf i w n : is_suffix suf -> scan_digits step suf i w n = mkScan i w n (suffix_result suf).
Proof.
  intros [->|(c & r & -> & H)]; [reflexivity|]. cbn [In] in H.
  destruct H as [<-|[<-|[<-|[<-|[<-|[<-|[]]]]]]]; reflexivity.
Qed.

Lemma spelled_first b s v : s <> [] -> spelled b 0 s = Some v -> exists c r, s = c :: r /\ (c = 95 \/ exists d, digit_of c = Some d /\ d < radix b).
Proof.
  destruct s as [|c r]; [contradiction|]. intros _ H. exists c, r. split; [reflexivity|]. cbn [spelled] in H.
  destruct (Z.eqb_spec c 95); [left; assumption|]. right. destruct (digit_of c) as [d|]; [|discriminate].
  exists d. split; [reflexivity|]. destruct (Z.ltb_spec d (radix b)); [assumption|discriminate].
Qed.

Definition base_unsigned (b : Base) : bool := match b with Dec => false | _ => true end.

Lemma parse_integer_scan cint b p s suf n : is_prefix b p -> s <> [] -> spelled b 0 s = Some n -> is_suffix suf ->
  parse_integer cint (p ++ s ++ suf) =
  finish_lit cint (digit_bits b) (base_unsigned b) (scan_digits (step_for b) (s ++ suf) zero128 false 0).
Proof.
  intros Hp Hs Hn Hf. destruct b; cbn [is_prefix] in Hp.
  - destruct s as [|c r]; [contradiction|]. destruct Hp as [-> | ->]; reflexivity.
  - destruct s as [|c r]; [contradiction|]. destruct Hp as [-> | ->]; reflexivity.
  - subst p. cbn [app digit_bits base_unsigned step_for].
    assert (G : exists c, match s ++ suf with _ :: c1 :: _ :: _ => lower c1 | _ => 48 end = c /\ c <> 120 /\ c <> 111 /\ c <> 98).
    { eexists; split; [reflexivity|].
      destruct s as [|c0 s]; [contradiction|]. cbn [app].
      assert (X : forall c, (c = 95 \/ (exists d, digit_of c = Some d /\ d < 10)) \/ In c [117; 85; 105; 73; 108; 76] -> lower c <> 120 /\ lower c <> 111 /\ lower c <> 98).
      { intros c [[->|(d & Hd & H10)]|HIn]; [cbv; lia| |].
        - destruct (digit_lower c d Hd) as (_ & _ & _ & _ & _ & L). destruct (L H10) as [L1 L2]. rewrite L2. lia.
        - cbn in HIn. destruct HIn as [<-|[<-|[<-|[<-|[<-|[<-|[]]]]]]]; cbv; lia. }
      destruct s as [|c1 s].
      - cbn [app]. destruct Hf as [->|(c1 & r & -> & HIn)]; [lia|]. destruct r; [lia|]. apply X. right; exact HIn.
      - cbn [app]. destruct (s ++ suf); [lia|]. apply X. left.
        cbn [spelled] in Hn. destruct (Z.eqb_spec c0 95); destruct (Z.eqb_spec c1 95); try (left; assumption); right.
        + destruct (digit_of c1) as [d|]; [|discriminate]. exists d. split; [reflexivity|]. destruct (Z.ltb_spec d (radix Dec)); [assumption|discriminate].
        + destruct (digit_of c0) as [d0|]; [|discriminate]. destruct (d0 <? radix Dec); [|discriminate].
          destruct (digit_of c1) as [d|]; [|discriminate]. exists d. split; [reflexivity|]. destruct (Z.ltb_spec d (radix Dec)); [assumption|discriminate]. }
    destruct G as (c & E & N1 & N2 & N3). unfold parse_integer. rewrite E.
    rewrite (proj2 (Z.eqb_neq _ _) N1), (proj2 (Z.eqb_neq _ _) N2), (proj2 (Z.eqb_neq _ _) N3). reflexivity.
  - destruct s as [|c r]; [contradiction|]. destruct Hp as [-> | ->]; reflexivity.
Qed.

Lemma signed_suffix_result b suf : is_suffix suf ->
  match suffix_result suf with Some (false, _) => signed_literal b suf | Some _ => True | None => base_unsigned b = false -> signed_literal b suf end.
Proof.
  intros [->|(c & r & -> & H)]; [destruct b; cbn; intros; congruence|cbn].
  destruct H as [<-|[<-|[<-|[<-|[<-|[<-|[]]]]]]]; cbn; auto.
Qed.

Lemma digit_count_nonneg s : 0 <= digit_count s.
Proof. induction s as [|c r IH]; cbn [digit_count]; [lia|]. destruct (c =? 95); lia. Qed.

Lemma literal_good cint b p s suf n : is_prefix b p -> s <> [] -> spelled b 0 s = Some n -> is_suffix suf ->
  (b = Dec -> n < 2 ^ 128) -> (signed_literal b suf -> n < 2 ^ 127) ->
  good n (parse_integer cint (p ++ s ++ suf)).
Proof.
  intros Hp Hs Hn Hf Hd Hsg. rewrite (parse_integer_scan cint b p s suf n) by assumption.
  destruct (scan_ok b suf s zero128 0 0 n Hn ltac:(lia) wf_zero eq_refl) as [P1 P2].
  pose proof (signed_suffix_result b suf Hf) as Sg.
  apply finish_lit_good.
  - destruct (Z.ltb_spec n (2 ^ 128)) as [Hlt|Hge].
    + destruct (P1 Hlt) as (i' & E & W1 & U1). rewrite E, scan_suffix by assumption. auto.
    + assert (b <> Dec) by (intros ->; specialize (Hd eq_refl); lia).
      destruct (P2 H Hge) as (i' & n' & E). rewrite E, scan_suffix by assumption. discriminate.
  - assert (Esf : exists i w m, scan_digits (step_for b) (s ++ suf) zero128 false 0 = mkScan i w m (suffix_result suf)).
    { destruct (Z.ltb_spec n (2 ^ 128)) as [Hlt|Hge].
      - destruct (P1 Hlt) as (i' & E & W1 & U1). rewrite E, scan_suffix by assumption. eauto.
      - assert (b <> Dec) by (intros ->; specialize (Hd eq_refl); lia).
        destruct (P2 H Hge) as (i' & n' & E). rewrite E, scan_suffix by assumption. eauto. }
    destruct Esf as (i & w & m & ->). cbn [sc_suffix].
    destruct (suffix_result suf) as [[[|] tb]|]; auto.
Qed.

Lemma literal_too_big cint b p s suf n : b <> Dec -> is_prefix b p -> s <> [] -> spelled b 0 s = Some n -> is_suffix suf ->
  2 ^ 128 <= n -> parse_integer cint (p ++ s ++ suf) = LError.
Proof.
  intros Hb Hp Hs Hn Hf Hge. rewrite (parse_integer_scan cint b p s suf n) by assumption.
  destruct (scan_ok b suf s zero128 0 0 n Hn ltac:(lia) wf_zero eq_refl) as [_ P2].
  destruct (P2 Hb Hge) as (i' & n' & E). rewrite E, scan_suffix by assumption. reflexivity.
Qed.

(** Sized suffix: accepted exactly when the value fits. *)
Lemma suffix_text_suffix k : is_suffix (suffix_text k).
Proof. right. destruct k; do 2 eexists; (split; [reflexivity|cbn; tauto]). Qed.
Lemma suffix_text_result k : suffix_result (suffix_text k) = Some (negb (ksigned k), kbits k).
Proof. destruct k; reflexivity. Qed.

Lemma literal_sized cint b p s k n : is_prefix b p -> s <> [] -> spelled b 0 s = Some n ->
  n < (if ksigned k then 2 ^ 127 else 2 ^ 128) ->
  (n <= kmax k -> exists c, parse_integer cint (p ++ s ++ suffix_text k) = LOk c /\ itype c = k /\ valid c /\ value c = n) /\
  (kmax k < n -> parse_integer cint (p ++ s ++ suffix_text k) = LError).
Proof.
  intros Hp Hs Hn Hlt. rewrite (parse_integer_scan cint b p s _ n) by (try assumption; apply suffix_text_suffix).
  destruct (scan_ok b (suffix_text k) s zero128 0 0 n Hn ltac:(lia) wf_zero eq_refl) as [P1 _].
  assert (n < 2 ^ 128) as H128 by (destruct (ksigned k); consts; lia).
  destruct (P1 H128) as (i' & E & W1 & U1). rewrite E, scan_suffix by apply suffix_text_suffix.
  pose proof (spelled_ge b s 0 n ltac:(lia) Hn) as H0.
  assert (EF : finish_lit cint (digit_bits b) (base_unsigned b) (mkScan i' false (0 + digit_count s) (suffix_result (suffix_text k))) = finish i' k).
  { rewrite suffix_text_result. unfold finish_lit. cbn [sc_wrapped sc_suffix sc_i sc_count]. destruct k; reflexivity. }
  rewrite EF. destruct (finish_spec i' k n W1 U1) as [F V]; [intros Hk; rewrite Hk in Hlt; exact Hlt|].
  assert (kmin k <= 0) by (destruct k; cbn; lia).
  rewrite F. destruct ((kmin k <=? n) && (n <=? kmax k)) eqn:Ek; split; intros; try lia; [|reflexivity].
  eexists; split; [reflexivity|]. split; [reflexivity|]. split; [|exact V]. split; [exact W1|]. rewrite V. unfold in_kind; cbn [itype]; lia.
Qed.

(** Unsuffixed decimal below 2^127. *)
Lemma pick_none i m k ks : In k ks -> m <= kbits k -> int_fits (mkInt i k) k = true -> pick_kind i m ks <> None.
Proof.
  induction ks as [|x r IH]; intros HI Hm Hf; [destruct HI|]. cbn [pick_kind].
  destruct (Z.ltb_spec (kbits x) m); [destruct HI as [->|HI]; [lia|auto]|].
  destruct (int_fits (mkInt i x) x) eqn:E; [discriminate|]. destruct HI as [->|HI]; [congruence|auto].
Qed.
Lemma pick_fits i m ks k : pick_kind i m ks = Some k -> int_fits (mkInt i k) k = true /\ m <= kbits k.
Proof.
  induction ks as [|x r IH]; cbn [pick_kind]; [discriminate|].
  destruct (Z.ltb_spec (kbits x) m); [exact IH|]. destruct (int_fits (mkInt i x) x) eqn:E; [intros [= <-]; auto|exact IH].
Qed.

Lemma literal_dec_plain cint s n : cint = 16 \/ cint = 32 -> s <> [] -> spelled Dec 0 s = Some n -> n < 2 ^ 127 ->
  exists c, parse_integer cint s = LOk c /\ ksigned (itype c) = true /\ valid c /\ value c = n.
Proof.
  intros Hc Hs Hn Hlt.
  assert (EA : parse_integer cint s = parse_integer cint ([] ++ s ++ [])) by (rewrite app_nil_r; reflexivity).
  rewrite EA, (parse_integer_scan cint Dec [] s [] n) by (try assumption; try reflexivity; left; reflexivity).
  destruct (scan_ok Dec [] s zero128 0 0 n Hn ltac:(lia) wf_zero eq_refl) as [P1 _].
  destruct (P1 ltac:(consts; lia)) as (i' & E & W1 & U1). rewrite E, scan_suffix by (left; reflexivity).
  pose proof (spelled_ge Dec s 0 n ltac:(lia) Hn) as H0.
  unfold finish_lit. cbn [sc_wrapped sc_suffix sc_i sc_count suffix_result digit_bits base_unsigned negb Z.eqb Z.mul].
  assert (FI : int_fits (mkInt i' I128) I128 = true).
  { apply int_fits_spec; [exact W1|]. destruct (finish_spec i' I128 n W1 U1 ltac:(auto)) as [_ V]. rewrite V. unfold in_kind, kmin, kmax; cbn [ksigned kbits]. change (128 - 1) with 127. consts; lia. }
  destruct (pick_kind i' cint (kinds_of false)) as [k|] eqn:Ep.
  2:{ exfalso. revert Ep. apply (pick_none i' cint I128); [cbn; tauto|destruct Hc; subst; cbn; lia|exact FI]. }
  pose proof (pick_in _ _ _ _ Ep) as Ik. apply kinds_of_signed in Ik. cbn in Ik.
  destruct (pick_fits _ _ _ _ Ep) as [Fk _].
  destruct (finish_spec i' k n W1 U1 ltac:(auto)) as [_ V]. unfold finish. rewrite Fk.
  eexists; split; [reflexivity|]. split; [exact Ik|]. split; [|exact V]. split; [exact W1|]. rewrite V. cbn [itype]. rewrite <- V. apply (int_fits_spec (mkInt i' k) k W1). exact Fk.
Qed.

(** Unsuffixed hex, octal and binary: an unsigned type with at least as many bits as the digits. *)
Lemma spelled_bound b s : b <> Dec -> forall acc v, 0 <= acc -> spelled b acc s = Some v ->
   v < (acc + 1) * 2 ^ (digit_bits b * digit_count s).
Proof.
  intros Hb. destruct (radix_pow2 b Hb) as [Er Hbits].
  induction s as [|c s IH]; intros acc v Ha; cbn [spelled digit_count].
  - intros [= <-]. rewrite Z.mul_0_r. change (2 ^ 0) with 1. lia.
  - destruct (c =? 95); [rewrite Z.add_0_l; apply IH; exact Ha|].
    destruct (digit_of c) as [d|] eqn:Ed; [|discriminate]. destruct (Z.ltb_spec d (radix b)) as [Hd|]; [|discriminate].
    destruct (digit_range c d Ed) as [_ [D0 _]]. intros H.
    apply IH in H; [|nia]. pose proof (digit_count_nonneg s).
    apply Z.lt_le_trans with (1 := H).
    replace (digit_bits b * (1 + digit_count s)) with (digit_bits b + digit_bits b * digit_count s) by lia.
    rewrite Z.pow_add_r by nia. rewrite Z.mul_assoc. apply Z.mul_le_mono_nonneg_r; [pose proof (pow_pos (digit_bits b * digit_count s) ltac:(nia)); lia|].
    rewrite <- Er. nia.
Qed.

Lemma literal_pow2_plain cint b p s n : b <> Dec -> is_prefix b p -> s <> [] -> spelled b 0 s = Some n ->
  0 < digit_count s -> digit_bits b * digit_count s <= 128 ->
  exists c, parse_integer cint (p ++ s) = LOk c /\ ksigned (itype c) = false /\ digit_bits b * digit_count s <= kbits (itype c) /\ valid c /\ value c = n.
Proof.
  intros Hb Hp Hs Hn Hc0 Hc.
  assert (EA : p ++ s = p ++ s ++ []) by (rewrite app_nil_r; reflexivity).
  rewrite EA, (parse_integer_scan cint b p s [] n) by (try assumption; left; reflexivity).
  destruct (scan_ok b [] s zero128 0 0 n Hn ltac:(lia) wf_zero eq_refl) as [P1 _].
  pose proof (spelled_bound b s Hb 0 n ltac:(lia) Hn) as Bd. rewrite Z.add_0_l, Z.mul_1_l in Bd.
  destruct (radix_pow2 b Hb) as [Er Hbits].
  assert (n < 2 ^ 128) as H128 by (apply Z.lt_le_trans with (1 := Bd); apply Z.pow_le_mono_r; lia).
  destruct (P1 H128) as (i' & E & W1 & U1). rewrite E, scan_suffix by (left; reflexivity).
  pose proof (spelled_ge b s 0 n ltac:(lia) Hn) as H0.
  unfold finish_lit. cbn [sc_wrapped sc_suffix sc_i sc_count suffix_result].
  replace (base_unsigned b) with true by (destruct b; try reflexivity; contradiction).
  change (negb (0 =? 0)) with false. cbv iota. rewrite Z.add_0_l.
  destruct (Z.eqb_spec (digit_bits b * digit_count s) 0); [nia|].
  destruct (Z.ltb_spec 128 (digit_bits b * digit_count s)); [lia|].
  destruct (pow2_width true (digit_bits b * digit_count s) ltac:(nia)) as (k & Ek & Hk). rewrite Ek.
  apply kind_by_bitsize_signed in Ek. destruct Ek as [Sk _]. cbn in Sk.
  destruct (finish_spec i' k n W1 U1 ltac:(congruence)) as [F V].
  assert (n <= kmax k) as Hmax.
  { unfold kmax. rewrite Sk. assert (2 ^ (digit_bits b * digit_count s) <= 2 ^ kbits k) by (apply Z.pow_le_mono_r; lia). lia. }
  assert (kmin k = 0) as Hmin by (unfold kmin; rewrite Sk; reflexivity).
  rewrite F, Hmin. replace ((0 <=? n) && (n <=? kmax k)) with true by lia.
  eexists; split; [reflexivity|]. cbn [itype]. repeat split; try assumption; try apply W1; rewrite V; cbn [itype]; lia.
Qed.

Lemma literal_no_crash cint b p s suf n : cint = 16 \/ cint = 32 -> is_prefix b p -> s <> [] -> spelled b 0 s = Some n -> is_suffix suf ->
  (b = Dec -> n < 2 ^ 128) ->
  match suffix_result suf with Some (_, tb) => tb <> 1 /\ tb <> 2 /\ tb <> 4 | None => True end ->
  parse_integer cint (p ++ s ++ suf) <> LCrash.
Proof.
  intros Hc Hp Hs Hn Hf Hd Hnc. rewrite (parse_integer_scan cint b p s suf n) by assumption.
  destruct (scan_ok b suf s zero128 0 0 n Hn ltac:(lia) wf_zero eq_refl) as [P1 P2].
  destruct (Z.ltb_spec n (2 ^ 128)) as [Hlt|Hge].
  - destruct (P1 Hlt) as (i' & E & W1 & U1). rewrite E, scan_suffix by assumption.
    apply finish_lit_no_crash; [exact Hc| |exact Hnc]. cbn [sc_count]. pose proof (digit_count_nonneg s). destruct b; cbn [digit_bits]; lia.
  - assert (b <> Dec) by (intros ->; specialize (Hd eq_refl); lia).
    destruct (P2 H Hge) as (i' & n' & E). rewrite E, scan_suffix by assumption. discriminate.
Qed.
