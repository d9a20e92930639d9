(** Proofs about base64. *)
From Coq Require Import ZArith Bool List Lia ZifyBool.
From Verif Require Import Mach ListAux CodecModel CodecSpec CodecProofs.
Import ListNotations.
Open Scope Z_scope.

(** ** Bit blasting of a few shifts *)
Lemma small_bits k v : 0 <= v < 2 ^ k -> forall i, k <= i -> Z.testbit v i = false.
Proof.
  intros H i Hi. destruct (Z.eq_dec v 0) as [->|Hv]; [apply Z.testbit_0_l|].
  assert (0 <= k) by (destruct (Z.ltb_spec k 0); [rewrite Z.pow_neg_r in H by assumption; lia|assumption]).
  apply Z.bits_above_log2; [lia|]. assert (Z.log2 v < k) by (apply Z.log2_lt_pow2; lia). lia.
Qed.
Ltac idx := repeat match goal with |- context [Z.testbit _ ?e] =>
  lazymatch e with
  | Z.add _ _ => idtac | Z.sub _ _ => idtac | Z.of_nat _ => idtac end;
  let j := eval compute in e in change e with j end.
Ltac bit1 :=
  idx; repeat first [rewrite Z.lor_spec | rewrite Z.land_spec | rewrite Z.shiftr_spec by lia | rewrite Z.shiftl_spec by lia
                    | rewrite Z.mod_pow2_bits_low by lia | rewrite Z.mod_pow2_bits_high by lia ]; idx;
  repeat first [rewrite Z.testbit_neg_r by lia
               | match goal with H : forall i, _ -> Z.testbit ?x i = false |- context [Z.testbit ?x _] => rewrite H by lia end];
  repeat match goal with |- context [Z.testbit (Zpos ?p) ?j] => let v := eval compute in (Z.testbit (Zpos p) j) in change (Z.testbit (Zpos p) j) with v end;
  rewrite ?andb_true_r, ?andb_false_r, ?orb_false_r, ?orb_false_l, ?Z.testbit_0_l; try reflexivity.
Ltac blast := unfold byte, u32; change 256 with (2 ^ 8); cbn [bits];
  repeat match goal with |- _ :: _ = _ :: _ => apply f_equal2; [bit1|] end; try reflexivity.
Lemma land63 v : 0 <= Z.land v 63 < 2 ^ Z.of_nat 6.
Proof. change 63 with (Z.ones 6). rewrite Z.land_ones by lia. apply Z.mod_pos_bound. lia. Qed.
Lemma land31 v : 0 <= Z.land v 31 < 2 ^ Z.of_nat 5.
Proof. change 31 with (Z.ones 5). rewrite Z.land_ones by lia. apply Z.mod_pos_bound. lia. Qed.
Lemma byte_range v : 0 <= byte v < 2 ^ Z.of_nat 8.
Proof. apply Z.mod_pos_bound. lia. Qed.


Lemma digits_app k x y n : (0 < k)%nat -> length x = (n * k)%nat -> digits k (x ++ y) = digits k x ++ digits k y.
Proof.
  intros Hk. revert x. induction n as [|n IH]; intros x Hx.
  - destruct x; [reflexivity|discriminate].
  - destruct (split_bits x k ltac:(lia)) as (a & b & -> & Ha). rewrite app_length in Hx.
    rewrite <- app_assoc, digits_more, (digits_more k a b), IH by (try assumption; lia). reflexivity.
Qed.
Lemma whole_app k x y n : (0 < k)%nat -> length x = (n * k)%nat -> whole k (x ++ y) = whole k x ++ whole k y.
Proof.
  intros Hk. revert x. induction n as [|n IH]; intros x Hx.
  - destruct x; [reflexivity|discriminate].
  - destruct (split_bits x k ltac:(lia)) as (a & b & -> & Ha). rewrite app_length in Hx.
    rewrite <- app_assoc, whole_more, (whole_more k a b), IH by (try assumption; lia). reflexivity.
Qed.
Lemma split_list {A} (l : list A) n : (n <= length l)%nat -> exists a b, l = a ++ b /\ length a = n.
Proof. intros H. exists (firstn n l), (skipn n l). split; [symmetry; apply firstn_skipn|]. rewrite firstn_length. lia. Qed.
Lemma Forall_app_inv {A} (P : A -> Prop) a b : Forall P (a ++ b) -> Forall P a /\ Forall P b.
Proof. apply Forall_app. Qed.

Ltac fcons H n := apply Forall_cons_iff in H; destruct H as [n H].
Lemma fin_ok (m w dd rr r : list Z) n : length dd = length m -> length rr = length w -> n = zlen m + zlen w ->
  (x <- upto (m ++ w ++ r) n ;; Ok (x, m ++ w ++ r)) = Ok (m ++ w, (m ++ w) ++ skipn (length (m ++ w)) (dd ++ rr ++ r)).
Proof.
  intros H1 H2 ->. rewrite app_assoc, upto_at by (rewrite zlen_app; reflexivity). cbn [bind]. f_equal. f_equal. f_equal.
  rewrite app_assoc, skipn_app_len; [reflexivity|]. rewrite !app_length. lia.
Qed.
Section B64.
Context (al : alphabet) (G : good_alphabet 6 (encoding al) (reverse al)).
Notation letter := (letter (encoding al)).
Notation range := (Forall (fun d => 0 <= d < 2 ^ Z.of_nat 6)).

Section G3.
Variables (a b c : Z).
Hypotheses (Ha : is_byte a) (Hb : is_byte b) (Hc : is_byte c).
Lemma digits3 bs : let g := Z.lor (Z.lor (Z.shiftl a 16) (Z.shiftl b 8)) c in
  digits 6 (bits 8 a ++ bits 8 b ++ bits 8 c ++ bs) =
  Z.land (Z.shiftr g 18) 63 :: Z.land (Z.shiftr g 12) 63 :: Z.land (Z.shiftr g 6) 63 :: Z.land g 63 :: digits 6 bs.
Proof.
  intros g. pose proof (small_bits 8 a Ha) as Sa. pose proof (small_bits 8 b Hb) as Sb. pose proof (small_bits 8 c Hc) as Sc.
  change (bits 8 a ++ bits 8 b ++ bits 8 c ++ bs) with
    ([Z.testbit a 7; Z.testbit a 6; Z.testbit a 5; Z.testbit a 4; Z.testbit a 3; Z.testbit a 2] ++
     [Z.testbit a 1; Z.testbit a 0; Z.testbit b 7; Z.testbit b 6; Z.testbit b 5; Z.testbit b 4] ++
     [Z.testbit b 3; Z.testbit b 2; Z.testbit b 1; Z.testbit b 0; Z.testbit c 7; Z.testbit c 6] ++
     [Z.testbit c 5; Z.testbit c 4; Z.testbit c 3; Z.testbit c 2; Z.testbit c 1; Z.testbit c 0] ++ bs).
  rewrite !digits_more by (cbn; lia). subst g.
  repeat (apply f_equal2; [apply (number_eq 6); [blast|apply land63]|]). reflexivity.
Qed.
Lemma digits2 : let g := Z.lor (Z.shiftl a 16) (Z.shiftl b 8) in
  digits 6 (bits 8 a ++ bits 8 b ++ []) = [Z.land (Z.shiftr g 18) 63; Z.land (Z.shiftr g 12) 63; Z.land (Z.shiftr g 6) 63].
Proof.
  intros g. pose proof (small_bits 8 a Ha) as Sa. pose proof (small_bits 8 b Hb) as Sb.
  change (bits 8 a ++ bits 8 b ++ []) with
    ([Z.testbit a 7; Z.testbit a 6; Z.testbit a 5; Z.testbit a 4; Z.testbit a 3; Z.testbit a 2] ++
     [Z.testbit a 1; Z.testbit a 0; Z.testbit b 7; Z.testbit b 6; Z.testbit b 5; Z.testbit b 4] ++
     [Z.testbit b 3; Z.testbit b 2; Z.testbit b 1; Z.testbit b 0]).
  rewrite !digits_more by (cbn; lia). rewrite digits_last by (cbn; (lia || discriminate)). cbn [length Nat.sub repeat app]. subst g.
  repeat (apply f_equal2; [apply (number_eq 6); [blast|apply land63]|]). reflexivity.
Qed.
Lemma digits1 : let g := Z.shiftl a 16 in digits 6 (bits 8 a ++ []) = [Z.land (Z.shiftr g 18) 63; Z.land (Z.shiftr g 12) 63].
Proof.
  intros g. pose proof (small_bits 8 a Ha) as Sa.
  change (bits 8 a ++ []) with
    ([Z.testbit a 7; Z.testbit a 6; Z.testbit a 5; Z.testbit a 4; Z.testbit a 3; Z.testbit a 2] ++ [Z.testbit a 1; Z.testbit a 0]).
  rewrite !digits_more by (cbn; lia). rewrite digits_last by (cbn; (lia || discriminate)). cbn [length Nat.sub repeat app]. subst g.
  repeat (apply f_equal2; [apply (number_eq 6); [blast|apply land63]|]). reflexivity.
Qed.
End G3.

Lemma enc_loop_ok : forall n f src3 d r, length src3 = (3 * n)%nat -> (n < f)%nat -> Forall is_byte src3 -> (4 * n <= length r)%nat ->
  b64_enc_loop f al src3 (d ++ r) (zlen d) =
  Ok ((d ++ map letter (digits 6 (bit_string 8 src3))) ++ skipn (4 * n) r, zlen d + 4 * Z.of_nat n).
Proof.
  induction n as [|n IH]; intros f src3 d r Hl Hf Hb Hr.
  - destruct src3; [|discriminate]. destruct f; [lia|]. cbn. rewrite app_nil_r, Z.add_0_r. reflexivity.
  - destruct f as [|f]; [lia|]. destruct src3 as [|a [|b [|c s]]]; try (cbn [length] in Hl; lia).
    destruct r as [|r0 [|r1 [|r2 [|r3 r]]]]; try (cbn [length] in Hr; lia).
    fcons Hb Ha. fcons Hb Hb1. fcons Hb Hc.
    cbn [b64_enc_loop]. replace (0 <? zlen (a :: b :: c :: s)) with true by (rewrite !zlen_cons; pose proof (zlen_nonneg s); lia).
    change (get (a :: b :: c :: s) 0) with (Ok a). change (get (a :: b :: c :: s) 1) with (Ok b). change (get (a :: b :: c :: s) 2) with (Ok c).
    cbn [bind]. rewrite !(enc_get 6 al G) by apply land63. cbn [bind]. puts.
    rewrite advance_at by (rewrite ?zlen_cons; pose proof (zlen_nonneg r); lia). cbn [bind].
    change (a :: b :: c :: s) with ([a; b; c] ++ s) at 1. rewrite from_at by reflexivity. cbn [bind].
    set (g := Z.lor (Z.lor (Z.shiftl a 16) (Z.shiftl b 8)) c).
    set (w := [letter (Z.land (Z.shiftr g 18) 63); letter (Z.land (Z.shiftr g 12) 63); letter (Z.land (Z.shiftr g 6) 63); letter (Z.land g 63)]).
    match goal with |- b64_enc_loop _ _ _ ?l ?p = _ => replace l with ((d ++ w) ++ r) by (rewrite <- app_assoc; reflexivity); replace p with (zlen (d ++ w)) by (rewrite zlen_app; reflexivity) end.
    rewrite IH by (cbn [length] in *; try lia; assumption).
    change (bit_string 8 (a :: b :: c :: s)) with (bits 8 a ++ bits 8 b ++ bits 8 c ++ bit_string 8 s). rewrite digits3 by assumption. fold g.
    cbn [map]. rewrite zlen_app. change (zlen w) with 4. f_equal. f_equal; [|lia].
    replace (4 * S n)%nat with (S (S (S (S (4 * n)))))%nat by lia. cbn [skipn]. subst w. rewrite <- !app_assoc. reflexivity.
Qed.

Lemma digits6_length n x : length x = (3 * n)%nat -> length (digits 6 (bit_string 8 x)) = (4 * n)%nat.
Proof.
  intros H. destruct (digits_spell 6 ltac:(lia) _ (bit_string 8 x) (Nat.le_refl _)) as (z & Hz & E & _).
  apply (f_equal (@length bool)) in E. rewrite app_length, !bit_string_length, repeat_length in E. lia.
Qed.
Lemma encode_len_ok n t pad : (t < 3)%nat -> 3 * Z.of_nat n + Z.of_nat t < 2 ^ 62 ->
  b64_encode_len (3 * Z.of_nat n + Z.of_nat t) pad = 4 * Z.of_nat n + match t with O => 0 | S _ => if pad =? 0 then Z.of_nat t + 1 else 4 end.
Proof.
  intros Ht Hn. unfold b64_encode_len, usz.
  assert (E1 : (3 * Z.of_nat n + Z.of_nat t + 2) / 3 = Z.of_nat n + match t with O => 0 | S _ => 1 end).
  { symmetry. apply Z.div_unique with (match t with O => 2 | S m => Z.of_nat m end); destruct t as [|[|[|t]]]; lia. }
  assert (E2 : (3 * Z.of_nat n + Z.of_nat t) mod 3 = Z.of_nat t) by (symmetry; apply Z.mod_unique with (Z.of_nat n); lia).
  assert (E3 : (3 * Z.of_nat n + Z.of_nat t) / 3 = Z.of_nat n) by (symmetry; apply Z.div_unique with (Z.of_nat t); lia).
  destruct (Z.eqb_spec pad 0); cbn [negb].
  - rewrite E2, E3. rewrite (Z.mod_small (Z.of_nat n * 4)) by lia.
    assert (E4 : (Z.of_nat t * 4 + 2) mod 2 ^ 64 / 3 = match t with O => 0 | S _ => Z.of_nat t + 1 end) by (destruct t as [|[|[|t]]]; [reflexivity|reflexivity|reflexivity|lia]).
    rewrite E4. destruct t; rewrite Z.mod_small by lia; lia.
  - rewrite (Z.mod_small (3 * Z.of_nat n + Z.of_nat t + 2)) by lia. rewrite E1. destruct t; rewrite Z.mod_small by lia; lia.
Qed.

(** The encoder writes the text and nothing else. *)
Lemma encode_ok src dst pad : good_padding 6 (encoding al) pad -> Forall is_byte src -> zlen src < 2 ^ 62 ->
  b64_encode_len (zlen src) pad <= zlen dst ->
  let t := text 6 4 (encoding al) pad src in
  zlen t = b64_encode_len (zlen src) pad /\ b64_encode_buffer src dst pad al = Ok (t, t ++ skipn (length t) dst).
Proof.
  intros [Hp _] Hb Hn Hd.
  assert (exists n s3 t, src = s3 ++ t /\ length s3 = (3 * n)%nat /\ (length t < 3)%nat) as (n & s3 & t & -> & H3 & Ht).
  { pose proof (Nat.div_mod (length src) 3 ltac:(lia)) as E. pose proof (Nat.mod_upper_bound (length src) 3 ltac:(lia)).
    set (n := (length src / 3)%nat) in *. set (m := (length src mod 3)%nat) in *. clearbody n m.
    destruct (split_list src (3 * n) ltac:(lia)) as (s3 & t & -> & H3). rewrite app_length in E. exists n, s3, t. repeat split; lia. }
  apply Forall_app_inv in Hb. destruct Hb as [Hb3 Hbt].
  assert (Hz : zlen (s3 ++ t) = 3 * Z.of_nat n + Z.of_nat (length t)) by (rewrite zlen_app; unfold zlen; lia).
  assert (Hz3 : zlen s3 = 3 * Z.of_nat n) by (unfold zlen; lia).
  rewrite Hz in *. pose proof (encode_len_ok n (length t) pad Ht Hn) as EL.
  set (ds := digits 6 (bit_string 8 s3)). assert (Hds : length ds = (4 * n)%nat) by (apply digits6_length, H3).
  assert (ET : digits 6 (bit_string 8 (s3 ++ t)) = ds ++ digits 6 (bit_string 8 t)).
  { rewrite bit_string_app. apply digits_app with (n := (4 * n)%nat); [lia|]. rewrite bit_string_length. lia. }
  assert (Em : (3 * Z.of_nat n + Z.of_nat (length t)) mod 3 = Z.of_nat (length t)) by (symmetry; apply Z.mod_unique with (Z.of_nat n); lia).
  assert (Hmiss : forall u, missing 4 (4 * n + u) = missing 4 u).
  { intros u. unfold missing. rewrite Nat.add_comm, Nat.mul_comm, Nat.mod_add by lia. reflexivity. }
  unfold b64_encode_buffer, text. cbv zeta. rewrite ET, Hz, Em, EL, map_app, app_length, !map_length, Hds, Hmiss.
  assert (Hloop : forall r, (4 * n <= length r)%nat -> b64_enc_loop (S (length (s3 ++ t))) al s3 r 0 =
     Ok (map letter ds ++ skipn (4 * n) r, 4 * Z.of_nat n)).
  { intros r Hr. change r with ([] ++ r) at 1. change 0 with (zlen (@nil Z)). rewrite enc_loop_ok with (n := n) by (try assumption; rewrite ?app_length; lia). reflexivity. }
  assert (Hdl : (4 * n <= length dst)%nat).
  { rewrite EL in Hd. unfold zlen in Hd. destruct t; cbn [length] in Hd; [lia|]. destruct (pad =? 0); lia. }
  specialize (Hloop dst Hdl).
  destruct (split_list dst (4 * n) Hdl) as (dd & r & -> & Hdd). rewrite skipn_app_len in Hloop by lia. rewrite zlen_app in Hd.
  replace (zlen dd) with (4 * Z.of_nat n) in Hd by (unfold zlen; lia).
  assert (Hpos : 4 * Z.of_nat n = zlen (map letter ds)) by (unfold zlen; rewrite map_length; lia).
  destruct (Z.eqb_spec (3 * Z.of_nat n + Z.of_nat (length t)) 0) as [H0|H0].
  { assert (n = 0%nat) by lia. assert (t = []) by (destruct t; [reflexivity|cbn [length] in H0; lia]). subst n t.
    destruct s3; [|discriminate]. destruct dd; [|discriminate]. subst ds. cbn. destruct (pad =? 0); split; reflexivity. }
  replace (zlen (dd ++ r) <? 4 * Z.of_nat n + match length t with O => 0 | S _ => if pad =? 0 then Z.of_nat (length t) + 1 else 4 end) with false
    by (rewrite zlen_app; replace (zlen dd) with (4 * Z.of_nat n) by (unfold zlen; lia); rewrite EL in Hd; lia).
  rewrite upto_at by lia. cbn [bind]. rewrite Hloop. cbn [bind]. clear Hloop. rewrite EL in Hd. clear EL ET.
  destruct t as [|a [|b [|c t]]]; [| | |cbn [length] in Ht; lia].
  - cbn [length Z.of_nat Z.eqb bind]. rewrite digits_nil. cbn [map]. rewrite app_nil_r, Z.add_0_r.
    replace (if pad =? 0 then [] else repeat pad (missing 4 (length (@nil Z)))) with (@nil Z) by (destruct (pad =? 0); reflexivity).
    rewrite !app_nil_r. split; [unfold zlen; rewrite map_length; lia|]. rewrite upto_at by exact Hpos. cbn [bind]. rewrite map_length, skipn_app_len by lia. reflexivity.
  - fcons Hbt Ha. change (bit_string 8 [a]) with (bits 8 a ++ []). rewrite digits1 by assumption.
    change (Z.of_nat (length [a])) with 1 in *. cbn [Z.eqb Pos.eqb length map]. change (missing 4 2) with 2%nat.
    rewrite get_at with (i := 0) by (rewrite ?Hz3; lia). change (get [a] 0) with (Ok a). cbn [bind].
    rewrite !(enc_get 6 al G) by apply land63. cbn [bind].
    destruct (Z.eqb_spec pad 0) as [->|Hp0].
    + change (0 <? 0) with false. destruct r as [|r0 [|r1 r]]; try (cbn in Hd; lia).
      puts. cbn [bind]. rewrite app_nil_r. split; [rewrite zlen_app, <- Hpos; reflexivity|].
      apply (fin_ok _ [_; _] dd [r0; r1] r); rewrite ?Hpos; reflexivity || (rewrite map_length; lia).
    + replace (0 <? pad) with true by lia. destruct r as [|r0 [|r1 [|r2 [|r3 r]]]]; try (cbn in Hd; lia).
      puts. cbn [bind repeat]. rewrite <- app_assoc. cbn [app]. split; [rewrite zlen_app, <- Hpos; reflexivity|].
      apply (fin_ok _ [_; _; _; _] dd [r0; r1; r2; r3] r); rewrite ?Hpos; reflexivity || (rewrite map_length; lia).
  - fcons Hbt Ha. fcons Hbt Hb.
    change (bit_string 8 [a; b]) with (bits 8 a ++ bits 8 b ++ []). rewrite digits2 by assumption.
    change (Z.of_nat (length [a; b])) with 2 in *. cbn [Z.eqb Pos.eqb length map]. change (missing 4 3) with 1%nat.
    rewrite get_at with (i := 0) by (rewrite ?Hz3; lia). rewrite get_at with (i := 1) by (rewrite ?Hz3; lia).
    change (get [a; b] 0) with (Ok a). change (get [a; b] 1) with (Ok b). cbn [bind].
    rewrite !(enc_get 6 al G) by apply land63. cbn [bind].
    destruct (Z.eqb_spec pad 0) as [->|Hp0].
    + change (0 <? 0) with false. destruct r as [|r0 [|r1 [|r2 r]]]; try (cbn in Hd; lia).
      puts. cbn [bind]. rewrite app_nil_r. split; [rewrite zlen_app, <- Hpos; reflexivity|].
      apply (fin_ok _ [_; _; _] dd [r0; r1; r2] r); rewrite ?Hpos; reflexivity || (rewrite map_length; lia).
    + replace (0 <? pad) with true by lia. destruct r as [|r0 [|r1 [|r2 [|r3 r]]]]; try (cbn in Hd; lia).
      puts. cbn [bind repeat]. rewrite <- app_assoc. cbn [app]. split; [rewrite zlen_app, <- Hpos; reflexivity|].
      apply (fin_ok _ [_; _; _; _] dd [r0; r1; r2; r3] r); rewrite ?Hpos; reflexivity || (rewrite map_length; lia).
Qed.

(** ** Decoding *)
Section G4.
Variables (a b c d : Z).
Hypotheses (Ha : 0 <= a < 2 ^ Z.of_nat 6) (Hb : 0 <= b < 2 ^ Z.of_nat 6) (Hc : 0 <= c < 2 ^ Z.of_nat 6) (Hd : 0 <= d < 2 ^ Z.of_nat 6).
Lemma whole4 bs : let g := Z.lor (Z.lor (Z.lor (Z.shiftl a 18) (Z.shiftl b 12)) (Z.shiftl c 6)) d in
  whole 8 (bits 6 a ++ bits 6 b ++ bits 6 c ++ bits 6 d ++ bs) = byte (Z.shiftr g 16) :: byte (Z.shiftr g 8) :: byte g :: whole 8 bs.
Proof.
  intros g. pose proof (small_bits 6 a Ha) as Sa. pose proof (small_bits 6 b Hb) as Sb. pose proof (small_bits 6 c Hc) as Sc. pose proof (small_bits 6 d Hd) as Sd.
  change (bits 6 a ++ bits 6 b ++ bits 6 c ++ bits 6 d ++ bs) with
    ([Z.testbit a 5; Z.testbit a 4; Z.testbit a 3; Z.testbit a 2; Z.testbit a 1; Z.testbit a 0; Z.testbit b 5; Z.testbit b 4] ++
     [Z.testbit b 3; Z.testbit b 2; Z.testbit b 1; Z.testbit b 0; Z.testbit c 5; Z.testbit c 4; Z.testbit c 3; Z.testbit c 2] ++
     [Z.testbit c 1; Z.testbit c 0; Z.testbit d 5; Z.testbit d 4; Z.testbit d 3; Z.testbit d 2; Z.testbit d 1; Z.testbit d 0] ++ bs).
  rewrite !whole_more by (cbn; lia). subst g.
  repeat (apply f_equal2; [apply (number_eq 8); [blast|apply byte_range]|]). reflexivity.
Qed.
Lemma whole3 : let g := Z.lor (Z.lor (Z.shiftl a 18) (Z.shiftl b 12)) (Z.shiftl c 6) in
  whole 8 (bits 6 a ++ bits 6 b ++ bits 6 c ++ []) = [byte (Z.shiftr g 16); byte (Z.shiftr g 8)].
Proof.
  clear d Hd. intros g. pose proof (small_bits 6 a Ha) as Sa. pose proof (small_bits 6 b Hb) as Sb. pose proof (small_bits 6 c Hc) as Sc.
  change (bits 6 a ++ bits 6 b ++ bits 6 c ++ []) with
    ([Z.testbit a 5; Z.testbit a 4; Z.testbit a 3; Z.testbit a 2; Z.testbit a 1; Z.testbit a 0; Z.testbit b 5; Z.testbit b 4] ++
     [Z.testbit b 3; Z.testbit b 2; Z.testbit b 1; Z.testbit b 0; Z.testbit c 5; Z.testbit c 4; Z.testbit c 3; Z.testbit c 2] ++
     [Z.testbit c 1; Z.testbit c 0]).
  rewrite !whole_more by (cbn; lia). rewrite whole_none by (cbn; lia). subst g.
  repeat (apply f_equal2; [apply (number_eq 8); [blast|apply byte_range]|]). reflexivity.
Qed.
Lemma whole2 : let g := Z.lor (Z.shiftl a 18) (Z.shiftl b 12) in whole 8 (bits 6 a ++ bits 6 b ++ []) = [byte (Z.shiftr g 16)].
Proof.
  clear c d Hc Hd. intros g. pose proof (small_bits 6 a Ha) as Sa. pose proof (small_bits 6 b Hb) as Sb.
  change (bits 6 a ++ bits 6 b ++ []) with
    ([Z.testbit a 5; Z.testbit a 4; Z.testbit a 3; Z.testbit a 2; Z.testbit a 1; Z.testbit a 0; Z.testbit b 5; Z.testbit b 4] ++
     [Z.testbit b 3; Z.testbit b 2; Z.testbit b 1; Z.testbit b 0]).
  rewrite !whole_more by (cbn; lia). rewrite whole_none by (cbn; lia). subst g.
  repeat (apply f_equal2; [apply (number_eq 8); [blast|apply byte_range]|]). reflexivity.
Qed.
End G4.

(** What a character stands for. *)
Lemma rev_case c : is_byte c -> (get (reverse al) c = Ok 255 /\ forall d, 0 <= d < 2 ^ Z.of_nat 6 -> letter d <> c)
  \/ exists v, 0 <= v < 2 ^ Z.of_nat 6 /\ c = letter v /\ get (reverse al) c = Ok v /\ (255 =? v) = false /\ (v =? 255) = false.
Proof.
  intros H. destruct (rev_get 6 al G c H) as (v & E & [[-> N]|[R ->]]); [left; auto|right].
  exists v. change (2 ^ Z.of_nat 6) with 64 in *. repeat split; try assumption; lia.
Qed.
Lemma not_map ds (s : list Z) c t : (forall d, 0 <= d < 2 ^ Z.of_nat 6 -> letter d <> c) -> range ds -> s ++ c :: t <> map letter ds.
Proof.
  intros N R E. assert (I : In c (map letter ds)) by (rewrite <- E; apply in_or_app; right; left; reflexivity).
  apply in_map_iff in I. destruct I as (d & E1 & I). rewrite Forall_forall in R. exact (N d (R d I) E1).
Qed.
Lemma whole_length n ds : length ds = (4 * n)%nat -> length (whole 8 (bit_string 6 ds)) = (3 * n)%nat.
Proof.
  revert ds. induction n as [|n IH]; intros ds H.
  - destruct ds; [reflexivity|discriminate].
  - destruct ds as [|a [|b [|c [|d ds]]]]; try (cbn [length] in H; lia).
    change (bit_string 6 (a :: b :: c :: d :: ds)) with (bits 6 a ++ bits 6 b ++ bits 6 c ++ bits 6 d ++ bit_string 6 ds).
    change (bits 6 a ++ bits 6 b ++ bits 6 c ++ bits 6 d ++ bit_string 6 ds) with
    ([Z.testbit a 5; Z.testbit a 4; Z.testbit a 3; Z.testbit a 2; Z.testbit a 1; Z.testbit a 0; Z.testbit b 5; Z.testbit b 4] ++
     [Z.testbit b 3; Z.testbit b 2; Z.testbit b 1; Z.testbit b 0; Z.testbit c 5; Z.testbit c 4; Z.testbit c 3; Z.testbit c 2] ++
     [Z.testbit c 1; Z.testbit c 0; Z.testbit d 5; Z.testbit d 4; Z.testbit d 3; Z.testbit d 2; Z.testbit d 1; Z.testbit d 0] ++ bit_string 6 ds).
    rewrite !whole_more by (cbn; lia). cbn [length] in *. rewrite IH; lia.
Qed.
Lemma dec_loop_ok : forall n f src4 d r, length src4 = (4 * n)%nat -> (n < f)%nat -> Forall is_byte src4 -> (3 * n <= length r)%nat ->
  (exists ds, src4 = map letter ds /\ range ds /\
     b64_dec_loop f al src4 (d ++ r) (zlen d) = Ok (Val (zlen d + 3 * Z.of_nat n), (d ++ whole 8 (bit_string 6 ds)) ++ skipn (3 * n) r))
  \/ (exists x r', b64_dec_loop f al src4 (d ++ r) (zlen d) = Ok (Fault x, d ++ r') /\ zlen r' = zlen r) /\ (forall ds, range ds -> src4 <> map letter ds).
Proof.
  induction n as [|n IH]; intros f src4 d r Hl Hf Hb Hr.
  - destruct src4; [|discriminate]. destruct f; [lia|]. left. exists []. cbn. rewrite app_nil_r, Z.add_0_r. repeat split. constructor.
  - destruct f as [|f]; [lia|]. destruct src4 as [|w [|x [|y [|z s]]]]; try (cbn [length] in Hl; lia).
    destruct r as [|r0 [|r1 [|r2 r]]]; try (cbn [length] in Hr; lia).
    fcons Hb Hw. fcons Hb Hx. fcons Hb Hy. fcons Hb Hz.
    cbn [b64_dec_loop]. replace (0 <? zlen (w :: x :: y :: z :: s)) with true by (rewrite !zlen_cons; pose proof (zlen_nonneg s); lia).
    change (get (w :: x :: y :: z :: s) 0) with (Ok w). change (get (w :: x :: y :: z :: s) 1) with (Ok x).
    change (get (w :: x :: y :: z :: s) 2) with (Ok y). change (get (w :: x :: y :: z :: s) 3) with (Ok z). cbn [bind].
    destruct (rev_get 6 al G w Hw) as (v0 & E0 & C0). destruct (rev_get 6 al G x Hx) as (v1 & E1 & C1).
    destruct (rev_get 6 al G y Hy) as (v2 & E2 & C2). destruct (rev_get 6 al G z Hz) as (v3 & E3 & C3).
    rewrite E0, E1, E2, E3. cbn [bind]. clear E0 E1 E2 E3 Hw Hx Hy Hz.
    destruct ((255 =? v0) || (255 =? v1) || (255 =? v2) || (255 =? v3)) eqn:T.
    + right. split; [eauto|]. intros ds R E. destruct ds as [|d0 [|d1 [|d2 [|d3 ds]]]]; try discriminate. cbn [map] in E. injection E as -> -> -> -> _.
      fcons R R0. fcons R R1. fcons R R2. fcons R R3. change (2 ^ Z.of_nat 6) with 64 in *.
      destruct C0 as [[_ N]|[C0 _]]; [exact (N d0 R0 eq_refl)|]. destruct C1 as [[_ N]|[C1 _]]; [exact (N d1 R1 eq_refl)|].
      destruct C2 as [[_ N]|[C2 _]]; [exact (N d2 R2 eq_refl)|]. destruct C3 as [[_ N]|[C3 _]]; [exact (N d3 R3 eq_refl)|]. lia.
    + destruct C0 as [[-> _]|[C0 ->]]; [discriminate|]. destruct C1 as [[-> _]|[C1 ->]]; [lia|].
      destruct C2 as [[-> _]|[C2 ->]]; [lia|]. destruct C3 as [[-> _]|[C3 ->]]; [lia|]. clear T.
      puts. rewrite advance_at by (rewrite ?zlen_cons; pose proof (zlen_nonneg r); lia). cbn [bind].
      assert (Ef : from (letter v0 :: letter v1 :: letter v2 :: letter v3 :: s) 4 = Ok s) by (apply (from_at [letter v0; letter v1; letter v2; letter v3] s); reflexivity).
      rewrite Ef. cbn [bind].
      set (g := Z.lor (Z.lor (Z.lor (Z.shiftl v0 18) (Z.shiftl v1 12)) (Z.shiftl v2 6)) v3).
      set (u := [byte (Z.shiftr g 16); byte (Z.shiftr g 8); byte g]).
      replace (d ++ byte (Z.shiftr g 16) :: byte (Z.shiftr g 8) :: byte g :: r) with ((d ++ u) ++ r) by (rewrite <- app_assoc; reflexivity).
      replace (zlen d + 3) with (zlen (d ++ u)) by (rewrite zlen_app; reflexivity).
      destruct (IH f s (d ++ u) r ltac:(cbn [length] in Hl; lia) ltac:(lia) Hb ltac:(cbn [length] in Hr; lia)) as [(ds & -> & R & E)|[(x & r' & E & Hz) N]].
      * left. exists (v0 :: v1 :: v2 :: v3 :: ds). split; [reflexivity|]. split; [repeat constructor; try assumption; lia|]. rewrite E.
        change (bit_string 6 (v0 :: v1 :: v2 :: v3 :: ds)) with (bits 6 v0 ++ bits 6 v1 ++ bits 6 v2 ++ bits 6 v3 ++ bit_string 6 ds).
        rewrite whole4 by assumption. fold g. replace (3 * S n)%nat with (S (S (S (3 * n)))) by lia. cbn [skipn].
        f_equal. f_equal; [f_equal; rewrite zlen_app; change (zlen u) with 3; lia|]. subst u. rewrite <- !app_assoc. reflexivity.
      * right. split.
        -- exists x, (u ++ r'). rewrite E, app_assoc. split; [reflexivity|]. rewrite zlen_app, !zlen_cons, Hz. change (zlen u) with 3. lia.
        -- intros [|d0 [|d1 [|d2 [|d3 ds]]]] R E1; try discriminate. cbn [map app] in E1. injection E1 as _ _ _ _ E1.
           fcons R R0. fcons R R1. fcons R R2. fcons R R3. exact (N ds R E1).
Qed.

(** The shapes of a text: whole groups and a tail of 0, 2 or 3 digits. *)
Definition pads (pad : Z) (tl : list Z) : list Z := if pad =? 0 then [] else repeat pad (match length tl with O => 0 | S m => 4 - S m end).
Lemma text_shape pad s x : text_of 6 4 (encoding al) pad s x <->
  exists n ds tl, s = map letter ds ++ map letter tl ++ pads pad tl /\ length ds = (4 * n)%nat /\ (length tl = 0 \/ length tl = 2 \/ length tl = 3)%nat
    /\ range ds /\ range tl /\ x = whole 8 (bit_string 6 ds) ++ whole 8 (bit_string 6 tl).
Proof.
  assert (Hm : forall n u, (u < 4)%nat -> missing 4 (4 * n + u) = match u with O => 0 | S m => 4 - S m end%nat).
  { intros n u Hu. unfold missing. rewrite Nat.add_comm, Nat.mul_comm, Nat.mod_add by lia. destruct u as [|[|[|[|u]]]]; try reflexivity; lia. }
  split.
  - intros (l & -> & R & Hl & ->). pose proof (Nat.div_mod (length l) 4 ltac:(lia)) as E. pose proof (Nat.mod_upper_bound (length l) 4 ltac:(lia)) as Hu.
    set (n := (length l / 4)%nat) in *. set (m := (length l mod 4)%nat) in *. clearbody n m.
    destruct (split_list l (4 * n) ltac:(lia)) as (ds & tl & -> & Hds). rewrite app_length in *.
    assert (Htl : length tl = m) by lia. apply Forall_app_inv in R. destruct R as [R1 R2].
    exists n, ds, tl. rewrite map_app, <- app_assoc. unfold pads. rewrite Hds, Hm by lia. split; [reflexivity|]. split; [reflexivity|]. split.
    + replace ((length ds + length tl) * 6)%nat with (m * 6 + (3 * n) * 8)%nat in Hl by lia. rewrite Nat.mod_add in Hl by lia.
      destruct m as [|[|[|[|m]]]]; try lia. cbn in Hl. lia.
    + split; [exact R1|]. split; [exact R2|]. rewrite bit_string_app. apply whole_app with (n := (3 * n)%nat); [lia|]. rewrite bit_string_length. lia.
  - intros (n & ds & tl & -> & Hds & Htl & R1 & R2 & ->). exists (ds ++ tl). rewrite map_app, <- app_assoc, app_length. unfold pads. rewrite Hds, Hm by lia.
    split; [reflexivity|]. split; [apply Forall_app; auto|]. split.
    + replace ((4 * n + length tl) * 6)%nat with (length tl * 6 + (3 * n) * 8)%nat by lia. rewrite Nat.mod_add by lia.
      destruct Htl as [->|[->| ->]]; cbn; lia.
    + rewrite bit_string_app. symmetry. apply whole_app with (n := (3 * n)%nat); [lia|]. rewrite bit_string_length. lia.
Qed.
Lemma ret_ok (d r : list Z) n : n = zlen d -> ret_dst (d ++ r) n = Ok (Val d, d ++ r).
Proof. intros ->. unfold ret_dst. rewrite upto_at by reflexivity. reflexivity. Qed.
Lemma not_tail (s t ds u : list Z) : length s = length ds -> s ++ t = map letter ds ++ u -> s = map letter ds /\ t = u.
Proof.
  intros H E. assert (Hl : length s = length (map letter ds)) by (rewrite map_length; exact H). clear H.
  revert E Hl. generalize (map letter ds). induction s as [|a s IH]; intros [|b m] E Hl; try discriminate; [auto|].
  cbn [app] in E. injection E as -> E. injection Hl as Hl. destruct (IH m E Hl). subst. auto.
Qed.
Definition decoded pad src dst (r : Res (opt (list Z) * list Z)) : Prop :=
  exists o buf, r = Ok (o, buf) /\ zlen buf = zlen dst /\
    match o with
    | Val x => text_of 6 4 (encoding al) pad src x /\ buf = x ++ skipn (length x) dst
    | Fault _ => forall x, ~ text_of 6 4 (encoding al) pad src x
    end.
Lemma decode_nopad src dst : ~ In 0 (encoding al) -> Forall is_byte src -> zlen src < 2 ^ 62 ->
  match b64_decode_len (zlen src) 0 with Val dn => dn <= zlen dst | Fault _ => True end ->
  decoded 0 src dst (b64_decode_buffer src dst 0 al).
Proof.
  intros Hp Hb Hn Hd.
  assert (exists n s4 t, src = s4 ++ t /\ length s4 = (4 * n)%nat /\ (length t < 4)%nat) as (n & s4 & t & -> & H4 & Ht).
  { pose proof (Nat.div_mod (length src) 4 ltac:(lia)) as E. pose proof (Nat.mod_upper_bound (length src) 4 ltac:(lia)).
    set (n := (length src / 4)%nat) in *. set (m := (length src mod 4)%nat) in *. clearbody n m.
    destruct (split_list src (4 * n) ltac:(lia)) as (s3 & t & -> & H3). rewrite app_length in E. exists n, s3, t. repeat split; lia. }
  apply Forall_app_inv in Hb. destruct Hb as [Hb4 Hbt].
  assert (Hz : zlen (s4 ++ t) = 4 * Z.of_nat n + Z.of_nat (length t)) by (rewrite zlen_app; unfold zlen; lia).
  assert (Em : zlen (s4 ++ t) mod 4 = Z.of_nat (length t)) by (rewrite Hz; symmetry; apply Z.mod_unique with (Z.of_nat n); lia).
  assert (Ed : zlen (s4 ++ t) / 4 = Z.of_nat n) by (rewrite Hz; symmetry; apply Z.div_unique with (Z.of_nat (length t)); lia).
  assert (DL : b64_decode_len (zlen (s4 ++ t)) 0 = if (length t =? 1)%nat then Fault InvalidPadding else Val (3 * Z.of_nat n + match length t with O => 0 | S m => Z.of_nat m end)).
  { unfold b64_decode_len, usz. cbn [Z.eqb negb]. rewrite Em, Ed. rewrite (Z.mod_small (Z.of_nat n * 3)) by lia.
    clear - Ht Hn Hz. rewrite Hz in Hn. destruct (length t) as [|[|[|[|m]]]]; [| | | |lia]; cbn [Nat.eqb].
    - change (Z.of_nat 0 =? 1) with false. change (Z.of_nat 0 * 3 / 4) with 0. cbv iota. f_equal. rewrite Z.mod_small; lia.
    - reflexivity.
    - change (Z.of_nat 2 =? 1) with false. change (Z.of_nat 2 * 3 / 4) with 1. cbv iota. f_equal. rewrite Z.mod_small; lia.
    - change (Z.of_nat 3 =? 1) with false. change (Z.of_nat 3 * 3 / 4) with 2. cbv iota. f_equal. rewrite Z.mod_small; lia. }
  unfold decoded, b64_decode_buffer. rewrite DL in *.
  destruct (Z.eqb_spec (zlen (s4 ++ t)) 0) as [H0|H0].
  { assert (s4 ++ t = []) as -> by (destruct (s4 ++ t); [reflexivity|rewrite zlen_cons in H0; pose proof (zlen_nonneg l); lia]).
    exists (Val []), dst. split; [reflexivity|]. split; [reflexivity|]. split; [|reflexivity].
    apply text_shape. exists 0%nat, [], []. cbn. repeat split; auto. }
  destruct (Nat.eqb_spec (length t) 1) as [H1|H1].
  { exists (Fault InvalidPadding), dst. split; [reflexivity|]. split; [reflexivity|]. intros x T. apply text_shape in T.
    destruct T as (m & ds & tl & E & Hds & Htl & _). apply (f_equal (@length Z)) in E. rewrite !app_length, !map_length in E. cbn [pads Z.eqb length] in E. lia. }
  assert (Hdl : (3 * n <= length dst)%nat) by (unfold zlen in Hd; destruct t; cbn [length] in Hd; lia).
  destruct (Z.ltb_spec (zlen dst) (3 * Z.of_nat n + match length t with O => 0 | S m => Z.of_nat m end)) as [?|_]; [lia|].
  rewrite Em. change (0 =? 0) with true. cbn [bind].
  rewrite upto_at by (rewrite zlen_app; unfold zlen; lia). cbn [bind].
  destruct (split_list dst (3 * n) Hdl) as (dd & r & -> & Hdd).
  assert (Hlr : zlen r >= match length t with O => 0 | S m => Z.of_nat m end) by (rewrite zlen_app in Hd; unfold zlen in *; lia).
  destruct (dec_loop_ok n (S (length (s4 ++ t))) s4 [] (dd ++ r) H4 ltac:(rewrite app_length; lia) Hb4 ltac:(rewrite app_length; lia)) as [(ds & Es & R & El)|[(x & r' & El & Hr') N]].
  2:{ change (zlen []) with 0 in El. cbn [app] in El. rewrite El. cbn [bind]. exists (Fault x), r'. split; [reflexivity|]. split; [exact Hr'|].
      intros y T. apply text_shape in T. destruct T as (m & ds & tl & E & Hds & Htl & R1 & R2 & _).
      assert (Em4 : m = n) by (apply (f_equal (@length Z)) in E; rewrite !app_length, !map_length in E; cbn [pads Z.eqb length] in E; lia). subst m.
      apply not_tail in E; [|lia]. apply (N ds R1), E. }
  change (zlen []) with 0 in El. cbn [app] in El. rewrite skipn_app_len in El by lia. rewrite El. cbn [bind]. clear El. subst s4. rewrite map_length in H4.
  set (o := whole 8 (bit_string 6 ds)). assert (Ho : length o = (3 * n)%nat) by (apply whole_length, H4).
  assert (Hoz : 3 * Z.of_nat n = zlen o) by (unfold zlen; lia).
  unfold b64_dec_tail. destruct t as [|a [|b [|c [|e t]]]]; try (cbn [length] in *; lia).
  - cbn [length Z.of_nat Z.eqb]. rewrite ret_ok by lia. exists (Val o), (o ++ r). split; [reflexivity|]. split; [rewrite !zlen_app; unfold zlen; lia|]. split.
    + apply text_shape. exists n, ds, []. cbn [map pads Z.eqb app]. rewrite app_nil_r. repeat split; auto. cbn. rewrite app_nil_r. reflexivity.
    + rewrite skipn_app_len by lia. reflexivity.
  - change (Z.of_nat (length [a; b]) =? 0) with false. cbv iota. rewrite from_at by (rewrite zlen_app; change (zlen [a; b]) with 2; cbn; lia). cbn [bind].
    change (get [a; b] 0) with (Ok a). change (get [a; b] 1) with (Ok b). cbn [bind].
    fcons Hbt Ba. fcons Hbt Bb. destruct r as [|r0 r]; [cbn in Hlr; lia|].
    destruct (rev_get 6 al G a Ba) as (v0 & E0 & C0). destruct (rev_get 6 al G b Bb) as (v1 & E1 & C1). rewrite E0, E1. cbn [bind].
    destruct ((v0 =? 255) || (v1 =? 255)) eqn:T.
    + exists (Fault InvalidPadding), (o ++ r0 :: r). split; [reflexivity|]. split; [rewrite !zlen_app; unfold zlen; lia|].
      intros y Ty. apply text_shape in Ty. destruct Ty as (m & l & tl & E & Hl & Htl & R1 & R2 & _).
      assert (Em4 : m = n) by (apply (f_equal (@length Z)) in E; rewrite !app_length, !map_length in E; cbn [pads Z.eqb length] in E; lia). subst m.
      apply not_tail in E; [|rewrite map_length; lia]. destruct E as [_ E]. destruct tl as [|d0 [|d1 [|d2 tl]]]; try discriminate. cbn [map pads Z.eqb app] in E. injection E as -> ->.
      fcons R2 Ra. fcons R2 Rb. change (2 ^ Z.of_nat 6) with 64 in *.
      destruct C0 as [[_ N]|[C0 _]]; [exact (N d0 Ra eq_refl)|]. destruct C1 as [[_ N]|[C1 _]]; [exact (N d1 Rb eq_refl)|]. lia.
    + destruct C0 as [[-> _]|[C0 ->]]; [discriminate|]. destruct C1 as [[-> _]|[C1 ->]]; [lia|].
      change (0 =? 0) with true. change (zlen [letter v0; letter v1] =? 2) with true. cbv iota. rewrite Hoz. puts.
      match goal with |- context [ret_dst (o ++ ?x :: r) _] => change (o ++ x :: r) with (o ++ [x] ++ r); rewrite (app_assoc o) end.
      rewrite ret_ok by (rewrite zlen_app; reflexivity).
      eexists (Val _), _. split; [reflexivity|]. split; [rewrite !zlen_app; unfold zlen; cbn [length]; lia|]. split.
      * apply text_shape. exists n, ds, [v0; v1]. cbn [map pads Z.eqb app length]. repeat split; auto. f_equal.
        change (bit_string 6 [v0; v1]) with (bits 6 v0 ++ bits 6 v1 ++ []). rewrite whole2 by assumption. reflexivity.
      * change (dd ++ r0 :: r) with (dd ++ [r0] ++ r). rewrite (app_assoc dd), skipn_app_len by (rewrite !app_length; cbn [length]; lia). reflexivity.
  - change (Z.of_nat (length [a; b; c]) =? 0) with false. cbv iota. rewrite from_at by (rewrite zlen_app; change (zlen [a; b; c]) with 3; cbn; lia). cbn [bind].
    change (get [a; b; c] 0) with (Ok a). change (get [a; b; c] 1) with (Ok b). change (get [a; b; c] 2) with (Ok c). cbn [bind].
    fcons Hbt Ba. fcons Hbt Bb. fcons Hbt Bc. destruct r as [|r0 [|r1 r]]; try (cbn in Hlr; lia).
    destruct (rev_get 6 al G a Ba) as (v0 & E0 & C0). destruct (rev_get 6 al G b Bb) as (v1 & E1 & C1). destruct (rev_get 6 al G c Bc) as (v2 & E2 & C2). rewrite E0, E1, E2. cbn [bind].
    change (0 =? 0) with true. change (zlen [a; b; c] =? 2) with false. change (zlen [a; b; c] =? 3) with true. cbv iota.
    assert (HN : (v0 =? 255) || (v1 =? 255) || (v2 =? 255) = true -> forall y, ~ text_of 6 4 (encoding al) 0 (map letter ds ++ [a; b; c]) y).
    { intros T y Ty. apply text_shape in Ty. destruct Ty as (m & l & tl & E & Hl & Htl & R1 & R2 & _).
      assert (Em4 : m = n) by (apply (f_equal (@length Z)) in E; rewrite !app_length, !map_length in E; cbn [pads Z.eqb length] in E; lia). subst m.
      apply not_tail in E; [|rewrite map_length; lia]. destruct E as [_ E]. destruct tl as [|d0 [|d1 [|d2 [|d3 tl]]]]; try discriminate. cbn [map pads Z.eqb app] in E. injection E as -> -> ->.
      fcons R2 Ra. fcons R2 Rb. fcons R2 Rc. change (2 ^ Z.of_nat 6) with 64 in *.
      destruct C0 as [[_ N]|[C0 _]]; [exact (N d0 Ra eq_refl)|]. destruct C1 as [[_ N]|[C1 _]]; [exact (N d1 Rb eq_refl)|]. destruct C2 as [[_ N]|[C2 _]]; [exact (N d2 Rc eq_refl)|]. lia. }
    destruct ((v0 =? 255) || (v1 =? 255)) eqn:T.
    + exists (Fault InvalidPadding), (o ++ r0 :: r1 :: r). split; [reflexivity|]. split; [rewrite !zlen_app; unfold zlen; lia|]. apply HN. reflexivity.
    + destruct (v2 =? 255) eqn:T2.
      * exists (Fault InvalidCharacter), (o ++ r0 :: r1 :: r). split; [reflexivity|]. split; [rewrite !zlen_app; unfold zlen; lia|]. apply HN. reflexivity.
      * destruct C0 as [[-> _]|[C0 ->]]; [discriminate|]. destruct C1 as [[-> _]|[C1 ->]]; [lia|]. destruct C2 as [[-> _]|[C2 ->]]; [lia|].
        rewrite Hoz. puts.
        match goal with |- context [ret_dst (o ++ ?x :: ?y :: r) _] => change (o ++ x :: y :: r) with (o ++ [x; y] ++ r); rewrite (app_assoc o) end.
        rewrite ret_ok by (rewrite zlen_app; reflexivity).
        eexists (Val _), _. split; [reflexivity|]. split; [rewrite !zlen_app; unfold zlen; cbn [length]; lia|]. split.
        -- apply text_shape. exists n, ds, [v0; v1; v2]. cbn [map pads Z.eqb app length]. repeat split; auto. f_equal.
           change (bit_string 6 [v0; v1; v2]) with (bits 6 v0 ++ bits 6 v1 ++ bits 6 v2 ++ []). rewrite whole3 by assumption. reflexivity.
        -- change (dd ++ r0 :: r1 :: r) with (dd ++ [r0; r1] ++ r). rewrite (app_assoc dd), skipn_app_len by (rewrite !app_length; cbn [length]; lia). reflexivity.
Qed.

Lemma decode_pad pad src dst : good_padding 6 (encoding al) pad -> pad <> 0 -> Forall is_byte src -> zlen src < 2 ^ 62 ->
  match b64_decode_len (zlen src) pad with Val dn => dn <= zlen dst | Fault _ => True end ->
  decoded pad src dst (b64_decode_buffer src dst pad al).
Proof.
  intros [Hp HpI] Hp0 Hb Hn Hd.
  assert (Ep : (pad =? 0) = false) by lia.
  assert (NP : forall d, 0 <= d < 2 ^ Z.of_nat 6 -> letter d <> pad) by (intros d R <-; apply HpI, (letter_in 6 al G), R).
  assert (Hlen : forall tl, (length tl = 0 \/ length tl = 2 \/ length tl = 3)%nat -> (length (map letter tl ++ pads pad tl) = match tl with [] => 0 | _ => 4 end)%nat).
  { intros tl H. unfold pads. rewrite Ep, app_length, map_length, repeat_length. destruct tl as [|? [|? [|? [|? tl]]]]; cbn [length] in *; lia. }
  unfold decoded, b64_decode_buffer.
  destruct (Z.eqb_spec (zlen src) 0) as [H0|H0].
  { assert (src = []) as -> by (destruct src; [reflexivity|rewrite zlen_cons in H0; pose proof (zlen_nonneg src); lia]).
    exists (Val []), dst. split; [reflexivity|]. split; [reflexivity|]. split; [|reflexivity].
    apply text_shape. exists 0%nat, [], []. unfold pads. rewrite Ep. cbn. repeat split; auto. }
  unfold b64_decode_len in *. rewrite Ep in *. cbn [negb] in *.
  destruct (Z.eqb_spec (zlen src mod 4) 0) as [Hm|Hm]; cbn [negb] in *.
  2:{ exists (Fault InvalidPadding), dst. split; [reflexivity|]. split; [reflexivity|]. intros x T. apply text_shape in T.
    destruct T as (m & ds & tl & E & Hds & Htl & _). apply Hm. apply (f_equal (@length Z)) in E. rewrite app_length, map_length, Hlen in E by exact Htl.
    unfold zlen. rewrite E, Hds. destruct tl; [replace (Z.of_nat (4 * m + 0)) with (Z.of_nat m * 4) by lia|replace (Z.of_nat (4 * m + 4)) with ((Z.of_nat m + 1) * 4) by lia]; apply Z.mod_mul; lia. }
  assert (exists n s4 t, src = s4 ++ t /\ length s4 = (4 * n)%nat /\ (length t = 4)%nat) as (n & s4 & t & -> & H4 & Ht).
  { pose proof (Z.div_mod (zlen src) 4 ltac:(lia)) as E. rewrite Hm in E. pose proof (zlen_nonneg src).
    set (q := zlen src / 4) in *. clearbody q. unfold zlen in *.
    destruct (split_list src (4 * Z.to_nat (q - 1)) ltac:(lia)) as (s3 & t & -> & H3). rewrite app_length in *. exists (Z.to_nat (q - 1)), s3, t. repeat split; lia. }
  assert (Hz4 : zlen s4 = 4 * Z.of_nat n) by (unfold zlen; lia).
  assert (Hz : zlen (s4 ++ t) = 4 * Z.of_nat n + 4) by (rewrite zlen_app; unfold zlen; lia).
  assert (Ed : zlen (s4 ++ t) / 4 = Z.of_nat n + 1) by (rewrite Hz; symmetry; apply Z.div_unique with 0; lia).
  rewrite Ed, Hz in *. unfold usz in *. rewrite (Z.mod_small ((Z.of_nat n + 1) * 3)) in * by lia.
  destruct (Z.ltb_spec (zlen dst) ((Z.of_nat n + 1) * 3)) as [?|_]; [lia|]. clear H0 Hm Ed.
  destruct t as [|w [|x [|y [|z [|]]]]]; try discriminate Ht. clear Ht.
  rewrite get_at with (i := 3) by (rewrite ?Hz4; lia). change (get [w; x; y; z] 3) with (Ok z). cbn [bind].
  assert (Hdl : (3 * n + 3 <= length dst)%nat) by (unfold zlen in Hd; lia).
  destruct (Z.eqb_spec z pad) as [->|Hzp].
  - (* padded *)
    rewrite upto_at by lia. cbn [bind].
    apply Forall_app_inv in Hb. destruct Hb as [Hb4 Hbt]. fcons Hbt Bw. fcons Hbt Bx. fcons Hbt By.
    destruct (split_list dst (3 * n) ltac:(lia)) as (dd & r & -> & Hdd). rewrite app_length in Hdl.
    (* what a text with this ending is *)
    assert (Inv : forall v, text_of 6 4 (encoding al) pad (s4 ++ [w; x; y; pad]) v -> exists ds tl, range ds /\ range tl /\ s4 = map letter ds /\ [w; x; y; pad] = map letter tl ++ pads pad tl /\ (length tl = 2 \/ length tl = 3)%nat).
    { intros v T. apply text_shape in T. destruct T as (m & ds & tl & E & Hds & Htl & R1 & R2 & _).
      assert (tl <> []).
      { intros ->. unfold pads in E. rewrite Ep in E. cbn [map length repeat app] in E. rewrite app_nil_r in E.
        assert (I : In pad (map letter ds)) by (rewrite <- E; apply in_or_app; right; cbn; auto).
        apply in_map_iff in I. destruct I as (d & E1 & I). rewrite Forall_forall in R1. exact (NP d (R1 d I) E1). }
      pose proof (f_equal (@length Z) E) as EL. rewrite (app_length (map letter ds)), (app_length s4), map_length, Hlen in EL by exact Htl.
      destruct tl as [|t0 tl]; [congruence|]. cbn [length] in EL.
      apply not_tail in E; [|lia]. destruct E as [E1 E2]. exists ds, (t0 :: tl). cbn [length] in *. repeat split; auto. lia. }
    destruct (dec_loop_ok n (S (length (s4 ++ [w; x; y; pad]))) s4 [] (dd ++ r) H4 ltac:(rewrite app_length; lia) Hb4 ltac:(rewrite app_length; lia)) as [(ds & Es & R & El)|[(f & r' & El & Hr') N]].
    2:{ change (zlen []) with 0 in El. cbn [app] in El. rewrite El. cbn [bind]. exists (Fault f), r'. split; [reflexivity|]. split; [exact Hr'|].
        intros v T. apply Inv in T. destruct T as (ds & tl & R1 & _ & E & _). exact (N ds R1 E). }
    change (zlen []) with 0 in El. cbn [app] in El. rewrite skipn_app_len in El by lia. rewrite El. cbn [bind]. clear El. subst s4. rewrite map_length in H4.
    set (o := whole 8 (bit_string 6 ds)). assert (Ho : length o = (3 * n)%nat) by (apply whole_length, H4).
    assert (Hoz : 3 * Z.of_nat n = zlen o) by (unfold zlen; lia).
    unfold b64_dec_tail. cbn [Z.eqb]. rewrite from_at by lia. cbn [bind].
    change (get [w; x; y; pad] 0) with (Ok w). change (get [w; x; y; pad] 1) with (Ok x). change (get [w; x; y; pad] 2) with (Ok y). change (get [w; x; y; pad] 3) with (Ok pad). cbn [bind].
    destruct r as [|r0 [|r1 [|r2 r]]]; try (cbn [length] in Hdl; lia).
    destruct (rev_get 6 al G w Bw) as (v0 & E0 & C0). destruct (rev_get 6 al G x Bx) as (v1 & E1 & C1). destruct (rev_get 6 al G y By) as (v2 & E2 & C2). rewrite E0, E1, E2. cbn [bind].
    assert (Hrest : zlen (o ++ r0 :: r1 :: r2 :: r) = zlen (dd ++ r0 :: r1 :: r2 :: r)) by (rewrite !zlen_app; unfold zlen; lia).
    destruct ((v0 =? 255) || (v1 =? 255)) eqn:T.
    { exists (Fault InvalidPadding), (o ++ r0 :: r1 :: r2 :: r). split; [reflexivity|]. split; [exact Hrest|].
      intros v Tv. apply Inv in Tv. destruct Tv as (l & tl & R1 & R2 & _ & E & Htl). destruct tl as [|d0 [|d1 tl]]; try (cbn [length] in Htl; lia).
      cbn [map app] in E. injection E as -> -> _. fcons R2 Ra. fcons R2 Rb. change (2 ^ Z.of_nat 6) with 64 in *.
      destruct C0 as [[_ N]|[C0 _]]; [exact (N d0 Ra eq_refl)|]. destruct C1 as [[_ N]|[C1 _]]; [exact (N d1 Rb eq_refl)|]. lia. }
    rewrite Ep.
    destruct C0 as [[-> _]|[C0 ->]]; [discriminate|]. destruct C1 as [[-> _]|[C1 ->]]; [lia|].
    destruct (Z.eqb_spec pad y) as [<-|Hpy].
    + rewrite Z.eqb_refl. cbn [negb]. rewrite Hoz. puts.
      match goal with |- context [ret_dst (o ++ ?a :: ?b :: ?c :: r) _] => change (o ++ a :: b :: c :: r) with (o ++ [a] ++ b :: c :: r); rewrite (app_assoc o) end.
      rewrite ret_ok by (rewrite zlen_app; unfold usz; rewrite Z.mod_small by lia; change (zlen [_]) with 1; lia).
      eexists (Val _), _. split; [reflexivity|]. split; [rewrite !zlen_app; unfold zlen; cbn [length]; lia|]. split.
      * apply text_shape. exists n, ds, [v0; v1]. unfold pads. rewrite Ep. cbn [map app length Nat.sub repeat]. repeat split; auto. f_equal.
        change (bit_string 6 [v0; v1]) with (bits 6 v0 ++ bits 6 v1 ++ []). rewrite whole2 by assumption. reflexivity.
      * change (dd ++ r0 :: r1 :: r2 :: r) with (dd ++ [r0] ++ r1 :: r2 :: r). rewrite (app_assoc dd), skipn_app_len by (rewrite !app_length; cbn [length]; lia). reflexivity.
    + rewrite Z.eqb_refl.
      destruct (v2 =? 255) eqn:T2.
      * exists (Fault InvalidCharacter), (o ++ r0 :: r1 :: r2 :: r). split; [reflexivity|]. split; [exact Hrest|].
        intros v Tv. apply Inv in Tv. destruct Tv as (l & tl & R1 & R2 & _ & E & Htl). destruct tl as [|d0 [|d1 [|d2 [|? tl]]]]; try (cbn [length] in Htl; lia).
        -- unfold pads in E. rewrite Ep in E. cbn [map app length Nat.sub repeat] in E. congruence.
        -- cbn [map app] in E. injection E as _ _ -> _. fcons R2 Ra. fcons R2 Rb. fcons R2 Rc. change (2 ^ Z.of_nat 6) with 64 in *.
           destruct C2 as [[_ N]|[C2 _]]; [exact (N d2 Rc eq_refl)|]. lia.
      * destruct C2 as [[-> _]|[C2 ->]]; [discriminate|]. rewrite Hoz. puts.
        match goal with |- context [ret_dst (o ++ ?a :: ?b :: ?c :: r) _] => change (o ++ a :: b :: c :: r) with (o ++ [a; b] ++ c :: r); rewrite (app_assoc o) end.
        rewrite ret_ok by (rewrite zlen_app; unfold usz; rewrite Z.mod_small by lia; change (zlen [_; _]) with 2; lia).
        eexists (Val _), _. split; [reflexivity|]. split; [rewrite !zlen_app; unfold zlen; cbn [length]; lia|]. split.
        -- apply text_shape. exists n, ds, [v0; v1; v2]. unfold pads. rewrite Ep. cbn [map app length Nat.sub repeat]. repeat split; auto. f_equal.
           change (bit_string 6 [v0; v1; v2]) with (bits 6 v0 ++ bits 6 v1 ++ bits 6 v2 ++ []). rewrite whole3 by assumption. reflexivity.
        -- change (dd ++ r0 :: r1 :: r2 :: r) with (dd ++ [r0; r1] ++ r2 :: r). rewrite (app_assoc dd), skipn_app_len by (rewrite !app_length; cbn [length]; lia). reflexivity.
  - (* not padded *)
    cbn [bind].
    destruct (split_list dst (3 * S n) ltac:(lia)) as (dd & r & -> & Hdd). rewrite app_length in Hdl.
    destruct (dec_loop_ok (S n) (S (length (s4 ++ [w; x; y; z]))) (s4 ++ [w; x; y; z]) [] (dd ++ r) ltac:(rewrite app_length; cbn [length]; lia) ltac:(rewrite app_length; cbn [length]; lia) Hb ltac:(rewrite app_length; lia)) as [(ds & Es & R & El)|[(f & r' & El & Hr') N]].
    2:{ change (zlen []) with 0 in El. cbn [app] in El. rewrite El. cbn [bind]. exists (Fault f), r'. split; [reflexivity|]. split; [exact Hr'|].
        intros v T. apply text_shape in T. destruct T as (m & ds & tl & E & Hds & Htl & R1 & R2 & _).
        destruct tl as [|t0 tl].
        - unfold pads in E. rewrite Ep in E. cbn [map length repeat app] in E. rewrite app_nil_r in E. exact (N ds R1 E).
        - assert (Z1 : last (map letter ds ++ map letter (t0 :: tl) ++ pads pad (t0 :: tl)) 0 = pad).
          { unfold pads. rewrite Ep. destruct tl as [|t1 [|t2 [|t3 tl]]]; try (cbn [length] in Htl; lia); cbn [length Nat.sub repeat map app].
            - change [letter t0; letter t1; pad; pad] with ([letter t0; letter t1; pad] ++ [pad]). rewrite app_assoc. apply last_last.
            - change [letter t0; letter t1; letter t2; pad] with ([letter t0; letter t1; letter t2] ++ [pad]). rewrite app_assoc. apply last_last. }
          rewrite <- E in Z1. change [w; x; y; z] with ([w; x; y] ++ [z]) in Z1. rewrite app_assoc, last_last in Z1. congruence. }
    change (zlen []) with 0 in El. cbn [app] in El. rewrite skipn_app_len in El by lia. rewrite El. cbn [bind]. clear El.
    set (o := whole 8 (bit_string 6 ds)). assert (Hds : length ds = (4 * S n)%nat) by (apply (f_equal (@length Z)) in Es; rewrite app_length, map_length in Es; cbn [length] in Es; lia).
    assert (Ho : length o = (3 * S n)%nat) by (apply whole_length, Hds).
    assert (Et : exists d0 d1 d2 d3, [w; x; y; z] = [letter d0; letter d1; letter d2; letter d3] /\ range [d0; d1; d2; d3]).
    { destruct (split_list ds (4 * n) ltac:(lia)) as (da & db & -> & Hda). rewrite map_app in Es. apply not_tail in Es; [|lia]. destruct Es as [_ Es].
      rewrite app_length in Hds. apply Forall_app_inv in R. destruct R as [_ R]. destruct db as [|d0 [|d1 [|d2 [|d3 [|]]]]]; cbn [length] in Hds; try lia. exists d0, d1, d2, d3. auto. }
    destruct Et as (d0 & d1 & d2 & d3 & Et & Rt). fcons Rt R0. fcons Rt R1. fcons Rt R2. fcons Rt R3.
    unfold b64_dec_tail. cbn [Z.eqb]. rewrite from_at by lia. cbn [bind]. rewrite Et.
    match goal with |- context [get ?l 0] => change (get l 0) with (Ok (letter d0)); change (get l 1) with (Ok (letter d1)); change (get l 2) with (Ok (letter d2)); change (get l 3) with (Ok (letter d3)) end. cbn [bind].
    rewrite !(rev_letter 6 al G) by assumption. cbn [bind]. change (2 ^ Z.of_nat 6) with 64 in *.
    replace ((d0 =? 255) || (d1 =? 255)) with false by lia. rewrite Ep.
    replace (pad =? letter d2) with false by (symmetry; apply Z.eqb_neq; intros E; apply (NP d2 R2); congruence).
    replace (pad =? letter d3) with false by (symmetry; apply Z.eqb_neq; intros E; apply (NP d3 R3); congruence).
    rewrite ret_ok by (unfold zlen; lia).
    exists (Val o), (o ++ r). split; [reflexivity|]. split; [rewrite !zlen_app; unfold zlen; lia|]. split.
    + apply text_shape. exists (S n), ds, []. unfold pads. rewrite Ep. cbn [map app length repeat]. rewrite app_nil_r, <- Et. repeat split; auto. change (bit_string 6 []) with (@nil bool). rewrite app_nil_r. reflexivity.
    + rewrite skipn_app_len by lia. reflexivity.
Qed.
Lemma decode_ok pad src dst : good_padding 6 (encoding al) pad -> Forall is_byte src -> zlen src < 2 ^ 62 ->
  match b64_decode_len (zlen src) pad with Val dn => dn <= zlen dst | Fault _ => True end ->
  decoded pad src dst (b64_decode_buffer src dst pad al).
Proof.
  intros P B Hn Hd. destruct (Z.eq_dec pad 0) as [->|H]; [apply decode_nopad; try assumption; apply P|apply decode_pad; assumption].
Qed.
End B64.
