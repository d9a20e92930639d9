(** Writing and reading numbers. *)
From Coq Require Import ZArith List Bool Lia.
From Verif Require Import BigModel BigSpec BigProofs BigProofs2 BigProofs3 BigProofs4 BigProofs5 BigProofs6.
Import ListNotations.
Open Scope Z_scope.

Lemma digits_app radix s : forall acc c, digits_value radix acc (s ++ [c]) =
  match digits_value radix acc s with Some v => match digit_of c with Some d => if d <? radix then Some (v * radix + d) else None | None => None end | None => None end.
Proof.
  induction s as [|x s IH]; intros acc c; cbn [app digits_value]; [reflexivity|].
  destruct (digit_of x) as [d|]; [|reflexivity]. destruct (d <? radix); [apply IH|reflexivity].
Qed.
Lemma digit_eq c : digit c = digit_of c.
Proof. unfold digit, digit_of. repeat match goal with |- context [if ?b then _ else _] => destruct b end; try reflexivity; f_equal; lia. Qed.
Lemma digit_of_char d : 0 <= d < 36 -> digit_of (digit_char d) = Some d /\ (48 <= digit_char d <= 57 \/ 65 <= digit_char d <= 90) /\ (digit_char d = 48 -> d = 0).
Proof.
  intros D. unfold digit_char, digit_of. destruct (Z.ltb_spec d 10).
  - destruct (Z.leb_spec 48 (d + 48)), (Z.leb_spec (d + 48) 57); try lia. cbn [andb]. split; [f_equal; lia|]. lia.
  - destruct (Z.leb_spec 48 (d - 10 + 65)), (Z.leb_spec (d - 10 + 65) 57); try lia. cbn [andb].
    destruct (Z.leb_spec 65 (d - 10 + 65)), (Z.leb_spec (d - 10 + 65) 90); try lia. cbn [andb]. split; [f_equal; lia|]. lia.
Qed.
Lemma digits_loop_spec radix rb : 2 <= radix <= 36 -> denotes rb radix -> forall k a x, denotes a x -> 0 <= x < 2 ^ Z.of_nat k ->
  exists ds, digits_loop (S k) a rb = Ok ds /\ digits_value radix 0 (rev ds) = Some x /\ (0 < x -> ds <> [] /\ hd 48 (rev ds) <> 48) /\ Forall (fun c => 48 <= c <= 57 \/ 65 <= c <= 90) ds.
Proof.
  intros Hr Dr. induction k as [|k IH]; intros a x D X; cbn [digits_loop]; rewrite (is_zero_spec a x D).
  - change (2 ^ Z.of_nat 0) with 1 in X. assert (x = 0) as -> by lia. cbn [Z.eqb]. exists []. repeat split; auto; try discriminate; lia.
  - destruct (Z.eqb_spec x 0) as [->|N]; [exists []; repeat split; auto; try discriminate; lia|].
    destruct (sbd_spec a rb x radix D Dr) as (q & r & E1 & E2 & _ & E4); [lia|lia|]. rewrite E1. cbn [bind]. rewrite E4.
    rewrite Nat2Z.inj_succ, Z.pow_succ_r in X by lia. assert (Q : 0 <= x / radix < 2 ^ Z.of_nat k) by (split; [apply Z.div_pos; lia|apply Z.div_lt_upper_bound; nia]).
    destruct (IH q _ E2 Q) as (ds & F1 & F2 & F3 & F4). cbn [digits_loop] in F1 |- *. rewrite F1. cbn [bind]. exists (digit_char (x mod radix) :: ds). split; [reflexivity|].
    pose proof (Z.mod_pos_bound x radix ltac:(lia)) as MB. pose proof (Z.div_mod x radix ltac:(lia)) as DM. destruct (digit_of_char (x mod radix)) as (G1 & G2 & G3); [lia|]. cbn [rev]. rewrite digits_app, F2, G1.
    destruct (Z.ltb_spec (x mod radix) radix); [|lia]. split; [f_equal; lia|]. split; [|constructor; auto]. intros _. split; [discriminate|].
    destruct (Z.eq_dec (x / radix) 0) as [Z0|Z0].
    + destruct (rev ds) as [|c t] eqn:R.
      * cbn [app hd]. intros C. apply G3 in C. lia.
      * cbn [app hd]. destruct ds as [|d0 ds']; [discriminate|]. rewrite Z0 in *. exfalso. rewrite (is_zero_spec q 0 E2) in F1. discriminate.
    + destruct F3 as [F3 F5]; [lia|]. destruct (rev ds) as [|c t] eqn:R; [apply (f_equal (@rev Z)) in R; rewrite rev_involutive in R; contradiction|]. cbn [app hd] in *. exact F5.
Qed.
Lemma to_string_spec b z radix : denotes b z -> z <> - Half -> 2 <= radix <= 36 -> exists s, to_string_with_radix b radix = Ok s /\ plain s /\ number radix s = Some z.
Proof.
  intros D N Hr. unfold to_string_with_radix. rewrite (is_zero_spec b z D). destruct (Z.eqb_spec z 0) as [->|Z0].
  { exists [48]. split; [reflexivity|]. split; [left; reflexivity|]. cbn [number digits_value]. unfold digit_of. cbn [Z.leb Z.compare Pos.compare Pos.compare_cont andb]. change (48 - 48) with 0. destruct (Z.ltb_spec 0 radix); [reflexivity|lia]. }
  destruct (abs_part b z D) as [PA _]. destruct (PA N) as (a & -> & Da). cbn [bind]. pose proof Half_top as HT. pose proof (pw_pos 255) as PP. destruct (from_int_spec radix) as (rb & -> & Db); [unfold in_range; lia|]. cbn [bind].
  assert (X : 0 <= Z.abs z < 2 ^ Z.of_nat (32 * MAX_LEN)).
  { split; [lia|]. pose proof (d_range _ _ Da) as R. unfold in_range in R. change (Z.of_nat (32 * MAX_LEN)) with 8192. rewrite <- Full_2. pose proof Full_Half. lia. }
  destruct (digits_loop_spec radix rb Hr Db (32 * MAX_LEN) a _ Da X) as (ds & E1 & E2 & E3 & E4). rewrite Nat.add_1_r, E1. cbn [bind]. destruct E3 as [E3 E5]; [lia|]. rewrite (neg_iff b z D).
  eexists. split; [reflexivity|]. rewrite rev_app_distr. assert (F : Forall (fun c => 48 <= c <= 57 \/ 65 <= c <= 90) (rev ds)) by (apply Forall_rev, E4).
  assert (R : rev ds <> []) by (intros C; apply (f_equal (@rev Z)) in C; rewrite rev_involutive in C; contradiction). destruct (Z.ltb_spec z 0); cbn [rev app].
  - split; [right; exists (rev ds); auto|]. cbn [number]. destruct (rev ds) as [|c t]; [contradiction|]. rewrite E2. f_equal. lia.
  - split; [right; exists (rev ds); auto|]. destruct (rev ds) as [|c t]; [contradiction|]. inversion F as [|? ? Fc _]; subst. replace z with (Z.abs z) by lia. rewrite <- E2. unfold number. 
    destruct c as [|p|p]; try lia; try reflexivity. do 6 (destruct p as [p|p|]; try reflexivity; try lia).
Qed.

(** Reading. *)
Lemma add_sound a b x y c : denotes a x -> denotes b y -> add a b = Ok c -> denotes c (x + y).
Proof.
  intros Da Db E. destruct (add_spec a b x y Da Db) as [A1 A2]. destruct (Z_le_dec (- Half) (x + y)) as [L1|L1]; [destruct (Z_lt_dec (x + y) Half) as [L2|L2]|].
  - destruct A1 as (c' & E' & D'); [unfold in_range; lia|]. rewrite E in E'. injection E' as ->. exact D'.
  - rewrite A2 in E by (unfold in_range; lia). discriminate.
  - rewrite A2 in E by (unfold in_range; lia). discriminate.
Qed.
Lemma digit_range c d : digit_of c = Some d -> 0 <= d < 36.
Proof. unfold digit_of. repeat match goal with |- context [if ?b then _ else _] => destruct b eqn:? end; intros [= <-]; lia. Qed.
Definition sg (minus : bool) (v : Z) : Z := if minus then - v else v.
Lemma small_range z : -36 <= z <= 36 -> in_range z.
Proof. intros. pose proof Half_top. pose proof (pw_pos 255). unfold in_range. lia. Qed.
Lemma parse_sound radix rb minus : denotes rb radix -> forall ds self mu s m r, denotes self s -> denotes mu m -> parse_loop ds minus radix rb self mu = Ok r ->
  match r with Some b => exists v, digits_value radix 0 (rev ds) = Some v /\ denotes b (s + sg minus (m * v)) | None => digits_value radix 0 (rev ds) = None end.
Proof.
  intros Dr ds. induction ds as [|c ds IH]; intros self mu s m r Ds Dm E; cbn [parse_loop rev] in *.
  - injection E as <-. exists 0. split; [reflexivity|]. replace (s + sg minus (m * 0)) with s by (unfold sg; destruct minus; lia). exact Ds.
  - rewrite digit_eq in E. rewrite digits_app. destruct (digit_of c) as [d|] eqn:Ed; [|injection E as <-; destruct (digits_value radix 0 (rev ds)); reflexivity].
    destruct (Z.leb_spec radix d) as [L|L]; [injection E as <-; destruct (digits_value radix 0 (rev ds)); [destruct (Z.ltb_spec d radix); [lia|]|]; reflexivity|].
    destruct (Z.ltb_spec d radix); [|lia]. pose proof (digit_range c d Ed). destruct (from_int_spec (if minus then - d else d)) as (db & Edb & Ddb); [apply small_range; destruct minus; lia|]. rewrite Edb in E. cbn [bind] in E.
    destruct (mult mu db) as [p|] eqn:Ep; [|discriminate]. cbn [bind] in E. destruct (mult_spec mu db _ _ Dm Ddb) as [MS _]. specialize (MS _ Ep).
    destruct (add self p) as [s2|] eqn:Ea; [|discriminate]. cbn [bind] in E. pose proof (add_sound _ _ _ _ _ Ds MS Ea) as Ds2.
    destruct ds as [|c2 ds'] eqn:Eds.
    + injection E as <-. cbn [rev digits_value]. eexists. split; [reflexivity|]. replace (s + sg minus (m * (0 * radix + d))) with (s + m * (if minus then - d else d)) by (unfold sg; destruct minus; lia). exact Ds2.
    + rewrite <- Eds in *. clear Eds. destruct (mult mu rb) as [mu2|] eqn:Em; [|discriminate]. cbn [bind] in E. destruct (mult_spec mu rb _ _ Dm Dr) as [MS2 _]. specialize (MS2 _ Em).
      specialize (IH _ _ _ _ _ Ds2 MS2 E). destruct r as [b|].
      * destruct IH as (v & -> & Db). eexists. split; [reflexivity|]. replace (s + sg minus (m * (v * radix + d))) with (s + m * (if minus then - d else d) + sg minus (m * radix * v)) by (unfold sg; destruct minus; lia). exact Db.
      * rewrite IH. reflexivity.
Qed.
Lemma parse_complete radix rb minus : 2 <= radix <= 36 -> denotes rb radix -> forall ds self mu t m v, ds <> [] -> denotes self (sg minus t) -> denotes mu m -> 0 <= t -> 1 <= m -> digits_value radix 0 (rev ds) = Some v -> t + m * v < Half ->
  m * radix ^ (Z.of_nat (length ds) - 1) < Half -> 0 <= v /\ exists b, parse_loop ds minus radix rb self mu = Ok (Some b) /\ denotes b (sg minus (t + m * v)).
Proof.
  intros Hr Dr ds. induction ds as [|c ds IH]; intros self mu t m v Ne Ds Dm T M V L K; [contradiction|]. cbn [parse_loop rev] in *. rewrite digit_eq. rewrite digits_app in V. pose proof Half_pos.
  destruct (digits_value radix 0 (rev ds)) as [v'|] eqn:V'; [|discriminate]. destruct (digit_of c) as [d|] eqn:Ed; [|discriminate]. destruct (Z.ltb_spec d radix) as [Ld|]; [|discriminate]. injection V as <-.
  destruct (Z.leb_spec radix d); [lia|]. pose proof (digit_range c d Ed) as Rd. destruct (from_int_spec (if minus then - d else d)) as (db & -> & Ddb); [apply small_range; destruct minus; lia|]. cbn [bind].
  assert (P : 1 <= radix ^ (Z.of_nat (length ds))) by (pose proof (Z.pow_pos_nonneg radix (Z.of_nat (length ds))); lia). cbn [length] in K. replace (Z.of_nat (S (length ds)) - 1) with (Z.of_nat (length ds)) in K by lia.
  assert (HT : 2147483648 <= Half) by (pose proof Half_top; pose proof (pw_pos 255); lia).
  assert (V0 : 0 <= v').
  { destruct ds as [|c2 ds']; [cbn in V'; injection V' as <-; lia|]. clear - V' Hr. revert V'. generalize (rev (c2 :: ds')). intros l. generalize (Z.le_refl 0). generalize 0 at 2 3. induction l as [|x l IHl]; intros acc A; cbn [digits_value].
    - intros [= <-]. exact A. - destruct (digit_of x) as [e|] eqn:E; [|discriminate]. destruct (e <? radix); [|discriminate]. apply IHl. apply digit_range in E. nia. }
  split; [nia|]. assert (MD : 0 <= m * d) by nia. assert (MV : 0 <= m * (v' * radix)) by nia. assert (ML : m < Half) by nia.
  destruct (mult_spec mu db _ _ Dm Ddb) as (_ & _ & MS). destruct MS as (p & -> & Dp); [lia|destruct minus; lia|destruct minus; nia|]. cbn [bind].
  destruct (add_spec self p _ _ Ds Dp) as [AS _]. destruct AS as (s2 & -> & Ds2); [unfold in_range, sg; destruct minus; nia|]. cbn [bind].
  assert (Es : sg minus t + m * (if minus then - d else d) = sg minus (t + m * d)) by (unfold sg; destruct minus; lia). rewrite Es in Ds2.
  destruct ds as [|c2 ds'] eqn:Eds.
  - cbn in V'. injection V' as <-. exists s2. split; [reflexivity|]. replace (t + m * (0 * radix + d)) with (t + m * d) by lia. exact Ds2.
  - rewrite <- Eds in *. assert (Lg : (1 <= length ds)%nat) by (rewrite Eds; cbn; lia). assert (PS : radix ^ Z.of_nat (length ds) = radix * radix ^ (Z.of_nat (length ds) - 1)) by (rewrite <- Z.pow_succ_r by lia; f_equal; lia).
    assert (P1 : 1 <= radix ^ (Z.of_nat (length ds) - 1)) by (pose proof (Z.pow_pos_nonneg radix (Z.of_nat (length ds) - 1)); lia).
    assert (MR : m * radix < Half) by (rewrite PS in K; assert (0 < m * radix) by nia; nia).
    destruct (mult_spec mu rb _ _ Dm Dr) as (_ & _ & MS). destruct MS as (mu2 & -> & Dm2); [lia|lia|rewrite Z.abs_eq by nia; exact MR|]. cbn [bind].
    destruct (IH s2 mu2 (t + m * d) (m * radix) v') as (_ & b & Eb & Db); auto; try nia; [rewrite Eds; discriminate|]. exists b. split; [exact Eb|]. replace (t + m * (v' * radix + d)) with (t + m * d + m * radix * v') by lia. exact Db.
Qed.
(** The digits of a string, without its minus. *)
Definition body (s : list Z) : list Z := match s with [] => [] | c :: r => if c =? 45 then r else s end.
Definition minus_of (s : list Z) : bool := match s with [] => false | c :: _ => c =? 45 end.
Lemma number_body radix s : number radix s = match body s with [] => None | _ => match digits_value radix 0 (body s) with Some v => Some (sg (minus_of s) v) | None => None end end.
Proof.
  destruct s as [|c s]; [reflexivity|]. unfold body, minus_of, sg. destruct (Z.eqb_spec c 45) as [->|N].
  - destruct s; reflexivity.
  - assert (E : number radix (c :: s) = digits_value radix 0 (c :: s)).
    { unfold number. destruct c as [|p|p]; try reflexivity. do 6 (destruct p as [p|p|]; try reflexivity; try (exfalso; apply N; reflexivity)). }
    rewrite E. destruct (digits_value radix 0 (c :: s)); reflexivity.
Qed.
Lemma init_string_sound s radix : 2 <= radix <= 36 -> (forall b, init_string_radix s radix = Ok (Number b) -> exists z, number radix s = Some z /\ denotes b z) /\
  (init_string_radix s radix = Ok MALFORMED -> number radix s = None).
Proof.
  intros Hr. unfold init_string_radix. destruct s as [|c0 rest]; [split; [discriminate|discriminate]|]. destruct (from_int_spec radix) as (rb & -> & Db); [apply small_range; lia|]. cbn [bind].
  change (c0 =? 45) with (minus_of (c0 :: rest)). replace (if minus_of (c0 :: rest) then rest else c0 :: rest) with (body (c0 :: rest)) by (unfold body, minus_of; destruct (c0 =? 45); reflexivity).
  destruct (parse_loop _ _ _ _ _ _) as [r|w] eqn:E; [|split; discriminate]. cbn [bind]. apply (parse_sound radix rb _ Db _ ZERO ONE 0 1 r denotes_zeros denotes_ONE) in E. rewrite rev_involutive in E. rewrite number_body.
  set (bd := body (c0 :: rest)) in *. set (mn := minus_of (c0 :: rest)) in *. destruct r as [b|].
  - destruct E as (v & Ev & Dv). rewrite Z.add_0_l, Z.mul_1_l in Dv. split; [|destruct (xorb _ _); discriminate].
    intros b' Eb. destruct bd as [|x bd'] eqn:Ebd.
    + exfalso. cbn in Ev. injection Ev as <-. rewrite (neg_iff b _ Dv) in Eb. assert (mn = true) as Em by (unfold bd, body, mn, minus_of in *; destruct (c0 =? 45); [reflexivity|discriminate]). rewrite Em in Eb. cbn [sg] in Eb. discriminate.
    + rewrite Ev. eexists. split; [reflexivity|]. destruct (xorb _ _); [discriminate|]. injection Eb as <-. exact Dv.
  - split; [discriminate|]. intros _. rewrite E. destruct bd; reflexivity.
Qed.
Lemma init_string_complete s radix z : 2 <= radix <= 36 -> number radix s = Some z -> Z.abs z < Half -> radix ^ (Z.of_nat (length (body s)) - 1) < Half ->
  if minus_of s && (z =? 0) then init_string_radix s radix = Ok OVERFLOW else exists b, init_string_radix s radix = Ok (Number b) /\ denotes b z.
Proof.
  intros Hr N Z1 K. rewrite number_body in N. unfold init_string_radix. destruct s as [|c0 rest]; [discriminate|]. destruct (from_int_spec radix) as (rb & -> & Db); [apply small_range; lia|]. cbn [bind].
  change (c0 =? 45) with (minus_of (c0 :: rest)). replace (if minus_of (c0 :: rest) then rest else c0 :: rest) with (body (c0 :: rest)) by (unfold body, minus_of; destruct (c0 =? 45); reflexivity).
  set (bd := body (c0 :: rest)) in *. set (mn := minus_of (c0 :: rest)) in *. clearbody bd mn. destruct bd as [|x bd'] eqn:Ebd; [discriminate|]. rewrite <- Ebd in *. destruct (digits_value radix 0 bd) as [v|] eqn:V; [|discriminate]. injection N as <-.
  assert (NE : rev bd <> []) by (intros C; apply (f_equal (@rev Z)) in C; rewrite rev_involutive in C; cbn [rev] in C; congruence).
  destruct (Z_lt_dec v Half) as [L|L].
  - destruct (parse_complete radix rb mn Hr Db (rev bd) ZERO ONE 0 1 v) as (V0 & b & -> & D); auto; try lia; [unfold sg; destruct mn; exact denotes_zeros|exact denotes_ONE|rewrite rev_involutive; exact V|rewrite rev_length; lia|].
    cbn [bind]. rewrite Z.add_0_l, Z.mul_1_l in D. rewrite (neg_iff b _ D). unfold sg in *. destruct mn; cbn [andb].
    + destruct (Z.eqb_spec (- v) 0), (Z.ltb_spec (- v) 0); try lia; [reflexivity|]. cbn [xorb]. exists b. auto.
    + destruct (Z.ltb_spec v 0); [lia|]. cbn [xorb]. exists b. auto.
  - exfalso. unfold sg in Z1. destruct mn; lia.
Qed.
Lemma digits_ge radix : 2 <= radix -> forall l acc v, 0 <= acc -> digits_value radix acc l = Some v -> acc * radix ^ Z.of_nat (length l) <= v.
Proof.
  intros Hr l. induction l as [|c l IH]; intros acc v A E; cbn [digits_value length] in *; [injection E as <-; change (radix ^ Z.of_nat 0) with 1; lia|].
  destruct (digit_of c) as [d|] eqn:Ed; [|discriminate]. destruct (d <? radix); [|discriminate]. apply digit_range in Ed. apply IH in E; [|nia]. rewrite Nat2Z.inj_succ, Z.pow_succ_r by lia.
  assert (0 <= radix ^ Z.of_nat (length l)) by (apply Z.pow_nonneg; lia). nia.
Qed.
Lemma plain_short s radix z : 2 <= radix <= 36 -> plain s -> number radix s = Some z -> Z.abs z < Half -> radix ^ (Z.of_nat (length (body s)) - 1) < Half.
Proof.
  intros Hr P N Z1. pose proof (small_range 1 ltac:(lia)) as R1. unfold in_range in R1. destruct P as [->|(ds & Es & Ne & Hd & F)]; [change (radix ^ (Z.of_nat (length (body [48])) - 1)) with 1; lia|].
  assert (Eb : body s = ds). { destruct ds as [|c ds']; [contradiction|]. inversion F as [|? ? Fc _]; subst. destruct Es as [->| ->]; unfold body; [destruct (Z.eqb_spec c 45); [lia|reflexivity]|reflexivity]. }
  rewrite number_body, Eb in N. rewrite Eb. destruct ds as [|c ds']; [contradiction|]. cbn [digits_value] in N. destruct (digit_of c) as [d|] eqn:Ed; [|discriminate]. destruct (d <? radix); [|discriminate].
  destruct (digits_value radix (0 * radix + d) ds') as [v|] eqn:V; [|discriminate]. injection N as <-. pose proof (digit_range _ _ Ed). apply digits_ge in V; [|lia|lia]. cbn [length hd] in *.
  assert (d <> 0). { intros ->. inversion F as [|? ? Fc _]; subst. unfold digit_of in Ed. repeat match type of Ed with context [if ?b then _ else _] => destruct b eqn:? end; first [discriminate | inversion Ed; lia]. }
  replace (Z.of_nat (S (length ds')) - 1) with (Z.of_nat (length ds')) by lia. assert (0 < radix ^ Z.of_nat (length ds')) by (apply Z.pow_pos_nonneg; lia). unfold sg in Z1. destruct (minus_of s); nia.
Qed.
Lemma plain_not_minus_zero s radix : plain s -> number radix s = Some 0 -> 2 <= radix -> minus_of s = false.
Proof.
  intros P N Hr. destruct P as [->|(ds & Es & Ne & Hd & F)]; [reflexivity|]. destruct ds as [|c ds']; [contradiction|]. inversion F as [|? ? Fc _]; subst.
  destruct Es as [->| ->]; [unfold minus_of; lia|]. exfalso. rewrite number_body in N. unfold body in N. cbn [Z.eqb Pos.eqb] in N. cbn [digits_value] in N. destruct (digit_of c) as [d|] eqn:Ed; [|discriminate]. destruct (d <? radix); [|discriminate].
  destruct (digits_value radix (0 * radix + d) ds') as [v|] eqn:V; [|discriminate]. unfold minus_of, sg in N. cbn [Z.eqb Pos.eqb] in N. injection N as N. pose proof (digit_range _ _ Ed). apply digits_ge in V; [|lia|lia]. cbn [hd] in Hd.
  assert (0 < radix ^ Z.of_nat (length ds')) by (apply Z.pow_pos_nonneg; lia). assert (d = 0) as -> by nia.
  unfold digit_of in Ed. repeat match type of Ed with context [if ?b then _ else _] => destruct b eqn:? end; first [discriminate | inversion Ed; lia].
Qed.
Lemma round_trip b z radix : denotes b z -> z <> - Half -> 2 <= radix <= 36 -> exists s, to_string_with_radix b radix = Ok s /\ plain s /\ number radix s = Some z /\ init_string_radix s radix = Ok (Number b).
Proof.
  intros D N Hr. destruct (to_string_spec b z radix D N Hr) as (s & E1 & E2 & E3). exists s. split; [auto|]. split; [auto|]. split; [auto|].
  pose proof (d_range _ _ D) as R. unfold in_range in R. pose proof (init_string_complete s radix z Hr E3 ltac:(lia) (plain_short s radix z Hr E2 E3 ltac:(lia))) as C.
  destruct (Z.eqb_spec z 0) as [->|Z0].
  - rewrite (plain_not_minus_zero s radix E2 E3) in C by lia. cbn [andb] in C. destruct C as (b' & -> & D'). rewrite (denotes_inj _ _ _ D D'). reflexivity.
  - rewrite andb_false_r in C. destruct C as (b' & -> & D'). rewrite (denotes_inj _ _ _ D D'). reflexivity.
Qed.
