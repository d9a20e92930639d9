(** Directives on their own. *)
From Coq Require Import String ZArith List Bool Lia ZifyBool Arith.
From Verif Require Import Mach ListAux LexSpec UtfSpec StrSpec StrProofs FmtModel FmtProofs FmtProofs2 FmtProofs3 FmtProofs4.
From Verif Require FmtSpec.
Import ListNotations.
Open Scope Z_scope.

Lemma digit_digit base up d : base <= 10 \/ base = 16 -> 0 <= d < base -> digit_is base (digit up d) d /\ (if up then ~ 97 <= digit up d <= 102 else ~ 65 <= digit up d <= 70).
Proof. intros Hb Hd. unfold digit_is, digit. destruct (d <? 10) eqn:E, up; lia. Qed.
Lemma numeral_ex base (up : bool) : 2 <= base -> base <= 10 \/ base = 16 -> forall n, 0 <= n -> exists ds, FmtSpec.Numeral base up n ds.
Proof.
  intros Hb Hb2. apply (Zlt_0_ind (fun n => exists ds, FmtSpec.Numeral base up n ds)). intros n IH Hn. unfold FmtSpec.Numeral. destruct (Z.lt_ge_cases n base) as [Hlt|Hge].
  - destruct (digit_digit base up n Hb2 ltac:(lia)) as [D C]. exists [digit up n]. split; [|split; [|split; [discriminate|]]].
    + change [digit up n] with ([] ++ [digit up n]). replace n with (0 * base + n) at 2 by lia. apply Number_snoc; [constructor|exact D].
    + repeat constructor. exact C.
    + intros r [= _ <-]. reflexivity.
  - assert (Hq : 0 < n / base < n) by (split; [apply Z.div_str_pos; lia|apply Z.div_lt; lia]). destruct (IH (n / base) ltac:(lia)) as (ds & N1 & C1 & Ne & Nz). pose proof (Z.mod_pos_bound n base ltac:(lia)). destruct (digit_digit base up (n mod base) Hb2 ltac:(lia)) as [D C].
    exists (ds ++ [digit up (n mod base)]). split; [|split; [|split]].
    + replace n with (n / base * base + n mod base) at 2 by (pose proof (Z.div_mod n base ltac:(lia)); lia). now constructor.
    + unfold FmtSpec.casing in *. apply Forall_app. split; [exact C1|]. repeat constructor. exact C.
    + destruct ds; discriminate.
    + intros r Hr. destruct ds as [|d ds]; [now elim Ne|]. cbn [app] in Hr. injection Hr as -> Hr. rewrite (Nz ds eq_refl) in N1. exfalso. assert (n / base = 0); [|lia]. inversion N1 as [|ds' n' c w N2 D2 E1 E2]. apply (app_inj_tail ds' [] c 48) in E1 as [-> ->]. assert (n' = 0) by (inversion N2 as [|? ? ? ? ? ? E]; [reflexivity|now destruct ds0]). destruct D2 as [? [[? ?]|[(? & ? & ?)|(? & ? & ?)]]]; lia.
Qed.
Lemma one_dir fs w p c args wv args1 pv a rest u m : FmtSpec.wf (FmtSpec.Dir fs w p c) -> FmtSpec.Field w args wv args1 ->
  match p with None => args1 = a :: rest /\ pv = None | Some q => exists v, FmtSpec.Field q args1 v (a :: rest) /\ 0 <= v /\ pv = Some v end ->
  FmtSpec.Directive (FmtSpec.how_of fs wv pv) c a u m -> printf (FmtSpec.spell (FmtSpec.Dir fs w p c)) args = (u, Val (zlen u - m)).
Proof.
  intros Hw HF HP HD. assert (HQ : FmtSpec.Prints [FmtSpec.Dir fs w p c] args (u ++ []) (m + 0)).
  { destruct p as [q|]; [destruct HP as (v & HQ & Hv & ->)|destruct HP as [-> ->]]; [eapply FmtSpec.Prints_prec|eapply FmtSpec.Prints_dir]; eauto; constructor. }
  pose proof (printf_ok _ _ _ _ HQ ltac:(now constructor)) as H. cbn [map concat] in H. rewrite !app_nil_r, Z.add_0_r in H. exact H.
Qed.
Lemma plain_int c base up s b v ds : FmtSpec.int_base c = Some (base, up) -> c <> 112 -> FmtSpec.in_range v -> FmtSpec.Numeral base up (Z.abs v) ds ->
  let t := (if v <? 0 then FmtSpec.tx "-"%string else []) ++ ds in printf [37; c] [AInt s b v] = (t, Val (zlen t)).
Proof.
  intros Hc Hp Hr Hn t. set (h := FmtSpec.how_of [] 0 None). assert (Ha : FmtSpec.adapt c h = h) by (unfold FmtSpec.adapt; replace (c =? 112) with false by lia; reflexivity).
  assert (Ht : FmtSpec.number h base up v ds = t) by (unfold FmtSpec.number, FmtSpec.sign, FmtSpec.prefix, t; cbn; rewrite !andb_false_r; reflexivity).
  assert (Hl : zlen ds <= 128). { assert (Hb : 2 <= base) by (unfold FmtSpec.int_base in Hc; repeat (destruct (Z.eqb c _) in Hc; [injection Hc as <- <-; lia|]); discriminate). apply (numeral_len base up (Z.abs v)); [exact Hb|lia|exact Hn|]. unfold FmtSpec.in_range in Hr. pose proof (Z.pow_le_mono_l 2 base 128 ltac:(lia)). lia. }
  assert (Hl2 : zlen t <= 129) by (unfold t; rewrite zlen_app; destruct (v <? 0); [change (zlen (FmtSpec.tx "-")) with 1|change (zlen []) with 0]; lia).
  assert (Hc2 : In c FmtSpec.conversions).
  { unfold FmtSpec.int_base in Hc. unfold FmtSpec.conversions. cbn [FmtSpec.tx map list_ascii_of_string]. cbn. repeat match type of Hc with context [c =? ?k] => destruct (Z.eqb_spec c k) as [->|?]; [tauto|] end. discriminate. }
  pose proof (one_dir [] FmtSpec.Nothing None c [AInt s b v] 0 [AInt s b v] None (AInt s b v) [] t 0) as H. rewrite Z.sub_0_r in H. apply H.
  - split; [constructor|]. split; [exact I|]. split; [intros ds' E'; discriminate E'|]. split; [exact I|exact Hc2].
  - constructor.
  - auto.
  - fold h. assert (G : FmtSpec.padded h t = t) by (unfold FmtSpec.padded, FmtSpec.gap; cbn [h FmtSpec.how_of FmtSpec.left FmtSpec.width FmtSpec.has existsb orb]; change len with (@zlen Z); change (Z.abs 0) with 0; replace (Z.to_nat (0 - zlen t)) with O by (pose proof (zlen_nonneg t); lia); cbn; reflexivity).
    assert (G2 : len (FmtSpec.gap h t) = 0) by (unfold FmtSpec.gap; change len with (@zlen Z); cbn [h FmtSpec.how_of FmtSpec.width]; change (Z.abs 0) with 0; replace (Z.to_nat (0 - zlen t)) with O by (pose proof (zlen_nonneg t); lia); reflexivity).
    rewrite <- G at 1. rewrite <- G2. rewrite <- Ht. replace h with (FmtSpec.adapt c h) by exact Ha. 
    assert (D : FmtSpec.Directive h c (AInt s b v) (FmtSpec.padded (FmtSpec.adapt c h) (FmtSpec.number (FmtSpec.adapt c h) base up v ds)) (len (FmtSpec.gap (FmtSpec.adapt c h) (FmtSpec.number (FmtSpec.adapt c h) base up v ds)))).
    { apply FmtSpec.D_int; rewrite ?Ha; auto; try discriminate. rewrite Ht. change len with (@zlen Z). lia. }
    rewrite Ha in *. exact D.
Qed.
Lemma plain_char s b v : scalar v -> v <> 127 -> v <> 2047 -> v <> 65535 -> printf [37; 99] [AInt s b v] = (utf8 v, Val 1).
Proof.
  intros Hs H1 H2 H3. pose proof (one_dir [] FmtSpec.Nothing None 99 [AInt s b v] 0 [AInt s b v] None (AInt s b v) [] (utf8 v) (len (utf8 v) - 1)) as H.
  replace (Val 1) with (Val (zlen (utf8 v) - (len (utf8 v) - 1))) by (f_equal; change len with (@zlen Z); lia). apply H.
  - split; [constructor|]. split; [exact I|]. split; [intros ds' E'; discriminate E'|]. split; [exact I|cbn; tauto].
  - constructor.
  - auto.
  - now apply FmtSpec.D_char.
Qed.
Lemma odd_char s b v : v < 0 \/ 2 ^ 32 <= v -> printf [37; 99] [AInt s b v] = (utf8 65533, Val 1).
Proof.
  intros H. assert (E : out_char (AInt s b v) = out_char (AInt s b 65533)) by (unfold out_char, any_to_int; replace ((0 <=? v) && (v <? 2 ^ 32)) with false by lia; reflexivity).
  assert (E2 : printf [37; 99] [AInt s b v] = printf [37; 99] [AInt s b 65533]).
  { unfold printf, vprintf. cbn [length]. assert (D : forall f o, directive [37; 99] 1 [AInt s b v] None f o = directive [37; 99] 1 [AInt s b 65533] None f o).
    { intros f o. assert (E3 : conversion 99 (AInt s b v) = conversion 99 (AInt s b 65533)) by exact E. cbv -[conversion]. rewrite E3. reflexivity. }
    unfold andThen at 1 3, look, put. unfold andThen at 1 2. cbn [loop]. change (0 <? zlen [37; 99]) with true. cbv iota. unfold andThen at 1 4. change (read [37; 99] 0 None (with_first None fresh) []) with (with_first None fresh, @nil Z, Val 37). cbv iota beta. change (negb (37 =? 37)) with false. change (zlen [37; 99] <=? 0 + 1) with false. cbv iota. unfold andThen at 1 3. change (read [37; 99] (0 + 1) None (with_first None fresh) []) with (with_first None fresh, @nil Z, Val 99). cbv iota beta. change (99 =? 37) with false. cbv iota. unfold andThen at 1 2. change (0 + 1) with 1. rewrite D. reflexivity. }
  rewrite E2. apply plain_char; [unfold scalar; lia|lia|lia|lia].
Qed.
