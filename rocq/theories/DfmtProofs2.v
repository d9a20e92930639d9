(** The formats as rows of items. *)
From Coq Require Import String Ascii ZArith List Bool Lia ZifyBool.
From Verif Require Import LexSpec StrSpec FmtSpec DateModel DateSpec DfmtModel DfmtSpec DfmtProofs.
From Verif Require FmtModel DateProofs DateProofs2 DateThms.
Import ListNotations.
Local Open Scope Z_scope.
Local Open Scope list_scope.

Definition L (s : string) : list item := map Lit (tx s).
Definition clk (d : datetime) : list item := [Two false 8 (hour d)] ++ L ":" ++ [Two false 8 (min d)] ++ L ":" ++ [Two false 8 (sec d)].
Definition iso (d : datetime) : list item := [Four true 32 (year d)] ++ L "-" ++ [Two true 32 (month d + 1)] ++ L "-" ++ [Two false 8 (day d)].
Definition wname (l : list (list Z)) (i : Z) : item := Str (nth (Z.to_nat i) l []).

Lemma suffix_items c off : -43200 <= off <= 50400 -> off <> 0 -> 0 <= off \/ off mod 3600 = 0 -> Forall ok (L c) ->
  let l := [Signed true 32 (Z.quot off 3600)] ++ L c ++ [Two true 32 (Z.quot (Z.rem off 3600) 60)] in Forall ok l /\ flat_map text_of l = zone c off.
Proof.
  intros R N H Hc. cbv zeta. assert (Q : -100 < Z.quot off 3600 < 100 /\ 0 <= Z.quot (Z.rem off 3600) 60 < 100 /\ Z.abs (Z.quot off 3600) = Z.abs off / 3600 /\ Z.quot (Z.rem off 3600) 60 = Z.abs off mod 3600 / 60 /\
    (Z.quot off 3600 <? 0) = negb (0 <? off)).
  { destruct H as [H|H].
    - rewrite Z.quot_div_nonneg, Z.rem_mod_nonneg by lia. rewrite Z.abs_eq by lia. rewrite Z.quot_div_nonneg by (try lia; apply Z.mod_pos_bound; lia). Z.to_euclidean_division_equations. lia.
    - assert (E : off = 3600 * (off / 3600)) by (pose proof (Z.div_mod off 3600 ltac:(lia)); lia). set (k := off / 3600) in *. clearbody k. subst off. clear H.
      rewrite (Z.mul_comm 3600 k), Z.quot_mul, Z.rem_mul, Z.abs_mul by lia. change (Z.abs 3600) with 3600. rewrite Z.div_mul, Z.mod_mul by lia. cbn [Z.quot Z.div]. lia. }
  destruct Q as (Q1 & Q2 & Q3 & Q4 & Q5). split.
  - apply Forall_app. split; [constructor; [exact Q1|constructor]|]. apply Forall_app. split; [exact Hc|]. constructor; [exact Q2|constructor].
  - rewrite !flat_map_app. cbn [flat_map text_of]. rewrite !app_nil_r, Q3, Q4, Q5. unfold zone.
    assert (El : forall t, flat_map text_of (map Lit t) = t) by (intros t; induction t; [reflexivity|cbn; f_equal; assumption]). unfold L. rewrite El.
    destruct (0 <? off); rewrite <- !app_assoc; reflexivity.
Qed.
Lemma lit_ok s : ~ In 37 (tx s) -> Forall ok (L s).
Proof. intros H. unfold L. apply Forall_map, Forall_forall. intros c Hc E. cbn in E. subst c. contradiction. Qed.
Lemma suffix_ok off : -43200 <= off <= 50400 -> 0 <= off \/ off mod 3600 = 0 -> tzsuffix off = zone "" off /\ tzsuffix_colon off = zone ":" off.
Proof.
  intros R H. unfold tzsuffix, tzsuffix_colon. destruct (off =? 0) eqn:E0; [assert (off = 0) by lia; subst; split; reflexivity|].
  destruct (suffix_items "" off R ltac:(lia) H (Forall_nil _)) as [O1 T1].
  destruct (suffix_items ":" off R ltac:(lia) H) as [O2 T2]; [apply lit_ok; cbn; lia|].
  rewrite <- T1, <- T2. split; (eapply items_text; [eassumption|reflexivity|reflexivity]).
Qed.
Lemma weekday_ok w : 0 <= w < 7 -> nth (Z.to_nat w) weekday_abbrevs [] = abbrev day_names w /\ nth (Z.to_nat w) weekday_names [] = name day_names w.
Proof. intros H. assert (w = 0 \/ w = 1 \/ w = 2 \/ w = 3 \/ w = 4 \/ w = 5 \/ w = 6) as K by lia. repeat (destruct K as [K|K]; [subst; split; reflexivity|]). subst; split; reflexivity. Qed.
Lemma month_ok m : 0 <= m < 12 -> nth (Z.to_nat m) month_abbrevs [] = abbrev month_names m.
Proof. intros H. apply DateProofs.months in H. repeat (destruct H as [H|H]; [subst; reflexivity|]). subst; reflexivity. Qed.

(** The items of a format. *)
Definition items (f : date_format) (d g : datetime) (off : Z) : list item :=
  let wa d := wname weekday_abbrevs (weekday d) in
  let wn d := wname weekday_names (weekday d) in
  let ma d := wname month_abbrevs (month d) in
  let tz := [Str (tzsuffix off)] in
  let tzc := [Str (tzsuffix_colon off)] in
  let yy d := Two true 32 (Z.rem (year d) 100) in
  match f with
  | ANSIC => [wa d] ++ L " " ++ [ma d] ++ L " " ++ [Spaced false 8 (day d)] ++ L " " ++ clk d ++ L " " ++ [Four true 32 (year d)]
  | UNIXDATE => [wa d] ++ L " " ++ [ma d] ++ L " " ++ [Spaced false 8 (day d)] ++ L " " ++ clk d ++ L " GMT " ++ [Four true 32 (year d)]
  | RUBYDATE => [wa d] ++ L " " ++ [ma d] ++ L " " ++ [Spaced false 8 (day d)] ++ L " " ++ clk d ++ L " " ++ tz ++ L " " ++ [Four true 32 (year d)]
  | RFC822 => [Two false 8 (day g)] ++ L " " ++ [ma g] ++ L " " ++ [yy g] ++ L " " ++ [Two false 8 (hour g)] ++ L ":" ++ [Two false 8 (min g)] ++ L " GMT"
  | RFC822Z => [Two false 8 (day d)] ++ L " " ++ [ma d] ++ L " " ++ [yy d] ++ L " " ++ [Two false 8 (hour d)] ++ L ":" ++ [Two false 8 (min d)] ++ L " " ++ tz
  | RFC850 => [wn g] ++ L ", " ++ [Two false 8 (day g)] ++ L "-" ++ [ma g] ++ L "-" ++ [yy g] ++ L " " ++ clk g ++ L " GMT"
  | RFC1123 => [wa g] ++ L ", " ++ [Two false 8 (day g)] ++ L " " ++ [ma g] ++ L " " ++ [Year true 32 (year g)] ++ L " " ++ clk g ++ L " GMT"
  | RFC1123Z => [wa d] ++ L ", " ++ [Two false 8 (day d)] ++ L " " ++ [ma d] ++ L " " ++ [Year true 32 (year d)] ++ L " " ++ clk d ++ L " " ++ tz
  | RFC3339 => iso g ++ L "T" ++ clk g ++ L "Z"
  | RFC3339Z => iso d ++ L "T" ++ clk d ++ tzc
  | RFC3339MS => iso g ++ L "T" ++ clk g ++ L "." ++ [Six true 32 (usec g)] ++ L "Z"
  | RFC3339ZMS => iso d ++ L "T" ++ clk d ++ L "." ++ [Six true 32 (usec d)] ++ tzc
  | DATETIME => iso d ++ L " " ++ clk d
  | DATEONLY => iso d
  | TIMEONLY => clk d
  end.
Definition fields_ok (d : datetime) : Prop :=
  0 <= month d < 12 /\ 1 <= day d <= 31 /\ 0 <= weekday d < 7 /\ 0 <= hour d < 24 /\ 0 <= min d < 60 /\ 0 <= sec d < 60 /\ 0 <= usec d < 1000000.
Lemma shows_fields t d : shows t d -> fields_ok d.
Proof.
  intros (n & [V _] & _ & Hh & Hm & Hs & Hu & W & _). apply DateProofs.valid_b in V. destruct V as [Vm Vd]. pose proof (DateProofs.len_bounds (year d) (month d) Vm).
  pose proof (Z.mod_pos_bound (n + 3) 7 ltac:(lia)). unfold fields_ok. lia.
Qed.
Lemma rem_ok y : 1000 <= y -> Z.rem y 100 = y mod 100 /\ 0 <= y mod 100 < 100.
Proof. intros H. split; [apply Z.rem_mod_nonneg; lia|apply Z.mod_pos_bound; lia]. Qed.
Lemma items_fine f d g off : fields_ok d -> fields_ok g -> printed_well f d g off -> Forall ok (items f d g off).
Proof.
  intros (D1 & D2 & D3 & D4 & D5 & D6 & D7) (G1 & G2 & G3 & G4 & G5 & G6 & G7) (Y1 & Y2 & M1 & M2 & _ & _).
  destruct (rem_ok (year d) ltac:(lia)) as [R1 R2]. destruct (rem_ok (year g) ltac:(lia)) as [R3 R4].
  unfold items, clk, iso, wname. rewrite R1, R3. destruct f; repeat (apply Forall_app; split); repeat (apply Forall_cons || apply Forall_nil);
    first [exact I|apply lit_ok; cbn; lia|match goal with |- ok (Lit _) => vm_compute; discriminate end|cbn [ok]; lia|specialize (M1 eq_refl); cbn [ok]; lia|specialize (M2 eq_refl); cbn [ok]; lia].
Qed.
Lemma format_items f z d g off : date_time z = d -> gmt_offset z = off -> date_time (to_gmt_offset z 0) = g -> Forall ok (items f d g off) ->
  format f z = flat_map text_of (items f d g off).
Proof.
  intros <- <- <- H. unfold format. destruct f; (eapply items_text; [exact H|reflexivity|reflexivity]).
Qed.
Lemma items_layout f d g off : fields_ok d -> fields_ok g -> printed_well f d g off -> -43200 <= off <= 50400 -> (off = 0 -> d = g) -> flat_map text_of (items f d g off) = layout f d g off.
Proof.
  intros (D1 & D2 & D3 & _) (G1 & G2 & G3 & _) (Y1 & Y2 & _ & _ & Zo & U) R Eg.
  destruct (rem_ok (year d) ltac:(lia)) as [R1 _]. destruct (rem_ok (year g) ltac:(lia)) as [R3 _].
  destruct (weekday_ok _ D3) as [W1 W2]. destruct (weekday_ok _ G3) as [W3 W4]. pose proof (month_ok _ D1) as M1. pose proof (month_ok _ G1) as M2.
  assert (Hz : zoned f = true -> tzsuffix off = zone "" off /\ tzsuffix_colon off = zone ":" off) by (intros E; apply suffix_ok; [exact R|now apply Zo]).
  unfold items, wname. rewrite ?R1, ?R3, ?W1, ?W2, ?W3, ?W4, ?M1, ?M2.
  destruct f; cbn [zoned] in Hz; try (destruct (Hz eq_refl) as [Hz1 Hz2]; rewrite ?Hz1, ?Hz2); try (rewrite (Eg (U eq_refl))); unfold clk, iso, layout, clock_text, iso_date, L;
    rewrite !flat_map_app; cbn [flat_map text_of map]; rewrite ?app_nil_r; repeat rewrite <- app_assoc; reflexivity.
Qed.
Lemma gmt_date z g : let d := date_time z in shows (time d + gmt_offset z * SEC) d -> exact (time d) -> shows (time d) g -> time g = time d -> date_time (to_gmt_offset z 0) = g.
Proof.
  cbv zeta. intros H X Hg T. unfold to_gmt_offset. destruct (gmt_offset z =? 0) eqn:E.
  - assert (E0 : gmt_offset z = 0) by lia. rewrite E0, Z.mul_0_l, Z.add_0_r in H. apply (DateProofs2.shows_unique (time (date_time z))); [exact H|exact Hg|now symmetry].
  - cbn [date_time]. rewrite Z.mul_0_l, Z.add_0_r. apply (DateProofs2.shows_unique (time (date_time z))); [|exact Hg|now symmetry]. apply DateProofs2.from_time_shows in X. exact X.
Qed.
Lemma format_ok f z g : let d := date_time z in let off := gmt_offset z in
  shows (time d + off * SEC) d -> exact (time d) -> shows (time d) g -> time g = time d -> -43200 <= off <= 50400 -> printed_well f d g off -> format f z = layout f d g off.
Proof.
  cbv zeta. intros H X Hg T R P. pose proof (gmt_date z g H X Hg T) as Eg. pose proof (shows_fields _ _ H) as F1. pose proof (shows_fields _ _ Hg) as F2.
  rewrite (format_items f z _ _ _ eq_refl eq_refl Eg) by now apply items_fine. apply items_layout; try assumption.
  intros E0. rewrite E0, Z.mul_0_l, Z.add_0_r in H. apply (DateProofs2.shows_unique (time (date_time z))); [exact H|exact Hg|now symmetry].
Qed.
Lemma two_inj a b r r' : 0 <= a < 100 -> 0 <= b < 100 -> two a ++ r = two b ++ r' -> a = b /\ r = r'.
Proof.
  intros Ha Hb E. assert (E1 : 48 + a / 10 = 48 + b / 10) by exact (f_equal (hd 0) E). assert (E2 : 48 + a mod 10 = 48 + b mod 10) by exact (f_equal (fun l => hd 0 (tl l)) E).
  assert (E3 : r = r') by exact (f_equal (fun l => tl (tl l)) E). split; [|exact E3]. clear E E3.
  pose proof (Z.div_mod a 10 ltac:(lia)). pose proof (Z.div_mod b 10 ltac:(lia)). lia.
Qed.
Lemma zone_inj off off' : -43200 <= off <= 50400 -> -43200 <= off' <= 50400 -> off mod 60 = 0 -> off' mod 60 = 0 -> zone ":" off = zone ":" off' -> off = off'.
Proof.
  intros R R' M M' E. assert (K : forall a, 0 <= a <= 50400 -> a mod 60 = 0 -> 0 <= a / 3600 < 100 /\ 0 <= a mod 3600 / 60 < 100 /\ a = 3600 * (a / 3600) + 60 * (a mod 3600 / 60)).
  { clear. intros a Ha Hm. assert (exists k, a = 60 * k) as [k ->] by (exists (a / 60); pose proof (Z.div_mod a 60 ltac:(lia)); lia).
    assert (Em : (60 * k) mod 3600 = 60 * (k mod 60)) by (rewrite <- Z.mul_mod_distr_l by lia; reflexivity). rewrite Em. rewrite (Z.mul_comm 60 (k mod 60)), Z.div_mul by lia.
    assert (Ed : 60 * k / 3600 = k / 60) by (change 3600 with (60 * 60); apply Z.div_mul_cancel_l; lia). rewrite Ed. pose proof (Z.div_mod k 60 ltac:(lia)). pose proof (Z.mod_pos_bound k 60 ltac:(lia)). lia. }
  assert (A : forall o, o mod 60 = 0 -> Z.abs o mod 60 = 0).
  { intros o Ho. apply Z.mod_divide in Ho; [|lia]. apply Z.mod_divide; [lia|]. now apply Z.divide_abs_r. }
  destruct (K (Z.abs off) ltac:(lia) (A _ M)) as (K1 & K2 & K3). destruct (K (Z.abs off') ltac:(lia) (A _ M')) as (K1' & K2' & K3'). clear K A M M'.
  unfold zone in E. assert (Es : (0 <? off) = (0 <? off') /\ Z.abs off = Z.abs off').
  { destruct (0 <? off), (0 <? off'); try (apply (f_equal (hd 0)) in E; discriminate E);
      (split; [reflexivity|]); apply app_inv_head in E; apply (two_inj _ _ _ _ K1 K1') in E; destruct E as [E1 E]; apply app_inv_head in E; rewrite <- (app_nil_r (two _)) in E; rewrite <- (app_nil_r (two (Z.abs off' mod 3600 / 60))) in E;
      apply (two_inj _ _ _ _ K2 K2') in E; destruct E as [E2 _]; rewrite K3, K3', E1, E2; reflexivity. }
  lia.
Qed.
