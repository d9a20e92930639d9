(** Reading the format. *)
From Coq Require Import String ZArith List Bool Lia ZifyBool Arith.
From Verif Require Import Mach ListAux LexSpec UtfSpec StrSpec StrProofs FmtModel FmtProofs FmtProofs2 FmtProofs3.
From Verif Require FmtSpec UtfProofs.
Import ListNotations.
Open Scope Z_scope.

Lemma get_mid (a r : list Z) c i : i = zlen a -> get (a ++ c :: r) i = Ok c.
Proof. intros ->. now apply get_app. Qed.
Lemma read_mid (a r : list Z) c i cap f o : i = zlen a -> read (a ++ c :: r) i cap f o = (f, o, Val c).
Proof. intros H. unfold read. now rewrite get_mid. Qed.
Definition acc (fs : list Z) (g : flags) : flags := fold_left (fun g c => match flag_of c g with Some g => g | None => g end) fs g.
Lemma acc_has : forall fs g, Forall FmtSpec.is_flag fs ->
  acc fs g = Flags (zeropad g || FmtSpec.has 48 fs) (left g || FmtSpec.has 45 fs) (plus g || FmtSpec.has 43 fs) (space g || FmtSpec.has 32 fs) (hash g || FmtSpec.has 35 fs) (upper g) (precision g).
Proof.
  induction fs as [|c fs IH]; intros g H; [destruct g; cbn; now rewrite !orb_false_r|]. pose proof (Forall_inv H) as Hc. cbv beta in Hc. apply Forall_inv_tail in H. unfold acc. cbn [fold_left]. fold (acc fs). unfold FmtSpec.has. cbn [existsb]. fold (FmtSpec.has 48 fs) (FmtSpec.has 45 fs) (FmtSpec.has 43 fs) (FmtSpec.has 32 fs) (FmtSpec.has 35 fs).
  destruct Hc as [<- | [<- | [<- | [<- | [<- | []]]]]]; cbn [flag_of Z.eqb Pos.eqb orb]; unfold acc in IH; (etransitivity; [apply IH; exact H|]); cbn [zeropad left plus space hash upper precision]; rewrite ?orb_true_r; cbn [orb]; reflexivity.
Qed.
Lemma flag_some c g : FmtSpec.is_flag c -> flag_of c g = Some (acc [c] g).
Proof. intros [<- | [<- | [<- | [<- | [<- | []]]]]]; reflexivity. Qed.
Lemma flag_none c g : ~ FmtSpec.is_flag c -> flag_of c g = None.
Proof.
  intros H. unfold flag_of. assert (E : forall x, In x (FmtSpec.tx "0-+ #"%string) -> (c =? x) = false). { intros x Hx. apply Z.eqb_neq. intros ->. now apply H. }
  rewrite (E 48), (E 45), (E 43), (E 32), (E 35) by (cbn; tauto). reflexivity.
Qed.
Lemma flag_eval_ok : forall fs k a c r g cap f o, Forall FmtSpec.is_flag fs -> ~ FmtSpec.is_flag c -> (length fs < k)%nat ->
  flag_eval k (a ++ fs ++ c :: r) (zlen a) g cap f o = (f, o, Val (Some (zlen a + zlen fs, acc fs g))).
Proof.
  induction fs as [|b fs IH]; intros k a c r g cap f o Hf Hc Hk; (destruct k as [|k]; [cbn in Hk; lia|]); cbn [flag_eval app]; unfold andThen at 1; rewrite read_mid by reflexivity.
  - rewrite flag_none by exact Hc. unfold ret. cbn. now rewrite Z.add_0_r.
  - pose proof (Forall_inv Hf) as Hb. apply Forall_inv_tail in Hf. rewrite flag_some by exact Hb. assert (E : zlen (a ++ b :: fs ++ c :: r) <=? zlen a + 1 = false). { rewrite zlen_app, zlen_cons, zlen_app, zlen_cons. pose proof (zlen_nonneg fs). pose proof (zlen_nonneg r). lia. }
    rewrite E. replace (a ++ b :: fs ++ c :: r) with ((a ++ [b]) ++ fs ++ c :: r) by (rewrite <- app_assoc; reflexivity). replace (zlen a + 1) with (zlen (a ++ [b])) by (rewrite zlen_app; reflexivity). cbn [length] in Hk. rewrite IH by (auto; lia). f_equal. f_equal. f_equal. f_equal. rewrite zlen_app. change (zlen [b]) with 1. rewrite zlen_cons. lia.
Qed.
Lemma value_ge : forall ds v, Forall FmtSpec.is_digit ds -> 0 <= v -> v <= fold_left (fun n c => n * 10 + (c - 48)) ds v.
Proof. induction ds as [|d ds IH]; intros v H Hv; [cbn; lia|]. pose proof (Forall_inv H) as Hd. unfold FmtSpec.is_digit in Hd. apply Forall_inv_tail in H. cbn [fold_left]. pose proof (IH (v * 10 + (d - 48)) H ltac:(lia)). lia. Qed.
Lemma atoi_ok : forall ds k a c r v cap f o, Forall FmtSpec.is_digit ds -> ~ FmtSpec.is_digit c -> (length ds < k)%nat -> 0 <= v -> fold_left (fun n c => n * 10 + (c - 48)) ds v < 2 ^ 31 ->
  simple_atoi k (a ++ ds ++ c :: r) (zlen a) v cap f o = (f, o, Val (fold_left (fun n c => n * 10 + (c - 48)) ds v, zlen a + zlen ds)).
Proof.
  induction ds as [|b fs IH]; intros k a c r v cap f o Hf Hc Hk Hv Hl; (destruct k as [|k]; [cbn in Hk; lia|]); cbn [simple_atoi app].
  - assert (E : (zlen a <? zlen (a ++ c :: r)) = true) by (rewrite zlen_app, zlen_cons; pose proof (zlen_nonneg r); lia). rewrite E. unfold andThen. rewrite read_mid by reflexivity. unfold FmtSpec.is_digit in Hc. replace ((48 <=? c) && (c <=? 57)) with false by lia. unfold ret. cbn. now rewrite Z.add_0_r.
  - pose proof (Forall_inv Hf) as Hb. unfold FmtSpec.is_digit in Hb. apply Forall_inv_tail in Hf. cbn [fold_left] in *. pose proof (value_ge fs (v * 10 + (b - 48)) Hf ltac:(lia)).
    assert (E : (zlen a <? zlen (a ++ b :: fs ++ c :: r)) = true) by (rewrite zlen_app, zlen_cons; pose proof (zlen_nonneg (fs ++ c :: r)); lia). rewrite E. unfold andThen. rewrite read_mid by reflexivity. replace ((48 <=? b) && (b <=? 57)) with true by lia.
    replace ((v * 10 + b - 48) mod 2 ^ 32) with (v * 10 + (b - 48)) by (rewrite Z.mod_small; lia).
    replace (a ++ b :: fs ++ c :: r) with ((a ++ [b]) ++ fs ++ c :: r) by (rewrite <- app_assoc; reflexivity). replace (zlen a + 1) with (zlen (a ++ [b])) by (rewrite zlen_app; reflexivity). cbn [length] in Hk. rewrite IH by (auto; lia). f_equal. f_equal. f_equal. rewrite zlen_app. change (zlen [b]) with 1. rewrite zlen_cons. lia.
Qed.
Lemma field_ok w args v rest a c r cap f o : FmtSpec.wf_field w -> FmtSpec.Field w args v rest -> ~ FmtSpec.is_digit c -> c <> 42 ->
  parse_field (a ++ FmtSpec.spell_field w ++ c :: r) (zlen a) args cap f o = (f, o, Val (v, zlen a + zlen (FmtSpec.spell_field w), rest)).
Proof.
  intros Hw HF Hc H42. unfold parse_field. destruct HF as [args|ds args Hv|s b v args Hv]; cbn [FmtSpec.spell_field app] in *.
  - unfold andThen. rewrite read_mid by reflexivity. unfold FmtSpec.is_digit in Hc. replace ((48 <=? c) && (c <=? 57)) with false by lia. replace (c =? 42) with false by lia. unfold ret. cbn. now rewrite Z.add_0_r.
  - destruct Hw as [Hne Hd]. destruct ds as [|d ds]; [easy|]. unfold andThen at 1. cbn [app]. rewrite read_mid by reflexivity. pose proof (Forall_inv Hd) as Hd1. unfold FmtSpec.is_digit in Hd1. replace ((48 <=? d) && (d <=? 57)) with true by lia. unfold andThen. change (d :: ds ++ c :: r) with ((d :: ds) ++ c :: r).
    rewrite atoi_ok by (auto; try lia; rewrite !app_length; cbn [length]; lia). unfold ret. cbn [fst snd]. unfold to_int. pose proof (value_ge (d :: ds) 0 Hd ltac:(lia)). fold (FmtSpec.value (d :: ds)) in *. replace (FmtSpec.value (d :: ds) <? 2 ^ 31) with true by lia. reflexivity.
  - unfold andThen. rewrite read_mid by reflexivity. change ((48 <=? 42) && (42 <=? 57)) with false. cbn [Z.eqb Pos.eqb negb]. cbv iota. replace (zlen (a ++ 42 :: c :: r) <=? zlen a + 1) with false by (rewrite zlen_app, !zlen_cons; pose proof (zlen_nonneg r); lia). unfold any_to_int. replace ((- 2 ^ 31 <=? v) && (v <? 2 ^ 31)) with true by lia. reflexivity.
Qed.
Lemma conv_kind c : In c FmtSpec.conversions -> ~ FmtSpec.is_flag c /\ ~ FmtSpec.is_digit c /\ c <> 42 /\ c <> 46 /\ c <> 37.
Proof.
  intros H. unfold FmtSpec.is_flag, FmtSpec.is_digit, FmtSpec.conversions in *. cbn in H. cbn.
  repeat (destruct H as [<- | H]; [lia|]). easy.
Qed.
Lemma field_head w b x : FmtSpec.wf_field w -> (forall ds, w = FmtSpec.Digits (48 :: ds) -> False) -> ~ FmtSpec.is_flag b -> b <> 37 ->
  exists c r, FmtSpec.spell_field w ++ b :: x = c :: r /\ ~ FmtSpec.is_flag c /\ c <> 37.
Proof.
  intros Hw H0 Hb Hb2. destruct w as [|ds|]; cbn [FmtSpec.spell_field app].
  - exists b, x. auto.
  - destruct Hw as [Hne Hd]. destruct ds as [|d ds]; [easy|]. exists d, (ds ++ b :: x). split; [reflexivity|]. apply Forall_inv in Hd. unfold FmtSpec.is_digit in Hd. assert (d <> 48) by (intros ->; now apply (H0 ds)). unfold FmtSpec.is_flag. cbn. lia.
  - exists 42, (b :: x). split; [reflexivity|]. unfold FmtSpec.is_flag. cbn. lia.
Qed.
Lemma flag_not_percent c : FmtSpec.is_flag c -> c <> 37. Proof. intros [<- | [<- | [<- | [<- | [<- | []]]]]]; discriminate. Qed.
Lemma dir_head fs w p c r : FmtSpec.wf (FmtSpec.Dir fs w p c) -> exists d x, fs ++ FmtSpec.spell_field w ++ match p with None => [] | Some f => 46 :: FmtSpec.spell_field f end ++ c :: r = d :: x /\ d <> 37.
Proof.
  intros (Hf & Hw & H0 & Hp & Hc). destruct fs as [|d fs]; [|exists d; eexists; split; [reflexivity|]; apply flag_not_percent, (Forall_inv Hf)]. cbn [app].
  destruct (conv_kind c Hc) as (? & ? & ? & ? & ?). destruct p as [p|]; [destruct (field_head w 46 (FmtSpec.spell_field p ++ c :: r) Hw H0) as (d & x & E & _ & Hd)|destruct (field_head w c r Hw H0) as (d & x & E & _ & Hd)]; auto;
    try (unfold FmtSpec.is_flag; cbn; lia); exists d, x; split; assumption || exact E.
Qed.
(** One directive. *)
Lemma dir_ok fs w p c args wv args1 pv a rest u m pre r f o : FmtSpec.wf (FmtSpec.Dir fs w p c) -> muted f = false ->
  FmtSpec.Field w args wv args1 -> match p with None => args1 = a :: rest /\ pv = None | Some q => exists v, FmtSpec.Field q args1 v (a :: rest) /\ 0 <= v /\ pv = Some v end ->
  FmtSpec.Directive (FmtSpec.how_of fs wv pv) c a u m ->
  let body := fs ++ FmtSpec.spell_field w ++ match p with None => [] | Some q => 46 :: FmtSpec.spell_field q end in
  exists f', first f' = first f /\ muted f' = false /\ directive (pre ++ body ++ c :: r) (zlen pre) args None f o = (f', o ++ u, Val (zlen pre + zlen body, rest, zlen u - m)).
Proof.
  intros (Hf & Hw & H0 & Hp & Hc) Hm HF HP HD body. destruct (conv_kind c Hc) as (Hc1 & Hc2 & Hc3 & Hc4 & Hc5).
  set (tl := match p with None => [] | Some q => 46 :: FmtSpec.spell_field q end) in *. set (s := pre ++ body ++ c :: r).
  assert (Hb : exists b x, tl ++ c :: r = b :: x /\ ~ FmtSpec.is_flag b /\ ~ FmtSpec.is_digit b /\ b <> 42 /\ b <> 37).
  { unfold tl. destruct p as [q|]; cbn [app]; [exists 46; eexists; split; [reflexivity|]; unfold FmtSpec.is_flag, FmtSpec.is_digit; cbn; lia|exists c, r; tauto]. }
  destruct Hb as (b & x & Eb & Hb1 & Hb2 & Hb3 & Hb4). destruct (field_head w b x Hw H0 Hb1 Hb4) as (d & y & Ed & Hd1 & Hd2).
  assert (Es1 : s = pre ++ fs ++ d :: y) by (unfold s, body; rewrite <- !app_assoc, Eb, Ed; reflexivity).
  assert (Es2 : s = (pre ++ fs) ++ FmtSpec.spell_field w ++ b :: x) by (unfold s, body; rewrite <- !app_assoc, Eb; reflexivity).
  assert (Es3 : s = (pre ++ fs ++ FmtSpec.spell_field w) ++ b :: x) by (unfold s, body; rewrite <- !app_assoc, Eb; reflexivity).
  set (h := FmtSpec.how_of fs wv pv). assert (Hg : good h). { unfold good, h, FmtSpec.how_of. cbn. split; [lia|]. destruct p as [q|]; [destruct HP as (v & _ & Hv & ->); exact Hv|destruct HP as [_ ->]; exact I]. }
  destruct (directive_ok h c a u m (first f) o Hg HD) as (f' & F1 & F2 & F3). exists f'. split; [exact F1|]. split; [exact F2|].
  unfold directive. unfold andThen at 1. unfold change at 1, andThen at 1, look at 1, put at 1. unfold andThen at 1.
  rewrite Es1 at 1 2. rewrite flag_eval_ok by (auto; rewrite !app_length; cbn [length]; lia). unfold andThen at 1. unfold change at 1, andThen at 1, look at 1, put at 1. unfold andThen at 1, as_option at 1, catch at 1, andThen at 1.
  rewrite <- zlen_app. rewrite Es2 at 1. rewrite (field_ok w args wv args1) by assumption. unfold ret at 1. cbv beta iota. rewrite <- !zlen_app, <- app_assoc. unfold andThen at 1. rewrite Es3 at 1. rewrite read_mid by reflexivity.
  rewrite acc_has by exact Hf. cbn [no_flags zeropad left plus space hash upper precision orb].
  set (f1 := with_flags _ (with_flags _ f)). assert (C : forall r0, (if wv <? 0 then change set_left else ret tt) None f1 r0 = (with_flags (Flags (FmtSpec.has 48 fs) (FmtSpec.has 45 fs || (wv <? 0)) (FmtSpec.has 43 fs) (FmtSpec.has 32 fs) (FmtSpec.has 35 fs) false false) f, r0, Val tt)).
  { intros r0. destruct (wv <? 0); unfold f1, change, andThen, look, put, ret; cbn; rewrite ?orb_true_r, ?orb_false_r; reflexivity. }
  unfold andThen at 1. rewrite C. clear C f1. unfold andThen at 1, look at 1. unfold andThen at 1, put at 1. unfold with_prec, with_width, with_flags. cbn [fl width prec first muted]. rewrite Hm.
  destruct p as [q|].
  - destruct HP as (v & HQ & Hv & ->). unfold tl in Eb. cbn [app] in Eb. injection Eb as <- <-. cbn [Z.eqb Pos.eqb]. unfold andThen at 1. unfold andThen at 1. unfold change at 1, andThen at 1, look at 1, put at 1.
    assert (El : (zlen s <=? zlen (pre ++ fs ++ FmtSpec.spell_field w) + 1) = false) by (rewrite Es3, (zlen_app (pre ++ fs ++ FmtSpec.spell_field w)), zlen_cons, (zlen_app (FmtSpec.spell_field q)), zlen_cons; pose proof (zlen_nonneg (FmtSpec.spell_field q)); pose proof (zlen_nonneg r); lia).
    rewrite El. unfold andThen at 1, as_option at 1, catch at 1, andThen at 1. replace (zlen (pre ++ fs ++ FmtSpec.spell_field w) + 1) with (zlen ((pre ++ fs ++ FmtSpec.spell_field w) ++ [46])) by (rewrite (zlen_app _ [46]); reflexivity).
    assert (Es4 : s = ((pre ++ fs ++ FmtSpec.spell_field w) ++ [46]) ++ FmtSpec.spell_field q ++ c :: r) by (rewrite Es3, <- (app_assoc _ [46]); reflexivity). rewrite Es4 at 1. rewrite (field_ok q args1 v (a :: rest)) by assumption. unfold ret at 1. cbv beta iota. rewrite <- zlen_app.
    unfold andThen at 1, look at 1. unfold andThen at 1, put at 1. replace (v <? 0) with false by lia. unfold andThen at 1. rewrite Es4 at 1. rewrite app_assoc. rewrite read_mid by reflexivity. unfold ret at 1. cbv beta iota. unfold andThen at 1.
    assert (Ef : Fm (set_precision (Flags (FmtSpec.has 48 fs) (FmtSpec.has 45 fs || (wv <? 0)) (FmtSpec.has 43 fs) (FmtSpec.has 32 fs) (FmtSpec.has 35 fs) false false)) (Z.abs wv) v (first f) false = st h (first f) false) by reflexivity.
    unfold with_flags, with_prec. cbn [fl width prec first muted]. rewrite Ef, F3. unfold ret. f_equal. f_equal. f_equal. f_equal. unfold body, tl. rewrite !zlen_app. change (zlen [46]) with 1. rewrite zlen_cons. lia.
  - destruct HP as [-> ->]. unfold tl in Eb. cbn [app] in Eb. injection Eb as <- <-. replace (c =? 46) with false by lia. unfold andThen at 1, ret at 1. cbv beta iota. unfold andThen at 1.
    assert (Ef : Fm (Flags (FmtSpec.has 48 fs) (FmtSpec.has 45 fs || (wv <? 0)) (FmtSpec.has 43 fs) (FmtSpec.has 32 fs) (FmtSpec.has 35 fs) false false) (Z.abs wv) 0 (first f) false = st h (first f) false) by reflexivity.
    rewrite Ef, F3. unfold ret. f_equal. f_equal. f_equal. f_equal. unfold body, tl. rewrite app_nil_r, !zlen_app. lia.
Qed.
(** The whole format. *)
Lemma loop_ok ps args t m : FmtSpec.Prints ps args t m -> Forall FmtSpec.wf ps -> forall k pre f o total, first f = None -> muted f = false -> (length (concat (map FmtSpec.spell ps)) < k)%nat ->
  exists f', loop k (pre ++ concat (map FmtSpec.spell ps)) (zlen pre) args total None f o = (f', o ++ t, Val (total + zlen t - m)).
Proof.
  assert (D : forall fs w p c ps args wv args1 pv a rest u m t n, FmtSpec.wf (FmtSpec.Dir fs w p c) -> FmtSpec.Field w args wv args1 ->
    match p with None => args1 = a :: rest /\ pv = None | Some q => exists v, FmtSpec.Field q args1 v (a :: rest) /\ 0 <= v /\ pv = Some v end -> FmtSpec.Directive (FmtSpec.how_of fs wv pv) c a u m ->
    (forall k pre f o total, first f = None -> muted f = false -> (length (concat (map FmtSpec.spell ps)) < k)%nat -> exists f', loop k (pre ++ concat (map FmtSpec.spell ps)) (zlen pre) rest total None f o = (f', o ++ t, Val (total + zlen t - n))) ->
    forall k pre f o total, first f = None -> muted f = false -> (length (concat (map FmtSpec.spell (FmtSpec.Dir fs w p c :: ps))) < k)%nat ->
    exists f', loop k (pre ++ concat (map FmtSpec.spell (FmtSpec.Dir fs w p c :: ps))) (zlen pre) args total None f o = (f', o ++ u ++ t, Val (total + zlen (u ++ t) - (m + n)))).
  { intros fs w p c ps0 args0 wv args1 pv a rest u m0 t0 n Hw HF HP HD IH k pre f o total Hf Hm Hk. destruct k as [|k]; [lia|]. set (z := concat (map FmtSpec.spell ps0)) in *.
    destruct (dir_head fs w p c z Hw) as (d & x & Ed & Hd). cbn [map concat FmtSpec.spell] in *. fold z in Hk. fold z.
    set (tl := match p with None => [] | Some q => 46 :: FmtSpec.spell_field q end) in *. set (body := fs ++ FmtSpec.spell_field w ++ tl).
    assert (Es : pre ++ (37 :: fs ++ FmtSpec.spell_field w ++ tl ++ [c]) ++ z = (pre ++ [37]) ++ body ++ c :: z) by (unfold body; rewrite <- (app_assoc pre [37]); cbn [app]; rewrite <- ?app_assoc; reflexivity).
    assert (Es2 : (pre ++ [37]) ++ body ++ c :: z = pre ++ 37 :: d :: x) by (unfold body; rewrite <- !app_assoc, Ed; reflexivity). rewrite Es. set (s := (pre ++ [37]) ++ body ++ c :: z) in *.
    cbn [loop]. assert (E1 : (zlen pre <? zlen s) = true) by (rewrite Es2, zlen_app, zlen_cons; pose proof (zlen_nonneg (d :: x)); lia). assert (R1 : read s (zlen pre) None f o = (f, o, Val 37)) by (rewrite Es2; now apply read_mid). assert (R2 : read s (zlen pre + 1) None f o = (f, o, Val d)) by (rewrite Es2; replace (pre ++ 37 :: d :: x) with ((pre ++ [37]) ++ d :: x) by (rewrite <- app_assoc; reflexivity); apply read_mid; rewrite zlen_app; reflexivity). rewrite E1. unfold andThen at 1. rewrite R1. cbn [Z.eqb Pos.eqb negb].
    assert (E2 : (zlen s <=? zlen pre + 1) = false) by (rewrite Es2, zlen_app, !zlen_cons; pose proof (zlen_nonneg x); lia). rewrite E2. unfold andThen at 1. rewrite R2. replace (d =? 37) with false by lia.
    replace (zlen pre + 1) with (zlen (pre ++ [37])) by (rewrite zlen_app; reflexivity). destruct (dir_ok fs w p c args0 wv args1 pv a rest u m0 (pre ++ [37]) z f o Hw Hm HF HP HD) as (f1 & G1 & G2 & G3). unfold andThen at 1. fold tl in G3. fold body in G3. fold s in G3. rewrite G3. cbv beta iota.
    destruct (IH k ((pre ++ [37]) ++ body ++ [c]) f1 (o ++ u) (total + (zlen u - m0))) as (f2 & G4); [rewrite G1; exact Hf|exact G2|rewrite app_length in Hk; cbn [length] in Hk; lia|]. exists f2.
    replace (zlen (pre ++ [37]) + zlen body + 1) with (zlen ((pre ++ [37]) ++ body ++ [c])) by (rewrite (zlen_app (pre ++ [37])), (zlen_app body); change (zlen [c]) with 1; lia). replace s with (((pre ++ [37]) ++ body ++ [c]) ++ z) by (unfold s; rewrite <- !app_assoc; reflexivity).
    rewrite G4, <- app_assoc. f_equal. f_equal. rewrite zlen_app. lia. }
  induction 1 as [args|c ps args t n H IH|ps args t n H IH|fs w c ps args wv a rest u m t n HF HD H IH|fs w p c ps args wv args1 pv a rest u m t n HF HP Hp HD H IH]; intros Hw k pre f o total Hf Hm Hk; (destruct k as [|k]; [lia|]).
  - cbn [map concat] in *. rewrite app_nil_r. cbn [loop]. rewrite Z.ltb_irrefl. unfold andThen, look. rewrite Hf. exists f. unfold ret. rewrite app_nil_r. change (zlen []) with 0. rewrite Z.sub_0_r, Z.add_0_r. reflexivity.
  - pose proof (Forall_inv Hw) as Hc. cbn in Hc. apply Forall_inv_tail in Hw. cbn [map concat FmtSpec.spell app length] in *. cbn [loop]. set (z := concat (map FmtSpec.spell ps)) in *. assert (E : (zlen pre <? zlen (pre ++ c :: z)) = true) by (rewrite zlen_app, zlen_cons; pose proof (zlen_nonneg z); lia). rewrite E. unfold andThen at 1. rewrite read_mid by reflexivity. replace (c =? 37) with false by lia. cbn [negb]. unfold andThen at 1, out, full. rewrite Hm. cbv beta iota.
    destruct (IH Hw k (pre ++ [c]) f (o ++ [c]) (total + 1) Hf Hm ltac:(lia)) as (f' & G). exists f'. rewrite zlen_app in G. change (zlen [c]) with 1 in G. rewrite <- !app_assoc in G. cbn [app] in G. rewrite G. f_equal. f_equal. rewrite zlen_cons. lia.
  - apply Forall_inv_tail in Hw. cbn [map concat FmtSpec.spell app length] in *. cbn [loop]. set (z := concat (map FmtSpec.spell ps)) in *. assert (E : (zlen pre <? zlen (pre ++ 37 :: 37 :: z)) = true) by (rewrite zlen_app, !zlen_cons; pose proof (zlen_nonneg z); lia). rewrite E. unfold andThen at 1. rewrite read_mid by reflexivity. cbn [Z.eqb Pos.eqb negb].
    assert (E2 : (zlen (pre ++ 37 :: 37 :: z) <=? zlen pre + 1) = false) by (rewrite zlen_app, !zlen_cons; pose proof (zlen_nonneg z); lia). rewrite E2. assert (R2 : read (pre ++ 37 :: 37 :: z) (zlen pre + 1) None f o = (f, o, Val 37)) by (replace (pre ++ 37 :: 37 :: z) with ((pre ++ [37]) ++ 37 :: z) by (rewrite <- app_assoc; reflexivity); apply read_mid; rewrite zlen_app; reflexivity). unfold andThen at 1. rewrite R2. cbn [Z.eqb Pos.eqb]. unfold andThen at 1, out, full. rewrite Hm. cbv beta iota.
    destruct (IH Hw k (pre ++ [37; 37]) f (o ++ [37]) (total + 1) Hf Hm ltac:(lia)) as (f' & G). exists f'. rewrite zlen_app in G. change (zlen [37; 37]) with 2 in G. rewrite <- !app_assoc in G. cbn [app] in G. rewrite G. f_equal. f_equal. rewrite zlen_cons. lia.
  - pose proof (Forall_inv Hw) as Hc. apply Forall_inv_tail in Hw. apply (D fs w None c ps args wv (a :: rest) None a rest); auto.
  - pose proof (Forall_inv Hw) as Hc. apply Forall_inv_tail in Hw. apply (D fs w (Some p) c ps args wv args1 (Some pv) a rest); auto. exists pv. auto.
Qed.
Lemma printf_ok ps args t m : FmtSpec.Prints ps args t m -> Forall FmtSpec.wf ps -> printf (concat (map FmtSpec.spell ps)) args = (t, Val (zlen t - m)).
Proof.
  intros H Hw. unfold printf, vprintf. unfold andThen at 1, look. unfold andThen, put. destruct (loop_ok ps args t m H Hw (S (length (concat (map FmtSpec.spell ps)))) [] (with_first None fresh) [] 0 eq_refl eq_refl ltac:(lia)) as (f' & G). cbn [app] in G. change (zlen []) with 0 in G. rewrite G. reflexivity.
Qed.
