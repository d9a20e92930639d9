(** Characters, strings and bytes. *)
From Coq Require Import String ZArith List Bool Lia ZifyBool Arith.
From Verif Require Import Mach ListAux LexSpec UtfSpec StrSpec StrProofs FmtModel FmtProofs FmtProofs2.
From Verif Require FmtSpec UtfProofs.
Import ListNotations.
Open Scope Z_scope.

(** %c. *)
Lemma lor_mod k a x : 0 <= x < 2 ^ Z.of_nat k -> 0 <= a -> a * 2 ^ Z.of_nat k + x < 256 -> Z.lor (a * 2 ^ Z.of_nat k) x mod 256 = a * 2 ^ Z.of_nat k + x.
Proof. intros H Ha Hb. rewrite UtfProofs.lor_plus by exact H. apply Z.mod_small. pose proof (Z.pow_pos_nonneg 2 (Z.of_nat k) ltac:(lia) ltac:(lia)). pose proof (Z.mul_nonneg_nonneg a (2 ^ Z.of_nat k) Ha ltac:(lia)). lia. Qed.
Lemma sh n x : 0 <= n -> Z.shiftr x n = x / 2 ^ n. Proof. intros H. now apply Z.shiftr_div_pow2. Qed.
Lemma char_bytes_ok v : scalar v -> v <> 127 -> v <> 2047 -> v <> 65535 -> char_bytes v = utf8 v.
Proof.
  intros Hs H1 H2 H3. unfold char_bytes, utf8, scalar in *. rewrite !sh by lia. rewrite !UtfProofs.and63. change (2 ^ 6) with 64. change (2 ^ 12) with 4096. change (2 ^ 18) with 262144.
  assert (L : forall x, 0 <= x < 64 -> Z.lor 128 x mod 256 = 128 + x) by (intros x Hx; apply (lor_mod 6 2 x); [exact Hx|lia|change (2 ^ Z.of_nat 6) with 64; lia]).
  pose proof (Z.mod_pos_bound v 64 ltac:(lia)). pose proof (Z.mod_pos_bound (v / 64) 64 ltac:(lia)). pose proof (Z.mod_pos_bound (v / 4096) 64 ltac:(lia)).
  destruct (v <? 127) eqn:E1; [replace (v <=? 127) with true by lia; f_equal; apply Z.mod_small; lia|]. replace (v <=? 127) with false by lia.
  destruct (v <? 2047) eqn:E2; [replace (v <=? 2047) with true by lia|].
  - rewrite L by lia. f_equal. assert (0 <= v / 64 < 32) by (split; [apply Z.div_pos; lia|apply Z.div_lt_upper_bound; lia]). apply (lor_mod 5 6); [change (2 ^ Z.of_nat 5) with 32; lia|lia|change (2 ^ Z.of_nat 5) with 32; lia].
  - replace (v <=? 2047) with false by lia. destruct (v <? 65535) eqn:E3; [replace (v <=? 65535) with true by lia|].
    + rewrite !L by lia. f_equal. assert (0 <= v / 4096 < 16) by (split; [apply Z.div_pos; lia|apply Z.div_lt_upper_bound; lia]). apply (lor_mod 4 14); [change (2 ^ Z.of_nat 4) with 16; lia|lia|change (2 ^ Z.of_nat 4) with 16; lia].
    + replace (v <=? 65535) with false by lia. rewrite !L by lia. f_equal. assert (0 <= v / 262144 < 8) by (split; [apply Z.div_pos; lia|apply Z.div_lt_upper_bound; lia]). apply (lor_mod 3 30); [change (2 ^ Z.of_nat 3) with 8; lia|lia|change (2 ^ Z.of_nat 3) with 8; lia].
Qed.
Lemma char_ok h s b v fi o : scalar v -> v <> 127 -> v <> 2047 -> v <> 65535 -> FmtSpec.width h = 0 ->
  conversion 99 (AInt s b v) None (st h fi false) o = (st h fi false, o ++ utf8 v, Val 1).
Proof.
  intros Hs H1 H2 H3 Hw. change (conversion 99 (AInt s b v)) with (out_char (AInt s b v)). unfold out_char.
  assert (E : any_to_int false v = Some v) by (unfold any_to_int, scalar in *; replace ((0 <=? v) && (v <? 2 ^ 32)) with true by lia; reflexivity). rewrite E, char_bytes_ok by assumption.
  assert (A : forall o, adjust 1 None (st h fi false) o = (st h fi false, o, Val 0)). { intros o1. rewrite adjust_ok. unfold st. cbn [fl left width]. rewrite Hw. destruct (FmtSpec.left h); unfold emit; cbn; now rewrite ?app_nil_r. }
  unfold andThen at 1. rewrite A. unfold andThen at 1. rewrite out_all_ok. unfold andThen. rewrite A. reflexivity.
Qed.

(** Values as text. *)
Scheme Shown_ind2 := Induction for FmtSpec.Shown Sort Prop with Shown_all_ind2 := Induction for FmtSpec.Shown_all Sort Prop.
Combined Scheme Shown_both from Shown_ind2, Shown_all_ind2.
Definition items : bool -> list arg -> M Z := fix items (sep : bool) (l : list arg) : M Z :=
  match l with
  | [] => ret 0
  | x :: r => s <- (if sep then out_substr [44; 32] else ret 0) ;; n <- out_str x ;; m <- items true r ;; ret (s + n + m)
  end.
Lemma out_str_list l : out_str (AList l) = plainly (a <- out 91 ;; n <- items false l ;; b <- out 93 ;; ret (a + n + b)). Proof. reflexivity. Qed.
Definition rest_of (ts : list (list Z)) : list Z := concat (map (fun t => [44; 32] ++ t) ts).
Lemma glue_rest t ts : glue [44; 32] (t :: ts) = t ++ rest_of ts.
Proof. revert t. induction ts as [|u ts IH]; intros t; [cbn; now rewrite app_nil_r|]. rewrite glue_cons by discriminate. rewrite IH. reflexivity. Qed.
Definition easy (f : fm) : Prop := precision (fl f) = false /\ prec f = 0.
Lemma restore f f' : first f' = first f -> muted f' = muted f -> prec f' = prec f -> with_width (width f) (with_flags (fl f) f') = f.
Proof. destruct f, f'. cbn. now intros -> -> ->. Qed.
Lemma numeral_low base : 2 <= base -> forall ds n, Number (digit_is base) base ds n -> (forall r, ds <> 48 :: r) -> ds <> [] -> base ^ (zlen ds - 1) <= n.
Proof.
  intros Hb. induction 1 as [|ds n c v H IH Hd]; [easy|]. intros Hh _. destruct ds as [|d ds].
  - assert (n = 0) by (inversion H as [|? ? ? ? ? ? E]; [reflexivity|now destruct ds]). subst n. cbn [app]. change (zlen [c] - 1) with 0. rewrite Z.pow_0_r. destruct Hd as [Hv Hd]. assert (v <> 0). { intros ->. destruct Hd as [[? ?]|[(? & ? & ?)|(? & ? & ?)]]; try lia. apply (Hh []). cbn. f_equal. lia. } lia.
  - assert (IH' : base ^ (zlen (d :: ds) - 1) <= n) by (apply IH; [intros r Hr; apply (Hh (r ++ [c])); rewrite Hr; reflexivity|discriminate]). destruct Hd as [Hv _]. rewrite zlen_app. change (zlen [c]) with 1. rewrite zlen_cons in *. pose proof (zlen_nonneg ds). replace (1 + zlen ds + 1 - 1) with (Z.succ (1 + zlen ds - 1)) by lia. rewrite Z.pow_succ_r by lia.
    pose proof (Z.mul_le_mono_nonneg_r _ _ base ltac:(lia) IH'). lia.
Qed.
Lemma numeral_len base up n ds k : 2 <= base -> 1 <= k -> FmtSpec.Numeral base up n ds -> n < base ^ k -> zlen ds <= k.
Proof.
  intros Hb Hk (N & _ & Ne & Nz) Hn. destruct (Z.le_gt_cases (zlen ds) k) as [|Hgt]; [assumption|]. assert (base ^ (zlen ds - 1) <= n). { apply numeral_low; [exact Hb|exact N| |exact Ne]. intros r Hr. specialize (Nz r Hr). subst ds r. cbn in Hgt. lia. }
  pose proof (Z.pow_le_mono_r base k (zlen ds - 1) ltac:(lia) ltac:(lia)). lia.
Qed.
Lemma plain_number (b : bool) w neg base ds : base = 10 -> pnumber (if b then set_hash false no_flags else no_flags) w 0 neg base ds = (if neg then FmtSpec.tx "-"%string else []) ++ ds.
Proof.
  intros ->. unfold pnumber, pzeros, psign, pprefix. pose proof (zlen_nonneg ds). destruct b, neg; cbn [set_hash left plus space hash upper zeropad no_flags negb andb app]; replace (Z.to_nat (Z.max 0 (Z.max (0 - zlen ds) 0))) with O by lia; reflexivity.
Qed.
Lemma out_str_int s b v ds f o : FmtSpec.in_range v -> FmtSpec.Numeral 10 false (Z.abs v) ds -> easy f ->
  out_str (AInt s b v) None f o = (f, emit f o ((if v <? 0 then FmtSpec.tx "-"%string else []) ++ ds), Val (zlen ((if v <? 0 then FmtSpec.tx "-"%string else []) ++ ds))).
Proof.
  intros Hr Hn [Hf1 Hf2]. cbn [out_str]. unfold plainly, catch. set (f0 := with_width 0 (with_flags no_flags f)).
  assert (Hd : zlen ds <= 39). { apply (numeral_len 10 false (Z.abs v)); [lia|lia|exact Hn|]. unfold FmtSpec.in_range in Hr. assert (2 ^ 128 < 10 ^ 39) by reflexivity. lia. }
  assert (En : pnumber (if Z.abs v =? 0 then set_hash false (fl f0) else fl f0) (width f0) (prec f0) (v <? 0) 10 ds = (if v <? 0 then FmtSpec.tx "-"%string else []) ++ ds) by (change (prec f0) with (prec f); rewrite Hf2; now apply plain_number).
  destruct (ntoa_ok f0 (Z.abs v) (v <? 0) 10 ds o) as (f' & F1 & F2 & F3 & F4).
  - tauto.
  - apply Z.le_refl.
  - change (prec f0) with (prec f). lia.
  - intros _. exact Hf2.
  - lia.
  - exact Hn.
  - rewrite En, zlen_app. destruct (v <? 0); [change (zlen (FmtSpec.tx "-"%string)) with 1|change (zlen []) with 0]; lia.
  - rewrite En in F4. rewrite F4. rewrite restore; [|exact F1|exact F2|exact F3]. change (emit f0) with (emit f). change (left (fl f0)) with false. change (zeropad (fl f0)) with false. change (width f0) with 0. cbv iota. destruct ((if v <? 0 then FmtSpec.tx "-"%string else []) ++ ds) as [|x t]; [reflexivity|].
    replace (Z.to_nat (0 - zlen (x :: t))) with O by (rewrite zlen_cons; pose proof (zlen_nonneg t); lia). reflexivity.
Qed.
Lemma shown_ok : (forall a t, FmtSpec.Shown a t -> forall f o, easy f -> out_str a None f o = (f, emit f o t, Val (zlen t))) /\
  (forall l ts, FmtSpec.Shown_all l ts -> forall f o, easy f -> items true l None f o = (f, emit f o (rest_of ts), Val (zlen (rest_of ts))) /\ items false l None f o = (f, emit f o (glue [44; 32] ts), Val (zlen (glue [44; 32] ts)))).
Proof.
  assert (Hplain : forall f, easy f -> easy (with_width 0 (with_flags no_flags f))) by (intros f [H1 H2]; split; [reflexivity|exact H2]).
  apply Shown_both.
  - intros s b v ds Hr Hn f o Hf. now apply out_str_int.
  - intros b f o [Hf1 Hf2]. cbn [out_str]. rewrite out_substr_ok, Hf1. now destruct b.
  - intros s f o [Hf1 Hf2]. cbn [out_str]. now rewrite out_substr_ok, Hf1.
  - intros l ts Hl IH f o Hf. rewrite out_str_list. unfold plainly. set (f0 := with_width 0 (with_flags no_flags f)). assert (Ho : forall c o, out c None f0 o = (f0, emit f0 o [c], Val 1)) by (intros c o1; unfold out, emit, full; now destruct (muted f0)).
    unfold andThen. rewrite Ho. destruct (IH f0 (emit f0 o [91]) (Hplain f Hf)) as [_ ->]. rewrite Ho. unfold ret. rewrite !emit_app by reflexivity. rewrite restore by reflexivity. change (emit f0) with (emit f). f_equal. f_equal. rewrite !zlen_app. change (zlen (FmtSpec.tx "["%string)) with 1. change (zlen (FmtSpec.tx "]"%string)) with 1. change (FmtSpec.tx ", "%string) with [44; 32]. lia.
  - intros f o Hf. cbn. rewrite emit_nil. auto.
  - intros a l t ts Ha IHa Hl IHl f o Hf. assert (Hx : forall sep, items sep (a :: l) None f o = (f, emit f o ((if sep then [44; 32] else []) ++ t ++ rest_of ts), Val (zlen ((if sep then [44; 32] else []) ++ t ++ rest_of ts)))).
    { intros sep. change (items sep (a :: l)) with (s <- (if sep then out_substr [44; 32] else ret 0) ;; n <- out_str a ;; m <- items true l ;; ret (s + n + m)). unfold andThen at 1.
      assert (Hs : (if sep then out_substr [44; 32] else ret 0) None f o = (f, emit f o (if sep then [44; 32] else []), Val (zlen (if sep then [44; 32] else [])))) by (destruct sep; [rewrite out_substr_ok; destruct Hf as [-> _]; reflexivity|unfold ret; now rewrite emit_nil]).
      rewrite Hs. unfold andThen at 1. rewrite IHa by exact Hf. unfold andThen. destruct (IHl f (emit f (emit f o (if sep then [44; 32] else [])) t) Hf) as [-> _]. unfold ret. rewrite !emit_app by reflexivity. rewrite <- ?app_assoc, ?zlen_app. f_equal. f_equal. lia. }
    rewrite !Hx. split; [cbn [app]; unfold rest_of; cbn [map concat app]; reflexivity|]. now rewrite glue_rest.
Qed.
(** Cutting at a number of characters. *)
Lemma cut_ok : forall s n t, FmtSpec.First n s t -> cut_chars n s = t.
Proof.
  induction s as [|c s IH]; intros n t (r & E & H1 & H2).
  - symmetry in E. apply app_eq_nil in E as [-> _]. reflexivity.
  - cbn [cut_chars]. assert (Hc : is_cont c = negb (FmtSpec.starts c)) by (unfold is_cont, FmtSpec.starts; now rewrite negb_involutive). rewrite Hc. destruct t as [|c' t]; cbn [app] in E.
    + subst r. destruct H2 as [-> Hn]. cbn in Hn. subst n. reflexivity.
    + injection E as <- E. unfold FmtSpec.chars in H1, H2. cbn [filter] in H1, H2. destruct (FmtSpec.starts c) eqn:Es; cbn [negb].
      * rewrite len_zlen, zlen_cons in H1. pose proof (zlen_nonneg (filter FmtSpec.starts t)). replace (n =? 0) with false by lia. f_equal. apply IH. exists r. split; [exact E|]. unfold FmtSpec.chars. rewrite len_zlen. split; [lia|]. destruct r; [exact I|]. destruct H2 as [H2 H3]. rewrite len_zlen, zlen_cons in H3. split; [exact H2|lia].
      * f_equal. apply IH. exists r. auto.
Qed.
(** %s. *)
Lemma str_conv_ok a h fi t o : good h -> (forall f o, fl f = fl (st h fi false) -> prec f = prec (st h fi false) -> out_str a None f o = (f, emit f o t, Val (zlen t))) ->
  conversion 115 a None (st h fi false) o = (st h fi false, o ++ FmtSpec.padded h t, Val (zlen (FmtSpec.padded h t))).
Proof.
  intros [Hw _] H. change (conversion 115 a) with (str_conv a). unfold str_conv. unfold andThen at 1, look at 1. unfold st at 1. cbn [fl left width]. unfold FmtSpec.padded, FmtSpec.gap. change len with (@zlen Z). destruct (FmtSpec.left h) eqn:El.
  - unfold andThen. rewrite H by reflexivity. rewrite pad_ok. unfold ret. rewrite emit_app by reflexivity. unfold emit at 1. cbn [muted st]. rewrite zlen_app, zlen_repeat. f_equal. f_equal. cbn [width st]. lia.
  - pose proof (zlen_nonneg t). assert (P : (if width (st h fi false) =? 0 then ret 0 else put (with_muted true (st h fi false)) ;;; n <- out_str a ;; g <- look ;; put (with_muted (muted (st h fi false)) g) ;;; pad 32 (width (st h fi false)) n) None (st h fi false) o =
      (st h fi false, o ++ repeat 32 (Z.to_nat (FmtSpec.width h - zlen t)), Val (Z.max 0 (FmtSpec.width h - zlen t)))).
    { cbn [width st]. destruct (FmtSpec.width h =? 0) eqn:E; [replace (Z.to_nat (FmtSpec.width h - zlen t)) with O by lia; unfold ret; cbn [repeat]; rewrite app_nil_r; f_equal; f_equal; lia|].
      unfold andThen at 1, put at 1. unfold andThen at 1. rewrite H by reflexivity. unfold andThen at 1, look. unfold andThen, put. change (with_muted (muted (st h fi false)) (with_muted true (st h fi false))) with (st h fi false). rewrite pad_ok. reflexivity. }
    unfold andThen at 1. rewrite P. unfold andThen. rewrite H by reflexivity. unfold emit. cbn [muted st]. unfold ret. rewrite <- app_assoc, zlen_app, zlen_repeat. f_equal. f_equal. lia.
Qed.
(** %h. *)
Lemma hex_digits up a b v : Number (digit_is 16) 16 [a; b] v -> FmtSpec.casing up [a; b] -> digit up (v / 16) = a /\ digit up (v mod 16) = b.
Proof.
  intros N C. pose proof (Forall_inv C) as Ca. pose proof (Forall_inv (Forall_inv_tail C)) as Cb. inversion N as [|ds n c w N1 D1 E1 E2]. apply (app_inj_tail ds [a] c b) in E1 as [-> ->].
  inversion N1 as [|ds' n' c' w' N2 D2 E3 E4]. apply (app_inj_tail ds' [] c' a) in E3 as [-> ->]. assert (n' = 0) by (inversion N2 as [|? ? ? ? ? ? E]; [reflexivity|now destruct ds]). subst n'. cbn [Z.mul Z.add] in *. pose proof D1 as [? _]. pose proof D2 as [? _].
  split; [replace ((w' * 16 + w) / 16) with w' by (rewrite Z.add_comm, Z.div_add, Z.div_small; lia); now apply (digit_char 16)|replace ((w' * 16 + w) mod 16) with w by (rewrite Z.add_comm, Z.mod_add, Z.mod_small; lia); now apply (digit_char 16)].
Qed.
Lemma hexed_ok up l t : FmtSpec.Hexed up l t -> exists s, bytes_of l = Some s /\ hex_chars up s = t /\ zlen t = zlen s * 2.
Proof.
  induction 1 as [|s v l a b t N C H (bs & IH1 & IH2 & IH3)]; [exists []; auto|]. exists (v mod 256 :: bs). cbn [bytes_of]. rewrite IH1. split; [reflexivity|]. unfold hex_chars in *. cbn [flat_map]. destruct (hex_digits _ _ _ _ N C) as [-> ->]. rewrite IH2. split; [reflexivity|]. rewrite !zlen_cons. lia.
Qed.
Lemma hex_ok h c l t fi o : good h -> c = 104 \/ c = 72 -> FmtSpec.Hexed (c =? 72) l t -> exists f', first f' = fi /\ muted f' = false /\
  conversion c (AList l) None (st h fi false) o = (f', o ++ FmtSpec.padded h t, Val (zlen (FmtSpec.padded h t))).
Proof.
  intros [Hw _] Hc Ht. destruct (hexed_ok _ _ _ Ht) as (s & Eb & Eh & El).
  set (f1 := Fm (Flags (FmtSpec.zero h) (FmtSpec.left h) (FmtSpec.plus h) (FmtSpec.space h) (FmtSpec.alt h) (c =? 72) (given (FmtSpec.prec h))) (FmtSpec.width h) (match FmtSpec.prec h with Some p => p | None => 0 end) fi false).
  exists f1. split; [reflexivity|]. split; [reflexivity|]. assert (E : conversion c (AList l) None (st h fi false) o = hex_conv (AList l) None f1 o) by (destruct Hc as [-> | ->]; reflexivity). rewrite E.
  unfold hex_conv. rewrite Eb. unfold andThen at 1, look. cbn [fl f1 left width upper]. rewrite Eh. unfold FmtSpec.padded, FmtSpec.gap. change len with (@zlen Z). pose proof (zlen_nonneg t). destruct (FmtSpec.left h).
  - unfold andThen. rewrite out_all_ok, pad_ok. unfold ret. rewrite emit_app by reflexivity. unfold emit. cbn [muted f1]. rewrite zlen_app, zlen_repeat. f_equal. f_equal. cbn [width f1]. lia.
  - unfold andThen at 1. assert (P : (if FmtSpec.width h =? 0 then ret 0 else pad 32 (FmtSpec.width h) (zlen s * 2)) None f1 o = (f1, o ++ repeat 32 (Z.to_nat (FmtSpec.width h - zlen t)), Val (Z.max 0 (FmtSpec.width h - zlen t)))).
    { destruct (FmtSpec.width h =? 0) eqn:E0; [replace (Z.to_nat (FmtSpec.width h - zlen t)) with O by lia; unfold ret; cbn [repeat]; rewrite app_nil_r; f_equal; f_equal; lia|]. rewrite pad_ok, <- El. reflexivity. }
    rewrite P. unfold andThen. rewrite out_all_ok. unfold ret, emit. cbn [muted f1]. rewrite <- app_assoc, zlen_app, zlen_repeat. f_equal. f_equal. lia.
Qed.
(** All directives. *)
Lemma directive_ok h c a u m fi o : good h -> FmtSpec.Directive h c a u m -> exists f', first f' = fi /\ muted f' = false /\ conversion c a None (st h fi false) o = (f', o ++ u, Val (zlen u - m)).
Proof.
  intros Hg. destruct 1 as [c base up s b v ds Hc Hds Hl Hz He Hn|s b v Hs H1 H2 H3 Hw|a t Hp Hs|s n t Hp Hf|c l t Hc Ht].
  - destruct (int_ok h c base up s b v ds fi o Hg Hc Hds Hl Hz He Hn) as (f' & F1 & F2 & ->). exists f'. split; [exact F1|]. split; [exact F2|]. f_equal. f_equal. unfold FmtSpec.padded. change len with (@zlen Z). generalize (FmtSpec.number (FmtSpec.adapt c h) base up v ds). intros num. destruct (FmtSpec.left (FmtSpec.adapt c h)); rewrite zlen_app; lia.
  - exists (st h fi false). split; [reflexivity|]. split; [reflexivity|]. rewrite char_ok by assumption. f_equal. f_equal. change len with (@zlen Z). lia.
  - exists (st h fi false). split; [reflexivity|]. split; [reflexivity|]. rewrite (str_conv_ok a h fi t o Hg); [f_equal; f_equal; lia|]. intros f o1 E1 E2. apply (proj1 shown_ok); [exact Hs|]. unfold easy. rewrite E1, E2. unfold st. cbn. rewrite Hp. split; reflexivity.
  - exists (st h fi false). split; [reflexivity|]. split; [reflexivity|]. rewrite (str_conv_ok (AStr s) h fi t o Hg); [f_equal; f_equal; lia|]. intros f o1 E1 E2. cbn [out_str]. rewrite out_substr_ok, E1, E2. unfold st. cbn [fl precision prec]. rewrite Hp. cbn [given]. now rewrite (cut_ok _ _ _ Hf).
  - destruct (hex_ok h c l t fi o Hg Hc Ht) as (f' & F1 & F2 & ->). exists f'. split; [exact F1|]. split; [exact F2|]. f_equal. f_equal. lia.
Qed.
