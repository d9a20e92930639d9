(** Proofs about the formatter with an output that accepts everything. *)
From Coq Require Import ZArith List Bool Lia ZifyBool Arith.
From Verif Require Import Mach ListAux LexSpec UtfSpec StrSpec FmtModel.
From Verif Require FmtSpec.
Import ListNotations.
Open Scope Z_scope.

Definition emit (f : fm) (o t : list Z) : list Z := if muted f then o else o ++ t.
Lemma emit_nil f o : emit f o [] = o. Proof. unfold emit. rewrite app_nil_r. now destruct (muted f). Qed.
Lemma emit_app f f' o s t : muted f' = muted f -> emit f' (emit f o s) t = emit f o (s ++ t).
Proof. unfold emit. intros ->. destruct (muted f); [reflexivity|]. now rewrite app_assoc. Qed.
Lemma out_all_ok : forall s f o, out_all s None f o = (f, emit f o s, Val (zlen s)).
Proof.
  induction s as [|c s IH]; intros f o; cbn [out_all]; [now rewrite emit_nil|]. unfold andThen, out, full, ret. destruct (muted f) eqn:E.
  - rewrite IH. rewrite zlen_cons. unfold emit. rewrite E. reflexivity.
  - rewrite IH. rewrite zlen_cons. unfold emit. rewrite E. rewrite <- app_assoc. reflexivity.
Qed.
Lemma pad_ok c w l f o : pad c w l None f o = (f, emit f o (repeat c (Z.to_nat (w - l))), Val (Z.max 0 (w - l))).
Proof. unfold pad, andThen. rewrite out_all_ok. reflexivity. Qed.
Lemma adjust_ok l f o : adjust l None f o = (f, emit f o (if left (fl f) then repeat 32 (Z.to_nat (width f - l)) else []), Val (if left (fl f) then Z.max 0 (width f - l) else 0)).
Proof. unfold adjust, andThen, look. destruct (left (fl f)); [apply pad_ok|]. now rewrite emit_nil. Qed.
Lemma out_substr_ok s f o : out_substr s None f o = let t := if precision (fl f) then cut_chars (prec f) s else s in (f, emit f o t, Val (zlen t)).
Proof. unfold out_substr, andThen, look. apply out_all_ok. Qed.

(** Digits. *)
Lemma number_nonneg base ds n : 0 <= base -> Number (digit_is base) base ds n -> 0 <= n.
Proof. intros Hb. induction 1 as [|ds n c v H IH [Hv _]]; [lia|]. pose proof (Z.mul_nonneg_nonneg n base IH Hb). lia. Qed.
Lemma number_pos base ds n : 2 <= base -> Number (digit_is base) base ds n -> ds <> [] -> (forall r, ds <> 48 :: r) -> 0 < n.
Proof.
  intros Hb. induction 1 as [|ds n c v H IH [Hv Hd]]; [easy|]. intros _ Hh. assert (Hn0 : 0 <= n) by (apply (number_nonneg base ds); [lia|exact H]). destruct ds as [|d ds].
  - assert (n = 0) by (inversion H as [|? ? ? ? ? ? E]; [reflexivity|now destruct ds]). subst n. assert (v <> 0). { intros ->. destruct Hd as [[? ?]|[(? & ? & ?)|(? & ? & ?)]]; try lia. apply (Hh []). cbn. f_equal. lia. } lia.
  - assert (Hn : 0 < n); [|pose proof (Z.mul_pos_pos n base Hn ltac:(lia)); lia]. apply IH; [discriminate|]. intros r Hr. apply (Hh (r ++ [c])). rewrite Hr. reflexivity.
Qed.
Lemma digit_char base (up : bool) c v : digit_is base c v -> (if up then ~ 97 <= c <= 102 else ~ 65 <= c <= 70) -> digit up v = c.
Proof. intros [Hv Hd] Hu. unfold digit. destruct Hd as [[? ?]|[(? & ? & ?)|(? & ? & ?)]]; destruct up; destruct (v <? 10) eqn:E; lia. Qed.
Lemma ntoa_digits_ok base up : 2 <= base -> forall ds n, Number (digit_is base) base ds n -> FmtSpec.casing up ds -> ds <> [] -> (forall r, ds = 48 :: r -> r = []) ->
  forall k buf, (length ds <= k)%nat -> zlen buf + zlen ds <= 256 -> ntoa_digits k up base n buf = Val (buf ++ rev ds).
Proof.
  intros Hb. induction 1 as [|ds n c v H IH Hd]; [easy|]. intros Hc _ Hh k buf Hk Hl. rewrite app_length in Hk. cbn [length] in Hk. rewrite zlen_app in Hl. change (zlen [c]) with 1 in Hl. pose proof (zlen_nonneg ds). pose proof (zlen_nonneg buf).
  destruct k as [|k]; [lia|]. cbn [ntoa_digits]. replace (256 <=? zlen buf) with false by lia. apply Forall_app in Hc as [Hc Hcc]. apply Forall_inv in Hcc. pose proof (digit_char _ _ _ _ Hd Hcc) as Ed. destruct Hd as [Hv _].
  replace ((n * base + v) mod base) with v by (rewrite Z.add_comm, Z.mod_add, Z.mod_small; lia). replace ((n * base + v) / base) with n by (rewrite Z.add_comm, Z.div_add, Z.div_small; lia). rewrite Ed, rev_app_distr. cbn [rev app].
  destruct ds as [|d ds].
  - assert (n = 0) by (inversion H as [|? ? ? ? ? ? E]; [reflexivity|now destruct ds]). subst n. reflexivity.
  - assert (Hne : forall r, d :: ds <> 48 :: r). { intros r Hr. injection Hr as -> ->. specialize (Hh (r ++ [c]) eq_refl). now destruct r. }
    pose proof (number_pos _ _ _ Hb H ltac:(discriminate) Hne). replace (n =? 0) with false by lia. rewrite IH; [now rewrite <- app_assoc|exact Hc|discriminate|intros r Hr; now elim (Hne r)|lia|].
    rewrite zlen_app. change (zlen [c]) with 1. lia.
Qed.
Lemma zeros_ok lim : forall k buf, (Z.to_nat (lim - zlen buf) < k)%nat -> lim <= 256 -> zeros k lim buf = Val (buf ++ repeat 48 (Z.to_nat (lim - zlen buf))).
Proof.
  induction k as [|k IH]; intros buf Hk Hl; [lia|]. cbn [zeros]. destruct (zlen buf <? lim) eqn:E.
  - replace (256 <=? zlen buf) with false by lia. rewrite IH by (rewrite ?zlen_app; change (zlen [48]) with 1; lia). rewrite zlen_app. change (zlen [48]) with 1. replace (Z.to_nat (lim - zlen buf)) with (S (Z.to_nat (lim - (zlen buf + 1)))) by lia. cbn [repeat]. now rewrite <- app_assoc.
  - replace (Z.to_nat (lim - zlen buf)) with O by lia. cbn [repeat]. now rewrite app_nil_r.
Qed.
Lemma out_reverse_ok b f o : out_reverse b None f o =
  let sp := repeat 32 (Z.to_nat (width f - zlen b)) in
  (f, emit f o (if left (fl f) then rev b ++ sp else if zeropad (fl f) then rev b else sp ++ rev b), Val (if left (fl f) || negb (zeropad (fl f)) then Z.max (zlen b) (width f) else zlen b)).
Proof.
  unfold out_reverse, andThen at 1, look. cbv zeta. assert (Lr : zlen (rev b) = zlen b) by (unfold zlen; now rewrite rev_length). destruct (left (fl f)) eqn:El.
  - rewrite andb_false_r. unfold andThen, ret. rewrite out_all_ok, adjust_ok, El, Lr, emit_app by reflexivity. cbn [orb]. rewrite Z.add_0_l. f_equal. f_equal. lia.
  - destruct (zeropad (fl f)) eqn:Ez; cbn [negb andb orb]; unfold andThen, ret; rewrite ?pad_ok, out_all_ok, adjust_ok, El, Lr, ?emit_app, ?emit_nil by reflexivity; rewrite ?app_nil_r; f_equal; f_equal; lia.
Qed.
(** Signs and prefixes. *)
Definition psign (g : flags) (neg : bool) : list Z := if neg then [45] else if plus g then [43] else if space g then [32] else [].
Definition pprefix (g : flags) (base : Z) : list Z :=
  if hash g && negb (base =? 10) then [48; if base =? 16 then if upper g then 88 else 120 else if base =? 8 then if upper g then 79 else 111 else if upper g then 66 else 98] else [].
Definition signed (g : flags) (neg : bool) : bool := neg || plus g || space g.
Lemma psign_len g neg : zlen (psign g neg) = if signed g neg then 1 else 0.
Proof. unfold psign, signed. destruct neg, (plus g), (space g); reflexivity. Qed.
Definition pwidth (g : flags) (w : Z) (neg : bool) : Z := if negb (left g) && negb (w =? 0) && zeropad g && signed g neg then w - 1 else w.
Definition pzeros (g : flags) (w p : Z) (neg : bool) (ds : list Z) : Z :=
  if left g then 0 else Z.max 0 (Z.max (p - zlen ds) (if zeropad g then pwidth g w neg - zlen ds else 0)).
Definition pnumber (g : flags) (w p : Z) (neg : bool) (base : Z) (ds : list Z) : list Z :=
  psign g neg ++ pprefix g base ++ repeat 48 (Z.to_nat (pzeros g w p neg ds)) ++ ds.
Lemma repeat_plus {A} (x : A) a b : repeat x (a + b) = repeat x a ++ repeat x b. Proof. apply repeat_app. Qed.
Lemma zlen_repeat {A} (x : A) n : zlen (repeat x n) = Z.of_nat n. Proof. unfold zlen. now rewrite repeat_length. Qed.
Lemma zlen_rev {A} (l : list A) : zlen (rev l) = zlen l. Proof. unfold zlen. now rewrite rev_length. Qed.
Lemma rev_repeat {A} (x : A) n : rev (repeat x n) = repeat x n.
Proof. induction n as [|n IH]; [reflexivity|]. cbn [repeat rev]. rewrite IH. symmetry. apply repeat_cons. Qed.
Lemma ntoa_format_ok f neg base ds o : base = 2 \/ base = 8 \/ base = 10 \/ base = 16 -> 0 <= width f -> 0 <= prec f -> (precision (fl f) = false -> prec f = 0) ->
  let num := pnumber (fl f) (width f) (prec f) neg base ds in
  let sp := repeat 32 (Z.to_nat (width f - zlen num)) in
  zlen num <= 256 ->
  ntoa_format (rev ds) neg base None f o =
    (with_width (pwidth (fl f) (width f) neg) f, emit f o (match num with [] => [] | _ => if left (fl f) then num ++ sp else if zeropad (fl f) then num else sp ++ num end), Val (zlen num)).
Proof.
  intros Hb Hw Hp Hpr num sp Hn. destruct f as [g w p fi mu]. cbn [fl width prec first muted] in *.
  set (Z0 := repeat 48 (Z.to_nat (pzeros g w p neg ds))) in *. pose proof (zlen_nonneg ds) as Hd0.
  assert (Ln : zlen num = zlen (psign g neg) + zlen (pprefix g base) + Z.of_nat (Z.to_nat (pzeros g w p neg ds)) + zlen ds). { unfold num, pnumber. rewrite !zlen_app, zlen_repeat. lia. }
  pose proof (zlen_nonneg (psign g neg)). pose proof (zlen_nonneg (pprefix g base)).
  (* zeros *)
  assert (S1 : forall o0, (if left g then ret (rev ds) else
    (if negb (w =? 0) && zeropad g && (neg || plus g || space g) then put (with_width (w - 1) (Fm g w p fi mu)) else ret tt) ;;;
    buf <- lift (zeros 258 p (rev ds)) ;; f <- look ;; if zeropad (fl f) then lift (zeros 258 (width f) buf) else ret buf) None (Fm g w p fi mu) o0 = (Fm g (pwidth g w neg) p fi mu, o0, Val (rev ds ++ Z0))).
  { intros o0. unfold Z0, pzeros, pwidth in *. fold (signed g neg). destruct (left g) eqn:El; cbn [negb andb] in *.
    - cbn [repeat Z.to_nat]. rewrite app_nil_r. reflexivity.
    - assert (W : forall (k : M (list Z)) o1, ((if negb (w =? 0) && zeropad g && signed g neg then put (with_width (w - 1) (Fm g w p fi mu)) else ret tt) ;;; k) None (Fm g w p fi mu) o1 = k None (Fm g (if negb (w =? 0) && zeropad g && signed g neg then w - 1 else w) p fi mu) o1) by (intros k o1; destruct (negb (w =? 0) && zeropad g && signed g neg); reflexivity).
      rewrite W. clear W. set (w' := if negb (w =? 0) && zeropad g && signed g neg then w - 1 else w) in *.
      rewrite zeros_ok by (rewrite ?zlen_rev; destruct (zeropad g); lia). rewrite zlen_rev. cbn [lift]. unfold andThen, ret, look. cbn [fl width]. destruct (zeropad g) eqn:Ez.
      + rewrite zeros_ok by (rewrite ?zlen_app, ?zlen_rev, ?zlen_repeat; lia). cbn [lift]. unfold ret. rewrite zlen_app, zlen_rev, zlen_repeat, <- app_assoc, <- repeat_app. match goal with |- (_, _, Val (_ ++ repeat _ ?a)) = (_, _, Val (_ ++ repeat _ ?b)) => replace b with a by lia end. reflexivity.
      + match goal with |- (_, _, Val (_ ++ repeat _ ?a)) = (_, _, Val (_ ++ repeat _ ?b)) => replace b with a by lia end. reflexivity. }
  unfold ntoa_format. unfold andThen at 1, look at 1. cbn [fl width prec first muted]. unfold andThen at 1. rewrite S1. clear S1. unfold andThen at 1, look at 1. cbn [fl width prec first muted].
  assert (Lz : zlen (rev ds ++ Z0) = zlen ds + Z.of_nat (Z.to_nat (pzeros g w p neg ds))) by (unfold Z0; rewrite zlen_app, zlen_rev, zlen_repeat; lia).
  (* prefix *)
  assert (S2 : (if hash g && negb (base =? 10) then
    if 256 <=? zlen (if negb (precision g) && negb (zlen (rev ds ++ Z0) =? 0) && (zlen (rev ds ++ Z0) =? p) && (zlen (rev ds ++ Z0) =? pwidth g w neg) then firstn (Z.to_nat (zlen (rev ds ++ Z0) - 2)) (rev ds ++ Z0) else rev ds ++ Z0) + 1 then fail INTERNAL_BUFFER_EXCEEDED
    else if base =? 16 then ret ((if negb (precision g) && negb (zlen (rev ds ++ Z0) =? 0) && (zlen (rev ds ++ Z0) =? p) && (zlen (rev ds ++ Z0) =? pwidth g w neg) then firstn (Z.to_nat (zlen (rev ds ++ Z0) - 2)) (rev ds ++ Z0) else rev ds ++ Z0) ++ [if upper g then 88 else 120; 48])
    else if base =? 8 then ret ((if negb (precision g) && negb (zlen (rev ds ++ Z0) =? 0) && (zlen (rev ds ++ Z0) =? p) && (zlen (rev ds ++ Z0) =? pwidth g w neg) then firstn (Z.to_nat (zlen (rev ds ++ Z0) - 2)) (rev ds ++ Z0) else rev ds ++ Z0) ++ [if upper g then 79 else 111; 48])
    else if base =? 2 then ret ((if negb (precision g) && negb (zlen (rev ds ++ Z0) =? 0) && (zlen (rev ds ++ Z0) =? p) && (zlen (rev ds ++ Z0) =? pwidth g w neg) then firstn (Z.to_nat (zlen (rev ds ++ Z0) - 2)) (rev ds ++ Z0) else rev ds ++ Z0) ++ [if upper g then 66 else 98; 48])
    else stuck else ret (rev ds ++ Z0)) = ret (rev ds ++ Z0 ++ rev (pprefix g base))).
  { assert (T : negb (precision g) && negb (zlen (rev ds ++ Z0) =? 0) && (zlen (rev ds ++ Z0) =? p) && (zlen (rev ds ++ Z0) =? pwidth g w neg) = false). { destruct (precision g); [reflexivity|]. rewrite (Hpr eq_refl). destruct (zlen (rev ds ++ Z0) =? 0); reflexivity. }
    rewrite T. unfold pprefix in *. destruct (hash g && negb (base =? 10)) eqn:E; [|cbn [rev]; now rewrite app_nil_r]. cbn [rev app]. change (zlen [48; if base =? 16 then if upper g then 88 else 120 else if base =? 8 then if upper g then 79 else 111 else if upper g then 66 else 98]) with 2 in *.
    replace (256 <=? zlen (rev ds ++ Z0) + 1) with false by lia. destruct Hb as [-> | [-> | [-> | ->]]]; cbn [Z.eqb Pos.eqb]; try (rewrite andb_false_r in E; discriminate E); now rewrite <- app_assoc. }
  unfold andThen at 1. rewrite S2. clear S2. unfold ret at 1.
  (* sign *)
  assert (S3 : (if neg then push (rev ds ++ Z0 ++ rev (pprefix g base)) 45 else if plus g then push (rev ds ++ Z0 ++ rev (pprefix g base)) 43 else if space g then push (rev ds ++ Z0 ++ rev (pprefix g base)) 32 else ret (rev ds ++ Z0 ++ rev (pprefix g base))) = ret (rev num)).
  { unfold num, pnumber. rewrite !rev_app_distr. fold Z0. replace (rev Z0) with Z0 by (unfold Z0; now rewrite rev_repeat). rewrite <- !app_assoc. unfold push. assert (L : zlen (rev ds ++ Z0 ++ rev (pprefix g base)) + zlen (psign g neg) <= 256) by (rewrite app_assoc, zlen_app, Lz, zlen_rev; lia).
    unfold psign in *. destruct neg; [change (zlen [45]) with 1 in *|destruct (plus g); [change (zlen [43]) with 1 in *|destruct (space g); [change (zlen [32]) with 1 in *|cbn [rev]; now rewrite app_nil_r]]]; replace (256 <=? zlen (rev ds ++ Z0 ++ rev (pprefix g base))) with false by lia; cbn [rev app]; now rewrite <- !app_assoc. }
  unfold andThen at 1. rewrite S3. clear S3. unfold ret at 1. rewrite zlen_rev. unfold andThen. destruct num as [|x num'] eqn:En.
  - cbn [zlen length Z.eqb]. change (zlen (@nil Z) =? 0) with true. cbv iota. unfold ret. now rewrite emit_nil.
  - rewrite <- En in *. assert (zlen num =? 0 = false) by (rewrite En, zlen_cons; pose proof (zlen_nonneg num'); lia). rewrite H1. rewrite out_reverse_ok. rewrite rev_involutive, zlen_rev. unfold ret. cbn [fl width muted].
    assert (Hpw : left g = true \/ zeropad g = false -> pwidth g w neg = w) by (unfold pwidth; intros [-> | ->]; cbn; rewrite ?andb_false_r; reflexivity). unfold sp, with_width. cbn [fl prec first muted]. match goal with |- (_, ?b, _) = (_, ?b', _) => assert (Eb : b = b'); [|rewrite Eb; reflexivity] end. unfold emit. cbn [muted]. rewrite <- En. destruct mu; [reflexivity|]. f_equal.
    destruct (left g); [now rewrite Hpw by auto|]. destruct (zeropad g); [reflexivity|]. now rewrite Hpw by auto.
Qed.
