(** The conversions of the formatter. *)
From Coq Require Import ZArith List Bool Lia ZifyBool Arith.
From Verif Require Import Mach ListAux LexSpec UtfSpec StrSpec StrProofs FmtModel FmtProofs.
From Verif Require FmtSpec.
Import ListNotations.
Open Scope Z_scope.

Lemma len_zlen (s : list Z) : len s = zlen s. Proof. reflexivity. Qed.
Lemma ntoa_ok f value neg base ds o : base = 2 \/ base = 8 \/ base = 10 \/ base = 16 -> 0 <= width f -> 0 <= prec f -> (precision (fl f) = false -> prec f = 0) -> 0 <= value ->
  (if precision (fl f) && (value =? 0) then ds = [] else FmtSpec.Numeral base (upper (fl f)) value ds) ->
  let g := if value =? 0 then set_hash false (fl f) else fl f in
  let num := pnumber g (width f) (prec f) neg base ds in
  let sp := repeat 32 (Z.to_nat (width f - zlen num)) in
  zlen num <= 256 -> exists f', first f' = first f /\ muted f' = muted f /\ prec f' = prec f /\
  ntoa value neg base None f o = (f', emit f o (match num with [] => [] | _ => if left (fl f) then num ++ sp else if zeropad (fl f) then num else sp ++ num end), Val (zlen num)).
Proof.
  intros Hb Hw Hp Hpr Hv Hds g num sp Hn. unfold ntoa. unfold andThen at 1, look. 
  assert (W : forall (k : M Z), ((if value =? 0 then put (with_flags (set_hash false (fl f)) f) else ret tt) ;;; k) None f o = k None (with_flags g f) o) by (intros k; unfold g; destruct (value =? 0); [reflexivity|now destruct f]).
  rewrite W. clear W.
  assert (D : (if negb (precision (fl f)) || negb (value =? 0) then lift (ntoa_digits 257 (upper (fl f)) base value []) else ret []) = ret (rev ds)).
  { destruct (precision (fl f) && (value =? 0)) eqn:E.
    - subst ds. apply andb_true_iff in E as [-> ->]. reflexivity.
    - replace (negb (precision (fl f)) || negb (value =? 0)) with true by (destruct (precision (fl f)), (value =? 0); cbn in *; congruence). destruct Hds as (N & C & Ne & Nz).
      assert (Ld : zlen ds <= 256). { unfold num, pnumber in Hn. rewrite !zlen_app in Hn. pose proof (zlen_nonneg (psign g neg)). pose proof (zlen_nonneg (pprefix g base)). pose proof (zlen_nonneg (repeat 48 (Z.to_nat (pzeros g (width f) (prec f) neg ds)))). lia. }
      rewrite (ntoa_digits_ok base (upper (fl f)) ltac:(lia) ds value N C Ne Nz); [reflexivity|unfold zlen in Ld; lia|change (zlen (@nil Z)) with 0; lia]. }
  rewrite D. unfold andThen, ret. 
  assert (Hg : left g = left (fl f) /\ zeropad g = zeropad (fl f) /\ precision g = precision (fl f)) by (unfold g; destruct (value =? 0); auto). destruct Hg as (G1 & G2 & G3).
  rewrite (ntoa_format_ok (with_flags g f) neg base ds o Hb); cbn [fl width prec with_flags]; [|exact Hw|exact Hp|rewrite G3; exact Hpr|exact Hn]. fold num. fold sp. rewrite G1, G2.
  eexists. split; [|split; [|split; [|reflexivity]]]; reflexivity.
Qed.

(** The state at the switch over the conversion. *)
Definition given (p : option Z) : bool := match p with Some _ => true | None => false end.
Definition st (h : FmtSpec.how) (fi : option fault) (mu : bool) : fm :=
  Fm (Flags (FmtSpec.zero h) (FmtSpec.left h) (FmtSpec.plus h) (FmtSpec.space h) (FmtSpec.alt h) false (given (FmtSpec.prec h))) (FmtSpec.width h) (match FmtSpec.prec h with Some p => p | None => 0 end) fi mu.
Definition good (h : FmtSpec.how) : Prop := 0 <= FmtSpec.width h /\ match FmtSpec.prec h with Some p => 0 <= p | None => True end.

(** Integers. *)
Definition int_flags (c base : Z) (up : bool) (h : FmtSpec.how) : flags :=
  let h := FmtSpec.adapt c h in
  Flags (FmtSpec.zero h && negb (given (FmtSpec.prec h))) (FmtSpec.left h) (FmtSpec.plus h && (base =? 10)) (FmtSpec.space h && (base =? 10)) (FmtSpec.alt h && negb (base =? 10)) up (given (FmtSpec.prec h)).
Lemma int_conv_state c base up h s b v fi mu o : FmtSpec.int_base c = Some (base, up) ->
  conversion c (AInt s b v) None (st h fi mu) o = wrap_bad (ntoa (Z.abs v) (v <? 0) base) None (Fm (int_flags c base up h) (FmtSpec.width h) (match FmtSpec.prec h with Some p => p | None => 0 end) fi mu) o.
Proof.
  unfold FmtSpec.int_base, conversion. intros H.
  repeat match type of H with (if ?x then _ else _) = _ => destruct x eqn:? end; try discriminate; injection H as <- <-;
  repeat match goal with E : (c =? ?n) = true |- _ => assert (c = n) by lia; subst c; clear E end;
  repeat match goal with E : (_ =? _) = false |- _ => clear E end;
  unfold int_conv, st, int_flags, FmtSpec.adapt; cbn [Z.eqb Pos.eqb existsb orb]; destruct h as [z l p sp al w pr]; cbn [FmtSpec.zero FmtSpec.left FmtSpec.plus FmtSpec.space FmtSpec.alt FmtSpec.width FmtSpec.prec];
  destruct pr; cbn [given negb]; rewrite ?andb_true_r, ?andb_false_r; reflexivity.
Qed.
Lemma wrap_val m f o f' o' n : m None f o = (f', o', Val n) -> wrap_bad m None f o = (f', o', Val n).
Proof. intros H. unfold wrap_bad, catch. now rewrite H. Qed.
Lemma sign_eq c base up h v : psign (if Z.abs v =? 0 then set_hash false (int_flags c base up h) else int_flags c base up h) (v <? 0) = FmtSpec.sign (FmtSpec.adapt c h) base v.
Proof.
  unfold FmtSpec.sign, psign. assert (E : forall b, plus (if b : bool then set_hash false (int_flags c base up h) else int_flags c base up h) = (FmtSpec.plus (FmtSpec.adapt c h) && (base =? 10)) /\ space (if b then set_hash false (int_flags c base up h) else int_flags c base up h) = (FmtSpec.space (FmtSpec.adapt c h) && (base =? 10))) by (intros []; split; reflexivity).
  destruct (E (Z.abs v =? 0)) as [-> ->]. rewrite (andb_comm (FmtSpec.plus _)), (andb_comm (FmtSpec.space _)). destruct (v <? 0), ((base =? 10) && FmtSpec.plus (FmtSpec.adapt c h)), ((base =? 10) && FmtSpec.space (FmtSpec.adapt c h)); reflexivity.
Qed.
Lemma prefix_eq c base up h v : base = 2 \/ base = 8 \/ base = 10 \/ base = 16 -> pprefix (if Z.abs v =? 0 then set_hash false (int_flags c base up h) else int_flags c base up h) base = FmtSpec.prefix (FmtSpec.adapt c h) base up v.
Proof.
  intros Hb. unfold FmtSpec.prefix, pprefix. destruct (v =? 0) eqn:E.
  - replace (Z.abs v =? 0) with true by lia. cbn [hash set_hash andb negb]. now rewrite andb_false_r.
  - replace (Z.abs v =? 0) with false by lia. unfold int_flags. cbn [hash upper]. destruct (FmtSpec.alt (FmtSpec.adapt c h)); [|reflexivity]. destruct Hb as [-> | [-> | [-> | ->]]]; destruct up; reflexivity.
Qed.
Lemma adapt_facts c h : FmtSpec.left (FmtSpec.adapt c h) = FmtSpec.left h /\ FmtSpec.width (FmtSpec.adapt c h) = FmtSpec.width h /\ FmtSpec.prec (FmtSpec.adapt c h) = FmtSpec.prec h.
Proof. unfold FmtSpec.adapt. destruct (c =? 112); auto. Qed.
Lemma base_cases c base up : FmtSpec.int_base c = Some (base, up) -> base = 2 \/ base = 8 \/ base = 10 \/ base = 16.
Proof. unfold FmtSpec.int_base. intros H. repeat match type of H with (if ?x then _ else _) = _ => destruct x end; try discriminate; injection H as <- <-; auto. Qed.
Lemma int_ok h c base up s b v ds fi o : good h -> FmtSpec.int_base c = Some (base, up) -> FmtSpec.OwnDigits (FmtSpec.adapt c h) base up v ds ->
  (FmtSpec.left h = true -> match FmtSpec.prec h with Some p => p <= len ds | None => True end) ->
  (FmtSpec.prefix (FmtSpec.adapt c h) base up v <> [] -> FmtSpec.zero (FmtSpec.adapt c h) = true -> FmtSpec.left h = false -> FmtSpec.prec h = None -> FmtSpec.width h = 0) ->
  (FmtSpec.number (FmtSpec.adapt c h) base up v ds = [] -> FmtSpec.width h = 0) -> len (FmtSpec.number (FmtSpec.adapt c h) base up v ds) <= 256 ->
  exists f', first f' = fi /\ muted f' = false /\
    conversion c (AInt s b v) None (st h fi false) o =
      (f', o ++ FmtSpec.padded (FmtSpec.adapt c h) (FmtSpec.number (FmtSpec.adapt c h) base up v ds), Val (zlen (FmtSpec.number (FmtSpec.adapt c h) base up v ds))).
Proof.
  intros [Hw Hp] Hc Hds Hl Hz He Hn. pose proof (base_cases _ _ _ Hc) as Hb. destruct (adapt_facts c h) as (A1 & A2 & A3). rewrite (int_conv_state _ _ _ _ _ _ _ _ _ _ Hc).
  set (p := match FmtSpec.prec h with Some p => p | None => 0 end) in *. set (f := Fm (int_flags c base up h) (FmtSpec.width h) p fi false).
  assert (P0 : 0 <= p) by (unfold p; destruct (FmtSpec.prec h); lia).
  set (g := if Z.abs v =? 0 then set_hash false (int_flags c base up h) else int_flags c base up h).
  assert (Gl : left g = FmtSpec.left h) by (unfold g; destruct (Z.abs v =? 0); exact A1).
  assert (Gz : zeropad g = FmtSpec.zero (FmtSpec.adapt c h) && negb (given (FmtSpec.prec h))) by (unfold g; destruct (Z.abs v =? 0); cbn; now rewrite A3).
  assert (Gs : psign g (v <? 0) = FmtSpec.sign (FmtSpec.adapt c h) base v) by apply sign_eq. assert (Gp : pprefix g base = FmtSpec.prefix (FmtSpec.adapt c h) base up v) by now apply prefix_eq.
  set (h' := FmtSpec.adapt c h) in *. set (sg := FmtSpec.sign h' base v) in *. set (pre := FmtSpec.prefix h' base up v) in *. pose proof (psign_len g (v <? 0)) as Ls. rewrite Gs in Ls. fold sg in Ls.
  pose proof (zlen_nonneg ds) as Hd0. pose proof (zlen_nonneg pre) as Hp0. pose proof (zlen_nonneg sg) as Hs0.
  assert (Ez : Z.to_nat (pzeros g (FmtSpec.width h) p (v <? 0) ds) = Z.to_nat (FmtSpec.fill h' sg pre ds)).
  { unfold pzeros, FmtSpec.fill. rewrite !len_zlen in *. rewrite A1, A2, A3, Gl, Gz. unfold p in *. destruct (FmtSpec.left h) eqn:El.
    - cbn [negb]. rewrite andb_false_r. destruct (FmtSpec.prec h); [specialize (Hl eq_refl); change (len ds) with (zlen ds); lia|reflexivity].
    - cbn [negb]. rewrite andb_true_r. destruct (FmtSpec.prec h) as [q|] eqn:Eq; cbn [given negb]; [rewrite andb_false_r; change (len ds) with (zlen ds); lia|]. rewrite andb_true_r. destruct (FmtSpec.zero h') eqn:E0; [|lia].
      change (len sg) with (zlen sg). change (len pre) with (zlen pre). change (len ds) with (zlen ds). unfold pwidth. rewrite Gl, Gz. cbn [given negb andb]. rewrite andb_true_r. destruct (FmtSpec.width h =? 0) eqn:Ew; cbn [negb andb]; [lia|].
      assert (pre = []). { destruct pre; [reflexivity|]. specialize (Hz ltac:(discriminate) eq_refl eq_refl eq_refl). lia. } subst pre. rewrite H. change (zlen (@nil Z)) with 0. destruct (signed g (v <? 0)); lia. }
  assert (En : pnumber g (FmtSpec.width h) p (v <? 0) base ds = FmtSpec.number h' base up v ds). { unfold pnumber, FmtSpec.number. rewrite Gs, Gp, Ez. reflexivity. }
  assert (Hg : (if precision (fl f) && (Z.abs v =? 0) then ds = [] else FmtSpec.Numeral base (upper (fl f)) (Z.abs v) ds)).
  { unfold FmtSpec.OwnDigits in Hds. unfold f, int_flags. cbn [fl precision upper]. fold h'. rewrite A3 in *. destruct (FmtSpec.prec h); cbn [given andb]; [|exact Hds]. replace (Z.abs v =? 0) with (v =? 0) by lia. exact Hds. }
  destruct (ntoa_ok f (Z.abs v) (v <? 0) base ds o Hb Hw P0) as (f' & F1 & F2 & _ & F3); [|lia|exact Hg| |].
  { unfold f, int_flags. cbn [fl precision prec]. fold h'. rewrite A3. unfold p. destruct (FmtSpec.prec h); [discriminate|reflexivity]. }
  { cbn [fl f width prec]. fold g. rewrite En. exact Hn. }
  cbn [fl f width prec] in F3. fold g in F3. rewrite En in F3. exists f'. split; [exact F1|]. split; [exact F2|]. rewrite (wrap_val _ _ _ _ _ _ F3). unfold emit, f. cbn [muted].
  match goal with |- (_, ?b, _) = (_, ?b', _) => assert (Eb : b = b'); [|rewrite Eb; reflexivity] end. f_equal.
  unfold FmtSpec.padded, FmtSpec.gap. rewrite A1, A2. unfold int_flags. cbn [left zeropad]. fold h'. rewrite A1, A3. change len with (@zlen Z). destruct (FmtSpec.number h' base up v ds) as [|x num] eqn:Enum.
  - rewrite He by reflexivity. cbn. now destruct (FmtSpec.left h).
  - rewrite <- Enum. destruct (FmtSpec.left h) eqn:El; [reflexivity|]. destruct (FmtSpec.zero h' && negb (given (FmtSpec.prec h))) eqn:E0; [|reflexivity]. apply andb_true_iff in E0 as [E0 E1]. destruct (FmtSpec.prec h) as [q|] eqn:Eq; [discriminate|].
    replace (Z.to_nat (FmtSpec.width h - zlen (FmtSpec.number h' base up v ds))) with O; [reflexivity|]. unfold FmtSpec.number. fold sg pre. rewrite !zlen_app, zlen_repeat. unfold FmtSpec.fill. rewrite A1, A2, A3, E0. cbn [negb andb]. change len with (@zlen Z). lia.
Qed.
