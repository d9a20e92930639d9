(** Identifiers, strings, bidirectional markers and the file clean-up. *)
From Coq Require Import ZArith Bool List Lia ZifyBool.
From Verif Require Import Mach LexModel LexSpec LexSpec2 LexProofs LexProofs2.
Import ListNotations.
Open Scope Z_scope.

Ltac unf := unfold is_ident_char, is_small, is_capital, is_white, is_base64, is_alphanum_, is_letter, is_hex, is_lower, is_upper, is_digit, is_oct, is_bin, is_us in *.

Lemma peekn_cons2 p x y z r k : peekn (Cur p (x :: y :: z :: r) k) 2 = Ok z. Proof. reflexivity. Qed.

Lemma ident_loop_rest : forall s ty p x r k fuel, (length s < fuel)%nat -> Forall (fun c => is_ident_char c = true) s -> is_ident_char x = false ->
  ident_loop fuel (Some ty) (Cur p (s ++ x :: r) k) =
  Ok (Some (Some (match ty with CConst => if existsb is_small s then CType else CConst | t => t end)), Cur (rev s ++ p) (x :: r) (k + newlines s)).
Proof.
  induction s as [|a s IH]; intros ty p x r k fuel Hf F Hx; (destruct fuel as [|f]; [cbn in Hf; lia|]); cbn [ident_loop app]; rewrite peek_cons; cbn [bind].
  - replace (is_lower x) with false by (unf; lia). replace (is_upper x) with false by (unf; lia). replace (is_digit x) with false by (unf; lia). replace (is_us x) with false by (unf; lia).
    cbn [existsb rev app]. rewrite newlines_nil, Z.add_0_r. destruct ty; reflexivity.
  - inversion F as [|? ? Ha F']; subst. cbn [length] in Hf. cbn [existsb].
    assert (Fin : forall ty', (match ty' with CConst => if existsb is_small s then CType else CConst | t => t end) = (match ty with CConst => if is_small a || existsb is_small s then CType else CConst | t => t end) ->
      (c <- next (Cur p (a :: s ++ x :: r) k) ;; ident_loop f (Some ty') c) =
      Ok (Some (Some (match ty with CConst => if is_small a || existsb is_small s then CType else CConst | t => t end)), Cur (rev (a :: s) ++ p) (x :: r) (k + newlines (a :: s)))).
    { intros ty' E. rewrite next_cons. cbn [bind]. rewrite IH; [|lia|exact F'|exact Hx]. rewrite E. cur. rewrite (newlines_cons a s), newlines_cons, newlines_nil. do 3 f_equal. lia. }
    destruct (is_lower a) eqn:B1.
    + assert (is_small a = true) as Es by (unf; lia). destruct ty; apply Fin; rewrite ?Es; reflexivity.
    + assert (is_small a = false) as Es by (unf; lia). rewrite Es in *. cbn [orb] in *. destruct (is_upper a) eqn:B2; [destruct ty; apply Fin; reflexivity|].
      destruct (is_digit a) eqn:B3; [apply Fin; reflexivity|]. destruct (is_us a) eqn:B4; [apply Fin; reflexivity|]. exfalso. unf. lia.
Qed.
Lemma scan_ident_ok s p x r k fuel start prefix : (length s < fuel)%nat -> Forall (fun c => is_ident_char c = true) s -> is_ident_char x = false ->
  zlen (c_rest start) = zlen s + zlen (x :: r) + (if prefix =? 0 then 0 else 1) ->
  match class_of s with
  | Some c => scan_ident fuel start prefix (Cur p (s ++ x :: r) k) = Ok (Tok (TIdent prefix (class_tok c)) (Cur (rev s ++ p) (x :: r) k))
  | None => if (prefix =? 0) && (zlen s =? 1) && forallb (fun c => c =? 95) s then scan_ident fuel start prefix (Cur p (s ++ x :: r) k) = Ok (Tok TUnderscore (Cur (rev s ++ p) (x :: r) k))
            else exists e, scan_ident fuel start prefix (Cur p (s ++ x :: r) k) = Ok (Err e)
  end.
Proof.
  intros Hf F Hx Hst.
  assert (Hnl : forall t, Forall (fun c => is_ident_char c = true) t -> newlines t = 0).
  { induction 1; [reflexivity|]. rewrite newlines_cons. destruct (Z.eqb_spec x0 10) as [->|]; [discriminate|lia]. }
  assert (Split : exists u t, s = u ++ t /\ Forall (fun c => c = 95) u /\ match t with [] => True | a :: _ => a <> 95 end).
  { clear. induction s as [|a s (u & t & E & Fu & Ht)]; [exists [], []; auto|]. destruct (Z.eq_dec a 95) as [->|N].
    - exists (95 :: u), t. cbn. rewrite E. auto.
    - exists [], (a :: s). auto. }
  destruct Split as (u & t & -> & Fu & Ht). apply Forall_app in F. destruct F as [F1 F2].
  assert (Hcls : class_of (u ++ t) = class_of t). { clear -Fu. induction Fu as [|a u -> _ IH]; [reflexivity|exact IH]. }
  rewrite Hcls. unfold scan_ident.
  rewrite <- app_assoc. rewrite while_next_app.
  2:{ rewrite app_length in Hf. lia. }
  2:{ eapply Forall_impl; [|exact Fu]. cbn. intros a ->. reflexivity. }
  2:{ destruct t as [|a t]; [exists x, r; split; [reflexivity|unf; lia]|exists a, (t ++ x :: r); split; [reflexivity|unf; lia]]. }
  cbn [bind]. rewrite (Hnl u F1), Z.add_0_r. rewrite app_length in Hf. rewrite rev_app_distr, <- app_assoc.
  destruct t as [|a t].
  - cbn [class_of app rev]. destruct fuel as [|f]; [lia|]. cbn [ident_loop]. rewrite peek_cons. cbn [bind].
    replace (is_lower x) with false by (unf; lia). replace (is_upper x) with false by (unf; lia). replace (is_digit x) with false by (unf; lia). replace (is_us x) with false by (unf; lia). cbn [bind c_rest].
    rewrite app_nil_r in *. replace (zlen (c_rest start) - zlen (x :: r) =? 1) with (zlen u + (if prefix =? 0 then 0 else 1) =? 1) by lia.
    assert (Hu : forallb (fun c => c =? 95) u = true). { clear -Fu. induction Fu as [|a u -> _ IH]; [reflexivity|exact IH]. } rewrite Hu, andb_true_r.
    destruct (prefix =? 0) eqn:Hp; cbn [andb].
    + replace (zlen u + 0) with (zlen u) by lia. destruct (zlen u =? 1); [reflexivity|eauto].
    + eauto.
  - inversion F2 as [|? ? Ha F2']; subst. cbn [class_of]. destruct (Z.eqb_spec a 95); [congruence|]. cbn [app length] in *. destruct fuel as [|f]; [lia|]. cbn [ident_loop]. rewrite peek_cons. cbn [bind].
    assert (H95 : forall v, forallb (fun c => c =? 95) (u ++ a :: v) = false). { intros v. rewrite forallb_app. cbn. replace (a =? 95) with false by lia. rewrite andb_false_r. reflexivity. }
    assert (Ha10 : newlines [a] = 0). { rewrite newlines_cons, newlines_nil. destruct (Z.eqb_spec a 10) as [->|]; [discriminate|lia]. }
    assert (Cont : forall ty, (c <- next (Cur (rev u ++ p) (a :: t ++ x :: r) k) ;; ident_loop f (Some ty) c) =
       Ok (Some (Some (match ty with CConst => if existsb is_small t then CType else CConst | t => t end)), Cur (rev (a :: t) ++ rev u ++ p) (x :: r) k)).
    { intros ty. rewrite next_cons. cbn [bind]. rewrite ident_loop_rest; [|lia|exact F2'|exact Hx]. cur. rewrite Ha10, (Hnl t F2'), !Z.add_0_r. reflexivity. }
    destruct (is_lower a) eqn:B1.
    + replace (is_small a) with true by (unf; lia). rewrite Cont. reflexivity.
    + replace (is_small a) with false by (unf; lia). destruct (is_upper a) eqn:B2.
      * replace (is_capital a) with true by (unf; lia). rewrite Cont. destruct (existsb is_small t); reflexivity.
      * replace (is_capital a) with false by (unf; lia). rewrite (H95 t), andb_false_r. replace (is_digit a) with true by (unf; lia). cbn [bind]. eauto.
Qed.

(** A white-space-free start is not skipped. *)
Lemma skip_ws_none fuel m p a r k : a <> 47 -> a <> 10 -> a <> 32 -> a <> 9 -> a <> 12 -> a <> 13 ->
  skip_whitespace (S fuel) (S fuel) m (Cur p (a :: r) k) = Ok (Cur p (a :: r) k).
Proof.
  intros. cbn [skip_whitespace]. rewrite peek_cons. cbn [bind]. replace (a =? 47) with false by lia. replace (a =? 10) with false by lia. replace ((a =? 32) || (a =? 9) || (a =? 12)) with false by lia. replace (a =? 13) with false by lia. reflexivity.
Qed.

Lemma scan_token_ident s p x r k fuel m : (S (length s) < fuel)%nat -> Forall (fun c => is_ident_char c = true) s -> is_ident_char x = false -> s <> [] ->
  (forall a t, s = a :: t -> is_digit a = false) -> ~ (s = [120] /\ (x = 34 \/ x = 39 \/ x = 96)) -> ~ (s = [98; 54; 52] /\ (x = 34 \/ x = 39 \/ x = 96)) ->
  ident_result 0 s (Cur (rev s ++ p) (x :: r) k) (scan_token fuel m (Cur p (s ++ x :: r) k)) m.
Proof.
  intros Hf F Hx Hs Hd Hn1 Hn2. destruct s as [|a t]; [congruence|]. specialize (Hd a t eq_refl). inversion F as [|? ? Ha F']; subst. clear Hs.
  destruct fuel as [|fuel]; [lia|].
  assert (Main : forall q, q = Cur p (a :: t ++ x :: r) k ->
     ident_result 0 (a :: t) (Cur (rev (a :: t) ++ p) (x :: r) k) (s <- (c <- backtrack (Cur (a :: p) (t ++ x :: r) (k + newlines [a])) ;; scan_ident (S fuel) q 0 c) ;; Ok (m, s)) m).
  { intros q ->. rewrite back_cons. cbn [bind]. replace (k + newlines [a] - newlines [a]) with k by lia.
    pose proof (scan_ident_ok (a :: t) p x r k (S fuel) (Cur p (a :: t ++ x :: r) k) 0 ltac:(lia) F Hx) as H.
    cbn [app c_rest Z.eqb] in H. specialize (H ltac:(change (a :: t ++ x :: r) with ((a :: t) ++ x :: r); rewrite zlen_app; lia)). unfold ident_result.
    destruct (class_of (a :: t)); [rewrite H; reflexivity|]. change (0 =? 0) with true. destruct (true && (zlen (a :: t) =? 1) && forallb (fun c => c =? 95) (a :: t)).
    - rewrite H. reflexivity.
    - destruct H as (e & ->). eexists. reflexivity. }
  unfold scan_token. cbn [app]. rewrite skip_ws_none by (unf; lia). cbn [bind]. rewrite peek_cons. cbn [bind]. replace (a =? 0) with false by (unf; lia). cbv zeta. rewrite next_cons. cbn [bind].
  assert (Hy : exists y v, t ++ x :: r = y :: v /\ (y = 34 \/ y = 39 \/ y = 96 -> t = [] /\ y = x)).
  { destruct t as [|y t']; [exists x, r; auto|]. exists y, (t' ++ x :: r). split; [reflexivity|]. intros Hq. inversion F'; subst. exfalso. unf. lia. }
  destruct Hy as (y & v & Ev & Hyq).
  destruct (Z.eqb_spec a 10); [exfalso; unf; lia|]. destruct (Z.eqb_spec a 64); [exfalso; unf; lia|]. destruct (Z.eqb_spec a 39); [exfalso; unf; lia|].
  destruct (Z.eqb_spec a 96); [exfalso; unf; lia|]. destruct (Z.eqb_spec a 34); [exfalso; unf; lia|]. destruct (Z.eqb_spec a 35); [exfalso; unf; lia|].
  destruct (Z.eqb_spec a 36); [exfalso; unf; lia|].
  replace ((a =? 44) || (a =? 59) || (a =? 123) || (a =? 125) || (a =? 40) || (a =? 41) || (a =? 93) || (a =? 126)) with false by (unf; lia).
  replace (a =? 91) with false by (unf; lia). replace (a =? 46) with false by (unf; lia). replace (a =? 58) with false by (unf; lia). replace (a =? 33) with false by (unf; lia).
  replace (a =? 47) with false by (unf; lia). replace (a =? 42) with false by (unf; lia). replace (a =? 61) with false by (unf; lia). replace (a =? 94) with false by (unf; lia).
  replace (a =? 63) with false by (unf; lia). replace (a =? 60) with false by (unf; lia). replace (a =? 62) with false by (unf; lia). replace (a =? 37) with false by (unf; lia).
  replace (a =? 38) with false by (unf; lia). replace (a =? 124) with false by (unf; lia). replace (a =? 43) with false by (unf; lia). replace (a =? 45) with false by (unf; lia).
  destruct (Z.eqb_spec a 120) as [->|].
  { rewrite Ev. rewrite peek_cons. cbn [bind]. destruct ((y =? 34) || (y =? 39) || (y =? 96)) eqn:B.
    - exfalso. destruct (Hyq ltac:(lia)) as [-> ->]. apply Hn1. split; [reflexivity|lia].
    - rewrite <- Ev. apply Main. rewrite Ev. reflexivity. }
  destruct (Z.eqb_spec a 98) as [->|].
  { rewrite Ev. rewrite peek_cons. cbn [bind].
    match goal with |- context [bind (if y =? 54 then ?u else Ok false) _] => set (six := if y =? 54 then u else Ok false) end.
    assert (Hsix : six = Ok false).
    { unfold six. destruct (Z.eqb_spec y 54) as [->|]; [|reflexivity]. destruct t as [|y' t']; [cbn in Ev; injection Ev as -> _; unf; lia|]. cbn in Ev. injection Ev as -> <-.
      destruct t' as [|z t''].
      - cbn [app]. rewrite peekn_cons1. cbn [bind]. destruct (Z.eqb_spec x 52); [exfalso; unf; lia|reflexivity].
      - cbn [app]. rewrite peekn_cons1. cbn [bind]. destruct (Z.eqb_spec z 52) as [->|]; [|reflexivity]. destruct t'' as [|w t3].
        + cbn [app]. rewrite peekn_cons2. cbn [bind]. f_equal. assert (~ (x = 34 \/ x = 39 \/ x = 96)) by (intros Hq; apply Hn2; split; [reflexivity|exact Hq]). lia.
        + cbn [app]. rewrite peekn_cons2. cbn [bind]. f_equal. inversion F' as [|? ? _ F1]; subst. inversion F1 as [|? ? _ F2]; subst. inversion F2; subst. unf. lia. }
    rewrite Hsix. cbn [bind]. rewrite <- Ev. apply Main. rewrite Ev. reflexivity. }
  destruct (Z.eqb_spec a 95) as [->|]; [apply Main; reflexivity|].
  rewrite Hd. replace (is_letter a) with true by (unf; lia). apply Main. reflexivity.
Qed.
Lemma scan_token_prefixed s p x r k fuel m pre : pre = 64 \/ pre = 35 \/ pre = 36 -> (S (length s) < fuel)%nat -> Forall (fun c => is_ident_char c = true) s -> is_ident_char x = false -> s <> [] ->
  (forall a t, s = a :: t -> is_digit a = false) ->
  ident_result pre s (Cur (rev s ++ pre :: p) (x :: r) k) (scan_token fuel m (Cur p (pre :: s ++ x :: r) k)) m.
Proof.
  intros Hp Hf F Hx Hs Hd. destruct s as [|a t]; [congruence|]. specialize (Hd a t eq_refl). inversion F as [|? ? Ha F']; subst.
  destruct fuel as [|fuel]; [lia|].
  assert (Hnl : newlines [pre] = 0) by (destruct Hp as [ -> |[ -> | -> ] ]; reflexivity).
  assert (Main : ident_result pre (a :: t) (Cur (rev (a :: t) ++ pre :: p) (x :: r) k)
     (s <- scan_ident (S fuel) (Cur p (pre :: (a :: t) ++ x :: r) k) pre (Cur (pre :: p) ((a :: t) ++ x :: r) k) ;; Ok (m, s)) m).
  { pose proof (scan_ident_ok (a :: t) (pre :: p) x r k (S fuel) (Cur p (pre :: (a :: t) ++ x :: r) k) pre ltac:(lia) F Hx) as H.
    cbn [c_rest] in H. assert (Hp0 : (pre =? 0) = false) by lia. rewrite Hp0 in *. specialize (H ltac:(rewrite zlen_cons, zlen_app; lia)). unfold ident_result. rewrite Hp0 in *.
    destruct (class_of (a :: t)); [rewrite H; reflexivity|]. destruct H as (e & ->). eexists. reflexivity. }
  unfold scan_token. rewrite skip_ws_none by lia. cbn [bind]. rewrite peek_cons. cbn [bind]. replace (pre =? 0) with false by lia. cbv zeta. rewrite next_cons, Hnl, Z.add_0_r. cbn [bind].
  destruct Hp as [ -> |[ -> | -> ] ].
  - cbn [Z.eqb Pos.eqb]. cbn [app]. rewrite peek_cons. cbn [bind]. replace (is_letter a || is_us a) with true by (unf; lia). exact Main.
  - exact Main.
  - cbn [app]. change (36 =? 10) with false. change (36 =? 64) with false. change (36 =? 39) with false. change (36 =? 96) with false. change (36 =? 34) with false. change (36 =? 35) with false. change (36 =? 36) with true. cbv iota.
    unfold alt. unfold matchc. rewrite peek_cons. cbn [bind]. replace (a =? 36) with false by (unf; lia). cbn [bind]. exact Main.
Qed.
