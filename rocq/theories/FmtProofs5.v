(** Printing into a buffer. *)
From Coq Require Import String ZArith List Bool Lia ZifyBool Arith.
From Verif Require Import Mach ListAux FmtModel FmtProofs FmtProofs3.
Import ListNotations.
Open Scope Z_scope.

Definition cut (n : Z) (o : list Z) : list Z := firstn (Z.to_nat n) o.
(** With a buffer of n bytes: the same, if the output fits; otherwise the first n bytes and a fault. *)
Definition W {A} (m : M A) : Prop := forall n f o, zlen o <= n -> exists t, snd (fst (m None f o)) = o ++ t /\
  if zlen (o ++ t) <=? n then m (Some n) f o = m None f o else exists f' e, m (Some n) f o = (f', cut n (o ++ t), Flt e) /\ muted f' = false.
Lemma cut_more n o t : n <= zlen o -> cut n (o ++ t) = cut n o.
Proof. intros H. unfold cut. rewrite firstn_app. replace (Z.to_nat n - length o)%nat with O by (unfold zlen in H; lia). cbn [firstn]. apply app_nil_r. Qed.
Lemma W_quiet {A} (m : M A) : (forall cap f o, exists f' r, m cap f o = (f', o, r)) -> (forall n f o, m (Some n) f o = m None f o) -> W m.
Proof. intros H1 H2 n f o Ho. exists []. destruct (H1 None f o) as (f' & r & E). rewrite E, app_nil_r. split; [reflexivity|]. replace (zlen o <=? n) with true by lia. now rewrite H2. Qed.
Lemma W_ret {A} (a : A) : W (ret a). Proof. apply W_quiet; [|reflexivity]. intros. now do 2 eexists. Qed.
Lemma W_fail {A} e : W (@fail A e). Proof. apply W_quiet; [|reflexivity]. intros. now do 2 eexists. Qed.
Lemma W_stuck {A} : W (@stuck A). Proof. apply W_quiet; [|reflexivity]. intros. now do 2 eexists. Qed.
Lemma W_look : W look. Proof. apply W_quiet; [|reflexivity]. intros. now do 2 eexists. Qed.
Lemma W_put f : W (put f). Proof. apply W_quiet; [|reflexivity]. intros. now do 2 eexists. Qed.
Lemma W_read s i : W (read s i). Proof. unfold read. destruct (get s i); [apply W_ret|apply W_stuck|apply W_stuck]. Qed.
Lemma W_lift {A} (r : ans A) : W (lift r). Proof. destruct r; [apply W_ret|apply W_fail|apply W_stuck]. Qed.
Lemma W_bind {A B} (m : M A) (k : A -> M B) : W m -> (forall a, W (k a)) -> W (andThen m k).
Proof.
  intros Hm Hk n f o Ho. unfold andThen. destruct (Hm n f o Ho) as (t1 & E1 & C1). destruct (m None f o) as [[f1 o1] r1]. cbn [fst snd] in E1. subst o1.
  assert (Q : forall t2, (zlen (o ++ t1) <=? n) = false -> (zlen (o ++ t1 ++ t2) <=? n) = false) by (intros t2 H; rewrite !zlen_app in *; pose proof (zlen_nonneg t2); lia).
  destruct (zlen (o ++ t1) <=? n) eqn:E.
  - rewrite C1. destruct r1 as [a|e|]; [|exists t1; rewrite E; auto|exists t1; rewrite E; auto]. destruct (Hk a n f1 (o ++ t1) ltac:(lia)) as (t2 & E2 & C2). exists (t1 ++ t2). rewrite app_assoc. auto.
  - destruct C1 as (f' & e & C1 & Hm'). rewrite C1. destruct r1 as [a|e1|]; [|exists t1; split; [reflexivity|]; rewrite E; exists f', e; auto|exists t1; split; [reflexivity|]; rewrite E; exists f', e; auto].
    destruct (Hk a (zlen (o ++ t1)) f1 (o ++ t1) ltac:(lia)) as (t2 & E2 & _). exists (t1 ++ t2). rewrite app_assoc. split; [exact E2|]. rewrite <- app_assoc, Q by reflexivity. rewrite app_assoc. exists f', e. split; [|exact Hm']. rewrite (cut_more n (o ++ t1) t2) by lia. reflexivity.
Qed.


Lemma W_catch {A} (m : M A) (h : fault -> M A) : W m -> (forall e, W (h e)) -> (forall e n f o, 0 <= n -> muted f = false -> (exists t, o = t /\ zlen t = n) -> exists f' e', h e (Some n) f o = (f', o, Flt e') /\ muted f' = false) -> W (catch m h).
Proof.
  intros Hm Hk Hh n f o Ho. unfold catch. destruct (Hm n f o Ho) as (t1 & E1 & C1). destruct (m None f o) as [[f1 o1] r1]. cbn [fst snd] in E1. subst o1. pose proof (zlen_nonneg o).
  destruct (zlen (o ++ t1) <=? n) eqn:E.
  - rewrite C1. destruct r1 as [a|e|]; [exists t1; rewrite E; auto| |exists t1; rewrite E; auto]. destruct (Hk e n f1 (o ++ t1) ltac:(lia)) as (t2 & E2 & C2). exists (t1 ++ t2). rewrite app_assoc. auto.
  - destruct C1 as (f' & e & C1 & Hm'). rewrite C1. assert (Hc : zlen (cut n (o ++ t1)) = n) by (apply firstn_zlen; lia). destruct (Hh e n f' (cut n (o ++ t1)) ltac:(lia) Hm' ltac:(eauto)) as (f2 & e2 & C2 & Hm2). rewrite C2.
    destruct r1 as [a|e1|]; [exists t1; split; [reflexivity|]; rewrite E; exists f2, e2; auto| |exists t1; split; [reflexivity|]; rewrite E; exists f2, e2; auto].
    destruct (Hk e1 (zlen (o ++ t1)) f1 (o ++ t1) ltac:(lia)) as (t2 & E2 & _). exists (t1 ++ t2). rewrite app_assoc. split; [exact E2|]. replace (zlen ((o ++ t1) ++ t2) <=? n) with false by (rewrite (zlen_app (o ++ t1)); pose proof (zlen_nonneg t2); lia). rewrite (cut_more n (o ++ t1) t2) by lia. exists f2, e2. auto.
Qed.
Lemma W_plainly {A} (m : M A) : W m -> W (plainly m).
Proof.
  intros Hm n f o Ho. unfold plainly. destruct (Hm n (with_width 0 (with_flags no_flags f)) o Ho) as (t & E & C). exists t. destruct (m None (with_width 0 (with_flags no_flags f)) o) as [[f1 o1] r1]. cbn [fst snd] in E. subst o1. split; [reflexivity|]. destruct (zlen (o ++ t) <=? n); [now rewrite C|]. destruct C as (f' & e & -> & Hm'). eexists _, e. split; [reflexivity|exact Hm'].
Qed.
Lemma W_out c : W (out c).
Proof.
  intros n f o Ho. unfold out, full. destruct (muted f) eqn:Em; [exists []; rewrite app_nil_r; replace (zlen o <=? n) with true by lia; auto|]. exists [c]. split; [reflexivity|]. rewrite zlen_app. change (zlen [c]) with 1. destruct (zlen o + 1 <=? n) eqn:E; [replace (n <=? zlen o) with false by lia; reflexivity|].
  replace (n <=? zlen o) with true by lia. assert (Ec : cut n (o ++ [c]) = o) by (rewrite cut_more by lia; unfold cut; apply firstn_all2; unfold zlen in *; lia). rewrite Ec. destruct (first f); [exists f, f0; auto|eexists _, _; split; [reflexivity|exact Em]].
Qed.
Lemma W_out_all s : W (out_all s). Proof. induction s as [|c s IH]; [apply W_ret|]. cbn [out_all]. apply W_bind; [apply W_out|]. intros _. apply W_bind; [exact IH|]. intros n. apply W_ret. Qed.
Lemma W_if {A} (b : bool) (m k : M A) : W m -> W k -> W (if b then m else k). Proof. now destruct b. Qed.
Ltac w := repeat first [simple apply W_bind; [|intros ?] | simple apply W_if | simple apply W_ret | simple apply W_fail | simple apply W_stuck | simple apply W_look | simple apply W_put | simple apply W_read | simple apply W_lift | simple apply W_out | simple apply W_out_all | assumption].
Lemma W_pad c a b : W (pad c a b). Proof. unfold pad. w. Qed.
Lemma W_adjust n : W (adjust n). Proof. unfold adjust. w; auto using W_pad. Qed.
Lemma W_out_substr s : W (out_substr s). Proof. unfold out_substr. w. Qed.
Lemma W_first_err e : W (first_err e). Proof. unfold first_err. w. destruct (first a); w. Qed.
Lemma W_change g : W (change g). Proof. unfold change. w. Qed.
Lemma W_out_reverse b : W (out_reverse b). Proof. unfold out_reverse. w; auto using W_pad, W_adjust. Qed.
Lemma W_push b c : W (push b c). Proof. unfold push. w. Qed.
Lemma W_ntoa_format b neg base : W (ntoa_format b neg base). Proof. unfold ntoa_format. w; auto using W_push, W_out_reverse. Qed.
Lemma W_ntoa v neg base : W (ntoa v neg base). Proof. unfold ntoa. w; apply W_ntoa_format. Qed.
Lemma out_all_full c s n f o : zlen o = n -> muted f = false -> exists f' e, out_all (c :: s) (Some n) f o = (f', o, Flt e) /\ muted f' = false.
Proof. intros Ho Hm. cbn [out_all]. unfold andThen, out, full. rewrite Hm. replace (n <=? zlen o) with true by lia. destruct (first f) as [e|]; [exists f, e; auto|eexists _, _; split; [reflexivity|exact Hm]]. Qed.
Lemma W_report t : W (report_fault t).
Proof.
  unfold report_fault. intros n f o Ho. pose proof (W_out_substr (lit t) n f o Ho) as (u & E & C). exists u. unfold andThen, catch. destruct (out_substr (lit t) None f o) as [[f1 o1] r1]. cbn [fst snd] in E. subst o1.
  split; [now destruct r1|]. destruct (zlen (o ++ u) <=? n); [rewrite C; now destruct r1|]. destruct C as (f' & e & -> & Hm). unfold ret, fail. eexists _, _. split; [reflexivity|exact Hm].
Qed.
Lemma first_err_full e n f o : muted f = false -> exists f' e', first_err e (Some n) f o = (f', o, Val e') /\ muted f' = false.
Proof. intros Hm. unfold first_err, andThen, look, put, ret. destruct (first f) as [e1|]; [exists f, e1; auto|eexists _, _; split; [reflexivity|exact Hm]]. Qed.
Lemma W_wrap_bad m : W m -> W (wrap_bad m).
Proof.
  intros Hm. unfold wrap_bad. apply W_catch; [exact Hm| |].
  - intros e. destruct e; w; auto using W_first_err, W_out_substr.
  - intros e n f o Hn Hf (t & <- & Ho). assert (P : forall e1, exists f' e', (e0 <- first_err e1 ;; @fail Z e0) (Some n) f o = (f', o, Flt e') /\ muted f' = false).
    { intros e1. destruct (first_err_full e1 n f o Hf) as (f' & e' & E & Hm'). unfold andThen. rewrite E. exists f', e'. auto. }
    assert (Q : exists f' e', (e0 <- first_err INVALID_ARGUMENT ;; out_substr (lit "<INVALID>") ;;; @fail Z e0) (Some n) f o = (f', o, Flt e') /\ muted f' = false).
    { destruct (first_err_full INVALID_ARGUMENT n f o Hf) as (f' & e' & E & Hm'). unfold andThen at 1. rewrite E. unfold andThen at 1. unfold out_substr, andThen at 1, look.
      destruct (if precision (fl f') then cut_chars (prec f') (lit "<INVALID>") else lit "<INVALID>") as [|c s]; [exists f', e'; auto|]. destruct (out_all_full c s n f' o Ho Hm') as (f2 & e2 & E2 & Hm2). rewrite E2. exists f2, e2. auto. }
    destruct e; auto.
Qed.
(** The precision flag is left alone. *)
Definition K {A} (m : M A) : Prop := forall cap f o, precision (fl (fst (fst (m cap f o)))) = precision (fl f).
Lemma K_ret {A} (a : A) : K (ret a). Proof. now intros cap f o. Qed.
Lemma K_fail {A} e : K (@fail A e). Proof. now intros cap f o. Qed.
Lemma K_stuck {A} : K (@stuck A). Proof. now intros cap f o. Qed.
Lemma K_lift {A} (r : ans A) : K (lift r). Proof. now destruct r; intros cap f o. Qed.
Lemma K_bind {A B} (m : M A) (k : A -> M B) : K m -> (forall a, K (k a)) -> K (andThen m k).
Proof. intros Hm Hk cap f o. specialize (Hm cap f o). unfold andThen. destruct (m cap f o) as [[f1 o1] [a|e|]]; cbn in *; [rewrite Hk|..]; exact Hm. Qed.
Lemma K_look {A} (k : fm -> M A) : (forall f cap o, precision (fl (fst (fst (k f cap f o)))) = precision (fl f)) -> K (f <- look ;; k f).
Proof. intros Hk cap f o. unfold andThen, look. apply Hk. Qed.
Lemma K_out c : K (out c). Proof. intros cap f o. unfold out. destruct (muted f); [reflexivity|]. destruct (full cap o); [|reflexivity]. now destruct (first f). Qed.
Lemma K_out_all s : K (out_all s). Proof. induction s as [|c s IH]; [apply K_ret|]. cbn [out_all]. apply K_bind; [apply K_out|]. intros _. apply K_bind; [exact IH|]. intros n. apply K_ret. Qed.
Lemma K_if {A} (b : bool) (m k : M A) : K m -> K k -> K (if b then m else k). Proof. now destruct b. Qed.
Lemma K_pad c a b : K (pad c a b). Proof. unfold pad. apply K_bind; [apply K_out_all|]. intros _. apply K_ret. Qed.
Lemma K_adjust n : K (adjust n). Proof. apply K_look. intros f cap o. apply (K_if (left (fl f)) (pad 32 (width f) n) (ret 0)); [apply K_pad|apply K_ret]. Qed.
Lemma K_out_reverse b : K (out_reverse b).
Proof.
  apply K_look. intros f cap o. match goal with |- precision (fl (fst (fst (?m cap f o)))) = _ => assert (Hk : K m); [|apply Hk] end.
  apply K_bind; [apply K_if; [apply K_pad|apply K_ret]|]. intros n. apply K_bind; [apply K_out_all|]. intros m. apply K_bind; [apply K_adjust|]. intros a. apply K_ret.
Qed.
Lemma K_push b c : K (push b c). Proof. unfold push. apply K_if; [apply K_fail|apply K_ret]. Qed.
Lemma K_bind2 {A B} (m : M A) (k : A -> M B) cap f o : precision (fl (fst (fst (m cap f o)))) = precision (fl f) -> (forall a, K (k a)) -> precision (fl (fst (fst (andThen m k cap f o)))) = precision (fl f).
Proof. intros Hm Hk. unfold andThen. destruct (m cap f o) as [[f1 o1] [a|e|]]; cbn in *; [rewrite Hk|..]; exact Hm. Qed.
Lemma K_look0 : K look. Proof. now intros cap f o. Qed.
Ltac kk := repeat first [simple apply K_look0 | simple apply K_bind; [|intros ?] | simple apply K_if | simple apply K_ret | simple apply K_fail | simple apply K_stuck | simple apply K_lift | simple apply K_push | simple apply K_out_reverse].
Ltac kl := match goal with |- precision (fl (fst (fst (?m ?cap ?f ?o)))) = _ => let Hk := fresh in assert (Hk : K m); [|apply Hk] end.
Lemma K_ntoa_format b neg base : K (ntoa_format b neg base).
Proof.
  unfold ntoa_format. apply K_look. intros f cap o. apply K_bind2.
  - destruct (left (fl f)); [reflexivity|]. apply K_bind2; [destruct (negb (width f =? 0) && zeropad (fl f) && (neg || plus (fl f) || space (fl f))); reflexivity|]. intros _. kk.
  - intros b1. kk.
Qed.
Lemma K_ntoa v neg base : K (ntoa v neg base).
Proof. unfold ntoa. apply K_look. intros f cap o. apply K_bind2; [now destruct (v =? 0)|]. intros _. kk. apply K_ntoa_format. Qed.
Lemma W_int v neg : W (plainly (catch (ntoa v neg 10) (fun _ => out_substr (lit "<INVALID>")))).
Proof.
  intros n f o Ho. unfold plainly. set (f0 := with_width 0 (with_flags no_flags f)). pose proof (zlen_nonneg o).
  destruct (W_ntoa v neg 10 n f0 o Ho) as (t1 & E1 & C1). unfold catch. pose proof (K_ntoa v neg 10 (Some n) f0 o) as Kn. destruct (ntoa v neg 10 None f0 o) as [[f1 o1] r1]. cbn [fst snd] in E1. subst o1.
  destruct (zlen (o ++ t1) <=? n) eqn:E.
  - rewrite C1. destruct r1 as [a|e|]; [exists t1; cbn [fst snd]; rewrite E; auto| |exists t1; cbn [fst snd]; rewrite E; auto]. destruct (W_out_substr (lit "<INVALID>") n f1 (o ++ t1) ltac:(lia)) as (t2 & E2 & C2). exists (t1 ++ t2). rewrite app_assoc.
    destruct (out_substr (lit "<INVALID>") None f1 (o ++ t1)) as [[f2 o2] r2]. cbn [fst snd] in E2. subst o2. split; [reflexivity|]. destruct (zlen ((o ++ t1) ++ t2) <=? n); [now rewrite C2|]. destruct C2 as (f' & e' & -> & Hm). eexists _, _. split; [reflexivity|exact Hm].
  - destruct C1 as (f' & e & C1 & Hm'). rewrite C1. rewrite C1 in Kn. cbn [fst] in Kn. change (precision (fl f0)) with false in Kn. assert (Hc : zlen (cut n (o ++ t1)) = n) by (apply firstn_zlen; lia).
    assert (C2 : exists f2 e2, out_substr (lit "<INVALID>") (Some n) f' (cut n (o ++ t1)) = (f2, cut n (o ++ t1), Flt e2) /\ muted f2 = false) by (unfold out_substr, andThen, look; rewrite Kn; apply (out_all_full 60); assumption).
    destruct C2 as (f2 & e2 & C2 & Hm2). rewrite C2.
    destruct r1 as [a|e1|]; [exists t1; split; [reflexivity|]; rewrite E; eexists _, _; split; [reflexivity|exact Hm2]| |exists t1; split; [reflexivity|]; rewrite E; eexists _, _; split; [reflexivity|exact Hm2]].
    destruct (W_out_substr (lit "<INVALID>") (zlen (o ++ t1)) f1 (o ++ t1) ltac:(lia)) as (t2 & E2 & _). exists (t1 ++ t2). rewrite app_assoc. destruct (out_substr (lit "<INVALID>") None f1 (o ++ t1)) as [[f3 o3] r3]. cbn [fst snd] in E2. subst o3. split; [reflexivity|].
    replace (zlen ((o ++ t1) ++ t2) <=? n) with false by (rewrite (zlen_app (o ++ t1)); pose proof (zlen_nonneg t2); lia). rewrite (cut_more n (o ++ t1) t2) by lia. eexists _, _. split; [reflexivity|exact Hm2].
Qed.
Fixpoint W_out_str (a : arg) : W (out_str a).
Proof.
  destruct a as [s b v|b|s|l]; [apply W_int|cbn [out_str]; apply W_out_substr|cbn [out_str]; apply W_out_substr|]. rewrite out_str_list. apply W_plainly. apply W_bind; [apply W_out|]. intros x. apply W_bind; [|intros y; w].
  generalize false. induction l as [|a l IH]; intros sep; [apply W_ret|]. change (items sep (a :: l)) with (s <- (if sep then out_substr [44; 32] else ret 0) ;; n <- out_str a ;; m <- items true l ;; ret (s + n + m)). apply W_bind; [apply W_if; [apply W_out_substr|apply W_ret]|]. intros s. apply W_bind; [apply W_out_str|]. intros n. apply W_bind; [apply IH|]. intros m. apply W_ret.
Qed.
Lemma W_out_char a : W (out_char a). Proof. destruct a; try apply W_out_substr. unfold out_char. cbv zeta. w; auto using W_adjust. Qed.
Lemma W_int_from_any a : W (int_from_any a). Proof. destruct a; cbn [int_from_any]; w. Qed.
Lemma W_int_conv base a : W (int_conv base a).
Proof. unfold int_conv. w; auto using W_change. apply W_wrap_bad. w; [apply W_int_from_any|apply W_ntoa]. Qed.
Lemma W_str_conv a : W (str_conv a). Proof. unfold str_conv. w; auto using W_out_str, W_pad. Qed.
Lemma W_hex_conv a : W (hex_conv a).
Proof. unfold hex_conv. destruct (match a with AList l => bytes_of l | _ => None end); [|apply W_out_substr]. w; auto using W_pad. Qed.
Lemma W_conversion c a : W (conversion c a).
Proof. unfold conversion. w; auto using W_change, W_int_conv, W_out_char, W_hex_conv, W_str_conv, W_first_err, W_out_substr. Qed.
(** Reading the format writes nothing. *)
Definition Q {A} (m : M A) : Prop := forall f o, exists r, forall cap, m cap f o = (f, o, r).
Lemma Q_ret {A} (a : A) : Q (ret a). Proof. intros f o. exists (Val a). reflexivity. Qed.
Lemma Q_fail {A} e : Q (@fail A e). Proof. intros f o. exists (Flt e). reflexivity. Qed.
Lemma Q_stuck {A} : Q (@stuck A). Proof. intros f o. exists Stuck. reflexivity. Qed.
Lemma Q_read s i : Q (read s i). Proof. unfold read. destruct (get s i); [apply Q_ret|apply Q_stuck|apply Q_stuck]. Qed.
Lemma Q_bind {A B} (m : M A) (k : A -> M B) : Q m -> (forall a, Q (k a)) -> Q (andThen m k).
Proof.
  intros Hm Hk f o. unfold andThen. destruct (Hm f o) as (r & E). destruct r as [a|e|]; [destruct (Hk a f o) as (r2 & E2); exists r2; intros cap; rewrite E; apply E2|exists (Flt e)|exists Stuck]; intros cap; now rewrite E.
Qed.
Lemma Q_if {A} (b : bool) (m k : M A) : Q m -> Q k -> Q (if b then m else k). Proof. now destruct b. Qed.
Ltac q := repeat first [simple apply Q_bind; [|intros ?] | simple apply Q_if | simple apply Q_ret | simple apply Q_fail | simple apply Q_stuck | simple apply Q_read].
Lemma Q_atoi : forall k s i v, Q (simple_atoi k s i v). Proof. induction k as [|k IH]; intros s i v; cbn [simple_atoi]; [apply Q_stuck|]. q. apply IH. Qed.
Lemma Q_flag_eval : forall k s i g, Q (flag_eval k s i g). Proof. induction k as [|k IH]; intros s i g; cbn [flag_eval]; [apply Q_stuck|]. apply Q_bind; [apply Q_read|]. intros c. destruct (flag_of c g); q. apply IH. Qed.
Lemma Q_parse s i args : Q (parse_field s i args).
Proof. unfold parse_field. q; [apply Q_atoi|]. destruct args as [|[sg b v| | |] rest]; q. destruct (any_to_int true v); q. Qed.
Lemma Q_as_option {A} (m : M A) : Q m -> Q (as_option m).
Proof. intros Hm f o. unfold as_option, catch, andThen. destruct (Hm f o) as (r & E). destruct r as [a|e|]; [exists (Val (Some a))|exists (Val None)|exists Stuck]; intros cap; now rewrite E. Qed.
Lemma Q_W {A} (m : M A) : Q m -> W m.
Proof. intros Hm. apply W_quiet; intros; destruct (Hm f o) as (r & E); rewrite !E; eauto. Qed.
Lemma W_directive s i args : W (directive s i args).
Proof.
  assert (R : forall t, W (report_fault t ;;; @stuck (Z * list arg * Z))) by (intros t; w; apply W_report).
  unfold directive. apply W_bind; [apply W_change|]. intros _. apply W_bind; [apply Q_W, Q_flag_eval|]. intros [[i1 g]|]; [|apply R]. apply W_bind; [apply W_change|]. intros _. apply W_bind; [apply Q_W, Q_as_option, Q_parse|]. intros [[[w i2] args1]|]; [|apply R].
  apply W_bind; [apply W_read|]. intros c. apply W_bind; [apply W_if; [apply W_change|apply W_ret]|]. intros _. apply W_bind; [apply W_look|]. intros f. apply W_bind; [apply W_put|]. intros _. apply W_bind.
  - apply W_if; [|apply W_ret]. apply W_bind; [apply W_change|]. intros _. apply W_if; [apply W_ret|]. apply W_bind; [apply Q_W, Q_as_option, Q_parse|]. intros [[[p i3] args2]|]; w.
  - intros [[[i3 c3] args2]|]; [|apply R]. destruct args2 as [|a args2]; w; auto using W_first_err, W_out_substr, W_conversion.
Qed.
Lemma W_loop : forall k s i args total, W (loop k s i args total).
Proof.
  induction k as [|k IH]; intros s i args total; cbn [loop]; [apply W_stuck|]. w; try apply W_report; try apply IH; [apply W_directive| |].
  - destruct a1 as [[i1 args1] n]. apply IH.
  - destruct (first a); w.
Qed.
Lemma W_vprintf s args : W (vprintf s args). Proof. unfold vprintf. w. apply W_loop. Qed.
Lemma bprintf_ok n s args : 0 <= n -> let '(t, r) := printf s args in
  if zlen t <=? n then bprintf n s args = (t, match r with Val _ => Val t | Flt e => Flt e | Stuck => Stuck end) else exists e, bprintf n s args = (firstn (Z.to_nat n) t, Flt e).
Proof.
  intros Hn. unfold printf, bprintf. destruct (W_vprintf s args n fresh [] Hn) as (t & E & C). destruct (vprintf s args None fresh []) as [[f o] r]. cbn [fst snd app] in *. subst o. destruct (zlen t <=? n); [now rewrite C|]. destruct C as (f' & e & -> & _). exists e. reflexivity.
Qed.
