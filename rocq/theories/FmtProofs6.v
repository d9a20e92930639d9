(** No read outside of the format. *)
From Coq Require Import String ZArith List Bool Lia ZifyBool Arith.
From Verif Require Import Mach ListAux FmtModel FmtProofs FmtProofs3.
From Verif Require FmtSpec.
Import ListNotations.
Open Scope Z_scope.

Definition N {A} (m : M A) (P : A -> Prop) : Prop := forall cap f o, match m cap f o with (_, _, Val a) => P a | (_, _, Flt _) => True | (_, _, Stuck) => False end.
Definition any {A} (_ : A) : Prop := True.
Lemma N_ret {A} (a : A) (P : A -> Prop) : P a -> N (ret a) P. Proof. intros H cap f o. exact H. Qed.
Lemma N_ret0 {A} (a : A) : N (ret a) any. Proof. intros cap f o. exact I. Qed.
Lemma N_fail {A} e (P : A -> Prop) : N (fail e) P. Proof. intros cap f o. exact I. Qed.
Lemma N_look : N look any. Proof. intros cap f o. exact I. Qed.
Lemma N_put f : N (put f) any. Proof. intros cap g o. exact I. Qed.
Lemma N_bind {A B} (m : M A) (k : A -> M B) P Q : N m P -> (forall a, P a -> N (k a) Q) -> N (andThen m k) Q.
Proof. intros Hm Hk cap f o. specialize (Hm cap f o). unfold andThen. destruct (m cap f o) as [[f1 o1] [a|e|]]; [now apply Hk|exact I|exact Hm]. Qed.
Lemma N_catch {A} (m : M A) h P : N m P -> (forall e, N (h e) P) -> N (catch m h) P.
Proof. intros Hm Hk cap f o. specialize (Hm cap f o). unfold catch. destruct (m cap f o) as [[f1 o1] [a|e|]]; [exact Hm|apply Hk|exact Hm]. Qed.
Lemma N_if {A} (b : bool) (m k : M A) P : (b = true -> N m P) -> (b = false -> N k P) -> N (if b then m else k) P. Proof. destruct b; auto. Qed.
Lemma N_weak {A} (m : M A) (P Q : A -> Prop) : N m P -> (forall a, P a -> Q a) -> N m Q.
Proof. intros H HPQ cap f o. specialize (H cap f o). destruct (m cap f o) as [[f1 o1] [a|e|]]; auto. Qed.
Lemma N_read s i : 0 <= i < zlen s -> N (read s i) (fun c => get s i = Ok c).
Proof. intros H. destruct (get_ok s i H) as (c & E). unfold read. rewrite E. apply N_ret. reflexivity. Qed.
Lemma N_plainly {A} (m : M A) P : N m P -> N (plainly m) P.
Proof. intros H cap f o. unfold plainly. specialize (H cap (with_width 0 (with_flags no_flags f)) o). destruct (m cap (with_width 0 (with_flags no_flags f)) o) as [[f1 o1] [a|e|]]; exact H. Qed.
Lemma N_out c : N (out c) any. Proof. intros cap f o. unfold out. destruct (muted f); [exact I|]. destruct (full cap o); [|exact I]. now destruct (first f). Qed.
Ltac n := repeat first [apply N_ret0 | apply N_fail | exact N_look | apply N_put | apply N_out | eassumption | simple apply N_if; intros ? | simple eapply N_bind; [|intros ? ?]].
Lemma N_out_all s : N (out_all s) any. Proof. induction s as [|c s IH]; [apply N_ret0|]. cbn [out_all]. n. Qed.
Lemma N_pad c a b : N (pad c a b) any. Proof. unfold pad. eapply N_bind; [apply N_out_all|]. intros. apply N_ret0. Qed.
Lemma N_adjust k : N (adjust k) any. Proof. unfold adjust. n. apply N_pad. Qed.
Lemma N_out_substr s : N (out_substr s) any. Proof. unfold out_substr. eapply N_bind; [apply N_look|]. intros. apply N_out_all. Qed.
Lemma N_first_err e : N (first_err e) any. Proof. unfold first_err. n. destruct (first a); n. Qed.
Lemma N_report {A} t (P : A -> Prop) : N (report_fault t ;;; stuck) P.
Proof. unfold report_fault. intros cap f o. pose proof (N_out_substr (lit t) cap f o) as H. unfold andThen, catch. destruct (out_substr (lit t) cap f o) as [[f1 o1] [a|e|]]; [exact I|exact I|exact H]. Qed.
Lemma N_report0 t P : N (report_fault t) P.
Proof. unfold report_fault. eapply N_bind; [apply N_catch; [apply N_out_substr|intros; apply N_ret0]|]. intros. apply N_fail. Qed.
Lemma N_wrap m : N m any -> N (wrap_bad m) any.
Proof. intros Hm. unfold wrap_bad. apply N_catch; [exact Hm|]. intros e. destruct e; repeat (eapply N_bind; [first [apply N_first_err|apply N_out_substr]|intros ? _]); apply N_fail. Qed.
Lemma digits_ns up base : forall k v buf, 257 <= zlen buf + Z.of_nat k -> (0 < k)%nat -> ntoa_digits k up base v buf <> Stuck.
Proof.
  induction k as [|k IH]; intros v buf H Hk; [lia|]. cbn [ntoa_digits]. destruct (256 <=? zlen buf) eqn:E; [discriminate|]. destruct (v / base =? 0); [discriminate|]. apply IH; [rewrite zlen_app; change (zlen [digit up (v mod base)]) with 1; lia|lia].
Qed.
Lemma zeros_ns lim : forall k buf, 257 <= zlen buf + Z.of_nat k -> (0 < k)%nat -> zeros k lim buf <> Stuck.
Proof.
  induction k as [|k IH]; intros buf H Hk; [lia|]. cbn [zeros]. destruct (zlen buf <? lim); [|discriminate]. destruct (256 <=? zlen buf) eqn:E; [discriminate|]. apply IH; [rewrite zlen_app; change (zlen [48]) with 1; lia|lia].
Qed.
Lemma N_lift {A} (r : ans A) : r <> Stuck -> N (lift r) any. Proof. intros H. destruct r; [apply N_ret0|apply N_fail|easy]. Qed.
Lemma N_out_reverse b : N (out_reverse b) any.
Proof. unfold out_reverse. eapply N_bind; [apply N_look|]. intros f _. eapply N_bind; [apply N_if; intros _; [apply N_pad|apply N_ret0]|]. intros x _. eapply N_bind; [apply N_out_all|]. intros y _. eapply N_bind; [apply N_adjust|]. intros z _. apply N_ret0. Qed.
Lemma N_push b c : N (push b c) any. Proof. unfold push. n. Qed.
Lemma N_ntoa_format b neg base : base = 2 \/ base = 8 \/ base = 10 \/ base = 16 -> N (ntoa_format b neg base) any.
Proof.
  intros Hb. unfold ntoa_format. eapply N_bind; [apply N_look|]. intros f _. eapply N_bind with (P := any).
  - apply N_if; intros _; [apply N_ret0|]. eapply N_bind with (P := any); [apply N_if; intros _; [apply N_put|apply N_ret0]|]. intros _ _. eapply N_bind; [apply N_lift, zeros_ns; [pose proof (zlen_nonneg b); lia|lia]|]. intros b1 _. eapply N_bind; [apply N_look|]. intros f1 _. apply N_if; intros _; [|apply N_ret0]. apply N_lift, zeros_ns; [pose proof (zlen_nonneg b1); lia|lia].
  - intros b1 _. eapply N_bind; [apply N_look|]. intros f1 _. eapply N_bind with (P := any).
    + apply N_if; intros E; [|apply N_ret0]. apply andb_prop in E as [_ E]. cbv zeta. apply N_if; intros _; [apply N_fail|]. destruct Hb as [-> | [-> | [-> | ->]]]; try apply N_ret0. discriminate.
    + intros b2 _. eapply N_bind with (P := any); [repeat (simple apply N_if; intros _); try apply N_push; apply N_ret0|]. intros b3 _. eapply N_bind with (P := any); [apply N_if; intros _; [apply N_ret0|apply N_out_reverse]|]. intros _ _. apply N_ret0.
Qed.
Lemma N_ntoa v neg base : base = 2 \/ base = 8 \/ base = 10 \/ base = 16 -> N (ntoa v neg base) any.
Proof.
  intros Hb. unfold ntoa. eapply N_bind; [apply N_look|]. intros f _. eapply N_bind with (P := any); [apply N_if; intros _; [apply N_put|apply N_ret0]|]. intros _ _. eapply N_bind with (P := any); [apply N_if; intros _; [|apply N_ret0]|intros; now apply N_ntoa_format].
  apply N_lift, digits_ns; [change (zlen []) with 0; lia|lia].
Qed.
Fixpoint N_out_str (a : arg) : N (out_str a) any.
Proof.
  destruct a as [s b v|b|s|l].
  - cbn [out_str]. apply N_plainly, N_catch; [apply N_ntoa; lia|intros _; apply N_out_substr].
  - apply N_out_substr.
  - apply N_out_substr.
  - rewrite out_str_list. apply N_plainly. eapply N_bind; [apply N_out|]. intros x _. eapply N_bind with (P := any); [|intros y _; n].
    generalize false. induction l as [|a l IH]; intros sep; [apply N_ret0|]. change (items sep (a :: l)) with (s <- (if sep then out_substr [44; 32] else ret 0) ;; n <- out_str a ;; m <- items true l ;; ret (s + n + m)).
    eapply N_bind with (P := any); [apply N_if; intros _; [apply N_out_substr|apply N_ret0]|]. intros s _. eapply N_bind; [apply N_out_str|]. intros k _. eapply N_bind; [apply IH|]. intros m _. apply N_ret0.
Qed.
Lemma N_change g : N (change g) any. Proof. unfold change. n. Qed.
Lemma N_int_conv base a : base = 2 \/ base = 8 \/ base = 10 \/ base = 16 -> N (int_conv base a) any.
Proof.
  intros Hb. unfold int_conv. eapply N_bind with (P := any); [apply N_if; intros _; [apply N_ret0|apply N_change]|]. intros _ _. eapply N_bind; [apply N_look|]. intros f _. eapply N_bind with (P := any); [apply N_if; intros _; [apply N_change|apply N_ret0]|]. intros _ _. apply N_wrap.
  eapply N_bind with (P := any); [destruct a; cbn [int_from_any]; try apply N_ret0; apply N_fail|]. intros r _. now apply N_ntoa.
Qed.
Lemma N_str_conv a : N (str_conv a) any.
Proof.
  unfold str_conv. eapply N_bind; [apply N_look|]. intros f _. apply N_if; intros _.
  - eapply N_bind; [apply N_out_str|]. intros x _. eapply N_bind; [apply N_pad|]. intros y _. apply N_ret0.
  - eapply N_bind with (P := any); [|intros x _; eapply N_bind; [apply N_out_str|]; intros y _; apply N_ret0]. apply N_if; intros _; [apply N_ret0|]. eapply N_bind; [apply N_put|]. intros _ _. eapply N_bind; [apply N_out_str|]. intros x _. eapply N_bind; [apply N_look|]. intros g _. eapply N_bind; [apply N_put|]. intros _ _. apply N_pad.
Qed.
Lemma N_hex_conv a : N (hex_conv a) any.
Proof.
  unfold hex_conv. destruct (match a with AList l => bytes_of l | _ => None end); [|apply N_out_substr]. eapply N_bind; [apply N_look|]. intros f _. apply N_if; intros _.
  - eapply N_bind; [apply N_out_all|]. intros x _. eapply N_bind; [apply N_pad|]. intros y _. apply N_ret0.
  - eapply N_bind with (P := any); [apply N_if; intros _; [apply N_ret0|apply N_pad]|]. intros x _. eapply N_bind; [apply N_out_all|]. intros y _. apply N_ret0.
Qed.
Lemma N_out_char a : N (out_char a) any.
Proof. destruct a; try apply N_out_substr. unfold out_char. cbv zeta. eapply N_bind; [apply N_adjust|]. intros x _. eapply N_bind; [apply N_out_all|]. intros y _. eapply N_bind; [apply N_adjust|]. intros z _. apply N_ret0. Qed.
Lemma N_conversion c a : ~ In c (FmtSpec.tx "AaFfEeGg") -> N (conversion c a) any.
Proof.
  intros Hc. unfold conversion.
  repeat (simple apply N_if; intros ?); try (simple eapply N_bind; [apply N_change|]; intros _ _); try (apply N_int_conv; lia); try apply N_hex_conv; try apply N_out_char; try apply N_str_conv.
  - exfalso. apply Hc. destruct (proj1 (existsb_exists _ _) H6) as (x & Hx & Ex). apply Z.eqb_eq in Ex. rewrite Ex. exact Hx.
  - eapply N_bind; [apply N_first_err|]. intros _ _. apply N_out_substr.
Qed.
(** Reading. *)
Definition solid (s : list Z) : Prop := forall c, get s (zlen s - 1) = Ok c -> ~ FmtSpec.is_digit c.
Lemma N_flag_eval : forall k s i g, 0 <= i < zlen s -> zlen s - i < Z.of_nat k -> N (flag_eval k s i g) (fun r => match r with Some (j, _) => i <= j < zlen s | None => True end).
Proof.
  induction k as [|k IH]; intros s i g Hi Hk; [lia|]. cbn [flag_eval]. eapply N_bind; [apply N_read; lia|]. intros c _. destruct (flag_of c g); [|apply N_ret; lia]. apply N_if; intros E; [now apply N_ret|]. eapply N_weak; [apply IH; lia|]. intros [[j g']|]; [lia|auto].
Qed.
Lemma N_atoi : forall k s i v, 0 <= i <= zlen s -> zlen s - i < Z.of_nat k -> (i = zlen s -> forall c, get s (zlen s - 1) = Ok c -> FmtSpec.is_digit c) -> N (simple_atoi k s i v) (fun r => i <= snd r <= zlen s /\ (snd r = zlen s -> forall c, get s (zlen s - 1) = Ok c -> FmtSpec.is_digit c)).
Proof.
  induction k as [|k IH]; intros s i v Hi Hk Hl; [lia|]. cbn [simple_atoi]. apply N_if; intros E; [|apply N_ret; cbn [snd]; split; [lia|exact Hl]]. eapply N_bind; [apply N_read; lia|]. intros c Hc. apply N_if; intros Ed; [|apply N_ret; cbn [snd]; split; [lia|intros; lia]].
  eapply N_weak; [apply IH; [lia|lia|]|intros r [Hr1 Hr2]; split; [lia|exact Hr2]]. intros Ei c0 Hc0. replace (zlen s - 1) with i in Hc0 by lia. rewrite Hc in Hc0. injection Hc0 as <-. unfold FmtSpec.is_digit. lia.
Qed.
Lemma N_parse s i args : solid s -> 0 <= i < zlen s -> N (parse_field s i args) (fun r => let '(_, j, _) := r in i <= j < zlen s).
Proof.
  intros Hs Hi. unfold parse_field. eapply N_bind; [apply N_read; lia|]. intros c Hc. apply N_if; intros Ed.
  - eapply N_bind; [apply N_atoi; [lia|unfold zlen; lia|intros; lia]|]. intros [v j] [Hj Hl]. cbn [fst snd] in *. apply N_ret. assert (j <> zlen s); [|lia]. intros ->. destruct (get_ok s (zlen s - 1) ltac:(lia)) as (d & Hd). apply (Hs d Hd). now apply Hl.
  - apply N_if; intros E1; [apply N_ret; lia|]. apply N_if; intros E2; [apply N_fail|]. destruct args as [|[sg b v| | |] rest]; try apply N_fail. destruct (any_to_int true v); [apply N_ret; lia|apply N_fail].
Qed.
Lemma N_as_option {A} (m : M A) P : N m P -> N (as_option m) (fun r => match r with Some a => P a | None => True end).
Proof. intros H. unfold as_option. apply N_catch; [eapply N_bind; [exact H|intros a Ha; now apply N_ret]|intros; now apply N_ret]. Qed.
Definition tame (s : list Z) : Prop := forall c, In c s -> ~ In c (FmtSpec.tx "AaFfEeGg").
Lemma get_in (s : list Z) i c : get s i = Ok c -> In c s.
Proof. unfold get. destruct (i <? 0); [discriminate|]. destruct (nth_error s (Z.to_nat i)) eqn:E; [|discriminate]. intros [= <-]. now apply nth_error_In in E. Qed.
Lemma N_directive s i args : solid s -> tame s -> 0 <= i < zlen s -> N (directive s i args) (fun r => let '(j, _, _) := r in i <= j < zlen s).
Proof.
  intros Hs Ht Hi. unfold directive. eapply N_bind; [apply N_change|]. intros _ _. eapply N_bind; [apply N_flag_eval; [lia|unfold zlen; lia]|]. intros [[i1 g]|] Hi1; [|apply N_report]. eapply N_bind; [apply N_change|]. intros _ _.
  eapply N_bind; [apply N_as_option, N_parse; [exact Hs|lia]|]. intros [[[w i2] args1]|] Hi2; [|apply N_report]. eapply N_bind; [apply N_read; lia|]. intros c Hc. eapply N_bind with (P := any); [apply N_if; intros _; [apply N_change|apply N_ret0]|]. intros _ _. eapply N_bind; [apply N_look|]. intros f _. eapply N_bind; [apply N_put|]. intros _ _.
  eapply N_bind with (P := fun r => match r with Some (j, d, _) => i2 <= j < zlen s /\ In d s | None => True end).
  - apply N_if; intros E; [|apply N_ret; split; [lia|now apply get_in in Hc]]. eapply N_bind; [apply N_change|]. intros _ _. apply N_if; intros El; [now apply N_ret|]. eapply N_bind; [apply N_as_option, N_parse; [exact Hs|lia]|]. intros [[[p i3] args2]|] Hi3; [|now apply N_ret]. eapply N_bind; [apply N_look|]. intros f1 _. eapply N_bind; [apply N_put|]. intros _ _. eapply N_bind; [apply N_read; lia|]. intros d Hd. apply N_ret. split; [lia|now apply get_in in Hd].
  - intros [[[i3 d] args2]|] Hd; [|apply N_report]. destruct Hd as [Hi3 Hd]. destruct args2 as [|a args2].
    + eapply N_bind; [apply N_first_err|]. intros _ _. eapply N_bind; [apply N_out_substr|]. intros x _. apply N_ret. lia.
    + eapply N_bind; [apply N_conversion, Ht, Hd|]. intros x _. apply N_ret. lia.
Qed.
Lemma N_loop : forall k s i args total, solid s -> tame s -> 0 <= i <= zlen s -> zlen s - i < Z.of_nat k -> N (loop k s i args total) any.
Proof.
  induction k as [|k IH]; intros s i args total Hs Ht Hi Hk; [lia|]. cbn [loop]. apply N_if; intros E.
  - eapply N_bind; [apply N_read; lia|]. intros c Hc. apply N_if; intros Ec; [eapply N_bind; [apply N_out|]; intros x _; apply IH; auto; lia|]. apply N_if; intros E2; [apply N_report0|]. eapply N_bind; [apply N_read; lia|]. intros d Hd. apply N_if; intros Ed; [eapply N_bind; [apply N_out|]; intros x _; apply IH; auto; lia|].
    eapply N_bind; [apply N_directive; [exact Hs|exact Ht|lia]|]. intros [[j args1] x] Hj. apply IH; auto; lia.
  - eapply N_bind; [apply N_look|]. intros f _. destruct (first f); [apply N_fail|apply N_ret0].
Qed.
Lemma printf_safe s args : solid s -> tame s -> snd (printf s args) <> Stuck.
Proof.
  intros Hs Ht. unfold printf, vprintf. assert (H : N (f <- look ;; put (with_first None f) ;;; loop (S (length s)) s 0 args 0) any). { eapply N_bind; [apply N_look|]. intros f _. eapply N_bind; [apply N_put|]. intros _ _. apply N_loop; auto; unfold zlen; lia. }
  specialize (H None fresh []). destruct ((f <- look ;; put (with_first None f) ;;; loop (S (length s)) s 0 args 0) None fresh []) as [[f o] [x|e|]]; [discriminate|discriminate|elim H].
Qed.
