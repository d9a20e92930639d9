(** Every scanning function of the lexer stays inside the buffer. *)
From Coq Require Import ZArith Bool List Lia ZifyBool.
From Verif Require Import Mach LexModel LexSpec LexProofs.
Import ListNotations.
Open Scope Z_scope.

Definition wp {A} (m : Res A) (Q : A -> Prop) : Prop := exists a, m = Ok a /\ Q a.
Lemma wp_ret {A} (a : A) (Q : A -> Prop) : Q a -> wp (Ok a) Q. Proof. exists a. auto. Qed.
Lemma wp_bind {A B} (m : Res A) (k : A -> Res B) (P : A -> Prop) Q : wp m P -> (forall a, P a -> wp (k a) Q) -> wp (bind m k) Q.
Proof. intros (a & -> & Ha) H. exact (H a Ha). Qed.
Lemma wp_mono {A} (m : Res A) (P Q : A -> Prop) : wp m P -> (forall a, P a -> Q a) -> wp m Q.
Proof. intros (a & -> & Ha) H. exists a. auto. Qed.


Lemma live_suffix s r : live (s ++ r) -> r <> [] -> live r.
Proof.
  intros (t & E & F) Hr. destruct (exists_last Hr) as (r' & z & ->). rewrite app_assoc in E. apply app_inj_tail in E. destruct E as [<- ->].
  exists r'. split; [reflexivity|]. apply Forall_app in F. apply F.
Qed.
Lemma live_prefix s r : live (s ++ r) -> r <> [] -> Forall src_byte s.
Proof.
  intros (t & E & F) Hr. destruct (exists_last Hr) as (r' & z & ->). rewrite app_assoc in E. apply app_inj_tail in E. destruct E as [<- ->].
  apply Forall_app in F. apply F.
Qed.

Notation len c := (length (c_rest c)).

Section Safe.
Variable c0 : cursor.
Hypothesis L0 : live (c_rest c0).
Hypothesis H0 : hi_ok (c_rest c0).
Hypothesis Z0 : zlen (c_rest c0) <= 2147483647.

(** [E c]: c is reached from [c0]; [G c]: and the NUL is still ahead. *)
Definition E (c : cursor) : Prop := exists s, c_rest c0 = s ++ c_rest c /\ c_prev c = rev s ++ c_prev c0 /\ c_row c = c_row c0 + newlines s.
Definition G (c : cursor) : Prop := E c /\ c_rest c <> [].
Definition Adv (c : cursor) (a : Z) (c' : cursor) : Prop := c_rest c = a :: c_rest c' /\ c_prev c' = a :: c_prev c /\ c_row c' = c_row c + newlines [a].
Definition Head (c : cursor) (a : Z) : Prop := (exists r, c_rest c = a :: r) /\ (a = 0 \/ src_byte a).

Lemma G_E c : G c -> E c. Proof. intros [H _]. exact H. Qed.
Lemma G_live c : G c -> live (c_rest c).
Proof. intros ((s & E1 & _) & N). rewrite E1 in L0. exact (live_suffix _ _ L0 N). Qed.
Lemma G0 : G c0.
Proof. split; [|intros E1; rewrite E1 in L0; exact (live_nil L0)]. exists []. change (newlines []) with 0. repeat split; cbn; lia. Qed.
Lemma Adv_E c a c' : E c -> Adv c a c' -> E c'.
Proof.
  intros (s & E1 & E2 & E3) (A1 & A2 & A3). exists (s ++ [a]). rewrite E1, A1, <- app_assoc. split; [reflexivity|].
  rewrite rev_app_distr, newlines_app, A2, A3, E2, E3. cbn [rev app]. split; [reflexivity|lia].
Qed.
Lemma Adv_G c a c' : G c -> Adv c a c' -> a <> 0 -> G c'.
Proof.
  intros Hc A Ha. pose proof (G_live _ Hc) as Lc. split; [exact (Adv_E _ _ _ (G_E _ Hc) A)|]. intros En. destruct A as (A1 & _). rewrite A1, En in Lc.
  destruct (live_cons _ _ Lc Ha) as [_ Hn]. exact (live_nil Hn).
Qed.
Lemma Adv_len c a c' : Adv c a c' -> (len c = S (len c'))%nat.
Proof. intros (A1 & _). rewrite A1. reflexivity. Qed.
Lemma Adv_Head c a c' : G c -> Adv c a c' -> Head c a.
Proof. intros Hc (A1 & _). split; [eexists; exact A1|]. pose proof (G_live _ Hc) as Lc. rewrite A1 in Lc. exact (live_pos _ _ Lc). Qed.
Lemma G_len c : G c -> (len c <= len c0)%nat.
Proof. intros ((s & E1 & _) & _). rewrite E1, app_length. lia. Qed.
Lemma Adv_back c a c' : Adv c a c' -> backtrack c' = Ok c.
Proof.
  intros (A1 & A2 & A3). unfold backtrack. rewrite A2, <- A1. destruct c as [p r k]. cbn in *. rewrite A3. rewrite newlines_cons, newlines_nil. destruct (a =? 10); do 2 f_equal; lia.
Qed.

Lemma wp_peek {B} c (k : Z -> Res B) Q : G c -> (forall a, Head c a -> wp (k a) Q) -> wp (bind (peek c) k) Q.
Proof.
  intros Hc Hk. pose proof (G_live _ Hc) as Lc. destruct Hc as [_ N]. destruct c as [p [|a r] w]; [exfalso; apply N; reflexivity|].
  rewrite peek_cons. cbn [bind]. apply Hk. split; [eexists; reflexivity|]. exact (live_pos _ _ Lc).
Qed.
Lemma Head_Adv c a : Head c a -> exists c', next c = Ok c' /\ Adv c a c'.
Proof.
  intros ((r & Hr) & _). destruct c as [p l w]. cbn in Hr. subst l. exists (Cur (a :: p) r (w + newlines [a])).
  split; [apply next_cons|]. unfold Adv. cbn. auto.
Qed.
Lemma wp_next {B} c a (k : cursor -> Res B) Q : G c -> Head c a -> (forall c', E c' -> (a <> 0 -> G c') -> Adv c a c' -> wp (k c') Q) -> wp (bind (next c) k) Q.
Proof.
  intros Hc Hh Hk. destruct (Head_Adv _ _ Hh) as (c' & -> & A). cbn [bind]. apply Hk; [exact (Adv_E _ _ _ (G_E _ Hc) A)|intros Ha; exact (Adv_G _ _ _ Hc A Ha)|exact A].
Qed.
Lemma wp_peekn1 {B} c a (k : Z -> Res B) Q : G c -> Head c a -> a <> 0 -> (forall c' b, Adv c a c' -> G c' -> Head c' b -> wp (k b) Q) -> wp (bind (peekn c 1) k) Q.
Proof.
  intros Hc Hh Ha Hk. destruct (Head_Adv _ _ Hh) as (c' & _ & A). pose proof (Adv_G _ _ _ Hc A Ha) as G'.
  pose proof (G_live _ G') as Lc. destruct G' as [Ec N]. destruct c' as [p [|b r] w]; [exfalso; apply N; reflexivity|].
  unfold peekn. rewrite (proj1 A). cbn. apply (Hk _ b A); [split; assumption|]. split; [eexists; reflexivity|]. exact (live_pos _ _ Lc).
Qed.
Lemma Head_Adv2 c a b c' : Head c a -> Adv c a c' -> Head c' b -> exists c'', skip 2 c = Ok c'' /\ Adv c' b c''.
Proof.
  intros Ha A Hb. destruct (Head_Adv _ _ Ha) as (d & E1 & A1). assert (d = c') as ->.
  { destruct c, d, c'. destruct A as (B1 & B2 & B3), A1 as (D1 & D2 & D3). cbn in *. f_equal; congruence. }
  destruct (Head_Adv _ _ Hb) as (e & E2 & A2). exists e. cbn [skip]. rewrite E1. cbn [bind]. rewrite E2. auto.
Qed.
Lemma wp_matchc {B} c x (k : bool * cursor -> Res B) Q : G c -> x <> 0 ->
  (forall c', G c' -> Adv c x c' -> wp (k (true, c')) Q) -> (forall a, Head c a -> a <> x -> wp (k (false, c)) Q) -> wp (bind (matchc c x) k) Q.
Proof.
  intros Hc Hx H1 H2. pose proof (G_live _ Hc) as Lc. unfold matchc. destruct c as [p [|a r] w]; [destruct Hc as [_ N]; exfalso; apply N; reflexivity|].
  rewrite peek_cons. cbn [bind]. assert (Head (Cur p (a :: r) w) a) as Hh by (split; [eexists; reflexivity|exact (live_pos _ _ Lc)]).
  destruct (Z.eqb_spec a x) as [->|].
  - destruct (Head_Adv _ _ Hh) as (c' & -> & A). cbn [bind]. apply H1; [exact (Adv_G _ _ _ Hc A Hx)|exact A].
  - cbn [bind]. apply (H2 a); assumption.
Qed.
Lemma wp_while fuel P c : G c -> P 0 = false -> (len c < fuel)%nat ->
  wp (while_next fuel P c) (fun c' => G c' /\ (len c' <= len c)%nat /\ (exists a, Head c' a /\ P a = false) /\
    exists s, c_rest c = s ++ c_rest c' /\ Forall (fun a => P a = true) s).
Proof.
  intros Hc P0 Hf. destruct (live_split P _ (G_live _ Hc) P0) as (s & a & r & Es & Fs & Ha & Bs & Lr).
  destruct c as [p l w]. cbn [c_rest] in *. subst l. rewrite app_length in Hf. cbn in Hf.
  exists (Cur (rev s ++ p) (a :: r) (w + newlines s)). split.
  - apply while_next_app; [lia|exact Fs|]. exists a, r. auto.
  - cbn [c_rest]. rewrite app_length. split; [|split; [cbn; lia|split; [exists a; split; [split; [eexists; reflexivity|exact (live_pos _ _ Lr)]|exact Ha]|exists s; split; [reflexivity|exact Fs]]]].
    destruct Hc as [(s0 & E1 & E2 & E3) _]. cbn in E1, E2, E3. split; [|discriminate]. exists (s0 ++ s). cbn. rewrite E1, rev_app_distr, <- !app_assoc, newlines_app, E2, E3. repeat split. lia.
Qed.

Definition Le (c : cursor) (c' : cursor) : Prop := G c' /\ (len c' <= len c)%nat.
Definition NotEof (t : tok) : Prop := match t with TEof => False | _ => True end.
Definition S1 (c : cursor) (s : scan) : Prop := match s with Tok t c' => NotEof t /\ Le c c' | Err c' => E c' end.

Lemma Adv_Le c a c' d : Adv c a c' -> Le c' d -> Le c d.
Proof. intros A [Hg Hl]. split; [exact Hg|]. rewrite (Adv_len _ _ _ A). lia. Qed.
Lemma Adv_S1 c a c' s : Adv c a c' -> S1 c' s -> S1 c s.
Proof. intros A. destruct s; cbn; [intros [? ?]; split; [assumption|exact (Adv_Le _ _ _ _ A ltac:(eassumption))]|auto]. Qed.
Lemma Le_trans a b c : Le a b -> Le b c -> Le a c.
Proof. intros [_ ?] [? ?]. split; [assumption|lia]. Qed.
Lemma Le_refl c : G c -> Le c c. Proof. split; [assumption|lia]. Qed.
Lemma Le_S1 a b s : Le a b -> S1 b s -> S1 a s.
Proof. destruct s; cbn; [intros ? [? ?]; split; [assumption|eapply Le_trans; eassumption]|auto]. Qed.

Ltac unf := unfold is_white, is_base64, is_alphanum_, is_letter, is_hex, is_lower, is_upper, is_digit, is_oct, is_bin, is_us in *.
Ltac nz := first [assumption | solve [unf; lia]].
(* use [a <> 0] to know that the NUL is ahead *)
Ltac useG := repeat match goal with
  | H : ?a <> 0 -> G ?c |- _ => first [ let N := fresh in assert (N : a <> 0) by nz; specialize (H N); clear N | clear H ]
  | A : Adv ?c ?a ?d |- _ => lazymatch goal with _ : len c = S (len d) |- _ => fail | _ => pose proof (Adv_len _ _ _ A) end
  end.
Ltac wpeek := apply wp_peek; [assumption|]; let a := fresh "a" in let H := fresh "Hh" in intros a H.
Ltac wnext := match goal with
  | |- wp (bind (next ?c) _) _ => eapply wp_next; [assumption|eassumption|]; let d := fresh "c" in intros d ?E ?Gx ?A
  | |- wp (next ?c) _ => let H := fresh in assert (H : bind (next c) (fun x => Ok x) = next c) by (destruct (next c); reflexivity); rewrite <- H; clear H; eapply wp_next; [assumption|eassumption|]; let d := fresh "c" in intros d ?E ?Gx ?A
  end.
Ltac wdest := match goal with |- wp (if ?b then _ else _) _ => let H := fresh "B" in destruct b eqn:H end.
Ltac fin := apply wp_ret; cbn [S1 NotEof fst snd]; unfold Le; repeat first [assumption | apply G_E; assumption | lia | match goal with |- _ /\ _ => split | |- True => exact I end].

Lemma line_comment_wp fuel c : G c -> (len c < fuel)%nat -> wp (line_comment fuel c) (Le c).
Proof.
  intros Hc Hf. unfold line_comment. eapply wp_bind; [apply wp_while; [exact Hc|reflexivity|exact Hf]|].
  intros d (Gd & Ld & _). wpeek. wdest; [wnext; useG|]; fin.
Qed.
Lemma block_comment_wp : forall fuel c n, G c -> (len c < fuel)%nat -> 1 <= n -> n + Z.of_nat (len c) <= 2147483647 -> wp (block_comment fuel n c) (Le c).
Proof.
  induction fuel as [|f IH]; intros c n Hc Hf Hn Hz; [lia|]. cbn [block_comment]. wpeek. wdest.
  - eapply wp_peekn1; [exact Hc|exact Hh|lia|]. intros c' b A G' Hb. useG. wdest.
    + destruct (Head_Adv2 _ _ _ _ Hh A Hb) as (c'' & -> & A'). cbn [bind]. assert (G c'') by (apply (Adv_G _ _ _ G' A'); lia). useG. wdest; [fin|].
      eapply wp_mono; [apply IH; try assumption; lia|]. intros d [? ?]. split; [assumption|lia].
    + wnext. useG. eapply wp_mono; [apply IH; try assumption; lia|]. intros d [? ?]. split; [assumption|lia].
  - wdest.
    + eapply wp_peekn1; [exact Hc|exact Hh|lia|]. intros c' b A G' Hb. useG. wdest.
      * destruct (Head_Adv2 _ _ _ _ Hh A Hb) as (c'' & -> & A'). cbn [bind]. assert (G c'') by (apply (Adv_G _ _ _ G' A'); lia). useG. wdest; [lia|].
        eapply wp_mono; [apply IH; try assumption; lia|]. intros d [? ?]. split; [assumption|lia].
      * wnext. useG. eapply wp_mono; [apply IH; try assumption; lia|]. intros d [? ?]. split; [assumption|lia].
    + wdest; [fin|]. wnext. useG. eapply wp_mono; [apply IH; try assumption; lia|]. intros d [? ?]. split; [assumption|lia].
Qed.
Lemma Le_of c (P : cursor -> Prop) d : (G d /\ (len d <= len c)%nat) -> Le c d. Proof. auto. Qed.
Lemma Head_eq c a b : Head c a -> Head c b -> a = b.
Proof. intros ((x & Hx) & _) ((y & Hy) & _). congruence. Qed.
Lemma skip_whitespace_wp : forall fuel inner contracts c, G c -> (len c < fuel)%nat -> (len c < inner)%nat ->
  wp (skip_whitespace fuel inner contracts c) (fun d => Le c d /\ (contracts = false -> ~ Head d 10)).
Proof.
  pose proof Z0 as Z0'. unfold zlen in Z0'.
  induction fuel as [|f IH]; intros inner m c Hc Hf Hi; [lia|]. pose proof (G_len _ Hc). cbn [skip_whitespace]. wpeek. wdest.
  - destruct m; [fin; discriminate|]. eapply wp_peekn1; [exact Hc|exact Hh|lia|]. intros c' b A G' Hb. useG. wdest.
    + destruct (Head_Adv2 _ _ _ _ Hh A Hb) as (c'' & -> & A'). cbn [bind]. assert (G c'') by (apply (Adv_G _ _ _ G' A'); lia). useG.
      eapply wp_bind; [apply line_comment_wp; [assumption|lia]|]. intros d [? ?]. eapply wp_mono; [apply IH; try assumption; lia|]. intros e [[? ?] ?]. split; [split; [assumption|lia]|assumption].
    + wdest; [|fin; intros _ Hx; pose proof (Head_eq _ _ _ Hh Hx); lia]. destruct (Head_Adv2 _ _ _ _ Hh A Hb) as (c'' & -> & A'). cbn [bind]. assert (G c'') by (apply (Adv_G _ _ _ G' A'); lia). useG.
      eapply wp_bind; [apply block_comment_wp; [assumption|lia|lia|lia]|]. intros d [? ?]. eapply wp_mono; [apply IH; try assumption; lia|]. intros e [[? ?] ?]. split; [split; [assumption|lia]|assumption].
  - wdest; [destruct m; [fin; discriminate|]|wdest; [|wdest; [destruct Hh as [_ [->|[? ?]]]; lia|fin; intros _ Hx; pose proof (Head_eq _ _ _ Hh Hx); lia]]].
    all: wnext; useG; eapply wp_mono; [apply IH; try assumption; lia|]; intros d [[? ?] ?]; split; [split; [assumption|lia]|assumption].
Qed.

(** *** Identifiers *)
Lemma ident_loop_wp : forall fuel ty c, G c -> (len c < fuel)%nat ->
  wp (ident_loop fuel ty c) (fun r => Le c (snd r) /\ ((exists a, Head c a /\ is_letter a = true) -> (len (snd r) < len c)%nat)).
Proof.
  induction fuel as [|f IH]; intros ty c Hc Hf; [lia|]. cbn [ident_loop]. wpeek.
  assert (Hun : forall P : Z -> bool, (exists b, Head c b /\ P b = true) -> P a = true).
  { intros P (b & ((r & Hr) & _) & Hb). destruct Hh as ((r' & Hr') & _). congruence. }
  wdest; [|wdest; [|wdest; [destruct ty|wdest]]].
  all: try (wnext; useG; eapply wp_mono; [apply IH; try assumption; lia|]; intros [o d] [[? ?] _]; cbn [snd] in *; split; [split; [assumption|lia]|lia]).
  all: fin; intros Hx; apply Hun in Hx; unf; lia.
Qed.
Lemma scan_ident_wp fuel start prefix c : G c -> (len c < fuel)%nat ->
  wp (scan_ident fuel start prefix c) (fun s => S1 c s /\ ((exists a, Head c a /\ (is_letter a || is_us a) = true) -> match s with Tok _ d => (len d < len c)%nat | Err _ => True end)).
Proof.
  intros Hc Hf. unfold scan_ident. eapply wp_bind; [apply wp_while; [exact Hc|reflexivity|exact Hf]|].
  intros d (Gd & Ld & Hd & s & Es & Fs). eapply wp_bind; [apply ident_loop_wp; [exact Gd|lia]|]. intros [ty e] [[Ge Le1] Hs]. cbn [snd] in *.
  assert (Strict : (exists a, Head c a /\ (is_letter a || is_us a) = true) -> (len e < len c)%nat).
  { intros (a & ((r & Hr) & Ha) & La). destruct s as [|x s].
    - cbn in Es. rewrite Hr in Es. destruct Hd as (b & ((r' & Hr') & _) & Hb). rewrite Hr' in Es. injection Es as <- _.
      rewrite Hr. cbn [length]. assert (len e < len d)%nat; [apply Hs; exists a; split; [split; [eexists; exact Hr'|exact Ha]|unf; lia]|]. rewrite Hr in Ld. cbn in Ld. lia.
    - assert (len c = S (length s) + len d)%nat by (rewrite Es, app_length; reflexivity). lia. }
  destruct ty as [[k|]|]; [fin; apply Strict| |fin].
  wdest; fin.
Qed.

(** *** Numbers *)
Lemma Past_of c : G c -> (len c < len c0)%nat -> exists d a, G d /\ Adv d a c.
Proof.
  intros ((s & E1 & E2 & E3) & N) Hl. assert (Hs : s <> []) by (intros ->; cbn in E1; rewrite E1 in Hl; lia).
  destruct (exists_last Hs) as (s' & a & ->). exists (Cur (rev s' ++ c_prev c0) (a :: c_rest c) (c_row c - newlines [a])), a.
  rewrite rev_app_distr in E2. rewrite newlines_app in E3. cbn [rev app] in E2. split.
  - split; [|discriminate]. exists s'. cbn. rewrite <- app_assoc in E1. split; [exact E1|]. split; [reflexivity|]. cbn in E3. lia.
  - split; [reflexivity|]. split; [exact E2|]. cbn. lia.
Qed.
Lemma wp_prevc {B} c (k : Z -> Res B) Q : G c -> (len c < len c0)%nat -> (forall d a, G d -> Adv d a c -> wp (k a) Q) -> wp (bind (prevc c) k) Q.
Proof.
  intros Hc Hl Hk. destruct (Past_of _ Hc Hl) as (d & a & Gd & A). unfold prevc. destruct A as (A1 & A2 & A3). rewrite A2. cbn. apply (Hk d); [exact Gd|repeat split; assumption].
Qed.
Lemma wp_back {B} c d a (k : cursor -> Res B) Q : Adv d a c -> wp (k d) Q -> wp (bind (backtrack c) k) Q.
Proof. intros A Hk. rewrite (Adv_back _ _ _ A). exact Hk. Qed.

Lemma next_no_multiple_wp c a : G c -> Head c a -> a <> 0 -> wp (next_no_multiple c) (fun r => G (snd r) /\ Adv c a (snd r)).
Proof.
  intros Hc Hh Ha. unfold next_no_multiple. wnext. useG. wpeek. pose proof (G_len _ Hc).
  apply wp_prevc; [assumption|lia|]. intros d b Gd Ad. fin.
Qed.
Lemma digits_loop_wp P : P 0 = false -> forall fuel c, G c -> (len c < fuel)%nat ->
  wp (digits_loop fuel P c) (fun r => Le c (snd r) /\ ((exists a, Head c a /\ P a = true) -> (len (snd r) < len c)%nat)).
Proof.
  intros P0. induction fuel as [|f IH]; intros c Hc Hf; [lia|]. cbn [digits_loop]. wpeek.
  assert (a = 0 -> (P a || is_us a) = false) as Hz by (intros ->; rewrite P0; reflexivity).
  assert (Hun : (exists b, Head c b /\ P b = true) -> P a = true).
  { intros (b & ((r & Hr) & _) & Hb). destruct Hh as ((r' & Hr') & _). congruence. }
  wdest.
  - assert (a <> 0) as Ha by (intros Ea; specialize (Hz Ea); congruence). eapply wp_bind; [apply (next_no_multiple_wp c a); assumption|]. intros [ok d] [Gd A]. cbn [snd] in *. useG.
    destruct ok; [|fin]. eapply wp_mono; [apply IH; [assumption|lia]|]. intros [ok e] [[? ?] _]. cbn [snd] in *. split; [split; [assumption|lia]|lia].
  - fin. intros Hx. apply Hun in Hx. rewrite Hx in B. discriminate.
Qed.

Definition S2 (c : cursor) (r : bool * bool * cursor) : Prop := let '(ok, _, d) := r in if ok : bool then Le c d else E d.
Ltac fin ::= apply wp_ret; cbn [S1 NotEof S2 fst snd]; unfold Le; repeat first [assumption | apply G_E; assumption | lia | match goal with |- _ /\ _ => split | |- True => exact I end].
Lemma number_suffix_wp fuel isf c : G c -> (len c < len c0)%nat -> (len c < fuel)%nat -> wp (number_suffix fuel isf c) (S2 c).
Proof.
  intros Hc Hp Hf. unfold number_suffix. apply wp_prevc; [assumption|assumption|]. intros d p Gd A. wdest.
  { eapply wp_back; [exact A|]. fin. }
  wpeek. wdest; [fin|]. cbv zeta.
  assert (Fin : forall (isf : bool) (x : Z) (e : cursor), G e -> Head e x -> (len e <= len c)%nat ->
     wp (if is_alphanum_ x then (e <- next e ;; Ok (false, isf, e)) else Ok (true, isf, e)) (S2 c)).
  { intros isf' x e Ge He Hl. wdest; [wnext|]; fin. }
  assert (a <> 0) as Ha by (unf; lia).
  wdest; [wnext; useG; wdest; [fin|wpeek; apply Fin; [assumption|assumption|lia]]|].
  wdest.
  { wdest; [fin|]. wnext. useG. wpeek. wdest.
    - assert (a0 <> 0) by (intros ->; discriminate). wnext. useG. wpeek. apply Fin; [assumption|assumption|lia].
    - eapply wp_bind; [apply wp_while; [assumption|reflexivity|lia]|]. intros e (Ge & Le1 & _). wpeek. apply Fin; [assumption|assumption|lia]. }
  wdest.
  { wdest; [fin|]. wnext. useG. eapply wp_bind; [apply wp_while; [assumption|reflexivity|lia]|]. intros e (Ge & Le1 & _). wpeek. apply Fin; [assumption|assumption|lia]. }
  wdest.
  { wnext. useG. eapply wp_bind; [apply wp_while; [assumption|reflexivity|lia]|]. intros e (Ge & Le1 & _). wpeek. apply Fin; [assumption|assumption|lia]. }
  apply Fin; [assumption|assumption|lia].
Qed.
Lemma finish_number_wp fuel isf c : G c -> (len c < len c0)%nat -> (len c < fuel)%nat -> wp (finish_number fuel isf c) (S1 c).
Proof.
  intros. unfold finish_number. eapply wp_bind; [apply number_suffix_wp; assumption|]. intros [[ok isf'] d] Hd. cbn [S2] in Hd. destruct ok; [destruct isf'; destruct Hd; fin|fin].
Qed.
Lemma scan_pow2_wp fuel P c : P 0 = false -> G c -> (len c < fuel)%nat -> wp (scan_pow2 fuel P c) (S1 c).
Proof.
  intros P0 Hc Hf. unfold scan_pow2. pose proof (G_len _ Hc). wpeek. wdest; [fin|]. assert (a <> 0) as Ha by (intros ->; rewrite P0 in B; discriminate).
  wnext. useG. eapply wp_bind; [apply digits_loop_wp; [exact P0|assumption|lia]|]. intros [ok d] [[Gd Ld] _]. cbn [snd] in *.
  destruct ok; cbn [negb]; [|fin]. wpeek. wdest; [fin|].
  eapply wp_bind; [apply number_suffix_wp; [assumption|lia|lia]|]. intros [[ok isf] e] He. cbn [S2] in He. destruct ok; cbn [negb]; [|fin].
  destruct He as [? ?]. destruct isf; fin.
Qed.
Lemma scan_exponent_wp fuel c a : G c -> Head c a -> a <> 0 -> (len c < fuel)%nat ->
  wp (scan_exponent fuel c) (fun r => let '(ok, d) := r in if ok : bool then Le c d else E d).
Proof.
  intros Hc Hh Ha Hf. unfold scan_exponent. wnext. useG. wpeek. wnext.
  eapply (wp_bind _ _ (fun r => E (snd r) /\ (len (snd r) < len c1)%nat /\ (fst r <> 0 -> G (snd r)) /\ exists d, G d /\ Adv d (fst r) (snd r))).
  { wdest.
    - assert (a0 <> 0) by lia. useG. wpeek. wnext. pose proof (Adv_len _ _ _ A1). fin. eauto.
    - pose proof (Adv_len _ _ _ A0). fin. eauto. }
  intros [b d] (Ed & Ld & Gd & d' & Gd' & Ad). cbn [fst snd] in *. wdest.
  - wdest; [|fin]. eapply wp_back; [exact Ad|]. fin.
  - assert (b <> 0) as Hb by (unf; lia). specialize (Gd Hb). eapply wp_bind; [apply wp_while; [assumption|reflexivity|lia]|]. intros e (Ge & Le1 & _). fin.
Qed.
Lemma dot_part_wp fuel P hex c dot : P 0 = false -> (len c < len c0)%nat ->
  G c -> (len c < fuel)%nat -> (dot = true -> Head c 46) ->
  wp (if dot : bool then
      c <- next c ;; a <- peek c ;;
      if a =? 95 then Ok (false, c) else
      if hex : bool then (c <- (if P a then next c else Ok c) ;; digits_loop fuel P c) else digits_loop fuel P c
    else Ok (true, c)) (fun r => Le c (snd r)).
Proof.
  intros P0 Hp Hc Hf Hd. destruct dot; [|fin]. specialize (Hd eq_refl). wnext. useG. wpeek. wdest; [fin|].
  destruct hex.
  - eapply (wp_bind _ _ (Le c1)).
    + wdest; [|fin]. assert (a <> 0) by (intros ->; congruence). wnext. useG. fin.
    + intros d [Gd Ld]. eapply wp_mono; [apply digits_loop_wp; [exact P0|assumption|lia]|]. intros [ok e] [[? ?] _]. cbn [snd] in *. split; [assumption|lia].
  - eapply wp_mono; [apply digits_loop_wp; [exact P0|assumption|lia]|]. intros [ok e] [[? ?] _]. cbn [snd] in *. split; [assumption|lia].
Qed.
Lemma dot_wp c a : G c -> Head c a -> wp (if a =? 46 then (b <- peekn c 1 ;; Ok (negb (b =? 46))) else Ok false) (fun d => d = true -> Head c 46).
Proof.
  intros Hc Hh. wdest; [|apply wp_ret; discriminate]. eapply wp_peekn1; [exact Hc|exact Hh|lia|]. intros c' b _ _ _. apply wp_ret. intros _.
  assert (a = 46) as <- by lia. exact Hh.
Qed.
Lemma number_end_wp fuel dot c x y : x <> 0 -> y <> 0 -> G c -> (len c < len c0)%nat -> (len c < fuel)%nat ->
  wp (a <- peek c ;;
  if (a =? x) || (a =? y) then
    '(ok, c) <- scan_exponent fuel c ;; if ok : bool then finish_number fuel true c else Ok (Err c)
  else finish_number fuel dot c) (S1 c).
Proof.
  intros Hx Hy Hc Hp Hf. wpeek. wdest.
  - eapply wp_bind; [eapply scan_exponent_wp; [assumption|exact Hh|lia|lia]|]. intros [ok d] Hd. destruct ok; [|fin]. destruct Hd as [Gd Ld].
    eapply wp_mono; [apply finish_number_wp; [assumption|lia|lia]|]. intros s. apply Le_S1. split; assumption.
  - apply finish_number_wp; assumption.
Qed.
Lemma scan_hex_wp fuel c : G c -> (len c < fuel)%nat -> wp (scan_hex fuel c) (S1 c).
Proof.
  intros Hc Hf. unfold scan_hex. pose proof (G_len _ Hc). wpeek. wdest; [fin|]. assert (a <> 0) as Ha by (unf; lia).
  wnext. useG. eapply wp_bind; [apply digits_loop_wp; [reflexivity|assumption|lia]|]. intros [ok d] [[Gd Ld] _]. cbn [snd] in *.
  destruct ok; cbn [negb]; [|fin]. wpeek. eapply wp_bind; [apply dot_wp; assumption|]. intros dot Hdot.
  eapply wp_bind; [apply (dot_part_wp fuel is_hex true d dot); [reflexivity|lia|assumption|lia|assumption]|]. intros [ok e] [Ge Le1]. cbn [snd] in *.
  destruct ok; cbn [negb]; [|fin]. eapply wp_mono; [apply number_end_wp; [lia|lia|assumption|lia|lia]|]. intros s. apply Le_S1. split; [assumption|lia].
Qed.
Lemma scan_dec_wp fuel c : G c -> (len c < fuel)%nat -> (exists a, Head c a /\ is_digit a = true) -> wp (scan_dec fuel c) (fun s => S1 c s /\ match s with Tok _ d => (len d < len c)%nat | _ => True end).
Proof.
  intros Hc Hf Ha. unfold scan_dec. pose proof (G_len _ Hc).
  eapply wp_bind; [apply digits_loop_wp; [reflexivity|assumption|lia]|]. intros [ok d] [[Gd Ld] Hs]. cbn [snd] in *. specialize (Hs Ha).
  destruct ok; cbn [negb]; [|fin]. wpeek. eapply wp_bind; [apply dot_wp; assumption|]. intros dot Hdot.
  eapply wp_bind; [apply (dot_part_wp fuel is_digit false d dot); [reflexivity|lia|assumption|lia|assumption]|]. intros [ok e] [Ge Le1]. cbn [snd] in *.
  destruct ok; cbn [negb]; [|fin]. eapply wp_mono; [apply number_end_wp; [lia|lia|assumption|lia|lia]|]. intros [t g|g]; cbn [S1]; [|auto]. intros [? [? ?]]. split; [split; [assumption|split; [assumption|lia]]|lia].
Qed.
Lemma scan_digit_wp fuel c : G c -> (len c < fuel)%nat -> (exists a, Head c a /\ is_digit a = true) -> wp (scan_digit fuel c) (fun s => S1 c s /\ match s with Tok _ d => (len d < len c)%nat | _ => True end).
Proof.
  intros Hc Hf Hd. unfold scan_digit. wpeek. wdest; [|apply scan_dec_wp; assumption].
  eapply wp_peekn1; [exact Hc|exact Hh|lia|]. intros c' b A G' Hb. useG.
  assert (Two : forall f, b <> 0 -> (forall d, G d -> (len d < fuel)%nat -> wp (f d) (S1 d)) -> wp (c <- skip 2 c ;; f c) (fun s => S1 c s /\ match s with Tok _ d => (len d < len c)%nat | _ => True end)).
  { intros g Hb0 Hg. destruct (Head_Adv2 _ _ _ _ Hh A Hb) as (c'' & -> & A'). cbn [bind]. assert (G c'') by (apply (Adv_G _ _ _ G' A'); lia). useG.
    eapply wp_mono; [apply Hg; [assumption|lia]|]. intros [t e|e]; cbn [S1]; [|auto]. intros [? [? ?]]. split; [split; [assumption|split; [assumption|lia]]|lia]. }
  wdest; [apply Two; [lia|intros; apply scan_hex_wp; assumption]|].
  wdest; [apply Two; [lia|intros; apply scan_pow2_wp; [reflexivity|assumption|assumption]]|].
  wdest; [apply Two; [lia|intros; apply scan_pow2_wp; [reflexivity|assumption|assumption]]|].
  apply scan_dec_wp; assumption.
Qed.

(** *** Character literals *)
Definition Near (n : nat) (c : cursor) : Prop := Forall (fun a => a < 128) (firstn n (c_rest c)).
Lemma Near_Adv n c a c' : Near (S n) c -> Adv c a c' -> a < 128 /\ Near n c'.
Proof. intros N (A & _). unfold Near in *. rewrite A in N. cbn [firstn] in N. inversion N; auto. Qed.
Lemma Near_Head n c a : Near (S n) c -> Head c a -> a < 128.
Proof. intros N ((r & A) & _). unfold Near in *. rewrite A in N. cbn [firstn] in N. inversion N; auto. Qed.
Lemma Near_le n m c : (n <= m)%nat -> Near m c -> Near n c.
Proof. intros Hn N. unfold Near in *. rewrite <- (firstn_skipn n (firstn m (c_rest c))) in N. rewrite firstn_firstn, Nat.min_l in N by exact Hn. apply Forall_app in N. apply N. Qed.
Lemma Near_slash c c' : G c -> Adv c 92 c' -> Near 9 c'.
Proof. intros ((s & E1 & _) & _) (A & _). apply (H0 s). rewrite E1, A. reflexivity. Qed.
Lemma hex_val_pos a : 0 <= hex_val a -> is_hex a = true.
Proof. unfold hex_val. unf. repeat match goal with |- context [if ?b then _ else _] => destruct b eqn:? end; lia. Qed.
Lemma hex_literal_wp : forall n h c, G c -> Near n c -> wp (hex_literal n h c) (fun r => Le c (snd r)).
Proof.
  induction n as [|n IH]; intros h c Hc N; cbn [hex_literal]; [fin|]. wpeek. pose proof (Near_Head _ _ _ N Hh) as Ha.
  unfold nibble. replace (128 <=? a) with false by lia. cbn [bind]. wdest; [fin|].
  assert (a <> 0) by (intros ->; discriminate). wnext. useG. destruct (Near_Adv _ _ _ _ N A) as [_ N'].
  eapply wp_mono; [apply IH; assumption|]. intros [o d] [? ?]. cbn [snd] in *. split; [assumption|lia].
Qed.
Lemma utf8_tail_wp : forall n h c, G c -> wp (utf8_tail n h c) (fun r => Le c (snd r)).
Proof.
  induction n as [|n IH]; intros h c Hc; cbn [utf8_tail]; [fin|]. wpeek. wdest; [fin|].
  assert (a <> 0) by lia. wnext. useG. wdest; [fin|].
  eapply wp_mono; [apply IH; assumption|]. intros [o d] [? ?]. cbn [snd] in *. split; [assumption|lia].
Qed.
Lemma scan_utf8_wp a c : G c -> wp (scan_utf8 a c) (fun r => Le c (snd r)).
Proof. intros Hc. unfold scan_utf8. repeat wdest; try (apply utf8_tail_wp; assumption); fin. Qed.
Lemma char_loop_wp : forall fuel w b c, G c -> (len c < fuel)%nat -> wp (char_loop fuel w b c) (S1 c).
Proof.
  induction fuel as [|f IH]; intros w b c Hc Hf; [lia|]. cbn [char_loop].
  apply wp_matchc; [assumption|lia| |].
  { intros c' G' A. useG. fin. }
  intros a0 Hh0 Hq. wpeek. wnext. wdest; [fin|]. assert (a <> 0) by lia. useG. wdest; [fin|].
  assert (Rec : forall w b d, G d -> (len d <= len c1)%nat -> wp (char_loop f w b d) (S1 c)).
  { intros w' b' d Gd Ld. eapply wp_mono; [apply IH; [assumption|lia]|]. intros s. apply Le_S1. split; [assumption|lia]. }
  wdest.
  { wdest; [fin|]. eapply wp_bind; [apply scan_utf8_wp; assumption|]. intros [u d] [Gd Ld]. cbn [snd] in *. destruct u as [v|]; [|fin].
    apply wp_matchc; [assumption|lia| |].
    - intros c' G' A'. useG. fin.
    - intros x Hx Nx. wpeek. wdest; [apply Rec; assumption|].
      destruct (Past_of d Gd ltac:(pose proof (G_len _ Hc); lia)) as (d' & y & Gd' & Ad). eapply wp_back; [exact Ad|]. fin. }
  wdest; [fin|]. wdest; [|apply Rec; [assumption|lia]].
  assert (a = 92) as -> by lia. pose proof (Near_slash _ _ Hc A) as N. wpeek. cbv zeta.
  destruct (128 <=? a) eqn:B5; [wdest; [|discriminate]; wdest; [lia|fin]|]. wdest.
  { wdest; [|fin]. wnext. fin. }
  assert (a <> 0) as Ha by (intros ->; discriminate). wnext. useG. destruct (Near_Adv _ _ _ _ N A0) as [_ N'].
  wdest.
  { eapply wp_bind; [apply hex_literal_wp; [assumption|apply (Near_le _ 8); [lia|assumption]]|]. intros [h d] [Gd Ld]. cbn [snd] in *. destruct h; [|fin]. apply Rec; [assumption|lia]. }
  wdest; [|apply Rec; [assumption|lia]].
  wdest; [fin|]. eapply wp_bind; [apply hex_literal_wp; [assumption|apply (Near_le _ 8); [destruct (_ =? 85); lia|assumption]]|]. intros [h d] [Gd Ld]. cbn [snd] in *. destruct h; [|fin].
  apply wp_matchc; [assumption|lia| |].
  - intros c' G' A'. useG. fin.
  - intros x Hx Nx. wpeek. wdest; [apply Rec; [assumption|lia]|fin].
Qed.
Lemma scan_char_wp fuel c : G c -> (len c < fuel)%nat -> wp (scan_char fuel c) (S1 c).
Proof.
  intros Hc Hf. unfold scan_char. apply wp_matchc; [assumption|lia| |].
  - intros c' G' A'. fin.
  - intros x Hx Nx. apply char_loop_wp; assumption.
Qed.

(** *** Strings *)
(** Where [string_end] stops, on the rest of the text. *)
Inductive SE : list Z -> Z -> Prop :=
| SE_quote s : SE (34 :: s) 0
| SE_bad a s : a = 10 \/ a = 0 -> SE (a :: s) 1
| SE_slash_bad b s m : b = 10 \/ b = 0 -> SE (b :: s) m -> SE (92 :: b :: s) (1 + m)
| SE_slash b s m : b <> 10 -> b <> 0 -> SE s m -> SE (92 :: b :: s) (2 + m)
| SE_plain a s m : a <> 34 -> a <> 10 -> a <> 0 -> a <> 92 -> SE s m -> SE (a :: s) (1 + m).
Lemma get_at (u s : list Z) a i : i = zlen u -> get (u ++ a :: s) i = Ok a.
Proof. apply get_app. Qed.
Lemma string_end_SE : forall fuel s u, live s -> (length s < fuel)%nat -> exists m, SE s m /\ string_end fuel (u ++ s) (zlen u) = Ok (zlen u + m).
Proof.
  induction fuel as [|f IH]; intros s u Ls Hf; [lia|]. cbn [string_end].
  destruct s as [|a s]; [destruct (live_nil Ls)|]. rewrite get_app by reflexivity. cbn [bind]. cbn [length] in Hf.
  destruct (Z.eqb_spec a 34) as [->|N1]; [exists 0; split; [constructor|f_equal; lia]|].
  destruct ((a =? 10) || (a =? 0)) eqn:B1; [exists 1; split; [apply SE_bad; lia|reflexivity]|].
  destruct (live_cons _ _ Ls ltac:(lia)) as [Ha Lr].
  assert (Step1 : forall m, SE s m -> string_end f ((u ++ [a]) ++ s) (zlen (u ++ [a])) = Ok (zlen (u ++ [a]) + m) -> string_end f (u ++ a :: s) (zlen u + 1) = Ok (zlen u + (1 + m))).
  { intros m _ Hm. rewrite <- app_assoc in Hm. cbn [app] in Hm. rewrite zlen_app in Hm. change (zlen [a]) with 1 in Hm. rewrite Hm. f_equal. lia. }
  destruct (Z.eqb_spec a 92) as [->|N2].
  - destruct s as [|b s]; [destruct (live_nil Lr)|]. replace (u ++ 92 :: b :: s) with ((u ++ [92]) ++ b :: s) by (rewrite <- app_assoc; reflexivity).
    rewrite get_at by (rewrite zlen_app; reflexivity). cbn [bind].
    destruct ((b =? 10) || (b =? 0)) eqn:B2.
    + destruct (IH (b :: s) (u ++ [92]) Lr ltac:(cbn [length] in *; lia)) as (m & Hm & Em). exists (1 + m). split; [apply SE_slash_bad; [lia|exact Hm]|].
      rewrite <- app_assoc. cbn [app]. apply Step1; assumption.
    + destruct (live_cons _ _ Lr ltac:(lia)) as [_ Ls']. destruct (IH s (u ++ [92; b]) Ls' ltac:(cbn [length] in *; lia)) as (m & Hm & Em). exists (2 + m).
      split; [apply SE_slash; [lia|lia|exact Hm]|]. rewrite <- app_assoc in Em. rewrite <- app_assoc. cbn [app] in *. rewrite zlen_app in Em. change (zlen [92; b]) with 2 in Em.
      rewrite Em. f_equal. lia.
  - destruct (IH s (u ++ [a]) Lr ltac:(lia)) as (m & Hm & Em). exists (1 + m). split; [apply SE_plain; try assumption; lia|]. apply (Step1 m Hm Em).
Qed.
Lemma SE_nonneg s m : SE s m -> 0 <= m. Proof. induction 1; lia. Qed.
Lemma SE_zero s : SE s 0 -> exists r, s = 34 :: r.
Proof. intros H. remember 0 as z eqn:Hz. destruct H as [| |? ? ? ? H|? ? ? ? ? H|? ? ? ? ? ? ? H]; [eauto|lia|..]; apply SE_nonneg in H; lia. Qed.
Lemma SE_hex a s m : is_hex a = true -> SE (a :: s) m -> exists m', m = 1 + m' /\ SE s m'.
Proof. intros Ha H. inversion H; subst; try (exfalso; unf; lia). eauto. Qed.
Lemma put_ok cap d x : zlen d < cap -> put cap d x = Ok (d ++ [x]).
Proof. intros Hd. unfold put. replace (zlen d <? cap) with true by lia. reflexivity. Qed.
Lemma puts_ok cap : forall xs d, zlen d + zlen xs <= cap -> puts cap d xs = Ok (d ++ xs).
Proof.
  induction xs as [|x xs IH]; intros d Hd; cbn [puts]; [rewrite app_nil_r; reflexivity|]. rewrite zlen_cons in Hd. pose proof (zlen_nonneg xs). rewrite put_ok by lia. cbn [bind].
  rewrite IH by (rewrite zlen_app; change (zlen [x]) with 1; lia). rewrite <- app_assoc. reflexivity.
Qed.
Lemma utf8_bytes_len u n : (n = 1 -> u < 65536) -> zlen (utf8_bytes u) <= 4.
Proof. intros _. unfold utf8_bytes. repeat match goal with |- context [if ?b then _ else _] => destruct b end; cbn; lia. Qed.

(** The hexadecimal digits of an escape. *)
Definition hexs (n : nat) (s : list Z) : Prop := (n <= length s)%nat /\ Forall (fun a => is_hex a = true) (firstn n s).
Lemma esc_hex_wp : forall n u s acc, live s -> Forall (fun a => a < 128) (firstn n s) -> 0 <= acc ->
  wp (esc_hex n (zlen u) acc (u ++ s)) (fun r => forall v, r = Some v -> hexs n s /\ 0 <= v < (acc + 1) * 16 ^ Z.of_nat n).
Proof.
  induction n as [|n IH]; intros u s acc Ls Ns Hacc; cbn [esc_hex].
  { apply wp_ret. intros v [= <-]. split; [split; [lia|constructor]|]. cbn. lia. }
  destruct s as [|a s]; [destruct (live_nil Ls)|]. rewrite get_app by reflexivity. cbn [bind firstn] in *. inversion Ns as [|? ? Ha Ns']; subst.
  unfold nibble. replace (128 <=? a) with false by lia. cbn [bind]. wdest; [apply wp_ret; discriminate|].
  pose proof (hex_val_pos a ltac:(lia)) as Hx. destruct (live_cons _ _ Ls ltac:(unf; lia)) as [_ Lr].
  replace (u ++ a :: s) with ((u ++ [a]) ++ s) by (rewrite <- app_assoc; reflexivity). replace (zlen u + 1) with (zlen (u ++ [a])) by (rewrite zlen_app; reflexivity).
  eapply wp_mono; [apply IH; [assumption|assumption|lia]|]. intros r Hr v Hv. destruct (Hr v Hv) as [[H1 H2] H3]. split.
  - split; [cbn [length]; lia|]. cbn [firstn]. constructor; assumption.
  - split; [lia|]. assert (hex_val a <= 15). { unfold hex_val. unf. repeat match goal with |- context [if ?b then _ else _] => destruct b eqn:? end; lia. }
    eapply Z.lt_le_trans; [apply H3|]. rewrite Nat2Z.inj_succ, Z.pow_succ_r by lia. replace ((acc + 1) * (16 * 16 ^ Z.of_nat n)) with (((acc + 1) * 16) * 16 ^ Z.of_nat n) by ring.
    apply Z.mul_le_mono_nonneg_r; lia.
Qed.
Lemma SE_hexs : forall n s m, hexs n s -> SE s m -> exists m', m = Z.of_nat n + m' /\ SE (skipn n s) m'.
Proof.
  induction n as [|n IH]; intros s m [Hl Hx] Hm; [exists m; split; [lia|exact Hm]|]. destruct s as [|a s]; [cbn in Hl; lia|].
  cbn [firstn] in Hx. inversion Hx; subst. destruct (SE_hex _ _ _ H2 Hm) as (m1 & -> & Hm1). destruct (IH s m1) as (m2 & -> & Hm2); [split; [cbn in Hl; lia|assumption]|exact Hm1|].
  exists m2. split; [lia|exact Hm2].
Qed.
Lemma utf8_bytes_le2 u : 0 <= u < 256 -> zlen (utf8_bytes u) <= 2.
Proof. intros Hu. unfold utf8_bytes. destruct (u <? 128) eqn:?; [cbn; lia|]. replace (u <? 2048) with true by lia. cbn. lia. Qed.
Lemma utf8_bytes_le4 u : zlen (utf8_bytes u) <= 4.
Proof. unfold utf8_bytes. repeat match goal with |- context [if ?b then _ else _] => destruct b end; cbn; lia. Qed.

(** An escape writes no more bytes than it has characters, and its characters are within the string. *)
Lemma append_esc_wp cap dest b src m : live (b :: src) -> b <> 0 -> b <> 10 -> Forall (fun a => a < 128) (firstn 9 (b :: src)) -> SE src m -> zlen dest + 2 + m <= cap ->
  wp (append_esc cap dest (b :: src)) (fun r => match fst r with None => True | Some n => (1 <= n)%nat /\ exists m', SE (skipn (n - 1) src) m' /\ m = Z.of_nat (n - 1) + m' /\
    (n - 1 <= length src)%nat /\ Forall (fun a => a <> 0) (firstn (n - 1) src) /\ zlen (snd r) + m' <= zlen dest + 2 + m end).
Proof.
  intros Ls Hb Hb' Ns Hm Hcap. pose proof (SE_nonneg _ _ Hm). unfold append_esc. change (get (b :: src) 0) with (Ok b). cbn [bind]. cbv zeta.
  change (firstn 9 (b :: src)) with (b :: firstn 8 src) in Ns. pose proof (Forall_inv Ns) as Hb1. pose proof (Forall_inv_tail Ns) as Ns'. cbv beta in Hb1. replace (128 <=? b) with false by lia.
  destruct (live_cons _ _ Ls Hb) as [_ Lr]. wdest; [apply wp_ret; exact I|].
  assert (Hex : forall n, (n <= 8)%nat -> (2 <= n)%nat -> (n = 2 \/ 4 <= n)%nat ->
    wp (u <- esc_hex n 1 0 (b :: src) ;; match u with None => Ok (None, dest) | Some u => d <- puts cap dest (utf8_bytes u) ;; Ok (Some (S n), d) end)
      (fun r => match fst r with None => True | Some n => (1 <= n)%nat /\ exists m', SE (skipn (n - 1) src) m' /\ m = Z.of_nat (n - 1) + m' /\
         (n - 1 <= length src)%nat /\ Forall (fun a => a <> 0) (firstn (n - 1) src) /\ zlen (snd r) + m' <= zlen dest + 2 + m end)).
  { intros n Hn Hn2 Hn4. eapply wp_bind; [apply (esc_hex_wp n [b] src 0 Lr); [|lia]|].
    - rewrite <- (firstn_skipn n (firstn 8 src)) in Ns'. rewrite firstn_firstn, Nat.min_l in Ns' by exact Hn. apply Forall_app in Ns'. apply Ns'.
    - intros [u|] Hu; [|apply wp_ret; exact I]. destruct (Hu u eq_refl) as [Hx Hv]. destruct (SE_hexs _ _ _ Hx Hm) as (m' & -> & Hm'). pose proof (SE_nonneg _ _ Hm').
      assert (zlen (utf8_bytes u) <= Z.of_nat n).
      { destruct Hn4 as [->|Hn4]; [apply utf8_bytes_le2; cbn in Hv; lia|]. pose proof (utf8_bytes_le4 u). lia. }
      rewrite puts_ok by lia. cbn [bind]. apply wp_ret. cbn [fst snd]. replace (S n - 1)%nat with n by lia. split; [lia|]. exists m'. split; [exact Hm'|]. split; [reflexivity|]. destruct Hx as [Hx1 Hx2].
      split; [exact Hx1|]. split; [eapply Forall_impl; [|exact Hx2]; cbn; intros a Ha; unf; lia|]. rewrite zlen_app. lia. }
  wdest; [apply Hex; lia|]. wdest; [apply Hex; lia|]. wdest; [apply Hex; lia|].
  rewrite put_ok by lia. cbn [bind]. apply wp_ret. cbn [fst snd]. split; [lia|]. exists m. cbn [Nat.sub skipn firstn length]. split; [exact Hm|]. split; [lia|]. split; [lia|]. split; [constructor|]. rewrite zlen_app. change (zlen [_]) with 1. lia.
Qed.
Lemma skip_wp : forall n c, G c -> (n <= len c)%nat -> Forall (fun a => a <> 0) (firstn n (c_rest c)) -> wp (skip n c) (fun d => G d /\ c_rest d = skipn n (c_rest c) /\ (len d + n = len c)%nat).
Proof.
  induction n as [|n IH]; intros c Hc Hl F; cbn [skip]; [fin; [reflexivity]|]. destruct (c_rest c) as [|a r] eqn:Er; [cbn in Hl; lia|].
  cbn [firstn] in F. inversion F; subst. assert (Head c a) as Hh. { split; [eexists; exact Er|]. pose proof (G_live _ Hc) as Lc. rewrite Er in Lc. exact (live_pos _ _ Lc). }
  wnext. useG. destruct A as (A1 & A2). rewrite Er in A1. injection A1 as A1. eapply wp_mono; [apply IH; [assumption|rewrite <- A1; cbn in Hl; lia|rewrite <- A1; assumption]|].
  intros d (Gd & Ed & Ld). split; [exact Gd|]. cbn [skipn]. rewrite A1. split; [exact Ed|]. cbn [length]. lia.
Qed.
Lemma to_end_quote_wp fuel c : G c -> (len c < fuel)%nat -> wp (to_end_quote fuel c) (Le c).
Proof. intros Hc Hf. unfold to_end_quote. eapply wp_mono; [apply wp_while; [assumption|reflexivity|assumption]|]. intros d (? & ? & _). split; assumption. Qed.
Lemma string_loop_wp : forall fuel inner stop cap dest c m, G c -> (len c < fuel)%nat -> (len c < inner)%nat -> SE (c_rest c) m -> zlen (c_rest c) = stop + m -> zlen dest + m < cap ->
  wp (string_loop fuel inner stop cap dest c) (S1 c).
Proof.
  induction fuel as [|f IH]; intros inner stop cap dest c m Hc Hf Hi Hm Hs Hcap; [lia|]. cbn [string_loop].
  pose proof (SE_nonneg _ _ Hm).
  assert (Quit : forall d, G d -> (len d <= len c)%nat -> wp (d <- to_end_quote inner d ;; Ok (Err d)) (S1 c)).
  { intros d Gd Ld. eapply wp_bind; [apply to_end_quote_wp; [assumption|lia]|]. intros e [? ?]. fin. }
  destruct (Z.ltb_spec stop (zlen (c_rest c))) as [Hlt|Hge].
  - assert (0 < m) by lia. wpeek. pose proof (G_live _ Hc) as Lc. destruct Hh as ((r & Hr) & Hd). rewrite Hr in Hm, Lc.
    assert (Hh : Head c a) by (split; [eexists; exact Hr|exact Hd]).
    wnext. assert (Er : c_rest c1 = r) by (destruct A as (A1 & _); rewrite Hr in A1; injection A1; auto).
    eapply (wp_bind _ _ (fun b => (a = 92 -> Head c1 b) /\ (a <> 92 -> b = 1))).
    { wdest; [|apply wp_ret; split; [lia|auto]]. assert (a <> 0) by lia. useG.
      assert (HB : bind (peek c1) (fun x => Ok x) = peek c1) by (destruct (peek c1); reflexivity). rewrite <- HB. wpeek. apply wp_ret. split; [auto|lia]. }
    intros b [Hb1 Hb2]. wdest.
    + eapply (wp_bind _ _ (fun d => G d /\ (len d <= len c)%nat)).
      * wdest; [rewrite (Adv_back _ _ _ A); apply wp_ret; split; [assumption|lia]|]. assert (a <> 0) by lia. useG. apply wp_ret. split; [assumption|lia].
      * intros d [Gd Ld]. apply Quit; assumption.
    + assert (a <> 0) as Ha by lia. useG. wdest.
      * eapply wp_back; [exact A|]. apply Quit; [assumption|lia].
      * wdest.
        { assert (a = 92) as -> by lia. destruct r as [|x r]; [apply G_live in Gx; rewrite Er in Gx; destruct (live_nil Gx)|].
          assert (x = b) as ->. { destruct (Hb1 ltac:(lia)) as ((y & Hy) & _). rewrite Er in Hy. congruence. }
          inversion Hm as [|? ? Hz|? ? ? Hz|? ? m1 N1 N2 Hm1|]; subst; try lia. pose proof (Near_slash _ _ Hc A) as N. unfold Near in N. rewrite Er in N |- *.
          pose proof (SE_nonneg _ _ Hm1). assert (Lc1 : live (b :: r)) by (rewrite <- Er; apply G_live; assumption).
          eapply wp_bind; [apply (append_esc_wp cap dest b r m1); [assumption|assumption|assumption|assumption|assumption|lia]|].
          intros [[n|] dest'] Hn; cbn [fst snd] in Hn; [|apply Quit; [assumption|lia]].
          destruct Hn as (Hn1 & m' & Hm' & -> & Hl & Fn & Hd').
          eapply wp_bind; [apply skip_wp; [assumption|rewrite Er; cbn [length]; lia|]|].
          - rewrite Er. destruct n as [|n]; [constructor|]. cbn [firstn]. constructor; [assumption|]. replace (S n - 1)%nat with n in Fn by lia. exact Fn.
          - intros d (Gd & Ed & Ld). rewrite Er in Ed. destruct n as [|n]; [lia|]. cbn [skipn] in Ed. replace (S n - 1)%nat with n in * by lia.
            eapply wp_mono; [apply (IH _ _ _ _ d m'); try assumption|].
            + lia.
            + lia.
            + rewrite Ed. exact Hm'.
            + rewrite Hr in Hs. rewrite !zlen_cons in Hs. unfold zlen in *. rewrite Er in Ld. cbn [length] in Ld. lia.
            + lia.
            + intros s. apply Le_S1. split; [assumption|]. lia. }
        { inversion Hm; subst; try lia. match goal with H : SE _ ?x |- _ => pose proof (SE_nonneg _ _ H); rename x into m1 end.
          rewrite put_ok by lia. cbn [bind]. eapply wp_mono; [apply (IH _ _ _ _ c1 m1); try assumption; try lia|].
          - rewrite Hr in Hs. rewrite zlen_cons in Hs. lia.
          - rewrite zlen_app. change (zlen [a]) with 1. lia.
          - intros s. apply Le_S1. split; [assumption|lia]. }
  - assert (m = 0) as -> by lia. destruct (SE_zero _ Hm) as (r & Er). assert (Head c 34) as Hh by (split; [eexists; exact Er|right; split; lia]).
    wnext. useG. rewrite put_ok by lia. cbn [bind]. fin.
Qed.
Lemma scan_string_wp fuel c : G c -> (len c < fuel)%nat -> wp (scan_string fuel c) (S1 c).
Proof.
  intros Hc Hf. unfold scan_string. destruct (string_end_SE fuel (c_rest c) [] (G_live _ Hc) Hf) as (m & Hm & Em). cbn [app] in Em. change (zlen []) with 0 in Em. rewrite Em. cbn [bind Z.add].
  apply (string_loop_wp _ _ _ _ _ _ m); try assumption; try lia. cbn. lia.
Qed.
Lemma raw_end_wp : forall fuel c, G c -> (len c < fuel)%nat -> wp (raw_end fuel c) (fun r => E (snd r) /\ (len (snd r) < len c)%nat /\ (fst r = true -> G (snd r))).
Proof.
  induction fuel as [|f IH]; intros c Hc Hf; [lia|]. cbn [raw_end]. wpeek. wnext. pose proof (Adv_len _ _ _ A) as La.
  eapply (wp_bind _ _ (fun b => a = 96 -> Head c1 b)).
  { wdest; [|apply wp_ret; lia]. assert (a <> 0) by lia. useG.
    assert (HB : bind (peek c1) (fun x => Ok x) = peek c1) by (destruct (peek c1); reflexivity). rewrite <- HB. wpeek. apply wp_ret. auto. }
  intros b Hb. wdest; [assert (a <> 0) by lia; useG; fin; auto|].
  wdest; [fin; discriminate|]. assert (a <> 0) by lia. useG. wdest.
  - assert (Hb' : Head c1 b) by (apply Hb; lia). wnext. assert (b <> 0) by lia. useG. eapply wp_mono; [apply IH; [assumption|lia]|]. intros [ok d] (? & ? & ?). cbn [fst snd] in *. split; [assumption|split; [lia|assumption]].
  - eapply wp_mono; [apply IH; [assumption|lia]|]. intros [ok d] (? & ? & ?). cbn [fst snd] in *. split; [assumption|split; [lia|assumption]].
Qed.
Lemma raw_copy_wp s n : 0 <= n < zlen s -> forall fuel i d, 0 <= i -> (Z.to_nat (n - i) < fuel)%nat -> zlen d <= i -> zlen d <= n -> wp (raw_copy fuel n (n + 1) s i d) (fun r => zlen r <= n).
Proof.
  intros Hn. induction fuel as [|f IH]; intros i d Hi Hf Hd1 Hd2; [lia|]. cbn [raw_copy]. wdest; [|apply wp_ret; assumption].
  destruct (get_ok s i ltac:(lia)) as (a & ->). cbn [bind].
  eapply (wp_bind _ _ (fun _ => True)).
  { wdest; [|apply wp_ret; exact I]. destruct (get_ok s (i + 1) ltac:(lia)) as (b & ->). apply wp_ret. exact I. }
  intros b _. rewrite put_ok by lia. cbn [bind]. apply IH; rewrite ?zlen_app; change (zlen [a]) with 1; destruct ((a =? 96) && (b =? 96)); lia.
Qed.
Lemma scan_raw_string_wp fuel c : G c -> (len c < fuel)%nat -> wp (scan_raw_string fuel c) (S1 c).
Proof.
  intros Hc Hf. unfold scan_raw_string. eapply wp_bind; [apply raw_end_wp; assumption|]. intros [ok e] (Ee & Le1 & Ge). cbn [fst snd] in *.
  destruct ok; [|fin]. specialize (Ge eq_refl). cbv zeta.
  assert (0 <= zlen (c_rest c) - zlen (c_rest e) - 1 < zlen (c_rest c)) as Hn by (unfold zlen; lia).
  eapply wp_bind; [apply (raw_copy_wp (c_rest c) _ Hn fuel 0 []); [lia|unfold zlen; lia|cbn; lia|cbn; unfold zlen; lia]|].
  intros d Hd. cbv beta in Hd. rewrite put_ok by lia. cbn [bind]. fin.
Qed.

(** *** Byte literals *)
Lemma is_white_ok a : a = 0 \/ src_byte a -> is_white a = Ok ((a =? 32) || (a =? 9) || (a =? 10)).
Proof. intros Ha. unfold is_white. destruct (Z.eqb_spec a 13); [destruct Ha as [->|[? ?]]; lia|reflexivity]. Qed.
Lemma hex_array_loop_wp q : q <> 0 -> forall fuel n c, G c -> (len c < fuel)%nat ->
  wp (hex_array_loop fuel q n c) (fun r => Le c (snd r) /\ (fst r <> None -> Head (snd r) q)).
Proof.
  intros Hq. induction fuel as [|f IH]; intros n c Hc Hf; [lia|]. cbn [hex_array_loop]. wpeek.
  assert (Rec : forall m, a <> 0 -> wp (c <- next c ;; hex_array_loop f q m c) (fun r => Le c (snd r) /\ (fst r <> None -> Head (snd r) q))).
  { intros m Ha. wnext. useG. eapply wp_mono; [apply IH; [assumption|lia]|]. intros [o d] [[? ?] ?]. cbn [fst snd] in *. split; [split; [assumption|lia]|assumption]. }
  wdest; [fin; congruence|]. wdest; [fin; intros _; assert (a = q) as <- by lia; exact Hh|]. wdest; [apply Rec; lia|].
  rewrite (is_white_ok a) by (destruct Hh; assumption). cbn [bind]. wdest; [apply Rec; lia|fin; congruence].
Qed.
Lemma scan_hex_array_wp fuel c q : G c -> Head c q -> q <> 0 -> (len c < fuel)%nat -> wp (scan_hex_array fuel c) (S1 c).
Proof.
  intros Hc Hq Hq0 Hf. unfold scan_hex_array. wpeek. assert (a = q) as -> by (destruct Hh as ((x & Hx) & _), Hq as ((y & Hy) & _); congruence).
  wnext. useG. eapply wp_bind; [apply (hex_array_loop_wp q Hq0); [assumption|lia]|]. intros [o d] [[Gd Ld] Hd]. cbn [fst snd] in *. destruct o as [n|]; [|fin].
  specialize (Hd ltac:(discriminate)). wnext. useG. wdest; fin.
Qed.
Lemma base64_loop_wp q : q <> 0 -> forall fuel n m c, G c -> (len c < fuel)%nat -> wp (base64_loop fuel q n m c) (fun r => Le c (snd r)).
Proof.
  intros Hq. induction fuel as [|f IH]; intros n m c Hc Hf; [lia|]. cbn [base64_loop]. wpeek. wdest; [fin|]. assert (a <> 0) by lia. wnext. useG.
  assert (Rec : forall n m, wp (base64_loop f q n m c1) (fun r => Le c (snd r))).
  { intros n' m'. eapply wp_mono; [apply IH; [assumption|lia]|]. intros [o d] [? ?]. cbn [snd] in *. split; [assumption|lia]. }
  wdest; [fin|]. wdest; [wdest; [apply Rec|fin]|]. wdest; [wdest; [fin|apply Rec]|].
  rewrite (is_white_ok a) by (destruct Hh; assumption). cbn [bind]. wdest; [apply Rec|fin].
Qed.
Lemma scan_base64_wp fuel c a c1 b c2 q : G c -> Adv c a c1 -> a <> 0 -> Adv c1 b c2 -> b <> 0 -> Head c2 q -> q <> 0 -> (len c < fuel)%nat -> wp (scan_base64 fuel c) (S1 c).
Proof.
  intros Hc A1 Ha A2 Hb Hq Hq0 Hf. pose proof (Adv_G _ _ _ Hc A1 Ha) as G1. pose proof (Adv_G _ _ _ G1 A2 Hb) as G2. useG.
  unfold scan_base64. destruct (Head_Adv2 _ _ _ _ (Adv_Head _ _ _ Hc A1) A1 (Adv_Head _ _ _ G1 A2)) as (d & -> & A2'). cbn [bind].
  assert (d = c2) as ->. { destruct d, c2. destruct A2 as (B1 & B2 & B3), A2' as (D1 & D2 & D3). cbn in *. f_equal; congruence. }
  wpeek. assert (a0 = q) as -> by (destruct Hh as ((x & Hx) & _), Hq as ((y & Hy) & _); congruence).
  wnext. useG. eapply wp_bind; [apply (base64_loop_wp q Hq0); [assumption|lia]|]. intros [[[n m]|] d] [Gd Ld]; cbn [snd] in *; [|fin]. cbv zeta. wdest; fin.
Qed.

(** *** Documentation comments *)
Lemma doc_loop_wp : forall fuel may start c, G c -> (len c < fuel)%nat -> (forall z, start = Some z -> Z.of_nat (len c) <= z <= zlen (c_rest c0)) ->
  wp (doc_loop fuel may start c) (fun r => Le c (snd r) /\ forall z, fst r = Some z -> Z.of_nat (len (snd r)) <= z <= zlen (c_rest c0)).
Proof.
  induction fuel as [|f IH]; intros may start c Hc Hf Hs; [lia|]. cbn [doc_loop]. wpeek. pose proof (G_len _ Hc).
  assert (Rec : forall may start, a <> 0 -> (forall z, start = Some z -> Z.of_nat (len c) <= z <= zlen (c_rest c0)) ->
    wp (c <- next c ;; doc_loop f may start c) (fun r => Le c (snd r) /\ forall z, fst r = Some z -> Z.of_nat (len (snd r)) <= z <= zlen (c_rest c0))).
  { intros m st Ha Hst. wnext. useG. eapply wp_mono; [apply IH; [assumption|lia|]|].
    - intros z Hz. specialize (Hst z Hz). lia.
    - intros [o d] [[? ?] ?]. cbn [fst snd] in *. split; [split; [assumption|lia]|assumption]. }
  wdest; [fin|]. wdest; [apply Rec; [lia|assumption]|]. wdest; [apply Rec; [lia|assumption]|].
  wdest.
  - eapply wp_peekn1; [exact Hc|exact Hh|lia|]. intros c' b A G' Hb. wdest; [fin|apply Rec; [lia|assumption]].
  - eapply (wp_bind _ _ (fun _ => True)).
    { wdest; [|apply wp_ret; exact I]. eapply wp_peekn1; [exact Hc|exact Hh|lia|]. intros c' b A G' Hb. apply wp_ret. exact I. }
    intros stop _. destruct stop; [fin|]. cbv zeta. apply Rec; [lia|]. destruct start as [z0|]; [exact Hs|]. intros z [= <-]. unfold zlen. lia.
Qed.
Lemma trim_end_wp : forall l n, 0 <= n \/ n = -1 -> Forall src_byte (firstn (Z.to_nat n) l) -> wp (trim_end l n) (fun _ => True).
Proof.
  induction l as [|a l IH]; intros n Hn F; cbn [trim_end]; [apply wp_ret; exact I|]. wdest; [|apply wp_ret; exact I].
  replace (Z.to_nat n) with (S (Z.to_nat (n - 1))) in F by lia. cbn [firstn] in F. inversion F; subst. rewrite is_white_ok by (right; assumption). cbn [bind]. wdest; [|apply wp_ret; exact I]. apply IH; [lia|assumption].
Qed.
Lemma doc_start_wp fuel c : G c -> (len c < fuel)%nat -> wp (doc_start fuel c) (S1 c).
Proof.
  intros Hc Hf. unfold doc_start. eapply wp_bind; [apply doc_loop_wp; [assumption|assumption|discriminate]|]. intros [[z|] e] [[Ge Le1] Hz]; cbn [fst snd] in *; [|fin].
  specialize (Hz z eq_refl). eapply wp_bind; [apply trim_end_wp|].
  - unfold zlen. lia.
  - destruct Ge as ((s & E1 & E2 & E3) & N). pose proof L0 as L. rewrite E1 in L. pose proof (live_prefix _ _ L N) as Fs.
    rewrite E2. rewrite E1 in Hz. rewrite zlen_app in Hz. unfold zlen in *. rewrite firstn_app.
    replace (Z.to_nat (z - Z.of_nat (len e) - 1) - length (rev s))%nat with 0%nat by (rewrite rev_length; lia).
    rewrite app_nil_r. apply Forall_rev in Fs. rewrite <- (firstn_skipn (Z.to_nat (z - Z.of_nat (len e) - 1)) (rev s)) in Fs. apply Forall_app in Fs. apply Fs.
  - intros k _. fin.
Qed.

(** *** The scanner *)
Lemma wp_alt c x f g Q : G c -> x <> 0 -> (forall c', Le c c' -> wp (f c') Q) -> wp (g c) Q -> wp (alt c x f g) Q.
Proof.
  intros Hc Hx Hf Hg. unfold alt. apply wp_matchc; [assumption|assumption| |intros a _ _; exact Hg].
  intros c' G' A. apply Hf. apply Adv_len in A. split; [assumption|lia].
Qed.
(** A token that is not the end of the file takes up at least one character. *)
Definition S3 (c : cursor) (s : scan) : Prop :=
  match s with Tok TEof d => c_rest d = [0] /\ Le c d | Tok _ d => Le c d /\ (len d < len c)%nat | Err d => E d end.
Lemma S1_S3 c c1 s : (len c1 < len c)%nat -> S1 c1 s -> S3 c s.
Proof. intros Hl. destruct s as [t d|d]; cbn [S1 S3]; [|auto]. intros [? [? ?]]. destruct t; [..|contradiction]; (split; [split; [assumption|]|]; lia). Qed.
Lemma S1_S3' c s : match s with Tok _ d => (len d < len c)%nat | _ => True end -> S1 c s -> S3 c s.
Proof. intros Hl. destruct s as [t d|d]; cbn [S1 S3]; [|auto]. intros [? [? ?]]. destruct t; [..|contradiction]; (split; [split; [assumption|]|]; lia). Qed.

Lemma scan_token_wp fuel contracts c : G c -> (len c < fuel)%nat -> wp (scan_token fuel contracts c) (fun r => S3 c (snd r)).
Proof.
  intros Hc Hf. unfold scan_token. eapply wp_bind; [apply skip_whitespace_wp; assumption|]. intros d [[Gd Ld] Nl]. wpeek.
  destruct (a =? 0) eqn:B0.
  { apply wp_ret. cbn [snd S3]. assert (a = 0) as -> by lia. split; [|split; assumption]. pose proof (G_live _ Gd) as Lv. destruct Hh as ((r & Hr) & _). rewrite Hr in *.
    destruct (live_inv _ Lv) as [Ex|(x & y & Ex & Hx & _)]; [exact Ex|]. injection Ex as <- _. destruct Hx. lia. }
  cbv zeta. wnext. assert (a <> 0) as Ha by lia. useG.
  assert (Same : forall r : Res scan, wp r (S1 c1) -> wp (s <- r ;; Ok (contracts, s)) (fun r => S3 c (snd r))).
  { intros r Hr. eapply wp_bind; [exact Hr|]. intros s Hs. apply wp_ret. cbn [snd]. apply (S1_S3 c c1); [lia|exact Hs]. }
  assert (Ident : (is_letter a || is_us a) = true -> wp (s <- (c <- backtrack c1 ;; scan_ident fuel d 0 c) ;; Ok (contracts, s)) (fun r => S3 c (snd r))).
  { intros Hl. eapply wp_bind; [eapply wp_back; [exact A|]; apply scan_ident_wp; [assumption|lia]|]. intros s [Hs1 Hs2]. apply wp_ret. cbn [snd].
    assert (Hs3 : S3 d s) by (apply S1_S3'; [apply Hs2; exists a; split; assumption|exact Hs1]). destruct s as [t e|e]; cbn [S3] in *; [|exact Hs3].
    unfold Le in *. destruct t; (split; [|lia]) || (split; [tauto|]); (split; [tauto|lia]). }
  assert (Digit : is_digit a = true -> wp (s <- (c <- backtrack c1 ;; scan_digit fuel c) ;; Ok (contracts, s)) (fun r => S3 c (snd r))).
  { intros Hdg. eapply wp_bind; [eapply wp_back; [exact A|]; apply scan_digit_wp; [assumption|lia|exists a; split; assumption]|]. intros s [Hs1 Hs2]. apply wp_ret. cbn [snd].
    assert (Hs3 : S3 d s) by (apply S1_S3'; [exact Hs2|exact Hs1]). destruct s as [t e|e]; cbn [S3] in *; [|exact Hs3].
    unfold Le in *. destruct t; (split; [|lia]) || (split; [tauto|]); (split; [tauto|lia]). }
  assert (Op : forall t e, Le c1 e -> wp (op1 t e) (S1 c1)).
  { intros t e He. unfold op1. apply wp_ret. split; [exact I|exact He]. }
  assert (R1 : Le c1 c1) by (apply Le_refl; assumption).
  assert (Alt : forall e x f g, Le c1 e -> x <> 0 -> (forall e', Le c1 e' -> wp (f e') (S1 c1)) -> wp (g e) (S1 c1) -> wp (alt e x f g) (S1 c1)).
  { intros e x f g He Hx Hf' Hg. apply wp_alt; [apply He|exact Hx| |exact Hg]. intros e' He'. apply Hf'. eapply Le_trans; eassumption. }
  assert (Al2 : forall e x t g, Le c1 e -> x <> 0 -> wp (g e) (S1 c1) -> wp (alt e x (op1 t) g) (S1 c1)).
  { intros e x t g He Hx Hg. apply Alt; try assumption. intros e' He'. apply Op. exact He'. }
  assert (Id2 : forall p, wp (scan_ident fuel d p c1) (S1 c1)).
  { intros p. eapply wp_mono; [apply scan_ident_wp; [assumption|lia]|]. intros s [Hs _]. exact Hs. }
  Ltac ops R1 Op Al2 Alt := repeat first [ apply Op; exact R1 | apply Op; assumption | apply Al2; [first [exact R1|assumption]|lia|]
     | apply Alt; [first [exact R1|assumption]|lia|let e := fresh "e" in let He := fresh "He" in intros e He|] ].
  wdest. { destruct contracts; [|exfalso; apply Nl; [reflexivity|]; assert (a = 10) as <- by lia; exact Hh]. apply wp_ret. cbn [snd S3]. unfold Le. split; [split; [assumption|lia]|lia]. }
  wdest. { apply Same. wpeek. wdest; [apply Id2|apply Op; exact R1]. }
  wdest. { apply Same. apply scan_char_wp; [assumption|lia]. }
  wdest. { apply Same. apply scan_raw_string_wp; [assumption|lia]. }
  wdest. { apply Same. apply scan_string_wp; [assumption|lia]. }
  wdest. { apply Same. apply Id2. }
  wdest. { apply Same. apply Alt; [exact R1|lia| |apply Id2]. intros e [Ge He]. wpeek. wdest; fin. }
  do 6 (wdest; [apply Same; ops R1 Op Al2 Alt|]).
  wdest.
  { eapply (wp_bind _ _ (fun r => Le c1 (snd r))).
    - destruct contracts; [|fin]. assert (HB : forall m : Res (bool * cursor), bind m (fun x => Ok x) = m) by (intros []; reflexivity). match goal with |- wp ?m _ => rewrite <- (HB m) end.
      apply wp_matchc; [assumption|lia| |]; intros; useG; fin.
    - intros [dd e] He. cbn [snd] in He. destruct dd; [apply wp_ret; cbn [snd S3]; unfold Le in *; split; [split; [tauto|lia]|lia]|]. apply Same. ops R1 Op Al2 Alt. }
  do 3 (wdest; [apply Same; ops R1 Op Al2 Alt|]).
  wdest.
  { apply wp_matchc; [assumption|lia| |].
    - intros e Ge Ae. useG. assert (Le c1 e) by (split; [assumption|lia]). apply Same. ops R1 Op Al2 Alt.
    - intros _ _ _. eapply (wp_bind _ _ (fun r => Le c1 (snd r))).
      + destruct contracts; [fin|]. assert (HB : forall m : Res (bool * cursor), bind m (fun x => Ok x) = m) by (intros []; reflexivity). match goal with |- wp ?m _ => rewrite <- (HB m) end.
        apply wp_matchc; [assumption|lia| |]; intros; useG; fin.
      + intros [dd e] He. cbn [snd] in He. destruct dd; [|apply Same; ops R1 Op Al2 Alt]. destruct He as [Ge He].
        eapply wp_bind; [apply doc_start_wp; [assumption|lia]|]. intros s Hs. apply wp_ret. cbn [snd]. apply (S1_S3 c e); [lia|exact Hs]. }
  do 6 (wdest; [apply Same; ops R1 Op Al2 Alt|]).
  wdest.
  { wpeek. wdest; [apply Same; eapply scan_hex_array_wp; [assumption|eassumption|lia|lia]|]. apply Ident. assert (Ex : a = 120) by lia. rewrite Ex. reflexivity. }
  wdest.
  { wpeek. eapply (wp_bind _ _ (fun six => six = true -> exists x c2 c3 q, Adv c1 54 c2 /\ x = 52 /\ Adv c2 x c3 /\ Head c3 q /\ q <> 0)).
    - wdest; [|apply wp_ret; discriminate]. assert (a0 = 54) as -> by lia. eapply wp_peekn1; [assumption|eassumption|lia|]. intros c2 x A2 G2 Hx. wdest; [|apply wp_ret; discriminate].
      assert (x = 52) as -> by lia. destruct (Head_Adv _ _ Hx) as (c3 & _ & A3). pose proof (Adv_G _ _ _ G2 A3 ltac:(lia)) as G3. pose proof (G_live _ G3) as L3.
      destruct (c_rest c3) as [|q r] eqn:E3; [destruct (live_nil L3)|].
      assert (Eq : peekn c1 2 = Ok q) by (unfold peekn; rewrite (proj1 A2), (proj1 A3), E3; reflexivity). rewrite Eq. cbn [bind]. apply wp_ret. intros Hq.
      exists 52, c2, c3, q. split; [assumption|]. split; [reflexivity|]. split; [assumption|]. split; [split; [eexists; exact E3|exact (live_pos _ _ L3)]|lia].
    - intros [|] Hs; [|apply Ident; assert (Ex : a = 98) by lia; rewrite Ex; reflexivity]. destruct (Hs eq_refl) as (x & c2 & c3 & q & A2 & -> & A3 & Hq & Hq0). apply Same.
      eapply scan_base64_wp; try eassumption; lia. }
  wdest; [apply Ident; assert (Ex : a = 95) by lia; rewrite Ex; reflexivity|].
  wdest.
  { apply Digit. reflexivity. }
  wdest; [apply Ident; reflexivity|]. apply wp_ret. cbn [snd S3]. assumption.
Qed.
End Safe.
