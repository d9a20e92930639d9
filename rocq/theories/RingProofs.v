From Coq Require Import ZArith Bool List Lia ZifyBool.
From Verif Require Import Mach ListAux RingModel RingSpec.
Import ListNotations.
Open Scope Z_scope.

Section P.
Context {A : Type}.
Implicit Types (l a b t p s : list A).

Lemma usz_small x : 0 <= x < 2 ^ 64 -> usz x = x.
Proof. intros H. apply Z.mod_small. exact H. Qed.
Lemma lastn_intro n p s : (length s = n \/ p = [] /\ (length s <= n)%nat) -> lastn n (p ++ s) = s.
Proof.
  intros H. unfold lastn. rewrite app_length. destruct H as [H|[ -> H]].
  - replace (length p + length s - n)%nat with (length p) by lia. rewrite skipn_app, skipn_all, Nat.sub_diag. reflexivity.
  - cbn [length app Nat.add]. replace (length s - n)%nat with 0%nat by lia. reflexivity.
Qed.
Lemma lastn_split n l : exists p, l = p ++ lastn n l /\ (length (lastn n l) = n \/ p = [] /\ (length (lastn n l) <= n)%nat).
Proof.
  exists (firstn (length l - n) l). split; [symmetry; apply firstn_skipn|]. unfold lastn. rewrite skipn_length.
  destruct (Nat.le_gt_cases (length l) n) as [H|H]; [right|left; lia]. replace (length l - n)%nat with 0%nat by lia. split; [reflexivity|lia].
Qed.
Lemma lastn_app n l t : lastn n (lastn n l ++ t) = lastn n (l ++ t).
Proof.
  destruct (lastn_split n l) as (p & E & H). set (s := lastn n l) in *. clearbody s. subst l.
  destruct (lastn_split n (s ++ t)) as (p' & E' & H'). set (s' := lastn n (s ++ t)) in *. clearbody s'. rewrite <- app_assoc, E', app_assoc. symmetry. apply lastn_intro.
  destruct H' as [H'|[ -> H']]; [left; exact H'|]. cbn [app] in *. destruct H as [H|[ -> H]]; [left|right; auto]. subst s'. rewrite app_length in H'. rewrite app_length. lia.
Qed.

(** The ring [r] holds [l]. *)
Definition holds (n : nat) (r : ring A) l : Prop :=
  length (r_buf r) = n /\ (0 < n)%nat /\ Z.of_nat n < 2 ^ 63 /\
  ((zlen l < Z.of_nat n /\ r_written r = zlen l /\ r_head r = 0 /\ exists t, r_buf r = l ++ t) \/ full_as r l).
Lemma holds_len n r l : holds n r l -> (length l <= n)%nat.
Proof.
  intros (Hn & _ & _ & [(H & _)|(a & b & E & _ & -> & _ & _)]); [unfold zlen in H; lia|]. rewrite E, app_length in Hn. rewrite app_length. lia.
Qed.
Lemma holds_init n z : (0 < n)%nat -> Z.of_nat n < 2 ^ 63 -> holds n (r_init n z) [].
Proof.
  intros H1 H2. unfold holds, r_init. cbn [r_buf r_written r_head]. rewrite repeat_length. split; [reflexivity|]. split; [exact H1|]. split; [exact H2|]. left. change (zlen (@nil A)) with 0.
  split; [lia|]. split; [reflexivity|]. split; [reflexivity|]. exists (repeat z n). reflexivity.
Qed.
Lemma over_one n r l c : length (r_buf r) = n -> (0 < n)%nat -> Z.of_nat n < 2 ^ 63 -> full_as r l ->
  exists b, set (r_buf r) (r_head r) c = Ok b /\ full_as (Ring b (r_written r) (usz (r_head r + 1) mod zlen (r_buf r))) (tl l ++ [c]).
Proof.
  intros Hn H0 Hm (a & b & E & Eh & -> & Nb & Ew & Hz). destruct b as [|x b]; [congruence|]. rewrite Eh, E. rewrite (set_app a b x c) by reflexivity.
  exists (a ++ c :: b). split; [reflexivity|].
  pose proof (zlen_nonneg a). pose proof (zlen_nonneg b).
  assert (Hl : zlen (a ++ x :: b) = Z.of_nat n) by (unfold zlen; rewrite <- E, Hn; reflexivity).
  rewrite usz_small by (rewrite zlen_app, zlen_cons in Hl; lia). rewrite Hl. rewrite zlen_app, zlen_cons in Hl.
  destruct b as [|y b].
  - change (zlen (@nil A)) with 0 in *. replace (zlen a + 1) with (Z.of_nat n) by lia. rewrite Z.mod_same by lia. exists [], (a ++ [c]). cbn [r_buf r_head r_written app tl].
    split; [reflexivity|]. split; [reflexivity|]. split; [rewrite app_nil_r; reflexivity|]. split; [destruct a; discriminate|]. split; [rewrite Ew, E, !zlen_app; reflexivity|].
    rewrite zlen_app. change (zlen [c]) with 1. lia.
  - rewrite zlen_cons in *. pose proof (zlen_nonneg b). rewrite Z.mod_small by lia. exists (a ++ [c]), (y :: b). cbn [r_buf r_head r_written app tl].
    split; [rewrite <- app_assoc; reflexivity|]. split; [rewrite zlen_app; reflexivity|]. split; [rewrite <- app_assoc; reflexivity|]. split; [discriminate|]. split; [rewrite Ew, E, !zlen_app, !zlen_cons; lia|].
    rewrite zlen_cons, !zlen_app. change (zlen [c]) with 1. lia.
Qed.
Lemma fill_one n r l c t : length (r_buf r) = n -> (0 < n)%nat -> Z.of_nat n < 2 ^ 63 -> zlen l < Z.of_nat n -> r_written r = zlen l -> r_head r = 0 -> r_buf r = l ++ t ->
  exists b, set (r_buf r) (r_written r) c = Ok b /\ holds n (Ring b (r_written r + 1) (r_head r)) (l ++ [c]).
Proof.
  intros Hn H0 Hm Hl Ew Eh E. rewrite E, Ew, Eh. destruct t as [|x t]; [rewrite app_nil_r in E; unfold zlen in Hl; rewrite E in Hn; lia|].
  rewrite (set_app l t x c) by reflexivity. exists (l ++ c :: t). split; [reflexivity|]. unfold holds. cbn [r_buf r_written r_head].
  assert (L : length (l ++ c :: t) = n) by (rewrite <- Hn, E, !app_length; reflexivity). split; [exact L|]. split; [exact H0|]. split; [exact Hm|].
  rewrite zlen_app. change (zlen [c]) with 1. destruct t as [|y t].
  - right. exists [], (l ++ [c]). cbn [r_buf r_head r_written app]. split; [reflexivity|]. split; [reflexivity|]. split; [rewrite app_nil_r; reflexivity|]. split; [destruct l; discriminate|]. unfold zlen. rewrite L. rewrite app_length in L. cbn [length] in L. split; lia.
  - left. rewrite app_length in L. cbn [length] in L. split; [unfold zlen; lia|]. split; [reflexivity|]. split; [reflexivity|]. exists (y :: t). rewrite <- app_assoc. reflexivity.
Qed.
Lemma full_lastn n r l c : length (r_buf r) = n -> full_as r l -> lastn n (l ++ [c]) = tl l ++ [c].
Proof.
  intros Hn (a & b & E & _ & -> & Nb & _). destruct b as [|x b]; [congruence|]. cbn [app tl]. change (x :: (b ++ a) ++ [c]) with ([x] ++ ((b ++ a) ++ [c])). apply lastn_intro. left.
  rewrite <- Hn, E, !app_length. cbn [length]. lia.
Qed.
Lemma push_ok n r l c : holds n r l -> exists r', r_push r c = Ok r' /\ holds n r' (lastn n (l ++ [c])).
Proof.
  intros (Hn & H0 & Hm & [(Hl & Ew & Eh & t & E)|F]).
  - destruct (fill_one n r l c t Hn H0 Hm Hl Ew Eh E) as (b & Hb & Hh). unfold r_push. replace (r_written r <? zlen (r_buf r)) with true by (unfold zlen in *; rewrite Hn; lia). rewrite Hb. cbn [bind]. eexists. split; [reflexivity|].
    unfold lastn. replace (length (l ++ [c]) - n)%nat with 0%nat by (rewrite app_length; cbn [length]; unfold zlen in Hl; lia). exact Hh.
  - destruct (over_one n r l c Hn H0 Hm F) as (b & Hb & Hf). unfold r_push. pose proof F as (a & b0 & E & Eh & -> & Nb & Ew & Hz). replace (r_written r <? zlen (r_buf r)) with false by lia. rewrite Hb. cbn [bind]. eexists. split; [reflexivity|].
    rewrite (full_lastn n r _ c Hn F). split; [cbn [r_buf]; rewrite <- Hn; apply set_zlen in Hb; unfold zlen in Hb; lia|]. split; [exact H0|]. split; [exact Hm|]. right. exact Hf.
Qed.
Lemma over_ok n : forall cs r l, length (r_buf r) = n -> (0 < n)%nat -> Z.of_nat n < 2 ^ 63 -> full_as r l -> exists r', r_over r cs = Ok r' /\ holds n r' (lastn n (l ++ cs)).
Proof.
  induction cs as [|c cs IH]; intros r l Hn H0 Hm F.
  - exists r. split; [reflexivity|]. rewrite app_nil_r. assert (H : holds n r l) by (split; [exact Hn|]; split; [exact H0|]; split; [exact Hm|right; exact F]). unfold lastn. apply holds_len in H as H'. replace (length l - n)%nat with 0%nat by lia. exact H.
  - destruct (over_one n r l c Hn H0 Hm F) as (b & Hb & Hf). cbn [r_over]. rewrite Hb. cbn [bind].
    assert (Lb : length b = n) by (apply set_zlen in Hb; unfold zlen in Hb; lia). destruct (IH (Ring b (r_written r) (usz (r_head r + 1) mod zlen (r_buf r))) _ Lb H0 Hm Hf) as (r' & Er & Hr). exists r'. split; [exact Er|].
    rewrite <- (full_lastn n r l c Hn F), lastn_app, <- app_assoc in Hr. exact Hr.
Qed.
Lemma write_ok n : forall cs r l, holds n r l -> exists r', r_write r cs = Ok r' /\ holds n r' (lastn n (l ++ cs)).
Proof.
  unfold r_write. induction cs as [|c cs IH]; intros r l H.
  - exists r. split; [reflexivity|]. rewrite app_nil_r. unfold lastn. apply holds_len in H as H'. replace (length l - n)%nat with 0%nat by lia. exact H.
  - cbn [r_fill]. destruct H as (Hn & H0 & Hm & [(Hl & Ew & Eh & t & E)|F]).
    + destruct (fill_one n r l c t Hn H0 Hm Hl Ew Eh E) as (b & Hb & Hh). replace (r_written r <? zlen (r_buf r)) with true by (unfold zlen in *; rewrite Hn; lia). rewrite Hb. cbn [bind].
      destruct (IH _ _ Hh) as (r' & Er & Hr). exists r'. split; [exact Er|]. rewrite <- app_assoc in Hr. exact Hr.
    + pose proof F as (a & b & E & Eh & El & Nb & Ew & Hz). replace (r_written r <? zlen (r_buf r)) with false by lia. cbn [bind]. apply over_ok; assumption.
Qed.
Lemma pop_ok n r l : holds n r l -> zlen l < Z.of_nat n -> exists r', r_pop r = Ok (match rev l with [] => None | x :: _ => Some x end, r') /\ holds n r' (removelast l).
Proof.
  intros (Hn & H0 & Hm & [(Hl & Ew & Eh & t & E)|F]) Hs.
  - unfold r_pop. rewrite Ew. destruct (exists_last_or l) as [ -> |(u & x & -> )].
    + exists r. split; [reflexivity|]. split; [exact Hn|]. split; [exact H0|]. split; [exact Hm|]. left. split; [exact Hl|]. split; [exact Ew|]. split; [exact Eh|]. exists t. exact E.
    + rewrite zlen_app in *. change (zlen [x]) with 1 in *. pose proof (zlen_nonneg u). replace (zlen u + 1 =? 0) with false by lia. replace (zlen u + 1 <? zlen (r_buf r)) with true by (unfold zlen in *; lia).
      rewrite E, <- app_assoc. cbn [app]. rewrite get_app by lia. cbn [bind]. eexists. rewrite rev_app_distr. split; [reflexivity|]. rewrite removelast_last.
      split; [cbn [r_buf]; rewrite <- Hn, E, <- app_assoc; reflexivity|]. split; [exact H0|]. split; [exact Hm|]. left. cbn [r_buf r_written r_head]. split; [lia|]. split; [lia|]. split; [exact Eh|]. exists (x :: t). reflexivity.
  - destruct F as (a & b & E & Eh & -> & Nb & Ew & Hz). exfalso. unfold zlen in Hs. rewrite <- Hn, E in Hs. rewrite !app_length in Hs. lia.
Qed.
Lemma get_holds n r l i x : holds n r l -> 0 <= i -> nth_error l (Z.to_nat i) = Some x -> r_get r i = Ok x.
Proof.
  intros H Hi Ex. assert (Hil : i < zlen l) by (assert (nth_error l (Z.to_nat i) <> None) as K by congruence; apply nth_error_Some in K; unfold zlen; lia).
  pose proof (holds_len _ _ _ H) as HL. destruct H as (Hn & H0 & Hm & HH). assert (Zn : zlen (r_buf r) = Z.of_nat n) by (unfold zlen; rewrite Hn; reflexivity).
  unfold r_get. rewrite Zn. assert (HL' : zlen l <= Z.of_nat n) by (unfold zlen; lia). rewrite (Z.mod_small i) by lia. destruct HH as [(Hl & Ew & Eh & t & E)|(a & b & E & Eh & -> & Nb & Ew & Hz)].
  - rewrite Eh, Z.sub_0_r. rewrite !usz_small by lia. replace (i <? Z.of_nat n) with true by lia. rewrite E, Z.add_0_l, get_app_l by lia. rewrite nth_error_get, Ex by lia. reflexivity.
  - rewrite Eh, zlen_app in *. assert (Zn' : Z.of_nat n = zlen a + zlen b) by (rewrite <- Zn, E, zlen_app; reflexivity). pose proof (zlen_nonneg a). pose proof (zlen_nonneg b). rewrite !(usz_small (Z.of_nat n - _)) by lia.
    assert (Eg : get (b ++ a) i = Ok x) by (rewrite nth_error_get, Ex by lia; reflexivity).
    destruct (Z.ltb_spec i (Z.of_nat n - zlen a)).
    + rewrite usz_small by lia. rewrite E, get_app_r by lia. rewrite get_app_l in Eg by lia. replace (zlen a + i - zlen a) with i by lia. exact Eg.
    + rewrite usz_small by lia. rewrite E, get_app_l by lia. rewrite get_app_r in Eg by lia. replace (i - (Z.of_nat n - zlen a)) with (i - zlen b) by lia. exact Eg.
Qed.
(** Copying [k] elements from index [i] on. *)
Lemma copy_ok (s l : list A) i k (b : list A) : (exists p q, s = p ++ l ++ q /\ i = zlen p) -> k = Z.min (zlen l) (zlen b) ->
  (s' <- slice s i k ;; b' <- blit b s' k ;; Ok (k, b')) = Ok (zlen (firstn (length b) l), firstn (length b) l ++ skipn (length (firstn (length b) l)) b).
Proof.
  intros (p & q & -> & ->) ->. pose proof (zlen_nonneg p). pose proof (zlen_nonneg q). pose proof (zlen_nonneg l). pose proof (zlen_nonneg b). unfold slice. rewrite !zlen_app.
  match goal with |- context [if ?c then _ else _] => replace c with true by lia end. cbn [bind]. rewrite skipn_app_len by (unfold zlen; lia).
  assert (E : firstn (Z.to_nat (Z.min (zlen l) (zlen b))) (l ++ q) = firstn (length b) l).
  { rewrite firstn_app. replace (Z.to_nat (Z.min (zlen l) (zlen b)) - length l)%nat with 0%nat by (unfold zlen; lia). rewrite firstn_O, app_nil_r. unfold zlen. destruct (Nat.le_gt_cases (length l) (length b)).
    - rewrite !firstn_all2 by lia. reflexivity.
    - f_equal. lia. }
  rewrite E. unfold blit. assert (El : zlen (firstn (length b) l) = Z.min (zlen l) (zlen b)) by (unfold zlen; rewrite firstn_length; lia). rewrite El.
  match goal with |- context [if ?c then _ else _] => replace c with true by lia end. cbn [bind]. do 2 f_equal. f_equal. f_equal. rewrite <- El. unfold zlen. lia.
Qed.
Lemma read_not_full n r l i b : holds n r l -> zlen l < Z.of_nat n -> 0 <= i < Z.of_nat n ->
  r_read r i b = Ok (zlen (firstn (length b) (skipn (Z.to_nat i) l)), firstn (length b) (skipn (Z.to_nat i) l) ++ skipn (length (firstn (length b) (skipn (Z.to_nat i) l))) b).
Proof.
  intros (Hn & H0 & Hm & HH) Hs Hi. assert (Zn : zlen (r_buf r) = Z.of_nat n) by (unfold zlen; rewrite Hn; reflexivity). destruct HH as [(Hl & Ew & Eh & t & E)|(a & b' & E & Eh & -> & Nb & Ew & Hz)].
  - unfold r_read. rewrite Zn, Ew. rewrite (Z.mod_small i) by lia. replace (zlen l <? Z.of_nat n) with true by lia. destruct (Z.leb_spec (zlen l) i).
    + rewrite (skipn_all2 l) by (unfold zlen in *; lia). rewrite firstn_nil. reflexivity.
    + cbv zeta. rewrite usz_small by lia. apply copy_ok.
      * exists (firstn (Z.to_nat i) l), t. split; [rewrite app_assoc, firstn_skipn; exact E|]. rewrite firstn_zlen by lia. reflexivity.
      * rewrite skipn_zlen by lia. reflexivity.
  - exfalso. rewrite E, zlen_app in Zn. rewrite zlen_app in Hs. lia.
Qed.
(** On a full ring: right if the span does not wrap around. *)
Lemma read_full r l i b : full_as r l -> 0 <= i < zlen l -> zlen l - r_head r <= i \/ i + zlen b <= zlen l - r_head r ->
  r_read r i b = Ok (zlen (firstn (length b) (skipn (Z.to_nat i) l)), firstn (length b) (skipn (Z.to_nat i) l) ++ skipn (length (firstn (length b) (skipn (Z.to_nat i) l))) b).
Proof.
  intros (u & v & E & Eh & -> & Nb & Ew & Hz) Hi Hc. rewrite Eh in Hc. rewrite !zlen_app in *. pose proof (zlen_nonneg u). pose proof (zlen_nonneg v). pose proof (zlen_nonneg b).
  unfold r_read. rewrite E, Ew, Eh. rewrite E, zlen_app. rewrite (Z.mod_small i) by lia. replace (zlen u + zlen v <? zlen u + zlen v) with false by lia. cbv zeta. rewrite !(usz_small (zlen u + zlen v - _)) by lia.
  replace (zlen u + zlen v - zlen u) with (zlen v) by lia. destruct (Z.leb_spec (zlen v) i).
  - rewrite !(usz_small (i - zlen v)) by lia. replace (zlen u <=? i - zlen v) with false by lia. rewrite (usz_small (zlen u - _)) by lia.
    rewrite skipn_app. rewrite (skipn_all2 v) by (unfold zlen in *; lia). cbn [app]. replace (Z.to_nat i - length v)%nat with (Z.to_nat (i - zlen v)) by (unfold zlen; lia). apply copy_ok.
    + exists (firstn (Z.to_nat (i - zlen v)) u), v. split; [rewrite app_assoc, firstn_skipn; reflexivity|]. rewrite firstn_zlen by lia. reflexivity.
    + rewrite skipn_zlen by lia. lia.
  - replace (zlen b <=? zlen u + zlen v - i) with true by lia. rewrite (usz_small (zlen u + i)) by lia.
    rewrite skipn_app. replace (Z.to_nat i - length v)%nat with 0%nat by (unfold zlen in *; lia). cbn [skipn].
    assert (Ef : firstn (length b) (skipn (Z.to_nat i) v ++ u) = firstn (length b) (skipn (Z.to_nat i) v)).
    { rewrite firstn_app. replace (length b - length (skipn (Z.to_nat i) v))%nat with 0%nat by (rewrite skipn_length; unfold zlen in *; lia). rewrite firstn_O, app_nil_r. reflexivity. }
    rewrite Ef. apply copy_ok.
    + exists (u ++ firstn (Z.to_nat i) v), []. split; [rewrite app_nil_r, <- app_assoc, firstn_skipn; reflexivity|]. rewrite zlen_app, firstn_zlen by lia. reflexivity.
    + rewrite skipn_zlen by lia. lia.
Qed.
(** Popping a full ring: the newest element is returned (unless the head wraps around), but stays, as the oldest. *)
Lemma pop_full r l x : full_as r (l ++ [x]) -> r_head r <> 0 \/ 2 ^ 64 mod zlen (r_buf r) = 0 -> exists r', r_pop r = Ok (Some x, r') /\ full_as r' (x :: l).
Proof.
  intros (u & v & E & Eh & El & Nb & Ew & Hz) Hc. pose proof (zlen_nonneg u). pose proof (zlen_nonneg v). unfold r_pop. rewrite Ew, E, Eh, zlen_app.
  assert (0 < zlen v) by (destruct v; [congruence|rewrite zlen_cons; pose proof (zlen_nonneg v); lia]).
  assert (Zs : zlen (l ++ [x]) = zlen u + zlen v) by (rewrite El, zlen_app; lia). rewrite zlen_app in Zs, Hz. change (zlen [x]) with 1 in *.
  replace (zlen u + zlen v =? 0) with false by lia. replace (zlen u + zlen v <? zlen u + zlen v) with false by lia. cbv zeta.
  destruct (exists_last_or u) as [ -> |(u' & y & -> )].
  - change (zlen (@nil A)) with 0 in *. rewrite app_nil_r in El. subst v. destruct Hc as [Hc|Hc]; [lia|]. rewrite E in Hc. cbn [app] in *. rewrite Z.add_0_l. rewrite zlen_app in *. change (zlen [x]) with 1 in *.
    pose proof (zlen_nonneg l). assert (Eu : usz (0 - 1) mod (zlen l + 1) = zlen l).
    { unfold usz. change ((0 - 1) mod 2 ^ 64) with (2 ^ 64 - 1). rewrite Zminus_mod, Hc. destruct (Z.eq_dec (zlen l) 0) as [Q|Q]; [rewrite Q; reflexivity|]. rewrite (Z.mod_small 1) by lia. symmetry. apply (Z.mod_unique _ _ (-1)); lia. }
    rewrite Eu. rewrite get_app by reflexivity. cbn [bind]. eexists. split; [reflexivity|]. exists l, [x]. cbn [r_buf r_head r_written]. split; [reflexivity|]. split; [reflexivity|]. split; [reflexivity|]. split; [discriminate|]. rewrite zlen_app, !zlen_cons. change (zlen (@nil A)) with 0. lia.
  - rewrite zlen_app in *. change (zlen [y]) with 1 in *. pose proof (zlen_nonneg u'). rewrite app_assoc in El. apply app_inj_tail in El. destruct El as [ -> <- ]. rewrite usz_small by lia. rewrite Z.mod_small by lia. rewrite <- app_assoc. cbn [app]. rewrite get_app by lia. cbn [bind].
    eexists. split; [reflexivity|]. exists u', (x :: v). cbn [r_buf r_head r_written]. split; [reflexivity|]. split; [lia|]. split; [reflexivity|]. split; [discriminate|]. rewrite zlen_app, !zlen_cons, zlen_app in *. lia.
Qed.
Lemma history n : forall os r l vs l', holds n r l -> ideals n l os = Some (vs, l') -> exists r', reals r os = Ok (vs, r') /\ holds n r' l'.
Proof.
  induction os as [|o os IH]; intros r l vs l' H E; cbn [ideals] in E.
  - injection E as <- <-. exists r. split; [reflexivity|exact H].
  - destruct (ideal n l o) as [[v l1]|] eqn:Ei; [|discriminate]. destruct (ideals n l1 os) as [[vs1 l2]|] eqn:Es; [|discriminate]. injection E as <- <-.
    assert (S : exists r1, real r o = Ok (v, r1) /\ holds n r1 l1).
    { destruct o as [x|xs| |i|i b]; cbn [ideal] in Ei; cbn [real].
      - injection Ei as <- <-. destruct (push_ok n r l x H) as (r1 & -> & Hr). exists r1. split; [reflexivity|exact Hr].
      - injection Ei as <- <-. destruct (write_ok n xs r l H) as (r1 & -> & Hr). exists r1. split; [reflexivity|exact Hr].
      - destruct (Nat.ltb_spec (length l) n); [|discriminate]. injection Ei as <- <-. destruct (pop_ok n r l H ltac:(unfold zlen; lia)) as (r1 & -> & Hr). exists r1. split; [|exact Hr]. cbn [bind]. destruct (rev l); reflexivity.
      - destruct (Z.ltb_spec i 0); [discriminate|]. destruct (nth_error l (Z.to_nat i)) as [x|] eqn:Ex; [|discriminate]. injection Ei as <- <-. exists r. rewrite (get_holds n r l i x H ltac:(lia) Ex). split; [reflexivity|exact H].
      - destruct (Nat.ltb_spec (length l) n); [|discriminate]. destruct ((0 <=? i) && (i <? Z.of_nat n)) eqn:Hb; [|discriminate]. injection Ei as <- <-. exists r. rewrite (read_not_full n r l i b H ltac:(unfold zlen; lia) ltac:(lia)). split; [reflexivity|exact H]. }
    destruct S as (r1 & Er & Hr). destruct (IH r1 l1 vs1 l2 Hr Es) as (r' & Es' & Hr'). exists r'. split; [|exact Hr']. cbn [reals]. rewrite Er. cbn [bind]. rewrite Es'. reflexivity.
Qed.
End P.
