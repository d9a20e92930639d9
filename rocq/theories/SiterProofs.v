(** Proofs about walks over strings. *)
From Coq Require Import ZArith Bool List Lia ZifyBool.
From Verif Require Import Mach ListAux CodecSpec LexSpec UtfModel UtfSpec UtfProofs SiterModel SiterSpec.
Import ListNotations.
Local Open Scope Z_scope.

(** The decoder never looks beyond four bytes. *)
Lemma window_same s i n : utf8_to_char32 s i (if n <? 4 then n else 4) = utf8_to_char32 s i n.
Proof.
  destruct (Z.ltb_spec n 4) as [H|H]; [reflexivity|]. unfold utf8_to_char32. replace (n <? 1) with false by lia. replace (n <? 2) with false by lia.
  replace (n <? 3) with false by lia. replace (n <? 4) with false by lia. reflexivity.
Qed.
Definition at_point (it : siter) (pre t : list Z) : Prop := bytes_of it = pre ++ t /\ current it = zlen pre.
Lemma decode_at it pre t : at_point it pre t -> utf8_to_char32 (bytes_of it) (current it) (window it) = utf8_to_char32 (pre ++ t) (zlen pre) (zlen t).
Proof. intros [E C]. unfold window. rewrite window_same, E, C, zlen_app. f_equal. lia. Qed.
Lemma end_at it pre t : at_point it pre t -> (zlen (bytes_of it) <=? current it) = match t with [] => true | _ => false end.
Proof. intros [E C]. rewrite E, C, zlen_app. destruct t as [|x t]; [rewrite zlen_nil; lia|]. rewrite zlen_cons. pose proof (zlen_nonneg t). lia. Qed.
(** One step over any bytes: the sequence that stands there, or a fault that does not move. *)
Lemma next_any it pre t : Forall is_byte t -> at_point it pre t ->
  (t = [] /\ next it = Ok (NoMore, it) /\ peek it = Ok NoMore) \/
  (exists u b t' it', t = b ++ t' /\ loose u b /\ next it = Ok (Char u, it') /\ peek it = Ok (Char u) /\ at_point it' (pre ++ b) t') \/
  (t <> [] /\ next it = Ok (Invalid, it) /\ peek it = Ok Invalid /\ forall u b t', t = b ++ t' -> ~ loose u b).
Proof.
  intros Hb P. unfold next, peek. rewrite (end_at it pre t P). destruct t as [|x t0] eqn:Et; [left; repeat split|]. rewrite <- Et in *. right.
  rewrite (decode_at it pre t P). destruct (lead_spec pre t Hb) as [(u & b & t' & E & L & ->)|[-> No]]; [rewrite Et; discriminate| |]; cbn [bind].
  - left. exists u, b, t'. eexists. split; [exact E|]. split; [exact L|]. split; [reflexivity|]. split; [reflexivity|]. destruct P as [E1 C]. split; cbn [bytes_of current].
    + rewrite E1, E. apply app_assoc.
    + rewrite C, zlen_app. reflexivity.
  - right. split; [rewrite Et; discriminate|]. split; [reflexivity|]. split; [reflexivity|exact No].
Qed.
Lemma next_utf8 it pre u us : 0 <= u <= 1114111 -> Forall (fun u => 0 <= u <= 1114111) us -> at_point it pre (utf8 u ++ utf8s us) ->
  exists it', next it = Ok (Char u, it') /\ peek it = Ok (Char u) /\ at_point it' (pre ++ utf8 u) (utf8s us).
Proof.
  intros Hu Hs P. pose proof (loose_utf8 u Hu) as L. assert (B : Forall is_byte (utf8 u ++ utf8s us)) by (apply Forall_app; split; [apply utf8_bytes, Hu|apply utf8s_bytes, Hs]).
  destruct (next_any it pre _ B P) as [(E & _)|[(v & b & t' & it' & E & L' & E1 & E2 & P')|(_ & _ & _ & No)]].
  - exfalso. apply loose_length in L. apply app_eq_nil in E. destruct E as [E _]. rewrite E in L. cbn in L. lia.
  - destruct (loose_det _ _ _ _ _ _ L L' E) as (<- & <- & <-). exists it'. auto.
  - exfalso. exact (No _ _ _ eq_refl L).
Qed.
Lemma zero_at it pre t : at_point it pre t -> at_point (reset it) [] (pre ++ t).
Proof. intros [E C]. split; [exact E|reflexivity]. Qed.
Lemma utf8s_app a b : utf8s (a ++ b) = utf8s a ++ utf8s b. Proof. unfold utf8s. apply flat_map_app. Qed.
Lemma run_ok us : Forall (fun u => 0 <= u <= 1114111) us -> forall os it n, (n <= length us)%nat -> at_point it (utf8s (firstn n us)) (utf8s (skipn n us)) ->
  i_run it os = Ok (cursor_run us n os).
Proof.
  intros Hs. induction os as [|o os IH]; intros it n Hn P; [reflexivity|]. cbn [i_run cursor_run].
  assert (D : (n = length us /\ skipn n us = []) \/ exists u, nth_error us n = Some u /\ skipn n us = u :: skipn (S n) us /\ firstn (S n) us = firstn n us ++ [u] /\ (n < length us)%nat).
  { destruct (nth_error us n) as [u|] eqn:E.
    - right. exists u. split; [reflexivity|]. assert (n < length us)%nat by (apply nth_error_Some; congruence). clear -E H. revert us E H. induction n as [|n IH]; intros [|x us] E H; cbn in *; try lia.
      + injection E as ->. auto.
      + destruct (IH us E ltac:(lia)) as (A & B & C). rewrite A. split; [reflexivity|]. split; [rewrite <- B; reflexivity|lia].
    - left. apply nth_error_None in E. split; [lia|apply skipn_all2; exact E]. }
  destruct D as [[En Es]|(u & Eu & Es & Ef & Hl)].
  - rewrite Es in P. change (utf8s []) with (@nil Z) in P. assert (X : char_at us n = NoMore) by (unfold char_at; rewrite (proj2 (nth_error_None us n)) by lia; reflexivity).
    destruct (next_any it _ [] (Forall_nil _) P) as [(_ & E1 & E2)|[(v & b & t' & it' & E & L' & _)|(E & _)]]; [|exfalso; apply loose_length in L'; symmetry in E; apply app_eq_nil in E; destruct E as [E _]; rewrite E in L'; cbn in L'; lia|congruence].
    destruct o; cbn [i_step cursor]; rewrite ?E1, ?E2, ?X; cbn [bind].
    + replace (n <? length us)%nat with false by (symmetry; apply Nat.ltb_ge; lia). rewrite (IH it n Hn) by (rewrite Es; exact P). reflexivity.
    + rewrite (IH it n Hn) by (rewrite Es; exact P). reflexivity.
    + replace (n <? length us)%nat with false by (symmetry; apply Nat.ltb_ge; lia). rewrite (IH it n Hn) by (rewrite Es; exact P).
      unfold has_next. pose proof (end_at _ _ _ P) as H. cbn in H. replace (current it <? zlen (bytes_of it)) with false by lia. reflexivity.
    + rewrite (IH (reset it) O); [reflexivity|lia|]. cbn [firstn skipn]. change (utf8s []) with (@nil Z). replace (utf8s us) with (utf8s (firstn n us) ++ []); [exact (zero_at _ _ _ P)|].
      rewrite app_nil_r, En, firstn_all. reflexivity.
  - rewrite Es in P. change (utf8s (u :: skipn (S n) us)) with (utf8 u ++ utf8s (skipn (S n) us)) in P.
    assert (Hu : 0 <= u <= 1114111) by (apply (proj1 (Forall_forall _ us) Hs); eapply nth_error_In; eauto).
    assert (Hr : Forall (fun u => 0 <= u <= 1114111) (skipn (S n) us)) by (apply Forall_forall; intros x Hx; apply (proj1 (Forall_forall _ us) Hs); rewrite <- (firstn_skipn (S n) us); apply in_or_app; right; exact Hx).
    assert (X : char_at us n = Char u) by (unfold char_at; rewrite Eu; reflexivity). assert (Y : (n <? length us)%nat = true) by (apply Nat.ltb_lt; lia).
    assert (P0 : at_point it (utf8s (firstn n us)) (utf8s (skipn n us))) by (rewrite Es; exact P).
    destruct (next_utf8 it _ u _ Hu Hr P) as (it' & E1 & E2 & P'). destruct o; cbn [i_step cursor]; rewrite ?E1, ?E2, ?X, ?Y; cbn [bind].
    + rewrite (IH it' (S n)); [reflexivity|lia|]. rewrite Ef, utf8s_app. replace (utf8s [u]) with (utf8 u) by (cbn [utf8s flat_map]; symmetry; apply app_nil_r). exact P'.
    + rewrite (IH it n Hn P0). reflexivity.
    + rewrite (IH it n Hn P0). unfold has_next. pose proof (end_at _ _ _ P) as H. pose proof (loose_length _ _ (loose_utf8 u Hu)) as L. destruct (utf8 u); [cbn in L; lia|]. cbn [app] in H.
      replace (current it <? zlen (bytes_of it)) with true by lia. reflexivity.
    + rewrite (IH (reset it) O); [reflexivity|lia|]. cbn [firstn skipn]. change (utf8s []) with (@nil Z). replace (utf8s us) with (utf8s (firstn n us) ++ utf8s (skipn n us)) by (rewrite <- utf8s_app, firstn_skipn; reflexivity).
      exact (zero_at _ _ _ P0).
Qed.
(** Walking over any bytes. *)
Lemma walk_any k : forall n t, (length t <= n)%nat -> Forall is_byte t -> forall it pre, at_point it pre t -> exists us s1 s2 e, t = s1 ++ s2 /\ looses us s1 /\
  i_run it (repeat INext (length us + k)) = Ok (map (fun u => OChar (Char u)) us ++ repeat (OChar e) k) /\
  ((s2 = [] /\ e = NoMore) \/ (s2 <> [] /\ e = Invalid /\ forall u b r, s2 = b ++ r -> ~ loose u b)).
Proof.
  assert (St : forall e it, next it = Ok (e, it) -> i_run it (repeat INext k) = Ok (repeat (OChar e) k)).
  { intros e it E. clear -E. induction k as [|k IH]; [reflexivity|]. cbn [repeat i_run i_step]. rewrite E. cbn [bind]. rewrite IH. reflexivity. }
  induction n as [|n IH]; intros t Hl Hb it pre P; destruct (next_any it pre t Hb P) as [(E & E1 & _)|[(u & b & t' & it' & E & L & E1 & _ & P')|(E & E1 & _ & No)]].
  - exists [], [], [], NoMore. split; [exact E|]. split; [constructor|]. split; [exact (St _ _ E1)|]. left. auto.
  - exfalso. apply loose_length in L. rewrite E, app_length in Hl. lia.
  - destruct t; [congruence|cbn in Hl; lia].
  - exists [], [], [], NoMore. split; [exact E|]. split; [constructor|]. split; [exact (St _ _ E1)|]. left. auto.
  - assert (Ll := loose_length _ _ L). subst t. rewrite app_length in Hl. destruct (IH t' ltac:(lia) (proj2 (proj1 (Forall_app _ _ _) Hb)) it' _ P') as (us & s1 & s2 & e & E2 & L2 & R & Z).
    exists (u :: us), (b ++ s1), s2, e. split; [rewrite E2; apply app_assoc|]. split; [constructor; assumption|]. split; [|exact Z].
    cbn [length Nat.add repeat i_run i_step map app]. rewrite E1. cbn [bind]. rewrite R. reflexivity.
  - exists [], [], t, Invalid. split; [reflexivity|]. split; [constructor|]. split; [exact (St _ _ E1)|]. right. auto.
Qed.
