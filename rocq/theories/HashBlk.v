(** Hashing byte by byte: a state and the bytes of the unfinished block. *)
From Coq Require Import ZArith Bool List Lia ZifyBool.
From Verif Require Import Mach ListAux HashModel HashSpec HashBits.
Import ListNotations.
Open Scope Z_scope.

Section Feed.
Context {S : Type} (f : S -> list Z -> S).
Definition feed (s : S * list Z) (x : Z) : S * list Z :=
  if (length (snd s) =? 63)%nat then (f (fst s) (snd s ++ [x]), []) else (fst s, snd s ++ [x]).
Definition feeds (s : S * list Z) (l : list Z) : S * list Z := fold_left feed l s.
Lemma feeds_app s a b : feeds s (a ++ b) = feeds (feeds s a) b.
Proof. apply fold_left_app. Qed.
Lemma feeds_short l : forall st rest, (length rest + length l < 64)%nat -> feeds (st, rest) l = (st, rest ++ l).
Proof.
  induction l as [|x l IH]; intros st rest H; cbn [feeds fold_left].
  - rewrite app_nil_r. reflexivity.
  - cbn [length] in H. unfold feed at 2. cbn [fst snd].
    replace (length rest =? 63)%nat with false by (symmetry; apply Nat.eqb_neq; lia).
    change (feeds (st, rest ++ [x]) l = (st, rest ++ x :: l)). rewrite IH by (rewrite app_length; cbn [length]; lia).
    rewrite <- app_assoc. reflexivity.
Qed.
Lemma feeds_full l st rest : (length rest + length l = 64)%nat -> (length rest < 64)%nat -> feeds (st, rest) l = (f st (rest ++ l), []).
Proof.
  intros H Hr. destruct (exists_last_or l) as [->|(u & x & ->)]; [cbn [length] in H; lia|].
  rewrite app_length in H. cbn [length] in H. rewrite feeds_app, feeds_short by lia.
  cbn [feeds fold_left]. unfold feed. cbn [fst snd].
  replace (length (rest ++ u) =? 63)%nat with true by (symmetry; apply Nat.eqb_eq; rewrite app_length; lia).
  rewrite <- app_assoc. reflexivity.
Qed.
Lemma feeds_len l : forall st rest, (length rest < 64)%nat ->
  zlen (snd (feeds (st, rest) l)) = (zlen rest + zlen l) mod 64 /\ (length (snd (feeds (st, rest) l)) < 64)%nat.
Proof.
  induction l as [|x l IH]; intros st rest H; cbn [feeds fold_left].
  - cbn [snd]. rewrite zlen_nil, Z.add_0_r, Z.mod_small by (unfold zlen; lia). split; [reflexivity|exact H].
  - unfold feed at 2 4. cbn [fst snd]. destruct (Nat.eqb_spec (length rest) 63) as [E|E].
    + destruct (IH (f st (rest ++ [x])) [] ltac:(cbn [length]; lia)) as (A & B). split; [|exact B].
      fold (feeds (f st (rest ++ [x]), []) l). rewrite A, zlen_cons, zlen_nil.
      replace (zlen rest + (1 + zlen l)) with (0 + zlen l + 1 * 64) by (unfold zlen; lia). rewrite Z.mod_add by lia. reflexivity.
    + destruct (IH st (rest ++ [x]) ltac:(rewrite app_length; cbn [length]; lia)) as (A & B). split; [|exact B].
      fold (feeds (st, rest ++ [x]) l). rewrite A, zlen_cons, zlen_app, zlen_cons, zlen_nil. f_equal. lia.
Qed.
Lemma feeds_whole l st rest : (length rest < 64)%nat -> (zlen rest + zlen l) mod 64 = 0 -> snd (feeds (st, rest) l) = [].
Proof.
  intros H E. destruct (feeds_len l st rest H) as (A & _). rewrite E in A.
  destruct (snd (feeds (st, rest) l)); [reflexivity|]. rewrite zlen_cons in A. pose proof (zlen_nonneg l0). lia.
Qed.

Context (L : S -> list Z) (inv : S -> Prop) (compress : list Z -> list Z -> list Z -> Prop).
Context (Hf : forall st b, inv st -> length b = 64%nat -> Forall byte b -> inv (f st b) /\ compress (L st) b (L (f st b))).
Lemma feeds_chain n p st : length p = (64 * n)%nat -> Forall byte p -> inv st ->
  exists out, feeds (st, []) p = (out, []) /\ inv out /\ chained compress (L st) p (L out).
Proof.
  intros Hp Hb Hi.
  assert (Hblock : forall i, (i < n)%nat -> firstn (64 * Datatypes.S i) p = firstn (64 * i) p ++ block p i /\ length (block p i) = 64%nat /\ Forall byte (block p i)).
  { intros i Hin. unfold block. split; [|split].
    - rewrite <- (firstn_skipn (64 * i) (firstn (64 * Datatypes.S i) p)). rewrite firstn_firstn, skipn_firstn_comm.
      replace (Init.Nat.min (64 * i) (64 * Datatypes.S i)) with (64 * i)%nat by lia.
      replace (64 * Datatypes.S i - 64 * i)%nat with 64%nat by lia. reflexivity.
    - rewrite firstn_length, skipn_length. lia.
    - apply Forall_forall. intros x Hx. rewrite Forall_forall in Hb. apply Hb.
      rewrite <- (firstn_skipn (64 * i) p). apply in_or_app. right.
      rewrite <- (firstn_skipn 64 (skipn (64 * i) p)). apply in_or_app. left. exact Hx. }
  assert (K : forall i, (i <= n)%nat -> snd (feeds (st, []) (firstn (64 * i) p)) = [] /\ inv (fst (feeds (st, []) (firstn (64 * i) p))) /\
     forall j, (j < i)%nat -> compress (L (fst (feeds (st, []) (firstn (64 * j) p)))) (block p j) (L (fst (feeds (st, []) (firstn (64 * Datatypes.S j) p))))).
  { induction i as [|i IH]; intros Hin.
    - change (64 * 0)%nat with 0%nat. cbn [firstn feeds fold_left fst snd]. split; [reflexivity|]. split; [exact Hi|]. intros j Hj. lia.
    - destruct (IH ltac:(lia)) as (A & B & C). destruct (Hblock i ltac:(lia)) as (D & E & F).
      assert (G : feeds (st, []) (firstn (64 * Datatypes.S i) p) = (f (fst (feeds (st, []) (firstn (64 * i) p))) (block p i), [])).
      { rewrite D, feeds_app. destruct (feeds (st, []) (firstn (64 * i) p)) as [u v]. cbn [fst snd] in *. subst v.
        rewrite feeds_full by (cbn [length]; lia). reflexivity. }
      destruct (Hf _ _ B E F) as (Hi' & Hc).
      split; [rewrite G; reflexivity|]. split; [rewrite G; exact Hi'|].
      intros j Hj. destruct (Nat.eq_dec j i) as [->|Nj]; [|apply C; lia].
      rewrite G. exact Hc. }
  assert (Ep : firstn (64 * n) p = p) by (rewrite <- Hp; apply firstn_all).
  destruct (K n ltac:(lia)) as (A & B & C). rewrite Ep in A, B.
  exists (fst (feeds (st, []) p)). split; [destruct (feeds (st, []) p); cbn [fst snd] in *; subst; reflexivity|].
  split; [exact B|].
  assert (Dn : (length p / 64)%nat = n) by (rewrite Hp, Nat.mul_comm; apply Nat.div_mul; lia).
  exists (fun i => L (fst (feeds (st, []) (firstn (64 * i) p)))). rewrite Dn, Ep.
  split; [reflexivity|]. split; [exact C|reflexivity].
Qed.
End Feed.

(** A chain has one value when its compression function has. *)
Lemma chained_unique (compress : list Z -> list Z -> list Z -> Prop) iv p o1 o2 :
  (forall h m x y, compress h m x -> compress h m y -> x = y) ->
  chained compress iv p o1 -> chained compress iv p o2 -> o1 = o2.
Proof.
  intros U (H1 & A1 & B1 & C1) (H2 & A2 & B2 & C2). subst o1 o2.
  set (n := (length p / 64)%nat) in *. clearbody n.
  assert (E : forall i, (i <= n)%nat -> H1 i = H2 i); [|apply E; lia].
  induction i as [|i IH]; intros Hi; [congruence|].
  eapply U; [apply B1; lia|]. rewrite IH by lia. apply B2. lia.
Qed.
Lemma padded_unique l8 msg p1 p2 : (forall x, length (l8 x) = 8%nat) -> padded l8 msg p1 -> padded l8 msg p2 -> p1 = p2.
Proof.
  intros Hl (k1 & L1 & -> & M1) (k2 & L2 & -> & M2). unfold len in M1, M2.
  rewrite !app_length, repeat_length, Hl in M1, M2. cbn [length] in M1, M2.
  assert (k1 = k2); [|subst; reflexivity].
  apply Z.mod_divide in M1; [|lia]. apply Z.mod_divide in M2; [|lia]. destruct M1 as [q1 E1], M2 as [q2 E2]. lia.
Qed.

(** Slices of arrays. *)
Lemma put_app a b d i : i = zlen a -> zlen d <= zlen b -> put (a ++ b) i d = Ok (a ++ d ++ skipn (length d) b).
Proof.
  intros -> H. unfold put. rewrite zlen_app. pose proof (zlen_nonneg a).
  replace ((0 <=? zlen a) && (zlen a + zlen d <=? zlen a + zlen b)) with true by lia.
  rewrite firstn_app_len by (unfold zlen; lia).
  replace (Z.to_nat (zlen a + zlen d)) with (length a + length d)%nat by (unfold zlen; lia).
  rewrite <- skipn_skipn, (skipn_app_len a b) by reflexivity. reflexivity.
Qed.
Lemma put0 b d : zlen d <= zlen b -> put b 0 d = Ok (d ++ skipn (length d) b).
Proof. intros H. exact (put_app [] b d 0 eq_refl H). Qed.
Lemma sub_ok a i n : 0 <= i -> 0 <= n -> i + n <= zlen a -> sub a i n = Ok (firstn (Z.to_nat n) (skipn (Z.to_nat i) a)).
Proof. intros Hi Hn H. unfold sub. replace ((0 <=? i) && (0 <=? n) && (i + n <=? zlen a)) with true by lia. reflexivity. Qed.
Lemma zlen_zeros n : 0 <= n -> zlen (zeros n) = n.
Proof. intros H. unfold zeros, zlen. rewrite repeat_length. lia. Qed.
Lemma Forall_zeros n : Forall byte (repeat 0 n).
Proof. apply Forall_forall. intros x Hx. apply repeat_spec in Hx. subst x. unfold byte. lia. Qed.
Lemma upto_S from n : upto from (S n) = upto from n ++ [Z.of_nat (from + n)].
Proof. unfold upto. rewrite seq_S, map_app. reflexivity. Qed.
Lemma upto_length from n : length (upto from n) = n.
Proof. unfold upto. rewrite map_length, seq_length. reflexivity. Qed.
Lemma nth_upto from n i : (i < n)%nat -> nth i (upto from n) 0 = Z.of_nat (from + i).
Proof. intros H. unfold upto. rewrite (nth_indep _ 0 (Z.of_nat 0)) by (rewrite map_length, seq_length; lia). rewrite map_nth, seq_nth by exact H. reflexivity. Qed.
Lemma bytes_le_app n m : forall x y, 0 <= x < 256 ^ Z.of_nat n -> bytes_le (n + m) (x + 256 ^ Z.of_nat n * y) = bytes_le n x ++ bytes_le m y.
Proof.
  induction n as [|n IH]; intros x y H.
  - change (256 ^ Z.of_nat 0) with 1 in *. replace x with 0 by lia. cbn [Nat.add bytes_le app]. f_equal. lia.
  - cbn [Nat.add bytes_le app]. rewrite Nat2Z.inj_succ, Z.pow_succ_r in * by lia.
    assert (0 < 256 ^ Z.of_nat n) by (apply Z.pow_pos_nonneg; lia).
    replace (256 * 256 ^ Z.of_nat n * y) with ((256 ^ Z.of_nat n * y) * 256) by ring.
    rewrite Z.mod_add, Z.div_add by lia. f_equal. apply IH.
    split; [apply Z.div_pos; lia|]. apply Z.div_lt_upper_bound; lia.
Qed.
Lemma bytes_le_mod n : forall x, bytes_le n (x mod 2 ^ (8 * Z.of_nat n)) = bytes_le n x.
Proof.
  induction n as [|n IH]; intros x; [reflexivity|]. cbn [bytes_le].
  replace (2 ^ (8 * Z.of_nat (S n))) with (256 * 2 ^ (8 * Z.of_nat n)) by (rewrite Nat2Z.inj_succ; replace (8 * Z.succ (Z.of_nat n)) with (8 + 8 * Z.of_nat n) by lia; rewrite Z.pow_add_r by lia; reflexivity).
  assert (0 < 2 ^ (8 * Z.of_nat n)) by (apply Z.pow_pos_nonneg; lia).
  rewrite Z.rem_mul_r by lia. f_equal.
  - rewrite Z.mul_comm, Z.mod_add, Z.mod_mod by lia. reflexivity.
  - rewrite Z.mul_comm, Z.div_add, Z.div_small by (lia || apply Z.mod_pos_bound; lia). rewrite Z.add_0_l. apply IH.
Qed.
Lemma bytes_be_mod x : bytes_be 8 (x mod 2 ^ 64) = bytes_be 8 x.
Proof. unfold bytes_be. f_equal. exact (bytes_le_mod 8 x). Qed.
Lemma Forall_concat chunks : Forall (Forall byte) chunks -> Forall byte (concat chunks).
Proof.
  intros Hc. apply Forall_forall. intros x Hx. apply in_concat in Hx. destruct Hx as (l & Hl & Hx). rewrite Forall_forall in Hc.
  specialize (Hc _ Hl). rewrite Forall_forall in Hc. apply Hc. exact Hx.
Qed.
(** The digest of a message once its padding has been fed. *)
Lemma finish_chain {S} (f : S -> list Z -> S) (L : S -> list Z) (inv : S -> Prop) compress iv m k l8 out :
  (forall st b, inv st -> length b = 64%nat -> Forall byte b -> inv (f st b) /\ compress (L st) b (L (f st b))) ->
  inv iv -> Forall byte m -> Forall byte l8 -> length l8 = 8%nat ->
  feeds f (feeds f (iv, []) m) ([128] ++ repeat 0 k ++ l8) = (out, []) -> (zlen m + 9 + Z.of_nat k) mod 64 = 0 ->
  inv out /\ chained compress (L iv) (m ++ [128] ++ repeat 0 k ++ l8) (L out) /\ len (m ++ [128] ++ repeat 0 k ++ l8) mod 64 = 0.
Proof.
  intros Hf Hi Hm Hl Hn Ho Hk. set (p := m ++ [128] ++ repeat 0 k ++ l8).
  assert (Hp : len p mod 64 = 0).
  { unfold len, p. rewrite !app_length, repeat_length, Hn. cbn [length]. rewrite <- Hk. f_equal. unfold zlen. lia. }
  apply Z.mod_divide in Hp as Hd; [|lia]. destruct Hd as [n Hd].
  assert (Hbp : Forall byte p).
  { unfold p. apply Forall_app. split; [exact Hm|]. apply Forall_app. split; [repeat constructor; lia|]. apply Forall_app. split; [apply Forall_zeros|exact Hl]. }
  destruct (feeds_chain f L inv compress Hf (Z.to_nat n) p iv) as (out' & C1 & C2 & C3); [unfold len in Hd; lia|exact Hbp|exact Hi|].
  unfold p in C1. rewrite feeds_app, Ho in C1. injection C1 as <-. split; [exact C2|]. split; [exact C3|exact Hp].
Qed.
