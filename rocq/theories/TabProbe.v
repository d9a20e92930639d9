(** Linear probing in a table whose size is a power of two. *)
From Coq Require Import ZArith Bool List Lia ZifyBool Permutation.
From Verif Require Import Mach ListAux TabModel.
Import ListNotations.
Open Scope Z_scope.

Lemma land_mask x c : 0 <= c -> Z.land x (2 ^ c - 1) = x mod 2 ^ c.
Proof. intros H. rewrite <- Z.land_ones by lia. f_equal. rewrite Z.ones_equiv. lia. Qed.

Lemma fetch_nth {A} (l : list A) i d : 0 <= i < zlen l -> fetch l i = Done (nth (Z.to_nat i) l d).
Proof. intros H. unfold fetch. rewrite (get_nth l i d) by lia. reflexivity. Qed.
Lemma store_ok {A} (l : list A) i x : 0 <= i < zlen l -> store l i x = Done (upd l (Z.to_nat i) x).
Proof. intros H. unfold store, set. replace ((0 <=? i) && (i <? zlen l)) with true by lia. reflexivity. Qed.
Lemma fetch_inv {A} (l : list A) i x : fetch l i = Done x -> 0 <= i < zlen l.
Proof.
  unfold fetch, get. destruct (Z.ltb_spec i 0); [discriminate|].
  destruct (nth_error l (Z.to_nat i)) eqn:E; [|discriminate]. intros _.
  assert (nth_error l (Z.to_nat i) <> None) by congruence. apply nth_error_Some in H0. unfold zlen. lia.
Qed.
Lemma nth_upd {A} (l : list A) : forall n m x d, (n < length l)%nat -> nth m (upd l n x) d = if Nat.eqb m n then x else nth m l d.
Proof.
  induction l as [|a l IH]; intros n m x d H; cbn [length] in H; [lia|].
  destruct n as [|n], m as [|m]; cbn [upd nth Nat.eqb]; try reflexivity. apply IH. lia.
Qed.

Section P.
Context {S : Type}.
Variables (emp : S -> bool) (home : S -> Z) (e0 : S).
Implicit Types (t : list S) (s : S).

Definition sl t (j : Z) : S := nth (Z.to_nat (j mod zlen t)) t e0.
Definition contents t : list S := filter (fun s => negb (emp s)) t.
Definition pinv t : Prop :=
  forall i, 0 <= i < zlen t -> emp (sl t i) = false ->
  exists k, 0 <= k < zlen t /\ i = (home (sl t i) + k) mod zlen t /\
            forall k', 0 <= k' < k -> emp (sl t (home (sl t i) + k')) = false.

Lemma sl_small t i : 0 <= i < zlen t -> sl t i = nth (Z.to_nat i) t e0.
Proof. intros H. unfold sl. rewrite Z.mod_small by lia. reflexivity. Qed.
Lemma sl_mod t i : sl t (i mod zlen t) = sl t i.
Proof. unfold sl. rewrite Zmod_mod. reflexivity. Qed.

Lemma in_contents t s : In s (contents t) <-> exists i, 0 <= i < zlen t /\ sl t i = s /\ emp s = false.
Proof.
  unfold contents. rewrite filter_In, negb_true_iff. split.
  - intros [H1 H2]. apply (In_nth _ _ e0) in H1. destruct H1 as (n & L & E).
    exists (Z.of_nat n). assert (0 <= Z.of_nat n < zlen t) by (unfold zlen; lia).
    rewrite sl_small, Nat2Z.id by lia. auto.
  - intros (i & L & E & N). split; [|exact N]. rewrite sl_small in E by lia. subst s. apply nth_In. unfold zlen in L. lia.
Qed.

Lemma probe_least stop t c : zlen t = 2 ^ c -> 0 <= c -> forall k h fuel,
  0 <= k -> k < Z.of_nat fuel ->
  stop (sl t (h + k)) = true -> (forall k', 0 <= k' < k -> stop (sl t (h + k')) = false) ->
  probe stop t (2 ^ c - 1) (h mod 2 ^ c) fuel = Done ((h + k) mod 2 ^ c).
Proof.
  intros L C k h fuel K. revert h fuel.
  assert (P : 0 < 2 ^ c) by (apply Z.pow_pos_nonneg; lia).
  refine (natlike_ind (fun k => forall h fuel, k < Z.of_nat fuel -> stop (sl t (h + k)) = true ->
     (forall k', 0 <= k' < k -> stop (sl t (h + k')) = false) -> probe stop t (2 ^ c - 1) (h mod 2 ^ c) fuel = Done ((h + k) mod 2 ^ c)) _ _ k K).
  - intros h [|f] F E _; [lia|]. cbn [probe]. rewrite (fetch_nth _ _ e0) by (rewrite L; apply Z.mod_pos_bound; lia).
    cbn [obind]. rewrite Z.add_0_r in *. unfold sl in E. rewrite L in E. rewrite E. reflexivity.
  - intros x X IH h [|f] F E N; [lia|]. cbn [probe]. rewrite (fetch_nth _ _ e0) by (rewrite L; apply Z.mod_pos_bound; lia).
    cbn [obind]. pose proof (N 0 ltac:(lia)) as N0. rewrite Z.add_0_r in N0. unfold sl in N0. rewrite L in N0. rewrite N0.
    rewrite land_mask, Zplus_mod_idemp_l by lia.
    rewrite (IH (h + 1) f); [f_equal; f_equal; lia|lia|rewrite <- E; f_equal; f_equal; lia|].
    intros k' H. rewrite <- (N (k' + 1)) by lia. do 2 f_equal. lia.
Qed.

Lemma least_Z (P : Z -> bool) : forall n, 0 <= n -> (exists k, 0 <= k < n /\ P k = true) ->
  exists k, 0 <= k < n /\ P k = true /\ forall k', 0 <= k' < k -> P k' = false.
Proof.
  intros n N. refine (natlike_ind (fun n => (exists k, 0 <= k < n /\ P k = true) -> exists k, 0 <= k < n /\ P k = true /\ forall k', 0 <= k' < k -> P k' = false) _ _ n N).
  - intros (k & H & _). lia.
  - intros x X IH (k & H & E). destruct (Z.eq_dec k x) as [->|Ne].
    + destruct (existsb (fun j => P (Z.of_nat j)) (seq 0 (Z.to_nat x))) eqn:B.
      * apply existsb_exists in B. destruct B as (j & J & PJ). apply in_seq in J.
        destruct IH as (k & H1 & H2 & H3); [exists (Z.of_nat j); split; [lia|exact PJ]|]. exists k. split; [lia|auto].
      * exists x. split; [lia|split; [exact E|]]. intros k' K. destruct (P k') eqn:Q; [|reflexivity].
        assert (existsb (fun j => P (Z.of_nat j)) (seq 0 (Z.to_nat x)) = true); [|congruence].
        apply existsb_exists. exists (Z.to_nat k'). split; [apply in_seq; lia|]. rewrite Z2Nat.id by lia. exact Q.
    + destruct IH as (j & H1 & H2 & H3); [exists k; split; [lia|exact E]|]. exists j. split; [lia|auto].
Qed.

(** Every slot is met within one turn. *)
Lemma reach n h i : 0 < n -> 0 <= i < n -> exists k, 0 <= k < n /\ (h + k) mod n = i.
Proof.
  intros N I. exists ((i - h) mod n). split; [apply Z.mod_pos_bound; lia|].
  rewrite Zplus_mod_idemp_r. replace (h + (i - h)) with i by lia. apply Z.mod_small. lia.
Qed.
Lemma same_turn n h a b : 0 <= a < n -> 0 <= b < n -> (h + a) mod n = (h + b) mod n -> a = b.
Proof.
  intros A B E. assert (N : n <> 0) by lia.
  pose proof (Z.div_mod (h + a) n N). pose proof (Z.div_mod (h + b) n N).
  assert (D : (h + a) / n = (h + b) / n \/ (h + a) / n < (h + b) / n \/ (h + a) / n > (h + b) / n) by lia. nia.
Qed.

Lemma probe_stops stop t c h i : zlen t = 2 ^ c -> 0 <= c -> 0 <= i < 2 ^ c -> stop (sl t i) = true ->
  exists k, 0 <= k < 2 ^ c /\ stop (sl t (h + k)) = true /\ (forall k', 0 <= k' < k -> stop (sl t (h + k')) = false) /\
            probe stop t (2 ^ c - 1) (h mod 2 ^ c) (length t) = Done ((h + k) mod 2 ^ c).
Proof.
  intros L C I E. assert (P : 0 < 2 ^ c) by lia.
  destruct (reach (2 ^ c) h i P I) as (k0 & K0 & E0).
  destruct (least_Z (fun k => stop (sl t (h + k))) (2 ^ c)) as (k & K & Q & M); [lia| |].
  { exists k0. split; [lia|]. rewrite <- (sl_mod t (h + k0)), L, E0. exact E. }
  exists k. split; [exact K|]. split; [exact Q|]. split; [exact M|].
  apply probe_least; try assumption; try lia. unfold zlen in L. lia.
Qed.

Lemma sl_upd t i j s : 0 <= i < zlen t -> sl (upd t (Z.to_nat i) s) j = if j mod zlen t =? i then s else sl t j.
Proof.
  intros I. unfold sl. unfold zlen at 1. rewrite upd_length. fold (zlen t).
  assert (0 <= j mod zlen t < zlen t) by (apply Z.mod_pos_bound; lia).
  rewrite nth_upd by (unfold zlen in I; lia).
  destruct (Z.eqb_spec (j mod zlen t) i) as [->|N]; [rewrite Nat.eqb_refl; reflexivity|].
  destruct (Nat.eqb_spec (Z.to_nat (j mod zlen t)) (Z.to_nat i)); [lia|reflexivity].
Qed.
Lemma zlen_upd t i s : zlen (upd t i s) = zlen t.
Proof. unfold zlen. rewrite upd_length. reflexivity. Qed.

(** Writing [s] in a slot keeps the invariant when the slot already was in use with the same home, or was the first empty one. *)
Lemma pinv_insert t c s k : zlen t = 2 ^ c -> 0 <= c -> pinv t -> emp s = false -> 0 <= k < 2 ^ c ->
  (forall k', 0 <= k' < k -> emp (sl t (home s + k')) = false) ->
  pinv (upd t (Z.to_nat ((home s + k) mod 2 ^ c)) s).
Proof.
  intros L C I N K M i Hi E. rewrite zlen_upd in Hi.
  assert (B : 0 <= (home s + k) mod 2 ^ c < zlen t) by (rewrite L; apply Z.mod_pos_bound; lia).
  assert (G : forall j, emp (sl t j) = false -> emp (sl (upd t (Z.to_nat ((home s + k) mod 2 ^ c)) s) j) = false).
  { intros j J. rewrite sl_upd by exact B. destruct (_ =? _); assumption. }
  rewrite zlen_upd. rewrite sl_upd by exact B. rewrite sl_upd in E by exact B.
  destruct (Z.eqb_spec (i mod zlen t) ((home s + k) mod 2 ^ c)) as [Q|Q].
  - exists k. split; [lia|]. rewrite Z.mod_small in Q by lia. split; [rewrite Q, L; reflexivity|]. intros k' K'. apply G, M, K'.
  - destruct (I i Hi E) as (k1 & K1 & E1 & M1). exists k1. split; [exact K1|]. split; [exact E1|]. intros k' K'. apply G, M1, K'.
Qed.

Lemma upd_split t i s : 0 <= i < zlen t -> exists a b, t = a ++ sl t i :: b /\ upd t (Z.to_nat i) s = a ++ s :: b.
Proof.
  intros I. rewrite sl_small by exact I. assert (H : (Z.to_nat i < length t)%nat) by (unfold zlen in I; lia).
  destruct (nth_split t e0 H) as (a & b & E & La). exists a, b. split; [exact E|].
  rewrite E at 1. rewrite <- La. apply upd_app.
Qed.
Lemma contents_insert t i s : 0 <= i < zlen t -> emp (sl t i) = true -> emp s = false ->
  Permutation (contents (upd t (Z.to_nat i) s)) (s :: contents t).
Proof.
  intros I E N. destruct (upd_split t i s I) as (a & b & T & U). rewrite U. rewrite T at 1. unfold contents.
  rewrite !filter_app. cbn [filter]. rewrite E, N. cbn [negb]. symmetry. apply Permutation_middle.
Qed.
Lemma contents_replace t i s : 0 <= i < zlen t -> emp (sl t i) = false -> emp s = false ->
  exists a b, contents t = a ++ sl t i :: b /\ contents (upd t (Z.to_nat i) s) = a ++ s :: b.
Proof.
  intros I E N. destruct (upd_split t i s I) as (a & b & T & U). exists (contents a), (contents b). rewrite U. rewrite T at 1. unfold contents.
  rewrite !filter_app. cbn [filter]. rewrite E, N. cbn [negb]. auto.
Qed.

(** A matching entry whose home is where the search starts is found. *)
Lemma probe_finds (mt : S -> bool) t c h i : zlen t = 2 ^ c -> 0 <= c -> pinv t ->
  0 <= i < zlen t -> emp (sl t i) = false -> mt (sl t i) = true -> home (sl t i) = h ->
  (forall j, 0 <= j < zlen t -> emp (sl t j) = false -> mt (sl t j) = true -> j = i) ->
  probe (fun s => emp s || mt s) t (2 ^ c - 1) (h mod 2 ^ c) (length t) = Done i.
Proof.
  intros L C I Hi E M Hh U. destruct (I i Hi E) as (k & K & Ei & Mk). rewrite Hh in *.
  rewrite L in Ei. rewrite (probe_least _ t c L C k h).
  - rewrite <- Ei. reflexivity.
  - lia.
  - unfold zlen in K. lia.
  - replace (sl t (h + k)) with (sl t i); [rewrite M; apply orb_true_r|]. rewrite <- (sl_mod t (h + k)), L, <- Ei. reflexivity.
  - intros k' K'. rewrite Mk by exact K'. cbn [orb]. destruct (mt (sl t (h + k'))) eqn:Q; [|reflexivity]. exfalso.
    assert (B : 0 <= (h + k') mod zlen t < zlen t) by (apply Z.mod_pos_bound; lia).
    assert (J := U ((h + k') mod zlen t) B). rewrite !sl_mod in J. specialize (J (Mk _ K') Q).
    rewrite L in J, K. rewrite Ei in J. apply same_turn in J; lia.
Qed.

(** With no matching entry and some empty slot, the search stops at an empty slot and entering there keeps the invariant. *)
Lemma probe_misses (mt : S -> bool) t c h i0 : zlen t = 2 ^ c -> 0 <= c -> pinv t ->
  0 <= i0 < zlen t -> emp (sl t i0) = true ->
  (forall j, 0 <= j < zlen t -> emp (sl t j) = false -> mt (sl t j) = false) ->
  exists i, probe (fun s => emp s || mt s) t (2 ^ c - 1) (h mod 2 ^ c) (length t) = Done i /\ 0 <= i < zlen t /\
    emp (sl t i) = true /\ (forall s, emp s = false -> home s = h -> pinv (upd t (Z.to_nat i) s)).
Proof.
  intros L C I Hi E N. assert (P : 0 < 2 ^ c) by lia.
  destruct (probe_stops (fun s => emp s || mt s) t c h i0 L C) as (k & K & Q & M & R); [lia|rewrite E; reflexivity|].
  exists ((h + k) mod 2 ^ c). split; [exact R|].
  assert (B : 0 <= (h + k) mod 2 ^ c < zlen t) by (rewrite L; apply Z.mod_pos_bound; lia).
  split; [exact B|]. assert (E' : emp (sl t ((h + k) mod 2 ^ c)) = true).
  { destruct (emp (sl t ((h + k) mod 2 ^ c))) eqn:X; [reflexivity|]. pose proof (N _ B X) as Y. rewrite <- L, sl_mod in X, Y.
    rewrite X, Y in Q. discriminate. }
  split; [exact E'|]. intros s Ns Hs. subst h. apply pinv_insert; try assumption. intros k' K'. specialize (M k' K'). apply orb_false_iff in M. apply M.
Qed.

Lemma has_empty t : (length (contents t) < length t)%nat -> exists i, 0 <= i < zlen t /\ emp (sl t i) = true.
Proof.
  intros H. assert (X : exists n, (n < length t)%nat /\ emp (nth n t e0) = true).
  { induction t as [|s t IH]; cbn [length] in H; [lia|]. unfold contents in H. cbn [filter] in H.
    destruct (emp s) eqn:E; [exists 0%nat; cbn; split; [lia|exact E]|]. cbn [negb length] in H.
    destruct IH as (n & L & Q); [unfold contents; lia|]. exists (Datatypes.S n). cbn [length nth]. split; [lia|exact Q]. }
  destruct X as (n & L & E). exists (Z.of_nat n). assert (0 <= Z.of_nat n < zlen t) by (unfold zlen; lia).
  rewrite sl_small, Nat2Z.id by lia. auto.
Qed.

Lemma pinv_empty n : emp e0 = true -> pinv (repeat e0 n).
Proof.
  intros emp0 i Hi E. rewrite sl_small in E by exact Hi. assert (X : nth (Z.to_nat i) (repeat e0 n) e0 = e0) by apply nth_repeat.
  rewrite X in E. congruence.
Qed.
Lemma contents_empty n : emp e0 = true -> contents (repeat e0 n) = [].
Proof. intros emp0. unfold contents. induction n as [|n IH]; cbn; [reflexivity|]. rewrite emp0. cbn. exact IH. Qed.
End P.

Lemma probe_ext {S} (f g : S -> bool) t mask : (forall s, f s = g s) -> forall fuel i, probe f t mask i fuel = probe g t mask i fuel.
Proof.
  intros E fuel. induction fuel as [|n IH]; intros i; cbn [probe]; [reflexivity|].
  destruct (fetch t i); cbn [obind]; try reflexivity. rewrite E. destruct (g a); [reflexivity|apply IH].
Qed.
Lemma pinv_replace {S} (emp : S -> bool) (home : S -> Z) e0 (t : list S) c i s : zlen t = 2 ^ c -> 0 <= c -> pinv emp home e0 t ->
  0 <= i < zlen t -> emp (sl e0 t i) = false -> emp s = false -> home s = home (sl e0 t i) -> emp e0 = true ->
  pinv emp home e0 (upd t (Z.to_nat i) s).
Proof.
  intros L C I Hi E N H E0. destruct (I i Hi E) as (k & K & Ei & M). rewrite <- H in *.
  rewrite Ei. rewrite L. apply pinv_insert; try assumption. rewrite <- L. exact K.
Qed.
Lemma pinv_home {S} (emp : S -> bool) (h1 h2 : S -> Z) e0 (t : list S) :
  (forall s, In s (contents emp t) -> h1 s = h2 s) -> emp e0 = true -> pinv emp h1 e0 t -> pinv emp h2 e0 t.
Proof.
  intros H E0 I i Hi E. assert (X : h1 (sl e0 t i) = h2 (sl e0 t i)).
  { apply H. apply (in_contents emp e0). exists i. auto. }
  destruct (I i Hi E) as (k & K). exists k. rewrite <- X. exact K.
Qed.
