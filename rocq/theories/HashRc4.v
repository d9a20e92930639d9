(** RC4 and the comparison of secrets. *)
From Coq Require Import ZArith Bool List Lia ZifyBool.
From Verif Require Import Mach ListAux HashModel HashUse HashSpec HashBits HashBlk Hash1.
Import ListNotations.
Open Scope Z_scope.

Definition full (l : list Z) : Prop := length l = 256%nat /\ Forall byte l.
Lemma at_full l i : full l -> byte (at_ l i).
Proof.
  intros (_ & H). unfold at_. destruct (Nat.lt_ge_cases (Z.to_nat i) (length l)) as [L|L].
  - rewrite Forall_forall in H. apply H. apply nth_In. exact L.
  - rewrite nth_overflow by exact L. unfold byte. lia.
Qed.
Lemma swap_full l i j : full l -> full (swap l i j).
Proof.
  intros H. unfold swap. split; [rewrite !upd_length; apply H|]. apply Forall_upd; [apply Forall_upd; [apply H|]|]; apply at_full; exact H.
Qed.
Lemma swap_swapped l i j : full l -> byte i -> byte j -> swapped (at_ l) (at_ (swap l i j)) i j.
Proof.
  intros (Hl & _) Hi Hj. unfold byte in *. unfold swapped, swap, at_. split; [|split].
  - rewrite !nth_upd, !upd_length. destruct (Nat.eqb_spec (Z.to_nat i) (Z.to_nat j)) as [E|E].
    + replace (Z.to_nat j <? length l)%nat with true by lia. rewrite <- E. reflexivity.
    + cbn [andb]. rewrite Nat.eqb_refl. replace (Z.to_nat i <? length l)%nat with true by lia. reflexivity.
  - rewrite nth_upd, Nat.eqb_refl, upd_length. replace (Z.to_nat j <? length l)%nat with true by lia. reflexivity.
  - intros x Hx Ni Nj. rewrite !nth_upd. replace (Z.to_nat x =? Z.to_nat j)%nat with false by lia. replace (Z.to_nat x =? Z.to_nat i)%nat with false by lia. reflexivity.
Qed.
Lemma land255 x : Z.land x 255 = x mod 256.
Proof. change 255 with (Z.ones 8). rewrite Z.land_ones by lia. reflexivity. Qed.
Lemma mod256_byte x : byte (x mod 256).
Proof. apply Z.mod_pos_bound. lia. Qed.

Definition mixed (key : list Z) (n : nat) : Z * list Z := fold_left (rc4_key key) (upto 0 n) (0, upto 0 256).
Lemma mixed_S key n : mixed key (S n) = rc4_key key (mixed key n) (Z.of_nat n).
Proof. unfold mixed. rewrite upto_S, fold_left_app. reflexivity. Qed.
Lemma mixed_0 key : snd (mixed key 0) = upto 0 256 /\ fst (mixed key 0) = 0.
Proof. split; unfold mixed; generalize (upto 0 256); reflexivity. Qed.
Lemma upto_full : full (upto 0 256).
Proof.
  split; [apply upto_length|]. apply Forall_forall. intros x Hx. unfold upto in Hx. apply in_map_iff in Hx. destruct Hx as (n & <- & Hn). apply in_seq in Hn. unfold byte. lia.
Qed.
Lemma mixed_full key n : full (snd (mixed key n)).
Proof. induction n as [|n IH]; [rewrite (proj1 (mixed_0 key)); exact upto_full|]. rewrite mixed_S. apply swap_full. exact IH. Qed.
Definition next (s : rc4) : rc4 :=
  let i := Z.land (ri s + 1) 255 in let j := Z.land (rj s + at_ (perm s) i) 255 in Rc4 i j (swap (perm s) i j).
Definition key_byte (s : rc4) : Z := at_ (perm (next s)) (Z.land (at_ (perm (next s)) (ri (next s)) + at_ (perm (next s)) (rj (next s))) 255).
Lemma crypt_cons s x t : rc4_crypt s (x :: t) = (fst (rc4_crypt (next s) t), Z.lxor x (key_byte s) :: snd (rc4_crypt (next s) t)).
Proof.
  cbn [rc4_crypt]. change (Rc4 _ _ _) with (next s). unfold key_byte. destruct (rc4_crypt (next s) t) as [s' r]. reflexivity.
Qed.
Fixpoint after (s : rc4) (n : nat) : rc4 := match n with O => s | S m => next (after s m) end.
Lemma after_next s n : after (next s) n = after s (S n).
Proof. induction n as [|n IH]; [reflexivity|]. cbn [after] in *. rewrite IH. reflexivity. Qed.
Lemma crypt_length data : forall s, length (snd (rc4_crypt s data)) = length data.
Proof. induction data as [|x t IH]; intros s; [reflexivity|]. rewrite crypt_cons. cbn [snd length]. rewrite IH. reflexivity. Qed.
Lemma crypt_nth data : forall s t, (t < length data)%nat -> nth t (snd (rc4_crypt s data)) 0 = Z.lxor (nth t data 0) (key_byte (after s t)).
Proof.
  induction data as [|x d IH]; intros s t Ht; [cbn [length] in Ht; lia|]. rewrite crypt_cons. cbn [snd]. destruct t as [|t]; [reflexivity|]. cbn [nth].
  rewrite IH by (cbn [length] in Ht; lia). rewrite after_next. reflexivity.
Qed.
Lemma crypt_state data : forall s, fst (rc4_crypt s data) = after s (length data).
Proof. induction data as [|x t IH]; intros s; [reflexivity|]. rewrite crypt_cons. cbn [fst length]. rewrite IH, after_next. reflexivity. Qed.
Lemma next_full s : full (perm s) -> full (perm (next s)).
Proof. intros H. apply swap_full. exact H. Qed.
Lemma after_full s n : full (perm s) -> full (perm (after s n)).
Proof. intros H. induction n as [|n IH]; [exact H|]. apply next_full. exact IH. Qed.
Lemma after_ri s n : ri s = 0 -> ri (after s n) = Z.of_nat n mod 256.
Proof.
  intros H. induction n as [|n IH]; [exact H|]. cbn [after next ri]. rewrite IH, land255, Zplus_mod_idemp_l. f_equal. lia.
Qed.
Lemma rc4_spec key data : (0 < length key)%nat -> RC4 key data (rc4_once key data).
Proof.
  intros Hk. unfold rc4_once.
  assert (Hs : perm (rc4_init key) = snd (mixed key 256)) by (unfold rc4_init, mixed; reflexivity).
  assert (Hi : ri (rc4_init key) = 0) by reflexivity. assert (Hj : rj (rc4_init key) = 0) by reflexivity.
  revert Hs Hi Hj. generalize (rc4_init key). intros s Hs Hri Hrj.
  exists (fun n => at_ (snd (mixed key n))), (fun n => fst (mixed key n)), (fun t => at_ (perm (after s t))), (fun t => rj (after s t)).
  split; [intros x Hx|].
  { rewrite (proj1 (mixed_0 key)). unfold at_. rewrite nth_upto by lia. lia. }
  split; [exact (proj2 (mixed_0 key))|]. split; [|split; [|split; [|split; [apply crypt_length|]]]].
  - intros i Hi. rewrite mixed_S. unfold rc4_key. cbn [fst snd]. rewrite land255. split.
    + do 2 f_equal. unfold at_, zlen. rewrite <- Nat2Z.inj_mod, Nat2Z.id. reflexivity.
    + apply swap_swapped; [apply mixed_full|unfold byte; lia|apply mod256_byte].
  - cbn [after]. rewrite Hs. reflexivity.
  - exact Hrj.
  - intros t Ht. cbv zeta. pose proof (after_full s t ltac:(rewrite Hs; apply mixed_full)) as F.
    assert (Ei : Z.land (ri (after s t) + 1) 255 = Z.of_nat (S t) mod 256).
    { rewrite land255, after_ri, Zplus_mod_idemp_l by exact Hri. f_equal. lia. }
    split; [|split].
    + cbn [after next rj]. rewrite Ei, land255. reflexivity.
    + cbn [after next rj perm]. rewrite Ei. apply swap_swapped; [exact F|apply mod256_byte|rewrite land255; apply mod256_byte].
    + rewrite crypt_nth by exact Ht. unfold xor, key_byte. f_equal. rewrite land255. cbn [after]. replace (ri (next (after s t))) with (Z.of_nat (S t) mod 256) by (cbn [next ri]; rewrite Ei; reflexivity). reflexivity.
Qed.
Lemma swapped_unique f f' g g' i j : byte i -> byte j -> (forall x, byte x -> f x = f' x) -> swapped f g i j -> swapped f' g' i j -> forall x, byte x -> g x = g' x.
Proof.
  intros Hi Hj E (A & B & C) (A' & B' & C') x Hx. destruct (Z.eq_dec x i) as [->|Ni]; [rewrite A, A'; apply E, Hj|].
  destruct (Z.eq_dec x j) as [->|Nj]; [rewrite B, B'; apply E, Hi|]. rewrite C, C' by (exact Hx || assumption). apply E, Hx.
Qed.
Lemma RC4_unique key data o o' : RC4 key data o -> RC4 key data o' -> o = o'.
Proof.
  intros (K & j & P & k & K0 & J0 & KS & P0 & k0 & L & St) (K' & j' & P' & k' & K0' & J0' & KS' & P0' & k0' & L' & St').
  assert (EK : forall i, (i <= 256)%nat -> j i = j' i /\ forall x, byte x -> K i x = K' i x).
  { induction i as [|i IH]; intros Hi; [split; [congruence|intros x Hx; rewrite K0, K0' by exact Hx; reflexivity]|].
    destruct (IH ltac:(lia)) as (Ej & Ex). destruct (KS i ltac:(lia)) as (S1 & S2). destruct (KS' i ltac:(lia)) as (S1' & S2').
    assert (Ebj : j (S i) = j' (S i)) by (rewrite S1, S1', Ej, (Ex (Z.of_nat i)) by (unfold byte; lia); reflexivity).
    split; [exact Ebj|]. rewrite <- Ebj in S2'. refine (swapped_unique (K i) (K' i) (K (S i)) (K' (S i)) (Z.of_nat i) (j (S i)) _ _ Ex S2 S2'); [unfold byte; lia|].
    rewrite S1. apply mod256_byte. }
  assert (EP : forall t, (t <= length data)%nat -> k t = k' t /\ forall x, byte x -> P t x = P' t x).
  { induction t as [|t IH]; intros Ht; [split; [congruence|rewrite P0, P0'; apply (EK 256%nat); lia]|].
    destruct (IH ltac:(lia)) as (Ek & Ex). destruct (St t ltac:(lia)) as (S1 & S2 & _). destruct (St' t ltac:(lia)) as (S1' & S2' & _). cbv zeta in *.
    assert (Ebk : k (S t) = k' (S t)) by (rewrite S1, S1', Ek, (Ex _ (mod256_byte _)); reflexivity).
    split; [exact Ebk|]. rewrite <- Ebk in S2'. refine (swapped_unique (P t) (P' t) (P (S t)) (P' (S t)) (Z.of_nat (S t) mod 256) (k (S t)) _ _ Ex S2 S2'); [apply mod256_byte|].
    rewrite S1. apply mod256_byte. }
  apply nth_ext with (d := 0) (d' := 0); [congruence|]. intros t Ht. rewrite L in Ht.
  destruct (St t Ht) as (S1 & _ & S3). destruct (St' t Ht) as (_ & _ & S3'). cbv zeta in *. rewrite S3, S3'. f_equal.
  destruct (EP (S t) ltac:(lia)) as (Ek & Ex). rewrite <- Ek.
  assert (byte (k (S t))) by (rewrite S1; apply mod256_byte).
  rewrite (Ex (Z.of_nat (S t) mod 256) (mod256_byte _)), (Ex (k (S t))) by assumption. apply Ex, mod256_byte.
Qed.
Lemma crypt_twice s data : snd (rc4_crypt s (snd (rc4_crypt s data))) = data.
Proof.
  apply nth_ext with (d := 0) (d' := 0); [rewrite !crypt_length; reflexivity|]. intros t Ht. rewrite !crypt_length in Ht.
  rewrite !crypt_nth by (rewrite ?crypt_length; exact Ht). rewrite Z.lxor_assoc, Z.lxor_nilpotent, Z.lxor_0_r. reflexivity.
Qed.
Lemma crypt_app a : forall s b, rc4_crypt s (a ++ b) = (fst (rc4_crypt (fst (rc4_crypt s a)) b), snd (rc4_crypt s a) ++ snd (rc4_crypt (fst (rc4_crypt s a)) b)).
Proof.
  induction a as [|x t IH]; intros s b; [cbn [app rc4_crypt fst snd]; apply surjective_pairing|]. cbn [app]. rewrite !crypt_cons, IH. reflexivity.
Qed.
Lemma crypt_chunks_eq chunks : forall s, crypt_chunks s chunks = snd (rc4_crypt s (concat chunks)).
Proof.
  induction chunks as [|c t IH]; intros s; [reflexivity|]. cbn [crypt_chunks concat]. rewrite crypt_app, <- IH. destruct (rc4_crypt s c) as [s' r]. reflexivity.
Qed.
Lemma safe_loop_ok n : forall a b m, (n <= length a)%nat -> (n <= length b)%nat ->
  exists r, safe_loop a b n m = Ok r /\ (r = 0 <-> m = 0 /\ firstn n a = firstn n b).
Proof.
  induction n as [|n IH]; intros a b m Ha Hb.
  - exists m. split; [destruct a; reflexivity|]. cbn [firstn]. tauto.
  - destruct a as [|x a]; [cbn [length] in Ha; lia|]. destruct b as [|y b]; [cbn [length] in Hb; lia|]. cbn [length] in Ha, Hb. cbn [safe_loop].
    destruct (IH a b (Z.lor m (Z.lxor x y)) ltac:(lia) ltac:(lia)) as (r & E & I). exists r. split; [exact E|]. rewrite I. cbn [firstn].
    rewrite Z.lor_eq_0_iff. rewrite Z.lxor_eq_0_iff. split.
    + intros ((-> & ->) & ->). split; reflexivity.
    + intros (-> & F). injection F as -> F. tauto.
Qed.
Lemma safe_ok a b n : 0 <= n -> n <= zlen a -> n <= zlen b ->
  exists r, safe_compare a b n = Ok r /\ (r = true <-> firstn (Z.to_nat n) a = firstn (Z.to_nat n) b).
Proof.
  intros Hn Ha Hb. unfold zlen in *. destruct (safe_loop_ok (Z.to_nat n) a b 0 ltac:(lia) ltac:(lia)) as (r & E & I). unfold safe_compare. rewrite E. cbn [bind].
  exists (r =? 0). split; [reflexivity|]. rewrite Z.eqb_eq, I. tauto.
Qed.
