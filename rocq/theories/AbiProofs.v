(** Classes of arguments on x86-64: the proofs. *)
From Coq Require Import ZArith List Bool Lia ZifyBool.
From Verif Require Import AbiModel AbiSpec.
Import ListNotations.
Open Scope Z_scope.

Section TyInd.
Variable P : ty -> Prop.
Hypotheses (hv : P TVoid) (hi : forall n, P (TInt n)) (hi128 : P TInt128) (hf : forall n, P (TFlt n)) (hf128 : P TF128) (hp : P TPair)
  (ha : forall u s a ms, Forall (fun m => P (snd m)) ms -> P (TAgg u s a ms)) (harr : forall b n, P b -> P (TArray b n)) (hvec : forall v n, P (TVec v n)).
Fixpoint ty_induction (t : ty) : P t :=
  match t return P t with
  | TVoid => hv | TInt n => hi n | TInt128 => hi128 | TFlt n => hf n | TF128 => hf128 | TPair => hp
  | TAgg u s a ms => ha u s a ms ((fix go (ms : list (Z * ty)) : Forall (fun m => P (snd m)) ms :=
       match ms with [] => Forall_nil _ | m :: r => Forall_cons m (ty_induction (snd m)) (go r) end) ms)
  | TArray b n => harr b n (ty_induction b)
  | TVec v n => hvec v n
  end.
End TyInd.

(** The inner loops by themselves. *)
Section Loops.
Variables (cl : ty -> Z -> option (class * class)) (g : target) (u : bool) (sz off : Z).
Fixpoint members_loop (ms : list (Z * ty)) (lo hi : class) : option (class * class) :=
  match ms with
  | [] => Some (post_merge sz lo hi)
  | (mo, m) :: r =>
      if (16 <? sz) && ((negb u && negb (sz =? size m)) || (avx g <? sz)) then Some (post_merge sz Mem hi) else
      if negb ((off + mo) mod align g m =? 0) then Some (post_merge sz Mem hi) else
      match cl m (off + mo) with
      | None => None
      | Some (fl, fh) =>
          match merge lo fl, merge hi fh with
          | Some lo, Some hi => if ceq lo Mem || ceq hi Mem then Some (post_merge sz lo hi) else members_loop r lo hi
          | _, _ => None
          end
      end
  end.
End Loops.
Section Loops2.
Variables (cl : Z -> option (class * class)) (sz step : Z).
Fixpoint elements_loop (n : nat) (off : Z) (lo hi : class) : option (class * class) :=
  match n with
  | O => Some (post_merge sz lo hi)
  | S k =>
      match cl off with
      | None => None
      | Some (fl, fh) =>
          match merge lo fl, merge hi fh with
          | Some lo, Some hi => if ceq lo Mem || ceq hi Mem then Some (post_merge sz lo hi) else elements_loop k (off + step) lo hi
          | _, _ => None
          end
      end
  end.
End Loops2.
Definition checked (r : option (class * class)) : option (class * class) :=
  match r with Some (lo, hi) => if ceq hi SseUp && negb (ceq lo Sse) then None else r | None => None end.
Lemma classify_agg g nm u sz a ms off : classify g nm (TAgg u sz a ms) off = if 64 <? sz then Some (current off Mem) else members_loop (classify g nm) g u sz off ms No No.
Proof. reflexivity. Qed.
Lemma classify_array g nm b n off : classify g nm (TArray b n) off =
  let sz := size b * Z.of_nat n in
  if 64 <? sz then Some (current off Mem) else
  if negb (off mod align g b =? 0) then let '(lo, hi) := current off Mem in Some (post_merge sz Mem hi) else
  if (16 <? sz) && (negb (sz =? size b) || (avx g <? sz)) then Some (Mem, No) else checked (elements_loop (classify g nm b) sz (size b) n off No No).
Proof. reflexivity. Qed.
Section Loops3.
Variables (off : Z).
Fixpoint scalars_ms (ms : list (Z * ty)) : list scalar := match ms with [] => [] | (mo, m) :: r => scalars m (off + mo) ++ scalars_ms r end.
End Loops3.
Section Loops4.
Variables (b : ty).
Fixpoint scalars_el (n : nat) (off : Z) : list scalar := match n with O => [] | S k => scalars b off ++ scalars_el k (off + size b) end.
End Loops4.
Lemma scalars_agg u sz a ms off : scalars (TAgg u sz a ms) off = scalars_ms off ms. Proof. reflexivity. Qed.
Lemma scalars_array b n off : scalars (TArray b n) off = scalars_el b n off. Proof. reflexivity. Qed.
Section Loops5.
Variables (g : target) (off : Z).
Fixpoint aligned_ms (ms : list (Z * ty)) : bool := match ms with [] => true | (mo, m) :: r => ((off + mo) mod align g m =? 0) && aligned g m (off + mo) && aligned_ms r end.
End Loops5.
Section Loops6.
Variables (g : target) (b : ty).
Fixpoint aligned_el (n : nat) (off : Z) : bool := match n with O => true | S k => (off mod align g b =? 0) && aligned g b off && aligned_el k (off + size b) end.
End Loops6.
Section Loops7.
Variables (g : target) (u : bool) (sz : Z).
Fixpoint laid_ms (from : Z) (ms : list (Z * ty)) : Prop :=
  match ms with [] => True | (mo, m) :: r => from <= mo /\ (u = true -> mo = 0) /\ mo + size m <= sz /\ laid g m /\ laid_ms (if u then 0 else mo + size m) r end.
End Loops7.
Lemma aligned_agg g u sz a ms off : aligned g (TAgg u sz a ms) off = aligned_ms g off ms. Proof. reflexivity. Qed.
Lemma aligned_array g b n off : aligned g (TArray b n) off = aligned_el g b n off. Proof. reflexivity. Qed.
Lemma laid_agg g u sz a ms : laid g (TAgg u sz a ms) <-> 0 < a /\ sz mod a = 0 /\ ms <> [] /\ match ms with (o, _) :: _ => o = 0 | [] => True end /\ laid_ms g u sz 0 ms.
Proof. reflexivity. Qed.

(** Sizes. *)
Lemma pow2_up_pos w : 0 < pow2_up w. Proof. unfold pow2_up. apply Z.pow_pos_nonneg; [lia | apply Z.log2_up_nonneg]. Qed.
Lemma pow2_up_ge w : 0 < w -> w <= pow2_up w.
Proof. intro H. unfold pow2_up. destruct (Z.eq_dec w 1) as [->|N]; [cbn; lia|]. apply Z.log2_up_spec. lia. Qed.
Lemma pow2_div a b : 0 <= a <= b -> (2 ^ a | 2 ^ b).
Proof. intro H. exists (2 ^ (b - a)). rewrite <- Z.pow_add_r by lia. f_equal. lia. Qed.
Lemma vsize1_pos v : scalar_ok v -> 0 < vsize1 v.
Proof. destruct v as [n|n|]; cbn [scalar_ok vsize1 In]; lia. Qed.
Lemma size_pos g t : laid g t -> 0 < size t.
Proof.
  induction t as [|n| |n| | |u s a ms IH|b n IH|v n] using ty_induction; cbn [size]; try (cbn; lia).
  - intro L. apply laid_agg in L. destruct L as (_ & _ & NE & F & L). destruct ms as [|[mo m] r]; [congruence|]. subst mo. cbn [laid_ms] in L. apply Forall_inv in IH. cbn [snd] in IH. destruct L as (_ & _ & L1 & L2 & _). specialize (IH L2). lia.
  - cbn [laid]. intros [H L]. specialize (IH L). apply Z.mul_pos_pos; lia.
  - intros _. apply pow2_up_pos.
Qed.
Lemma align_pos g t : target_ok g -> laid g t -> 0 < align g t.
Proof.
  intros G. induction t as [|n| |n| | |u s a ms IH|b n IH|v n] using ty_induction; cbn [align laid]; try (cbn; lia).
  - intros H. apply IH, H.
  - intros _. destruct (n =? 0); (destruct (negb (max_vec g =? 0) && (max_vec g <? _)) eqn:E; [|apply pow2_up_pos]);
    destruct G as [_ [G|(k & Hk & G)]]; try lia; rewrite G; apply Z.pow_pos_nonneg; lia.
Qed.
Lemma size_align g t : target_ok g -> laid g t -> (align g t | size t).
Proof.
  intros G. induction t as [|n| |n| | |u s a ms IH|b n IH|v n] using ty_induction; cbn [align size]; intro L.
  - destruct L.
  - apply Z.divide_refl.
  - apply Z.divide_refl.
  - apply Z.divide_refl.
  - apply Z.divide_refl.
  - exists 2. reflexivity.
  - apply laid_agg in L. destruct L as (L1 & L2 & _). apply Z.mod_divide; [lia | exact L2].
  - cbn [laid] in L. apply Z.divide_mul_l, IH, L.
  - cbn [laid] in L. destruct L as [V N]. replace (n =? 0) with false by lia. destruct (negb (max_vec g =? 0) && (max_vec g <? vsize1 v * n)) eqn:E; [|apply Z.divide_refl].
    destruct G as [_ [G|(k & Hk & G)]]; [lia|]. rewrite G. unfold pow2_up. apply pow2_div. split; [lia|]. rewrite G in E.
    assert (E' : 2 ^ k <= vsize1 v * n) by lia. apply Z.log2_up_le_mono in E'. rewrite Z.log2_up_pow2 in E' by lia. exact E'.
Qed.

(** The merging of classes. *)
Definition join (a b : class) : class :=
  match a, b with Mem, _ | _, Mem => Mem | Integer, _ | _, Integer => Integer | Sse, _ | _, Sse => Sse | SseUp, _ | _, SseUp => SseUp | No, No => No end.
Lemma merge_join a b : a <> Mem -> merge a b = Some (join a b).
Proof. destruct a, b; intro H; try reflexivity; congruence. Qed.
Lemma eightbyte_app e l l' : eightbyte e (l ++ l') = join (eightbyte e l) (eightbyte e l').
Proof.
  unfold eightbyte. rewrite !existsb_app. destruct (existsb (has_int e) l), (existsb (has_int e) l'), (existsb (has_sse e) l), (existsb (has_sse e) l'), (existsb (has_up e) l), (existsb (has_up e) l'); reflexivity.
Qed.
Lemma eightbyte_not_mem e l : eightbyte e l <> Mem.
Proof. unfold eightbyte. destruct (existsb (has_int e) l), (existsb (has_sse e) l), (existsb (has_up e) l); discriminate. Qed.
Lemma lo_not_up l : eightbyte 0 l <> SseUp.
Proof.
  unfold eightbyte. destruct (existsb (has_int 0) l), (existsb (has_sse 0) l); try discriminate. replace (existsb (has_up 0) l) with false; [discriminate|].
  induction l as [|s l IH]; [reflexivity|]. cbn [existsb]. rewrite <- IH. unfold has_up. destruct (s_kind s); reflexivity.
Qed.
Lemma up_lo l : eightbyte 1 l = SseUp -> eightbyte 0 l = Sse \/ eightbyte 0 l = Integer.
Proof.
  unfold eightbyte. intro H. destruct (existsb (has_int 1) l); [discriminate|]. destruct (existsb (has_sse 1) l); [discriminate|]. destruct (existsb (has_up 1) l) eqn:U; [|discriminate].
  apply existsb_exists in U. destruct U as (s & I & U). assert (W : existsb (has_sse 0) l = true).
  { apply existsb_exists. exists s. split; [exact I|]. unfold has_up in U. unfold has_sse. destruct (s_kind s); try discriminate. reflexivity. }
  rewrite W. destruct (existsb (has_int 0) l); auto.
Qed.
Definition agree (lo hi : class) (l : list scalar) : Prop :=
  lo = eightbyte 0 l /\ (hi = eightbyte 1 l \/ eightbyte 1 l = SseUp /\ hi = Sse /\ eightbyte 0 l = Integer).
Lemma classes_agree l : agree (fst (classes l)) (snd (classes l)) l.
Proof.
  unfold classes, agree. cbn [fst snd]. split; [reflexivity|]. pose proof (up_lo l) as U. destruct (eightbyte 1 l); auto. specialize (U eq_refl). destruct U as [-> | ->]; auto.
Qed.
Lemma agree_join lo hi fl fh l l' : agree lo hi l -> agree fl fh l' -> agree (join lo fl) (join hi fh) (l ++ l') /\ join lo fl <> Mem /\ join hi fh <> Mem.
Proof.
  unfold agree. rewrite !eightbyte_app. pose proof (lo_not_up l) as N. pose proof (lo_not_up l') as N'. pose proof (up_lo l) as U. pose proof (up_lo l') as U'.
  pose proof (eightbyte_not_mem 0 l). pose proof (eightbyte_not_mem 1 l). pose proof (eightbyte_not_mem 0 l'). pose proof (eightbyte_not_mem 1 l').
  intros [-> A] [-> A']. destruct (eightbyte 0 l), (eightbyte 0 l'), (eightbyte 1 l), (eightbyte 1 l'); try congruence;
  try (specialize (U eq_refl); destruct U; discriminate); try (specialize (U' eq_refl); destruct U'; discriminate);
  destruct A as [->|(A1 & -> & A3)]; try discriminate; destruct A' as [->|(A1' & -> & A3')]; try discriminate; cbn [join];
  (split; [split; [reflexivity | auto] | split; discriminate]).
Qed.
Lemma agree_post sz lo hi l : sz <= 16 -> agree lo hi l -> post_merge sz lo hi = classes l.
Proof.
  intros S [-> A]. unfold post_merge, classes. replace (16 <? sz) with false by lia. cbn [andb]. pose proof (eightbyte_not_mem 1 l). pose proof (eightbyte_not_mem 0 l). pose proof (lo_not_up l). pose proof (up_lo l) as U.
  destruct (eightbyte 1 l), (eightbyte 0 l); try congruence; destruct A as [->|(A1 & -> & A3)]; try discriminate; try reflexivity; specialize (U eq_refl); destruct U; discriminate.
Qed.
Lemma post_mem sz lo hi : lo = Mem \/ hi = Mem -> fst (post_merge sz lo hi) = Mem.
Proof. intros [->| ->]; unfold post_merge; [destruct hi, (16 <? sz); reflexivity | reflexivity]. Qed.
