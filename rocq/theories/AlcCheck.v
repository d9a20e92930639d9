(** A checker that replays one history and finds a broken promise; used for the counterexamples. [dishonest_sound] ties it to [honest]. *)
From Coq Require Import ZArith Bool List Lia ZifyBool.
From Verif Require Import AlcSpec.
Import ListNotations.
Open Scope Z_scope.

Definition align_okb (al : Z) : bool := (al =? 0) || ((0 <? al) && (al =? 2 ^ Z.log2 al) && (Z.log2 al <=? 28)).
Lemma align_okb_sound al : align_okb al = true -> align_ok al.
Proof.
  unfold align_okb, align_ok. intros H. apply orb_true_iff in H. destruct H as [H|H]; [left; lia|right].
  exists (Z.log2 al). pose proof (Z.log2_nonneg al). split; [lia|]. apply andb_true_iff in H. destruct H as [H _]. apply andb_true_iff in H. destruct H as [_ H]. apply Z.eqb_eq in H. exact H.
Qed.
Definition legalb (l : ledger) (o : op) : bool :=
  match o with
  | Acquire n _ al => (0 <? n) && (n <? 2 ^ 64) && align_okb al
  | Resize p n al => existsb (fun b => fst b =? p) l && ((0 <? n) && (n <? 2 ^ 64) && align_okb al)
  | Release p _ => existsb (fun b => fst b =? p) l
  | Store p off v => existsb (fun b => (fst b =? p) && ((0 <=? off) && (off <? size_of (snd b)))) l && ((0 <=? v) && (v <? 256))
  | Mark => true
  | Reset k => 0 <=? k
  end.
Lemma held_sound (l : ledger) p : existsb (fun b => fst b =? p) l = true -> In p (map fst l).
Proof. intros H. apply existsb_exists in H. destruct H as (b & B & E). apply in_map_iff. exists b. split; [lia|exact B]. Qed.
Lemma legalb_sound l o : legalb l o = true -> legal l o.
Proof.
  destruct o; cbn [legalb legal]; intros H; repeat (apply andb_true_iff in H; destruct H as [H ?]);
    repeat match goal with X : _ && _ = true |- _ => apply andb_true_iff in X; destruct X end.
  - split; [lia|apply align_okb_sound; assumption].
  - split; [apply held_sound; assumption|]. split; [lia|apply align_okb_sound; assumption].
  - apply held_sound; assumption.
  - split; [|lia]. apply existsb_exists in H. destruct H as ([q d] & B & E). cbn [fst snd] in E.
    exists d. split; [|lia]. replace p with q by lia. exact B.
  - exact I.
  - lia.
Qed.
Definition overlaps (p n : Z) (b : Z * list Z) : bool := (fst b <? p + n) && (p <? fst b + size_of (snd b)).
Definition misaligned (al p : Z) : bool := negb (p mod 16 =? 0) || (negb (al =? 0) && negb (p mod al =? 0)).
Fixpoint same (a b : list Z) : bool :=
  match a, b with [], [] => true | x :: a, y :: b => (x =? y) && same a b | _, _ => false end.
Lemma same_refl a : same a a = true.
Proof. induction a as [|x a IH]; [reflexivity|]. cbn [same]. rewrite Z.eqb_refl. exact IH. Qed.
Definition unfair (l : ledger) (o : op) (a : answer) (m' : mem) : bool :=
  match o, a with
  | Acquire n z al, APtr p => misaligned al p || existsb (overlaps p n) l || (z && existsb (fun v => negb (v =? 0)) (bytes_at m' p n))
  | Resize p n al, APtr q => misaligned al q || existsb (overlaps q n) (forget p l) ||
      existsb (fun b => (fst b =? p) && negb (same (bytes_at m' q (Z.min n (size_of (snd b)))) (firstn (Z.to_nat n) (snd b)))) l
  | _, _ => false
  end.
Lemma misaligned_sound al p : misaligned al p = true -> ~ aligned_to al p.
Proof. unfold misaligned, aligned_to. intros H [A1 A2]. destruct (Z.eqb_spec (p mod 16) 0); destruct (Z.eqb_spec al 0); cbn in H; try discriminate; try lia. Qed.
Lemma overlaps_sound p n l : existsb (overlaps p n) l = true -> ~ (forall q d, In (q, d) l -> apart p n q (size_of d)).
Proof.
  intros H A. apply existsb_exists in H. destruct H as ([q d] & B & E). specialize (A q d B). unfold overlaps in E. cbn [fst snd] in E.
  unfold apart in A. lia.
Qed.
Lemma unfair_sound below l o a m' : unfair l o a m' = true -> ~ fair below l o a m'.
Proof.
  destruct o, a; cbn [unfair fair]; intros H F; try discriminate; destruct F as (F1 & F2 & F3).
  - apply orb_true_iff in H. destruct H as [H|H]; [apply orb_true_iff in H; destruct H as [H|H]|].
    + exact (misaligned_sound _ _ H F1).
    + exact (overlaps_sound _ _ _ H F2).
    + apply andb_true_iff in H. destruct H as [H1 H2]. specialize (F3 H1). apply existsb_exists in H2. destruct H2 as (v & V & E).
      rewrite Forall_forall in F3. specialize (F3 v V). lia.
  - apply orb_true_iff in H. destruct H as [H|H]; [apply orb_true_iff in H; destruct H as [H|H]|].
    + exact (misaligned_sound _ _ H F1).
    + exact (overlaps_sound _ _ _ H F2).
    + apply existsb_exists in H. destruct H as ([q d] & B & E). cbn [fst snd] in E. apply andb_true_iff in E. destruct E as [E1 E2].
      apply Z.eqb_eq in E1. subst q. rewrite (F3 d B), same_refl in E2. discriminate.
Qed.
Definition untrue (m : mem) (l : ledger) : bool := existsb (fun b => negb (same (bytes_at m (fst b) (size_of (snd b))) (snd b))) l.
Lemma untrue_sound owns m l : untrue m l = true -> ~ true_of owns m l.
Proof.
  intros H [T _]. apply existsb_exists in H. destruct H as (b & B & E). rewrite Forall_forall in T. destruct (T b B) as [T1 _].
  rewrite T1, same_refl in E. discriminate.
Qed.
Section Check.
  Context {S : Type}.
  Variable step : S -> op -> outcome S.
  Variable mem_of : S -> mem.
  Variable below : S -> Z -> Z -> Z -> bool.
  Variable allowb : S -> ledger -> op -> bool.
  Fixpoint dishonest (l : ledger) (s : S) (ops : list op) : bool :=
    match ops with
    | [] => false
    | o :: r => legalb l o && allowb s l o &&
        match step s o with
        | Done s' a => let l' := updated (below s) l o a (mem_of s') in
            unfair l o a (mem_of s') || untrue (mem_of s') l' || dishonest l' s' r
        | _ => true
        end
    end.
  (** The ledger and state after a history, when every request was legal and considered. *)
  Fixpoint replay (l : ledger) (s : S) (ops : list op) : option (ledger * S) :=
    match ops with
    | [] => Some (l, s)
    | o :: r => if legalb l o && allowb s l o then
        match step s o with
        | Done s' a => replay (updated (below s) l o a (mem_of s')) s' r
        | _ => None
        end else None
    end.
  Lemma dishonest_sound owns (allow : S -> ledger -> op -> Prop) : (forall s l o, allowb s l o = true -> allow s l o) ->
    forall ops l s, dishonest l s ops = true -> ~ honest step mem_of owns below allow l s ops.
  Proof.
    intros AL. induction ops as [|o ops IH]; intros l s D H; [discriminate|]. cbn [dishonest honest] in D, H.
    apply andb_true_iff in D. destruct D as [D1 D2]. apply andb_true_iff in D1. destruct D1 as [D1 D3].
    destruct (H (legalb_sound _ _ D1) (AL _ _ _ D3)) as (s' & a & ST & F & T & R). rewrite ST in D2.
    apply orb_true_iff in D2. destruct D2 as [D2|D2]; [apply orb_true_iff in D2; destruct D2 as [D2|D2]|].
    - exact (unfair_sound _ _ _ _ _ D2 F).
    - exact (untrue_sound _ _ _ D2 T).
    - exact (IH _ _ D2 R).
  Qed.
End Check.
