From Coq Require Import ZArith List Bool Lia ZifyBool.
From Verif Require Import LayoutModel LayoutSpec LayoutProofs LayoutProofs2.
Import ListNotations.
Open Scope Z_scope.

(** LLVM's walk over the elements of the members. *)
Fixpoint chain (pk : bool) (lo : Z) (ps : list Placed) (hi : Z) : Prop :=
  match ps with
  | [] => hi = lo
  | p :: r => ll_place pk (lo + pad p) (Element (ll_size (info p)) (ll_align (info p))) = off p /\ chain pk (off p + ll_size (info p)) r hi
  end.
Lemma place_pad pk lo n : ll_place pk lo (Padding n) = lo.
Proof. unfold ll_place. cbn [elem_align]. destruct pk; auto. apply round_up_1. Qed.
Lemma chain_offsets pk : forall ps lo hi tail, chain pk lo ps hi ->
  (forall i p, nth_error ps i = Some p -> nth (gep_index ps i) (ll_offsets pk lo (member_elems ps ++ tail)) (-1) = off p) /\
  ll_end pk lo (member_elems ps ++ tail) = ll_end pk hi tail.
Proof.
  induction ps as [|p r IH]; intros lo hi tail H.
  - cbn in H. subst hi. split; [|reflexivity]. intros [|i] q Hq; discriminate Hq.
  - cbn [chain] in H. destruct H as [H1 H2]. destruct (IH _ _ tail H2) as [A B]. clear IH.
    cbn [member_elems]. destruct (pad p =? 0) eqn:E; cbn [negb app].
    + assert (Z0 : pad p = 0) by lia. rewrite Z0, Z.add_0_r in H1. split.
      * intros [|i] q Hq; cbn [nth_error] in Hq.
        -- injection Hq as <-. cbn [gep_index]. rewrite E. cbn [negb ll_offsets nth]. exact H1.
        -- cbn [gep_index]. rewrite E. cbn [negb Nat.add ll_offsets nth]. rewrite H1. cbn [elem_size]. apply A; auto.
      * cbn [ll_end]. rewrite H1. exact B.
    + split.
      * intros [|i] q Hq; cbn [nth_error] in Hq.
        -- injection Hq as <-. cbn [gep_index]. rewrite E. cbn [negb ll_offsets nth]. rewrite place_pad. exact H1.
        -- cbn [gep_index]. rewrite E. cbn [negb Nat.add ll_offsets nth]. rewrite place_pad. cbn [elem_size]. rewrite H1. apply A; auto.
      * cbn [ll_end]. rewrite place_pad. cbn [elem_size]. rewrite H1. exact B.
Qed.
Lemma chain_packed packed : forall ms lo, (forall m, In m ms -> ll_size (ty m) = size (ty m)) ->
  chain true lo (map (put packed) (walk packed lo ms)) (wend packed lo ms).
Proof.
  induction ms as [|m r IH]; intros lo H; [reflexivity|]. cbn [walk map put chain wend off pad info].
  split; [unfold ll_place; lia|]. rewrite (H m (or_introl eq_refl)). apply IH. intros; apply H; right; auto.
Qed.
Definition matches (m : Member) : Prop := ll_size (ty m) = size (ty m) /\ ll_align (ty m) = nat_align (ty m).
Lemma chain_padded packed : forall ms lo, Forall wf_member ms -> (forall m, In m ms -> matches m) ->
  existsb (under_at packed) (walk packed lo ms) = false ->
  chain false lo (map (put packed) (walk packed lo ms)) (wend packed lo ms).
Proof.
  induction ms as [|m r IH]; intros lo F H U; [reflexivity|]. cbn [walk map put chain wend off pad info] in *.
  cbn [existsb] in U. apply orb_false_iff in U. destruct U as [U1 U2]. inversion F as [|? ? W F']; subst.
  destruct (H m (or_introl eq_refl)) as [E1 E2]. rewrite E1. split; [|apply IH; auto; intros; apply H; right; auto].
  unfold ll_place. cbn [elem_align]. rewrite E2.
  pose proof (member_align_pow2 packed m W) as P. destruct W as [(_ & _ & Pn & _) _].
  pose proof (pow2_pos _ P). pose proof (pow2_pos _ Pn).
  set (o := round_up lo (member_align packed m)) in *. replace (lo + (o - lo)) with o by lia.
  apply round_up_id; auto. unfold under_at, differ_at in U1. cbn [snd] in U1. fold o in U1.
  destruct (round_up lo (nat_align (ty m)) =? o) eqn:Q.
  - apply Z.eqb_eq in Q. rewrite <- Q. apply round_up_mod; auto.
  - cbn [negb andb] in U1. eapply mod_divide_trans with (b := member_align packed m); auto.
    + apply pow2_divide; auto. lia.
    + apply round_up_mod; auto.
Qed.
Lemma chain_stripped packed : forall ms lo, Forall wf_member ms -> (forall m, In m ms -> matches m) ->
  existsb differ_at (walk packed lo ms) = false ->
  chain false lo (map strip (map (put packed) (walk packed lo ms))) (wend packed lo ms).
Proof.
  induction ms as [|m r IH]; intros lo F H U; [reflexivity|]. cbn [walk map put strip chain wend off pad info] in *.
  cbn [existsb] in U. apply orb_false_iff in U. destruct U as [U1 U2]. inversion F as [|? ? W F']; subst.
  destruct (H m (or_introl eq_refl)) as [E1 E2]. rewrite E1. split; [|apply IH; auto; intros; apply H; right; auto].
  unfold ll_place. cbn [elem_align]. rewrite E2, Z.add_0_r. unfold differ_at in U1. lia.
Qed.
Lemma elem_aligns ps tail lo : max_of (map elem_align (member_elems ps ++ tail)) (Z.max 1 lo) =
  max_of (map elem_align tail) (max_of (map (fun p => ll_align (info p)) ps) (Z.max 1 lo)).
Proof.
  revert lo; induction ps as [|p r IH]; intros lo; [reflexivity|]. cbn [member_elems map]. rewrite max_of_cons.
  destruct (pad p =? 0); cbn [negb app map elem_align]; rewrite ?max_of_cons, <- ?Z.max_assoc.
  - apply IH.
  - replace (Z.max 1 (Z.max lo (Z.max 1 (ll_align (info p))))) with (Z.max 1 (Z.max lo (ll_align (info p)))) by lia. apply IH.
Qed.
Lemma end_aligns n lo : 1 <= lo -> max_of (map elem_align (end_elems n)) lo = lo.
Proof. intros. unfold end_elems. destruct (negb (n =? 0)); cbn; lia. Qed.
Lemma ll_end_end pk n hi : ll_end pk hi (end_elems n) = hi + n.
Proof. unfold end_elems. destruct (n =? 0) eqn:E; cbn [negb ll_end]; [lia|]. rewrite place_pad. cbn [elem_size]. lia. Qed.
Lemma struct_ll_align s : ll_struct_align (s_packed s) (struct_elems s) =
  if s_packed s then 1 else max_of (map (fun p => ll_align (info p)) (members s)) 1.
Proof.
  unfold ll_struct_align, struct_elems. destruct (s_packed s); [reflexivity|].
  change 1 with (Z.max 1 1) at 1. rewrite elem_aligns, end_aligns; [reflexivity|].
  pose proof (max_of_ge (map (fun p => ll_align (info p)) (members s)) (Z.max 1 1)). lia.
Qed.
Lemma aligns_of_infos ps (ms : list Member) : map info ps = map ty ms -> (forall m, In m ms -> matches m) ->
  map (fun p => ll_align (info p)) ps = map (fun m => nat_align (ty m)) ms.
Proof.
  intros H M. rewrite <- (map_map info ll_align), H, map_map. apply map_ext_in. intros m Hm. apply M; auto.
Qed.

Lemma layout_good packed nop bare galign a ms s : Forall wf_member ms -> wf_given galign -> small a galign ms ->
  struct_layout packed nop bare galign ms = Good s ->
  let w := walk packed 0 ms in let hi := wend packed 0 ms in let da := struct_align packed galign ms in
  let nt := max_of (map (fun m => nat_align (ty m)) ms) 1 in
  s_size s = round_up hi da /\ s_align s = da /\ s_nat s = nt /\ map off (members s) = map off (map (put packed) w) /\
  map info (members s) = map ty ms /\
  s_packed s = existsb (under_at packed) w || (round_up hi da <? round_up hi nt) /\
  s_pad s = (if s_packed s || (round_up hi nt <? round_up hi da) then round_up hi da - hi else 0) /\
  members s = (if negb (s_packed s) && (negb packed && negb (existsb differ_at w)) then map strip (map (put packed) w) else map (put packed) w).
Proof.
  intros HF HG HS H. rewrite (layout_eq packed nop bare galign a ms HF HG HS) in H. cbv zeta.
  destruct (existsb (refuse_at nop) _); [discriminate|]. destruct (_ && (_ <? _)); [discriminate|].
  destruct (nop && bare); [discriminate|]. destruct (_ && nop); [discriminate|]. injection H as <-.
  cbn [s_size s_align s_nat s_packed s_pad members].
  do 3 (split; [reflexivity|]). split; [destruct (_ && _); [apply off_strip|reflexivity]|].
  split; [destruct (_ && _); rewrite ?info_strip; apply info_put|].
  do 2 (split; [reflexivity|]). reflexivity.
Qed.

(** The machine type of a struct agrees with its layout. *)
Lemma struct_agrees_ok packed nop bare galign a ms s : Forall wf_member ms -> wf_given galign -> small a galign ms ->
  struct_layout packed nop bare galign ms = Good s ->
  (forall m, In m ms -> ll_size (ty m) = size (ty m)) ->
  (s_packed s = false -> forall m, In m ms -> ll_align (ty m) = nat_align (ty m)) -> struct_agrees s.
Proof.
  intros HF HG HS H HL HA. pose proof (layout_good packed nop bare galign a ms s HF HG HS H) as G. cbv zeta in G.
  destruct (bounds packed galign a ms HF HG HS) as [B1 B2].
  destruct (da_props packed galign a ms HF HG HS) as [P1 _]. destruct (nat_props packed galign a ms HF HS) as [P2 _].
  destruct G as (G1 & G2 & G3 & G4 & G5 & G6 & G7 & G8).
  set (hi := wend packed 0 ms) in *. set (da := struct_align packed galign ms) in *.
  set (nt := max_of (map (fun m => nat_align (ty m)) ms) 1) in *. set (w := walk packed 0 ms) in *.
  assert (C : chain (s_packed s) 0 (members s) hi).
  { rewrite G8. destruct (s_packed s) eqn:E; cbn [negb andb].
    - apply chain_packed; auto.
    - assert (M : forall m, In m ms -> matches m) by (intros; split; auto).
      symmetry in G6. apply orb_false_iff in G6. destruct G6 as [G6 _].
      destruct (negb packed && negb (existsb differ_at w)) eqn:D.
      + apply chain_stripped; auto. apply andb_true_iff in D. destruct D as [_ D]. fold w. destruct (existsb differ_at w); [discriminate|reflexivity].
      + apply chain_padded; auto. }
  destruct (chain_offsets _ _ _ _ (end_elems (s_pad s)) C) as [A B]. split; [exact A|].
  unfold ll_struct_size. rewrite struct_ll_align. change (struct_elems s) with (member_elems (members s) ++ end_elems (s_pad s)).
  rewrite B, ll_end_end, G1. destruct (s_packed s) eqn:E.
  - rewrite round_up_1, G7. cbn [orb]. lia.
  - rewrite (aligns_of_infos (members s) ms G5) by (intros; split; auto). fold nt. rewrite G7. cbn [orb].
    symmetry in G6. apply orb_false_iff in G6. destruct G6 as [_ G6].
    destruct (round_up hi nt <? round_up hi da) eqn:Q.
    + replace (hi + (round_up hi da - hi)) with (round_up hi da) by lia. pose proof (pow2_pos _ P1). pose proof (pow2_pos _ P2).
      apply round_up_id; auto. eapply mod_divide_trans with (b := da); auto; [|apply round_up_mod; auto].
      apply pow2_divide; auto. destruct (Z.le_gt_cases da nt) as [L|L]; [|lia]. pose proof (round_up_mono hi da nt P1 P2 L). lia.
    + rewrite Z.add_0_r. lia.
Qed.
