(** Proofs about reading integers. *)
From Coq Require Import ZArith List Bool Lia ZifyBool.
From Verif Require Import Mach ListAux StrModel StrSpec.
Import ListNotations.
Open Scope Z_scope.

(** The value of a row of digits, from the left. *)
Inductive From (digit : Z -> Z -> Prop) (base : Z) : Z -> list Z -> Z -> Prop :=
| From_nil acc : From digit base acc [] acc
| From_cons acc c v r n : digit c v -> From digit base (acc * base + v) r n -> From digit base acc (c :: r) n.
Lemma from_snoc digit base acc ds m c v : From digit base acc ds m -> digit c v -> From digit base acc (ds ++ [c]) (m * base + v).
Proof. induction 1; intros Hd; cbn [app]; econstructor; eauto. constructor. Qed.
Lemma number_from digit base ds n : Number digit base ds n -> From digit base 0 ds n.
Proof. induction 1; [constructor|]. now apply from_snoc. Qed.
Lemma from_number digit base ds0 acc ds n : Number digit base ds0 acc -> From digit base acc ds n -> Number digit base (ds0 ++ ds) n.
Proof.
  intros H F. revert ds0 H. induction F as [acc|acc c v r n Hd F IH]; intros ds0 H; [now rewrite app_nil_r|].
  replace (ds0 ++ c :: r) with ((ds0 ++ [c]) ++ r) by now rewrite <- app_assoc. apply IH. now constructor.
Qed.
Lemma from_le base acc ds n : 2 <= base -> From (digit_is base) base acc ds n -> 0 <= acc -> acc <= n.
Proof. intros Hb. induction 1 as [acc|acc c v r n Hd F IH]; intros Ha; [lia|]. destruct Hd as [Hv _]. nia. Qed.

Definition signed (neg : bool) (n : Z) : Z := if neg then - n else n.
Lemma wrap_small sgn bits v : 1 <= bits -> in_type sgn bits v -> wrap_int sgn bits v = v.
Proof.
  intros Hb H. unfold wrap_int, in_type in *. assert (E : 2 ^ bits = 2 * 2 ^ (bits - 1)) by (rewrite <- Z.pow_succ_r by lia; f_equal; lia).
  assert (0 < 2 ^ (bits - 1)) by (apply Z.pow_pos_nonneg; lia). destruct sgn; cbn [andb].
  - destruct (Z.neg_nonneg_cases v).
    + replace (v mod 2 ^ bits) with (v + 2 ^ bits) by (symmetry; rewrite <- (Z.mod_small (v + 2 ^ bits) (2 ^ bits)) by lia; rewrite <- (Z.mul_1_l (2 ^ bits)) at 2; now rewrite Z.mod_add by lia).
      replace (2 ^ (bits - 1) <=? v + 2 ^ bits) with true by lia. lia.
    + rewrite Z.mod_small by lia. replace (2 ^ (bits - 1) <=? v) with false by lia. reflexivity.
  - now apply Z.mod_small.
Qed.
Lemma wrap_in sgn bits z : 1 <= bits -> in_type sgn bits (wrap_int sgn bits z).
Proof.
  intros Hb. unfold wrap_int, in_type. assert (E : 2 ^ bits = 2 * 2 ^ (bits - 1)) by (rewrite <- Z.pow_succ_r by lia; f_equal; lia).
  assert (0 < 2 ^ (bits - 1)) by (apply Z.pow_pos_nonneg; lia). pose proof (Z.mod_pos_bound z (2 ^ bits)).
  destruct sgn; cbn [andb]; [|lia]. destruct (2 ^ (bits - 1) <=? z mod 2 ^ bits) eqn:E1; lia.
Qed.
Lemma wrap_mod sgn bits z : 1 <= bits -> (wrap_int sgn bits z) mod 2 ^ bits = z mod 2 ^ bits.
Proof.
  intros Hb. unfold wrap_int. assert (0 < 2 ^ bits) by (apply Z.pow_pos_nonneg; lia).
  destruct (sgn && (2 ^ (bits - 1) <=? z mod 2 ^ bits)); [|now rewrite Z.mod_mod by lia].
  rewrite Zminus_mod, Z.mod_mod, Z_mod_same_full, Z.sub_0_r, Z.mod_mod by lia. reflexivity.
Qed.
Lemma wrap_cong sgn bits a b : a mod 2 ^ bits = b mod 2 ^ bits -> wrap_int sgn bits a = wrap_int sgn bits b.
Proof. intros H. unfold wrap_int. now rewrite H. Qed.
Lemma wrap_step sgn bits a base v : 1 <= bits -> wrap_int sgn bits (wrap_int sgn bits a * base + v) = wrap_int sgn bits (a * base + v).
Proof.
  intros Hb. apply wrap_cong. assert (0 < 2 ^ bits) by (apply Z.pow_pos_nonneg; lia).
  rewrite Zplus_mod, Zmult_mod, wrap_mod, <- Zmult_mod, <- Zplus_mod by lia. reflexivity.
Qed.

(** The digit the loop takes from a byte. *)
Definition taken (base c : Z) : option Z :=
  if negb (base =? 16) || (c <? 65) then Some ((c - 48) mod 256) else if c <=? 70 then Some ((c - 55) mod 256)
  else if (c <? 97) || (c >? 102) then None else Some ((c - 87) mod 256).
Lemma taken_digit base c v : base_ok base -> 0 <= c < 256 -> digit_is base c v -> taken base c = Some v /\ v < base.
Proof.
  intros Hb Hc [Hv H]. split; [|lia]. unfold taken, base_ok in *.
  destruct H as [[H ->]|[[-> [H ->]]|[-> [H ->]]]].
  - replace (negb (base =? 16) || (c <? 65)) with true by lia. now rewrite Z.mod_small by lia.
  - replace (negb (16 =? 16) || (c <? 65)) with false by lia. replace (c <=? 70) with true by lia. now rewrite Z.mod_small by lia.
  - replace (negb (16 =? 16) || (c <? 65)) with false by lia. replace (c <=? 70) with false by lia. replace ((c <? 97) || (c >? 102)) with false by lia. now rewrite Z.mod_small by lia.
Qed.
Lemma taken_lax base c v : base_ok base -> 0 <= c < 256 -> taken base c = Some v -> v < base -> lax_digit_is base c v.
Proof.
  intros Hb Hc H Hv. unfold taken in H. unfold lax_digit_is, digit_is, base_ok in *.
  destruct (negb (base =? 16) || (c <? 65)) eqn:E1; [|destruct (c <=? 70) eqn:E2; [|destruct ((c <? 97) || (c >? 102)) eqn:E3; [discriminate|]]]; injection H as <-.
  - destruct (Z_lt_le_dec c 48).
    + replace ((c - 48) mod 256) with (c - 48 + 256) in * by (rewrite <- (Z.mod_small (c - 48 + 256) 256) by lia; rewrite <- (Z.mul_1_l 256) at 1; now rewrite Z.mod_add by lia). lia.
    + rewrite Z.mod_small in * by lia. lia.
  - rewrite Z.mod_small in * by lia. lia.
  - rewrite Z.mod_small in * by lia. lia.
Qed.
Lemma digits_step sgn bits base neg c r value : digits_loop sgn bits base neg (c :: r) value =
  match taken base c with
  | None => MalformedInteger
  | Some d => if d >=? base then MalformedInteger
              else let v := wrap_int sgn bits (value * base + signed neg d) in
                   if (if neg then v >? value else v <? value) then IntegerOverflow else digits_loop sgn bits base neg r v
  end.
Proof. cbn [digits_loop]. fold (taken base c). destruct (taken base c); [|reflexivity]. destruct neg; reflexivity. Qed.

Lemma signed_step neg acc base v : signed neg acc * base + signed neg v = signed neg (acc * base + v).
Proof. unfold signed. destruct neg; lia. Qed.
(** Numbers in range are read exactly. *)
Lemma digits_exact sgn bits base neg : base_ok base -> 1 <= bits -> (neg = true -> sgn = true) -> forall acc r n,
  Forall (fun c => 0 <= c < 256) r -> From (digit_is base) base acc r n -> 0 <= acc -> in_type sgn bits (signed neg n) ->
  digits_loop sgn bits base neg r (signed neg acc) = Val (signed neg n).
Proof.
  intros Hb Hbits Hsg acc r n Hr F. assert (Hb2 : 2 <= base) by (unfold base_ok in Hb; lia).
  induction F as [acc|acc c v r n Hd F IH]; intros Ha Hin; [reflexivity|].
  inversion Hr; subst. destruct (taken_digit base c v Hb) as [Et Hv]; auto. rewrite digits_step, Et.
  replace (v >=? base) with false by lia. cbv zeta. rewrite signed_step. assert (Hv0 : 0 <= v) by (destruct Hd; lia).
  assert (Hacc : 0 <= acc * base + v) by nia. pose proof (from_le _ _ _ _ Hb2 F Hacc) as Hle.
  rewrite wrap_small; auto.
  - replace (if neg then signed neg (acc * base + v) >? signed neg acc else signed neg (acc * base + v) <? signed neg acc) with false; [apply IH; auto|].
    unfold signed. destruct neg; nia.
  - unfold in_type, signed in *. destruct sgn, neg; try lia.
Qed.
(** Rows of digits are never malformed, and what is answered is right modulo the width. *)
Lemma digits_some sgn bits base neg : base_ok base -> 1 <= bits -> forall acc r n,
  Forall (fun c => 0 <= c < 256) r -> From (digit_is base) base acc r n ->
  digits_loop sgn bits base neg r (wrap_int sgn bits (signed neg acc)) = IntegerOverflow \/
  digits_loop sgn bits base neg r (wrap_int sgn bits (signed neg acc)) = Val (wrap_int sgn bits (signed neg n)).
Proof.
  intros Hb Hbits acc r n Hr F. induction F as [acc|acc c v r n Hd F IH]; [right; reflexivity|].
  inversion Hr; subst. destruct (taken_digit base c v Hb) as [Et Hv]; auto. rewrite digits_step, Et.
  replace (v >=? base) with false by lia. cbv zeta. rewrite wrap_step, signed_step by auto.
  match goal with |- context [if ?b then _ else _] => destruct b end; [now left|]. apply IH; auto.
Qed.
Lemma digits_accept sgn bits base neg : base_ok base -> 1 <= bits -> forall r acc w,
  Forall (fun c => 0 <= c < 256) r -> digits_loop sgn bits base neg r (wrap_int sgn bits (signed neg acc)) = Val w ->
  exists n, From (lax_digit_is base) base acc r n /\ w = wrap_int sgn bits (signed neg n).
Proof.
  intros Hb Hbits. induction r as [|c r IH]; intros acc w Hr H.
  - exists acc. split; [constructor|]. cbn in H. congruence.
  - inversion Hr; subst. rewrite digits_step in H. destruct (taken base c) as [v|] eqn:Et; [|discriminate].
    destruct (v >=? base) eqn:Ev; [discriminate|]. cbv zeta in H. rewrite wrap_step, signed_step in H by auto.
    match type of H with context [if ?b then _ else _] => destruct b end; [discriminate|].
    destruct (IH _ _ H3 H) as (n & F & ->). exists n. split; [|reflexivity]. econstructor; [|exact F]. apply taken_lax; auto. lia.
Qed.

(** Blanks. *)
Lemma blanks_ok s : exists bl, s = bl ++ skip_blanks s /\ Forall blank bl /\ (forall c r, skip_blanks s = c :: r -> ~ blank c).
Proof.
  induction s as [|c s (bl & E & H1 & H2)]; [exists []; auto; repeat split; auto; discriminate|]. cbn [skip_blanks].
  destruct ((c =? 32) || (c =? 9)) eqn:Ec.
  - exists (c :: bl). split; [cbn [app]; now rewrite <- E|]. split; [|exact H2]. constructor; [unfold blank; lia|exact H1].
  - exists []. split; [reflexivity|]. split; [constructor|]. intros c' r' H. injection H; intros; subst. unfold blank. lia.
Qed.
Lemma blanks_skip bl s : Forall blank bl -> (forall c r, s = c :: r -> ~ blank c) -> skip_blanks (bl ++ s) = s.
Proof.
  intros H Hs. induction H as [|c bl Hc H IH]; cbn [app skip_blanks].
  - destruct s as [|c s]; [reflexivity|]. cbn [skip_blanks]. specialize (Hs c s eq_refl). unfold blank in Hs. replace ((c =? 32) || (c =? 9)) with false by lia. reflexivity.
  - unfold blank in Hc. replace ((c =? 32) || (c =? 9)) with true by lia. exact IH.
Qed.

(** What follows the sign. *)
Definition after_sign (sgn : bool) (bits base : Z) (neg : bool) (s : list Z) : parsed :=
  match s with
  | [] => MalformedInteger
  | c1 :: r1 =>
    if (c1 =? 48) && (base =? 10) then
      match r1 with
      | [] => Val 0
      | c2 :: r2 =>
        let '(base', s2) := if (c2 =? 120) || (c2 =? 88) then (16, r2) else if (c2 =? 98) || (c2 =? 66) then (2, r2)
                            else if (c2 =? 111) || (c2 =? 79) then (8, r2) else (base, r1) in
        match s2 with [] => MalformedInteger | _ => digits_loop sgn bits base' neg s2 0 end
      end
    else digits_loop sgn bits base neg s 0
  end.
Lemma to_integer_eq sgn bits base s : to_integer sgn bits base s =
  match skip_blanks s with
  | [] => EmptyString
  | c :: r => if (c =? 45) && negb sgn then NegativeValue else after_sign sgn bits base (c =? 45) (if (c =? 45) || (c =? 43) then r else c :: r)
  end.
Proof. unfold to_integer. destruct (skip_blanks s); [reflexivity|]. destruct ((z =? 45) && negb sgn); [reflexivity|]. cbv zeta. destruct (if (z =? 45) || (z =? 43) then l else z :: l); reflexivity. Qed.
Lemma digit_pos base ds n : ds <> [] -> From (digit_is base) base 0 ds n -> exists c v r, ds = c :: r /\ digit_is base c v /\ From (digit_is base) base v r n.
Proof. intros Hd F. inversion F; subst; [congruence|]. rewrite Z.mul_0_l, Z.add_0_l in *. eauto 8. Qed.
Lemma digit_range base c v : digit_is base c v -> 48 <= c <= 102 /\ c <> 98 \/ base = 16 /\ c = 98.
Proof. unfold digit_is. lia. Qed.

(** The part after the sign, cut into prefix and digits, reads the digits in the selected base. *)
Lemma after_sign_digits sgn bits base neg pre base' ds n : base_ok base -> Prefix base pre base' -> ds <> [] ->
  From (digit_is base') base' 0 ds n ->
  base_ok base' /\ exists ds', after_sign sgn bits base neg (pre ++ ds) = digits_loop sgn bits base' neg ds' 0 /\ From (digit_is base') base' 0 ds' n /\ incl ds' ds.
Proof.
  intros Hb Hp Hd F. destruct Hp; cbn [app].
  2-7: split; [unfold base_ok; lia|]; exists ds; split; [destruct ds; [congruence|reflexivity]|split; [exact F|apply incl_refl]].
  split; [exact Hb|]. destruct (digit_pos _ _ _ Hd F) as (c & v & r & -> & Hc & Fr). cbn [after_sign].
  destruct ((c =? 48) && (b =? 10)) eqn:E; [|exists (c :: r); split; [reflexivity|split; [exact F|apply incl_refl]]].
  assert (b = 10) by lia. subst b. assert (c = 48) by lia. subst c. assert (v = 0) by (unfold digit_is in Hc; lia). subst v.
  destruct r as [|c2 r2].
  - exists []. split; [reflexivity|]. split; [exact Fr|intros x []].
  - assert (Hc2 : 48 <= c2 <= 57) by (inversion Fr as [|? ? ? ? ? Hd2 ?]; subst; unfold digit_is in Hd2; lia).
    replace ((c2 =? 120) || (c2 =? 88)) with false by lia. replace ((c2 =? 98) || (c2 =? 66)) with false by lia. replace ((c2 =? 111) || (c2 =? 79)) with false by lia.
    exists (c2 :: r2). split; [reflexivity|]. split; [exact Fr|]. intros x Hx. now right.
Qed.
(** A text in the grammar gets to the digits. *)
Lemma to_integer_reads sgn bits base s w : base_ok base -> (sgn = true \/ ~ In 45 s) -> Reads digit_is base s w ->
  exists neg base' ds n, to_integer sgn bits base s = digits_loop sgn bits base' neg ds 0 /\ base_ok base' /\ From (digit_is base') base' 0 ds n /\
    incl ds s /\ w = signed neg n /\ (neg = true -> sgn = true).
Proof.
  intros Hb Hs (bl & sg & neg & pre & base' & ds & n & -> & Hbl & Hsg & Hp & Hd & Hn & Hw).
  apply number_from in Hn. destruct (after_sign_digits sgn bits base neg pre base' ds n Hb Hp Hd Hn) as (Hb' & ds' & Ha & F & Hi).
  assert (Hneg : neg = true -> sgn = true).
  { destruct Hs as [Hs|Hs]; [auto|]. intros ->. inversion Hsg; subst. exfalso. apply Hs. apply in_or_app. right. now left. }
  exists neg, base', ds', n. split; [|split; [exact Hb'|split; [exact F|split; [|split; [exact Hw|exact Hneg]]]]].
  2: { intros x Hx. apply Hi in Hx. rewrite !in_app_iff. auto. }
  assert (Hfirst : exists c r, pre ++ ds = c :: r /\ 48 <= c).
  { destruct (digit_pos _ _ _ Hd Hn) as (c & v & r & -> & Hc & _). unfold digit_is in Hc. destruct Hp; cbn [app]; eexists; eexists; (split; [reflexivity|lia]). }
  destruct Hfirst as (c & r & Ec & Hc). rewrite to_integer_eq. rewrite <- Ha. rewrite Ec in *. destruct Hsg; cbn [app].
  - rewrite blanks_skip; auto; [|intros c' r' H'; injection H'; intros; subst; unfold blank; lia].
    replace (c =? 45) with false by lia. replace (c =? 43) with false by lia. reflexivity.
  - rewrite blanks_skip; auto. intros c' r' H'. injection H'; intros; subst; unfold blank; lia.
  - rewrite blanks_skip; auto; [|intros c' r' H'; injection H'; intros; subst; unfold blank; lia]. rewrite (Hneg eq_refl). reflexivity.
Qed.
Lemma wrap_zero sgn bits : 1 <= bits -> wrap_int sgn bits 0 = 0.
Proof. intros. apply wrap_small; [auto|]. unfold in_type. assert (0 < 2 ^ (bits - 1)) by (apply Z.pow_pos_nonneg; lia). assert (0 < 2 ^ bits) by (apply Z.pow_pos_nonneg; lia). destruct sgn; lia. Qed.
Lemma incl_bytes ds s : incl ds s -> Forall (fun c => 0 <= c < 256) s -> Forall (fun c => 0 <= c < 256) ds.
Proof. rewrite !Forall_forall. auto. Qed.
Lemma read_exact sgn bits base s w : base_ok base -> 1 <= bits -> Forall (fun c => 0 <= c < 256) s -> (sgn = true \/ ~ In 45 s) ->
  Reads digit_is base s w -> in_type sgn bits w -> to_integer sgn bits base s = Val w.
Proof.
  intros Hb Hbits Hs Hsg Hr Hin. destruct (to_integer_reads sgn bits base s w Hb Hsg Hr) as (neg & base' & ds & n & -> & Hb' & F & Hi & -> & Hneg).
  replace 0 with (signed neg 0) at 1 by (destruct neg; reflexivity). apply digits_exact; auto; [|lia]. eapply incl_bytes; eauto.
Qed.
Lemma read_wrapped sgn bits base s w : base_ok base -> 1 <= bits -> Forall (fun c => 0 <= c < 256) s -> (sgn = true \/ ~ In 45 s) ->
  Reads digit_is base s w -> to_integer sgn bits base s = IntegerOverflow \/ to_integer sgn bits base s = Val (wrap_int sgn bits w).
Proof.
  intros Hb Hbits Hs Hsg Hr. destruct (to_integer_reads sgn bits base s w Hb Hsg Hr) as (neg & base' & ds & n & -> & Hb' & F & Hi & -> & Hneg).
  replace 0 with (wrap_int sgn bits (signed neg 0)) by (destruct neg; apply wrap_zero; auto). apply digits_some; auto. eapply incl_bytes; eauto.
Qed.

(** An accepted text is in the grammar, with the lax digits. *)
Lemma after_accept sgn bits base neg s w : base_ok base -> 1 <= bits -> Forall (fun c => 0 <= c < 256) s -> after_sign sgn bits base neg s = Val w ->
  exists pre base' ds n, s = pre ++ ds /\ Prefix base pre base' /\ ds <> [] /\ From (lax_digit_is base') base' 0 ds n /\ w = wrap_int sgn bits (signed neg n).
Proof.
  intros Hb Hbits Hs H. destruct s as [|c1 r1]; [discriminate|].
  assert (Hloop : forall pre base' ds, c1 :: r1 = pre ++ ds -> Prefix base pre base' -> base_ok base' -> ds <> [] -> digits_loop sgn bits base' neg ds 0 = Val w ->
    exists pre base' ds n, c1 :: r1 = pre ++ ds /\ Prefix base pre base' /\ ds <> [] /\ From (lax_digit_is base') base' 0 ds n /\ w = wrap_int sgn bits (signed neg n)).
  { intros pre base' ds E Hp Hb' Hd HL. replace 0 with (wrap_int sgn bits (signed neg 0)) in HL by (destruct neg; apply wrap_zero; auto).
    apply digits_accept in HL; auto; [|apply (incl_bytes ds (c1 :: r1)); auto; rewrite E; apply incl_appr, incl_refl].
    destruct HL as (n & F & Hw). exists pre, base', ds, n. auto. }
  cbn [after_sign] in H. destruct ((c1 =? 48) && (base =? 10)) eqn:E; [|apply (Hloop [] base (c1 :: r1)); auto; [constructor|discriminate]].
  assert (base = 10) by lia. subst base. assert (c1 = 48) by lia. subst c1.
  assert (Hz : digit_is 10 48 0) by (unfold digit_is; lia).
  destruct r1 as [|c2 r2].
  { injection H as <-. exists [], 10, [48], 0. split; [reflexivity|]. split; [constructor|]. split; [discriminate|]. split.
    - econstructor; [left; exact Hz|constructor].
    - destruct neg; symmetry; apply wrap_zero; auto. }
  assert (Hcons : exists base' pre ds, (if (c2 =? 120) || (c2 =? 88) then (16, r2) else if (c2 =? 98) || (c2 =? 66) then (2, r2) else if (c2 =? 111) || (c2 =? 79) then (8, r2) else (10, c2 :: r2)) = (base', ds)
     /\ 48 :: c2 :: r2 = pre ++ ds /\ (Prefix 10 pre base' /\ base_ok base' \/ pre = [48] /\ base' = 10)).
  { destruct ((c2 =? 120) || (c2 =? 88)) eqn:E1; [|destruct ((c2 =? 98) || (c2 =? 66)) eqn:E2; [|destruct ((c2 =? 111) || (c2 =? 79)) eqn:E3]];
      eexists; (exists [48; c2] + exists [48]); eexists; (split; [reflexivity|]); (split; [reflexivity|]).
    4: right; auto.
    all: left; split; [|unfold base_ok; lia].
    - destruct (Z.eq_dec c2 120) as [->|]; [constructor|]. assert (c2 = 88) by lia. subst. constructor.
    - destruct (Z.eq_dec c2 98) as [->|]; [constructor|]. assert (c2 = 66) by lia. subst. constructor.
    - destruct (Z.eq_dec c2 111) as [->|]; [constructor|]. assert (c2 = 79) by lia. subst. constructor. }
  destruct Hcons as (base' & pre & ds & Ec & Es & Hp). rewrite Ec in H. destruct ds as [|d0 ds]; [discriminate|].
  destruct Hp as [[Hp Hb']|[-> ->]]; [eapply Hloop; eauto; discriminate|].
  injection Es as <- <-.
  replace 0 with (wrap_int sgn bits (signed neg 0)) in H by (destruct neg; apply wrap_zero; auto).
  inversion Hs; subst. apply digits_accept in H; auto. destruct H as (n & F & Hw).
  exists [], 10, (48 :: c2 :: r2), n. split; [reflexivity|]. split; [constructor|]. split; [discriminate|]. split; [|exact Hw].
  econstructor; [left; exact Hz|exact F].
Qed.
Lemma read_accept sgn bits base s v : base_ok base -> 1 <= bits -> Forall (fun c => 0 <= c < 256) s -> to_integer sgn bits base s = Val v ->
  exists w, Reads lax_digit_is base s w /\ v = wrap_int sgn bits w.
Proof.
  intros Hb Hbits Hs H. rewrite to_integer_eq in H. destruct (blanks_ok s) as (bl & E & Hbl & Hnb).
  destruct (skip_blanks s) as [|c r] eqn:Er; [discriminate|]. destruct ((c =? 45) && negb sgn) eqn:En; [discriminate|].
  rewrite E in Hs. apply Forall_app in Hs as [_ Hs]. inversion Hs; subst.
  assert (Hsg : exists sg rest, c :: r = sg ++ rest /\ Sign sg (c =? 45) /\ (if (c =? 45) || (c =? 43) then r else c :: r) = rest).
  { destruct (c =? 45) eqn:E1; [exists [c], r; replace c with 45 by lia; repeat split; constructor|].
    destruct (c =? 43) eqn:E2; [exists [c], r; replace c with 43 by lia; repeat split; constructor|]. exists [], (c :: r). repeat split; constructor. }
  destruct Hsg as (sg & rest & Esg & Hsg & Erest). rewrite Erest in H.
  apply after_accept in H; auto; [|subst rest; destruct ((c =? 45) || (c =? 43)); auto].
  destruct H as (pre & base' & ds & n & -> & Hp & Hd & F & Hw). exists (signed (c =? 45) n). split; [|exact Hw].
  exists bl, sg, (c =? 45), pre, base', ds, n. split; [rewrite Esg; reflexivity|]. split; [exact Hbl|]. split; [exact Hsg|]. split; [exact Hp|]. split; [exact Hd|].
  split; [|reflexivity]. apply (from_number _ _ [] 0); [constructor|exact F].
Qed.
Lemma after_not sgn bits base neg s : (after_sign sgn bits base neg s <> EmptyString) /\ (after_sign sgn bits base neg s <> NegativeValue).
Proof.
  assert (HL : forall base s v, digits_loop sgn bits base neg s v <> EmptyString /\ digits_loop sgn bits base neg s v <> NegativeValue).
  { intros base0. induction s0 as [|c r IH]; intros v; [split; discriminate|]. rewrite digits_step. destruct (taken base0 c); [|split; discriminate].
    destruct (z >=? base0); [split; discriminate|]. cbv zeta. match goal with |- context [if ?b then _ else _] => destruct b end; [split; discriminate|apply IH]. }
  destruct s as [|c1 r1]; [split; discriminate|]. cbn [after_sign]. destruct ((c1 =? 48) && (base =? 10)); [|apply HL].
  destruct r1 as [|c2 r2]; [split; discriminate|].
  match goal with |- context [let '(_, _) := ?e in _] => destruct e as [b' s2] end. destruct s2; [split; discriminate|apply HL].
Qed.
Lemma read_empty sgn bits base s : to_integer sgn bits base s = EmptyString <-> Forall blank s.
Proof.
  rewrite to_integer_eq. destruct (blanks_ok s) as (bl & E & Hbl & Hnb). destruct (skip_blanks s) as [|c r] eqn:Er.
  - split; [intros _; rewrite E, app_nil_r; exact Hbl|reflexivity].
  - split.
    + destruct ((c =? 45) && negb sgn); [discriminate|]. intros H. exfalso. exact (proj1 (after_not _ _ _ _ _) H).
    + intros H. exfalso. rewrite E in H. apply Forall_app in H as [_ H]. inversion H; subst. exact (Hnb _ _ eq_refl H2).
Qed.
Lemma read_negative sgn bits base s : to_integer sgn bits base s = NegativeValue <-> sgn = false /\ exists bl r, s = bl ++ 45 :: r /\ Forall blank bl.
Proof.
  rewrite to_integer_eq. split.
  - destruct (blanks_ok s) as (bl & E & Hbl & Hnb). destruct (skip_blanks s) as [|c r] eqn:Er; [discriminate|].
    destruct ((c =? 45) && negb sgn) eqn:En.
    + intros _. split; [destruct sgn; [lia|reflexivity]|]. exists bl, r. replace 45 with c by lia. auto.
    + intros H. exfalso. exact (proj2 (after_not _ _ _ _ _) H).
  - intros (-> & bl & r & -> & Hbl). rewrite blanks_skip; auto. intros c' r' H'. injection H'; intros; subst. unfold blank. lia.
Qed.
