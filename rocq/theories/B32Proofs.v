(** Proofs about base32. *)
From Coq Require Import ZArith Bool List Lia ZifyBool.
From Verif Require Import Mach ListAux CodecModel CodecSpec CodecProofs B64Proofs.
Import ListNotations.
Open Scope Z_scope.

Section G5.
Variables (a b c d e : Z).
Lemma digits5 bs : is_byte a -> is_byte b -> is_byte c -> is_byte d -> is_byte e ->
  let msb := Z.lor (Z.lor (Z.lor (u32 (Z.shiftl a 24)) (u32 (Z.shiftl b 16))) (u32 (Z.shiftl c 8))) d in
  let lsb := Z.lor (u32 (Z.shiftl msb 8)) e in
  digits 5 (bits 8 a ++ bits 8 b ++ bits 8 c ++ bits 8 d ++ bits 8 e ++ bs) =
  Z.land (Z.shiftr msb 27) 31 :: Z.land (Z.shiftr msb 22) 31 :: Z.land (Z.shiftr msb 17) 31 :: Z.land (Z.shiftr msb 12) 31 ::
  Z.land (Z.shiftr msb 7) 31 :: Z.land (Z.shiftr msb 2) 31 :: Z.land (Z.shiftr lsb 5) 31 :: Z.land lsb 31 :: digits 5 bs.
Proof.
  intros Ha Hb Hc Hd He msb lsb. pose proof (small_bits 8 a Ha) as Sa. pose proof (small_bits 8 b Hb) as Sb. pose proof (small_bits 8 c Hc) as Sc. pose proof (small_bits 8 d Hd) as Sd. pose proof (small_bits 8 e He) as Se.
  change (bits 8 a ++ bits 8 b ++ bits 8 c ++ bits 8 d ++ bits 8 e ++ bs) with
    ([Z.testbit a 7; Z.testbit a 6; Z.testbit a 5; Z.testbit a 4; Z.testbit a 3] ++
     [Z.testbit a 2; Z.testbit a 1; Z.testbit a 0; Z.testbit b 7; Z.testbit b 6] ++
     [Z.testbit b 5; Z.testbit b 4; Z.testbit b 3; Z.testbit b 2; Z.testbit b 1] ++
     [Z.testbit b 0; Z.testbit c 7; Z.testbit c 6; Z.testbit c 5; Z.testbit c 4] ++
     [Z.testbit c 3; Z.testbit c 2; Z.testbit c 1; Z.testbit c 0; Z.testbit d 7] ++
     [Z.testbit d 6; Z.testbit d 5; Z.testbit d 4; Z.testbit d 3; Z.testbit d 2] ++
     [Z.testbit d 1; Z.testbit d 0; Z.testbit e 7; Z.testbit e 6; Z.testbit e 5] ++
     [Z.testbit e 4; Z.testbit e 3; Z.testbit e 2; Z.testbit e 1; Z.testbit e 0] ++ bs).
  rewrite !digits_more by (cbn; lia). subst msb lsb.
  repeat (apply f_equal2; [apply (number_eq 5); [blast|apply land31]|]). reflexivity.
Qed.
Lemma digits5_1 : is_byte a ->
  let m1 := Z.lor 0 (u32 (Z.shiftl a 24)) in
  digits 5 (bits 8 a ++ []) = [Z.land (Z.shiftr m1 27) 31; Z.land (Z.shiftr m1 22) 31].
Proof.
  intros Ha m1. pose proof (small_bits 8 a Ha) as Sa.
  change (bits 8 a ++ []) with
    ([Z.testbit a 7; Z.testbit a 6; Z.testbit a 5; Z.testbit a 4; Z.testbit a 3] ++
     [Z.testbit a 2; Z.testbit a 1; Z.testbit a 0]).
  rewrite !digits_more by (cbn; lia). rewrite digits_last by (cbn; (lia || discriminate)). cbn [length Nat.sub repeat app].
  subst m1.
  repeat (apply f_equal2; [apply (number_eq 5); [blast|apply land31]|]). reflexivity.
Qed.
Lemma digits5_2 : is_byte a -> is_byte b ->
  let m2 := Z.lor 0 (u32 (Z.shiftl b 16)) in let m1 := Z.lor m2 (u32 (Z.shiftl a 24)) in
  digits 5 (bits 8 a ++ bits 8 b ++ []) = [Z.land (Z.shiftr m1 27) 31; Z.land (Z.shiftr m1 22) 31; Z.land (Z.shiftr m2 17) 31; Z.land (Z.shiftr m2 12) 31].
Proof.
  intros Ha Hb m2 m1. pose proof (small_bits 8 a Ha) as Sa. pose proof (small_bits 8 b Hb) as Sb.
  change (bits 8 a ++ bits 8 b ++ []) with
    ([Z.testbit a 7; Z.testbit a 6; Z.testbit a 5; Z.testbit a 4; Z.testbit a 3] ++
     [Z.testbit a 2; Z.testbit a 1; Z.testbit a 0; Z.testbit b 7; Z.testbit b 6] ++
     [Z.testbit b 5; Z.testbit b 4; Z.testbit b 3; Z.testbit b 2; Z.testbit b 1] ++
     [Z.testbit b 0]).
  rewrite !digits_more by (cbn; lia). rewrite digits_last by (cbn; (lia || discriminate)). cbn [length Nat.sub repeat app].
  subst m2 m1.
  repeat (apply f_equal2; [apply (number_eq 5); [blast|apply land31]|]). reflexivity.
Qed.
Lemma digits5_3 : is_byte a -> is_byte b -> is_byte c ->
  let m3 := Z.lor 0 (u32 (Z.shiftl c 8)) in let m2 := Z.lor m3 (u32 (Z.shiftl b 16)) in let m1 := Z.lor m2 (u32 (Z.shiftl a 24)) in
  digits 5 (bits 8 a ++ bits 8 b ++ bits 8 c ++ []) = [Z.land (Z.shiftr m1 27) 31; Z.land (Z.shiftr m1 22) 31; Z.land (Z.shiftr m2 17) 31; Z.land (Z.shiftr m2 12) 31; Z.land (Z.shiftr m3 7) 31].
Proof.
  intros Ha Hb Hc m3 m2 m1. pose proof (small_bits 8 a Ha) as Sa. pose proof (small_bits 8 b Hb) as Sb. pose proof (small_bits 8 c Hc) as Sc.
  change (bits 8 a ++ bits 8 b ++ bits 8 c ++ []) with
    ([Z.testbit a 7; Z.testbit a 6; Z.testbit a 5; Z.testbit a 4; Z.testbit a 3] ++
     [Z.testbit a 2; Z.testbit a 1; Z.testbit a 0; Z.testbit b 7; Z.testbit b 6] ++
     [Z.testbit b 5; Z.testbit b 4; Z.testbit b 3; Z.testbit b 2; Z.testbit b 1] ++
     [Z.testbit b 0; Z.testbit c 7; Z.testbit c 6; Z.testbit c 5; Z.testbit c 4] ++
     [Z.testbit c 3; Z.testbit c 2; Z.testbit c 1; Z.testbit c 0]).
  rewrite !digits_more by (cbn; lia). rewrite digits_last by (cbn; (lia || discriminate)). cbn [length Nat.sub repeat app].
  subst m3 m2 m1.
  repeat (apply f_equal2; [apply (number_eq 5); [blast|apply land31]|]). reflexivity.
Qed.
Lemma digits5_4 : is_byte a -> is_byte b -> is_byte c -> is_byte d ->
  let m4 := Z.lor 0 d in let l4 := u32 (Z.shiftl m4 8) in let m3 := Z.lor m4 (u32 (Z.shiftl c 8)) in let m2 := Z.lor m3 (u32 (Z.shiftl b 16)) in let m1 := Z.lor m2 (u32 (Z.shiftl a 24)) in
  digits 5 (bits 8 a ++ bits 8 b ++ bits 8 c ++ bits 8 d ++ []) = [Z.land (Z.shiftr m1 27) 31; Z.land (Z.shiftr m1 22) 31; Z.land (Z.shiftr m2 17) 31; Z.land (Z.shiftr m2 12) 31; Z.land (Z.shiftr m3 7) 31; Z.land (Z.shiftr m4 2) 31; Z.land (Z.shiftr l4 5) 31].
Proof.
  intros Ha Hb Hc Hd m4 l4 m3 m2 m1. pose proof (small_bits 8 a Ha) as Sa. pose proof (small_bits 8 b Hb) as Sb. pose proof (small_bits 8 c Hc) as Sc. pose proof (small_bits 8 d Hd) as Sd.
  change (bits 8 a ++ bits 8 b ++ bits 8 c ++ bits 8 d ++ []) with
    ([Z.testbit a 7; Z.testbit a 6; Z.testbit a 5; Z.testbit a 4; Z.testbit a 3] ++
     [Z.testbit a 2; Z.testbit a 1; Z.testbit a 0; Z.testbit b 7; Z.testbit b 6] ++
     [Z.testbit b 5; Z.testbit b 4; Z.testbit b 3; Z.testbit b 2; Z.testbit b 1] ++
     [Z.testbit b 0; Z.testbit c 7; Z.testbit c 6; Z.testbit c 5; Z.testbit c 4] ++
     [Z.testbit c 3; Z.testbit c 2; Z.testbit c 1; Z.testbit c 0; Z.testbit d 7] ++
     [Z.testbit d 6; Z.testbit d 5; Z.testbit d 4; Z.testbit d 3; Z.testbit d 2] ++
     [Z.testbit d 1; Z.testbit d 0]).
  rewrite !digits_more by (cbn; lia). rewrite digits_last by (cbn; (lia || discriminate)). cbn [length Nat.sub repeat app].
  subst m4 l4 m3 m2 m1.
  repeat (apply f_equal2; [apply (number_eq 5); [blast|apply land31]|]). reflexivity.
Qed.
End G5.
Section W8.
Variables (a b c d e f g h : Z).
Lemma whole8_8 bs : 0 <= a < 2 ^ Z.of_nat 5 -> 0 <= b < 2 ^ Z.of_nat 5 -> 0 <= c < 2 ^ Z.of_nat 5 -> 0 <= d < 2 ^ Z.of_nat 5 -> 0 <= e < 2 ^ Z.of_nat 5 -> 0 <= f < 2 ^ Z.of_nat 5 -> 0 <= g < 2 ^ Z.of_nat 5 -> 0 <= h < 2 ^ Z.of_nat 5 ->
  whole 8 (bits 5 a ++ bits 5 b ++ bits 5 c ++ bits 5 d ++ bits 5 e ++ bits 5 f ++ bits 5 g ++ bits 5 h ++ bs) = byte (Z.lor (Z.shiftr b 2) (Z.shiftl a 3)) :: byte (Z.lor (Z.lor (Z.shiftr d 4) (Z.shiftl c 1)) (Z.shiftl b 6)) :: byte (Z.lor (Z.shiftr e 1) (Z.shiftl d 4)) :: byte (Z.lor (Z.lor (Z.shiftr g 3) (Z.shiftl f 2)) (Z.shiftl e 7)) :: byte (Z.lor h (Z.shiftl g 5)) :: whole 8 bs.
Proof.
  intros Ha Hb Hc Hd He Hf Hg Hh. pose proof (small_bits 5 a Ha) as Sa. pose proof (small_bits 5 b Hb) as Sb. pose proof (small_bits 5 c Hc) as Sc. pose proof (small_bits 5 d Hd) as Sd. pose proof (small_bits 5 e He) as Se. pose proof (small_bits 5 f Hf) as Sf. pose proof (small_bits 5 g Hg) as Sg. pose proof (small_bits 5 h Hh) as Sh.
  change (bits 5 a ++ bits 5 b ++ bits 5 c ++ bits 5 d ++ bits 5 e ++ bits 5 f ++ bits 5 g ++ bits 5 h ++ bs) with
    ([Z.testbit a 4; Z.testbit a 3; Z.testbit a 2; Z.testbit a 1; Z.testbit a 0; Z.testbit b 4; Z.testbit b 3; Z.testbit b 2] ++
     [Z.testbit b 1; Z.testbit b 0; Z.testbit c 4; Z.testbit c 3; Z.testbit c 2; Z.testbit c 1; Z.testbit c 0; Z.testbit d 4] ++
     [Z.testbit d 3; Z.testbit d 2; Z.testbit d 1; Z.testbit d 0; Z.testbit e 4; Z.testbit e 3; Z.testbit e 2; Z.testbit e 1] ++
     [Z.testbit e 0; Z.testbit f 4; Z.testbit f 3; Z.testbit f 2; Z.testbit f 1; Z.testbit f 0; Z.testbit g 4; Z.testbit g 3] ++
     [Z.testbit g 2; Z.testbit g 1; Z.testbit g 0; Z.testbit h 4; Z.testbit h 3; Z.testbit h 2; Z.testbit h 1; Z.testbit h 0] ++ bs).
  rewrite !whole_more by (cbn; lia).
  repeat (apply f_equal2; [apply (number_eq 8); [blast|apply byte_range]|]). reflexivity.
Qed.
Lemma whole8_7 : 0 <= a < 2 ^ Z.of_nat 5 -> 0 <= b < 2 ^ Z.of_nat 5 -> 0 <= c < 2 ^ Z.of_nat 5 -> 0 <= d < 2 ^ Z.of_nat 5 -> 0 <= e < 2 ^ Z.of_nat 5 -> 0 <= f < 2 ^ Z.of_nat 5 -> 0 <= g < 2 ^ Z.of_nat 5 ->
  whole 8 (bits 5 a ++ bits 5 b ++ bits 5 c ++ bits 5 d ++ bits 5 e ++ bits 5 f ++ bits 5 g ++ []) = byte (Z.lor (Z.shiftr b 2) (Z.shiftl a 3)) :: byte (Z.lor (Z.lor (Z.shiftr d 4) (Z.shiftl c 1)) (Z.shiftl b 6)) :: byte (Z.lor (Z.shiftr e 1) (Z.shiftl d 4)) :: byte (Z.lor (Z.lor (Z.shiftr g 3) (Z.shiftl f 2)) (Z.shiftl e 7)) :: [].
Proof.
  intros Ha Hb Hc Hd He Hf Hg. pose proof (small_bits 5 a Ha) as Sa. pose proof (small_bits 5 b Hb) as Sb. pose proof (small_bits 5 c Hc) as Sc. pose proof (small_bits 5 d Hd) as Sd. pose proof (small_bits 5 e He) as Se. pose proof (small_bits 5 f Hf) as Sf. pose proof (small_bits 5 g Hg) as Sg.
  change (bits 5 a ++ bits 5 b ++ bits 5 c ++ bits 5 d ++ bits 5 e ++ bits 5 f ++ bits 5 g ++ []) with
    ([Z.testbit a 4; Z.testbit a 3; Z.testbit a 2; Z.testbit a 1; Z.testbit a 0; Z.testbit b 4; Z.testbit b 3; Z.testbit b 2] ++
     [Z.testbit b 1; Z.testbit b 0; Z.testbit c 4; Z.testbit c 3; Z.testbit c 2; Z.testbit c 1; Z.testbit c 0; Z.testbit d 4] ++
     [Z.testbit d 3; Z.testbit d 2; Z.testbit d 1; Z.testbit d 0; Z.testbit e 4; Z.testbit e 3; Z.testbit e 2; Z.testbit e 1] ++
     [Z.testbit e 0; Z.testbit f 4; Z.testbit f 3; Z.testbit f 2; Z.testbit f 1; Z.testbit f 0; Z.testbit g 4; Z.testbit g 3] ++
     [Z.testbit g 2; Z.testbit g 1; Z.testbit g 0]).
  rewrite !whole_more by (cbn; lia). rewrite whole_none by (cbn; lia).
  repeat (apply f_equal2; [apply (number_eq 8); [blast|apply byte_range]|]). reflexivity.
Qed.
Lemma whole8_5 : 0 <= a < 2 ^ Z.of_nat 5 -> 0 <= b < 2 ^ Z.of_nat 5 -> 0 <= c < 2 ^ Z.of_nat 5 -> 0 <= d < 2 ^ Z.of_nat 5 -> 0 <= e < 2 ^ Z.of_nat 5 ->
  whole 8 (bits 5 a ++ bits 5 b ++ bits 5 c ++ bits 5 d ++ bits 5 e ++ []) = byte (Z.lor (Z.shiftr b 2) (Z.shiftl a 3)) :: byte (Z.lor (Z.lor (Z.shiftr d 4) (Z.shiftl c 1)) (Z.shiftl b 6)) :: byte (Z.lor (Z.shiftr e 1) (Z.shiftl d 4)) :: [].
Proof.
  intros Ha Hb Hc Hd He. pose proof (small_bits 5 a Ha) as Sa. pose proof (small_bits 5 b Hb) as Sb. pose proof (small_bits 5 c Hc) as Sc. pose proof (small_bits 5 d Hd) as Sd. pose proof (small_bits 5 e He) as Se.
  change (bits 5 a ++ bits 5 b ++ bits 5 c ++ bits 5 d ++ bits 5 e ++ []) with
    ([Z.testbit a 4; Z.testbit a 3; Z.testbit a 2; Z.testbit a 1; Z.testbit a 0; Z.testbit b 4; Z.testbit b 3; Z.testbit b 2] ++
     [Z.testbit b 1; Z.testbit b 0; Z.testbit c 4; Z.testbit c 3; Z.testbit c 2; Z.testbit c 1; Z.testbit c 0; Z.testbit d 4] ++
     [Z.testbit d 3; Z.testbit d 2; Z.testbit d 1; Z.testbit d 0; Z.testbit e 4; Z.testbit e 3; Z.testbit e 2; Z.testbit e 1] ++
     [Z.testbit e 0]).
  rewrite !whole_more by (cbn; lia). rewrite whole_none by (cbn; lia).
  repeat (apply f_equal2; [apply (number_eq 8); [blast|apply byte_range]|]). reflexivity.
Qed.
Lemma whole8_4 : 0 <= a < 2 ^ Z.of_nat 5 -> 0 <= b < 2 ^ Z.of_nat 5 -> 0 <= c < 2 ^ Z.of_nat 5 -> 0 <= d < 2 ^ Z.of_nat 5 ->
  whole 8 (bits 5 a ++ bits 5 b ++ bits 5 c ++ bits 5 d ++ []) = byte (Z.lor (Z.shiftr b 2) (Z.shiftl a 3)) :: byte (Z.lor (Z.lor (Z.shiftr d 4) (Z.shiftl c 1)) (Z.shiftl b 6)) :: [].
Proof.
  intros Ha Hb Hc Hd. pose proof (small_bits 5 a Ha) as Sa. pose proof (small_bits 5 b Hb) as Sb. pose proof (small_bits 5 c Hc) as Sc. pose proof (small_bits 5 d Hd) as Sd.
  change (bits 5 a ++ bits 5 b ++ bits 5 c ++ bits 5 d ++ []) with
    ([Z.testbit a 4; Z.testbit a 3; Z.testbit a 2; Z.testbit a 1; Z.testbit a 0; Z.testbit b 4; Z.testbit b 3; Z.testbit b 2] ++
     [Z.testbit b 1; Z.testbit b 0; Z.testbit c 4; Z.testbit c 3; Z.testbit c 2; Z.testbit c 1; Z.testbit c 0; Z.testbit d 4] ++
     [Z.testbit d 3; Z.testbit d 2; Z.testbit d 1; Z.testbit d 0]).
  rewrite !whole_more by (cbn; lia). rewrite whole_none by (cbn; lia).
  repeat (apply f_equal2; [apply (number_eq 8); [blast|apply byte_range]|]). reflexivity.
Qed.
Lemma whole8_2 : 0 <= a < 2 ^ Z.of_nat 5 -> 0 <= b < 2 ^ Z.of_nat 5 ->
  whole 8 (bits 5 a ++ bits 5 b ++ []) = byte (Z.lor (Z.shiftr b 2) (Z.shiftl a 3)) :: [].
Proof.
  intros Ha Hb. pose proof (small_bits 5 a Ha) as Sa. pose proof (small_bits 5 b Hb) as Sb.
  change (bits 5 a ++ bits 5 b ++ []) with
    ([Z.testbit a 4; Z.testbit a 3; Z.testbit a 2; Z.testbit a 1; Z.testbit a 0; Z.testbit b 4; Z.testbit b 3; Z.testbit b 2] ++
     [Z.testbit b 1; Z.testbit b 0]).
  rewrite !whole_more by (cbn; lia). rewrite whole_none by (cbn; lia).
  repeat (apply f_equal2; [apply (number_eq 8); [blast|apply byte_range]|]). reflexivity.
Qed.
End W8.

Section B32.
Context (al : alphabet) (G : good_alphabet 5 (encoding al) (reverse al)).
Notation letter := (letter (encoding al)).
Notation range := (Forall (fun d => 0 <= d < 2 ^ Z.of_nat 5)).

Lemma enc_loop32 : forall n f u s t d r, length s = (5 * n)%nat -> (n < f)%nat -> Forall is_byte s -> (8 * n <= length r)%nat ->
  b32_enc_loop f al (u ++ s ++ t) (zlen u) (zlen u + 5 * Z.of_nat n) (d ++ r) (zlen d) =
  Ok ((d ++ map letter (digits 5 (bit_string 8 s))) ++ skipn (8 * n) r, zlen d + 8 * Z.of_nat n).
Proof.
  induction n as [|n IH]; intros k u s t d r Hl Hf Hs Hr.
  - destruct s; [|discriminate]. destruct k; [lia|]. cbn [b32_enc_loop]. destruct (Z.ltb_spec (zlen u) (zlen u + 5 * Z.of_nat 0)); [lia|].
    cbn. rewrite app_nil_r, Z.add_0_r. reflexivity.
  - destruct k as [|k]; [lia|]. destruct s as [|a [|b [|c [|e [|g s]]]]]; try (cbn [length] in Hl; lia).
    destruct r as [|r0 [|r1 [|r2 [|r3 [|r4 [|r5 [|r6 [|r7 r]]]]]]]]; try (cbn [length] in Hr; lia).
    fcons Hs Ha. fcons Hs Hb. fcons Hs Hc. fcons Hs He. fcons Hs Hg.
    cbn [b32_enc_loop]. destruct (Z.ltb_spec (zlen u) (zlen u + 5 * Z.of_nat (S n))); [|lia].
    rewrite (get_at u _ 0 (zlen u)) by lia. rewrite (get_at u _ 1 (zlen u + 1)) by lia. rewrite (get_at u _ 2 (zlen u + 2)) by lia. rewrite (get_at u _ 3 (zlen u + 3)) by lia. rewrite (get_at u _ 4 (zlen u + 4)) by lia.
    change ((a :: b :: c :: e :: g :: s) ++ t) with (a :: b :: c :: e :: g :: s ++ t).
    match goal with |- context [get ?l 0] => change (get l 0) with (Ok a); change (get l 1) with (Ok b); change (get l 2) with (Ok c); change (get l 3) with (Ok e); change (get l 4) with (Ok g) end.
    cbn [bind]. rewrite !(enc_get 5 al G) by apply land31. cbn [bind]. puts.
    rewrite advance_at by (rewrite ?zlen_cons; pose proof (zlen_nonneg r); lia). cbn [bind].
    set (msb := Z.lor (Z.lor (Z.lor (u32 (Z.shiftl a 24)) (u32 (Z.shiftl b 16))) (u32 (Z.shiftl c 8))) e).
    set (lsb := Z.lor (u32 (Z.shiftl msb 8)) g).
    set (w := [letter (Z.land (Z.shiftr msb 27) 31); letter (Z.land (Z.shiftr msb 22) 31); letter (Z.land (Z.shiftr msb 17) 31); letter (Z.land (Z.shiftr msb 12) 31);
               letter (Z.land (Z.shiftr msb 7) 31); letter (Z.land (Z.shiftr msb 2) 31); letter (Z.land (Z.shiftr lsb 5) 31); letter (Z.land lsb 31)]).
    match goal with |- b32_enc_loop _ _ ?l0 ?i ?e0 ?l ?p = _ =>
      replace l with ((d ++ w) ++ r) by (rewrite <- app_assoc; reflexivity); replace p with (zlen (d ++ w)) by (rewrite zlen_app; reflexivity);
      replace l0 with ((u ++ [a; b; c; e; g]) ++ s ++ t) by (rewrite <- app_assoc; reflexivity);
      replace i with (zlen (u ++ [a; b; c; e; g])) by (rewrite zlen_app; reflexivity);
      replace e0 with (zlen (u ++ [a; b; c; e; g]) + 5 * Z.of_nat n) by (rewrite zlen_app; change (zlen [a; b; c; e; g]) with 5; lia) end.
    rewrite IH by (cbn [length] in *; try lia; assumption).
    change (bit_string 8 (a :: b :: c :: e :: g :: s)) with (bits 8 a ++ bits 8 b ++ bits 8 c ++ bits 8 e ++ bits 8 g ++ bit_string 8 s). rewrite digits5 by assumption. fold msb. fold lsb.
    cbn [map]. rewrite zlen_app. change (zlen w) with 8. f_equal. f_equal; [|lia].
    replace (8 * S n)%nat with (S (S (S (S (S (S (S (S (8 * n)))))))))%nat by lia. cbn [skipn]. subst w. rewrite <- !app_assoc. reflexivity.
Qed.
Lemma digits5_length n x : length x = (5 * n)%nat -> length (digits 5 (bit_string 8 x)) = (8 * n)%nat.
Proof.
  intros H. destruct (digits_spell 5 ltac:(lia) _ (bit_string 8 x) (Nat.le_refl _)) as (z & Hz & E & _).
  apply (f_equal (@length bool)) in E. rewrite app_length, !bit_string_length, repeat_length in E. lia.
Qed.
(** Characters for 0 to 4 trailing bytes. *)
Definition tailc (t : nat) : Z := match t with O => 0 | S O => 2 | S (S O) => 4 | S (S (S O)) => 5 | _ => 7 end.
Lemma encode_len32 n t pad : (t < 5)%nat -> 5 * Z.of_nat n + Z.of_nat t < 2 ^ 60 ->
  b32_encode_len (5 * Z.of_nat n + Z.of_nat t) pad = 8 * Z.of_nat n + match t with O => 0 | S _ => if pad =? 0 then tailc t else 8 end.
Proof.
  intros Ht Hn. unfold b32_encode_len, usz.
  assert (E1 : (5 * Z.of_nat n + Z.of_nat t + 4) / 5 = Z.of_nat n + match t with O => 0 | S _ => 1 end).
  { symmetry. apply Z.div_unique with (match t with O => 4 | S m => Z.of_nat m end); destruct t as [|[|[|[|[|t]]]]]; lia. }
  assert (E2 : (5 * Z.of_nat n + Z.of_nat t) mod 5 = Z.of_nat t) by (symmetry; apply Z.mod_unique with (Z.of_nat n); lia).
  assert (E3 : (5 * Z.of_nat n + Z.of_nat t) / 5 = Z.of_nat n) by (symmetry; apply Z.div_unique with (Z.of_nat t); lia).
  destruct (Z.eqb_spec pad 0); cbn [negb].
  - rewrite E2, E3. rewrite (Z.mod_small (Z.of_nat n * 8)) by lia.
    assert (E4 : (Z.of_nat t * 8 + 4) / 5 = tailc t) by (destruct t as [|[|[|[|[|t]]]]]; [reflexivity|reflexivity|reflexivity|reflexivity|reflexivity|lia]).
    rewrite E4. destruct t as [|[|[|[|[|t]]]]]; try lia; unfold tailc; rewrite Z.mod_small by lia; lia.
  - rewrite (Z.mod_small (5 * Z.of_nat n + Z.of_nat t + 4)) by lia. rewrite E1. destruct t; rewrite Z.mod_small by lia; lia.
Qed.
Lemma encode32_ok src dst pad : good_padding 5 (encoding al) pad -> Forall is_byte src -> zlen src < 2 ^ 60 ->
  b32_encode_len (zlen src) pad <= zlen dst ->
  let t := text 5 8 (encoding al) pad src in
  zlen t = b32_encode_len (zlen src) pad /\ b32_encode_buffer src dst pad al = Ok (t, t ++ skipn (length t) dst).
Proof.
  intros [Hp _] Hb Hn Hd.
  assert (exists n s3 t, src = s3 ++ t /\ length s3 = (5 * n)%nat /\ (length t < 5)%nat) as (n & s3 & t & -> & H3 & Ht).
  { pose proof (Nat.div_mod (length src) 5 ltac:(lia)) as E. pose proof (Nat.mod_upper_bound (length src) 5 ltac:(lia)).
    set (n := (length src / 5)%nat) in *. set (m := (length src mod 5)%nat) in *. clearbody n m.
    destruct (split_list src (5 * n) ltac:(lia)) as (s3 & t & -> & H3). rewrite app_length in E. exists n, s3, t. repeat split; lia. }
  apply Forall_app_inv in Hb. destruct Hb as [Hb3 Hbt].
  assert (Hz : zlen (s3 ++ t) = 5 * Z.of_nat n + Z.of_nat (length t)) by (rewrite zlen_app; unfold zlen; lia).
  assert (Hz3 : zlen s3 = 5 * Z.of_nat n) by (unfold zlen; lia).
  rewrite Hz in *. pose proof (encode_len32 n (length t) pad Ht Hn) as EL.
  set (ds := digits 5 (bit_string 8 s3)). assert (Hds : length ds = (8 * n)%nat) by (apply digits5_length, H3).
  assert (ET : digits 5 (bit_string 8 (s3 ++ t)) = ds ++ digits 5 (bit_string 8 t)).
  { rewrite bit_string_app. apply digits_app with (n := (8 * n)%nat); [lia|]. rewrite bit_string_length. lia. }
  assert (Ed : (5 * Z.of_nat n + Z.of_nat (length t)) / 5 * 5 = 5 * Z.of_nat n) by (replace ((5 * Z.of_nat n + Z.of_nat (length t)) / 5) with (Z.of_nat n) by (apply Z.div_unique with (Z.of_nat (length t)); lia); lia).
  assert (Hmiss : forall u, missing 8 (8 * n + u) = missing 8 u).
  { intros u. unfold missing. rewrite Nat.add_comm, Nat.mul_comm, Nat.mod_add by lia. reflexivity. }
  unfold b32_encode_buffer, text. cbv zeta. rewrite ET, Hz, Ed, EL, map_app, app_length, !map_length, Hds, Hmiss.
  unfold usz. rewrite (Z.mod_small (5 * Z.of_nat n)) by lia.
  replace ((5 * Z.of_nat n + Z.of_nat (length t) - 5 * Z.of_nat n) mod 2 ^ 64) with (Z.of_nat (length t)) by (rewrite Z.mod_small; lia).
  assert (Hloop : forall r, (8 * n <= length r)%nat -> b32_enc_loop (S (length (s3 ++ t))) al (s3 ++ t) 0 (5 * Z.of_nat n) r 0 =
     Ok (map letter ds ++ skipn (8 * n) r, 8 * Z.of_nat n)).
  { intros r Hr. change r with ([] ++ r) at 1. change (s3 ++ t) with ([] ++ s3 ++ t) at 2. change 0 with (zlen (@nil Z)) at 1 2.
    change (5 * Z.of_nat n) with (zlen (@nil Z) + 5 * Z.of_nat n).
    rewrite enc_loop32 by (try assumption; rewrite ?app_length; lia). reflexivity. }
  rewrite EL in Hd.
  assert (Hdl : (8 * n <= length dst)%nat).
  { unfold zlen in Hd. destruct t as [|? [|? [|? [|? [|? t]]]]]; cbn [length tailc] in *; try lia; destruct (pad =? 0); lia. }
  specialize (Hloop dst Hdl).
  replace (zlen dst <? 8 * Z.of_nat n + match length t with O => 0 | S _ => if pad =? 0 then tailc (length t) else 8 end) with false by lia.
  destruct (split_list dst (8 * n) Hdl) as (dd & r & -> & Hdd). rewrite skipn_app_len in Hloop by lia. rewrite zlen_app in Hd.
  replace (zlen dd) with (8 * Z.of_nat n) in Hd by (unfold zlen; lia).
  assert (Hpos : 8 * Z.of_nat n = zlen (map letter ds)) by (unfold zlen; rewrite map_length; lia).
  destruct (Z.eqb_spec (5 * Z.of_nat n + Z.of_nat (length t)) 0) as [H0|H0].
  { assert (n = 0%nat) by lia. assert (t = []) by (destruct t; [reflexivity|cbn [length] in H0; lia]). subst n t.
    destruct s3; [|discriminate]. destruct dd; [|discriminate]. subst ds. cbn. destruct (pad =? 0); split; reflexivity. }
  rewrite Hloop. cbn [bind]. clear Hloop EL ET Ed Hmiss.
  destruct t as [|a [|b [|c [|d [|e t]]]]]; [| | | | |cbn [length] in Ht; lia].
  - cbn [length Z.of_nat Z.eqb bind]. rewrite digits_nil. cbn [map]. rewrite app_nil_r, Z.add_0_r.
    replace (if pad =? 0 then [] else repeat pad (missing 8 (length (@nil Z)))) with (@nil Z) by (destruct (pad =? 0); reflexivity).
    rewrite !app_nil_r. split; [unfold zlen; rewrite map_length; lia|]. rewrite upto_at by exact Hpos. cbn [bind]. rewrite map_length, skipn_app_len by lia. reflexivity.
  - fcons Hbt Ha. change (bit_string 8 [a]) with (bits 8 a ++ []). rewrite digits5_1 by assumption.
    change (Z.of_nat (length [a])) with 1 in *. unfold b32_enc_tail. cbn [Z.eqb Pos.eqb length map tailc] in *. change (missing 8 2) with 6%nat.
    rewrite (get_at s3 _ 0 (5 * Z.of_nat n)) by lia. change (get [a] 0) with (Ok a). cbn [bind].
    rewrite !(enc_get 5 al G) by apply land31. cbn [bind].
    destruct (Z.eqb_spec pad 0) as [->|Hp0].
    + change (0 <? 0) with false. destruct r as [|r0 [|r1 r]]; try (cbn in Hd; lia).
      puts. rewrite app_nil_r. split; [rewrite zlen_app, <- Hpos; reflexivity|].
      apply (fin_ok _ [_; _] dd [r0; r1] r); rewrite ?Hpos; reflexivity || (rewrite map_length; lia).
    + replace (0 <? pad) with true by lia. destruct r as [|r0 [|r1 [|r2 [|r3 [|r4 [|r5 [|r6 [|r7 r]]]]]]]]; try (cbn in Hd; lia).
      puts. change (Z.to_nat (8 - (1 * 8 / 5 + 1))) with 6%nat. cbn [b32_pad Z.of_nat Pos.of_succ_nat Pos.succ Z.sub Z.opp Z.add Z.pos_sub Pos.pred_double Pos.pred]. 
      puts. cbn [bind repeat]. rewrite <- app_assoc. cbn [app]. split; [rewrite zlen_app, <- Hpos; reflexivity|].
      apply (fin_ok _ [_; _; _; _; _; _; _; _] dd [r0; r1; r2; r3; r4; r5; r6; r7] r); rewrite ?Hpos; reflexivity || (rewrite map_length; lia).
  - fcons Hbt Ha. fcons Hbt Hb. change (bit_string 8 [a; b]) with (bits 8 a ++ bits 8 b ++ []). rewrite digits5_2 by assumption.
    change (Z.of_nat (length [a; b])) with 2 in *. unfold b32_enc_tail. cbn [Z.eqb Pos.eqb length map tailc] in *. change (missing 8 4) with 4%nat.
    rewrite (get_at s3 _ 0 (5 * Z.of_nat n)) by lia. rewrite (get_at s3 _ 1 (5 * Z.of_nat n + 1)) by lia. change (get [a; b] 0) with (Ok a). change (get [a; b] 1) with (Ok b). cbn [bind].
    rewrite !(enc_get 5 al G) by apply land31. cbn [bind].
    destruct (Z.eqb_spec pad 0) as [->|Hp0].
    + change (0 <? 0) with false. destruct r as [|r0 [|r1 [|r2 [|r3 r]]]]; try (cbn in Hd; lia).
      puts. rewrite app_nil_r. split; [rewrite zlen_app, <- Hpos; reflexivity|].
      apply (fin_ok _ [_; _; _; _] dd [r0; r1; r2; r3] r); rewrite ?Hpos; reflexivity || (rewrite map_length; lia).
    + replace (0 <? pad) with true by lia. destruct r as [|r0 [|r1 [|r2 [|r3 [|r4 [|r5 [|r6 [|r7 r]]]]]]]]; try (cbn in Hd; lia).
      puts. change (Z.to_nat (8 - (2 * 8 / 5 + 1))) with 4%nat. cbn [b32_pad Z.of_nat Pos.of_succ_nat Pos.succ Z.sub Z.opp Z.add Z.pos_sub Pos.pred_double Pos.pred].
      puts. cbn [bind repeat]. rewrite <- app_assoc. cbn [app]. split; [rewrite zlen_app, <- Hpos; reflexivity|].
      apply (fin_ok _ [_; _; _; _; _; _; _; _] dd [r0; r1; r2; r3; r4; r5; r6; r7] r); rewrite ?Hpos; reflexivity || (rewrite map_length; lia).
  - fcons Hbt Ha. fcons Hbt Hb. fcons Hbt Hc. change (bit_string 8 [a; b; c]) with (bits 8 a ++ bits 8 b ++ bits 8 c ++ []). rewrite digits5_3 by assumption.
    change (Z.of_nat (length [a; b; c])) with 3 in *. unfold b32_enc_tail. cbn [Z.eqb Pos.eqb length map tailc] in *. change (missing 8 5) with 3%nat.
    rewrite (get_at s3 _ 0 (5 * Z.of_nat n)) by lia. rewrite (get_at s3 _ 1 (5 * Z.of_nat n + 1)) by lia. rewrite (get_at s3 _ 2 (5 * Z.of_nat n + 2)) by lia.
    change (get [a; b; c] 0) with (Ok a). change (get [a; b; c] 1) with (Ok b). change (get [a; b; c] 2) with (Ok c). cbn [bind].
    rewrite !(enc_get 5 al G) by apply land31. cbn [bind].
    destruct (Z.eqb_spec pad 0) as [->|Hp0].
    + change (0 <? 0) with false. destruct r as [|r0 [|r1 [|r2 [|r3 [|r4 r]]]]]; try (cbn in Hd; lia).
      puts. rewrite app_nil_r. split; [rewrite zlen_app, <- Hpos; reflexivity|].
      apply (fin_ok _ [_; _; _; _; _] dd [r0; r1; r2; r3; r4] r); rewrite ?Hpos; reflexivity || (rewrite map_length; lia).
    + replace (0 <? pad) with true by lia. destruct r as [|r0 [|r1 [|r2 [|r3 [|r4 [|r5 [|r6 [|r7 r]]]]]]]]; try (cbn in Hd; lia).
      puts. change (Z.to_nat (8 - (3 * 8 / 5 + 1))) with 3%nat. cbn [b32_pad Z.of_nat Pos.of_succ_nat Pos.succ Z.sub Z.opp Z.add Z.pos_sub Pos.pred_double Pos.pred].
      puts. cbn [bind repeat]. rewrite <- app_assoc. cbn [app]. split; [rewrite zlen_app, <- Hpos; reflexivity|].
      apply (fin_ok _ [_; _; _; _; _; _; _; _] dd [r0; r1; r2; r3; r4; r5; r6; r7] r); rewrite ?Hpos; reflexivity || (rewrite map_length; lia).
  - fcons Hbt Ha. fcons Hbt Hb. fcons Hbt Hc. fcons Hbt Hd'. change (bit_string 8 [a; b; c; d]) with (bits 8 a ++ bits 8 b ++ bits 8 c ++ bits 8 d ++ []). rewrite digits5_4 by assumption.
    change (Z.of_nat (length [a; b; c; d])) with 4 in *. unfold b32_enc_tail. cbn [Z.eqb Pos.eqb length map tailc] in *. change (missing 8 7) with 1%nat.
    rewrite (get_at s3 _ 0 (5 * Z.of_nat n)) by lia. rewrite (get_at s3 _ 1 (5 * Z.of_nat n + 1)) by lia. rewrite (get_at s3 _ 2 (5 * Z.of_nat n + 2)) by lia. rewrite (get_at s3 _ 3 (5 * Z.of_nat n + 3)) by lia.
    change (get [a; b; c; d] 0) with (Ok a). change (get [a; b; c; d] 1) with (Ok b). change (get [a; b; c; d] 2) with (Ok c). change (get [a; b; c; d] 3) with (Ok d). cbn [bind].
    rewrite !(enc_get 5 al G) by apply land31. cbn [bind].
    destruct (Z.eqb_spec pad 0) as [->|Hp0].
    + change (0 <? 0) with false. destruct r as [|r0 [|r1 [|r2 [|r3 [|r4 [|r5 [|r6 r]]]]]]]; try (cbn in Hd; lia).
      puts. rewrite app_nil_r. split; [rewrite zlen_app, <- Hpos; reflexivity|].
      apply (fin_ok _ [_; _; _; _; _; _; _] dd [r0; r1; r2; r3; r4; r5; r6] r); rewrite ?Hpos; reflexivity || (rewrite map_length; lia).
    + replace (0 <? pad) with true by lia. destruct r as [|r0 [|r1 [|r2 [|r3 [|r4 [|r5 [|r6 [|r7 r]]]]]]]]; try (cbn in Hd; lia).
      puts. change (Z.to_nat (8 - (4 * 8 / 5 + 1))) with 1%nat. cbn [b32_pad Z.of_nat Pos.of_succ_nat Pos.succ Z.sub Z.opp Z.add Z.pos_sub Pos.pred_double Pos.pred].
      puts. cbn [bind repeat]. rewrite <- app_assoc. cbn [app]. split; [rewrite zlen_app, <- Hpos; reflexivity|].
      apply (fin_ok _ [_; _; _; _; _; _; _; _] dd [r0; r1; r2; r3; r4; r5; r6; r7] r); rewrite ?Hpos; reflexivity || (rewrite map_length; lia).
Qed.

(** ** Decoding *)
(** Loading characters that are not padding. *)
Lemma load_ok pad : forall l k rest b b', Forall is_byte l -> ~ In pad l -> (length l <= k)%nat -> length b = (8 - k)%nat -> length b' = k -> (k <= 8)%nat ->
  (exists ds, l = map letter ds /\ range ds /\ b32_load k al pad (l ++ rest) (b ++ b') = b32_load (k - length l) al pad rest ((b ++ ds) ++ skipn (length l) b'))
  \/ (b32_load k al pad (l ++ rest) (b ++ b') = Ok (Fault InvalidCharacter) /\ forall ds, range ds -> l <> map letter ds).
Proof.
  induction l as [|c l IH]; intros k rest b b' Hb Hp Hk Hlb Hlb' H8.
  - left. exists []. cbn [length app skipn]. rewrite Nat.sub_0_r, app_nil_r. repeat split; constructor.
  - destruct k as [|k]; [cbn [length] in Hk; lia|]. fcons Hb Hc. cbn [app b32_load].
    replace (zlen (c :: l ++ rest) =? 0) with false by (rewrite zlen_cons; pose proof (zlen_nonneg (l ++ rest)); lia).
    change (get (c :: l ++ rest) 0) with (Ok c). cbn [bind].
    destruct (Z.eqb_spec c pad) as [->|Hcp]; [destruct Hp; left; reflexivity|].
    destruct (rev_get 5 al G c Hc) as (v & E & C). rewrite E. cbn [bind].
    destruct b' as [|x b']; [discriminate|].
    rewrite set_app by (unfold zlen; lia). cbn [bind].
    change (c :: l ++ rest) with ([c] ++ (l ++ rest)). rewrite from_at by reflexivity. cbn [bind].
    destruct (Z.eqb_spec v 255) as [->|Hv].
    + right. split; [reflexivity|]. intros [|d ds] R E'; [discriminate|]. cbn [map] in E'. injection E' as -> _. fcons R R0.
      destruct C as [[_ N]|[C _]]; [exact (N d R0 eq_refl)|]. change (2 ^ Z.of_nat 5) with 32 in C. lia.
    + destruct C as [[C _]|[C ->]]; [congruence|].
      replace (b ++ v :: b') with ((b ++ [v]) ++ b') by (rewrite <- app_assoc; reflexivity).
      destruct (IH k rest (b ++ [v]) b' Hb ltac:(intros I; apply Hp; right; exact I) ltac:(cbn [length] in Hk; lia) ltac:(rewrite app_length; cbn [length]; lia) ltac:(cbn [length] in Hlb'; lia) ltac:(lia)) as [(ds & -> & R & E2)|[E2 N]].
      * left. exists (v :: ds). split; [reflexivity|]. split; [constructor; assumption|]. rewrite E2. cbn [length Nat.sub skipn].
        rewrite <- !app_assoc. reflexivity.
      * right. split; [exact E2|]. intros [|d ds] R E'; [discriminate|]. cbn [map] in E'. injection E' as _ E'. fcons R R0. exact (N ds R E').
Qed.
(** How many bytes [i] digits make, if that is a possible number of digits in the last group. *)
Definition stored (i : nat) : option nat := match i with 8 => Some 5 | 7 => Some 4 | 5 => Some 3 | 4 => Some 2 | 2 => Some 1 | _ => None end%nat.
Lemma usz_small x : 0 <= x < 2 ^ 64 -> usz x = x. Proof. apply Z.mod_small. Qed.
Ltac usz1 := repeat match goal with |- context [usz (?n + 1)] => rewrite (usz_small (n + 1)) by lia end.
Lemma store_ok ds b d r n i : range ds -> (length ds <= 8)%nat -> i = Z.of_nat (length ds) -> 0 <= n < 2 ^ 62 ->
  match stored (length ds) with
  | None => b32_store (ds ++ b) (d ++ r) (zlen d) n i = Ok None
  | Some m => (m <= length r)%nat -> b32_store (ds ++ b) (d ++ r) (zlen d) n i = Ok (Some (d ++ whole 8 (bit_string 5 ds) ++ skipn m r, n + Z.of_nat m))
         /\ length (whole 8 (bit_string 5 ds)) = m
  end.
Proof.
  intros R H8 -> Hn.
  destruct ds as [|v0 [|v1 [|v2 [|v3 [|v4 [|v5 [|v6 [|v7 [|]]]]]]]]]; [| | | | | | | | |cbn [length] in H8; lia]; cbn [length stored]; try reflexivity.
  - intros Hr. destruct r as [|r0 r]; [cbn in Hr; lia|]. repeat (let H := fresh "R" in fcons R H).
    change (bit_string 5 [v0; v1]) with (bits 5 v0 ++ bits 5 v1 ++ []). rewrite whole8_2 by assumption. split; [|reflexivity].
    unfold b32_store. cbn [app]. change (Z.of_nat 2) with 2. cbn [Z.eqb Pos.eqb].
    match goal with |- context [get ?l 0] => change (get l 0) with (Ok v0); change (get l 1) with (Ok v1) end. cbn [bind].
    puts. usz1. reflexivity.
  - intros Hr. destruct r as [|r0 [|r1 r]]; try (cbn in Hr; lia). repeat (let H := fresh "R" in fcons R H).
    change (bit_string 5 [v0; v1; v2; v3]) with (bits 5 v0 ++ bits 5 v1 ++ bits 5 v2 ++ bits 5 v3 ++ []). rewrite whole8_4 by assumption. split; [|reflexivity].
    unfold b32_store. cbn [app]. change (Z.of_nat 4) with 4. cbn [Z.eqb Pos.eqb].
    match goal with |- context [get ?l 0] => change (get l 0) with (Ok v0); change (get l 1) with (Ok v1); change (get l 2) with (Ok v2); change (get l 3) with (Ok v3) end. cbn [bind].
    puts. usz1. match goal with |- Ok (Some (_, ?a)) = Ok (Some (_, ?b)) => replace b with a by lia end. reflexivity.
  - intros Hr. destruct r as [|r0 [|r1 [|r2 r]]]; try (cbn in Hr; lia). repeat (let H := fresh "R" in fcons R H).
    change (bit_string 5 [v0; v1; v2; v3; v4]) with (bits 5 v0 ++ bits 5 v1 ++ bits 5 v2 ++ bits 5 v3 ++ bits 5 v4 ++ []). rewrite whole8_5 by assumption. split; [|reflexivity].
    unfold b32_store. cbn [app]. change (Z.of_nat 5) with 5. cbn [Z.eqb Pos.eqb].
    match goal with |- context [get ?l 0] => change (get l 0) with (Ok v0); change (get l 1) with (Ok v1); change (get l 2) with (Ok v2); change (get l 3) with (Ok v3); change (get l 4) with (Ok v4) end. cbn [bind].
    puts. usz1. match goal with |- Ok (Some (_, ?a)) = Ok (Some (_, ?b)) => replace b with a by lia end. reflexivity.
  - intros Hr. destruct r as [|r0 [|r1 [|r2 [|r3 r]]]]; try (cbn in Hr; lia). repeat (let H := fresh "R" in fcons R H).
    change (bit_string 5 [v0; v1; v2; v3; v4; v5; v6]) with (bits 5 v0 ++ bits 5 v1 ++ bits 5 v2 ++ bits 5 v3 ++ bits 5 v4 ++ bits 5 v5 ++ bits 5 v6 ++ []). rewrite whole8_7 by assumption. split; [|reflexivity].
    unfold b32_store. cbn [app]. change (Z.of_nat 7) with 7. cbn [Z.eqb Pos.eqb].
    match goal with |- context [get ?l 0] => change (get l 0) with (Ok v0); change (get l 1) with (Ok v1); change (get l 2) with (Ok v2); change (get l 3) with (Ok v3); change (get l 4) with (Ok v4); change (get l 5) with (Ok v5); change (get l 6) with (Ok v6) end. cbn [bind].
    puts. usz1. match goal with |- Ok (Some (_, ?a)) = Ok (Some (_, ?b)) => replace b with a by lia end. reflexivity.
  - intros Hr. destruct r as [|r0 [|r1 [|r2 [|r3 [|r4 r]]]]]; try (cbn in Hr; lia). repeat (let H := fresh "R" in fcons R H).
    change (bit_string 5 [v0; v1; v2; v3; v4; v5; v6; v7]) with (bits 5 v0 ++ bits 5 v1 ++ bits 5 v2 ++ bits 5 v3 ++ bits 5 v4 ++ bits 5 v5 ++ bits 5 v6 ++ bits 5 v7 ++ []). rewrite whole8_8 by assumption. split; [|reflexivity].
    unfold b32_store. cbn [app]. change (Z.of_nat 8) with 8. cbn [Z.eqb Pos.eqb].
    match goal with |- context [get ?l 0] => change (get l 0) with (Ok v0); change (get l 1) with (Ok v1); change (get l 2) with (Ok v2); change (get l 3) with (Ok v3); change (get l 4) with (Ok v4); change (get l 5) with (Ok v5); change (get l 6) with (Ok v6); change (get l 7) with (Ok v7) end. cbn [bind].
    puts. usz1. match goal with |- Ok (Some (_, ?a)) = Ok (Some (_, ?b)) => replace b with a by lia end. reflexivity.
Qed.

(** The loop over the full groups of eight letters. *)
Lemma dec_loop32 pad : forall g f s8 rest buf d r, length s8 = (8 * g)%nat -> Forall is_byte s8 -> ~ In pad s8 -> length buf = 8%nat ->
  (5 * g <= length r)%nat -> zlen d + 5 * Z.of_nat g < 2 ^ 62 ->
  (exists ds buf' x, s8 = map letter ds /\ range ds /\ x = whole 8 (bit_string 5 ds) /\ length x = (5 * g)%nat /\ length buf' = 8%nat
     /\ b32_dec_loop (g + f) al pad (s8 ++ rest) buf (d ++ r) (zlen d) (zlen d)
        = b32_dec_loop f al pad rest buf' ((d ++ x) ++ skipn (5 * g) r) (zlen (d ++ x)) (zlen (d ++ x)))
  \/ ((exists buf', b32_dec_loop (g + f) al pad (s8 ++ rest) buf (d ++ r) (zlen d) (zlen d) = Ok (Fault InvalidCharacter, buf') /\ zlen buf' = zlen (d ++ r))
      /\ forall ds, range ds -> s8 <> map letter ds).
Proof.
  induction g as [|g IH]; intros f s8 rest buf d r Hl Hb Hp Hbuf Hr Hn.
  - left. destruct s8; [|discriminate]. exists [], buf, []. rewrite app_nil_r. repeat split; try constructor; assumption.
  - assert (exists g8 s', s8 = g8 ++ s' /\ length g8 = 8%nat /\ length s' = (8 * g)%nat) as (g8 & s' & -> & H8 & H').
    { exists (firstn 8 s8), (skipn 8 s8). rewrite firstn_skipn, firstn_length, skipn_length. repeat split; lia. }
    apply Forall_app in Hb as [Hb8 Hb']. assert (~ In pad g8) as Hp8 by (intros I; apply Hp, in_or_app; left; exact I).
    assert (~ In pad s') as Hp' by (intros I; apply Hp, in_or_app; right; exact I).
    cbn [Nat.add b32_dec_loop].
    replace (0 <? zlen ((g8 ++ s') ++ rest)) with true by (unfold zlen; rewrite !app_length; lia).
    replace (0 <? zlen (d ++ r) - zlen d) with true by (rewrite zlen_app; unfold zlen at 2; lia).
    cbn [andb]. rewrite <- app_assoc.
    destruct (load_ok pad g8 8 (s' ++ rest) [] buf Hb8 Hp8 ltac:(lia) eq_refl Hbuf ltac:(lia)) as [(ds & -> & R & E)|[E N]].
    + cbn [app] in E. rewrite E. clear E. rewrite map_length in H8. rewrite map_length, H8. cbn [Nat.sub b32_load bind]. change (8 - Z.of_nat 0) with 8.
      pose proof (store_ok ds (skipn 8 buf) d r (zlen d) 8 R ltac:(lia) ltac:(rewrite H8; reflexivity) ltac:(pose proof (zlen_nonneg d); lia)) as S.
      rewrite H8 in S. cbn [stored] in S. destruct (S ltac:(lia)) as [S1 S2]. clear S. rewrite S1. clear S1. cbn [bind].
      set (x1 := whole 8 (bit_string 5 ds)) in *.
      assert (length (skipn 5 r) = (length r - 5)%nat) as Hsk by apply skipn_length.
      replace (zlen (d ++ x1 ++ skipn 5 r) - zlen d <? 5) with false by (unfold zlen; rewrite !app_length, S2, Hsk; lia).
      replace (d ++ x1 ++ skipn 5 r) with ((d ++ x1) ++ skipn 5 r) by (rewrite app_assoc; reflexivity).
      assert (zlen (d ++ x1) = zlen d + 5) as Hz by (rewrite zlen_app; unfold zlen at 2; lia).
      change (Z.of_nat 5) with 5. rewrite <- Hz.
      assert (advance ((d ++ x1) ++ skipn 5 r) (zlen d) 5 = Ok (zlen (d ++ x1))) as -> .
      { rewrite Hz, <- app_assoc. apply advance_at; [reflexivity|]. unfold zlen. rewrite app_length. lia. }
      cbn [bind].
      destruct (IH f s' rest (ds ++ skipn 8 buf) (d ++ x1) (skipn 5 r) H' Hb' Hp' ltac:(rewrite app_length, skipn_length; lia) ltac:(lia)
        ltac:(rewrite Hz; lia)) as [(ds' & buf' & x' & -> & R' & -> & Hx & Hbuf' & E')|[(buf' & E' & Hz') N]].
      * left. exists (ds ++ ds'), buf', (x1 ++ whole 8 (bit_string 5 ds')).
        split; [rewrite map_app; reflexivity|]. split; [apply Forall_app; auto|].
        split; [unfold x1; symmetry; rewrite bit_string_app; apply whole_app with (n := 5%nat); [lia|]; rewrite bit_string_length; lia|].
        split; [rewrite app_length; lia|]. split; [exact Hbuf'|]. rewrite E'. rewrite <- !app_assoc. rewrite skipn_skipn. replace (5 + 5 * g)%nat with (5 * S g)%nat by lia.
        reflexivity.
      * right. split; [exists buf'; split; [exact E'|]; rewrite Hz'; unfold zlen; rewrite !app_length; lia|].
        intros ds0 R0 E0. assert (s' = map letter (skipn 8 ds0)) as E1.
        { rewrite <- skipn_map, <- E0. rewrite skipn_app, skipn_all2 by (rewrite map_length; lia). rewrite map_length, H8. reflexivity. }
        apply (N (skipn 8 ds0)); [rewrite <- (firstn_skipn 8 ds0) in R0; apply Forall_app in R0 as [_ R0]; exact R0|exact E1].
    + cbn [app] in E. rewrite E. cbn [bind]. right. split; [exists (d ++ r); split; reflexivity|].
      intros ds0 R0 E0. assert (g8 = map letter (firstn 8 ds0)) as E1.
      { rewrite <- firstn_map, <- E0. rewrite firstn_app, H8, Nat.sub_diag, firstn_O, app_nil_r. symmetry. apply firstn_all2. lia. }
      apply (N (firstn 8 ds0)); [rewrite <- (firstn_skipn 8 ds0) in R0; apply Forall_app in R0 as [R0 _]; exact R0|exact E1].
Qed.

(** The last group. *)
Lemma load_stop pad k rest b : (0 < k)%nat -> (pad = 0 /\ rest = [] \/ 0 < pad /\ exists r', rest = pad :: r') ->
  b32_load k al pad rest b = Ok (Val (8 - Z.of_nat k, rest, b)).
Proof.
  intros Hk C. destruct k as [|k]; [lia|]. cbn [b32_load]. destruct C as [[-> ->]|[Hp [r' ->]]].
  - reflexivity.
  - replace (zlen (pad :: r') =? 0) with false by (rewrite zlen_cons; pose proof (zlen_nonneg r'); lia).
    change (get (pad :: r') 0) with (Ok pad). cbn [bind]. rewrite Z.eqb_refl. reflexivity.
Qed.
Lemma tail32 pad f t rest buf d r : (length t < 8)%nat -> Forall is_byte t -> ~ In pad t -> length buf = 8%nat ->
  (pad = 0 /\ rest = [] \/ 0 < pad /\ exists r', rest = pad :: r') -> t ++ rest <> [] ->
  (0 < length r)%nat -> (match stored (length t) with Some m => m <= length r | None => True end)%nat -> zlen d < 2 ^ 62 ->
  (exists ds, t = map letter ds /\ range ds /\
     match stored (length ds) with
     | None => b32_dec_loop (S f) al pad (t ++ rest) buf (d ++ r) (zlen d) (zlen d) = Ok (Fault InvalidCharacter, d ++ r)
     | Some m => exists x buf', x = whole 8 (bit_string 5 ds) /\ length x = m /\ length buf' = 8%nat /\
        b32_dec_loop (S f) al pad (t ++ rest) buf (d ++ r) (zlen d) (zlen d) =
          if zlen r <? 5 then Ok (Val (zlen (d ++ x)), d ++ x ++ skipn m r)
          else b32_dec_loop f al pad rest buf' (d ++ x ++ skipn m r) (zlen d + 5) (zlen (d ++ x))
     end)
  \/ (b32_dec_loop (S f) al pad (t ++ rest) buf (d ++ r) (zlen d) (zlen d) = Ok (Fault InvalidCharacter, d ++ r)
      /\ forall ds, range ds -> t <> map letter ds).
Proof.
  intros Ht Hb Hp Hbuf Hrest Hne Hr Hm Hn.
  assert (b32_dec_loop (S f) al pad (t ++ rest) buf (d ++ r) (zlen d) (zlen d) =
    (q <- b32_load 8 al pad (t ++ rest) buf ;;
      match q with
      | Fault x => Ok (Fault x, d ++ r)
      | Val (i, src, buf) =>
        s <- b32_store buf (d ++ r) (zlen d) (zlen d) i ;;
        match s with
        | None => Ok (Fault InvalidCharacter, d ++ r)
        | Some (dst, n) =>
          if zlen dst - zlen d <? 5 then Ok (Val n, dst)
          else (p <- advance dst (zlen d) 5 ;; b32_dec_loop f al pad src buf dst p n)
        end
      end)) as U.
  { cbn [b32_dec_loop]. replace (0 <? zlen (t ++ rest)) with true by (destruct (t ++ rest); [congruence|rewrite zlen_cons; pose proof (zlen_nonneg l); lia]).
    replace (0 <? zlen (d ++ r) - zlen d) with true by (rewrite zlen_app; unfold zlen at 2; lia). reflexivity. }
  rewrite U. clear U.
  destruct (load_ok pad t 8 rest [] buf Hb Hp ltac:(lia) eq_refl Hbuf ltac:(lia)) as [(ds & -> & R & E)|[E N]].
  - left. exists ds. split; [reflexivity|]. split; [exact R|]. cbn [app] in E. rewrite E. clear E. rewrite map_length in *.
    rewrite load_stop by (assumption || lia). cbn [bind]. replace (8 - Z.of_nat (8 - length ds)) with (Z.of_nat (length ds)) by lia.
    pose proof (store_ok ds (skipn (length ds) buf) d r (zlen d) (Z.of_nat (length ds)) R ltac:(lia) eq_refl ltac:(pose proof (zlen_nonneg d); lia)) as S.
    destruct (stored (length ds)) as [m|].
    + destruct (S Hm) as [S1 S2]. clear S. exists (whole 8 (bit_string 5 ds)), (ds ++ skipn (length ds) buf).
      split; [reflexivity|]. split; [exact S2|]. split; [rewrite app_length, skipn_length; lia|]. rewrite S1. clear S1. cbn [bind].
      set (x := whole 8 (bit_string 5 ds)) in *.
      assert (length (skipn m r) = (length r - m)%nat) as Hsk by apply skipn_length.
      assert (zlen (d ++ x ++ skipn m r) - zlen d = zlen r) as -> by (unfold zlen; rewrite !app_length; lia).
      replace (zlen d + Z.of_nat m) with (zlen (d ++ x)) by (unfold zlen; rewrite app_length; lia).
      destruct (Z.ltb_spec (zlen r) 5) as [H|H]; [reflexivity|].
      rewrite advance_at by (reflexivity || (unfold zlen in *; rewrite !app_length; lia)). reflexivity.
    + rewrite S. reflexivity.
  - right. cbn [app] in E. rewrite E. split; [reflexivity|exact N].
Qed.

(** ** Texts *)
Lemma app_repeat_inj (p : Z) : forall l1 l2 a b, ~ In p l1 -> ~ In p l2 -> l1 ++ repeat p a = l2 ++ repeat p b -> l1 = l2 /\ a = b.
Proof.
  induction l1 as [|x l1 IH]; intros l2 a b H1 H2 E.
  - destruct l2 as [|y l2]; cbn [app] in E.
    + split; [reflexivity|]. apply (f_equal (@length Z)) in E. rewrite !repeat_length in E. exact E.
    + destruct a; [discriminate|]. injection E as <- _. destruct H2. left. reflexivity.
  - destruct l2 as [|y l2]; cbn [app] in E.
    + destruct b; [discriminate|]. injection E as -> _. destruct H1. left. reflexivity.
    + injection E as <- E. destruct (IH l2 a b ltac:(intros I; apply H1; right; exact I) ltac:(intros I; apply H2; right; exact I) E) as [-> ->]. auto.
Qed.
Lemma letters_in ds : range ds -> incl (map letter ds) (encoding al).
Proof. intros R c I. apply in_map_iff in I as (d & <- & I). apply (letter_in 5 al G). rewrite Forall_forall in R. exact (R d I). Qed.
Lemma letters_inj : forall a b, range a -> range b -> map letter a = map letter b -> a = b.
Proof.
  intros a b Ra Rb E. assert (forall l, range l -> map (fun c => nth (Z.to_nat c) (reverse al) (-1)) (map letter l) = l) as H.
  { intros l Rl. rewrite map_map. rewrite <- (map_id l) at 2. apply map_ext_in. intros d I. rewrite Forall_forall in Rl. specialize (Rl d I).
    destruct G as (_ & _ & G1 & _). exact (proj2 (G1 d Rl)). }
  rewrite <- (H a Ra), <- (H b Rb), E. reflexivity.
Qed.
Lemma text_of_iff pad body m x : good_padding 5 (encoding al) pad -> ~ In pad body -> (pad = 0 -> m = O) ->
  text_of 5 8 (encoding al) pad (body ++ repeat pad m) x <->
  exists ds, body = map letter ds /\ range ds /\ (pad <> 0 -> m = missing 8 (length ds)) /\ ((length ds * 5) mod 8 < 5)%nat /\ x = whole 8 (bit_string 5 ds).
Proof.
  intros [_ Hp] Hb Hm. unfold text_of. split.
  - intros (ds & E & R & L & ->). exists ds.
    assert (~ In pad (map letter ds)) as Hd by (intros I; apply Hp, (letters_in ds R), I).
    destruct (Z.eqb_spec pad 0) as [->|Hz].
    + rewrite (Hm eq_refl) in E. cbn [repeat] in E. rewrite !app_nil_r in E. repeat split; try assumption; congruence.
    + destruct (app_repeat_inj pad _ _ _ _ Hb Hd E) as [-> ->]. repeat split; try assumption.
  - intros (ds & -> & R & M & L & ->). exists ds. split; [|repeat split; assumption].
    destruct (Z.eqb_spec pad 0) as [->|Hz]; [rewrite (Hm eq_refl)|rewrite (M Hz)]; reflexivity.
Qed.
Lemma stored_ok n : (0 < n < 8)%nat -> match stored n with Some m => ((n * 5) mod 8 < 5)%nat /\ m = (n * 5 / 8)%nat | None => ~ ((n * 5) mod 8 < 5)%nat end.
Proof. intros H. destruct n as [|[|[|[|[|[|[|[|n]]]]]]]]; try lia; vm_compute; try split; lia. Qed.
Lemma mod8 g n : (((8 * g + n) * 5) mod 8 = (n * 5) mod 8)%nat.
Proof. replace ((8 * g + n) * 5)%nat with (n * 5 + (g * 5) * 8)%nat by lia. apply Nat.mod_add. lia. Qed.
Lemma missing8 g n : missing 8 (8 * g + n) = missing 8 n.
Proof. unfold missing. replace (8 * g + n)%nat with (n + g * 8)%nat by lia. rewrite Nat.mod_add by lia. reflexivity. Qed.
Lemma split8 (l : list Z) : exists g s8 t, l = s8 ++ t /\ length s8 = (8 * g)%nat /\ (length t < 8)%nat.
Proof.
  exists (length l / 8)%nat, (firstn (8 * (length l / 8)) l), (skipn (8 * (length l / 8)) l).
  pose proof (Nat.div_mod (length l) 8 ltac:(lia)). pose proof (Nat.mod_upper_bound (length l) 8 ltac:(lia)).
  rewrite firstn_skipn, firstn_length, skipn_length. repeat split; lia.
Qed.

Lemma decode32_ok body m dst pad : good_padding 5 (encoding al) pad -> Forall is_byte body -> ~ In pad body -> zlen (body ++ repeat pad m) < 2 ^ 60 ->
  b32_decode_len (zlen (body ++ repeat pad m)) pad <= zlen dst ->
  (if pad =? 0 then m = O /\ (zlen body mod 8 <> 1 \/ b32_decode_len (zlen body) pad < zlen dst)
   else zlen (body ++ repeat pad m) mod 8 = 0 /\ (m = O \/ zlen dst = b32_decode_len (zlen (body ++ repeat pad m)) pad)) ->
  exists o buf, b32_decode_buffer (body ++ repeat pad m) dst pad al = Ok (o, buf) /\ zlen buf = zlen dst /\
    match o with
    | Val x => text_of 5 8 (encoding al) pad (body ++ repeat pad m) x /\ buf = x ++ skipn (length x) dst
    | Fault _ => forall x, ~ text_of 5 8 (encoding al) pad (body ++ repeat pad m) x
    end.
Proof.
  intros Hpad Hb Hp Hn Hd HC. set (src := body ++ repeat pad m) in *.
  assert (pad = 0 -> m = O) as Hpm by (intros ->; exact (proj1 HC)).
  assert (forall x, text_of 5 8 (encoding al) pad src x <-> exists ds, body = map letter ds /\ range ds /\ (pad <> 0 -> m = missing 8 (length ds)) /\ ((length ds * 5) mod 8 < 5)%nat /\ x = whole 8 (bit_string 5 ds)) as T
    by (intros x; apply text_of_iff; assumption).
  unfold b32_decode_buffer. replace (zlen dst <? b32_decode_len (zlen src) pad) with false by lia.
  destruct (Z.eqb_spec (zlen src) 0) as [E0|E0].
  { exists (Val []), dst. split; [reflexivity|]. split; [reflexivity|]. split; [|reflexivity]. apply T. exists [].
    assert (length src = 0)%nat as L by (unfold zlen in E0; lia). unfold src in L. rewrite app_length, repeat_length in L.
    destruct body; [|cbn in L; lia]. split; [reflexivity|]. split; [constructor|]. split; [intros _; cbn in *; change (missing 8 0) with O; lia|]. split; [cbn; lia|reflexivity]. }
  destruct (split8 body) as (g & s8 & t & Eb & H8 & Ht).
  assert (zlen src = 8 * Z.of_nat g + zlen t + Z.of_nat m) as Hsrc by (unfold src, zlen; rewrite Eb, !app_length, repeat_length; lia).
  assert (zlen body = 8 * Z.of_nat g + zlen t) as Hbody by (unfold zlen; rewrite Eb, !app_length; lia).
  assert (0 <= zlen t < 8) as Ht8 by (unfold zlen; lia).
  assert ((zlen body) / 8 = Z.of_nat g /\ zlen body mod 8 = zlen t) as [Hq1 Hq2].
  { rewrite Hbody. split; [symmetry; apply Z.div_unique with (zlen t); lia|symmetry; apply Z.mod_unique with (Z.of_nat g); lia]. }
  assert (Hdl : if pad =? 0 then b32_decode_len (zlen body) pad = 5 * Z.of_nat g + zlen t * 5 / 8 /\ b32_decode_len (zlen src) pad = b32_decode_len (zlen body) pad
     else b32_decode_len (zlen src) pad = 5 * (zlen src / 8)).
  { unfold b32_decode_len. destruct (Z.eqb_spec pad 0) as [Hz|Hz]; cbn [negb].
    - specialize (Hpm Hz). rewrite Hq1, Hq2. replace (zlen src) with (zlen body) by lia. rewrite Hq1, Hq2. split; [|reflexivity].
      assert (0 <= zlen t * 5 / 8 < 5) by (split; [apply Z.div_pos|apply Z.div_lt_upper_bound]; lia).
      rewrite (usz_small (Z.of_nat g * 5)) by lia. rewrite usz_small; lia.
    - assert (0 <= zlen src / 8 <= zlen src) by (split; [apply Z.div_pos|apply Z.div_le_upper_bound]; lia). rewrite usz_small; lia. }
  assert (5 * Z.of_nat g <= zlen dst) as Hg.
  { destruct (Z.eqb_spec pad 0).
    - destruct Hdl as [H1 H2]. assert (0 <= zlen t * 5 / 8) by (apply Z.div_pos; lia). lia.
    - assert (Z.of_nat g <= zlen src / 8) by (apply Z.div_le_lower_bound; lia). lia. }
  assert (S (length src) = (g + S (length src - g))%nat) as Ef by (unfold zlen in *; lia).
  unfold src at 2. rewrite Eb, Ef. rewrite <- app_assoc.
  assert (~ In pad s8 /\ ~ In pad t) as [Hp8 Hpt].
  { rewrite Eb in Hp. split; intros I; apply Hp, in_or_app; auto. }
  rewrite Eb in Hb. apply Forall_app in Hb as [Hb8 Hbt].
  destruct (dec_loop32 pad g (S (length src - g)) s8 (t ++ repeat pad m) (repeat 0 8) [] dst H8 Hb8 Hp8 eq_refl ltac:(unfold zlen in *; lia) ltac:(change (zlen (@nil Z)) with 0; lia))
    as [(ds & buf & x & Es8 & R & Ex & Lx & Lbuf & E)|[(buf' & E & Lb) N]]; cbn [app] in E; change (zlen (@nil Z)) with 0 in E; rewrite E; clear E.
  2: { cbn [bind]. exists (Fault InvalidCharacter), buf'. split; [reflexivity|]. split; [exact Lb|].
       intros x Tx. apply T in Tx as (ds0 & E & R0 & _). rewrite Eb in E.
       apply (N (firstn (8 * g) ds0)); [rewrite <- (firstn_skipn (8 * g) ds0) in R0; apply Forall_app in R0 as [R0 _]; exact R0|].
       rewrite <- firstn_map, <- E, <- H8, firstn_app, Nat.sub_diag, firstn_O, app_nil_r, firstn_all. reflexivity. }
  assert (length ds = (8 * g)%nat) as Lds by (rewrite Es8, map_length in H8; exact H8).
  set (r := skipn (5 * g) dst).
  assert (length r = (length dst - 5 * g)%nat) as Lr by apply skipn_length.
  (* the digits of the body are [ds] and those of the last group *)
  assert (forall tl, body = map letter (ds ++ tl) <-> t = map letter tl) as Tl.
  { intros tl. rewrite Eb, Es8, map_app. split; [apply app_inv_head|intros ->; reflexivity]. }
  assert (Uniq : forall ds0, body = map letter ds0 -> range ds0 -> exists tl, ds0 = ds ++ tl /\ t = map letter tl /\ range tl).
  { intros ds0 E R0. exists (skipn (8 * g) ds0). rewrite Eb in E.
    assert (map letter (firstn (8 * g) ds0) = map letter ds) as E1.
    { rewrite <- firstn_map, <- E, <- Es8, <- H8, firstn_app, Nat.sub_diag, firstn_O, app_nil_r, firstn_all. reflexivity. }
    assert (t = map letter (skipn (8 * g) ds0)) as E2.
    { rewrite <- skipn_map, <- E, <- H8, skipn_app, Nat.sub_diag, skipn_all. reflexivity. }
    rewrite <- (firstn_skipn (8 * g) ds0) in R0. apply Forall_app in R0 as [R1 R2].
    assert (firstn (8 * g) ds0 = ds) as E3 by (apply letters_inj; assumption).
    split; [rewrite <- E3 at 1; symmetry; apply firstn_skipn|]. split; assumption. }
  assert (Whole : forall tl, whole 8 (bit_string 5 (ds ++ tl)) = x ++ whole 8 (bit_string 5 tl)).
  { intros tl. rewrite bit_string_app, Ex. apply whole_app with (n := (5 * g)%nat); [lia|]. rewrite bit_string_length. lia. }
  change ([] ++ x) with x.
  destruct (t ++ repeat pad m) as [|c0 s0] eqn:Et.
  { (* nothing after the full groups *)
    destruct t; [|discriminate]. destruct m; [|discriminate].
    cbn [b32_dec_loop]. change (0 <? zlen (@nil Z)) with false. cbn [andb bind]. rewrite ret_ok by reflexivity.
    exists (Val x), (x ++ r). split; [reflexivity|]. split; [unfold zlen; rewrite app_length; unfold zlen in *; lia|].
    split; [|rewrite Lx; reflexivity]. apply T. exists ds. split; [rewrite Eb, app_nil_r; exact Es8|]. split; [exact R|].
    split; [intros _; rewrite Lds, <- (Nat.add_0_r (8 * g)), missing8; reflexivity|]. split; [rewrite Lds, <- (Nat.add_0_r (8 * g)), mod8; cbn; lia|exact Ex]. }
  assert (t ++ repeat pad m <> []) as Hne by (rewrite Et; discriminate). rewrite <- Et. clear Et c0 s0.
  assert (exists f', (length src - g = S f')%nat) as [f' Ef'].
  { exists (length src - g - 1)%nat. unfold src. rewrite Eb, <- app_assoc, app_length. destruct (t ++ repeat pad m); [congruence|]. cbn [length]. lia. }
  rewrite Ef'.
  destruct (Z.eqb_spec pad 0) as [Hz|Hz].
  - (* no padding *)
    specialize (Hpm Hz). subst m pad. cbn [repeat] in *. rewrite app_nil_r in *. destruct HC as [_ HC]. destruct Hdl as [Hdl Hdl'].
    assert (Hr : (0 < length r)%nat \/ (length r = 0)%nat) by lia. destruct Hr as [Hr|Hr].
    2: { exfalso. destruct t as [|a t]; [congruence|]. rewrite Hq2 in HC.
         assert (zlen dst = 5 * Z.of_nat g) by (unfold zlen in *; lia).
         assert (zlen (a :: t) = 1 \/ 1 <= zlen (a :: t) * 5 / 8) as [H1|H1].
         { rewrite zlen_cons in *. pose proof (zlen_nonneg t). destruct (Z.eq_dec (zlen t) 0); [left; lia|right; apply Z.div_le_lower_bound; lia]. }
         - destruct HC as [HC|HC]; [lia|]. assert (0 <= zlen (a :: t) * 5 / 8) by (apply Z.div_pos; lia). lia.
         - lia. }
    assert (Z.of_nat (length t * 5 / 8) = zlen t * 5 / 8) as Hdiv by (rewrite Nat2Z.inj_div, Nat2Z.inj_mul; reflexivity).
    assert (0 < length t)%nat as Ht0 by (destruct t; [congruence|cbn [length]; lia]).
    pose proof (stored_ok (length t) ltac:(lia)) as Hst.
    destruct (tail32 0 (S f') t [] buf x r Ht Hbt Hpt Lbuf ltac:(left; auto) ltac:(rewrite app_nil_r; exact Hne) Hr
      ltac:(destruct (stored (length t)); [unfold zlen in *; lia|exact I]) ltac:(unfold zlen in *; lia)) as [(tl & E1 & R1 & E2)|[E2 N]]; rewrite app_nil_r in E2.
    + assert (length t = length tl) as Ltl by (rewrite E1; apply map_length). rewrite Ltl in *.
      destruct (stored (length tl)) as [mm|].
      * destruct E2 as (y & buf' & Ey & Ly & Lbuf' & E2). rewrite E2. clear E2. destruct Hst as [Hst1 Hst2].
        assert (text_of 5 8 (encoding al) 0 src (x ++ y)) as TT.
        { apply T. exists (ds ++ tl). split; [apply Tl, E1|]. split; [apply Forall_app; auto|]. split; [congruence|].
          split; [rewrite app_length, Lds, mod8; exact Hst1|]. rewrite Whole, Ey. reflexivity. }
        assert (Ok (Val (zlen (x ++ y)), x ++ y ++ skipn mm r) = (if zlen r <? 5 then Ok (Val (zlen (x ++ y)), x ++ y ++ skipn mm r)
           else b32_dec_loop (S f') al 0 [] buf' (x ++ y ++ skipn mm r) (zlen x + 5) (zlen (x ++ y)))) as <- by (destruct (zlen r <? 5); reflexivity).
        cbn [bind]. rewrite app_assoc, ret_ok by reflexivity. exists (Val (x ++ y)), ((x ++ y) ++ skipn mm r). split; [reflexivity|].
        split; [unfold zlen; rewrite !app_length, skipn_length; unfold zlen in *; lia|]. split; [exact TT|]. f_equal.
        unfold r. rewrite skipn_skipn, app_length. f_equal. lia.
      * rewrite E2. cbn [bind]. exists (Fault InvalidCharacter), (x ++ r). split; [reflexivity|]. split; [unfold zlen; rewrite app_length; unfold zlen in *; lia|].
        intros x0 Tx. apply T in Tx as (ds0 & E & R0 & _ & M & _). destruct (Uniq ds0 E R0) as (tl' & -> & E3 & _).
        rewrite app_length, Lds, mod8 in M. apply Hst. replace (length tl) with (length tl') by (rewrite <- Ltl, E3, map_length; reflexivity). exact M.
    + rewrite E2. cbn [bind]. exists (Fault InvalidCharacter), (x ++ r). split; [reflexivity|]. split; [unfold zlen; rewrite app_length; unfold zlen in *; lia|].
      intros x0 Tx. apply T in Tx as (ds0 & E & R0 & _). destruct (Uniq ds0 E R0) as (tl' & -> & E3 & R3). exact (N tl' R3 E3).
  - (* padding *)
    destruct HC as [HC8 HC].
    assert (m <> O) as Hm0.
    { intros ->. apply Hne. cbn [repeat]. rewrite app_nil_r. rewrite Z.add_0_r in Hsrc. rewrite Hsrc, <- Hbody, Hq2 in HC8. destruct t; [reflexivity|]. rewrite zlen_cons in HC8. pose proof (zlen_nonneg t). lia. }
    destruct HC as [HC|HC]; [congruence|]. rewrite Hdl in HC.
    assert (exists h, zlen src = 8 * h) as [h Hh] by (exists (zlen src / 8); pose proof (Z.div_mod (zlen src) 8); lia).
    assert (zlen src / 8 = h) as Hdh by (rewrite Hh, Z.mul_comm; apply Z.div_mul; lia). rewrite Hdh in *.
    assert (Z.of_nat g < h) by lia.
    assert (5 <= zlen r) as Hr5 by (unfold zlen in *; lia).
    destruct Hpad as [Hpad0 Hpad1].
    assert (Hrest : pad = 0 /\ repeat pad m = [] \/ 0 < pad /\ exists r', repeat pad m = pad :: r').
    { right. split; [lia|]. destruct m; [congruence|]. exists (repeat pad m). reflexivity. }
    destruct (tail32 pad (S f') t (repeat pad m) buf x r Ht Hbt Hpt Lbuf Hrest Hne ltac:(unfold zlen in *; lia)
      ltac:(destruct (length t) as [|[|[|[|[|[|[|[|]]]]]]]]; cbn [stored]; unfold zlen in *; try exact I; lia) ltac:(unfold zlen in *; lia)) as [(tl & E1 & R1 & E2)|[E2 N]].
    + assert (length t = length tl) as Ltl by (rewrite E1; apply map_length).
      assert (NoT : (forall tl', t = map letter tl' -> m <> missing 8 (length tl') \/ ~ ((length tl' * 5) mod 8 < 5)%nat) -> forall x0, ~ text_of 5 8 (encoding al) pad src x0).
      { intros C x0 Tx. apply T in Tx as (ds0 & E & R0 & M1 & M & _). destruct (Uniq ds0 E R0) as (tl' & -> & E3 & _).
        rewrite app_length, Lds, mod8 in M. specialize (M1 Hz). rewrite app_length, Lds, missing8 in M1. destruct (C tl' E3) as [C1|C1]; contradiction. }
      destruct (length tl) as [|n] eqn:Ln.
      * cbn [stored] in E2. rewrite E2. cbn [bind]. exists (Fault InvalidCharacter), (x ++ r). split; [reflexivity|]. split; [unfold zlen; rewrite app_length; unfold zlen in *; lia|].
        apply NoT. intros tl' E3. left. replace (length tl') with 0%nat by (rewrite E3, map_length in Ltl; lia). exact Hm0.
      * rewrite <- Ln in *. pose proof (stored_ok (length tl) ltac:(lia)) as Hst. destruct (stored (length tl)) as [mm|].
        -- destruct E2 as (y & buf' & Ey & Ly & Lbuf' & E2). rewrite E2. clear E2. destruct Hst as [Hst1 Hst2].
           replace (zlen r <? 5) with false by lia.
           assert (missing 8 (length tl) = (8 - length tl)%nat) as Hmis by (unfold missing; rewrite (Nat.mod_small (length tl)) by lia; apply Nat.mod_small; lia).
           assert (mm <= 5)%nat as Hmm by (rewrite Hst2; apply Nat.div_le_upper_bound; lia).
           assert (zlen (x ++ y ++ skipn mm r) = zlen dst) as Lall by (unfold zlen; rewrite !app_length, skipn_length; unfold zlen in *; lia).
           assert (zlen x = 5 * Z.of_nat g) as Lx' by (unfold zlen; lia).
           destruct (Z.eq_dec h (Z.of_nat g + 1)) as [He|He].
           ++ (* the last group ends the text *)
              cbn [b32_dec_loop]. rewrite Lall.
              replace (0 <? zlen dst - (zlen x + 5)) with false by lia. rewrite andb_false_r. cbn [bind].
              rewrite app_assoc, ret_ok by reflexivity. exists (Val (x ++ y)), ((x ++ y) ++ skipn mm r). split; [reflexivity|].
              split; [rewrite <- app_assoc; exact Lall|]. split; [|f_equal; unfold r; rewrite skipn_skipn, app_length; f_equal; lia].
              apply T. exists (ds ++ tl). split; [apply Tl, E1|]. split; [apply Forall_app; auto|]. rewrite app_length, Lds.
              split; [intros _; rewrite missing8, Hmis; unfold zlen in *; lia|]. split; [rewrite mod8; exact Hst1|]. rewrite Whole, Ey. reflexivity.
           ++ (* too much padding: the next group starts with padding *)
              destruct Hrest as [Hrest|[Hrest [r' Er']]]; [tauto|].
              cbn [b32_dec_loop]. rewrite Lall. replace (0 <? zlen dst - (zlen x + 5)) with true by lia.
              replace (0 <? zlen (repeat pad m)) with true by (unfold zlen; rewrite repeat_length; lia). cbn [andb].
              rewrite (load_stop pad 8 _ _ ltac:(lia) ltac:(right; split; [exact Hrest|exists r'; exact Er'])). cbn [bind]. change (8 - Z.of_nat 8) with 0. cbn [b32_store Z.eqb bind].
              exists (Fault InvalidCharacter), (x ++ y ++ skipn mm r). split; [reflexivity|]. split; [exact Lall|].
              apply NoT. intros tl' E3. left. replace (length tl') with (length tl) by (rewrite <- Ltl, E3, map_length; reflexivity).
              rewrite Hmis. unfold zlen in *. lia.
        -- rewrite E2. cbn [bind]. exists (Fault InvalidCharacter), (x ++ r). split; [reflexivity|]. split; [unfold zlen; rewrite app_length; unfold zlen in *; lia|].
           apply NoT. intros tl' E3. right. replace (length tl') with (length tl) by (rewrite <- Ltl, E3, map_length; reflexivity). exact Hst.
    + rewrite E2. cbn [bind]. exists (Fault InvalidCharacter), (x ++ r). split; [reflexivity|]. split; [unfold zlen; rewrite app_length; unfold zlen in *; lia|].
      intros x0 Tx. apply T in Tx as (ds0 & E & R0 & _). destruct (Uniq ds0 E R0) as (tl' & -> & E3 & R3). exact (N tl' R3 E3).
Qed.
End B32.
