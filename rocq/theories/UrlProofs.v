(** Percent-encoding and decoding. *)
From Coq Require Import ZArith Lia Bool List ZifyBool.
From Verif Require Import Mach CodecModel CodecSpec CodecProofs B64Proofs HexProofs UrlModel UrlSpec.
Import ListNotations.
Open Scope Z_scope.

Ltac okz := match goal with |- Ok (Some ?a) = Ok (Some ?b) => apply (f_equal (fun z => Ok (Some z)) (x := a) (y := b)); lia end.
Definition all_modes := [UNRESERVED; PATH; HOST; USERPASS; QUERY; FRAGMENT].
Lemma in_modes m : In m all_modes. Proof. destruct m; cbn; tauto. Qed.
Lemma should_all : forallb (fun m => forallb (fun c => Bool.eqb (should_encode c m) (negb (kept m c))) (map Z.of_nat (seq 0 256))) all_modes = true.
Proof. vm_compute. reflexivity. Qed.
Lemma should_ok m c : is_byte c -> should_encode c m = negb (kept m c).
Proof.
  intros Hc. pose proof should_all as H. rewrite forallb_forall in H. specialize (H m (in_modes m)).
  apply eqb_prop. exact (all_bytes _ H c Hc).
Qed.
Lemma kept_space : kept QUERY 32 = false. Proof. reflexivity. Qed.
Lemma hex1_all : forallb (fun c => match hex_encode_buffer [c] [0; 0] with Ok (h, _) => match map to_upper h with [x; y] => (x =? upper_hex (c / 16)) && (y =? upper_hex (c mod 16)) | _ => false end | _ => false end)
   (map Z.of_nat (seq 0 256)) = true.
Proof. vm_compute. reflexivity. Qed.
Lemma hex1_ok c : is_byte c -> exists h b, hex_encode_buffer [c] (repeat 0 (Z.to_nat (hex_encode_len 1))) = Ok (h, b) /\ map to_upper h = [upper_hex (c / 16); upper_hex (c mod 16)].
Proof.
  intros Hc. change (repeat 0 (Z.to_nat (hex_encode_len 1))) with [0; 0]. pose proof (all_bytes _ hex1_all c Hc) as H. cbv beta in H.
  destruct (hex_encode_buffer [c] [0; 0]) as [[h b]| |]; try discriminate. exists h, b. split; [reflexivity|].
  destruct (map to_upper h) as [|x [|y [|]]]; try discriminate. apply andb_prop in H as [H1 H2]. apply Z.eqb_eq in H1, H2. subst. reflexivity.
Qed.
Lemma url_enc_loop_ok m : forall s out, Forall is_byte s -> url_enc_loop s m out = Ok (out ++ url_text m s).
Proof.
  unfold url_text. induction s as [|c s IH]; intros out Hb; cbn [url_enc_loop flat_map]; [rewrite app_nil_r; reflexivity|].
  fcons Hb Hc. rewrite should_ok by exact Hc.
  assert (url_char m c = if (c =? 32) && is_query m then [43] else if kept m c then [c] else [37; upper_hex (c / 16); upper_hex (c mod 16)]) as ->
    by (destruct m; cbn [url_char is_query]; rewrite ?andb_false_r, ?andb_true_r; reflexivity).
  destruct ((c =? 32) && is_query m).
  - rewrite IH, <- app_assoc by exact Hb. reflexivity.
  - destruct (kept m c); cbn [negb].
    + rewrite IH, <- app_assoc by exact Hb. reflexivity.
    + destruct (hex1_ok c Hc) as (h & b & -> & E). cbn [bind]. rewrite E, IH, <- !app_assoc by exact Hb. reflexivity.
Qed.
Lemma url_encode_ok m s : Forall is_byte s -> url_encode s m = Ok (url_text m s).
Proof. intros H. unfold url_encode. rewrite url_enc_loop_ok by exact H. reflexivity. Qed.
Lemma enc_count_ok m : forall s n, Forall is_byte s -> 0 <= n -> n + zlen s < 2 ^ 62 ->
  enc_count s m n = n + (zlen (url_text m s) - zlen s) / 2 /\ (zlen (url_text m s) - zlen s) mod 2 = 0 /\ 0 <= zlen (url_text m s) - zlen s <= 2 * zlen s.
Proof.
  unfold url_text. induction s as [|c s IH]; intros n Hb Hn Hm; cbn [enc_count flat_map].
  - change (zlen (@nil Z)) with 0. rewrite Z.div_0_l, Z.mod_0_l by lia. lia.
  - fcons Hb Hc. rewrite zlen_cons in *. rewrite zlen_app. pose proof (zlen_nonneg s).
    set (u := zlen (flat_map (url_char m) s)) in *.
    assert (K : kept m c = true \/ (c = 32 /\ m = QUERY) -> zlen (url_char m c) = 1).
    { intros [K|[-> ->]]; [|reflexivity]. destruct m; cbn [url_char]; rewrite K; destruct (c =? 32); reflexivity. }
    assert (Same : zlen (url_char m c) = 1 -> enc_count s m n = n + (zlen (url_char m c) + u - (1 + zlen s)) / 2 /\ (zlen (url_char m c) + u - (1 + zlen s)) mod 2 = 0 /\ 0 <= zlen (url_char m c) + u - (1 + zlen s) <= 2 * (1 + zlen s)).
    { intros ->. destruct (IH n Hb Hn ltac:(lia)) as (E1 & E2 & E3). replace (1 + u - (1 + zlen s)) with (u - zlen s) by lia. rewrite E1. lia. }
    rewrite should_ok by exact Hc. rewrite negb_involutive. destruct (kept m c) eqn:Ek; [apply Same, K; auto|].
    destruct (negb (c =? 32) || negb (is_query m)) eqn:Eq.
    + assert (zlen (url_char m c) = 3) as L3 by (destruct m; cbn [url_char is_query] in *; rewrite Ek; try reflexivity; replace (c =? 32) with false by lia; reflexivity).
      rewrite L3. unfold usz. rewrite Z.mod_small by lia.
      destruct (IH (n + 1) Hb ltac:(lia) ltac:(lia)) as (E1 & E2 & E3).
      replace (3 + u - (1 + zlen s)) with ((u - zlen s) + 1 * 2) by lia. rewrite Z.div_add, Z.mod_add by lia. rewrite E1. lia.
    + apply Same, K. right. destruct m; cbn [is_query] in Eq; try (rewrite orb_true_r in Eq; discriminate). split; [lia|reflexivity].
Qed.
Lemma url_encode_len_ok m s : Forall is_byte s -> zlen s < 2 ^ 61 -> url_encode_len s m = zlen (url_text m s).
Proof.
  intros Hb Hn. destruct (enc_count_ok m s 0 Hb ltac:(lia) ltac:(lia)) as (E1 & E2 & E3). unfold url_encode_len. rewrite E1. pose proof (zlen_nonneg s).
  set (u := zlen (url_text m s)) in *. pose proof (Z.div_mod (u - zlen s) 2 ltac:(lia)).
  unfold usz. rewrite (Z.mod_small (2 * _)) by lia. rewrite Z.mod_small by lia. lia.
Qed.

(** Decoding. *)
Lemma xdigit_all : forallb (fun c => Bool.eqb (is_xdigit c) (match hex_value c with Some _ => true | None => false end)) (map Z.of_nat (seq 0 256)) = true.
Proof. vm_compute. reflexivity. Qed.
Lemma xdigit_ok c : is_byte c -> is_xdigit c = match hex_value c with Some _ => true | None => false end.
Proof. intros H. apply eqb_prop. exact (all_bytes _ xdigit_all c H). Qed.
Lemma hex2_ok a b x y : is_byte a -> is_byte b -> hex_value a = Some x -> hex_value b = Some y -> exists buf, hex_decode_buffer [a; b] (repeat 0 1) = Ok (Val [16 * x + y], buf).
Proof.
  intros Ha Hb Ex Ey. destruct (hex_decode_ok [a; b] (repeat 0 1) ltac:(constructor; [exact Ha|constructor; [exact Hb|constructor]]) eq_refl ltac:(vm_compute; discriminate)) as (o & buf & E & _ & M).
  cbn [hex_meaning] in M. rewrite Ex, Ey in M. destruct M as [-> _]. exists buf. exact E.
Qed.
Lemma xdigit_not_percent c : hex_value c <> None -> (c =? 37) = false.
Proof. destruct (Z.eqb_spec c 37) as [->|]; [intros H; destruct H; reflexivity|reflexivity]. Qed.
Lemma dec_count_ok m : forall k s, (length s <= k)%nat -> forall fuel pre n, (length s < fuel)%nat -> Forall is_byte s -> 0 <= n -> n + zlen s < 2 ^ 62 -> zlen (pre ++ s) < 2 ^ 62 ->
  match url_meaning m s with
  | Some x => dec_count fuel (pre ++ s) (zlen pre) n = Ok (Some (n + (zlen s - zlen x) / 2)) /\ (zlen s - zlen x) mod 2 = 0 /\ 0 <= zlen s - zlen x <= zlen s
  | None => dec_count fuel (pre ++ s) (zlen pre) n = Ok None
  end.
Proof.
  induction k as [|k IH]; intros s Hk fuel pre n Hf Hb Hn Hm Hz; destruct fuel as [|fuel]; try lia;
    (destruct s as [|c s]; [cbn [url_meaning dec_count]; rewrite app_nil_r, Z.ltb_irrefl; change (zlen (@nil Z)) with 0; rewrite Z.div_0_l, Z.mod_0_l by lia; split; [okz|lia]|]).
  { cbn [length] in Hk. lia. }
  fcons Hb Hc. cbn [length] in Hk, Hf. cbn [dec_count]. pose proof (zlen_nonneg s). pose proof (zlen_nonneg pre). rewrite zlen_app, zlen_cons in *.
  replace (zlen pre <? zlen pre + (1 + zlen s)) with true by lia.
  rewrite (get_at pre (c :: s) 0 (zlen pre)) by lia. change (get (c :: s) 0) with (Ok c). cbn [bind].
  assert (Next : forall c s fuel n, dec_count fuel (pre ++ c :: s) (zlen pre + 1) n = dec_count fuel ((pre ++ [c]) ++ s) (zlen (pre ++ [c])) n).
  { intros c' s' f' n'. rewrite <- app_assoc, zlen_app. reflexivity. }
  cbn [url_meaning]. destruct (Z.eqb_spec c 37) as [->|Hc37]; cbn [negb].
  - unfold usz. rewrite Z.mod_small by lia.
    destruct s as [|a [|b s]].
    + change (zlen (@nil Z)) with 0. replace (zlen pre + (1 + 0) <=? zlen pre + 2) with true by lia. reflexivity.
    + change (zlen [a]) with 1. replace (zlen pre + (1 + 1) <=? zlen pre + 2) with true by lia. reflexivity.
    + rewrite !zlen_cons in *. pose proof (zlen_nonneg s). replace (zlen pre + (1 + (1 + (1 + zlen s))) <=? zlen pre + 2) with false by lia.
      fcons Hb Ha. fcons Hb Hb0.
      rewrite (get_at pre (37 :: a :: b :: s) 1 (zlen pre + 1)) by lia. change (get (37 :: a :: b :: s) 1) with (Ok a). cbn [bind].
      rewrite xdigit_ok by exact Ha. destruct (hex_value a) as [x|] eqn:Ex; [|reflexivity]. cbn [negb].
      rewrite (get_at pre (37 :: a :: b :: s) 2 (zlen pre + 2)) by lia. change (get (37 :: a :: b :: s) 2) with (Ok b). cbn [bind].
      rewrite xdigit_ok by exact Hb0. destruct (hex_value b) as [y|] eqn:Ey; [|reflexivity]. cbn [negb].
      rewrite (Z.mod_small (n + 1)) by lia. rewrite Next.
      (* the digits themselves are no percent signs *)
      destruct fuel as [|[|fuel]]; [cbn [length] in Hf; lia|cbn [length] in Hf; lia|]. cbn [dec_count].
      set (p1 := pre ++ [37]). assert (zlen p1 = zlen pre + 1) as L1 by (unfold p1; rewrite zlen_app; reflexivity).
      rewrite !zlen_app, !zlen_cons. rewrite L1.
      replace (zlen pre + 1 <? zlen pre + 1 + (1 + (1 + zlen s))) with true by lia.
      rewrite (get_at p1 (a :: b :: s) 0 (zlen pre + 1)) by lia. change (get (a :: b :: s) 0) with (Ok a). cbn [bind].
      rewrite (xdigit_not_percent a) by congruence. cbn [negb].
      replace (zlen pre + 1 + 1 <? zlen pre + 1 + (1 + (1 + zlen s))) with true by lia.
      rewrite (get_at p1 (a :: b :: s) 1 (zlen pre + 1 + 1)) by lia. change (get (a :: b :: s) 1) with (Ok b). cbn [bind].
      rewrite (xdigit_not_percent b) by congruence. cbn [negb].
      replace (p1 ++ a :: b :: s) with ((pre ++ [37; a; b]) ++ s) by (unfold p1; rewrite <- !app_assoc; reflexivity).
      replace (zlen pre + 1 + 1 + 1) with (zlen (pre ++ [37; a; b])) by (rewrite zlen_app; change (zlen [37; a; b]) with 3; lia).
      specialize (IH s ltac:(cbn [length] in Hk; lia) fuel (pre ++ [37; a; b]) (n + 1) ltac:(cbn [length] in Hf; lia) Hb ltac:(lia) ltac:(lia) ltac:(rewrite !zlen_app; change (zlen [37; a; b]) with 3; lia)).
      destruct (url_meaning m s) as [l|]; [|exact IH]. destruct IH as (E1 & E2 & E3). rewrite E1, zlen_cons.
      replace (1 + (1 + (1 + zlen s)) - (1 + zlen l)) with ((zlen s - zlen l) + 1 * 2) by lia. rewrite Z.div_add, Z.mod_add by lia.
      split; [okz|]. lia.
  - rewrite Next. specialize (IH s ltac:(lia) fuel (pre ++ [c]) n ltac:(lia) Hb Hn ltac:(lia) ltac:(rewrite !zlen_app; change (zlen [c]) with 1; lia)).
    destruct (url_meaning m s) as [l|]; [|exact IH]. destruct IH as (E1 & E2 & E3). rewrite E1, zlen_cons.
    replace (1 + zlen s - (1 + zlen l)) with (zlen s - zlen l) by lia. split; [reflexivity|]. lia.
Qed.
Lemma url_decode_len_ok m s : Forall is_byte s -> zlen s < 2 ^ 62 ->
  url_decode_len s m = Ok (match url_meaning m s with Some x => Some (zlen x) | None => None end).
Proof.
  intros Hb Hn. unfold url_decode_len. pose proof (dec_count_ok m (length s) s (le_n _) (S (length s)) [] 0 ltac:(lia) Hb ltac:(lia) ltac:(lia) Hn) as H.
  cbn [app] in H. change (zlen (@nil Z)) with 0 in H. destruct (url_meaning m s) as [x|]; [|rewrite H; reflexivity].
  destruct H as (E1 & E2 & E3). rewrite E1. cbn [bind]. pose proof (Z.div_mod (zlen s - zlen x) 2 ltac:(lia)). pose proof (zlen_nonneg x).
  unfold usz. rewrite (Z.mod_small (2 * _)) by lia. rewrite Z.mod_small by lia. okz.
Qed.
Lemma url_dec_loop_ok m : forall k s, (length s <= k)%nat -> forall fuel pre out x, (length s < fuel)%nat -> Forall is_byte s -> url_meaning m s = Some x ->
  url_dec_loop fuel (pre ++ s) m (zlen pre) out = Ok (Some (out ++ x)).
Proof.
  induction k as [|k IH]; intros s Hk fuel pre out x Hf Hb Hx; destruct fuel as [|fuel]; try lia;
    (destruct s as [|c s]; [cbn [url_meaning] in Hx; injection Hx as <-; cbn [url_dec_loop]; rewrite !app_nil_r, Z.ltb_irrefl; reflexivity|]).
  { cbn [length] in Hk. lia. }
  fcons Hb Hc. cbn [length] in Hk, Hf. cbn [url_dec_loop]. pose proof (zlen_nonneg s).
  replace (zlen pre <? zlen (pre ++ c :: s)) with true by (rewrite zlen_app, zlen_cons; lia).
  rewrite (get_at pre (c :: s) 0 (zlen pre)) by lia. change (get (c :: s) 0) with (Ok c). cbn [bind].
  cbn [url_meaning] in Hx. destruct (Z.eqb_spec c 37) as [->|Hc37].
  - destruct s as [|a [|b s]]; try discriminate. fcons Hb Ha. fcons Hb Hb0.
    destruct (hex_value a) as [u|] eqn:Eu; [|discriminate]. destruct (hex_value b) as [v|] eqn:Ev; [|discriminate].
    destruct (url_meaning m s) as [l|] eqn:El; [|discriminate]. assert (x = 16 * u + v :: l) as -> by congruence.
    replace (pre ++ 37 :: a :: b :: s) with ((pre ++ [37]) ++ [a; b] ++ s) by (rewrite <- !app_assoc; reflexivity).
    rewrite from_at by (rewrite zlen_app; reflexivity). cbn [bind]. rewrite upto_at by reflexivity. cbn [bind].
    destruct (hex2_ok a b u v Ha Hb0 Eu Ev) as [buf ->]. cbn [bind].
    replace ((pre ++ [37]) ++ [a; b] ++ s) with ((pre ++ [37; a; b]) ++ s) by (rewrite <- !app_assoc; reflexivity).
    replace (zlen pre + 2 + 1) with (zlen (pre ++ [37; a; b])) by (rewrite zlen_app; change (zlen [37; a; b]) with 3; lia).
    rewrite (IH s ltac:(cbn [length] in Hk; lia) fuel _ _ l ltac:(cbn [length] in Hf; lia) Hb El). rewrite <- app_assoc. reflexivity.
  - destruct (url_meaning m s) as [l|] eqn:El; [|discriminate].
    assert (x = (if c =? 43 then if is_query m then 32 else 43 else c) :: l) as ->.
    { assert (x = match m with QUERY => if c =? 43 then 32 else c | _ => c end :: l) as -> by congruence. f_equal. destruct (Z.eqb_spec c 43); destruct m; cbn [is_query]; congruence. }
    assert (forall o, url_dec_loop fuel (pre ++ c :: s) m (zlen pre + 1) (out ++ [o]) = Ok (Some (out ++ o :: l))) as R.
    { intros o. replace (pre ++ c :: s) with ((pre ++ [c]) ++ s) by (rewrite <- app_assoc; reflexivity).
      replace (zlen pre + 1) with (zlen (pre ++ [c])) by (rewrite zlen_app; reflexivity).
      rewrite (IH s ltac:(lia) fuel _ _ l ltac:(lia) Hb El). rewrite <- app_assoc. reflexivity. }
    destruct (c =? 43); apply R.
Qed.
Lemma url_decode_ok m s : Forall is_byte s -> zlen s < 2 ^ 62 -> url_decode s m = Ok (url_meaning m s).
Proof.
  intros Hb Hn. unfold url_decode. rewrite url_decode_len_ok by assumption. cbn [bind].
  destruct (url_meaning m s) as [x|] eqn:E; [|reflexivity].
  exact (url_dec_loop_ok m (length s) s (le_n _) (S (length s)) [] [] x (Nat.lt_succ_diag_r _) Hb E).
Qed.
(** Round trip. *)
Lemma upper_value d : 0 <= d < 16 -> hex_value (upper_hex d) = Some d.
Proof. intros H. unfold hex_value, upper_hex. destruct (Z.ltb_spec d 10); repeat match goal with |- context [if ?c then _ else _] => destruct c eqn:? end; try (f_equal; lia); exfalso; lia. Qed.
Lemma kept_byte m : forallb (fun c => implb (kept m c) (negb (c =? 37) && negb (is_query m && (c =? 43)))) (map Z.of_nat (seq 0 256)) = true.
Proof. destruct m; vm_compute; reflexivity. Qed.
Lemma url_round m s : Forall is_byte s -> url_meaning m (url_text m s) = Some s.
Proof.
  unfold url_text. induction s as [|c s IH]; intros Hb; [reflexivity|]. fcons Hb Hc. specialize (IH Hb). cbn [flat_map].
  assert (P : url_meaning m ([37; upper_hex (c / 16); upper_hex (c mod 16)] ++ flat_map (url_char m) s) = Some (c :: s)).
  { unfold is_byte in Hc. pose proof (Z.div_mod c 16 ltac:(lia)). pose proof (Z.mod_pos_bound c 16 ltac:(lia)).
    assert (0 <= c / 16 < 16) by (split; [apply Z.div_pos|apply Z.div_lt_upper_bound]; lia).
    cbn [app url_meaning Z.eqb Pos.eqb]. rewrite !upper_value, IH by assumption. replace (16 * (c / 16) + c mod 16) with c by lia. reflexivity. }
  assert (K : kept m c = true -> url_meaning m ([c] ++ flat_map (url_char m) s) = Some (c :: s)).
  { intros Ek. pose proof (all_bytes _ (kept_byte m) c Hc) as H. cbv beta in H. rewrite Ek in H. cbn [implb] in H. apply andb_prop in H as [H1 H2].
    cbn [app url_meaning]. destruct (c =? 37); [discriminate|]. rewrite IH. destruct m; cbn [is_query andb] in H2; try reflexivity. destruct (c =? 43); [discriminate|reflexivity]. }
  destruct m; cbn [url_char] in *; try (destruct (kept _ c); [apply K; reflexivity|exact P]).
  destruct (Z.eqb_spec c 32) as [->|].
  - cbn [app url_meaning Z.eqb Pos.eqb]. rewrite IH. reflexivity.
  - destruct (kept _ c); [apply K; reflexivity|exact P].
Qed.
