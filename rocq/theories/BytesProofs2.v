From Coq Require Import ZArith Bool List Lia ZifyBool Arith.
From Verif Require Import Mach LexModel LexSpec LexProofs LexProofs4 LexProofs5 BytesModel BytesSpec BytesProofs.
Import ListNotations.
Open Scope Z_scope.

Lemma four_ind (P : list Z -> Prop) : P [] -> (forall a, P [a]) -> (forall a b, P [a; b]) -> (forall a b c, P [a; b; c]) -> (forall a b c d r, P r -> P (a :: b :: c :: d :: r)) -> forall l, P l.
Proof.
  intros H0 H1 H2 H3 H4 l. remember (length l) as n eqn:E. assert (Hn : (length l <= n)%nat) by lia. clear E. revert l Hn.
  induction n as [n IH] using lt_wf_ind. intros l Hn. destruct l as [|a [|b [|c [|d r]]]]; [auto..|]. apply H4. apply (IH (length r)); cbn in Hn; lia.
Qed.
Lemma b64_values_len ds vs : b64_values ds = Some vs -> length vs = length ds.
Proof. revert vs. induction ds as [|d ds IH]; intros vs H; cbn in H; [injection H as <-; reflexivity|]. destruct (b64_digit d); [|discriminate]. destruct (b64_values ds) as [l|]; [|discriminate]. injection H as <-. cbn. rewrite (IH l); reflexivity. Qed.
Lemma b64_values_in ds vs : b64_values ds = Some vs -> vs = map sx ds /\ Forall (fun d => b64_digit d <> None) ds.
Proof.
  revert vs. induction ds as [|d ds IH]; intros vs H; cbn [b64_values] in H; [injection H as <-; split; [reflexivity|constructor]|]. destruct (b64_digit d) as [x|] eqn:E; [|discriminate]. destruct (b64_values ds) as [l|]; [|discriminate]. injection H as <-. destruct (IH l eq_refl) as [-> F].
  split; [cbn [map]; f_equal; unfold sx; rewrite E; reflexivity|]. constructor; [congruence|exact F].
Qed.
Lemma b64_len : forall vs, (length vs mod 4 <> 1)%nat -> Z.of_nat (length (b64_bytes vs)) = (3 * Z.of_nat (length vs) - Z.of_nat ((4 - length vs mod 4) mod 4)) / 4.
Proof.
  induction vs as [|a|a b|a b c|a b c d r IH] using four_ind; intros H; try reflexivity.
  cbn [b64_bytes length] in *. replace (S (S (S (S (length r)))) mod 4)%nat with (length r mod 4)%nat in *.
  2:{ replace (S (S (S (S (length r))))) with (length r + 1 * 4)%nat by lia. rewrite Nat.mod_add by lia. reflexivity. }
  specialize (IH H). rewrite !Nat2Z.inj_succ in *. rewrite IH.
  replace (3 * Z.succ (Z.succ (Z.succ (Z.succ (Z.of_nat (length r))))) - Z.of_nat ((4 - length r mod 4) mod 4)) with (3 * Z.of_nat (length r) - Z.of_nat ((4 - length r mod 4) mod 4) + 3 * 4) by lia. rewrite Z.div_add by lia. lia.
Qed.
Lemma quads_ok : forall ds pad, length pad = ((4 - length ds mod 4) mod 4)%nat -> (length ds mod 4 <> 1)%nat -> Forall (fun x => x = 61) pad ->
  firstn (length (b64_bytes (map sx ds))) (quads (ds ++ pad)) = b64_bytes (map sx ds) /\ (length (b64_bytes (map sx ds)) <= length (quads (ds ++ pad)))%nat.
Proof.
  induction ds as [|a|a b|a b c|a b c d r IH] using four_ind; intros pad Hp Hn F.
  - cbn in Hp. destruct pad; [|discriminate]. split; [reflexivity|cbn; lia].
  - cbn in Hn. congruence.
  - cbn in Hp. destruct pad as [|x [|y [|? ?]]]; try discriminate. split; [reflexivity|cbn; lia].
  - cbn in Hp. destruct pad as [|x [|? ?]]; try discriminate. split; [reflexivity|cbn; lia].
  - assert (E : (length (a :: b :: c :: d :: r) mod 4 = length r mod 4)%nat).
    { cbn [length]. replace (S (S (S (S (length r))))) with (length r + 1 * 4)%nat by lia. rewrite Nat.mod_add by lia. reflexivity. }
    rewrite E in *. destruct (IH pad Hp Hn F) as [A B]. cbn [map b64_bytes app quads quad length firstn]. rewrite A. split; [reflexivity|lia].
Qed.
Lemma mod4_pads (ds pad : list Z) : pad = [] \/ pad = [61] \/ pad = [61; 61] -> Nat.modulo (length ds + length pad) 4 = 0%nat ->
  length pad = ((4 - length ds mod 4) mod 4)%nat /\ (length ds mod 4 <> 1)%nat.
Proof.
  intros Hp Hm. pose proof (Nat.div_mod (length ds) 4 ltac:(lia)) as D. pose proof (Nat.mod_upper_bound (length ds) 4 ltac:(lia)) as U.
  set (q := (length ds / 4)%nat) in *. set (m := (length ds mod 4)%nat) in *. rewrite D in Hm. replace (4 * q + m + length pad)%nat with (m + length pad + q * 4)%nat in Hm by lia. rewrite Nat.mod_add in Hm by lia.
  destruct Hp as [ -> | [ -> | -> ] ]; cbn [length] in *; destruct m as [|[|[|[|m]]]]; try (cbn in Hm; discriminate); try lia; cbn; lia.
Qed.

(** ** The lexer on literals *)
Lemma hex_loop_ok q : is_quote q = true -> forall c fuel n p r k, Forall (fun x => hexdigit x <> None \/ is_space x = true) c -> (length c < fuel)%nat ->
  hex_array_loop fuel q n (Cur p (c ++ q :: r) k) = Ok (Some (n + zlen (no_space c)), Cur (rev c ++ p) (q :: r) (k + newlines c)).
Proof.
  intros Hq. unfold is_quote in Hq. induction c as [|a c IH]; intros fuel n p r k F Hf; (destruct fuel as [|f]; [cbn in Hf; lia|]); cbn [app hex_array_loop]; rewrite peek_cons; cbn [bind].
  - replace (q =? 0) with false by lia. rewrite Z.eqb_refl. change (zlen (no_space [])) with 0. rewrite !Z.add_0_r. cbn [rev app]. reflexivity.
  - inversion F as [|? ? Ha F']; subst. cbn [length] in Hf.
    assert (Ha' : (is_hex a = true /\ is_space a = false) \/ is_space a = true).
    { destruct (is_space a) eqn:S; [auto|]. destruct Ha as [Ha|Ha]; [|discriminate]. left. destruct (hexdigit a) eqn:E; [|congruence]. split; [apply (hexdigit_some _ _ E)|reflexivity]. }
    assert (a <> 0 /\ a <> q /\ a <> 13) as (N0 & Nq & N13).
    { unfold is_hex, is_digit, is_space in Ha'. lia. }
    replace (a =? 0) with false by lia. replace (a =? q) with false by lia. rewrite newlines_cons, no_space_cons, zlen_app.
    destruct Ha' as [[Hh Hs]|Hs]; rewrite Hs.
    + rewrite Hh. rewrite next_cons. cbn [bind]. rewrite IH by (auto; lia). change (zlen [a]) with 1. cbn [rev]. rewrite <- app_assoc. rewrite newlines_cons, newlines_nil. cbn [app]. rewrite <- !Z.add_assoc. reflexivity.
    + replace (is_hex a) with false by (unfold is_hex, is_digit, is_space in *; lia). unfold is_white. replace (a =? 13) with false by lia. cbn [bind]. unfold is_space in Hs. rewrite Hs. rewrite next_cons. cbn [bind]. rewrite IH by (auto; lia). change (zlen (@nil Z)) with 0. cbn [rev]. rewrite <- app_assoc. rewrite newlines_cons, newlines_nil. cbn [app]. rewrite <- !Z.add_assoc. reflexivity.
Qed.
Lemma hex_bytes_len : forall ds, Forall (fun x => hexdigit x <> None) ds -> Nat.even (length ds) = true -> zlen ds = 2 * zlen (hex_bytes ds).
Proof.
  assert (K : forall n ds, (length ds <= n)%nat -> Forall (fun x => hexdigit x <> None) ds -> Nat.even (length ds) = true -> zlen ds = 2 * zlen (hex_bytes ds)).
  { induction n as [n IH] using lt_wf_ind. intros ds Hn F E. destruct ds as [|a [|b r]]; [reflexivity|discriminate|].
    inversion F as [|? ? Ha F1]; subst. inversion F1 as [|? ? Hb F2]; subst. cbn [hex_bytes]. destruct (hexdigit a); [|congruence]. destruct (hexdigit b); [|congruence]. rewrite !zlen_cons. cbn [length] in *. rewrite (IH (length r) ltac:(lia) r (le_n _) F2 E). lia. }
  intros ds. apply (K (length ds)). apply le_n.
Qed.
Lemma no_space_hex c : Forall (fun x => hexdigit x <> None \/ is_space x = true) c -> Forall (fun x => hexdigit x <> None) (no_space c).
Proof.
  intros F. rewrite Forall_forall in *. intros x Hx. unfold no_space in Hx. apply filter_In in Hx. destruct Hx as [Hx Hs]. destruct (F x Hx) as [H|H]; [exact H|rewrite H in Hs; discriminate].
Qed.
Lemma lex_hex q c bs fuel p x r k m : Means (Hex q c) bs -> (length c + 1 < fuel)%nat ->
  scan_token fuel m (Cur p (lit_text (Hex q c) ++ x :: r) k) = Ok (m, Tok (TBytes false (zlen bs)) (Cur (rev (lit_text (Hex q c)) ++ p) (x :: r) (k + newlines (lit_text (Hex q c))))).
Proof.
  intros H Hf. inversion H as [? ? Hq F Ev|]; subst. destruct fuel as [|f]; [lia|]. unfold scan_token. cbn [lit_text app]. rewrite skip_ws_none by lia. cbn [bind]. rewrite peek_cons. cbn [bind]. rewrite next_cons. cbn [bind]. cbv zeta.
  change (newlines [120]) with 0. rewrite Z.add_0_r. cbn [Z.eqb Pos.eqb orb]. rewrite peek_cons. cbn [bind]. unfold is_quote in Hq. rewrite Hq. unfold scan_hex_array. rewrite peek_cons. cbn [bind]. rewrite next_cons. cbn [bind].
  replace (newlines [q]) with 0 by (rewrite newlines_cons; replace (q =? 10) with false by lia; reflexivity). rewrite Z.add_0_r. rewrite <- app_assoc. cbn [app]. rewrite hex_loop_ok by (auto; lia). cbn [bind]. rewrite next_cons. cbn [bind].
  rewrite (hex_bytes_len (no_space c)) by (auto using no_space_hex). rewrite Z.add_0_l. replace (2 * zlen (hex_bytes (no_space c))) with (zlen (hex_bytes (no_space c)) * 2) by lia. rewrite Z.mod_mul by lia. rewrite Z.div_mul by lia. change (0 =? 0) with true. cbv iota. cbn [bind].
  assert (Er : k + newlines c + newlines [q] = k + newlines (120 :: q :: c ++ [q])) by (rewrite (newlines_cons 120), (newlines_cons q (c ++ [q])), newlines_app, !newlines_cons, newlines_nil; replace (q =? 10) with false by lia; change (120 =? 10) with false; lia).
  rewrite Er. assert (Ep : q :: rev c ++ q :: 120 :: p = rev (120 :: q :: c ++ [q]) ++ p) by (cbn [rev]; rewrite rev_app_distr; cbn [rev app]; rewrite <- !app_assoc; reflexivity). rewrite Ep. reflexivity.
Qed.

Lemma is_base64_digit x : is_base64 x = match b64_digit x with Some _ => true | None => false end.
Proof.
  unfold is_base64, is_letter, is_lower, is_upper, is_digit, b64_digit.
  destruct ((65 <=? x) && (x <=? 90)) eqn:A; [rewrite orb_true_r; reflexivity|]. destruct ((97 <=? x) && (x <=? 122)) eqn:B; [reflexivity|]. destruct ((48 <=? x) && (x <=? 57)) eqn:C; [reflexivity|]. cbn [orb].
  destruct (x =? 43); [reflexivity|]. destruct (x =? 47); reflexivity.
Qed.
Lemma b64_loop_ok q : is_quote q = true -> forall c fuel n e ds pad p r k, no_space c = ds ++ pad -> Forall (fun x => b64_digit x <> None) ds -> Forall (fun x => x = 61) pad ->
  e = 0 \/ ds = [] -> 0 <= e -> e + zlen pad <= 2 -> (length c < fuel)%nat ->
  base64_loop fuel q n e (Cur p (c ++ q :: r) k) = Ok (Some (n + zlen ds, e + zlen pad), Cur (q :: rev c ++ p) r (k + newlines c)).
Proof.
  intros Hq. unfold is_quote in Hq. induction c as [|a c IH]; intros fuel n e ds pad p r k Hn Fd Fp He H0 Hle Hf; (destruct fuel as [|f]; [cbn in Hf; lia|]); cbn [app base64_loop]; rewrite peek_cons; cbn [bind].
  - replace (q =? 0) with false by lia. rewrite next_cons. cbn [bind]. rewrite Z.eqb_refl. destruct ds; [|discriminate]. destruct pad; [|discriminate]. change (zlen (@nil Z)) with 0. rewrite !Z.add_0_r. cbn [rev app].
    replace (newlines [q]) with 0 by (rewrite newlines_cons; replace (q =? 10) with false by lia; reflexivity). rewrite ?Z.add_0_r. reflexivity.
  - cbn [length] in Hf. rewrite no_space_cons in Hn. rewrite newlines_cons.
    assert (Cls : is_space a = true \/ (is_space a = false /\ exists ds', ds = a :: ds' /\ no_space c = ds' ++ pad) \/ (is_space a = false /\ ds = [] /\ exists pad', pad = a :: pad' /\ no_space c = pad')).
    { destruct (is_space a); [auto|]. right. cbn [app] in Hn. destruct ds as [|d ds]; [right|left]; (split; [reflexivity|]).
      - split; [reflexivity|]. destruct pad as [|x pad]; [discriminate|]. injection Hn as -> Hn. exists pad. auto.
      - injection Hn as -> Hn. exists ds. auto. }
    assert (S10 : newlines [a] = if a =? 10 then 1 else 0) by (rewrite newlines_cons, newlines_nil; lia).
    destruct Cls as [Hs|[(Hs & ds' & -> & Hn')|(Hs & -> & pad' & -> & Hn')]].
    + rewrite Hs in Hn. cbn [app] in Hn. unfold is_space in Hs. replace (a =? 0) with false by lia. rewrite next_cons. cbn [bind]. replace (a =? q) with false by lia. rewrite is_base64_digit.
      assert (b64_digit a = None) as ->. { unfold b64_digit. assert (a = 32 \/ a = 9 \/ a = 10) as [ -> | [ -> | -> ] ] by lia; reflexivity. }
      replace (a =? 61) with false by lia. unfold is_white. replace (a =? 13) with false by lia. cbn [bind]. rewrite Hs. rewrite (IH f n e ds pad) by (auto; lia). rewrite S10. cbn [rev]. rewrite <- app_assoc, <- Z.add_assoc. reflexivity.
    + inversion Fd as [|? ? Hd Fd']; subst. destruct He as [ -> |He]; [|discriminate]. destruct (b64_digit a) as [v|] eqn:Ev; [|congruence].
      assert (a <> 0 /\ a <> q) as [Na Nq]. { pose proof (is_base64_digit a) as B. rewrite Ev in B. unfold is_base64, is_letter, is_lower, is_upper, is_digit in B. lia. }
      replace (a =? 0) with false by lia. rewrite next_cons. cbn [bind]. replace (a =? q) with false by lia. rewrite is_base64_digit, Ev. change (0 =? 0) with true. cbv iota. rewrite (IH f (n + 1) 0 ds' pad) by (auto; lia). rewrite S10. cbn [rev]. rewrite zlen_cons, <- app_assoc, <- !Z.add_assoc. reflexivity.
    + inversion Fp as [|? ? Hp Fp']; subst. rewrite zlen_cons in *. pose proof (zlen_nonneg (no_space c)). change (61 =? 0) with false. cbv iota. rewrite next_cons. cbn [bind]. replace (61 =? q) with false by lia. rewrite is_base64_digit. change (b64_digit 61) with (@None Z). cbv iota. change (61 =? 61) with true. cbv iota. replace (1 <? e) with false by lia.
      rewrite (IH f n (e + 1) [] (no_space c)) by (auto; lia). rewrite S10. cbn [rev]. rewrite <- app_assoc, <- !Z.add_assoc. reflexivity.
Qed.
Lemma lex_b64 q c bs fuel p x r k m : Means (B64 q c) bs -> zlen c < 2 ^ 62 -> (length c + 3 < fuel)%nat ->
  scan_token fuel m (Cur p (lit_text (B64 q c) ++ x :: r) k) = Ok (m, Tok (TBytes true (zlen bs)) (Cur (rev (lit_text (B64 q c)) ++ p) (x :: r) (k + newlines (lit_text (B64 q c))))).
Proof.
  intros H Hz Hf. inversion H as [|? ? ds pad vs Hq Hn Hv Hp Hm]; subst. destruct fuel as [|f]; [lia|]. unfold scan_token. cbn [lit_text app]. rewrite skip_ws_none by lia. cbn [bind]. rewrite peek_cons. cbn [bind]. rewrite next_cons. cbn [bind]. cbv zeta.
  change (newlines [98]) with 0. rewrite Z.add_0_r. cbn [Z.eqb Pos.eqb orb]. rewrite peek_cons. cbn [bind]. cbn [Z.eqb Pos.eqb]. rewrite peekn_cons1. cbn [bind]. cbn [Z.eqb Pos.eqb]. rewrite peekn_cons2. cbn [bind].
  replace ((q =? 39) || (q =? 34) || (q =? 96)) with true by (unfold is_quote in Hq; lia). unfold scan_base64. rewrite skip2_cons. cbn [bind]. change (newlines [54; 52]) with 0. rewrite Z.add_0_r. rewrite peek_cons. cbn [bind]. rewrite next_cons. cbn [bind].
  assert (Nq : newlines [q] = 0) by (rewrite newlines_cons; unfold is_quote in Hq; replace (q =? 10) with false by lia; reflexivity). rewrite Nq, Z.add_0_r.
  destruct (b64_values_in ds vs Hv) as [Evs Fd]. assert (Fp : Forall (fun x => x = 61) pad) by (destruct Hp as [ -> | [ -> | -> ] ]; repeat constructor).
  rewrite <- app_assoc. cbn [app]. rewrite (b64_loop_ok q Hq c (S f) 0 0 ds pad) by (auto; try lia; destruct Hp as [ -> | [ -> | -> ] ]; cbn; lia). cbn [bind]. rewrite !Z.add_0_l.
  destruct (mod4_pads ds pad Hp Hm) as [Lp Lm].
  assert (Lc : zlen ds + zlen pad <= zlen c).
  { unfold zlen. rewrite <- Nat2Z.inj_add, <- app_length, <- Hn. unfold no_space. apply inj_le. clear. induction c as [|y c IH]; [cbn; lia|]. cbn [filter length]. destruct (negb (is_space y)); cbn [length]; lia. }
  assert (Mz : (zlen ds + zlen pad) mod 4 = 0). { unfold zlen. rewrite <- Nat2Z.inj_add. rewrite <- (Nat2Z.inj_mod _ 4). rewrite Hm. reflexivity. }
  assert (E1 : (if (zlen pad =? 0) && negb (zlen ds mod 4 =? 0) then if zlen ds mod 4 =? 2 then 2 else if zlen ds mod 4 =? 3 then 1 else 0 else zlen pad) = zlen pad).
  { destruct (zlen pad =? 0) eqn:E; [|reflexivity]. replace (zlen ds mod 4 =? 0) with true; [reflexivity|]. replace (zlen pad) with 0 in Mz by lia. rewrite Z.add_0_r in Mz. lia. }
  rewrite E1. rewrite Mz. change (0 =? 0) with true. cbv iota. cbn [bind].
  assert (El : (3 * zlen ds - zlen pad) mod 2 ^ 64 / 4 = zlen (b64_bytes vs)).
  { rewrite Z.mod_small.
    - unfold zlen. rewrite b64_len; rewrite (b64_values_len ds vs Hv); [|exact Lm]. rewrite <- Lp. reflexivity.
    - pose proof (zlen_nonneg ds). pose proof (zlen_nonneg pad). change (2 ^ 62) with 4611686018427387904 in Hz. change (2 ^ 64) with 18446744073709551616. split; [|lia].
      assert (Hd : ds <> [] \/ pad = []). { destruct ds; [right|left; discriminate]. cbn in Lp. destruct pad; [reflexivity|discriminate]. }
      destruct Hd as [Hd| -> ]; [|change (zlen (@nil Z)) with 0; lia]. destruct ds as [|y ds]; [congruence|]. rewrite zlen_cons in *. pose proof (zlen_nonneg ds). assert (zlen pad <= 2) by (destruct Hp as [ -> | [ -> | -> ] ]; cbn; lia); lia. }
  rewrite El.
  assert (Er : k + newlines c = k + newlines (98 :: 54 :: 52 :: q :: c ++ [q])) by (rewrite (newlines_cons 98), (newlines_cons 54), (newlines_cons 52), (newlines_cons q (c ++ [q])), newlines_app, Nq; unfold is_quote in Hq; replace (q =? 10) with false by lia; cbn [Z.eqb Pos.eqb]; lia).
  rewrite Er. assert (Ep : q :: rev c ++ q :: 52 :: 54 :: 98 :: p = rev (98 :: 54 :: 52 :: q :: c ++ [q]) ++ p) by (cbn [rev]; rewrite rev_app_distr; cbn [rev app]; rewrite <- !app_assoc; reflexivity). rewrite Ep. reflexivity.
Qed.

(** ** The parser *)
(** The token the lexer makes of the literal [l] with the bytes [bs], [r] being the rest of the file. *)
Definition token (t : lit * list Z * list Z) : btok := let '(l, bs, r) := t in BTok (zlen bs) (is64 l) (lit_text l ++ r) (zlen (lit_text l)).
Lemma means_len l bs : Means l bs -> (length bs <= length (lit_text l))%nat.
Proof.
  assert (N : forall c, (length (no_space c) <= length c)%nat) by (unfold no_space; induction c as [|y c IH]; [cbn; lia|]; cbn [filter length]; destruct (negb (is_space y)); cbn [length]; lia).
  intros H. inversion H as [q c Hq F Ev|q c ds pad vs Hq Hn Hv Hp Hm]; subst; cbn [lit_text length]; rewrite app_length; specialize (N c).
  - pose proof (hex_bytes_len (no_space c) (no_space_hex c F) Ev). unfold zlen in *. lia.
  - destruct (mod4_pads ds pad Hp Hm) as [Lp Lm]. pose proof (b64_len vs) as B. rewrite (b64_values_len ds vs Hv) in B. specialize (B Lm). rewrite Hn, app_length in N.
    assert (Z.of_nat (length (b64_bytes vs)) <= Z.of_nat (length ds)); [|lia]. rewrite B. apply Z.div_le_upper_bound; lia.
Qed.
Lemma step_ok l bs r fuel data len : Means l bs -> (length (lit_text l) < fuel)%nat -> length data = (length len + 1)%nat \/ len = [] -> firstn (length len) data = map Some len -> is64 l = false \/ len = [] \/ bs = [] ->
  exists data', bytes_step fuel (token (l, bs, r)) data (zlen len) = Ok (data', zlen (len ++ bs)) /\ firstn (length (len ++ bs)) data' = map Some (len ++ bs) /\ (length data' = (length (len ++ bs) + 1)%nat \/ len ++ bs = []).
Proof.
  intros H Hf Ld Hd Hc. unfold bytes_step, token. cbn [b_len b_64 b_src b_lexlen]. assert (bs = [] \/ 0 < zlen bs) as [ -> | Hb ] by (destruct bs as [|b bs]; [left; reflexivity|right; rewrite zlen_cons; pose proof (zlen_nonneg bs); lia]).
  { change (zlen (@nil Z) =? 0) with true. cbv iota. exists data. rewrite app_nil_r. split; [reflexivity|]. split; [exact Hd|exact Ld]. }
  replace (zlen bs =? 0) with false by lia. cbv zeta.
  replace (Z.to_nat (zlen len)) with (length len) by (unfold zlen; lia). rewrite Hd.
  assert (Rep : repeat (@None Z) (Z.to_nat (zlen bs + 1)) = repeat None (length bs) ++ [None]).
  { replace (Z.to_nat (zlen bs + 1)) with (length bs + 1)%nat by (unfold zlen; lia). rewrite repeat_app. reflexivity. }
  rewrite Rep.
  assert (Main : (if is64 l then parse_base64 fuel (zlen (skipn (Z.to_nat (if is64 l then 4 else 2)) (lit_text l ++ r)) - (zlen (lit_text l) - 1 - (if is64 l then 4 else 2))) (zlen bs) (map Some len ++ repeat None (length bs) ++ [None]) (zlen len) (skipn (Z.to_nat (if is64 l then 4 else 2)) (lit_text l ++ r))
                  else parse_hex fuel (zlen (skipn (Z.to_nat (if is64 l then 4 else 2)) (lit_text l ++ r)) - (zlen (lit_text l) - 1 - (if is64 l then 4 else 2))) (map Some len ++ repeat None (length bs) ++ [None]) (zlen len) (skipn (Z.to_nat (if is64 l then 4 else 2)) (lit_text l ++ r))) =
                 Ok (map Some len ++ map Some bs ++ [None])).
  { pose proof H as H'. inversion H' as [q c Hq F Ev|q c ds pad vs Hq Hn Hv Hp Hm]; subst l; cbn [is64 lit_text] in *.
    - change (Z.to_nat 2) with 2%nat. cbn [app skipn]. rewrite <- app_assoc. cbn [app]. replace (zlen (c ++ q :: r) - (zlen (120 :: q :: c ++ [q]) - 1 - 2)) with (zlen (q :: r)) by (unfold zlen; cbn [length]; rewrite !app_length; cbn [length]; lia).
      replace (zlen len) with (zlen (map Some len)) by (unfold zlen; rewrite map_length; reflexivity).
      assert (N : (length (no_space c) <= length c)%nat) by (unfold no_space; clear; induction c as [|y c IH]; [cbn; lia|]; cbn [filter length]; destruct (negb (is_space y)); cbn [length]; lia).
      rewrite (parse_hex_ok (length c)); [congruence|lia| |exact F|exact Ev|rewrite repeat_length; congruence].
      cbn [length] in Hf. rewrite app_length in Hf. lia.
    - change (Z.to_nat 4) with 4%nat. cbn [app skipn]. rewrite <- app_assoc. cbn [app]. replace (zlen (c ++ q :: r) - (zlen (98 :: 54 :: 52 :: q :: c ++ [q]) - 1 - 4)) with (zlen (q :: r)) by (unfold zlen; cbn [length]; rewrite !app_length; cbn [length]; lia).
      destruct Hc as [Hc|[ -> |Hc]]; [discriminate| |rewrite Hc in Hb; cbn in Hb; lia]. cbn [map app].
      destruct (b64_values_in ds vs Hv) as [Evs Fd]. assert (Fp : Forall (fun x => x = 61) pad) by (destruct Hp as [ -> | [ -> | -> ] ]; repeat constructor). destruct (mod4_pads ds pad Hp Hm) as [Lp Lm].
      destruct (quads_ok ds pad Lp Lm Fp) as [Q1 Q2]. rewrite <- Evs in *.
      assert (Bs : b64_bytes vs = bs) by congruence. rewrite Bs in *.
      assert (N : (length (no_space c) <= length c)%nat) by (unfold no_space; clear; induction c as [|y c IH]; [cbn; lia|]; cbn [filter length]; destruct (negb (is_space y)); cbn [length]; lia).
      pose proof (parse_base64_ok (length (no_space c) / 4) fuel c (q :: r) [] (repeat None (length bs)) [None]) as P. rewrite Hn, repeat_length in P. cbn [app] in P. change (zlen (@nil (option Z))) with 0 in P. rewrite Z.add_0_l in P. unfold zlen at 2 in P. rewrite repeat_length in P. change (zlen (@nil Z)) with 0. unfold zlen at 2. rewrite P.
      + rewrite Q1. reflexivity.
      + rewrite app_length. pose proof (Nat.div_mod (length ds + length pad) 4 ltac:(lia)). lia.
      + pose proof (Nat.div_le_upper_bound (length (ds ++ pad)) 4 (length c) ltac:(lia)). rewrite Hn in N. cbn [length] in Hf. rewrite app_length in Hf. assert (length (ds ++ pad) / 4 <= length c)%nat by (apply H0; lia). lia.
      + apply Forall_app. split; [eapply Forall_impl; [|exact Fd]; auto|eapply Forall_impl; [|exact Fp]; auto].
      + exact Q2. }
  rewrite Main. cbn [bind]. rewrite app_assoc. rewrite <- map_app. replace (zlen len + zlen bs) with (zlen (map Some (len ++ bs))) by (unfold zlen; rewrite map_length, app_length; lia). rewrite set_app by reflexivity. cbn [bind].
  eexists. split; [unfold zlen; rewrite map_length; reflexivity|]. split.
  - rewrite firstn_app. rewrite map_length, Nat.sub_diag. cbn [firstn]. rewrite app_nil_r. apply firstn_all2. rewrite map_length. lia.
  - left. rewrite app_length, map_length. reflexivity.
Qed.
Lemma bytes_loop_ok fuel : forall ts data len, Forall (fun t => Means (fst (fst t)) (snd (fst t)) /\ (length (lit_text (fst (fst t))) < fuel)%nat) ts ->
  (length data = (length len + 1)%nat \/ len = []) -> firstn (length len) data = map Some len ->
  (forall a l bs r b, ts = a ++ (l, bs, r) :: b -> is64 l = false \/ bs = [] \/ len ++ concat (map (fun t => snd (fst t)) a) = []) ->
  exists data', bytes_loop fuel (map token ts) data (zlen len) = Ok (data', zlen (len ++ concat (map (fun t => snd (fst t)) ts))) /\
    firstn (length (len ++ concat (map (fun t => snd (fst t)) ts))) data' = map Some (len ++ concat (map (fun t => snd (fst t)) ts)).
Proof.
  induction ts as [|[[l bs] r] ts IH]; intros data len F Ld Hd Hc.
  - cbn [map concat bytes_loop]. rewrite app_nil_r. exists data. auto.
  - inversion F as [|? ? [Hm Hl] F']; subst. cbn [fst snd] in *. cbn [map bytes_loop].
    destruct (step_ok l bs r fuel data len Hm Hl Ld Hd) as (d1 & E1 & G1 & L1).
    { destruct (Hc [] l bs r ts eq_refl) as [A|[A|A]]; auto. cbn in A. rewrite app_nil_r in A. auto. }
    rewrite E1. cbn [bind]. destruct (IH d1 (len ++ bs) F' L1 G1) as (d2 & E2 & G2).
    { intros a l' bs' r' b E. destruct (Hc ((l, bs, r) :: a) l' bs' r' b ltac:(rewrite E; reflexivity)) as [A|[A|A]]; auto. cbn [map concat fst snd] in A. rewrite app_assoc in A. auto. }
    cbn [concat fst snd]. rewrite <- app_assoc in E2, G2. exists d2. auto.
Qed.
Lemma parse_bytes_ok fuel ts : Forall (fun t => Means (fst (fst t)) (snd (fst t)) /\ (length (lit_text (fst (fst t))) < fuel)%nat) ts -> b64_first ts ->
  parse_bytes fuel (map token ts) = Ok (match concat (map (fun t => snd (fst t)) ts) with [] => None | bs => Some (map Some bs) end).
Proof.
  intros F Hc. unfold parse_bytes. destruct (bytes_loop_ok fuel ts [] [] F ltac:(auto) eq_refl Hc) as (d & E & G). cbn [app] in *. change (zlen (@nil Z)) with 0 in E. rewrite E. cbn [bind].
  destruct (concat _) as [|b bs] eqn:Ec; [reflexivity|]. rewrite <- Ec in *. replace (zlen (concat (map (fun t => snd (fst t)) ts)) =? 0) with false by (rewrite Ec, zlen_cons; pose proof (zlen_nonneg bs); lia).
  replace (Z.to_nat (zlen (concat (map (fun t => snd (fst t)) ts)))) with (length (concat (map (fun t => snd (fst t)) ts))) by (unfold zlen; lia). rewrite G. rewrite Ec. reflexivity.
Qed.

(** ** Nothing else is accepted *)
Lemma hex_loop_inv q : is_quote q = true -> forall fuel l n p k m d, live l -> (length l < fuel)%nat -> hex_array_loop fuel q n (Cur p l k) = Ok (Some m, d) ->
  exists c r, l = c ++ q :: r /\ Forall (fun x => hexdigit x <> None \/ is_space x = true) c /\ m = n + zlen (no_space c) /\ c_rest d = q :: r.
Proof.
  intros Hq. unfold is_quote in Hq. induction fuel as [|f IH]; intros l n p k m d L Hf H; [lia|]. cbn [hex_array_loop] in H.
  destruct (live_inv l L) as [ -> | (a & r & -> & Ha & Lr) ]; [cbn in H; discriminate|]. rewrite peek_cons in H. cbn [bind] in H. cbn [length] in Hf.
  destruct Ha as [Ha N13]. replace (a =? 0) with false in H by lia. destruct (Z.eqb_spec a q) as [ -> |Nq].
  - injection H as <- <-. exists [], r. split; [reflexivity|]. split; [constructor|]. split; [change (zlen (no_space [])) with 0; lia|reflexivity].
  - rewrite next_cons in H. destruct (is_hex a) eqn:Hh.
    + cbn [bind] in H. destruct (IH r (n + 1) _ _ m d Lr ltac:(lia) H) as (c & r' & -> & F & E & Hd). exists (a :: c), r'. split; [reflexivity|].
      assert (Hd' : hexdigit a <> None) by (unfold is_hex, is_digit in Hh; unfold hexdigit; destruct ((48 <=? a) && (a <=? 57)) eqn:A; [discriminate|]; destruct ((97 <=? a) && (a <=? 102)) eqn:B; [discriminate|]; destruct ((65 <=? a) && (a <=? 70)) eqn:C; [discriminate|lia]).
      split; [constructor; [left; exact Hd'|exact F]|]. split; [|exact Hd]. rewrite no_space_cons. replace (is_space a) with false by (unfold is_hex, is_digit, is_space in *; lia). cbn [app]. rewrite zlen_cons. lia.
    + unfold is_white in H. replace (a =? 13) with false in H by lia. cbn [bind] in H. destruct ((a =? 32) || (a =? 9) || (a =? 10)) eqn:W; [|discriminate].
      destruct (IH r n _ _ m d Lr ltac:(lia) H) as (c & r' & -> & F & E & Hd). exists (a :: c), r'. split; [reflexivity|]. split; [constructor; [right; exact W|exact F]|]. split; [|exact Hd]. rewrite no_space_cons. unfold is_space at 1. rewrite W. cbn [app]. exact E.
Qed.
Lemma hex_inv : forall q l fuel p k m t d, is_quote q = true -> live l -> (length l < fuel)%nat ->
  scan_token (S fuel) m (Cur p (120 :: q :: l) k) = Ok (m, Tok t d) ->
  exists c bs, l = c ++ q :: c_rest d /\ Means (Hex q c) bs /\ t = TBytes false (zlen bs).
Proof.
  intros q l fuel p k m t d Hq L Hf H. unfold scan_token in H. rewrite skip_ws_none in H by lia. cbn [bind] in H. rewrite peek_cons in H. cbn [bind] in H. rewrite next_cons in H. cbn [bind] in H. cbv zeta in H.
  cbn [Z.eqb Pos.eqb orb] in H. rewrite peek_cons in H. cbn [bind] in H. pose proof Hq as Hq'. unfold is_quote in Hq. rewrite Hq in H. unfold scan_hex_array in H. rewrite peek_cons in H. cbn [bind] in H. rewrite next_cons in H. cbn [bind] in H.
  destruct (hex_array_loop _ _ _ _) as [[[n|] e]| |] eqn:E; cbn [bind] in H; try discriminate.
  assert (X := E). apply (hex_loop_inv q Hq') in X; [|exact L|lia]. destruct X as (c & r & -> & F & En & Er).
  destruct e as [ep el ek]. cbn in Er. subst el. rewrite next_cons in H. cbn [bind] in H. destruct (n mod 2 =? 0) eqn:Ev; cbn [bind] in H; [|discriminate]. injection H as <- <-. cbn [c_rest].
  rewrite Z.add_0_l in En. subst n.
  assert (Ev' : Nat.even (length (no_space c)) = true).
  { apply Nat.even_spec. exists (length (no_space c) / 2)%nat. unfold zlen in Ev. rewrite <- (Nat2Z.inj_mod _ 2) in Ev. pose proof (Nat.div_mod (length (no_space c)) 2 ltac:(lia)). lia. }
  exists c, (hex_bytes (no_space c)). split; [reflexivity|]. split; [constructor; assumption|]. rewrite (hex_bytes_len (no_space c)) by (auto using no_space_hex). f_equal. replace (2 * zlen (hex_bytes (no_space c))) with (zlen (hex_bytes (no_space c)) * 2) by lia. apply Z.div_mul. lia.
Qed.
Lemma b64_loop_inv q : is_quote q = true -> forall fuel l n e p k n' e' d, live l -> (length l < fuel)%nat -> 0 <= e <= 2 -> base64_loop fuel q n e (Cur p l k) = Ok (Some (n', e'), d) ->
  exists c r ds pad, l = c ++ q :: r /\ no_space c = ds ++ pad /\ Forall (fun x => b64_digit x <> None) ds /\ Forall (fun x => x = 61) pad /\ (e = 0 \/ ds = []) /\ n' = n + zlen ds /\ e' = e + zlen pad /\ e' <= 2 /\ c_rest d = r.
Proof.
  intros Hq. unfold is_quote in Hq. induction fuel as [|f IH]; intros l n e p k n' e' d L Hf He H; [lia|]. cbn [base64_loop] in H.
  destruct (live_inv l L) as [ -> | (a & r & -> & Ha & Lr) ]; [cbn in H; discriminate|]. rewrite peek_cons in H. cbn [bind] in H. cbn [length] in Hf.
  destruct Ha as [Ha N13]. replace (a =? 0) with false in H by lia. rewrite next_cons in H. cbn [bind] in H. destruct (Z.eqb_spec a q) as [ -> |Nq].
  - injection H as <- <- <-. exists [], r, [], []. split; [reflexivity|]. split; [reflexivity|]. split; [constructor|]. split; [constructor|]. split; [auto|]. change (zlen (@nil Z)) with 0. split; [lia|]. split; [lia|]. split; [lia|reflexivity].
  - rewrite is_base64_digit in H. destruct (b64_digit a) as [v|] eqn:Hb.
    + destruct (e =? 0) eqn:E0; [|discriminate]. destruct (IH r (n + 1) e _ _ n' e' d Lr ltac:(lia) He H) as (c & r' & ds & pad & -> & Hn & F1 & F2 & Hz & -> & -> & Hle & Hd).
      exists (a :: c), r', (a :: ds), pad. split; [reflexivity|]. split.
      { rewrite no_space_cons. replace (is_space a) with false; [cbn [app]; rewrite Hn; reflexivity|]. unfold is_space. destruct (Z.eqb_spec a 32); [subst; discriminate|]. destruct (Z.eqb_spec a 9); [subst; discriminate|]. destruct (Z.eqb_spec a 10); [subst; discriminate|reflexivity]. }
      split; [constructor; [congruence|exact F1]|]. split; [exact F2|]. split; [left; lia|]. rewrite zlen_cons. split; [lia|]. auto.
    + destruct (Z.eqb_spec a 61) as [ -> |N61].
      * destruct (1 <? e) eqn:E1; [discriminate|]. destruct (IH r n (e + 1) _ _ n' e' d Lr ltac:(lia) ltac:(lia) H) as (c & r' & ds & pad & -> & Hn & F1 & F2 & Hz & -> & -> & Hle & Hd).
        destruct Hz as [Hz| -> ]; [lia|]. exists (61 :: c), r', [], (61 :: pad). split; [reflexivity|]. split; [rewrite no_space_cons, Hn; reflexivity|]. split; [constructor|]. split; [constructor; auto|]. split; [auto|]. split; [reflexivity|]. rewrite zlen_cons. split; [lia|]. split; [lia|exact Hd].
      * unfold is_white in H. replace (a =? 13) with false in H by lia. cbn [bind] in H. destruct ((a =? 32) || (a =? 9) || (a =? 10)) eqn:W; [|discriminate].
        destruct (IH r n e _ _ n' e' d Lr ltac:(lia) He H) as (c & r' & ds & pad & -> & Hn & F1 & F2 & Hz & -> & -> & Hle & Hd).
        exists (a :: c), r', ds, pad. split; [reflexivity|]. split; [rewrite no_space_cons; unfold is_space; rewrite W; exact Hn|]. auto 12.
Qed.
Lemma b64_values_some ds : Forall (fun x => b64_digit x <> None) ds -> exists vs, b64_values ds = Some vs.
Proof. induction 1 as [|x ds Hx F (vs & IH)]; [exists []; reflexivity|]. cbn. destruct (b64_digit x) as [v|]; [|congruence]. rewrite IH. eexists. reflexivity. Qed.
Lemma b64_inv : forall q l fuel p k m t d, is_quote q = true -> live l -> zlen l < 2 ^ 62 -> (length l < fuel)%nat ->
  scan_token (S fuel) m (Cur p (98 :: 54 :: 52 :: q :: l) k) = Ok (m, Tok t d) ->
  exists c ds pad vs, l = c ++ q :: c_rest d /\ no_space c = ds ++ pad /\ b64_values ds = Some vs /\ (pad = [] \/ pad = [61] \/ pad = [61; 61]) /\
    (Nat.modulo (length ds + length pad) 4 = 0%nat \/ pad = [] /\ (Nat.modulo (length ds) 4 = 2%nat \/ Nat.modulo (length ds) 4 = 3%nat)) /\ t = TBytes true (zlen (b64_bytes vs)).
Proof.
  intros q l fuel p k m t d Hq L Hz Hf H. unfold scan_token in H. rewrite skip_ws_none in H by lia. cbn [bind] in H. rewrite peek_cons in H. cbn [bind] in H. rewrite next_cons in H. cbn [bind] in H. cbv zeta in H.
  cbn [Z.eqb Pos.eqb orb] in H. rewrite peek_cons in H. cbn [bind] in H. cbn [Z.eqb Pos.eqb] in H. rewrite peekn_cons1 in H. cbn [bind] in H. cbn [Z.eqb Pos.eqb] in H. rewrite peekn_cons2 in H. cbn [bind] in H.
  replace ((q =? 39) || (q =? 34) || (q =? 96)) with true in H by (unfold is_quote in Hq; lia). unfold scan_base64 in H. rewrite skip2_cons in H. cbn [bind] in H. rewrite peek_cons in H. cbn [bind] in H. rewrite next_cons in H. cbn [bind] in H.
  destruct (base64_loop _ _ _ _ _) as [[[[n e]|] c']| |] eqn:E; cbn [bind] in H; try discriminate.
  assert (X := E). apply (b64_loop_inv q Hq) in X; [|exact L|lia|lia]. destruct X as (c & r & ds & pad & -> & Hn & F1 & F2 & _ & En & Ee & Hle & Er).
  rewrite Z.add_0_l in En, Ee. subst n e.
  set (e2 := if (zlen pad =? 0) && negb (zlen ds mod 4 =? 0) then if zlen ds mod 4 =? 2 then 2 else if zlen ds mod 4 =? 3 then 1 else 0 else zlen pad) in H.
  destruct ((zlen ds + e2) mod 4 =? 0) eqn:M; cbn [bind] in H; [|discriminate]. injection H as <- <-. rewrite Er.
  destruct (b64_values_some ds F1) as (vs & Ev). exists c, ds, pad, vs. split; [reflexivity|]. split; [exact Hn|]. split; [exact Ev|].
  assert (Hp : pad = [] \/ pad = [61] \/ pad = [61; 61]).
  { destruct pad as [|x [|y [|z pad]]]; [auto| | |rewrite !zlen_cons in Hle; pose proof (zlen_nonneg pad); lia].
    - inversion F2; subst. auto.
    - inversion F2 as [|? ? A B]; subst. inversion B; subst. auto. }
  split; [exact Hp|].
  assert (Dm : zlen ds mod 4 = Z.of_nat (length ds mod 4)) by (unfold zlen; rewrite Nat2Z.inj_mod; reflexivity).
  pose proof (Nat.mod_upper_bound (length ds) 4 ltac:(lia)) as U.
  assert (Zp : zlen pad = Z.of_nat (length pad)) by reflexivity.
  assert (K : e2 = Z.of_nat ((4 - length ds mod 4) mod 4) /\ (length ds mod 4 <> 1)%nat /\ (Nat.modulo (length ds + length pad) 4 = 0%nat \/ pad = [] /\ (Nat.modulo (length ds) 4 = 2%nat \/ Nat.modulo (length ds) 4 = 3%nat))).
  { assert (Mm : (zlen ds mod 4 + e2) mod 4 = 0) by (rewrite Z.add_mod_idemp_l by lia; lia).
    assert (Mn : forall j, Nat.modulo (length ds + j) 4 = Nat.modulo (length ds mod 4 + j) 4) by (intros j; rewrite Nat.add_mod_idemp_l by lia; reflexivity). rewrite (Mn (length pad)).
    unfold e2 in *. rewrite Dm in *. clear Mn Dm. set (x := (length ds mod 4)%nat) in *. clearbody x.
    destruct Hp as [ -> | [ -> | -> ] ]; change (zlen (@nil Z)) with 0 in *; change (zlen [61]) with 1 in *; change (zlen [61; 61]) with 2 in *; destruct x as [|[|[|[|x]]]]; try lia; cbn in *; try discriminate; auto 6. }
  destruct K as (Ke & K1 & K2). split; [exact K2|]. f_equal. change ((3 * zlen ds - e2) mod 2 ^ 64 / 4 = zlen (b64_bytes vs)). clearbody e2. rewrite Z.mod_small.
  - unfold zlen at 2. rewrite b64_len; rewrite (b64_values_len ds vs Ev); [|exact K1]. rewrite Ke. reflexivity.
  - assert (zlen ds + zlen pad <= zlen c). { unfold zlen. rewrite <- Nat2Z.inj_add, <- app_length, <- Hn. unfold no_space. apply inj_le. clear. induction c as [|y c IH]; [cbn; lia|]. cbn [filter length]. destruct (negb (is_space y)); cbn [length]; lia. }
    rewrite zlen_app in Hz. pose proof (zlen_nonneg (q :: r)). pose proof (zlen_nonneg ds). change (2 ^ 62) with 4611686018427387904 in Hz. change (2 ^ 64) with 18446744073709551616.
    assert (Hpos : 0 < zlen ds \/ e2 = 0). { destruct ds; [right; rewrite Ke; reflexivity|left; rewrite zlen_cons; pose proof (zlen_nonneg ds); lia]. }
    assert (0 <= e2 <= 3) by (rewrite Ke; pose proof (Nat.mod_upper_bound (4 - length ds mod 4) 4 ltac:(lia)); revert H2; generalize (Nat.modulo (4 - length ds mod 4) 4); clear; intros; lia). lia.
Qed.
