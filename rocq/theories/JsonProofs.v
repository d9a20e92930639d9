(** Proofs about the JSON reader: every document of the grammar is read as its value. *)
From Coq Require Import ZArith QArith Qreduction List Bool Lia.
From Verif Require Import JsonModel JsonSpec.
Import ListNotations.
Open Scope Z_scope.

(** ** Whitespace *)
Lemma skip_line s r : ~ In 10 s -> skip Line (s ++ 10 :: r) = skip Code r.
Proof.
  induction s as [|c s IH]; intros N; cbn [app skip]; [reflexivity|]. destruct (Z.eqb_spec c 10) as [->|]; [exfalso; apply N; left; reflexivity|].
  apply IH. intros X. apply N. right. exact X.
Qed.
Lemma skip_line_end s : ~ In 10 s -> skip Line s = [].
Proof.
  induction s as [|c s IH]; intros N; cbn [skip]; [reflexivity|]. destruct (Z.eqb_spec c 10) as [->|]; [exfalso; apply N; left; reflexivity|].
  apply IH. intros X. apply N. right. exact X.
Qed.
Lemma no_end_tl c s : no_end (c :: s) -> no_end s.
Proof. intros N a b E. apply (N (c :: a) b). rewrite E. reflexivity. Qed.
Lemma skip_block s r : no_end (s ++ [42]) -> skip Block (s ++ 42 :: 47 :: r) = skip Code r.
Proof.
  induction s as [|c s IH]; intros N; [reflexivity|]. cbn [app skip]. cbn [app] in N.
  destruct s as [|d s]; cbn [app] in *.
  - destruct (Z.eqb_spec c 42); cbn [andb]; reflexivity.
  - destruct ((c =? 42) && (d =? 47)) eqn:E; [|apply IH; apply (no_end_tl c _ N)]. apply andb_prop in E. destruct E as [E1 E2]. apply Z.eqb_eq in E1, E2. subst.
    exfalso. apply (N [] (s ++ [42])). reflexivity.
Qed.
Lemma skip_block_end s : no_end s -> skip Block s = [].
Proof.
  induction s as [|c s IH]; intros N; [reflexivity|]. cbn [skip]. destruct s as [|d s]; [reflexivity|].
  destruct ((c =? 42) && (d =? 47)) eqn:E; [|apply IH; apply (no_end_tl c _ N)]. apply andb_prop in E. destruct E as [E1 E2]. apply Z.eqb_eq in E1, E2. subst.
  exfalso. apply (N [] s). reflexivity.
Qed.
Lemma skip_space c r : rfc_space c \/ c = 11 -> skip Code (c :: r) = skip Code r.
Proof. intros [[->|[->|[->| ->]]]| ->]; reflexivity. Qed.
Lemma skip_gap ext g r : gap ext g -> skip Code (g ++ r) = skip Code r.
Proof.
  intros G. induction G as [|c g S G IH|g E G IH|s g E N G IH|s g E N G IH].
  - reflexivity.
  - cbn [app]. rewrite skip_space by auto. exact IH.
  - cbn [app]. rewrite skip_space by auto. exact IH.
  - rewrite <- !app_assoc. cbn [app]. cbn [skip]. change (47 =? 47) with true. cbv iota. rewrite skip_line by exact N. exact IH.
  - rewrite <- !app_assoc. cbn [app]. cbn [skip]. change (47 =? 47) with true. change (42 =? 47) with false. change (42 =? 42) with true. cbv iota. rewrite skip_block by exact N. exact IH.
Qed.
Lemma skip_end_gap ext g : end_gap ext g -> skip Code g = [].
Proof.
  intros [g0 G|g0 s E G N|g0 s E G N].
  - pose proof (skip_gap ext g0 [] G) as X. rewrite app_nil_r in X. exact X.
  - rewrite (skip_gap ext g0 _ G). cbn [app skip]. change (47 =? 47) with true. cbv iota. apply skip_line_end, N.
  - rewrite (skip_gap ext g0 _ G). cbn [app skip]. change (47 =? 47) with true. change (42 =? 47) with false. change (42 =? 42) with true. cbv iota. apply skip_block_end, N.
Qed.
Lemma lex_gap ext g r : gap ext g -> lex (g ++ r) = lex r.
Proof. intros G. unfold lex. rewrite (skip_gap ext g r G). reflexivity. Qed.
Lemma lex_end ext g : end_gap ext g -> lex g = LTok TEof [].
Proof. intros G. unfold lex. rewrite (skip_end_gap ext g G). reflexivity. Qed.

(** ** Numbers *)
Definition follow (r : list Z) : Prop := match r with [] => True | c :: _ => ~ digit c /\ c <> 46 end.
Definition nodigit (r : list Z) : Prop := match r with [] => True | c :: _ => ~ digit c end.
Lemma is_digit_true c : is_digit c = true <-> digit c.
Proof. unfold is_digit, digit. lia. Qed.
Lemma is_digit_false c : is_digit c = false <-> ~ digit c.
Proof. unfold is_digit, digit. lia. Qed.
Lemma digits_run l : forall r acc n, Forall digit l -> nodigit r -> digits (l ++ r) acc n = (fold_left (fun a c => a * 10 + (c - 48)) l acc, (n + length l)%nat, r).
Proof.
  induction l as [|c l IH]; intros r acc n F N.
  - cbn [app fold_left length]. rewrite Nat.add_0_r. destruct r as [|c r]; [reflexivity|]. cbn [digits]. rewrite (proj2 (is_digit_false c) N). reflexivity.
  - inversion F; subst. cbn [app digits fold_left length]. rewrite (proj2 (is_digit_true c) H1). rewrite IH by assumption. f_equal. f_equal. lia.
Qed.
Lemma fold_dec l : forall a, fold_left (fun a c => a * 10 + (c - 48)) l a = a * 10 ^ Z.of_nat (length l) + dec l.
Proof.
  unfold dec. induction l as [|c l IH]; intros a; cbn [fold_left length]; [lia|]. rewrite IH, (IH (0 * 10 + (c - 48))). rewrite Nat2Z.inj_succ, Z.pow_succ_r by lia. ring.
Qed.
Lemma dec_app i f : dec (i ++ f) = dec i * 10 ^ Z.of_nat (length f) + dec f.
Proof. unfold dec at 1. rewrite fold_left_app. fold (dec i). apply fold_dec. Qed.
Lemma nodigit_dot r : nodigit (46 :: r).
Proof. cbn. unfold digit. lia. Qed.

(** The text of a number split into sign, digits, dot and digits. *)
Lemma number_parts ext t q : number ext t q -> exists sign i dot f, t = sign ++ i ++ dot ++ f /\ q = frac i f /\ (sign = [] /\ i <> [] \/ sign = [45]) /\ Forall digit i /\ Forall digit f /\
  (dot = [46] \/ dot = [] /\ f = []).
Proof.
  intros [i F N _|i f F N _ Ff Nf|sign i dot f E S F Ff D].
  - exists [], i, [], []. cbn [app]. rewrite app_nil_r. auto 10.
  - exists [], i, [46], f. cbn [app]. auto 10.
  - exists sign, i, dot, f. auto 10.
Qed.
Lemma lex_number_ok sign i dot f rest : (sign = [] /\ i <> [] \/ sign = [45]) -> Forall digit i -> Forall digit f -> (dot = [46] \/ dot = [] /\ f = []) -> follow rest ->
  lex_number ((sign ++ i ++ dot ++ f) ++ rest) = LTok (TNum (frac i f)) rest.
Proof.
  intros S Fi Ff D FO. unfold lex_number.
  assert (ND : nodigit rest) by (destruct rest; cbn in *; tauto).
  assert (E : match (sign ++ i ++ dot ++ f) ++ rest with c :: r => if c =? 45 then r else (sign ++ i ++ dot ++ f) ++ rest | [] => (sign ++ i ++ dot ++ f) ++ rest end = i ++ dot ++ f ++ rest).
  { rewrite <- !app_assoc. destruct S as [[-> N]| ->]; [|reflexivity]. cbn [app]. destruct i as [|c i]; [congruence|]. cbn [app]. inversion Fi; subst. destruct (Z.eqb_spec c 45) as [->|]; [unfold digit in *; lia|reflexivity]. }
  rewrite E. clear E. destruct D as [-> |[-> ->]]; cbn [app].
  - rewrite digits_run by (auto using nodigit_dot). change (46 =? 46) with true. cbv iota. rewrite digits_run by assumption. cbn [Nat.add]. unfold decimal, frac. rewrite dec_app. reflexivity.
  - rewrite digits_run by assumption. cbv beta iota. unfold frac, decimal. rewrite app_nil_r. cbn [length].
    destruct rest as [|c rest]; [reflexivity|]. cbn in FO. destruct (Z.eqb_spec c 46); [tauto|]. reflexivity.
Qed.
Lemma skip_stop c r : c <> 47 -> c <> 10 -> c <> 13 -> c <> 32 -> c <> 11 -> c <> 9 -> skip Code (c :: r) = c :: r.
Proof. intros. cbn [skip]. repeat match goal with |- context [c =? ?k] => destruct (Z.eqb_spec c k); [congruence|] end. reflexivity. Qed.
Lemma lex_num ext t q rest : number ext t q -> follow rest -> lex (t ++ rest) = LTok (TNum q) rest.
Proof.
  intros N FO. destruct (number_parts ext t q N) as (sign & i & dot & f & -> & -> & S & Fi & Ff & D).
  rewrite <- (lex_number_ok sign i dot f rest S Fi Ff D FO).
  assert (H : exists c r, (sign ++ i ++ dot ++ f) ++ rest = c :: r /\ ((c =? 45) || is_digit c) = true).
  { destruct S as [[-> Ne]| ->]; [|eexists; eexists; split; [reflexivity|reflexivity]]. destruct i as [|c i]; [congruence|]. inversion Fi; subst. exists c. eexists. split; [reflexivity|].
    rewrite (proj2 (is_digit_true c)) by assumption. apply orb_true_r. }
  destruct H as (c & r & E & B). rewrite E. unfold lex.
  assert (C : c = 45 \/ 48 <= c <= 57) by (unfold is_digit in B; lia).
  rewrite skip_stop by lia.
  destruct (Z.eqb_spec c 123); [lia|]. destruct (Z.eqb_spec c 125); [lia|]. destruct (Z.eqb_spec c 91); [lia|]. destruct (Z.eqb_spec c 93); [lia|]. destruct (Z.eqb_spec c 58); [lia|].
  destruct (Z.eqb_spec c 44); [lia|]. destruct (Z.eqb_spec c 34); [lia|]. rewrite B. reflexivity.
Qed.

(** ** Strings *)
Lemma unescape_esc e x : esc e x -> unescape e = Some x.
Proof. intros []; reflexivity. Qed.
Lemma hexd_hex c h : hexd c h -> hex c = Some h.
Proof.
  intros [d H|d H|d H]; unfold hex.
  - replace ((48 <=? d) && (d <=? 57)) with true by lia. reflexivity.
  - replace ((48 <=? d) && (d <=? 57)) with false by lia. replace ((65 <=? d) && (d <=? 70)) with true by lia. reflexivity.
  - replace ((48 <=? d) && (d <=? 57)) with false by lia. replace ((65 <=? d) && (d <=? 70)) with false by lia. replace ((97 <=? d) && (d <=? 102)) with true by lia. reflexivity.
Qed.
Lemma hexd_plain c h : hexd c h -> c <> 34 /\ c <> 92.
Proof. intros [d H|d H|d H]; lia. Qed.
Lemma scan_plain c r : c <> 34 -> c <> 92 -> scan (c :: r) = S (scan r).
Proof. intros A B. cbn [scan]. destruct (Z.eqb_spec c 34); [congruence|]. destruct (Z.eqb_spec c 92); [congruence|]. reflexivity. Qed.
Lemma scan_esc e r : scan (92 :: e :: r) = S (S (scan r)).
Proof. reflexivity. Qed.
Lemma chars_scan ext t s r : chars ext t s -> (length s + 1 <= scan (t ++ 34%Z :: r))%nat.
Proof.
  intros C. induction C as [|c t s N1 N2 X C IH|e x t s E C IH|a b c d h1 h2 h3 h4 t s X H1 H2 H3 H4 C IH]; cbn [app length].
  - cbn. lia.
  - rewrite scan_plain by assumption. lia.
  - rewrite scan_esc. lia.
  - rewrite scan_esc.
    destruct (hexd_plain a h1 H1), (hexd_plain b h2 H2), (hexd_plain c h3 H3), (hexd_plain d h4 H4). rewrite !scan_plain by assumption. lia.
Qed.
Lemma lex_string_ok ext t s r cap : chars ext t s -> forall acc, (length acc + length s < cap)%nat -> lex_string cap (t ++ 34 :: r) acc = LTok (TStr (cstr (acc ++ s))) r.
Proof.
  intros C. induction C as [|c t s N1 N2 X C IH|e x t s E C IH|a b c d h1 h2 h3 h4 t s X H1 H2 H3 H4 C IH]; intros acc L; cbn [length] in L.
  - cbn [app lex_string]. change (34 =? 34) with true. cbv iota. destruct (Nat.ltb_spec (length acc) cap); [|lia]. rewrite app_nil_r. reflexivity.
  - cbn [app lex_string]. destruct (Z.eqb_spec c 34); [congruence|]. destruct (Z.eqb_spec c 92); [congruence|]. destruct (Nat.ltb_spec (length acc) cap); [|lia].
    rewrite IH by (rewrite app_length; cbn [length]; lia). rewrite <- app_assoc. reflexivity.
  - cbn [app lex_string]. change (92 =? 34) with false. change (92 =? 92) with true. cbv iota. rewrite (unescape_esc e x E). destruct (Nat.ltb_spec (length acc) cap); [|lia].
    rewrite IH by (rewrite app_length; cbn [length]; lia). rewrite <- app_assoc. reflexivity.
  - cbn [app lex_string]. change (92 =? 34) with false. change (92 =? 92) with true. cbv iota. change (unescape 117) with (@None Z). change (117 =? 117) with true. cbv iota.
    rewrite (hexd_hex a h1 H1), (hexd_hex b h2 H2), (hexd_hex c h3 H3), (hexd_hex d h4 H4). destruct (Nat.ltb_spec (length acc) cap); [|lia].
    rewrite IH by (rewrite app_length; cbn [length]; lia). rewrite <- app_assoc. reflexivity.
Qed.
Lemma lex_quoted ext t s r : quoted ext t s -> lex (t ++ r) = LTok (TStr s) r.
Proof.
  intros [t0 s0 C]. rewrite <- !app_assoc. cbn [app]. unfold lex. rewrite skip_stop by lia. cbv beta iota zeta.
  replace (34 =? 123) with false by reflexivity. cbn [Z.eqb Pos.eqb orb]. rewrite (lex_string_ok ext t0 s0 r _ C []); [reflexivity|]. cbn [length]. pose proof (chars_scan ext t0 s0 r C). lia.
Qed.

(** ** Values *)
Definition starts (t : token) : bool := match t with TStr _ | TNum _ | TTrue | TFalse | TNull | TLBrace | TLBracket => true | _ => false end.
Lemma starts_not t : starts t = true -> same t TRBracket = false /\ same t TRBrace = false /\ same t TErr = false.
Proof. destruct t; intros H; try discriminate; auto. Qed.
Lemma gap_follow ext g c r : gap ext g -> ~ digit c -> c <> 46 -> follow (g ++ c :: r).
Proof.
  intros G N1 N2. destruct G as [|c' g' S G|g' E G|s g' E N G|s g' E N G]; cbn; auto; unfold digit; try lia. unfold rfc_space in S. lia.
Qed.
Lemma end_gap_follow ext g : end_gap ext g -> follow g.
Proof.
  intros [g0 G|g0 s E G N|g0 s E G N].
  - destruct G as [|c' g' S G|g' E G|s g' E N G|s g' E N G]; cbn; auto; unfold digit; try lia. unfold rfc_space in S. lia.
  - apply (gap_follow ext g0 47 (47 :: s) G); unfold digit; lia.
  - apply (gap_follow ext g0 47 (42 :: s) G); unfold digit; lia.
Qed.
Lemma quoted_length ext t s : quoted ext t s -> (2 <= length t)%nat.
Proof. intros [t0 s0 C]. rewrite !app_length. cbn. lia. Qed.

Definition reads_value (t : list Z) (v : json) : Prop := t <> [] /\ forall rest n, follow rest -> (2 * length t <= n)%nat ->
  exists tk r, lex (t ++ rest) = LTok tk r /\ starts tk = true /\ parse n tk r = next rest (POk v).
Definition reads_elems (t : list Z) (l : list json) : Prop := forall rest n acc, (2 * length t + 1 <= n)%nat ->
  exists tk r, lex (t ++ 93 :: rest) = LTok tk r /\ starts tk = true /\ elements n acc tk r = next rest (POk (JArr (acc ++ l))).
Definition reads_membs (t : list Z) (l : list (list Z * json)) : Prop := forall rest n acc, (2 * length t + 1 <= n)%nat ->
  exists tk r, lex (t ++ 125 :: rest) = LTok tk r /\ starts tk = true /\ members n acc tk r = next rest (POk (JObj (acc ++ l))).

Lemma lex_single c t r : In (c, t) [(123, TLBrace); (125, TRBrace); (91, TLBracket); (93, TRBracket); (58, TColon); (44, TComma)] -> lex (c :: r) = LTok t r.
Proof. intros H. cbn [In] in H. repeat (destruct H as [H|H]; [injection H as <- <-; reflexivity|]). destruct H. Qed.
Lemma lex_rbracket r : lex (93 :: r) = LTok TRBracket r. Proof. reflexivity. Qed.
Lemma lex_rbrace r : lex (125 :: r) = LTok TRBrace r. Proof. reflexivity. Qed.
Lemma lex_comma r : lex (44 :: r) = LTok TComma r. Proof. reflexivity. Qed.
Lemma lex_colon r : lex (58 :: r) = LTok TColon r. Proof. reflexivity. Qed.
Lemma lex_lbracket r : lex (91 :: r) = LTok TLBracket r. Proof. reflexivity. Qed.
Lemma lex_lbrace r : lex (123 :: r) = LTok TLBrace r. Proof. reflexivity. Qed.

Lemma elements_S n acc t r : elements (S n) acc t r = match parse n t r with
    | POk v t1 r1 =>
        if same t1 TErr then PErr
        else if same t1 TRBracket then next r1 (POk (JArr (acc ++ [v])))
        else if same t1 TComma then next r1 (fun t2 r2 => if same t2 TRBracket then next r2 (POk (JArr (acc ++ [v]))) else elements n (acc ++ [v]) t2 r2)
        else PErr
    | e => e
    end.
Proof. reflexivity. Qed.
Lemma members_S n acc k r : members (S n) acc (TStr k) r = next r (fun t0 r0 => if same t0 TColon then
          next r0 (fun t1 r1 =>
            match parse n t1 r1 with
            | POk v t2 r2 =>
                if same t2 TErr then PErr
                else if same t2 TRBrace then next r2 (POk (JObj (acc ++ [(k, v)])))
                else if same t2 TComma then next r2 (fun t3 r3 => if same t3 TRBrace then next r3 (POk (JObj (acc ++ [(k, v)]))) else members n (acc ++ [(k, v)]) t3 r3)
                else PErr
            | e => e
            end)
          else PErr).
Proof. reflexivity. Qed.

Lemma reads ext : (forall t v, value ext t v -> reads_value t v) /\ (forall t l, elems ext t l -> reads_elems t l) /\ (forall t l, membs ext t l -> reads_membs t l).
Proof.
  apply json_mut.
  - split; [discriminate|]. intros rest n FO L. exists TNull, rest. split; [reflexivity|]. split; [reflexivity|]. destruct n; [cbn in L; lia|]. reflexivity.
  - split; [discriminate|]. intros rest n FO L. exists TTrue, rest. split; [reflexivity|]. split; [reflexivity|]. destruct n; [cbn in L; lia|]. reflexivity.
  - split; [discriminate|]. intros rest n FO L. exists TFalse, rest. split; [reflexivity|]. split; [reflexivity|]. destruct n; [cbn in L; lia|]. reflexivity.
  - intros t q N. assert (NE : t <> []).
    { destruct (number_parts ext t q N) as (sign & i & dot & f & -> & _ & S & _). destruct S as [[-> X]| ->]; [destruct i; [congruence|discriminate]|discriminate]. }
    split; [exact NE|]. intros rest n FO L. exists (TNum q), rest. split; [apply (lex_num ext); assumption|]. split; [reflexivity|]. destruct n; [destruct t; [congruence|cbn [length] in L; lia]|]. reflexivity.
  - intros t s Q. pose proof (quoted_length ext t s Q) as QL. split; [intros ->; cbn in QL; lia|]. intros rest n FO L. exists (TStr s), rest. split; [apply (lex_quoted ext); assumption|]. split; [reflexivity|].
    destruct n; [lia|]. reflexivity.
  - intros g G. split; [discriminate|]. intros rest n FO L. exists TLBracket, (g ++ 93 :: rest). rewrite <- !app_assoc. cbn [app]. split; [reflexivity|]. split; [reflexivity|].
    destruct n; [cbn [app length] in L; lia|]. cbn [parse]. unfold next at 1. rewrite (lex_gap ext g _ G), lex_rbracket. reflexivity.
  - intros t l _ IH. split; [discriminate|]. intros rest n FO L. exists TLBracket, (t ++ 93 :: rest). rewrite <- !app_assoc. cbn [app]. split; [reflexivity|]. split; [reflexivity|].
    rewrite !app_length in L. cbn [length] in L. destruct n; [lia|]. destruct (IH rest n [] ltac:(lia)) as (tk & r & E & S & P). cbn [parse]. unfold next at 1. rewrite E.
    destruct (starts_not tk S) as (-> & _ & _). exact P.
  - intros g G. split; [discriminate|]. intros rest n FO L. exists TLBrace, (g ++ 125 :: rest). rewrite <- !app_assoc. cbn [app]. split; [reflexivity|]. split; [reflexivity|].
    destruct n; [cbn [app length] in L; lia|]. cbn [parse]. unfold next at 1. rewrite (lex_gap ext g _ G), lex_rbrace. reflexivity.
  - intros t l _ IH. split; [discriminate|]. intros rest n FO L. exists TLBrace, (t ++ 125 :: rest). rewrite <- !app_assoc. cbn [app]. split; [reflexivity|]. split; [reflexivity|].
    rewrite !app_length in L. cbn [length] in L. destruct n; [lia|]. destruct (IH rest n [] ltac:(lia)) as (tk & r & E & S & P). cbn [parse]. unfold next at 1. rewrite E.
    destruct (starts_not tk S) as (_ & -> & _). exact P.
  - (* one element *) intros g1 t v g2 G1 _ [NE IH] G2 rest n acc L. rewrite <- !app_assoc. rewrite (lex_gap ext g1 _ G1). rewrite !app_length in L. destruct n; [lia|].
    destruct (IH (g2 ++ 93 :: rest) n) as (tk & r & E & S & P); [apply (gap_follow ext); auto; unfold digit; lia|lia|]. exists tk, r. split; [exact E|]. split; [exact S|].
    rewrite elements_S, P. unfold next at 1. rewrite (lex_gap ext g2 _ G2), lex_rbracket. reflexivity.
  - (* trailing comma *) intros g1 t v g2 g3 X G1 _ [NE IH] G2 G3 rest n acc L. rewrite <- !app_assoc. rewrite (lex_gap ext g1 _ G1). rewrite !app_length in L. cbn [length] in L. destruct n; [lia|].
    destruct (IH (g2 ++ [44] ++ g3 ++ 93 :: rest) n) as (tk & r & E & S & P); [apply (gap_follow ext); auto; unfold digit; lia|lia|]. exists tk, r. split; [exact E|]. split; [exact S|].
    rewrite elements_S, P. unfold next at 1. rewrite (lex_gap ext g2 _ G2). cbn [app]. rewrite lex_comma. cbn [same]. cbv iota. unfold next at 1. rewrite (lex_gap ext g3 _ G3), lex_rbracket. reflexivity.
  - (* more *) intros g1 t v g2 t' l G1 _ [NE IH] G2 _ IH' rest n acc L. rewrite <- !app_assoc. rewrite (lex_gap ext g1 _ G1). rewrite !app_length in L. cbn [length] in L. destruct n; [lia|].
    destruct (IH (g2 ++ [44] ++ t' ++ 93 :: rest) n) as (tk & r & E & S & P); [apply (gap_follow ext); auto; unfold digit; lia|lia|]. exists tk, r. split; [exact E|]. split; [exact S|].
    rewrite elements_S, P. unfold next at 1. rewrite (lex_gap ext g2 _ G2). cbn [app]. rewrite lex_comma. cbn [same]. cbv iota. unfold next at 1.
    destruct (IH' rest n (acc ++ [v]) ltac:(destruct t; [congruence|cbn [length] in *; lia])) as (tk' & r' & E' & S' & P'). rewrite E'. destruct (starts_not tk' S') as (-> & _ & _). rewrite P', <- app_assoc. reflexivity.
  - (* one member *) intros g1 tk k g2 g3 t v g4 G1 Q G2 G3 _ [NE IH] G4 rest n acc L. rewrite <- !app_assoc. rewrite (lex_gap ext g1 _ G1). rewrite !app_length in L. cbn [length] in L. destruct n; [lia|].
    exists (TStr k). eexists. split; [apply (lex_quoted ext), Q|]. split; [reflexivity|]. rewrite members_S. unfold next at 1. rewrite (lex_gap ext g2 _ G2). cbn [app]. rewrite lex_colon. cbn [same]. cbv iota. unfold next at 1.
    rewrite (lex_gap ext g3 _ G3). destruct (IH (g4 ++ 125 :: rest) n) as (tv & r & E & S & P); [apply (gap_follow ext); auto; unfold digit; lia|lia|]. rewrite E, P. unfold next at 1. rewrite (lex_gap ext g4 _ G4), lex_rbrace. reflexivity.
  - (* trailing comma *) intros g1 tk k g2 g3 t v g4 g5 X G1 Q G2 G3 _ [NE IH] G4 G5 rest n acc L. rewrite <- !app_assoc. rewrite (lex_gap ext g1 _ G1). rewrite !app_length in L. cbn [length] in L. destruct n; [lia|].
    exists (TStr k). eexists. split; [apply (lex_quoted ext), Q|]. split; [reflexivity|]. rewrite members_S. unfold next at 1. rewrite (lex_gap ext g2 _ G2). cbn [app]. rewrite lex_colon. cbn [same]. cbv iota. unfold next at 1.
    rewrite (lex_gap ext g3 _ G3). destruct (IH (g4 ++ [44] ++ g5 ++ 125 :: rest) n) as (tv & r & E & S & P); [apply (gap_follow ext); auto; unfold digit; lia|lia|]. cbn [app] in E, P. rewrite E, P. unfold next at 1. rewrite (lex_gap ext g4 _ G4).
    rewrite lex_comma. cbn [same]. cbv iota. unfold next at 1. rewrite (lex_gap ext g5 _ G5), lex_rbrace. reflexivity.
  - (* more members *) intros g1 tk k g2 g3 t v g4 t' l G1 Q G2 G3 _ [NE IH] G4 _ IH' rest n acc L. rewrite <- !app_assoc. rewrite (lex_gap ext g1 _ G1). rewrite !app_length in L. cbn [length] in L. destruct n; [lia|].
    exists (TStr k). eexists. split; [apply (lex_quoted ext), Q|]. split; [reflexivity|]. rewrite members_S. unfold next at 1. rewrite (lex_gap ext g2 _ G2). cbn [app]. rewrite lex_colon. cbn [same]. cbv iota. unfold next at 1.
    rewrite (lex_gap ext g3 _ G3). destruct (IH (g4 ++ [44] ++ t' ++ 125 :: rest) n) as (tv & r & E & S & P); [apply (gap_follow ext); auto; unfold digit; lia|lia|]. cbn [app] in E, P. rewrite E, P. unfold next at 1. rewrite (lex_gap ext g4 _ G4).
    rewrite lex_comma. cbn [same]. cbv iota. unfold next at 1.
    destruct (IH' rest n (acc ++ [(k, v)]) ltac:(lia)) as (tk' & r' & E' & S' & P'). rewrite E'. destruct (starts_not tk' S') as (_ & -> & _). rewrite P', <- app_assoc. reflexivity.
Qed.

Lemma load_document ext l v : document ext l v -> load l = Value v.
Proof.
  intros [g1 t v0 g2 G1 V G2]. destruct (proj1 (reads ext) t v0 V) as [NE R]. unfold load. rewrite (lex_gap ext g1 _ G1).
  destruct (R g2 (2 * length (g1 ++ t ++ g2) + 2)%nat) as (tk & r & E & S & P); [apply (end_gap_follow ext), G2|rewrite !app_length; lia|].
  rewrite E, P. unfold next. rewrite (lex_end ext g2 G2). reflexivity.
Qed.
