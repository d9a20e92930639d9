(** Proofs about the JSON reader: what it accepts is in the extended grammar, it always finishes, and when it stays inside the text. *)
From Coq Require Import ZArith QArith Qreduction List Bool Lia.
From Verif Require Import JsonModel JsonSpec JsonProofs.
Import ListNotations.
Open Scope Z_scope.

Definition suffix (r l : list Z) : Prop := exists p, l = p ++ r.
Lemma suffix_refl l : suffix l l. Proof. exists []. reflexivity. Qed.
Lemma suffix_trans a b c : suffix a b -> suffix b c -> suffix a c.
Proof. intros [p ->] [q ->]. exists (q ++ p). rewrite app_assoc. reflexivity. Qed.
Lemma suffix_app p r : suffix r (p ++ r). Proof. exists p. reflexivity. Qed.
Lemma suffix_cons c r l : suffix (c :: r) l -> suffix r l.
Proof. intros [p ->]. exists (p ++ [c]). rewrite <- app_assoc. reflexivity. Qed.
Lemma suffix_nil l : suffix [] l. Proof. exists l. rewrite app_nil_r. reflexivity. Qed.
Lemma suffix_tl c l : suffix l (c :: l). Proof. exists [c]. reflexivity. Qed.
Lemma suffix_length r l : suffix r l -> (length r <= length l)%nat.
Proof. intros [p ->]. rewrite app_length. lia. Qed.

(** ** Whitespace *)
Lemma no_end_nil : no_end [].
Proof. intros a b E. destruct a; discriminate. Qed.
Lemma no_end_one c : no_end [c].
Proof. intros a b E. destruct a as [|x [|y a]]; discriminate. Qed.
Lemma no_end_cons c d s : (c =? 42) && (d =? 47) = false -> no_end (d :: s) -> no_end (c :: d :: s).
Proof.
  intros E N a b X. destruct a as [|x a]; cbn [app] in X.
  - injection X as -> -> _. discriminate.
  - injection X as _ X. apply (N a b X).
Qed.
Lemma skip_line_sound l : (exists s l', l = s ++ 10 :: l' /\ ~ In 10 s /\ skip Line l = skip Code l') \/ (~ In 10 l /\ skip Line l = []).
Proof.
  induction l as [|c l IH]; [right; auto|]. cbn [skip]. destruct (Z.eqb_spec c 10) as [->|N].
  - left. exists [], l. auto.
  - destruct IH as [(s & l' & -> & NI & E)|[NI E]].
    + left. exists (c :: s), l'. split; [reflexivity|]. split; [intros [X|X]; [congruence|exact (NI X)]|exact E].
    + right. split; [intros [X|X]; [congruence|exact (NI X)]|exact E].
Qed.
Lemma skip_block_sound l : (exists s l', l = s ++ 42 :: 47 :: l' /\ no_end (s ++ [42]) /\ skip Block l = skip Code l') \/ (no_end l /\ skip Block l = []).
Proof.
  induction l as [|c l IH]; [right; auto using no_end_nil|]. cbn [skip]. destruct l as [|d l]; [right; auto using no_end_one|].
  destruct ((c =? 42) && (d =? 47)) eqn:B.
  - apply andb_prop in B. destruct B as [B1 B2]. apply Z.eqb_eq in B1, B2. subst. left. exists [], l. split; [reflexivity|]. split; [apply no_end_one|reflexivity].
  - destruct IH as [(s & l' & E & NE & K)|[NE K]].
    + left. exists (c :: s), l'. rewrite E. split; [reflexivity|]. split; [|rewrite <- E; exact K]. cbn [app].
      destruct s as [|d' s]; cbn [app] in *; injection E as E1 E2; subst d.
      * apply no_end_cons; [rewrite andb_false_r; reflexivity|exact NE].
      * apply no_end_cons; [exact B|exact NE].
    + right. split; [apply no_end_cons; [exact B|exact NE]|exact K].
Qed.
Lemma skip_sound : forall n l, (length l <= n)%nat -> (exists g, l = g ++ skip Code l /\ gap true g) \/ (end_gap true l /\ skip Code l = []).
Proof.
  induction n as [|n IH]; intros l L.
  - destruct l; [|cbn in L; lia]. left. exists []. split; [reflexivity|constructor].
  - destruct l as [|c r]; [left; exists []; split; [reflexivity|constructor]|]. cbn [length] in L. cbn [skip]. destruct (Z.eqb_spec c 47) as [->|NC].
    + destruct r as [|d r']; [left; exists []; split; [reflexivity|constructor]|]. cbn [length] in L. destruct (Z.eqb_spec d 47) as [->|ND]; [|destruct (Z.eqb_spec d 42) as [->|ND']].
      * destruct (skip_line_sound r') as [(s & l' & -> & NI & ->)|[NI ->]].
        -- rewrite app_length in L. cbn [length] in L. destruct (IH l' ltac:(lia)) as [(g & E & G)|[G E]].
           ++ left. exists ([47; 47] ++ s ++ [10] ++ g). split; [rewrite <- !app_assoc; cbn [app]; rewrite <- E; reflexivity|apply gap_line; auto].
           ++ right. split; [|exact E]. change (47 :: 47 :: s ++ 10 :: l') with ([47; 47] ++ s ++ [10] ++ l'). destruct G as [g G|g s' _ G N'|g s' _ G N'].
              ** apply eg_gap, gap_line; auto.
              ** replace ([47; 47] ++ s ++ [10] ++ g ++ [47; 47] ++ s') with (([47; 47] ++ s ++ [10] ++ g) ++ [47; 47] ++ s') by (rewrite <- !app_assoc; reflexivity).
                 apply eg_line; auto. apply gap_line; auto.
              ** replace ([47; 47] ++ s ++ [10] ++ g ++ [47; 42] ++ s') with (([47; 47] ++ s ++ [10] ++ g) ++ [47; 42] ++ s') by (rewrite <- !app_assoc; reflexivity).
                 apply eg_block; auto. apply gap_line; auto.
        -- right. split; [|reflexivity]. apply (eg_line true [] r'); auto. constructor.
      * destruct (skip_block_sound r') as [(s & l' & -> & NI & ->)|[NI ->]].
        -- rewrite app_length in L. cbn [length] in L. destruct (IH l' ltac:(lia)) as [(g & E & G)|[G E]].
           ++ left. exists ([47; 42] ++ s ++ [42; 47] ++ g). split; [rewrite <- !app_assoc; cbn [app]; rewrite <- E; reflexivity|apply gap_block; auto].
           ++ right. split; [|exact E]. change (47 :: 42 :: s ++ 42 :: 47 :: l') with ([47; 42] ++ s ++ [42; 47] ++ l'). destruct G as [g G|g s' _ G N'|g s' _ G N'].
              ** apply eg_gap, gap_block; auto.
              ** replace ([47; 42] ++ s ++ [42; 47] ++ g ++ [47; 47] ++ s') with (([47; 42] ++ s ++ [42; 47] ++ g) ++ [47; 47] ++ s') by (rewrite <- !app_assoc; reflexivity).
                 apply eg_line; auto. apply gap_block; auto.
              ** replace ([47; 42] ++ s ++ [42; 47] ++ g ++ [47; 42] ++ s') with (([47; 42] ++ s ++ [42; 47] ++ g) ++ [47; 42] ++ s') by (rewrite <- !app_assoc; reflexivity).
                 apply eg_block; auto. apply gap_block; auto.
        -- right. split; [|reflexivity]. apply (eg_block true [] r'); auto. constructor.
      * left. exists []. split; [reflexivity|constructor].
    + destruct ((c =? 10) || (c =? 13) || (c =? 32) || (c =? 11) || (c =? 9)) eqn:B; [|left; exists []; split; [reflexivity|constructor]].
      assert (GC : forall g, gap true g -> gap true (c :: g)).
      { intros g G. destruct (Z.eqb_spec c 11) as [->|]; [apply gap_vt; auto|]. apply gap_space; [unfold rfc_space; lia|exact G]. }
      destruct (IH r ltac:(lia)) as [(g & E & G)|[G E]].
      * left. exists (c :: g). cbn [app]. rewrite <- E. split; [reflexivity|apply GC, G].
      * right. split; [|exact E]. destruct G as [g G|g s' _ G N'|g s' _ G N'].
        -- apply eg_gap, GC, G.
        -- apply (eg_line true (c :: g) s'); auto.
        -- apply (eg_block true (c :: g) s'); auto.
Qed.
Lemma skip_suffix l : suffix (skip Code l) l.
Proof. destruct (skip_sound (length l) l (le_n _)) as [(g & E & _)|[_ E]]; [exists g; exact E|rewrite E; apply suffix_nil]. Qed.

(** ** Tokens *)
Definition spells (t : token) (txt : list Z) : Prop :=
  match t with
  | TLBrace => txt = [123] | TRBrace => txt = [125] | TLBracket => txt = [91] | TRBracket => txt = [93] | TComma => txt = [44] | TColon => txt = [58]
  | TStr s => quoted true txt s | TNum q => number true txt q
  | TTrue => txt = [116; 114; 117; 101] | TFalse => txt = [102; 97; 108; 115; 101] | TNull => txt = [110; 117; 108; 108]
  | TErr | TEof => False
  end.
Lemma digits_sound l : forall acc n, exists i r, l = i ++ r /\ Forall digit i /\ digits l acc n = (fold_left (fun a c => a * 10 + (c - 48)) i acc, (n + length i)%nat, r).
Proof.
  induction l as [|c l IH]; intros acc n; cbn [digits].
  - exists [], []. cbn. rewrite Nat.add_0_r. auto.
  - destruct (is_digit c) eqn:E.
    + destruct (IH (acc * 10 + (c - 48)) (S n)) as (i & r & -> & F & ->). exists (c :: i), r. split; [reflexivity|]. split; [constructor; [apply is_digit_true, E|exact F]|].
      cbn [fold_left length]. f_equal. f_equal. lia.
    + exists [], (c :: l). cbn. rewrite Nat.add_0_r. auto.
Qed.
Lemma lex_number_sound c l t r : (c =? 45) || is_digit c = true -> lex_number (c :: l) = LTok t r -> exists txt q, c :: l = txt ++ r /\ t = TNum q /\ number true txt q.
Proof.
  intros B E. unfold lex_number in E.
  assert (S : exists sign l1, c :: l = sign ++ l1 /\ (if c =? 45 then l else c :: l) = l1 /\ (sign = [] /\ (exists d l2, l1 = d :: l2 /\ is_digit d = true) \/ sign = [45])).
  { destruct (Z.eqb_spec c 45) as [->|N]; [exists [45], l; auto|]. exists [], (c :: l). split; [reflexivity|]. split; [reflexivity|]. left. split; [reflexivity|]. cbn [orb] in B. eauto. }
  destruct S as (sign & l1 & EL & E1 & S). rewrite E1 in E. rewrite EL. clear E1 EL.
  destruct (digits_sound l1 0 0) as (i & l2 & -> & Fi & D). rewrite D in E. clear B.
  assert (S' : sign = [] /\ i <> [] \/ sign = [45]).
  { destruct S as [[-> (d & l3 & X & Y)]|S]; [left; split; [reflexivity|]|right; exact S]. intros ->. cbn [app] in X. subst l2. cbn [app digits] in D. rewrite Y in D.
    destruct (digits_sound l3 (0 * 10 + (d - 48)) 1) as (i' & r' & _ & _ & D'). rewrite D' in D. cbn [length] in D. injection D as _ D _. lia. }
  clear D S. cbv beta iota in E. fold (dec i) in E. destruct l2 as [|e l2].
  - injection E as <- <-. exists (sign ++ i ++ [] ++ []), (frac i []). rewrite app_nil_r. cbn [app]. rewrite !app_nil_r. split; [reflexivity|]. split; [unfold frac, decimal; rewrite app_nil_r; reflexivity|].
    replace (sign ++ i) with (sign ++ i ++ [] ++ []) by (cbn [app]; rewrite app_nil_r; reflexivity). apply num_ext; auto.
  - destruct (Z.eqb_spec e 46) as [->|N].
    + destruct (digits_sound l2 0 0) as (f & l3 & -> & Ff & D). rewrite D in E. cbn [Nat.add] in E. injection E as <- <-. exists (sign ++ i ++ [46] ++ f), (frac i f). split; [rewrite <- !app_assoc; reflexivity|].
      split; [unfold frac, decimal; rewrite dec_app; reflexivity|]. apply num_ext; auto.
    + injection E as <- <-. exists (sign ++ i ++ [] ++ []), (frac i []). split; [rewrite <- !app_assoc; reflexivity|]. split; [unfold frac, decimal; rewrite app_nil_r; reflexivity|]. apply num_ext; auto.
Qed.
Lemma unescape_sound e x : unescape e = Some x -> esc e x.
Proof.
  unfold unescape. intros H. repeat match type of H with context [e =? ?k] => destruct (Z.eqb_spec e k) as [->|]; cbn [orb] in H; [injection H as <-; constructor|] end. discriminate.
Qed.
Lemma hex_sound c h : hex c = Some h -> hexd c h.
Proof.
  unfold hex. destruct ((48 <=? c) && (c <=? 57)) eqn:A; [intros [= <-]; constructor; lia|]. destruct ((65 <=? c) && (c <=? 70)) eqn:B; [intros [= <-]; constructor; lia|].
  destruct ((97 <=? c) && (c <=? 102)) eqn:C; [intros [= <-]; constructor; lia|discriminate].
Qed.
Lemma lex_string_sound cap : forall n l acc t r, (length l <= n)%nat -> lex_string cap l acc = LTok t r ->
  (t = TErr /\ suffix r l) \/ exists body s, l = body ++ 34 :: r /\ chars true body s /\ t = TStr (cstr (acc ++ s)).
Proof.
  induction n as [|n IH]; intros l acc t r L E.
  - destruct l; [|cbn in L; lia]. injection E as <- <-. left. auto using suffix_refl.
  - destruct l as [|c l]; [injection E as <- <-; left; auto using suffix_refl|]. cbn [length] in L. cbn [lex_string] in E. destruct (Z.eqb_spec c 34) as [->|N1].
    + destruct (Nat.ltb (length acc) cap); [|discriminate]. injection E as <- <-. right. exists [], []. rewrite app_nil_r. split; [reflexivity|]. split; [constructor|reflexivity].
    + destruct (Z.eqb_spec c 92) as [->|N2].
      * destruct l as [|e l]; [injection E as <- <-; left; auto using suffix_nil|]. cbn [length] in L. destruct (unescape e) as [x|] eqn:U.
        -- destruct (Nat.ltb (length acc) cap); [|discriminate]. destruct (IH l _ t r ltac:(lia) E) as [[-> S]|(body & s & -> & C & ->)].
           ++ left. split; [reflexivity|]. eapply suffix_trans; [exact S|]. exists [92; e]. reflexivity.
           ++ right. exists (92 :: e :: body), (x :: s). split; [reflexivity|]. split; [apply ch_esc; [apply unescape_sound, U|exact C]|]. rewrite <- app_assoc. reflexivity.
        -- destruct (Z.eqb_spec e 117) as [->|N3].
           ++ destruct l as [|a [|b [|d l]]]; try discriminate. destruct l as [|f l]; [injection E as <- <-; left; auto using suffix_nil|].
              assert (SF : suffix l (92 :: 117 :: a :: b :: d :: f :: l)) by (exists [92; 117; a; b; d; f]; reflexivity).
              destruct (hex a) as [h1|] eqn:H1; [|injection E as <- <-; left; auto]. destruct (hex b) as [h2|] eqn:H2; [|injection E as <- <-; left; auto].
              destruct (hex d) as [h3|] eqn:H3; [|injection E as <- <-; left; auto]. destruct (hex f) as [h4|] eqn:H4; [|injection E as <- <-; left; auto].
              destruct (Nat.ltb (length acc) cap); [|discriminate]. destruct (IH l _ t r ltac:(cbn [length] in L; lia) E) as [[-> S]|(body & s & -> & C & ->)].
              ** left. split; [reflexivity|]. eapply suffix_trans; [exact S|exact SF].
              ** right. exists (92 :: 117 :: a :: b :: d :: f :: body), ((h1 * 4096 + h2 * 256 + h3 * 16 + h4) mod 256 :: s). split; [reflexivity|].
                 split; [apply ch_u; auto using hex_sound|]. rewrite <- app_assoc. reflexivity.
           ++ injection E as <- <-. left. split; [reflexivity|]. exists [92; e]. reflexivity.
      * destruct (Nat.ltb (length acc) cap); [|discriminate]. destruct (IH l _ t r ltac:(lia) E) as [[-> S]|(body & s & -> & C & ->)].
        -- left. split; [reflexivity|]. eapply suffix_trans; [exact S|apply suffix_tl].
        -- right. exists (c :: body), (c :: s). split; [reflexivity|]. split; [apply ch_raw; auto|]. rewrite <- app_assoc. reflexivity.
Qed.
Lemma match_sound w : forall l r, match_ w l = Some r -> l = w ++ r.
Proof.
  induction w as [|x w IH]; intros l r E; cbn [match_] in E; [injection E as ->; reflexivity|]. destruct l as [|c l]; [discriminate|].
  destruct (Z.eqb_spec c x) as [->|]; [|discriminate]. cbn [app]. f_equal. apply IH, E.
Qed.
Lemma lex_sound l t r : lex l = LTok t r -> (t = TEof /\ end_gap true l /\ r = []) \/ (t = TErr /\ suffix r l) \/ exists g txt, l = g ++ txt ++ r /\ gap true g /\ spells t txt.
Proof.
  intros E. unfold lex in E. pose proof (skip_suffix l) as SS. destruct (skip_sound (length l) l (le_n _)) as [(g & EL & G)|[G ES]].
  2:{ rewrite ES in E. injection E as <- <-. left. auto. }
  destruct (skip Code l) as [|c k] eqn:K.
  { injection E as <- <-. left. rewrite app_nil_r in EL. subst g. split; [reflexivity|]. split; [apply eg_gap, G|reflexivity]. }
  assert (FIN : forall txt, c :: k = txt ++ r -> spells t txt -> (t = TEof /\ end_gap true l /\ r = []) \/ (t = TErr /\ suffix r l) \/ exists g txt, l = g ++ txt ++ r /\ gap true g /\ spells t txt).
  { intros txt X Y. right. right. exists g, txt. rewrite EL, X. auto. }
  assert (ERR : t = TErr -> suffix r (c :: k) -> (t = TEof /\ end_gap true l /\ r = []) \/ (t = TErr /\ suffix r l) \/ exists g txt, l = g ++ txt ++ r /\ gap true g /\ spells t txt).
  { intros X Y. right. left. split; [exact X|]. eapply suffix_trans; [exact Y|exact SS]. }
  destruct (Z.eqb_spec c 123) as [->|_]; [injection E as <- <-; apply (FIN [123]); reflexivity|].
  destruct (Z.eqb_spec c 125) as [->|_]; [injection E as <- <-; apply (FIN [125]); reflexivity|].
  destruct (Z.eqb_spec c 91) as [->|_]; [injection E as <- <-; apply (FIN [91]); reflexivity|].
  destruct (Z.eqb_spec c 93) as [->|_]; [injection E as <- <-; apply (FIN [93]); reflexivity|].
  destruct (Z.eqb_spec c 58) as [->|_]; [injection E as <- <-; apply (FIN [58]); reflexivity|].
  destruct (Z.eqb_spec c 44) as [->|_]; [injection E as <- <-; apply (FIN [44]); reflexivity|].
  destruct (Z.eqb_spec c 34) as [->|_].
  { destruct (lex_string_sound _ (length k) k [] t r (le_n _) E) as [[-> S]|(body & s & -> & C & ->)].
    - apply ERR; [reflexivity|]. eapply suffix_trans; [exact S|apply suffix_tl].
    - apply (FIN ([34] ++ body ++ [34])); [rewrite <- !app_assoc; reflexivity|]. cbn [spells app]. apply (quoted_intro true body s C). }
  destruct ((c =? 45) || is_digit c) eqn:B.
  { destruct (lex_number_sound c k t r B E) as (txt & q & X & -> & N). apply (FIN txt X N). }
  assert (KW : forall w tk, spells tk w -> keyword w tk (c :: k) = LTok t r -> (t = TEof /\ end_gap true l /\ r = []) \/ (t = TErr /\ suffix r l) \/ exists g txt, l = g ++ txt ++ r /\ gap true g /\ spells t txt).
  { intros w tk SP X. unfold keyword in X. destruct (match_ w (c :: k)) as [r'|] eqn:M; injection X as <- <-; [|apply ERR; [reflexivity|apply suffix_refl]]. apply (FIN w); [apply match_sound, M|exact SP]. }
  destruct (c =? 116); [apply (KW _ TTrue eq_refl E)|]. destruct (c =? 102); [apply (KW _ TFalse eq_refl E)|]. destruct (c =? 110); [apply (KW _ TNull eq_refl E)|].
  injection E as <- <-. apply ERR; [reflexivity|apply suffix_refl].
Qed.
Lemma number_nonempty ext t q : number ext t q -> t <> [].
Proof. intros N. destruct (number_parts ext t q N) as (sign & i & dot & f & -> & _ & S & _). destruct S as [[-> X]| ->]; [destruct i; [congruence|discriminate]|discriminate]. Qed.
Lemma spells_nonempty t txt : spells t txt -> (1 <= length txt)%nat.
Proof.
  destruct t; cbn [spells]; intros H; try contradiction; try (subst txt; cbn; lia).
  - pose proof (quoted_length true txt s H). lia.
  - pose proof (number_nonempty true txt q H). destruct txt; [congruence|cbn; lia].
Qed.
Definition dead (t : token) : bool := match t with TErr | TEof => true | _ => false end.
Lemma lex_suffix l t r : lex l = LTok t r -> suffix r l.
Proof.
  intros E. destruct (lex_sound l t r E) as [(_ & _ & ->)|[[_ S]|(g & txt & -> & _)]]; [apply suffix_nil|exact S|]. rewrite app_assoc. apply suffix_app.
Qed.
Lemma lex_shorter l t r : lex l = LTok t r -> dead t = true \/ (length r < length l)%nat.
Proof.
  intros E. destruct (lex_sound l t r E) as [(-> & _ & ->)|[[-> S]|(g & txt & -> & _ & S)]]; auto. right. pose proof (spells_nonempty t txt S). rewrite !app_length. lia.
Qed.

(** ** Values *)
Definition sound_value n := forall tk r v t1 r1, parse n tk r = POk v t1 r1 -> (tk = TEof /\ v = JNull /\ t1 = TEof) \/
  (starts tk = true /\ forall tt, spells tk tt -> exists body rest, r = body ++ rest /\ value true (tt ++ body) v /\ lex rest = LTok t1 r1).
Definition sound_elems n := forall acc tk r v t1 r1, elements n acc tk r = POk v t1 r1 -> starts tk = true /\ forall g tt, gap true g -> spells tk tt ->
  exists body rest l, r = body ++ [93] ++ rest /\ v = JArr (acc ++ l) /\ elems true (g ++ tt ++ body) l /\ lex rest = LTok t1 r1.
Definition sound_membs n := forall acc tk r v t1 r1, members n acc tk r = POk v t1 r1 -> starts tk = true /\ forall g tt, gap true g -> spells tk tt ->
  exists body rest l, r = body ++ [125] ++ rest /\ v = JObj (acc ++ l) /\ membs true (g ++ tt ++ body) l /\ lex rest = LTok t1 r1.
Lemma next_ok r k v t1 r1 : next r k = POk v t1 r1 -> exists t r', lex r = LTok t r' /\ k t r' = POk v t1 r1.
Proof. unfold next. destruct (lex r) as [t r'|]; [eauto|discriminate]. Qed.
Lemma same_true t u : same t u = true -> t = u.
Proof. destruct t, u; cbn; congruence. Qed.
Lemma spelled l t r : lex l = LTok t r -> dead t = false -> exists g txt, l = g ++ txt ++ r /\ gap true g /\ spells t txt.
Proof. intros E D. destruct (lex_sound l t r E) as [(-> & _)|[(-> & _)|X]]; [discriminate|discriminate|exact X]. Qed.
Lemma starts_dead t : starts t = true -> dead t = false.
Proof. destruct t; cbn; congruence. Qed.

Lemma sound n : sound_value n /\ sound_elems n /\ sound_membs n.
Proof.
  induction n as [|n (IV & IE & IM)]; [repeat split; discriminate|]. split; [|split].
  - intros tk r v t1 r1 E. cbn [parse] in E. destruct tk; try discriminate.
    + right. split; [reflexivity|]. intros tt SPT; cbn [spells] in SPT; subst tt. destruct (next_ok _ _ _ _ _ E) as (t & r' & L & K). destruct (same t TRBrace) eqn:SB.
      * apply same_true in SB. subst t. destruct (next_ok _ _ _ _ _ K) as (t & r'' & L' & K'). injection K' as <- <- <-. destruct (spelled _ _ _ L eq_refl) as (g & txt & -> & G & SPX); cbn [spells] in SPX; subst txt.
        exists (g ++ [125]), r'. split; [rewrite <- app_assoc; reflexivity|]. split; [apply val_obj0, G|exact L'].
      * destruct (IM _ _ _ _ _ _ K) as [ST X]. destruct (spelled _ _ _ L (starts_dead _ ST)) as (g & txt & -> & G & SP). destruct (X g txt G SP) as (body & rest & l & -> & -> & ME & L').
        exists (g ++ txt ++ body ++ [125]), rest. split; [rewrite <- !app_assoc; reflexivity|]. split; [|exact L'].
        replace ([123] ++ g ++ txt ++ body ++ [125]) with ([123] ++ (g ++ txt ++ body) ++ [125]) by (rewrite <- !app_assoc; reflexivity). apply val_obj, ME.
    + right. split; [reflexivity|]. intros tt SPT; cbn [spells] in SPT; subst tt. destruct (next_ok _ _ _ _ _ E) as (t & r' & L & K). destruct (same t TRBracket) eqn:SB.
      * apply same_true in SB. subst t. destruct (next_ok _ _ _ _ _ K) as (t & r'' & L' & K'). injection K' as <- <- <-. destruct (spelled _ _ _ L eq_refl) as (g & txt & -> & G & SPX); cbn [spells] in SPX; subst txt.
        exists (g ++ [93]), r'. split; [rewrite <- app_assoc; reflexivity|]. split; [apply val_arr0, G|exact L'].
      * destruct (IE _ _ _ _ _ _ K) as [ST X]. destruct (spelled _ _ _ L (starts_dead _ ST)) as (g & txt & -> & G & SP). destruct (X g txt G SP) as (body & rest & l & -> & -> & ME & L').
        exists (g ++ txt ++ body ++ [93]), rest. split; [rewrite <- !app_assoc; reflexivity|]. split; [|exact L'].
        replace ([91] ++ g ++ txt ++ body ++ [93]) with ([91] ++ (g ++ txt ++ body) ++ [93]) by (rewrite <- !app_assoc; reflexivity). apply val_arr, ME.
    + right. split; [reflexivity|]. intros tt SP. destruct (next_ok _ _ _ _ _ E) as (t & r' & L & K). injection K as <- <- <-. exists [], r. rewrite app_nil_r. split; [reflexivity|]. split; [apply val_str, SP|exact L].
    + right. split; [reflexivity|]. intros tt SP. destruct (next_ok _ _ _ _ _ E) as (t & r' & L & K). injection K as <- <- <-. exists [], r. rewrite app_nil_r. split; [reflexivity|]. split; [apply val_num, SP|exact L].
    + right. split; [reflexivity|]. intros tt SPT; cbn [spells] in SPT; subst tt. destruct (next_ok _ _ _ _ _ E) as (t & r' & L & K). injection K as <- <- <-. exists [], r. rewrite app_nil_r. split; [reflexivity|]. split; [apply val_true|exact L].
    + right. split; [reflexivity|]. intros tt SPT; cbn [spells] in SPT; subst tt. destruct (next_ok _ _ _ _ _ E) as (t & r' & L & K). injection K as <- <- <-. exists [], r. rewrite app_nil_r. split; [reflexivity|]. split; [apply val_false|exact L].
    + right. split; [reflexivity|]. intros tt SPT; cbn [spells] in SPT; subst tt. destruct (next_ok _ _ _ _ _ E) as (t & r' & L & K). injection K as <- <- <-. exists [], r. rewrite app_nil_r. split; [reflexivity|]. split; [apply val_null|exact L].
    + left. injection E as <- <- _. auto.
  - intros acc tk r v t1 r1 E. rewrite elements_S in E. destruct (parse n tk r) as [v0 t0 r0| | |] eqn:P; try discriminate.
    destruct (IV _ _ _ _ _ P) as [(_ & _ & ->)|[ST X]]; [discriminate|]. split; [exact ST|]. intros g tt G SP. destruct (X tt SP) as (body & rest & -> & VA & L). clear X P.
    destruct (same t0 TErr); [discriminate|]. destruct (same t0 TRBracket) eqn:SB.
    + apply same_true in SB. subst t0. destruct (next_ok _ _ _ _ _ E) as (t & r' & L' & K). injection K as <- <- <-. destruct (spelled _ _ _ L eq_refl) as (g2 & txt & -> & G2 & SPX); cbn [spells] in SPX; subst txt.
      exists (body ++ g2), r0, [v0]. split; [rewrite <- app_assoc; reflexivity|]. split; [reflexivity|]. split; [|exact L'].
      replace (g ++ tt ++ body ++ g2) with (g ++ (tt ++ body) ++ g2) by (rewrite <- !app_assoc; reflexivity). apply el_one; assumption.
    + destruct (same t0 TComma) eqn:SC; [|discriminate]. apply same_true in SC. subst t0. destruct (spelled _ _ _ L eq_refl) as (g2 & txt & -> & G2 & SPX); cbn [spells] in SPX; subst txt. clear L SB.
      destruct (next_ok _ _ _ _ _ E) as (t & r' & L' & K). destruct (same t TRBracket) eqn:SB.
      * apply same_true in SB. subst t. destruct (next_ok _ _ _ _ _ K) as (t & r'' & L'' & K'). injection K' as <- <- <-. destruct (spelled _ _ _ L' eq_refl) as (g3 & txt & -> & G3 & SPX); cbn [spells] in SPX; subst txt.
        exists (body ++ g2 ++ [44] ++ g3), r', [v0]. split; [rewrite <- !app_assoc; reflexivity|]. split; [reflexivity|]. split; [|exact L''].
        replace (g ++ tt ++ body ++ g2 ++ [44] ++ g3) with (g ++ (tt ++ body) ++ g2 ++ [44] ++ g3) by (rewrite <- !app_assoc; reflexivity). apply el_trail; auto.
      * destruct (IE _ _ _ _ _ _ K) as [ST' X]. destruct (spelled _ _ _ L' (starts_dead _ ST')) as (g3 & txt & -> & G3 & SP'). destruct (X g3 txt G3 SP') as (body' & rest & l & -> & -> & ME & L'').
        exists (body ++ g2 ++ [44] ++ g3 ++ txt ++ body'), rest, (v0 :: l). split; [rewrite <- !app_assoc; reflexivity|]. split; [rewrite <- app_assoc; reflexivity|]. split; [|exact L''].
        replace (g ++ tt ++ body ++ g2 ++ [44] ++ g3 ++ txt ++ body') with (g ++ (tt ++ body) ++ g2 ++ [44] ++ (g3 ++ txt ++ body')) by (rewrite <- !app_assoc; reflexivity). apply el_more; auto.
  - intros acc tk r v t1 r1 E. destruct tk; try discriminate. split; [reflexivity|]. intros g tt G SP. rewrite members_S in E.
    destruct (next_ok _ _ _ _ _ E) as (tc & rc & LC & E1). clear E. destruct (same tc TColon) eqn:SC; [|discriminate]. apply same_true in SC. subst tc. destruct (spelled _ _ _ LC eq_refl) as (g2 & txt & -> & G2 & SPX); cbn [spells] in SPX; subst txt. clear LC.
    destruct (next_ok _ _ _ _ _ E1) as (tv & rv & LV & E2). clear E1. destruct (parse n tv rv) as [v0 t0 r0| | |] eqn:P; try discriminate.
    destruct (IV _ _ _ _ _ P) as [(_ & _ & ->)|[ST X]]; [discriminate|]. destruct (spelled _ _ _ LV (starts_dead _ ST)) as (g3 & tv' & -> & G3 & SPV). destruct (X tv' SPV) as (body & rest & -> & VA & L). clear X P LV.
    destruct (same t0 TErr); [discriminate|]. destruct (same t0 TRBrace) eqn:SB.
    + apply same_true in SB. subst t0. destruct (next_ok _ _ _ _ _ E2) as (t & r' & L' & K). injection K as <- <- <-. destruct (spelled _ _ _ L eq_refl) as (g4 & txt & -> & G4 & SPX); cbn [spells] in SPX; subst txt.
      exists (g2 ++ [58] ++ g3 ++ tv' ++ body ++ g4), r0, [(s, v0)]. split; [rewrite <- !app_assoc; reflexivity|]. split; [reflexivity|]. split; [|exact L'].
      replace (g ++ tt ++ g2 ++ [58] ++ g3 ++ tv' ++ body ++ g4) with (g ++ tt ++ g2 ++ [58] ++ g3 ++ (tv' ++ body) ++ g4) by (rewrite <- !app_assoc; reflexivity). apply mb_one; assumption.
    + destruct (same t0 TComma) eqn:SC; [|discriminate]. apply same_true in SC. subst t0. destruct (spelled _ _ _ L eq_refl) as (g4 & txt & -> & G4 & SPX); cbn [spells] in SPX; subst txt. clear L SB.
      destruct (next_ok _ _ _ _ _ E2) as (t & r' & L' & K). destruct (same t TRBrace) eqn:SB.
      * apply same_true in SB. subst t. destruct (next_ok _ _ _ _ _ K) as (t & r'' & L'' & K'). injection K' as <- <- <-. destruct (spelled _ _ _ L' eq_refl) as (g5 & txt & -> & G5 & SPX); cbn [spells] in SPX; subst txt.
        exists (g2 ++ [58] ++ g3 ++ tv' ++ body ++ g4 ++ [44] ++ g5), r', [(s, v0)]. split; [rewrite <- !app_assoc; reflexivity|]. split; [reflexivity|]. split; [|exact L''].
        replace (g ++ tt ++ g2 ++ [58] ++ g3 ++ tv' ++ body ++ g4 ++ [44] ++ g5) with (g ++ tt ++ g2 ++ [58] ++ g3 ++ (tv' ++ body) ++ g4 ++ [44] ++ g5) by (rewrite <- !app_assoc; reflexivity). apply mb_trail; auto.
      * destruct (IM _ _ _ _ _ _ K) as [ST' X]. destruct (spelled _ _ _ L' (starts_dead _ ST')) as (g5 & txt & -> & G5 & SP'). destruct (X g5 txt G5 SP') as (body' & rest & l & -> & -> & ME & L'').
        exists (g2 ++ [58] ++ g3 ++ tv' ++ body ++ g4 ++ [44] ++ g5 ++ txt ++ body'), rest, ((s, v0) :: l). split; [rewrite <- !app_assoc; reflexivity|]. split; [rewrite <- app_assoc; reflexivity|]. split; [|exact L''].
        replace (g ++ tt ++ g2 ++ [58] ++ g3 ++ tv' ++ body ++ g4 ++ [44] ++ g5 ++ txt ++ body') with (g ++ tt ++ g2 ++ [58] ++ g3 ++ (tv' ++ body) ++ g4 ++ [44] ++ (g5 ++ txt ++ body')) by (rewrite <- !app_assoc; reflexivity). apply mb_more; auto.
Qed.
Lemma load_sound l v : load l = Value v -> (end_gap true l /\ v = JNull) \/ exists g t rest, l = g ++ t ++ rest /\ gap true g /\ value true t v.
Proof.
  unfold load. destruct (lex l) as [t r|] eqn:L; [|discriminate]. destruct (parse _ t r) as [v0 t1 r1| | |] eqn:P; try discriminate. destruct (same t1 TErr); [discriminate|]. intros [= <-].
  destruct (proj1 (sound _) _ _ _ _ _ P) as [(-> & -> & _)|[ST X]].
  - left. destruct (lex_sound _ _ _ L) as [(_ & G & _)|[(E & _)|(g & txt & _ & _ & [])]]; [auto|discriminate].
  - right. destruct (spelled _ _ _ L (starts_dead _ ST)) as (g & txt & -> & G & SP). destruct (X txt SP) as (body & rest & -> & VA & _). exists g, (txt ++ body), rest.
    split; [rewrite <- !app_assoc; reflexivity|auto].
Qed.

(** ** The reader finishes *)
Lemma next_fuel r k : (forall t r', lex r = LTok t r' -> k t r' <> PFuel) -> next r k <> PFuel.
Proof. unfold next. destruct (lex r); [auto|discriminate]. Qed.
Lemma pok_fuel v t r : POk v t r <> PFuel. Proof. discriminate. Qed.
Lemma parse_dead n t r : dead t = true -> parse (S n) t r = POk JNull TEof r \/ parse (S n) t r = PErr.
Proof. destruct t; try discriminate; auto. Qed.
(** The text left after a value is shorter when a live token was read after it. *)
Lemma parse_rest n tk r v t1 r1 : parse n tk r = POk v t1 r1 -> suffix r1 r /\ (dead t1 = true \/ (length r1 < length r)%nat).
Proof.
  intros P. destruct (proj1 (sound n) _ _ _ _ _ P) as [(-> & _ & ->)|[ST X]].
  - destruct n; [discriminate|]. cbn [parse] in P. injection P as P. subst r1. split; [apply suffix_refl|auto].
  - assert (H : forall t1 r1 v, next r (POk v) = POk v t1 r1 -> suffix r1 r /\ (dead t1 = true \/ (length r1 < length r)%nat)).
    { intros t2 r2 v2 N. destruct (next_ok _ _ _ _ _ N) as (t & r' & L & K). injection K as <- <-. split; [apply (lex_suffix _ _ _ L)|apply (lex_shorter _ _ _ L)]. }
    assert (SP : (exists tt, spells tk tt) \/ (exists k, next r (POk k) = POk v t1 r1 /\ k = v)).
    { destruct n; [discriminate|]. cbn [parse] in P. destruct tk; try discriminate; cbn [spells]; eauto; right;
        destruct (next_ok _ _ _ _ _ P) as (t & r' & L & K); injection K as <- <- <-; eexists; split; try reflexivity; exact P. }
    destruct SP as [[tt SP]|(k & N & ->)]; [|apply (H _ _ _ N)].
    destruct (X tt SP) as (body & rest & -> & _ & L). pose proof (suffix_app body rest) as S. split; [eapply suffix_trans; [apply (lex_suffix _ _ _ L)|exact S]|].
    destruct (lex_shorter _ _ _ L); [auto|]. right. pose proof (suffix_length _ _ S). lia.
Qed.

Definition fuel_value n := forall t r, (2 * length r + 3 <= n)%nat \/ dead t = true /\ (1 <= n)%nat -> parse n t r <> PFuel.
Definition fuel_elems n := forall acc t r, (2 * length r + 4 <= n)%nat \/ dead t = true /\ (2 <= n)%nat -> elements n acc t r <> PFuel.
Definition fuel_membs n := forall acc t r, (2 * length r + 4 <= n)%nat \/ dead t = true /\ (2 <= n)%nat -> members n acc t r <> PFuel.
Lemma enough n : fuel_value n /\ fuel_elems n /\ fuel_membs n.
Proof.
  induction n as [|n (IV & IE & IM)]; [unfold fuel_value, fuel_elems, fuel_membs; repeat split; intros; lia|]. split; [|split].
  - intros t r H. destruct t; cbn [parse]; try discriminate; try (apply next_fuel; intros; apply pok_fuel).
    + apply next_fuel. intros t1 r1 L. destruct (same t1 TRBrace); [apply next_fuel; intros; apply pok_fuel|]. apply IM. destruct (lex_shorter _ _ _ L) as [D|D]; [right; split; [exact D|]|left]; destruct H as [H|[H _]]; try discriminate; lia.
    + apply next_fuel. intros t1 r1 L. destruct (same t1 TRBracket); [apply next_fuel; intros; apply pok_fuel|]. apply IE. destruct (lex_shorter _ _ _ L) as [D|D]; [right; split; [exact D|]|left]; destruct H as [H|[H _]]; try discriminate; lia.
  - intros acc t r H. rewrite elements_S.
    assert (F : parse n t r <> PFuel) by (apply IV; destruct H as [H|[H1 H2]]; [left; lia|right; split; [exact H1|lia]]).
    destruct (parse n t r) as [v0 t0 r0| | |] eqn:P; try discriminate; [|congruence]. destruct (same t0 TErr) eqn:SE; [discriminate|]. destruct (same t0 TRBracket); [apply next_fuel; intros; apply pok_fuel|].
    destruct (same t0 TComma) eqn:SC; [|discriminate]. apply same_true in SC. subst t0. apply next_fuel. intros t2 r2 L. destruct (same t2 TRBracket); [apply next_fuel; intros; apply pok_fuel|].
    destruct (parse_rest _ _ _ _ _ _ P) as [SU [X|LE]]; [discriminate|]. pose proof (suffix_length _ _ (lex_suffix _ _ _ L)) as LL.
    destruct H as [H|[H1 H2]].
    + apply IE. left. lia.
    + destruct n; [lia|]. destruct (parse_dead n t r H1) as [Q|Q]; rewrite Q in P; discriminate.
  - intros acc t r H. destruct t; try discriminate. rewrite members_S. destruct H as [H|[H _]]; [|discriminate]. apply next_fuel. intros tc rc LC. destruct (same tc TColon) eqn:SC; [|discriminate]. apply next_fuel. intros tv rv LV.
    apply same_true in SC. subst tc. destruct (lex_shorter _ _ _ LC) as [X|L1]; [discriminate|]. pose proof (suffix_length _ _ (lex_suffix _ _ _ LV)) as L2.
    assert (F : parse n tv rv <> PFuel) by (apply IV; left; lia).
    destruct (parse n tv rv) as [v0 t0 r0| | |] eqn:P; try discriminate; [|congruence]. destruct (same t0 TErr); [discriminate|]. destruct (same t0 TRBrace); [apply next_fuel; intros; apply pok_fuel|].
    destruct (same t0 TComma); [|discriminate]. apply next_fuel. intros t2 r2 L. destruct (same t2 TRBrace); [apply next_fuel; intros; apply pok_fuel|].
    destruct (parse_rest _ _ _ _ _ _ P) as [SU _]. pose proof (suffix_length _ _ SU). pose proof (suffix_length _ _ (lex_suffix _ _ _ L)) as LL. apply IM. left. lia.
Qed.
Lemma load_fuel l : load l <> NoFuel.
Proof.
  unfold load. destruct (lex l) as [t r|] eqn:L; [|discriminate].
  assert (F : parse (2 * length l + 2) t r <> PFuel).
  { apply (proj1 (enough _)). destruct (lex_shorter _ _ _ L); [right; split; [assumption|lia]|left; lia]. }
  destruct (parse _ t r); try discriminate; [|congruence]. destruct (same t0 TErr); discriminate.
Qed.

(** ** Reads and writes inside the text and the buffer *)
Definition safe (l : list Z) : Prop := forall a b, l = a ++ [92; 117] ++ b -> (3 <= length b)%nat.
Lemma safe_suffix l r : safe l -> suffix r l -> safe r.
Proof. intros S [p ->] a b E. apply (S (p ++ a)). rewrite E, <- app_assoc. reflexivity. Qed.
Lemma scan_pos l : (1 <= scan l)%nat.
Proof. destruct l as [|c l]; cbn [scan]; [lia|]. destruct (c =? 34); [lia|]. destruct (c =? 92); [destruct l; lia|lia]. Qed.
Lemma hex_plain c h : hex c = Some h -> c <> 34 /\ c <> 92.
Proof. intros H. apply (hexd_plain c h), hex_sound, H. Qed.
Lemma lex_string_safe cap : forall n l acc, (length l <= n)%nat -> safe l -> (length acc + scan l <= cap)%nat -> lex_string cap l acc <> LOut.
Proof.
  induction n as [|n IH]; intros l acc L S C.
  - destruct l; [discriminate|cbn in L; lia].
  - destruct l as [|c l]; [discriminate|]. cbn [length] in L. pose proof (scan_pos (c :: l)) as SP. assert (W : Nat.ltb (length acc) cap = true) by (apply Nat.ltb_lt; lia).
    assert (S1 : safe l) by (apply (safe_suffix _ _ S), suffix_tl).
    cbn [lex_string]. rewrite W. destruct (Z.eqb_spec c 34) as [->|N1]; [discriminate|]. destruct (Z.eqb_spec c 92) as [->|N2].
    + destruct l as [|e l]; [discriminate|]. rewrite scan_esc in C. assert (S2 : safe l) by (apply (safe_suffix _ _ S1), suffix_tl). cbn [length] in L. destruct (unescape e) as [x|].
      * apply IH; [lia|exact S2|rewrite app_length; cbn [length]; lia].
      * destruct (Z.eqb_spec e 117) as [->|N3]; [|discriminate]. pose proof (S [] l eq_refl) as LB. destruct l as [|a [|b [|d l]]]; try (cbn [length] in LB; lia). destruct l as [|f l]; [discriminate|].
        destruct (hex a) as [h1|] eqn:H1; [|discriminate]. destruct (hex b) as [h2|] eqn:H2; [|discriminate]. destruct (hex d) as [h3|] eqn:H3; [|discriminate]. destruct (hex f) as [h4|] eqn:H4; [|discriminate].
        destruct (hex_plain _ _ H1), (hex_plain _ _ H2), (hex_plain _ _ H3), (hex_plain _ _ H4). rewrite !scan_plain in C by assumption. apply IH; [cbn [length] in L; lia| |rewrite app_length; cbn [length]; lia].
        apply (safe_suffix _ _ S2). exists [a; b; d; f]. reflexivity.
    + rewrite scan_plain in C by assumption. apply IH; [lia|exact S1|rewrite app_length; cbn [length]; lia].
Qed.
Lemma lex_safe l : safe l -> lex l <> LOut.
Proof.
  intros S. unfold lex. pose proof (safe_suffix _ _ S (skip_suffix l)) as S'. destruct (skip Code l) as [|c k]; [discriminate|].
  destruct (c =? 123); [discriminate|]. destruct (c =? 125); [discriminate|]. destruct (c =? 91); [discriminate|]. destruct (c =? 93); [discriminate|]. destruct (c =? 58); [discriminate|]. destruct (c =? 44); [discriminate|].
  destruct (c =? 34).
  { apply (lex_string_safe _ (length k)); [lia|apply (safe_suffix _ _ S'), suffix_tl|cbn [length]; lia]. }
  destruct ((c =? 45) || is_digit c).
  { unfold lex_number. destruct (digits _ 0 0) as [[v m] l2]. destruct l2 as [|x l2]; [discriminate|]. destruct (x =? 46); [destruct (digits l2 0 0) as [[d q] l3]|]; discriminate. }
  assert (K : forall w t, keyword w t (c :: k) <> LOut) by (intros w t; unfold keyword; destruct (match_ w (c :: k)); discriminate).
  destruct (c =? 116); [apply K|]. destruct (c =? 102); [apply K|]. destruct (c =? 110); [apply K|]. discriminate.
Qed.
Lemma next_safe r k : safe r -> (forall t r', lex r = LTok t r' -> safe r' -> k t r' <> POut) -> next r k <> POut.
Proof.
  intros S H. unfold next. pose proof (lex_safe r S). destruct (lex r) as [t r'|] eqn:L; [|congruence]. apply H; [reflexivity|]. apply (safe_suffix _ _ S), (lex_suffix _ _ _ L).
Qed.
Lemma stays n : (forall t r, safe r -> parse n t r <> POut) /\ (forall acc t r, safe r -> elements n acc t r <> POut) /\ (forall acc t r, safe r -> members n acc t r <> POut).
Proof.
  induction n as [|n (IV & IE & IM)]; [repeat split; discriminate|]. split; [|split].
  - intros t r S. destruct t; cbn [parse]; try discriminate; apply next_safe; try assumption; intros t1 r1 L S1; try discriminate.
    + destruct (same t1 TRBrace); [apply next_safe; [exact S1|discriminate]|apply IM, S1].
    + destruct (same t1 TRBracket); [apply next_safe; [exact S1|discriminate]|apply IE, S1].
  - intros acc t r S. rewrite elements_S. pose proof (IV t r S) as F. destruct (parse n t r) as [v0 t0 r0| | |] eqn:P; try discriminate; [|congruence].
    assert (S0 : safe r0) by (apply (safe_suffix _ _ S), (parse_rest _ _ _ _ _ _ P)).
    destruct (same t0 TErr); [discriminate|]. destruct (same t0 TRBracket); [apply next_safe; [exact S0|discriminate]|]. destruct (same t0 TComma); [|discriminate].
    apply next_safe; [exact S0|]. intros t2 r2 L S2. destruct (same t2 TRBracket); [apply next_safe; [exact S2|discriminate]|apply IE, S2].
  - intros acc t r S. destruct t; try discriminate. rewrite members_S. apply next_safe; [exact S|]. intros tc rc LC SC. destruct (same tc TColon); [|discriminate]. apply next_safe; [exact SC|]. intros tv rv LV SV.
    pose proof (IV tv rv SV) as F. destruct (parse n tv rv) as [v0 t0 r0| | |] eqn:P; try discriminate; [|congruence].
    assert (S0 : safe r0) by (apply (safe_suffix _ _ SV), (parse_rest _ _ _ _ _ _ P)).
    destruct (same t0 TErr); [discriminate|]. destruct (same t0 TRBrace); [apply next_safe; [exact S0|discriminate]|]. destruct (same t0 TComma); [|discriminate].
    apply next_safe; [exact S0|]. intros t2 r2 L S2. destruct (same t2 TRBrace); [apply next_safe; [exact S2|discriminate]|apply IM, S2].
Qed.
Lemma load_safe l : safe l -> load l <> Outside.
Proof.
  intros S. unfold load. pose proof (lex_safe l S). destruct (lex l) as [t r|] eqn:L; [|congruence]. pose proof (proj1 (stays (2 * length l + 2)) t r (safe_suffix _ _ S (lex_suffix _ _ _ L))) as F.
  destruct (parse _ t r); try discriminate; [|congruence]. destruct (same t0 TErr); discriminate.
Qed.
