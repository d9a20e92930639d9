(** Proofs about IPv6 texts. *)
From Coq Require Import ZArith Bool List Lia.
From Coq Require Import ZifyBool.
From Verif Require Import Word Mach InetModel InetSpec InetProofs.
Import ListNotations.
Open Scope Z_scope.
Ltac Zify.zify_post_hook ::= Z.to_euclidean_division_equations.

(** Digits. *)
Definition byte (c : Z) : Prop := 0 <= c < 256.
Lemma xdigit_spec c : byte c -> is_xdigit c = (match hex_digit c with Some _ => true | None => false end) /\ (forall d, hex_digit c = Some d -> xvalue c = d /\ 0 <= d < 16 /\ c <> 58).
Proof.
  intros H.
  assert (F : forallb (fun c => Bool.eqb (is_xdigit c) (match hex_digit c with Some _ => true | None => false end) &&
     match hex_digit c with Some d => (xvalue c =? d) && (0 <=? d) && (d <? 16) && negb (c =? 58) | None => true end) (map Z.of_nat (seq 0 256)) = true) by (vm_compute; reflexivity).
  rewrite forallb_forall in F. unfold byte in H. specialize (F c). rewrite andb_true_iff in F. destruct F as (F1 & F2).
  { apply in_map_iff. exists (Z.to_nat c). split; [lia|apply in_seq; lia]. }
  apply Bool.eqb_prop in F1. split; [exact F1|]. intros d E. rewrite E in F2. lia.
Qed.
Lemma hexes_byte c : hexes c -> byte c.
Proof. unfold hexes, hex_digit, byte. intros H. repeat match type of H with context [if ?b then _ else _] => destruct b eqn:? end; try lia; congruence. Qed.
Definition hex_from (a : Z) (l : list Z) : Z := fold_left (fun a c => a * 16 + match hex_digit c with Some d => d | None => 0 end) l a.
Lemma hexes_spec c : hexes c -> exists d, hex_digit c = Some d /\ is_xdigit c = true /\ xvalue c = d /\ 0 <= d < 16 /\ c <> 58.
Proof.
  intros H. destruct (xdigit_spec c (hexes_byte c H)) as (A & B). unfold hexes in H. destruct (hex_digit c) as [d|]; [|congruence].
  exists d. destruct (B d eq_refl) as (? & ? & ?). auto.
Qed.
Lemma hex_from_bound l : forall a, Forall hexes l -> 0 <= a -> 0 <= hex_from a l < (a + 1) * 16 ^ zlen l.
Proof.
  induction l as [|c l IH]; intros a Hl Ha; cbn [hex_from fold_left].
  - change (16 ^ zlen (@nil Z)) with 1. lia.
  - inversion Hl; subst. destruct (hexes_spec c H1) as (d & E & _ & _ & Hd & _). rewrite E. specialize (IH (a * 16 + d) H2 ltac:(lia)). unfold hex_from in IH.
    rewrite zlen_cons, Z.pow_add_r by (pose proof (zlen_nonneg l); lia). change (16 ^ 1) with 16. pose proof (Z.pow_pos_nonneg 16 (zlen l) ltac:(lia) (zlen_nonneg l)). nia.
Qed.
Lemma hex_value_small g : Forall hexes g -> (length g <= 4)%nat -> 0 <= hex_value g <= 65535.
Proof.
  intros H L. pose proof (hex_from_bound g 0 H ltac:(lia)) as B. unfold hex_from in B. fold (hex_value g) in B.
  assert (16 ^ zlen g <= 16 ^ 4) by (apply Z.pow_le_mono_r; unfold zlen; lia). change (16 ^ 4) with 65536 in *. lia.
Qed.
Lemma v6_digits zl g : forall r i lwc fz cur arr, g <> [] -> Forall hexes g -> i <= 7 -> -1 <= cur -> ((if cur <? 0 then 0 else cur) + 1) * 16 ^ zlen g <= 2 ^ 31 ->
  v6_loop zl (g ++ r) i lwc fz cur arr = v6_loop zl r i false fz (hex_from (if cur <? 0 then 0 else cur) g) arr.
Proof.
  induction g as [|c g IH]; intros r i lwc fz cur arr Hn Hg Hi Hc Hb; [congruence|]. inversion Hg; subst. destruct (hexes_spec c H1) as (d & E & Ex & Ev & Hd & Hne).
  cbn [app v6_loop]. replace (c =? 58) with false by lia. rewrite Ex, Ev. replace ((7 <? i) || negb true) with false by lia.
  rewrite zlen_cons, Z.pow_add_r in Hb by (pose proof (zlen_nonneg g); lia). change (16 ^ 1) with 16 in Hb. pose proof (Z.pow_pos_nonneg 16 (zlen g) ltac:(lia) (zlen_nonneg g)).
  set (c0 := if cur <? 0 then 0 else cur) in *. assert (H0 : 0 <= c0) by (unfold c0; destruct (cur <? 0) eqn:?; lia).
  rewrite i32_small by (change (2 ^ 31) with 2147483648 in *; nia).
  assert (K : hex_from c0 (c :: g) = hex_from (c0 * 16 + d) g) by (unfold hex_from; cbn [fold_left]; rewrite E; reflexivity). rewrite K.
  destruct g as [|c' g]; [reflexivity|]. rewrite IH; [|discriminate|assumption|assumption|lia|].
  - replace (c0 * 16 + d <? 0) with false by lia. reflexivity.
  - replace (c0 * 16 + d <? 0) with false by lia. nia.
Qed.
Lemma v6_word zl g r i lwc fz arr : g <> [] -> Forall hexes g -> (length g <= 4)%nat -> i <= 7 ->
  v6_loop zl (g ++ r) i lwc fz (-1) arr = v6_loop zl r i false fz (hex_value g) arr.
Proof.
  intros. rewrite v6_digits; auto; [lia|]. cbn [Z.ltb Z.compare]. assert (16 ^ zlen g <= 16 ^ 4) by (apply Z.pow_le_mono_r; unfold zlen; lia). change (16 ^ 4) with 65536 in *. change (2 ^ 31) with 2147483648. lia.
Qed.
(** A group that is not all digits, or one too many, ends the reading. *)
Lemma v6_bad zl g : forall r i lwc fz cur arr, Forall byte g -> Forall (fun c => c <> 58) g -> g <> [] -> ~ Forall hexes g \/ 7 < i -> v6_loop zl (g ++ r) i lwc fz cur arr = Ok None.
Proof.
  induction g as [|c g IH]; intros r i lwc fz cur arr Hb Hn He H; [congruence|].
  inversion Hb; subst. inversion Hn; subst. cbn [app v6_loop]. replace (c =? 58) with false by lia.
  destruct (Z.ltb_spec 7 i); [reflexivity|]. destruct H as [H|]; [|lia]. cbn [orb]. destruct (xdigit_spec c H2) as (A & B). rewrite A.
  destruct (hex_digit c) eqn:E; [|reflexivity]. cbn [negb]. destruct g as [|c' g].
  - exfalso. apply H. constructor; [unfold hexes; congruence|constructor].
  - apply IH; auto; [discriminate|]. left. intros K. apply H. constructor; [unfold hexes; congruence|assumption].
Qed.

(** The loop group by group. *)
Definition word (g : list Z) : Prop := Forall byte g /\ Forall (fun c => c <> 58) g /\ (Forall hexes g -> (length g <= 4)%nat).
Definition okb (g : list Z) : bool := forallb (fun c => match hex_digit c with Some _ => true | None => false end) g.
Lemma okb_spec g : okb g = true <-> Forall hexes g.
Proof.
  unfold okb. rewrite forallb_forall, Forall_forall. unfold hexes. split; intros H x Hx; specialize (H x Hx); destruct (hex_digit x); congruence.
Qed.
Fixpoint grun (zl : Z) (G : list (list Z)) (i : Z) (lwc fz : bool) (arr : list Z) : Res (option (Z * Z * list Z)) :=
  match G with
  | [] => Oob
  | g :: G' =>
    match g, G' with
    | [], [] => Ok (Some (i, -1, arr))
    | [], _ => if negb lwc then grun zl G' i true fz arr else if fz then Ok None else if zl <? 2 then Ok None else grun zl G' (i + zl) false true arr
    | _, [] => if okb g && (i <=? 7) then Ok (Some (i, hex_value g, arr)) else Ok None
    | _, _ => if okb g && (i <=? 7) then arr <- set arr i (hex_value g) ;; grun zl G' (i + 1) true fz arr else Ok None
    end
  end.
Lemma v6_grun zl G : forall i lwc fz arr, G <> [] -> Forall word G -> v6_loop zl (colon_sep G) i lwc fz (-1) arr = grun zl G i lwc fz arr.
Proof.
  induction G as [|g G IH]; intros i lwc fz arr Hn Hw; [congruence|]. inversion Hw; subst. destruct H1 as (Hb & H58 & Hs). destruct G as [|g' G].
  - cbn [colon_sep grun]. destruct g as [|c g]; [reflexivity|]. set (w := c :: g) in *. rewrite <- (app_nil_r w) at 1.
    destruct (okb w && (i <=? 7)) eqn:E.
    + rewrite andb_true_iff, okb_spec in E. rewrite v6_word; [reflexivity|discriminate|apply E|apply Hs, E|lia].
    + apply v6_bad; auto; [discriminate|]. rewrite andb_false_iff in E. destruct E as [E|E]; [left; intros K; apply okb_spec in K; congruence|right; lia].
  - change (colon_sep (g :: g' :: G)) with (g ++ 58 :: colon_sep (g' :: G)). destruct g as [|c g].
    + cbn [app v6_loop grun]. rewrite Z.eqb_refl. change (-1 =? -1) with true. cbn [negb]. destruct lwc; cbn [negb].
      * destruct fz; [reflexivity|]. destruct (zl <? 2); [reflexivity|]. apply IH; [discriminate|assumption].
      * apply IH; [discriminate|assumption].
    + set (w := c :: g) in *. change (grun zl (w :: g' :: G) i lwc fz arr) with (if okb w && (i <=? 7) then arr <- set arr i (hex_value w) ;; grun zl (g' :: G) (i + 1) true fz arr else Ok None).
      destruct (okb w && (i <=? 7)) eqn:E.
      * rewrite andb_true_iff, okb_spec in E. destruct E as (E1 & E2). pose proof (hex_value_small w E1 (Hs E1)). rewrite v6_word; [|discriminate|exact E1|apply Hs, E1|lia].
        cbn [v6_loop]. rewrite Z.eqb_refl. cbn [negb]. replace (hex_value w =? -1) with false by lia. replace ((hex_value w <? 0) || (65535 <? hex_value w)) with false by lia.
        destruct (set arr i (hex_value w)) as [arr'| |]; cbn [bind]; [|reflexivity|reflexivity]. apply IH; [discriminate|assumption].
      * rewrite andb_false_iff in E. apply v6_bad; auto; [discriminate|]. destruct E as [E|E]; [left; intros K; apply okb_spec in K; congruence|right; lia].
Qed.

(** A stretch of groups. *)
Definition filled (L : list (list Z)) : Prop := Forall (fun g => g <> [] /\ Forall hexes g /\ (length g <= 4)%nat) L.
Lemma filled_values L : filled L -> Forall2 hextet L (map hex_value L).
Proof.
  induction 1 as [|g L (Hn & Hh & Hl) _ IH]; cbn [map]; constructor; auto. repeat split; auto. destruct g; [congruence|cbn; lia].
Qed.
Lemma values_filled L vs : Forall2 hextet L vs -> filled L /\ vs = map hex_value L.
Proof.
  induction 1 as [|g v L vs ((Hl1 & Hl2) & Hh & Hv) _ (IH1 & IH2)]; [split; [constructor|reflexivity]|]. split.
  - constructor; auto. repeat split; auto. intros ->. cbn in Hl1. lia.
  - cbn [map]. congruence.
Qed.
Lemma set_zero d k i v : i = zlen d -> (0 < k)%nat -> set (d ++ repeat 0 k) i v = Ok ((d ++ [v]) ++ repeat 0 (k - 1)).
Proof. intros -> Hk. destruct k; [lia|]. cbn [repeat]. rewrite set_app by reflexivity. rewrite <- app_assoc. replace (S k - 1)%nat with k by lia. reflexivity. Qed.
Lemma grun_filled zl L : forall G i lwc fz d k, filled L -> G <> [] -> i = zlen d -> i + Z.of_nat k = 8 -> (length L <= k)%nat ->
  grun zl (L ++ G) i lwc fz (d ++ repeat 0 k) =
  grun zl G (i + zlen L) (match L with [] => lwc | _ => true end) fz ((d ++ map hex_value L) ++ repeat 0 (k - length L)).
Proof.
  induction L as [|g L IH]; intros G i lwc fz d k HL HG Hi Hk Hlen.
  - cbn [app map length]. change (zlen (@nil (list Z))) with 0. rewrite Z.add_0_r, app_nil_r, Nat.sub_0_r. reflexivity.
  - inversion HL; subst. destruct H1 as (Hn & Hh & Hl). cbn [length] in Hlen. cbn [app].
    assert (Hne : L ++ G <> []) by (destruct L; [assumption|discriminate]).
    assert (E : grun zl (g :: L ++ G) (zlen d) lwc fz (d ++ repeat 0 k) = (arr <- set (d ++ repeat 0 k) (zlen d) (hex_value g) ;; grun zl (L ++ G) (zlen d + 1) true fz arr)).
    { cbn [grun]. destruct g as [|c g]; [congruence|]. destruct (L ++ G) eqn:EL; [congruence|]. apply okb_spec in Hh. rewrite Hh. replace (zlen d <=? 7) with true by lia. reflexivity. }
    rewrite E, set_zero by (auto; lia). cbn [bind]. rewrite (IH G (zlen d + 1) true fz (d ++ [hex_value g]) (k - 1)%nat); auto; [|rewrite zlen_app; reflexivity|lia|lia].
    cbn [map length]. rewrite zlen_cons, <- (app_assoc d). cbn [app]. replace (match L with [] => true | _ => true end) with true by (destruct L; reflexivity).
    replace (k - 1 - length L)%nat with (k - S (length L))%nat by lia. rewrite Z.add_assoc. reflexivity.
Qed.
Lemma grun_filled_inv zl L : forall G i lwc fz d k res, Forall (fun g => g <> [] /\ word g) L -> G <> [] -> i = zlen d -> i + Z.of_nat k = 8 ->
  grun zl (L ++ G) i lwc fz (d ++ repeat 0 k) = Ok (Some res) -> filled L /\ (length L <= k)%nat.
Proof.
  induction L as [|g L IH]; intros G i lwc fz d k res HL HG Hi Hk H; [split; [constructor|cbn; lia]|].
  inversion HL; subst. destruct H2 as (Hn & Hb & H58 & Hs). cbn [app] in H.
  assert (Hne : L ++ G <> []) by (destruct L; [assumption|discriminate]).
  assert (E : grun zl (g :: L ++ G) (zlen d) lwc fz (d ++ repeat 0 k) = (if okb g && (zlen d <=? 7) then arr <- set (d ++ repeat 0 k) (zlen d) (hex_value g) ;; grun zl (L ++ G) (zlen d + 1) true fz arr else Ok None)).
  { cbn [grun]. destruct g as [|c g]; [congruence|]. destruct (L ++ G) eqn:EL; [congruence|]. reflexivity. }
  rewrite E in H. destruct (okb g && (zlen d <=? 7)) eqn:F; [|discriminate]. rewrite andb_true_iff, okb_spec in F. destruct F as (F1 & F2).
  rewrite set_zero in H by (auto; lia). cbn [bind] in H. apply IH in H; auto; [|rewrite zlen_app; reflexivity|lia].
  destruct H as (A & B). split; [constructor; auto|cbn [length]; lia].
Qed.

(** Texts as lists of groups. *)
Lemma split_colons s : exists G, s = colon_sep G /\ G <> [] /\ Forall (fun g => Forall (fun c => c <> 58) g) G.
Proof.
  induction s as [|c s (G & -> & Hn & HG)]; [exists [[]]; repeat split; [discriminate|repeat constructor]|].
  destruct (Z.eq_dec c 58) as [->|Hc].
  - exists ([] :: G). destruct G; [congruence|]. repeat split; [discriminate|]. constructor; [constructor|assumption].
  - destruct G as [|g G]; [congruence|]. exists ((c :: g) :: G). inversion HG; subst. repeat split; [destruct G; reflexivity|discriminate|]. constructor; [constructor; assumption|assumption].
Qed.
Lemma colon_sep_app A B : A <> [] -> B <> [] -> colon_sep (A ++ B) = colon_sep A ++ 58 :: colon_sep B.
Proof.
  intros HA HB. induction A as [|a A IH]; [congruence|]. destruct A as [|a' A].
  - cbn [app]. destruct B; [congruence|]. reflexivity.
  - change ((a :: a' :: A) ++ B) with (a :: (a' :: A) ++ B). change (colon_sep (a :: a' :: A)) with (a ++ 58 :: colon_sep (a' :: A)). rewrite <- app_assoc. cbn [app].
    rewrite <- IH by discriminate. reflexivity.
Qed.
Lemma colons_app a b : colons (a ++ b) = colons a + colons b.
Proof. unfold colons. rewrite filter_app, zlen_app. reflexivity. Qed.
Lemma colons_none g : Forall (fun c => c <> 58) g -> colons g = 0.
Proof. induction 1 as [|c g Hc _ IH]; [reflexivity|]. unfold colons in *. cbn [filter]. replace (58 =? c) with false by lia. exact IH. Qed.
Lemma colons_sep G : G <> [] -> Forall (fun g => Forall (fun c => c <> 58) g) G -> colons (colon_sep G) = zlen G - 1.
Proof.
  induction G as [|g G IH]; intros Hn HG; [congruence|]. inversion HG; subst. destruct G as [|g' G].
  - cbn [colon_sep]. rewrite colons_none by assumption. reflexivity.
  - change (colon_sep (g :: g' :: G)) with (g ++ [58] ++ colon_sep (g' :: G)). rewrite !colons_app, IH, colons_none by (auto; discriminate). rewrite !zlen_cons. change (colons [58]) with 1. lia.
Qed.
Lemma filled_no_colon L : filled L -> Forall (fun g => Forall (fun c => c <> 58) g) L.
Proof. apply Forall_impl. intros g (_ & H & _). revert H. apply Forall_impl. intros c Hc. destruct (hexes_spec c Hc) as (? & ? & ? & ? & ? & ?). assumption. Qed.
Lemma filled_word L : filled L -> Forall word L.
Proof.
  apply Forall_impl. intros g (_ & H & Hl). repeat split; auto; revert H; apply Forall_impl; intros c Hc; [apply hexes_byte; assumption|].
  destruct (hexes_spec c Hc) as (? & ? & ? & ? & ? & ?). assumption.
Qed.
Lemma word_nil : word []. Proof. split; [constructor|split; [constructor|cbn; lia]]. Qed.
(** The first and the last byte. *)
Definition first58 (G : list (list Z)) : bool := match G with [] :: _ :: _ => true | _ => false end.
Definition last58 (G : list (list Z)) : bool := match rev G with [] :: _ :: _ => true | _ => false end.
Lemma first_spec G : G <> [] -> Forall (fun g => Forall (fun c => c <> 58) g) G -> 2 <= zlen (colon_sep G) -> exists c, get (colon_sep G) 0 = Ok c /\ (c =? 58) = first58 G.
Proof.
  intros Hn HG Hl. destruct G as [|g G]; [congruence|]. inversion HG; subst. destruct g as [|c g].
  - destruct G as [|g' G]; [cbn in Hl; lia|]. exists 58. split; reflexivity.
  - exists c. split; [destruct G; reflexivity|]. inversion H1; subst. cbn [first58]. lia.
Qed.
Lemma last_spec G : G <> [] -> Forall (fun g => Forall (fun c => c <> 58) g) G -> 2 <= zlen (colon_sep G) -> exists c, get (colon_sep G) (zlen (colon_sep G) - 1) = Ok c /\ (c =? 58) = last58 G.
Proof.
  intros Hn HG Hl. destruct (exists_last Hn) as (A & g & ->). apply Forall_app in HG. destruct HG as (_ & Hg). inversion Hg; subst. unfold last58. rewrite rev_app_distr. cbn [rev app].
  destruct A as [|a A].
  - cbn [app colon_sep] in *. destruct g as [|c0 g0] eqn:Eg; [cbn in Hl; lia|]. rewrite <- Eg in *. assert (Hg0 : g <> []) by (subst g; discriminate). destruct (exists_last Hg0) as (x & c & Ex). rewrite Ex in *.
    exists c. apply Forall_app in H1. destruct H1 as (_ & H1). inversion H1; subst. split; [|destruct x; cbn; lia].
    rewrite zlen_app. change (zlen [c]) with 1. apply get_app. lia.
  - rewrite colon_sep_app in * by discriminate. assert (Hr : rev (a :: A) <> []) by (intros K; apply (f_equal (@length _)) in K; rewrite rev_length in K; discriminate K).
    destruct (rev (a :: A)) as [|y Y]; [congruence|]. destruct g as [|c0 g0] eqn:Eg.
    + exists 58. split; [|reflexivity]. cbn [colon_sep] in *. rewrite zlen_app, zlen_cons. change (zlen (@nil Z)) with 0. apply get_app. lia.
    + rewrite <- Eg in *. assert (Hg0 : g <> []) by (subst g; discriminate). cbn [colon_sep]. destruct (exists_last Hg0) as (x & c & Ex). rewrite Ex in *.
      exists c. apply Forall_app in H1. destruct H1 as (_ & H1). inversion H1; subst. split.
      * change (58 :: x ++ [c]) with ((58 :: x) ++ [c]). rewrite app_assoc. rewrite (zlen_app _ [c]). change (zlen [c]) with 1. apply get_app. lia.
      * destruct x; cbn; lia.
Qed.
