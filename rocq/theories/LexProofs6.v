(** Bidirectional markers and the file clean-up. *)
From Coq Require Import ZArith Bool List Lia ZifyBool.
From Verif Require Import Mach LexModel LexSpec LexProofs.
Import ListNotations.
Open Scope Z_scope.

Definition mark (a : Z) (r : list Z) : list Z :=
  match r with
  | b :: c :: _ =>
    if (a =? 226) && (b =? 128) then (if (c =? 170) || (c =? 171) || (c =? 173) || (c =? 174) then [1] else if c =? 172 then [-1] else [])
    else if (a =? 226) && (b =? 129) then (if (c =? 166) || (c =? 167) || (c =? 168) then [1] else if c =? 169 then [-1] else [])
    else []
  | _ => []
  end.
Lemma markers_cons a r : markers (a :: r) = mark a r ++ markers r. Proof. reflexivity. Qed.
Definition BalFrom (bal : Z) (ms : list Z) : Prop := (forall a b, ms = a ++ b -> 0 <= bal + sum a) /\ bal + sum ms = 0.
Lemma BalFrom_cons bal m ms : 0 <= bal -> BalFrom bal (m :: ms) <-> 0 <= bal + m /\ BalFrom (bal + m) ms.
Proof.
  intros Hb. unfold BalFrom, sum. cbn [fold_right]. split.
  - intros [H1 H2]. split; [specialize (H1 [m] ms eq_refl); cbn in H1; lia|]. split; [|lia]. intros a b ->. specialize (H1 (m :: a) b eq_refl). cbn [fold_right] in H1. lia.
  - intros [H0 [H1 H2]]. split; [|lia]. intros [|x a] b E; [cbn; lia|]. injection E as <- E. specialize (H1 a b E). cbn [fold_right]. lia.
Qed.
Lemma bidi_ok_lemma : forall t fuel bal, (length t < fuel)%nat -> Forall (fun c => c <> 0) t -> 0 <= bal -> (forall u v, t <> u ++ 226 :: 128 :: 172 :: v) ->
  exists b, bidi_loop fuel (t ++ [0]) bal = Ok b /\ (b = 0 <-> BalFrom bal (markers t)).
Proof.
  induction t as [|a t IH]; intros fuel bal Hf F Hb N; (destruct fuel as [|f]; [cbn in Hf; lia|]).
  { exists bal. split; [reflexivity|]. unfold BalFrom. cbn [markers]. split; [intros ->; split; [|reflexivity]; intros [|? ?] b E; [cbn; lia|discriminate]|]. intros [_ H]. cbn in H. lia. }
  inversion F as [|? ? Ha F']; subst. cbn [length] in Hf. cbn [bidi_loop app]. change (get (a :: t ++ [0]) 0) with (Ok a). cbn [bind tl]. replace (a =? 0) with false by lia.
  assert (N' : forall u v, t <> u ++ 226 :: 128 :: 172 :: v) by (intros u v E; apply (N (a :: u) v); rewrite E; reflexivity).
  assert (Rec : forall m, mark a t = m -> (match m with [] => True | [x] => 0 <= bal + x | _ => False end) ->
     exists b, bidi_loop f (t ++ [0]) (bal + sum m) = Ok b /\ (b = 0 <-> BalFrom bal (markers (a :: t)))).
  { intros m Em Hm. rewrite markers_cons, Em. destruct m as [|x [|? ?]]; [| |contradiction].
    - replace (bal + sum []) with bal by (cbn; lia). apply IH; [lia|assumption|assumption|assumption].
    - replace (bal + sum [x]) with (bal + x) by (cbn; lia). destruct (IH f (bal + x) ltac:(lia) F' Hm N') as (b & E & Hbb). exists b. split; [exact E|]. rewrite Hbb. cbn [app]. rewrite BalFrom_cons by exact Hb. tauto. }
  assert (Rec0 : mark a t = [] -> exists b, bidi_loop f (t ++ [0]) bal = Ok b /\ (b = 0 <-> BalFrom bal (markers (a :: t)))).
  { intros Em. destruct (Rec [] Em I) as (b & E & Hbb). exists b. split; [|exact Hbb]. rewrite <- E. f_equal. cbn. lia. }
  destruct (Z.eqb_spec a 226) as [->|Na]; cbn [negb].
  2:{ apply Rec0. unfold mark. replace (a =? 226) with false by lia. destruct t as [|? [|? ?]]; reflexivity. }
  destruct t as [|n t].
  { exists bal. split; [reflexivity|]. cbn. unfold BalFrom. split; [intros ->; split; [|reflexivity]; intros [|? ?] b E; [cbn; lia|discriminate]|]. intros [_ H]. cbn in H. lia. }
  cbn [app] in *. change (get (n :: t ++ [0]) 0) with (Ok n). cbn [bind]. inversion F' as [|? ? Hn F'']; subst. replace (n =? 0) with false by lia.
  destruct t as [|x t].
  { change (get (n :: [] ++ [0]) 1) with (Ok 0). cbn [bind]. destruct (n =? 128); [|destruct (n =? 129)]; cbn [Z.eqb Z.leb Z.compare andb] in *; apply Rec0; reflexivity. }
  cbn [app] in *. change (get (n :: x :: t ++ [0]) 1) with (Ok x). cbn [bind]. cbv zeta.
  destruct (Z.eqb_spec n 128) as [->|].
  { destruct (Z.eqb_spec x 172) as [->|]; [destruct (N [] t); reflexivity|]. cbn [andb].
    destruct ((170 <=? x) && (x <=? 174)) eqn:B.
    - specialize (Rec [1]). replace (bal + sum [1]) with (bal + 1) in Rec by (cbn; lia). apply Rec; [|lia]. unfold mark. cbn [Z.eqb Pos.eqb andb]. replace ((x =? 170) || (x =? 171) || (x =? 173) || (x =? 174)) with true by lia. reflexivity.
    - apply Rec0. unfold mark. cbn [Z.eqb Pos.eqb andb]. replace ((x =? 170) || (x =? 171) || (x =? 173) || (x =? 174)) with false by lia. replace (x =? 172) with false by lia. reflexivity. }
  destruct (Z.eqb_spec n 129) as [->|].
  { destruct ((166 <=? x) && (x <=? 168)) eqn:B.
    - specialize (Rec [1]). replace (bal + sum [1]) with (bal + 1) in Rec by (cbn; lia). apply Rec; [|lia]. unfold mark. cbn [Z.eqb Pos.eqb andb]. replace ((x =? 166) || (x =? 167) || (x =? 168)) with true by lia. reflexivity.
    - assert (Em : mark 226 (129 :: x :: t) = if x =? 169 then [-1] else []). { unfold mark. cbn [Z.eqb Pos.eqb andb]. replace ((x =? 166) || (x =? 167) || (x =? 168)) with false by lia. reflexivity. }
      destruct (x =? 169); [|apply Rec0; exact Em]. destruct (bal - 1 <? 0) eqn:B2.
      + exists (bal - 1). split; [reflexivity|]. rewrite markers_cons, Em. cbn [app]. rewrite BalFrom_cons by exact Hb. lia.
      + specialize (Rec [-1]). replace (bal + sum [-1]) with (bal - 1) in Rec by (cbn; lia). apply Rec; [exact Em|lia]. }
  apply Rec0. unfold mark. cbn [Z.eqb Pos.eqb andb]. replace (n =? 128) with false by lia. replace (n =? 129) with false by lia. reflexivity.
Qed.

Lemma nocr_cons c s : nocr (c :: s) = (if c =? 13 then [] else [c]) ++ nocr s. Proof. unfold nocr. cbn [filter]. destruct (c =? 13); reflexivity. Qed.
(** The buffer holds the text kept so far, then bytes no longer needed, then the text still to be read. *)
Lemma clean_loop_ok : forall s fuel kept gap z, (length s < fuel)%nat -> zlen kept + zlen gap + zlen s < 2 ^ 63 ->
  exists gap', clean_loop fuel (kept ++ gap ++ s ++ [z]) (zlen kept + zlen gap + zlen s) (zlen gap) (zlen kept) = Ok ((kept ++ nocr s) ++ gap' ++ [z], zlen gap') /\
    zlen (kept ++ nocr s) + zlen gap' = zlen kept + zlen gap + zlen s.
Proof.
  induction s as [|c s IH]; intros fuel kept gap z Hf Hz; (destruct fuel as [|f]; [cbn in Hf; lia|]); cbn [clean_loop]; pose proof (zlen_nonneg kept); pose proof (zlen_nonneg gap).
  - change (zlen (@nil Z)) with 0 in *. replace (zlen kept <? zlen kept + zlen gap + 0 - zlen gap) with false by lia. exists gap. cbn [nocr filter app]. rewrite app_nil_r. split; [reflexivity|lia].
  - rewrite zlen_cons in *. pose proof (zlen_nonneg s). replace (zlen kept <? zlen kept + zlen gap + (1 + zlen s) - zlen gap) with true by lia.
    replace (kept ++ gap ++ (c :: s) ++ [z]) with ((kept ++ gap) ++ c :: (s ++ [z])) by (rewrite <- app_assoc; reflexivity). rewrite get_app by (rewrite zlen_app; lia). cbn [bind].
    cbn [length] in Hf. rewrite nocr_cons. destruct (Z.eqb_spec c 13) as [->|Hc].
    + replace (((zlen kept - 1) mod 2 ^ 64 + 1) mod 2 ^ 64) with (zlen kept).
      2:{ rewrite Z.add_mod_idemp_l by lia. replace (zlen kept - 1 + 1) with (zlen kept) by lia. symmetry. apply Z.mod_small. lia. }
      destruct (IH f kept (gap ++ [13]) z ltac:(lia) ltac:(rewrite zlen_app; change (zlen [13]) with 1; lia)) as (gap' & E & Hl). exists gap'.
      rewrite !zlen_app in Hl. rewrite zlen_app in E. change (zlen [13]) with 1 in E, Hl.
      replace (zlen kept + zlen gap + (1 + zlen s)) with (zlen kept + (zlen gap + 1) + zlen s) by lia.
      replace ((kept ++ gap) ++ 13 :: s ++ [z]) with (kept ++ (gap ++ [13]) ++ s ++ [z]) by (rewrite <- !app_assoc; reflexivity). rewrite E. split; [reflexivity|cbn [app]; rewrite zlen_app; lia].
    + destruct gap as [|g gap].
      * change (zlen (@nil Z)) with 0 in *. change (0 =? 0) with true. cbv iota. cbn [bind]. rewrite app_nil_r.
        destruct (IH f (kept ++ [c]) [] z ltac:(lia) ltac:(rewrite zlen_app; change (zlen [c]) with 1; change (zlen (@nil Z)) with 0; lia)) as (gap' & E & Hl). exists gap'.
        rewrite !zlen_app in E, Hl. change (zlen [c]) with 1 in E, Hl. change (zlen (@nil Z)) with 0 in E, Hl. cbn [app] in E.
        replace (zlen kept + 0 + (1 + zlen s)) with (zlen kept + 1 + 0 + zlen s) by lia. rewrite <- app_assoc in E. cbn [app] in E. rewrite E. rewrite <- !app_assoc. split; [reflexivity|]. rewrite !zlen_app in *. change (zlen [c]) with 1 in *. lia.
      * replace (zlen (g :: gap) =? 0) with false by (rewrite zlen_cons in *; pose proof (zlen_nonneg gap); lia).
        replace ((kept ++ g :: gap) ++ c :: s ++ [z]) with (kept ++ g :: (gap ++ c :: s ++ [z])) by (rewrite <- !app_assoc; reflexivity). rewrite set_app by reflexivity. cbn [bind].
        destruct (IH f (kept ++ [c]) (gap ++ [c]) z ltac:(lia) ltac:(rewrite !zlen_app; rewrite zlen_cons in Hz; change (zlen [c]) with 1; lia)) as (gap' & E & Hl). exists gap'.
        rewrite !zlen_app in E, Hl. change (zlen [c]) with 1 in E, Hl. rewrite zlen_cons in *.
        replace (zlen kept + (1 + zlen gap) + (1 + zlen s)) with (zlen kept + 1 + (zlen gap + 1) + zlen s) by lia. replace (1 + zlen gap) with (zlen gap + 1) by lia.
        replace (kept ++ c :: gap ++ c :: s ++ [z]) with ((kept ++ [c]) ++ (gap ++ [c]) ++ s ++ [z]) by (rewrite <- !app_assoc; reflexivity). rewrite E. rewrite <- !app_assoc. split; [reflexivity|]. rewrite !zlen_app in *. change (zlen [c]) with 1 in *. lia.
Qed.

(** What the clean-up should keep: everything but a leading byte-order mark and the carriage returns. *)
Lemma clean_buffer_ok fuel s : (length s < fuel)%nat -> zlen s < 2 ^ 63 -> hd 0 s <> 255 -> hd 0 (tl s) <> 254 ->
  exists rest, clean_buffer fuel (s ++ [0]) (zlen s) = Ok (Some (nocr (no_bom s) ++ 0 :: rest, zlen (nocr (no_bom s)))).
Proof.
  intros Hf Hz H0 H1. unfold clean_buffer.
  destruct s as [|a s]; [exists []; reflexivity|].
  cbn [hd tl] in *. rewrite zlen_cons in *. pose proof (zlen_nonneg s). replace (1 + zlen s =? 0) with false by lia.
  change (get ((a :: s) ++ [0]) 0) with (Ok a). cbn [bind].
  assert (G1 : get ((a :: s) ++ [0]) 1 = Ok (hd 0 s)) by (destruct s; reflexivity). rewrite G1. cbn [bind].
  replace ((a =? 255) || (hd 0 s =? 254)) with false by lia.
  assert (End : forall k gap u, a :: s = gap ++ u -> zlen gap = k -> exists rest, bind (clean_loop fuel ((a :: s) ++ [0]) (1 + zlen s) k 0)
     (fun p => let '(buf, offset) := p in buf <- set buf (1 + zlen s - offset) 0 ;; Ok (Some (buf, 1 + zlen s - offset))) = Ok (Some (nocr u ++ 0 :: rest, zlen (nocr u)))).
  { intros k gap u Ea Ek. assert (zlen gap + zlen u = 1 + zlen s) by (rewrite <- zlen_app, <- Ea; apply zlen_cons).
    assert (length gap + length u = length (a :: s))%nat by (rewrite <- app_length, <- Ea; reflexivity).
    destruct (clean_loop_ok u fuel [] gap 0 ltac:(lia) ltac:(change (zlen (@nil Z)) with 0; lia)) as (gap' & E & Hl).
    rewrite Ea, <- app_assoc. change (zlen (@nil Z)) with 0 in E, Hl. rewrite Ek in E. replace (0 + k + zlen u) with (1 + zlen s) in E by lia. cbn [app] in E, Hl. rewrite E. cbn [bind].
    replace (1 + zlen s - zlen gap') with (zlen (nocr u)) by lia.
    assert (exists g r, gap' ++ [0] = g :: r) as (g & r & ->) by (destruct gap'; [exists 0, []|eexists; eexists]; reflexivity).
    rewrite set_app by reflexivity. cbn [bind]. exists r. reflexivity. }
  destruct ((a =? 239) && (hd 0 s =? 187)) eqn:B.
  - destruct s as [|b s]; [cbn in B; lia|]. cbn [hd] in *.
    assert (G2 : get ((a :: b :: s) ++ [0]) 2 = Ok (hd 0 s)) by (destruct s; reflexivity). rewrite G2. cbn [bind].
    destruct (hd 0 s =? 191) eqn:B2.
    + destruct s as [|c s]; [cbn in B2; lia|]. cbn [hd] in *. assert (a = 239) by lia. assert (b = 187) by lia. assert (c = 191) by lia. subst. apply (End 3 [239; 187; 191] s); reflexivity.
    + replace (no_bom (a :: b :: s)) with (a :: b :: s); [apply (End 0 []); reflexivity|]. unfold no_bom. destruct s as [|c s]; [reflexivity|]. cbn [hd] in *. replace (c =? 191) with false by lia. rewrite andb_false_r. reflexivity.
  - cbn [bind]. replace (no_bom (a :: s)) with (a :: s); [apply (End 0 []); reflexivity|]. unfold no_bom. destruct s as [|b [|c s]]; [reflexivity|reflexivity|]. cbn [hd] in *. rewrite B. reflexivity.
Qed.
