(** Formats as rows of items, each printed as its own text. *)
From Coq Require Import String Ascii ZArith List Bool Lia ZifyBool.
From Verif Require Import LexSpec StrSpec FmtSpec DateModel DateSpec DfmtModel DfmtSpec.
From Verif Require FmtModel FmtThms DateProofs DateProofs2 DateThms.
Import ListNotations.
Local Open Scope Z_scope.
Local Open Scope list_scope.

(** ** Numerals *)
Lemma digit_ok v : 0 <= v < 10 -> digit_is 10 (48 + v) v.
Proof. unfold digit_is. lia. Qed.
Lemma casing_digits l : Forall (fun c => 48 <= c <= 57) l -> casing false l.
Proof. intros H. unfold casing. refine (Forall_impl _ _ H). intros c Hc Hx. cbv beta in *. lia. Qed.
Lemma numeral_1 n : 0 <= n < 10 -> Numeral 10 false n [48 + n].
Proof.
  intros H. split; [|split; [apply casing_digits; repeat constructor; lia|split; [discriminate|intros r E; injection E as _ <-; reflexivity]]].
  replace n with (0 * 10 + n) at 2 by ring. exact (Number_snoc (digit_is 10) 10 [] 0 (48 + n) n (Number_nil _ _) (digit_ok n H)).
Qed.
Lemma numeral_more n ds v : 0 < n -> Numeral 10 false n ds -> 0 <= v < 10 -> Numeral 10 false (10 * n + v) (ds ++ [48 + v]).
Proof.
  intros Hn (N & C & E & L) Hv. split; [|split; [|split]].
  - replace (10 * n + v) with (n * 10 + v) by ring. apply Number_snoc; [exact N|now apply digit_ok].
  - unfold casing in *. apply Forall_app. split; [exact C|]. constructor; [intros Hx; lia|constructor].
  - destruct ds; discriminate.
  - intros r Er. destruct ds as [|c ds]; [congruence|]. cbn [app] in Er. injection Er as -> Er. assert (ds = []) by now apply L. subst ds. exfalso.
    assert (Z0 : n = 0). { inversion N as [|ds' n0 c0 v0 N0 D0 E0 E1]. destruct ds' as [|a ds']; [|destruct ds'; discriminate E0]. cbn [app] in E0. injection E0 as ->. inversion N0 as [|ds2 ? ? ? ? ? E2]; subst; [unfold digit_is in D0; lia|destruct ds2; discriminate E2]. }
    lia.
Qed.
Lemma numeral_2 n : 10 <= n < 100 -> Numeral 10 false n (two n).
Proof.
  intros H. unfold two. pose proof (Z.div_mod n 10 ltac:(lia)) as E. pose proof (Z.mod_pos_bound n 10 ltac:(lia)) as B. rewrite E at 1.
  change [48 + n / 10; 48 + n mod 10] with ([48 + n / 10] ++ [48 + n mod 10]). apply numeral_more; [lia|apply numeral_1; lia|exact B].
Qed.
Lemma numeral_4 n : 1000 <= n < 10000 -> Numeral 10 false n (four n).
Proof.
  intros H. pose proof (Z.div_mod n 100 ltac:(lia)) as E. pose proof (Z.mod_pos_bound n 100 ltac:(lia)) as B. set (a := n / 100) in *. set (r := n mod 100) in *.
  pose proof (Z.div_mod r 10 ltac:(lia)) as E2. pose proof (Z.mod_pos_bound r 10 ltac:(lia)) as B2. unfold four. fold a r. unfold two at 2.
  replace n with (10 * (10 * a + r / 10) + r mod 10) by lia. change (two a ++ [48 + r / 10; 48 + r mod 10]) with (two a ++ ([48 + r / 10] ++ [48 + r mod 10])). rewrite app_assoc.
  apply numeral_more; [lia| |exact B2]. apply numeral_more; [lia| |lia]. apply numeral_2. lia.
Qed.
Lemma numeral_6 n : 100000 <= n < 1000000 -> Numeral 10 false n (six n).
Proof.
  intros H. pose proof (Z.div_mod n 10000 ltac:(lia)) as E. pose proof (Z.mod_pos_bound n 10000 ltac:(lia)) as B. set (a := n / 10000) in *. set (r := n mod 10000) in *.
  pose proof (Z.div_mod r 100 ltac:(lia)) as E1. pose proof (Z.mod_pos_bound r 100 ltac:(lia)) as B1. set (p := r / 100) in *. set (q := r mod 100) in *.
  pose proof (Z.div_mod p 10 ltac:(lia)) as E2. pose proof (Z.mod_pos_bound p 10 ltac:(lia)) as B2. pose proof (Z.div_mod q 10 ltac:(lia)) as E3. pose proof (Z.mod_pos_bound q 10 ltac:(lia)) as B3.
  unfold six, four. fold a r. fold p q. unfold two at 2 3.
  replace n with (10 * (10 * (10 * (10 * a + p / 10) + p mod 10) + q / 10) + q mod 10) by lia.
  change (two a ++ [48 + p / 10; 48 + p mod 10] ++ [48 + q / 10; 48 + q mod 10]) with (two a ++ ([48 + p / 10] ++ ([48 + p mod 10] ++ ([48 + q / 10] ++ [48 + q mod 10])))). rewrite !app_assoc.
  apply numeral_more; [lia| |exact B3]. apply numeral_more; [lia| |lia]. apply numeral_more; [lia| |exact B2]. apply numeral_more; [lia| |lia]. apply numeral_2. lia.
Qed.

(** ** Directives *)
Lemma dir_int h s b n ds : left h = false -> prec h = None -> alt h = false -> Numeral 10 false (Z.abs n) ds -> len (number h 10 false n ds) <= 256 ->
  exists m, Directive h 100 (AInt s b n) (padded h (number h 10 false n ds)) m.
Proof.
  intros Hl Hp Ha Hn Hb. eexists. apply (D_int h 100 10 false s b n ds); change (adapt 100 h) with h.
  - reflexivity.
  - unfold OwnDigits. rewrite Hp. exact Hn.
  - rewrite Hl. discriminate.
  - unfold prefix. rewrite Ha. cbn [andb]. intros E. now destruct E.
  - unfold number. intros E. apply app_eq_nil in E. destruct E as [_ E]. apply app_eq_nil in E. destruct E as [_ E]. apply app_eq_nil in E. destruct E as [_ E]. destruct Hn as (_ & _ & N & _). contradiction.
  - exact Hb.
Qed.
Definition plain_sign h n : (n <? 0) = false -> plus h = false -> space h = false -> sign h 10 n = [].
Proof. intros E P S. unfold sign. rewrite E, P, S. reflexivity. Qed.
Lemma number_plain h n ds : (n <? 0) = false -> plus h = false -> space h = false -> alt h = false -> number h 10 false n ds = repeat 48 (Z.to_nat (fill h [] [] ds)) ++ ds.
Proof. intros E P S A. unfold number. rewrite plain_sign by assumption. unfold prefix. rewrite A. reflexivity. Qed.
Ltac directive n ds :=
  match goal with |- exists m, Directive ?h 100 (AInt ?s ?b _) ?t m =>
    let H := fresh in assert (H : padded h (number h 10 false n ds) = t /\ len (number h 10 false n ds) <= 256); [rewrite number_plain by (try reflexivity; lia)|let H1 := fresh in let H2 := fresh in destruct H as [H1 H2]; rewrite <- H1; apply dir_int; [reflexivity|reflexivity|reflexivity| |exact H2]]
  end.
Lemma dir_02 s b n : 0 <= n < 100 -> exists m, Directive (how_of [48] 2 None) 100 (AInt s b n) (two n) m.
Proof.
  intros H. destruct (Z.lt_ge_cases n 10) as [L|L].
  - assert (E : two n = [48; 48 + n]) by (unfold two; rewrite Z.div_small, Z.mod_small by lia; reflexivity). rewrite E.
    directive n [48 + n]; [split; [reflexivity|vm_compute; discriminate]|]. rewrite Z.abs_eq by lia. apply numeral_1. lia.
  - directive n (two n); [split; [reflexivity|vm_compute; discriminate]|]. rewrite Z.abs_eq by lia. apply numeral_2. lia.
Qed.
Lemma dir_2 s b n : 0 <= n < 100 -> exists m, Directive (how_of [] 2 None) 100 (AInt s b n) (spaced n) m.
Proof.
  intros H. unfold spaced. destruct (n <? 10) eqn:L.
  - directive n [48 + n]; [split; [reflexivity|vm_compute; discriminate]|]. rewrite Z.abs_eq by lia. apply numeral_1. lia.
  - directive n (two n); [split; [reflexivity|vm_compute; discriminate]|]. rewrite Z.abs_eq by lia. apply numeral_2. lia.
Qed.
Lemma dir_04 s b n : 1000 <= n < 10000 -> exists m, Directive (how_of [48] 4 None) 100 (AInt s b n) (four n) m.
Proof. intros H. directive n (four n); [split; [reflexivity|vm_compute; discriminate]|]. rewrite Z.abs_eq by lia. apply numeral_4. lia. Qed.
Lemma dir_4 s b n : 1000 <= n < 10000 -> exists m, Directive (how_of [] 0 None) 100 (AInt s b n) (four n) m.
Proof. intros H. directive n (four n); [split; [reflexivity|vm_compute; discriminate]|]. rewrite Z.abs_eq by lia. apply numeral_4. lia. Qed.
Lemma dir_6 s b n : 100000 <= n < 1000000 -> exists m, Directive (how_of [] 0 None) 100 (AInt s b n) (six n) m.
Proof. intros H. directive n (six n); [split; [reflexivity|vm_compute; discriminate]|]. rewrite Z.abs_eq by lia. apply numeral_6. lia. Qed.
Lemma dir_sign s b n : -100 < n < 100 -> exists m, Directive (how_of [43; 48] 3 None) 100 (AInt s b n) ((if n <? 0 then [45] else [43]) ++ two (Z.abs n)) m.
Proof.
  intros H. set (h := how_of [43; 48] 3 None). set (sg := if n <? 0 then [45] else [43]).
  assert (Es : sign h 10 n = sg) by (unfold sign, sg; destruct (n <? 0); reflexivity).
  assert (En : forall ds, number h 10 false n ds = sg ++ [] ++ repeat 48 (Z.to_nat (fill h sg [] ds)) ++ ds) by (intros ds; unfold number; rewrite Es; reflexivity).
  destruct (Z.lt_ge_cases (Z.abs n) 10) as [L|L].
  - assert (E : two (Z.abs n) = [48; 48 + Z.abs n]) by (unfold two; rewrite Z.div_small, Z.mod_small by lia; reflexivity). rewrite E.
    assert (A : padded h (number h 10 false n [48 + Z.abs n]) = sg ++ [48; 48 + Z.abs n]) by (rewrite En; unfold sg; destruct (n <? 0); reflexivity). rewrite <- A.
    apply dir_int; try reflexivity; [apply numeral_1; lia|rewrite En; unfold sg; destruct (n <? 0); vm_compute; discriminate].
  - assert (A : padded h (number h 10 false n (two (Z.abs n))) = sg ++ two (Z.abs n)) by (rewrite En; unfold sg; destruct (n <? 0); reflexivity). rewrite <- A.
    apply dir_int; try reflexivity; [apply numeral_2; lia|rewrite En; unfold sg; destruct (n <? 0); vm_compute; discriminate].
Qed.

(** ** Items *)
Inductive item := Lit (c : Z) | Str (t : list Z) | Two (s : bool) (b n : Z) | Spaced (s : bool) (b n : Z) | Four (s : bool) (b n : Z) | Year (s : bool) (b n : Z) | Six (s : bool) (b n : Z) | Signed (s : bool) (b n : Z).
Definition piece_of (i : item) : piece :=
  match i with
  | Lit c => Byte c | Str _ => Dir [] Nothing None 115 | Two _ _ _ => Dir [48] (Digits [50]) None 100 | Spaced _ _ _ => Dir [] (Digits [50]) None 100
  | Four _ _ _ => Dir [48] (Digits [52]) None 100 | Year _ _ _ | Six _ _ _ => Dir [] Nothing None 100 | Signed _ _ _ => Dir [43; 48] (Digits [51]) None 100
  end.
Definition args_of (i : item) : list arg :=
  match i with Lit _ => [] | Str t => [AStr t] | Two s b n | Spaced s b n | Four s b n | Year s b n | Six s b n | Signed s b n => [AInt s b n] end.
Definition text_of (i : item) : list Z :=
  match i with
  | Lit c => [c] | Str t => t | Two _ _ n => two n | Spaced _ _ n => spaced n | Four _ _ n | Year _ _ n => four n | Six _ _ n => six n
  | Signed _ _ n => (if n <? 0 then [45] else [43]) ++ two (Z.abs n)
  end.
Definition ok (i : item) : Prop :=
  match i with
  | Lit c => c <> 37 | Str _ => True | Two _ _ n | Spaced _ _ n => 0 <= n < 100 | Four _ _ n | Year _ _ n => 1000 <= n < 10000
  | Six _ _ n => 100000 <= n < 1000000 | Signed _ _ n => -100 < n < 100
  end.
Lemma wf_item i : ok i -> wf (piece_of i).
Proof.
  assert (D : forall fs w, Forall is_flag fs -> wf_field w -> (forall ds, w = Digits (48 :: ds) -> False) -> wf (Dir fs w None 100)) by (intros fs w A B C; split; [exact A|]; split; [exact B|]; split; [exact C|]; split; [exact I|cbn; tauto]).
  assert (Fd : forall c, 48 <= c <= 57 -> wf_field (Digits [c])) by (intros c Hc; split; [discriminate|constructor; [exact Hc|constructor]]).
  assert (Fl : is_flag 48 /\ is_flag 43) by (split; cbn; tauto).
  destruct i; cbn [ok piece_of]; intros H; try exact H; try (apply D; [repeat constructor; tauto|try apply Fd; try exact I; lia|intros ds E; discriminate E]).
  split; [constructor|]. split; [exact I|]. split; [intros ds E; discriminate E|]. split; [exact I|cbn; tauto].
Qed.
Lemma items_print l : Forall ok l -> exists m, Prints (map piece_of l) (flat_map args_of l) (flat_map text_of l) m.
Proof.
  intros H. induction H as [|i l Hi Hl (m & IH)]; [exists 0; constructor|].
  assert (D : forall fs w wv s b n t, piece_of i = Dir fs w None 100 -> args_of i = [AInt s b n] -> text_of i = t -> (forall args, Field w args wv args) ->
    (exists m, Directive (how_of fs wv None) 100 (AInt s b n) t m) -> exists m, Prints (map piece_of (i :: l)) (flat_map args_of (i :: l)) (flat_map text_of (i :: l)) m).
  { intros fs w wv s b n t Ep Ea Et HF (k & HD). exists (k + m). cbn [map flat_map]. rewrite Ep, Ea, Et. cbn [app]. eapply Prints_dir; [apply HF|exact HD|exact IH]. }
  assert (F : forall c, 48 <= c <= 57 -> forall args, Field (Digits [c]) args (c - 48) args).
  { intros c Hc args. assert (E : value [c] = c - 48) by (unfold value; cbn [fold_left]; lia). rewrite <- E. apply Field_digits. rewrite E. lia. }
  destruct i as [c|t|s b n|s b n|s b n|s b n|s b n|s b n]; cbn [ok] in Hi.
  - exists m. cbn. now constructor.
  - exists (0 + m). cbn [map flat_map piece_of args_of text_of app].
    assert (Ep : t = padded (how_of [] 0 None) t).
    { unfold padded, gap. replace (Z.to_nat (width (how_of [] 0 None) - len t)) with O; [reflexivity|]. change (width (how_of [] 0 None)) with 0. unfold len. lia. }
    rewrite Ep at 2. eapply Prints_dir; [constructor|apply D_str; [reflexivity|constructor]|exact IH].
  - eapply (D [48] (Digits [50]) 2); [reflexivity|reflexivity|reflexivity|exact (F 50 ltac:(lia))|now apply dir_02].
  - eapply (D [] (Digits [50]) 2); [reflexivity|reflexivity|reflexivity|exact (F 50 ltac:(lia))|now apply dir_2].
  - eapply (D [48] (Digits [52]) 4); [reflexivity|reflexivity|reflexivity|exact (F 52 ltac:(lia))|now apply dir_04].
  - eapply (D [] Nothing 0); [reflexivity|reflexivity|reflexivity|constructor|now apply dir_4].
  - eapply (D [] Nothing 0); [reflexivity|reflexivity|reflexivity|constructor|now apply dir_6].
  - eapply (D [43; 48] (Digits [51]) 3); [reflexivity|reflexivity|reflexivity|exact (F 51 ltac:(lia))|now apply dir_sign].
Qed.
Lemma items_text s args l : Forall ok l -> FmtModel.lit s = concat (map spell (map piece_of l)) -> args = flat_map args_of l -> text s args = flat_map text_of l.
Proof.
  intros H Es ->. destruct (items_print l H) as (m & P). unfold text. rewrite Es. apply (FmtThms.C108_text_partial _ _ _ m); [|exact P].
  apply Forall_map. eapply Forall_impl; [|exact H]. intros i. apply wf_item.
Qed.
