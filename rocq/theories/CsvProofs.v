(** Proofs about reading rows. *)
From Coq Require Import ZArith Bool List Lia ZifyBool.
From Verif Require Import Mach StrModel StrSpec StrProofs IoModel IoSpec IoProofs IoProofs2 IoProofs3 CsvModel CsvSpec.
Import ListNotations.
Local Open Scope Z_scope.

Lemma read_line : forall l cr more p, ~ In 10 l -> ~ In 13 l -> readline (Src (l ++ line_end cr ++ more) p) = (Got l, Src more p).
Proof.
  intros l cr more p N1 N2. rewrite readline_ok. cbn [rest plan]. unfold line_end.
  assert (F : first_line (l ++ (if cr then [13; 10] else [10])%Z ++ more) = (l, more)).
  { induction l as [|c l IH]; [destruct cr; reflexivity|]. cbn [app first_line]. rewrite IH; [|intros X; apply N1; right; exact X|intros X; apply N2; right; exact X].
    destruct (Z.eqb_spec c 10) as [->|]; [exfalso; apply N1; left; reflexivity|]. destruct (Z.eqb_spec c 13) as [->|]; [exfalso; apply N2; left; reflexivity|reflexivity]. }
  destruct (l ++ (if cr then [13; 10] else [10])%Z ++ more) eqn:E; [destruct l, cr; discriminate|]. rewrite F. reflexivity.
Qed.
Lemma split_cut : forall d s, d <> [] -> zlen s < 2 ^ 63 -> exists ps, Cut d s ps /\ split s d 0 false = Ok ps.
Proof. intros d s D L. destruct (split_ok s d 0 false D L ltac:(lia)) as (ps & C & E). exists ps. split; [exact C|]. rewrite E. reflexivity. Qed.
Lemma text_cons : forall l cr t, text_of ((l, cr) :: t) = l ++ line_end cr ++ text_of t.
Proof. intros l cr t. unfold text_of. cbn [map concat fst snd]. rewrite app_assoc. reflexivity. Qed.
Lemma each_row_ok : forall d lines p max, d <> [] -> Forall plain lines -> 0 <= max < 2 ^ 31 -> exists rows, cut_at d lines rows /\
  forall fuel, (length lines < fuel)%nat -> each_row fuel (Src (text_of lines) p) d max = Ok (firstn (Z.to_nat max) rows, None, Src (text_of (skipn (Z.to_nat max) lines)) p).
Proof.
  intros d lines. induction lines as [|[l cr] t IH]; intros p max D P M.
  - exists []. split; [constructor|]. intros [|fuel] F; [cbn in F; lia|]. cbn [each_row]. rewrite firstn_nil, skipn_nil. destruct (max =? 0); [reflexivity|].
    rewrite readline_ok. reflexivity.
  - inversion P as [|? ? (N1 & N2 & L) P']; subst. cbn [fst] in *. destruct (split_cut d l D L) as (ps & C & E).
    destruct (Z.eqb_spec max 0) as [-> | N].
    + destruct (IH p 0 D P' M) as (rows & R & _). exists (ps :: rows). split; [constructor; assumption|].
      intros [|fuel] F; [cbn in F; lia|]. reflexivity.
    + destruct (IH p (max - 1) D P' ltac:(lia)) as (rows & R & G). exists (ps :: rows). split; [constructor; assumption|].
      intros [|fuel] F; [cbn in F; lia|]. cbn [each_row]. destruct (Z.eqb_spec max 0); [lia|]. rewrite text_cons, read_line by assumption. rewrite E. cbn [bind].
      replace ((max - 1 + 2 ^ 31) mod 2 ^ 32 - 2 ^ 31) with (max - 1) by (rewrite Z.mod_small; lia).
      rewrite G by (cbn in F; lia). cbn [bind]. replace (Z.to_nat max) with (S (Z.to_nat (max - 1))) by lia. reflexivity.
Qed.
Lemma read_row_ok : forall d l cr more p, d <> [] -> plain (l, cr) -> exists ps, Cut d l ps /\
  read_row (Src (l ++ line_end cr ++ more) p) d = Ok (Got (CsvRow ps l (cr || negb (zlen l =? 0))), Src more p).
Proof.
  intros d l cr more p D (N1 & N2 & L). cbn [fst] in *. destruct (split_cut d l D L) as (ps & C & E). exists ps. split; [exact C|].
  unfold read_row. rewrite read_line, E by assumption. cbn [bind]. repeat f_equal. unfold constant_line. cbn [rest].
  destruct l as [|c l]; [destruct cr; reflexivity|]. cbn [app]. rewrite zlen_cons. pose proof (zlen_nonneg l).
  assert (c <> 10) by (intros ->; apply N1; left; reflexivity). destruct cr; lia.
Qed.
