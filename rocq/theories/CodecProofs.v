(** Proofs about base64, base32 and hex. *)
From Coq Require Import ZArith Bool List Lia ZifyBool.
From Verif Require Import Mach ListAux CodecModel CodecSpec.
Import ListNotations.
Open Scope Z_scope.

(** ** Bit strings *)
Lemma number_app bs b : number (bs ++ [b]) = 2 * number bs + Z.b2z b.
Proof. unfold number. rewrite fold_left_app. reflexivity. Qed.
Lemma bits_length k v : length (bits k v) = k.
Proof. induction k; cbn [bits length]; congruence. Qed.
Lemma bits_snoc k v : bits (S k) v = bits k (v / 2) ++ [Z.odd v].
Proof.
  induction k as [|k IH].
  - cbn [bits app]. rewrite <- Z.bit0_odd. reflexivity.
  - change (bits (S (S k)) v) with (Z.testbit v (Z.of_nat (S k)) :: bits (S k) v). rewrite IH. cbn [bits app]. f_equal.
    rewrite Z.div2_bits by lia. f_equal. lia.
Qed.
Lemma number_bits k : forall v, number (bits k v) = v mod 2 ^ Z.of_nat k.
Proof.
  induction k as [|k IH]; intros v.
  - cbn. rewrite Z.mod_1_r. reflexivity.
  - rewrite bits_snoc, number_app, IH. rewrite Nat2Z.inj_succ, Z.pow_succ_r by lia.
    rewrite Z.rem_mul_r by lia. rewrite Zmod_odd. destruct (Z.odd v); cbn [Z.b2z]; lia.
Qed.
Lemma number_eq k bs v : bits k v = bs -> 0 <= v < 2 ^ Z.of_nat k -> number bs = v.
Proof. intros <- H. rewrite number_bits. apply Z.mod_small, H. Qed.
Lemma bits_number bs : bits (length bs) (number bs) = bs.
Proof.
  induction bs as [|b bs IH] using rev_ind; [reflexivity|].
  rewrite app_length. cbn [length]. rewrite Nat.add_1_r, bits_snoc, number_app.
  replace ((2 * number bs + Z.b2z b) / 2) with (number bs) by (destruct b; cbn [Z.b2z]; [rewrite (Z.add_comm _ 1), Z.mul_comm, Z.div_add by lia; reflexivity|rewrite Z.add_0_r, Z.mul_comm, Z.div_mul by lia; reflexivity]).
  rewrite IH. f_equal. f_equal. rewrite Z.odd_add, Z.odd_mul. destruct b; reflexivity.
Qed.
Lemma bits_number' k bs : length bs = k -> bits k (number bs) = bs.
Proof. intros <-. apply bits_number. Qed.
Lemma number_range bs : 0 <= number bs < 2 ^ Z.of_nat (length bs).
Proof.
  assert (E : number bs = number bs mod 2 ^ Z.of_nat (length bs)) by (rewrite <- number_bits, bits_number; reflexivity).
  rewrite E. apply Z.mod_pos_bound. lia.
Qed.
Lemma bit_string_app k a b : bit_string k (a ++ b) = bit_string k a ++ bit_string k b.
Proof. apply flat_map_app. Qed.
Lemma bit_string_length k l : length (bit_string k l) = (length l * k)%nat.
Proof. unfold bit_string. induction l; cbn [flat_map length]; [reflexivity|]. rewrite app_length, bits_length, IHl. lia. Qed.

(** ** Cutting *)
Lemma cut_fuel k fill : (0 < k)%nat -> forall f f' bs, (length bs <= f)%nat -> (length bs <= f')%nat -> cut f k fill bs = cut f' k fill bs.
Proof.
  intros Hk. induction f as [|f IH]; intros [|f'] bs H H'; try (destruct bs; [reflexivity|cbn [length] in *; lia]).
  destruct bs as [|b bs]; [reflexivity|]. cbn [cut]. destruct (Nat.leb_spec k (length (b :: bs))); [|reflexivity].
  f_equal. apply IH; rewrite skipn_length; cbn [length] in *; lia.
Qed.
Lemma cut_more k fill a b : (0 < k)%nat -> length a = k -> cut (length (a ++ b)) k fill (a ++ b) = number a :: cut (length b) k fill b.
Proof.
  intros Hk Ha. destruct a as [|x a]; [cbn in Ha; lia|]. destruct (length ((x :: a) ++ b)) eqn:E; [discriminate|].
  cbn [cut app]. assert (Hl : length (x :: a ++ b) = S n) by exact E.
  replace (k <=? length (x :: a ++ b))%nat with true by (rewrite Hl; rewrite app_length in E; symmetry; apply Nat.leb_le; lia).
  change (x :: a ++ b) with ((x :: a) ++ b). rewrite firstn_app_len, skipn_app_len by (symmetry; exact Ha). f_equal.
  rewrite app_length in E. apply cut_fuel; [assumption|lia|lia].
Qed.
Lemma digits_more k a b : (0 < k)%nat -> length a = k -> digits k (a ++ b) = number a :: digits k b.
Proof. apply cut_more. Qed.
Lemma whole_more k a b : (0 < k)%nat -> length a = k -> whole k (a ++ b) = number a :: whole k b.
Proof. apply cut_more. Qed.
Lemma whole_none k bs : (length bs < k)%nat -> whole k bs = [].
Proof.
  intros H. unfold whole. destruct bs as [|b bs]; [reflexivity|]. cbn [length cut].
  replace (k <=? S (length bs))%nat with false by (symmetry; apply Nat.leb_gt; cbn [length] in H; lia). reflexivity.
Qed.
Lemma digits_nil k : digits k [] = []. Proof. reflexivity. Qed.
Lemma digits_last k bs : bs <> [] -> (length bs < k)%nat -> digits k bs = [number (bs ++ repeat false (k - length bs))].
Proof.
  intros H Hl. unfold digits. destruct bs as [|b bs]; [congruence|]. cbn [length cut].
  replace (k <=? S (length bs))%nat with false by (symmetry; apply Nat.leb_gt; cbn [length] in Hl; lia). reflexivity.
Qed.
Lemma split_bits (bs : list bool) n : (n <= length bs)%nat -> exists a b, bs = a ++ b /\ length a = n.
Proof. intros H. exists (firstn n bs), (skipn n bs). split; [symmetry; apply firstn_skipn|]. rewrite firstn_length. lia. Qed.

(** Digits of whole bytes. *)
Lemma whole_bits x b : Forall is_byte x -> (length b < 8)%nat -> whole 8 (bit_string 8 x ++ b) = x.
Proof.
  intros Hx Hb. induction Hx as [|v x Hv Hx IH].
  - cbn [bit_string flat_map app]. apply whole_none, Hb.
  - change (bit_string 8 (v :: x)) with (bits 8 v ++ bit_string 8 x). rewrite <- app_assoc, whole_more, IH by (rewrite ?bits_length; lia).
    f_equal. rewrite number_bits. apply Z.mod_small. exact Hv.
Qed.
(** The digits of a bit string spell it, with fewer than [k] zeros after it. *)
Lemma digits_spell k : (0 < k)%nat -> forall n bs, (length bs <= n)%nat -> exists z, (z < k)%nat /\ bit_string k (digits k bs) = bs ++ repeat false z
   /\ Forall (fun d => 0 <= d < 2 ^ Z.of_nat k) (digits k bs).
Proof.
  intros Hk. induction n as [|n IH]; intros bs Hn.
  - destruct bs; [|cbn in Hn; lia]. exists 0%nat. cbn. auto.
  - destruct (Nat.le_gt_cases k (length bs)) as [Hl|Hl].
    + destruct (split_bits bs k Hl) as (a & b & -> & Ha). rewrite app_length in Hn. destruct (IH b ltac:(lia)) as (z & Hz & E & F).
      exists z. split; [exact Hz|]. rewrite digits_more by assumption. split.
      * change (bit_string k (number a :: digits k b)) with (bits k (number a) ++ bit_string k (digits k b)).
        rewrite E, bits_number' by exact Ha. rewrite app_assoc. reflexivity.
      * constructor; [|exact F]. rewrite <- Ha. apply number_range.
    + destruct bs as [|b0 bs]; [exists 0%nat; cbn; auto|].
      set (l := b0 :: bs) in *. exists (k - length l)%nat. rewrite digits_last by (try discriminate; exact Hl).
      assert (Hlen : length (l ++ repeat false (k - length l)) = k) by (rewrite app_length, repeat_length; lia).
      split; [subst l; cbn [length] in *; lia|]. split.
      * cbn [bit_string flat_map]. rewrite bits_number' by exact Hlen. apply app_nil_r.
      * constructor; [|constructor]. pose proof (number_range (l ++ repeat false (k - length l))) as R. rewrite Hlen in R. exact R.
Qed.

(** ** The text of a byte string is a text of it *)
Lemma text_text_of k q al pad x : (0 < k < 8)%nat -> Forall is_byte x -> text_of k q al pad (text k q al pad x) x.
Proof.
  intros Hk Hx. destruct (digits_spell k ltac:(lia) _ (bit_string 8 x) (Nat.le_refl _)) as (z & Hz & E & F).
  exists (digits k (bit_string 8 x)). unfold text. rewrite map_length. split; [reflexivity|]. split; [exact F|]. split.
  - rewrite <- bit_string_length, E, app_length, bit_string_length, repeat_length.
    rewrite Nat.add_comm, Nat.mod_add, Nat.mod_small by lia. exact Hz.
  - rewrite E. symmetry. apply whole_bits; [exact Hx|]. rewrite repeat_length. lia.
Qed.

(** ** Buffers *)
Lemma set_app_at (d l : list Z) i x : 0 <= i -> set (d ++ l) (zlen d + i) x = (l' <- set l i x ;; Ok (d ++ l')).
Proof.
  intros Hi. unfold set. rewrite zlen_app. pose proof (zlen_nonneg d).
  replace ((0 <=? zlen d + i) && (zlen d + i <? zlen d + zlen l)) with ((0 <=? i) && (i <? zlen l)) by lia.
  destruct ((0 <=? i) && (i <? zlen l)) eqn:E; [|reflexivity]. cbn [bind]. f_equal.
  unfold zlen. replace (Z.to_nat (Z.of_nat (length d) + i)) with (length d + Z.to_nat i)%nat by lia.
  clear E. induction d as [|y d IH]; [reflexivity|]. cbn [app length Nat.add upd]. f_equal. apply IH. apply zlen_nonneg.
Qed.
Lemma set_0 (a : Z) l x : set (a :: l) 0 x = Ok (x :: l).
Proof. unfold set. rewrite zlen_cons. pose proof (zlen_nonneg l). replace ((0 <=? 0) && (0 <? 1 + zlen l)) with true by lia. reflexivity. Qed.
Lemma set_S (a : Z) l i x : 0 < i -> set (a :: l) i x = (l' <- set l (i - 1) x ;; Ok (a :: l')).
Proof.
  intros H. unfold set. rewrite zlen_cons. replace ((0 <=? i) && (i <? 1 + zlen l)) with ((0 <=? i - 1) && (i - 1 <? zlen l)) by lia.
  destruct ((0 <=? i - 1) && (i - 1 <? zlen l)); [|reflexivity]. cbn [bind]. f_equal.
  replace (Z.to_nat i) with (S (Z.to_nat (i - 1))) by lia. reflexivity.
Qed.
Lemma put_at d l i x p : p = zlen d -> 0 <= i -> put (d ++ l) p i x = (l' <- set l i x ;; Ok (d ++ l')).
Proof. intros -> H. unfold put. destruct (Z.ltb_spec i 0); [lia|]. apply set_app_at, H. Qed.
Lemma get_at (d l : list Z) i p : p = zlen d + i -> 0 <= i -> get (d ++ l) p = get l i.
Proof. intros -> H. rewrite get_app_r by lia. f_equal. lia. Qed.
Lemma advance_at d l p n : p = zlen d -> zlen l >= n -> advance (d ++ l) p n = Ok (p + n).
Proof. intros -> H. unfold advance. rewrite zlen_app. destruct (Z.leb_spec (zlen d + n) (zlen d + zlen l)); [reflexivity|lia]. Qed.
Lemma from_at (d l : list Z) n : n = zlen d -> from (d ++ l) n = Ok l.
Proof.
  intros ->. unfold from. rewrite zlen_app. pose proof (zlen_nonneg d). pose proof (zlen_nonneg l).
  replace ((0 <=? zlen d) && (zlen d <=? zlen d + zlen l)) with true by lia. rewrite skipn_app_len; [reflexivity|]. unfold zlen. lia.
Qed.
Lemma upto_at (d l : list Z) n : n = zlen d -> upto (d ++ l) n = Ok d.
Proof.
  intros ->. unfold upto. rewrite zlen_app. pose proof (zlen_nonneg d). pose proof (zlen_nonneg l).
  replace ((0 <=? zlen d) && (zlen d <=? zlen d + zlen l)) with true by lia. rewrite firstn_app_len; [reflexivity|]. unfold zlen. lia.
Qed.
(** One write right after what is done. *)
Ltac dpos i := let j := eval compute in i in change i with j in *.
Ltac puts :=
  repeat (rewrite put_at by (first [assumption | reflexivity | lia]);
          repeat (rewrite set_S by lia; match goal with |- context [set _ (?a - 1) _] => let j := eval compute in (a - 1) in change (a - 1) with j end);
          rewrite set_0; cbn [bind]).

(** ** Tables *)
Section Alphabet.
Context (k : nat) (al : alphabet) (G : good_alphabet k (encoding al) (reverse al)).
Notation letter := (letter (encoding al)).
Lemma enc_get d : 0 <= d < 2 ^ Z.of_nat k -> get (encoding al) d = Ok (letter d).
Proof. intros H. destruct G as (G1 & _). apply get_nth. unfold zlen. lia. Qed.
Lemma letter_in d : 0 <= d < 2 ^ Z.of_nat k -> In (letter d) (encoding al).
Proof. intros H. destruct G as (G1 & _). apply nth_In. lia. Qed.
Lemma rev_get c : is_byte c -> exists v, get (reverse al) c = Ok v
   /\ ((v = 255 /\ forall d, 0 <= d < 2 ^ Z.of_nat k -> letter d <> c) \/ (0 <= v < 2 ^ Z.of_nat k /\ c = letter v)).
Proof.
  intros Hc. destruct G as (G1 & G2 & G3 & G4). exists (nth (Z.to_nat c) (reverse al) (-1)). split.
  - apply get_nth. unfold zlen, is_byte in *. lia.
  - assert (D : (exists d, 0 <= d < 2 ^ Z.of_nat k /\ letter d = c) \/ forall d, 0 <= d < 2 ^ Z.of_nat k -> letter d <> c).
    { destruct (in_dec Z.eq_dec c (encoding al)) as [I|I].
      - left. apply (In_nth _ _ (-1)) in I. destruct I as (n & Hn & E). exists (Z.of_nat n). split; [lia|].
        unfold CodecSpec.letter. rewrite Nat2Z.id. exact E.
      - right. intros d Hd <-. apply I, letter_in, Hd. }
    destruct D as [(d & Hd & <-)|D].
    + right. destruct (G3 d Hd) as [_ ->]. auto.
    + left. split; [apply G4; assumption|exact D].
Qed.
Lemma rev_letter d : 0 <= d < 2 ^ Z.of_nat k -> get (reverse al) (letter d) = Ok d.
Proof.
  intros Hd. destruct G as (G1 & G2 & G3 & G4). destruct (G3 d Hd) as [Hb E]. rewrite <- E at 2. apply get_nth. unfold zlen, is_byte in *. lia.
Qed.
End Alphabet.
