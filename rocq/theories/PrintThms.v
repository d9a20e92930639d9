(** C177: printing sets, maps and paths. *)
From Coq Require Import ZArith Bool List Lia ZifyBool.
From Verif Require Import Mach PrintModel PrintSpec PrintProofs.
Import ListNotations.
Local Open Scope Z_scope.

(** C177: printing an EnumSet, an EnumMap or a Path writes its text; if the output does not take it all, a prefix of it is written and there is a fault. *)
Theorem C177_text : (forall values, writes (set_to_format values) (set_text values)) /\ (forall entries, writes (map_to_format entries) (map_text entries)) /\
  (forall path, writes (path_to_format path) path).
Proof.
  split; [|split].
  - intros v. exact (does_writes _ _ _ (does_set v)).
  - intros e. exact (does_writes _ _ _ (does_map e)).
  - intros p. exact (does_writes _ _ _ (does_print 0 p)).
Qed.
Example C177_text_ex : idx (init 20) = 0 /\ 0 <= room (init 20) /\
  set_to_format [([65], true); ([66], false); ([67], true)] (init 20) = (Some 2, Formatter [91; 65; 44; 32; 67; 93] 14 0) /\
  map_to_format [([65], [49]); ([66], [50])] (init 9) = (None, Formatter [123; 32; 65; 58; 32; 49; 44; 32; 66] 0 0).
Proof. repeat split; cbn; lia. Qed.
Print Assumptions C177_text.

(** What is returned: only the bytes of the names, or names and values, are counted, and nothing of a path.
    Missing: the number of bytes written, which it should be (below). *)
Theorem C177_count_partial : (forall values, returns (set_to_format values) (total (map fst (filter snd values)))) /\
  (forall entries, returns (map_to_format entries) (total (map (fun e => fst e ++ [58; 32] ++ snd e) entries))) /\
  (forall path, returns (path_to_format path) 0).
Proof.
  split; [|split].
  - intros v. exact (does_returns _ _ _ (does_set v)).
  - intros e. exact (does_returns _ _ _ (does_map e)).
  - intros p. exact (does_returns _ _ _ (does_print 0 p)).
Qed.
Print Assumptions C177_count_partial.

(** The number of bytes written is returned for no set, no map, and no path but the empty one. *)
Theorem C177_count_refuted : (forall values, ~ returns (set_to_format values) (zlen (set_text values))) /\
  (forall entries, ~ returns (map_to_format entries) (zlen (map_text entries))) /\
  (forall path, path <> [] -> ~ returns (path_to_format path) (zlen path)).
Proof.
  assert (G : forall m t v, does 0 m t v -> returns m (zlen t) -> v = zlen t).
  { intros m t v D R. apply (R (init (zlen t)) v); [reflexivity | apply zlen_nonneg|]. rewrite D by (try reflexivity; apply zlen_nonneg). cbn [room init]. rewrite Z.leb_refl. reflexivity. }
  assert (C : forall l, total l <= zlen (commas l)).
  { induction l as [|x [|y l] IH]; [reflexivity | cbn; lia|]. cbn [commas]. rewrite !zlen_app. cbn [total fold_right] in *. change (zlen [44; 32]) with 2. cbn [commas] in IH. unfold total in IH. cbn [fold_right] in IH. lia. }
  split; [|split].
  - intros v R. apply (G _ _ _ (does_set v)) in R. pose proof (C (map fst (filter snd v))) as H. unfold set_text in R. rewrite !zlen_app in R. change (zlen [91]) with 1 in R. change (zlen [93]) with 1 in R. lia.
  - intros e R. apply (G _ _ _ (does_map e)) in R. pose proof (C (map entry e)) as H. unfold map_text in R. fold entry in R. rewrite !zlen_app in R. change (zlen [123; 32]) with 2 in R. change (zlen [32; 125]) with 2 in R. lia.
  - intros p N R. apply (G _ _ _ (does_print 0 p)) in R. destruct p; [contradiction|]. rewrite zlen_cons in R. pose proof (zlen_nonneg p). lia.
Qed.
Print Assumptions C177_count_refuted.
