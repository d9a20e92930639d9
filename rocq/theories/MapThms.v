(** C38: HashMap. *)
From Coq Require Import ZArith Bool List Lia ZifyBool Permutation.
From Verif Require Import Mach ListAux MapModel MapSpec MapProofs.
Import ListNotations.
Open Scope Z_scope.

(** Over any history, from an uninitialised map or one initialised with any capacity, for any hash function consistent with the
    equality and any resize policy, every answer is the answer of a finite map.
    Missing: the use of a map after [free] (below). *)
Theorem C38_map_partial : forall K V (eqk : K -> K -> bool) (eqv : V -> V -> bool) hash thr os c,
  good_hash eqk hash -> zlen os < 2 ^ 32 -> 0 < c < 2 ^ 31 ->
  (exists vs s m, m_run eqk eqv hash thr blank os = Ok (vs, s) /\ mrun eqk eqv [] os vs m /\ count s = zlen m /\ Permutation (map pair_of (each s)) m) /\
  (exists s0 vs s m, init thr blank c = Ok s0 /\ m_run eqk eqv hash thr s0 os = Ok (vs, s) /\ mrun eqk eqv [] os vs m /\ count s = zlen m /\ Permutation (map pair_of (each s)) m).
Proof.
  intros K V eqk eqv hash thr os c GH Hb Hc. split.
  - destruct (history eqk hash thr GH eqv os blank [] (rep_blank hash)) as (vs & s & m & E & R & M); [exact Hb|].
    exists vs, s, m. split; [exact E|]. split; [exact M|]. split; [apply R|]. exact (entries_ok hash s m R).
  - destruct (init_ok (K := K) (V := V) hash thr c Hc) as (s0 & E0 & R0 & _).
    destruct (history eqk hash thr GH eqv os s0 [] R0) as (vs & s & m & E & R & M); [exact Hb|].
    exists s0, vs, s, m. split; [exact E0|]. split; [exact E|]. split; [exact M|]. split; [apply R|]. exact (entries_ok hash s m R).
Qed.
Print Assumptions C38_map_partial.
(** An iterator gives, for any indices below the length asked in any order, the association at that place of one fixed listing of the map. *)
Theorem C38_iterator : forall K V (eqk : K -> K -> bool) (eqv : V -> V -> bool) hash thr os vs s is fuel,
  good_hash eqk hash -> zlen os < 2 ^ 32 -> m_run eqk eqv hash thr blank os = Ok (vs, s) ->
  Forall (fun i => 0 <= i < count s) is -> 2 * zlen (table s) + count s < Z.of_nat fuel ->
  exists es m, iter_all fuel s iter_start is = Ok es /\ Forall2 (fun i e => get m i = Ok e) is es /\ m = each s.
Proof.
  intros K V eqk eqv hash thr os vs s is fuel GH Hb E F Hf.
  destruct (history eqk hash thr GH eqv os blank [] (rep_blank hash)) as (vs' & s' & m & E' & R & M); [exact Hb|]. rewrite E in E'. injection E' as <- <-.
  assert (C : count s = zlen m) by apply R. rewrite C in *. destruct is as [|i is].
  - exists [], (each s). split; [reflexivity|]. split; [constructor|reflexivity].
  - destruct (iter_all_ok hash fuel s m R Hf (i :: is) iter_start (or_introl eq_refl) F) as (es & E1 & F1). exists es, (each s). split; [exact E1|]. split; [|reflexivity].
    inversion F; subst. unfold each. destruct (Z.eqb_spec (count s) 0); [lia|]. exact F1.
Qed.
Print Assumptions C38_iterator.
(** A copy of a map has the same associations. *)
Theorem C38_copy : forall K V (eqk : K -> K -> bool) (eqv : V -> V -> bool) hash thr os vs s,
  good_hash eqk hash -> (forall a b, eqk a b = eqk b a) -> zlen os < 2 ^ 32 -> m_run eqk eqv hash thr blank os = Ok (vs, s) ->
  inited s = true -> zlen (table s) < 2 ^ 31 ->
  exists s', init_from_map eqk hash thr s = Ok s' /\ count s' = count s /\ Permutation (map pair_of (each s')) (map pair_of (each s)).
Proof.
  intros K V eqk eqv hash thr os vs s GH sym Hb E I Ht.
  destruct (history eqk hash thr GH eqv os blank [] (rep_blank hash)) as (vs' & s' & m & E' & R & M); [exact Hb|]. rewrite E in E'. injection E' as <- <-.
  assert (D : distinct eqk m) by (apply (mrun_distinct eqk eqv sym _ _ _ _ M); exact Logic.I).
  assert (Hm : zlen m < 2 ^ 32).
  { clear - M Hb. assert (X : zlen m <= zlen (@nil (K * V)) + zlen os); [|rewrite zlen_nil in X; lia]. clear Hb. induction M as [|m0 o v m1 os vs m2 S M IH]; [rewrite zlen_nil; lia|].
    rewrite zlen_cons. assert (zlen m1 <= zlen m0 + 1); [|lia]. clear - S. pose proof (zlen_nonneg m0).
    destruct S; try lia; rewrite ?zlen_cons, ?zlen_nil; try lia; destruct H0 as (P & _); apply Permutation_length in P; unfold zlen; cbn [length] in *; lia. }
  destruct (copy_ok eqk hash thr sym s m R D Hm I Ht) as (s' & E1 & R1). exists s'. split; [exact E1|]. split.
  - destruct R as (_ & -> & _), R1 as (_ & -> & _). reflexivity.
  - rewrite (entries_ok hash s' m R1), (entries_ok hash s m R). apply Permutation_refl.
Qed.
Print Assumptions C38_copy.
(** After [free] the allocator is still set, so [set] does not initialise the map again and reads outside the empty table. *)
Theorem C38_free_refuted : exists s, set_ Z.eqb (fun k => k mod 2 ^ 32) (fun c => c * 3 / 4) blank 1 10 = Ok (false, s) /\
  set_ Z.eqb (fun k => k mod 2 ^ 32) (fun c => c * 3 / 4) (free s) 1 10 = Oob.
Proof. eexists. split; [vm_compute; reflexivity|]. vm_compute. reflexivity. Qed.
Print Assumptions C38_free_refuted.
Example C38_ex : good_hash Z.eqb (fun k => k mod 2 ^ 32) /\ (forall a b, Z.eqb a b = Z.eqb b a) /\ exists vs s,
  m_run Z.eqb Z.eqb (fun k => k mod 2 ^ 32) (fun c => c * 3 / 4) blank (map (fun k => MSet k (k * k)) [1; 2; 3; 17; 33; 49; 65; 81; 97; 113; 129; 145; 161; 177] ++ [MSet 33 0; MGet 33; MRemove 17; MGet 17; MGetOrSet 5 7; MLen]) = Ok (vs, s) /\
  skipn 14 vs = [OBool true; OVal (Some 0); OBool true; OVal None; OVal (Some 7); ONum 14] /\ zlen (table s) = 32 /\ inited s = true.
Proof.
  split; [split; [intros; apply Z.mod_pos_bound; lia|intros a b H; apply Z.eqb_eq in H; subst; reflexivity]|]. split; [apply Z.eqb_sym|].
  eexists _, _. split; [vm_compute; reflexivity|]. split; [vm_compute; reflexivity|]. split; vm_compute; reflexivity.
Qed.
