(** What a finite map is: a bag of associations; an operation on a key acts on the association with that key, if there is one. *)
From Coq Require Import ZArith Bool List Permutation.
From Verif Require Import Mach MapModel.
Import ListNotations.
Open Scope Z_scope.

(** [eqk] is an equality, and the hash is a 32-bit number that does not tell equal keys apart. *)
Definition good_hash {K} (eqk : K -> K -> bool) (hash : K -> Z) : Prop :=
  (forall k, 0 <= hash k < 2 ^ 32) /\ (forall a b, eqk a b = true -> hash a = hash b).

Section Spec.
Context {K V : Type}.
Variable eqk : K -> K -> bool.
Variable eqv : V -> V -> bool.

Inductive mop := MSet (k : K) (v : V) | MGet (k : K) | MHas (k : K) | MRemove (k : K) | MClear | MLen | MKeys | MValues | MHasValue (v : V)
               | MGetOrSet (k : K) (v : V) | MEach.
Inductive mout := OUnit | OBool (b : bool) | OVal (v : option V) | ONum (n : Z) | OKeys (l : list K) | OVals (l : list V) | OPairs (l : list (K * V)).

Definition absent (k : K) (m : list (K * V)) : Prop := forall k' v, In (k', v) m -> eqk k k' = false.
(** [m] is the association of [k] with [v] and the associations [r]. *)
Definition has (k k' : K) (v : V) (m r : list (K * V)) : Prop := Permutation m ((k', v) :: r) /\ eqk k k' = true.

Inductive mstep : list (K * V) -> mop -> mout -> list (K * V) -> Prop :=
| s_set_old m k k' v v0 r : has k k' v0 m r -> mstep m (MSet k v) (OBool true) ((k', v) :: r)
| s_set_new m k v : absent k m -> mstep m (MSet k v) (OBool false) ((k, v) :: m)
| s_get m k k' v r : has k k' v m r -> mstep m (MGet k) (OVal (Some v)) m
| s_get_none m k : absent k m -> mstep m (MGet k) (OVal None) m
| s_has m k k' v r : has k k' v m r -> mstep m (MHas k) (OBool true) m
| s_has_none m k : absent k m -> mstep m (MHas k) (OBool false) m
| s_remove m k k' v r : has k k' v m r -> mstep m (MRemove k) (OBool true) r
| s_remove_none m k : absent k m -> mstep m (MRemove k) (OBool false) m
| s_clear m : mstep m MClear OUnit []
| s_len m : mstep m MLen (ONum (zlen m)) m
| s_keys m l : Permutation l (map fst m) -> mstep m MKeys (OKeys l) m
| s_values m l : Permutation l (map snd m) -> mstep m MValues (OVals l) m
| s_has_value m v : mstep m (MHasValue v) (OBool (existsb (eqv v) (map snd m))) m
| s_gos m k k' v v0 r : has k k' v0 m r -> mstep m (MGetOrSet k v) (OVal (Some v0)) m
| s_gos_new m k v : absent k m -> mstep m (MGetOrSet k v) (OVal (Some v)) ((k, v) :: m)
| s_each m l : Permutation l m -> mstep m MEach (OPairs l) m.
Inductive mrun : list (K * V) -> list mop -> list mout -> list (K * V) -> Prop :=
| r_nil m : mrun m [] [] m
| r_cons m o v m1 os vs m2 : mstep m o v m1 -> mrun m1 os vs m2 -> mrun m (o :: os) (v :: vs) m2.

(** The operations of the model. *)
Variable hash : K -> Z.
Variable thr : Z -> Z.
Definition pair_of (e : entry K V) : K * V := (ekey e, eval e).
Definition m_step (s : map_ K V) (o : mop) : Res (mout * map_ K V) :=
  match o with
  | MSet k v => '(b, s) <- set_ eqk hash thr s k v ;; Ok (OBool b, s)
  | MGet k => r <- get_ref eqk hash s k ;; Ok (OVal r, s)
  | MHas k => b <- has_key eqk hash s k ;; Ok (OBool b, s)
  | MRemove k => '(b, s) <- remove eqk hash s k ;; Ok (OBool b, s)
  | MClear => Ok (OUnit, clear s)
  | MLen => Ok (ONum (count s), s)
  | MKeys => l <- fill ekey s ;; Ok (OKeys l, s)
  | MValues => l <- fill eval s ;; Ok (OVals l, s)
  | MHasValue v => Ok (OBool (has_value eqv s v), s)
  | MGetOrSet k v => '(v, s) <- get_or_set eqk hash thr s k v ;; Ok (OVal (Some v), s)
  | MEach => Ok (OPairs (map pair_of (each s)), s)
  end.
Fixpoint m_run (s : map_ K V) (os : list mop) : Res (list mout * map_ K V) :=
  match os with
  | [] => Ok ([], s)
  | o :: t => '(v, s) <- m_step s o ;; '(vs, s) <- m_run s t ;; Ok (v :: vs, s)
  end.
End Spec.
Arguments mop K V : clear implicits.
Arguments mout K V : clear implicits.
