(** Model of lib/std/collections/hashmap.c3.
    A chain of entries is a list (the [next] pointers are not modelled separately; LinkedModel.v models pointers), the table
    an array of chains.  [count] is a 32-bit number.  Simplifications: allocation succeeds; the conversion
    [(uint)(capacity * load_factor)] is an arbitrary function [thr] of the capacity, so every load factor is covered;
    copying keys ([COPY_KEYS]) gives an equal key. *)
From Coq Require Import ZArith Bool List.
From Verif Require Import Mach.
Import ListNotations.
Open Scope Z_scope.

Section MapModel.
Context {K V : Type}.
Variable eqk : K -> K -> bool.      (* equals on keys *)
Variable hash : K -> Z.             (* key.hash(), a 32-bit number *)
Variable thr : Z -> Z.              (* (uint)(capacity * load_factor) *)

(** hashmap.c3:21-27 *)
Record entry := ent { ehash : Z; ekey : K; eval : V }.
(** hashmap.c3:29-36 *)
Record map_ := mkmap { table : list (list entry); count : Z; threshold : Z; inited : bool }.
Definition w32 (x : Z) : Z := x mod 2 ^ 32.
Definition MAXIMUM_CAPACITY : Z := 2 ^ 31.

(** hashmap.c3:569-573 *)
Definition rehash (h : Z) : Z :=
  let h := Z.lxor h (Z.lxor (Z.shiftr h 20) (Z.shiftr h 12)) in
  Z.lxor h (Z.lxor (Z.shiftr h 7) (Z.shiftr h 4)).
(** hashmap.c3:575-578 *)
Definition index_for (h capacity : Z) : Z := Z.land h (w32 (capacity - 1)).
(** math.c3:969-974 on uint *)
Fixpoint np2 (fuel : nat) (y x : Z) : Res Z :=
  match fuel with O => Fuel | S f => if y <? x then np2 f (w32 (y + y)) x else Ok y end.
(** hashmap.c3:46-54, with its contract *)
Definition init (s : map_) (capacity : Z) : Res map_ :=
  if inited s || (capacity <=? 0) || (MAXIMUM_CAPACITY <=? capacity) then Oob else
  c <- np2 40 1 capacity ;;
  Ok (mkmap (repeat [] (Z.to_nat c)) (count s) (thr c) true).
Definition blank : map_ := mkmap [] 0 0 false.

(** The test [e.hash == hash && equals(key, e.key)] *)
Definition hit (h : Z) (k : K) (e : entry) : bool := (ehash e =? h) && eqk k (ekey e).
(** hashmap.c3:168-190: the search loop of get_ref and get_entry *)
Definition get_ref (s : map_) (k : K) : Res (option V) :=
  if count s =? 0 then Ok None else
  let h := rehash (hash k) in
  b <- get (table s) (index_for h (zlen (table s))) ;;
  Ok (option_map eval (find (hit h k) b)).
(** hashmap.c3:222-225 *)
Definition has_key (s : map_) (k : K) : Res bool := o <- get_ref s k ;; Ok (match o with Some _ => true | None => false end).
(** hashmap.c3:427-443: transfer: each entry goes to the front of its new chain *)
Definition transfer_entry (new_table : list (list entry)) (e : entry) : Res (list (list entry)) :=
  let i := index_for (ehash e) (zlen new_table) in
  b <- get new_table i ;; set new_table i (e :: b).
Fixpoint transfer_chain (es : list entry) (new_table : list (list entry)) : Res (list (list entry)) :=
  match es with [] => Ok new_table | e :: t => n <- transfer_entry new_table e ;; transfer_chain t n end.
Fixpoint transfer (src : list (list entry)) (new_table : list (list entry)) : Res (list (list entry)) :=
  match src with [] => Ok new_table | b :: t => n <- transfer_chain b new_table ;; transfer t n end.
(** hashmap.c3:399-413 *)
Definition resize (s : map_) (new_capacity : Z) : Res map_ :=
  if zlen (table s) =? MAXIMUM_CAPACITY then Ok (mkmap (table s) (count s) (2 ^ 32 - 1) (inited s)) else
  n <- transfer (table s) (repeat [] (Z.to_nat new_capacity)) ;;
  Ok (mkmap n (count s) (thr new_capacity) (inited s)).
(** hashmap.c3:386-397 *)
Definition add_entry (s : map_) (h : Z) (k : K) (v : V) (i : Z) : Res map_ :=
  b <- get (table s) i ;;
  t <- set (table s) i (ent h k v :: b) ;;
  let old := count s in
  let s := mkmap t (w32 (count s + 1)) (threshold s) (inited s) in
  if threshold s <=? old then resize s (w32 (zlen (table s) * 2)) else Ok s.
(** The loop of [set] that overwrites the value of the first hit. *)
Fixpoint replace_first (h : Z) (k : K) (v : V) (b : list entry) : option (list entry) :=
  match b with
  | [] => None
  | e :: t => if hit h k e then Some (ent (ehash e) (ekey e) v :: t) else option_map (cons e) (replace_first h k v t)
  end.
(** hashmap.c3:227-253 *)
Definition set_ (s : map_) (k : K) (v : V) : Res (bool * map_) :=
  s <- (if inited s then Ok s else init s 16) ;;
  let h := rehash (hash k) in
  let i := index_for h (zlen (table s)) in
  b <- get (table s) i ;;
  match replace_first h k v b with
  | Some b => t <- set (table s) i b ;; Ok (true, mkmap t (count s) (threshold s) (inited s))
  | None => s <- add_entry s h k v i ;; Ok (false, s)
  end.
(** hashmap.c3:196-215 *)
Definition get_or_set (s : map_) (k : K) (v : V) : Res (V * map_) :=
  if count s =? 0 then ('(_, s) <- set_ s k v ;; Ok (v, s)) else
  let h := rehash (hash k) in
  let i := index_for h (zlen (table s)) in
  b <- get (table s) i ;;
  match find (hit h k) b with
  | Some e => Ok (eval e, s)
  | None => s <- add_entry s h k v i ;; Ok (v, s)
  end.
Fixpoint remove_first (h : Z) (k : K) (b : list entry) : option (list entry) :=
  match b with [] => None | e :: t => if hit h k e then Some t else option_map (cons e) (remove_first h k t) end.
(** hashmap.c3:255-258, 478-507 *)
Definition remove (s : map_) (k : K) : Res (bool * map_) :=
  if count s =? 0 then Ok (false, s) else
  let h := rehash (hash k) in
  let i := index_for h (zlen (table s)) in
  b <- get (table s) i ;;
  match remove_first h k b with
  | Some b => t <- set (table s) i b ;; Ok (true, mkmap t (w32 (count s - 1)) (threshold s) (inited s))
  | None => Ok (false, s)
  end.
(** hashmap.c3:260-279 *)
Definition clear (s : map_) : map_ :=
  if count s =? 0 then s else mkmap (map (fun _ => []) (table s)) 0 (threshold s) (inited s).
(** hashmap.c3:281-287 *)
Definition free (s : map_) : map_ :=
  if inited s then let s := clear s in mkmap [] (count s) (threshold s) (inited s) else s.
(** hashmap.c3:325-336: the entries in the order of [@each_entry] *)
Definition each (s : map_) : list entry := if count s =? 0 then [] else concat (table s).
(** hashmap.c3:294-313, 343-357: keys and values fill an array of [count] elements *)
Definition fill {B} (f : entry -> B) (s : map_) : Res (list B) :=
  if count s =? 0 then Ok [] else
  let es := concat (table s) in if zlen es =? count s then Ok (map f es) else Oob.
(** hashmap.c3:359-371 *)
Definition has_value (eqv : V -> V -> bool) (s : map_) (v : V) : bool :=
  if count s =? 0 then false else existsb (fun e => eqv v (eval e)) (concat (table s)).
(** hashmap.c3:460-476, 509-518 *)
Definition put_for_create (s : map_) (k : K) (v : V) : Res map_ :=
  let h := rehash (hash k) in
  let i := index_for h (zlen (table s)) in
  b <- get (table s) i ;;
  match replace_first h k v b with
  | Some b => t <- set (table s) i b ;; Ok (mkmap t (count s) (threshold s) (inited s))
  | None => t <- set (table s) i (ent h k v :: b) ;; Ok (mkmap t (w32 (count s + 1)) (threshold s) (inited s))
  end.
Fixpoint put_all (es : list entry) (s : map_) : Res map_ :=
  match es with [] => Ok s | e :: t => s <- put_for_create s (ekey e) (eval e) ;; put_all t s end.
(** hashmap.c3:146-151 (with the same load factor), 447-458 *)
Definition init_from_map (other : map_) : Res map_ :=
  s <- init blank (zlen (table other)) ;;
  if count other =? 0 then Ok s else put_all (concat (table other)) s.

(** hashmap.c3:529-535; the current entry is the rest of its chain, [[]] for null *)
Record iter := mkiter { top_index : Z; idx : Z; current : list entry }.
(** hashmap.c3:373-376 *)
Definition iter_start : iter := mkiter 0 (-1) [].
Fixpoint iter_loop (fuel : nat) (s : map_) (it : iter) (i : Z) : Res iter :=
  match fuel with
  | O => Fuel
  | S f =>
    if idx it =? i then Ok it else
    match current it with
    | _ :: rest => iter_loop f s (mkiter (top_index it) (match rest with [] => idx it | _ => idx it + 1 end) rest) i
    | [] => b <- get (table s) (top_index it) ;; iter_loop f s (mkiter (top_index it + 1) (match b with [] => idx it | _ => idx it + 1 end) b) i
    end
  end.
(** hashmap.c3:542-563, with its contract.  (The comparison [idx < self.index] of a usz and an int is the mathematical one.) *)
Definition iter_get (fuel : nat) (s : map_) (it : iter) (i : Z) : Res (entry * iter) :=
  if negb ((0 <=? i) && (i <? count s)) then Oob else
  let it := if i <? idx it then mkiter 0 (-1) [] else it in
  it <- iter_loop fuel s it i ;;
  match current it with [] => Oob | e :: _ => Ok (e, it) end.
(** Visiting indices one after the other. *)
Fixpoint iter_all (fuel : nat) (s : map_) (it : iter) (is : list Z) : Res (list entry) :=
  match is with [] => Ok [] | i :: t => '(e, it) <- iter_get fuel s it i ;; es <- iter_all fuel s it t ;; Ok (e :: es) end.
End MapModel.
Arguments entry K V : clear implicits.
Arguments map_ K V : clear implicits.
