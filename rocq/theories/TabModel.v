(** The compiler's lookup tables: the symbol (spelling) table, the pointer-keyed tables and the table of
    global declarations. Pointers are integers, 0 is NULL; allocations never fail (see ArenaModel for the
    allocator itself). *)
From Coq Require Import ZArith Bool List Lia.
From Verif Require Import Mach.
Import ListNotations.
Open Scope Z_scope.

(** Outcomes: a result, a search loop that never ends, a failed ASSERT, an access outside an array. *)
Inductive out (A : Type) : Type := Done (a : A) | Loops | Asserts | Outside.
Arguments Done {A} a.
Arguments Loops {A}.
Arguments Asserts {A}.
Arguments Outside {A}.
Definition obind {A B} (r : out A) (k : A -> out B) : out B :=
  match r with Done a => k a | Loops => Loops | Asserts => Asserts | Outside => Outside end.
Definition fetch {A} (l : list A) (i : Z) : out A := match get l i with Ok a => Done a | _ => Outside end.
Definition store {A} (l : list A) (i : Z) (x : A) : out (list A) := match set l i x with Ok a => Done a | _ => Outside end.

(** src/utils/lib.h:457-467 next_highest_power_of_2, on uint32_t. *)
Definition next_pow2 (v : Z) : Z :=
  let v := (v - 1) mod 2 ^ 32 in
  let v := Z.lor v (Z.shiftr v 1) in
  let v := Z.lor v (Z.shiftr v 2) in
  let v := Z.lor v (Z.shiftr v 4) in
  let v := Z.lor v (Z.shiftr v 8) in
  let v := Z.lor v (Z.shiftr v 16) in
  (v + 1) mod 2 ^ 32.

(** src/utils/lib.h:239-252 FNV1a and fnv1a. A byte is 0..255; [(unsigned)(c)] of a plain char sign-extends
    (char is signed on the modelled targets). *)
Definition sign_ext (b : Z) : Z := if b <? 128 then b else b + (2 ^ 32 - 256).
Definition fnv_step (seed c : Z) : Z := (Z.lxor (sign_ext c) seed * 16777619) mod 2 ^ 32.
Definition fnv1a (key : list Z) : Z := fold_left fnv_step key 2166136261.

(** src/compiler/lexer.c:288-335 scan_ident: the hash built while scanning ([prefix] is 0 or the
    prefix character, then leading underscores, then the other characters). *)
Definition scan_hash (prefix : Z) (underscores rest : list Z) : Z :=
  let hash := 2166136261 in
  let hash := if prefix =? 0 then hash else fnv_step hash prefix in
  let hash := fold_left fnv_step underscores hash in
  fold_left fnv_step rest hash.

(** ** The symbol table *)
(** src/compiler/symtab.c:7-16 SymtabEntry. [key_len] is a uint16_t; [symbol] is modelled by the bytes stored
    there and by [se_addr], a number standing for its address. [value] and [hash] are never used. *)
Record sentry := SEnt { se_len : Z; se_type : Z; se_index : Z; se_text : list Z; se_addr : Z }.
(** src/compiler/symtab.c:18-23 SymTab, and the next address str_copy will return. *)
Record symtab := Sym { sy_mask : Z; sy_bucket : list (list sentry); sy_next : Z }.

(** src/compiler/symtab.c:80-90 symtab_init, without the keywords (they are the first insertions). *)
Definition symtab_init (capacity : Z) : symtab :=
  let capacity := next_pow2 capacity in
  Sym (capacity - 1) (repeat [] (Z.to_nat capacity)) 1.

Fixpoint bytes_eqb (a b : list Z) : bool :=
  match a, b with [], [] => true | x :: a', y :: b' => (x =? y) && bytes_eqb a' b' | _, _ => false end.

(** src/compiler/symtab.c:383, 421: [bucket->index == hash && len == bucket->key_len && memcmp(data, symbol, len) == 0]. *)
Definition sentry_is (data : list Z) (hash : Z) (b : sentry) : bool :=
  (se_index b =? hash) && (zlen data =? se_len b) && bytes_eqb data (firstn (length data) (se_text b)).

Definition new_entry (st : symtab) (data : list Z) (hash type : Z) : sentry :=
  SEnt (zlen data mod 2 ^ 16) type hash data (sy_next st).

(** src/compiler/symtab.c:403-436 symtab_add: the state, the handle and the token type written back. *)
Definition symtab_add (st : symtab) (data : list Z) (hash type : Z) : out (symtab * Z * Z) :=
  let pos := Z.land hash (sy_mask st) in
  obind (fetch (sy_bucket st) pos) (fun chain =>
  match find (sentry_is data hash) chain with
  | Some b => Done (st, se_addr b, se_type b)
  | None =>
      let node := new_entry st data hash type in
      obind (store (sy_bucket st) pos (node :: chain)) (fun bs =>
      Done (Sym (sy_mask st) bs (sy_next st + 1), se_addr node, type))
  end).

(** src/compiler/symtab.c:377-391 symtab_find. *)
Definition symtab_find (st : symtab) (data : list Z) (hash : Z) : out (option (Z * Z)) :=
  let pos := Z.land hash (sy_mask st) in
  obind (fetch (sy_bucket st) pos) (fun chain =>
  match find (sentry_is data hash) chain with
  | Some b => Done (Some (se_addr b, se_type b))
  | None => Done None
  end).

(** A history of symtab_add calls, with the hash the callers pass (fnv1a of the spelling). *)
Fixpoint intern_all (st : symtab) (hist : list (list Z * Z)) : out (symtab * list (Z * Z)) :=
  match hist with
  | [] => Done (st, [])
  | (text, ty) :: r =>
      obind (symtab_add st text (fnv1a text) ty) (fun '(st1, h, ty1) =>
      obind (intern_all st1 r) (fun '(st2, rs) => Done (st2, (h, ty1) :: rs)))
  end.

(** ** Linear probing: the loop shared by sentry_find (symtab.c:463-469), declentry_find (decltable.c:9-17)
    and sema_resolve_type_get_func (sema_types.c:750-765): stop at the first slot that is empty or matches. After [fuel] =
    capacity steps every slot has been seen, so running out means the C loop never ends. *)
Fixpoint probe {S} (stop : S -> bool) (t : list S) (mask index : Z) (fuel : nat) : out Z :=
  match fuel with
  | O => Loops
  | Datatypes.S f =>
      obind (fetch t index) (fun s =>
      if stop s then Done index else probe stop t mask (Z.land (index + 1) mask) f)
  end.

(** ** The pointer table with linear probing *)
(** src/compiler/compiler_internal.h:200-211 SEntry and STable; a slot is (key, value). *)
Record stable := ST { st_count : Z; st_capacity : Z; st_max_load : Z; st_entries : list (Z * Z) }.

(** src/compiler/compiler_internal.h:39, 72: MAX_HASH_SIZE, TABLE_MAX_LOAD = 0.5 (an exact double). *)
Definition MAX_HASH : Z := 2 ^ 29.
Definition half (n : Z) : Z := n / 2.

(** src/compiler/symtab.c:439-449 stable_init. *)
Definition stable_init (n : Z) : stable := ST 0 n (half n) (repeat (0, 0) (Z.to_nat n)).

(** src/compiler/symtab.c:459-462: [hash_key ^= hash_key >> 16; (uint32_t)hash_key & mask]. *)
Definition ptr_index (key mask : Z) : Z := Z.land (Z.lxor key (Z.shiftr key 16) mod 2 ^ 32) mask.

(** src/compiler/symtab.c:457-470 sentry_find. *)
Definition sentry_find (entries : list (Z * Z)) (capacity key : Z) : out Z :=
  probe (fun s => (fst s =? key) || (fst s =? 0)) entries (capacity - 1) (ptr_index key (capacity - 1)) (length entries).

(** src/compiler/symtab.c:478-486: the loop that moves the entries. *)
Fixpoint srehash (old new : list (Z * Z)) (newcap count : Z) : out (list (Z * Z) * Z) :=
  match old with
  | [] => Done (new, count)
  | s :: r =>
      if fst s =? 0 then srehash r new newcap count
      else obind (sentry_find new newcap (fst s)) (fun i =>
           obind (store new i s) (fun new1 => srehash r new1 newcap (count + 1)))
  end.

(** src/compiler/symtab.c:472-490 stable_resize; [capacity << 2] on uint32_t. *)
Definition stable_resize (t : stable) : out stable :=
  if MAX_HASH <=? st_capacity t then Asserts else
  let newcap := if st_capacity t =? 0 then 16 else (st_capacity t * 4) mod 2 ^ 32 in
  obind (srehash (st_entries t) (repeat (0, 0) (Z.to_nat newcap)) newcap 0) (fun '(es, count) =>
  Done (ST count newcap (half newcap) es)).

(** src/compiler/symtab.c:492-510 stable_set: the table and the previous value. *)
Definition stable_set (t : stable) (key value : Z) : out (stable * Z) :=
  if value =? 0 then Asserts else
  obind (sentry_find (st_entries t) (st_capacity t) key) (fun i =>
  obind (fetch (st_entries t) i) (fun entry =>
  let old := snd entry in
  if old =? value then Done (t, old) else
  obind (store (st_entries t) i (key, value)) (fun es =>
  let t1 := ST (st_count t) (st_capacity t) (st_max_load t) es in
  if old =? 0 then
    let t2 := ST (st_count t + 1) (st_capacity t) (st_max_load t) es in
    if st_max_load t <=? st_count t + 1 then obind (stable_resize t2) (fun t3 => Done (t3, old)) else Done (t2, old)
  else Done (t1, old)))).

(** src/compiler/symtab.c:513-518 stable_get. *)
Definition stable_get (t : stable) (key : Z) : out Z :=
  obind (sentry_find (st_entries t) (st_capacity t) key) (fun i =>
  obind (fetch (st_entries t) i) (fun e => Done (if fst e =? 0 then 0 else snd e))).

(** A history of stable_set calls; the previous values they report. *)
Fixpoint stable_run (t : stable) (hist : list (Z * Z)) : out (stable * list Z) :=
  match hist with
  | [] => Done (t, [])
  | (k, v) :: r =>
      obind (stable_set t k v) (fun '(t1, old) =>
      obind (stable_run t1 r) (fun '(t2, olds) => Done (t2, old :: olds)))
  end.

(** ** The chained pointer table *)
(** src/compiler/compiler_internal.h:213-224 HTEntry and HTable; [ht_bytes] is the size allocated for the bucket array. *)
Record htable := HT { ht_mask : Z; ht_bytes : Z; ht_entries : list (list (Z * Z)) }.

(** src/compiler/symtab.c:522-532 htable_init; sizeof(HTEntry) is 24 (three pointers). The model's bucket
    array has as many buckets as fit in the allocated bytes (8 each). *)
Definition htable_init (n : Z) : htable :=
  let size := next_pow2 n in
  let mem_size := n * 24 in
  HT (size - 1) mem_size (repeat [] (Z.to_nat (mem_size / 8))).

(** src/compiler/symtab.c:537, 566: [(key ^ key >> 8) & mask], as uint32_t. *)
Definition ht_index (t : htable) (key : Z) : Z := Z.land (Z.lxor key (Z.shiftr key 8)) (ht_mask t) mod 2 ^ 32.

(** src/compiler/symtab.c:534-561 htable_set: the table and the value returned (0 is NULL). *)
Definition htable_set (t : htable) (key value : Z) : out (htable * Z) :=
  if value =? 0 then Asserts else
  obind (fetch (ht_entries t) (ht_index t key)) (fun chain =>
  match find (fun e => fst e =? key) chain with
  | Some e => Done (t, snd e)
  | None =>
      obind (store (ht_entries t) (ht_index t key) ((key, value) :: chain)) (fun es =>
      Done (HT (ht_mask t) (ht_bytes t) es, 0))
  end).

(** src/compiler/symtab.c:564-575 htable_get. *)
Definition htable_get (t : htable) (key : Z) : out Z :=
  obind (fetch (ht_entries t) (ht_index t key)) (fun chain =>
  match find (fun e => fst e =? key) chain with
  | Some e => Done (snd e)
  | None => Done 0
  end).

Fixpoint htable_run (t : htable) (hist : list (Z * Z)) : out (htable * list Z) :=
  match hist with
  | [] => Done (t, [])
  | (k, v) :: r =>
      obind (htable_set t k v) (fun '(t1, old) =>
      obind (htable_run t1 r) (fun '(t2, olds) => Done (t2, old :: olds)))
  end.

(** ** The table of global declarations *)
(** A declaration: its name (an interned pointer) and, for DECL_DECLARRAY, the list it stands for. A declaration is
    identified by its DeclId, its place in the declaration arena; id 0 is no declaration. *)
Record decl := Dcl { d_name : Z; d_list : option (list Z) }.
Record dtable := DT { dt_count : Z; dt_capacity : Z; dt_max_load : Z; dt_entries : list Z; dt_heap : list decl }.

(** src/compiler/decltable.c:82-92 decltable_init; the arena starts with the unused declaration 0. *)
Definition decltable_init (n : Z) : dtable := DT 0 n (half n) (repeat 0 (Z.to_nat n)) [Dcl 0 None].

(** declptr(id)->name; ids outside the arena have no name (-1 is no pointer). *)
Definition name_of (heap : list decl) (id : Z) : Z := match get heap id with Ok d => d_name d | _ => -1 end.

(** src/compiler/decltable.c:3-18 declentry_find. *)
Definition declentry_find (heap : list decl) (entries : list Z) (capacity name : Z) : out Z :=
  probe (fun id => (id =? 0) || (name_of heap id =? name)) entries (capacity - 1) (ptr_index name (capacity - 1)) (length entries).

(** src/compiler/decltable.c:27-36. *)
Fixpoint drehash (heap : list decl) (old new : list Z) (newcap count : Z) : out (list Z * Z) :=
  match old with
  | [] => Done (new, count)
  | id :: r =>
      if id =? 0 then drehash heap r new newcap count
      else obind (fetch heap id) (fun d =>
           obind (declentry_find heap new newcap (d_name d)) (fun i =>
           obind (store new i id) (fun new1 => drehash heap r new1 newcap (count + 1))))
  end.

(** src/compiler/decltable.c:20-40 decltable_resize. *)
Definition decltable_resize (t : dtable) : out dtable :=
  if MAX_HASH <=? dt_capacity t then Asserts else
  let newcap := if dt_capacity t =? 0 then 16 else (dt_capacity t * 4) mod 2 ^ 32 in
  obind (drehash (dt_heap t) (dt_entries t) (repeat 0 (Z.to_nat newcap)) newcap 0) (fun '(es, count) =>
  Done (DT count newcap (half newcap) es (dt_heap t))).

(** src/compiler/decltable.c:42-72 decltable_set. [decl_calloc] appends to the arena. *)
Definition decltable_set (t : dtable) (id : Z) : out dtable :=
  obind (fetch (dt_heap t) id) (fun d =>
  obind (declentry_find (dt_heap t) (dt_entries t) (dt_capacity t) (d_name d)) (fun i =>
  obind (fetch (dt_entries t) i) (fun old_id =>
  if old_id =? id then Asserts else
  if old_id =? 0 then
    obind (store (dt_entries t) i id) (fun es =>
    let t1 := DT (dt_count t + 1) (dt_capacity t) (dt_max_load t) es (dt_heap t) in
    if dt_max_load t <=? dt_count t + 1 then decltable_resize t1 else Done t1)
  else
    obind (fetch (dt_heap t) old_id) (fun old =>
    match d_list old with
    | Some l =>
        obind (store (dt_heap t) old_id (Dcl (d_name old) (Some (l ++ [id])))) (fun heap =>
        Done (DT (dt_count t) (dt_capacity t) (dt_max_load t) (dt_entries t) heap))
    | None =>
        let list_id := zlen (dt_heap t) in
        let heap := dt_heap t ++ [Dcl (d_name d) (Some [old_id; id])] in
        obind (store (dt_entries t) i list_id) (fun es =>
        Done (DT (dt_count t) (dt_capacity t) (dt_max_load t) es heap))
    end)))).

(** src/compiler/decltable.c:75-80 decltable_get. *)
Definition decltable_get (t : dtable) (name : Z) : out Z :=
  obind (declentry_find (dt_heap t) (dt_entries t) (dt_capacity t) name) (fun i => fetch (dt_entries t) i).

(** Declaring a global: the parser allocates a declaration (not a list) in the arena and compiler.c:1502 enters it. *)
Definition declare (t : dtable) (name : Z) : out (dtable * Z) :=
  let id := zlen (dt_heap t) in
  obind (decltable_set (DT (dt_count t) (dt_capacity t) (dt_max_load t) (dt_entries t) (dt_heap t ++ [Dcl name None])) id)
        (fun t1 => Done (t1, id)).
Fixpoint declare_all (t : dtable) (names : list Z) : out (dtable * list Z) :=
  match names with
  | [] => Done (t, [])
  | n :: r =>
      obind (declare t n) (fun '(t1, id) =>
      obind (declare_all t1 r) (fun '(t2, ids) => Done (t2, id :: ids)))
  end.
(** src/compiler/sema_name_resolution.c:362-...: the declarations an entry stands for. *)
Definition decls_of (heap : list decl) (id : Z) : list Z :=
  if id =? 0 then [] else match get heap id with Ok (Dcl _ (Some l)) => l | _ => [id] end.
