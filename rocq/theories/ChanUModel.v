(** std::thread::channel::UnbufferedChannel (lib/std/threads/unbuffered_channel.c3) used by any number of threads, as a machine in which any thread
    may take the next step. *)
From Coq Require Import List Arith Bool.
From Verif Require Import ChanModel.
Import ListNotations.

Section C.
Context {V : Type}.

(** Where a thread is: outside; about to lock `mu`; holding `mu` and about to lock `send_mu` or `read_mu`; holding both, in the body (for pop: about to evaluate the
    condition of the `while`); a sender that has stored its value and may signal; a sender about to wait; asleep in a wait; woken, without `mu` yet; a sender back from its
    wait; a receiver past the loop; a receiver about to signal; leaving with success (first `mu`, then the other mutex is unlocked); leaving with
    CHANNEL_CLOSED (the deferred unlocks run in the opposite order). *)
Inductive upc := UIdle | UMu (o : op V) | USide (o : op V) | UBody (o : op V) | USig (v : V) | UWait (v : V) | UAsleep (o : op V) | UWoken (o : op V) | UBack (v : V)
  | UTake | URsig (v : V) | UOut1 (o : op V) (r : res V) | UOut2 (o : op V) (r : res V) | UFail1 (o : op V) | UFail2 (o : op V) | UBcast | URelease.
Record uthread := UTh { uprog : list (op V); uat : upc; uhist : list (op V * res V) }.
(** The channel (lines 5-19). [stored] and [taken] are not in the code: the values put in the buffer and read from it so far. *)
Record ust := USt {
  ubuf : V; uclosed : bool; usend_waiting : nat; uread_waiting : nat; umu : option nat; usend_mu : option nat; uread_mu : option nat; uths : list uthread;
  stored : list V; taken : list V }.

(** UnbufferedChannel.init (lines 21-41): the memory is not cleared and neither `buf` nor `closed` is set, so both start as whatever was there. *)
Definition uinit (garbage : V) (garbage_closed : bool) (progs : list (list (op V))) : ust :=
  USt garbage garbage_closed 0 0 None None None (map (fun p => UTh p UIdle []) progs) [] [].

Definition uset (s : ust) i (t : uthread) p := USt (ubuf s) (uclosed s) (usend_waiting s) (uread_waiting s) (umu s) (usend_mu s) (uread_mu s)
  (put (uths s) i (UTh (uprog t) p (uhist t))) (stored s) (taken s).
Definition with_mu (s : ust) m := USt (ubuf s) (uclosed s) (usend_waiting s) (uread_waiting s) m (usend_mu s) (uread_mu s) (uths s) (stored s) (taken s).
Definition with_smu (s : ust) m := USt (ubuf s) (uclosed s) (usend_waiting s) (uread_waiting s) (umu s) m (uread_mu s) (uths s) (stored s) (taken s).
Definition with_rmu (s : ust) m := USt (ubuf s) (uclosed s) (usend_waiting s) (uread_waiting s) (umu s) (usend_mu s) m (uths s) (stored s) (taken s).
Definition with_waiting (s : ust) a b := USt (ubuf s) (uclosed s) a b (umu s) (usend_mu s) (uread_mu s) (uths s) (stored s) (taken s).
Definition with_ths (s : ust) l := USt (ubuf s) (uclosed s) (usend_waiting s) (uread_waiting s) (umu s) (usend_mu s) (uread_mu s) l (stored s) (taken s).
(** The other mutex of an operation: `send_mu` for push, `read_mu` for pop. *)
Definition side (s : ust) (o : op V) := match o with Push _ => usend_mu s | _ => uread_mu s end.
Definition with_side (s : ust) (o : op V) m := match o with Push _ => with_smu s m | _ => with_rmu s m end.

Definition usleeps_send (t : uthread) : bool := match uat t with UAsleep (Push _) => true | _ => false end.
Definition usleeps_read (t : uthread) : bool := match uat t with UAsleep Pop => true | _ => false end.
Definition uwake (t : uthread) : uthread := match uat t with UAsleep o => UTh (uprog t) (UWoken o) (uhist t) | _ => t end.
Definition usignal (sleeps : uthread -> bool) (s : ust) (j : nat) : option ust :=
  match nth_error (uths s) j with
  | Some t => if sleeps t then Some (with_ths s (put (uths s) j (uwake t))) else if existsb sleeps (uths s) then None else Some s
  | None => if existsb sleeps (uths s) then None else Some s
  end.
Definition ureturn (s : ust) i (t : uthread) (o : op V) (r : res V) : ust := with_ths s (put (uths s) i (UTh (uprog t) UIdle (uhist t ++ [(o, r)]))).

(** One step of thread [i] ([j] is the thread woken if the step is a signal); None when it cannot move. push is lines 59-92, pop 94-125, close 127-140. *)
Definition umove (s : ust) (i j : nat) : option ust :=
  match nth_error (uths s) i with
  | None => None
  | Some t =>
    match uat t with
    | UIdle => match uprog t with o :: r => Some (with_ths s (put (uths s) i (UTh r (UMu o) (uhist t)))) | [] => None end
    | UMu o => match umu s with None => Some (uset (with_mu s (Some i)) i t (match o with Close => UBody Close | _ => USide o end)) | Some _ => None end
    | USide o => match side s o with None => Some (uset (with_side s o (Some i)) i t (UBody o)) | Some _ => None end
    | UBody (Push v) =>
        if uclosed s then Some (uset s i t (UFail1 (Push v)))
        else Some (uset (USt v (uclosed s) (S (usend_waiting s)) (uread_waiting s) (umu s) (usend_mu s) (uread_mu s) (uths s) (stored s ++ [v]) (taken s)) i t (USig v))
    | UBody Pop =>
        if negb (uclosed s) && Nat.eqb (usend_waiting s) 0
        then Some (uset (with_mu (with_waiting s (usend_waiting s) (S (uread_waiting s))) None) i t (UAsleep Pop))
        else Some (uset s i t UTake)
    | UBody Close => Some (uset (USt (ubuf s) true (usend_waiting s) (uread_waiting s) (umu s) (usend_mu s) (uread_mu s) (uths s) (stored s) (taken s)) i t UBcast)
    | USig v =>
        if Nat.ltb 0 (uread_waiting s) then match usignal usleeps_read s j with Some s1 => Some (uset s1 i t (UWait v)) | None => None end
        else Some (uset s i t (UWait v))
    | UWait v => Some (uset (with_mu s None) i t (UAsleep (Push v)))
    | UAsleep _ => None
    | UWoken (Push v) => match umu s with None => Some (uset (with_mu s (Some i)) i t (UBack v)) | Some _ => None end
    | UWoken o => match umu s with None => Some (uset (with_mu (with_waiting s (usend_waiting s) (pred (uread_waiting s))) (Some i)) i t (UBody o)) | Some _ => None end
    | UBack v => Some (uset s i t (if uclosed s then UFail1 (Push v) else UOut1 (Push v) ROk))
    | UTake =>
        if uclosed s then Some (uset s i t (UFail1 Pop))
        else Some (uset (USt (ubuf s) (uclosed s) (pred (usend_waiting s)) (uread_waiting s) (umu s) (usend_mu s) (uread_mu s) (uths s) (stored s) (taken s ++ [ubuf s])) i t (URsig (ubuf s)))
    | URsig v => match usignal usleeps_send s j with Some s1 => Some (uset s1 i t (UOut1 Pop (RVal v))) | None => None end
    | UOut1 o r => Some (uset (with_mu s None) i t (UOut2 o r))
    | UOut2 o r => Some (ureturn (with_side s o None) i t o r)
    | UFail1 o => Some (uset (with_side s o None) i t (UFail2 o))
    | UFail2 o => Some (ureturn (with_mu s None) i t o RClosed)
    | UBcast => Some (uset (with_ths s (map uwake (uths s))) i t URelease)
    | URelease => Some (ureturn (with_mu s None) i t Close ROk)
    end
  end.
Definition ustep (s : ust) (c : turn) : option ust :=
  match c with
  | Moves i j => umove s i j
  | Spurious i => match nth_error (uths s) i with Some t => match uat t with UAsleep _ => Some (with_ths s (put (uths s) i (uwake t))) | _ => None end | None => None end
  end.
Fixpoint urun (s : ust) (sched : list turn) : option ust :=
  match sched with
  | [] => Some s
  | c :: r => match ustep s c with Some s' => urun s' r | None => None end
  end.
End C.
Arguments upc : clear implicits.
Arguments uthread : clear implicits.
Arguments ust : clear implicits.
