(** C173, C174: walks over strings. *)
From Coq Require Import ZArith Bool List Lia ZifyBool.
From Verif Require Import Mach ListAux CodecSpec LexSpec UtfModel UtfSpec UtfProofs SiterModel SiterSpec SiterProofs.
Import ListNotations.
Local Open Scope Z_scope.

(** C173: over a string in UTF-8, any sequence of next, peek, has_next and reset answers what a cursor over the code points answers. *)
Theorem C173_walk : forall us os, Forall scalar us -> i_run (iterator (utf8s us)) os = Ok (cursor_run us 0 os).
Proof.
  intros us os H. apply (run_ok us (scalar_range us H) os _ O); [lia|]. split; reflexivity.
Qed.
(** Four code points of one to four bytes. *)
Example C173_ex : Forall scalar [97; 229; 8364; 128512] /\
  cursor_run [97; 229; 8364; 128512] 0 [INext; IPeek; INext; INext; IReset; INext; INext; INext; IHasNext; INext; INext; IHasNext] =
  [OChar (Char 97); OChar (Char 229); OChar (Char 229); OChar (Char 8364); OUnit; OChar (Char 97); OChar (Char 229); OChar (Char 8364); OBool true; OChar (Char 128512); OChar NoMore; OBool false].
Proof. split; [repeat constructor; unfold scalar; lia|reflexivity]. Qed.
Print Assumptions C173_walk.
(** get is to give the character that next gave last; in "abcdefgh", after six characters, it gives the fifth, and in a longer string it looks into the middle of a character. *)
Theorem C173_get_refuted : exists it, i_run (iterator [97; 98; 99; 100; 101; 102; 103; 104]) [INext; INext; INext; INext; INext; INext] = Ok (map (fun u => OChar (Char u)) [97; 98; 99; 100; 101; 102]) /\
  it = Siter [97; 98; 99; 100; 101; 102; 103; 104] 6 /\ get_current it = Ok (Char 101) /\
  (exists it', next (Siter (bytes_of it) 5) = Ok (Char 102, it') /\ it' = it) /\
  get_current (Siter (utf8s [8364; 8364; 8364; 8364]) 6) = Ok Invalid.
Proof. eexists. split; [vm_compute; reflexivity|]. split; [reflexivity|]. split; [vm_compute; reflexivity|]. split; [eexists; split; [vm_compute; reflexivity|reflexivity]|]. vm_compute. reflexivity. Qed.
Print Assumptions C173_get_refuted.

(** C174: over any bytes, the walk never reads outside of the string, gives the sequences it consists of up to the first place where none starts,
    and then for ever the end, if this is the end, or a fault, without moving on. *)
Theorem C174_any_bytes : forall s k, Forall is_byte s -> exists us s1 s2 e, s = s1 ++ s2 /\ looses us s1 /\
  i_run (iterator s) (repeat INext (length us + k)) = Ok (map (fun u => OChar (Char u)) us ++ repeat (OChar e) k) /\
  ((s2 = [] /\ e = NoMore) \/ (s2 <> [] /\ e = Invalid /\ forall u b r, s2 = b ++ r -> ~ loose u b)).
Proof. intros s k H. apply (walk_any k (length s) s (le_n _) H (iterator s) []). split; reflexivity. Qed.
(** A character and a truncated one. *)
Example C174_ex : Forall is_byte [97; 226; 130] /\ i_run (iterator [97; 226; 130]) [INext; INext; INext] = Ok [OChar (Char 97); OChar Invalid; OChar Invalid].
Proof. split; [repeat constructor; unfold is_byte; lia|vm_compute; reflexivity]. Qed.
Print Assumptions C174_any_bytes.
