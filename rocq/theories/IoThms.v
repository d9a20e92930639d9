(** Properties C125-C138: streams. *)
From Coq Require Import ZArith Bool List Lia.
From Verif Require Import IoModel IoSpec IoProofs IoProofs2 IoProofs3.
Import ListNotations.

(** ** C125 A buffered reader hands out the bytes of the wrapped stream in order *)
Theorem C125_read_buffer_partial : forall s buffer ops, fair s -> buffer <> [] ->
  honest false (rest s) ops (fst (run rb_step ops (rb_init s buffer))).
Proof. exact readbuffer_honest. Qed.
Print Assumptions C125_read_buffer_partial.
Example C125_ex : fair (Src [1; 2; 3; 4; 5]%Z [2; 1]) /\
  fst (run rb_step [Read 2; ReadByte; Read 3; Read 9; ReadByte; ReadByte] (rb_init (Src [1; 2; 3; 4; 5]%Z [2; 1]) [0; 0; 0]%Z)) =
  [Got [1; 2]; Got [3]; Got [4; 5]; Fault EOF; Got [4]; Got [5]]%Z.
Proof. split; [repeat constructor|reflexivity]. Qed.
(** After the end has been reported, the last bytes are handed out again. *)
Theorem C125_again_refuted : exists s buffer ops, fair s /\ buffer <> [] /\ ~ honest true (rest s) ops (fst (run rb_step ops (rb_init s buffer))).
Proof.
  exists (Src [7]%Z []), [0; 0]%Z, [ReadByte; ReadByte; ReadByte]. repeat split; [constructor|discriminate|].
  intros (_ & more & E & H). injection E as <-. destruct H as (_ & H). destruct (H eq_refl) as (_ & more & E & _). discriminate.
Qed.
Print Assumptions C125_again_refuted.

(** ** C126 A buffered writer passes on what was written, in order *)
Theorem C126_write_buffer_partial : forall before buffer ops, buffer <> [] ->
  exists b, run wb_step ops (wb_init (Snk before []) buffer) = (all_accepted ops, b) /\
    taken (wb_snk b) ++ firstn (wb_i b) (wb_bytes b) = before ++ written ops.
Proof. exact writebuffer_ok. Qed.
Theorem C126_flush_partial : forall before buffer ops, buffer <> [] ->
  exists b, run wb_step (ops ++ [Flush]) (wb_init (Snk before []) buffer) = (all_accepted (ops ++ [Flush]), b) /\ taken (wb_snk b) = before ++ written ops.
Proof. exact writebuffer_flush. Qed.
Print Assumptions C126_write_buffer_partial.
Print Assumptions C126_flush_partial.
Example C126_ex : taken (wb_snk (snd (run wb_step [Write [1; 2]; WriteByte 3; Write [4; 5; 6; 7]; Write [8]; Flush]%Z (wb_init (Snk [] []) [0; 0; 0]%Z)))) = [1; 2; 3; 4; 5; 6; 7; 8]%Z.
Proof. reflexivity. Qed.
(** When the wrapped stream takes only part of the buffer, a second flush, which succeeds, sends bytes twice and loses others. *)
Theorem C126_short_refuted : exists buffer ops b room, run wb_step ops (wb_init (Snk [] room) buffer) = ([Got 3; Fault INCOMPLETE_WRITE; Got 0], b) /\
  ops = [Write [1; 2; 3]%Z; Flush; Flush] /\ taken (wb_snk b) = [1; 1; 2]%Z.
Proof. eexists [0; 0; 0; 0]%Z, [Write [1; 2; 3]%Z; Flush; Flush], _, [1; 9]. split; [reflexivity|]. split; reflexivity. Qed.
Print Assumptions C126_short_refuted.

(** ** C127 A byte buffer is a queue *)
Theorem C127_byte_buffer_partial : forall max_read capacity ops, 1 <= max_read -> put_total ops <= Nat.max capacity 16 ->
  fifo [] None ops (fst (run bb_step ops (bb_init max_read capacity))).
Proof. exact bytebuffer_ok. Qed.
Theorem C127_fixed_partial : forall buf ops, buf <> [] -> put_total ops <= length buf -> fifo [] None ops (fst (run bb_step ops (bb_init_with_buffer buf))).
Proof. exact bytebuffer_fixed_ok. Qed.
Print Assumptions C127_byte_buffer_partial.
Print Assumptions C127_fixed_partial.
Example C127_ex : let ops := [BWrite [1; 2; 3]; BRead 2; BPushback; BPushback; BWriteByte 4; BReadByte; BRead 9; BReadByte]%Z in
  1 <= 2 /\ put_total ops <= Nat.max 16 16 /\ fst (run bb_step ops (bb_init 2 16)) = [Got []; Got [1; 2]; Got []; Fault EOF; Got []; Got [2]; Got [3; 4]; Fault EOF]%Z.
Proof. cbv zeta. repeat split; repeat constructor. Qed.
(** Growing makes room for the new bytes only, not for those already there: the write of a second block stops the program. *)
Theorem C127_grow_refuted : exists a b, length a = 16 /\ length b = 1 /\ fst (run bb_step [BWrite a; BWrite b] (bb_init 1 16)) = [Got []; Trap] /\
  fst (run bb_step [BWrite a; BWriteByte 0%Z] (bb_init 1 16)) = [Got []; Trap].
Proof. exists (repeat 1%Z 16), [2]%Z. repeat split; reflexivity. Qed.
(** With [max_read] 0 a read of no bytes stops the program. *)
Theorem C127_max_read_refuted : exists ops, fst (run bb_step ops (bb_init 0 16)) = [Got []; Trap] /\ ops = [BWrite [1]%Z; BRead 0].
Proof. exists [BWrite [1]%Z; BRead 0]. split; reflexivity. Qed.
Print Assumptions C127_grow_refuted.
Print Assumptions C127_max_read_refuted.

(** ** C128 A byte writer holds what was written *)
Theorem C128_byte_writer_partial : forall buffer ops, ~ In (Write []) ops ->
  exists b, run bw_step ops (BW buffer 0 true) = (all_accepted ops, b) /\ bw_view b = written ops.
Proof.
  intros buffer ops N. destruct (bytewriter_ok ops (BW buffer 0 true) [] (ex_intro _ buffer (conj eq_refl eq_refl)) eq_refl N) as (b & E & I).
  exists b. split; [exact E|]. exact (bw_view_inv b _ I).
Qed.
Theorem C128_fixed_partial : forall buffer ops,
  let (rs, held) := fixed_answers (fun used n => used + n <? length buffer) 0 ops in
  exists b, run bw_step ops (BW buffer 0 false) = (rs, b) /\ bw_view b = held.
Proof.
  intros buffer ops. pose proof (bytewriter_fixed_ok (length buffer) ops (BW buffer 0 false) [] (ex_intro _ buffer (conj eq_refl eq_refl)) eq_refl eq_refl) as H.
  cbn [length] in H. destruct (fixed_answers (fun used n => used + n <? length buffer) 0 ops) as [rs w]. destruct H as (b & E & I). exists b. split; [exact E|]. exact (bw_view_inv b _ I).
Qed.
Print Assumptions C128_byte_writer_partial.
Print Assumptions C128_fixed_partial.
Example C128_ex : bw_view (snd (run bw_step [Write (repeat 1%Z 15); Write [2; 3]%Z; WriteByte 4%Z] (BW [] 0 true))) = repeat 1%Z 15 ++ [2; 3; 4]%Z /\
  fst (run bw_step [Write [1; 2]; Write [3; 4]; WriteByte 5]%Z (BW [0; 0; 0; 0]%Z 0 false)) = [Got 2; Fault OUT_OF_SPACE; Got 1].
Proof. split; reflexivity. Qed.
(** A fixed buffer cannot be filled: a write that fits exactly is refused. *)
Theorem C128_exact_fit_refuted : exists buffer ops,
  fst (fixed_answers (fun used n => used + n <=? length buffer) 0 ops) <> fst (run bw_step ops (BW buffer 0 false)).
Proof. exists [0]%Z, [WriteByte 5%Z]. discriminate. Qed.
(** Writing nothing when the buffer is full stops the program. *)
Theorem C128_empty_refuted : exists l, fst (run bw_step [Write l; Write []] (BW [] 0 true)) = [Got 16; Trap].
Proof. exists (repeat 1%Z 16). reflexivity. Qed.
(** Reading a whole stream: the writer gets all of a stream that hands out what it is asked for, but the answer may be EOF. *)
Theorem C128_read_from_partial : forall buffer ops data, ~ In (Write []) ops ->
  exists r b, bw_read_from (snd (run bw_step ops (BW buffer 0 true))) (Src data []) = (r, b, Src [] []) /\ bw_view b = written ops ++ data /\
    (r = Got (length data) \/ r = Fault EOF).
Proof.
  intros buffer ops data N. destruct (bytewriter_ok ops (BW buffer 0 true) [] (ex_intro _ buffer (conj eq_refl eq_refl)) eq_refl N) as (b & E & I).
  assert (A : bw_alloc (snd (run bw_step ops (BW buffer 0 true))) = true).
  { clear. generalize (eq_refl : bw_alloc (BW buffer 0 true) = true). generalize (BW buffer 0 true). induction ops as [|o ops IH]; intros b A; [exact A|]. cbn [run].
    assert (A1 : bw_alloc (snd (bw_step o b)) = true).
    { unfold bw_step, bw_ensure. destruct o as [l|c|]; [| |exact A]; rewrite A; cbn [negb]; match goal with |- context [if ?c then _ else _] => destruct c end; cbn [bw_i bw_bytes bw_alloc];
      repeat match goal with |- context [if ?c then _ else _] => destruct c | |- context [store ?a ?b ?c] => destruct (store a b c) end; cbn; auto. }
    destruct (bw_step o b) as [r b1]. specialize (IH b1 A1). destruct (run bw_step ops b1). exact IH. }
  rewrite E in A |- *. cbn [snd] in A |- *. destruct (read_from_ok b _ data I A) as (r & b' & R1 & R2 & R3). exists r, b'. split; [exact R1|]. split; [exact (bw_view_inv _ _ R2)|exact R3].
Qed.
Theorem C128_read_from_eof_refuted : exists data, fst (fst (bw_read_from (BW [] 0 true) (Src data []))) = Fault EOF /\ length data = 16.
Proof. exists (repeat 1%Z 16). split; reflexivity. Qed.
Theorem C128_read_from_short_refuted : exists s b, fair s /\ bw_read_from (BW [] 0 true) s = (Got 1, b, Src [2; 3]%Z []) /\ bw_view b = [1]%Z.
Proof. eexists (Src [1; 2; 3]%Z [1]), _. repeat split; repeat constructor. Qed.
Print Assumptions C128_exact_fit_refuted.
Print Assumptions C128_empty_refuted.
Print Assumptions C128_read_from_partial.
Print Assumptions C128_read_from_eof_refuted.
Print Assumptions C128_read_from_short_refuted.

(** ** C129 Scanning a stream for a delimiter gives the pieces between the delimiters *)
Theorem C129_scanner_partial : forall buf d pieces tail, buf <> [] -> Forall (fun p => ~ In d p /\ length p < length buf) pieces -> ~ In d tail ->
  fst (run (fun pat b => sc_scan b pat) (repeat [d] (length pieces) ++ [[d]]) (sc_init (Src (joined d pieces ++ tail) []) buf)) = map Got pieces ++ [Fault NOT_FOUND].
Proof. exact scanner_ok. Qed.
Print Assumptions C129_scanner_partial.
Example C129_ex : fst (run (fun pat b => sc_scan b pat) [[10]; [10]; [10]; [10]]%Z (sc_init (Src [1; 2; 10; 10; 3; 4; 5; 10; 6]%Z []) [0; 0; 0; 0]%Z)) =
  [Got [1; 2]; Got []; Got [3; 4; 5]; Fault NOT_FOUND]%Z.
Proof. reflexivity. Qed.
(** What is left after the last delimiter comes with bytes repeated. *)
Theorem C129_flush_refuted : exists buf data, length buf = 8 /\ let (rs, b) := run (fun pat b => sc_scan b pat) [[10]; [10]]%Z (sc_init (Src data []) buf) in
  data = [1; 2; 10; 3; 4; 5; 6; 7]%Z /\ rs = [Got [1; 2]%Z; Fault NOT_FOUND] /\ fst (sc_flush b) = Got [3; 4; 5; 6; 7; 5; 6; 7]%Z.
Proof. exists (repeat 0%Z 8), [1; 2; 10; 3; 4; 5; 6; 7]%Z. split; [reflexivity|]. cbv. repeat split. Qed.
(** A stream that hands out less than asked for: the delimiter is not found although it is in the stream. *)
Theorem C129_short_refuted : exists s buf, fair s /\ rest s = [1; 10]%Z /\ length buf = 8 /\ fst (sc_scan (sc_init s buf) [10]%Z) = Fault NOT_FOUND.
Proof. exists (Src [1; 10]%Z [1]), (repeat 0%Z 8). repeat split; repeat constructor. Qed.
(** A delimiter of two bytes that straddles the end of the buffer is not found. *)
Theorem C129_straddle_refuted : exists data buf, data = [1; 10; 11; 2; 10; 11]%Z /\ length buf = 5 /\
  fst (run (fun pat b => sc_scan b pat) [[10; 11]; [10; 11]]%Z (sc_init (Src data []) buf)) = [Got [1]%Z; Fault NOT_FOUND].
Proof. exists [1; 10; 11; 2; 10; 11]%Z, (repeat 0%Z 5). repeat split. Qed.
Print Assumptions C129_flush_refuted.
Print Assumptions C129_short_refuted.
Print Assumptions C129_straddle_refuted.

(** ** C130 A limited reader hands out the beginning of the stream *)
Theorem C130_limit_reader : forall s limit ops, fair s -> honest true (firstn limit (rest s)) ops (fst (run lr_step ops (LR s limit))).
Proof. exact limitreader_honest. Qed.
Theorem C130_limit_takes : forall s limit ops, fair s ->
  let (rs, b) := run lr_step ops (LR s limit) in rest s = answered rs ++ rest (lr_src b) /\ length (answered rs) <= limit.
Proof. intros s k ops F. pose proof (limitreader_takes s k ops F) as H. cbv zeta in H. destruct (run lr_step ops (LR s k)). exact H. Qed.
Print Assumptions C130_limit_reader.
Print Assumptions C130_limit_takes.
Example C130_ex : fst (run lr_step [Read 2; ReadByte; Read 9; Read 1] (LR (Src [1; 2; 3; 4; 5; 6]%Z [1; 1]) 4)) = [Got [1]; Got [2]; Got [3]; Got [4]]%Z.
Proof. reflexivity. Qed.
(** It says that more bytes are available than there are, and reading that many fails. *)
Theorem C130_available_refuted : exists s limit, fair s /\ length (firstn limit (rest s)) < lr_available (LR s limit) /\
  fst (read_fully (Src (firstn limit (rest s)) (plan s)) (lr_available (LR s limit))) = Fault EOF.
Proof. exists (Src [1]%Z []), 3. repeat split; repeat constructor. Qed.
Print Assumptions C130_available_refuted.

(** ** C131 A multi reader hands out the concatenation of its streams *)
Theorem C131_multi_reader_partial : forall streams ops, streams <> [] -> Forall fair streams ->
  honest false (concat (map rest streams)) ops (fst (run mr_step ops (MR [] streams))).
Proof. exact multireader_honest. Qed.
Print Assumptions C131_multi_reader_partial.
Example C131_ex : fst (run mr_step [Read 2; Read 2; ReadByte; ReadByte] (MR [] [Src [1]%Z []; Src [] []; Src [2; 3]%Z [1]])) = [Got [1]; Got [2]; Got [3]; Fault EOF]%Z.
Proof. reflexivity. Qed.
(** Reading once more after the end, or from no streams at all, stops the program. *)
Theorem C131_again_refuted : exists ops, fst (run mr_step ops (MR [] [Src [1]%Z []])) = [Got [1]%Z; Fault EOF; Trap] /\ fst (run mr_step [ReadByte] (MR [] [])) = [Trap].
Proof. exists [ReadByte; ReadByte; ReadByte]. split; reflexivity. Qed.
Print Assumptions C131_again_refuted.

(** ** C132 Duplicating streams *)
Theorem C132_tee : forall s before ops, fair s -> honest true (rest s) ops (fst (run tr_step ops (TR s (Snk before [])))).
Proof. exact teereader_honest. Qed.
Theorem C132_tee_copies : forall s before ops, fair s -> let (rs, b) := run tr_step ops (TR s (Snk before [])) in taken (tr_w b) = before ++ answered rs.
Proof. intros s t ops F. pose proof (teereader_copies ops (TR s (Snk t [])) (conj F eq_refl)) as H. destruct (run tr_step ops (TR s (Snk t []))). exact H. Qed.
(** Whatever the writers do: success means that each took everything; otherwise the ones before some writer took everything, that writer less, and the later ones nothing. *)
Theorem C132_multi_writer : forall l writers,
  match mw_write writers l with
  | (Got n, after) => n = length l /\ map taken after = map (fun w => taken w ++ l) writers
  | (Fault INCOMPLETE_WRITE, after) => exists a w b n, writers = a ++ w :: b /\ n < length l /\
      map taken after = map (fun w => taken w ++ l) a ++ (taken w ++ firstn n l) :: map taken b
  | _ => False
  end.
Proof. exact multiwriter_ok. Qed.
Print Assumptions C132_tee.
Print Assumptions C132_tee_copies.
Print Assumptions C132_multi_writer.
Example C132_ex : let (rs, b) := run tr_step [Read 2; ReadByte; ReadByte] (TR (Src [1; 2; 3]%Z [1]) (Snk [9]%Z [])) in
  rs = [Got [1]; Got [2]; Got [3]]%Z /\ taken (tr_w b) = [9; 1; 2; 3]%Z.
Proof. split; reflexivity. Qed.
Example C132_ex2 : fst (mw_write [Snk [] []; Snk [] [1]; Snk [] []] [1; 2]%Z) = Fault INCOMPLETE_WRITE /\ fst (mw_write [Snk [] []; Snk [] []] [1; 2]%Z) = Got 2.
Proof. split; reflexivity. Qed.

(** ** C133 Reading from bytes in memory *)
Theorem C133_byte_reader : forall bytes i ops, honest true (skipn i bytes) ops (fst (run br_step ops (BR bytes i))).
Proof. intros bytes i. exact (bytereader_honest (BR bytes i)). Qed.
(** Seeking: the position, if not negative, is where reading goes on. *)
Theorem C133_seek : forall b offset k ops, let p := (match k with SET => 0 | CURSOR => Z.of_nat (br_i b) | END => Z.of_nat (length (br_bytes b)) end + offset)%Z in
  match br_seek b offset k with
  | (Got q, b') => (q = p /\ 0 <= p)%Z /\ honest true (skipn (Z.to_nat p) (br_bytes b)) ops (fst (run br_step ops b'))
  | (Fault INVALID_POSITION, b') => (p < 0)%Z /\ b' = b
  | _ => False
  end.
Proof.
  intros b offset k ops p. unfold br_seek. replace (match k with SET => offset | CURSOR => Z.of_nat (br_i b) + offset | END => Z.of_nat (length (br_bytes b)) + offset end)%Z with p by (destruct k; reflexivity).
  destruct (Z.ltb_spec p 0); [auto|]. split; [auto|]. apply (bytereader_honest (BR (br_bytes b) (Z.to_nat p))).
Qed.
(** Putting back the last byte read. *)
Theorem C133_pushback : forall b c b', br_step ReadByte b = (Got [c], b') -> br_pushback b' = (Got tt, b).
Proof.
  intros [l i] c b'. unfold br_step, slice, br_pushback. cbn [br_i br_bytes]. destruct (Nat.leb_spec (length l) i); [discriminate|].
  replace (i + 1 <=? length l) with true by (symmetry; apply Nat.leb_le; lia). intros [= _ <-]. cbn [br_i br_bytes].
  replace (i + 1 =? 0) with false by (symmetry; apply Nat.eqb_neq; lia). now rewrite Nat.add_sub.
Qed.
Theorem C133_available_partial : forall bytes i, i <= length bytes -> (Z.of_nat (length bytes) < 2 ^ 64)%Z -> br_available (BR bytes i) = Z.of_nat (length (skipn i bytes)).
Proof. intros bytes i L B. unfold br_available. cbn [br_i br_bytes]. rewrite skipn_length, Z.mod_small, Nat2Z.inj_sub by lia. lia. Qed.
Theorem C133_available_refuted : exists b, fst (br_seek (BR [1; 2]%Z 0) 3 SET) = Got 3%Z /\ b = snd (br_seek (BR [1; 2]%Z 0) 3 SET) /\ br_available b = (2 ^ 64 - 1)%Z.
Proof. eexists; repeat split. Qed.
Print Assumptions C133_byte_reader.
Print Assumptions C133_seek.
Print Assumptions C133_pushback.
Print Assumptions C133_available_partial.
Print Assumptions C133_available_refuted.
Example C133_ex : fst (run br_step [Read 2; ReadByte; Read 4; Read 0] (BR [1; 2; 3; 4; 5]%Z 1)) = [Got [2; 3]; Got [4]; Got [5]; Fault EOF]%Z /\
  br_seek (BR [1; 2; 3]%Z 1) (-1) END = (Got 2%Z, BR [1; 2; 3]%Z 2).
Proof. split; reflexivity. Qed.

(** ** C134 Copying a stream *)
Theorem C134_copy : forall s w m, fair s -> 0 < m ->
  match copy_to s w m with
  | (Got n, s', w') => n = length (rest s) /\ rest s' = [] /\ taken w' = taken w ++ rest s
  | (Fault INCOMPLETE_WRITE, s', w') => exists a b, rest s = a ++ b /\ taken w' = taken w ++ a
  | _ => False
  end.
Proof. exact copy_ok. Qed.
(** A destination that takes everything gets everything. *)
Theorem C134_copy_full : forall s before m, fair s -> 0 < m -> exists s', copy_to s (Snk before []) m = (Got (length (rest s)), s', Snk (before ++ rest s) []) /\ rest s' = [].
Proof. exact copy_full. Qed.
Print Assumptions C134_copy.
Print Assumptions C134_copy_full.
Example C134_ex : copy_to (Src [1; 2; 3; 4; 5]%Z [1; 1]) (Snk [9]%Z []) 2 = (Got 5, Src [] [], Snk [9; 1; 2; 3; 4; 5]%Z []).
Proof. reflexivity. Qed.

(** ** C135 Reading a line *)
Theorem C135_readline : forall s, readline s = match rest s with [] => (Fault EOF, s) | l => (Got (fst (first_line l)), Src (snd (first_line l)) (plan s)) end.
Proof. exact readline_ok. Qed.
(** So texts of lines come back line by line, whether the lines end in LF or in CR LF. *)
Theorem C135_lines : forall line cr more p, ~ In 10%Z line -> ~ In 13%Z line -> readline (Src (line ++ (if cr : bool then [13; 10] else [10])%Z ++ more) p) = (Got line, Src more p).
Proof.
  intros line cr more p N1 N2. rewrite readline_ok. cbn [rest plan].
  assert (F : first_line (line ++ (if cr then [13; 10] else [10])%Z ++ more) = (line, more)).
  { induction line as [|c l IH]; [destruct cr; reflexivity|]. cbn [app first_line]. rewrite IH; [|intros X; apply N1; right; exact X|intros X; apply N2; right; exact X].
    destruct (Z.eqb_spec c 10) as [->|]; [exfalso; apply N1; left; reflexivity|]. destruct (Z.eqb_spec c 13) as [->|]; [exfalso; apply N2; left; reflexivity|reflexivity]. }
  destruct (line ++ (if cr then [13; 10] else [10])%Z ++ more) eqn:E; [destruct line, cr; discriminate|]. rewrite F. reflexivity.
Qed.
Print Assumptions C135_readline.
Print Assumptions C135_lines.
Example C135_ex : readline (Src [104; 105; 13; 10; 120]%Z []) = (Got [104; 105]%Z, Src [120]%Z []).
Proof. reflexivity. Qed.

(** ** C136 Reading an exact number of bytes *)
Theorem C136_read_all_partial : forall data m, m <= length data -> read_all (Src data []) m = (Got (firstn m data), Src (skipn m data) []).
Proof. exact read_all_ok. Qed.
Theorem C136_read_all_sound : forall s m l s', fair s -> read_all s m = (Got l, s') -> length l = m /\ rest s = l ++ rest s'.
Proof. exact read_all_sound. Qed.
(** However few bytes the stream hands out at a time, as long as it says truly how many there are. *)
Theorem C136_read_fully_partial : forall s avail, fair s -> avail <= length (rest s) ->
  exists s', read_fully s avail = (Got (firstn avail (rest s)), s') /\ rest s' = skipn avail (rest s).
Proof. exact read_fully_ok. Qed.
(** A stream with enough bytes that hands out fewer at a time is said to have ended. *)
Theorem C136_read_all_refuted : exists s, fair s /\ length (rest s) = 3 /\ fst (read_all s 2) = Fault UNEXPECTED_EOF.
Proof. exists (Src [1; 2; 3]%Z [1]). repeat split; repeat constructor. Qed.
(** A stream that can say nothing of what is available (stream.c3:37) reads as empty. *)
Theorem C136_read_fully_refuted : exists s, fair s /\ length (rest s) = 3 /\ fst (read_fully s 0) = Got [].
Proof. exists (Src [1; 2; 3]%Z []). repeat split; repeat constructor. Qed.
Print Assumptions C136_read_all_partial.
Print Assumptions C136_read_all_sound.
Print Assumptions C136_read_fully_partial.
Print Assumptions C136_read_all_refuted.
Print Assumptions C136_read_fully_refuted.
Example C136_ex : fst (read_fully (Src [1; 2; 3; 4]%Z [1; 2]) 4) = Got [1; 2; 3; 4]%Z /\ fst (read_all (Src [1; 2; 3; 4]%Z []) 3) = Got [1; 2; 3]%Z.
Proof. split; reflexivity. Qed.

(** ** C137 Integers of variable length are read back *)
Theorem C137_varint_partial : forall x more, (0 <= x < 2 ^ 29)%Z -> read_varint false (write_varint x ++ more) = (Got x, more).
Proof. exact varint_ok. Qed.
Theorem C137_varint_refuted : exists x, (0 <= x < 2 ^ 32)%Z /\ fst (read_varint false (write_varint x)) = Fault OVERFLOW.
Proof. exists (2 ^ 29)%Z. split; [lia|reflexivity]. Qed.
(** Signed numbers are not read back: 1 comes back as -1. *)
Theorem C137_signed_refuted : fst (read_varint true (write_varint 1)) = Got (-1)%Z /\ fst (read_varint true (write_varint (-3))) <> Got (-3)%Z.
Proof. split; [reflexivity|discriminate]. Qed.
Print Assumptions C137_varint_partial.
Print Assumptions C137_varint_refuted.
Print Assumptions C137_signed_refuted.
Example C137_ex : write_varint 300 = [172; 2]%Z /\ read_varint false [172; 2; 7]%Z = (Got 300, [7])%Z.
Proof. split; reflexivity. Qed.

(** ** C138 Big-endian integers and byte arrays are read back *)
Theorem C138_big_endian : forall n s more, (0 <= s < 2 ^ (8 * Z.of_nat n))%Z -> read_be n 0 (write_be n s ++ more) = (Got s, more).
Proof. intros n s more H. rewrite be_ok, Z.mod_small by exact H. reflexivity. Qed.
(** The bytes are the digits of the number to base 256, the highest first. *)
Theorem C138_bytes : forall n s, (0 <= s < 256 ^ Z.of_nat n)%Z -> length (write_be n s) = n /\ Forall (fun c => 0 <= c < 256)%Z (write_be n s) /\
  fold_left (fun v c => v * 256 + c)%Z (write_be n s) 0%Z = s.
Proof. intros n s H. destruct (be_bytes n s) as (A & B & C). split; [exact A|]. split; [exact B|]. rewrite C, Z.mod_small by exact H. lia. Qed.
Theorem C138_bytearray_partial : forall k data more, (Z.of_nat (length data) < 2 ^ (8 * Z.of_nat k))%Z ->
  read_bytearray k (Src (write_bytearray k data ++ more) []) = (Got data, Src more []).
Proof. exact bytearray_ok. Qed.
Theorem C138_bytearray_refuted : exists s, fair s /\ rest s = write_bytearray 1 [5; 6]%Z /\ fst (read_bytearray 1 s) = Fault UNEXPECTED_EOF.
Proof. exists (Src [2; 5; 6]%Z [1]). repeat split; repeat constructor. Qed.
Print Assumptions C138_big_endian.
Print Assumptions C138_bytes.
Print Assumptions C138_bytearray_partial.
Print Assumptions C138_bytearray_refuted.
Example C138_ex : write_be 4 0x12345678 = [0x12; 0x34; 0x56; 0x78]%Z /\ read_be 2 0 [1; 2; 3]%Z = (Got 258, [3])%Z /\ write_bytearray 2 [7]%Z = [0; 1; 7]%Z.
Proof. repeat split. Qed.
