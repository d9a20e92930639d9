(** Model of the streams of lib/std/io/stream and of the helpers of lib/std/io/stream.c3 and io.c3.
    Lengths and indices are [nat] (no stream of the model reaches 2^64 bytes); bytes are [Z].
    [Trap] is a failed bounds check or assertion, or a call through a missing allocator; [Fault] a fault returned to the caller. *)
From Coq Require Import ZArith Bool List.
Import ListNotations.

Inductive fault := EOF | NOT_FOUND | OUT_OF_SPACE | INCOMPLETE_WRITE | INVALID_POSITION | INVALID_PUSHBACK | UNEXPECTED_EOF | OVERFLOW | GENERAL_ERROR.
Inductive out (A : Type) := Got (a : A) | Fault (f : fault) | Trap.
Arguments Got {A} a. Arguments Fault {A} f. Arguments Trap {A}.

(** A stream that is wrapped by another: the bytes still to come, and how many bytes the next reads hand out at most.
    The interface (stream.c3:4-14) leaves a stream free to hand out fewer bytes than asked for; [plan] covers every such behaviour. *)
Record source := Src { rest : list Z; plan : list nat }.
Definition src_read (s : source) (m : nat) : out (list Z) * source :=
  match rest s with
  | [] => (Fault EOF, s)
  | _ => let n := match plan s with [] => m | k :: _ => Nat.min k m end in (Got (firstn n (rest s)), Src (skipn n (rest s)) (tl (plan s)))
  end.
Definition src_read_byte (s : source) : out Z * source :=
  match rest s with [] => (Fault EOF, s) | c :: r => (Got c, Src r (plan s)) end.
(** A stream that is written to: the bytes it has taken, and how many bytes the next writes take at most. *)
Record sink := Snk { taken : list Z; room : list nat }.
Definition snk_write (s : sink) (l : list Z) : nat * sink :=
  let n := match room s with [] => length l | k :: _ => Nat.min k (length l) end in (n, Snk (taken s ++ firstn n l) (tl (room s))).

(** Slices and stores with bounds checks. *)
Definition slice (l : list Z) (i n : nat) : out (list Z) := if i + n <=? length l then Got (firstn n (skipn i l)) else Trap.
Definition store (l : list Z) (i : nat) (x : list Z) : out (list Z) :=
  if i + length x <=? length l then Got (firstn i l ++ x ++ skipn (i + length x) l) else Trap.

(** What is asked of a reader. *)
Inductive rop := Read (m : nat) | ReadByte.
Definition one (r : out Z) : out (list Z) := match r with Got c => Got [c] | Fault f => Fault f | Trap => Trap end.

(** ** stream/buffer.c3:3-62 ReadBuffer *)
Record readbuffer := RB { rb_src : source; rb_bytes : list Z; rb_r : nat; rb_w : nat }.
(** buffer.c3:58-62 refill: read_idx is set before the wrapped stream is read. *)
Definition rb_refill (b : readbuffer) : out unit * readbuffer :=
  let (r, s) := src_read (rb_src b) (length (rb_bytes b)) in
  match r with
  | Got l => (Got tt, RB s (l ++ skipn (length l) (rb_bytes b)) 0 (length l))
  | Fault f => (Fault f, RB s (rb_bytes b) 0 (rb_w b))
  | Trap => (Trap, RB s (rb_bytes b) 0 (rb_w b))
  end.
(** buffer.c3:43-46: the end of read. *)
Definition rb_take (b : readbuffer) (m : nat) : out (list Z) * readbuffer :=
  let n := Nat.min (rb_w b - rb_r b) m in
  match slice (rb_bytes b) (rb_r b) n with
  | Got l => (Got l, RB (rb_src b) (rb_bytes b) (rb_r b + n) (rb_w b))
  | _ => (Trap, b)
  end.
(** buffer.c3:32-56 read, read_byte. *)
Definition rb_step (o : rop) (b : readbuffer) : out (list Z) * readbuffer :=
  match o with
  | Read m =>
    if rb_r b =? rb_w b then
      if (rb_r b =? 0) && (length (rb_bytes b) <=? m) then
        let (r, s) := src_read (rb_src b) m in (r, RB s (rb_bytes b) (rb_r b) (rb_w b))
      else match rb_refill b with
           | (Got _, b) => rb_take b m
           | (Fault f, b) => (Fault f, b)
           | (Trap, b) => (Trap, b)
           end
    else rb_take b m
  | ReadByte =>
    let k b := if rb_r b =? rb_w b then (Fault EOF, b) else
               match slice (rb_bytes b) (rb_r b) 1 with Got l => (Got l, RB (rb_src b) (rb_bytes b) (rb_r b + 1) (rb_w b)) | _ => (Trap, b) end in
    if rb_r b =? rb_w b then match rb_refill b with (Got _, b) => k b | (Fault f, b) => (Fault f, b) | (Trap, b) => (Trap, b) end else k b
  end.
Definition rb_init (s : source) (bytes : list Z) : readbuffer := RB s bytes 0 0.

(** ** stream/bytereader.c3:3-54 ByteReader *)
Record bytereader := BR { br_bytes : list Z; br_i : nat }.
Definition br_step (o : rop) (b : bytereader) : out (list Z) * bytereader :=
  match o with
  | Read m =>
    if length (br_bytes b) <=? br_i b then (Fault EOF, b) else
    let n := Nat.min (length (br_bytes b) - br_i b) m in
    if n =? 0 then (Got [], b) else
    (slice (br_bytes b) (br_i b) n, BR (br_bytes b) (br_i b + n))
  | ReadByte =>
    if length (br_bytes b) <=? br_i b then (Fault EOF, b) else (slice (br_bytes b) (br_i b) 1, BR (br_bytes b) (br_i b + 1))
  end.
Definition br_pushback (b : bytereader) : out unit * bytereader := if br_i b =? 0 then (Fault INVALID_PUSHBACK, b) else (Got tt, BR (br_bytes b) (br_i b - 1)).
Inductive seek := SET | CURSOR | END.
Definition br_seek (b : bytereader) (offset : Z) (k : seek) : out Z * bytereader :=
  let new_index := match k with SET => offset | CURSOR => Z.of_nat (br_i b) + offset | END => Z.of_nat (length (br_bytes b)) + offset end%Z in
  if (new_index <? 0)%Z then (Fault INVALID_POSITION, b) else (Got new_index, BR (br_bytes b) (Z.to_nat new_index)).
(** bytereader.c3:65-68 available: the subtraction is unsigned, so the maximum with 0 is the wrapped difference. *)
Definition br_available (b : bytereader) : Z := Z.max 0 ((Z.of_nat (length (br_bytes b)) - Z.of_nat (br_i b)) mod 2 ^ 64)%Z.

(** ** stream/limitreader.c3:25-44 LimitReader *)
Record limitreader := LR { lr_src : source; lr_limit : nat }.
Definition lr_step (o : rop) (b : limitreader) : out (list Z) * limitreader :=
  match o with
  | Read m =>
    if lr_limit b =? 0 then (Fault EOF, b) else
    let (r, s) := src_read (lr_src b) (Nat.min m (lr_limit b)) in
    (r, LR s (match r with Got l => lr_limit b - length l | _ => lr_limit b end))
  | ReadByte =>
    if lr_limit b =? 0 then (Fault EOF, b) else
    let (r, s) := src_read_byte (lr_src b) in
    (one r, LR s (match r with Got _ => lr_limit b - 1 | _ => lr_limit b end))
  end.
Definition lr_available (b : limitreader) : nat := lr_limit b.

(** ** stream/multireader.c3:46-68 MultiReader: the readers before [index] and those from it on; the recursion of read is over the latter. *)
Record multireader := MR { mr_done : list source; mr_todo : list source }.
Fixpoint mr_read (done todo : list source) (m : nat) : out (list Z) * multireader :=
  match todo with
  | [] => (Trap, MR done [])
  | r :: more =>
    match src_read r m with
    | (Got l, r) => (Got l, MR done (r :: more))
    | (Fault EOF, r) => match more with [] => (Fault EOF, MR (done ++ [r]) []) | _ => mr_read (done ++ [r]) more m end
    | (Fault f, r) => (Fault f, MR done (r :: more))
    | (Trap, r) => (Trap, MR done (r :: more))
    end
  end.
Definition mr_step (o : rop) (b : multireader) : out (list Z) * multireader :=
  match o with
  | Read m => mr_read (mr_done b) (mr_todo b) m
  | ReadByte =>
    match mr_read (mr_done b) (mr_todo b) 1 with
    | (Got [], b) => (Got [0%Z], b)      (* data is zero and is returned although nothing was read *)
    | (r, b) => (r, b)
    end
  end.

(** ** stream/teereader.c3:28-42 TeeReader *)
Record teereader := TR { tr_r : source; tr_w : sink }.
Definition tr_read (b : teereader) (m : nat) : out (list Z) * teereader :=
  let (r, s) := src_read (tr_r b) m in
  match r with
  | Got l => let (n, w) := snk_write (tr_w b) l in (if n =? length l then Got l else Fault GENERAL_ERROR, TR s w)
  | _ => (r, TR s (tr_w b))
  end.
Definition tr_step (o : rop) (b : teereader) : out (list Z) * teereader :=
  match o with
  | Read m => tr_read b m
  | ReadByte => match tr_read b 1 with (Got [], b) => (Got [0%Z], b) | (r, b) => (r, b) end
  end.

(** ** stream/buffer.c3:64-136 WriteBuffer *)
Inductive wop := Write (l : list Z) | WriteByte (c : Z) | Flush.
Record writebuffer := WB { wb_snk : sink; wb_bytes : list Z; wb_i : nat }.
(** buffer.c3:132-136 write_pending. *)
Definition wb_pending (b : writebuffer) : out unit * writebuffer :=
  match slice (wb_bytes b) 0 (wb_i b) with
  | Got l => let (n, s) := snk_write (wb_snk b) l in let i := wb_i b - n in
             (if i =? 0 then Got tt else Fault INCOMPLETE_WRITE, WB s (wb_bytes b) i)
  | _ => (Trap, b)
  end.
Definition wb_put (b : writebuffer) (l : list Z) : out nat * writebuffer :=
  match store (wb_bytes b) (wb_i b) l with Got x => (Got (length l), WB (wb_snk b) x (wb_i b + length l)) | _ => (Trap, b) end.
(** buffer.c3:93-130 flush, write, write_byte; the answer is the number of bytes. *)
Definition wb_step (o : wop) (b : writebuffer) : out nat * writebuffer :=
  match o with
  | Flush => match wb_pending b with (Got _, b) => (Got 0, b) | (Fault f, b) => (Fault f, b) | (Trap, b) => (Trap, b) end
  | Write l =>
    if length l <? length (wb_bytes b) - wb_i b then wb_put b l else
    match wb_pending b with
    | (Got _, b) =>
      if length (wb_bytes b) <=? length l then let (n, s) := snk_write (wb_snk b) l in (Got n, WB s (wb_bytes b) (wb_i b))
      else match store (wb_bytes b) 0 l with Got x => (Got (length l), WB (wb_snk b) x (length l)) | _ => (Trap, b) end
    | (Fault f, b) => (Fault f, b)
    | (Trap, b) => (Trap, b)
    end
  | WriteByte c =>
    if length (wb_bytes b) - wb_i b =? 0 then
      match wb_pending b with (Got _, b) => wb_put b [c] | (Fault f, b) => (Fault f, b) | (Trap, b) => (Trap, b) end
    else wb_put b [c]
  end.
Definition wb_init (s : sink) (bytes : list Z) : writebuffer := WB s bytes 0.

(** ** stream/multiwriter.c3:43-59 MultiWriter *)
Fixpoint mw_write (ws : list sink) (l : list Z) : out nat * list sink :=
  match ws with
  | [] => (Got (length l), [])
  | w :: r =>
    let (n, w') := snk_write w l in
    if negb (n =? length l) then (Fault INCOMPLETE_WRITE, w' :: r) else let (x, r') := mw_write r l in (x, w' :: r')
  end.

(** math.c3:969-974 next_power_of_2. *)
Fixpoint np2 (fuel y x : nat) : nat := if y <? x then match fuel with O => y | S f => np2 f (y + y) x end else y.
Definition next_power_of_2 (x : nat) : nat := np2 x 1 x.
(** realloc to n bytes; bytes behind the old ones are unspecified, here 0. *)
Definition resize (l : list Z) (n : nat) : list Z := firstn n l ++ repeat 0%Z (n - length l).

(** ** stream/bytebuffer.c3 ByteBuffer *)
Record bytebuffer := BB { bb_alloc : bool; bb_max : nat; bb_bytes : list Z; bb_r : nat; bb_w : nat; bb_last : bool }.
(** bytebuffer.c3:131-136 grow. *)
Definition bb_grow (b : bytebuffer) (n : nat) : out bytebuffer :=
  if negb (bb_alloc b) then Trap else
  Got (BB true (bb_max b) (resize (bb_bytes b) (next_power_of_2 n)) (bb_r b) (bb_w b) (bb_last b)).
(** bytebuffer.c3:19-25 init, 36-40 init_with_buffer. *)
Definition bb_init (max_read cap : nat) : bytebuffer := BB true max_read (repeat 0%Z (next_power_of_2 (Nat.max cap 16))) 0 0 false.
Definition bb_init_with_buffer (buf : list Z) : bytebuffer := BB false (length buf) buf 0 0 false.
Inductive bop := BWrite (l : list Z) | BWriteByte (c : Z) | BRead (m : nat) | BReadByte | BPushback.
Definition bb_put (b : bytebuffer) (l : list Z) : out (list Z) * bytebuffer :=
  match store (bb_bytes b) (bb_w b) l with
  | Got x => (Got [], BB (bb_alloc b) (bb_max b) x (bb_r b) (bb_w b + length l) (bb_last b))
  | _ => (Trap, b)
  end.
(** bytebuffer.c3:138-148 shrink. *)
Definition bb_shrink (b : bytebuffer) : out bytebuffer :=
  if bb_max b <=? bb_r b then
    let readable := bb_w b - bb_r b in
    if bb_r b =? 0 then Trap else
    match slice (bb_bytes b) (bb_r b - 1) (1 + readable) with
    | Got l => match store (bb_bytes b) 0 l with Got x => Got (BB (bb_alloc b) (bb_max b) x 1 (1 + readable) (bb_last b)) | _ => Trap end
    | _ => Trap
    end
  else Got b.
(** bytebuffer.c3:48-105 write, write_byte, read, read_byte, pushback_byte; the answer is the bytes read. *)
Definition bb_step (o : bop) (b : bytebuffer) : out (list Z) * bytebuffer :=
  match o with
  | BWrite l =>
    if length (bb_bytes b) - bb_w b <? length l then match bb_grow b (length l) with Got b => bb_put b l | _ => (Trap, b) end else bb_put b l
  | BWriteByte c =>
    if length (bb_bytes b) - bb_w b =? 0 then match bb_grow b 1 with Got b => bb_put b [c] | _ => (Trap, b) end else bb_put b [c]
  | BRead m =>
    let readable := bb_w b - bb_r b in
    if readable =? 0 then (Fault EOF, BB (bb_alloc b) (bb_max b) (bb_bytes b) (bb_r b) (bb_w b) false) else
    let n := Nat.min readable m in
    match slice (bb_bytes b) (bb_r b) n with
    | Got l => match bb_shrink (BB (bb_alloc b) (bb_max b) (bb_bytes b) (bb_r b + n) (bb_w b) (0 <? n)) with Got b => (Got l, b) | _ => (Trap, b) end
    | _ => (Trap, b)
    end
  | BReadByte =>
    let readable := bb_w b - bb_r b in
    if readable =? 0 then (Fault EOF, BB (bb_alloc b) (bb_max b) (bb_bytes b) (bb_r b) (bb_w b) false) else
    match slice (bb_bytes b) (bb_r b) 1 with
    | Got l => match bb_shrink (BB (bb_alloc b) (bb_max b) (bb_bytes b) (bb_r b + 1) (bb_w b) true) with Got b => (Got l, b) | _ => (Trap, b) end
    | _ => (Trap, b)
    end
  | BPushback =>
    if negb (bb_last b) then (Fault EOF, b) else if bb_r b =? 0 then (Trap, b) else
    (Got [], BB (bb_alloc b) (bb_max b) (bb_bytes b) (bb_r b - 1) (bb_w b) false)
  end.

(** ** stream/bytewriter.c3 ByteWriter *)
Record bytewriter := BW { bw_bytes : list Z; bw_i : nat; bw_alloc : bool }.
(** bytewriter.c3:51-59 ensure_capacity; memory does not run out. *)
Definition bw_ensure (b : bytewriter) (len : nat) : out unit * bytewriter :=
  if len <? length (bw_bytes b) then (Got tt, b) else
  if negb (bw_alloc b) then (Fault OUT_OF_SPACE, b) else
  (Got tt, BW (resize (bw_bytes b) (next_power_of_2 (Nat.max len 16))) (bw_i b) true).
(** bytewriter.c3:61-73 write, write_byte; taking the address of bytes[index] checks the index. *)
Definition bw_step (o : wop) (b : bytewriter) : out nat * bytewriter :=
  match o with
  | Flush => (Got 0, b)
  | Write l =>
    match bw_ensure b (bw_i b + length l) with
    | (Got _, b) => if bw_i b <? length (bw_bytes b) then
                      match store (bw_bytes b) (bw_i b) l with Got x => (Got (length l), BW x (bw_i b + length l) (bw_alloc b)) | _ => (Trap, b) end
                    else (Trap, b)
    | (Fault f, b) => (Fault f, b)
    | (Trap, b) => (Trap, b)
    end
  | WriteByte c =>
    match bw_ensure b (bw_i b + 1) with
    | (Got _, b) => match store (bw_bytes b) (bw_i b) [c] with Got x => (Got 1, BW x (bw_i b + 1) (bw_alloc b)) | _ => (Trap, b) end
    | (Fault f, b) => (Fault f, b)
    | (Trap, b) => (Trap, b)
    end
  end.
Definition bw_view (b : bytewriter) : list Z := firstn (bw_i b) (bw_bytes b).
(** bytewriter.c3:79-113 read_from, for a stream without [available]. *)
Fixpoint bw_read_loop (fuel : nat) (b : bytewriter) (s : source) (start : nat) : out nat * bytewriter * source :=
  match fuel with
  | O => (Trap, b, s)
  | S fuel =>
    let len := length (bw_bytes b) - bw_i b in
    match (if len <? 16 then bw_ensure b (length (bw_bytes b) * 2) else (Got tt, b)) with
    | (Got _, b) =>
      let len := length (bw_bytes b) - bw_i b in
      match src_read s len with
      | (Got l, s) =>
        match store (bw_bytes b) (bw_i b) l with
        | Got x => let b := BW x (bw_i b + length l) (bw_alloc b) in
                   if length l <? len then (Got (bw_i b - start), b, s) else bw_read_loop fuel b s start
        | _ => (Trap, b, s)
        end
      | (Fault f, s) => (Fault f, b, s)
      | (Trap, s) => (Trap, b, s)
      end
    | (Fault f, b) => (Fault f, b, s)
    | (Trap, b) => (Trap, b, s)
    end
  end.
Definition bw_read_from (b : bytewriter) (s : source) : out nat * bytewriter * source :=
  match (if length (bw_bytes b) =? 0 then bw_ensure b 16 else (Got tt, b)) with
  | (Got _, b) => bw_read_loop (S (length (rest s))) b s (bw_i b)
  | (Fault f, b) => (Fault f, b, s)
  | (Trap, b) => (Trap, b, s)
  end.

(** ** stream/scanner.c3 Scanner *)
Record scanner := SC { sc_src : source; sc_buf : list Z; sc_p : nat; sc_r : nat }.
(** String.index_of (C97): the first place of the pattern. *)
Fixpoint starts (pat l : list Z) : bool :=
  match pat, l with [], _ => true | p :: pat, c :: l => (p =? c)%Z && starts pat l | _, [] => false end.
Fixpoint find (l pat : list Z) : option nat :=
  if starts pat l then Some 0 else match l with [] => None | _ :: r => match find r pat with Some i => Some (S i) | None => None end end.
Definition sc_init (s : source) (buf : list Z) : scanner := SC s buf 0 0.
(** scanner.c3:28-36 flush. *)
Definition sc_flush (b : scanner) : out (list Z) * scanner :=
  if sc_r b <? sc_p b then (Trap, b) else
  match slice (sc_buf b) (sc_p b) (sc_r b - sc_p b) with Got l => (Got l, SC (sc_src b) (sc_buf b) 0 0) | _ => (Trap, b) end.
(** scanner.c3:90-99 refill: EOF becomes NOT_FOUND. *)
Definition sc_refill (s : source) (m : nat) : out (list Z) * source :=
  match src_read s m with (Fault EOF, s) => (Fault NOT_FOUND, s) | r => r end.
(** scanner.c3:56-83: scan after the first read. *)
Definition sc_search (b : scanner) (pat : list Z) : out (list Z) * scanner :=
  if sc_r b <? sc_p b then (Trap, b) else
  let n := sc_r b - sc_p b in
  match slice (sc_buf b) (sc_p b) n with
  | Got buf =>
    match find buf pat with
    | Some i => (Got (firstn i buf), SC (sc_src b) (sc_buf b) (sc_p b + i + length pat) (sc_r b))
    | None =>
      if (sc_p b =? 0) || (sc_r b <? length (sc_buf b)) then (Fault NOT_FOUND, b) else
      match store (sc_buf b) 0 buf with
      | Got moved =>
        match sc_refill (sc_src b) (length moved - n) with
        | (Got l, s) =>
          match store moved n l with
          | Got full =>
            match find l pat with
            | Some i => (Got (firstn (n + i) full), SC s full (n + i + length pat) (n + length l))
            | None => (Fault NOT_FOUND, SC s full 0 (n + length l))
            end
          | _ => (Trap, b)
          end
        | (r, s) => (r, SC s moved 0 (sc_r b))          (* read_idx keeps its old value *)
        end
      | _ => (Trap, b)
      end
    end
  | _ => (Trap, b)
  end.
(** scanner.c3:48-55: the first read. *)
Definition sc_scan (b : scanner) (pat : list Z) : out (list Z) * scanner :=
  if sc_r b =? 0 then
    match sc_refill (sc_src b) (length (sc_buf b)) with
    | (Got l, s) => match store (sc_buf b) 0 l with Got x => sc_search (SC s x 0 (length l)) pat | _ => (Trap, b) end
    | (r, s) => (r, SC s (sc_buf b) (sc_p b) (sc_r b))
    end
  else sc_search b pat.
(** scanner.c3:101-113 read: on EOF of the wrapped stream the bytes already copied are not reported. *)
Definition sc_read (b : scanner) (m : nat) : out (list Z) * scanner :=
  if sc_p b <? sc_r b then
    let n := Nat.min m (sc_r b - sc_p b) in
    match slice (sc_buf b) (sc_p b) n with
    | Got l =>
      match src_read (sc_src b) (m - n) with
      | (Got l2, s) => (Got (l ++ l2), SC s (sc_buf b) (sc_p b + n) (sc_r b))
      | (r, s) => (r, SC s (sc_buf b) (sc_p b + n) (sc_r b))
      end
    | _ => (Trap, b)
    end
  else let (r, s) := src_read (sc_src b) m in (r, SC s (sc_buf b) (sc_p b) (sc_r b)).

(** ** stream.c3 helpers *)
(** stream.c3:72-78 read_all. *)
Definition read_all (s : source) (m : nat) : out (list Z) * source :=
  if m =? 0 then (Got [], s) else
  match src_read s m with (Got l, s) => (if length l =? m then Got l else Fault UNEXPECTED_EOF, s) | r => r end.
(** stream.c3:83-94 read_fully of a stream that says [avail] bytes are available. *)
Fixpoint read_fully_loop (fuel : nat) (s : source) (len : nat) (data : list Z) : out (list Z) * source :=
  if length data <? len then
    match fuel with
    | O => (Trap, s)
    | S fuel => match src_read s (len - length data) with (Got l, s) => read_fully_loop fuel s len (data ++ l) | r => r end
    end
  else (Got data, s).
Definition read_fully (s : source) (avail : nat) : out (list Z) * source := read_fully_loop (S (length (rest s))) s avail [].
(** stream.c3:168-184 copy_through_buffer with a buffer of [m] bytes. *)
Fixpoint copy_loop (fuel : nat) (s : source) (w : sink) (m total : nat) : out nat * source * sink :=
  match fuel with
  | O => (Trap, s, w)
  | S fuel =>
    match src_read s m with
    | (Got l, s) =>
      if length l =? 0 then (Got total, s, w) else
      let (n, w) := snk_write w l in
      if negb (n =? length l) then (Fault INCOMPLETE_WRITE, s, w) else copy_loop fuel s w m (total + length l)
    | (Fault EOF, s) => (Got total, s, w)
    | (Fault f, s) => (Fault f, s, w)
    | (Trap, s) => (Trap, s, w)
    end
  end.
Definition copy_to (s : source) (w : sink) (m : nat) : out nat * source * sink := copy_loop (S (length (rest s))) s w m 0.
(** io.c3:56-89 readline; the bytes are read one by one. *)
Fixpoint line_loop (fuel : nat) (s : source) (str : list Z) : out (list Z) * source :=
  match fuel with
  | O => (Trap, s)
  | S fuel =>
    match src_read_byte s with
    | (Got c, s) => if (c =? 13)%Z then line_loop fuel s str else if (c =? 10)%Z then (Got str, s) else line_loop fuel s (str ++ [c])
    | (Fault EOF, s) => (Got str, s)
    | (Fault f, s) => (Fault f, s)
    | (Trap, s) => (Trap, s)
    end
  end.
Definition readline (s : source) : out (list Z) * source :=
  match src_read_byte s with
  | (Got c, s) => if (c =? 10)%Z then (Got [], s) else line_loop (S (length (rest s))) s (if (c =? 13)%Z then [] else [c])
  | (Fault f, s) => (Fault f, s)
  | (Trap, s) => (Trap, s)
  end.

(** stream.c3:192-241 read_varint and write_varint for the 32-bit types (MAX = 5).  [x] is a [uint]. *)
Local Open Scope Z_scope.
Definition u32 (x : Z) : Z := x mod 2 ^ 32.
Fixpoint write_varint_loop (fuel : nat) (x : Z) : list Z :=
  match fuel with
  | O => []
  | S f => if 128 <=? x then Z.lor x 128 mod 256 :: write_varint_loop f (x / 128) else [x mod 256]
  end.
(** The loop of an unsigned x has at most five rounds; a negative [int] has one (x >= 0x80 is false). *)
Definition write_varint (x : Z) : list Z := write_varint_loop 5 x.
Fixpoint read_varint_loop (l : list Z) (left : nat) (shift x : Z) (is_signed : bool) : out Z * list Z :=
  match left with
  | O => (Fault OVERFLOW, l)
  | S left' =>
    match l with
    | [] => (Fault UNEXPECTED_EOF, [])
    | c :: r =>
      if Z.land c 128 =? 0 then
        if (left =? 1)%nat && (1 <? c) then (Fault OVERFLOW, r) else
        let x := Z.lor x (u32 (c * 2 ^ shift)) in
        (Got (if is_signed then (if Z.land x 1 =? 0 then (if x <? 2 ^ 31 then x else x - 2 ^ 32) / 2 else - ((if x <? 2 ^ 31 then x else x - 2 ^ 32) / 2) - 1) else x), r)
      else read_varint_loop r left' (shift + 7) (Z.lor x (u32 (Z.land c 127 * 2 ^ shift))) is_signed
    end
  end.
Definition read_varint (is_signed : bool) (l : list Z) : out Z * list Z := read_varint_loop l 5 0 0 is_signed.
(** stream.c3:246-390 big-endian integers of [n] bytes: read_be_ushort, uint, ulong, uint128; write_be_short, int, long, int128. *)
Fixpoint write_be (n : nat) (s : Z) : list Z := match n with O => [] | S m => Z.shiftr s (8 * Z.of_nat m) mod 256 :: write_be m s end.
Fixpoint read_be (n : nat) (val : Z) (l : list Z) : out Z * list Z :=
  match n with
  | O => (Got val, l)
  | S m => match l with [] => (Fault EOF, []) | c :: r => read_be m (val + Z.shiftl c (8 * Z.of_nat m)) r end
  end.
(** stream.c3:396-434 write_tiny_bytearray, write_short_bytearray ([k] = 1 or 2 length bytes) and their readers. *)
Definition write_bytearray (k : nat) (data : list Z) : list Z := write_be k (Z.of_nat (length data)) ++ data.
Definition read_bytearray (k : nat) (s : source) : out (list Z) * source :=
  match read_be k 0 (rest s) with
  | (Got len, r) => if len =? 0 then (Got [], Src r (plan s)) else read_all (Src r (plan s)) (Z.to_nat len)
  | (Fault f, r) => (Fault f, Src r (plan s))
  | (Trap, r) => (Trap, Src r (plan s))
  end.
