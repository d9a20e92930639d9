(** Model of lib/std/compression/qoi.c3: the QOI image encoder and decoder.
    Bytes are integers in 0..255; the machine is little endian (the two-byte luma chunk is a
    bitstruct over a native ushort).  An access outside the input or output buffer is the outcome
    [QOob] (bounds-check panic in safe mode, undefined otherwise).  Positions are kept as integers:
    the code's [uint] positions stay below 14 + 5 * 400000000 + 8 < 2^32. *)
From Coq Require Import ZArith Bool List Lia.
Import ListNotations.
Open Scope Z_scope.

Inductive qfault := INVALID_PARAMETERS | INVALID_DATA | TOO_MANY_PIXELS.
Inductive qres (A : Type) := QOk (a : A) | QFault (f : qfault) | QOob.
Arguments QOk {A} a. Arguments QFault {A} f. Arguments QOob {A}.

(** qoi.c3:419: a pixel, a vector of four bytes *)
Record px := Px { pr : Z; pg : Z; pb : Z; pa : Z }.
Definition px_eqb (p q : px) : bool :=
  (pr p =? pr q) && (pg p =? pg q) && (pb p =? pb q) && (pa p =? pa q).
(** qoi.c3:420-423 (operands are promoted to int, no wrap) *)
Definition hash (p : px) : Z := (pr p * 3 + pg p * 5 + pb p * 7 + pa p * 11) mod 64.

(** qoi.c3:158, 311: [Pixel[64] palette], zero-initialised; only indexed by 6-bit values, so an
    array is represented by the function from its index *)
Definition palette := Z -> px.
Definition pal0 : palette := fun _ => Px 0 0 0 0.
Definition pal_set (f : palette) (i : Z) (p : px) : palette := fun j => if j =? i then p else f j.

(** qoi.c3:32-38; channels: 0 AUTO, 3 RGB, 4 RGBA (qoi.c3:22-27); colorspace 0 or 1 *)
Record desc := Desc { dwidth : Z; dheight : Z; dchannels : Z; dcolorspace : Z }.

(** qoi.c3:3 *)
Definition PIXELS_MAX := 400000000.
(** qoi.c3:403 *)
Definition END_OF_STREAM := [0; 0; 0; 0; 0; 0; 0; 1].
Definition HEADER_SIZE := 14.
(** qoi.c3:383-390 *)
Definition OP_RGB := 254.
Definition OP_RGBA := 255.
Definition OP_INDEX := 0.
Definition OP_DIFF := 1.
Definition OP_LUMA := 2.
Definition OP_RUN := 3.

(** a 32-bit integer stored with bswap on a little-endian machine *)
Definition be32 (x : Z) : list Z :=
  [x / 16777216 mod 256; x / 65536 mod 256; x / 256 mod 256; x mod 256].
Definition ichar (x : Z) : Z := (x + 128) mod 256 - 128.
Definition u32 (x : Z) : Z := x mod 4294967296.
Definition zlen {A} (l : list A) : Z := Z.of_nat (length l).

(** ** Encoder *)

(** qoi.c3:440-463: bitstructs, as the bytes they occupy; each field is masked to its width *)
Definition op_index (i : Z) : list Z := [OP_INDEX * 64 + i mod 64].
Definition op_diff (r g b : Z) : list Z := [OP_DIFF * 64 + (r mod 4) * 16 + (g mod 4) * 4 + b mod 4].
Definition op_luma (g r b : Z) : list Z := [OP_LUMA * 64 + g mod 64; (r mod 16) * 16 + b mod 16].
Definition op_run (n : Z) : list Z := [OP_RUN * 64 + n mod 64].

(** qoi.c3:193-247: the chunk emitted for a pixel that differs from the previous one, and the palette after it *)
Definition enc_px (prev p : px) (pal : palette) : list Z * palette :=
  let raw :=
    ((if negb (pa prev =? pa p) then [OP_RGBA; pr p; pg p; pb p; pa p] else [OP_RGB; pr p; pg p; pb p]),
     pal_set pal (hash p) p) in
  if px_eqb (pal (hash p)) p then (op_index (hash p), pal)
  else if negb (px_eqb prev p) && (pa prev =? pa p) then
    let dr := ichar (pr p - pr prev) in
    let dg := ichar (pg p - pg prev) in
    let db := ichar (pb p - pb prev) in
    if (-3 <? dr) && (dr <? 2) && (-3 <? dg) && (dg <? 2) && (-3 <? db) && (db <? 2) then
      (op_diff ((dr mod 256 + 2) mod 256) ((dg mod 256 + 2) mod 256) ((db mod 256 + 2) mod 256),
       pal_set pal (hash p) p)
    else
      let lr := ichar (dr - dg) in
      let lg := dg in
      let lb := ichar (db - dg) in
      if (-8 <=? lr) && (lr <=? 7) && (-32 <=? lg) && (lg <=? 31) && (-8 <=? lb) && (lb <=? 7) then
        (op_luma ((lg mod 256 + 32) mod 256) ((lr mod 256 + 8) mod 256) ((lb mod 256 + 8) mod 256),
         pal_set pal (hash p) p)
      else raw
  else raw.

(** qoi.c3:467-473 used for writing: append a chunk to the output, which holds at most [max] bytes *)
Definition emit (max : Z) (out chunk : list Z) : qres (list Z) :=
  if zlen out + zlen chunk <=? max then QOk (out ++ chunk) else QOob.

(** qoi.c3:175-191: a pixel [p] after [prev] at [loc] *)
Definition enc_step (max loc loc_end : Z) (prev p : px) (pal : palette) (run : Z) (out : list Z)
  : qres (palette * Z * list Z) :=
  if px_eqb prev p then
    let run := run + 1 in
    if (run =? 62) || (loc =? loc_end) then
      match emit max out (op_run (run - 1)) with
      | QOk out => QOk (pal, 0, out) | QFault f => QFault f | QOob => QOob end
    else QOk (pal, run, out)
  else
    match (if 0 <? run then emit max out (op_run (run - 1)) else QOk out) with
    | QOk out =>
        match emit max out (fst (enc_px prev p pal)) with
        | QOk out => QOk (snd (enc_px prev p pal), 0, out) | QFault f => QFault f | QOob => QOob end
    | QFault f => QFault f | QOob => QOob end.

(** qoi.c3:166-248: the loop; [rest] is the input from [loc] on *)
Fixpoint enc_loop (ch max loc loc_end : Z) (prev : px) (pal : palette) (run : Z) (out rest : list Z) {struct rest}
  : qres (list Z) :=
  match rest with
  | [] => QOk out
  | r :: g :: b :: t =>
      if ch =? 4 then
        match t with
        | a :: t' =>
            let p := Px r g b a in
            match enc_step max loc loc_end prev p pal run out with
            | QOk (pal, run, out) => enc_loop ch max (loc + ch) loc_end p pal run out t'
            | QFault f => QFault f | QOob => QOob end
        | [] => QOob
        end
      else
        let p := Px r g b (pa prev) in
        match enc_step max loc loc_end prev p pal run out with
        | QOk (pal, run, out) => enc_loop ch max (loc + ch) loc_end p pal run out t
        | QFault f => QFault f | QOob => QOob end
  | _ => QOob
  end.

Definition header_bytes (d : desc) : list Z :=
  [113; 111; 105; 102] ++ be32 (dwidth d) ++ be32 (dheight d) ++ [dchannels d; dcolorspace d].

(** qoi.c3:126-255: [encode]; allocation always succeeds *)
Definition encode (input : list Z) (d : desc) : qres (list Z) :=
  if (dwidth d =? 0) || (dheight d =? 0) then QFault INVALID_PARAMETERS
  else if dchannels d =? 0 then QFault INVALID_PARAMETERS
  else
    let pixels := u32 (dwidth d * dheight d) in
    if PIXELS_MAX <? pixels then QFault TOO_MANY_PIXELS
    else
      let image_size := u32 (pixels * dchannels d) in
      if negb (image_size =? zlen input) then QFault INVALID_DATA
      else
        let max_size := u32 (HEADER_SIZE + pixels + image_size + zlen END_OF_STREAM) in
        let loc_end := u32 (image_size - dchannels d) in
        match emit max_size [] (header_bytes d) with
        | QOk out =>
            match enc_loop (dchannels d) max_size 0 loc_end (Px 0 0 0 255) pal0 0 out input with
            | QOk out => emit max_size out END_OF_STREAM
            | QFault f => QFault f | QOob => QOob end
        | QFault f => QFault f | QOob => QOob end.

(** ** Decoder *)

Definition byte_at (data : list Z) (i : Z) : qres Z :=
  if i <? 0 then QOob else match nth_error data (Z.to_nat i) with Some b => QOk b | None => QOob end.

(** qoi.c3:467-473 used for reading: [n] bytes at [pos] *)
Definition extract (n : Z) (data : list Z) (pos : Z) : qres (list Z) :=
  if (0 <=? pos) && (pos + n <=? zlen data) then QOk (firstn (Z.to_nat n) (skipn (Z.to_nat pos) data)) else QOob.

(** qoi.c3:324-364: one iteration of the switch: current pixel, palette, run and position after it.
    The last branch is the switch matching no case (impossible for a byte). *)
Definition dec_step (data : list Z) (pos : Z) (p : px) (pal : palette) (run : Z)
  : qres (Z * px * palette * Z) :=
  match byte_at data pos with
  | QOk tag =>
      if 0 <? run then QOk (pos, p, pal, run - 1)
      else if tag =? OP_RGB then
        match extract 4 data pos with
        | QOk [_; r; g; b] => let p := Px r g b (pa p) in QOk (pos + 4, p, pal_set pal (hash p) p, 0)
        | _ => QOob end
      else if tag =? OP_RGBA then
        match extract 5 data pos with
        | QOk [_; r; g; b; a] => let p := Px r g b a in QOk (pos + 5, p, pal_set pal (hash p) p, 0)
        | _ => QOob end
      else if tag / 64 =? OP_INDEX then
        match extract 1 data pos with
        | QOk [c] => QOk (pos + 1, pal (c mod 64), pal, 0)
        | _ => QOob end
      else if tag / 64 =? OP_DIFF then
        match extract 1 data pos with
        | QOk [c] =>
            let p := Px ((pr p + (c / 16 mod 4 - 2)) mod 256) ((pg p + (c / 4 mod 4 - 2)) mod 256)
                        ((pb p + (c mod 4 - 2)) mod 256) (pa p) in
            QOk (pos + 1, p, pal_set pal (hash p) p, 0)
        | _ => QOob end
      else if tag / 64 =? OP_LUMA then
        match extract 2 data pos with
        | QOk [c; c2] =>
            let dg := c mod 64 - 32 in
            let p := Px ((pr p + (c2 / 16 mod 16 - 8 + dg) mod 256) mod 256) ((pg p + dg mod 256) mod 256)
                        ((pb p + (c2 mod 16 - 8 + dg) mod 256) mod 256) (pa p) in
            QOk (pos + 2, p, pal_set pal (hash p) p, 0)
        | _ => QOob end
      else if tag / 64 =? OP_RUN then
        match extract 1 data pos with
        | QOk [c] => QOk (pos + 1, p, pal, c mod 64)
        | _ => QOob end
      else QOk (pos, p, pal, run)
  | QFault f => QFault f | QOob => QOob end.

(** qoi.c3:367: the bytes drawn for a pixel *)
Definition draw_px (ch : Z) (p : px) : list Z :=
  if ch =? 4 then [pr p; pg p; pb p; pa p] else [pr p; pg p; pb p].

(** qoi.c3:321-368: [n] pixels are still to be drawn *)
Fixpoint dec_loop (ch : Z) (data : list Z) (n : nat) (pos : Z) (p : px) (pal : palette) (run : Z) : qres (list Z) :=
  match n with
  | O => QOk []
  | S n =>
      match dec_step data pos p pal run with
      | QOk (pos, p, pal, run) =>
          match dec_loop ch data n pos p pal run with
          | QOk img => QOk (draw_px ch p ++ img) | QFault f => QFault f | QOob => QOob end
      | QFault f => QFault f | QOob => QOob end
  end.

Definition read_be32 (l : list Z) : Z :=
  match l with [a; b; c; d] => ((a * 256 + b) * 256 + c) * 256 + d | _ => 0 end.

(** qoi.c3:281-371: [decode]; the result is the filled descriptor and the pixel bytes; [channels] is 0
    (AUTO), 3 or 4.  A header is read with the same bytes as it is stored. *)
Definition decode (data : list Z) (channels : Z) : qres (desc * list Z) :=
  if zlen data <? HEADER_SIZE + zlen END_OF_STREAM then QFault INVALID_DATA
  else if negb (read_be32 (firstn 4 data) =? 1903126886) then QFault INVALID_DATA
  else
    let w := read_be32 (firstn 4 (skipn 4 data)) in
    let h := read_be32 (firstn 4 (skipn 8 data)) in
    let c := nth 12 data 0 in
    let s := nth 13 data 0 in
    if negb ((c =? 0) || (c =? 3) || (c =? 4)) then QFault INVALID_DATA
    else if negb ((s =? 0) || (s =? 1)) then QFault INVALID_DATA
    else if c =? 0 then QFault INVALID_DATA
    else if (w =? 0) || (h =? 0) then QFault INVALID_DATA
    else if PIXELS_MAX <? w * h then QFault TOO_MANY_PIXELS
    else
      let ch := if channels =? 0 then c else channels in
      match dec_loop ch data (Z.to_nat (w * h)) HEADER_SIZE (Px 0 0 0 255) pal0 0 with
      | QOk img => QOk (Desc w h c s, img) | QFault f => QFault f | QOob => QOob end.
