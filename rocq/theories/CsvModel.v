(** Model of lib/std/encoding/csv.c3: reading rows of columns. *)
From Coq Require Import ZArith Bool List.
From Verif Require Import Mach StrModel IoModel.
Import ListNotations.
Local Open Scope Z_scope.

(** csv.c3:11-16 CsvRow; [allocated]: whether the text of the row is memory of the allocator. *)
Record csv_row := CsvRow { columns : list (list Z); line : list Z; allocated : bool }.
(** io.c3:66: a line that starts with a line feed is the constant "", whose pointer is not null (src/compiler/llvm_codegen_expr.c:4702-4707); other lines are copies (io.c3:87). *)
Definition constant_line (s : source) : bool := match rest s with c :: _ => c =? 10 | [] => false end.
(** csv.c3:44-50 CsvReader.read_row; an [Oob] is a failed bounds check of split. *)
Definition read_row (s : source) (separator : list Z) : Res (out csv_row * source) :=
  match readline s with
  | (Got row, s') => l <- split row separator 0 false ;; Ok (Got (CsvRow l row (negb (constant_line s))), s')
  | (Fault f, s') => Ok (Fault f, s')
  | (Trap, s') => Ok (Trap, s')
  end.
(** csv.c3:60-65 CsvRow.free; releasing what is not memory of the allocator is [Oob]. *)
Definition free (r : csv_row) : Res unit := if allocated r then Ok tt else Oob.
(** csv.c3:67-70 CsvReader.skip_row. *)
Definition skip_row (s : source) : source := snd (readline s).
(** csv.c3:72-87 @each_row: the rows the body gets, and the fault; max_rows is an int. *)
Fixpoint each_row (fuel : nat) (s : source) (separator : list Z) (max_rows : Z) : Res (list (list (list Z)) * option fault * source) :=
  match fuel with
  | O => Fuel
  | S fuel =>
    if max_rows =? 0 then Ok ([], None, s) else
    match readline s with
    | (Fault EOF, s) => Ok ([], None, s)
    | (Fault f, s) => Ok ([], Some f, s)
    | (Trap, _) => Oob
    | (Got row, s) =>
      l <- split row separator 0 false ;;
      r <- each_row fuel s separator ((max_rows - 1 + 2 ^ 31) mod 2 ^ 32 - 2 ^ 31) ;;
      let '(rows, f, s) := r in Ok (l :: rows, f, s)
    end
  end.
