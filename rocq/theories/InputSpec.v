(** What a CSV file and a division of rows are, independently of the code. *)
From Verif Require Import InputModel.
Local Open Scope Z_scope.

(** A cell: no comma and no line break inside. *)
Definition clean (c : text) : Prop := COMMA ∉ c /\ NL ∉ c /\ CR ∉ c.

(** The cells of a line, separated by commas. *)
Fixpoint line_of (cells : list text) : text :=
  match cells with [] => [] | [c] => c | c :: cs => c ++ COMMA :: line_of cs end.

(** A file: every line is followed by the line break [eol], except perhaps the last one ([tail], if not empty). *)
Definition file_of (eol : text) (lines : list text) (tail : text) : text :=
  concat (map (fun l => l ++ eol) lines) ++ tail.
Definition is_eol (eol : text) : Prop := eol = [NL] \/ eol = [CR; NL] \/ eol = [CR].

(** A table of cells and the file that holds it: every row has at least one cell (an empty line is a row with one empty
    cell); the line break at the end may be missing if the last line is not empty. *)
Definition grid (rows : list (list text)) : Prop := Forall (fun r => r <> [] /\ Forall clean r) rows.
Inductive stored (rows : list (list text)) : text -> Prop :=
| stored_full eol : is_eol eol -> stored rows (file_of eol (map line_of rows) [])
| stored_open eol front last : is_eol eol -> rows = front ++ [last] -> line_of last <> [] ->
    stored rows (file_of eol (map line_of front) (line_of last)).

(** One data row: the id, the label and the feature cells with the numbers that they denote. *)
Record record (V : Type) := Rec { r_id : text; r_label : text; r_cells : list (text * V) }.
Arguments Rec {V}.
Arguments r_id {V}.
Arguments r_label {V}.
Arguments r_cells {V}.
Definition denotes {V} (py_float : text -> option V) (r : record V) : Prop :=
  Forall (fun cv => py_float cv.1 = Some cv.2) (r_cells r).

Definition numbers {V} (r : record V) : list V := map snd (r_cells r).
Definition with_label {V} (r : record V) : list text := r_id r :: r_label r :: map fst (r_cells r).
Definition without_label {V} (r : record V) : list text := r_id r :: map fst (r_cells r).

(** A source of random numbers that keeps to its range. *)
Definition in_range {G} (below : G -> nat -> nat * G) : Prop := forall g n, (0 < n)%nat -> ((below g n).1 < n)%nat.
