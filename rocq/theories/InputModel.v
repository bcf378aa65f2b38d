(** Model of i_o/utils.py and of guest.py / host.py: reading a CSV file, dividing the rows, building the tables and
    the accuracy that is printed at the end. Text is a list of code points. *)
From Verif Require Export PyBase QcBase DTableModel FixedPointModel CipherModel.
Local Open Scope Z_scope.

Definition text := list Z.
Definition NL : Z := 10.
Definition CR : Z := 13.
Definition COMMA : Z := 44.

(** i_o/utils.py:30,81 — [open(csv_address)]: text mode translates \r\n and \r to \n. *)
Fixpoint universal (t : text) : text :=
  match t with
  | [] => []
  | c :: r =>
      if decide (c = CR)
      then NL :: match r with d :: r' => if decide (d = NL) then universal r' else universal r | [] => [] end
      else c :: universal r
  end.

(** i_o/utils.py:31,82 — [for line in file]: every line keeps its \n; the last one may have none. [cur] is the
    line being read. *)
Fixpoint file_lines (cur : text) (t : text) : list text :=
  match t with
  | [] => match cur with [] => [] | _ => [cur] end
  | c :: r => if decide (c = NL) then (cur ++ [c]) :: file_lines [] r else file_lines (cur ++ [c]) r
  end.

(** i_o/utils.py:32,83 — [line.rstrip("\n")] *)
Fixpoint rstrip (t : text) : text :=
  match t with
  | [] => []
  | c :: r => match rstrip r with [] => if decide (c = NL) then [] else [c] | r' => c :: r' end
  end.

(** i_o/utils.py:34,50,85,97 — [s.split(',')] *)
Fixpoint split_on (c : Z) (t : text) : list text :=
  match t with
  | [] => [[]]
  | x :: r => if decide (x = c) then [] :: split_on c r
              else match split_on c r with w :: ws => (x :: w) :: ws | [] => [[x]] end
  end.

(** [l.pop(i)]: the element and the rest. *)
Definition pop {A} (i : nat) (l : list A) : res (A * list A) :=
  match l !! i with Some x => Ok (x, take i l ++ drop (S i) l) | None => Err IndexError end.

Section Read.
  (** Built-in [float(str)]; None stands for the ValueError. *)
  Context {V : Type} (py_float : text -> option V).
  Definition parse (c : text) : res V := match py_float c with Some v => Ok v | None => Err ValueError end.

  Definition csv_rows (file : text) : list text := map rstrip (file_lines [] (universal file)).

  (** i_o/utils.py:3-57 read_from_csv_with_lable; the contents of the file are the argument. numpy.array of the
      list of floats is the list. *)
  Definition read_with_label (file : text) : res (list text * list text * list (list V) * list text) :=
    let rows := csv_rows file in
    r0 ← list_index rows 0;
    '(_, header) ← pop 1 (split_on COMMA r0);
    '(_, header) ← pop 0 header;
    '(ids, features, labels) ← foldM (fun '(ids, features, labels) row =>
        '(y, vals) ← pop 1 (split_on COMMA row);
        '(i, vals) ← pop 0 vals;
        vals ← mapR parse vals;
        Ok (ids ++ [i], features ++ [vals], labels ++ [y])) ([], [], []) (drop 1 rows);
    Ok (header, ids, features, labels).

  (** i_o/utils.py:59-104 read_from_csv_with_no_lable *)
  Definition read_without_label (file : text) : res (list text * list text * list (list V)) :=
    let rows := csv_rows file in
    r0 ← list_index rows 0;
    '(_, header) ← pop 0 (split_on COMMA r0);
    '(ids, features) ← foldM (fun '(ids, features) row =>
        '(i, vals) ← pop 0 (split_on COMMA row);
        vals ← mapR parse vals;
        Ok (ids ++ [i], features ++ [vals])) ([], []) (drop 1 rows);
    Ok (header, ids, features).
End Read.

(** ml/feature/instance.py:20-40 — the attributes that the scripts set. *)
Record instance (V : Type) := Inst { inst_id : text; inst_features : list V; inst_label : option text }.
Arguments Inst {V}.
Arguments inst_id {V}.
Arguments inst_features {V}.
Arguments inst_label {V}.

Section Random.
  (** The module [random]: [seeded] is the generator after random.seed(n); [below g n] is _randbelow(n). *)
  Context {G : Type} (seeded : Z -> G) (below : G -> nat -> nat * G).

  (** [x[i], x[j] = x[j], x[i]] *)
  Definition swap {A} (i j : nat) (x : list A) : res (list A) :=
    match x !! i, x !! j with Some a, Some b => Ok (<[j:=a]> (<[i:=b]> x)) | _, _ => Err IndexError end.

  (** Built-in [random.shuffle(x)]: for i in reversed(range(1, len(x))): j = randbelow(i + 1); swap x[i] and x[j]. *)
  Definition shuffle {A} (g : G) (x : list A) : res (list A * G) :=
    foldM (fun '(x, g) i => let '(j, g) := below g (S i) in x ← swap i j x; Ok (x, g))
      (x, g) (reverse (seq 1 (length x - 1))).

  (** guest.py:84-102, host.py:63-81 data_split. The ratio is a finite float for which the product does not exceed the
      float range; [g] is the generator at the time of the call. *)
  Definition data_split {A} (full_list : list A) (ratio : Qc) (shuf : bool) (random_seed : option Z) (g : G)
    : res (list A * list A * G) :=
    let n_total := length full_list in
    let offset := trunc (fround (zq (Z.of_nat n_total) * ratio)) in
    if (n_total =? 0)%nat || (offset <? 1) then Ok ([], full_list, g)
    else
      '(full_list, g) ← (if shuf : bool then
                           shuffle (match random_seed with Some s => seeded s | None => g end) full_list
                         else Ok (full_list, g));
      Ok (take (Z.to_nat offset) full_list, drop (Z.to_nat offset) full_list, g).

  (** guest.py:50-65 — rows of the file, division, and the tables keyed 0, 1, 2, ... with the header. *)
  Definition guest_tables {V} (py_float : text -> option V) (file : text) (ratio : Qc) (g : G)
    : res (list text * dtable nat (instance V) * dtable nat (instance V)) :=
    '(header, ids, features, labels) ← read_with_label py_float file;
    instances ← mapR (fun '(i, f) => a ← list_index ids i; l ← list_index labels i; Ok (Inst a f (Some l)))
                  (imap (fun i f => (i, f)) features);
    '(train, test, _) ← data_split instances ratio true (Some 2) g;
    Ok (header, dt_new_unkeyed train, dt_new_unkeyed test).

  (** host.py:42-56 *)
  Definition host_tables {V} (py_float : text -> option V) (file : text) (ratio : Qc) (g : G)
    : res (list text * dtable nat (instance V) * dtable nat (instance V)) :=
    '(header, ids, features) ← read_without_label py_float file;
    instances ← mapR (fun '(i, f) => a ← list_index ids i; Ok (Inst a f None)) (imap (fun i f => (i, f)) features);
    '(train, test, _) ← data_split instances ratio true (Some 2) g;
    Ok (header, dt_new_unkeyed train, dt_new_unkeyed test).
End Random.

(** guest.py:73-80 — [predict_result.mapPartitions(func).reduce(add)]; a row is its first two entries, the label and
    the predicted label. [correct_num / len(kvs)] is the correctly rounded quotient. *)
Definition accuracy {K L} `{EqDecision L} (t : dtable K (L * L)) : res (option Qc) :=
  t' ← dt_mapPartitions (fun kvs =>
         let correct_num := fold_left (fun n kv => if decide (kv.2.1 = kv.2.2) then n + 1 else n) kvs 0 in
         if decide (length kvs = 0%nat) then Err ZeroDivisionError
         else Ok (PList [Some (fround (zq correct_num / zq (Z.of_nat (length kvs)))%Qc)])) t;
  Ok (dt_reduce (fun a b => match a, b with Some a, Some b => Some (fround (a + b)%Qc) | _, _ => None end) t').
