(** Model of the choice of columns by index. *)
From Verif Require Export QuantileModel.

(** An index of the list given by the user, by what int() makes of it: a number, a ValueError (a text that is no number) or a TypeError (None, a list). *)
Inductive cindex := IxInt (z : Z) | IxBad | IxWrong.

Section Cols.
  Context {N : Type} `{EqDecision N}.
  (** header[idx] of a Python list: negative indices count from the end. *)
  Definition py_index (header : list N) (z : Z) : res N :=
    let n := Z.of_nat (length header) in
    let i := if (z <? 0)%Z then (z + n)%Z else z in
    if (i <? 0)%Z || (n <=? i)%Z then Err IndexError else list_index header (Z.to_nat i).
  (** base_binning.py:54-66 (bare except: [catch] is true) and statics.py:121-132 (except ValueError: [catch] is false), the body of the loop. *)
  Definition choose_one (catch : bool) (header : list N) (x : cindex) : res N :=
    match x with
    | IxBad => Err ValueError
    | IxWrong => Err (if catch then ValueError else TypeError)
    | IxInt z => if (Z.of_nat (length header) <=? z)%Z then Err ValueError else py_index header z
    end.
  (** base_binning.py:68-71 and statics.py:134-137: the dictionary from name to header.index(name). *)
  Definition name_positions (header cols : list N) : dict N nat :=
    fold_left (fun d c => match index_of c header with Some i => dict_set c i d | None => d end) cols [].
  (** base_binning.py:43-71 and statics.py:111-139 _init_cols on a new object for a list of indices; -1 instead of a list is init_cols. *)
  Definition choose_cols (catch : bool) (header : list N) (idxs : list cindex) : res (dict N nat) :=
    cols ← mapR (choose_one catch header) idxs; Ok (name_positions header cols).
End Cols.
