(** What binning and row conversion should do. *)
From Verif Require Export BinningModel QuantileSpec DTableSpec.
Local Open Scope nat_scope.

(** [b] is the bin of [v]: everything before b is below v, and v does not exceed entry b. *)
Definition is_bin (sp : list Qc) (v : Qc) (b : nat) : Prop :=
  b <= length sp /\ (forall i x, i < b -> sp !! i = Some x -> (x < v)%Qc) /\ (forall x, sp !! b = Some x -> (v <= x)%Qc).

(** The value of feature [i] of a row, 0 when it is absent or below 1e-6 in magnitude in a dense row. *)
Definition raw (f : feats) (i : nat) : Qc :=
  match f with
  | FDense l => match l !! i with
                | Some x => if decide (qabs x < Q2Qc (1 # 1000000))%Qc then zq 0 else x
                | None => zq 0
                end
  | FSparse d _ => match dict_get i d with Some x => x | None => zq 0 end
  end.

(** A row with [width] features. *)
Definition row_ok (width : nat) (f : feats) : Prop :=
  match f with
  | FDense l => length l = width
  | FSparse d sh => sh = width /\ NoDup (map fst d) /\ Forall (fun kv => kv.1 < width) d
  end.

(** A non-empty table whose entries are distinct, allocated row objects of that width. *)
Definition table_ok {K} (width : nat) (h : heap) (t : dtable K loc) : Prop :=
  dt_data t <> [] /\ NoDup (dt_keys t) /\ NoDup (dt_values t) /\
  forall l, l ∈ dt_values t -> exists o, h !! l = Some o /\ row_ok width o.

(** Binning parameters that are legal for [n] rows. *)
Definition params_ok (p : bin_params) (n : nat) : Prop :=
  err_ok (bp_error p) /\ bp_abnormal p = [] /\ (Z.of_nat n <= bp_head p)%Z /\ (Z.of_nat n <= 2 ^ 50)%Z.
