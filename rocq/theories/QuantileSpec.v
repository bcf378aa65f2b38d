(** What quantile summaries should report. *)
From Verif Require Export QuantileModel FixedPointSpec.
Local Open Scope Z_scope.

(** [v] is the j-th smallest element (from 1) of [xs]. *)
Definition at_rank (xs : list Qc) (j : Z) (v : Qc) : Prop :=
  1 <= j /\ exists l, StronglySorted Qcle l /\ l ≡ₚ xs /\ l !! Z.to_nat (j - 1) = Some v.

Definition inc (l : list Qc) : Prop := StronglySorted Qclt l.

(** Number of observations a summary counts: those not in the abnormal list. *)
Definition kept (abnormal xs : list Qc) : list Qc := filter (fun x => x ∉ abnormal) xs.

Definition weight (l : list stats) : Z := foldr (fun s a => st_g s + a) 0 l.

(** Insertion of a list of observations, one by one. *)
Definition insert_all (s : qsum) (xs : list Qc) : qsum := fold_left qs_insert xs s.
Definition sinsert_all (s : sqsum) (xs : list Qc) : sqsum := fold_left sq_insert xs s.

(** Summaries reachable by any sequence of operations; the list holds the observations counted so far. *)
Inductive reach : list Qc -> qsum -> Prop :=
| r_new t h e a : reach [] (qs_new t h e a)
| r_insert xs s x : reach xs s -> reach (if decide (x ∈ qs_abnormal s) then xs else xs ++ [x]) (qs_insert s x)
| r_compress xs s : reach xs s -> reach xs (qs_compress s)
| r_query xs s q : reach xs s -> reach xs (fst (qs_query s q))
| r_merge xs s ys s' : reach xs s -> reach ys s' -> reach (xs ++ ys) (qs_merge s s').

(** The values of column [i]: every row has one for dense rows; the stored ones for sparse rows. *)
Definition column (i : nat) (rows : list feats) : list Qc :=
  omap (fun r => match r with FDense l => l !! i | FSparse d _ => dict_get i d end) rows.

(** Rows of one kind with one entry per header name (dense), or entries inside the header, no index twice (sparse). *)
Definition dense_rows (width : nat) (rows : list feats) : Prop :=
  Forall (fun r => exists l, r = FDense l /\ length l = width) rows.
Definition sparse_rows (width : nat) (rows : list feats) : Prop :=
  Forall (fun r => exists d sh, r = FSparse d sh /\ NoDup (map fst d) /\ Forall (fun kv => (kv.1 < width)%nat) d) rows.

(** A legal relative error: a double in [0, 1]. *)
Definition err_ok (e : Qc) : Prop := is_double e /\ (zq 0 <= e)%Qc /\ (e <= zq 1)%Qc.

(** No stored value below FLOAT_ZERO, or none above zero. *)
Definition one_sided (xs : list Qc) : Prop := Forall (fun x => (FLOAT_ZERO <= x)%Qc) xs \/ Forall (fun x => (x <= zq 0)%Qc) xs.

(** Stored values a sparse column counts on either side of its implicit zeros. *)
Definition count_below (xs : list Qc) : Z := Z.of_nat (length (filter (fun x => (x < FLOAT_ZERO)%Qc) xs)).
Definition count_above (xs : list Qc) : Z := Z.of_nat (length (filter (fun x => (FLOAT_ZERO <= x)%Qc) xs)).
