(** What the two programs should print, from the contents of the files. *)
From Verif Require Export ScriptModel PipeSpec InputSpec.
Local Open Scope nat_scope.

(** The number in a column of the row at position [pos] of a file; numbers next to zero count as zero. *)
Definition entry (recs : list (record Qc)) (pos col : nat) : Qc :=
  match recs !! pos with
  | Some r => match numbers r !! col with Some x => if decide (qabs x < Q2Qc (1 # 1000000))%Qc then zq 0 else x | None => zq 0 end
  | None => zq 0
  end.
(** The rows at the same position of all files, side by side. *)
Definition entries (grecs : list (record Qc)) (hrecs : nat -> list (record Qc)) (pos : nat) (own : option nat) (col : nat) : Qc :=
  entry (match own with None => grecs | Some i => hrecs i end) pos col.

(** A file with [n] rows under the names [h]. *)
Record sheet (py_float : text -> option Qc) (n : nat) (h : list text) (recs : list (record Qc)) : Prop := {
  sh_rows : length recs = n;
  sh_wide : Forall (fun r => length (r_cells r) = length h) recs;
  sh_numbers : Forall (denotes py_float) recs;
  sh_names : NoDup h;
  sh_cols : 1 <= length h /\ (Z.of_nat (length h) <= 2 ^ 31)%Z }.
(** The files and the ratio: [n] rows at all parties, of which [m] are for training. *)
Record files_ok (py_float : text -> option Qc) (bp : bin_params) (nh n m : nat) (ratio : Qc) (gfile : text) (gh : list text) (grecs : list (record Qc))
    (hfile : nat -> text) (hh : nat -> list text) (hrecs : nat -> list (record Qc)) : Prop := {
  fo_guest : sheet py_float n gh grecs;
  fo_gfile : exists i y, grid ((i :: y :: gh) :: map with_label grecs) /\ stored ((i :: y :: gh) :: map with_label grecs) gfile;
  fo_host : forall i, i < nh -> sheet py_float n (hh i) (hrecs i);
  fo_hfile : forall i, i < nh -> exists c, grid ((c :: hh i) :: map without_label (hrecs i)) /\ stored ((c :: hh i) :: map without_label (hrecs i)) (hfile i);
  fo_ratio : (zq (Z.of_nat m) <= fround (zq (Z.of_nat n) * ratio))%Qc /\ (fround (zq (Z.of_nat n) * ratio) < zq (Z.of_nat m + 1))%Qc;
  fo_parts : 1 <= m /\ m <= n /\ (3 * Z.of_nat n <= 2 ^ 53)%Z;
  fo_bins : params_ok bp m;
  fo_labels : exists ls : list text, length ls <= 1000 /\ forall r, r ∈ grecs -> r_label r ∈ ls }.
(** Parameters. *)
Record settings_ok (rnd : Qc -> Qc) (pred : loss_kind -> list Qc -> list Qc) (nh : nat) (sname : nat -> site) (P : bparams) (par : sparams) (depth stp d : nat)
    (gdraw : nat -> nat -> nat -> list nat) (hdraw : nat -> nat -> nat -> nat -> list nat) : Prop := {
  st_some : 0 < nh;
  st_names : forall i, i < nh -> sname i <> GuestSite;
  st_inj : forall i j, i < nh -> j < nh -> sname i = sname j -> i = j;
  st_params : depth = S d /\ d <= 30 /\ stp <> 0 /\ (0 < reg_lambda par)%Qc /\ (1 <= min_leaf par)%Z;
  st_rate : (0 < b_rate P)%Qc /\ (b_rate P <= 1)%Qc;
  st_draws : (forall j, draws (gdraw j)) /\ forall i j, i < nh -> draws (hdraw i j);
  st_probs : forall kind f, length (pred kind f) = length f /\ forall x, x ∈ pred kind f -> (0 <= x)%Qc /\ (x <= 1)%Qc;
  st_rnd : rnd_ok rnd }.

(** The label written in a file is the string with the same characters in the same order. *)
Definition word (t : text) : label := LStr (Z.to_N <$> t).
(** The table [s] holds the rows of a file at the positions [order]. *)
Definition holds (s : source nat text) (h : list text) (recs : list (record Qc)) (order : list nat) : Prop :=
  so_header s = h /\ (forall k, k ∈ dt_keys (so_rows s) <-> k < length order) /\ forall k pos f, order !! k = Some pos -> value s k f = entry recs pos f.
Definition holds_labels (labels : dtable nat label) (recs : list (record Qc)) (order : list nat) : Prop :=
  forall k l, (k, l) ∈ dt_data labels <-> exists pos r, order !! k = Some pos /\ recs !! pos = Some r /\ l = word (r_label r).
