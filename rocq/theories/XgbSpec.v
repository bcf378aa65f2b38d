(** What the program without a federation should do, from row objects on and from the two files on. *)
From Verif Require Export XgbModel ScriptSpec.
Local Open Scope nat_scope.

Section Alone.
  Context {K N : Type} `{EqDecision K} `{EqDecision N}.
  (** Inputs and parameters. [ls] are the distinct labels. Encryption must not fail on gradients between -1 and 1. *)
  Record alone_legal {C} (rnd : Qc -> Qc) (pred : loss_kind -> list Qc -> list Qc) (s : source K N) (P : bparams) (bp : bin_params) (par : sparams) (depth stp d : nat)
      (labels : dtable K label) (ls : list label) (draw : nat -> nat -> nat -> list nat) (enc : nat -> dtable K (Qc * Qc) -> res (dtable K (C * C))) : Prop := {
    all_source : source_ok bp s;
    all_size : (3 * Z.of_nat (dt_count (so_rows s)) <= 2 ^ 53)%Z;
    all_params : depth = S d /\ d <= 30 /\ stp <> 0 /\ (0 < reg_lambda par)%Qc /\ (1 <= min_leaf par)%Z;
    all_rate : (0 < b_rate P)%Qc /\ (b_rate P <= 1)%Qc;
    all_draws : forall j, draws (draw j);
    all_keys : NoDup (dt_keys labels) /\ forall k, k ∈ dt_keys labels <-> k ∈ dt_keys (so_rows s);
    all_labels : distinct (dt_values labels) ls /\ alike ls /\ length ls <= 1000;
    all_probs : forall kind f, length (pred kind f) = length f /\ forall x, x ∈ pred kind f -> (0 <= x)%Qc /\ (x <= 1)%Qc;
    all_rnd : rnd_ok rnd;
    all_enc : forall j gs, NoDup (dt_keys gs) -> (forall k, k ∈ dt_keys gs <-> k ∈ dt_keys (so_rows s)) ->
      (forall k c, (k, c) ∈ dt_data gs -> (qabs c.1 <= 1)%Qc /\ (0 <= c.2)%Qc /\ (c.2 <= 1)%Qc) -> exists c, enc j gs = Ok c }.
End Alone.

(** The rows of two files at the same position, side by side; the first file has [w] columns. *)
Definition beside (w : nat) (grecs hrecs : list (record Qc)) (pos col : nat) : Qc := if decide (col < w) then entry grecs pos col else entry hrecs pos (col - w).
(** The table [s] holds the rows of two files at the positions [order], side by side. *)
Definition holds_both (s : source nat text) (gh hh : list text) (grecs hrecs : list (record Qc)) (order : list nat) : Prop :=
  so_header s = gh ++ hh /\ (forall k, k ∈ dt_keys (so_rows s) <-> k < length order) /\ forall k pos f, order !! k = Some pos -> value s k f = beside (length gh) grecs hrecs pos f.

(** The two files: [n] rows in the first, at least as many in the second, and no two columns of the same name. *)
Record both_ok (py_float : text -> option Qc) (bp : bin_params) (n n' m : nat) (ratio : Qc) (gfile : text) (gh : list text) (grecs : list (record Qc))
    (hfile : text) (hh : list text) (hrecs : list (record Qc)) : Prop := {
  bo_guest : sheet py_float n gh grecs;
  bo_gfile : exists i y, grid ((i :: y :: gh) :: map with_label grecs) /\ stored ((i :: y :: gh) :: map with_label grecs) gfile;
  bo_host : sheet py_float n' hh hrecs;
  bo_hfile : exists c, grid ((c :: hh) :: map without_label hrecs) /\ stored ((c :: hh) :: map without_label hrecs) hfile;
  bo_rows : n <= n';
  bo_names : NoDup (gh ++ hh) /\ (Z.of_nat (length (gh ++ hh)) <= 2 ^ 31)%Z;
  bo_ratio : (zq (Z.of_nat m) <= fround (zq (Z.of_nat n) * ratio))%Qc /\ (fround (zq (Z.of_nat n) * ratio) < zq (Z.of_nat m + 1))%Qc;
  bo_parts : 1 <= m /\ m <= n /\ (3 * Z.of_nat n <= 2 ^ 53)%Z;
  bo_bins : params_ok bp m;
  bo_labels : exists ls : list text, length ls <= 1000 /\ forall r, r ∈ grecs -> r_label r ∈ ls }.
(** Parameters. *)
Record alone_settings {C} (rnd : Qc -> Qc) (pred : loss_kind -> list Qc -> list Qc) (P : bparams) (par : sparams) (depth stp d : nat)
    (draw : nat -> nat -> nat -> list nat) (enc : nat -> dtable nat (Qc * Qc) -> res (dtable nat (C * C))) : Prop := {
  as_params : depth = S d /\ d <= 30 /\ stp <> 0 /\ (0 < reg_lambda par)%Qc /\ (1 <= min_leaf par)%Z;
  as_rate : (0 < b_rate P)%Qc /\ (b_rate P <= 1)%Qc;
  as_draws : forall j, draws (draw j);
  as_probs : forall kind f, length (pred kind f) = length f /\ forall x, x ∈ pred kind f -> (0 <= x)%Qc /\ (x <= 1)%Qc;
  as_rnd : rnd_ok rnd;
  as_enc : forall j gs, NoDup (dt_keys gs) -> (forall k c, (k, c) ∈ dt_data gs -> (qabs c.1 <= 1)%Qc /\ (0 <= c.2)%Qc /\ (c.2 <= 1)%Qc) -> exists c, enc j gs = Ok c }.
