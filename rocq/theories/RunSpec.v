(** What a component run leaves as its output, and what a configuration does to a parameter object. *)
From Verif Require Import RunModel.
Local Open Scope string_scope.
Local Open Scope list_scope.

Section Run.
  Context {K I V Sid M : Type} (vstr : string -> V).
  Notation table := (table K I V Sid).
  Notation row := (row I V).

  (** The last entry that gives the table, if any does. *)
  Definition given (f : data_set K I V Sid -> option table) (sets : list (data_set K I V Sid)) (o : option table) : Prop :=
    (o = None /\ forall d, d ∈ sets -> f d = None)
    \/ exists t before d after, o = Some t /\ sets = before ++ d :: after /\ f d = Some t /\ forall d', d' ∈ after -> f d' = None.

  (** The same rows in the same order, each a list that got the tag at its end. *)
  Definition marks (tag : string) (old new : dtable K row) : Prop :=
    Forall2 (fun a b => a.1 = b.1 /\ exists l, a.2 = Pred l /\ b.2 = Pred (l ++ [vstr tag])) (dt_data old) (dt_data new).

  (** The predictions [p] as reported for the source table: tagged, with the header of predictions and the id name of the source. *)
  Definition reported (tag : string) (src : table) (p o : option table) : Prop :=
    (p = None /\ o = None)
    \/ exists t rows, p = Some t /\ o = Some (Tab rows (Some ["label"; "predict_result"; "predict_score"; "predict_detail"; "type"]) (t_sid src))
         /\ marks tag (t_rows t) rows.

  Definition can_tag (p : option table) : Prop :=
    match p with None => True | Some t => forall k r, (k, r) ∈ dt_data (t_rows t) -> exists l, r = Pred l end.

  (** Learn on the training table, predict it, predict the evaluation table. *)
  Inductive learned (fit : table -> M -> M -> Prop) (predict check : table -> M -> option table -> M -> Prop)
    : option table -> option table -> option table -> M -> option table -> M -> Prop :=
  | learned_train tr old m m1 m2 p o : fit tr m m1 -> predict tr m1 p m2 -> reported "train" tr p o ->
      learned fit predict check (Some tr) None old m o m2
  | learned_both tr ev old m m1 m2 m3 p q o : fit tr m m1 -> predict tr m1 p m2 -> check ev m2 q m3 -> can_tag q ->
      (** only the training predictions are kept, unless there are none *)
      (p <> None -> reported "train" tr p o) -> (p = None -> reported "validation" tr q o) ->
      learned fit predict check (Some tr) (Some ev) old m o m3
  | learned_test ev old m m1 p o : predict ev m p m1 -> reported "test" ev p o ->
      learned fit predict check None (Some ev) old m o m1.

  Context (ms : methods K I V Sid M).
  Definition fit_as (tr : table) (m m1 : M) : Prop := exists o, m_fit ms (Some tr) (m_flow ms "train" m) = Ok (o, m1).
  Definition predict_as (flow : string) (t : table) (m : M) (p : option table) (m1 : M) : Prop := m_predict ms t (m_flow ms flow m) = Ok (p, m1).
  Definition rest_fit_as (tr : table) (m m1 : M) : Prop := m_rest_fit ms tr m = Ok m1.
  Definition rest_predict_as (t : table) (m : M) (p : option table) (m1 : M) : Prop := m_rest_predict ms t m = Ok (p, m1).

  Inductive runs (need_run : bool) (sets : list (data_set K I V Sid)) (stage : string) (old : option table) (m : M)
    : option table -> M -> Prop :=
  | runs_not o : need_run = false -> given ds_data sets o -> runs need_run sets stage old m o m
  | runs_cross tr m1 : need_run = true -> stage = "cross_validation" -> given ds_train sets tr -> m_cross ms tr m = Ok m1 ->
      runs need_run sets stage old m old m1
  | runs_rest tr ev o m1 : need_run = true -> stage = "one_vs_rest" -> given ds_train sets tr -> given ds_eval sets ev ->
      learned rest_fit_as rest_predict_as rest_predict_as tr ev old m o m1 -> runs need_run sets stage old m o m1
  | runs_rest_none : need_run = true -> stage = "one_vs_rest" -> given ds_train sets None -> given ds_eval sets None ->
      runs need_run sets stage old m old m
  | runs_learn tr ev o m1 : need_run = true -> stage <> "cross_validation" -> stage <> "one_vs_rest" ->
      given ds_train sets tr -> given ds_eval sets ev ->
      learned fit_as (predict_as "predict") (predict_as "validate") tr ev old m o m1 -> runs need_run sets stage old m o m1
  | runs_fit d o m1 : need_run = true -> stage = "fit" -> given ds_train sets None -> given ds_eval sets None ->
      given ds_data sets d -> m_fit ms d (m_flow ms "fit" m) = Ok (o, m1) -> runs need_run sets stage old m o m1
  | runs_transform d o m1 : need_run = true -> stage <> "fit" -> stage <> "cross_validation" -> stage <> "one_vs_rest" ->
      given ds_train sets None -> given ds_eval sets None ->
      given ds_data sets d -> m_transform ms d (m_flow ms "transform" m) = Ok (o, m1) -> runs need_run sets stage old m o m1.

  (** Predictions are tables without repeated keys. *)
  Definition sound : Prop := forall t m p m1, m_predict ms t m = Ok (Some p, m1) \/ m_rest_predict ms t m = Ok (Some p, m1) ->
    NoDup (map fst (dt_data (t_rows p))).
End Run.

Section Extract.
  Context {V : Type}.

  (** Parameter [path] of the object has value [c]. *)
  Inductive holds : attr V -> list string -> config V -> Prop :=
  | holds_leaf c : holds (ALeaf c) [] c
  | holds_field fields name x path c : (name, x) ∈ fields -> holds x path c -> holds (AObj fields) (name :: path) c.
  (** The configuration has value [c'] at [path]. *)
  Inductive gives : config V -> list string -> config V -> Prop :=
  | gives_here c : gives c [] c
  | gives_entry l name c path c' : (name, c) ∈ l -> gives c path c' -> gives (CDict l) (name :: path) c'.

  (** No name occurs twice. *)
  Inductive named : attr V -> Prop :=
  | named_leaf c : named (ALeaf c)
  | named_obj fields : NoDup (map fst fields) -> (forall name x, (name, x) ∈ fields -> named x) -> named (AObj fields).
  Inductive conf_named : config V -> Prop :=
  | conf_value v : conf_named (CValue v)
  | conf_dict l : NoDup (map fst l) -> (forall name c, (name, c) ∈ l -> conf_named c) -> conf_named (CDict l).

  (** The configuration has a dict wherever it addresses a parameter object, and objects are nested at most [fuel] deep there. *)
  Inductive fits : nat -> attr V -> config V -> Prop :=
  | fits_leaf n v c : fits n (ALeaf v) c
  | fits_obj n fields l : (forall name x c, (name, x) ∈ fields -> (name, c) ∈ l -> fits n x c) -> fits (S n) (AObj fields) (CDict l).
End Extract.
