(** Model of ml/model_base.py (ModelBase.run and _run_data) and ml/utils/param_extract.py. *)
From Verif Require Export PyBase DTableModel.
From stdpp Require Export strings.
Local Open Scope string_scope.

Section Run.
  Context {K I V Sid M : Type} `{EqDecision K}.
  (** A str put into a list of values. *)
  Context (vstr : string -> V).

  (** The value of a row: a list of values (a prediction) or some other object, to which no list can be added. *)
  Inductive row := Inst (x : I) | Pred (l : list V).
  (** A DTable with its schema (computing/_computing.py:103-111), of which only the two entries read here. *)
  Record table := Tab { t_rows : dtable K row; t_header : option (list string); t_sid : option Sid }.

  (** The methods a model class overrides, as arbitrary state transformers that may raise; transform and fit may be handed
      None. set_flowid (model_base.py:213-221) does not raise. *)
  Record methods := Methods {
    m_flow : string -> M -> M;
    m_load : M -> res M;
    m_fit : option table -> M -> res (option table * M);
    m_predict : table -> M -> res (option table * M);
    m_transform : option table -> M -> res (option table * M);
    m_cross : option table -> M -> res M;
    m_rest_fit : table -> M -> res M;
    m_rest_predict : table -> M -> res (option table * M) }.
  Context (ms : methods).

  (** One entry of data_sets; a missing key and a None are the same here (line 77). *)
  Record data_set := DS { ds_train : option table; ds_eval : option table; ds_data : option table }.

  (** model_base.py:76-84; a DTable defines neither __bool__ nor __len__ and is therefore true. *)
  Definition pick (f : data_set -> option table) (sets : list data_set) : option table :=
    fold_left (fun cur d => match f d with Some t => Some t | None => cur end) sets None.

  (** model_base.py:127 [value + ["train"]] etc. *)
  Definition add_tag (tag : string) (r : row) : res row :=
    match r with Pred l => Ok (Pred (l ++ [vstr tag])) | Inst _ => Err TypeError end.
  (** [if t: t = t.mapValues(lambda value: value + [tag])]; the new table has an empty schema. *)
  Definition tagged (tag : string) (t : option table) : res (option table) :=
    match t with
    | None => Ok None
    | Some t => rows ← dt_mapValues (add_tag tag) (t_rows t); Ok (Some (Tab rows None None))
    end.
  (** model_base.py:107-110 and 136-139: the union is computed and dropped. *)
  Definition combine (out ev : option table) : res (option table) :=
    match out, ev with
    | Some t, Some e => _ ← dt_union (fun a _ => a) (t_rows t) (t_rows e); Ok (Some t)
    | None, Some e => Ok (Some e)
    | _, None => Ok out
    end.
  Definition PREDICT_HEADER : list string := ["label"; "predict_result"; "predict_score"; "predict_detail"; "type"].
  (** model_base.py:235-238 *)
  Definition set_schema (out : option table) (src : table) : option table :=
    match out with None => None | Some t => Some (Tab (t_rows t) (Some PREDICT_HEADER) (t_sid src)) end.

  (** model_base.py:71-162; [out] is the value of data_output before the call. *)
  Definition run_data (need_run : bool) (sets : list data_set) (stage : string) (out : option table) (m : M)
    : res (option table * M) :=
    let train := pick ds_train sets in
    let eval := pick ds_eval sets in
    let data := pick ds_data sets in
    if negb need_run then Ok (data, m)
    else if String.eqb stage "cross_validation" then m ← m_cross ms train m; Ok (out, m)
    else if String.eqb stage "one_vs_rest" then
      match train, eval with
      | Some tr, _ =>
          m ← m_rest_fit ms tr m;
          '(p, m) ← m_rest_predict ms tr m;
          p ← tagged "train" p;
          '(p, m) ← match eval with
                    | None => Ok (p, m)
                    | Some ev =>
                        '(q, m) ← m_rest_predict ms ev m;
                        q ← tagged "validation" q;
                        p ← combine p q;
                        Ok (p, m)
                    end;
          Ok (set_schema p tr, m)
      | None, Some ev =>
          '(p, m) ← m_rest_predict ms ev m;
          p ← tagged "test" p;
          Ok (set_schema p ev, m)
      | None, None => Ok (out, m)
      end
    else
      match train, eval with
      | Some tr, _ =>
          '(_, m) ← m_fit ms (Some tr) (m_flow ms "train" m);
          '(p, m) ← m_predict ms tr (m_flow ms "predict" m);
          p ← tagged "train" p;
          '(p, m) ← match eval with
                    | None => Ok (p, m)
                    | Some ev =>
                        '(q, m) ← m_predict ms ev (m_flow ms "validate" m);
                        q ← tagged "validation" q;
                        p ← combine p q;
                        Ok (p, m)
                    end;
          Ok (set_schema p tr, m)
      | None, Some ev =>
          '(p, m) ← m_predict ms ev (m_flow ms "predict" m);
          p ← tagged "test" p;
          Ok (set_schema p ev, m)
      | None, None =>
          if String.eqb stage "fit" then m_fit ms data (m_flow ms "fit" m)
          else m_transform ms data (m_flow ms "transform" m)
      end.

  (** model_base.py:164-185 after _init_runtime_parameters; [has_model] and [has_iso] say which keys args has. *)
  Definition run (need_run need_cv need_rest has_model has_iso : bool) (sets : option (list data_set)) (out : option table) (m : M)
    : res (option table * M) :=
    '(stage, m) ← (if need_cv then Ok ("cross_validation", m)
                   else if need_rest then m ← (if has_model then m_load ms m else Ok m); Ok ("one_vs_rest", m)
                   else if has_model then m ← m_load ms m; Ok ("transform", m)
                   else if has_iso then m ← m_load ms m; Ok ("fit", m)
                   else Ok ("fit", m));
    match sets with None => Ok (out, m) | Some sets => run_data need_run sets stage out m end.
End Run.
Arguments row : clear implicits.
Arguments table : clear implicits.
Arguments methods : clear implicits.
Arguments data_set : clear implicits.

(** A configuration value: a dict, or something else, of which only matters what [name in value] gives. *)
Inductive config (V : Type) :=
| CDict (entries : list (string * config V))
| CValue (v : V).
Arguments CDict {V} _.
Arguments CValue {V} _.
(** What a parameter object holds: a value whose class is built in (or None), which may be any configuration value, or a
    parameter object with its attributes. *)
Inductive attr (V : Type) :=
| ALeaf (c : config V)
| AObj (fields : list (string * attr V)).
Arguments ALeaf {V} _.
Arguments AObj {V} _.

Section Extract.
  Context {V : Type}.
  (** [name in v] for a value that is no dict: None when v is not iterable. *)
  Context (value_in : V -> string -> option bool).

  Fixpoint entry (name : string) (l : list (string * config V)) : option (config V) :=
    match l with [] => None | (n, c) :: l' => if String.eqb n name then Some c else entry name l' end.
  (** The configuration of an attribute if [variable in config_json] (lines 54-58): [config_json[variable]] for a built-in
      attribute, [config_json.get(variable)] for an object; a str or list has neither. *)
  Definition lookup_config (c : config V) (name : string) (x : attr V) : res (option (config V)) :=
    match c with
    | CDict l => Ok (entry name l)
    | CValue v => match value_in v name with
                  | None => Err TypeError
                  | Some false => Ok None
                  | Some true => match x with ALeaf _ => Err TypeError | AObj _ => Err AttributeError end
                  end
    end.
  Definition PARAM_MAXDEPTH : nat := 5.

  (** param_extract.py:44-62. The object is rebuilt instead of updated in place. *)
  Fixpoint parse (depth : nat) (a : attr V) (c : config V) : res (attr V) :=
    match a with
    | ALeaf _ => Ok (ALeaf c)
    | AObj fields =>
        if (PARAM_MAXDEPTH <? depth)%nat then Err ValueError
        else
          fields ← (fix go (l : list (string * attr V)) : res (list (string * attr V)) :=
                      match l with
                      | [] => Ok []
                      | (name, x) :: l' =>
                          o ← lookup_config c name x;
                          x' ← match o with None => Ok x | Some c' => parse (S depth) x c' end;
                          rest ← go l';
                          Ok ((name, x') :: rest)
                      end) fields;
          Ok (AObj fields)
    end.

  (** param_extract.py:31-42; [class] is the class name of the parameter object; None stands for a configuration that is not
      a dict. The exception raised is a plain Exception, here ValueError. *)
  Definition parse_param (class : string) (a : attr V) (conf : option (list (string * config V))) : res (attr V) :=
    match conf with
    | None => Err ValueError
    | Some l => match entry class l with None => Ok a | Some c => parse 0 a c end
    end.
End Extract.
