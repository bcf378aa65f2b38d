(** What a rule file demands. *)
From Verif Require Export RuleModel.
Local Open Scope string_scope.

(** A value meets a rule. *)
Definition meets (v : rval) (op : string) (a : rarg) : Prop :=
  (op = "ge" /\ exists q l, v = RNum q /\ a = ANum l /\ (l - FLOAT_ZERO <= q)%Qc) \/
  (op = "le" /\ exists q l, v = RNum q /\ a = ANum l /\ (q <= l + FLOAT_ZERO)%Qc) \/
  (op = "in" /\ exists l, a = AList l /\ v ∈ l) \/
  (op = "not_in" /\ exists l, a = AList l /\ v ∉ l) \/
  (op = "range" /\ exists q l x y, v = RNum q /\ a = ARanges l /\ (x, y) ∈ l /\ (x - FLOAT_ZERO <= q)%Qc /\ (q <= y + FLOAT_ZERO)%Qc).
(** The rule can be applied to the value. *)
Definition applies (v : rval) (op : string) (a : rarg) : Prop :=
  match a with
  | ANum _ => (op = "ge" \/ op = "le") /\ exists q, v = RNum q
  | AList _ => op = "in" \/ op = "not_in"
  | ARanges _ => op = "range" /\ exists q, v = RNum q
  end.
(** A key of the file. *)
Definition key (json : rule_file) (name : string) : Prop := exists s, get name json = Some s.
(** Which objects a file lets pass: only attributes whose own name is a key of the file count, and one rule is enough. *)
Inductive obeys (json : rule_file) : pattr -> Prop :=
| obeys_val v : obeys json (PVal v)
| obeys_obj class fields :
    (forall name v, (name, PVal v) ∈ fields -> key json name -> exists s rs op a, get class json = Some s /\ get name s = Some rs /\ (op, a) ∈ rs /\ meets v op a) ->
    (forall name c fs, (name, PSub c fs) ∈ fields -> key json name -> obeys json (PSub c fs)) ->
    obeys json (PSub class fields).
(** All rules of the file fit the attributes of their names. *)
Inductive fits (json : rule_file) : pattr -> Prop :=
| fits_val v : fits json (PVal v)
| fits_obj class fields :
    (forall name v s rs op a, (name, PVal v) ∈ fields -> get class json = Some s -> get name s = Some rs -> (op, a) ∈ rs -> applies v op a) ->
    (forall name c fs, (name, PSub c fs) ∈ fields -> fits json (PSub c fs)) ->
    fits json (PSub class fields).
(** The file has rules for every attribute it has a key for. *)
Inductive complete (json : rule_file) : pattr -> Prop :=
| complete_val v : complete json (PVal v)
| complete_obj class fields :
    (forall name v, (name, PVal v) ∈ fields -> key json name -> exists s rs, get class json = Some s /\ get name s = Some rs) ->
    (forall name c fs, (name, PSub c fs) ∈ fields -> key json name -> complete json (PSub c fs)) ->
    complete json (PSub class fields).
