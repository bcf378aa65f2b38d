(** Proofs about rule files. *)
From Verif Require Export RuleSpec.
Local Open Scope string_scope.

Lemma pattr_rect' (P : pattr -> Prop) : (forall v, P (PVal v)) -> (forall c fs, (forall n x, (n, x) ∈ fs -> P x) -> P (PSub c fs)) -> forall x, P x.
Proof.
  intros HV HS. fix IH 1. intros [v|c fs]; [apply HV|]. apply HS. induction fs as [|[k y] fs IHfs]; intros n x H; [exfalso; apply elem_of_nil in H; exact H|].
  apply elem_of_cons in H as [[= -> ->]|H]; [apply IH|exact (IHfs n x H)].
Qed.

Lemma range_meets v l : (exists q, v = RNum q) -> exists b, range v (ARanges l) = Ok b /\ (b = true <-> meets v "range" (ARanges l)).
Proof.
  intros [q ->]. assert (X : forall l', meets (RNum q) "range" (ARanges l') <-> exists x y, (x, y) ∈ l' /\ (x - FLOAT_ZERO <= q)%Qc /\ (q <= y + FLOAT_ZERO)%Qc).
  { intros l'. split.
    - intros [[? _]|[[? _]|[[? _]|[[? _]|(_ & q' & l0 & x & y & [= <-] & [= <-] & H)]]]]; try discriminate. eauto.
    - intros (x & y & H). right. right. right. right. split; [reflexivity|]. exists q, l', x, y. split; [reflexivity|]. split; [reflexivity|exact H]. }
  setoid_rewrite X. cbn [range]. induction l as [|[x y] l IH]; [exists false; split; [reflexivity|]; split; [discriminate|intros (x & y & H & _); now apply elem_of_nil in H]|].
  destruct (qleb (x - FLOAT_ZERO)%Qc q) eqn:E1, (qleb q (y + FLOAT_ZERO)%Qc) eqn:E2; cbn [andb].
  { exists true. split; [reflexivity|]. split; [intros _|reflexivity]. exists x, y. split; [left|]. split; [now apply qleb_true|now apply qleb_true]. }
  all: destruct IH as (b & E & I); exists b; (split; [exact E|]); rewrite I; (split; [intros (x' & y' & H & HH); exists x', y'; split; [now right|exact HH]|]);
    intros (x' & y' & H & H1 & H2); apply elem_of_cons in H as [[= -> ->]|H]; [exfalso|now exists x', y']; apply qleb_true in H1; apply qleb_true in H2; congruence.
Qed.

Lemma apply_meets v op a b : apply_rule op v a = Ok b -> (b = true <-> meets v op a).
Proof.
  unfold apply_rule. intros H.
  destruct (String.eqb_spec op "ge") as [->|N1].
  { destruct v, a; try discriminate. injection H as <-. split.
    - intros E. left. split; [reflexivity|]. eexists _, _. split; [reflexivity|]. split; [reflexivity|]. now apply qleb_true.
    - intros [(_ & q' & l' & [= <-] & [= <-] & E)|[[? _]|[[? _]|[[? _]|[? _]]]]]; try discriminate. now apply qleb_true. }
  destruct (String.eqb_spec op "le") as [->|N2].
  { destruct v, a; try discriminate. injection H as <-. split.
    - intros E. right. left. split; [reflexivity|]. eexists _, _. split; [reflexivity|]. split; [reflexivity|]. now apply qleb_true.
    - intros [[? _]|[(_ & q' & l' & [= <-] & [= <-] & E)|[[? _]|[[? _]|[? _]]]]]; try discriminate. now apply qleb_true. }
  destruct (String.eqb_spec op "in") as [->|N3].
  { destruct a; try discriminate. injection H as <-. rewrite bool_decide_eq_true. split.
    - intros E. right. right. left. eauto.
    - intros [[? _]|[[? _]|[(_ & l' & [= <-] & E)|[[? _]|[? _]]]]]; try discriminate. exact E. }
  destruct (String.eqb_spec op "not_in") as [->|N4].
  { destruct a; try discriminate. cbn in H. injection H as <-. rewrite negb_true_iff, bool_decide_eq_false. split.
    - intros E. right. right. right. left. eauto.
    - intros [[? _]|[[? _]|[[? _]|[(_ & l' & [= <-] & E)|[? _]]]]]; try discriminate. exact E. }
  destruct (String.eqb_spec op "range") as [->|N5]; [|discriminate].
  destruct a as [|l0|l0]; [discriminate|discriminate|]. destruct v as [q|s|].
  - destruct (range_meets (RNum q) l0 ltac:(eauto)) as (b' & E & I). rewrite E in H. now injection H as <-.
  - destruct l0 as [|[x y] l0]; [|discriminate]. injection H as <-. split; [discriminate|]. intros [[? _]|[[? _]|[[? _]|[[? _]|(_ & q' & l1 & x & y & [=] & _)]]]]; discriminate.
  - destruct l0 as [|[x y] l0]; [|discriminate]. injection H as <-. split; [discriminate|]. intros [[? _]|[[? _]|[[? _]|[[? _]|(_ & q' & l1 & x & y & [=] & _)]]]]; discriminate.
Qed.
Lemma apply_applies v op a : applies v op a -> exists b, apply_rule op v a = Ok b.
Proof.
  destruct a as [l|l|l]; cbn [applies].
  - intros [[-> | ->] [q ->]]; eexists; reflexivity.
  - intros [-> | ->]; eexists; reflexivity.
  - intros [-> Q]. destruct (range_meets v l Q) as (b & E & _). exists b. exact E.
Qed.
Lemma legal_sound v rs b : value_legal v rs = Ok b -> (b = true <-> exists op a, (op, a) ∈ rs /\ meets v op a).
Proof.
  revert b. induction rs as [|[op a] rs IH]; intros b; cbn [value_legal].
  - intros [= <-]. split; [discriminate|]. intros (op & a & H & _). now apply elem_of_nil in H.
  - destruct (apply_rule op v a) as [x|] eqn:E; [|discriminate]. cbn [mbind res_bind]. apply apply_meets in E. destruct x.
    + intros [= <-]. split; [intros _|reflexivity]. exists op, a. split; [left|]. now apply E.
    + intros H. rewrite (IH _ H). split; [intros (o & c & I & M); exists o, c; split; [now right|exact M]|]. intros (o & c & I & M). apply elem_of_cons in I as [[= -> ->]|I]; [apply E in M; discriminate|eauto].
Qed.
Lemma legal_total v rs : (forall op a, (op, a) ∈ rs -> applies v op a) -> exists b, value_legal v rs = Ok b.
Proof.
  induction rs as [|[op a] rs IH]; intros H; [eexists; reflexivity|]. cbn [value_legal]. destruct (apply_applies v op a (H op a ltac:(left))) as [b ->]. cbn [mbind res_bind].
  destruct b; [eexists; reflexivity|]. apply IH. intros o c I. apply H. now right.
Qed.

Section File.
Context (json : rule_file).
Definition go_fields (class : string) (fs : list (string * pattr)) : res unit := validate_param json (PSub class fs).
Lemma field_cases class fs : validate_param json (PSub class fs) = Ok tt <->
  (forall name x, (name, x) ∈ fs -> key json name -> match x with PVal v => exists s rs, get class json = Some s /\ get name s = Some rs /\ value_legal v rs = Ok true | PSub _ _ => validate_param json x = Ok tt end).
Proof.
  fold (go_fields class fs). induction fs as [|[n x] fs IH]; [split; [intros _ name x H; now apply elem_of_nil in H|reflexivity]|].
  assert (EXT : forall P : string -> pattr -> Prop, (forall name y, (name, y) ∈ (n, x) :: fs -> P name y) <-> P n x /\ forall name y, (name, y) ∈ fs -> P name y).
  { intros P. split; [intros H; split; [apply H; left|intros name y I; apply H; now right]|]. intros [A B] name y I. apply elem_of_cons in I as [[= -> ->]|I]; eauto. }
  rewrite EXT. clear EXT.
  assert (STEP : go_fields class ((n, x) :: fs) = match get n json with None => go_fields class fs | Some _ => _ ← match x with
      | PVal value => s ← item class json; d ← item n s; b ← value_legal value d; if b : bool then Ok tt else Err ValueError | PSub _ _ => validate_param json x end; go_fields class fs end) by reflexivity.
  rewrite STEP. clear STEP. destruct (get n json) as [s0|] eqn:K.
  2: { rewrite IH. split; [intros H; split; [intros [s' X]; congruence|exact H]|now intros [_ H]]. }
  split.
  - intros H. destruct x as [v|c gs].
    + destruct (item class json) as [s|] eqn:E1; [|discriminate]. cbn [mbind res_bind] in H. destruct (item n s) as [rs|] eqn:E2; [|discriminate]. cbn [mbind res_bind] in H.
      destruct (value_legal v rs) as [b|] eqn:E3; [|discriminate]. cbn [mbind res_bind] in H. destruct b; [|discriminate]. cbn [mbind res_bind] in H. split; [|now apply IH].
      intros _. unfold item in E1, E2. destruct (get class json) as [s'|]; [|discriminate]. injection E1 as ->. destruct (get n s) as [rs'|] eqn:E4; [|discriminate]. injection E2 as ->. eauto.
    + change (validate_param json (PSub c gs) ≫= (fun _ => go_fields class fs) = Ok tt) in H. destruct (validate_param json (PSub c gs)) as [[]|] eqn:E; [|discriminate]. cbn [mbind res_bind] in H. split; [intros _; reflexivity|now apply IH].
  - intros [A B]. specialize (A (ex_intro _ s0 K)). destruct x as [v|c gs].
    + destruct A as (s & rs & E1 & E2 & E3). unfold item. rewrite E1. cbn [mbind res_bind]. rewrite E2. cbn [mbind res_bind]. rewrite E3. cbn [mbind res_bind]. now apply IH.
    + change (validate_param json (PSub c gs) ≫= (fun _ => go_fields class fs) = Ok tt). rewrite A. cbn [mbind res_bind]. now apply IH.
Qed.
Lemma validate_sound x : validate_param json x = Ok tt -> obeys json x.
Proof.
  induction x as [v|c fs IH] using pattr_rect'; intros H; [constructor|]. rewrite field_cases in H. constructor.
  - intros name v I K. destruct (H _ _ I K) as (s & rs & E1 & E2 & E3). apply legal_sound in E3. destruct (proj1 E3 eq_refl) as (op & a & J & M). eauto 9.
  - intros name c' gs I K. apply (IH _ _ I). exact (H _ _ I K).
Qed.
Lemma get_in {A} name (d : list (string * A)) x : get name d = Some x -> (name, x) ∈ d.
Proof. induction d as [|[k y] d IH]; cbn; [discriminate|]. destruct (String.eqb_spec k name) as [->|N]; [intros [= ->]; left|]. intros H. right. auto. Qed.
Lemma validate_complete x : fits json x -> obeys json x -> validate_param json x = Ok tt.
Proof.
  induction x as [v|c fs IH] using pattr_rect'; intros F O; [reflexivity|]. apply field_cases. inversion F as [|? ? F1 F2]; inversion O as [|? ? O1 O2]; subst. intros name x I K. destruct x as [v|c' gs].
  - destruct (O1 _ _ I K) as (s & rs & op & a & E1 & E2 & J & M). exists s, rs. split; [exact E1|]. split; [exact E2|]. destruct (legal_total v rs) as [b E]; [intros o r X; eapply F1; eauto|].
    rewrite E. pose proof (proj2 (legal_sound v rs b E)) as X. rewrite X; [reflexivity|]. eauto.
  - apply (IH _ _ I); [eapply F2, I|eapply O2; [exact I|exact K]].
Qed.
Lemma validate_error x : forall e, fits json x -> validate_param json x = Err e -> (e = ValueError \/ e = KeyError) /\ (complete json x -> e = ValueError).
Proof.
  induction x as [v|c fs IH] using pattr_rect'; intros e F; [discriminate|]. inversion F as [|? ? F1 F2]; subst. clear F.
  enough (X : validate_param json (PSub c fs) = Err e -> (e = ValueError \/ e = KeyError) /\ ((forall name v, (name, PVal v) ∈ fs -> key json name -> exists s rs, get c json = Some s /\ get name s = Some rs) ->
      (forall name c' gs, (name, PSub c' gs) ∈ fs -> key json name -> complete json (PSub c' gs)) -> e = ValueError)).
  { intros E. destruct (X E) as [A B]. split; [exact A|]. intros K. inversion K; subst. now apply B. }
  change (validate_param json (PSub c fs)) with (go_fields c fs). induction fs as [|[n x] fs IHfs]; [discriminate|].
  assert (STEP : go_fields c ((n, x) :: fs) = match get n json with None => go_fields c fs | Some _ => _ ← match x with
      | PVal value => s ← item c json; d ← item n s; b ← value_legal value d; if b : bool then Ok tt else Err ValueError | PSub _ _ => validate_param json x end; go_fields c fs end) by reflexivity.
  rewrite STEP. clear STEP.
  assert (REST : go_fields c fs = Err e -> (e = ValueError \/ e = KeyError) /\ ((forall name v, (name, PVal v) ∈ (n, x) :: fs -> key json name -> exists s rs, get c json = Some s /\ get name s = Some rs) ->
      (forall name c' gs, (name, PSub c' gs) ∈ (n, x) :: fs -> key json name -> complete json (PSub c' gs)) -> e = ValueError)).
  { intros E. destruct IHfs as [A B]; [intros n' y I; exact (IH n' y (elem_of_list_further _ _ _ I))|intros ? ? ? ? ? ? I; intros; eapply F1; [right; exact I|..]; eauto|intros ? ? ? I; eapply F2; right; exact I|exact E|].
    split; [exact A|]. intros C1 C2. apply B; [intros ? ? I; apply C1 with (1 := elem_of_list_further _ _ _ I)|intros ? ? ? I; apply C2 with (1 := elem_of_list_further _ _ _ I)]. }
  destruct (get n json) as [s0|] eqn:K; [|exact REST]. assert (KEY : key json n) by (now exists s0). destruct x as [v|c' gs].
  - unfold item. destruct (get c json) as [s|] eqn:E1; cbn [mbind res_bind].
    2: { intros [= <-]. split; [auto|]. intros C1 _. destruct (C1 n v) as (s & rs & E & _); [left|exact KEY|congruence]. }
    destruct (get n s) as [rs|] eqn:E2; cbn [mbind res_bind].
    2: { intros [= <-]. split; [auto|]. intros C1 _. destruct (C1 n v) as (s' & rs & E & E'); [left|exact KEY|congruence]. }
    destruct (legal_total v rs) as [b E3]; [intros op a J; eapply F1; [left|reflexivity|exact E2|exact J]|]. rewrite E3. cbn [mbind res_bind]. destruct b; cbn [mbind res_bind]; [exact REST|]. intros [= <-]. auto.
  - destruct (validate_param json (PSub c' gs)) as [[]|e'] eqn:E; cbn [mbind res_bind]; [exact REST|]. intros [= ->].
    destruct (IH n (PSub c' gs) ltac:(left) e) as [A B]; [eapply F2; left|exact E|]. split; [exact A|]. intros _ C2. apply B. eapply C2; [left|exact KEY].
Qed.
End File.
