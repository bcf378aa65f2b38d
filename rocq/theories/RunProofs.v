(** Proofs about component runs. *)
From Verif Require Import RunModel RunSpec DTableSpec DTableProofs.
Local Open Scope string_scope.
Local Open Scope list_scope.

Lemma bind_inv {A B} (m : res A) (f : A -> res B) y : (x ← m; f x) = Ok y <-> exists x, m = Ok x /\ f x = Ok y.
Proof. destruct m; cbn [mbind res_bind]; split; [eauto|by intros (?&[= <-]&?)|done|by intros (?&?&?)]. Qed.

Section Run.
  Context {K I V Sid M : Type} `{EqDecision K} (vstr : string -> V).
  Notation table := (table K I V Sid).
  Notation row := (row I V).

  Lemma pick_given f (sets : list (data_set K I V Sid)) : given f sets (pick f sets).
  Proof.
    unfold pick. induction sets as [|d sets IH] using rev_ind; [left; split; [done|]; intros d H; by apply elem_of_nil in H|].
    rewrite fold_left_app. cbn. destruct (f d) as [t|] eqn:E.
    - right. exists t, sets, d, []. split_and!; try done. intros d' H; by apply elem_of_nil in H.
    - destruct IH as [[-> Hn]|(t&b&d0&a&->&->&Hd&Hn)].
      + left. split; [done|]. intros d' [H|H%elem_of_list_singleton]%elem_of_app; [by apply Hn|by subst].
      + right. exists t, b, d0, (a ++ [d]). split_and!; try done; [by rewrite <- app_assoc|].
        intros d' [H|H%elem_of_list_singleton]%elem_of_app; [by apply Hn|by subst].
  Qed.
  Lemma given_fun f (sets : list (data_set K I V Sid)) o : given f sets o <-> o = pick f sets.
  Proof.
    split; [|intros ->; apply pick_given]. unfold pick. revert o.
    induction sets as [|d sets IH] using rev_ind; intros o.
    - intros [[-> _]|(t&b&d&a&->&E&_)]; [done|]. by destruct b.
    - rewrite fold_left_app. cbn. intros [[-> Hn]|(t&b&d0&a&->&E&Hd&Hn)].
      + rewrite (Hn d) by (apply elem_of_app; right; by apply elem_of_list_singleton). apply IH. left. split; [done|].
        intros d' H. apply Hn, elem_of_app. by left.
      + destruct a as [|d1 a _] using rev_ind.
        * apply app_inj_tail in E as [-> ->]. by rewrite Hd.
        * rewrite app_comm_cons, app_assoc in E. apply app_inj_tail in E as [-> ->].
          rewrite (Hn d1) by (apply elem_of_app; right; by apply elem_of_list_singleton). apply IH. right.
          exists t, b, d0, a. split_and!; try done. intros d' H. apply Hn, elem_of_app. by left.
  Qed.

  Lemma mark_ok tag (t : dtable K row) t' : NoDup (map fst (dt_data t)) ->
    dt_mapValues (add_tag vstr tag) t = Ok t' <-> marks vstr tag t t'.
  Proof.
    intros Hnd. unfold dt_mapValues, marks.
    set (f := fun kv : K * row => match add_tag vstr tag kv.2 with Ok w => Ok (kv.1, w) | Err e => Err e end).
    assert (forall l l', mapR f l = Ok l' <-> Forall2 (fun a b => a.1 = b.1 /\ exists x, a.2 = Pred x /\ b.2 = Pred (x ++ [vstr tag])) l l') as Hm.
    { induction l as [|[k r] l IH]; intros l'; cbn; [split; [intros [= <-]; constructor|intros H; by inversion H]|].
      destruct r as [x|x]; cbn.
      - split; [done|]. intros H. inversion H as [|? ? ? ? Hx]; subst. destruct Hx as (_&z0&E0&_). discriminate E0.
      - destruct (mapR f l) as [l0|e] eqn:E.
        + split; [intros [= <-]; constructor; [split; [done|by exists x]|by apply IH]|].
          intros H. inversion H as [|? [k1 r1] ? ? Hx H']; subst. destruct Hx as (E1&z0&E2&E3). cbn in *. injection E2 as <-.
          apply IH in H'. injection H' as <-. by rewrite E1, E3.
        + split; [done|]. intros H. inversion H as [|???? _ H']; subst. by apply IH in H'. }
    assert (forall l l', Forall2 (fun a b : K * row => a.1 = b.1 /\ exists x, a.2 = Pred x /\ b.2 = Pred (x ++ [vstr tag])) l l' ->
              map fst l' = map fst l) as Hk.
    { induction 1 as [|[] [] ? ? [E _] _ IH]; [done|]. cbn in *. by rewrite E, IH. }
    destruct (mapR f (dt_data t)) as [l|e] eqn:E.
    - apply Hm in E. rewrite dt_new_keyed_ok by (change (NoDup (map fst l)); rewrite (Hk _ _ E); exact Hnd). split.
      + intros [= <-]. exact E.
      + intros H. apply Hm in E, H. rewrite E in H. injection H as ->. by destruct t'.
    - split; [done|]. intros H. apply Hm in H. unfold dict in *. by rewrite E in H.
  Qed.

  Definition wf_opt (p : option table) : Prop := match p with None => True | Some t => NoDup (map fst (dt_data (t_rows t))) end.
  Lemma marks_keys tag (a b : dtable K row) : marks vstr tag a b -> map fst (dt_data b) = map fst (dt_data a).
  Proof. unfold marks. induction 1 as [|[] [] ? ? [E _] _ IH]; [done|]. cbn in *. by rewrite E, IH. Qed.
  Lemma marks_exist tag (t : dtable K row) : (forall k r, (k, r) ∈ dt_data t -> exists l, r = Pred l) -> exists t', marks vstr tag t t'.
  Proof.
    destruct t as [l]. cbn. induction l as [|[k r] l IH]; intros H.
    - exists (DT []). constructor.
    - destruct (H k r) as [x ->]; [left|]. destruct IH as [[l'] Hl]; [intros k' r' Hin; apply (H k'); by right|].
      exists (DT ((k, Pred (x ++ [vstr tag])) :: l')). constructor; [|exact Hl]. split; [done|]. by exists x.
  Qed.
  Lemma marks_can tag (t t' : dtable K row) : marks vstr tag t t' -> forall k r, (k, r) ∈ dt_data t -> exists l, r = Pred l.
  Proof.
    unfold marks. intros H k r Hin. apply elem_of_list_lookup in Hin as [i Hi].
    destruct (Forall2_lookup_l _ _ _ _ _ H Hi) as (b&_&_&x&E&_). by exists x.
  Qed.

  Lemma tagged_ok tag p o : wf_opt p -> tagged (Sid := Sid) vstr tag p = Ok o <->
    (p = None /\ o = None) \/ exists t rows, p = Some t /\ o = Some (Tab rows None None) /\ marks vstr tag (t_rows t) rows.
  Proof.
    intros Hw. destruct p as [t|]; cbn.
    - rewrite bind_inv. split.
      + intros (rows&H&[= <-]). right. exists t, rows. split_and!; try done. by apply mark_ok.
      + intros [[[=] _]|(t0&rows&[= <-]&->&H)]. exists rows. split; [by apply mark_ok|done].
    - split; [intros [= <-]; by left|]. by intros [[_ ->]|(?&?&[=]&_)].
  Qed.
  Lemma tagged_wf tag p o : wf_opt p -> tagged vstr tag p = Ok o -> wf_opt o.
  Proof.
    intros Hw H. apply tagged_ok in H as [[_ ->]|(t&rows&->&->&H)]; [done| |done].
    cbn. by rewrite (marks_keys _ _ _ H).
  Qed.
  Lemma reported_ok tag src p o : wf_opt p ->
    (exists o0, tagged vstr tag p = Ok o0 /\ set_schema o0 src = o) <-> reported vstr tag src p o.
  Proof.
    intros Hw. unfold reported. split.
    - intros (o0&H&<-). apply tagged_ok in H as [[-> ->]|(t&rows&->&->&H)]; [by left| |done].
      right. exists t, rows. done.
    - intros [[-> ->]|(t&rows&->&->&H)]; [by exists None|].
      exists (Some (Tab rows None None)). split; [|done]. apply tagged_ok; [done|]. right. by exists t, rows.
  Qed.
  Lemma can_tag_ok tag p : wf_opt p -> can_tag p <-> exists o, tagged (Sid := Sid) vstr tag p = Ok o.
  Proof.
    intros Hw. destruct p as [t|]; cbn; [|split; [by exists None|done]]. split.
    - intros H. destruct (marks_exist tag (t_rows t) H) as [t' Ht']. exists (Some (Tab t' None None)).
      apply (mark_ok tag) in Ht'; [|done]. by rewrite Ht'.
    - intros [o H]. apply bind_inv in H as (rows&H&_). apply mark_ok in H; [|done]. by eapply marks_can.
  Qed.
  Lemma combine_ok p q : wf_opt p -> wf_opt q ->
    combine p q = Ok (match p with Some t => Some t | None => q end).
  Proof.
    intros Hp Hq. destruct p as [t|], q as [e|]; try done. unfold combine. cbn in *.
    by rewrite dt_union_ok.
  Qed.

  Context (ms : methods K I V Sid M) (Hs : sound ms).

  (** The middle part common to both kinds of stages. *)
  Lemma learn_ok (fit : table -> M -> res M) (predict check : table -> M -> res (option table * M))
      (Rfit : table -> M -> M -> Prop) (Rpredict Rcheck : table -> M -> option table -> M -> Prop) train eval old m o m' :
    (forall t m m1, Rfit t m m1 <-> fit t m = Ok m1) ->
    (forall t m p m1, Rpredict t m p m1 <-> predict t m = Ok (p, m1)) ->
    (forall t m p m1, Rcheck t m p m1 <-> check t m = Ok (p, m1)) ->
    (forall t m p m1, predict t m = Ok (p, m1) -> wf_opt p) ->
    (forall t m p m1, check t m = Ok (p, m1) -> wf_opt p) ->
    (train = None -> eval <> None) ->
    match train, eval with
    | Some tr, _ =>
        m ← fit tr m;
        '(p, m) ← predict tr m;
        p ← tagged vstr "train" p;
        '(p, m) ← match eval with
                  | None => Ok (p, m)
                  | Some ev =>
                      '(q, m) ← check ev m;
                      q ← tagged vstr "validation" q;
                      p ← combine p q;
                      Ok (p, m)
                  end;
        Ok (set_schema p tr, m)
    | None, Some ev =>
        '(p, m) ← predict ev m;
        p ← tagged vstr "test" p;
        Ok (set_schema p ev, m)
    | None, None => Ok (old, m)
    end = Ok (o, m') <-> learned vstr Rfit Rpredict Rcheck train eval old m o m'.
  Proof.
    intros Hf Hp Hc Wp Wc Hne. split.
    - destruct train as [tr|], eval as [ev|]; intros H; [| | |by destruct Hne].
      + apply bind_inv in H as (m1&H1&H). apply bind_inv in H as ([p m2]&H2&H). apply bind_inv in H as (p0&H3&H).
        apply bind_inv in H as ([p1 m3]&H4&[= <- <-]).
        apply bind_inv in H4 as ([q m4]&H5&H4). apply bind_inv in H4 as (q0&H6&H4). apply bind_inv in H4 as (p2&H7&[= -> ->]).
        assert (wf_opt p) as Wp' by by eapply Wp. assert (wf_opt q) as Wq' by by eapply Wc.
        rewrite combine_ok in H7; [|exact (tagged_wf _ _ _ Wp' H3)|exact (tagged_wf _ _ _ Wq' H6)]. injection H7 as <-.
        eapply learned_both; [by apply Hf|by apply Hp|by apply Hc| | |].
        * eapply can_tag_ok; [done|]. by exists q0.
        * intros Hn. apply reported_ok; [done|]. exists p0. split; [done|].
          apply tagged_ok in H3 as [[-> _]|(t&rows&->&->&_)]; done.
        * intros ->. apply reported_ok; [done|]. exists q0. split; [done|]. cbn in H3. by injection H3 as <-.
      + apply bind_inv in H as (m1&H1&H). apply bind_inv in H as ([p m2]&H2&H). apply bind_inv in H as (p0&H3&H).
        apply bind_inv in H as ([p1 m3]&[= <- <-]&[= <- <-]). eapply learned_train; [by apply Hf|by apply Hp|].
        apply reported_ok; [by eapply Wp|]. by exists p0.
      + apply bind_inv in H as ([p m2]&H2&H). apply bind_inv in H as (p0&H3&[= <- <-]).
        eapply learned_test; [by apply Hp|]. apply reported_ok; [by eapply Wp|]. by exists p0.
    - intros H. destruct H as [tr old m m1 m2 p o H1 H2 H3|tr ev old m m1 m2 m3 p q o H1 H2 H3 H4 H5 H6|ev old m m1 p o H2 H3].
      + apply Hf in H1. apply Hp in H2. apply reported_ok in H3 as (p0&H3&<-); [|by eapply Wp].
        rewrite H1. cbn [mbind res_bind]. rewrite H2. cbn [mbind res_bind]. by rewrite H3.
      + apply Hf in H1. apply Hp in H2. apply Hc in H3.
        assert (wf_opt p) as Wp' by by eapply Wp. assert (wf_opt q) as Wq' by by eapply Wc.
        apply (can_tag_ok "validation") in H4 as [q0 H4]; [|done].
        rewrite H1. cbn [mbind res_bind]. rewrite H2. cbn [mbind res_bind].
        destruct p as [t|].
        * specialize (H5 ltac:(done)). apply reported_ok in H5 as (p0&H5&<-); [|done]. rewrite H5. cbn [mbind res_bind].
          rewrite H3. cbn [mbind res_bind]. rewrite H4. cbn [mbind res_bind].
          rewrite combine_ok; [|exact (tagged_wf _ _ _ Wp' H5)|exact (tagged_wf _ _ _ Wq' H4)]. cbn [mbind res_bind].
          apply tagged_ok in H5 as [[[=] _]|(t'&rows&[= <-]&->&_)]; done.
        * specialize (H6 eq_refl). apply reported_ok in H6 as (p0&H6&<-); [|done]. cbn [tagged mbind res_bind].
          rewrite H3. cbn [mbind res_bind]. rewrite H6. cbn [mbind res_bind].
          rewrite combine_ok; [done|done|exact (tagged_wf _ _ _ Wq' H6)].
      + apply Hp in H2. apply reported_ok in H3 as (p0&H3&<-); [|by eapply Wp].
        rewrite H2. cbn [mbind res_bind]. by rewrite H3.
  Qed.

  Lemma run_data_ok need_run sets stage old m o m' :
    run_data vstr ms need_run sets stage old m = Ok (o, m') <-> runs vstr ms need_run sets stage old m o m'.
  Proof.
    unfold run_data.
    assert (forall t m p m1, m_rest_predict ms t m = Ok (p, m1) -> wf_opt p) as Wr.
    { intros t m0 [p|] m1 H; [|done]. eapply Hs. by right. }
    assert (forall fl t m p m1, m_predict ms t (m_flow ms fl m) = Ok (p, m1) -> wf_opt p) as Wp.
    { intros fl t m0 [p|] m1 H; [|done]. eapply Hs. by left. }
    split.
    - destruct need_run; cbn [negb]; [|intros [= <- <-]; by apply runs_not, pick_given].
      destruct (String.eqb_spec stage "cross_validation") as [->|Hc].
      { rewrite bind_inv. intros (m1&H&[= <- <-]). eapply runs_cross; [done|done|apply pick_given|done]. }
      destruct (String.eqb_spec stage "one_vs_rest") as [->|Hr].
      { destruct (pick ds_train sets) as [tr|] eqn:Et; [|destruct (pick ds_eval sets) as [ev|] eqn:Ee].
        - intros H. eapply runs_rest; [done|done|apply given_fun; symmetry; exact Et|apply pick_given|].
          eapply (learn_ok (m_rest_fit ms) (m_rest_predict ms) (m_rest_predict ms)); [done..|exact H].
        - intros H. eapply runs_rest; [done|done|apply given_fun; symmetry; exact Et|apply given_fun; symmetry; exact Ee|].
          eapply (learn_ok (m_rest_fit ms) (m_rest_predict ms) (m_rest_predict ms)); [done..|exact H].
        - intros [= <- <-]. apply runs_rest_none; [done|done|by apply given_fun..]. }
      set (fit := fun t m => '(_, m1) ← m_fit ms (Some t) (m_flow ms "train" m); Ok m1).
      assert (forall t m m1, fit_as ms t m m1 <-> fit t m = Ok m1) as Hfit.
      { intros t m0 m1. unfold fit, fit_as. rewrite bind_inv. split.
        - intros [o' E]. exists (o', m1). done.
        - intros ([o' m2]&E&[= <-]). by exists o'. }
      destruct (pick ds_train sets) as [tr|] eqn:Et; [|destruct (pick ds_eval sets) as [ev|] eqn:Ee].
      + intros H. eapply runs_learn; [done|done|done|apply given_fun; symmetry; exact Et|apply pick_given|].
        eapply (learn_ok fit (fun t m => m_predict ms t (m_flow ms "predict" m)) (fun t m => m_predict ms t (m_flow ms "validate" m)));
          [done|done|done|intros *; apply Wp|intros *; apply Wp|done|].
        rewrite <- H. unfold fit. destruct (m_fit ms (Some tr) (m_flow ms "train" m)) as [[]|]; done.
      + intros H. eapply runs_learn; [done|done|done|apply given_fun; symmetry; exact Et|apply given_fun; symmetry; exact Ee|].
        eapply (learn_ok fit (fun t m => m_predict ms t (m_flow ms "predict" m)) (fun t m => m_predict ms t (m_flow ms "validate" m)));
          [done|done|done|intros *; apply Wp|intros *; apply Wp|done|exact H].
      + destruct (String.eqb_spec stage "fit") as [->|Hf]; intros H.
        * eapply runs_fit; [done|done|by apply given_fun..|exact H].
        * eapply runs_transform; [done|done|done|done|by apply given_fun..|exact H].
    - intros H. destruct H as [o Hn Hd|tr m1 Hn Hst Ht H|tr ev o m1 Hn Hst Ht He H|Hn Hst Ht He|tr ev o m1 Hn Hst1 Hst2 Ht He H
        |d o m1 Hn Hst Ht He Hd H|d o m1 Hn Hst Hst1 Hst2 Ht He Hd H]; subst need_run; cbn [negb].
      + apply given_fun in Hd as ->. done.
      + subst stage. apply given_fun in Ht as ->. rewrite String.eqb_refl. by rewrite H.
      + subst stage. apply given_fun in Ht, He. rewrite <- Ht, <- He.
        change (String.eqb "one_vs_rest" "cross_validation") with false. rewrite String.eqb_refl.
        eapply (learn_ok (m_rest_fit ms) (m_rest_predict ms) (m_rest_predict ms) (rest_fit_as ms) (rest_predict_as ms) (rest_predict_as ms));
          [done|done|done|done|done| |exact H].
        intros ->. by inversion H.
      + subst stage. apply given_fun in Ht, He. rewrite <- Ht, <- He. done.
      + apply given_fun in Ht, He. rewrite <- Ht, <- He.
        destruct (String.eqb_spec stage "cross_validation") as [|_]; [done|]. destruct (String.eqb_spec stage "one_vs_rest") as [|_]; [done|].
        set (fit := fun t m => '(_, m1) ← m_fit ms (Some t) (m_flow ms "train" m); Ok m1).
        assert (forall t m m1, fit_as ms t m m1 <-> fit t m = Ok m1) as Hfit.
        { intros t m0 m2. unfold fit, fit_as. rewrite bind_inv. split.
          - intros [o' E]. exists (o', m2). done.
          - intros ([o' m3]&E&[= <-]). by exists o'. }
        assert (tr = None -> ev <> None) as Hne by (intros ->; by inversion H).
        eapply (learn_ok fit (fun t m => m_predict ms t (m_flow ms "predict" m)) (fun t m => m_predict ms t (m_flow ms "validate" m))) in H;
          [|done|done|done|intros *; apply Wp|intros *; apply Wp|done].
        rewrite <- H. destruct tr as [tr|]; [|destruct ev as [ev|]; [done|exfalso; by apply Hne]].
        unfold fit. destruct (m_fit ms (Some tr) (m_flow ms "train" m)) as [[]|]; done.
      + subst stage. apply given_fun in Ht, He, Hd. rewrite <- Ht, <- He, <- Hd. exact H.
      + apply given_fun in Ht, He, Hd. rewrite <- Ht, <- He, <- Hd.
        destruct (String.eqb_spec stage "cross_validation") as [|_]; [done|]. destruct (String.eqb_spec stage "one_vs_rest") as [|_]; [done|].
        destruct (String.eqb_spec stage "fit") as [|_]; [done|]. exact H.
  Qed.
End Run.

Section Extract.
  Context {V : Type} (value_in : V -> string -> option bool).

  Fixpoint attr_ind' (P : attr V -> Prop) (Hl : forall c, P (ALeaf c)) (Ho : forall fs, (forall kv, kv ∈ fs -> P kv.2) -> P (AObj fs)) (a : attr V) : P a.
  Proof.
    destruct a as [c|fs]; [apply Hl|]. apply Ho. induction fs as [|kv fs IH].
    - intros kv H. by apply elem_of_nil in H.
    - intros kv' H. apply elem_of_cons in H as [->|H]; [apply (attr_ind' P Hl Ho)|by apply IH].
  Defined.

  Lemma entry_in name l (c : config V) : NoDup (map fst l) -> entry name l = Some c <-> (name, c) ∈ l.
  Proof.
    induction l as [|[n c0] l IH]; cbn; intros Hnd; [split; [done|intros H; by apply elem_of_nil in H]|].
    apply NoDup_cons in Hnd as [Hn Hnd]. destruct (String.eqb_spec n name) as [->|Hne].
    - split; [intros [= <-]; left|]. intros H. apply elem_of_cons in H as [[= <-]|H]; [done|].
      exfalso. apply Hn. apply elem_of_list_fmap. by exists (name, c).
    - rewrite (IH Hnd). split; [by right|]. intros H. apply elem_of_cons in H as [[= -> ->]|H]; done.
  Qed.
  Lemma entry_none name (l : list (string * config V)) : entry name l = None <-> forall c, (name, c) ∉ l.
  Proof.
    induction l as [|[n c0] l IH]; cbn; [split; [intros _ c H; by apply elem_of_nil in H|done]|].
    destruct (String.eqb_spec n name) as [->|Hne].
    - split; [done|]. intros H. exfalso. apply (H c0). left.
    - rewrite IH. split.
      + intros H c Hin. apply elem_of_cons in Hin as [[= -> ->]|Hin]; [done|by apply (H c)].
      + intros H c Hin. apply (H c). by right.
  Qed.

  Definition parsed (depth : nat) (c : config V) (kv kv' : string * attr V) : Prop :=
    kv'.1 = kv.1 /\ exists o, lookup_config value_in c kv.1 kv.2 = Ok o
      /\ match o with None => kv'.2 = kv.2 | Some c' => parse value_in (S depth) kv.2 c' = Ok kv'.2 end.
  Lemma parse_obj depth fields c a' : parse value_in depth (AObj fields) c = Ok a' <->
    (depth <= 5)%nat /\ exists fs', a' = AObj fs' /\ Forall2 (parsed depth c) fields fs'.
  Proof.
    cbn [parse]. set (go := fix go (l : list (string * attr V)) : res (list (string * attr V)) := _).
    assert (forall l l', go l = Ok l' <-> Forall2 (parsed depth c) l l') as Hgo.
    { induction l as [|[name x] l IH]; intros l'; cbn.
      - split; [intros [= <-]; constructor|intros H; by inversion H].
      - rewrite bind_inv. split.
        + intros (o&Ho&H). apply bind_inv in H as (x'&Hx&H). apply bind_inv in H as (rest&Hr&[= <-]).
          constructor; [|by apply IH]. split; [done|]. exists o. split; [done|]. destruct o; [done|]. by injection Hx as <-.
        + intros H. inversion H as [|? [n1 x1] ? rest Hx Hrest]; subst. destruct Hx as (En&o&Ho&Hx). cbn in *. subst n1.
          exists o. split; [done|]. apply bind_inv. exists x1. split; [destruct o; [done|by rewrite Hx]|].
          apply bind_inv. exists rest. split; [by apply IH|done]. }
    unfold PARAM_MAXDEPTH. destruct (Nat.ltb_spec 5 depth) as [Hlt|Hle].
    - split; [done|]. intros [? _]. lia.
    - rewrite bind_inv. split.
      + intros (fs&H&[= <-]). split; [done|]. exists fs. split; [done|]. by apply Hgo.
      + intros (_&fs&->&H). exists fs. split; [by apply Hgo|done].
  Qed.

  Lemma holds_obj fs path (v : config V) : holds (AObj fs) path v -> exists name p x, path = name :: p /\ (name, x) ∈ fs /\ holds x p v.
  Proof. intros H. inversion H; subst. by do 3 eexists. Qed.
  Lemma parse_holds a : forall depth c a' path v, named a -> conf_named c -> parse value_in depth a c = Ok a' ->
    holds a' path v <->
    (exists v0, holds a path v0) /\ (gives c path v \/ ((forall v', ~ gives c path v') /\ holds a path v)).
  Proof.
    induction a as [c0|fs IH] using attr_ind'; intros depth c a' path v Hn Hc H.
    - injection H as <-. split.
      + intros H. inversion H; subst. split; [exists c0; constructor|]. left. constructor.
      + intros [[v0 H0] H]. inversion H0; subst. destruct H as [H|[Hno H]].
        * inversion H; subst. constructor.
        * exfalso. apply (Hno c). constructor.
    - apply parse_obj in H as (Hd&fs'&->&HF). inversion Hn as [|? Hnd Hsub]; subst.
      assert (forall name x x', (name, x) ∈ fs -> (name, x') ∈ fs' ->
                forall p, holds x' p v <-> (exists v0, holds x p v0) /\ (gives c (name :: p) v \/ ((forall v', ~ gives c (name :: p) v') /\ holds x p v))) as Hstep.
      { intros name x x' Hin Hin' p.
        assert (parsed depth c (name, x) (name, x')) as Hp.
        { apply elem_of_list_lookup in Hin as [i Hi]. apply elem_of_list_lookup in Hin' as [j Hj].
          destruct (Forall2_lookup_r _ _ _ _ _ HF Hj) as ([n y]&Hj'&Hp). destruct Hp as [En Hp]. cbn in En. subst n.
          assert (i = j) as ->.
          { eapply NoDup_lookup; [exact Hnd|apply list_lookup_fmap_Some; by exists (name, x)|apply list_lookup_fmap_Some; by exists (name, y)]. }
          rewrite Hi in Hj'. injection Hj' as <-. by split. }
        destruct Hp as (_&o&Ho&Hp). cbn in *.
        assert (forall v', gives c (name :: p) v' <-> exists c', o = Some c' /\ gives c' p v') as Hg.
        { intros v'. destruct c as [l|w]; cbn in Ho.
          - injection Ho as <-. inversion Hc as [|? Hl _]; subst. split.
            + intros H. inversion H; subst. eexists. split; [by apply entry_in|done].
            + intros (c'&E&H). apply entry_in in E; [|done]. by econstructor.
          - split; [intros H; inversion H|]. intros (c'&->&_). destruct (value_in w name) as [[]|]; destruct x; discriminate Ho. }
        destruct o as [c'|].
        - assert (conf_named c') as Hc'.
          { destruct c as [l|w]; cbn in Ho; [|by destruct (value_in w name) as [[]|], x].
            injection Ho as Ho. inversion Hc as [|? Hl Hsubc]; subst. apply entry_in in Ho; [|done]. by eapply Hsubc. }
          rewrite (IH (name, x) Hin (S depth) c' x' p v (Hsub _ _ Hin) Hc' Hp). cbn [snd].
          rewrite (Hg v). setoid_rewrite Hg. split; intros [H0 [H|[H H2]]].
          + split; [done|]. left. by exists c'.
          + split; [done|]. right. split; [|done]. intros v' (c1&[= <-]&Hv). by apply (H v').
          + split; [done|]. destruct H as (c1&[= <-]&H). by left.
          + split; [done|]. right. split; [|done]. intros v' Hv. apply (H v'). by exists c'.
        - subst x'. split.
          + intros H. split; [by exists v|]. right. split; [|done]. intros v' Hv. apply Hg in Hv as (?&[=]&_).
          + intros [_ [H|[_ H]]]; [|done]. apply Hg in H as (?&[=]&_). }
      assert (forall name, (exists x, (name, x) ∈ fs) <-> exists x', (name, x') ∈ fs') as Hnames.
      { intros name. split; intros [x Hx]; apply elem_of_list_lookup in Hx as [i Hi].
        - destruct (Forall2_lookup_l _ _ _ _ _ HF Hi) as ([n y]&Hj&[E _]). cbn in E. subst n. exists y. by eapply elem_of_list_lookup_2.
        - destruct (Forall2_lookup_r _ _ _ _ _ HF Hi) as ([n y]&Hj&[E _]). cbn in E. subst n. exists y. by eapply elem_of_list_lookup_2. }
      assert (forall name x y, (name, x) ∈ fs -> (name, y) ∈ fs -> x = y) as Huniq.
      { intros name x y Hx Hy. apply elem_of_list_lookup in Hx as [i Hi], Hy as [j Hj].
        assert (i = j) as ->.
        { eapply NoDup_lookup; [exact Hnd|apply list_lookup_fmap_Some; by exists (name, x)|apply list_lookup_fmap_Some; by exists (name, y)]. }
        rewrite Hi in Hj. by injection Hj. }
      split.
      + intros H. apply holds_obj in H as (name&p&x'&->&Hin'&Hh).
        destruct (proj2 (Hnames name)) as [x Hin]; [by exists x'|].
        destruct (proj1 (Hstep name x x' Hin Hin' p) Hh) as [[v0 H0] [Hg|[Hno Hg]]].
        * split; [exists v0; by econstructor|by left].
        * split; [exists v0; by econstructor|]. right. split; [done|by econstructor].
      + intros [[v0 H0] H]. apply holds_obj in H0 as (name&p&x&->&Hin&Hh).
        destruct (proj1 (Hnames name)) as [x' Hin']; [by exists x|].
        econstructor; [exact Hin'|]. apply (Hstep name x x' Hin Hin'). split; [by exists v0|].
        destruct H as [H|[Hno H]]; [by left|]. right. split; [done|]. apply holds_obj in H as (?&?&y&[= <- <-]&Hy&Hhy).
        by rewrite (Huniq name x y Hin Hy).
  Qed.

  Lemma parse_fits n a c : fits n a c -> conf_named c -> forall depth, (depth + n <= 6)%nat -> exists a', parse value_in depth a c = Ok a'.
  Proof.
    revert n c. induction a as [c0|fs IH] using attr_ind'; intros n c H Hc depth Hd; [by exists (ALeaf c)|].
    inversion H as [|n' ? l Hf]; subst. inversion Hc as [|? Hl Hsub]; subst.
    assert (exists fs', Forall2 (parsed depth (CDict l)) fs fs') as [fs' HF].
    { assert (forall kv, kv ∈ fs -> exists kv', parsed depth (CDict l) kv kv') as Hall.
      { intros [name x] Hin. destruct (entry name l) as [c'|] eqn:E.
        - pose proof (proj1 (entry_in name l c' Hl) E) as Hin'.
          destruct (IH (name, x) Hin n' c' (Hf _ _ _ Hin Hin') (Hsub _ _ Hin') (S depth) ltac:(lia)) as [x' Hx'].
          exists (name, x'). split; [done|]. exists (Some c'). cbn. by rewrite E.
        - exists (name, x). split; [done|]. exists None. cbn. by rewrite E. }
      clear -Hall. induction fs as [|kv fs IHl]; [by exists []|].
      destruct (Hall kv) as [kv' Hkv]; [left|]. destruct IHl as [fs' HF]; [intros kv0 H0; apply Hall; by right|].
      exists (kv' :: fs'). by constructor. }
    exists (AObj fs'). apply parse_obj. split; [lia|]. by exists fs'.
  Qed.
End Extract.
