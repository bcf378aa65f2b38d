(** Proofs about reading files and dividing rows. *)
From Verif Require Import InputModel InputSpec QcBase FixedPointModel FixedPointProofs FloatProofs CipherProofs DTableModel DTableProofs.
Local Open Scope Z_scope.

Definition plain (l : text) : Prop := NL ∉ l /\ CR ∉ l.

Lemma clean_plain c : clean c -> plain c.
Proof. intros (?&?&?). split; auto. Qed.

Lemma line_of_cons c cs : cs <> [] -> line_of (c :: cs) = c ++ COMMA :: line_of cs.
Proof. destruct cs; [congruence|reflexivity]. Qed.

Lemma line_of_plain cells : Forall clean cells -> plain (line_of cells).
Proof.
  induction 1 as [|c cs Hc _ IH]; [split; apply not_elem_of_nil|].
  destruct cs as [|d cs]; [apply clean_plain, Hc|].
  rewrite line_of_cons by discriminate. destruct Hc as (_&?&?), IH.
  split; rewrite elem_of_app, elem_of_cons; intros [?|[[=]|?]]; auto.
Qed.

Lemma split_line cells : cells <> [] -> Forall clean cells -> split_on COMMA (line_of cells) = cells.
Proof.
  assert (forall c rest, COMMA ∉ c -> split_on COMMA (c ++ COMMA :: rest) = c :: split_on COMMA rest) as Happ.
  { intros c rest. induction c as [|x c IH]; intros Hc; cbn.
    - by rewrite decide_True by done.
    - apply not_elem_of_cons in Hc as [Hx Hc]. rewrite decide_False by congruence. by rewrite (IH Hc). }
  assert (forall c, COMMA ∉ c -> split_on COMMA c = [c]) as Hend.
  { intros c. induction c as [|x c IH]; intros Hc; cbn; [done|].
    apply not_elem_of_cons in Hc as [Hx Hc]. rewrite decide_False by congruence. by rewrite (IH Hc). }
  intros Hne Hall. induction Hall as [|c cs [Hc _] _ IH]; [congruence|].
  destruct cs as [|d cs]; [apply Hend, Hc|].
  rewrite line_of_cons by discriminate. rewrite Happ by done. f_equal. by apply IH.
Qed.

(** Every text is a line of cells. *)
Lemma cells_exist l : plain l -> exists cells, cells <> [] /\ Forall clean cells /\ l = line_of cells.
Proof.
  induction l as [|x l IH]; intros [Hn Hc].
  - exists [[]]. split; [done|]. split; [|done]. constructor; [|constructor]. split; [|split]; apply not_elem_of_nil.
  - apply not_elem_of_cons in Hn as [? Hn], Hc as [? Hc].
    destruct IH as (cells&Hne&Hcl&->); [by split|].
    destruct (decide (x = COMMA)) as [->|Hx].
    + exists ([] :: cells). split; [done|]. split; [constructor; [|done]; split; [|split]; apply not_elem_of_nil|].
      by rewrite line_of_cons.
    + destruct cells as [|c cs]; [done|]. exists ((x :: c) :: cs). split; [done|].
      inversion Hcl as [|?? (?&?&?) ?]; subst. split.
      * constructor; [|done]. split; [|split]; apply not_elem_of_cons; auto.
      * by destruct cs.
Qed.

(** * Lines of a file *)

Lemma universal_plain l rest : plain l -> universal (l ++ rest) = l ++ universal rest.
Proof.
  induction l as [|c l IH]; intros [Hn Hc]; [done|].
  apply not_elem_of_cons in Hn as [? Hn], Hc as [? Hc]. cbn. rewrite decide_False by congruence.
  f_equal. apply IH. by split.
Qed.
Lemma universal_nl rest : universal (NL :: rest) = NL :: universal rest.
Proof. reflexivity. Qed.
Lemma universal_crnl rest : universal (CR :: NL :: rest) = NL :: universal rest.
Proof. reflexivity. Qed.
Lemma universal_cr rest : head rest <> Some NL -> universal (CR :: rest) = NL :: universal rest.
Proof.
  intros H. cbn. f_equal. destruct rest as [|d r]; [done|]. rewrite decide_False; [done|]. intros ->. done.
Qed.

Lemma universal_file eol lines tail :
  is_eol eol -> Forall plain lines -> plain tail -> universal (file_of eol lines tail) = file_of [NL] lines tail.
Proof.
  intros He Hl Ht. unfold file_of. induction Hl as [|l ls Hl Hls IH]; cbn [map concat].
  - cbn [app]. rewrite <- (app_nil_r tail) at 1. rewrite universal_plain by done. apply app_nil_r.
  - rewrite <- !app_assoc. rewrite universal_plain by done. f_equal.
    destruct He as [->|[->| ->]]; cbn [app].
    + by rewrite universal_nl, IH.
    + by rewrite universal_crnl, IH.
    + rewrite universal_cr, IH; [done|].
      destruct Hls as [|[|c l'] ls [Hl' _] _]; cbn.
      * destruct tail as [|c t]; cbn; [done|]. destruct Ht as [Ht _]. intros [= ->]. apply Ht. left.
      * done.
      * intros [= ->]. apply Hl'. left.
Qed.

Lemma file_lines_plain cur l rest : plain l -> file_lines cur (l ++ NL :: rest) = (cur ++ l ++ [NL]) :: file_lines [] rest.
Proof.
  revert cur. induction l as [|c l IH]; intros cur [Hn Hc]; [done|].
  apply not_elem_of_cons in Hn as [? Hn], Hc as [? Hc]. cbn. rewrite decide_False by congruence.
  rewrite IH by (by split). by rewrite <- !app_assoc.
Qed.
Lemma file_lines_end cur l : plain l -> file_lines cur l = match cur ++ l with [] => [] | x => [x] end.
Proof.
  revert cur. induction l as [|c l IH]; intros cur [Hn Hc]; [rewrite app_nil_r; by destruct cur|].
  apply not_elem_of_cons in Hn as [? Hn], Hc as [? Hc]. cbn. rewrite decide_False by congruence.
  rewrite IH by (by split). by rewrite <- app_assoc.
Qed.

Lemma rstrip_plain l : NL ∉ l -> rstrip l = l /\ rstrip (l ++ [NL]) = l.
Proof.
  induction l as [|c l IH]; intros Hn; [done|]. apply not_elem_of_cons in Hn as [Hc Hn].
  destruct (IH Hn) as [E1 E2]. cbn. rewrite E1, E2. destruct l; [|done]. by destruct (decide (c = NL)).
Qed.

Lemma csv_rows_file eol lines tail : is_eol eol -> Forall plain lines -> plain tail ->
  csv_rows (file_of eol lines tail) = lines ++ match tail with [] => [] | _ => [tail] end.
Proof.
  intros He Hl Ht. unfold csv_rows. rewrite universal_file by done. unfold file_of.
  induction Hl as [|l ls Hl Hls IH]; cbn [map concat].
  - cbn [app]. rewrite file_lines_end by done. cbn [app]. destruct tail as [|c t]; [done|].
    cbn [map]. by rewrite (proj1 (rstrip_plain _ (proj1 Ht))).
  - rewrite <- !app_assoc. cbn [app]. rewrite file_lines_plain by done. cbn [map app].
    rewrite (proj2 (rstrip_plain _ (proj1 Hl))). by rewrite IH.
Qed.

Lemma grid_plain rows : grid rows -> Forall plain (map line_of rows).
Proof. intros H. apply Forall_map. eapply Forall_impl; [apply H|]. intros r [_ Hr]. by apply line_of_plain. Qed.

Lemma csv_rows_stored rows file : grid rows -> stored rows file -> csv_rows file = map line_of rows.
Proof.
  intros Hg [eol He|eol front last He -> Hlast].
  - rewrite csv_rows_file; [apply app_nil_r|done|by apply grid_plain|split; apply not_elem_of_nil].
  - apply Forall_app in Hg as [Hf Hl]. rewrite csv_rows_file; [|done|by apply grid_plain|].
    + rewrite map_app. cbn. by destruct (line_of last).
    + inversion Hl as [|?? [_ ?]]; subst. by apply line_of_plain.
Qed.

(** Every text is read like some stored table. *)
Lemma universal_no_cr t : CR ∉ universal t.
Proof.
  assert (forall n t, (length t <= n)%nat -> CR ∉ universal t) as H; [|by eapply H].
  clear t. intros n. induction n as [|n IH]; intros t Hn.
  - destruct t; [apply not_elem_of_nil|cbn in Hn; lia].
  - destruct t as [|c r]; [apply not_elem_of_nil|]. cbn in Hn |- *. destruct (decide (c = CR)) as [->|Hc].
    + apply not_elem_of_cons. split; [done|]. destruct r as [|d r]; [apply not_elem_of_nil|]. cbn in Hn.
      destruct (decide (d = NL)); apply IH; cbn; lia.
    + apply not_elem_of_cons. split; [congruence|]. apply IH. lia.
Qed.
Lemma universal_id t : CR ∉ t -> universal t = t.
Proof.
  induction t as [|c t IH]; intros H; [done|]. apply not_elem_of_cons in H as [Hc H]. cbn.
  rewrite decide_False by congruence. by rewrite IH.
Qed.

Lemma lines_exist t : CR ∉ t -> exists lines tail, Forall plain lines /\ plain tail /\ t = file_of [NL] lines tail.
Proof.
  induction t as [|c t IH]; intros H.
  - exists [], []. split; [constructor|]. split; [split; apply not_elem_of_nil|done].
  - apply not_elem_of_cons in H as [Hc H]. destruct (IH H) as (lines&tail&Hl&Ht&->).
    destruct (decide (c = NL)) as [->|Hn].
    + exists ([] :: lines), tail. split; [constructor; [split; apply not_elem_of_nil|done]|]. done.
    + destruct Hl as [|l ls [Hl Hl'] Hls].
      * exists [], (c :: tail). split; [constructor|]. split; [|done]. destruct Ht.
        split; apply not_elem_of_cons; auto.
      * exists ((c :: l) :: ls), tail. split; [constructor; [|done]; split; apply not_elem_of_cons; auto|]. done.
Qed.

Lemma rows_exist lines : Forall plain lines -> exists rows, grid rows /\ lines = map line_of rows.
Proof.
  induction 1 as [|l ls Hl _ (rows&Hg&->)]; [exists []; split; [constructor|done]|].
  destruct (cells_exist l Hl) as (cells&?&?&->). exists (cells :: rows). split; [by constructor|done].
Qed.

Lemma every_file t : exists rows, grid rows /\ csv_rows t = map line_of rows /\ stored rows (universal t).
Proof.
  destruct (lines_exist (universal t) (universal_no_cr t)) as (lines&tail&Hl&Ht&E).
  destruct (rows_exist lines Hl) as (rows&Hg&->).
  assert (csv_rows t = csv_rows (universal t)) as E'.
  { unfold csv_rows. by rewrite (universal_id (universal t)) by apply universal_no_cr. }
  destruct tail as [|c tl].
  - exists rows. assert (stored rows (universal t)) as Hs by (rewrite E; constructor; by left).
    split; [done|]. split; [|done]. rewrite E'. by apply csv_rows_stored.
  - destruct (cells_exist (c :: tl) Ht) as (cells&Hne&Hcl&Ec).
    exists (rows ++ [cells]).
    assert (grid (rows ++ [cells])) as Hg' by (apply Forall_app; split; [done|by constructor]).
    assert (stored (rows ++ [cells]) (universal t)) as Hs.
    { rewrite E, Ec. apply (stored_open _ [NL] rows cells); [by left|done|congruence]. }
    split; [done|]. split; [|done]. rewrite E'. by apply csv_rows_stored.
Qed.

(** * The readers *)
Lemma pop1 {A} (x y : A) l : pop 1 (x :: y :: l) = Ok (y, x :: l).
Proof. reflexivity. Qed.
Lemma pop0 {A} (x : A) l : pop 0 (x :: l) = Ok (x, l).
Proof. reflexivity. Qed.
Section Read.
  Context {V : Type} (py_float : text -> option V).

  Lemma mapR_parse_ok (cells : list text) (vs : list V) :
    mapR (parse py_float) cells = Ok vs <-> Forall2 (fun c v => py_float c = Some v) cells vs.
  Proof.
    revert vs. induction cells as [|c cs IH]; intros vs; cbn.
    - split; [intros [= <-]; constructor|]. intros H. by inversion H.
    - unfold parse at 1. destruct (py_float c) as [v|] eqn:E.
      + destruct (mapR (parse py_float) cs) as [ws|e] eqn:E'.
        * split.
          -- intros [= <-]. constructor; [done|]. by apply IH.
          -- intros H. inversion H as [|? v' ? vs' Hv Hvs]; subst. apply IH in Hvs. congruence.
        * split; [done|]. intros H. inversion H as [|? v' ? vs' Hv Hvs]; subst. apply IH in Hvs. congruence.
      + split; [done|]. intros H. inversion H; subst. congruence.
  Qed.
  Lemma mapR_parse_err (cells : list text) e : mapR (parse py_float) cells = Err e -> e = ValueError.
  Proof.
    induction cells as [|c cs IH]; cbn; [done|]. unfold parse at 1. destruct (py_float c) as [v|] eqn:E; [|congruence].
    destruct (mapR (parse py_float) cs); [done|]. auto.
  Qed.

  Lemma zip_denotes cells vs : Forall2 (fun c v => py_float c = Some v) cells vs ->
    exists cvs, cells = map fst cvs /\ vs = map snd cvs /\ Forall (fun cv => py_float cv.1 = Some cv.2) cvs.
  Proof.
    induction 1 as [|c v cs vs Hc _ (cvs&->&->&H)]; [by exists []|]. exists ((c, v) :: cvs). by repeat constructor.
  Qed.
  Lemma denotes_parse cvs : Forall (fun cv : text * V => py_float cv.1 = Some cv.2) cvs ->
    mapR (parse py_float) (map fst cvs) = Ok (map snd cvs).
  Proof. intros H. apply mapR_parse_ok. induction H; constructor; auto. Qed.

  Definition label_step : list text * list (list V) * list text -> text -> res (list text * list (list V) * list text) :=
    fun '(ids, features, labels) row =>
    '(y, vals) ← pop 1 (split_on COMMA row);
    '(i, vals) ← pop 0 vals;
    vals ← mapR (parse py_float) vals;
    Ok (ids ++ [i], features ++ [vals], labels ++ [y]).

  Lemma label_loop rows : Forall (fun r => r <> [] /\ Forall clean r) rows -> forall ids fs ls,
    (forall ids' fs' ls', foldM label_step (ids, fs, ls) (map line_of rows) = Ok (ids', fs', ls') <->
      exists recs : list (record V), rows = map with_label recs /\ Forall (denotes py_float) recs /\
        ids' = ids ++ map r_id recs /\ fs' = fs ++ map numbers recs /\ ls' = ls ++ map r_label recs)
    /\ (forall e, foldM label_step (ids, fs, ls) (map line_of rows) = Err e -> e = IndexError \/ e = ValueError).
  Proof.
    induction 1 as [|r rows [Hne Hcl] _ IH]; intros ids fs ls.
    - split; [|done]. intros ids' fs' ls'. cbn. split.
      + intros [= <- <- <-]. exists []. rewrite !app_nil_r. by repeat constructor.
      + intros (recs&E&_&->&->&->). destruct recs; [|done]. by rewrite !app_nil_r.
    - cbn [map foldM]. unfold label_step at 1 3. rewrite split_line by done.
      destruct r as [|i [|y cells]]; [done|..].
      + cbn. split; [|intros e [= <-]; by left]. intros ids' fs' ls'. split; [done|].
        intros (recs&E&_). destruct recs as [|q recs]; [done|]. cbn in E. discriminate E.
      + rewrite ?pop1, ?pop0; cbn [mbind res_bind]; rewrite ?pop0; cbn [mbind res_bind].
        destruct (mapR (parse py_float) cells) as [vs|e] eqn:Ep.
        * destruct (IH (ids ++ [i]) (fs ++ [vs]) (ls ++ [y])) as [IH1 IH2]. split; [|exact IH2].
          intros ids' fs' ls'. rewrite IH1. split.
          -- intros (recs&->&Hd&->&->&->). apply mapR_parse_ok, zip_denotes in Ep as (cvs&->&->&Hcv).
             exists (Rec i y cvs :: recs). cbn. rewrite <- !app_assoc. by repeat constructor.
          -- intros (recs&E&Hd&->&->&->). destruct recs as [|[i0 y0 cvs] recs]; [done|].
             injection E as -> -> -> ->. inversion Hd as [|?? Hd1 Hd2]; subst.
             rewrite (denotes_parse cvs Hd1) in Ep. injection Ep as <-.
             exists recs. cbn. by rewrite <- !app_assoc.
        * split; [|intros e' [= <-]; right; by eapply mapR_parse_err]. intros ids' fs' ls'. split; [done|].
          intros (recs&E&Hd&_). destruct recs as [|[i0 y0 cvs] recs]; [done|].
          injection E as -> -> -> ->. inversion Hd as [|?? Hd1 Hd2]; subst.
          rewrite (denotes_parse cvs Hd1) in Ep. done.
  Qed.

  Lemma read_with_label_iff rows file h ids fs ls : grid rows -> csv_rows file = map line_of rows ->
    read_with_label py_float file = Ok (h, ids, fs, ls) <->
    exists (i y : text) (recs : list (record V)), rows = (i :: y :: h) :: map with_label recs /\ Forall (denotes py_float) recs
      /\ ids = map r_id recs /\ fs = map numbers recs /\ ls = map r_label recs.
  Proof.
    intros Hg Hrows. unfold read_with_label. rewrite Hrows. destruct Hg as [|r rows [Hne Hcl] Hg].
    - cbn. split; [done|]. by intros (?&?&?&?&_).
    - cbn [list_index map lookup list_lookup mbind res_bind]. rewrite split_line by done.
      destruct r as [|i [|y cells]]; [done|..].
      + cbn. split; [done|]. intros (?&?&?&[=]&_).
      + rewrite ?pop1, ?pop0; cbn [mbind res_bind]; rewrite ?pop0; cbn [mbind res_bind].
        match goal with |- context [foldM ?f ?a ?l] => change (foldM f a l) with (foldM label_step a (map line_of rows)) end.
        destruct (label_loop rows Hg [] [] []) as [H1 _].
        destruct (foldM _ _ _) as [[[ids0 fs0] ls0]|e] eqn:E; cbn [mbind res_bind].
        * pose proof (proj1 (H1 ids0 fs0 ls0) eq_refl) as (recs&->&Hd&->&->&->). cbn. split.
          -- intros [= <- <- <- <-]. by exists i, y, recs.
          -- intros (i0&y0&recs0&E0&Hd0&->&->&->). injection E0 as -> -> -> E0.
             assert (Ok (map r_id recs, map numbers recs, map r_label recs) =
                     Ok (map r_id recs0, map numbers recs0, map r_label recs0)) as E1.
             { apply H1. exists recs0. by rewrite E0. }
             injection E1 as -> -> ->. done.
        * split; [done|]. intros (i0&y0&recs&E0&Hd&->&->&->). injection E0 as -> -> -> ->. exfalso.
          assert (Err e = Ok (map r_id recs, map numbers recs, map r_label recs)) as [=].
          apply H1. by exists recs.
  Qed.
  Lemma read_with_label_err rows file e : grid rows -> csv_rows file = map line_of rows ->
    read_with_label py_float file = Err e -> e = IndexError \/ e = ValueError.
  Proof.
    intros Hg Hrows. unfold read_with_label. rewrite Hrows. destruct Hg as [|r rows [Hne Hcl] Hg].
    - cbn. intros [= <-]. by left.
    - cbn [list_index map lookup list_lookup mbind res_bind]. rewrite split_line by done.
      destruct r as [|i [|y cells]]; [done|..].
      + cbn. intros [= <-]. by left.
      + rewrite ?pop1, ?pop0; cbn [mbind res_bind]; rewrite ?pop0; cbn [mbind res_bind].
        match goal with |- context [foldM ?f ?a ?l] => change (foldM f a l) with (foldM label_step a (map line_of rows)) end. destruct (label_loop rows Hg [] [] []) as [_ H2].
        destruct (foldM _ _ _) as [[[ids0 fs0] ls0]|e'] eqn:E; cbn [mbind res_bind]; [done|].
        intros [= <-]. by apply H2.
  Qed.

  Definition plain_step : list text * list (list V) -> text -> res (list text * list (list V)) :=
    fun '(ids, features) row =>
    '(i, vals) ← pop 0 (split_on COMMA row);
    vals ← mapR (parse py_float) vals;
    Ok (ids ++ [i], features ++ [vals]).

  Lemma plain_loop rows : Forall (fun r => r <> [] /\ Forall clean r) rows -> forall ids fs,
    (forall ids' fs', foldM plain_step (ids, fs) (map line_of rows) = Ok (ids', fs') <->
      exists recs : list (record V), rows = map without_label recs /\ Forall (denotes py_float) recs /\
        ids' = ids ++ map r_id recs /\ fs' = fs ++ map numbers recs)
    /\ (forall e, foldM plain_step (ids, fs) (map line_of rows) = Err e -> e = ValueError).
  Proof.
    induction 1 as [|r rows [Hne Hcl] _ IH]; intros ids fs.
    - split; [|done]. intros ids' fs'. cbn. split.
      + intros [= <- <-]. exists []. rewrite !app_nil_r. by repeat constructor.
      + intros (recs&E&_&->&->). destruct recs; [|done]. by rewrite !app_nil_r.
    - cbn [map foldM]. unfold plain_step at 1 3. rewrite split_line by done.
      destruct r as [|i cells]; [done|].
      rewrite ?pop1, ?pop0; cbn [mbind res_bind]; rewrite ?pop0; cbn [mbind res_bind].
      destruct (mapR (parse py_float) cells) as [vs|e] eqn:Ep.
      + destruct (IH (ids ++ [i]) (fs ++ [vs])) as [IH1 IH2]. split; [|exact IH2].
        intros ids' fs'. rewrite IH1. split.
        * intros (recs&->&Hd&->&->). apply mapR_parse_ok, zip_denotes in Ep as (cvs&->&->&Hcv).
          exists (Rec i [] cvs :: recs). cbn. rewrite <- !app_assoc. by repeat constructor.
        * intros (recs&E&Hd&->&->). destruct recs as [|[i0 y0 cvs] recs]; [done|].
          injection E as -> -> ->. inversion Hd as [|?? Hd1 Hd2]; subst.
          rewrite (denotes_parse cvs Hd1) in Ep. injection Ep as <-.
          exists recs. cbn. by rewrite <- !app_assoc.
      + split; [|intros e' [= <-]; by eapply mapR_parse_err]. intros ids' fs'. split; [done|].
        intros (recs&E&Hd&_). destruct recs as [|[i0 y0 cvs] recs]; [done|].
        injection E as -> -> ->. inversion Hd as [|?? Hd1 Hd2]; subst.
        rewrite (denotes_parse cvs Hd1) in Ep. done.
  Qed.

  Lemma read_without_label_iff rows file h ids fs : grid rows -> csv_rows file = map line_of rows ->
    read_without_label py_float file = Ok (h, ids, fs) <->
    exists (i : text) (recs : list (record V)), rows = (i :: h) :: map without_label recs /\ Forall (denotes py_float) recs
      /\ ids = map r_id recs /\ fs = map numbers recs.
  Proof.
    intros Hg Hrows. unfold read_without_label. rewrite Hrows. destruct Hg as [|r rows [Hne Hcl] Hg].
    - cbn. split; [done|]. by intros (?&?&?&_).
    - cbn [list_index map lookup list_lookup mbind res_bind]. rewrite split_line by done.
      destruct r as [|i cells]; [done|].
      rewrite ?pop1, ?pop0; cbn [mbind res_bind]; rewrite ?pop0; cbn [mbind res_bind].
      match goal with |- context [foldM ?f ?a ?l] => change (foldM f a l) with (foldM plain_step a (map line_of rows)) end.
      destruct (plain_loop rows Hg [] []) as [H1 _].
      destruct (foldM _ _ _) as [[ids0 fs0]|e] eqn:E; cbn [mbind res_bind].
      + pose proof (proj1 (H1 ids0 fs0) eq_refl) as (recs&->&Hd&->&->). cbn. split.
        * intros [= <- <- <-]. by exists i, recs.
        * intros (i0&recs0&E0&Hd0&->&->). injection E0 as -> -> E0.
          assert (Ok (map r_id recs, map numbers recs) =
                  Ok (map r_id recs0, map numbers recs0)) as E1.
          { apply H1. exists recs0. by rewrite E0. }
          injection E1 as -> ->. done.
      + split; [done|]. intros (i0&recs&E0&Hd&->&->). injection E0 as -> -> ->. exfalso.
        assert (Err e = Ok (map r_id recs, map numbers recs)) as [=].
        apply H1. by exists recs.
  Qed.
  Lemma read_without_label_err rows file e : grid rows -> csv_rows file = map line_of rows ->
    read_without_label py_float file = Err e -> (rows = [] /\ e = IndexError) \/ e = ValueError.
  Proof.
    intros Hg Hrows. unfold read_without_label. rewrite Hrows. destruct Hg as [|r rows [Hne Hcl] Hg].
    - cbn. intros [= <-]. by left.
    - cbn [list_index map lookup list_lookup mbind res_bind]. rewrite split_line by done.
      destruct r as [|i cells]; [done|].
      rewrite ?pop1, ?pop0; cbn [mbind res_bind]; rewrite ?pop0; cbn [mbind res_bind].
      match goal with |- context [foldM ?f ?a ?l] => change (foldM f a l) with (foldM plain_step a (map line_of rows)) end. destruct (plain_loop rows Hg [] []) as [_ H2].
      destruct (foldM _ _ _) as [[ids0 fs0]|e'] eqn:E; cbn [mbind res_bind]; [done|].
      intros [= <-]. right. by apply H2.
  Qed.
End Read.

(** * Dividing the rows *)
Lemma swap_ok {A} (i j : nat) (x : list A) : (i < length x)%nat -> (j < length x)%nat ->
  exists y, swap i j x = Ok y /\ y ≡ₚ x /\ length y = length x.
Proof.
  intros Hi Hj. unfold swap. destruct (lookup_lt_is_Some_2 x i Hi) as [a Ea]. destruct (lookup_lt_is_Some_2 x j Hj) as [b Eb].
  rewrite Ea, Eb. eexists. split; [done|]. split; [|by rewrite !insert_length].
  apply Permutation_inj. split; [by rewrite !insert_length|].
  exists (fun k => if decide (k = i) then j else if decide (k = j) then i else k). split.
  - intros k k'. repeat case_decide; congruence.
  - intros k. repeat case_decide; subst.
    + destruct (decide (i = j)) as [->|Hne].
      * rewrite list_lookup_insert by (by rewrite insert_length). congruence.
      * rewrite list_lookup_insert_ne by done. rewrite list_lookup_insert by done. done.
    + rewrite list_lookup_insert by (by rewrite insert_length). done.
    + rewrite list_lookup_insert_ne by congruence. by rewrite list_lookup_insert_ne by congruence.
Qed.

Lemma swap_map {A B} (f : A -> B) i j x : swap i j (map f x) = match swap i j x with Ok y => Ok (map f y) | Err e => Err e end.
Proof.
  unfold swap. change (map f x) with (f <$> x). rewrite !list_lookup_fmap.
  destruct (x !! i) as [a|]; [|done]. destruct (x !! j) as [b|]; [|done]. cbn.
  change (@map A B f) with (@fmap list list_fmap A B f). by rewrite !list_fmap_insert.
Qed.

Section Random.
  Context {G : Type} (seeded : Z -> G) (below : G -> nat -> nat * G).

  Definition shuffle_step {A} : list A * G -> nat -> res (list A * G) :=
    fun '(x, g) i => let '(j, g) := below g (S i) in x ← swap i j x; Ok (x, g).

  Lemma shuffle_loop {A} (is : list nat) (x : list A) g : in_range below -> Forall (fun i => i < length x)%nat is ->
    exists y g', foldM shuffle_step (x, g) is = Ok (y, g') /\ y ≡ₚ x /\ length y = length x.
  Proof.
    intros Hr. revert x g. induction is as [|i is IH]; intros x g His; [by exists x, g|].
    inversion His as [|?? Hi His']; subst. cbn [foldM]. unfold shuffle_step at 1.
    pose proof (Hr g (S i) ltac:(lia)) as Hj. destruct (below g (S i)) as [j g1]. cbn in Hj.
    destruct (swap_ok i j x) as (y&->&Hp&Hl); [done|lia|]. cbn [mbind res_bind].
    destruct (IH y g1) as (z&g2&->&Hp'&Hl'); [by rewrite Hl|].
    exists z, g2. split; [done|]. split; [by rewrite Hp'|congruence].
  Qed.

  Lemma shuffle_ok {A} (x : list A) g : in_range below ->
    exists y g', shuffle below g x = Ok (y, g') /\ y ≡ₚ x /\ length y = length x.
  Proof.
    intros Hr. apply (shuffle_loop _ x g Hr). apply Forall_forall. intros i Hi.
    rewrite elem_of_reverse in Hi. apply elem_of_list_In, in_seq in Hi. lia.
  Qed.

  Lemma shuffle_map {A B} (f : A -> B) (x : list A) g :
    shuffle below g (map f x) = match shuffle below g x with Ok (y, g') => Ok (map f y, g') | Err e => Err e end.
  Proof.
    unfold shuffle. rewrite map_length. generalize (reverse (seq 1 (length x - 1))). intros is.
    change (foldM shuffle_step (map f x, g) is =
            match foldM shuffle_step (x, g) is with Ok (y, g') => Ok (map f y, g') | Err e => Err e end).
    revert x g. induction is as [|i is IH]; intros x g; [done|]. cbn [foldM]. unfold shuffle_step at 1 3.
    destruct (below g (S i)) as [j g1]. rewrite swap_map. destruct (swap i j x) as [y|]; [|done].
    cbn [mbind res_bind]. apply IH.
  Qed.

  Definition offset (n : nat) (ratio : Qc) : Z := trunc (fround (zq (Z.of_nat n) * ratio)).

  Lemma data_split_ok {A} (l : list A) ratio shuf seed g : in_range below ->
    exists tr te g', data_split seeded below l ratio shuf seed g = Ok (tr, te, g') /\ tr ++ te ≡ₚ l /\
      length tr = Nat.min (length l) (Z.to_nat (offset (length l) ratio)).
  Proof.
    intros Hr. unfold data_split. fold (offset (length l) ratio).
    destruct (length l =? 0)%nat eqn:E0; cbn [orb].
    { apply Nat.eqb_eq in E0. exists [], l, g. rewrite E0. done. }
    destruct (offset (length l) ratio <? 1) eqn:E1.
    { apply Z.ltb_lt in E1. exists [], l, g. split; [done|]. split; [done|]. cbn. lia. }
    assert (exists y g', (if shuf then shuffle below (match seed with Some s => seeded s | None => g end) l else Ok (l, g)) = Ok (y, g')
                         /\ y ≡ₚ l /\ length y = length l) as (y&g'&->&Hp&Hl).
    { destruct shuf; [apply shuffle_ok, Hr|]. by exists l, g. }
    cbn [mbind res_bind]. eexists _, _, _. split; [done|]. rewrite take_drop, take_length, Hl. split; [done|]. lia.
  Qed.

  Lemma data_split_map {A B} (f : A -> B) (l : list A) ratio shuf seed g :
    data_split seeded below (map f l) ratio shuf seed g =
    match data_split seeded below l ratio shuf seed g with Ok (tr, te, g') => Ok (map f tr, map f te, g') | Err e => Err e end.
  Proof.
    unfold data_split. rewrite map_length. destruct (_ || _); [done|].
    destruct shuf; [|cbn [mbind res_bind]; by rewrite firstn_map, skipn_map].
    rewrite shuffle_map. destruct (shuffle below _ l) as [[y g']|]; [|done]. cbn [mbind res_bind].
    by rewrite firstn_map, skipn_map.
  Qed.
End Random.

Lemma floor_mono a b : (a <= b)%Qc -> qfloor a <= qfloor b.
Proof.
  intros H. assert (zq (qfloor a) < zq (qfloor b + 1))%Qc as Hlt.
  { eapply Qcle_lt_trans; [apply qfloor_le|]. eapply Qcle_lt_trans; [exact H|]. apply qfloor_lt. }
  apply (proj1 (zq_lt _ _)) in Hlt. lia.
Qed.

Lemma offset_bounds n ratio : Z.of_nat n <= 2 ^ 53 -> (zq 0 <= ratio)%Qc -> (ratio <= zq 1)%Qc ->
  let t := offset n ratio in
  0 <= t <= Z.of_nat n
  /\ (zq t <= zq (Z.of_nat n) * ratio + p2 (-53) * zq (Z.of_nat n))%Qc
  /\ (zq (Z.of_nat n) * ratio < zq t + zq 1 + p2 (-53) * zq (Z.of_nat n))%Qc.
Proof.
  intros Hn H0 H1 t.
  assert (zq 0 <= zq (Z.of_nat n))%Qc as Hnn by (apply zq_le; lia).
  set (y := (zq (Z.of_nat n) * ratio)%Qc) in *.
  assert (zq 0 <= y)%Qc as Hy0 by (unfold y; qnra).
  assert (y <= zq (Z.of_nat n))%Qc as Hy1 by (unfold y; qnra).
  assert (zq 0 <= fround y)%Qc as Hf0 by (by apply fround_nonneg).
  assert (fround y <= zq (Z.of_nat n))%Qc as Hf1.
  { rewrite <- (fround_zq (Z.of_nat n)) by lia. by apply fround_mono. }
  assert (t = qfloor (fround y)) as Et.
  { unfold t, offset, trunc. fold y. destruct (qltb (fround y) (zq 0)) eqn:E; [|done]. apply qltb_true in E. qlra. }
  destruct (proj1 (qfloor_spec (fround y) _) eq_refl) as [Hlo Hhi]. rewrite <- Et in Hlo, Hhi. clearbody t.
  pose proof (fround_err y) as Herr.
  assert (qabs y <= zq (Z.of_nat n))%Qc as Habs.
  { unfold qabs. destruct (qleb 0 y) eqn:E; [done|]. apply qleb_false in E. change (0%Qc) with (zq 0) in E. qlra. }
  assert (p2 (-53) * qabs y <= p2 (-53) * zq (Z.of_nat n))%Qc as Hm.
  { rewrite !(Qcmult_comm (p2 (-53))). apply Qcmult_le_compat_r; [done|]. apply Qclt_le_weak, p2_pos. }
  assert (qabs (fround y - y) <= p2 (-53) * zq (Z.of_nat n))%Qc as He by qlra.
  apply qabs_le in He as [He1 He2].
  assert (0 <= t) as Ht0.
  { assert (zq 0 < zq (t + 1))%Qc as H by (eapply Qcle_lt_trans; [exact Hf0|exact Hhi]). apply (proj1 (zq_lt _ _)) in H. lia. }
  assert (t <= Z.of_nat n) as Ht1 by (apply zq_le; eapply Qcle_trans; [exact Hlo|exact Hf1]).
  split; [done|]. rewrite ?zq_add in Hhi. split; qlra.
Qed.

(** * The tables of a party *)
Definition guest_inst {V} (r : record V) : instance V := Inst (r_id r) (numbers r) (Some (r_label r)).
Definition host_inst {V} (r : record V) : instance V := Inst (r_id r) (numbers r) None.

Lemma guest_instances {V} (recs : list (record V)) (ids labels : list text) n :
  (forall i r, recs !! i = Some r -> ids !! (n + i)%nat = Some (r_id r) /\ labels !! (n + i)%nat = Some (r_label r)) ->
  mapR (fun '(i, f) => a ← list_index ids i; l ← list_index labels i; Ok (Inst a f (Some l)))
       (imap (fun i f => ((n + i)%nat, f)) (map numbers recs)) = Ok (map guest_inst recs).
Proof.
  revert n. induction recs as [|r recs IH]; intros n H; [done|]. cbn [map imap mapR].
  destruct (H 0%nat r eq_refl) as [E1 E2]. unfold list_index at 1 2. rewrite E1, E2. cbn [mbind res_bind].
  rewrite (imap_ext _ (fun i f => ((S n + i)%nat, f))).
  - rewrite (IH (S n)); [done|]. intros i r' Hr. specialize (H (S i) r' Hr).
    by replace (S n + i)%nat with (n + S i)%nat by lia.
  - intros i f _. cbn. f_equal. lia.
Qed.
Lemma host_instances {V} (recs : list (record V)) (ids : list text) n :
  (forall i r, recs !! i = Some r -> ids !! (n + i)%nat = Some (r_id r)) ->
  mapR (fun '(i, f) => a ← list_index ids i; Ok (Inst a f None))
       (imap (fun i f => ((n + i)%nat, f)) (map numbers recs)) = Ok (map host_inst recs).
Proof.
  revert n. induction recs as [|r recs IH]; intros n H; [done|]. cbn [map imap mapR].
  pose proof (H 0%nat r eq_refl) as E1. unfold list_index at 1. rewrite E1. cbn [mbind res_bind].
  rewrite (imap_ext _ (fun i f => ((S n + i)%nat, f))).
  - rewrite (IH (S n)); [done|]. intros i r' Hr. specialize (H (S i) r' Hr).
    by replace (S n + i)%nat with (n + S i)%nat by lia.
  - intros i f _. cbn. f_equal. lia.
Qed.

Section Tables.
  Context {G : Type} (seeded : Z -> G) (below : G -> nat -> nat * G).
  Context {V W : Type} (float_v : text -> option V) (float_w : text -> option W).

  Lemma guest_tables_eq rows file i y h (recs : list (record V)) ratio g : grid rows -> stored rows file ->
    rows = (i :: y :: h) :: map with_label recs -> Forall (denotes float_v) recs ->
    guest_tables seeded below float_v file ratio g =
    '(train, test, _) ← data_split seeded below (map guest_inst recs) ratio true (Some 2) g;
    Ok (h, dt_new_unkeyed train, dt_new_unkeyed test).
  Proof.
    intros Hg Hs Hrows Hd. unfold guest_tables.
    rewrite (proj2 (read_with_label_iff float_v rows file h (map r_id recs) (map numbers recs) (map r_label recs) Hg
                      (csv_rows_stored _ _ Hg Hs)));
      [|exists i, y, recs; by split_and!].
    cbn [mbind res_bind]. rewrite (guest_instances recs _ _ 0); [done|].
    intros k r Hr. cbn. change (@map (record V) text) with (@fmap list list_fmap (record V) text).
    by rewrite !list_lookup_fmap, Hr.
  Qed.
  Lemma host_tables_eq rows file i h (recs : list (record W)) ratio g : grid rows -> stored rows file ->
    rows = (i :: h) :: map without_label recs -> Forall (denotes float_w) recs ->
    host_tables seeded below float_w file ratio g =
    '(train, test, _) ← data_split seeded below (map host_inst recs) ratio true (Some 2) g;
    Ok (h, dt_new_unkeyed train, dt_new_unkeyed test).
  Proof.
    intros Hg Hs Hrows Hd. unfold host_tables.
    rewrite (proj2 (read_without_label_iff float_w rows file h (map r_id recs) (map numbers recs) Hg
                      (csv_rows_stored _ _ Hg Hs)));
      [|exists i, recs; by split_and!].
    cbn [mbind res_bind]. rewrite (host_instances recs _ 0); [done|].
    intros k r Hr. cbn. change (@map (record W) text) with (@fmap list list_fmap (record W) text).
    by rewrite list_lookup_fmap, Hr.
  Qed.

  Lemma data_split_seed {A} (l : list A) ratio s g g' : in_range below ->
    exists tr te g1 g2, data_split seeded below l ratio true (Some s) g = Ok (tr, te, g1)
      /\ data_split seeded below l ratio true (Some s) g' = Ok (tr, te, g2) /\ tr ++ te ≡ₚ l
      /\ length tr = Nat.min (length l) (Z.to_nat (offset (length l) ratio)).
  Proof.
    intros Hr. destruct (data_split_ok seeded below l ratio true (Some s) g Hr) as (tr&te&g1&E&Hp&Hl).
    unfold data_split in *. destruct (_ || _).
    - injection E as <- <- <-. by exists [], l, g, g'.
    - exists tr, te, g1, g1. by split_and!.
  Qed.
End Tables.

(** * Accuracy *)
Lemma count_fold {K L} `{EqDecision L} (kvs : list (K * (L * L))) n :
  fold_left (fun n kv => if decide (kv.2.1 = kv.2.2) then n + 1 else n) kvs n =
  n + Z.of_nat (length (filter (fun kv : K * (L * L) => kv.2.1 = kv.2.2) kvs)).
Proof.
  revert n. induction kvs as [|kv kvs IH]; intros n; [cbn; lia|]. cbn [fold_left]. rewrite IH.
  rewrite filter_cons. destruct (decide (kv.2.1 = kv.2.2)); cbn [length]; lia.
Qed.

Lemma matches_le {K L} `{EqDecision L} (kvs : list (K * (L * L))) :
  (length (filter (fun kv : K * (L * L) => kv.2.1 = kv.2.2) kvs) <= length kvs)%nat
  /\ (length (filter (fun kv : K * (L * L) => kv.2.1 = kv.2.2) kvs) = length kvs <-> Forall (fun kv => kv.2.1 = kv.2.2) kvs).
Proof.
  induction kvs as [|kv kvs [IH1 IH2]]; [by split; [|split]|]. rewrite filter_cons.
  destruct (decide (kv.2.1 = kv.2.2)) as [E|E]; cbn [length].
  - split; [lia|]. rewrite Forall_cons, <- IH2. split; [intros; split; [done|lia]|lia].
  - split; [lia|]. rewrite Forall_cons. split; [lia|]. by intros [? _].
Qed.

Lemma agree_length {K L} `{EqDecision L} (kvs : list (K * (L * L))) :
  length (filter (fun kv : K * (L * L) => kv.2.1 = kv.2.2) kvs) = length (filter (fun r : L * L => r.1 = r.2) (map snd kvs)).
Proof.
  induction kvs as [|kv l IH]; [done|]. cbn [map]. rewrite !filter_cons.
  repeat case_decide; cbn [length]; congruence.
Qed.

Lemma accuracy_eq {K L} `{EqDecision L} (t : dtable K (L * L)) :
  accuracy t = if decide (dt_data t = []) then Err ZeroDivisionError
               else Ok (Some (fround (zq (Z.of_nat (length (filter (fun kv : K * (L * L) => kv.2.1 = kv.2.2) (dt_data t))))
                                      / zq (Z.of_nat (length (dt_data t))))%Qc)).
Proof.
  unfold accuracy, dt_mapPartitions. rewrite count_fold, Z.add_0_l.
  destruct (dt_data t) as [|kv kvs] eqn:E; [done|]. rewrite !decide_False by done. done.
Qed.

(** Fractions c / n of at most 2^53 rows stay apart from 1 and from 0 under rounding. *)
Lemma fraction_bounds c n : 0 <= c -> c <= n -> 0 < n -> n <= 2 ^ 53 ->
  let a := fround (zq c / zq n)%Qc in
  (zq 0 <= a)%Qc /\ (a <= zq 1)%Qc /\ (a = zq 1 <-> c = n) /\ (qabs (a - zq c / zq n) <= p2 (-53))%Qc.
Proof.
  intros Hc Hcn Hn Hb a.
  assert (zq 0 < zq n)%Qc as Hzn by (by apply zq_lt).
  assert (zq n <> zq 0)%Qc as Hne by (intros E; rewrite E in Hzn; by apply Qclt_not_eq in Hzn).
  set (q := (zq c / zq n)%Qc) in *.
  assert (q * zq n = zq c)%Qc as Eq by (unfold q; field; done).
  assert (zq 0 <= zq c)%Qc as Hzc by (by apply zq_le).
  assert (zq c <= zq n)%Qc as Hzcn by (by apply zq_le).
  assert (zq 0 <= q)%Qc as Hq0.
  { destruct (Qclt_le_dec q (zq 0)) as [Hlt|]; [|done]. exfalso. clearbody q. qnra. }
  assert (q <= zq 1)%Qc as Hq1.
  { destruct (Qclt_le_dec (zq 1) q) as [Hlt|]; [|done]. exfalso. clearbody q. rewrite zq_1 in Hlt. qnra. }
  split; [by apply fround_nonneg|]. split; [|split].
  - rewrite <- (fround_zq 1) by lia. by apply fround_mono.
  - split.
    + intros Ea. destruct (Z.eq_dec c n) as [|Hne']; [done|]. exfalso.
      set (m := (zq (2 ^ 53 - 1) * p2 (-53))%Qc).
      assert (fround m = m) as Em by (apply fround_exact; lia).
      assert (q <= m)%Qc as Hqm.
      { apply (Qc_mul_le_r _ _ (zq n)); [done|]. rewrite Eq. unfold m.
        assert (zq c <= zq (n - 1))%Qc as H1 by (apply zq_le; lia).
        assert (zq (2 ^ 53) * p2 (-53) = zq 1)%Qc as E1 by (apply (bool_decide_unpack _); vm_compute; reflexivity).
        assert (zq n <= zq (2 ^ 53))%Qc as H2 by (by apply zq_le).
        assert (zq (2 ^ 53 - 1) = zq (2 ^ 53) - zq 1)%Qc as E2 by (apply (bool_decide_unpack _); vm_compute; reflexivity).
        assert (zq (n - 1) = zq n - zq 1)%Qc as E3 by (rewrite zq_sub; done).
        rewrite E2. rewrite E3 in H1. pose proof (p2_pos (-53)) as Hp.
        assert ((zq (2 ^ 53) - zq 1) * p2 (-53) = zq 1 - p2 (-53))%Qc as ->.
        { transitivity (zq (2 ^ 53) * p2 (-53) - zq 1 * p2 (-53))%Qc; [ring|]. rewrite E1, zq_1. ring. }
        assert (zq n * p2 (-53) <= zq 1)%Qc as H3.
        { rewrite <- E1. apply Qcmult_le_compat_r; [done|]. by apply Qclt_le_weak. }
        replace ((zq 1 - p2 (-53)) * zq n)%Qc with (zq n - zq n * p2 (-53))%Qc by (rewrite zq_1; ring). qlra. }
      apply fround_mono in Hqm. rewrite Em in Hqm. fold a in Hqm. rewrite Ea in Hqm.
      apply Qcle_not_lt in Hqm. apply Hqm. vm_compute. reflexivity.
    + intros ->. unfold a, q. replace (zq n / zq n)%Qc with (zq 1) by (rewrite zq_1; field; done). by apply fround_zq.
  - pose proof (fround_err q) as He. fold a in He.
    assert (qabs q <= zq 1)%Qc as Hqa by (apply qabs_le; split; [rewrite zq_1; qlra|done]).
    assert (p2 (-53) * qabs q <= p2 (-53))%Qc as Hm; [|eapply Qcle_trans; [exact He|exact Hm]].
    rewrite <- (Qcmult_1_r (p2 (-53))) at 2. rewrite !(Qcmult_comm (p2 (-53))). rewrite <- zq_1.
    apply Qcmult_le_compat_r; [done|]. apply Qclt_le_weak, p2_pos.
Qed.
