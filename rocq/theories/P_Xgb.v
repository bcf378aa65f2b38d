(** C70. *)
From Verif Require Import XgbProofs P_Script P_Pipe P_Tree P_Binning P_Boost P_Input P_Local TreeRun FloatProofs.
From Verif Require Import PipeSpec InputSpec.
Local Open Scope nat_scope.

Section Xgb.
  Context {G C : Type} (seeded : Z -> G) (below : G -> nat -> nat * G) (py_float : text -> option Qc).
  Context (rnd : Qc -> Qc) (pred : loss_kind -> list Qc -> list Qc) (lossf : loss_kind -> dtable nat nat -> dtable nat (list Qc) -> Qc).
  Context (n n' m : nat) (it : imp_type) (P : bparams) (bp : bin_params) (par : sparams) (depth stp d : nat).
  Context (draw : nat -> nat -> nat -> list nat) (enc : nat -> dtable nat (Qc * Qc) -> res (dtable nat (C * C))) (threshold ratio : Qc).
  Context (gfile : text) (gh : list text) (grecs : list (record Qc)) (hfile : text) (hh : list text) (hrecs : list (record Qc)).
  Local Notation script gen := (xgb_script rnd pred lossf P bp par depth stp seeded below py_float it draw enc threshold gfile hfile ratio gen).

  (** The score of the row at position [pos]: the rows of both files at that position, side by side, walk down the trees. *)
  Definition score_beside (ls : list label) (pts : list (list Qc)) (T : list dtree) (r : nat) (pos : nat) : list Qc :=
    scores rnd (b_lr P) (if decide (2 < length ls) then length ls else 1) (fun j pos => pwalk (fun _ => beside (length gh) grecs hrecs pos) (tree_at pts (fun _ => []) T j)) r pos.
  (** The test rows for which the walk gives the label. *)
  Definition right_rows (te : list nat) (ls classes : list label) (pts : list (list Qc)) (T : list dtree) (r : nat) (right : list nat) : Prop :=
    NoDup right /\ forall pos, pos ∈ right <-> pos ∈ te /\ exists r' x, grecs !! pos = Some r' /\
      answer classes threshold (pred (if decide (length ls = 2) then Sigmoid else Softmax) (score_beside ls pts T r pos)) (word (r_label r')) x.
  (** The rows are divided by their positions; the model is the one of C65 for one party that holds the training rows of both
      files, side by side, and for no other party; what is printed is the rounded share of the test rows for which the walk gives the label. *)
  Definition alone_outcome (printed : res (option Qc)) : Prop :=
    exists tr te s labels ls res classes lab pts me T right,
      Permutation (tr ++ te) (seq 0 n) /\ length tr = m /\
      holds_both s gh hh grecs hrecs tr /\ holds_labels labels grecs tr /\ distinct (dt_values labels) ls /\
      fitted rnd pred lossf 0 s (fun _ => s) P bp par d labels ls draw (fun _ => draw) (fun v => v) (fun v => v) (fun x => x) Ok classes lab pts (fun _ => []) me [] T res [] /\
      right_rows te ls classes pts T (length (bs_hist res.2)) right /\
      printed = Ok (Some (fround (zq (Z.of_nat (length right)) / zq (Z.of_nat (length te)))%Qc)).

  Section Proof.
    Context (BO : both_ok py_float bp n n' m ratio gfile gh grecs hfile hh hrecs) (AS : alone_settings rnd pred P par depth stp d draw enc) (Hit : it <> IOther).
    Context (tr te : list nat) (PM : Permutation (tr ++ te) (seq 0 n)) (LT : length tr = m) (gen g1 : G) (SP : data_split seeded below (seq 0 n) ratio true (Some 2%Z) gen = Ok (tr, te, g1)).
    Local Notation recs := (glue grecs hrecs).
    Local Notation src := (train_source (gh ++ hh) (part recs tr) (part recs te)).
    Local Notation labels := (place_labels grecs tr).
    Local Notation ls := (classes_in labels).
    Local Notation pts := (pts_of bp par depth stp src).

    Lemma xfiles : files_ok py_float bp 0 n m ratio gfile gh grecs (fun _ => hfile) (fun _ => hh) (fun _ => hrecs).
    Proof. clear PM LT. destruct BO. split; auto; intros i Hi; inversion Hi. Qed.
    Lemma xpositions : Forall (fun p => p < n) tr /\ Forall (fun p => p < n) te /\ NoDup te /\ length te = n - m /\ tr <> [] /\ (m < n -> te <> []).
    Proof. exact (positions _ _ _ _ _ 0 1 _ _ _ _ _ _ _ xfiles ltac:(lia) tr te PM LT). Qed.
    Lemma xsheet : sheet py_float n (gh ++ hh) recs.
    Proof. destruct BO as [A _ B _ Cc D _ _ _ _]. eapply glue_sheet; eauto; apply D. Qed.
    Lemma xsource : source_ok bp src.
    Proof. exact (sheet_source _ _ _ _ _ 0 1 _ _ _ _ _ _ _ xfiles ltac:(lia) tr te PM LT _ _ xsheet). Qed.
    Lemma xbeside pos f : pos < n -> entry recs pos f = beside (length gh) grecs hrecs pos f.
    Proof.
      intros Hp. destruct (bo_guest _ _ _ _ _ _ _ _ _ _ _ _ BO) as [RW WD _ _ _]. apply glue_entry; [|lia]. intros g Hg. rewrite Forall_forall in WD. apply WD. eapply elem_of_list_lookup_2; eauto.
    Qed.
    Lemma glue_labels o : place_labels recs o = place_labels grecs o.
    Proof.
      unfold place_labels, rtab. f_equal. apply imap_ext. intros j p _. unfold rec_at. rewrite glue_lookup. now destruct (grecs !! p).
    Qed.
    Lemma xholds : holds_both src gh hh grecs hrecs tr.
    Proof.
      destruct (source_holds tr te (gh ++ hh) recs) as (A & B & V). split; [exact A|]. split; [exact B|]. intros k pos f Hk. rewrite (V k pos f Hk). apply xbeside.
      destruct xpositions as (PT & _). rewrite Forall_forall in PT. apply PT. eapply elem_of_list_lookup_2; eauto.
    Qed.
    Lemma xkeys : dt_keys (so_rows src) = seq 0 m.
    Proof. cbn [so_rows train_source]. unfold locs. rewrite rtab_keys. unfold part. now rewrite map_length, LT. Qed.
    Lemma xlegal : alone_legal rnd pred src P bp par depth stp d labels ls draw enc.
    Proof.
      destruct AS as [A1 A2 A3 A4 A5 A6]. destruct xpositions as (PT & _). destruct (bo_parts _ _ _ _ _ _ _ _ _ _ _ _ BO) as (_ & P2 & P3). pose proof (classes_in_ok labels) as DL. split; auto.
      - exact xsource.
      - replace (dt_count (so_rows src)) with m; [lia|]. unfold dt_count. cbn [so_rows train_source]. unfold locs, rtab. cbn [dt_data]. rewrite imap_length. unfold part. now rewrite map_length.
      - split; [apply rtab_wf|]. intros k. cbn [so_rows train_source]. unfold locs, place_labels. rewrite !rtab_key. unfold part. now rewrite map_length.
      - split; [exact DL|]. assert (X : forall l, l ∈ ls -> exists r, r ∈ grecs /\ l = text_label (r_label r)).
        { intros l Hl. apply (proj2 DL) in Hl. unfold place_labels in Hl. rewrite rtab_values in Hl. apply elem_of_lookup_imap in Hl as (i & p & -> & Hp). destruct (bo_guest _ _ _ _ _ _ _ _ _ _ _ _ BO) as [RW _ _ _ _].
          destruct (lookup_lt_is_Some_2 grecs p) as [r Hr]. { rewrite RW. rewrite Forall_forall in PT. apply PT. eapply elem_of_list_lookup_2; eauto. }
          exists r. split; [eapply elem_of_list_lookup_2; eauto|]. unfold rec_at. now rewrite Hr. }
        split.
        + right. intros l Hl. destruct (X l Hl) as (r & _ & ->). cbn. tauto.
        + destruct (bo_labels _ _ _ _ _ _ _ _ _ _ _ _ BO) as (L & LL & HL). etransitivity; [|exact LL]. rewrite <- (map_length text_label L). apply submseteq_length, NoDup_submseteq; [apply DL|].
          intros l Hl. destruct (X l Hl) as (r & Hr & ->). apply elem_of_list_fmap. exists (r_label r). auto.
    Qed.
    Lemma none_points t (OI : owners_in 0 t) h1 h2 : cut (all_points pts h1) t = cut (all_points pts h2) t.
    Proof. induction t as [w a b|w a b c gn l IHl r IHr]; [reflexivity|]. cbn [cut owners_in] in *. destruct OI as (Oc & Ol & Or). rewrite (IHl Ol), (IHr Or). destruct (ch_own c); [lia|reflexivity]. Qed.

    Context (me : party nat) (PME : party_ok (dt_keys (so_rows src)) (cfg bp par depth stp src) me) (SME : sees bp par src pts me) (OME : overwritten src me (loaded bp par depth stp src).1).
    Lemma alone_core : m < n -> exists res classes lab T right,
      fitted rnd pred lossf 0 src (fun _ => src) P bp par d labels ls draw (fun _ => draw) (fun v => v) (fun v => v) (fun x => x) Ok classes lab pts (fun _ => []) me [] T res [] /\
      right_rows te ls classes pts T (length (bs_hist res.2)) right /\
      script gen = Ok (Some (fround (zq (Z.of_nat (length right)) / zq (Z.of_nat (length te)))%Qc)).
    Proof.
      intros Hmn. destruct (alone_fit rnd pred lossf src it Hit P bp par depth stp d labels ls draw enc xlegal me PME SME OME) as (rs & classes & lab & T & EJ & FT & _ & PR).
      destruct xpositions as (PT & PE & NT & LE & NTR & NTE). specialize (NTE Hmn).
      destruct (ft_guest _ _ _ _ _ _ _ _ _ _ _ _ _ _ _ _ _ _ _ _ _ _ _ _ _ _ _ FT) as [_ (_ & OG & _)].
      pose proof (ft_shape _ _ _ _ _ _ _ _ _ _ _ _ _ _ _ _ _ _ _ _ _ _ _ _ _ _ _ FT) as SH.
      set (g' := test_source (gh ++ hh) (part recs tr) (part recs te) rs.1.1).
      assert (RG : rows_ok g').
      { apply test_rows; [|exact OG|now apply part_nil]. destruct xsheet as [RW W _ _ _]. apply part_wide; [exact W|now rewrite RW]. }
      destruct (PR g' (place_labels grecs te) threshold RG (rtab_wf _ _)) as (gh' & out & EP & _ & WO & GO).
      set (kind := if decide (length ls = 2) then Sigmoid else Softmax) in *.
      set (sc := fun pos => score_beside ls pts T (length (bs_hist rs.2)) pos).
      assert (SC : forall k pos, te !! k = Some pos -> score_of rnd P ls pts (fun _ => pts) T (length (bs_hist rs.2)) g' (fun _ => g') k = sc pos).
      { intros k pos Hk. assert (Hp : pos < n) by (rewrite Forall_forall in PE; apply PE; eapply elem_of_list_lookup_2; eauto).
        unfold sc, score_beside, score_of, scores. apply map_ext. intros c. unfold BoostSpec.score. f_equal. apply map_ext. intros r. unfold tree_at.
        destruct (T !! _) as [t|] eqn:Ht; [|reflexivity]. destruct (SH t) as [OI _]; [eapply elem_of_list_lookup_2; eauto|]. rewrite (none_points t OI (fun _ => pts) (fun _ => [])).
        apply (walk_at 0); [exact OI|]. intros [i|] f Ho; [lia|]. unfold PipeSpec.joined.
        unfold g'. rewrite (test_value (gh ++ hh) (part recs tr) (part recs te) _ OG), part_value, Hk. now apply xbeside. }
      assert (LC : length classes = length ls).
      { destruct (ft_classes _ _ _ _ _ _ _ _ _ _ _ _ _ _ _ _ _ _ _ _ _ _ _ _ _ _ _ FT) as [DC _]. apply Permutation_length. eapply distinct_perm; [exact DC|apply classes_in_ok]. }
      assert (CN : classes <> []).
      { intros ->. destruct tr as [|p0 tr0]; [congruence|]. destruct (classes_in_ok (place_labels grecs (p0 :: tr0))) as [_ DL].
        assert (X : text_label (r_label (rec_at grecs p0)) ∈ classes_in (place_labels grecs (p0 :: tr0))) by (apply DL; left).
        rewrite (nil_length_inv _ (eq_sym LC)) in X. inversion X. }
      assert (GE : forall pos, pos ∈ te -> exists r, grecs !! pos = Some r).
      { intros pos Hp. apply lookup_lt_is_Some_2. rewrite (sh_rows _ _ _ _ (bo_guest _ _ _ _ _ _ _ _ _ _ _ _ BO)). rewrite Forall_forall in PE. now apply PE. }
      destruct (counted out te (fun pos => text_label (r_label (rec_at grecs pos))) (fun pos => answer classes threshold (pred kind (sc pos))) WO NT NTE) as (right & NR & RR & AC).
      { destruct (bo_parts _ _ _ _ _ _ _ _ _ _ _ _ BO) as (_ & _ & P3). lia. }
      { intros pos _. apply answer_total; [exact CN|]. destruct (as_probs _ _ _ _ _ _ _ _ _ AS kind (sc pos)) as [-> _]. unfold sc, score_beside, scores. now rewrite map_length, seq_length, LC. }
      { intros k l c x. rewrite GO. assert (HL : holds_labels (place_labels grecs te) grecs te). { apply labels_hold. now rewrite (sh_rows _ _ _ _ (bo_guest _ _ _ _ _ _ _ _ _ _ _ _ BO)). }
        unfold holds_labels in HL. rewrite HL. split.
        - intros ((pos & r & Hk & Hr & ->) & _ & A). exists pos. unfold rec_at. rewrite Hr. rewrite (SC k pos Hk) in A. auto.
        - intros (pos & Hk & -> & A). destruct (GE pos) as [r Hr]; [eapply elem_of_list_lookup_2; eauto|]. split; [exists pos, r; unfold rec_at; rewrite Hr; auto|].
          split. { unfold g', test_source. cbn [so_rows]. unfold locs. rewrite rtab_key. unfold part. rewrite map_length. eapply lookup_lt_Some; eauto. }
          rewrite (SC k pos Hk). exact A. }
      exists rs, classes, lab, T, right. split.
      { destruct FT as [F1 F2 F3 F4 F5 F6 F7 F8 F9]. split; auto.
        - destruct F5 as (? & ? & _). split; [done|]. split; [done|]. intros i p r Hp. discriminate Hp.
        - intros q x Hx. destruct (F9 q x Hx) as (y & yp & Y1 & Y2 & Y3 & Y4 & Y5). exists y, yp. split; [exact Y1|]. split; [exact Y2|]. split; [exact Y3|]. split; [exact Y4|]. intros k v. rewrite Y5.
          replace (score_of rnd P ls pts (fun _ => []) T (S q) src (fun _ => src) k) with (score_of rnd P ls pts (fun _ => pts) T (S q) src (fun _ => src) k); [reflexivity|].
          unfold score_of, scores. apply map_ext. intros c. unfold BoostSpec.score. f_equal. apply map_ext. intros r. unfold tree_at.
          destruct (T !! _) as [t|] eqn:Ht; [|reflexivity]. destruct (SH t) as [OI _]; [eapply elem_of_list_lookup_2; eauto|]. now rewrite (none_points t OI (fun _ => pts) (fun _ => [])). }
      split.
      { split; [exact NR|]. intros pos. rewrite RR. split.
        - intros (Hp & x & A). split; [exact Hp|]. destruct (GE pos Hp) as [r Hr]. exists r, x. split; [exact Hr|]. unfold rec_at in A. rewrite Hr in A. exact A.
        - intros (Hp & r & x & Hr & A). split; [exact Hp|]. exists x. unfold rec_at. rewrite Hr. exact A. }
      unfold xgb_script. destruct BO as [B1 B2 B3 B4 B5 B6 B7 B8 B9 B10].
      rewrite (xgb_tables_eq seeded below py_float gfile hfile gh hh grecs hrecs B2 B4 (sh_numbers _ _ _ _ B1) (sh_numbers _ _ _ _ B3) ratio gen tr te g1).
      2: { rewrite (sh_rows _ _ _ _ B1), (sh_rows _ _ _ _ B3). exact B5. }
      2: { rewrite (sh_rows _ _ _ _ B1). exact SP. }
      cbn [mbind res_bind fst snd]. cbv zeta. rewrite !inst_labels_eq. cbn [mbind res_bind]. rewrite !glue_labels, inst_heap_eq, !inst_locs_eq, !feats_guest, count_eq.
      rewrite (locs_len _ 0 1 ltac:(lia) tr eq_refl 0 (map guest_inst (map (rec_at recs) tr)) (part recs tr)), (locs_len _ 0 1 ltac:(lia) tr eq_refl _ (map guest_inst (map (rec_at recs) te)) (part recs te)) by (unfold part; now rewrite !map_length).
      cbn [so_header so_heap so_rows train_source] in EJ. rewrite EJ. cbn [mbind res_bind].
      unfold g' in EP. cbn [so_heap so_rows test_source] in EP. rewrite EP. cbn [mbind res_bind snd]. exact AC.
    Qed.
  End Proof.

  (** The program prints the accuracy described above. *)
  Theorem C70_accuracy gen : both_ok py_float bp n n' m ratio gfile gh grecs hfile hh hrecs -> alone_settings rnd pred P par depth stp d draw enc -> in_range below -> it <> IOther -> m < n ->
    alone_outcome (script gen).
  Proof.
    intros BO AS IR Hit Hmn. destruct (data_split_ok seeded below (seq 0 n) ratio true (Some 2%Z) gen IR) as (tr & te & g1 & SP & PM & HL).
    assert (LT : length tr = m). { rewrite HL, seq_length. rewrite (offset_eq _ _ _ _ _ _ _ _ _ _ _ _ (xfiles BO)). destruct (bo_parts _ _ _ _ _ _ _ _ _ _ _ _ BO). lia. }
    pose proof (xsource BO tr te PM LT) as SO.
    destruct (loaded_ok bp par depth stp _ SO) as (_ & SE & OV & PO & _).
    destruct (alone_core BO AS Hit tr te PM LT gen g1 SP _ PO SE OV Hmn) as (rs & classes & lab & T & right & FT & RR & EQ).
    exists tr, te, (train_source (gh ++ hh) (part (glue grecs hrecs) tr) (part (glue grecs hrecs) te)), (place_labels grecs tr), (classes_in (place_labels grecs tr)), rs, classes, lab,
      (pts_of bp par depth stp (train_source (gh ++ hh) (part (glue grecs hrecs) tr) (part (glue grecs hrecs) te))), (pty bp par depth stp (train_source (gh ++ hh) (part (glue grecs hrecs) tr) (part (glue grecs hrecs) te))), T, right.
    split; [exact PM|]. split; [exact LT|]. split; [now apply xholds|]. split. { destruct (xpositions BO tr te PM LT) as (PT & _). apply labels_hold. now rewrite (sh_rows _ _ _ _ (bo_guest _ _ _ _ _ _ _ _ _ _ _ _ BO)). }
    split; [apply classes_in_ok|]. auto.
  Qed.
  (** A second file with fewer rows: IndexError, before anything is trained. *)
  Theorem C70_short_host gen :
    (exists i y, grid ((i :: y :: gh) :: map with_label grecs) /\ stored ((i :: y :: gh) :: map with_label grecs) gfile) -> (exists c, grid ((c :: hh) :: map without_label hrecs) /\ stored ((c :: hh) :: map without_label hrecs) hfile) ->
    Forall (denotes py_float) grecs -> Forall (denotes py_float) hrecs -> length hrecs < length grecs -> script gen = Err IndexError.
  Proof. intros A B D F L. unfold xgb_script. now rewrite (xgb_tables_short seeded below py_float gfile hfile gh hh grecs hrecs A B D F ratio gen L). Qed.
End Xgb.
Print Assumptions C70_accuracy.
Print Assumptions C70_short_host.

(** *** Columns of the same name *)
Section Names.
  Context {K N : Type} `{EqDecision K} `{EqDecision N} (bp : bin_params) (par : sparams) (depth stp : nat).
  Lemma points_at (sps : dict N (list Qc)) header cols r r' : foldM (fun r i => c ← list_index header i; sp ← dict_index c sps; Ok (dict_set i (get_bin_num (zq 0) sp) r)) r cols = Ok r' ->
    forall i, i ∈ cols -> exists c sp, header !! i = Some c /\ dict_get c sps = Some sp.
  Proof.
    revert r. induction cols as [|x cols IH]; intros r EF i Hi; [inversion Hi|]. cbn [foldM] in EF. unfold list_index in EF. destruct (header !! x) as [c|] eqn:Ec; [|discriminate]. cbn [mbind res_bind] in EF.
    unfold dict_index in EF. destruct (dict_get c sps) as [sp|] eqn:Es; [|discriminate]. cbn [mbind res_bind] in EF. apply elem_of_cons in Hi as [->|Hi]; [eauto|]. exact (IH _ EF i Hi).
  Qed.
  Lemma omap_at {A B} (f : A -> option B) (l : list A) : (forall (i : nat) a, l !! i = Some a -> exists b, f a = Some b) -> forall (i : nat) a, l !! i = Some a -> omap f l !! i = f a.
  Proof.
    induction l as [|x l IH]; intros HF i a Hi; [discriminate|]. destruct (HF 0 x eq_refl) as [b Hb]. cbn. rewrite Hb. destruct i as [|i]; [injection Hi as <-; now rewrite Hb|]. apply IH; [|exact Hi]. intros k c Hk. exact (HF (S k) c Hk).
  Qed.
  (** Columns of the same name get the same split points, whatever is in them. *)
  Theorem C70_same_name (header : list N) (h : list feats) (t : dtable K nat) r i j a : load bp par depth stp header h t = Ok r -> header !! i = Some a -> header !! j = Some a ->
    exists p, c_points r.2 !! i = Some p /\ c_points r.2 !! j = Some p.
  Proof.
    unfold load, prepare. intros EL Hi Hj. destruct (data_alignment h t) as [ht|]; [|discriminate]. cbn [mbind res_bind] in EL. destruct (rows_of ht.1 ht.2) as [rows|] eqn:ER; [|discriminate]. cbn [mbind res_bind] in EL.
    destruct (fit_split_points bp header rows) as [sps|]; [|discriminate]. cbn [mbind res_bind] in EL. unfold convert_feature_to_bin in EL. rewrite ER in EL. cbn [mbind res_bind] in EL.
    destruct (match rows with FSparse _ _ :: _ => Ok true | FDense _ :: _ => Ok false | [] => Err AttributeError end) as [sp|]; [|discriminate]. cbn [mbind res_bind] in EL.
    destruct (heap_mapValues _ _ _) as [ht'|]; [|discriminate]. cbn [mbind res_bind] in EL. destruct (get_sparse_bin _ _ _) as [bs|] eqn:EB; [|discriminate]. cbn [mbind res_bind fst snd] in EL.
    destruct (view _ _ _) as [data|]; [|discriminate]. cbn [mbind res_bind] in EL. injection EL as <-. cbn [snd c_points].
    assert (X : forall i a, header !! i = Some a -> exists b, dict_get a sps = Some b).
    { intros k c Hk. unfold get_sparse_bin in EB. destruct (points_at sps header _ _ _ EB k) as (c' & b & Hc & Hb); [apply elem_of_seq; apply lookup_lt_Some in Hk; lia|]. exists b. congruence. }
    unfold split_points_result. destruct (X i a Hi) as [p Hp]. exists p. rewrite (omap_at _ _ X i a Hi), (omap_at _ _ X j a Hj). auto.
  Qed.
End Names.
Print Assumptions C70_same_name.

(** ** Examples *)
Definition xex_gfile (recs : list (record Qc)) : text := file_of [NL] (map line_of ([[105]; [121]; [120]] :: map with_label recs))%Z [].
Definition xex_hfile (name : Z) (recs : list (record Qc)) : text := file_of [NL] (map line_of ([[105]; [name]] :: map without_label recs))%Z [].
Definition xex_grecs : list (record Qc) := [sex_rec 97 48 52; sex_rec 98 49 52; sex_rec 99 48 52; sex_rec 100 49 52; sex_rec 101 48 52; sex_rec 102 49 52].
Definition xex_hrecs : list (record Qc) := [sex_rec 97 48 50; sex_rec 98 48 51; sex_rec 99 48 50; sex_rec 100 48 51; sex_rec 101 48 50; sex_rec 102 48 51].
Definition xex_script (hfile : text) : res (option Qc) :=
  xgb_script (C := Qc) (fun x => x) bex_pred bex_loss (bex_par 2 false) pex_bp pex_par 3 4 (fun _ => 1) sex_below sex_float IGain (fun _ _ => bex_draw) (fun _ => Ok) (Q2Qc (1 # 2)) (xex_gfile xex_grecs) hfile (Q2Qc (2 # 3)) 7.
Lemma xex_stored name recs : InputSpec.grid ([[105]; [name]]%Z :: map without_label recs) -> exists c, InputSpec.grid ((c :: [[name]]) :: map without_label recs) /\ InputSpec.stored ((c :: [[name]]) :: map without_label recs) (xex_hfile name recs).
Proof. intros GR. exists [105%Z]. split; [exact GR|]. apply (stored_full _ [NL]). now left. Qed.
Lemma xex_guest : exists i y, InputSpec.grid ((i :: y :: [[120%Z]]) :: map with_label xex_grecs) /\ InputSpec.stored ((i :: y :: [[120%Z]]) :: map with_label xex_grecs) (xex_gfile xex_grecs).
Proof. exists [105%Z], [121%Z]. split; [apply grid_dec; vm_compute; reflexivity|]. apply (stored_full _ [NL]). now left. Qed.
(** The hypotheses of C70_accuracy. *)
Example C70_ex : both_ok sex_float pex_bp 6 6 4 (Q2Qc (2 # 3)) (xex_gfile xex_grecs) [[120%Z]] xex_grecs (xex_hfile 122 xex_hrecs) [[122%Z]] xex_hrecs /\
  alone_settings fround bex_pred (bex_par 2 false) pex_par 3 4 2 (fun _ _ => bex_draw) (fun _ => @Ok (dtable nat (Qc * Qc))) /\ in_range sex_below.
Proof.
  split; [|split; [|exact below_ok]].
  - destruct C66_ex as (FO & _). destruct FO as [_ _ _ _ F1 F2 F3 _]. split; auto.
    + apply sex_sheet; [reflexivity|vm_compute; reflexivity].
    + exact xex_guest.
    + apply sex_sheet; [reflexivity|vm_compute; reflexivity].
    + apply xex_stored. apply grid_dec. vm_compute. reflexivity.
    + split; [apply NoDup_cons; split; [rewrite elem_of_list_singleton; discriminate|apply NoDup_singleton]|vm_compute; discriminate].
    + exists [[48%Z]; [49%Z]]. split; [cbn; lia|]. intros r Hr. unfold xex_grecs in Hr. repeat rewrite elem_of_cons in Hr. rewrite elem_of_nil in Hr. destruct Hr as [->|[->|[->|[->|[->|[->|[]]]]]]]; cbn; repeat rewrite elem_of_cons; tauto.
  - destruct (sex_settings fround fround_rnd_ok) as [_ _ _ A1 A2 [A3 _] A4 A5]. split; auto. intros j gs _ _. eauto.
Qed.
Lemma printed_eq (r : res (option Qc)) (x : Qc) : match r with Ok (Some a) => this a = this x | _ => False end -> r = Ok (Some x).
Proof. destruct r as [[a|]|]; [|intros []|intros []]. intros E. do 2 f_equal. apply Qc_is_canon. now rewrite E. Qed.
Example C70_accuracy_ex : xex_script (xex_hfile 122 xex_hrecs) = Ok (Some (zq 1)).
Proof. apply printed_eq. vm_compute. reflexivity. Qed.
(** The same two files, the host's column with the guest's name: half of the answers are wrong. *)
Theorem C70_same_name_refuted : exists hfile hfile' (recs : list (record Qc)) c, InputSpec.stored ((c :: [[122%Z]]) :: map without_label recs) hfile /\ InputSpec.stored ((c :: [[120%Z]]) :: map without_label recs) hfile' /\
  xex_script hfile = Ok (Some (zq 1)) /\ xex_script hfile' = Ok (Some (Q2Qc (1 # 2))).
Proof.
  exists (xex_hfile 122 xex_hrecs), (xex_hfile 120 xex_hrecs), xex_hrecs, [105%Z]. split; [apply (stored_full _ [NL]); now left|]. split; [apply (stored_full _ [NL]); now left|].
  split; [exact C70_accuracy_ex|]. apply printed_eq. vm_compute. reflexivity.
Qed.
Print Assumptions C70_same_name_refuted.
(** The hypotheses of C70_short_host. *)
Example C70_short_host_ex : (exists c, InputSpec.grid ((c :: [[122%Z]]) :: map without_label (take 5 xex_hrecs)) /\ InputSpec.stored ((c :: [[122%Z]]) :: map without_label (take 5 xex_hrecs)) (xex_hfile 122 (take 5 xex_hrecs))) /\
  length (take 5 xex_hrecs) < length xex_grecs /\ xex_script (xex_hfile 122 (take 5 xex_hrecs)) = Err IndexError.
Proof. split; [apply xex_stored, grid_dec; vm_compute; reflexivity|]. split; [cbn; lia|vm_compute; reflexivity]. Qed.
